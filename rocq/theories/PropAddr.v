(** C01: ancestor octants contain their descendants. *)
From Coq Require Import ZArith List String.
From Verif Require Import Outcome Addr SpecOct AddrFacts.
Import ListNotations.
Open Scope Z_scope.

(** For every aligned octant with 32-bit ticks and every coarser level, the
    computed ancestor is an aligned octant of that level whose cube contains the
    cube of the given octant, and it is the only one. *)
Theorem C01_ancestor_contains : forall c l,
  octant32 c -> 0 <= l < a_level c ->
  exists a, findAncestor c l = Val a /\ octant32 a /\ a_level a = l /\ a_t a = 0 /\
            a_type a = Interior /\ covers a c /\
            (forall b, octant32 b -> a_level b = l -> covers b c -> same_octant a b).
Proof. exact findAncestor_spec32. Qed.
Print Assumptions C01_ancestor_contains.

(** The ancestor of an octant inside the root is inside the root. *)
Theorem C01_ancestor_in_root : forall c l,
  octant_ok c -> 0 <= l < a_level c ->
  exists a, findAncestor c l = Val a /\ octant_ok a /\ a_level a = l /\
            a_type a = Interior /\ covers a c /\
            (forall b, octant_ok b -> a_level b = l -> covers b c -> same_octant a b).
Proof. exact findAncestor_spec. Qed.
Print Assumptions C01_ancestor_in_root.

(** Ancestors of ancestors are ancestors (any 32-bit ticks, aligned or not). *)
Theorem C01_ancestor_of_ancestor : forall c k j a,
  (forall t, In t [a_x c; a_y c; a_z c] -> 0 <= t < 2 ^ 32) -> a_level c <= 31 ->
  0 <= j < k -> findAncestor c k = Val a -> findAncestor a j = findAncestor c j.
Proof. exact findAncestor_compose. Qed.
Print Assumptions C01_ancestor_of_ancestor.

(** A level that is not strictly coarser trips the assertion. *)
Theorem C01_bad_level_aborts : forall c l,
  ~ (0 <= l < a_level c) -> findAncestor c l = Abort.
Proof. exact findAncestor_bad_level. Qed.
Print Assumptions C01_bad_level_aborts.

(** A level-12 octant (side 2^19) with corner (7*2^19, 5*2^19, 2^30+2^19). *)
Definition C01_child : addr := mkAddr (7 * 2^19) (5 * 2^19) (2^30 + 2^19) 0 12 Leaf.
Example C01_nonvacuous :
  octant_ok C01_child /\ octant32 C01_child /\
  findAncestor C01_child 10 = Val (mkAddr (4 * 2^19) (4 * 2^19) (2^30) 0 10 Interior).
Proof.
  assert (A : octant_ok C01_child).
  { split; [cbv; split; discriminate|]. split; [reflexivity|].
    intros c [<-|[<-|[<-|[]]]]; (split; [cbv; split; congruence|]).
    - exists 7; reflexivity.
    - exists 5; reflexivity.
    - exists (2^11 + 1); reflexivity. }
  split; [exact A|]. split; [|reflexivity].
  destruct A as (A & _ & B). split; [exact A|]. intros c H. destruct (B c H) as [[C D] E].
  split; [split; [exact C | eapply Z.lt_trans; [exact D | reflexivity]] | exact E].
Qed.
