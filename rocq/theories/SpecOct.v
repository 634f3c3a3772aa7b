(** Specification vocabulary for octants, independent of the code.

    The root cube has side 2^31 ticks.  An octant of level l has side
    2^(31-l), its corner is a multiple of its side, and it lies in the root. *)
From Coq Require Import ZArith Bool List.
From Verif Require Import Addr.
Import ListNotations.
Open Scope Z_scope.

Definition side (l : Z) : Z := 2 ^ (31 - l).

(** A well-formed octant address. *)
Definition octant_ok (a : addr) : Prop :=
  0 <= a_level a <= 31 /\ a_t a = 0 /\
  (forall c, In c [a_x a; a_y a; a_z a] ->
     0 <= c < 2 ^ 31 /\ (side (a_level a) | c)).

(** The half-open cube of [a] contains the half-open cube of [b]. *)
Definition covers (a b : addr) : Prop :=
  a_x a <= a_x b /\ a_x b + side (a_level b) <= a_x a + side (a_level a) /\
  a_y a <= a_y b /\ a_y b + side (a_level b) <= a_y a + side (a_level a) /\
  a_z a <= a_z b /\ a_z b + side (a_level b) <= a_z a + side (a_level a).

(** [a] is a strictly coarser octant that contains [b]. *)
Definition ancestor_of (a b : addr) : Prop := a_level a < a_level b /\ covers a b.

(** Same place and size (the leaf/interior flag is not part of the place). *)
Definition same_octant (a b : addr) : Prop :=
  a_x a = a_x b /\ a_y a = a_y b /\ a_z a = a_z b /\ a_level a = a_level b.

(** Child number 0..7 (x in bit 0, y in bit 1, z in bit 2) chosen at depth i
    (1-based) on the way from the root to the octant. *)
Definition digit (a : addr) (i : Z) : Z :=
  let b c := if Z.testbit c (31 - i) then 1 else 0 in
  4 * b (a_z a) + 2 * b (a_y a) + b (a_x a).

(** The path from the root: one child number per level. *)
Definition path_of (a : addr) : list Z :=
  map (fun i => digit a (Z.of_nat i)) (seq 1 (Z.to_nat (a_level a))).

(** etree order: preorder, i.e. lexicographic on paths, ancestors first. *)
Fixpoint path_lt (p q : list Z) : Prop :=
  match p, q with
  | [], [] => False
  | [], _ :: _ => True
  | _ :: _, [] => False
  | a :: p', b :: q' => a < b \/ (a = b /\ path_lt p' q')
  end.
Definition etree_lt (a b : addr) : Prop := path_lt (path_of a) (path_of b).

(** Address of the octant at the end of a path. *)
Fixpoint ticks (ax : Z) (l : Z) (p : list Z) : Z :=
  match p with
  | [] => 0
  | d :: r => (if Z.testbit d ax then 2 ^ (31 - (l + 1)) else 0) + ticks ax (l + 1) r
  end.
Definition addr_of (p : list Z) (ty : otype) : addr :=
  mkAddr (ticks 0 0 p) (ticks 1 0 p) (ticks 2 0 p) 0 (Z.of_nat (length p)) ty.

Definition path_ok (p : list Z) : Prop :=
  (length p <= 31)%nat /\ Forall (fun d => 0 <= d < 8) p.

(** An aligned octant whose corner has 32-bit unsigned ticks, not necessarily
    inside the root (a location on an upper face of the domain has such an
    address). *)
Definition octant32 (a : addr) : Prop :=
  0 <= a_level a <= 31 /\
  (forall c, In c [a_x a; a_y a; a_z a] ->
     0 <= c < 2 ^ 32 /\ (side (a_level a) | c)).
