(** What averaging a database means for the octants of the result, in terms of the
    input alone. *)
From Coq Require Import ZArith Bool Sorting.Sorted List.
From Verif Require Import Float Payload Addr SpecOct SpecAvg SpecQuery.
Import ListNotations.
Open Scope Z_scope.

Section E2E.
Variable inp : list (addr * payload).

(** An octant with input inside. *)
Definition above_input (b : addr) : Prop := exists a, In a (map fst inp) /\ ancestor_of b a.
(** An octant that is input or has input inside. *)
Definition populated (b : addr) : Prop :=
  above_input b \/ exists a, In a (map fst inp) /\ same_octant b a.

(** Recursive mean: an input octant has its own values; an octant with input inside
    has the mean over its populated children, taken in the order of the tree. *)
Inductive averaged : addr -> payload -> Prop :=
| averaged_input a p : In (a, p) inp -> averaged a p
| averaged_mean b p (kids : list (addr * payload)) : octant_ok b -> above_input b ->
    StronglySorted etree_lt (map fst kids) ->
    (forall c, octant_ok c ->
       ((exists k, In k (map fst kids) /\ same_octant c k) <->
        populated c /\ a_level c = a_level b + 1 /\ covers b c)) ->
    (forall k v, In (k, v) kids -> averaged k v) ->
    mean_payload (map snd kids) p -> averaged b p.

(** Answers in terms of the input. *)
Definition finest_input (w : place) (ans : payload) : Prop :=
  (exists a, In (a, ans) inp /\ holds a w) \/
  (ans = no_data /\ forall a p, In (a, p) inp -> ~ holds a w).
Definition input_at_level (l : Z) (w : place) (ans : payload) : Prop :=
  (exists a, In (a, ans) inp /\ holds a w /\ a_level a <= l) \/
  (exists b, octant_ok b /\ a_level b = l /\ holds b w /\ above_input b /\ averaged b ans) \/
  (ans = no_data /\ (forall a p, In (a, p) inp -> holds a w -> l < a_level a) /\
   forall b, octant_ok b -> a_level b = l -> holds b w -> ~ above_input b).

(** The smallest octant around the location that has input inside. *)
Definition smallest_above (w : place) (b : addr) : Prop :=
  octant_ok b /\ above_input b /\ holds b w /\
  forall b', octant_ok b' -> above_input b' -> holds b' w -> a_level b' <= a_level b.
(** Going up one level at a time while the octants are too fine for the period; the
    answer is half way between the last two octants. *)
Inductive coarsened (period : f64) : payload -> addr -> payload -> payload -> Prop :=
| coarsened_here prev h v : ~ too_fine period h v -> coarsened period prev h v (halfway prev v)
| coarsened_up prev h v h' v' ans : too_fine period h v ->
    octant_ok h' -> a_level h' = a_level h - 1 -> covers h' h -> averaged h' v' ->
    coarsened period v h' v' ans -> coarsened period prev h v ans.
Definition input_for_period (period : f64) (w : place) (ans : payload) : Prop :=
  (exists a p, In (a, p) inp /\ holds a w /\ coarsened period p a p ans) \/
  ((forall a p, In (a, p) inp -> ~ holds a w) /\
   exists b v, smallest_above w b /\ averaged b v /\
     ((flt period (crossing_time b v) = true /\ ans = no_data) \/
      (flt period (crossing_time b v) = false /\ coarsened period v b v ans))).
End E2E.

(** The database that a query object has open holds the records [recs], there is no
    extended database, and the storage library meets its contract. *)
From Verif Require Import VMQuery.
Definition serves {DB} (E : env DB) (q : qstate DB) (recs : list (addr * payload)) : Prop :=
  q_dbExt q = None /\ exists d, q_db q = Some d /\ searches (e_search E d) recs.
