(** Two databases with the same octants, compared octant by octant. *)
From Coq Require Import ZArith Bool Reals List.
From Flocq Require Import Core BinarySingleNaN.
From Verif Require Import Float Payload Addr SpecAvg SpecRange.
Import ListNotations.

(** Both rock, both water, or both without data. *)
Definition same_kind (x y : payload) : Prop := solid x = solid y /\ (solid x = false -> water x = water y).
Definition has_data (x : payload) : Prop := solid x = true \/ water x = true.

(** Where there is data, one property is not higher in the first, or differs by at
    most [e]. *)
Definition lower (f : prop6) (x y : payload) : Prop :=
  has_data x -> (real_of (get6 f x) <= real_of (get6 f y))%R.
Definition within (f : prop6) (e : R) (x y : payload) : Prop :=
  has_data x -> (Rabs (real_of (get6 f x) - real_of (get6 f y)) <= e)%R.

(** The same octants, of the same kind, with values that compare like that. *)
Definition paired (C : payload -> payload -> Prop) (m1 m2 : list (addr * payload)) : Prop :=
  map fst m1 = map fst m2 /\
  forall a x y, In (a, x) m1 -> In (a, y) m2 -> same_kind x y /\ C x y.

(** No magnitude of the property above [M] where there is data. *)
Definition at_most (f : prop6) (M : R) (m : list (addr * payload)) : Prop :=
  forall a x, In (a, x) m -> has_data x -> (Rabs (real_of (get6 f x)) <= M)%R.
