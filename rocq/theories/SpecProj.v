(** What C77 says, in terms of calls of Projector objects. *)
From Coq Require Import ZArith String List.
From Verif Require Import Outcome Float Projector.
Import ListNotations.
Open Scope Z_scope.

(** A call of object [o]: project a longitude and latitude, or inverse project. *)
Inductive pcall := Project (o : nat) (lon lat : f64) | Unproject (o : nat) (x y : f64).
Definition object (c : pcall) : nat := match c with Project o _ _ | Unproject o _ _ => o end.

Section Spec.
Variable P : pj.

(** The error number that the library's transformation of this location gives. *)
Definition error_of (c : pcall) : Z :=
  match c with
  | Project _ lon lat => snd (pj_trans P Forward (pj_torad P lon) (pj_torad P lat))
  | Unproject _ x y => snd (pj_trans P Inverse x y)
  end.
Definition fails (c : pcall) : Prop := error_of c <> 0.

(** The coordinates that belong to the location: the library works in radians, the
    object in degrees. *)
Definition coordinates (c : pcall) (a b : f64) : Prop :=
  match c with
  | Project _ lon lat => fst (pj_trans P Forward (pj_torad P lon) (pj_torad P lat)) = (a, b)
  | Unproject _ x y => exists u v, fst (pj_trans P Inverse x y) = (u, v) /\ a = pj_todeg P u /\ b = pj_todeg P v
  end.

(** The text of the exception for error number [n]. *)
Definition complaint (c : pcall) (n : Z) : string :=
  (match c with
  | Project _ lon lat => "Error while projecting location." ++ NL ++ "  " ++ pj_text P n ++ NL ++
      "  longitude: " ++ pj_gen P lon ++ NL ++ "  latitude: " ++ pj_gen P lat ++ NL
  | Unproject _ x y => "Error while inverse projecting location." ++ NL ++ "  " ++ pj_text P n ++ NL ++
      "  x: " ++ pj_gen P x ++ NL ++ "  y: " ++ pj_gen P y ++ NL
  end)%string.

(** Whether object [o] has the same error number as [c]'s. *)
Definition common (o : nat) (c : pcall) : Prop := pj_shared P = true \/ object c = o.

(** [n] is the error of the last transformation that failed before, among those whose
    error number object [o] sees. *)
Definition left_behind (o : nat) (before : list pcall) (n : Z) : Prop :=
  exists b1 c b2, before = b1 ++ c :: b2 /\ common o c /\ fails c /\ error_of c = n /\
    forall c', In c' b2 -> common o c' -> ~ fails c'.
(** No transformation that object [o] can see has failed. *)
Definition untroubled (o : nat) (before : list pcall) : Prop :=
  forall c, In c before -> common o c -> ~ fails c.
End Spec.
