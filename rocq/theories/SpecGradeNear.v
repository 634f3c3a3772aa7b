(** Specification vocabulary for C85: how far changes of the input reach when gradients are
    limited. *)
From Coq Require Import ZArith Bool Reals.
From Verif Require Import Float Payload SpecGeom SpecQuery SpecGrade.
Open Scope R_scope.

(** The largest difference in speed the limits [dv] and [dh] allow between two points of the
    grid: so much for every step up or down, so much for every step along the length or the
    width. *)
Definition reach (dv dh : R) (l w h l' w' h' : Z) : R :=
  dv * IZR (Z.abs (h - h')) + dh * IZR (Z.abs (l - l') + Z.abs (w - w')).

(** Two answers for the same place: no data in both, or shear speeds in both, and the first
    is above the second by at most [e]. *)
Definition above_by (e : R) (ans ans' : payload) : Prop :=
  (flt (p_vs ans) f_zero = true /\ flt (p_vs ans') f_zero = true) \/
  (finite_float (p_vs ans) /\ 0 <= value (p_vs ans) /\ finite_float (p_vs ans') /\ 0 <= value (p_vs ans') /\
   value (p_vs ans) <= value (p_vs ans') + e).
