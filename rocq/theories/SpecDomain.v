(** Specification vocabulary for the grid that a domain describes: its corner, its edges
    and the distance between points. *)
From Coq Require Import ZArith Reals.
From Verif Require Import Float Addr SpecOct SpecGeom.
Open Scope R_scope.

(** [n] points, [res] apart and the first one at the start, cover an edge of length [len]:
    the last point is on the edge (up to a relative rounding of 2^-50) and one more would
    not be. *)
Definition fills (n : Z) (len res : R) : Prop :=
  (1 <= n)%Z /\ IZR (n - 1) * res * (1 - / 2 ^ 50) <= len < IZR n * res.

(** Point (l, w, h) of the grid: [l] steps of [H] metres along the length of the domain,
    whose azimuth has cosine [c] and sine [s], [w] steps along its width, 90 degrees
    clockwise, and [h] steps of [V] metres down. *)
Definition grid_x (c s x0 H : R) (l w : Z) : R := x0 + IZR l * H * s + IZR w * H * c.
Definition grid_y (c s y0 H : R) (l w : Z) : R := y0 + IZR l * H * c - IZR w * H * s.
Definition grid_z (z0 V : R) (h : Z) : R := z0 - IZR h * V.

(** Azimuth of the length of the domain: 36.362 degrees west of north. *)
Definition length_azimuth : R := - (36362 / 1000) * PI / 180.

(** The octant spans the coordinate along one axis up to half a millimetre. *)
Definition spans_mm (t l : Z) (v : R) : Prop :=
  IZR t * tick - / 2000 <= v <= IZR (t + side l) * tick + / 2000.
(** The coordinate is in the octant and at least a millimetre away from its faces. *)
Definition well_inside (t l : Z) (v : R) : Prop :=
  IZR t * tick + / 1000 <= v <= IZR (t + side l) * tick - / 1000.

(** The inverse projection works within 5000 km of the origin of the map. *)
Definition inverse_works (inv : f64 -> f64 -> option (f64 * f64)) : Prop :=
  forall x y, finite_double x -> finite_double y -> Rabs (value x) <= 5000000 -> Rabs (value y) <= 5000000 ->
    inv x y <> None.
