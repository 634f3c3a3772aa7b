(** Specification vocabulary for the geometry: the root cube is 1638400 m long
    (elevations are exaggerated by 4, and the top is at 12800 m), an octant of
    level l has edge 1638400 / 2^l, and one tick is 1638400 / 2^31. *)
From Coq Require Import ZArith Reals List.
From Flocq Require Import Core BinarySingleNaN.
From Verif Require Import Float Addr SpecOct.
Open Scope R_scope.

Definition root : R := 1638400.
Definition tick : R := root / 2 ^ 31.

(** The machine double [c] is a finite number. *)
Definition double (c : f64) : Prop := valid_binary prec64 emax64 c = true.
Definition finite_double (c : f64) : Prop := double c /\ is_fin c = true.
Definition value (c : f64) : R := SF2R radix2 c.

(** Coordinate strictly inside, on the upper face of, outside the root cube. *)
Definition inside (c : f64) : Prop := finite_double c /\ 0 <= value c < root.
Definition on_upper_face (c : f64) : Prop := finite_double c /\ value c = root.
Definition outside (c : f64) : Prop :=
  double c /\ (c = S754_infinity true \/ c = S754_infinity false \/
               (is_fin c = true /\ (value c < 0 \/ root < value c))).

(** The octant with lower tick [t] at level [l] contains the coordinate, along one
    axis. *)
Definition spans (t l : Z) (c : f64) : Prop :=
  IZR t * tick <= value c < IZR (t + side l) * tick.

(** [y] approximates the natural logarithm of [x] with relative error at most
    [eps]. *)
Definition log_within (eps : R) (x y : f64) : Prop :=
  finite_double y /\ Rabs (value y - ln (value x)) <= eps * Rabs (ln (value x)).

(** log2 of the ratio between the edge of the root cube and a resolution. *)
Definition log2_ratio (res : f64) : R := ln (root / value res) / ln 2.

(** ** Placement of the root cube on the map *)
(** Corner of the root cube in projected coordinates, for an azimuth with cosine
    [c] and sine [s]: the north-west corner of the detailed model, shifted by the
    buffers of 409.6 km and 204.8 km. *)
Definition corner_x (c s : R) : R := - (74937817 / 1000) - 409600 * c - 204800 * s.
Definition corner_y (c s : R) : R := 380186124 / 1000 + 409600 * s - 204800 * c.

(** Coordinates along the edges of the root cube of a point of the map, and the
    point of the map with given coordinates. *)
Definition map_to_p (c s x y : R) : R := (x - corner_x c s) * c - (y - corner_y c s) * s.
Definition map_to_q (c s x y : R) : R := (x - corner_x c s) * s + (y - corner_y c s) * c.
Definition map_x (c s p q : R) : R := corner_x c s + p * c + q * s.
Definition map_y (c s p q : R) : R := corner_y c s - p * s + q * c.

(** [c] and [s] are acceptable machine values of a cosine and a sine. *)
Definition unit_vector (c s : f64) : Prop :=
  finite_double c /\ finite_double s /\ Rabs (value c) <= 1 /\ Rabs (value s) <= 1 /\
  Rabs (value c * value c + value s * value s - 1) <= / 10 ^ 15.

(** The first edge of the root cube points 53.638 degrees to the south of east. *)
Definition azimuth : R := 53638 / 1000 * PI / 180.
(** The machine cosine and sine at [x] are within [-1, 1] and accurate to 2^-53. *)
Definition trig_at (cosf sinf : f64 -> f64) (x : f64) : Prop :=
  finite_double (cosf x) /\ finite_double (sinf x) /\ Rabs (value (cosf x)) <= 1 /\ Rabs (value (sinf x)) <= 1 /\
  Rabs (value (cosf x) - cos (value x)) <= / 2 ^ 53 /\ Rabs (value (sinf x) - sin (value x)) <= / 2 ^ 53.

(** Coordinate of the centre of an octant along one axis. *)
Definition centre_of (t l : Z) : R := (IZR t + IZR (side l) / 2) * tick.

(** The map projection and its inverse undo each other up to 5e-5 m. *)
Definition projection_inverts (proj inv : f64 -> f64 -> option (f64 * f64)) : Prop :=
  forall x y lon lat, finite_double x -> finite_double y ->
    Rabs (value x) <= 5000000 -> Rabs (value y) <= 5000000 ->
    inv x y = Some (lon, lat) ->
    exists x' y', proj lon lat = Some (x', y') /\ finite_double x' /\ finite_double y' /\
      Rabs (value x' - value x) <= / 20000 /\ Rabs (value y' - value y) <= / 20000 /\
      Rabs (value x') <= 5000000 /\ Rabs (value y') <= 5000000.
