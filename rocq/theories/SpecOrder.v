(** What C79 says about the octants that queries of different resolution are answered
    from. *)
From Coq Require Import ZArith Bool Reals List.
From Flocq Require Import Core BinarySingleNaN.
From Verif Require Import Float Payload Addr SpecOct SpecGeom SpecQuery.
Import ListNotations.
Open Scope Z_scope.

(** Every stored octant below the root has a stored parent (true of averaged databases). *)
Definition complete (db : contents) : Prop :=
  forall h v, In (h, v) db -> 0 < a_level h ->
  exists h' v', In (h', v') db /\ a_level h' = a_level h - 1 /\ covers h' h.

(** Stored values are single precision numbers. *)
Definition singles (db : contents) : Prop :=
  forall h v, In (h, v) db -> forall f, valid_binary prec32 emax32 (get6 f v) = true.

(** The octant that has data for level [l] at location [w]. *)
Definition fixed_octant (db : contents) (l : Z) (w : place) (h : addr) (v : payload) : Prop :=
  finest db l w h v /\ (a_type h = Leaf \/ a_level h = l).

(** Going up from octant [h] (values [v], [prev] in the octant visited before) while the
    octant is too fine for the period ends at octant [b] with values [u], coming from
    values [last]. *)
Inductive settles (db : contents) (period : f64) (w : place) :
  payload -> addr -> payload -> payload -> addr -> payload -> Prop :=
| settles_here prev h v : ~ too_fine period h v -> settles db period w prev h v prev h v
| settles_up prev h v h' v' last b u : too_fine period h v ->
    finest db (a_level h - 1) w h' v' -> settles db period w v h' v' last b u ->
    settles db period w prev h v last b u.
(** The octant that has data for a period, with its values and those of the octant below. *)
Definition wave_octant (db : contents) (period : f64) (w : place) (last : payload) (b : addr) (u : payload) : Prop :=
  exists h v, finest db 31 w h v /\ ~ too_coarse period h v /\ settles db period w v h v last b u.

(** A logarithm that never decreases, with log 2 > 0. *)
Definition log_ordered (log : f64 -> f64) : Prop :=
  (0 < value (log (i2f64 2)))%R /\ finite_double (log (i2f64 2)) /\
  forall x y, finite_double x -> finite_double y -> (0 < value x <= value y)%R ->
    finite_double (log x) /\ finite_double (log y) /\ (value (log x) <= value (log y))%R.

(** A resolution or period between 2^-60 and 2^60. *)
Definition moderate (x : f64) : Prop := finite_double x /\ (bpow radix2 (-60) <= value x <= bpow radix2 60)%R.
(** Values below half the largest single precision number. *)
Definition below_half_max (v : payload) : Prop :=
  forall f, is_fin (get6 f v) = true /\ (Rabs (SF2R radix2 (get6 f v)) < bpow radix2 127)%R.
(** Results in terms of these octants. *)
Definition fixed_result (db : contents) (l : Z) (w : place) (ans : payload) : Prop :=
  (exists h, fixed_octant db l w h ans) \/ ((forall h v, ~ fixed_octant db l w h v) /\ ans = no_data).
Definition wave_result (db : contents) (period : f64) (w : place) (ans : payload) : Prop :=
  (exists last b u, wave_octant db period w last b u /\ ans = halfway last u) \/
  ((forall last b u, ~ wave_octant db period w last b u) /\ ans = no_data).
