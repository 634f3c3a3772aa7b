(** Specification vocabulary for a domain made of whole octants. *)
From Coq Require Import ZArith Reals.
From Flocq Require Import Core.
From Verif Require Import Outcome Float Payload Addr SpecOct SpecGeom SpecDomain Geom VsGrader.
Open Scope R_scope.

(** Mathematical functions and the projection work as they should: the cosine and sine of
    the two azimuths are accurate, the projection can be undone, and the logarithms that give the level are accurate to [eps]. *)
Definition library_ok (L : libm) (res : f64) (eps : R) : Prop :=
  trig_at (m_cos L) (m_sin L) azR /\ trig_at (m_cos L) (m_sin L) azimuthLen /\
  projection_inverts (m_project L) (m_invproject L) /\ inverse_works (m_invproject L) /\
  0 <= eps <= / 256 /\ log_within eps (div64 ROOTLEN res) (m_log L (div64 ROOTLEN res)) /\
  log_within eps (i2f64 2) (m_log L (i2f64 2)).

(** Octant [l] steps back along the first axis, [w] steps along the second and [h] steps
    down from [first]. *)
Definition octant_at (first : addr) (l w h : Z) : addr :=
  let n := side (a_level first) in
  mkAddr (a_x first - l * n) (a_y first + w * n) (a_z first - h * n) 0 (a_level first) Leaf.

(** The domain consists of nl by nw by nh octants: its edges are whole numbers of steps, a
    step is as long as an octant (and a quarter of that in the vertical), and the first
    point lies in octant [first], at least a millimetre away from its faces. *)
Definition whole_octants (g : gparams) (nl nw nh : Z) (first : addr) : Prop :=
  let c := cos azimuth in let s := sin azimuth in
  let k := a_level first in let H := IZR (side k) * tick in
  (finite_double (gp_x g) /\ finite_double (gp_y g) /\ finite_double (gp_elev g) /\ finite_double (gp_res g) /\
   finite_double (gp_len g) /\ finite_double (gp_width g) /\ finite_double (gp_ht g)) /\
  (Rabs (value (gp_x g)) <= 1500000 /\ Rabs (value (gp_y g)) <= 1500000 /\ Rabs (value (gp_elev g)) <= 500000) /\
  ((1 <= nl <= 1000000000)%Z /\ (1 <= nw <= 1000000000)%Z /\ (1 <= nh <= 1000000000)%Z) /\
  octant_ok first /\ octant_ok (octant_at first (nl - 1) (nw - 1) (nh - 1)) /\
  (4 * value (gp_res g) = H /\ value (gp_len g) = IZR (nl - 1) * H /\ value (gp_width g) = IZR (nw - 1) * H /\
   4 * value (gp_ht g) = IZR (nh - 1) * H) /\
  well_inside (a_x first) k (map_to_p c s (value (gp_x g)) (value (gp_y g))) /\
  well_inside (a_y first) k (map_to_q c s (value (gp_x g)) (value (gp_y g))) /\
  well_inside (a_z first) k ((value (gp_elev g) - 12800) * 4 + root).
