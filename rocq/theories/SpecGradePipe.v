(** Specification vocabulary for C82: a graded model that is averaged and queried. *)
From Coq Require Import ZArith Bool Reals List String.
From Flocq Require Import Core.
From Verif Require Import Outcome Float Payload Addr SpecOct SpecGeom Geom GeomProof GeomLevel ErrorHandler VMQuery Store Stream VMCreator SpecStore SpecQuery
  QueryProof VsGrader GridIngester VsRun SpecGrade SpecExtract.
Import ListNotations.
Open Scope Z_scope.

(** The settings [v] describe a grid of [nl] by [nw] by [nh] points, in the different
    octants [cell], none of them the whole domain.  The input database [inp] can be asked as
    the settings say, and has shear speeds from 0 to [M] at all points. *)
Definition grid_settings {DB} (EQ : env DB) (L : libm) (v : vsgrader) (g : gparams) (inp : list (addr * payload)) (r : resolution)
    (nl nw nh : Z) (cell : Z -> Z -> Z -> addr) (M : R) : Prop :=
  0 < vg_cache v /\
  (exists dq, e_open EQ (vg_in v) (vg_cache v) = Some dq /\ searches (e_search EQ dq) inp) /\
  db_ok inp /\ (forall a p, In (a, p) inp -> storable p) /\ asked L v r /\
  count (gp_len g) (resHoriz g) = Val nl /\ count (gp_width g) (resHoriz g) = Val nw /\ count (gp_ht g) (gp_res g) = Val nh /\
  (0 < nl /\ 0 < nw /\ 0 < nh) /\
  grid_points (indexToLonLat L g) (gridAddr L g) nl nw nh cell /\
  (forall i j k, in_grid nl nw nh i j k -> 1 <= a_level (cell i j k)) /\
  (forall i j k a b c, in_grid nl nw nh i j k -> point_place L g i j k (a, b, c) -> double a /\ double b /\ double c) /\
  (forall i j k w ans o, in_grid nl nw nh i j k -> point_place L g i j k w -> answer r inp w ans o ->
     speed_upto M (prepared (gp_minVs g) ans)) /\
  (0 <= M)%R.
(** The limits of the differences between neighbours: gradient times distance, finite and not
    negative. *)
Definition limits (g : gparams) (dv dh : f64) : Prop :=
  dv = mul64 (gp_gradient g) (gp_res g) /\ dh = mul64 (gp_gradient g) (resHoriz g) /\
  finite_double dv /\ (0 <= value dv)%R /\ finite_double dh /\ (0 <= value dh)%R.
(** The values [after] are those prepared from the input with the shear speeds limited:
    lowered to the largest ones that respect the limits, up to rounding. *)
Definition limited_values (L : libm) (g : gparams) (inp : list (addr * payload)) (r : resolution) (nl nw nh : Z) (dv dh : f64) (M : R)
    (after : Z -> Z -> Z -> payload) : Prop :=
  let tol := (2 * IZR (nl + nw + nh) * slack M)%R in
  exists before,
    (forall i j k, in_grid nl nw nh i j k -> exists w ans o, point_place L g i j k w /\ answer r inp w ans o /\ before i j k = prepared (gp_minVs g) ans) /\
    below3 nl nw nh (fun i j k => value (p_vs (after i j k))) (fun i j k => value (p_vs (before i j k))) /\
    (exists b, largest_limited3 nl nw nh (value dv) (value dh) (fun i j k => value (p_vs (before i j k))) b /\
       forall i j k, in_grid nl nw nh i j k -> (Rabs (value (p_vs (after i j k)) - b i j k) <= tol)%R) /\
    limited3 nl nw nh (value dv + 2 * tol) (value dh + 2 * tol) (fun i j k => value (p_vs (after i j k))).
