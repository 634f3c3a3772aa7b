(** Specification vocabulary for copying a grid of points into a database whose gradients
    will be limited. *)
From Coq Require Import ZArith Bool String List.
From Verif Require Import Outcome Float Payload Addr SpecOct SpecQuery Geom GeomProof VMQuery Store SpecStore SpecGrid SpecGrade VsGrader VsRun.
Import ListNotations.
Open Scope Z_scope.

(** Values a file can hold: 32 bit floating point numbers, 16 bit integers. *)
Definition storable (p : payload) : Prop :=
  Forall (fun x => valid_binary prec32 emax32 x = true) [p_vp p; p_vs p; p_density p; p_qp p; p_qs p; p_dfs p] /\
  -32768 <= p_block p <= 32767 /\ -32768 <= p_zone p <= 32767.

(** What is stored for a point where the input has no data: 10^10 everywhere. *)
Definition void : payload := let x := i2f32 10000000000 in mkPayload x x x x x x 999 999.
Definition with_vs (p : payload) (x : f32) : payload :=
  mkPayload (p_vp p) x (p_density p) (p_qp p) (p_qs p) (p_dfs p) (p_block p) (p_zone p).
(** The values prepared from the answer of the input: nothing where there is no data
    (negative shear speed), shear speeds below the smallest one raised to it. *)
Definition prepared (minVs : f64) (ans : payload) : payload :=
  if flt (p_vs ans) f_zero then void
  else if flt (widen (p_vs ans)) minVs then with_vs ans (narrow minVs)
  else ans.

(** The kind of query the settings ask for. *)
Definition asked (L : libm) (v : vsgrader) (r : resolution) : Prop :=
  match vg_type v with
  | MAXRES => r = Finest
  | FIXEDRES => flt f_zero (vg_res v) = true /\ exists l, level L (mul64 (i2f64 4) (vg_res v)) = Val l /\ 0 <= l <= 31 /\ r = AtLevel l
  | WAVERES => flt f_zero (vg_res v) = true /\ r = ForPeriod (mul64 (i2f64 4) (vg_res v))
  end.

(** Model coordinates of a point of the grid. *)
Definition point_place (L : libm) (g : gparams) (i j k : Z) (w : place) : Prop :=
  let '(p, q, r) := w in
  exists lon lat, indexToLonLat L g i j = Val (lon, lat) /\ coords L lon lat (indexToElev g k) p q r.

(** The file holds one record for every point of the grid and no other. *)
Definition exactly_grid (l : list (addr * payload)) (nl nw nh : Z) (cell : Z -> Z -> Z -> addr) (v : Z -> Z -> Z -> payload) : Prop :=
  all_different l /\
  forall a p, In (a, p) l <-> exists i j k, in_grid nl nw nh i j k /\ a = cell i j k /\ p = v i j k.

(** The metadata of the graded model: what the model is, the limit of the gradient as the
    program prints numbers, then when and where the file was made. *)
Definition graded_metadata (show : f64 -> string) (limit : f64) (now host : string) : string :=
  ("Central CA velocity model" ++ String (Ascii.ascii_of_nat 10) "" ++
   "Gradient in Vs limited to " ++ show limit ++ "." ++ String (Ascii.ascii_of_nat 10) "" ++
   "created on: " ++ now ++ "host: " ++ host)%string.
