(** C41 and C42: limiting the gradient of the shear speed. *)
From Coq Require Import ZArith Bool QArith Qreals Reals Lra Lia List String.
From Flocq Require Import Core BinarySingleNaN.
From Verif Require Import Outcome Float Payload Addr SpecOct SpecGeom Geom VsGrader SpecGrade SpecDomain GradeFacts GradeGrid GradeMain GradePlace TrigNum ToyLib ToyGrade PropGeom.
Import ListNotations.
Open Scope R_scope.

(** C41, exact arithmetic. Every profile and every limit d >= 0: the shear speeds become
    the largest profile below the input whose neighbours differ by at most d. *)
Theorem C41_largest_profile : forall d data, 0 <= d ->
  largest_limited d (map r_vs data) (map (fun r => r_vs (fst r)) (limitDiff exact d data)).
Proof. intros d data Hd. rewrite limitDiff_vs. apply rlimit_largest, Hd. Qed.
Print Assumptions C41_largest_profile.

(** C41, exact arithmetic, entry by entry: flagged exactly if lowered, an entry that is not
    flagged is untouched, and Vp, density, Qp and Qs keep their ratio to Vs. *)
Theorem C41_entries : forall d data, 0 <= d -> Forall (fun p => 0 <= r_vs p) data ->
  Forall2 (fun (p : rpay) (r : rpay * bool) => let (p', changed) := r in
    (changed = true <-> r_vs p' < r_vs p) /\ (changed = false -> p' = p) /\
    r_vp p' * r_vs p = r_vp p * r_vs p' /\ r_density p' * r_vs p = r_density p * r_vs p' /\
    r_qp p' * r_vs p = r_qp p * r_vs p' /\ r_qs p' * r_vs p = r_qs p * r_vs p' /\
    r_dfs p' = r_dfs p /\ r_block p' = r_block p /\ r_zone p' = r_zone p) data (limitDiff exact d data).
Proof. exact exact_entries. Qed.
Print Assumptions C41_entries.

(** C41, exact arithmetic: limiting again changes nothing and flags nothing. *)
Theorem C41_idempotent : forall d data, 0 <= d ->
  let once := map fst (limitDiff exact d data) in
  limitDiff exact d once = map (fun p => (p, false)) once.
Proof. exact exact_again. Qed.
Print Assumptions C41_idempotent.

(** C41, in the floating point arithmetic of the program, for speeds between 0 and M: no
    value is raised, neighbours differ by at most the limit plus one rounding of size
    M / 2^23, and the profile is within 2 n such roundings of the exact result. *)
Theorem C41_machine : forall M d data, 0 <= M -> finite_double d -> 0 <= value d -> Forall (speed_upto M) data ->
  let out := map (fun r => value (p_vs (fst r))) (limitDiff machine d data) in
  let inp := map (fun p => value (p_vs p)) data in
  Forall (fun r => speed_upto M (fst r)) (limitDiff machine d data) /\
  below out inp /\ limited (value d + slack M) out /\
  exists b, largest_limited (value d) inp b /\
    Forall2 (fun x y => Rabs (x - y) <= 2 * INR (List.length data) * slack M) out b.
Proof. exact machine_profile. Qed.
Print Assumptions C41_machine.

(** C41, floating point, for all data whatsoever: an entry that is not flagged is untouched;
    depth, fault block and zone never change. *)
Theorem C41_machine_entries : forall d data,
  Forall2 (fun (p : payload) (r : payload * bool) => let (p', changed) := r in
    (changed = false -> p' = p) /\ p_dfs p' = p_dfs p /\ p_block p' = p_block p /\ p_zone p' = p_zone p)
    data (limitDiff machine d data).
Proof. exact machine_entries. Qed.
Print Assumptions C41_machine_entries.

(** C41, floating point: Vp, density, Qp and Qs keep their ratio to Vs up to a relative
    error of 2^-21. *)
Theorem C41_machine_ratios : forall d data, finite_double d -> 0 <= value d -> Forall speed_ordinary data ->
  Forall2 (fun p r => let p' := fst r in speed_ordinary p' /\
    scaled_with p p' (p_vp p) (p_vp p') /\ scaled_with p p' (p_density p) (p_density p') /\
    scaled_with p p' (p_qp p) (p_qp p') /\ scaled_with p p' (p_qs p) (p_qs p')) data (limitDiff machine d data).
Proof. exact machine_ratios. Qed.
Print Assumptions C41_machine_ratios.

(** Idempotence and exact flags fail in floating point: two speeds, 1 and 16777220 m/s, and
    the limit 16777219.984375 m/s.  The difference 16777219 is stored as 16777220, so the
    second entry is flagged; its new speed is the old one, but Vp is scaled by a factor
    above 1, and by the same factor again when the limit is applied again. *)
Definition drift_limit : f64 := div64 (i2f64 1073742079) (i2f64 64).
Definition drift_data : list payload :=
  [mkPayload (i2f32 2) (i2f32 1) (i2f32 1) (i2f32 1) (i2f32 1) (i2f32 0) 0 0;
   mkPayload (i2f32 33554400) (i2f32 16777220) (i2f32 1) (i2f32 1) (i2f32 1) (i2f32 0) 0 0].
Theorem C41_idempotent_machine_refuted : exists d data,
  finite_double d /\ 0 <= value d /\ Forall (speed_upto (bpow radix2 25)) data /\
  let once := map fst (limitDiff machine d data) in
  map p_vs once = map p_vs data /\ map snd (limitDiff machine d data) = [false; true] /\
  once <> data /\ map fst (limitDiff machine d once) <> once.
Proof.
  exists drift_limit, drift_data. split; [split; vm_compute; reflexivity|]. split; [|split].
  - let x := eval vm_compute in drift_limit in replace drift_limit with x by (vm_compute; reflexivity).
    unfold value, SF2R, F2R. cbn [Fnum Fexp cond_Zopp]. apply Rmult_le_pos; [apply IZR_le; lia | apply bpow_ge_0].
  - assert (B25 : bpow radix2 25 = 33554432) by (cbn; lra).
    constructor; [|constructor; [|constructor]]; (split; [split; vm_compute; reflexivity|]); rewrite B25; cbn [p_vs].
    + replace (i2f32 1) with (S754_finite false 8388608 (-23)) by (vm_compute; reflexivity). unfold value, SF2R, F2R. cbn. lra.
    + replace (i2f32 16777220) with (S754_finite false 8388610 1) by (vm_compute; reflexivity). unfold value, SF2R, F2R. cbn. lra.
  - split; [vm_compute; reflexivity|]. split; [vm_compute; reflexivity|].
    assert (P : forall a b : list payload, map p_vp a <> map p_vp b -> a <> b) by (intros a b H E; apply H; congruence).
    split; apply P; vm_compute; discriminate.
Qed.
Print Assumptions C41_idempotent_machine_refuted.

(** Profile of 100, 1000, 300, 320 m/s limited to 150 m/s per step, exactly and by the
    program. *)
Definition ex_profile : list payload :=
  map (fun v => mkPayload (i2f32 (2 * v)) (i2f32 v) (i2f32 2000) (i2f32 50) (i2f32 25) (i2f32 0) 1 2) [100; 1000; 300; 520]%Z.
Example C41_nontrivial_exact :
  map (fun r => r_vs (fst r)) (limitDiff exact 150 (map (fun v => mkRpay (2 * v) v 2000 50 25 0 1 2) [100; 1000; 300; 520])) = [100; 250; 300; 450].
Proof.
  assert (E : forall x y z w x' y' z' w' : R, x = x' -> y = y' -> z = z' -> w = w' -> [x; y; z; w] = [x'; y'; z'; w']) by (intros; subst; reflexivity).
  rewrite limitDiff_vs. cbn [map r_vs rlimit rfwd rbwd].
  rewrite (Rmin_right 1000), (Rmin_left 300), (Rmin_right 520) by lra.
  rewrite (Rmin_left 300), (Rmin_left (100 + 150)), (Rmin_left 100) by lra. apply E; lra.
Qed.
Example C41_nontrivial :
  (finite_double (i2f64 150) /\ 0 <= value (i2f64 150) /\ Forall (speed_upto 1000) ex_profile /\ Forall speed_ordinary ex_profile) /\
  limitDiff machine (i2f64 150) ex_profile =
    map (fun x : Z * Z * Z * Z * Z * bool => let '(vp, vs, de, qp, qs, c) := x in
      (mkPayload (i2f32 vp) (i2f32 vs) (i2f32 de) (narrow (div64 (i2f64 qp) (i2f64 2))) (narrow (div64 (i2f64 qs) (i2f64 4))) (i2f32 0) 1 2, c))
      [(200, 100, 2000, 100, 100, false); (500, 250, 500, 25, 25, true); (600, 300, 2000, 100, 100, false)]%Z
    ++ skipn 3 (limitDiff machine (i2f64 150) ex_profile) /\
  map (fun r => p_vs (fst r)) (limitDiff machine (i2f64 150) ex_profile) = map i2f32 [100; 250; 300; 450]%Z /\
  map snd (limitDiff machine (i2f64 150) ex_profile) = [false; true; false; true].
Proof.
  split; [|split; [vm_compute; reflexivity | split; vm_compute; reflexivity]].
  split; [split; vm_compute; reflexivity|]. split.
  { replace (i2f64 150) with (S754_finite false 5277655813324800 (-45)) by (vm_compute; reflexivity). unfold value, SF2R, F2R. cbn. lra. }
  assert (Q : map p_vs ex_profile = [S754_finite false 13107200 (-17); S754_finite false 16384000 (-14); S754_finite false 9830400 (-15); S754_finite false 8519680 (-14)])
    by (vm_compute; reflexivity).
  assert (T : forall P : f32 -> Prop, Forall P (map p_vs ex_profile) -> Forall (fun p => P (p_vs p)) ex_profile) by (intros P H; exact (proj1 (Forall_map p_vs P ex_profile) H)).
  assert (B40 : bpow radix2 40 = 1099511627776) by (cbn; lra). assert (B20 : bpow radix2 (-20) = / 1048576) by (cbn; lra).
  split.
  - apply (T (fun x => finite_float x /\ 0 <= value x <= 1000)). rewrite Q.
    repeat constructor; unfold value, SF2R, F2R; cbn; lra.
  - apply (T (fun x => finite_float x /\ bpow radix2 (-20) <= value x <= bpow radix2 40)). rewrite Q, B40, B20.
    repeat constructor; unfold value, SF2R, F2R; cbn; lra.
Qed.

(** C42, exact arithmetic.  For every grid of any size whose points lie in distinct stored
    octants: grading succeeds, and the shear speeds become the largest grid below the
    input that respects the vertical and both horizontal limits at once.  No octant off the
    grid changes.  Vp, density, Qp and Qs keep their ratios to Vs. *)
Theorem C42_three_directions : forall DB LL (G : gstore DB rpay) rec (lonlat : Z -> Z -> outcome LL) locate nl nw nh cell dv dh db v,
  0 <= dv -> 0 <= dh ->
  stores G rec -> records_ok (rec db) -> grid_points lonlat locate nl nw nh cell -> holds_grid (rec db) nl nw nh cell v ->
  exists db' v', gradeDirs exact G lonlat locate nl nw nh dv dh db = Val db' /\
    records_ok (rec db') /\ holds_grid (rec db') nl nw nh cell v' /\ same_elsewhere (rec db) (rec db') nl nw nh cell /\
    largest_limited3 nl nw nh dv dh (fun i j k => r_vs (v i j k)) (fun i j k => r_vs (v' i j k)) /\
    ((forall i j k, in_grid nl nw nh i j k -> 0 < r_vs (v i j k)) -> forall i j k, in_grid nl nw nh i j k -> exact_ratios (v i j k) (v' i j k)) /\
    forall i j k, in_grid nl nw nh i j k -> r_dfs (v' i j k) = r_dfs (v i j k) /\ r_block (v' i j k) = r_block (v i j k) /\ r_zone (v' i j k) = r_zone (v i j k).
Proof. intros DB LL. exact dirs_exact. Qed.
Print Assumptions C42_three_directions.

(** C42, the program, in its floating point arithmetic: no shear speed is raised, and the
    shear speeds are within 2 (length + width + height) roundings of the largest grid
    below the input that respects all three limits.  Vp, density, Qp and Qs keep their ratios
    to Vs up to a relative error of 2^-19. *)
Theorem C42_program : forall DB (G : gstore DB payload) rec L g msg nl nw nh cell db v M,
  let dv := mul64 (gp_gradient g) (gp_res g) in
  let dh := mul64 (gp_gradient g) (mul64 (gp_res g) VERTEXAG) in
  let tol := 2 * IZR (nl + nw + nh) * slack M in
  count (gp_len g) (mul64 (gp_res g) VERTEXAG) = Val nl -> count (gp_width g) (mul64 (gp_res g) VERTEXAG) = Val nw ->
  count (gp_ht g) (gp_res g) = Val nh -> (0 <= nl)%Z -> (0 <= nw)%Z -> (0 <= nh)%Z -> 0 <= M ->
  finite_double dv -> 0 <= value dv -> finite_double dh -> 0 <= value dh ->
  stores G rec -> records_ok (rec db) ->
  grid_points (indexToLonLat L g) (gridAddr L g) nl nw nh cell -> holds_grid (rec db) nl nw nh cell v ->
  (forall i j k, in_grid nl nw nh i j k -> speed_upto M (v i j k)) ->
  exists db' v', grade L g G true msg db = Val db' /\
    records_ok (rec db') /\ holds_grid (rec db') nl nw nh cell v' /\ same_elsewhere (rec db) (rec db') nl nw nh cell /\
    below3 nl nw nh (fun i j k => value (p_vs (v' i j k))) (fun i j k => value (p_vs (v i j k))) /\
    (exists b, largest_limited3 nl nw nh (value dv) (value dh) (fun i j k => value (p_vs (v i j k))) b /\
       forall i j k, in_grid nl nw nh i j k -> Rabs (value (p_vs (v' i j k)) - b i j k) <= tol) /\
    limited3 nl nw nh (value dv + 2 * tol) (value dh + 2 * tol) (fun i j k => value (p_vs (v' i j k))) /\
    ((forall i j k, in_grid nl nw nh i j k -> speed_ordinary (v i j k)) ->
     forall i j k, in_grid nl nw nh i j k -> ratios_kept (bpow radix2 (-19)) (v i j k) (v' i j k)) /\
    forall i j k, in_grid nl nw nh i j k -> speed_upto M (v' i j k) /\ (singles (v i j k) -> singles (v' i j k)) /\
      p_dfs (v' i j k) = p_dfs (v i j k) /\ p_block (v' i j k) = p_block (v i j k) /\ p_zone (v' i j k) = p_zone (v i j k).
Proof.
  intros DB G rec L g msg nl nw nh cell db v M dv dh tol C1 C2 C3 Nl Nw Nh HM Fv Hv Fh Hh HS Ok GP HG Sp.
  destruct (dirs_machine G rec _ _ nl nw nh cell dv dh db v M Nl Nw Nh HM Fv Hv Fh Hh HS Ok GP HG Sp)
    as (db' & v' & E & Ok' & H' & O & B & (b & Lb & Db) & Rt & K).
  exists db', v'. split.
  { unfold grade, resHoriz. rewrite C1. cbn [bind]. rewrite C2. cbn [bind]. rewrite C3. cbn [bind].
    change (gradeDirs machine G (indexToLonLat L g) (gridAddr L g) nl nw nh (mul64 (gp_gradient g) (gp_res g)) (mul64 (gp_gradient g) (mul64 (gp_res g) VERTEXAG)) db)
      with (gradeDirs machine G (indexToLonLat L g) (gridAddr L g) nl nw nh dv dh db). rewrite E. reflexivity. }
  split; [exact Ok'|]. split; [exact H'|]. split; [exact O|]. split; [exact B|].
  split; [exists b; split; [exact Lb | exact Db]|]. split; [|split; [exact Rt | exact K]].
  destruct Lb as ((Lv & Ll & Lw) & _).
  assert (T : forall x y x' y' d t, Rabs (x - x') <= t -> Rabs (y - y') <= t -> Rabs (x' - y') <= d -> Rabs (x - y) <= d + 2 * t).
  { intros x y x' y' d t. rewrite !Rabs_le_iff. lra. }
  split; [|split]; intros i j k I1 I2; (eapply T; [apply Db, I1 | apply Db, I2 |]); [apply Lv | apply Ll | apply Lw]; assumption.
Qed.
Print Assumptions C42_program.

(** A grid of 2 by 3 by 2 points in a database with another octant meets all hypotheses;
    the speeds at (0,0,0), (0,1,0) and (0,2,0) were 500, 1380 and 2260 m/s. *)
Example C42_nontrivial :
  (count (gp_len toy_grid) (mul64 (gp_res toy_grid) VERTEXAG) = Val 2%Z /\ count (gp_width toy_grid) (mul64 (gp_res toy_grid) VERTEXAG) = Val 3%Z /\
   count (gp_ht toy_grid) (gp_res toy_grid) = Val 2%Z) /\
  (finite_double (mul64 (gp_gradient toy_grid) (gp_res toy_grid)) /\ 0 <= value (mul64 (gp_gradient toy_grid) (gp_res toy_grid)) /\
   finite_double (mul64 (gp_gradient toy_grid) (mul64 (gp_res toy_grid) VERTEXAG)) /\ 0 <= value (mul64 (gp_gradient toy_grid) (mul64 (gp_res toy_grid) VERTEXAG))) /\
  stores lstore (fun db => db) /\ records_ok toy_records /\
  grid_points (indexToLonLat toy2 toy_grid) (gridAddr toy2 toy_grid) 2 3 2 toy_cell /\ holds_grid toy_records 2 3 2 toy_cell toy_values /\
  (forall i j k, in_grid 2 3 2 i j k -> speed_upto 4096 (toy_values i j k) /\ speed_ordinary (toy_values i j k)) /\
  (exists db', grade toy2 toy_grid lstore true ""%string toy_records = Val db' /\
     map (fun w => option_map p_vs (gs_search lstore db' (toy_cell 0 w 0))) [0; 1; 2]%Z = map Some (map i2f32 [500; 1300; 940]%Z) /\
     gs_search lstore db' (mkAddr 0 0 0 0 3 Leaf) = Some (toy_values 9 9 9)).
Proof.
  split; [vm_compute; auto|]. split.
  { split; [split; vm_compute; reflexivity|]. split; [|split; [split; vm_compute; reflexivity|]].
    - replace (mul64 (gp_gradient toy_grid) (gp_res toy_grid)) with (S754_finite false 7036874417766400 (-45)) by (vm_compute; reflexivity). unfold value, SF2R, F2R. cbn. lra.
    - replace (mul64 (gp_gradient toy_grid) (mul64 (gp_res toy_grid) VERTEXAG)) with (S754_finite false 7036874417766400 (-43)) by (vm_compute; reflexivity). unfold value, SF2R, F2R. cbn. lra. }
  split; [exact lstore_ok|]. split; [exact toy_records_ok|]. split; [exact toy_points|]. split; [exact toy_holds|]. split.
  - intros i j k (A & B & C).
    assert (S : speed_upto 4096 (toy_values i j k) /\ bpow radix2 (-20) <= value (p_vs (toy_values i j k))).
    { assert (Ci : (i = 0 \/ i = 1)%Z) by lia. assert (Cj : (j = 0 \/ j = 1 \/ j = 2)%Z) by lia. assert (Ck : (k = 0 \/ k = 1)%Z) by lia.
      destruct Ci as [->| ->], Cj as [->|[->| ->]], Ck as [->| ->]; (split; [split; [split; vm_compute; reflexivity|]|]);
      match goal with |- context [p_vs ?p] => let x := eval vm_compute in (p_vs p) in replace (p_vs p) with x by (vm_compute; reflexivity) end;
      unfold value, SF2R, F2R; cbn; lra. }
    destruct S as [S S']. split; [exact S|]. destruct S as [F [_ U]]. split; [exact F|]. split; [exact S'|]. assert (bpow radix2 40 = 1099511627776) by (cbn; lra). lra.
  - destruct (grade toy2 toy_grid lstore true ""%string toy_records) as [db'| | |] eqn:E; [|exfalso; revert E; vm_compute; discriminate..].
    exists db'. split; [reflexivity|]. revert E.
    assert (Q : match grade toy2 toy_grid lstore true ""%string toy_records with
      | Val db' => map (fun w => option_map p_vs (gs_search lstore db' (toy_cell 0 w 0))) [0; 1; 2]%Z = map Some (map i2f32 [500; 1300; 940]%Z) /\
                   gs_search lstore db' (mkAddr 0 0 0 0 3 Leaf) = Some (toy_values 9 9 9)
      | _ => False end) by (vm_compute; auto).
    intros E. rewrite E in Q. exact Q.
Qed.

(** C42, the numbers of points: every edge of the domain carries as many points as fit,
    one resolution apart, the first at the corner; a whole number k of steps gives k + 1. *)
Theorem C42_counts : forall len res, finite_double len -> finite_double res -> 0 <= value len -> 0 < value res ->
  value len <= 1000000000 * value res ->
  exists n, count len res = Val n /\ fills n (value len) (value res) /\
    forall k, (0 <= k <= 1000000000)%Z -> value len = IZR k * value res -> n = (k + 1)%Z.
Proof.
  intros len res Fl Fr Pl Pr B. destruct (count_fills len res Fl Fr Pl Pr B) as (n & E & F).
  exists n. split; [exact E|]. split; [exact F|]. intros k Hk Ek. exact (fills_whole n k _ _ F Pr Hk Ek).
Qed.
Print Assumptions C42_counts.

(** C42, the places: the program visits the inverse projection of the point l steps along
    the length and w steps along the width, at the elevation h steps below the corner, to
    within a ten-thousandth of a millimetre. *)
Theorem C42_positions : forall L g l w h,
  let c := cos length_azimuth in let s := sin length_azimuth in
  let H := value (resHoriz g) in let V := value (gp_res g) in
  trig_at (m_cos L) (m_sin L) azimuthLen ->
  finite_double (resHoriz g) -> 0 < H -> finite_double (gp_res g) -> 0 <= V ->
  finite_double (gp_x g) -> finite_double (gp_y g) -> finite_double (gp_elev g) ->
  Rabs (value (gp_x g)) <= 1500000 -> Rabs (value (gp_y g)) <= 1500000 -> Rabs (value (gp_elev g)) <= 1000000 ->
  (0 <= l <= 4000000000)%Z -> (0 <= w <= 4000000000)%Z -> (0 <= h <= 4000000000)%Z ->
  IZR l * H <= root -> IZR w * H <= root -> IZR h * V <= root ->
  (exists x y, indexToLonLat L g l w = invProject L x y /\ finite_double x /\ finite_double y /\
     Rabs (value x - grid_x c s (value (gp_x g)) H l w) <= / 10000000 /\
     Rabs (value y - grid_y c s (value (gp_y g)) H l w) <= / 10000000) /\
  finite_double (indexToElev g h) /\ Rabs (value (indexToElev g h) - grid_z (value (gp_elev g)) V h) <= / 10000000.
Proof.
  intros L g l w h c s H V TR FH PH FV PV FX FY FE BX BY BE Hl Hw Hh Bl Bw Bh.
  pose proof (trig_unit _ _ _ TR) as HU. destruct (trig_near _ _ _ _ TR azimuthLen_close) as [NC NS]. fold c in NC. fold s in NS.
  destruct (map_ap L g HU FH PH FX FY BX BY l w Hl Hw Bl Bw) as ((VX & FX' & DX) & (VY & FY' & DY) & _).
  destruct (elev_ap g h Hh FV PV Bh FE BE) as (VE & FE' & DE).
  assert (U0 : GeomRot.u = / 200000000) by reflexivity.
  split.
  - exists (grid_xf L g l w), (grid_yf L g l w). split; [reflexivity|]. split; [split; assumption|]. split; [split; assumption|].
    destruct (grid_close _ _ c s (value (gp_x g)) (value (gp_y g)) H l w NC NS ltac:(lia) ltac:(lia) PH Bl Bw) as [GX GY].
    fold H in DX, DY. unfold value in *.
    apply Rabs_le_inv in DX. apply Rabs_le_inv in DY. apply Rabs_le_inv in GX. apply Rabs_le_inv in GY. split; apply GeomRot.abs_bound; lra.
  - split; [split; assumption|]. eapply Rle_trans; [eassumption | lra].
Qed.
Print Assumptions C42_positions.

(** C42 for a domain: nl - 1 by nw - 1 by nh - 1 whole octants, as long and as wide as a
    side of an octant per step and a quarter of it high, with the first point in octant
    [first] and at least a millimetre away from its faces.  Grading limits the speeds of
    exactly the octants [nl] by [nw] by [nh] of that block, each once. *)
Theorem C42_domain : forall DB (G : gstore DB payload) rec L g msg eps nl nw nh first db v M,
  let c := cos azimuth in let s := sin azimuth in
  let k := a_level first in let H := IZR (side k) * tick in
  let dv := mul64 (gp_gradient g) (gp_res g) in
  let dh := mul64 (gp_gradient g) (mul64 (gp_res g) VERTEXAG) in
  let tol := 2 * IZR (nl + nw + nh) * slack M in
  let cell := fun l w h => mkAddr (a_x first - l * side k) (a_y first + w * side k) (a_z first - h * side k) 0 k Leaf in
  trig_at (m_cos L) (m_sin L) azR -> trig_at (m_cos L) (m_sin L) azimuthLen ->
  projection_inverts (m_project L) (m_invproject L) -> inverse_works (m_invproject L) ->
  0 <= eps <= / 256 -> log_within eps (div64 ROOTLEN (resHoriz g)) (m_log L (div64 ROOTLEN (resHoriz g))) ->
  log_within eps (i2f64 2) (m_log L (i2f64 2)) ->
  finite_double (gp_x g) -> finite_double (gp_y g) -> finite_double (gp_elev g) -> finite_double (gp_res g) ->
  finite_double (gp_len g) -> finite_double (gp_width g) -> finite_double (gp_ht g) ->
  Rabs (value (gp_x g)) <= 1500000 -> Rabs (value (gp_y g)) <= 1500000 -> Rabs (value (gp_elev g)) <= 500000 ->
  (1 <= nl <= 1000000000)%Z -> (1 <= nw <= 1000000000)%Z -> (1 <= nh <= 1000000000)%Z ->
  octant_ok first -> octant_ok (cell (nl - 1)%Z (nw - 1)%Z (nh - 1)%Z) ->
  4 * value (gp_res g) = H -> value (gp_len g) = IZR (nl - 1) * H -> value (gp_width g) = IZR (nw - 1) * H ->
  4 * value (gp_ht g) = IZR (nh - 1) * H ->
  well_inside (a_x first) k (map_to_p c s (value (gp_x g)) (value (gp_y g))) ->
  well_inside (a_y first) k (map_to_q c s (value (gp_x g)) (value (gp_y g))) ->
  well_inside (a_z first) k ((value (gp_elev g) - 12800) * 4 + root) ->
  0 <= M -> finite_double dv -> 0 <= value dv -> finite_double dh -> 0 <= value dh ->
  stores G rec -> records_ok (rec db) -> holds_grid (rec db) nl nw nh cell v ->
  (forall i j k, in_grid nl nw nh i j k -> speed_upto M (v i j k)) ->
  exists db' v', grade L g G true msg db = Val db' /\
    records_ok (rec db') /\ holds_grid (rec db') nl nw nh cell v' /\ same_elsewhere (rec db) (rec db') nl nw nh cell /\
    below3 nl nw nh (fun i j k => value (p_vs (v' i j k))) (fun i j k => value (p_vs (v i j k))) /\
    (exists b, largest_limited3 nl nw nh (value dv) (value dh) (fun i j k => value (p_vs (v i j k))) b /\
       forall i j k, in_grid nl nw nh i j k -> Rabs (value (p_vs (v' i j k)) - b i j k) <= tol) /\
    limited3 nl nw nh (value dv + 2 * tol) (value dh + 2 * tol) (fun i j k => value (p_vs (v' i j k))) /\
    ((forall i j k, in_grid nl nw nh i j k -> speed_ordinary (v i j k)) ->
     forall i j k, in_grid nl nw nh i j k -> ratios_kept (bpow radix2 (-19)) (v i j k) (v' i j k)) /\
    forall i j k, in_grid nl nw nh i j k -> speed_upto M (v' i j k) /\ (singles (v i j k) -> singles (v' i j k)) /\
      p_dfs (v' i j k) = p_dfs (v i j k) /\ p_block (v' i j k) = p_block (v i j k) /\ p_zone (v' i j k) = p_zone (v i j k).
Proof.
  intros DB G rec L g msg eps nl nw nh first db v M c s k H dv dh tol cell TR TR' HP HI He HL1 HL2 FX FY FE FV Fl Fw Fh BX BY BE
    Nl Nw Nh O1 O2 E4 El Ew Eh WP WQ WR HM Fdv Pdv Fdh Pdh HS Ok HG Sp.
  destruct (domain_points L g eps nl nw nh first TR TR' HP HI He HL1 HL2 FX FY FE FV BX BY BE ltac:(lia) ltac:(lia) ltac:(lia) O1 O2 E4 WP WQ WR)
    as (FH & EH & GP). fold k in EH. fold H in EH.
  assert (PH : 0 < H).
  { unfold H. destruct O1 as (Hk & _). apply Rmult_lt_0_compat; [apply IZR_lt; unfold side; apply Z.pow_pos_nonneg; unfold k; lia | unfold tick, root; lra]. }
  assert (CT : forall len res n, finite_double len -> finite_double res -> 0 < value res -> (1 <= n <= 1000000000)%Z -> value len = IZR (n - 1) * value res -> count len res = Val n).
  { intros len res n F1 F2 P2 Hn E. assert (0 <= IZR (n - 1) <= 1000000000) by (split; apply IZR_le; lia).
    destruct (C42_counts len res F1 F2) as (m & Em & _ & U).
    - rewrite E. apply Rmult_le_pos; lra.
    - exact P2.
    - rewrite E. apply Rmult_le_compat_r; lra.
    - rewrite Em. f_equal. rewrite (U (n - 1)%Z ltac:(lia) E). lia. }
  change (mul64 (gp_res g) VERTEXAG) with (resHoriz g) in *.
  apply (C42_program DB G rec L g msg nl nw nh cell db v M); try assumption; try lia.
  - apply CT; try assumption. change (0 < value (resHoriz g)); lra. change (value (gp_len g) = IZR (nl - 1) * value (resHoriz g)). rewrite EH. exact El.
  - apply CT; try assumption. change (0 < value (resHoriz g)); lra. change (value (gp_width g) = IZR (nw - 1) * value (resHoriz g)). rewrite EH. exact Ew.
  - apply CT; try assumption; [lra|]. replace (value (gp_res g)) with (H / 4) by lra. lra.
Qed.
Print Assumptions C42_domain.

(** The toy grid meets the hypotheses of C42_domain about the place: 1600 m by 3200 m by
    400 m, with a vertical resolution of 400 m, the corner 300 m east and north of the
    point with coordinates (500000, 600000). *)
Example C42_domain_nontrivial :
  let L := toy2 in let g := toy_grid in let first := toy_cell 0 0 0 in
  let c := cos azimuth in let s := sin azimuth in
  let k := a_level first in let H := IZR (side k) * tick in
  let cell := fun l w h => mkAddr (a_x first - l * side k) (a_y first + w * side k) (a_z first - h * side k) 0 k Leaf in
  trig_at (m_cos L) (m_sin L) azR /\ trig_at (m_cos L) (m_sin L) azimuthLen /\
  projection_inverts (m_project L) (m_invproject L) /\ inverse_works (m_invproject L) /\
  log_within (/ 256) (div64 ROOTLEN (resHoriz g)) (m_log L (div64 ROOTLEN (resHoriz g))) /\
  log_within (/ 256) (i2f64 2) (m_log L (i2f64 2)) /\
  (finite_double (gp_x g) /\ finite_double (gp_y g) /\ finite_double (gp_elev g) /\ finite_double (gp_res g) /\
   finite_double (gp_len g) /\ finite_double (gp_width g) /\ finite_double (gp_ht g)) /\
  (Rabs (value (gp_x g)) <= 1500000 /\ Rabs (value (gp_y g)) <= 1500000 /\ Rabs (value (gp_elev g)) <= 500000) /\
  octant_ok first /\ octant_ok (cell 1 2 1)%Z /\
  (4 * value (gp_res g) = H /\ value (gp_len g) = IZR 1 * H /\ value (gp_width g) = IZR 2 * H /\ 4 * value (gp_ht g) = IZR 1 * H) /\
  well_inside (a_x first) k (map_to_p c s (value (gp_x g)) (value (gp_y g))) /\
  well_inside (a_y first) k (map_to_q c s (value (gp_x g)) (value (gp_y g))) /\
  well_inside (a_z first) k ((value (gp_elev g) - 12800) * 4 + root) /\
  holds_grid toy_records 2 3 2 cell toy_values.
Proof.
  cbv zeta.
  assert (EC : m_cos toy2 azR = m_cos toy azR) by (vm_compute; reflexivity).
  assert (ES : m_sin toy2 azR = m_sin toy azR) by (vm_compute; reflexivity).
  assert (EC' : m_cos toy2 azimuthLen = S754_finite false 7253382183146340 (-53)) by (vm_compute; reflexivity).
  assert (ES' : m_sin toy2 azimuthLen = S754_finite true 5340232702778215 (-53)) by (vm_compute; reflexivity).
  destruct (finite_value (m_cos toy azR) 5340232702778215 (-53) eq_refl eq_refl ltac:(lia)) as [F1 E1].
  destruct (finite_value (m_sin toy azR) 7253382183146340 (-53) eq_refl eq_refl ltac:(lia)) as [F2 E2].
  destruct (finite_value (S754_finite false 7253382183146340 (-53)) 7253382183146340 (-53) eq_refl eq_refl ltac:(lia)) as [F3 E3].
  assert (F4 : finite_double (S754_finite true 5340232702778215 (-53))) by (split; vm_compute; reflexivity).
  assert (E4 : value (S754_finite true 5340232702778215 (-53)) = - (IZR 5340232702778215 / 9007199254740992)).
  { unfold value, SF2R, F2R. cbn [cond_Zopp Fnum Fexp Z.opp]. change (bpow radix2 (-53)) with (/ 9007199254740992).
    change (IZR (-5340232702778215)) with (- (5340232702778215)). field. }
  change (2 ^ (- -53))%Z with 9007199254740992%Z in *.
  assert (T1 : trig_at (m_cos toy2) (m_sin toy2) azR) by (unfold trig_at; rewrite EC, ES; exact toy_trig).
  destruct (trig_near _ _ _ _ T1 azR_close) as [NC NS]. rewrite EC, E1 in NC. rewrite ES, E2 in NS.
  assert (A4 : finite_double (gp_res toy_grid) /\ value (gp_res toy_grid) = 400).
  { destruct (GeomFacts.repr_int 400 ltac:(lia)) as (A & B & C). split; [split; assumption | exact C]. }
  assert (TK : IZR (side 10) * tick = 1600).
  { change (side 10) with 2097152%Z. unfold tick, root. replace (2 ^ 31) with 2147483648 by (cbn; lra). lra. }
  assert (I : forall z, (Z.abs z < 2 ^ 53)%Z -> finite_double (i2f64 z) /\ value (i2f64 z) = IZR z).
  { intros z Hz. destruct (GeomFacts.repr_int z Hz) as (A & B & C). split; [split; assumption | exact C]. }
  destruct (I 1600%Z ltac:(lia)) as [Fl El]. destruct (I 3200%Z ltac:(lia)) as [Fw Ew]. destruct (I 400%Z ltac:(lia)) as [Fh Eh].
  destruct (I (-200)%Z ltac:(lia)) as [Fe Ee].
  let x := eval vm_compute in (gp_x toy_grid) in
    match x with S754_finite false ?m ?e => destruct (finite_value (gp_x toy_grid) m e ltac:(vm_compute; reflexivity) ltac:(vm_compute; reflexivity) ltac:(lia)) as [Fx Ex] end.
  let x := eval vm_compute in (gp_y toy_grid) in
    match x with S754_finite false ?m ?e => destruct (finite_value (gp_y toy_grid) m e ltac:(vm_compute; reflexivity) ltac:(vm_compute; reflexivity) ltac:(lia)) as [Fy Ey] end.
  match type of Ex with _ = _ / IZR ?p => let q := eval vm_compute in p in change p with q in Ex end.
  match type of Ey with _ = _ / IZR ?p => let q := eval vm_compute in p in change p with q in Ey end.
  change (a_level (toy_cell 0 0 0)) with 10%Z.
  change (a_x (toy_cell 0 0 0)) with 654311424%Z. change (a_y (toy_cell 0 0 0)) with 786432000%Z. change (a_z (toy_cell 0 0 0)) with 2078277632%Z.
  split; [exact T1|]. split.
  { unfold trig_at. rewrite EC', ES'. split; [exact F3|]. split; [exact F4|]. rewrite E3, E4.
    split; [apply Rabs_le; lra|]. split; [apply Rabs_le; lra|].
    assert (V : value azimuthLen = - Q2R (5716298514205737 # 9007199254740992)) by (rewrite azimuthLen_value, Q2R_eq; reflexivity).
    assert (B : 0 <= Q2R (5716298514205737 # 9007199254740992) <= 1) by (rewrite Q2R_eq; lra).
    pose proof (cos_in_R (5716298514205737 # 9007199254740992) (7253382183146339 # 9007199254740992) (7253382183146341 # 9007199254740992) ltac:(vm_compute; reflexivity) B) as C.
    pose proof (sin_in_R (5716298514205737 # 9007199254740992) (5340232702778214 # 9007199254740992) (5340232702778216 # 9007199254740992) ltac:(vm_compute; reflexivity) B) as S.
    rewrite V, cos_neg, sin_neg. rewrite (Q2R_eq 7253382183146339), (Q2R_eq 7253382183146341) in C. rewrite (Q2R_eq 5340232702778214), (Q2R_eq 5340232702778216) in S.
    assert (P : / 2 ^ 53 = / 9007199254740992) by (f_equal; cbn; lra). rewrite P.
    set (cq := cos _) in *. set (sq := sin _) in *. clear -C S. split; apply Rabs_le; lra. }
  split; [exact C45_example_projection|]. split.
  { intros x y Fx0 Fy0 Bx By. change (m_invproject toy2) with toy_project. unfold toy_project.
    assert (K : forall a, finite_double a -> Rabs (value a) <= 5000000 -> flt (SFabs a) (i2f64 100000000) = true).
    { intros a [Va Fa] Ba. destruct (I 100000000%Z ltac:(lia)) as [[V1 F1'] E1'].
      assert (Fabs : is_fin (SFabs a) = true) by (destruct a; exact Fa).
      assert (Vabs : FloatFacts.valid64 (SFabs a)) by (destruct a; exact Va).
      unfold FloatFacts.valid64 in *. unfold double in *.
      rewrite (FloatFacts.flt_R prec64 emax64) by assumption. apply Rlt_bool_true. unfold value in E1'. rewrite E1'.
      apply Rle_lt_trans with 5000000; [|lra]. replace (SF2R radix2 (SFabs a)) with (Rabs (value a)); [exact Ba|].
      unfold value, SF2R. destruct a as [[]|[]| |[] m e]; cbn [SFabs]; rewrite ?Rabs_R0; try reflexivity;
        rewrite <- F2R_Zabs; reflexivity. }
    rewrite !K by assumption. discriminate. }
  split.
  { change (m_log toy2) with (m_log toy). replace (div64 ROOTLEN (resHoriz toy_grid)) with (i2f64 (2 ^ 10)) by (vm_compute; reflexivity).
    let x := eval vm_compute in (toy_log (i2f64 (2 ^ 10))) in match x with S754_finite false ?m ?e =>
      apply (toy_log_pow 10 m e); [lia | vm_compute; reflexivity.. | lia |] end.
    match goal with |- context [IZR (2 ^ ?p)] => let q := eval vm_compute in (2 ^ p)%Z in change (2 ^ p)%Z with q end.
    pose proof GeomLevel.ln2_bounds. apply Rabs_le. lra. }
  split.
  { change (m_log toy2) with (m_log toy). apply (toy_log_pow 1 6243314768165359 (-53)); [lia | vm_compute; reflexivity.. | lia |].
    change (2 ^ (- -53))%Z with 9007199254740992%Z. pose proof GeomLevel.ln2_bounds. apply Rabs_le. lra. }
  split; [split; [exact Fx|]; split; [exact Fy|]; split; [exact Fe|]; split; [apply A4|]; split; [exact Fl|]; split; [exact Fw | exact Fh]|].
  split; [rewrite Ex, Ey; split; [apply Rabs_le; lra|]; split; [apply Rabs_le; lra|]; change (gp_elev toy_grid) with (i2f64 (-200)); rewrite Ee; apply Rabs_le; change (IZR (-200)) with (- (200)); lra|].
  split; [apply ToyDb.octant_okb_ok; vm_compute; reflexivity|]. split; [apply ToyDb.octant_okb_ok; vm_compute; reflexivity|].
  split.
  { rewrite TK. change (gp_len toy_grid) with (i2f64 1600). change (gp_width toy_grid) with (i2f64 3200). change (gp_ht toy_grid) with (i2f64 400).
    destruct A4 as [_ A4]. rewrite A4, El, Ew, Eh. lra. }
  assert (T2 : tick = 1638400 / 2147483648) by (unfold tick, root; replace (2 ^ 31) with 2147483648 by (cbn; lra); reflexivity).
  unfold well_inside. rewrite T2. change (side 10) with 2097152%Z.
  repeat match goal with |- context [IZR (?a + 2097152)] => let q := eval vm_compute in (a + 2097152)%Z in change (a + 2097152)%Z with q end.
  match goal with |- context [map_to_p _ _ ?X ?Y] => destruct (near_coords _ _ X Y NC NS) as [DP DQ] end.
  { apply Rabs_le. cbn [pow]. lra. }
  { rewrite Ex. apply Rabs_le. lra. }
  { rewrite Ey. apply Rabs_le. lra. }
  apply Rabs_le_inv in DP. apply Rabs_le_inv in DQ.
  match type of DP with _ <= ?m - ?t <= _ => set (tp := t) in *; assert (MP : IZR 654311424 * (1638400 / 2147483648) + / 900 <= m <= IZR 656408576 * (1638400 / 2147483648) - / 900)
    by (clear -Ex Ey; unfold map_to_p, corner_x, corner_y; rewrite Ex, Ey; lra); set (mp := m) in * end.
  match type of DQ with _ <= ?m - ?t <= _ => set (tq := t) in *; assert (MQ : IZR 786432000 * (1638400 / 2147483648) + / 900 <= m <= IZR 788529152 * (1638400 / 2147483648) - / 900)
    by (clear -Ex Ey; unfold map_to_q, corner_x, corner_y; rewrite Ex, Ey; lra); set (mq := m) in * end.
  split; [clear -DP MP; lra|]. split; [clear -DQ MQ; lra|]. unfold root.
  split; [change (gp_elev toy_grid) with (i2f64 (-200)); rewrite Ee; change (IZR (-200)) with (- (200)); lra|].
  exact toy_holds.
Qed.
