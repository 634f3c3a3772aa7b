(** C56 for a domain made of whole octants. *)
From Coq Require Import ZArith Bool Reals Lra Lia Ascii String List Permutation Sorted.
From Flocq Require Import Core BinarySingleNaN.
From Verif Require Import Outcome Float Payload Addr SpecOct SpecAvg SpecGeom FloatFacts Geom GeomFacts GeomProof GeomRot GradePlace ErrorHandler VMQuery SpecQuery
  QueryFacts QueryProof QueryHist QueryMain Store SpecStore StoreFacts Averager VMCreator Stream GridIngester SpecGrid GridFacts GridMain VsGrader SpecGrade GradeGrid GradeMain VsRun
  SpecExtract ExtractFacts SpecDomain SpecRunDomain PropGrade PropParams PropExtract PropVsRun.
Import ListNotations.
Open Scope Z_scope.
Import VsGrader(count). Import VsRun(readParams, run).

Lemma i2f64_double i : 0 <= i <= 1000000000 -> double (i2f64 i).
Proof. intros H. apply (repr_int i). change (2 ^ 53) with 9007199254740992. lia. Qed.

Section Places.
Variables (L : libm) (g : gparams) (eps : R) (nl nw nh : Z) (first : addr).
Hypothesis LO : library_ok L (resHoriz g) eps.
Hypothesis WO : whole_octants g nl nw nh first.
Lemma whole_points : finite_double (resHoriz g) /\ value (resHoriz g) = (IZR (side (a_level first)) * tick)%R /\
  grid_points (indexToLonLat L g) (gridAddr L g) nl nw nh (octant_at first).
Proof.
  destruct LO as (TR & TR' & HP & HI & He & HL1 & HL2).
  destruct WO as ((FX & FY & FE & FV & Fl & Fw & Fh) & (BX & BY & BE) & (Nl & Nw & Nh) & O1 & O2 & (E4 & El & Ew & Eh) & WP & WQ & WR).
  exact (domain_points L g eps nl nw nh first TR TR' HP HI He HL1 HL2 FX FY FE FV BX BY BE (proj1 Nl) (proj1 Nw) (proj1 Nh) O1 O2 E4 WP WQ WR).
Qed.
Lemma step_pos : (0 < IZR (side (a_level first)) * tick)%R.
Proof.
  destruct WO as (_ & _ & _ & (Hk & _) & _).
  apply Rmult_lt_0_compat; [apply IZR_lt; unfold side; apply Z.pow_pos_nonneg; lia | unfold tick, root; lra].
Qed.
Lemma whole_counts : count (gp_len g) (resHoriz g) = Val nl /\ count (gp_width g) (resHoriz g) = Val nw /\ count (gp_ht g) (gp_res g) = Val nh.
Proof.
  destruct whole_points as (FH & EH & _). pose proof step_pos as PH.
  destruct WO as ((FX & FY & FE & FV & Fl & Fw & Fh) & _ & (Nl & Nw & Nh) & _ & _ & (E4 & El & Ew & Eh) & _).
  assert (CT : forall len res n, finite_double len -> finite_double res -> (0 < value res)%R -> 1 <= n <= 1000000000 -> (value len = IZR (n - 1) * value res)%R -> count len res = Val n).
  { intros len res n F1 F2 P2 Hn E. assert (0 <= IZR (n - 1) <= 1000000000)%R by (split; apply IZR_le; lia).
    destruct (C42_counts len res F1 F2) as (m & Em & _ & U).
    - rewrite E. apply Rmult_le_pos; lra.
    - exact P2.
    - rewrite E. apply Rmult_le_compat_r; lra.
    - rewrite Em. f_equal. rewrite (U (n - 1)%Z ltac:(lia) E). lia. }
  set (H := (IZR (side (a_level first)) * tick)%R) in *.
  split; [|split]; apply CT; try assumption.
  - rewrite EH. exact PH.
  - rewrite EH. exact El.
  - rewrite EH. exact PH.
  - rewrite EH. exact Ew.
  - lra.
  - replace (value (gp_res g)) with (H / 4)%R by lra. lra.
Qed.
(** The program computes places that are machine numbers. *)
Lemma whole_doubles i j k x y z : in_grid nl nw nh i j k -> point_place L g i j k (x, y, z) -> double x /\ double y /\ double z.
Proof.
  intros (Ii & Ij & Ik) (lon & lat & EI & (u & v & P & -> & -> & ->)).
  destruct whole_points as (FH & EH & _). pose proof step_pos as PH.
  destruct LO as (TR & TR' & HP & HI & He & HL1 & HL2).
  destruct WO as ((FX & FY & FE & FV & Fl & Fw & Fh) & (BX & BY & BE) & (Nl & Nw & Nh) & O1 & O2 & (E4 & El & Ew & Eh) & _).
  pose proof (TrigNum.trig_unit _ _ _ TR) as HU. pose proof (TrigNum.trig_unit _ _ _ TR') as HU'.
  set (n := side (a_level first)) in *.
  assert (N0 : 0 < n) by (unfold n, side; apply Z.pow_pos_nonneg; destruct O1 as (Hk & _); lia).
  assert (T0 : (0 < tick)%R) by (unfold tick, root; lra).
  assert (RT : (IZR (2 ^ 31) * tick = root)%R) by (unfold tick, root; change (2 ^ 31)%Z with 2147483648%Z; replace (2 ^ 31)%R with 2147483648%R by (cbn; lra); field).
  destruct O1 as (_ & _ & D1). destruct O2 as (_ & _ & D2). cbn [octant_at a_x a_y a_z a_level In] in D2. fold n in D2. cbn [In] in D1.
  destruct (D1 (a_x first) ltac:(auto)) as [X1 _]. destruct (D1 (a_y first) ltac:(auto)) as [Y1 _].
  destruct (D2 (a_x first - (nl - 1) * n)%Z ltac:(auto)) as [X2 _]. destruct (D2 (a_y first + (nw - 1) * n)%Z ltac:(auto)) as [Y2 _].
  assert (Bd : forall a m, 0 <= a <= m -> m * n < 2 ^ 31 -> 0 <= a <= 4000000000 /\ (IZR a * value (resHoriz g) <= root)%R).
  { intros a m Ha Hm. assert (a * n <= m * n) by (apply Z.mul_le_mono_nonneg_r; lia). assert (P31 : (2 ^ 31 = 2147483648)%Z) by reflexivity. split.
    - assert (a * 1 <= a * n) by (apply Z.mul_le_mono_nonneg_l; lia). lia.
    - rewrite EH, <- Rmult_assoc, <- mult_IZR, <- RT. apply Rmult_le_compat_r; [lra|]. apply IZR_le. lia. }
  destruct (Bd i (nl - 1) ltac:(lia) ltac:(lia)) as [Hi Bi]. destruct (Bd j (nw - 1) ltac:(lia) ltac:(lia)) as [Hj Bj].
  destruct (map_ap L g HU' FH ltac:(rewrite EH; exact PH) FX FY BX BY i j Hi Hj Bi Bj) as ((VX & FX' & DX) & (VY & FY' & DY) & MX & MY).
  assert (U0 : GeomRot.u = (/ 200000000)%R) by reflexivity.
  rewrite lonlat_eq in EI. unfold invProject in EI. destruct (m_invproject L (grid_xf L g i j) (grid_yf L g i j)) as [[lo la]|] eqn:EV; [|discriminate].
  injection EI as -> ->.
  assert (BdX : (Rabs (value (grid_xf L g i j)) <= 5000000)%R).
  { apply Rabs_le_inv in DX. apply Rabs_le_inv in MX. apply abs_bound. unfold value in *. lra. }
  assert (BdY : (Rabs (value (grid_yf L g i j)) <= 5000000)%R).
  { apply Rabs_le_inv in DY. apply Rabs_le_inv in MY. apply abs_bound. unfold value in *. lra. }
  destruct (HP _ _ _ _ (conj VX FX') (conj VY FY') BdX BdY EV) as (x' & y' & P' & (Vx' & _) & (Vy' & _) & _). rewrite P in P'. injection P' as <- <-.
  destruct HU as ((Vc & _) & (Vs & _) & _).
  pose proof (mul_valid prec64 emax64 Hp64 Hm64) as HM. pose proof (sub_valid prec64 emax64 Hp64 Hm64) as HS. pose proof (add_valid prec64 emax64 Hp64 Hm64) as HA.
  assert (VB1 : double BUFFERNW) by (vm_compute; reflexivity). assert (VB2 : double BUFFERSW) by (vm_compute; reflexivity).
  assert (VP1 : double PROJXNW) by (vm_compute; reflexivity). assert (VP2 : double PROJYNW) by (vm_compute; reflexivity).
  assert (VM : double MAXELEV) by (vm_compute; reflexivity). assert (VE : double VERTEXAG) by (vm_compute; reflexivity). assert (VR : double ROOTLEN) by (vm_compute; reflexivity).
  unfold double in *.
  assert (V3 : valid_binary prec64 emax64 (projXNWRoot L) = true) by exact (HS _ _ (HS _ _ VP1 (HM _ _ VB1 Vc)) (HM _ _ VB2 Vs)).
  assert (V4 : valid_binary prec64 emax64 (projYNWRoot L) = true) by exact (HS _ _ (HA _ _ VP2 (HM _ _ VB1 Vs)) (HM _ _ VB2 Vc)).
  pose proof (HS _ _ Vx' V3) as DX'. pose proof (HS _ _ Vy' V4) as DY'.
  split; [exact (HS _ _ (HM _ _ DX' Vc) (HM _ _ DY' Vs))|]. split; [exact (HA _ _ (HM _ _ DX' Vs) (HM _ _ DY' Vc))|].
  exact (HA _ _ (HM _ _ (HS _ _ (HS _ _ (proj1 FE) (HM _ _ (i2f64_double k ltac:(lia)) (proj1 FV))) VM) VE) VR).
Qed.
End Places.

(** C56 for a domain of whole octants: the run succeeds and the output file has exactly the
    nl by nw by nh octants of the domain, each once.  The octant (i, j, k) contains the
    place that the program computes for the point (i, j, k). *)
Theorem C56_domain : forall DB (EQ : env DB) E F T L opens G v0 v x y dq inp r fs d nl nw nh first eps M,
  readParams F T v0 = Val v -> m_project L (gp_lon (vg_g v)) (gp_lat (vg_g v)) = Some (x, y) ->
  let g := set_xy (vg_g v) x y in
  let dv := mul64 (gp_gradient g) (gp_res g) in
  let dh := mul64 (gp_gradient g) (resHoriz g) in
  let tol := (2 * IZR (nl + nw + nh) * slack M)%R in
  0 < vg_cache v -> e_open EQ (vg_in v) (vg_cache v) = Some dq -> searches (e_search EQ dq) inp -> db_ok inp ->
  (forall a p, In (a, p) inp -> storable p) -> asked L v r ->
  library_ok L (resHoriz g) eps -> whole_octants g nl nw nh first ->
  (forall i j k w ans o, in_grid nl nw nh i j k -> point_place L g i j k w -> answer r inp w ans o -> speed_upto M (prepared (gp_minVs g) ans)) ->
  (0 <= M)%R -> finite_double dv -> (0 <= value dv)%R -> finite_double dh -> (0 <= value dh)%R ->
  vg_tmp v <> vg_out v -> takes_new E -> in_order E -> accepts (et_store E) ->
  (forall d1, can_create E d1 (vg_tmp v) /\ can_create E d1 (vg_out v) /\ et_open E d1 (vg_tmp v) = true) ->
  can_read E (vg_tmp v) -> et_flush E (vg_tmp v) = true -> et_close E (vg_tmp v) = true -> et_close E (vg_out v) = true ->
  (forall d1, opens d1 (vg_out v) = true) -> stores G (fun l => l) ->
  exists d' recs before after, run EQ E F T L opens G v0 fs d = (d', Val tt) /\
    d' (vg_out v) = Some (mkDb recs (Some SCHEMA) (Some (graded_metadata (n_show F) (gp_gradient (vg_g v)) (et_now E) (et_host E))) 28) /\
    exactly_grid recs nl nw nh (octant_at first) after /\ StronglySorted etree_lt (map fst recs) /\
    (forall i j k, in_grid nl nw nh i j k -> exists w ans o, point_place L g i j k w /\ holds (octant_at first i j k) w /\
       answer r inp w ans o /\ before i j k = prepared (gp_minVs g) ans) /\
    below3 nl nw nh (fun i j k => value (p_vs (after i j k))) (fun i j k => value (p_vs (before i j k))) /\
    (exists b, largest_limited3 nl nw nh (value dv) (value dh) (fun i j k => value (p_vs (before i j k))) b /\
       forall i j k, in_grid nl nw nh i j k -> (Rabs (value (p_vs (after i j k)) - b i j k) <= tol)%R) /\
    limited3 nl nw nh (value dv + 2 * tol) (value dh + 2 * tol) (fun i j k => value (p_vs (after i j k))) /\
    ((forall i j k, in_grid nl nw nh i j k -> speed_ordinary (before i j k)) ->
     forall i j k, in_grid nl nw nh i j k -> ratios_kept (bpow radix2 (-19)) (before i j k) (after i j k)) /\
    (forall i j k, in_grid nl nw nh i j k -> speed_upto M (after i j k) /\ storable (after i j k) /\ p_dfs (after i j k) = p_dfs (before i j k) /\
       p_block (after i j k) = p_block (before i j k) /\ p_zone (after i j k) = p_zone (before i j k)) /\
    forall n, n <> vg_out v -> n <> vg_tmp v -> d' n = d n.
Proof.
  intros DB EQ E F T L opens G v0 v x y dq inp r fs d nl nw nh first eps M RP PJ g dv dh tol HC HO HS HK HA HR LO WO SP
    HM Fv Hv Fh Hh Hne HT HIn HAc HCr HRd K1 K2 HOp HSt.
  destruct (whole_counts L g eps nl nw nh first LO WO) as (N1 & N2 & N3). destruct (whole_points L g eps nl nw nh first LO WO) as (_ & _ & GP).
  pose proof (whole_doubles L g eps nl nw nh first LO WO) as HD.
  assert (N : 1 <= nl /\ 1 <= nw /\ 1 <= nh) by (destruct WO as (_ & _ & (Nl & Nw & Nh) & _); lia). destruct N as (P1 & P2 & P3).
  exact (C56_run DB EQ E F T L opens G v0 v x y dq inp r fs d nl nw nh (octant_at first) M RP PJ HC HO HS HK HA HR N1 N2 N3
    ltac:(lia) ltac:(lia) ltac:(lia) GP HD SP HM Fv Hv Fh Hh Hne HT HIn HAc HCr HRd K1 K2 HOp HSt).
Qed.
Print Assumptions C56_domain.

(** The run of C56_example has such a domain: 2 by 3 by 2 octants of 1600 m; its other
    hypotheses are shown there. *)
Example C56_domain_example :
  library_ok ToyGrade.toy2 (resHoriz run_placed) (/ 256)%R /\ whole_octants run_placed 2 3 2 (ToyGrade.toy_cell 0 0 0).
Proof.
  destruct C42_domain_nontrivial as (H1 & H2 & H4 & H5 & H6 & H7 & H8 & H9 & H10 & H11 & H12 & H13 & H14 & H15 & _).
  assert (Ex : gp_x ToyGrade.toy_grid = gp_x run_placed) by (vm_compute; reflexivity).
  assert (Ey : gp_y ToyGrade.toy_grid = gp_y run_placed) by (vm_compute; reflexivity).
  assert (Ez : gp_elev ToyGrade.toy_grid = gp_elev run_placed) by (vm_compute; reflexivity).
  assert (Er : gp_res ToyGrade.toy_grid = gp_res run_placed) by (vm_compute; reflexivity).
  assert (El : gp_len ToyGrade.toy_grid = gp_len run_placed) by (vm_compute; reflexivity).
  assert (Ew : gp_width ToyGrade.toy_grid = gp_width run_placed) by (vm_compute; reflexivity).
  assert (Eh : gp_ht ToyGrade.toy_grid = gp_ht run_placed) by (vm_compute; reflexivity).
  unfold resHoriz in *. rewrite ?Ex, ?Ey, ?Ez, ?Er, ?El, ?Ew, ?Eh in *. split.
  - split; [exact H1|]. split; [exact H2|]. split; [exact H4|]. split; [exact H5|]. split; [lra|]. split; [exact H6 | exact H7].
  - split; [exact H8|]. split; [exact H9|]. split; [lia|]. split; [exact H10|]. split; [exact H11|]. split; [exact H12|].
    split; [exact H13|]. split; [exact H14 | exact H15].
Qed.
