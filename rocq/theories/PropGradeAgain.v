(** C83, whole program: gradecencalvm applied to its own output. *)
From Coq Require Import ZArith Bool Lia Lra Reals String Ascii Sorting.Sorted List.
From Flocq Require Import Core BinarySingleNaN.
From Verif Require Import Outcome Float FloatFacts Payload Addr SpecOct AvgEngine SpecAvg SpecGeom Geom GeomProof ErrorHandler VMQuery Store Averager VMCreator SpecStore
  Stream GetOpt QueryApp SpecHist SpecApp SpecText SpecGrid SpecQuery QueryFacts QueryProof QueryMain QuerySurface SpecE2E E2EFacts
  SmallApps SpecSmall SmallFacts SpecPipe PropStore PropSmall PropE2E PropQuery PropPipe.
From Verif Require Import VsGrader SpecGrade GradeMach GradeRatio SpecExtract SpecGradePipe PropVsRun PropGradePipe.
From Verif Require GridIngester VsRun.
Import ListNotations.
Open Scope Z_scope.

(** ** Raising to the smallest speed *)
Local Open Scope R_scope.
Local Notation fexp32 := (SpecFloat.fexp prec32 emax32).
Local Notation rnd32 := (round radix2 fexp32 (round_mode mode_NE)).
(** A smallest shear speed as users give it: a number from 0 to 10^10. *)
Definition least_speed (m : f64) : Prop := finite_double m /\ 0 <= value m <= 10000000000.

Lemma void_speed : finite_single (p_vs void) /\ value (p_vs void) = 10000000000.
Proof.
  assert (E : p_vs void = S754_finite false 9765625 10) by (vm_compute; reflexivity).
  rewrite E. split; [split; vm_compute; reflexivity|]. unfold value, SF2R, F2R. cbn. lra.
Qed.
Lemma least_narrow m : least_speed m -> finite_single (narrow m) /\ value (narrow m) = rnd32 (value m) /\ 0 <= value (narrow m) <= 10000000000.
Proof.
  intros (F & B0 & B1). destruct void_speed as [[Vv _] Ev].
  pose proof (val_format prec32 emax32 _ Vv) as Fv. change (SF2R radix2 (p_vs void)) with (value (p_vs void)) in Fv.
  assert (U : rnd32 (value m) <= value (p_vs void)).
  { apply round_le_generic; [typeclasses eauto.. | exact Fv | lra]. }
  assert (Lo : 0 <= rnd32 (value m)).
  { apply round_ge_generic; [typeclasses eauto.. | apply generic_format_0 | lra]. }
  pose proof (val_lt_emax prec32 emax32 _ Vv) as Bv. change (SF2R radix2 (p_vs void)) with (value (p_vs void)) in Bv.
  rewrite Rabs_pos_eq in Bv by lra.
  destruct (narrow_round m F) as [N1 N2]. { rewrite Rabs_pos_eq by lra. eapply Rle_lt_trans; [exact U | exact Bv]. }
  split; [exact N1|]. split; [exact N2|]. rewrite N2. lra.
Qed.
(** All prepared speeds are at least the smallest one, as stored. *)
Lemma prepared_least M m ans : least_speed m -> speed_upto M (prepared m ans) -> value (narrow m) <= value (p_vs (prepared m ans)).
Proof.
  intros Hm. destruct (least_narrow m Hm) as (N1 & N2 & N3). unfold prepared. destruct (flt (p_vs ans) f_zero) eqn:E1.
  - intros _. destruct void_speed as [_ ->]. lra.
  - destruct (flt (widen (p_vs ans)) m) eqn:E2; [intros _; cbn [with_vs p_vs]; lra|].
    intros [F _]. destruct (widen_fin _ F) as [[Vw Fw] Ew]. destruct Hm as ([Vm Fm] & _).
    rewrite (flt_R prec64 emax64 _ m Vw Vm Fw Fm) in E2. change (SF2R radix2 m) with (value m) in E2.
    change (SF2R radix2 (widen (p_vs ans))) with (value (widen (p_vs ans))) in E2. rewrite Ew in E2.
    destruct (Rlt_bool_spec (value (p_vs ans)) (value m)) as [|E3]; [discriminate|].
    rewrite N2. apply round_le_generic; [typeclasses eauto.. | apply (val_format prec32 emax32 _ (proj1 F)) | exact E3].
Qed.
(** Preparing a speed that is a number: kept, or raised to the smallest one. *)
Lemma prepared_number M m p : least_speed m -> speed_upto M p ->
  prepared m p = p \/ (p_vs (prepared m p) = narrow m /\ value (p_vs p) <= value (narrow m)).
Proof.
  intros Hm ((V & F) & B). destruct (least_narrow m Hm) as (N1 & N2 & N3). unfold prepared.
  assert (E1 : flt (p_vs p) f_zero = false).
  { rewrite (flt_R prec32 emax32 _ f_zero V eq_refl F eq_refl). apply Rlt_bool_false. exact (proj1 B). }
  rewrite E1. destruct (flt (widen (p_vs p)) m) eqn:E2; [right | left; reflexivity]. split; [reflexivity|].
  destruct (widen_fin _ (conj V F)) as [[Vw Fw] Ew]. destruct Hm as ([Vm Fm] & _).
  rewrite (flt_R prec64 emax64 _ m Vw Vm Fw Fm) in E2. change (SF2R radix2 m) with (value m) in E2.
  change (SF2R radix2 (widen (p_vs p))) with (value (widen (p_vs p))) in E2. rewrite Ew in E2.
  destruct (Rlt_bool_spec (value (p_vs p)) (value m)) as [E3|]; [|discriminate].
  rewrite N2. apply round_ge_generic; [typeclasses eauto.. | apply (val_format prec32 emax32 _ V) | lra].
Qed.
Local Open Scope Z_scope.

(** ** Asking for a point of the graded file *)
Lemma graded_answer L g nl nw nh cell recs v i j k w ans o : wf_input recs ->
  grid_points (indexToLonLat L g) (gridAddr L g) nl nw nh cell -> exactly_grid recs nl nw nh cell v ->
  in_grid nl nw nh i j k -> holds (cell i j k) w -> answer Finest recs w ans o -> ans = v i j k.
Proof.
  intros W (_ & GP & _) (_ & X) G H [A _].
  assert (IC : In (cell i j k, v i j k) recs) by (apply X; exists i, j, k; auto).
  destruct (GP i j k G) as [OK LF]. destruct A as [(h & p & (I & Hh & _) & ->)|[N _]].
  - assert (E : a_type h = Leaf). { apply X in I. destruct I as (i' & j' & k' & G' & -> & _). apply (GP _ _ _ G'). }
    rewrite E. exact (input_unique recs W _ _ _ _ I IC (input_holding recs W _ _ _ _ w I IC Hh H)).
  - specialize (N _ _ IC H). destruct OK as [L1 _]. lia.
Qed.

(** The second command asks for the file the first one made, at maximum resolution, with the
    same grid, limit and smallest speed. *)
Definition reads_again {DB} (EQ : env DB) (recs : list (addr * payload)) (v v2 : VsRun.vsgrader) : Prop :=
  VsRun.vg_g v2 = VsRun.vg_g v /\ VsRun.vg_type v2 = MAXRES /\ 0 < VsRun.vg_cache v2 /\
  exists dq, e_open EQ (VsRun.vg_in v2) (VsRun.vg_cache v2) = Some dq /\ searches (e_search EQ dq) recs.

(** C83, program.  gradecencalvm is run, and run again on the file it made.  The second run
    succeeds as well, its file has the same octants, and no shear speed differs from the
    first one's by more than three times the tolerance of C42. *)
Theorem C83_run_twice : forall DB (EQ : env DB) E F T L files opens G args k1 fp fin ft fm fs d v x y inp r nl nw nh cell dv dh M,
  storage_works E -> (forall d1 n, opens d1 n = true) -> stores G (fun l => l) ->
  command grade_letters args k1 -> named "p" k1 fp -> named "i" k1 fin -> named "o" k1 fm -> named "t" k1 ft -> ft <> fm ->
  VsRun.readParams F files (limiter fp fin fm ft (given_as (t_atoi T) "c" k1 128)) = Val v ->
  m_project L (gp_lon (VsRun.vg_g v)) (gp_lat (VsRun.vg_g v)) = Some (x, y) ->
  let g := VsRun.set_xy (VsRun.vg_g v) x y in
  let tol := (2 * IZR (nl + nw + nh) * slack M)%R in
  grid_settings EQ L v g inp r nl nw nh cell M -> limits g dv dh -> least_speed (gp_minVs g) ->
  exists d1 f1 after1, gradeMain EQ E F T L files opens G args fs d = (d1, Val (0, [])) /\
    d1 fm = Some f1 /\ exactly_grid (d_recs f1) nl nw nh cell after1 /\
    forall DB2 (EQ2 : env DB2) args2 k2 fp2 fo ft2 fs2 v2,
      command grade_letters args2 k2 -> named "p" k2 fp2 -> named "i" k2 fm -> named "o" k2 fo -> named "t" k2 ft2 -> ft2 <> fo -> fm <> fo -> fm <> ft2 ->
      VsRun.readParams F files (limiter fp2 fm fo ft2 (given_as (t_atoi T) "c" k2 128)) = Val v2 ->
      reads_again EQ2 (d_recs f1) v v2 ->
      exists d2 f2 after2, gradeMain EQ2 E F T L files opens G args2 fs2 d1 = (d2, Val (0, [])) /\
        d2 fo = Some f2 /\ d2 fm = Some f1 /\ exactly_grid (d_recs f2) nl nw nh cell after2 /\
        forall i j k, in_grid nl nw nh i j k -> (Rabs (value (p_vs (after2 i j k)) - value (p_vs (after1 i j k))) <= 3 * tol)%R.
Proof.
  intros DB EQ E F T L files opens G args k1 fp fin ft fm fs d v x y inp r nl nw nh cell dv dh M
    (S1 & S2 & S3 & S4 & S5 & S6 & S7 & S8) HOp HSt K N1 N2 N3 N4 Hn RP PJ g tol
    (A1 & (dq & A2 & A3) & A4 & A5 & A6 & C1 & C2 & C3 & (P1 & P2 & P3) & GP & LV & HD & SP & HM) (-> & -> & Fv & Hv & Fh & Hh) Hmin.
  pose proof (readParams_names _ _ _ _ RP) as Nm. unfold names in Nm. pose proof (f_equal (fun q => snd (fst (fst q))) Nm) as Eo. pose proof (f_equal (fun q => snd (fst q)) Nm) as Et.
  cbn [fst snd VsRun.vg_out VsRun.vg_tmp limiter] in Eo, Et.
  destruct (C56_run DB EQ E F files L opens G _ v x y dq inp r fs d nl nw nh cell M RP PJ A1 A2 A3 A4 A5 A6 C1 C2 C3 P1 P2 P3 GP HD SP HM Fv Hv Fh Hh)
    as (d1 & recs & before & after & R & O & X & SR & B & Q1 & (b & (L1 & L2 & L3) & Q2) & _ & _ & Q4 & Q5); try assumption.
  { rewrite Eo, Et. exact Hn. } { intros d0. split; [apply S4|]. split; [apply S4 | apply S5]. } { apply S6. } { apply S8. } { apply S7. } { apply S7. } { intros d0. apply HOp. }
  rewrite Eo in O. fold g in B, L1, L3. fold tol in Q2.
  set (f1 := mkDb recs (Some SCHEMA) (Some _) 28) in O.
  assert (RG : gradeMain EQ E F T L files opens G args fs d = (d1, Val (0, []))).
  { pose proof (proj1 (C57_grade DB EQ E F T L files opens G args fs d) k1 fp fin fm ft K N1 N2 N3 N4) as Y. rewrite R in Y. cbn [fst snd] in Y.
    destruct Y as [Y1 Y2]. destruct (gradeMain EQ E F T L files opens G args fs d) as [d1' o]. cbn [fst snd] in *. subst d1'. inversion Y2; subst. reflexivity. }
  exists d1, f1, after. split; [exact RG|]. split; [exact O|]. split; [exact X|].
  intros DB2 EQ2 args2 k2 fp2 fo ft2 fs2 v2 K2 M1 M2 M3 M4 H1 H2 H3 RP2 (V1 & V2 & V3 & dq2 & V4 & V5). change (d_recs f1) with recs in V5.
  assert (W : wf_input recs) by exact (graded_wf L g nl nw nh cell recs after P1 P2 P3 GP LV X SR).
  destruct (grid_records_ok _ _ _ _ _ _ _ _ GP X) as [RO _].
  assert (ST : forall a p, In (a, p) recs -> storable p).
  { intros a p I. apply (proj1 (proj2 X a p)) in I. destruct I as (i & j & k & I & -> & ->). apply (Q4 i j k I). }
  set (mn := narrow (gp_minVs g)). destruct (least_narrow _ Hmin) as (_ & _ & Bm). fold mn in Bm.
  (* the smallest speed is nowhere above the best limited values *)
  assert (Lb : forall i j k, in_grid nl nw nh i j k -> (value mn <= value (p_vs (before i j k)))%R).
  { intros i j k I. destruct (B i j k I) as (w & ans & o & W1 & _ & W3 & ->). exact (prepared_least M _ ans Hmin (SP i j k w ans o I W1 W3)). }
  assert (Lm : forall i j k, in_grid nl nw nh i j k -> (value mn <= b i j k)%R).
  { intros i j k I. refine (L3 (fun _ _ _ => value mn) _ Lb i j k I).
    split; [|split]; intros ? ? ? ? ?; (replace (value mn - value mn)%R with 0%R by ring); rewrite Rabs_R0; assumption. }
  assert (Up : forall i j k, in_grid nl nw nh i j k -> (value (p_vs (prepared (gp_minVs g) (after i j k))) <= value (p_vs (after i j k)) + tol)%R /\
    (value (p_vs (after i j k)) <= value (p_vs (prepared (gp_minVs g) (after i j k))))%R /\ speed_upto M (prepared (gp_minVs g) (after i j k))).
  { intros i j k I. specialize (Q2 i j k I). apply Rabs_le_inv in Q2. specialize (Lm i j k I). pose proof (proj1 (Q4 i j k I)) as Sp.
    assert (T0 : (0 <= tol)%R) by lra.
    destruct (prepared_number M _ _ Hmin Sp) as [->|[Ev Le]]; [split; [lra|]; split; [lra | exact Sp]|].
    unfold speed_upto. rewrite Ev. fold mn in Le |- *. split; [lra|]. split; [exact Le|]. split; [apply (least_narrow _ Hmin)|].
    split; [lra|]. destruct (B i j k I) as (w & ans & o & W1 & _ & W3 & Eb). pose proof (SP i j k w ans o I W1 W3) as [_ Z]. fold g in Z. rewrite <- Eb in Z.
    specialize (Lb i j k I). lra. }
  assert (AN : forall i j k w ans o, in_grid nl nw nh i j k -> point_place L g i j k w -> answer Finest recs w ans o -> ans = after i j k).
  { intros i j k w ans o I PP A. destruct (B i j k I) as (w' & ans' & o' & W1 & W2 & _). rewrite <- (place_unique _ _ _ _ _ _ _ PP W1) in W2.
    exact (graded_answer L g nl nw nh cell recs after i j k w ans o W GP X I W2 A). }
  pose proof (readParams_names _ _ _ _ RP2) as Nm2. unfold names in Nm2. pose proof (f_equal (fun q => snd (fst (fst q))) Nm2) as Eo2. pose proof (f_equal (fun q => snd (fst q)) Nm2) as Et2.
  cbn [fst snd VsRun.vg_out VsRun.vg_tmp limiter] in Eo2, Et2.
  assert (AS : asked L v2 Finest) by (unfold asked; rewrite V2; reflexivity).
  pose proof (C56_run DB2 EQ2 E F files L opens G _ v2 x y dq2 recs Finest fs2 d1 nl nw nh cell M RP2) as RUN2. rewrite V1 in RUN2.
  destruct (RUN2 PJ V3 V4 V5 RO ST AS C1 C2 C3 P1 P2 P3 GP HD) as (d2 & recs2 & before2 & after2 & R2 & O2 & X2 & _ & B2 & Q21 & (b2 & (_ & _ & Mx) & Q22) & _ & _ & _ & Q25);
    try assumption.
  { intros i j k w ans o I PP A. rewrite (AN i j k w ans o I PP A). apply (Up i j k I). }
  { rewrite Eo2, Et2. exact H1. } { intros d0. split; [apply S4|]. split; [apply S4 | apply S5]. } { apply S6. } { apply S8. } { apply S7. } { apply S7. } { intros d0. apply HOp. }
  rewrite Eo2 in O2. rewrite Eo2, Et2 in Q25. fold g in B2, Mx. fold tol in Q22.
  set (f2 := mkDb recs2 (Some SCHEMA) (Some _) 28) in O2.
  assert (RG2 : gradeMain EQ2 E F T L files opens G args2 fs2 d1 = (d2, Val (0, []))).
  { pose proof (proj1 (C57_grade DB2 EQ2 E F T L files opens G args2 fs2 d1) k2 fp2 fm fo ft2 K2 M1 M2 M3 M4) as Y. rewrite R2 in Y. cbn [fst snd] in Y.
    destruct Y as [Y1 Y2]. destruct (gradeMain EQ2 E F T L files opens G args2 fs2 d1) as [d2' o]. cbn [fst snd] in *. subst d2'. inversion Y2; subst. reflexivity. }
  exists d2, f2, after2. split; [exact RG2|]. split; [exact O2|]. split; [rewrite Q25 by assumption; exact O|]. split; [exact X2|].
  assert (E2 : forall i j k, in_grid nl nw nh i j k -> before2 i j k = prepared (gp_minVs g) (after i j k)).
  { intros i j k I. destruct (B2 i j k I) as (w & ans & o & W1 & _ & W3 & ->). rewrite (AN i j k w ans o I W1 W3). reflexivity. }
  assert (Low : below3 nl nw nh (fun l w h => b l w h - tol)%R b2).
  { apply Mx.
    - destruct L1 as (Lv & Ll & Lw). split; [|split]; intros l w h I1 I2.
      + replace (b l w h - tol - (b l w (h + 1)%Z - tol))%R with (b l w h - b l w (h + 1)%Z)%R by ring. apply Lv; assumption.
      + replace (b l w h - tol - (b (l + 1)%Z w h - tol))%R with (b l w h - b (l + 1)%Z w h)%R by ring. apply Ll; assumption.
      + replace (b l w h - tol - (b l (w + 1)%Z h - tol))%R with (b l w h - b l (w + 1)%Z h)%R by ring. apply Lw; assumption.
    - intros l w h I. rewrite (E2 l w h I). destruct (Up l w h I) as (_ & U & _). specialize (Q2 l w h I). apply Rabs_le_inv in Q2. lra. }
  intros i j k I. specialize (Low i j k I). pose proof (Q21 i j k I) as T1. cbn beta in T1. rewrite (E2 i j k I) in T1.
  specialize (Q2 i j k I). specialize (Q22 i j k I). apply Rabs_le_inv in Q2, Q22. destruct (Up i j k I) as (U & _ & _). apply Rabs_le. lra.
Qed.
Print Assumptions C83_run_twice.

(** ** Example: the grid of 2 by 3 by 2 points of C82_example *)
From Verif Require Import ToyLib ToyDb ToyGrid ToyGrade PropApp AvgFinal PropParams.
Local Open Scope Z_scope.
Definition again_named : list (ascii * string) := [("p"%char, "grade.par"); ("i"%char, "out.etree"); ("o"%char, "again.etree"); ("t"%char, "tmp2.etree")]%string.
Definition again_args : list string := ["-p"; "grade.par"; "-i"; "out.etree"; "-o"; "again.etree"; "-t"; "tmp2.etree"]%string.
Definition first_recs : contents := Eval vm_compute in
  match fst limit_run "out.etree"%string with Some f => d_recs f | None => [] end.
Definition again_source (db : contents) : env contents :=
  mkEnv (fun n _ => if String.eqb n "out.etree" then Some db else None) (fun _ => true) lsearch (fun _ => true)
    (fun _ => ""%string) (fun _ => ""%string) (fun _ => ""%string).
Definition again_read : VsRun.vsgrader := VsRun.mkVsg "out.etree" "again.etree" "tmp2.etree" "grade.par" 128 f_zero MAXRES run_grid.
Definition again_run : disk * outcome (Z * list said) :=
  gradeMain (again_source first_recs) toy_etree toy_fmt app_texts toy2 (sample_file grade_text) (fun _ _ => true) lstore again_args no_files (fst limit_run).
Lemma first_is f : fst limit_run "out.etree"%string = Some f -> d_recs f = first_recs.
Proof.
  intros H. assert (E : match fst limit_run "out.etree"%string with Some f => d_recs f | None => [] end = first_recs) by (vm_compute; reflexivity).
  rewrite H in E. exact E.
Qed.
Lemma again_command : command grade_letters again_args again_named.
Proof. apply (C57_separate_words grade_letters again_named). repeat constructor; cbn; tauto. Qed.
Lemma again_reads : VsRun.readParams toy_fmt (sample_file grade_text) (limiter "grade.par" "out.etree" "again.etree" "tmp2.etree" (given_as (t_atoi app_texts) "c" again_named 128)) = Val again_read.
Proof. vm_compute. reflexivity. Qed.
Lemma run_least : least_speed (gp_minVs run_placed).
Proof.
  assert (E : exists y, gp_minVs run_placed = y /\ y = ltac:(let y := eval vm_compute in (gp_minVs run_placed) in exact y)) by (eexists; split; [vm_compute; reflexivity | reflexivity]).
  destruct E as (y & -> & ->). split; [split; vm_compute; reflexivity|]. unfold value, SF2R, F2R. cbn. lra.
Qed.
Example C83_run_example : exists d2 f1 f2 after1 after2, fst limit_run "out.etree"%string = Some f1 /\ again_run = (d2, Val (0, [])) /\
  d2 "again.etree"%string = Some f2 /\ exactly_grid (d_recs f1) 2 3 2 toy_cell after1 /\ exactly_grid (d_recs f2) 2 3 2 toy_cell after2.
Proof.
  destruct (C83_run_twice contents (source full_input) toy_etree toy_fmt app_texts toy2 (sample_file grade_text) (fun _ _ => true) lstore limit_args limit_named
    "grade.par" "in.etree" "tmp.etree" "out.etree" no_files (fun _ => None) run_read (gp_lon run_grid) (gp_lat run_grid) full_input Finest 2 3 2 toy_cell
    (mul64 (gp_gradient run_placed) (gp_res run_placed)) (mul64 (gp_gradient run_placed) (resHoriz run_placed)) 4096%R)
    as (d1 & f1 & after1 & X1 & X2 & X3 & Y).
  - exact toy_storage.
  - reflexivity.
  - exact lstore_ok.
  - apply (C57_separate_words grade_letters limit_named). repeat constructor; cbn; tauto.
  - split; [reflexivity | discriminate].
  - split; [reflexivity | discriminate].
  - split; [reflexivity | discriminate].
  - split; [reflexivity | discriminate].
  - discriminate.
  - vm_compute. reflexivity.
  - vm_compute. reflexivity.
  - exact full_settings.
  - exact full_limits.
  - exact run_least.
  - assert (D : d1 = fst limit_run) by (unfold limit_run; rewrite X1; reflexivity). clear X1. subst d1. pose proof (first_is f1 X2) as Fr.
    destruct (Y contents (again_source first_recs) again_args again_named "grade.par"%string "again.etree"%string "tmp2.etree"%string no_files again_read)
      as (d2 & f2 & after2 & Z1 & Z2 & _ & Z3 & _).
    + exact again_command.
    + split; [reflexivity | discriminate].
    + split; [reflexivity | discriminate].
    + split; [reflexivity | discriminate].
    + split; [reflexivity | discriminate].
    + discriminate.
    + discriminate.
    + discriminate.
    + exact again_reads.
    + rewrite Fr. split; [reflexivity|]. split; [reflexivity|]. split; [reflexivity|]. exists first_recs. split; [reflexivity|]. apply lsearch_ok.
    + exists d2, f1, f2, after1, after2. split; [exact X2|]. split; [exact Z1|]. split; [exact Z2|]. split; [exact X3 | exact Z3].
Qed.
(** Here the second run changes nothing at all. *)
Example C83_run_example_values : match fst again_run "again.etree"%string with Some f => d_recs f = first_recs | None => False end /\
  map (fun r => p_vs (snd r)) first_recs <> map (fun r => p_vs (snd r)) full_input.
Proof. split; vm_compute; [reflexivity | discriminate]. Qed.
