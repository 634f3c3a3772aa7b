(** C82: limiting gradients, averaging and asking.  The output of gradecencalvm is averaged
    by cencalvmavg, the result is opened and queried. *)
From Coq Require Import ZArith Bool Lia Lra Reals String Ascii Sorting.Sorted List.
From Flocq Require Import Core.
From Verif Require Import Outcome Float Payload Addr SpecOct AvgEngine SpecAvg SpecGeom Geom GeomProof GeomLevel ErrorHandler VMQuery Store Averager VMCreator SpecStore StoreFacts
  Stream GetOpt QueryApp SpecHist SpecApp SpecText SpecGrid SpecQuery QueryFacts QueryProof QueryMain SpecE2E E2EFacts
  SmallApps SpecSmall SmallFacts SpecPipe PropAvg PropStore PropSmall PropE2E PropQuery PropPipe.
From Verif Require Import VsGrader SpecGrade SpecExtract SpecGradePipe PropVsRun.
From Verif Require GridIngester VsRun.
Import ListNotations.
Open Scope Z_scope.

Lemma toAddr_level L a lon lat elev cd b : lonLatElevToAddr L a lon lat elev = Val (cd, b) -> a_level b = a_level a.
Proof.
  unfold lonLatElevToAddr. destruct (assert_ _); try discriminate. cbn [bind]. destruct (project L lon lat) as [[x y]| | |]; try discriminate.
  cbn [bind]. unfold pqr_to_addr. destruct (_ || _ || _); [intros H; injection H as <- <-; reflexivity|].
  cbv zeta. repeat (destruct (f2tick _); cbn [bind]; try discriminate). intros H. injection H as <- <-. reflexivity.
Qed.
(** All octants of a grid have the same size. *)
Lemma grid_level L g nl nw nh cell i j k i' j' k' : grid_points (indexToLonLat L g) (gridAddr L g) nl nw nh cell ->
  in_grid nl nw nh i j k -> in_grid nl nw nh i' j' k' -> a_level (cell i j k) = a_level (cell i' j' k').
Proof.
  intros (P & _) G G'.
  assert (X : forall i j k, in_grid nl nw nh i j k -> level L (resHoriz g) = Val (a_level (cell i j k))).
  { clear i j k i' j' k' G G'. intros i j k (A & B & C). destruct (P i j A B) as (ll & _ & H). specialize (H k C). unfold gridAddr in H.
    destruct (level L (resHoriz g)) as [l| | |]; try discriminate. cbn [bind] in H.
    destruct (lonLatElevToAddr _ _ _ _ _) as [[cd b]| | |] eqn:Q; try discriminate. cbn [bind] in H. injection H as <-.
    rewrite (toAddr_level _ _ _ _ _ _ _ Q). reflexivity. }
  pose proof (X _ _ _ G) as E. rewrite (X _ _ _ G') in E. congruence.
Qed.
(** The graded file is a well formed input for averaging. *)
Lemma graded_wf L g nl nw nh cell recs v : 0 < nl -> 0 < nw -> 0 < nh -> grid_points (indexToLonLat L g) (gridAddr L g) nl nw nh cell ->
  (forall i j k, in_grid nl nw nh i j k -> 1 <= a_level (cell i j k)) ->
  exactly_grid recs nl nw nh cell v -> StronglySorted etree_lt (map fst recs) -> wf_input recs.
Proof.
  intros N1 N2 N3 GP LV (D & X) S.
  assert (C : forall a, In a (map fst recs) -> exists i j k, in_grid nl nw nh i j k /\ a = cell i j k).
  { intros a I. apply in_map_iff in I. destruct I as ([a' p] & <- & I). apply X in I. destruct I as (i & j & k & G & E & _). exists i, j, k. auto. }
  constructor.
  - intros ->. apply (proj2 (X (cell 0 0 0) (v 0 0 0))). exists 0, 0, 0. split; [unfold in_grid; lia | auto].
  - intros a I. destruct (C a I) as (i & j & k & G & ->). split; [apply GP, G | exact (LV i j k G)].
  - exact S.
  - intros a b I J [L1 _]. destruct (C a I) as (i & j & k & G & ->). destruct (C b J) as (i' & j' & k' & G' & ->).
    rewrite (grid_level L g nl nw nh cell i j k i' j' k' GP G G') in L1. lia.
Qed.
Lemma speed_proper M p : speed_upto M p -> storable p -> proper_values p.
Proof.
  intros ((_ & F) & _) (V & _). split.
  - intros f. rewrite Forall_forall in V. apply V. destruct f; cbn; auto 10.
  - destruct (p_vs p); try reflexivity; discriminate.
Qed.

(** C82.  Both programs exit with code 0; the database [fo] has the standard layout and is
    the average of exactly the points of the grid, with limited shear speeds: all of C44
    applies to it. *)
Theorem C82_built : forall DB (EQ : env DB) E F T L files opens G gargs gk aargs ak fp fin ft fm fo fs d v x y inp r nl nw nh cell dv dh M,
  storage_works E -> (forall d1, opens d1 fm = true) -> stores G (fun l => l) ->
  command grade_letters gargs gk -> named "p" gk fp -> named "i" gk fin -> named "o" gk fm -> named "t" gk ft -> ft <> fm ->
  VsRun.readParams F files (limiter fp fin fm ft (given_as (t_atoi T) "c" gk 128)) = Val v ->
  m_project L (gp_lon (VsRun.vg_g v)) (gp_lat (VsRun.vg_g v)) = Some (x, y) ->
  let g := VsRun.set_xy (VsRun.vg_g v) x y in
  grid_settings EQ L v g inp r nl nw nh cell M -> limits g dv dh ->
  command avg_letters aargs ak -> named "i" ak fm -> named "o" ak fo -> fm <> fo ->
  exists d1 d2 recs after out, gradeMain EQ E F T L files opens G gargs fs d = (d1, Val (0, [])) /\
    avgMain E aargs d1 = (d2, Val (0, [])) /\
    exactly_grid recs nl nw nh cell after /\ limited_values L g inp r nl nw nh dv dh M after /\
    (forall i j k w, in_grid nl nw nh i j k -> point_place L g i j k w -> holds (cell i j k) w) /\
    averaged_into E d1 d2 recs (d_recs out) /\ usable E d2 fo out /\
    (forall n, n <> ft -> n <> fm -> n <> fo -> d2 n = d n).
Proof.
  intros DB EQ E F T L files opens G gargs gk aargs ak fp fin ft fm fo fs d v x y inp r nl nw nh cell dv dh M
    (S1 & S2 & S3 & S4 & S5 & S6 & S7 & S8) HOp HSt K N1 N2 N3 N4 Hn RP PJ g
    (A1 & (dq & A2 & A3) & A4 & A5 & A6 & C1 & C2 & C3 & (P1 & P2 & P3) & GP & LV & HD & SP & HM) (-> & -> & Fv & Hv & Fh & Hh) K' M1 M2 Hn'.
  pose proof (readParams_names _ _ _ _ RP) as Nm. unfold names in Nm. pose proof (f_equal (fun q => snd (fst (fst q))) Nm) as Eo. pose proof (f_equal (fun q => snd (fst q)) Nm) as Et.
  cbn [fst snd VsRun.vg_out VsRun.vg_tmp limiter] in Eo, Et.
  destruct (C56_run DB EQ E F files L opens G _ v x y dq inp r fs d nl nw nh cell M RP PJ A1 A2 A3 A4 A5 A6 C1 C2 C3 P1 P2 P3 GP HD SP HM Fv Hv Fh Hh)
    as (d1 & recs & before & after & R & O & X & SR & B & Q1 & Q2 & Q3 & _ & Q4 & Q5); try assumption.
  { rewrite Eo, Et. exact Hn. } { intros d0. split; [apply S4|]. split; [apply S4 | apply S5]. } { apply S6. } { apply S8. } { apply S7. } { apply S7. } { rewrite Eo. exact HOp. }
  rewrite Eo in O. rewrite Eo, Et in Q5.
  set (f := mkDb recs (Some SCHEMA) (Some _) 28) in O.
  assert (RG : gradeMain EQ E F T L files opens G gargs fs d = (d1, Val (0, []))).
  { pose proof (proj1 (C57_grade DB EQ E F T L files opens G gargs fs d) gk fp fin fm ft K N1 N2 N3 N4) as Y. rewrite R in Y. cbn [fst snd] in Y.
    destruct Y as [Y1 Y2]. destruct (gradeMain EQ E F T L files opens G gargs fs d) as [d1' o]. cbn [fst snd] in *. subst d1'. inversion Y2; subst. reflexivity. }
  assert (U : usable E d1 fm f) by (split; [exact O|]; split; [apply S5|]; split; reflexivity).
  assert (W : wf_input (d_recs f)) by exact (graded_wf L g nl nw nh cell recs after P1 P2 P3 GP LV X SR).
  destruct (C17_averages_file E fm fo d1 f Hn' U (S4 _ _) (S6 _) (S8 _) S3 W) as (d2 & st & avg & FO & RA & ST & D2 & C).
  assert (RG2 : avgMain E aargs d1 = (d2, Val (0, []))).
  { pose proof (proj1 (C57_avg E aargs d1) ak fm fo K' M1 M2) as [Y1 Y2]. rewrite RA in Y1, Y2. destruct (avgMain E aargs d1) as [d2' o].
    cbn [fst snd] in *. subst d2'. inversion Y2; subst. reflexivity. }
  eexists d1, d2, recs, after, _. split; [exact RG|]. split; [exact RG2|]. split; [exact X|]. split; [|split; [|split; [|split]]].
  - exists before. split; [|split; [exact Q1|]; split; [exact Q2 | exact Q3]]. intros i j k I. destruct (B i j k I) as (w & ans & o & W1 & _ & W3 & W4). exists w, ans, o. auto.
  - intros i j k w I PP. destruct (B i j k I) as (w' & ans & o & W1 & W2 & _). rewrite (place_unique _ _ _ _ _ _ _ PP W1). exact W2.
  - exists fm, fo, f. eexists. exists (e_cnt st). split; [exact Hn'|]. split; [exact U|]. split; [apply S4|]. split; [apply S6|]. split; [apply S8|]. split; [exact S3|]. split; [reflexivity|].
    split; [exact W|]. split; [|split; [exact RA|]; split; [exact D2 | reflexivity]].
    intros a p I. apply (proj1 (proj2 X a p)) in I. destruct I as (i & j & k & I & -> & ->). split; [apply GP, I|].
    destruct (Q4 i j k I) as (Y1 & Y2 & _). exact (speed_proper M _ Y1 Y2).
  - split; [exact D2|]. split; [apply S5|]. split; reflexivity.
  - intros n Z1 Z2 Z3. rewrite (C n Z3). apply Q5; assumption.
Qed.
Print Assumptions C82_built.

(** Asked for anywhere in its octant, and so at the place of the point itself, a point of the
    grid has its limited values; outside these octants there is no data. *)
Theorem C82_answers : forall E d1 d2 inp recs DB (EQ : env DB) q fs lon lat elev w names olds nl nw nh cell after,
  averaged_into E d1 d2 inp recs -> exactly_grid inp nl nw nh cell after ->
  serves EQ q recs -> q_type q = MAXRES -> QueryMain.plain q lon lat elev w names olds -> place_inside w -> Forall material names ->
  (forall i j k, in_grid nl nw nh i j k -> holds (cell i j k) w -> exists q' fs',
     query EQ q fs (Some olds) lon lat elev = Val (q', fs', QueryMain.values (after i j k) f_zero names)) /\
  ((forall i j k, in_grid nl nw nh i j k -> ~ holds (cell i j k) w) -> exists q' fs',
     query EQ q fs (Some olds) lon lat elev = Val (q', fs', QueryMain.values no_data f_zero names)).
Proof.
  intros E d1 d2 inp recs DB EQ q fs lon lat elev w names olds nl nw nh cell after A (_ & X) S TY P I M.
  destruct (averaged_run _ _ _ _ _ A) as (_ & W & _).
  destruct (C44_maxres E d1 d2 inp recs DB EQ q fs lon lat elev w names olds A S TY P I M) as (ans & FI & q' & fs' & Q).
  split.
  - intros i j k G H. exists q', fs'. rewrite Q. do 2 f_equal. assert (IC : In (cell i j k, after i j k) inp) by (apply X; exists i, j, k; auto).
    assert (Y : ans = after i j k); [|rewrite Y; reflexivity]. destruct FI as [(a & IA & H')|[_ N]].
    + apply (input_unique inp W a ans _ _ IA IC). exact (input_holding inp W a ans _ _ w IA IC H' H).
    + destruct (N _ _ IC H).
  - intros N. exists q', fs'. rewrite Q. do 2 f_equal. destruct FI as [(a & IA & H')|[-> _]]; [|reflexivity].
    apply X in IA. destruct IA as (i & j & k & G & -> & _). destruct (N i j k G H').
Qed.
Print Assumptions C82_answers.

(** ** Example: the grid of 2 by 3 by 2 points of C56_example *)
From Verif Require Import ToyLib ToyDb ToyGrid ToyGrade PropApp AvgFinal PropParams.
Local Open Scope Z_scope.
Definition limit_named : list (ascii * string) := [("p"%char, "grade.par"); ("i"%char, "in.etree"); ("o"%char, "out.etree"); ("t"%char, "tmp.etree")]%string.
Definition limit_args : list string := ["-p"; "grade.par"; "-i"; "in.etree"; "-o"; "out.etree"; "-t"; "tmp.etree"]%string.
Definition mean_named : list (ascii * string) := [("i"%char, "out.etree"); ("o"%char, "model.etree")]%string.
Definition mean_args : list string := ["-i"; "out.etree"; "-o"; "model.etree"]%string.
Definition limit_run : disk * outcome (Z * list said) :=
  gradeMain (source full_input) toy_etree toy_fmt app_texts toy2 (sample_file grade_text) (fun _ _ => true) lstore limit_args no_files (fun _ => None).
Lemma full_settings : grid_settings (source full_input) toy2 run_read run_placed full_input Finest 2 3 2 toy_cell 4096%R.
Proof.
  destruct C56_example as (_ & _ & (E1 & E2 & E3 & E4 & E5 & E6) & (E7 & E8 & E9 & E10) & E11 & E12 & _).
  split; [exact E1|]. split; [exists full_input; split; [exact E2 | exact E3]|]. split; [exact E4|]. split; [exact E5|]. split; [exact E6|].
  split; [exact E7|]. split; [exact E8|]. split; [exact E9|]. split; [lia|]. split; [exact E10|]. split; [intros; cbn; lia|]. split; [exact E11|]. split; [exact E12 | lra].
Qed.
Lemma full_limits : limits run_placed (mul64 (gp_gradient run_placed) (gp_res run_placed)) (mul64 (gp_gradient run_placed) (resHoriz run_placed)).
Proof. destruct C56_example as (_ & _ & _ & _ & _ & _ & E & _). cbv zeta in E. split; [reflexivity|]. split; [reflexivity | exact E]. Qed.
(** The hypotheses of C82_built hold; *)
Example C82_example : exists d1 d2 recs after out, limit_run = (d1, Val (0, [])) /\ avgMain toy_etree mean_args d1 = (d2, Val (0, [])) /\
  exactly_grid recs 2 3 2 toy_cell after /\ averaged_into toy_etree d1 d2 recs (d_recs out) /\ usable toy_etree d2 "model.etree" out.
Proof.
  destruct (C82_built contents (source full_input) toy_etree toy_fmt app_texts toy2 (sample_file grade_text) (fun _ _ => true) lstore limit_args limit_named mean_args mean_named
    "grade.par" "in.etree" "tmp.etree" "out.etree" "model.etree" no_files (fun _ => None) run_read (gp_lon run_grid) (gp_lat run_grid) full_input Finest 2 3 2 toy_cell
    (mul64 (gp_gradient run_placed) (gp_res run_placed)) (mul64 (gp_gradient run_placed) (resHoriz run_placed)) 4096%R)
    as (d1 & d2 & recs & after & out & X1 & X2 & X3 & _ & _ & X4 & X5 & _).
  - exact toy_storage.
  - reflexivity.
  - exact lstore_ok.
  - apply (C57_separate_words grade_letters limit_named). repeat constructor; cbn; tauto.
  - split; [reflexivity | discriminate].
  - split; [reflexivity | discriminate].
  - split; [reflexivity | discriminate].
  - split; [reflexivity | discriminate].
  - discriminate.
  - vm_compute. reflexivity.
  - vm_compute. reflexivity.
  - exact full_settings.
  - exact full_limits.
  - apply (C57_separate_words avg_letters mean_named). repeat constructor; cbn; tauto.
  - split; [reflexivity | discriminate].
  - split; [reflexivity | discriminate].
  - discriminate.
  - exists d1, d2, recs, after, out. auto.
Qed.
(** the shear speeds of the input along the width, 500, 1380 and 2260 m/s, come back as 500,
    1300 and 940 m/s. *)
Definition limited_model : contents :=
  match fst (avgMain toy_etree mean_args (fst limit_run)) "model.etree"%string with Some g => d_recs g | None => [] end.
Definition ask_point (db : contents) (l w h : Z) : outcome (list f64) :=
  match indexToLonLat toy2 run_placed l w with
  | Val (lon, lat) => outcome_values (query toy_env (mkQ f_zero (i2f64 (-2000)) (Some db) None (map (fun n => Some (code n)) [NVs; NVp]) toy2 eh_new "detailed" "" MAXRES 128 128 false)
      no_files (Some [f_zero; f_zero]) lon lat (indexToElev run_placed h))
  | Throw m => Throw m | Abort => Abort | UB w => UB w
  end.
Example C82_example_values :
  map (fun w => ask_point full_input 0 w 0) [0; 1; 2] = map (fun v => Val (map i2f64 [v; 2 * v])) [500; 1380; 2260] /\
  map (fun w => ask_point limited_model 0 w 0) [0; 1; 2] = map (fun v => Val (map i2f64 [v; 2 * v])) [500; 1300; 940].
Proof. split; vm_compute; reflexivity. Qed.
