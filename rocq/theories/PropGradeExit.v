(** C58, gradecencalvm: what exit code 0 tells. *)
From Coq Require Import ZArith Bool Reals Lra Lia Ascii String List Permutation Sorted.
From Flocq Require Import Core BinarySingleNaN.
From Verif Require Import Outcome Float Payload Addr SpecOct SpecAvg SpecGeom FloatFacts Geom GeomFacts GeomProof GradePlace ErrorHandler VMQuery SpecQuery
  AvgEngine Store SpecStore StoreFacts Averager VMCreator Stream SpecGrid GridMain VsGrader SpecGrade GradeGrid VsRun
  SpecExtract ExtractFacts PropGrade PropExtract PropVsRun.
From Verif Require Import GetOpt QueryApp SpecHist SpecApp SmallApps SpecSmall SmallFacts PropSmall.
Import ListNotations.
Open Scope Z_scope.

(** ** A run that succeeds is a run with storage that never fails *)
(** The same library where every call whose failure the programs notice succeeds. *)
Definition willing_store : storage := mkStorage true (fun _ _ => true) (fun _ _ => true) true.
Definition willing (E : etree) : etree :=
  mkEtree (fun _ _ => true) (fun _ _ => true) (et_wreck E) (fun _ => true) (fun _ _ => true) (fun _ => true) (fun _ _ => true) (et_adv E)
    willing_store (fun _ _ => true) (et_before E) (fun _ => true) (et_flush E) (et_stale E) (et_partial E) (et_error E) (et_now E) (et_host E).

(** Whenever the first succeeds, so does the second, with the same result. *)
Definition within {A} (m m' : io A) : Prop := forall d d' a, m d = (d', Val a) -> m' d = (d', Val a).
Lemma within_refl {A} (m : io A) : within m m.
Proof. intros d d' a H. exact H. Qed.
Lemma within_then {A B} (m m' : io A) (k k' : A -> io B) : within m m' -> (forall a, within (k a) (k' a)) -> within (andThen m k) (andThen m' k').
Proof.
  intros H K d d' b Q. unfold andThen in *. destruct (m d) as [d1 [a|s| |s]] eqn:M; try discriminate. rewrite (H _ _ _ M). exact (K a _ _ _ Q).
Qed.
Lemma within_fold {X Y} (f f' : Y -> X -> io Y) : (forall y x, within (f y x) (f' y x)) -> forall l y, within (foldIO f l y) (foldIO f' l y).
Proof. intros H. induction l as [|x l IH]; intros y; cbn [foldIO]; [apply within_refl|]. apply within_then; [apply H | intros a; apply IH]. Qed.
Lemma within_throw {A} s (m : io A) : within (throw s) m.
Proof. intros d d' a H. discriminate. Qed.

Section Willing.
Variable E : etree.
Lemma within_openRead n m : within (openRead E n m) (openRead (willing E) n m).
Proof. intros d d' a. unfold openRead. cbn [et_open willing]. destruct (d n); [|discriminate]. destruct (et_open E d n); [auto | discriminate]. Qed.
Lemma within_openNew n m : within (openNew E n m) (openNew (willing E) n m).
Proof. intros d d' a. unfold openNew. cbn [et_create willing]. destruct (et_create E d n); [auto | discriminate]. Qed.
Lemma within_schema n : within (registerSchema E n) (registerSchema (willing E) n).
Proof. unfold registerSchema. cbn [et_regschema willing]. destruct (et_regschema E n); [apply within_refl | apply within_throw]. Qed.
Lemma within_meta n m : within (setAppMeta E n m) (setAppMeta (willing E) n m).
Proof. unfold setAppMeta. cbn [et_setmeta willing]. destruct (et_setmeta E n m); [apply within_refl | apply within_throw]. Qed.
Lemma within_openDB n m : within (openDB E n m) (openDB (willing E) n m).
Proof.
  unfold openDB. apply within_then; [apply within_openNew | intros _]. apply within_then; [apply within_schema | intros _]. apply within_meta.
Qed.
Lemma within_insert L n p lon lat elev res : within (insert E L (Some n) p lon lat elev res) (insert (willing E) L (Some n) p lon lat elev res).
Proof.
  unfold insert. apply within_then; [apply within_refl | intros lev]. apply within_then; [apply within_refl | intros r]. cbv zeta.
  intros d d' a. cbn [et_insert et_before willing]. destruct (d n) as [f|]; [|discriminate]. destruct (et_insert E (d_recs f) (snd r)); [auto | discriminate].
Qed.
Lemma copy_willing from : forall todo done l, copyRecs E from done todo = Val l -> copyRecs (willing E) from done todo = Val l.
Proof.
  induction todo as [|[a p] todo IH]; intros done l; cbn [copyRecs et_get et_adv et_store st_append_ok willing willing_store negb]; [auto|].
  destruct (et_get E from a); [|discriminate]. cbn [negb]. destruct (st_append_ok _ _ _); [|discriminate]. cbn [negb].
  destruct (et_adv E from a); [apply IH | auto].
Qed.
Lemma failing {A} n g s d d' (a : A) : (do* _ := write n g in throw s) d = (d', Val a) -> False.
Proof. discriminate. Qed.
Lemma within_pack p u : within (packDB E p u) (packDB (willing E) p u).
Proof.
  unfold packDB. apply within_then; [apply within_openRead | intros f]. apply within_then; [apply within_openNew | intros _].
  apply within_then; [apply within_schema | intros _]. apply within_then; [destruct (d_meta f); [apply within_meta | apply within_refl] | intros _].
  cbv zeta. cbn [et_stale et_cursor et_store st_begin_ok st_end_ok et_close et_error et_partial willing willing_store negb]. rewrite orb_false_r.
  set (recs := if String.eqb u p then et_stale E else d_recs f). destruct (match recs with [] => true | _ => false end); [apply within_throw|].
  cbn [orb]. destruct (et_cursor E u); [|apply within_throw]. cbn [negb]. destruct (st_begin_ok (et_store E)); [|apply within_throw]. cbn [negb].
  destruct (negb (d_size f =? PAYLOADSIZE)); [apply within_refl|].
  intros d d' a. destruct (copyRecs E u [] recs) as [l|m| |w] eqn:C; try discriminate. rewrite (copy_willing _ _ _ _ C).
  destruct (st_end_ok (et_store E)); [|discriminate]. cbn [negb]. destruct (et_close E u); [|discriminate]. cbn [negb].
  destruct (et_close E p); [auto | discriminate].
Qed.
Lemma within_grade L opens G g n : within (gradeFile E L opens G g n) (gradeFile (willing E) L (fun _ _ => true) G g n).
Proof.
  intros d d' a. unfold gradeFile. destruct (d n) as [f|]; [|discriminate]. destruct (opens d n); [|discriminate].
  cbn [et_close et_error et_partial willing]. unfold grade.
  destruct (count (gp_len g) _); try discriminate. destruct (count (gp_width g) _); try discriminate. destruct (count (gp_ht g) _); try discriminate.
  cbn [bind]. destruct (gradeDirs _ _ _ _ _ _ _ _ _ _) as [db| | |]; try discriminate. cbn [bind]. destruct (et_close E n); [auto | discriminate].
Qed.
Lemma within_extract {DB} (EQ : env DB) F L v fs : within (extract EQ E F L v fs) (extract EQ (willing E) F L v fs).
Proof.
  unfold extract. apply within_then; [apply within_refl | intros q]. intros d d' a. unfold unwinding.
  match goal with |- match ?m d with _ => _ end = _ -> match ?m' d with _ => _ end = _ => assert (W : within m m') end.
  { apply within_then; [apply within_openDB | intros _]. do 4 (apply within_then; [apply within_refl | intros ?]).
    apply within_then; [|intros st; apply within_refl].
    apply within_fold; intros st1 i. apply within_fold; intros st2 j. apply within_then; [apply within_refl | intros ll].
    apply within_fold; intros [[q1 fs1] vals] k. unfold extractPoint. apply within_then; [apply within_refl | intros r].
    apply within_then; [apply within_refl | intros p]. apply within_then; [apply within_insert | intros _; apply within_refl]. }
  match goal with |- match ?m d with _ => _ end = _ -> _ => destruct (m d) as [d1 [b|s| |s]] eqn:M end; try discriminate.
  - rewrite (W _ _ _ M). auto.
  - destruct (destroy EQ q); discriminate.
Qed.
Lemma within_run {DB} (EQ : env DB) F T L opens G v fs :
  within (VsRun.run EQ E F T L opens G v fs) (VsRun.run EQ (willing E) F T L (fun _ _ => true) G v fs).
Proof.
  unfold VsRun.run. apply within_then; [apply within_refl | intros v1]. apply within_then; [apply within_refl | intros v2].
  apply within_then; [apply within_extract | intros _]. apply within_then; [apply within_pack | intros _]. apply within_grade.
Qed.
End Willing.

(** ** An empty grid is not packed *)
Lemma fold_still {X Y} (f : Y -> X -> io Y) l : (forall y x d d' y', In x l -> f y x d = (d', Val y') -> d' = d) ->
  forall y d d' y', foldIO f l y d = (d', Val y') -> d' = d.
Proof.
  induction l as [|x l IH]; intros H y d d' y'; cbn [foldIO]; [intros Q; injection Q; auto|].
  unfold andThen. destruct (f y x d) as [d1 [y1|s| |s]] eqn:Q; try discriminate. apply H in Q; [|left; reflexivity]. subst d1.
  apply IH. intros y2 x2 d2 d3 y3 I. apply H. right. exact I.
Qed.
Lemma range_none n : n <= 0 -> range n = [].
Proof. intros H. unfold range. replace (Z.to_nat n) with O by lia. reflexivity. Qed.


Lemma extract_counts {DB} (EQ : env DB) E F L v fs d d' : extract EQ (willing E) F L v fs d = (d', Val tt) -> et_flush E (vg_tmp v) = true ->
  exists nl nw nh, count (gp_len (vg_g v)) (resHoriz (vg_g v)) = Val nl /\ count (gp_width (vg_g v)) (resHoriz (vg_g v)) = Val nw /\
    count (gp_ht (vg_g v)) (gp_res (vg_g v)) = Val nh /\
    (nl <= 0 \/ nw <= 0 \/ nh <= 0 -> exists f, d' (vg_tmp v) = Some f /\ d_recs f = []).
Proof.
  intros H FL. unfold extract in H. unfold andThen at 1, lift at 1 in H.
  destruct (open EQ (origQuery L v)) as [q|s| |s]; try discriminate. cbv beta iota in H.
  destruct (openDB_ok (willing E) (vg_tmp v) (description F v) d) as (d1 & O1 & O2 & _); [repeat split|].
  unfold unwinding in H. unfold andThen at 1 in H. rewrite O1 in H. cbv beta iota in H.
  unfold andThen at 1, lift at 1 in H. destruct (count (gp_len (vg_g v)) _) as [nl|s| |s] eqn:N1; try discriminate; [|destruct (destroy EQ q); discriminate]. cbv beta iota in H.
  unfold andThen at 1, lift at 1 in H. destruct (count (gp_width (vg_g v)) _) as [nw|s| |s] eqn:N2; try discriminate; [|destruct (destroy EQ q); discriminate]. cbv beta iota in H.
  unfold andThen at 1, lift at 1 in H. destruct (count (gp_ht (vg_g v)) _) as [nh|s| |s] eqn:N3; try discriminate; [|destruct (destroy EQ q); discriminate]. cbv beta iota in H.
  unfold andThen at 1, lift at 1 in H. destruct (set_queryVals _ q) as [q2|s| |s]; try discriminate; [|destruct (destroy EQ q); discriminate]. cbv beta iota in H.
  exists nl, nw, nh. do 3 (split; [reflexivity|]). intros Z. unfold andThen at 1 in H.
  match type of H with context [match foldIO ?f ?l ?y d1 with _ => _ end] => pose proof (fold_still f l) as FS; destruct (foldIO f l y d1) as [d2 [st|s| |s]] eqn:FO end;
    try discriminate; [|destruct (destroy EQ q); discriminate].
  assert (K : d2 = d1).
  { refine (FS _ _ _ _ _ FO). clear -Z. intros y i d0 d0' y' Hi.
    apply (fold_still (fun st iWidth => do* ll := lift (indexToLonLat L (vg_g v) i iWidth) in foldIO (extractPoint EQ (willing E) L v (fst ll) (snd ll)) (range nh) st)).
    intros y1 j d3 d4 y2 Hj. unfold andThen, lift. destruct (indexToLonLat L (vg_g v) i j) as [ll| | |]; try discriminate.
    apply GradeGrid.range_in in Hi, Hj. rewrite (range_none nh) by lia. cbn [foldIO]. intros Q. injection Q. auto. }
  subst d2. rewrite (closeDB_ok (willing E) _ FL) in H. unfold andThen, ret, lift in H. cbv beta iota in H.
  destruct (destroy EQ (close EQ (fst (fst st)))) as [u|s| |s]; try discriminate; [|destruct (destroy EQ q); discriminate].
  injection H as <- _. rewrite O2. eexists. split; [reflexivity | reflexivity].
Qed.

(** The cache stays positive. *)
Lemma setting_cache F t s v s' v' : setting F t s v = Val (s', v') -> 0 < vg_cache v -> 0 < vg_cache v'.
Proof.
  unfold setting, getFresh. intros H C. destruct (dtoken t).
  - destruct (getNum _ _ _) as [s2 z]. injection H as _ <-. exact C.
  - destruct (casecmp t "cache-size").
    + destruct (getWord _) as [s2 [w|]]; [|discriminate]. destruct (n_int F w) as [n ok]. cbn [bind] in H. injection H as _ <-.
      destruct (0 <? n) eqn:Q; [apply Z.ltb_lt in Q; exact Q | exact C].
    + destruct (casecmp t "query-resolution").
      * destruct (getWord _) as [s2 [w|]]; [|discriminate]. destruct (n_f64 F w) as [n ok]. cbn [bind] in H. injection H as _ <-. destruct (fle f_zero n); exact C.
      * destruct (casecmp t "query-type"); [|discriminate]. destruct (getWord _) as [s2 w]. cbv zeta in H.
        repeat match type of H with (if ?b then _ else _) = _ => destruct b; [injection H as _ <-; exact C|] end. discriminate.
Qed.
Lemma settings_cache F fuel : forall t s v s' v', VsRun.settings F fuel t s v = Val (s', v') -> 0 < vg_cache v -> 0 < vg_cache v'.
Proof.
  induction fuel as [|fuel IH]; intros t s v s' v' H C; [discriminate|]. cbn [VsRun.settings] in H.
  destruct (_ && _); [|injection H as _ <-; exact C].
  destruct (setting F t s v) as [[s1 v1]| | |] eqn:E; try discriminate. cbn [bind] in H. destruct (getWord s1) as [s2 w].
  exact (IH _ _ _ _ _ H (setting_cache _ _ _ _ _ _ E C)).
Qed.
Lemma readParams_cache F T v v' : VsRun.readParams F T v = Val v' -> 0 < vg_cache v -> 0 < vg_cache v'.
Proof.
  unfold VsRun.readParams. intros H C. destruct (T _) as [text|]; [|discriminate]. destruct (getWord _) as [s name].
  destruct (casecmp _ _); [|discriminate]. destruct (getWord _) as [s1 t].
  match type of H with context [VsRun.settings ?F ?n ?t ?s ?v] => destruct (VsRun.settings F n t s v) as [[s2 v2]| | |] eqn:E end; try discriminate. cbn [bind] in H.
  destruct (negb (good s2)); [discriminate|]. destruct (complaints v2); [|discriminate]. injection H as <-.
  exact (settings_cache _ _ _ _ _ _ _ E C).
Qed.

(** ** Exit code 0 *)
(** The command line named the four files, the parameter file was read, its corner could be
    projected, the grid has points, the input could be opened, and the output is the limited
    grid: one record for each point, with the values of the input at the point limited as
    C56 says.  The storage library may fail in any way the program notices.  The remaining
    conditions are those the program does not check: that the input was searched properly, that
    the close of the temporary file reached the disk, that the temporary file was read to its
    end and that searches and updates of the output do what they say. *)
Theorem C58_grade_exit_0 : forall DB (EQ : env DB) E F T L files opens G args fs d d' s,
  gradeMain EQ E F T L files opens G args fs d = (d', Val (0, s)) ->
  exists kvs fp fin fout ft v x y, command grade_letters args kvs /\ named "p" kvs fp /\ named "i" kvs fin /\ named "o" kvs fout /\ named "t" kvs ft /\ s = [] /\
    (forall n, n <> fout -> n <> ft -> d' n = d n) /\
    VsRun.readParams F files (limiter fp fin fout ft (given_as (t_atoi T) "c" kvs 128)) = Val v /\
    m_project L (gp_lon (vg_g v)) (gp_lat (vg_g v)) = Some (x, y) /\
    let g := set_xy (vg_g v) x y in
    let dv := mul64 (gp_gradient g) (gp_res g) in
    let dh := mul64 (gp_gradient g) (resHoriz g) in
    (ft <> fout -> et_flush E ft = true -> reads_on E ft ->
     exists nl nw nh, count (gp_len g) (resHoriz g) = Val nl /\ count (gp_width g) (resHoriz g) = Val nw /\ count (gp_ht g) (gp_res g) = Val nh /\
       0 < nl /\ 0 < nw /\ 0 < nh /\
       forall cell, grid_points (indexToLonLat L g) (gridAddr L g) nl nw nh cell ->
       exists dq, e_open EQ fin (vg_cache v) = Some dq /\
       forall inp r M, searches (e_search EQ dq) inp -> db_ok inp -> (forall a p, In (a, p) inp -> storable p) -> asked L v r ->
       (forall i j k a b c, in_grid nl nw nh i j k -> point_place L g i j k (a, b, c) -> double a /\ double b /\ double c) ->
       (forall i j k w ans o, in_grid nl nw nh i j k -> point_place L g i j k w -> answer r inp w ans o -> speed_upto M (prepared (gp_minVs g) ans)) ->
       (0 <= M)%R -> finite_double dv -> (0 <= value dv)%R -> finite_double dh -> (0 <= value dh)%R -> in_order E -> stores G (fun l => l) ->
       let tol := (2 * IZR (nl + nw + nh) * slack M)%R in
       exists recs before after,
         d' fout = Some (mkDb recs (Some SCHEMA) (Some (graded_metadata (n_show F) (gp_gradient (vg_g v)) (et_now E) (et_host E))) 28) /\
         exactly_grid recs nl nw nh cell after /\
         (forall i j k, in_grid nl nw nh i j k -> exists w ans o, point_place L g i j k w /\ holds (cell i j k) w /\
            answer r inp w ans o /\ before i j k = prepared (gp_minVs g) ans) /\
         below3 nl nw nh (fun i j k => value (p_vs (after i j k))) (fun i j k => value (p_vs (before i j k))) /\
         (exists b, largest_limited3 nl nw nh (value dv) (value dh) (fun i j k => value (p_vs (before i j k))) b /\
            forall i j k, in_grid nl nw nh i j k -> (Rabs (value (p_vs (after i j k)) - b i j k) <= tol)%R) /\
         (forall i j k, in_grid nl nw nh i j k -> storable (after i j k))).
Proof.
  intros DB EQ E F T L files opens G args fs d d' s H.
  pose proof (PropSmall.C57_grade DB EQ E F T L files opens G args fs d) as [W1 W2].
  unfold gradeMain in H. destruct (gradeArgs T args) as [c|] eqn:Q; [|exact (refused_code d _ d' s eq_refl H)].
  pose proof Q as Q'. apply gradeArgs_iff in Q. destruct Q as (kvs & fp & fin & fout & ft & K & N1 & N2 & N3 & N4 & Ec). clear W2.
  specialize (W1 kvs fp fin fout ft K N1 N2 N3 N4). unfold gradeMain in W1. rewrite Q' in W1.
  destruct (does_zero _ _ _ _ W1 H) as ([] & C & ->). clear W1 H Q' Ec c.
  set (v0 := limiter fp fin fout ft (given_as (t_atoi T) "c" kvs 128)) in *.
  pose proof (within_run E EQ F files L opens G v0 fs _ _ _ C) as R.
  unfold VsRun.run in R. unfold andThen at 1, lift at 1 in R.
  destruct (VsRun.readParams F files v0) as [v|m| |m] eqn:RP; try discriminate. cbv beta iota in R.
  unfold andThen at 1, lift at 1 in R. unfold initialize, project in R.
  destruct (m_project L (gp_lon (vg_g v)) (gp_lat (vg_g v))) as [[x y]|] eqn:PJ; [|discriminate]. cbn [bind] in R.
  exists kvs, fp, fin, fout, ft, v, x, y. do 6 (split; [assumption || reflexivity|]). split.
  { intros n A B. pose proof (C56_confined DB EQ E F files L opens G v0 fs d n A B) as X. rewrite C in X. exact X. }
  split; [exact RP|]. split; [first [exact PJ | reflexivity]|]. intros g dv dh Hn HF HR.
  pose proof (readParams_names _ _ _ _ RP) as NM. unfold PropVsRun.names in NM. injection NM as M1 M2 M3 M4.
  change (vg_in v0) with fin in M1. change (vg_out v0) with fout in M2. change (vg_tmp v0) with ft in M3.
  assert (HC : 0 < vg_cache v).
  { apply (readParams_cache _ _ _ _ RP). unfold v0, limiter. cbn [vg_cache]. destruct (0 <? given_as _ _ _ _) eqn:Z; [apply Z.ltb_lt; exact Z | lia]. }
  set (v1 := set_g v g) in *. unfold andThen at 1 in R. fold g in R. fold v1 in R.
  destruct (extract EQ (willing E) F L v1 fs d) as [d1 [[]|m| |m]] eqn:X; try discriminate.
  assert (HF1 : et_flush E (vg_tmp v1) = true) by (change (vg_tmp v1) with (vg_tmp v); rewrite M3; exact HF).
  destruct (extract_counts EQ E F L v1 fs d d1 X HF1) as (nl & nw & nh & C1 & C2 & C3 & EM). change (vg_g v1) with g in *.
  change (vg_out v1) with (vg_out v) in *. change (vg_tmp v1) with (vg_tmp v) in *. rewrite M2, M3 in R. rewrite M3 in EM.
  exists nl, nw, nh. do 3 (split; [assumption|]).
  assert (POS : ~ (nl <= 0 \/ nw <= 0 \/ nh <= 0)).
  { intros Z. destruct (EM Z) as (f & F1 & F2). unfold andThen at 1 in R.
    destruct (packDB (willing E) fout ft d1) as [d2 [[]|m| |m]] eqn:PK; try discriminate.
    destruct (pack_returns (willing E) fout ft d1 d2 (not_eq_sym Hn) HR PK) as (f' & F3 & F4 & _). congruence. }
  split; [lia|]. split; [lia|]. split; [lia|]. intros cell GP.
  assert (CC : forall n d0, can_create (willing E) d0 n) by (intros; repeat split).
  destruct (e_open EQ fin (vg_cache v)) as [dq|] eqn:OP.
  2: { exfalso. destruct (C55_input_unopened DB EQ (willing E) F L v1 fs d nl nw nh cell HC) as (d2 & A & _); try assumption; try lia.
       - change (vg_in v1) with (vg_in v). rewrite M1. exact OP.
       - apply CC.
       - rewrite X in A. discriminate. }
  exists dq. split; [reflexivity|].
  intros inp r M HS HK HA HQ HD SP HM Fv Hv Fh Hh HI HG tol.
  destruct (C56_run DB EQ (willing E) F files L (fun _ _ => true) G v0 v x y dq inp r fs d nl nw nh cell M RP PJ HC) as
    (d2 & recs & before & after & Y1 & Y2 & Y3 & _ & Y4 & Y5 & Y6 & _ & _ & Y7 & _); try assumption; try lia.
  - rewrite M1. exact OP.
  - rewrite M2, M3. exact Hn.
  - intros l a _. reflexivity.
  - repeat split.
  - intros d0. split; [apply CC | split; [apply CC | reflexivity]].
  - split; [reflexivity | split; [reflexivity | rewrite M3; exact HR]].
  - reflexivity.
  - reflexivity.
  - pose proof (within_run E EQ F files L opens G v0 fs _ _ _ C) as R'. rewrite R' in Y1. injection Y1 as <-.
    exists recs, before, after. rewrite M2 in Y2. do 5 (split; [assumption|]). intros i j k I. exact (proj1 (proj2 (Y7 i j k I))).
Qed.
Print Assumptions C58_grade_exit_0.

(** The run of C56_example from the command line: all the conditions above are met (see
    C56_example).  With storage that refuses the fifth insertion the program ends with code 1
    and has not made the output. *)
From Verif Require Import ToyLib ToyDb ToyGrade ToyGrid PropParams PropApp.
Definition grade_words : list string := ["-p"; "grade.par"; "-i"; "in.etree"; "-o"; "out.etree"; "-t"; "tmp.etree"]%string.
Definition short_etree : etree :=
  mkEtree (et_open toy_etree) (et_create toy_etree) (et_wreck toy_etree) (et_regschema toy_etree) (et_setmeta toy_etree) (et_cursor toy_etree)
    (et_get toy_etree) (et_adv toy_etree) (et_store toy_etree) (fun l a => (Z.of_nat (List.length l) <? 4) && et_insert toy_etree l a) (et_before toy_etree)
    (et_close toy_etree) (et_flush toy_etree) (et_stale toy_etree) (et_partial toy_etree) (et_error toy_etree) (et_now toy_etree) (et_host toy_etree).
Definition grade_on (E : etree) : disk * outcome (Z * list said) :=
  gradeMain (source full_input) E toy_fmt app_texts toy2 (sample_file grade_text) (fun _ _ => true) lstore grade_words no_logs no_files.
Example C58_grade_example :
  seen (grade_on toy_etree) "out.etree" = (Val (0, []), Some 12%nat) /\
  limiter "grade.par" "in.etree" "out.etree" "tmp.etree" 128 = set_g run_start (vg_g vg_new) /\
  exists m, seen (grade_on short_etree) "out.etree" = (Val (1, [Said m]), None).
Proof. split; [vm_compute; reflexivity|]. split; [reflexivity|]. eexists. vm_compute. reflexivity. Qed.
