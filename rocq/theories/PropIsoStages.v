(** C72: the output of cencalvmisosurface when it is killed or ends early. *)
From Coq Require Import ZArith Bool Lia String Ascii Sorting.Sorted List.
From Verif Require Import Outcome Float Payload Addr Geom ErrorHandler VMQuery Stream GetOpt QueryApp SpecQuery SpecHist QueryHist QueryIndep
  SpecText StreamFacts SpecApp AppFacts AppMain IsoApp SpecIso IsoFacts IsoMain QueryStages IsoStages SpecReport ReportFacts SpecStages PropStages.
Import ListNotations.
Open Scope Z_scope.

Section Iso.
Context {DB : Type}.
Variables (E : env DB) (T : texts) (S : os).

(** ** No log is written *)
Lemma location_null c g q fs junk lon lat q1 fs1 w r u :
  isoLocation E T c g q fs junk lon lat = Val (q1, fs1, w, r, u) -> null_log (q_err q) -> fs1 = fs /\ null_log (q_err q1).
Proof.
  unfold isoLocation. intros H N. apply bind_val in H. destruct H as ([[q2 fs2] topo] & Q2 & H).
  apply isoElev_effects in Q2. destruct Q2 as (e2 & -> & A2 & S2).
  apply bind_val in H. destruct H as ([[q3 fs3] r3] & Q3 & H).
  apply searchVs_effects in Q3. destruct Q3 as (e3 & -> & A3 & S3). cbn [with_err q_err] in A3, S3.
  assert (N2 : null_log e2) by (unfold null_log; rewrite (proj1 (after_log _ _ A2)); exact N).
  assert (N3 : null_log e3) by (unfold null_log; rewrite (proj1 (after_log _ _ A3)); exact N2).
  specialize (S2 N). specialize (S3 N2). subst fs2 fs3.
  destruct r3 as [z|m].
  - destruct (bad _ && is_error _); [injection H as <- <- _ _ _; split; [reflexivity|exact N3]|].
    destruct (bad _); injection H as <- <- _ _ _; (split; [reflexivity|exact N3]).
  - injection H as <- <- _ _ _. split; [reflexivity|exact N3].
Qed.
Lemma init_null c g q w : isoInit E c g = Val (q, w) -> null_log (q_err q).
Proof.
  unfold isoInit. intros H. apply bind_val in H. destruct H as (q1 & O & H). apply open_stream in O.
  assert (N : null_log (q_err q1)).
  { unfold null_log. rewrite O. unfold set_cacheSize, set_cacheSizeExt, set_squash.
    repeat match goal with |- context [if ?b then _ else _] => destruct b end; reflexivity. }
  destruct (bad q1); injection H as <- _; [exact N|]. unfold set_queryType. destruct (qtype_of 0); exact N.
Qed.

(** ** The stages *)
Definition grown (fs : files) (lines : list string) (g : stage) : Prop :=
  g_log g = Some "/dev/null"%string /\ g_files g = fs /\ exists more, g_lines g = Some (lines ++ more)%list.
Lemma isoLoop_stages fuel : forall c g junk q lines fs ok loc s, null_log (q_err q) ->
  Forall (grown fs lines) (fst (isoLoopStages E T S fuel c g junk q lines fs ok loc s)).
Proof.
  assert (One : forall (q : qstate DB) fs lines (l : list stage), null_log (q_err q) -> Forall (grown fs lines) l ->
    Forall (grown fs lines) (stage_of q fs (Some lines) :: l)).
  { intros q fs lines l N F. apply Forall_cons; [|exact F]. split; [exact N|]. split; [reflexivity|]. exists []. rewrite app_nil_r. reflexivity. }
  induction fuel as [|fuel IH]; intros c g junk q lines fs ok [lon lat] s N; cbn [isoLoopStages after_stage fst]; apply One; try exact N;
    (destruct (negb (i_eof s) && good s && ok); [|apply Forall_nil]); [apply Forall_nil|].
  destruct (isoLocation E T c g q fs junk lon lat) as [[[[[q1 fs1] w1] r] u]| | |] eqn:L; try apply Forall_nil.
  destruct (location_null _ _ _ _ _ _ _ _ _ _ _ _ L N) as [-> N1]. cbn [after_stage fst]. apply One; [exact N1|].
  destruct r as [code|line]; [apply Forall_nil|]. destruct (readLonLat T (lon, lat) s) as [s1 loc1].
  eapply Forall_impl; [|apply IH, N1]. intros st (A & B & more & C). split; [exact A|]. split; [exact B|]. rewrite C.
  destruct (o_write S (lines ++ [line])%list); [exists (line :: more); rewrite <- app_assoc; reflexivity|exists more; reflexivity].
Qed.

(** What ends a location early. *)
Lemma bisect_gave_up k : forall q fs t lon lat old U L r0 q' fs' m,
  bisect E k q fs t lon lat old U L r0 = Val (q', fs', inr m) -> exists m', m = ("Invalid search range!" ++ m')%string.
Proof.
  induction k as [|k IH]; intros q fs t lon lat old U L r0 q' fs' m H; cbn [bisect] in H; [discriminate|].
  apply bind_val in H. destruct H as ([[q1 fs1] v1] & _ & H).
  apply bind_val in H. destruct H as ([[q2 fs2] v2] & _ & H).
  apply bind_val in H. destruct H as ([[q3 fs3] v3] & _ & H).
  destruct (fgt t v1 && fle t v3); [eapply IH, H|]. destruct (fgt t v3 && fle t v2); [eapply IH, H|].
  destruct (fle t v1); [discriminate|]. destruct (flt v2 f_zero); [discriminate|].
  apply (f_equal (fun o => match o with Val (_, _, inr x) => x | _ => m end)) in H. rewrite <- H. unfold rangeMsg. eexists. reflexivity.
Qed.
Lemma location_ends c g q fs junk lon lat q1 fs1 w code u :
  isoLocation E T c g q fs junk lon lat = Val (q1, fs1, w, inl code, u) ->
  u = true \/ (code = 1 /\ exists m', w = [Said ("Invalid search range!" ++ m')]).
Proof.
  unfold isoLocation. intros H. apply bind_val in H. destruct H as ([[q2 fs2] topo] & _ & H).
  apply bind_val in H. destruct H as ([[q3 fs3] r3] & Q3 & H). destruct r3 as [z|m].
  - destruct (bad q3 && is_error q3); [injection H as _ _ _ _ <-; left; reflexivity|discriminate].
  - right. unfold searchVs in Q3. apply bind_val in Q3. destruct Q3 as (n & _ & Q3). apply bind_val in Q3. destruct Q3 as (q4 & _ & Q3).
    destruct (bisect_gave_up _ _ _ _ _ _ _ _ _ _ _ _ _ Q3) as [m' ->].
    split; [apply (f_equal (fun o => match o with Val (_, _, _, inl x, _) => x | _ => code end)) in H; symmetry; exact H|].
    exists m'. apply (f_equal (fun o => match o with Val (_, _, x, _, _) => x | _ => w end)) in H. symmetry. exact H.
Qed.

Lemma isoLoop_result fuel : forall c g junk q w lines fs ok loc s r,
  isoLoop E T S fuel c g junk q w lines fs ok loc s = Val r ->
  let st := isoLoopStages E T S fuel c g junk q lines fs ok loc s in
  (exists before f, fst st = (before ++ [f])%list /\ g_files f = r_files r /\ g_lines f = r_lines r) /\
  (snd st = true \/ ended_in_search (r_code r) (r_said r)) /\
  exists more, r_lines r = Some (lines ++ more)%list /\
    forall j, (j <= List.length more)%nat -> exists g', In g' (fst st) /\ g_lines g' = Some (lines ++ firstn j more)%list.
Proof.
  assert (Fin : forall q w lines fs r, finish E q w lines fs = Val r -> r_files r = fs /\ r_lines r = Some lines).
  { intros q w lines fs r H. unfold finish in H. destruct (bad (close E q)); apply leave_parts in H; subst r; auto. }
  assert (Now : forall (r : result) lines st l, r_lines r = Some lines -> g_lines st = Some lines ->
    exists more, r_lines r = Some (lines ++ more)%list /\
    forall j, (j <= List.length more)%nat -> exists st', In st' (st :: l) /\ g_lines st' = Some (lines ++ firstn j more)%list).
  { intros r lines st l Q G. exists []. rewrite app_nil_r. split; [exact Q|]. intros j _. exists st. rewrite firstn_nil, app_nil_r. split; [left; reflexivity|exact G]. }
  induction fuel as [|fuel IH]; intros c g junk q w lines fs ok [lon lat] s r; cbn [isoLoop isoLoopStages];
    (destruct (negb (i_eof s) && good s && ok);
      [|intros H; apply Fin in H; destruct H as [HF HN]; cbn [after_stage fst snd]; split; [|split; [left; reflexivity|apply Now; [exact HN|reflexivity]]];
        exists [], (stage_of q fs (Some lines)); split; [reflexivity|]; split; [symmetry; exact HF|symmetry; exact HN]]); [discriminate|].
  intros H. apply bind_val in H. destruct H as ([[[[q1 fs1] w1] r1] u] & Q & H). rewrite Q. cbv zeta.
  destruct r1 as [code|line]; cbn [after_stage fst snd].
  - assert (R : r = mkResult code (w ++ w1)%list (Some lines) fs1).
    { destruct u; [apply leave_parts in H; exact H|injection H as <-; reflexivity]. }
    subst r. split; [|split; [|apply Now; reflexivity]].
    + exists [stage_of q fs (Some lines)], (stage_of q1 fs1 (Some lines)). repeat split.
    + destruct (location_ends _ _ _ _ _ _ _ _ _ _ _ _ Q) as [->|[-> [m' ->]]]; [left; reflexivity|right].
      split; [reflexivity|]. exists w, m'. reflexivity.
  - destruct (readLonLat T (lon, lat) s) as [s1 loc1].
    destruct (IH _ _ _ _ _ _ _ _ _ _ _ H) as ((before & f & QF & GF & GN) & CL & more & R & J). split; [|split; [exact CL|]].
    + exists (stage_of q fs (Some lines) :: stage_of q1 fs1 (Some lines) :: before), f. rewrite QF. split; [reflexivity|]. split; [exact GF|exact GN].
    + destruct (o_write S (lines ++ [line])%list).
      * exists (line :: more). split; [rewrite R, <- app_assoc; reflexivity|]. intros [|j] LJ.
        -- eexists. split; [left; reflexivity|]. cbn [firstn]. rewrite app_nil_r. reflexivity.
        -- cbn [List.length] in LJ. destruct (J j) as (st & I & G); [lia|]. exists st. split; [right; right; exact I|].
           rewrite G, <- app_assoc. reflexivity.
      * exists more. split; [exact R|]. intros j LJ. destruct (J j LJ) as (st & I & G). exists st. split; [right; right; exact I|exact G].
Qed.

Lemma isoMain_result g junk args fs r : isoMain E T S g junk args fs = Val r ->
  let st := isoMainStages E T S g junk args fs in
  (exists before f, fst st = (before ++ [f])%list /\ g_files f = r_files r /\ g_lines f = r_lines r) /\
  (snd st = true \/ ended_in_search (r_code r) (r_said r)) /\
  forall all j, r_lines r = Some all -> (j <= List.length all)%nat -> exists g', In g' (fst st) /\ g_lines g' = Some (firstn j all).
Proof.
  assert (Now : forall r : result, r_files r = fs -> r_lines r = None ->
    let st := after_stage (mkStage None fs None) ([], true) in
    (exists before f, fst st = (before ++ [f])%list /\ g_files f = r_files r /\ g_lines f = r_lines r) /\
    (snd st = true \/ ended_in_search (r_code r) (r_said r)) /\
    forall all j, r_lines r = Some all -> (j <= List.length all)%nat -> exists g', In g' (fst st) /\ g_lines g' = Some (firstn j all)).
  { intros r0 HF HN. cbv zeta. split; [|split; [left; reflexivity|intros all j Q; congruence]].
    exists [], (mkStage None fs None). split; [reflexivity|]. rewrite HF, HN. split; reflexivity. }
  unfold isoMain, isoMainStages. destruct (isoArgs T args) as [code|c]; [intros H; injection H as <-; apply Now; reflexivity|].
  intros H. apply bind_val in H. destruct H as ([q w] & Q & H). rewrite Q.
  destruct (o_read S (i_in c)) as [text|]; [|apply leave_parts in H; subst r; apply Now; reflexivity].
  destruct (o_create S (i_out c)); cbn [negb] in H |- *; [|apply leave_parts in H; subst r; apply Now; reflexivity].
  destruct (readLonLat T (f_zero, f_zero) (openText text)) as [s loc].
  destruct (isoLoop_result _ _ _ _ _ _ _ _ _ _ _ _ H) as ((before & f & QF & GF & GN) & CL & more & R & J). cbv zeta. cbn [after_stage fst snd].
  split; [|split; [exact CL|]].
  - exists (mkStage None fs None :: before), f. rewrite QF. split; [reflexivity|]. split; [exact GF|exact GN].
  - intros all j QA LJ. rewrite QA in R. injection R as ->. destruct (J j LJ) as (g' & I & G). exists g'. split; [right; exact I|exact G].
Qed.
Lemma isoMain_stages g junk args fs st : In st (fst (isoMainStages E T S g junk args fs)) ->
  st = mkStage None fs None \/ grown fs [] st.
Proof.
  unfold isoMainStages. cbn [after_stage fst]. intros [<-|I]; [left; reflexivity|right].
  destruct (isoArgs T args) as [code|c]; [destruct I|]. destruct (isoInit E c g) as [[q w]| | |] eqn:Q; try destruct I.
  destruct (o_read S (i_in c)) as [text|]; [|destruct I]. destruct (o_create S (i_out c)); [|destruct I]. cbn [negb] in I.
  destruct (readLonLat T (f_zero, f_zero) (openText text)) as [s loc].
  pose proof (isoLoop_stages (String.length text) c g junk q [] fs true loc s (init_null _ _ _ _ Q)) as F.
  rewrite Forall_forall in F. apply F, I.
Qed.
(** The lines only grow. *)
Definition longer (a b : stage) : Prop := match g_lines a with None => True | Some ls => exists more, g_lines b = Some (ls ++ more)%list end.
Lemma isoLoop_sorted fuel : forall c g junk q lines fs ok loc s, null_log (q_err q) ->
  StronglySorted longer (fst (isoLoopStages E T S fuel c g junk q lines fs ok loc s)).
Proof.
  assert (One : forall (q : qstate DB) fs fs' lines (l : list stage), StronglySorted longer l -> Forall (grown fs' lines) l ->
    StronglySorted longer (stage_of q fs (Some lines) :: l)).
  { intros q fs fs' lines l A F. apply SSorted_cons; [exact A|]. eapply Forall_impl; [|exact F]. intros st (_ & _ & more & G). exists more. exact G. }
  induction fuel as [|fuel IH]; intros c g junk q lines fs ok loc s N;
    pose proof (isoLoop_stages) as IS; cbn [isoLoopStages after_stage fst]; destruct loc as [lon lat].
  - destruct (negb (i_eof s) && good s && ok); apply (One _ _ fs); constructor.
  - destruct (negb (i_eof s) && good s && ok); [|apply (One _ _ fs); constructor].
    destruct (isoLocation E T c g q fs junk lon lat) as [[[[[q1 fs1] w1] r] u]| | |] eqn:L; try solve [apply (One _ _ fs); constructor].
    destruct (location_null _ _ _ _ _ _ _ _ _ _ _ _ L N) as [-> N1]. cbn [after_stage fst].
    destruct r as [code|line].
    { cbn [fst]. apply (One _ _ fs); [apply (One _ _ fs); constructor|]. apply Forall_cons; [|apply Forall_nil].
      split; [exact N1|]. split; [reflexivity|]. exists []. rewrite app_nil_r. reflexivity. }
    destruct (readLonLat T (lon, lat) s) as [s1 loc1].
    set (ls := if o_write S (lines ++ [line])%list then _ else _).
    pose proof (IS fuel c g junk q1 ls fs (o_write S (lines ++ [line])%list) loc1 s1 N1) as F.
    assert (F' : Forall (grown fs lines) (fst (isoLoopStages E T S fuel c g junk q1 ls fs (o_write S (lines ++ [line])%list) loc1 s1))).
    { eapply Forall_impl; [|exact F]. intros st (A & B & more & C). split; [exact A|]. split; [exact B|]. rewrite C. unfold ls.
      destruct (o_write S (lines ++ [line])%list); [exists (line :: more); rewrite <- app_assoc; reflexivity|exists more; reflexivity]. }
    apply (One _ _ fs); [apply (One _ _ fs); [apply IH, N1|exact F']|]. apply Forall_cons; [|exact F'].
    split; [exact N1|]. split; [reflexivity|]. exists []. rewrite app_nil_r. reflexivity.
Qed.
Lemma isoMain_sorted g junk args fs : StronglySorted longer (fst (isoMainStages E T S g junk args fs)).
Proof.
  unfold isoMainStages. cbn [after_stage fst]. apply SSorted_cons; [|apply Forall_forall; intros st _; exact I].
  destruct (isoArgs T args) as [code|c]; [constructor|]. destruct (isoInit E c g) as [[q w]| | |] eqn:Q; try constructor.
  destruct (o_read S (i_in c)) as [text|]; [|constructor]. destruct (o_create S (i_out c)); [|constructor]. cbn [negb].
  destruct (readLonLat T (f_zero, f_zero) (openText text)) as [s loc].
  apply isoLoop_sorted, (init_null _ _ _ _ Q).
Qed.

(** ** The theorems *)
Theorem C72_stages g junk args fs code m lines fs' :
  isoMain E T S g junk args fs = Val (mkResult code m lines fs') ->
  exists before f, fst (isoMainStages E T S g junk args fs) = (before ++ [f])%list /\ g_files f = fs' /\ g_lines f = lines /\
    forall all j, lines = Some all -> (j <= List.length all)%nat ->
      exists st, In st (fst (isoMainStages E T S g junk args fs)) /\ g_lines st = Some (firstn j all).
Proof.
  intros H. destruct (isoMain_result _ _ _ _ _ H) as ((before & f & QF & GF & GN) & _ & J). exists before, f. auto.
Qed.

Theorem C72_killed g junk args fs st k :
  In st (fst (isoMainStages E T S g junk args fs)) -> may_remain st k ->
  (forall n, k_files k n = fs n) /\
  forall code m lines fs', isoMain E T S g junk args fs = Val (mkResult code m lines fs') ->
    k_out k = None \/ exists t ls, k_out k = Some t /\ lines = Some ls /\ initial t (as_lines ls).
Proof.
  intros IN [KF KO]. split.
  - intros n. specialize (KF n). destruct (isoMain_stages _ _ _ _ _ IN) as [->|(L & F & _)]; [exact KF|].
    rewrite L, F in KF. change (String.eqb "/dev/null" "/dev/null") with true in KF. cbn [negb] in KF. rewrite andb_false_r in KF. exact KF.
  - intros code m lines fs' H. destruct (g_lines st) as [ls|] eqn:G; [right|left; exact KO]. destruct KO as (t & K1 & K2).
    destruct (isoMain_result _ _ _ _ _ H) as ((before & f & QF & GF & GN) & _). pose proof (isoMain_sorted g junk args fs) as SS.
    rewrite QF in SS, IN. cbn [r_lines] in GN.
    assert (LG : longer st f) by (apply (sorted_last longer before st f); [intros a; unfold longer; destruct (g_lines a) as [l|]; [exists []; rewrite app_nil_r; reflexivity|exact I]|exact SS|exact IN]).
    unfold longer in LG. rewrite G in LG. destruct LG as [more LG]. rewrite GN in LG.
    exists t, (ls ++ more)%list. split; [exact K1|]. split; [exact LG|]. eapply initial_trans; [exact K2|]. exists (as_lines more). apply as_lines_app.
Qed.

(** What is in the output file after a run: the lines of the run, unless it gave up inside
    its search; then possibly only the beginning of them. *)
Theorem C72_left g junk args fs code m lines fs' k :
  isoMain E T S g junk args fs = Val (mkResult code m lines fs') ->
  left_after (isoMainStages E T S g junk args fs) k ->
  (forall n, k_files k n = fs n) /\
  match lines with
  | None => k_out k = None
  | Some ls => exists t, k_out k = Some t /\ initial t (as_lines ls) /\ (t = as_lines ls \/ ended_in_search code m)
  end.
Proof.
  intros H (before & f & QF & K). destruct (isoMain_result _ _ _ _ _ H) as ((before' & f' & QF' & GF & GN) & CL & _).
  rewrite QF in QF'. apply app_inj_tail in QF'. destruct QF' as [_ <-]. cbn [r_files r_lines r_code r_said] in GF, GN, CL.
  assert (IN : In f (fst (isoMainStages E T S g junk args fs))) by (rewrite QF; apply in_or_app; right; left; reflexivity).
  destruct (snd (isoMainStages E T S g junk args fs)).
  - destruct K as [KF KO]. rewrite GN in KO. split.
    + intros n. rewrite KF. destruct (isoMain_stages _ _ _ _ _ IN) as [->|(_ & -> & _)]; reflexivity.
    + destruct lines as [ls|]; [|exact KO]. exists (as_lines ls). split; [exact KO|]. split; [|left; reflexivity]. exists ""%string. symmetry. apply append_nil_r.
  - destruct (C72_killed g junk args fs f k IN K) as [KF _]. split; [exact KF|]. destruct K as [_ KO]. rewrite GN in KO.
    destruct lines as [ls|]; [|exact KO]. destruct KO as (t & K1 & K2). exists t. split; [exact K1|]. split; [exact K2|].
    right. destruct CL as [D|CL]; [discriminate D|exact CL].
Qed.

(** ** Running it again *)
Lemma related_bind {A B} (R : A -> A -> Prop) (R' : B -> B -> Prop) (o o' : outcome A) (f f' : A -> outcome B) :
  related R o o' -> (forall x y, R x y -> related R' (f x) (f' y)) -> related R' (bind o f) (bind o' f').
Proof.
  intros H K. destruct o, o'; cbn [related bind] in *; try discriminate H; try (apply K, H); try reflexivity; injection H as ->; reflexivity.
Qed.
Definition same3 {A} (x y : qstate DB * files * A) : Prop := fst (fst x) = fst (fst y) /\ eqf (snd (fst x)) (snd (fst y)) /\ snd x = snd y.
Lemma same3_val {A} q f f' (a : A) : eqf f f' -> related same3 (Val (q, f, a)) (Val (q, f', a)).
Proof. intros H. split; [reflexivity|]. split; [exact H|reflexivity]. Qed.
Lemma ask_eqf q f f' lon lat old z : eqf f f' -> related same3 (ask E q f lon lat old z) (ask E q f' lon lat old z).
Proof.
  intros H. unfold ask. eapply related_bind; [apply query_eqf, H|]. intros [[q1 f1] v] [[q2 f2] v'] (A & B & C). cbn [fst snd] in *. subst. apply same3_val, B.
Qed.
Lemma stepDown_eqf k : forall iter q f f' lon lat old elev, eqf f f' ->
  related same3 (stepDown E k iter q f lon lat old elev) (stepDown E k iter q f' lon lat old elev).
Proof.
  induction k as [|k IH]; intros iter q f f' lon lat old elev H; cbn [stepDown]; [apply same3_val, H|].
  eapply related_bind; [apply ask_eqf, H|]. intros [[q1 f1] v] [[q2 f2] v'] (A & B & C). cbn [fst snd] in *. subst.
  destruct (fgt v' f_zero); [apply same3_val, B|apply IH, B].
Qed.
Lemma bisect_eqf k : forall q f f' t lon lat old U L r, eqf f f' ->
  related same3 (bisect E k q f t lon lat old U L r) (bisect E k q f' t lon lat old U L r).
Proof.
  induction k as [|k IH]; intros q f f' t lon lat old U L r H; cbn [bisect]; [apply same3_val, H|].
  eapply related_bind; [apply ask_eqf, H|]. intros [[q1 f1] v1] [[q1' f1'] v1'] (A1 & B1 & C1). cbn [fst snd] in *. subst.
  eapply related_bind; [apply ask_eqf, B1|]. intros [[q2 f2] v2] [[q2' f2'] v2'] (A2 & B2 & C2). cbn [fst snd] in *. subst.
  eapply related_bind; [apply ask_eqf, B2|]. intros [[q3 f3] v3] [[q3' f3'] v3'] (A3 & B3 & C3). cbn [fst snd] in *. subst.
  destruct (fgt t v1' && fle t v3'); [apply IH, B3|]. destruct (fgt t v3' && fle t v2'); [apply IH, B3|].
  destruct (fle t v1'); [apply same3_val, B3|]. destruct (flt v2' f_zero); apply same3_val, B3.
Qed.
Definition same5 (x y : qstate DB * files * list said * (Z + string) * bool) : Prop :=
  let '(q, f, w, r, u) := x in let '(q', f', w', r', u') := y in q = q' /\ eqf f f' /\ w = w' /\ r = r' /\ u = u'.
Lemma location_eqf c g q f f' junk lon lat : eqf f f' ->
  related same5 (isoLocation E T c g q f junk lon lat) (isoLocation E T c g q f' junk lon lat).
Proof.
  intros H. unfold isoLocation. apply (related_bind same3).
  { unfold isoElev. destruct (set_queryVals _ q) as [q1| | |]; cbn [bind]; try reflexivity. destruct (bad q1); [reflexivity|].
    eapply related_bind; [apply ask_eqf, H|]. intros [[q2 f2] v2] [[q2' f2'] v2'] (A2 & B2 & C2). cbn [fst snd] in *. subst.
    destruct (set_queryVals _ q2') as [q3| | |]; cbn [bind]; try reflexivity. apply stepDown_eqf, B2. }
  intros [[q1 f1] v1] [[q1' f1'] v1'] (A1 & B1 & C1). cbn [fst snd] in *. subst. apply (related_bind same3).
  { unfold searchVs. destruct (searchIters _ _ _); cbn [bind]; try reflexivity. destruct (set_queryVals _ q1') as [q3| | |]; cbn [bind]; try reflexivity.
    apply bisect_eqf, B1. }
  intros [[q2 f2] v2] [[q2' f2'] v2'] (A2 & B2 & C2). cbn [fst snd] in *. subst. destruct v2' as [z|m].
  - destruct (bad q2' && is_error q2'); repeat split; exact B2.
  - repeat split. exact B2.
Qed.
Lemma isoLoop_eqf fuel : forall c g junk q w lines f f' ok loc s, eqf f f' ->
  same_result (isoLoop E T S fuel c g junk q w lines f ok loc s) (isoLoop E T S fuel c g junk q w lines f' ok loc s).
Proof.
  induction fuel as [|fuel IH]; intros c g junk q w lines f f' ok [lon lat] s H; cbn [isoLoop];
    (destruct (negb (i_eof s) && good s && ok); [|unfold finish; destruct (bad (close E q)); apply leave_eqf, H]); [reflexivity|].
  pose proof (location_eqf c g q f f' junk lon lat H) as K.
  destruct (isoLocation E T c g q f junk lon lat) as [[[[[q1 f1] w1] r1] u1]| | |], (isoLocation E T c g q f' junk lon lat) as [[[[[q2 f2] w2] r2] u2]| | |];
    cbn [bind related same_result same5] in *; try discriminate K; try reflexivity; try (injection K as ->; reflexivity).
  destruct K as (<- & K & <- & <- & <-). destruct r1 as [code|line].
  - destruct u1; [apply leave_eqf, K|]. cbn [same_result r_code r_said r_lines r_files]. auto.
  - destruct (readLonLat T (lon, lat) s) as [s1 loc1]. apply IH, K.
Qed.
Theorem C72_run_again g junk args fs st k :
  In st (fst (isoMainStages E T S g junk args fs)) -> may_remain st k ->
  same_result (isoMain E T S g junk args (k_files k)) (isoMain E T S g junk args fs).
Proof.
  intros IN MR. destruct (C72_killed g junk args fs st k IN MR) as [HF _]. assert (H : eqf (k_files k) fs) by exact HF. unfold isoMain.
  destruct (isoArgs T args) as [code|c]; [cbn [same_result r_code r_said r_lines r_files]; auto|].
  destruct (isoInit E c g) as [[q w]| | |]; cbn [bind]; try reflexivity.
  destruct (o_read S (i_in c)) as [text|]; [|apply leave_eqf, H].
  destruct (o_create S (i_out c)); cbn [negb]; [|apply leave_eqf, H].
  destruct (readLonLat T (f_zero, f_zero) (openText text)) as [s loc]. apply isoLoop_eqf, H.
Qed.
End Iso.

(** ** Examples *)
From Verif Require Import PropIso ToyLib ToyDb.
Open Scope string_scope.
Open Scope Z_scope.
(** Three points, at the second of which the speed is not reached. *)
Definition mixed_stages : list stage * bool :=
  isoMainStages mixed (iso_texts iso_show) many_os toy S754_nan (iso_args "halves" "-1600") (fun _ => None).
Definition mixed_line : string := " 296908 541696 512".
Definition nothing_left : remains := mkRemains (fun _ => None) (Some "").
Definition part_left : remains := mkRemains (fun _ => None) (Some " 296908 541").
Example C72_stages_example : map (fun g => (g_log g, g_lines g)) (fst mixed_stages) =
  [(None, None); (Some "/dev/null", Some []); (Some "/dev/null", Some []); (Some "/dev/null", Some [mixed_line]); (Some "/dev/null", Some [mixed_line])] /\
  snd mixed_stages = false.
Proof. vm_compute. split; reflexivity. Qed.
Lemma mixed_last t : initial t (as_lines [mixed_line]) -> left_after mixed_stages (mkRemains (fun _ => None) (Some t)).
Proof.
  intros IT. exists (firstn 4 (fst mixed_stages)), (nth 4 (fst mixed_stages) (mkStage None (fun _ => None) None)).
  split; [vm_compute; reflexivity|]. replace (snd mixed_stages) with false by (vm_compute; reflexivity).
  replace (nth 4 (fst mixed_stages) (mkStage None (fun _ => None) None)) with (mkStage (Some "/dev/null") (fun _ => None) (Some [mixed_line]))
    by (vm_compute; reflexivity).
  split; [|exists t; split; [reflexivity|exact IT]]. intros n. cbn [g_log g_files k_files].
  change (String.eqb "/dev/null" "/dev/null") with true. cbn [negb]. rewrite andb_false_r. reflexivity.
Qed.
Lemma mixed_run : isoMain mixed (iso_texts iso_show) many_os toy S754_nan (iso_args "halves" "-1600") (fun _ => None) =
  Val (mkResult 1 [mixed_msg] (Some [mixed_line]) (fun _ => None)).
Proof. vm_compute. reflexivity. Qed.
(** Killed while the line of the first point is written. *)
Example C72_example : (exists st, In st (fst mixed_stages) /\ may_remain st part_left) /\ left_after mixed_stages part_left /\
  left_after mixed_stages nothing_left.
Proof.
  assert (L : left_after mixed_stages part_left) by (apply mixed_last; exists ("696 512" ++ NL); reflexivity).
  split; [|split; [exact L|apply mixed_last; eexists; reflexivity]].
  destruct L as (before & f & QF & K). exists f. rewrite QF. split; [apply in_or_app; right; left; reflexivity|].
  replace (snd mixed_stages) with false in K by (vm_compute; reflexivity). exact K.
Qed.

(** The lines of the points before the one at which the program gives up can be lost. *)
Theorem C72_lost_refuted : ~ (forall DB (E : env DB) T S g junk args fs code m ls fs' k,
  isoMain E T S g junk args fs = Val (mkResult code m (Some ls) fs') ->
  left_after (isoMainStages E T S g junk args fs) k -> k_out k = Some (as_lines ls)).
Proof.
  intros H. specialize (H _ _ _ _ _ _ _ _ _ _ _ _ nothing_left mixed_run).
  assert (L : left_after mixed_stages nothing_left) by (apply mixed_last; eexists; reflexivity). specialize (H L). discriminate H.
Qed.

Print Assumptions C72_stages.
Print Assumptions C72_killed.
Print Assumptions C72_left.
Print Assumptions C72_run_again.
Print Assumptions C72_lost_refuted.
