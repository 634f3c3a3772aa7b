(** C71: killing cencalvmquery. *)
From Coq Require Import ZArith Bool Lia String Ascii Sorting.Sorted List.
From Verif Require Import Outcome Float Payload Addr Geom ErrorHandler VMQuery Stream GetOpt QueryApp SpecQuery SpecHist QueryHist QueryIndep
  SpecText StreamFacts SpecApp AppFacts AppMain QueryStages SpecReport ReportFacts SpecStages.
Import ListNotations.
Open Scope Z_scope.

(** ** Stages only add to each other *)
Definition logged_on (o : option string) (n : string) : bool :=
  match o with Some l => String.eqb n l && negb (String.eqb l "/dev/null") | None => false end.
Definition grows (b : bool) (a a' : option string) : Prop :=
  a' = a \/ (b = true /\ exists s r, a = Some s /\ a' = Some (s ++ r)%string).
Definition adds (g g' : stage) : Prop :=
  g_log g' = g_log g /\ (forall n, grows (logged_on (g_log g) n) (g_files g n) (g_files g' n)) /\
  match g_lines g with None => True | Some ls => exists r, g_lines g' = Some (ls ++ r)%list end.

Lemma grows_refl b a : grows b a a. Proof. left. reflexivity. Qed.
Lemma grows_trans b a a' a'' : grows b a a' -> grows b a' a'' -> grows b a a''.
Proof.
  intros [->|(B & s & r & -> & ->)] [->|(B' & s' & r' & Q & ->)].
  - left. reflexivity.
  - right. split; [exact B'|]. eauto.
  - right. split; [exact B|]. eauto.
  - injection Q as <-. right. split; [exact B|]. exists s, (r ++ r')%string. rewrite app_assoc_s. auto.
Qed.
Lemma adds_refl g : adds g g.
Proof.
  split; [reflexivity|]. split; [intros n; apply grows_refl|]. destruct (g_lines g) as [ls|]; [|exact I]. exists []. rewrite app_nil_r. reflexivity.
Qed.
Lemma adds_trans a b c : adds a b -> adds b c -> adds a c.
Proof.
  intros (L & F & R) (L' & F' & R'). split; [congruence|]. split.
  - intros n. rewrite L in F'. eapply grows_trans; [apply F|apply F'].
  - destruct (g_lines a) as [ls|]; [|exact I]. destruct R as [r R]. rewrite R in R'. destruct R' as [r' R'].
    exists (r ++ r')%list. rewrite R', app_assoc. reflexivity.
Qed.

Section Loop.
Context {DB : Type}.
Variables (E : env DB) (T : texts) (S : os).

(** The log file is there when the log stream is open on it. *)
Definition log_there (q : qstate DB) (fs : files) : Prop :=
  forall n, logged_on (eh_stream (q_err q)) n = true -> exists s, fs n = Some s.

Lemma query_adds q fs v lon lat elev q' fs' v' ls : log_there q fs -> query E q fs v lon lat elev = Val (q', fs', v') ->
  adds (stage_of q fs ls) (stage_of q' fs' ls) /\ log_there q' fs' /\ eh_stream (q_err q') = eh_stream (q_err q).
Proof.
  intros HL Q. destruct (query_effects E _ _ _ _ _ _ _ _ _ Q) as (_ & A & F & _).
  destruct (after_log _ _ A) as [S1 _].
  assert (G : forall n, grows (logged_on (eh_stream (q_err q)) n) (fs n) (fs' n)).
  { intros n. destruct F as [->| ->]; [apply grows_refl|]. rewrite <- (log_line_eq (q_err q) (q_err q)) by reflexivity. unfold eh_log.
    destruct (eh_stream (q_err q)) as [l|] eqn:SQ; [|apply grows_refl].
    destruct (String.eqb l NULLFILE) eqn:N; [apply grows_refl|]. unfold fset.
    destruct (String.eqb_spec n l) as [->|NE]; [|apply grows_refl].
    right. assert (B : logged_on (Some l) l = true) by (cbn [logged_on]; rewrite String.eqb_refl; change "/dev/null"%string with NULLFILE; rewrite N; reflexivity).
    split; [exact B|]. destruct (HL l) as [s Hs]; [rewrite SQ; exact B|]. exists s. eexists. split; [exact Hs|]. unfold content. rewrite Hs. reflexivity. }
  split; [|split; [|exact S1]].
  - split; [exact S1|]. split; [exact G|]. cbn [g_lines stage_of]. destruct ls as [ls|]; [|exact I]. exists []. rewrite app_nil_r. reflexivity.
  - intros n B. rewrite S1 in B. destruct (HL n B) as [s Hs]. destruct (G n) as [->|(_ & s' & r & _ & ->)]; eauto.
Qed.

Lemma loop_sorted fuel : forall q lines fs ok vals loc s, log_there q fs ->
  StronglySorted adds (loopStages E T S fuel q lines fs ok vals loc s) /\
  Forall (adds (stage_of q fs (Some lines))) (loopStages E T S fuel q lines fs ok vals loc s).
Proof.
  assert (One : forall g, StronglySorted adds [g] /\ Forall (adds g) [g]).
  { intros g. split; [apply SSorted_cons; [apply SSorted_nil|apply Forall_nil]|]. apply Forall_cons; [apply adds_refl|apply Forall_nil]. }
  assert (Cons : forall g l, StronglySorted adds l -> Forall (adds g) l -> StronglySorted adds (g :: l) /\ Forall (adds g) (g :: l)).
  { intros g l A B. split; [apply SSorted_cons; assumption|apply Forall_cons; [apply adds_refl|exact B]]. }
  induction fuel as [|fuel IH]; intros q lines fs ok vals [[lon lat] elev] s HL; cbn [loopStages];
    (destruct (negb (i_eof s) && good s && ok); [|apply One]); [apply One|].
  destruct (query E q fs (Some vals) lon lat elev) as [[[q1 fs1] vals1]| | |] eqn:Q; try apply One.
  destruct (query_adds _ _ _ _ _ _ _ _ _ (Some lines) HL Q) as (A & HL1 & S1).
  set (q2 := if bad q1 then with_err q1 (eh_reset (q_err q1)) else q1).
  assert (S2 : eh_stream (q_err q2) = eh_stream (q_err q1)) by (unfold q2; destruct (bad q1); reflexivity).
  assert (HL2 : log_there q2 fs1) by (intros n B; apply HL1; rewrite <- S2; exact B).
  assert (R : forall l, StronglySorted adds l -> Forall (adds (stage_of q1 fs1 (Some lines))) l ->
    StronglySorted adds (stage_of q fs (Some lines) :: stage_of q1 fs1 (Some lines) :: l) /\
    Forall (adds (stage_of q fs (Some lines))) (stage_of q fs (Some lines) :: stage_of q1 fs1 (Some lines) :: l)).
  { intros l A1 A2. destruct (Cons _ _ A1 A2) as [B1 B2]. apply Cons; [exact B1|].
    eapply Forall_impl; [|exact B2]. intros g. apply adds_trans. exact A. }
  destruct (bad q1 && is_error q1); [apply R; [apply SSorted_nil|apply Forall_nil]|].
  destruct (outLine T lon lat elev vals1) as [line| | |]; try (apply R; [apply SSorted_nil|apply Forall_nil]).
  destruct (readLocation T (lon, lat, elev) s) as [s1 loc1].
  destruct (IH q2 (if o_write S (lines ++ [line])%list then (lines ++ [line])%list else lines) fs1 (o_write S (lines ++ [line])%list) vals1 loc1 s1 HL2) as [I1 I2].
  apply R; [exact I1|]. eapply Forall_impl; [|exact I2]. intros g. apply adds_trans.
  split; [exact S2|]. split; [intros n; apply grows_refl|]. cbn [g_lines stage_of].
  destruct (o_write S (lines ++ [line])%list); [exists [line]; reflexivity|exists []; rewrite app_nil_r; reflexivity].
Qed.
End Loop.

Section Main.
Context {DB : Type}.
Variables (E : env DB) (T : texts) (S : os).

Lemma open_stream (q q' : qstate DB) : open E q = Val q' -> eh_stream (q_err q') = eh_stream (q_err q).
Proof.
  unfold open. intros H. apply bind_val in H. destruct H as ([d e1] & H1 & H).
  apply bind_val in H. destruct H as ([x e2] & H2 & H). injection H as <-. cbn [set_db q_err].
  assert (A : eh_stream e1 = eh_stream (q_err q)).
  { destruct (q_db q); [injection H1 as _ <-; reflexivity|]. apply bind_val in H1. destruct H1 as (? & _ & H1).
    destruct (e_open E (q_name q) (q_cache q)); injection H1 as _ <-; reflexivity. }
  rewrite <- A. destruct (String.eqb (q_nameExt q) ""); [injection H2 as _ <-; reflexivity|].
  destruct (q_dbExt q); [injection H2 as _ <-; reflexivity|]. apply bind_val in H2. destruct H2 as (? & _ & H2).
  destruct (e_open E (q_nameExt q) (q_cacheExt q)); injection H2 as _ <-; reflexivity.
Qed.
Lemma setType_stream c (q q' : qstate DB) : setType c q = inl q' -> eh_stream (q_err q') = eh_stream (q_err q).
Proof.
  unfold setType. assert (A : forall v (r : qstate DB), eh_stream (q_err (set_queryType v r)) = eh_stream (q_err r)).
  { intros v r. unfold set_queryType. destruct (qtype_of v); reflexivity. }
  assert (B : forall v (r : qstate DB), eh_stream (q_err (set_queryRes v r)) = eh_stream (q_err r)).
  { intros v r. unfold set_queryRes. repeat match goal with |- context [if ?b then _ else _] => destruct b end; reflexivity. }
  repeat match goal with |- context [if ?b then _ else _] => destruct b end; intros H; try discriminate; apply (f_equal (fun s => match s with inl x => eh_stream (q_err x) | inr _ => None end)) in H; rewrite ?A, ?B in H; congruence.
Qed.

(** ** The result is the last stage *)
Lemma leave_parts code (q : qstate DB) w lines fs r : leave E code q w lines fs = Val r -> r = mkResult code w lines fs.
Proof. unfold leave. intros H. apply bind_val in H. destruct H as (u & _ & H). injection H as <-. reflexivity. Qed.
Lemma last_cons {A} (x y : A) l d : last (x :: y :: l) d = last (y :: l) d. Proof. reflexivity. Qed.
Lemma loop_last fuel : forall q w lines fs ok vals loc s r d,
  locationLoop E T S fuel q w lines fs ok vals loc s = Val r ->
  g_files (last (loopStages E T S fuel q lines fs ok vals loc s) d) = r_files r /\
  g_lines (last (loopStages E T S fuel q lines fs ok vals loc s) d) = r_lines r.
Proof.
  assert (Fin : forall q w lines fs r, finish E q w lines fs = Val r -> fs = r_files r /\ Some lines = r_lines r).
  { intros q w lines fs r H. unfold finish in H. destruct (bad (close E q)); apply leave_parts in H; subst r; auto. }
  induction fuel as [|fuel IH]; intros q w lines fs ok vals [[lon lat] elev] s r d; cbn [locationLoop loopStages];
    (destruct (negb (i_eof s) && good s && ok); [|intros H; exact (Fin _ _ _ _ _ H)]); [discriminate|].
  intros H. apply bind_val in H. destruct H as ([[q1 fs1] vals1] & Q & H). rewrite Q.
  destruct (bad q1 && is_error q1); [apply leave_parts in H; subst r; split; reflexivity|].
  apply bind_val in H. destruct H as (line & O & H). rewrite O.
  destruct (readLocation T (lon, lat, elev) s) as [s1 loc1].
  specialize (IH _ _ _ _ _ _ _ _ _ d H).
  destruct (loopStages E T S fuel _ _ _ _ _ _ _) as [|x l] eqn:L; [destruct fuel; discriminate L|].
  rewrite !last_cons. exact IH.
Qed.

(** One line at a time. *)
Lemma loop_each fuel : forall q w lines fs ok vals loc s r,
  locationLoop E T S fuel q w lines fs ok vals loc s = Val r ->
  exists more, r_lines r = Some (lines ++ more)%list /\
  forall j, (j <= List.length more)%nat -> exists st, In st (loopStages E T S fuel q lines fs ok vals loc s) /\ g_lines st = Some (lines ++ firstn j more)%list.
Proof.
  assert (Here : forall (r : result) lines st l, r_lines r = Some lines -> g_lines st = Some lines ->
    exists more, r_lines r = Some (lines ++ more)%list /\
    forall j, (j <= List.length more)%nat -> exists st', In st' (st :: l) /\ g_lines st' = Some (lines ++ firstn j more)%list).
  { intros r lines st l Q G. exists []. rewrite app_nil_r. split; [exact Q|]. intros j _. exists st. rewrite firstn_nil, app_nil_r. split; [left; reflexivity|exact G]. }
  assert (Fin : forall q w lines fs r, finish E q w lines fs = Val r -> r_lines r = Some lines).
  { intros q w lines fs r H. unfold finish in H. destruct (bad (close E q)); apply leave_parts in H; subst r; auto. }
  induction fuel as [|fuel IH]; intros q w lines fs ok vals [[lon lat] elev] s r; cbn [locationLoop loopStages];
    (destruct (negb (i_eof s) && good s && ok); [|intros H; apply Here; [exact (Fin _ _ _ _ _ H)|reflexivity]]); [discriminate|].
  intros H. apply bind_val in H. destruct H as ([[q1 fs1] vals1] & Q & H). rewrite Q.
  destruct (bad q1 && is_error q1); [apply leave_parts in H; subst r; apply Here; reflexivity|].
  apply bind_val in H. destruct H as (line & O & H). rewrite O.
  destruct (readLocation T (lon, lat, elev) s) as [s1 loc1].
  destruct (IH _ _ _ _ _ _ _ _ _ H) as (more & R & J). destruct (o_write S (lines ++ [line])%list).
  - exists (line :: more). split; [rewrite R, <- app_assoc; reflexivity|]. intros [|j] LJ.
    + eexists. split; [left; reflexivity|]. cbn [firstn]. rewrite app_nil_r. reflexivity.
    + cbn [List.length] in LJ. destruct (J j) as (st & I & G); [lia|]. exists st. split; [right; right; exact I|].
      rewrite G, <- app_assoc. reflexivity.
  - exists more. split; [exact R|]. intros j LJ. destruct (J j LJ) as (st & I & G). exists st. split; [right; right; exact I|exact G].
Qed.

Theorem C71_stages g junk args fs :
  exists rest, mainStages E T S g junk args fs = mkStage None fs None :: rest /\
  forall code m lines fs', main E T S g junk args fs = Val (mkResult code m lines fs') ->
    exists before f, mainStages E T S g junk args fs = (before ++ [f])%list /\ g_files f = fs' /\ g_lines f = lines /\
    forall all j, lines = Some all -> (j <= List.length all)%nat ->
      exists st, In st (mainStages E T S g junk args fs) /\ g_lines st = Some (firstn j all).
Proof.
  eexists. split; [reflexivity|]. intros code m lines fs' H.
  assert (K : g_files (last (mainStages E T S g junk args fs) (mkStage None fs None)) = fs' /\
              g_lines (last (mainStages E T S g junk args fs) (mkStage None fs None)) = lines).
  { unfold main in H. unfold mainStages. destruct (parseArgs T args) as [[c w]|[c w]].
    { injection H as _ _ <- <-. split; reflexivity. }
    destruct (configure E c (q_new g) fs) as [q fs1]. apply bind_val in H. destruct H as (q1 & O & H). rewrite O.
    assert (LV : forall q0 w0, leave E 1 q0 w0 None fs1 = Val (mkResult code m lines fs') -> fs1 = fs' /\ None = lines).
    { intros q0 w0 L. apply leave_parts in L. injection L as _ _ <- <-. auto. }
    destruct (bad q1); [exact (LV _ _ H)|]. destruct (setType c q1) as [q2|w2]; [|exact (LV _ _ H)].
    unfold locations in H. destruct (o_read S (c_in c)) as [text|]; [|exact (LV _ _ H)].
    destruct (o_create S (c_out c)); cbn [negb] in H |- *; [|exact (LV _ _ H)].
    destruct (readLocation T (f_zero, f_zero, f_zero) (openText text)) as [s loc].
    pose proof (loop_last _ _ _ _ _ _ _ _ _ _ (mkStage None fs None) H) as K.
    destruct (loopStages E T S (String.length text) q2 [] fs1 true junk loc s) as [|x l] eqn:L; [destruct (String.length text); discriminate L|].
    rewrite !last_cons. exact K. }
  exists (removelast (mainStages E T S g junk args fs)), (last (mainStages E T S g junk args fs) (mkStage None fs None)).
  split; [apply app_removelast_last; discriminate|]. split; [apply K|]. split; [apply K|]. clear K.
  intros all j QL LJ. unfold main in H. unfold mainStages. destruct (parseArgs T args) as [[c w]|[c w]].
  { injection H as _ _ D _. congruence. }
  destruct (configure E c (q_new g) fs) as [q fs1]. apply bind_val in H. destruct H as (q1 & O & H). rewrite O.
  assert (LV : forall q0 w0, leave E 1 q0 w0 None fs1 = Val (mkResult code m lines fs') -> None = lines).
  { intros q0 w0 L. apply leave_parts in L. injection L as _ _ <- _. reflexivity. }
  destruct (bad q1); [rewrite <- (LV _ _ H) in QL; discriminate QL|]. destruct (setType c q1) as [q2|w2]; [|rewrite <- (LV _ _ H) in QL; discriminate QL].
  unfold locations in H. destruct (o_read S (c_in c)) as [text|]; [|rewrite <- (LV _ _ H) in QL; discriminate QL].
  destruct (o_create S (c_out c)); cbn [negb] in H |- *; [|rewrite <- (LV _ _ H) in QL; discriminate QL].
  destruct (readLocation T (f_zero, f_zero, f_zero) (openText text)) as [s loc].
  destruct (loop_each _ _ _ _ _ _ _ _ _ _ H) as (more & R & J). cbn [r_lines app] in R. rewrite QL in R. injection R as ->.
  destruct (J j LJ) as (st & I & G). exists st. split; [right; right; exact I|exact G].
Qed.

(** ** Killing *)
Lemma initial_trans a b c : initial a b -> initial b c -> initial a c.
Proof. intros [r ->] [r' ->]. exists (r ++ r')%string. apply app_assoc_s. Qed.

Lemma start_facts g c fs : let (q, fs1) := configure E c (q_new g) fs in
  log_there q fs1 /\
  forall n, (fs1 n = fs n /\ logged_on (eh_stream (q_err q)) n = false) \/
    (log_opened E c n /\ fs1 n = Some ""%string /\ logged_on (eh_stream (q_err q)) n = true).
Proof.
  rewrite configure_eq. cbn [before_open q_err]. unfold log_there, log_opened. cbn [before_open q_err].
  assert (K : forall n, (snd (start_log E c fs) n = fs n /\ logged_on (eh_stream (fst (start_log E c fs))) n = false) \/
    ((n = c_log c /\ n <> ""%string /\ n <> "/dev/null"%string /\ e_writable E n = true) /\ snd (start_log E c fs) n = Some ""%string /\
     logged_on (eh_stream (fst (start_log E c fs))) n = true)).
  { intros n. unfold start_log. destruct (String.eqb_spec (c_log c) "") as [_|NE]; [left; split; [reflexivity|apply andb_false_r]|].
    unfold eh_logFilename, open_trunc. change NULLFILE with "/dev/null"%string.
    destruct (String.eqb_spec (c_log c) "/dev/null") as [Q|NN]; cbn [fst snd eh_stream logged_on].
    { left. split; [reflexivity|]. rewrite Q, String.eqb_refl. apply andb_false_r. }
    destruct (e_writable E (c_log c)) eqn:W; cbn [fst snd eh_stream logged_on]; [|left; split; reflexivity].
    unfold fset. destruct (String.eqb_spec n (c_log c)) as [->|N]; [right|left; split; reflexivity].
    split; [auto|]. split; [reflexivity|]. rewrite (proj2 (String.eqb_neq _ _) NN). reflexivity. }
  split; [|exact K]. intros n B. destruct (K n) as [[_ L]|(_ & L & _)]; [congruence|eauto].
Qed.

Lemma later_stages g junk args fs : exists l, mainStages E T S g junk args fs = mkStage None fs None :: l /\
  StronglySorted adds l /\
  (l <> [] -> exists c w, parseArgs T args = inr (c, w) /\
    let (q, fs1) := configure E c (q_new g) fs in Forall (adds (stage_of q fs1 None)) l).
Proof.
  unfold mainStages. eexists. split; [reflexivity|].
  destruct (parseArgs T args) as [[c w]|[c w]]; [split; [apply SSorted_nil|congruence]|].
  pose proof (start_facts g c fs) as K. destruct (configure E c (q_new g) fs) as [q fs1] eqn:CF. destruct K as [HL _].
  set (l := match open E q with Val _ => _ | _ => _ end).
  assert (A : StronglySorted adds l /\ Forall (adds (stage_of q fs1 None)) l).
  { unfold l. assert (N : StronglySorted adds [] /\ Forall (adds (stage_of q fs1 None)) []) by (split; constructor).
    destruct (open E q) as [q1| | |] eqn:O; try exact N.
    destruct (bad q1); [exact N|]. destruct (setType c q1) as [q2|w2] eqn:ST; [|exact N].
    destruct (o_read S (c_in c)) as [text|]; [|exact N]. destruct (o_create S (c_out c)); [|exact N]. cbn [negb].
    destruct (readLocation T (f_zero, f_zero, f_zero) (openText text)) as [s loc].
    assert (ES : eh_stream (q_err q2) = eh_stream (q_err q)) by (rewrite (setType_stream _ _ _ ST), (open_stream _ _ O); reflexivity).
    assert (HL2 : log_there q2 fs1) by (intros n B; apply HL; rewrite <- ES; exact B).
    destruct (loop_sorted E T S (String.length text) q2 [] fs1 true junk loc s HL2) as [A B]. split; [exact A|].
    eapply Forall_impl; [|exact B]. intros st. apply adds_trans. split; [exact ES|]. split; [intros n; apply grows_refl|exact I]. }
  destruct A as [A B]. split; [apply SSorted_cons; assumption|]. intros _. exists c, w. split; [reflexivity|].
  rewrite CF. apply Forall_cons; [apply adds_refl|exact B].
Qed.

Lemma sorted_last {A} (R : A -> A -> Prop) (l : list A) x y : (forall a, R a a) -> StronglySorted R (l ++ [y]) -> In x (l ++ [y]) -> R x y.
Proof.
  intros RR. induction l as [|a l IH]; cbn [app]; intros H I.
  - destruct I as [->|[]]. apply RR.
  - apply StronglySorted_inv in H. destruct H as [H F]. destruct I as [->|I]; [|exact (IH H I)].
    rewrite Forall_forall in F. apply F. apply in_or_app. right. left. reflexivity.
Qed.

Theorem C71_killed g junk args fs st k :
  In st (mainStages E T S g junk args fs) -> may_remain st k ->
  (forall n, k_files k n = fs n \/
     exists c w t, parseArgs T args = inr (c, w) /\ log_opened E c n /\ k_files k n = Some t) /\
  forall code m lines fs', main E T S g junk args fs = Val (mkResult code m lines fs') ->
    (forall n, k_files k n = fs n \/ exists t s, k_files k n = Some t /\ fs' n = Some s /\ initial t s) /\
    (k_out k = None \/ exists t ls, k_out k = Some t /\ lines = Some ls /\ initial t (as_lines ls)).
Proof.
  intros IN [KF KO]. destruct (later_stages g junk args fs) as (l & QL & SS & ST).
  rewrite QL in IN. destruct IN as [<-|IN].
  { cbn [g_log g_files g_lines] in KF, KO. split; [intros n; left; apply KF|]. intros code m lines fs' _. split; [intros n; left; apply KF|left; exact KO]. }
  assert (NL : l <> []) by (intros ->; exact IN).
  destruct (ST NL) as (c & w & PA & F). clear ST.
  pose proof (start_facts g c fs) as SF. destruct (configure E c (q_new g) fs) as [q fs1]. destruct SF as [HL SF].
  rewrite Forall_forall in F. pose proof (F st IN) as (GL & GF & _). cbn [stage_of g_log g_files] in GL, GF.
  assert (KN : forall n, if logged_on (eh_stream (q_err q)) n
    then exists t s, k_files k n = Some t /\ g_files st n = Some s /\ initial t s else k_files k n = fs1 n).
  { intros n. specialize (KF n). specialize (GF n). rewrite GL in KF. unfold logged_on in *.
    destruct (eh_stream (q_err q)) as [lg|] eqn:EL.
    - destruct (String.eqb n lg && negb (String.eqb lg "/dev/null")) eqn:B.
      + destruct (HL n) as [s0 Hs]; [unfold logged_on; rewrite EL; exact B|].
        assert (X : exists s, g_files st n = Some s) by (destruct GF as [->|(_ & s & r & _ & ->)]; eauto).
        destruct X as [s X]. rewrite X in KF. destruct KF as (t & K1 & K2). exists t, s. auto.
      + destruct GF as [GF|[D _]]; [congruence|discriminate D].
    - destruct GF as [GF|[D _]]; [congruence|discriminate D]. }
  split.
  - intros n. specialize (KN n). destruct (SF n) as [[F1 B]|(LO & _ & B)]; rewrite B in KN; [left; congruence|].
    right. destruct KN as (t & s & K1 & _). exists c, w, t. auto.
  - intros code m lines fs' R. destruct (C71_stages g junk args fs) as (rest & QR & CS).
    destruct (CS _ _ _ _ R) as (before & f & QF & GFF & GLL & _). rewrite QL in QF.
    assert (AD : adds st f).
    { destruct before as [|b before]; [destruct l; [congruence|discriminate QF]|]. injection QF as _ QF. rewrite QF in SS, IN.
      exact (sorted_last adds before st f adds_refl SS IN). }
    destruct AD as (AL & AF & AN). split.
    + intros n. specialize (KN n). specialize (AF n). rewrite GFF in AF. destruct (SF n) as [[F1 B]|(LO & _ & B)]; rewrite B in KN; [left; congruence|].
      right. destruct KN as (t & s & K1 & K2 & K3). rewrite K2 in AF. destruct AF as [AF|(_ & s' & r & Q & AF)].
      * exists t, s. auto.
      * injection Q as <-. exists t, (s ++ r)%string. split; [exact K1|]. split; [exact AF|]. eapply initial_trans; [exact K3|]. exists r. reflexivity.
    + rewrite GLL in AN. destruct (g_lines st) as [ls|]; [right|left; exact KO]. destruct KO as (t & K1 & K2). destruct AN as [r AN].
      exists t, (ls ++ r)%list. split; [exact K1|]. split; [exact AN|]. eapply initial_trans; [exact K2|]. exists (as_lines r). apply as_lines_app.
Qed.
End Main.

(** ** Running it again *)
Section Again.
Context {DB : Type}.
Variables (E : env DB) (T : texts) (S : os).

Definition related {A} (R : A -> A -> Prop) (o o' : outcome A) : Prop :=
  match o, o' with Val x, Val y => R x y | _, _ => o = o' end.
Definition eqf (f f' : files) : Prop := forall n, f n = f' n.

Lemma log_eqf m e f f' : eqf f f' -> eqf (eh_log m e f) (eh_log m e f').
Proof.
  intros H. unfold eh_log. destruct (eh_stream e) as [l|]; [|exact H]. destruct (String.eqb l NULLFILE); [exact H|].
  intros n. unfold fset, content. rewrite H. destruct (String.eqb n l); [reflexivity|apply H].
Qed.
Lemma query_eqf q f f' v lon lat elev : eqf f f' ->
  related (fun x y => fst (fst x) = fst (fst y) /\ eqf (snd (fst x)) (snd (fst y)) /\ snd x = snd y)
    (query E q f v lon lat elev) (query E q f' v lon lat elev).
Proof.
  intros H. unfold query. destruct v as [olds|]; [|reflexivity].
  destruct (assert_ _); cbn [bind]; try reflexivity.
  destruct (query_body E q lon lat elev) as [[[e p] r]| | |]; cbn [bind]; try reflexivity. destruct p as [p|]; [|reflexivity].
  destruct (p_block p =? NODATABLOCK);
    (destruct (copy _ _ _ _ _ _ _ _ _ _) as [[vs e'']| | |]; cbn [bind related fst snd]; try reflexivity); (split; [reflexivity|split; [|reflexivity]]).
  - apply log_eqf, H.
  - exact H.
Qed.
Lemma leave_eqf code (q : qstate DB) w lines f f' : eqf f f' -> same_result (leave E code q w lines f) (leave E code q w lines f').
Proof. intros H. unfold leave. destruct (destroy E q); cbn [bind same_result]; auto. Qed.
Lemma loop_eqf fuel : forall q w lines f f' ok vals loc s, eqf f f' ->
  same_result (locationLoop E T S fuel q w lines f ok vals loc s) (locationLoop E T S fuel q w lines f' ok vals loc s).
Proof.
  induction fuel as [|fuel IH]; intros q w lines f f' ok vals [[lon lat] elev] s H; cbn [locationLoop];
    (destruct (negb (i_eof s) && good s && ok); [|unfold finish; destruct (bad (close E q)); apply leave_eqf, H]); [reflexivity|].
  pose proof (query_eqf q f f' (Some vals) lon lat elev H) as K.
  destruct (query E q f (Some vals) lon lat elev) as [[[q1 f1] v1]| | |], (query E q f' (Some vals) lon lat elev) as [[[q1' f1'] v1']| | |];
    cbn [bind related same_result fst snd] in *; try discriminate K; try reflexivity; try (injection K as ->; reflexivity).
  destruct K as (<- & K & <-).
  destruct (bad q1 && is_error q1); [apply leave_eqf, K|]. destruct (outLine T lon lat elev v1); cbn [bind]; try reflexivity.
  destruct (readLocation T (lon, lat, elev) s) as [s1 loc1]. apply IH, K.
Qed.

Theorem C71_run_again g junk args fs st k :
  In st (mainStages E T S g junk args fs) -> may_remain st k ->
  same_result (main E T S g junk args (k_files k)) (main E T S g junk args fs).
Proof.
  intros IN MR. destruct (C71_killed E T S g junk args fs st k IN MR) as [KF _].
  unfold main. destruct (parseArgs T args) as [[c w]|[c w]] eqn:PA.
  { cbn [same_result r_code r_said r_lines r_files]. split; [reflexivity|]. split; [reflexivity|]. split; [reflexivity|].
    intros n. destruct (KF n) as [KN|(c' & w' & t & D & _)]; [exact KN|discriminate D]. }
  rewrite !configure_eq.
  assert (ST : fst (start_log E c (k_files k)) = fst (start_log E c fs) /\ eqf (snd (start_log E c (k_files k))) (snd (start_log E c fs))).
  { unfold start_log, eh_logFilename, open_trunc.
    assert (KN : forall n, n <> c_log c \/ c_log c = ""%string \/ c_log c = NULLFILE \/ e_writable E (c_log c) = false -> k_files k n = fs n).
    { intros n H. destruct (KF n) as [KN|(c' & w' & t & Q & (N & N1 & N2 & N3) & _)]; [exact KN|exfalso].
      apply (f_equal (fun o => match o with inr (x, _) => c_log x | inl _ => ""%string end)) in Q. rewrite <- Q in N. subst n.
      change NULLFILE with "/dev/null"%string in H. destruct H as [H|[H|[H|H]]]; congruence. }
    destruct (String.eqb_spec (c_log c) "") as [Q|_]; [split; [reflexivity|intros n; apply KN; auto]|].
    destruct (String.eqb_spec (c_log c) NULLFILE) as [Q|_]; [split; [reflexivity|intros n; apply KN; auto]|].
    destruct (e_writable E (c_log c)) eqn:W; [|split; [reflexivity|intros n; apply KN; auto]].
    split; [reflexivity|]. intros n. cbn [snd]. unfold fset. destruct (String.eqb_spec n (c_log c)) as [_|N]; [reflexivity|]. apply KN. auto. }
  destruct ST as [-> H]. destruct (open E (before_open g c (fst (start_log E c fs)))) as [q1| | |]; cbn [bind]; try reflexivity.
  destruct (bad q1); [apply leave_eqf, H|]. destruct (setType c q1) as [q2|w2]; [|apply leave_eqf, H].
  unfold locations. destruct (o_read S (c_in c)) as [text|]; [|apply leave_eqf, H].
  destruct (o_create S (c_out c)); cbn [negb]; [|apply leave_eqf, H].
  destruct (readLocation T (f_zero, f_zero, f_zero) (openText text)) as [s loc]. apply loop_eqf, H.
Qed.
End Again.

(** ** An example *)
From Verif Require Import PropApp ToyLib ToyDb.
Open Scope string_scope.
Open Scope Z_scope.
(** A run over an old log file, killed after the second location was looked up: one line
    was written, and of it and of the log only a part is there. *)
Definition old_log : files := fun n => if String.eqb n "log" then Some "old" else None.
Definition stages_ex : list stage := mainStages toy_env app_texts (app_os true) toy junk9 app_args old_log.
Definition remains_ex : remains :=
  mkRemains (fun n => if String.eqb n "log" then Some "#, #" else None) (Some " 296908 541696 -1234 5000 29").
Definition show_stage (g : stage) : option string * option string * option (list string) := (g_log g, g_files g "log", g_lines g).
Definition line1 : string := " 296908 541696 -1234 5000 2900 2700 200 100 1250 11 3 18".
Definition line2 : string := " 296908 541696 5000 -999 -999 -999 -999 -999 -999 0 0 -999".
Definition line3 : string := " 296908 541696 0 1500 400 1800 200 100 10 7 2 3".
Example C71_stages_example : map show_stage stages_ex =
  [(None, Some "old", None); (Some "log", Some "", None); (Some "log", Some "", Some []); (Some "log", Some "", Some []);
   (Some "log", Some "", Some [line1]); (Some "log", Some ("#, #, #, No data" ++ NL), Some [line1]);
   (Some "log", Some ("#, #, #, No data" ++ NL), Some [line1; line2]);
   (Some "log", Some ("#, #, #, No data" ++ NL), Some [line1; line2]);
   (Some "log", Some ("#, #, #, No data" ++ NL), Some [line1; line2; line3])].
Proof. vm_compute. reflexivity. Qed.
Example C71_example : exists st, In st stages_ex /\ may_remain st remains_ex.
Proof.
  exists (nth 5 stages_ex (mkStage None old_log None)). split; [apply nth_In; vm_compute; lia|].
  set (st := nth 5 stages_ex (mkStage None old_log None)).
  assert (G : show_stage st = (Some "log", Some ("#, #, #, No data" ++ NL), Some [line1])) by (vm_compute; reflexivity).
  assert (O : forall n, String.eqb n "log" = false -> g_files st n = None).
  { intros n N. unfold st. assert (F : exists v, g_files (nth 5 stages_ex (mkStage None old_log None)) = fset (fset old_log "log" "") "log" v).
    { eexists. vm_compute. reflexivity. }
    destruct F as [v ->]. unfold fset, old_log. rewrite N. reflexivity. }
  unfold show_stage in G. apply pair_equal_spec in G. destruct G as [G GL]. apply pair_equal_spec in G. destruct G as [GS GF].
  split.
  - intros n. rewrite GS. cbn [remains_ex k_files]. destruct (String.eqb n "log") eqn:N; cbn [andb].
    + apply String.eqb_eq in N. subst n. rewrite GF. change (negb (String.eqb "log" "/dev/null")) with true. cbn [andb].
      exists "#, #". split; [reflexivity|]. exists (", #, No data" ++ NL). reflexivity.
    + rewrite (O n N). reflexivity.
  - rewrite GL. exists " 296908 541696 -1234 5000 29". split; [reflexivity|]. exists ("00 2700 200 100 1250 11 3 18" ++ NL). reflexivity.
Qed.

Print Assumptions C71_stages.
Print Assumptions C71_killed.
Print Assumptions C71_run_again.
