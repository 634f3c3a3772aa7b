(** C61: the example program for the C interface. *)
From Coq Require Import ZArith Bool Lia String Ascii List.
From Verif Require Import Outcome Float Payload Addr SpecOct SpecGeom Geom GeomFacts ErrorHandler VMQuery SpecQuery SpecHist
  QueryFacts QueryProof QueryHist QueryIndep Stream GetOpt QueryApp SpecText StreamFacts SpecApp AppFacts AppMain
  CApi CExample SpecCExample CExampleFacts PropApp ToyLib ToyDb Averager.
Import ListNotations.
Open Scope Z_scope.

(** ** The command line *)
(** Words shorter than 256 characters are understood as by cencalvmquery: help, refused
    command lines and settings are the same. *)
Theorem C61_command_line : forall T args, Forall short_word args -> cParseArgs T args = Val (parseArgs T args).
Proof. exact cParse_short. Qed.
Print Assumptions C61_command_line.
Theorem C61_no_run : forall DB (E : env DB) T S to_end fuel g junk args fs code said, Forall short_word args ->
  parseArgs T args = inl (code, said) ->
  main E T S g junk args fs = Val (mkResult code said None fs) /\
  cMain E T S to_end fuel g junk args fs = Val (Ended (mkResult code said None fs)).
Proof.
  intros DB E T S to_end fuel g junk args fs code said HS HP. unfold main, cMain.
  rewrite cParse_short, HP by exact HS. split; reflexivity.
Qed.
Print Assumptions C61_no_run.

(** A longer name or type of query is copied beyond the end of an array. *)
Theorem C61_long_value : forall DB (E : env DB) T S to_end fuel g junk fs kvs k v more,
  Forall (fun kv => known_letter (fst kv) /\ (text_letter (fst kv) -> short_word (snd kv))) kvs ->
  text_letter k -> (256 <= String.length v)%nat ->
  exists why, cMain E T S to_end fuel g junk (opt_words kvs ++ opt_words [(k, v)] ++ more) fs = UB why.
Proof.
  intros DB E T S to_end fuel g junk fs kvs k v more H HK HV.
  assert (KL : known_letter k).
  { unfold known_letter. unfold text_letter in HK. cbn [In] in *. tauto. }
  assert (H' : Forall (fun kv : ascii * string => known_letter (fst kv)) (kvs ++ [(k, v)])).
  { apply Forall_app. split; [|constructor; [exact KL | constructor]]. eapply Forall_impl; [|exact H]. intros kv [A _]. exact A. }
  assert (GO : getopts (options query_options) None (opt_words kvs ++ opt_words [(k, v)] ++ more) =
    (map (fun kv => Arg (fst kv) (snd kv)) kvs ++ Arg k v :: getopts (options query_options) None more)%list).
  { rewrite app_assoc. unfold opt_words. rewrite <- flat_map_app. fold (opt_words (kvs ++ [(k, v)])).
    rewrite (getopts_words _ more H'), map_app, <- app_assoc. reflexivity. }
  unfold cMain, cParseArgs. change "c:d:e:hi:l:o:r:s:t:"%string with query_options. rewrite GO.
  destruct (cOptionLoop_words T kvs (Arg k v :: getopts (options query_options) None more) H 1 cConfig0 [])
    as (n & c & w & ->). cbn [cOptionLoop].
  destruct (cOption1_long T n c w k v HK HV) as [y ->]. exists y. reflexivity.
Qed.
Print Assumptions C61_long_value.

(** ** Before the first location *)
Theorem C61_refuses : forall DB (E : env DB) T S to_end fuel g junk args fs c w m, Forall short_word args ->
  parseArgs T args = inr (c, w) -> c_refuses E S c m ->
  exists fs', logged_files E c fs "" fs' /\
    cMain E T S to_end fuel g junk args fs = Val (Ended (mkResult 1 (w ++ m) None fs')).
Proof.
  intros DB E T S to_end fuel g junk args fs c w m HS HP HR. exists (snd (start_log E c fs)). split.
  - exact (logs_ok E c fs [] [] eq_refl).
  - apply cMain_refuses; [|exact HR]. rewrite cParse_short, HP by exact HS. reflexivity.
Qed.
Print Assumptions C61_refuses.
(** These are the same cases as for cencalvmquery: every other run gets to the locations. *)
Theorem C61_refuses_iff : forall DB (E : env DB) S c, (exists m, c_refuses E S c m) <-> (exists l m, cannot_start E S c l m).
Proof.
  intros DB E S c. split.
  - intros (m & H). inversion H as [H1 H2|H1 H2|d x H1 H2 H3|d x H1 H2 H3|d x k H1 H2 H3 H4|d x k text H1 H2 H3 H4 H5].
    + destruct (String.eqb (c_dbExt c) "") eqn:X.
      * eexists. eexists. apply (no_database E S c None H1). rewrite X. reflexivity.
      * destruct H2 as [H2|H2]; [apply String.eqb_neq in X; contradiction|].
        eexists. eexists. apply (no_database E S c (e_open E (c_dbExt c) (cache_of c)) H1). rewrite X. split; [reflexivity | exact H2].
    + eexists. eexists. apply (no_extended E S c H1 H2).
    + eexists. eexists. apply (bad_resolution E S c d x H1 H2 H3).
    + eexists. eexists. apply (bad_kind E S c d x H1 H2 H3).
    + eexists. eexists. apply (no_input E S c d x k H1 H2 H3 H4).
    + eexists. eexists. apply (no_output E S c d x k text H1 H2 H3 H4 H5).
  - intros (l & m & H). inversion H as [x H1 H2|H1 H2|d x H1 H2 H3|d x H1 H2 H3|d x k H1 H2 H3 H4|d x k text H1 H2 H3 H4 H5].
    + eexists. apply (c_no_database E S c H1). destruct (String.eqb_spec (c_dbExt c) ""); [left; assumption|]. destruct H2 as [-> N]. right. exact N.
    + eexists. apply (c_no_extended E S c H1 H2).
    + eexists. apply (c_bad_resolution E S c d x H1 H2 H3).
    + eexists. apply (c_bad_kind E S c d x H1 H2 H3).
    + eexists. apply (c_no_input E S c d x k H1 H2 H3 H4).
    + eexists. apply (c_no_output E S c d x k text H1 H2 H3 H4 H5).
Qed.
Print Assumptions C61_refuses_iff.

(** ** The locations *)
(** A run that gets to the locations in [text]. *)
Definition prepared {DB} (E : env DB) (T : texts) (S : os) (args : list string) (c : config) (w : list said)
    (k : qtype) (d : DB) (x : option DB) (junk : list f64) (text : string) : Prop :=
  Forall short_word args /\ parseArgs T args = inr (c, w) /\ opens E c d x /\ asks_kind c k /\
  (k <> MAXRES -> flt (c_res c) f_zero = false) /\
  stores_shorts E (Some d) /\ stores_shorts E x /\ List.length junk = 9%nat /\
  o_read S (c_in c) = Some text /\ o_create S (c_out c) = true.

(** In every text the locations are followed either by the end or by a word that cannot be
    read. *)
Theorem C61_text : forall F to_end text, exists ls, complete F to_end text ls \/ exists loc, jammed F to_end text ls loc.
Proof.
  intros F to_end text. destruct (C40_lists_total F text) as (ls & ws & rest & t & e & -> & H & U & L & N). exists ls.
  assert (D : forall w, (exists v, numeral F w v) \/ ~ readable F w).
  { intros w. unfold readable, numeral. destruct (n_f64 F w) as [v [|]] eqn:Q; [left; eauto|]. right. intros [v' Q']. congruence. }
  assert (DE : e = ""%string \/ readable F e \/ to_end e = true \/ (~ readable F e /\ e <> ""%string /\ to_end e = false)).
  { destruct (String.eqb_spec e ""); [auto|]. destruct (D e); [right; left; assumption|]. destruct (to_end e); right; right; [left; reflexivity | right; auto]. }
  assert (J : forall nums vs bad more, rest = (nums ++ bad :: more)%list -> Forall2 (numeral F) nums vs -> (List.length nums < 3)%nat -> ~ readable F bad ->
    exists loc, jammed F to_end (t ++ e) ls loc).
  { intros nums vs bad more -> V LN B. eexists. exists ws, nums, bad, more, t, e, vs.
    repeat (split; [first [reflexivity | assumption]|]).
    left. exact H. }
  assert (Z : forall vs, (List.length rest < 3)%nat -> Forall2 (numeral F) rest vs ->
    complete F to_end (t ++ e) ls \/ exists loc, jammed F to_end (t ++ e) ls loc).
  { intros vs LR V.
    assert (C : e = ""%string \/ readable F e \/ to_end e = true -> complete F to_end (t ++ e) ls).
    { intros HE. exists ws, rest, t, e. repeat (split; [first [reflexivity | assumption]|]). split; [|exact HE].
      clear - V. induction V as [|w v ws vs Q V IH]; constructor; [exists v; exact Q | exact IH]. }
    destruct DE as [HE|[HE|[HE|(B & NE & HT)]]]; [left; apply C; tauto..|].
    right. eexists. exists ws, rest, e, [], t, e, vs. repeat (split; [first [reflexivity | assumption]|]).
    right. auto. }
  destruct rest as [|a [|b [|c r]]].
  - apply (Z []); [cbn; lia | constructor].
  - destruct (D a) as [[va A]|A]; [|right; apply (J [] [] a []); [reflexivity | constructor | cbn; lia | exact A]].
    apply (Z [va]); [cbn; lia | repeat constructor; assumption].
  - destruct (D a) as [[va A]|A]; [|right; apply (J [] [] a [b]); [reflexivity | constructor | cbn; lia | exact A]].
    destruct (D b) as [[vb B]|B]; [|right; apply (J [a] [va] b []); [reflexivity | repeat constructor; assumption | cbn; lia | exact B]].
    apply (Z [va; vb]); [cbn; lia | repeat constructor; assumption].
  - right. destruct (D a) as [[va A]|A]; [|apply (J [] [] a (b :: c :: r)); [reflexivity | constructor | cbn; lia | exact A]].
    destruct (D b) as [[vb B]|B]; [|apply (J [a] [va] b (c :: r)); [reflexivity | repeat constructor; assumption | cbn; lia | exact B]].
    apply (J [a; b] [va; vb] c r); [reflexivity | repeat constructor; assumption | cbn; lia |].
    intros [vc C]. exact (N a b c r va vb vc eq_refl (conj A (conj B C))).
Qed.
Print Assumptions C61_text.

(** Either way cencalvmquery reads the same locations. *)
Theorem C61_lists : forall F to_end text ls, complete F to_end text ls \/ (exists loc, jammed F to_end text ls loc) -> lists F text ls.
Proof.
  intros F to_end text ls [(ws & rest & t & e & -> & H & U & L & N & R & HE)|(loc & ws & nums & bad & more & t & e & vs & -> & U & L & V & N & B & _ & H)].
  - exists ws, rest, t, e. repeat (split; [first [reflexivity | assumption]|]). intros a b c r lon lat elev ->. cbn in N. lia.
  - destruct H as [H|(H & -> & NE & HT)].
    + exists ws, (nums ++ bad :: more)%list, t, e. repeat (split; [first [reflexivity | assumption]|]).
      intros a b c r lon lat elev Q (A & B1 & C).
      destruct nums as [|n1 [|n2 [|n3 nums]]]; cbn [app] in Q; try (cbn in N; lia).
      * injection Q as <- _. apply B. eexists. exact A.
      * injection Q as _ <- _. apply B. eexists. exact B1.
      * injection Q as _ _ <- _. apply B. eexists. exact C.
    + exists ws, nums, t, bad. repeat (split; [first [reflexivity | assumption]|]). intros a b c r lon lat elev ->. cbn in N. lia.
Qed.
Print Assumptions C61_lists.

Section Runs.
Context {DB : Type}.
Variables (E : env DB) (T : texts) (S : os) (to_end : string -> bool) (g : libm) (args : list string) (c : config)
  (w : list said) (k : qtype) (d : DB) (x : option DB) (junk : list f64) (text : string) (fs : files).
Hypothesis P : prepared E T S args c w k d x junk text.
Let q0 := object c k g (Some d) x eh_new.
Let e1 := fst (start_log E c fs).
Let fs1 := snd (start_log E c fs).

Lemma c_start fuel : exists w0, has w0 (with_err q0 e1) fs1 /\
  cMain E T S to_end fuel g junk args fs =
  let r := scan3 (t_num T) to_end (f_zero, f_zero, f_zero) (input text) in
  cLoop E T S to_end fuel (QueryPtr 0) (HandlerPtr 0) w0 w [] (Some junk) (snd r) (fst r).
Proof.
  destruct P as (H1 & H2 & H3 & H4 & H5 & H6 & H7 & H8 & H9 & H10).
  assert (HP : cParseArgs T args = Val (inr (c, w))) by (rewrite cParse_short, H2 by exact H1; reflexivity).
  destruct (cMain_start E T S to_end g fuel junk args fs c w k d x HP H3 H4 H5) as (w0 & K & ->).
  exists w0. split; [exact K|]. unfold cLocations. rewrite H9, H10. cbn [negb].
  change (mkInput (list_ascii_of_string text) false) with (input text).
  destruct (scan3 (t_num T) to_end (f_zero, f_zero, f_zero) (input text)); reflexivity.
Qed.
Lemma c_finish e2 w0 e lines fs' : clean e2 -> has w0 (with_err q0 e2) fs' ->
  cFinish E (QueryPtr 0) (HandlerPtr 0) w0 e lines =
  Val (Ended (if closed_ok E d x then mkResult 0 e (Some lines) fs'
              else mkResult 1 (e ++ [Said (close_msg (c_db c) ++ NL)])%list (Some lines) fs')).
Proof.
  clear P. intros [C1 C2] H. unfold cFinish.
  destruct (on_query_has "close" (quietly (close E)) w0 _ fs' (close E (with_err q0 e2)) fs' H eq_refl) as (w1 & Q1 & H1).
  unfold cencalvm_close. rewrite Q1. cbn [bind]. rewrite (status_has w1 _ fs' H1). cbn [bind].
  assert (CL : eh_status (q_err (close E (with_err q0 e2))) = (if closed_ok E d x then OK else ERROR) /\
    (closed_ok E d x = false -> eh_msg (q_err (close E (with_err q0 e2))) = close_msg (c_db c)) /\
    q_db (close E (with_err q0 e2)) = None /\ q_dbExt (close E (with_err q0 e2)) = None).
  { unfold close, close1, closed_ok, q0, object. cbn [with_err q_db q_dbExt q_err q_name].
    destruct x as [x'|]; destruct (e_close E d); try (destruct (e_close E x')); cbn [andb set_db q_err q_db q_dbExt eh_error eh_status eh_msg];
      repeat split; try exact C1; discriminate. }
  destruct CL as (CS & CM & CD & CX). rewrite CS. destruct (closed_ok E d x).
  - cbn [status_code Z.eqb negb]. unfold cencalvm_destroyQuery, ends. destruct H1 as [-> H1]. unfold destroy. rewrite CD, CX.
    cbn [bind w_files]. rewrite H1. reflexivity.
  - cbn [status_code Z.eqb negb]. rewrite (message_has NL w1 _ fs' e H1). cbn [bind]. unfold ends. destruct H1 as [_ ->].
    rewrite CM by reflexivity. reflexivity.
Qed.
Lemma c_logged ls ys : Forall2 (replies E q0) ls ys -> logged_files E c fs (log_of E ls ys) (logs E e1 ls ys fs1).
Proof. clear P. intros H. apply logs_ok. clear - H. induction H; cbn; congruence. Qed.

Lemma c_run ls ys fuel loc' s' : Forall2 (replies E q0) ls ys -> Forall (fun y => y_status y <> ERROR) ys -> (List.length ls <= fuel)%nat ->
  (let r := scan3 (t_num T) to_end (f_zero, f_zero, f_zero) (input text) in feeds (t_num T) to_end ls (snd r) (fst r) loc' s') ->
  exists w' e2 new vals', clean e2 /\ eh_stream e2 = eh_stream e1 /\ has w' (with_err q0 e2) (logs E e1 ls ys fs1) /\
    lines_for T ls ys new /\ List.length vals' = 9%nat /\
    cMain E T S to_end fuel g junk args fs =
    cLoop E T S to_end (fuel - List.length ls) (QueryPtr 0) (HandlerPtr 0) w' (w ++ warned ys)%list (kept S [] new) (Some vals') loc' s'.
Proof.
  intros HY HE HF HD. destruct (c_start fuel) as (w0 & H0 & ->). cbv zeta in HD |- *.
  destruct P as (_ & _ & _ & _ & _ & H6 & H7 & H8 & _).
  exact (cLoop_more E T S to_end q0 H6 H7 eq_refl eq_refl ls ys HY HE fuel e1 w0 w [] fs1 junk _ _ loc' s' HF
    (start_clean E c fs) H0 H8 HD).
Qed.
End Runs.

(** No location gives an ERROR and nothing in the file is unreadable: the lines of
    cencalvmquery, of which those are lost that cannot be written; the messages of the
    answers that are not OK; the log.  Exit code 0, or 1 if closing a database failed. *)
Theorem C61_all_lines : forall DB (E : env DB) T S to_end g args c w k d x junk text ls fs ys,
  prepared E T S args c w k d x junk text -> complete (t_num T) to_end text ls ->
  Forall2 (replies E (object c k g (Some d) x eh_new)) ls ys -> Forall (fun y => y_status y <> ERROR) ys ->
  exists lines fs', lines_for T ls ys lines /\ logged_files E c fs (log_of E ls ys) fs' /\
    (closes E d x -> forall fuel, (List.length ls <= fuel)%nat ->
       cMain E T S to_end fuel g junk args fs = Val (Ended (mkResult 0 (w ++ warned ys) (Some (kept S [] lines)) fs'))) /\
    (~ closes E d x -> forall fuel, (List.length ls <= fuel)%nat -> cMain E T S to_end fuel g junk args fs =
       Val (Ended (mkResult 1 (w ++ warned ys ++ [Said ("Could not close the etree database '" ++ c_db c ++ "'." ++ line_end)])
              (Some (kept S [] lines)) fs'))).
Proof.
  intros DB E T S to_end g args c w k d x junk text ls fs ys P HC HY HE.
  destruct (feeds_complete (t_num T) to_end text ls HC) as (l' & s' & Fe & HF).
  destruct (c_run E T S to_end g args c w k d x junk text fs P ls ys (List.length ls) l' s' HY HE (le_n _) HF) as (_ & _ & lines & _ & _ & _ & _ & LF & _).
  exists lines, (logs E (fst (start_log E c fs)) ls ys (snd (start_log E c fs))). split; [exact LF|].
  split; [exact (c_logged E g c k d x fs ls ys HY)|].
  assert (G : forall fuel, (List.length ls <= fuel)%nat -> cMain E T S to_end fuel g junk args fs =
    Val (Ended (if closed_ok E d x then mkResult 0 (w ++ warned ys) (Some (kept S [] lines)) (logs E (fst (start_log E c fs)) ls ys (snd (start_log E c fs)))
              else mkResult 1 ((w ++ warned ys) ++ [Said (close_msg (c_db c) ++ NL)])%list (Some (kept S [] lines)) (logs E (fst (start_log E c fs)) ls ys (snd (start_log E c fs)))))).
  { intros fuel HL.
    destruct (c_run E T S to_end g args c w k d x junk text fs P ls ys fuel l' s' HY HE HL HF) as (w2 & e2 & new & v2 & C2 & _ & H2 & LF2 & _ & Q).
    assert (new = lines) as ->.
    { assert (DJ : forall z z' : Z, short z -> short z' -> i2f64 z = i2f64 z' -> z = z').
      { intros z z' A B K. pose proof (toInt_short z A) as I1. rewrite K, (toInt_short z' B) in I1. congruence. }
      clear - LF LF2 DJ. revert new LF2. induction LF as [|l y s ls ys ss HL HLs IH]; intros new H; inversion H as [|? ? s2 ? ? ss2 K1 K2]; subst; [reflexivity|].
      f_equal; [|apply IH; exact K2]. destruct HL as (b & z & A1 & A2 & A3 & A4 & ->), K1 as (b' & z' & B1 & B2 & B3 & B4 & ->).
      rewrite (DJ b b'), (DJ z z') by (try assumption; congruence). reflexivity. }
    rewrite Q. destruct (fuel - List.length ls)%nat; cbn [cLoop]; rewrite Fe; exact (c_finish E g c k d x e2 w2 _ _ _ C2 H2). }
  split; intros C fuel HL; rewrite (G fuel HL).
  - apply closes_iff in C. rewrite C. reflexivity.
  - rewrite <- app_assoc. destruct (closed_ok E d x) eqn:K; [exfalso; apply C, closes_iff, K|].
    unfold close_msg. rewrite !app_assoc_s. reflexivity.
Qed.
Print Assumptions C61_all_lines.

(** Then everything is as with cencalvmquery: exit code, standard error, output and log. *)
Theorem C61_same_run : forall DB (E : env DB) T S to_end g args c w k d x junk text ls fs ys fuel,
  prepared E T S args c w k d x junk text -> complete (t_num T) to_end text ls ->
  Forall2 (replies E (object c k g (Some d) x eh_new)) ls ys -> Forall (fun y => y_status y <> ERROR) ys ->
  (forall l, o_write S l = true) -> closes E d x -> (List.length ls <= fuel)%nat ->
  exists lines fs1 fs2, lines_for T ls ys lines /\ (forall n, fs1 n = fs2 n) /\
    main E T S g junk args fs = Val (mkResult 0 (w ++ warned ys) (Some lines) fs1) /\
    cMain E T S to_end fuel g junk args fs = Val (Ended (mkResult 0 (w ++ warned ys) (Some lines) fs2)).
Proof.
  intros DB E T S to_end g args c w k d x junk text ls fs ys fuel P HC HY HE WOK CL HF.
  destruct (C61_all_lines DB E T S to_end g args c w k d x junk text ls fs ys P HC HY HE) as (lines & fs2 & LF & L2 & Q2 & _).
  specialize (Q2 CL fuel HF).
  pose proof P as (_ & H2 & H3 & H4 & H5 & H6 & H7 & H8 & H9 & H10).
  assert (R : running E T S args c w k d x junk ls).
  { repeat (split; [assumption|]). split; [|split; assumption]. exists text. split; [exact H9|]. apply (C61_lists _ to_end). left. exact HC. }
  destruct (C40_all_lines DB E T S g args c w k d x junk ls fs ys R HY HE) as (lines1 & fs1 & LF1 & L1 & Q1 & _).
  specialize (Q1 CL).
  assert (KP : forall have new, kept S have new = (have ++ new)%list).
  { clear - WOK. intros have new. revert have. induction new as [|l new IH]; intros have; cbn [kept]; [rewrite app_nil_r; reflexivity|].
    rewrite WOK, IH, <- app_assoc. reflexivity. }
  rewrite KP in Q2. cbn [app] in Q2.
  assert (lines1 = lines) as ->.
  { assert (DJ : forall z z' : Z, short z -> short z' -> i2f64 z = i2f64 z' -> z = z').
    { intros z z' A B K. pose proof (toInt_short z A) as I1. rewrite K, (toInt_short z' B) in I1. congruence. }
    clear - LF LF1 DJ. revert lines1 LF1. induction LF as [|l y s ls ys ss HL HLs IH]; intros new H; inversion H as [|? ? s2 ? ? ss2 K1 K2]; subst; [reflexivity|].
    f_equal; [|apply IH; exact K2]. destruct HL as (b & z & A1 & A2 & A3 & A4 & ->), K1 as (b' & z' & B1 & B2 & B3 & B4 & ->).
    rewrite (DJ b b'), (DJ z z') by (try assumption; congruence). reflexivity. }
  exists lines, fs1, fs2. split; [exact LF|]. split; [intros n; rewrite L1, L2; reflexivity|]. split; assumption.
Qed.
Print Assumptions C61_same_run.

(** A word that cannot be read: the program goes on for ever and writes a line for the
    same location again and again. *)
Theorem C61_endless : forall DB (E : env DB) T S to_end g args c w k d x junk text ls loc fs ys y,
  prepared E T S args c w k d x junk text -> jammed (t_num T) to_end text ls loc ->
  Forall2 (replies E (object c k g (Some d) x eh_new)) ls ys -> Forall (fun y => y_status y <> ERROR) ys ->
  replies E (object c k g (Some d) x eh_new) loc y -> y_status y <> ERROR ->
  forall n, exists lines, lines_for T (ls ++ repeat loc n) (ys ++ repeat y n) lines /\
    cMain E T S to_end (List.length ls + n) g junk args fs =
    Val (Goes (kept S [] lines) (w ++ warned (ys ++ repeat y n))).
Proof.
  intros DB E T S to_end g args c w k d x junk text ls loc fs ys y P HJ HY HE RL YE n.
  destruct (feeds_jammed (t_num T) to_end text ls loc HJ n) as (s' & Fe & HF).
  assert (HY' : Forall2 (replies E (object c k g (Some d) x eh_new)) (ls ++ repeat loc n) (ys ++ repeat y n)).
  { apply Forall2_app; [exact HY|]. clear - RL. induction n; cbn [repeat]; [apply Forall2_nil | apply Forall2_cons; assumption]. }
  assert (HE' : Forall (fun y => y_status y <> ERROR) (ys ++ repeat y n)).
  { apply Forall_app. split; [exact HE|]. apply Forall_forall. intros y' I. apply repeat_spec in I. subst. exact YE. }
  assert (LEN : List.length (ls ++ repeat loc n) = (List.length ls + n)%nat) by (rewrite app_length, repeat_length; reflexivity).
  destruct (c_run E T S to_end g args c w k d x junk text fs P (ls ++ repeat loc n) (ys ++ repeat y n) (List.length ls + n) loc s' HY' HE' ltac:(lia) HF)
    as (w2 & e2 & new & v2 & C2 & _ & H2 & LF2 & _ & Q).
  exists new. split; [exact LF2|]. rewrite Q, LEN, Nat.sub_diag. cbn [cLoop]. rewrite Fe. reflexivity.
Qed.
Print Assumptions C61_endless.

(** The first ERROR ends the run with exit code 1, whatever follows in the file. *)
Theorem C61_first_error : forall DB (E : env DB) T S to_end g args c w k d x junk text ls before l after fs ys y,
  prepared E T S args c w k d x junk text ->
  complete (t_num T) to_end text ls \/ (exists loc n ls', jammed (t_num T) to_end text ls' loc /\ ls = (ls' ++ repeat loc n)%list) ->
  ls = (before ++ l :: after)%list ->
  Forall2 (replies E (object c k g (Some d) x eh_new)) before ys -> Forall (fun y => y_status y <> ERROR) ys ->
  replies E (object c k g (Some d) x eh_new) l y -> y_status y = ERROR ->
  forall fuel, (List.length before < fuel)%nat ->
  exists lines fs', lines_for T before ys lines /\ logged_files E c fs (log_of E (before ++ [l]) (ys ++ [y])) fs' /\
    cMain E T S to_end fuel g junk args fs =
    Val (Ended (mkResult 1 (w ++ warned ys ++ [Said (y_msg y)]) (Some (kept S [] lines)) fs')).
Proof.
  intros DB E T S to_end g args c w k d x junk text ls before l after fs ys y P HT -> HY HE RL YE fuel HL.
  assert (HF : exists s, in_feof s = false /\ let r := scan3 (t_num T) to_end (f_zero, f_zero, f_zero) (input text) in
    feeds (t_num T) to_end before (snd r) (fst r) l s).
  { destruct HT as [HT|(loc & n & ls' & HT & QL)].
    - destruct (feeds_complete (t_num T) to_end text _ HT) as (l' & s' & _ & HF). destruct (feeds_split _ _ _ _ _ _ _ _ _ HF) as (s2 & K & F2). eauto.
    - destruct (feeds_jammed (t_num T) to_end text ls' loc HT n) as (s' & _ & HF). rewrite <- QL in HF.
      destruct (feeds_split _ _ _ _ _ _ _ _ _ HF) as (s2 & K & F2). eauto. }
  destruct HF as (s & Fe & HF).
  destruct (c_run E T S to_end g args c w k d x junk text fs P before ys fuel l s HY HE ltac:(lia) HF) as (w2 & e2 & new & v2 & C2 & S2 & H2 & LF2 & LV & Q).
  destruct P as (_ & _ & _ & _ & _ & H6 & H7 & _).
  assert (FU : exists m, (fuel - List.length before)%nat = Datatypes.S m) by (exists (fuel - List.length before - 1)%nat; lia).
  destruct FU as (m & FU). rewrite FU in Q.
  rewrite (cLoop_error E T S to_end (object c k g (Some d) x eh_new) H6 H7 eq_refl eq_refl l y RL YE m e2 w2 _ _ _ v2 s C2 H2 LV Fe) in Q.
  exists new. eexists. split; [exact LF2|]. split; [|rewrite Q, <- app_assoc; reflexivity].
  assert (LQ : forall ls ys fs0, List.length ls = List.length ys ->
    logs E e2 [l] [y] (logs E (fst (start_log E c fs)) ls ys fs0) = logs E (fst (start_log E c fs)) (ls ++ [l]) (ys ++ [y]) fs0).
  { clear - S2. induction ls as [|[[a b] cc] ls IH]; intros [|y0 ys] ffs HL; try discriminate.
    - destruct l as [[a b] cc]. cbn [logs app]. unfold eh_log. rewrite S2. reflexivity.
    - cbn [logs app]. apply IH. injection HL as HL. exact HL. }
  assert (LB : List.length before = List.length ys) by (clear - HY; induction HY; cbn; congruence).
  rewrite LQ by exact LB. apply logs_ok. rewrite !app_length, LB. reflexivity.
Qed.
Print Assumptions C61_first_error.

(** A location for which the query aborts or is undefined takes the program with it. *)
Theorem C61_undefined : forall DB (E : env DB) T S to_end g args c w k d x junk text ls before l after fs ys o,
  prepared E T S args c w k d x junk text ->
  complete (t_num T) to_end text ls \/ (exists loc n ls', jammed (t_num T) to_end text ls' loc /\ ls = (ls' ++ repeat loc n)%list) ->
  ls = (before ++ l :: after)%list ->
  Forall2 (replies E (object c k g (Some d) x eh_new)) before ys -> Forall (fun y => y_status y <> ERROR) ys ->
  fails E (object c k g (Some d) x eh_new) l o ->
  forall fuel, (List.length before < fuel)%nat ->
  o = Abort /\ cMain E T S to_end fuel g junk args fs = Abort \/
  exists why, o = UB why /\ cMain E T S to_end fuel g junk args fs = UB why.
Proof.
  intros DB E T S to_end g args c w k d x junk text ls before l after fs ys o P HT -> HY HE RL fuel HL.
  assert (HF : exists s, in_feof s = false /\ let r := scan3 (t_num T) to_end (f_zero, f_zero, f_zero) (input text) in
    feeds (t_num T) to_end before (snd r) (fst r) l s).
  { destruct HT as [HT|(loc & n & ls' & HT & QL)].
    - destruct (feeds_complete (t_num T) to_end text _ HT) as (l' & s' & _ & HF). destruct (feeds_split _ _ _ _ _ _ _ _ _ HF) as (s2 & K & F2). eauto.
    - destruct (feeds_jammed (t_num T) to_end text ls' loc HT n) as (s' & _ & HF). rewrite <- QL in HF.
      destruct (feeds_split _ _ _ _ _ _ _ _ _ HF) as (s2 & K & F2). eauto. }
  destruct HF as (s & Fe & HF).
  destruct (c_run E T S to_end g args c w k d x junk text fs P before ys fuel l s HY HE ltac:(lia) HF) as (w2 & e2 & new & v2 & C2 & S2 & H2 & LF2 & LV & Q).
  destruct P as (_ & _ & _ & _ & _ & H6 & H7 & _).
  assert (FU : exists m, (fuel - List.length before)%nat = Datatypes.S m) by (exists (fuel - List.length before - 1)%nat; lia).
  destruct FU as (m & FU). rewrite FU in Q. rewrite Q.
  pose proof (cLoop_fails E T S to_end (object c k g (Some d) x eh_new) H6 H7 eq_refl eq_refl l o RL m e2 w2 (w ++ warned ys) (kept S [] new) _ v2 s C2 H2 LV Fe) as K.
  destruct o as [a|m'| |why]; [contradiction..|left; auto | right; eauto].
Qed.
Print Assumptions C61_undefined.

(** ** Examples *)
Definition no_word : string -> bool := fun _ => false.
Lemma app_prepared ok : prepared toy_env app_texts (app_os ok) app_args app_config [] MAXRES toy_db None junk9 app_text.
Proof.
  split; [unfold app_args, short_word; repeat (apply Forall_cons; [apply Nat.ltb_lt; vm_compute; reflexivity|]); apply Forall_nil|].
  split; [vm_compute; reflexivity|]. split; [exact app_opens|]. split; [reflexivity|]. split; [intros N; contradiction|].
  split; [apply (app_shorts "detailed"); reflexivity|]. split; [intros db a h p N; discriminate|]. split; [reflexivity|].
  split; reflexivity.
Qed.
Lemma app_complete : complete (t_num app_texts) no_word app_text app_locations.
Proof.
  destruct app_lists as (ws & rest & t & e & Q & H & U & L & N).
  exists ["x"; "y"; "-1234.5"; "x"; "y"; "5000"; "x"; "y"; "-0.03"]%string, ["x"; "y"]%string.
  exists ("x y -1234.5" ++ NL ++ "x y" ++ NL ++ "5000 x  y -0.03 " ++ NL ++ "x y ")%string, "-1234.5"%string.
  clear ws rest t e Q H U L N.
  split; [vm_compute; reflexivity|]. split; [|split; [right; apply word_check; vm_compute; reflexivity|split]].
  - cbn [app].
    apply (laid_check "" "x" " " ("y -1234.5" ++ NL ++ "x y" ++ NL ++ "5000 x  y -0.03 " ++ NL ++ "x y ")); [vm_compute; reflexivity..|].
    apply (laid_check "" "y" " " ("-1234.5" ++ NL ++ "x y" ++ NL ++ "5000 x  y -0.03 " ++ NL ++ "x y ")); [vm_compute; reflexivity..|].
    apply (laid_check "" "-1234.5" "010" ("x y" ++ NL ++ "5000 x  y -0.03 " ++ NL ++ "x y ")); [vm_compute; reflexivity..|].
    apply (laid_check "" "x" " " ("y" ++ NL ++ "5000 x  y -0.03 " ++ NL ++ "x y ")); [vm_compute; reflexivity..|].
    apply (laid_check "" "y" "010" ("5000 x  y -0.03 " ++ NL ++ "x y ")); [vm_compute; reflexivity..|].
    apply (laid_check "" "5000" " " ("x  y -0.03 " ++ NL ++ "x y ")); [vm_compute; reflexivity..|].
    apply (laid_check "" "x" " " (" y -0.03 " ++ NL ++ "x y ")); [vm_compute; reflexivity..|].
    apply (laid_check " " "y" " " ("-0.03 " ++ NL ++ "x y ")); [vm_compute; reflexivity..|].
    apply (laid_check "" "-0.03" " " (NL ++ "x y ")); [vm_compute; reflexivity..|].
    apply (laid_check NL "x" " " "y "); [vm_compute; reflexivity..|].
    apply (laid_check "" "y" " " ""); [vm_compute; reflexivity..|].
    apply laid_blank, blanks_check. reflexivity.
  - repeat (apply located_cons; [reflexivity..|]). apply located_nil.
  - split; [cbn; lia|]. split.
    + repeat (apply Forall_cons; [eexists; reflexivity|]). apply Forall_nil.
    + right. left. eexists. reflexivity.
Qed.
Example C61_example : prepared toy_env app_texts (app_os true) app_args app_config [] MAXRES toy_db None junk9 app_text /\
  complete (t_num app_texts) no_word app_text app_locations /\
  Forall2 (replies toy_env app_object) app_locations (map app_reply app_locations) /\
  map y_status (map app_reply app_locations) = [OK; WARNING; OK] /\ closes toy_env toy_db None.
Proof. split; [apply app_prepared|]. split; [exact app_complete|]. apply C40_example. Qed.
(** What can be seen of a run. *)
Definition c_seen (o : outcome progress) := match o with
  | Val (Ended r) => Some (r_code r, r_said r, r_lines r, r_files r "log"%string) | _ => None end.
Example C61_example_run : c_seen (cMain toy_env app_texts (app_os true) no_word 3 toy junk9 app_args (fun _ => None)) =
  Some (0, [Said ("WARNING: No data for #, #, #." ++ NL)],
    Some [" 296908 541696 -1234 5000 2900 2700 200 100 1250 11 3 18"; " 296908 541696 5000 -999 -999 -999 -999 -999 -999 0 0 -999";
          " 296908 541696 0 1500 400 1800 200 100 10 7 2 3"]%string,
    Some ("#, #, #, No data" ++ NL)%string).
Proof. vm_compute. reflexivity. Qed.

(** Exit code 0 does not mean that the output is complete. *)
Theorem C61_exit_0_complete_refuted : ~ (forall DB (E : env DB) T S to_end fuel g args c w k d x junk text ls fs lines m fs',
  prepared E T S args c w k d x junk text -> complete (t_num T) to_end text ls ->
  cMain E T S to_end fuel g junk args fs = Val (Ended (mkResult 0 m lines fs')) ->
  exists l, lines = Some l /\ List.length l = List.length ls).
Proof.
  intros H.
  assert (K : c_seen (cMain toy_env app_texts (app_os false) no_word 3 toy junk9 app_args (fun _ => None)) =
    Some (0, [Said ("WARNING: No data for #, #, #." ++ NL)], Some [], Some ("#, #, #, No data" ++ NL)%string)) by (vm_compute; reflexivity).
  destruct (cMain toy_env app_texts (app_os false) no_word 3 toy junk9 app_args (fun _ => None)) as [[[code m lines fs']|? ?]|?| |?] eqn:Q; try discriminate K.
  cbn [c_seen r_code r_said r_lines r_files] in K. injection K as -> _ -> _.
  destruct (H _ toy_env app_texts (app_os false) no_word 3%nat toy app_args app_config [] MAXRES toy_db None junk9 app_text app_locations
    (fun _ => None) (Some []) m fs' (app_prepared false) app_complete Q) as (l & Ql & Len).
  injection Ql as <-. discriminate Len.
Qed.
Print Assumptions C61_exit_0_complete_refuted.

(** A word that is not a number in the second location. *)
Definition jam_text : string := ("x y -1234.5" ++ NL ++ "x oops 5000" ++ NL)%string.
Definition jam_os : os := mkOs (fun _ => Some jam_text) (fun _ => true) (fun _ => true).
Lemma jam_jammed : jammed (t_num app_texts) no_word jam_text [(toy_x, toy_y, elev_a)] (toy_x, toy_y, elev_a).
Proof.
  exists ["x"; "y"; "-1234.5"]%string, ["x"]%string, "oops"%string, ["5000"]%string, jam_text, ""%string, [toy_x].
  split; [vm_compute; reflexivity|]. split; [left; reflexivity|].
  split; [repeat (apply located_cons; [reflexivity..|]); apply located_nil|].
  split; [apply Forall2_cons; [reflexivity | apply Forall2_nil]|]. split; [cbn; lia|].
  split; [intros [v Q]; unfold numeral in Q; apply (f_equal snd) in Q; vm_compute in Q; discriminate|].
  split; [reflexivity|]. left. cbn [app].
  apply (laid_check "" "x" " " ("y -1234.5" ++ NL ++ "x oops 5000" ++ NL)); [vm_compute; reflexivity..|].
  apply (laid_check "" "y" " " ("-1234.5" ++ NL ++ "x oops 5000" ++ NL)); [vm_compute; reflexivity..|].
  apply (laid_check "" "-1234.5" "010" ("x oops 5000" ++ NL)); [vm_compute; reflexivity..|].
  apply (laid_check "" "x" " " ("oops 5000" ++ NL)); [vm_compute; reflexivity..|].
  apply (laid_check "" "oops" " " ("5000" ++ NL)); [vm_compute; reflexivity..|].
  apply (laid_check "" "5000" "010" ""); [vm_compute; reflexivity..|].
  apply laid_blank, blanks_check. reflexivity.
Qed.
Lemma jam_prepared : prepared toy_env app_texts jam_os app_args app_config [] MAXRES toy_db None junk9 jam_text.
Proof.
  destruct (app_prepared true) as (H1 & H2 & H3 & H4 & H5 & H6 & H7 & H8 & _).
  repeat (split; [assumption|]). split; reflexivity.
Qed.
(** Not every run of the program comes to an end. *)
Theorem C61_ends_refuted : ~ (forall DB (E : env DB) T S to_end g args c w k d x junk text fs,
  prepared E T S args c w k d x junk text ->
  exists fuel, forall lines said, cMain E T S to_end fuel g junk args fs <> Val (Goes lines said)).
Proof.
  intros H.
  assert (R : replies toy_env app_object (toy_x, toy_y, elev_a) (app_reply (toy_x, toy_y, elev_a))) by (apply app_replies; vm_compute; reflexivity).
  assert (OKr : y_status (app_reply (toy_x, toy_y, elev_a)) = OK) by (vm_compute; reflexivity).
  assert (G : forall n, exists lines, cMain toy_env app_texts jam_os no_word n toy junk9 app_args (fun _ => None) = Val (Goes lines [])).
  { intros [|n]; [eexists; vm_compute; reflexivity|].
    destruct (C61_endless _ toy_env app_texts jam_os no_word toy app_args app_config [] MAXRES toy_db None junk9 jam_text _ _ (fun _ => None)
      [app_reply (toy_x, toy_y, elev_a)] (app_reply (toy_x, toy_y, elev_a)) jam_prepared jam_jammed) with (n := n) as (lines & _ & Q).
    - apply Forall2_cons; [exact R | apply Forall2_nil].
    - apply Forall_cons; [rewrite OKr; discriminate | apply Forall_nil].
    - exact R.
    - rewrite OKr. discriminate.
    - cbn [List.length Nat.add] in Q. rewrite Q. eexists. f_equal. f_equal.
      clear - OKr. cbn [app]. change (app_reply (toy_x, toy_y, elev_a) :: repeat (app_reply (toy_x, toy_y, elev_a)) n)
        with (repeat (app_reply (toy_x, toy_y, elev_a)) (Datatypes.S n)). generalize (Datatypes.S n). revert OKr.
      generalize (app_reply (toy_x, toy_y, elev_a)). intros y Y m. induction m as [|m IH]; [reflexivity|].
      cbn [repeat]. unfold warned in *. cbn [flat_map]. rewrite Y. exact IH. }
  destruct (H _ toy_env app_texts jam_os no_word toy app_args app_config [] MAXRES toy_db None junk9 jam_text (fun _ => None) jam_prepared)
    as (fuel & K).
  destruct (G fuel) as (lines & Q). exact (K lines [] Q).
Qed.
Print Assumptions C61_ends_refuted.
Example C61_endless_example :
  (match cMain toy_env app_texts jam_os no_word 4 toy junk9 app_args (fun _ => None) with Val (Goes lines _) => lines | _ => [] end) =
  repeat " 296908 541696 -1234 5000 2900 2700 200 100 1250 11 3 18"%string 4.
Proof. vm_compute. reflexivity. Qed.

(** A name of 256 characters; an output file that cannot be created. *)
Fixpoint letters (n : nat) : string := match n with O => ""%string | Datatypes.S n => String "a" (letters n) end.
Example C61_long_value_example : text_letter "d" /\ (256 <= String.length (letters 256))%nat /\
  cParseArgs app_texts ["-i"; "in"; "-o"; "out"; "-d"; letters 256]%string = UB "strcpy() beyond the end of the array" /\
  cParseArgs app_texts ["-i"; "in"; "-o"; "out"; "-d"; letters 255]%string =
    Val (inr (mkConfig "in" "out" (letters 255) "" "" "maxres" f_zero 128 (i2f64 1000000), [])).
Proof. split; [left; reflexivity|]. split; [apply Nat.leb_le; vm_compute; reflexivity|]. split; vm_compute; reflexivity. Qed.
Example C61_refuses_example : c_seen (cMain toy_env app_texts (mkOs (o_read (app_os true)) (fun _ => false) (fun _ => true)) no_word 3 toy junk9
    app_args (fun _ => None)) =
  Some (1, [Said ("Could not open file 'in' to write query data." ++ NL)], None, Some ""%string).
Proof. vm_compute. reflexivity. Qed.
