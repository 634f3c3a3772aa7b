(** C62: the example program for the Fortran interface. *)
From Coq Require Import ZArith Bool Lia String Ascii List.
From Verif Require Import Outcome Float Payload Addr SpecOct SpecGeom Geom GeomFacts ErrorHandler VMQuery SpecQuery SpecHist
  QueryFacts QueryProof QueryHist QueryIndep Stream GetOpt QueryApp SpecText StreamFacts SpecApp AppFacts AppMain
  CApi CApiFacts Fortran CExample SpecCExample CExampleFacts FExample SpecFExample FExampleFacts PropApp ToyLib ToyDb Averager.
Import ListNotations.
Open Scope Z_scope.

(** ** Before the first location *)
Theorem C62_refuses : forall DB (E : env DB) F mem g junk c fs s p, names_ok c -> terminated mem ->
  plain_name 128 (c_in c) -> plain_name 64 (c_out c) -> f_refuses E F c s p ->
  exists fs', logged_files E c fs "" fs' /\ fMain E F mem g junk c fs = Val (mkFresult s p None fs').
Proof.
  intros DB E F mem g junk c fs s p N TM NI NO H. exists (snd (start_log E c fs)). split.
  - exact (logs_ok E c fs [] [] eq_refl).
  - exact (fMain_refuses E F mem g junk c fs s p N TM NI NO H).
Qed.
Print Assumptions C62_refuses.
(** The constants are not terminated: without a null character behind them in memory the
    first call reads beyond what it may read. *)
Theorem C62_no_null : forall DB (E : env DB) F mem g junk c fs, plain_name 64 (c_log c) ->
  (forall a, In a mem -> nat_of_ascii a <> 0%nat) -> exists why, fMain E F mem g junk c fs = UB why.
Proof.
  intros DB E F mem g junk c fs N M. unfold fMain. cbn [createquery_f cencalvm_createQuery w_next bind].
  unfold errorhandler_f, cencalvm_errorHandler. cbn [w_objs].
  change (upd (fun _ : nat => None) 0 (Some (q_new g)) 0%nat) with (Some (@q_new DB g)). cbv iota. cbn [assert_ bind].
  unfold error_logfilename_f. cbn [assert_ bind]. destruct (fname_none mem (c_log c) N M) as [why ->]. exists why. reflexivity.
Qed.
Print Assumptions C62_no_null.

(** ** The locations *)
(** A run that gets to the locations [ls]; [at_end]: they are all there is in the file. *)
Definition f_prepared {DB} (E : env DB) (F : fsys) (mem : list ascii) (c : config) (k : qtype) (d : DB) (x : option DB)
    (junk : list f64) (ls : list location) (at_end : bool) : Prop :=
  names_ok c /\ terminated mem /\ plain_name 128 (c_in c) /\ plain_name 64 (c_out c) /\ opens E c d x /\ f_asks c k /\
  (k <> MAXRES -> flt (c_res c) f_zero = false) /\
  stores_shorts E (Some d) /\ stores_shorts E x /\ List.length junk = 9%nat /\
  f_read F (c_in c) = Some (ls, at_end) /\ f_new F (c_out c) = true.

Section Runs.
Context {DB : Type}.
Variables (E : env DB) (F : fsys) (mem : list ascii) (g : libm) (c : config) (k : qtype) (d : DB) (x : option DB)
  (junk : list f64) (ls : list location) (at_end : bool) (fs : files).
Hypothesis P : f_prepared E F mem c k d x junk ls at_end.
Let q0 := object c k g (Some d) x eh_new.
Let e1 := fst (start_log E c fs).
Let fs1 := snd (start_log E c fs).

Lemma f_start : exists w0, has w0 (with_err q0 e1) fs1 /\
  fMain E F mem g junk c fs = fLoop E F (QueryPtr 0) (HandlerPtr 0) at_end w0 [] [] junk ls.
Proof.
  destruct P as (H1 & H2 & H3 & H4 & H5 & H6 & H7 & H8 & H9 & H10 & H11 & H12).
  destruct (fMain_start E F mem g junk c fs k d x H1 H2 H5 H6 H7) as (w0 & K & ->).
  exists w0. split; [exact K|]. unfold fLocations. rewrite (trim_name _ _ H3), (trim_name _ _ H4), H11, H12. reflexivity.
Qed.
Lemma f_finish e2 w0 p lines fs' : clean e2 -> has w0 (with_err q0 e2) fs' ->
  fFinish E (QueryPtr 0) (HandlerPtr 0) p lines w0 =
  Val (mkFresult End (if closed_ok E d x then p else p ++ [buffer (close_msg (c_db c)); Printed "ERROR"])%list (Some lines) fs').
Proof.
  clear P. intros [C1 C2] H. unfold fFinish.
  destruct (on_query_has "close" (quietly (close E)) w0 _ fs' (close E (with_err q0 e2)) fs' H eq_refl) as (w1 & Q1 & H1).
  change (close_f true E (QueryPtr 0)) with (fun w => close_f true E (QueryPtr 0) w).
  assert (CL : eh_status (q_err (close E (with_err q0 e2))) = (if closed_ok E d x then OK else ERROR) /\
    (closed_ok E d x = false -> eh_msg (q_err (close E (with_err q0 e2))) = close_msg (c_db c)) /\
    q_db (close E (with_err q0 e2)) = None /\ q_dbExt (close E (with_err q0 e2)) = None).
  { unfold close, close1, closed_ok, q0, object. cbn [with_err q_db q_dbExt q_err q_name].
    destruct x as [x'|]; destruct (e_close E d); try (destruct (e_close E x')); cbn [andb set_db q_err q_db q_dbExt eh_error eh_status eh_msg];
      repeat split; try exact C1; discriminate. }
  destruct CL as (CS & CM & CD & CX). rewrite CS in Q1. destruct (closed_ok E d x).
  - rewrite (or_998_ok p (Some lines) (fun w => close_f true E (QueryPtr 0) w) _ w0 w1 Q1).
    unfold destroyquery_f, cencalvm_destroyQuery. cbn [assert_ bind]. destruct H1 as [-> H1]. unfold destroy. rewrite CD, CX.
    cbn [bind w_files Z.eqb negb]. rewrite H1. reflexivity.
  - rewrite (or_998_bad p (Some lines) (fun w => close_f true E (QueryPtr 0) w) _ w0 w1 _ _ fs' Q1 ltac:(discriminate) H1).
    rewrite CM by reflexivity. reflexivity.
Qed.
Lemma f_logged l y : Forall2 (replies E q0) l y -> logged_files E c fs (log_of E l y) (logs E e1 l y fs1).
Proof. clear P. intros H. apply logs_ok. clear - H. induction H; cbn; congruence. Qed.
End Runs.

(** One line per location and one message per answer that is not OK, whatever the status
    of the answers: an ERROR does not end the run. *)
Theorem C62_all_lines : forall DB (E : env DB) F mem g c k d x junk ls at_end fs ys,
  f_prepared E F mem c k d x junk ls at_end ->
  Forall2 (replies E (object c k g (Some d) x eh_new)) ls ys -> (forall l, f_write F l = true) ->
  exists lines fs', f_lines_for F ls ys lines /\ logged_files E c fs (log_of E ls ys) fs' /\
    (at_end = true -> closes E d x ->
       fMain E F mem g junk c fs = Val (mkFresult End (f_warned ys) (Some lines) fs')) /\
    (at_end = true -> ~ closes E d x -> fMain E F mem g junk c fs =
       Val (mkFresult End (f_warned ys ++ [buffer ("Could not close the etree database '" ++ c_db c ++ "'."); Printed "ERROR"])
              (Some lines) fs')) /\
    (at_end = false -> fMain E F mem g junk c fs = Val (mkFresult RuntimeError (f_warned ys) (Some lines) fs')).
Proof.
  intros DB E F mem g c k d x junk ls at_end fs ys P HY HW.
  destruct (f_start E F mem g c k d x junk ls at_end fs P) as (w0 & H0 & Q0).
  pose proof P as (_ & _ & _ & _ & _ & _ & _ & H8 & H9 & H10 & _).
  destruct (fLoop_lines E F (object c k g (Some d) x eh_new) H8 H9 eq_refl eq_refl ls ys HY at_end [] _ w0 [] [] _ junk (start_clean E c fs) H0 H10)
    as (new & LN & K). destruct K as (w' & e2 & v2 & C2 & S2 & H2 & L2 & K); [intros; apply HW|].
  rewrite app_nil_r in K. cbn [app] in K. exists new. eexists. split; [exact LN|].
  split; [exact (f_logged E g c k d x fs ls ys HY)|]. rewrite Q0, K. cbn [fLoop]. split; [|split].
  - intros -> C. rewrite (f_finish E g c k d x e2 w' _ _ _ C2 H2). apply closes_iff in C. rewrite C. reflexivity.
  - intros -> C. rewrite (f_finish E g c k d x e2 w' _ _ _ C2 H2).
    destruct (closed_ok E d x) eqn:Z; [exfalso; apply C, closes_iff, Z|]. reflexivity.
  - intros ->. destruct H2 as [_ ->]. reflexivity.
Qed.
Print Assumptions C62_all_lines.

(** A line that cannot be written ends the run. *)
Theorem C62_write_fails : forall DB (E : env DB) F mem g c k d x junk before l after at_end fs ys y,
  f_prepared E F mem c k d x junk (before ++ l :: after) at_end ->
  Forall2 (replies E (object c k g (Some d) x eh_new)) before ys ->
  replies E (object c k g (Some d) x eh_new) l y ->
  exists lines line fs', f_lines_for F before ys lines /\ f_line_for F l y line /\
    logged_files E c fs (log_of E (before ++ [l]) (ys ++ [y])) fs' /\
    ((forall n, (0 < n <= List.length before)%nat -> f_write F (firstn n lines) = true) ->
     f_write F (lines ++ [line]) = false ->
     fMain E F mem g junk c fs = Val (mkFresult RuntimeError (f_warned (ys ++ [y])) (Some lines) fs')).
Proof.
  intros DB E F mem g c k d x junk before l after at_end fs ys y P HY Hl.
  destruct (f_start E F mem g c k d x junk (before ++ l :: after) at_end fs P) as (w0 & H0 & Q0).
  pose proof P as (_ & _ & _ & _ & _ & _ & _ & H8 & H9 & H10 & _).
  set (q0 := object c k g (Some d) x eh_new) in *.
  destruct (fLoop_lines E F q0 H8 H9 eq_refl eq_refl before ys HY at_end (l :: after) _ w0 [] [] _ junk (start_clean E c fs) H0 H10)
    as (new & LN & K).
  assert (LL : exists line, f_line_for F l y line /\ forall lon lat elev, l = (lon, lat, elev) -> fLine F lon lat elev (y_vals y) = Val line).
  { destruct l as [[lon lat] elev]. destruct (f_reply_line E F q0 H8 H9 eq_refl lon lat elev y Hl) as (line & A & B & _).
    exists line. split; [exact B|]. intros ? ? ? Q. injection Q as <- <- <-. exact A. }
  destruct LL as (line & LF & LQ).
  exists new, line, (logs E (fst (start_log E c fs)) (before ++ [l]) (ys ++ [y]) (snd (start_log E c fs))).
  split; [exact LN|]. split; [exact LF|]. split.
  - apply logs_ok. rewrite !app_length. assert (LB : List.length before = List.length ys) by (clear - HY; induction HY; cbn; congruence).
    rewrite LB. reflexivity.
  - intros HW NW. destruct K as (w' & e2 & v2 & C2 & S2 & H2 & L2 & K).
    { intros n A B. cbn [app]. apply HW. lia. }
    rewrite Q0, K. cbn [app].
    destruct (fLoop_step E F q0 H8 H9 eq_refl eq_refl l y Hl at_end after e2 w' (f_warned ys) new _ v2 C2 H2 L2)
      as (w3 & e3 & line' & _ & _ & _ & LF' & _ & Q).
    assert (line' = line) as ->.
    { assert (DJ : forall z z' : Z, short z -> short z' -> i2f64 z = i2f64 z' -> z = z').
      { intros z z' A B J. pose proof (toInt_short z A) as I1. rewrite J, (toInt_short z' B) in I1. congruence. }
      clear - LF LF' DJ. destruct l as [[lon lat] elev].
      destruct LF as (b & z & A1 & A2 & A3 & A4 & ->), LF' as (b' & z' & B1 & B2 & B3 & B4 & ->).
      rewrite (DJ b b'), (DJ z z') by (try assumption; congruence). reflexivity. }
    rewrite Q, NW. unfold f_warned. rewrite flat_map_app. cbn [flat_map].
    assert (LQ2 : forall ls ys fs0, List.length ls = List.length ys ->
      logs E e2 [l] [y] (logs E (fst (start_log E c fs)) ls ys fs0) = logs E (fst (start_log E c fs)) (ls ++ [l]) (ys ++ [y]) fs0).
    { clear - S2. induction ls as [|[[a b] cc] ls IH]; intros [|y0 ys] ffs HL; try discriminate.
      - destruct l as [[a b] cc]. cbn [logs app]. unfold eh_log. rewrite S2. reflexivity.
      - cbn [logs app]. apply IH. injection HL as HL. exact HL. }
    rewrite LQ2; [reflexivity|]. clear - HY; induction HY; cbn; congruence.
Qed.
Print Assumptions C62_write_fails.

(** A location for which the query aborts or is undefined takes the program with it. *)
Theorem C62_undefined : forall DB (E : env DB) F mem g c k d x junk before l after at_end fs ys o,
  f_prepared E F mem c k d x junk (before ++ l :: after) at_end ->
  Forall2 (replies E (object c k g (Some d) x eh_new)) before ys -> (forall l, f_write F l = true) ->
  fails E (object c k g (Some d) x eh_new) l o ->
  o = Abort /\ fMain E F mem g junk c fs = Abort \/ exists why, o = UB why /\ fMain E F mem g junk c fs = UB why.
Proof.
  intros DB E F mem g c k d x junk before l after at_end fs ys o P HY HW Hl.
  destruct (f_start E F mem g c k d x junk (before ++ l :: after) at_end fs P) as (w0 & H0 & Q0).
  pose proof P as (_ & _ & _ & _ & _ & _ & _ & H8 & H9 & H10 & _).
  set (q0 := object c k g (Some d) x eh_new) in *.
  destruct (fLoop_lines E F q0 H8 H9 eq_refl eq_refl before ys HY at_end (l :: after) _ w0 [] [] _ junk (start_clean E c fs) H0 H10)
    as (new & LN & K). destruct K as (w' & e2 & v2 & C2 & S2 & H2 & L2 & K); [intros; apply HW|].
  rewrite Q0, K.
  pose proof (fLoop_fails E F q0 H8 H9 eq_refl eq_refl l o Hl at_end after e2 w' ([] ++ f_warned ys) ([] ++ new) _ v2 C2 H2 L2) as Z.
  destruct o as [a|m| |why]; [contradiction..|left; auto | right; eauto].
Qed.
Print Assumptions C62_undefined.

(** ** Examples *)
Lemma plain_check n s : (String.length s <? n)%nat && negb (String.eqb s "") &&
  forallb (fun c => negb (blankb c) && negb (Nat.eqb (nat_of_ascii c) 0)) (list_ascii_of_string s) = true -> plain_name n s.
Proof.
  rewrite !andb_true_iff. intros [[A B] C]. rewrite forallb_forall in C.
  split; [apply word_check; rewrite B; apply forallb_forall; intros c Hc; specialize (C c Hc); apply andb_prop in C; tauto|].
  split; [|apply Nat.ltb_lt, A]. intros c Hc E. specialize (C c Hc). rewrite E in C. rewrite andb_false_r in C. discriminate.
Qed.
Definition f_sys (ls : list location) (at_end fresh ok : bool) : fsys :=
  mkFsys (fun n => if String.eqb n "in" then Some (ls, at_end) else None) (fun n => String.eqb n "out" && fresh) (fun _ => ok)
    (fun _ _ x => (" " ++ app_show x)%string) (fun _ z => (" " ++ showZ z)%string).
Definition f_mem : list ascii := ["t"; "e"; "s"; "t"; "000"; "x"]%char.
Definition f_three : list location := [(toy_x, toy_y, i2f64 5000); (toy_x, toy_y, elev_a); (toy_x, toy_y, elev_b)].
Lemma f_names : names_ok app_config /\ terminated f_mem /\ plain_name 128 (c_in app_config) /\ plain_name 64 (c_out app_config).
Proof.
  split; [split; [|split; [left; reflexivity|]]; apply plain_check; vm_compute; reflexivity|]. split; [|split; apply plain_check; vm_compute; reflexivity].
  exists ["t"; "e"; "s"; "t"]%char, ["x"]%char. split; [reflexivity|]. intros c H. cbn in H.
  repeat (destruct H as [<-|H]; [discriminate|]). contradiction.
Qed.
Lemma f_toy_prepared ls at_end ok : f_prepared toy_env (f_sys ls at_end true ok) f_mem app_config MAXRES toy_db None junk9 ls at_end.
Proof.
  destruct f_names as (A & B & C & D). split; [exact A|]. split; [exact B|]. split; [exact C|]. split; [exact D|].
  split; [exact app_opens|]. split; [exists ""%string; reflexivity|]. split; [intros N; contradiction|].
  split; [apply (app_shorts "detailed"); reflexivity|]. split; [intros db a h p N; discriminate|]. repeat split; reflexivity.
Qed.
(** What can be seen of a run. *)
Definition f_seen (o : outcome fresult) := match o with
  | Val r => Some (fr_stop r, fr_printed r, fr_lines r, fr_files r "log"%string) | _ => None end.

(** No data, ERROR, ERROR: three lines, two messages, and no sign of an error at the end. *)
Example C62_example : f_prepared toy_env (f_sys f_three true true true) f_mem app_config MAXRES toy_db None junk9 f_three true /\
  (exists ys, Forall2 (replies toy_env (object app_config MAXRES no_inverse (Some toy_db) None eh_new)) f_three ys /\
     map y_status ys = [WARNING; ERROR; ERROR]) /\
  closes toy_env toy_db None /\
  f_seen (fMain toy_env (f_sys f_three true true true) f_mem no_inverse junk9 app_config (fun _ => None)) =
  Some (End, [buffer ("WARNING: No data for #, #, #." ++ NL); buffer "Error while inverse projecting location.";
              buffer "Error while inverse projecting location."],
    Some [" 296908 541696 5000 -999 -999 -999 -999 -999 -999 0 0 -999"; " 296908 541696 -1234 5000 2900 2700 200 100 1250 11 3 0";
          " 296908 541696 0 1500 400 1800 200 100 10 7 2 0"]%string, Some ("#, #, #, No data" ++ NL)%string).
Proof.
  split; [apply f_toy_prepared|]. split; [|split; [split; [reflexivity | intros x' N; discriminate]|vm_compute; reflexivity]].
  destruct (answer_reply no_inverse (toy_x, toy_y, i2f64 5000) WARNING ("WARNING: No data for #, #, #." ++ NL)) as (y1 & R1 & S1 & _);
    [vm_compute; reflexivity|].
  destruct (answer_reply no_inverse (toy_x, toy_y, elev_a) ERROR "Error while inverse projecting location.") as (y2 & R2 & S2 & _);
    [vm_compute; reflexivity|].
  destruct (answer_reply no_inverse (toy_x, toy_y, elev_b) ERROR "Error while inverse projecting location.") as (y3 & R3 & S3 & _);
    [vm_compute; reflexivity|].
  exists [y1; y2; y3]. split; [repeat (apply Forall2_cons; [assumption|]); apply Forall2_nil|]. cbn [map]. rewrite S1, S2, S3. reflexivity.
Qed.

(** "If query generated an error, then bail out": it does not. *)
Theorem C62_error_ends_run_refuted : ~ (forall DB (E : env DB) F mem g c k d x junk before l after at_end fs y r,
  f_prepared E F mem c k d x junk (before ++ l :: after) at_end ->
  replies E (object c k g (Some d) x eh_new) l y -> y_status y = ERROR ->
  fMain E F mem g junk c fs = Val r ->
  In (Printed "ERROR") (fr_printed r) \/ exists lines, fr_lines r = Some lines /\ (List.length lines <= List.length before)%nat).
Proof.
  intros H. destruct C62_example as (P & _ & _ & K).
  destruct (fMain toy_env (f_sys f_three true true true) f_mem no_inverse junk9 app_config (fun _ => None)) as [r|?| |?] eqn:Q; try discriminate K.
  destruct (answer_reply no_inverse (toy_x, toy_y, elev_a) ERROR "Error while inverse projecting location.") as (y & R & S & _);
    [vm_compute; reflexivity|].
  cbn [f_seen] in K. injection K as _ KP KN _.
  destruct (H _ toy_env (f_sys f_three true true true) f_mem no_inverse app_config MAXRES toy_db None junk9
    [(toy_x, toy_y, i2f64 5000)] (toy_x, toy_y, elev_a) [(toy_x, toy_y, elev_b)] true (fun _ => None) y r P R S Q) as [I|(lines & L & N)].
  - rewrite KP in I. clear - I. unfold buffer in I. cbn [In] in I. destruct I as [I|[I|[I|[]]]]; discriminate I.
  - rewrite KN in L. injection L as <-. cbn in N. lia.
Qed.
Print Assumptions C62_error_ends_run_refuted.

Example C62_refuses_example :
  f_refuses toy_env (f_sys f_three true false true) app_config RuntimeError [] /\
  f_refuses toy_env (f_sys f_three true true true) (mkConfig "in" "out" "missing" "" "log" "maxres" f_zero 64 (i2f64 1000000)) End
    [buffer "Could not open the etree database 'missing' for querying."; Printed "ERROR"].
Proof.
  split.
  - apply (f_no_output _ _ _ toy_db None MAXRES (f_three, true)); [exact app_opens | exists ""%string; reflexivity | intros N; contradiction | reflexivity..].
  - apply (f_no_database toy_env (f_sys f_three true true true) (mkConfig "in" "out" "missing" "" "log" "maxres" f_zero 64 (i2f64 1000000)));
      [reflexivity | left; reflexivity].
Qed.
(** A disk that is full from the start, and a record that cannot be read. *)
Example C62_write_example : f_seen (fMain toy_env (f_sys f_three true true false) f_mem toy junk9 app_config (fun _ => None)) =
  Some (RuntimeError, [buffer ("WARNING: No data for #, #, #." ++ NL)], Some [], Some ("#, #, #, No data" ++ NL)%string) /\
  f_seen (fMain toy_env (f_sys f_three false true true) f_mem toy junk9 app_config (fun _ => None)) =
  Some (RuntimeError, [buffer ("WARNING: No data for #, #, #." ++ NL)],
    Some [" 296908 541696 5000 -999 -999 -999 -999 -999 -999 0 0 -999"; " 296908 541696 -1234 5000 2900 2700 200 100 1250 11 3 18";
          " 296908 541696 0 1500 400 1800 200 100 10 7 2 3"]%string, Some ("#, #, #, No data" ++ NL)%string).
Proof. split; vm_compute; reflexivity. Qed.
Example C62_undefined_example :
  fails toy_env (object app_config MAXRES toy (Some toy_db) None eh_new) (i2f64 (2 ^ 40), toy_y, elev_b) (UB "uninitialised payload read") /\
  fMain toy_env (f_sys [(i2f64 (2 ^ 40), toy_y, elev_b)] true true true) f_mem toy junk9 app_config (fun _ => None) =
  UB "uninitialised payload read"%string.
Proof. split; [exact (proj1 C40_undefined_example) | vm_compute; reflexivity]. Qed.
Example C62_no_null_example : exists why,
  fMain toy_env (f_sys f_three true true true) ["x"]%char toy junk9 app_config (fun _ => None) = UB why.
Proof. eexists. vm_compute. reflexivity. Qed.
