(** C67 and C68: killed programs, and programs that run at the same time. *)
From Coq Require Import ZArith Bool String Ascii List Lia.
From Verif Require Import Outcome Float Payload Addr AvgEngine Geom Store Averager VMCreator Stream GridIngester
  ErrorHandler VMQuery VsGrader GetOpt QueryApp SpecHist SpecApp SmallApps SpecSmall SmallFacts Steps SpecSteps StepFacts StepRuns.
From Verif Require VsRun PropVsRun PropSmall.
Import ListNotations.
Open Scope Z_scope.

Section Jobs.
Context {DB : Type}.
Variables (EQ : env DB) (E : etree) (opens : disk -> string -> bool) (F : numfmt) (X : QueryApp.texts) (L : libm)
  (T : GridIngester.texts) (G : gstore (list (addr * payload)) payload) (fs : files).
Notation calls := (calls_of EQ E F X L T G fs).
Notation main := (main_of EQ E opens F X L T G fs).
Lemma main_alone j d : alone E opens (calls j) d = main j d.
Proof.
  destruct j as [a|a|a|a]; cbn [calls_of main_of].
  - apply avgMainS_alone.
  - apply packMainS_alone.
  - apply genMainS_alone.
  - apply gradeMainS_alone.
Qed.
(** The files that it opens to write: none, if its command line is not well formed *)
Definition named_files (j : job) : list string :=
  match j with
  | Avg a => match avgArgs a with Some c => [f_out c] | None => [] end
  | Pack a => match packArgs X a with Some c => [f_out c] | None => [] end
  | Gen a => match genArgs X a with Some c => [f_out c; f_tmp c] | None => [] end
  | Grade a => match gradeArgs X a with Some c => [f_out c; f_tmp c] | None => [] end
  end.
Lemma named_files_written j n : In n (named_files j) -> writes j n.
Proof.
  destruct j as [a|a|a|a]; cbn [named_files writes].
  - destruct (avgArgs a) as [c|] eqn:Q; [|intros []]. apply avgArgs_iff in Q. destruct Q as (kvs & fin & fout & K & N1 & N2 & ->).
    intros [<-|[]]. exists kvs; auto.
  - destruct (packArgs X a) as [c|] eqn:Q; [|intros []]. apply packArgs_iff in Q. destruct Q as (kvs & fin & fout & K & N1 & N2 & ->).
    intros [<-|[]]. exists kvs; auto.
  - destruct (genArgs X a) as [c|] eqn:Q; [|intros []]. apply genArgs_iff in Q. destruct Q as (kvs & fp & fout & ft & K & N1 & N2 & N3 & ->).
    intros [<-|[<-|[]]]; [left | right]; exists kvs; auto.
  - destruct (gradeArgs X a) as [c|] eqn:Q; [|intros []]. apply gradeArgs_iff in Q.
    destruct Q as (kvs & fp & fin & fout & ft & K & N1 & N2 & N3 & N4 & ->). intros [<-|[<-|[]]]; [left | right]; exists kvs; auto.
Qed.
Lemma job_tidy j : tidy (reads j) (fun n => In n (named_files j)) [] (calls j).
Proof.
  destruct j as [a|a|a|a]; cbn [calls_of reads named_files].
  - unfold avgMainS. destruct (avgArgs a) as [c|] eqn:Q; [|exact I]. apply avgArgs_iff in Q. destruct Q as (kvs & fin & fout & K & N1 & N2 & ->).
    apply tidy_ended. cbn [f_in f_out]. apply tidy_average; [right; exists kvs; auto | left; reflexivity].
  - unfold packMainS. destruct (packArgs X a) as [c|] eqn:Q; [|exact I]. apply packArgs_iff in Q. destruct Q as (kvs & fin & fout & K & N1 & N2 & ->).
    apply tidy_ended. cbn [f_in f_out]. apply tidy_pack; [right; exists kvs; auto | left; reflexivity].
  - unfold genMainS. destruct (genArgs X a) as [c|] eqn:Q; [|exact I]. apply tidy_ended. apply tidy_ingest; [right; left; reflexivity | left; reflexivity].
  - unfold gradeMainS. destruct (gradeArgs X a) as [c|] eqn:Q; [|exact I]. apply tidy_ended.
    apply tidy_gradient; unfold gradeObject; destruct (0 <? _); cbn; tauto.
Qed.
End Jobs.

(** What a program that is not killed changes *)
Lemma alone_confined E opens Rd (Wr : string -> Prop) {A} (p : prog A) : forall C d n, tidy Rd Wr C p -> (forall m, In m C -> Wr m) -> ~ Wr n ->
  fst (alone E opens p d) n = d n.
Proof.
  induction p as [o|R c k IH]; intros C d n TD HC Hn; [reflexivity|]. destruct TD as [T1 T2]. cbn [alone].
  assert (HC' : forall m, In m (created_by c C) -> Wr m) by (destruct c; cbn [created_by allowed] in *; auto; intros m [<-|Hm]; auto).
  assert (PE : fst (perform E opens c d) n = d n).
  { destruct c; cbn [allowed] in T1; [reflexivity| | |reflexivity| | |]; apply perform_else; cbn [target]; intros ->; apply Hn; auto. }
  destruct (perform E opens c d) as [d1 r]. cbn [fst] in PE. rewrite <- PE. apply (IH r (created_by c C)); auto.
Qed.
(** ** C67: killed programs *)
(** Only the files that the program was told to write can be different. *)
Theorem C67_killed : forall DB (EQ : env DB) E opens F X L T G fs j d d',
  killed E opens [] (calls_of EQ E F X L T G fs j) d d' -> forall n, ~ writes j n -> d' n = d n.
Proof.
  intros DB EQ E opens F X L T G fs j d d' K n Hn.
  apply (killed_confined E opens (reads j) (fun n => In n (named_files X j)) (calls_of EQ E F X L T G fs j) [] [] d d'); auto;
    [apply job_tidy | intros m [] | intros m [] | intros Q; apply Hn, (named_files_written X), Q].
Qed.
Print Assumptions C67_killed.
(** Not killed, it does what C57 and C58 say. *)
Theorem C67_not_killed : forall DB (EQ : env DB) E opens F X L T G fs j d,
  alone E opens (calls_of EQ E F X L T G fs j) d = main_of EQ E opens F X L T G fs j d.
Proof. intros. apply main_alone. Qed.
Print Assumptions C67_not_killed.
(** The program can be run again after it was killed: it then ends as if it had not been
    killed before, with the same files. *)
Theorem C67_run_again : forall DB (EQ : env DB) E opens F X L T G fs j d d',
  local_open E opens -> (forall n, writes j n -> creatable E n) -> distinct_files j ->
  killed E opens [] (calls_of EQ E F X L T G fs j) d d' ->
  same_end (main_of EQ E opens F X L T G fs j d') (main_of EQ E opens F X L T G fs j d).
Proof.
  intros DB EQ E opens F X L T G fs j d d' LO CR DF K. rewrite <- !main_alone.
  apply (again E opens LO (reads j) (fun n => In n (named_files X j))) with (C := []) (W := []) (d' := d'); auto.
  - intros n Hn. apply CR, (named_files_written X), Hn.
  - intros n Hr Hn. apply (DF n Hr), (named_files_written X), Hn.
  - apply job_tidy.
  - intros m [].
  - intros m [].
  - intros m [].
Qed.
Print Assumptions C67_run_again.

(** Calls that neither open nor close *)
Fixpoint plain {A} (p : prog A) : Prop :=
  match p with
  | Done _ => True
  | Step c k => match c with COpen _ | CChange _ _ | CInsert _ _ _ | CFetch _ => True | _ => False end /\ forall r, plain (k r)
  end.
Lemma plain_held E opens {A} (p : prog A) : forall W d, plain p -> held E opens W p d = W.
Proof.
  induction p as [o|R c k IH]; intros W d H; [reflexivity|]. destruct H as [H1 H2]. cbn [held]. destruct (perform E opens c d) as [d1 r]. rewrite IH by apply H2.
  destruct c; try destruct H1; reflexivity.
Qed.
Lemma plain_then {A B} (p : prog A) (k : A -> prog B) : plain p -> (forall a, plain (k a)) -> plain (thenS p k).
Proof. intros H K. induction p as [[a|m| |w]|R c q IH]; cbn [thenS]; try exact I; [apply K|]. destruct H as [H1 H2]. split; [exact H1|]. intros r. apply IH, H2. Qed.
Lemma plain_points E F L db res n : forall s, plain (addPointsS E F L db res n s).
Proof.
  induction n as [|n IH]; intros s; cbn [addPointsS]; [exact I|]. destruct (getLine F s) as [s' l]. destruct (negb (good s')); [exact I|].
  destruct (_ && _); [|apply IH]. apply plain_then; [|intros _; apply IH]. unfold insertS. destruct (level L res); try exact I.
  destruct (lonLatElevToAddr _ _ _ _ _); try exact I. split; [exact I|]. intros [|]; exact I.
Qed.
Lemma plain_grids E F T L db fl : plain (addGridsS E F T L db fl).
Proof.
  induction fl as [|f r IH]; cbn [addGridsS]; [exact I|]. apply plain_then; [|intros _; exact IH]. unfold addGridS. destruct (T f) as [t|]; [|exact I].
  repeat match goal with |- context[getNum ?c ?o ?x] => destruct (getNum c o x) end.
  destruct (differs _ VERTEXAG); [exact I|]. destruct (level L _) as [lev| | |]; [|exact I..].
  destruct (edgeLen lev) as [len| | |]; [|exact I..]. destruct (differs _ len); [exact I|]. apply plain_points.
Qed.
Lemma openDB_held E opens name desc d d1 u : alone E opens (openDBS E name desc) d = (d1, Val u) -> held E opens [] (openDBS E name desc) d = [name].
Proof.
  intros H. unfold openDBS in *. destruct (alone E opens (openNewS name "Could not create etree database.") d) as [d2 [[]|m| |w]] eqn:O;
    rewrite alone_then in H; unfold andThen in H; rewrite O in H; try discriminate.
  rewrite (held_then E opens _ _ _ _ _ _ O).
  assert (HO : held E opens [] (openNewS name "Could not create etree database.") d = [name]).
  { unfold openNewS in *. cbn [held alone] in *. destruct (perform E opens (CNew name) d) as [d3 ok]. destruct ok; reflexivity. }
  rewrite HO. apply plain_held. apply plain_then.
  - unfold registerSchemaS. destruct (et_regschema E name); [|exact I]. split; [exact I|]. intros r. exact I.
  - intros _. unfold setAppMetaS. destruct (et_setmeta E name _); [|exact I]. split; [exact I|]. intros r. exact I.
Qed.

Lemma held_ended E opens {A} (p : prog A) : forall W d, held E opens W (endedS p) d = held E opens W p d.
Proof. induction p as [[x|m| |w]|R c q IH]; intros W d; cbn [endedS held]; try reflexivity. destruct (perform E opens c d) as [d1 r]. apply IH. Qed.
Lemma held_unwinding {DB} (EQ : env DB) q E opens {A} (p : prog A) : forall W d, held E opens W (unwindingS EQ q p) d = held E opens W p d.
Proof. induction p as [[x|m| |w]|R c k IH]; intros W d; cbn [unwindingS held]; try reflexivity. destruct (perform E opens c d) as [d1 r]. apply IH. Qed.
Lemma held_seq E opens {A B} W W1 W2 (p : prog A) (k : A -> prog B) :
  (forall d d1 a, alone E opens p d = (d1, Val a) -> held E opens W p d = W1) ->
  (forall a d d1 b, alone E opens (k a) d = (d1, Val b) -> held E opens W1 (k a) d = W2) ->
  forall d d1 b, alone E opens (thenS p k) d = (d1, Val b) -> held E opens W (thenS p k) d = W2.
Proof.
  intros H1 H2 d d1 b. rewrite alone_then. unfold andThen. destruct (alone E opens p d) as [d2 [a|m| |w]] eqn:Q; try discriminate.
  intros K. rewrite (held_then E opens _ _ _ _ _ _ Q), (H1 _ _ _ Q). apply (H2 _ _ _ _ K).
Qed.
Lemma held_same E opens {A} W (p : prog A) : plain p -> forall d d1 a, alone E opens p d = (d1, Val a) -> held E opens W p d = W.
Proof. intros H d d1 a _. apply plain_held, H. Qed.
Lemma held_openNew E opens n m : forall d d1 a, alone E opens (openNewS n m) d = (d1, Val a) -> held E opens [] (openNewS n m) d = [n].
Proof. intros d d1 a _. unfold openNewS. cbn [held]. destruct (perform E opens (CNew n) d) as [d3 ok]. destruct ok; reflexivity. Qed.
Lemma held_close E opens n : forall d d1 a, alone E opens (closeS n) d = (d1, Val a) -> held E opens [n] (closeS n) d = [].
Proof. intros d d1 a _. cbn. destruct (string_dec n n) as [_|Q]; [reflexivity | destruct (Q eq_refl)]. Qed.
Lemma plain_change n g : plain (changeS n g). Proof. split; [exact I | intros r; exact I]. Qed.
Lemma plain_schema E n : plain (registerSchemaS E n).
Proof. unfold registerSchemaS. destruct (et_regschema E n); [apply plain_change | exact I]. Qed.
Lemma plain_copyMeta E n m : plain (copyMetaS E n m).
Proof. destruct m; [|exact I]. cbn [copyMetaS]. unfold setAppMetaS. destruct (et_setmeta E n _); [apply plain_change | exact I]. Qed.
Lemma plain_records E n o : plain (recordsS E n o).
Proof. unfold recordsS. destruct (String.eqb n o); [exact I|]. split; [exact I | intros r; exact I]. Qed.
Lemma plain_openRead n m : plain (openReadS n m).
Proof. split; [exact I|]. intros [f|]; exact I. Qed.
Lemma held_average E opens fin fout : et_flush E fout = true ->
  forall d d1 a, alone E opens (averageS E fin fout) d = (d1, Val a) -> held E opens [] (averageS E fin fout) d = [].
Proof.
  intros FL. unfold averageS. apply (held_seq E opens [] []); [apply held_same, plain_openRead|]. intros f. destruct (negb _); [intros d d1 b Q; discriminate Q|].
  destruct (d_schema f) as [s|]; [|intros d d1 b Q; discriminate Q]. destruct (negb _); [intros d d1 b Q; discriminate Q|].
  apply (held_seq E opens [] [fout]); [apply held_openNew|]. intros _.
  apply (held_seq E opens [fout] [fout]); [apply held_same, plain_schema|]. intros _.
  apply (held_seq E opens [fout] [fout]); [apply held_same, plain_copyMeta|]. intros _.
  apply (held_seq E opens [fout] [fout]); [apply held_same, plain_records|]. intros recs.
  destruct (fillFrom _ _ recs) as [s0|m| |w]; [|intros d d1 b Q; discriminate Q..]. rewrite FL.
  apply (held_seq E opens [fout] [fout]); [apply held_same, plain_change|]. intros _. apply held_close.
Qed.
Lemma held_pack E opens packed unpacked : forall d d1 a, alone E opens (packS E packed unpacked) d = (d1, Val a) -> held E opens [] (packS E packed unpacked) d = [].
Proof.
  unfold packS. cbv zeta. apply (held_seq E opens [] []); [apply held_same, plain_openRead|]. intros f.
  apply (held_seq E opens [] [packed]); [apply held_openNew|]. intros _.
  apply (held_seq E opens [packed] [packed]); [apply held_same, plain_schema|]. intros _.
  apply (held_seq E opens [packed] [packed]); [apply held_same, plain_copyMeta|]. intros _.
  apply (held_seq E opens [packed] [packed]); [apply held_same, plain_records|]. intros recs.
  destruct (_ || _); [intros d d1 b Q; discriminate Q|]. do 2 (destruct (negb _); [intros d d1 b Q; discriminate Q|]).
  destruct (copyRecs E unpacked [] recs) as [l|m| |w]; [|intros d d1 b Q; discriminate Q..].
  do 3 (destruct (negb _); [intros d d1 b Q; discriminate Q|]).
  apply (held_seq E opens [packed] [packed]); [apply held_same, plain_change|]. intros _. apply held_close.
Qed.
Lemma held_closeDB E opens n : et_flush E n = true -> forall d d1 a, alone E opens (closeDBS E n) d = (d1, Val a) -> held E opens [n] (closeDBS E n) d = [].
Proof. intros FL. unfold closeDBS. rewrite FL. apply held_close. Qed.
Lemma held_ingest E opens F T L p o t m : et_flush E t = true ->
  forall d d1 a, alone E opens (ingestS E F T L p o t m) d = (d1, Val a) -> held E opens [] (ingestS E F T L p o t m) d = [].
Proof.
  intros FL. unfold ingestS. destruct (_ || _); [intros d d1 b Q; discriminate Q|]. destruct (readParams T _) as [fl|s| |w]; [|intros d d1 b Q; discriminate Q..].
  apply (held_seq E opens [] [t]); [intros d d1 a; apply openDB_held|]. intros _.
  apply (held_seq E opens [t] [t]); [apply held_same, plain_grids|]. intros _.
  apply (held_seq E opens [t] []); [apply held_closeDB, FL|]. intros _. apply held_pack.
Qed.
Lemma plain_fold {X Y} (f : Y -> X -> prog Y) l : (forall y x, plain (f y x)) -> forall y, plain (foldS f l y).
Proof. intros H. induction l as [|x l IH]; intros y; cbn [foldS]; [exact I|]. apply plain_then; [apply H | exact IH]. Qed.
Lemma plain_insert E L n p lon lat elev res : plain (insertS E L n p lon lat elev res).
Proof. unfold insertS. destruct (level L res); try exact I. destruct (lonLatElevToAddr _ _ _ _ _); try exact I. split; [exact I|]. intros [|]; exact I. Qed.
Lemma held_done E opens {A B} W W2 (o : outcome A) (k : A -> prog B) :
  (forall a d d1 b, alone E opens (k a) d = (d1, Val b) -> held E opens W (k a) d = W2) ->
  forall d d1 b, alone E opens (thenS (Done o) k) d = (d1, Val b) -> held E opens W (thenS (Done o) k) d = W2.
Proof. intros H. apply (held_seq E opens W W); [intros; reflexivity | exact H]. Qed.
Lemma held_gradient {DB} (EQ : env DB) E opens F T L G v fs : et_flush E (VsRun.vg_tmp v) = true ->
  forall d d1 a, alone E opens (gradientS EQ E F T L G v fs) d = (d1, Val a) -> held E opens [] (gradientS EQ E F T L G v fs) d = [].
Proof.
  intros FL. unfold gradientS. destruct (VsRun.readParams F T v) as [v1|m| |w] eqn:RP; [|intros d d1 b Q; discriminate Q..].
  assert (NM : VsRun.vg_tmp v1 = VsRun.vg_tmp v) by (apply PropVsRun.readParams_names in RP; unfold PropVsRun.names in RP; congruence).
  cbn [thenS]. destruct (VsRun.initialize L v1) as [v2|m| |w] eqn:IN; [|intros d d1 b Q; discriminate Q..]. cbn [thenS].
  assert (NM2 : VsRun.vg_tmp v2 = VsRun.vg_tmp v).
  { rewrite <- NM. unfold VsRun.initialize in IN. destruct (project L _ _) as [[x y]| | |]; try discriminate. injection IN as <-. reflexivity. }
  apply (held_seq E opens [] []).
  - unfold extractS. apply held_done. intros q d d1 a. rewrite held_unwinding. rewrite (unwindingS_alone E opens EQ q _ (fun d => alone E opens _ d)) by reflexivity.
    unfold VsRun.unwinding. intros Q.
    assert (Q' : exists a', alone E opens (go* _ := openDBS E (VsRun.vg_tmp v2) (VsRun.description F v2) in
        go* numLen := Done (count (gp_len (VsRun.vg_g v2)) (resHoriz (VsRun.vg_g v2))) in
        go* numWidth := Done (count (gp_width (VsRun.vg_g v2)) (resHoriz (VsRun.vg_g v2))) in
        go* numHt := Done (count (gp_ht (VsRun.vg_g v2)) (gp_res (VsRun.vg_g v2))) in
        go* q := Done (set_queryVals (Some VsRun.valNames) q) in
        go* st := foldS (fun st iLen =>
            foldS (fun st iWidth =>
              go* ll := Done (indexToLonLat L (VsRun.vg_g v2) iLen iWidth) in
              foldS (extractPointS EQ E L v2 (fst ll) (snd ll)) (range numHt) st)
              (range numWidth) st)
            (range numLen) (q, fs, repeat f_zero 8) in
        go* _ := closeDBS E (VsRun.vg_tmp v2) in
        Done (destroy EQ (close EQ (fst (fst st))))) d = (d1, Val a')).
    { match type of Q with match ?x with _ => _ end = _ => destruct x as [d2 [a'|m| |w]] end; [|destruct (destroy EQ q)|..]; try (exfalso; apply (f_equal snd) in Q; discriminate Q).
      exists a'. injection Q as -> ->. reflexivity. }
    clear Q. destruct Q' as [a' Q]. revert Q. revert d d1 a'.
    apply (held_seq E opens [] [VsRun.vg_tmp v2]); [intros d d1 a'; apply openDB_held|]. intros _. do 4 (apply held_done; intros ?).
    apply (held_seq E opens [VsRun.vg_tmp v2] [VsRun.vg_tmp v2]).
    + apply held_same. apply plain_fold. intros st x. apply plain_fold. intros st' x'. apply plain_then; [exact I|]. intros ll. apply plain_fold.
      intros [[q1 fs1] vals] h. unfold extractPointS. apply plain_then; [exact I|]. intros r. apply plain_then; [exact I|]. intros p.
      apply plain_then; [apply plain_insert | intros _; exact I].
    + intros st. apply (held_seq E opens [VsRun.vg_tmp v2] []); [apply held_closeDB; rewrite NM2; exact FL|]. intros _ d d1 b _. reflexivity.
  - intros _. apply (held_seq E opens [] []); [apply held_pack|]. intros _. intros d d1 b. unfold gradeFileS. cbn [alone held perform].
    destruct (d (VsRun.vg_out v2)) as [f|]; [|intros Q; discriminate Q]. destruct (opens d (VsRun.vg_out v2)); [|intros Q; discriminate Q].
    cbn [writing]. destruct (grade L _ G _ _ (d_recs f)) as [l|m| |w]; [|intros Q; discriminate Q..]. intros Q.
    refine (held_seq E opens [VsRun.vg_out v2] [VsRun.vg_out v2] [] _ _ _ _ d d1 b Q); [apply held_same, plain_change | intros _; apply held_close].
Qed.
(** A program that ends with exit code 0 has closed every file it wrote, unless closing the
    one file failed for which it does not look at the result (C64). *)
Theorem C67_closed : forall DB (EQ : env DB) E opens F X L T G fs j d d1 said,
  (forall n, writes j n -> et_flush E n = true) ->
  main_of EQ E opens F X L T G fs j d = (d1, Val (0, said)) -> held E opens [] (calls_of EQ E F X L T G fs j) d = [].
Proof.
  intros DB EQ E opens F X L T G fs j d d1 said FL. rewrite <- main_alone.
  assert (EN : forall A (p : prog A), (forall d d1 a, alone E opens p d = (d1, Val a) -> held E opens [] p d = []) ->
    alone E opens (endedS p) d = (d1, Val (0, said)) -> held E opens [] (endedS p) d = []).
  { intros A p H Q. rewrite held_ended. rewrite endedS_alone in Q. unfold ended in Q. destruct (alone E opens p d) as [d2 [a|m| |w]] eqn:K;
      try (exfalso; apply (f_equal snd) in Q; discriminate Q). apply (H _ _ _ K). }
  pose proof (named_files_written X j) as NW.
  destruct j as [a|a|a|a]; cbn [calls_of named_files] in *; [unfold avgMainS | unfold packMainS | unfold genMainS | unfold gradeMainS];
    [destruct (avgArgs a) as [c|] | destruct (packArgs X a) as [c|] | destruct (genArgs X a) as [c|] | destruct (gradeArgs X a) as [c|]];
    try (intros _; reflexivity); apply EN.
  - apply held_average, FL, NW. left. reflexivity.
  - apply held_pack.
  - apply held_ingest, FL, NW. right. left. reflexivity.
  - apply held_gradient, FL, NW. unfold gradeObject. destruct (0 <? _); right; left; reflexivity.
Qed.
Print Assumptions C67_closed.

Lemma orderly_then E opens {A B} (p : prog A) (k : A -> prog B) : forall W d, orderly E opens W p d ->
  (forall d1 a, alone E opens p d = (d1, Val a) -> orderly E opens (held E opens W p d) (k a) d1) -> orderly E opens W (thenS p k) d.
Proof.
  induction p as [[a|m| |w]|R c q IH]; intros W d H K; cbn [thenS]; try exact I; [apply (K d a); reflexivity|].
  cbn [orderly alone held] in *. destruct H as [H1 H2]. split; [exact H1|]. destruct (perform E opens c d) as [d1 r]. apply IH; [exact H2 | exact K].
Qed.
Lemma orderly_seq E opens {A B} W W1 (p : prog A) (k : A -> prog B) :
  (forall d, orderly E opens W p d) -> (forall d d1 a, alone E opens p d = (d1, Val a) -> held E opens W p d = W1) ->
  (forall a d, orderly E opens W1 (k a) d) -> forall d, orderly E opens W (thenS p k) d.
Proof. intros H1 H2 H3 d. apply orderly_then; [apply H1|]. intros d1 a Q. rewrite (H2 _ _ _ Q). apply H3. Qed.
(** Writes to [n] only *)
Fixpoint only {A} (n : string) (p : prog A) : Prop :=
  match p with
  | Done _ => True
  | Step c k => match c with CChange m _ | CInsert m _ _ => m = n | COpen _ | CFetch _ => True | _ => False end /\ forall r, only n (k r)
  end.
Lemma only_orderly E opens {A} n (p : prog A) : only n p -> forall d, orderly E opens [n] p d.
Proof.
  induction p as [o|R c k IH]; intros H d; [exact I|]. destruct H as [H1 H2]. cbn [orderly]. split; [destruct c; try exact I; try destruct H1; left; congruence|].
  destruct (perform E opens c d) as [d1 r]. replace (writing c r [n]) with [n] by (destruct c; try destruct H1; reflexivity). apply IH, H2.
Qed.
Lemma only_then {A B} n (p : prog A) (k : A -> prog B) : only n p -> (forall a, only n (k a)) -> only n (thenS p k).
Proof. intros H K. induction p as [[a|m| |w]|R c q IH]; cbn [thenS]; try exact I; [apply K|]. destruct H as [H1 H2]. split; [exact H1|]. intros r. apply IH, H2. Qed.
Lemma only_change n g : only n (changeS n g). Proof. split; [reflexivity | intros r; exact I]. Qed.
Lemma only_schema E n : only n (registerSchemaS E n).
Proof. unfold registerSchemaS. destruct (et_regschema E n); [apply only_change | exact I]. Qed.
Lemma only_setMeta E n m : only n (setAppMetaS E n m).
Proof. unfold setAppMetaS. destruct (et_setmeta E n _); [apply only_change | exact I]. Qed.
Lemma only_copyMeta E n m : only n (copyMetaS E n m).
Proof. destruct m; [apply only_setMeta | exact I]. Qed.
Lemma only_records E n a b : only n (recordsS E a b).
Proof. unfold recordsS. destruct (String.eqb a b); [exact I|]. split; [exact I | intros r; exact I]. Qed.
Lemma only_insert E L n p lon lat elev res : only n (insertS E L n p lon lat elev res).
Proof. unfold insertS. destruct (level L res); try exact I. destruct (lonLatElevToAddr _ _ _ _ _); try exact I. split; [reflexivity|]. intros [|]; exact I. Qed.
Lemma only_fold {X Y} n (f : Y -> X -> prog Y) l : (forall y x, only n (f y x)) -> forall y, only n (foldS f l y).
Proof. intros H. induction l as [|x l IH]; intros y; cbn [foldS]; [exact I|]. apply only_then; [apply H | exact IH]. Qed.
Lemma only_points E F L db res n : forall s, only db (addPointsS E F L db res n s).
Proof.
  induction n as [|n IH]; intros s; cbn [addPointsS]; [exact I|]. destruct (getLine F s) as [s' l]. destruct (negb (good s')); [exact I|].
  destruct (_ && _); [|apply IH]. apply only_then; [apply only_insert | intros _; apply IH].
Qed.
Lemma only_grids E F T L db fl : only db (addGridsS E F T L db fl).
Proof.
  induction fl as [|f r IH]; cbn [addGridsS]; [exact I|]. apply only_then; [|intros _; exact IH]. unfold addGridS. destruct (T f) as [t|]; [|exact I].
  repeat match goal with |- context[getNum ?c ?o ?x] => destruct (getNum c o x) end.
  destruct (differs _ VERTEXAG); [exact I|]. destruct (level L _) as [lev| | |]; [|exact I..].
  destruct (edgeLen lev) as [len| | |]; [|exact I..]. destruct (differs _ len); [exact I|]. apply only_points.
Qed.
Lemma orderly_openRead E opens W n m : forall d, orderly E opens W (openReadS n m) d.
Proof. intros d. split; [exact I|]. destruct (perform E opens (COpen n) d) as [d1 [f|]]; exact I. Qed.
Lemma orderly_openNew E opens W n m : forall d, orderly E opens W (openNewS n m) d.
Proof. intros d. split; [exact I|]. destruct (perform E opens (CNew n) d) as [d1 [|]]; exact I. Qed.
Lemma orderly_close E opens n : forall d, orderly E opens [n] (closeS n) d.
Proof. intros d. split; [left; reflexivity | exact I]. Qed.
Lemma orderly_done E opens {A} W (o : outcome A) : forall d, orderly E opens W (Done o) d. Proof. intros d. exact I. Qed.
Lemma orderly_average E opens fin fout : forall d, orderly E opens [] (averageS E fin fout) d.
Proof.
  unfold averageS. apply (orderly_seq E opens [] []); [apply orderly_openRead | apply held_same, plain_openRead|]. intros f. destruct (negb _); [apply orderly_done|].
  destruct (d_schema f) as [s|]; [|apply orderly_done]. destruct (negb _); [apply orderly_done|].
  apply (orderly_seq E opens [] [fout]); [apply orderly_openNew | apply held_openNew|]. intros _.
  apply (orderly_seq E opens [fout] [fout]); [apply only_orderly, only_schema | apply held_same, plain_schema|]. intros _.
  apply (orderly_seq E opens [fout] [fout]); [apply only_orderly, only_copyMeta | apply held_same, plain_copyMeta|]. intros _.
  apply (orderly_seq E opens [fout] [fout]); [apply only_orderly, only_records | apply held_same, plain_records|]. intros recs.
  destruct (fillFrom _ _ recs) as [s0|m| |w]; [|apply only_orderly, only_then; [apply only_change | intros; exact I]|apply orderly_done..].
  destruct (et_flush E fout); [|apply only_orderly, only_change].
  apply (orderly_seq E opens [fout] [fout]); [apply only_orderly, only_change | apply held_same, plain_change|]. intros _. apply orderly_close.
Qed.
Lemma orderly_pack E opens packed unpacked : forall d, orderly E opens [] (packS E packed unpacked) d.
Proof.
  unfold packS. cbv zeta. apply (orderly_seq E opens [] []); [apply orderly_openRead | apply held_same, plain_openRead|]. intros f.
  apply (orderly_seq E opens [] [packed]); [apply orderly_openNew | apply held_openNew|]. intros _.
  apply (orderly_seq E opens [packed] [packed]); [apply only_orderly, only_schema | apply held_same, plain_schema|]. intros _.
  apply (orderly_seq E opens [packed] [packed]); [apply only_orderly, only_copyMeta | apply held_same, plain_copyMeta|]. intros _.
  apply (orderly_seq E opens [packed] [packed]); [apply only_orderly, only_records | apply held_same, plain_records|]. intros recs.
  assert (FA : forall m d, orderly E opens [packed] (go* _ := changeS packed (fun g => set_recs g (et_partial E)) in throwS (A := unit) m) d)
    by (intros m; apply only_orderly, only_then; [apply only_change | intros; exact I]).
  destruct (_ || _); [apply orderly_done|]. do 2 (destruct (negb _); [apply orderly_done|]).
  destruct (copyRecs E unpacked [] recs) as [l|m| |w]; [|apply FA|apply orderly_done..].
  do 3 (destruct (negb _); [apply FA|]).
  apply (orderly_seq E opens [packed] [packed]); [apply only_orderly, only_change | apply held_same, plain_change|]. intros _. apply orderly_close.
Qed.
Lemma orderly_openDB E opens n m : forall d, orderly E opens [] (openDBS E n m) d.
Proof.
  unfold openDBS. apply (orderly_seq E opens [] [n]); [apply orderly_openNew | apply held_openNew|]. intros _. apply only_orderly, only_then; [apply only_schema | intros _; apply only_setMeta].
Qed.
Lemma orderly_closeDB E opens n : forall d, orderly E opens [n] (closeDBS E n) d.
Proof. unfold closeDBS. destruct (et_flush E n); [apply orderly_close | apply only_orderly, only_change]. Qed.
Lemma held_closeDB_any E opens n : forall d d1 a, alone E opens (closeDBS E n) d = (d1, Val a) -> held E opens [n] (closeDBS E n) d = if et_flush E n then [] else [n].
Proof.
  intros d d1 a Q. destruct (et_flush E n) eqn:FL; [apply (held_closeDB E opens n FL d d1 a Q)|]. unfold closeDBS. rewrite FL. apply plain_held, plain_change.
Qed.
(** Open files do not matter to a program that does without them *)
Lemma orderly_mono E opens {A} (p : prog A) : forall W W' d, (forall n, In n W -> In n W') -> orderly E opens W p d -> orderly E opens W' p d.
Proof.
  induction p as [o|R c k IH]; intros W W' d H; [trivial|]. cbn [orderly]. intros [H1 H2]. split; [destruct c; auto|].
  destruct (perform E opens c d) as [d1 r]. apply (IH r (writing c r W)); [|exact H2].
  intros n. destruct c; cbn [writing]; auto.
  - intros [->|Hn]; [left; reflexivity | right; auto].
  - destruct r; auto. intros [->|Hn]; [left; reflexivity | right; auto].
  - intros Hn. apply in_remove in Hn. destruct Hn as [Hn N]. apply in_in_remove; auto.
Qed.
Lemma orderly_ingest E opens F T L p o t m : forall d, orderly E opens [] (ingestS E F T L p o t m) d.
Proof.
  unfold ingestS. destruct (_ || _); [apply orderly_done|]. destruct (readParams T _) as [fl|s| |w]; [|apply orderly_done..].
  apply (orderly_seq E opens [] [t]); [apply orderly_openDB | intros d d1 a; apply openDB_held|]. intros _.
  apply (orderly_seq E opens [t] [t]); [apply only_orderly, only_grids | apply held_same, plain_grids|]. intros _.
  apply (orderly_seq E opens [t] (if et_flush E t then [] else [t])); [apply orderly_closeDB | apply held_closeDB_any|]. intros _ d.
  apply (orderly_mono E opens _ []); [intros n [] | apply orderly_pack].
Qed.
Lemma orderly_ended E opens {A} (p : prog A) : forall W d, orderly E opens W p d -> orderly E opens W (endedS p) d.
Proof.
  induction p as [[x|m| |w]|R c q IH]; intros W d H; cbn [endedS orderly] in *; try exact I. destruct H as [H1 H2]. split; [exact H1|].
  destruct (perform E opens c d) as [d1 r]. apply IH, H2.
Qed.
Lemma orderly_unwinding {DB} (EQ : env DB) q E opens {A} (p : prog A) : forall W d, orderly E opens W p d -> orderly E opens W (unwindingS EQ q p) d.
Proof.
  induction p as [[x|m| |w]|R c k IH]; intros W d H; cbn [unwindingS orderly] in *; try exact I. destruct H as [H1 H2]. split; [exact H1|].
  destruct (perform E opens c d) as [d1 r]. apply IH, H2.
Qed.
Lemma orderly_gradient {DB} (EQ : env DB) E opens F T L G v fs : forall d, orderly E opens [] (gradientS EQ E F T L G v fs) d.
Proof.
  unfold gradientS. apply (orderly_seq E opens [] []); [apply orderly_done | intros; reflexivity|]. intros v1.
  apply (orderly_seq E opens [] []); [apply orderly_done | intros; reflexivity|]. intros v2 d.
  assert (PG : forall W d, orderly E opens W (go* _ := packS E (VsRun.vg_out v2) (VsRun.vg_tmp v2) in gradeFileS E L G (VsRun.vg_g v2) (VsRun.vg_out v2)) d).
  { intros W d0. apply (orderly_mono E opens _ []); [intros n []|]. revert d0.
    apply (orderly_seq E opens [] []); [apply orderly_pack | apply held_pack|]. intros _ d0. unfold gradeFileS. cbn [orderly]. split; [exact I|]. cbn [perform].
    destruct (d0 (VsRun.vg_out v2)) as [f|]; [|exact I]. destruct (opens d0 (VsRun.vg_out v2)); [|exact I]. cbn [writing].
    destruct (grade L _ G _ _ (d_recs f)) as [l|m| |w]; [|apply only_orderly, only_then; [apply only_change | intros; exact I]|exact I..].
    refine (orderly_seq E opens [VsRun.vg_out v2] [VsRun.vg_out v2] _ _ _ _ _ d0); [apply only_orderly, only_change | apply held_same, plain_change | intros _; apply orderly_close]. }
  apply orderly_then; [|intros d1 a _; apply PG]. revert d. unfold extractS.
  apply (orderly_seq E opens [] []); [apply orderly_done | intros; reflexivity|]. intros q d. apply orderly_unwinding. revert d.
  set (t := VsRun.vg_tmp v2).
  apply (orderly_seq E opens [] [t]); [apply orderly_openDB | intros d d1 a'; apply openDB_held|]. intros _.
  do 4 (apply (orderly_seq E opens [t] [t]); [apply orderly_done | intros; reflexivity|]; intros ?).
  assert (IN : forall lon lat st h, only t (extractPointS EQ E L v2 lon lat st h) /\ plain (extractPointS EQ E L v2 lon lat st h)).
  { intros lon lat [[q1 fs1] vals] h. unfold extractPointS. split.
    - apply only_then; [exact I|]. intros r. apply only_then; [exact I|]. intros p. apply only_then; [apply only_insert | intros _; exact I].
    - apply plain_then; [exact I|]. intros r. apply plain_then; [exact I|]. intros p. apply plain_then; [apply plain_insert | intros _; exact I]. }
  apply (orderly_seq E opens [t] [t]).
  - apply only_orderly, only_fold. intros st x. apply only_fold. intros st' x'. apply only_then; [exact I|]. intros ll. apply only_fold. intros y h. apply IN.
  - apply held_same, plain_fold. intros st x. apply plain_fold. intros st' x'. apply plain_then; [exact I|]. intros ll. apply plain_fold. intros y h. apply IN.
  - intros st. apply (orderly_seq E opens [t] (if et_flush E t then [] else [t])); [apply orderly_closeDB | apply held_closeDB_any | intros _; apply orderly_done].
Qed.
(** No program writes to a file, or closes one, that is not open for writing. *)
Theorem C67_written_while_open : forall DB (EQ : env DB) E opens F X L T G fs j d,
  orderly E opens [] (calls_of EQ E F X L T G fs j) d.
Proof.
  intros DB EQ E opens F X L T G fs j d.
  destruct j as [a|a|a|a]; cbn [calls_of]; [unfold avgMainS | unfold packMainS | unfold genMainS | unfold gradeMainS];
    [destruct (avgArgs a) as [c|] | destruct (packArgs X a) as [c|] | destruct (genArgs X a) as [c|] | destruct (gradeArgs X a) as [c|]];
    try exact I; apply orderly_ended.
  - apply orderly_average.
  - apply orderly_pack.
  - apply orderly_ingest.
  - apply orderly_gradient.
Qed.
Print Assumptions C67_written_while_open.

(** A cencalvmgen that was killed has either changed only the temporary file, or that file
    is complete and cencalvmpack does the rest. *)
Theorem C67_pack_completes : forall E opens F X L T args kvs fp fout ft d d' args' kvs',
  local_open E opens -> creatable E fout -> et_flush E ft = true ->
  command gen_letters args kvs -> named "i" kvs fp -> named "o" kvs fout -> named "t" kvs ft -> ft <> fout ->
  command pack_letters args' kvs' -> named "i" kvs' ft -> named "o" kvs' fout ->
  killed E opens [] (genMainS E F X L T args) d d' ->
  (forall n, n <> ft -> d' n = d n) \/ same_end (packMain E X args' d') (genMain E F X L T args d).
Proof.
  intros E opens F X L T args kvs fp fout ft d d' args' kvs' LO CR FL K N1 N2 N3 ND K' N1' N2' KD.
  assert (QP : packArgs X args' = Some (mkNames "" ft fout "" (given_as (t_atoi X) "c" kvs' 64))) by (apply packArgs_iff; exists kvs', ft, fout; auto).
  assert (QG : genArgs X args = Some (mkNames fp "" fout ft (given_as (t_atoi X) "c" kvs 512))) by (apply genArgs_iff; exists kvs, fp, fout, ft; auto).
  rewrite <- (genMainS_alone E opens), <- (packMainS_alone E opens). unfold genMainS, packMainS in *. rewrite QG in *. rewrite QP. cbn [f_params f_in f_out f_tmp] in *.
  apply (proj1 (killed_ended E opens _ _ _ _)) in KD. rewrite !endedS_alone. unfold ingestS in *.
  assert (NOW : forall n, (forall m, ~ In m [] -> d' m = d m) -> d' n = d n) by (intros n H; apply H; intros []).
  destruct (_ || _); [left; intros n _; destruct KD as [KD|[]]; auto|].
  destruct (readParams T _) as [fl|m| |w]; [|left; intros n _; destruct KD as [KD|[]]; auto..].
  assert (CF : forall A (p : prog A) W e e', tidy (fun _ => False) (eq ft) [ft] p -> incl W [ft] -> killed E opens W p e e' -> forall n, n <> ft -> e' n = e n).
  { intros A p W e e' TD IW KK n Hn. apply (killed_confined E opens (fun _ => False) (eq ft) p [ft] W e e'); auto; [intros m [<-|[]]; reflexivity|].
    intros m Hm. destruct (IW m Hm) as [<-|[]]. reflexivity. }
  assert (FT : forall A (p : prog A) e, tidy (fun _ => False) (eq ft) [ft] p -> forall n, n <> ft -> fst (alone E opens p e) n = e n).
  { intros A p e TD n Hn. apply (alone_confined E opens (fun _ => False) (eq ft) _ [ft]); auto. intros m [<-|[]]. reflexivity. }
  assert (TO : tidy (fun _ => False) (eq ft) [ft] (openDBS E ft genDescription)) by (apply tidy_openDB; reflexivity).
  assert (TA : tidy (fun _ => False) (eq ft) [ft] (addGridsS E F T L ft fl)) by (apply tidy_addGrids; left; reflexivity).
  assert (TC : tidy (fun _ => False) (eq ft) [ft] (closeDBS E ft)) by (apply tidy_closeDB; left; reflexivity).
  destruct (killed_then _ _ _ _ _ _ _ KD) as [KD1|(d1 & [] & A1 & KD1)].
  { left. apply (CF _ _ [] d d' TO); [intros z [] | exact KD1]. }
  rewrite (openDB_held _ _ _ _ _ _ _ A1) in KD1. pose proof (FT _ _ d TO) as F1. rewrite A1 in F1. cbn [fst] in F1.
  destruct (killed_then _ _ _ _ _ _ _ KD1) as [KD2|(d2 & [] & A2 & KD2)].
  { left. intros n Hn. rewrite <- (F1 n Hn). apply (CF _ _ [ft] d1 d' TA); [apply incl_refl | exact KD2 | exact Hn]. }
  rewrite plain_held in KD2 by apply plain_grids. pose proof (FT _ _ d1 TA) as F2. rewrite A2 in F2. cbn [fst] in F2.
  destruct (killed_then _ _ _ _ _ _ _ KD2) as [KD3|(d3 & [] & A3 & KD3)].
  { left. intros n Hn. rewrite <- (F1 n Hn), <- (F2 n Hn). apply (CF _ _ [ft] d2 d' TC); [apply incl_refl | exact KD3 | exact Hn]. }
  right.
  assert (H3 : held E opens [ft] (closeDBS E ft) d2 = []).
  { unfold closeDBS. rewrite FL. cbn. destruct (string_dec ft ft) as [_|Q]; [reflexivity | destruct (Q eq_refl)]. }
  rewrite H3 in KD3.
  assert (S : same_end (alone E opens (packS E fout ft) d') (alone E opens (packS E fout ft) d3)).
  { apply (again E opens LO (eq ft) (eq fout)) with (C := []) (W := []) (d' := d'); auto.
    - intros n <-. exact CR.
    - intros n <- Q. auto.
    - apply tidy_pack; [right; reflexivity | reflexivity].
    - intros n [].
    - intros n [].
    - intros n []. }
  rewrite alone_then. unfold andThen at 1. rewrite A1. rewrite alone_then. unfold andThen at 1. rewrite A2.
  rewrite alone_then. unfold andThen at 1. rewrite A3.
  destruct (alone E opens (packS E fout ft) d') as [e o]. destruct (alone E opens (packS E fout ft) d3) as [e' o'].
  destruct S as [S1 S2]. cbn [fst snd] in S1, S2. subst o'. unfold same_end, ended. destruct o; (split; [reflexivity | exact S2]).
Qed.
Print Assumptions C67_pack_completes.

(** ** C68: programs that run at the same time *)
Lemma jobs_together : forall DB (EQ : env DB) E opens F X L T G fs jobs d d' os,
  local_open E opens -> local_create E -> ForallOrdPairs separate jobs ->
  together E opens (map (calls_of EQ E F X L T G fs) jobs) d d' os ->
  Forall2 (fun j o => o = snd (main_of EQ E opens F X L T G fs j d)) jobs os /\
  (forall j n, In j jobs -> In n (named_files X j) -> d' n = fst (main_of EQ E opens F X L T G fs j d) n) /\
  (forall n, (forall j, In j jobs -> ~ In n (named_files X j)) -> d' n = d n).
Proof.
  intros DB EQ E opens F X L T G fs jobs d d' os LO LC SEP TG.
  set (rd := fun i n => match nth_error jobs i with Some j => reads j n | None => False end).
  set (wr := fun i n => match nth_error jobs i with Some j => In n (named_files X j) | None => False end).
  assert (PAIR : forall i j a b, i <> j -> nth_error jobs i = Some a -> nth_error jobs j = Some b -> separate a b).
  { clear TG. induction SEP as [|x l FX SP IH]; intros i j a b N Hi Hj; [destruct i; discriminate|].
    rewrite Forall_forall in FX. destruct i as [|i], j as [|j]; cbn [nth_error] in *.
    - destruct (N eq_refl).
    - injection Hi as <-. apply FX. exact (nth_error_In _ _ Hj).
    - injection Hj as <-. destruct (FX a (nth_error_In _ _ Hi)) as [S1 S2]. split; auto.
    - apply (IH i j); auto. }
  destruct (together_alone E opens LO LC _ _ _ _ TG rd wr (fun _ => []) (fun _ => d)) as (L1 & L2 & L3).
  - intros i j n N Hi Hj. rewrite map_length in Hi, Hj. unfold wr, rd.
    destruct (nth_error jobs i) as [a|] eqn:Qi; [|intros []]. destruct (nth_error jobs j) as [b|] eqn:Qj; [|intros _; split; intros []].
    destruct (PAIR i j a b N Qi Qj) as [S1 _]. intros Hn. destruct (S1 n (named_files_written X a n Hn)) as [SW SR].
    split; [intros Q; apply SW, (named_files_written X), Q | exact SR].
  - intros i p Hi. rewrite nth_error_map in Hi. unfold rd, wr. destruct (nth_error jobs i) as [a|]; [|discriminate]. injection Hi as <-.
    split; [apply job_tidy|]. split; [intros n [] | reflexivity].
  - rewrite map_length in L1, L3. split; [|split].
    + assert (H : forall i j, nth_error jobs i = Some j -> nth_error os i = Some (snd (main_of EQ E opens F X L T G fs j d))).
      { intros i j Hi. destruct (L2 i (calls_of EQ E F X L T G fs j)) as [M _]; [rewrite nth_error_map, Hi; reflexivity|]. rewrite M, main_alone. reflexivity. }
      clear -L1 H. revert os L1 H. induction jobs as [|j jobs IH]; intros os L1 H; [destruct os; [constructor | discriminate]|].
      destruct os as [|o os]; [discriminate|]. constructor; [specialize (H O j eq_refl); injection H as ->; reflexivity|].
      apply IH; [injection L1 as L1; exact L1|]. intros i j' Hi. exact (H (Datatypes.S i) j' Hi).
    + intros j n IN Wn. destruct (In_nth_error _ _ IN) as [i Hi]. destruct (L2 i (calls_of EQ E F X L T G fs j)) as [_ M]; [rewrite nth_error_map, Hi; reflexivity|].
      rewrite <- main_alone. apply M. unfold wr. rewrite Hi. exact Wn.
    + intros n Hn. apply L3. intros i Hi. unfold wr. destruct (nth_error jobs i) as [j|] eqn:Q; [|intros []]. apply Hn. exact (nth_error_In _ _ Q).
Qed.
Lemma separate_or_same jobs : ForallOrdPairs separate jobs -> forall i j, In i jobs -> In j jobs -> i = j \/ separate i j.
Proof.
  induction 1 as [|x l FX _ IH]; intros i j Hi Hj; [destruct Hi|]. rewrite Forall_forall in FX.
  destruct Hi as [<-|Hi], Hj as [<-|Hj]; auto. right. destruct (FX i Hi) as [S1 S2]. split; auto.
Qed.
Theorem C68_together : forall DB (EQ : env DB) E opens F X L T G fs jobs d d' os,
  local_open E opens -> local_create E -> ForallOrdPairs separate jobs ->
  together E opens (map (calls_of EQ E F X L T G fs) jobs) d d' os ->
  Forall2 (fun j o => o = snd (main_of EQ E opens F X L T G fs j d)) jobs os /\
  (forall j n, In j jobs -> writes j n -> d' n = fst (main_of EQ E opens F X L T G fs j d) n) /\
  (forall n, (forall j, In j jobs -> ~ writes j n) -> d' n = d n).
Proof.
  intros DB EQ E opens F X L T G fs jobs d d' os LO LC SEP TG.
  destruct (jobs_together _ _ _ _ _ _ _ _ _ _ _ _ _ _ LO LC SEP TG) as (A1 & A2 & A3). split; [exact A1|].
  assert (U : forall j n, In j jobs -> ~ In n (named_files X j) -> fst (main_of EQ E opens F X L T G fs j d) n = d n).
  { intros j n _ Hn. rewrite <- main_alone. apply (alone_confined E opens (reads j) (fun n => In n (named_files X j)) _ []); [apply job_tidy | intros m [] | exact Hn]. }
  split.
  - intros j n IN Wn. destruct (in_dec string_dec n (named_files X j)) as [I|N]; [apply A2; auto|].
    rewrite (U j n IN N). apply A3. intros j' IN' I'.
    destruct (separate_or_same jobs SEP j j' IN IN') as [->|[S1 _]]; [auto|].
    destruct (S1 n Wn) as [Q _]. apply Q, (named_files_written X), I'.
  - intros n Hn. apply A3. intros j IN I'. apply (Hn j IN), (named_files_written X), I'.
Qed.
Print Assumptions C68_together.
(** However they take turns, they come to an end ... *)
Theorem C68_ends : forall DB (EQ : env DB) E opens F X L T G fs jobs d,
  exists d' os, together E opens (map (calls_of EQ E F X L T G fs) jobs) d d' os.
Proof. intros. exact (together_ends E opens _ [] d). Qed.
Print Assumptions C68_ends.
(** ... and always the same one. *)
Theorem C68_schedule_irrelevant : forall DB (EQ : env DB) E opens F X L T G fs jobs d d1 os1 d2 os2,
  local_open E opens -> local_create E -> ForallOrdPairs separate jobs ->
  together E opens (map (calls_of EQ E F X L T G fs) jobs) d d1 os1 ->
  together E opens (map (calls_of EQ E F X L T G fs) jobs) d d2 os2 ->
  os1 = os2 /\ forall n, d1 n = d2 n.
Proof.
  intros DB EQ E opens F X L T G fs jobs d d1 os1 d2 os2 LO LC SEP T1 T2.
  destruct (jobs_together _ _ _ _ _ _ _ _ _ _ _ _ _ _ LO LC SEP T1) as (A1 & A2 & A3).
  destruct (jobs_together _ _ _ _ _ _ _ _ _ _ _ _ _ _ LO LC SEP T2) as (B1 & B2 & B3). split.
  - clear -A1 B1. revert os2 B1. induction A1 as [|j o js os -> _ IH]; intros os2 B1; inversion B1; subst; [reflexivity|]. f_equal. apply IH. assumption.
  - intros n. destruct (in_dec string_dec n (flat_map (named_files X) jobs)) as [I|N].
    + apply in_flat_map in I. destruct I as (j & IN & I). rewrite (A2 j n IN I), (B2 j n IN I). reflexivity.
    + assert (N' : forall j, In j jobs -> ~ In n (named_files X j)) by (intros j IN I; apply N, in_flat_map; exists j; auto).
      rewrite (A3 n N'), (B3 n N'). reflexivity.
Qed.
Print Assumptions C68_schedule_irrelevant.

(** ** Examples *)
From Verif Require Import PropStore PropApp ToyGrid PropSmall ToyLib.
From Verif Require PropGrid SpecStore.
Open Scope string_scope. Open Scope Z_scope.
(** After [n] calls: the files open for writing, and the disk *)
Fixpoint after (E : etree) opens {A} (n : nat) (W : list string) (p : prog A) (d : disk) : list string * disk :=
  match n, p with
  | Datatypes.S n, Step c k => let (d1, r) := perform E opens c d in after E opens n (writing c r W) (k r) d1
  | _, _ => (W, d)
  end.
Lemma killed_after E opens {A} n : forall W (p : prog A) d d',
  (forall m, ~ In m (fst (after E opens n W p d)) -> d' m = snd (after E opens n W p d) m) -> killed E opens W p d d'.
Proof.
  induction n as [|n IH]; intros W p d d' H; [destruct p; left; exact H|]. destruct p as [o|R c k]; [left; exact H|]. right. cbn [after] in H.
  destruct (perform E opens c d) as [d1 r]. apply IH, H.
Qed.
Lemma option_file_is letters args k n kvs v : ~ In "-"%char letters -> command letters args kvs -> named k kvs v ->
  option_file letters args k n -> n = v.
Proof.
  intros N K V (kvs' & K' & V'). rewrite (PropSmall.C57_read_in_one_way _ _ _ _ N K' K) in V'. destruct V as [V _], V' as [V' _]. congruence.
Qed.
Definition all_open (d : disk) (n : string) : bool := match d n with Some _ => true | None => false end.
Definition avg_job (fout : string) : job := Avg ["-i"; "in"; "-o"; fout].
Definition garbage : option dbfile := Some (mkDb [] None None 3).
Definition spoilt (d : disk) (n : string) : disk := fun m => if String.eqb m n then garbage else d m.
Definition gen_job : job := Gen ["-i"; "list.txt"; "-o"; "model"; "-t"; "tmp"].
Definition toy_calls := calls_of (PropVsRun.source []) toy_etree toy_fmt app_texts toy PropGrid.toy_texts ToyGrade.lstore (fun _ => None).
Definition toy_main := main_of (PropVsRun.source []) toy_etree all_open toy_fmt app_texts toy PropGrid.toy_texts ToyGrade.lstore (fun _ => None).
Lemma avg_command fout : command avg_letters ["-i"; "in"; "-o"; fout] [("i"%char, "in"); ("o"%char, fout)].
Proof. apply (command_words avg_letters [("i"%char, "in"); ("o"%char, fout)]). repeat constructor; cbn; tauto. Qed.
Lemma gen_command : command gen_letters ["-i"; "list.txt"; "-o"; "model"; "-t"; "tmp"] [("i"%char, "list.txt"); ("o"%char, "model"); ("t"%char, "tmp")].
Proof. apply (command_words gen_letters [("i"%char, "list.txt"); ("o"%char, "model"); ("t"%char, "tmp")]). repeat constructor; cbn; tauto. Qed.
Lemma avg_writes fout n : fout <> "" -> writes (avg_job fout) n -> n = fout.
Proof.
  intros NE. apply (option_file_is avg_letters _ "o" n _ _ ltac:(cbn; intuition discriminate) (avg_command fout)). split; [reflexivity | exact NE].
Qed.
Lemma avg_reads fout n : reads (avg_job fout) n -> n = "in".
Proof.
  apply (option_file_is avg_letters _ "i" n _ _ ltac:(cbn; intuition discriminate) (avg_command fout)). split; [reflexivity | discriminate].
Qed.
Lemma gen_writes n : writes gen_job n -> n = "model" \/ n = "tmp".
Proof.
  intros [H|H]; [left | right]; eapply (option_file_is gen_letters); try exact gen_command; try exact H; try (split; [reflexivity | discriminate]);
    cbn; intuition discriminate.
Qed.
Lemma toy_local : local_open toy_etree all_open /\ local_create toy_etree /\ forall n, creatable toy_etree n.
Proof.
  split; [|split]; [|intros d d' n _; reflexivity | intros n d; reflexivity]. intros d d' n H. unfold all_open. rewrite H. split; reflexivity.
Qed.
Lemma after_else n j d m : ~ In m (named_files app_texts j) -> snd (after toy_etree all_open n [] (toy_calls j) d) m = d m.
Proof.
  apply (killed_confined toy_etree all_open (reads j) (fun m => In m (named_files app_texts j)) (toy_calls j) [] []);
    [apply job_tidy | intros z [] | intros z [] | apply (killed_after toy_etree all_open n); reflexivity].
Qed.
(** Averaging is killed while the output file is open for writing, which leaves garbage
    there; averaging again gives the 17 records. *)
Example C67_example_average :
  let d' := spoilt toy_disk "out" in
  killed toy_etree all_open [] (toy_calls (avg_job "out")) toy_disk d' /\
  distinct_files (avg_job "out") /\ (forall n, writes (avg_job "out") n -> creatable toy_etree n) /\
  d' "in" = toy_disk "in" /\
  seen (toy_main (avg_job "out") d') "out" = (Val (0, []), Some 17%nat) /\
  fst (toy_main (avg_job "out") d') "out" = fst (toy_main (avg_job "out") toy_disk) "out".
Proof.
  cbv zeta. split; [|split; [|split; [|split; [|split]]]].
  - apply (killed_after toy_etree all_open 5%nat). intros m. unfold spoilt. destruct (String.eqb m "out") eqn:Q.
    + apply String.eqb_eq in Q. subst m. intros H. exfalso. apply H. vm_compute. left. reflexivity.
    + intros _. symmetry. apply after_else. intros [H|[]]. subst m. discriminate Q.
  - intros n R W. apply avg_reads in R. apply avg_writes in W; [subst; discriminate | discriminate].
  - intros n _ d. reflexivity.
  - reflexivity.
  - vm_compute. reflexivity.
  - vm_compute. reflexivity.
Qed.
(** The output of a program that was killed need not be the old or the new file: it can be
    one without records that passes for a database of this kind. *)
Theorem C67_old_or_new_refuted : exists d',
  killed toy_etree all_open [] (toy_calls (avg_job "out")) toy_disk d' /\
  (exists f, SpecStore.usable toy_etree d' "out" f /\ d_recs f = []) /\
  d' "out" <> toy_disk "out" /\ d' "out" <> fst (toy_main (avg_job "out") toy_disk) "out".
Proof.
  exists (snd (after toy_etree all_open 4%nat [] (toy_calls (avg_job "out")) toy_disk)). split; [|split; [|split]].
  - apply (killed_after toy_etree all_open 4%nat). reflexivity.
  - assert (Q : match snd (after toy_etree all_open 4%nat [] (toy_calls (avg_job "out")) toy_disk) "out" with
      | Some f => d_recs f = [] /\ d_size f = 28 /\ d_schema f = Some SCHEMA
      | None => False
      end) by (vm_compute; repeat split).
    destruct (snd (after toy_etree all_open 4%nat [] (toy_calls (avg_job "out")) toy_disk) "out") as [f|] eqn:O; [|destruct Q].
    destruct Q as (Q1 & Q2 & Q3). exists f. repeat split; auto.
  - vm_compute. discriminate.
  - vm_compute. discriminate.
Qed.
Print Assumptions C67_old_or_new_refuted.
(** Grid ingestion is killed while the final file is open for writing: the temporary file
    is complete, and packing it by hand gives the model. *)
Example C67_example_gen :
  let d' := spoilt (snd (after toy_etree all_open 10%nat [] (toy_calls gen_job) (fun _ => None))) "model" in
  killed toy_etree all_open [] (toy_calls gen_job) (fun _ => None) d' /\
  (exists f, d' "tmp" = Some f /\ List.length (d_recs f) = 2%nat) /\
  seen (packMain toy_etree app_texts ["-i"; "tmp"; "-o"; "model"] d') "model" = (Val (0, []), Some 2%nat) /\
  fst (packMain toy_etree app_texts ["-i"; "tmp"; "-o"; "model"] d') "model" = fst (toy_main gen_job (fun _ => None)) "model".
Proof.
  cbv zeta. split; [|split; [|split]].
  - apply (killed_after toy_etree all_open 10%nat). intros m. unfold spoilt. destruct (String.eqb m "model") eqn:Q; [|reflexivity].
    apply String.eqb_eq in Q. subst m. intros H. exfalso. apply H. vm_compute. left. reflexivity.
  - eexists. split; vm_compute; reflexivity.
  - vm_compute. reflexivity.
  - vm_compute. reflexivity.
Qed.
(** Killed earlier, only the temporary file is there. *)
Example C67_example_gen_early :
  let d' := spoilt (fun _ => None) "tmp" in
  killed toy_etree all_open [] (toy_calls gen_job) (fun _ => None) d' /\ d' "model" = None.
Proof.
  cbv zeta. split; [|reflexivity]. apply (killed_after toy_etree all_open 4%nat). intros m. unfold spoilt. destruct (String.eqb m "tmp") eqn:Q.
  - apply String.eqb_eq in Q. subst m. intros H. exfalso. apply H. vm_compute. left. reflexivity.
  - intros _. destruct (String.eqb m "model") eqn:Q'.
    + apply String.eqb_eq in Q'. subst m. vm_compute. reflexivity.
    + symmetry. apply (after_else 4%nat gen_job (fun _ => None)). intros [H|[H|[]]]; subst m; [discriminate Q' | discriminate Q].
Qed.

(** One schedule: whose turn it is, call after call *)
Fixpoint turns {A} (E : etree) opens (s : list nat) (ps : list (prog A)) (d : disk) : list (prog A) * disk :=
  match s with
  | [] => (ps, d)
  | i :: s =>
      match nth_error ps i with
      | Some (Step c k) => let (d1, r) := perform E opens c d in turns E opens s (firstn i ps ++ k r :: skipn (Datatypes.S i) ps)%list d1
      | _ => turns E opens s ps d
      end
  end.
Fixpoint ends {A} (ps : list (prog A)) : option (list (outcome A)) :=
  match ps with
  | [] => Some []
  | Done o :: ps => option_map (cons o) (ends ps)
  | _ => None
  end.
Lemma ends_done {A} (ps : list (prog A)) : forall os, ends ps = Some os -> ps = map Done os.
Proof.
  induction ps as [|[o|R c k] ps IH]; intros os H; cbn [ends] in H; [injection H as <-; reflexivity| |discriminate].
  destruct (ends ps) as [l|]; [|discriminate]. injection H as <-. cbn [map]. rewrite <- (IH l eq_refl). reflexivity.
Qed.
Lemma turns_together {A} E opens s : forall (ps : list (prog A)) d os,
  ends (fst (turns E opens s ps d)) = Some os -> together E opens ps d (snd (turns E opens s ps d)) os.
Proof.
  induction s as [|i s IH]; intros ps d os H; cbn [turns] in *.
  - cbn [fst snd] in *. rewrite (ends_done ps os H). constructor.
  - destruct (nth_error ps i) as [[o|R c k]|] eqn:N; [apply IH, H| |apply IH, H].
    destruct (perform E opens c d) as [d1 r] eqn:P.
    assert (S : ps = (firstn i ps ++ Step c k :: skipn (Datatypes.S i) ps)%list).
    { clear -N. revert i N. induction ps as [|x ps IH]; intros [|i] N; cbn [nth_error] in N; try discriminate; [injection N as ->; reflexivity|].
      cbn [firstn skipn app]. f_equal. exact (IH i N). }
    rewrite S at 1. apply (together_step E opens _ _ _ c k d d1 r); [exact P | apply IH, H].
Qed.
Definition toy_jobs := [avg_job "out"; gen_job; avg_job "out2"].
Definition in_turn (n : nat) : list nat := List.concat (repeat [0; 1; 2]%nat n).
(** Two averagings of the same database and an ingestion, call by call in turn: each gives
    what it gives alone. *)
Example C68_example :
  ForallOrdPairs separate toy_jobs /\
  let d' := snd (turns toy_etree all_open (in_turn 20) (map toy_calls toy_jobs) toy_disk) in
  together toy_etree all_open (map toy_calls toy_jobs) toy_disk d' [Val (0, []); Val (0, []); Val (0, [])] /\
  map (fun n => option_map (fun f => List.length (d_recs f)) (d' n)) ["out"; "out2"; "model"; "tmp"; "old"] =
  [Some 17; Some 17; Some 2; Some 2; Some 12]%nat.
Proof.
  split; [|cbv zeta; split].
  - assert (SA : forall x y, x <> "" -> y <> "" -> x <> y -> x <> "in" -> y <> "in" -> separate (avg_job x) (avg_job y)).
    { intros x y X Y XY XI YI. split; intros n W; apply avg_writes in W; auto; subst n;
        (split; [intros W'; apply avg_writes in W'; auto | intros R; apply avg_reads in R; auto]). }
    assert (SG : forall x, x <> "" -> x <> "model" -> x <> "tmp" -> separate (avg_job x) gen_job).
    { intros x X M TM. split; intros n W.
      - apply avg_writes in W; auto. subst n. split; [intros W'; apply gen_writes in W'; destruct W'; auto | intros []].
      - apply gen_writes in W. split; [intros W'; apply avg_writes in W'; auto; subst; destruct W; auto | intros R; apply avg_reads in R; subst; destruct W; discriminate]. }
    assert (GS : forall i j, separate i j -> separate j i) by (intros i j [A B]; split; auto).
    constructor; [constructor; [apply SG; discriminate | constructor; [apply SA; discriminate | constructor]]|].
    constructor; [constructor; [apply GS, SG; discriminate | constructor]|]. constructor; constructor.
  - apply turns_together. vm_compute. reflexivity.
  - vm_compute. reflexivity.
Qed.
(** Two programs that are not separate: packing a file while another program averages into
    it depends on the schedule. *)
Example C68_not_separate :
  let ps := map toy_calls [avg_job "mid"; Pack ["-i"; "mid"; "-o"; "out"]] in
  let one := turns toy_etree all_open (repeat 0 20 ++ repeat 1 20)%nat%list ps toy_disk in
  let other := turns toy_etree all_open (repeat 1 20 ++ repeat 0 20)%nat%list ps toy_disk in
  ends (fst one) = Some [Val (0, []); Val (0, [])] /\ ends (fst other) <> ends (fst one).
Proof. cbv zeta. split; [vm_compute; reflexivity | vm_compute; discriminate]. Qed.
Example C67_closed_example :
  (forall n, writes gen_job n -> et_flush toy_etree n = true) /\
  snd (toy_main gen_job (fun _ => None)) = Val (0, []) /\
  held toy_etree all_open [] (toy_calls gen_job) (fun _ => None) = [].
Proof. split; [intros; reflexivity|]. split; vm_compute; reflexivity. Qed.
