(** A program that runs alone to its end does what the other files of the model say. *)
From Coq Require Import ZArith Bool String List Lia.
From Verif Require Import Outcome Float Payload Addr AvgEngine Geom Store Averager VMCreator Stream GridIngester
  ErrorHandler VMQuery VsGrader GetOpt QueryApp SmallApps Steps.
From Verif Require VsRun.
Import ListNotations.
Open Scope Z_scope.

Section Alone.
Variables (E : etree) (opens : disk -> string -> bool).
Notation run := (alone E opens).
Lemma alone_then {A B} (p : prog A) (k : A -> prog B) d : run (thenS p k) d = andThen (run p) (fun a => run (k a)) d.
Proof.
  unfold andThen. revert d. induction p as [[a|m| |w]|R c q IH]; intros d; try reflexivity.
  cbn [thenS alone]. destruct (perform E opens c d) as [d1 r]. apply IH.
Qed.
Lemma then_same {A B} (m : io A) (p : prog A) (h : A -> io B) (k : A -> prog B) d :
  run p d = m d -> (forall a d', m d = (d', Val a) -> run (k a) d' = h a d') -> run (thenS p k) d = andThen m h d.
Proof. intros H1 H2. rewrite alone_then. unfold andThen. rewrite H1. destruct (m d) as [d' [a|s| |w]] eqn:M; auto. Qed.
Lemma openReadS_alone n msg d : run (openReadS n msg) d = openRead E n msg d.
Proof. unfold openReadS, openRead. cbn [alone perform]. destruct (d n) as [f|]; [destruct (et_open E d n)|]; reflexivity. Qed.
Lemma openNewS_alone n msg d : run (openNewS n msg) d = openNew E n msg d.
Proof. unfold openNewS, openNew. cbn [alone perform]. destruct (et_create E d n); reflexivity. Qed.
Lemma changeS_alone n g d : run (changeS n g) d = write n g d.
Proof. reflexivity. Qed.
Lemma registerSchemaS_alone n d : run (registerSchemaS E n) d = registerSchema E n d.
Proof. unfold registerSchemaS, registerSchema. destruct (et_regschema E n); reflexivity. Qed.
Lemma setAppMetaS_alone n m d : run (setAppMetaS E n m) d = setAppMeta E n m d.
Proof. unfold setAppMetaS, setAppMeta. destruct (et_setmeta E n m); reflexivity. Qed.

(** Calls that write leave the other files alone. *)
Lemma openNew_else n msg d d' o m : m <> n -> openNew E n msg d = (d', o) -> d' m = d m.
Proof.
  intros N. unfold openNew. destruct (et_create E d n); intros H; injection H as <- <-; unfold put; apply String.eqb_neq in N; rewrite N; reflexivity.
Qed.
Lemma write_else n g d d' o m : m <> n -> write n g d = (d', o) -> d' m = d m.
Proof. intros N H. injection H as <- <-. unfold put. apply String.eqb_neq in N. rewrite N. reflexivity. Qed.
Lemma registerSchema_else n d d' o m : m <> n -> registerSchema E n d = (d', o) -> d' m = d m.
Proof. intros N. unfold registerSchema. destruct (et_regschema E n); [apply write_else, N|]. intros H. injection H as <- <-. reflexivity. Qed.
Lemma setAppMeta_else n x d d' o m : m <> n -> setAppMeta E n x d = (d', o) -> d' m = d m.
Proof. intros N. unfold setAppMeta. destruct (et_setmeta E n x); [apply write_else, N|]. intros H. injection H as <- <-. reflexivity. Qed.

Definition uncounted {A} (r : disk * outcome A) : disk * outcome unit :=
  match r with (d, Val _) => (d, Val tt) | (d, Throw m) => (d, Throw m) | (d, Abort) => (d, Abort) | (d, UB w) => (d, UB w) end.

Lemma averageS_alone fin fout d : run (averageS E fin fout) d = uncounted (average E fin fout d).
Proof.
  unfold averageS, average. rewrite alone_then. unfold andThen. rewrite openReadS_alone.
  destruct (openRead E fin _ d) as [d1 [f|m| |w]] eqn:O; try reflexivity.
  assert (d1 = d /\ d fin = Some f) as [-> HF].
  { unfold openRead in O. destruct (d fin) as [f0|]; [destruct (et_open E d fin)|]; try (exfalso; apply (f_equal snd) in O; discriminate O); injection O as <- <-; auto. }
  destruct (negb (d_size f =? PAYLOADSIZE)); [reflexivity|]. destruct (d_schema f) as [s|]; [|reflexivity].
  destruct (negb (String.eqb s SCHEMA)); [reflexivity|].
  rewrite alone_then. unfold andThen. rewrite openNewS_alone. destruct (openNew E fout _ d) as [d2 [[]|m| |w]] eqn:O2; try reflexivity.
  rewrite alone_then. unfold andThen. rewrite registerSchemaS_alone. destruct (registerSchema E fout d2) as [d3 [[]|m| |w]] eqn:O3; try reflexivity.
  rewrite alone_then. unfold andThen.
  assert (MM : run (copyMetaS E fout (option_map (averagedMeta E) (d_meta f))) d3 =
    match d_meta f with Some m => setAppMeta E fout (averagedMeta E m) | None => ret tt end d3)
    by (destruct (d_meta f); [apply setAppMetaS_alone | reflexivity]).
  rewrite MM. match type of MM with _ = ?X => destruct X as [d4 [[]|m| |w]] eqn:O4 end; try reflexivity.
  assert (RR : run (recordsS E fin fout) d4 = (d4, Val (if String.eqb fin fout then et_stale E else d_recs f))).
  { unfold recordsS. destruct (String.eqb_spec fin fout) as [Q|Q]; [reflexivity|]. cbn [alone perform].
    assert (X : d4 fin = Some f); [|rewrite X; reflexivity].
    transitivity (d3 fin); [destruct (d_meta f); [apply (setAppMeta_else _ _ _ _ _ _ Q O4) | injection O4 as <-; reflexivity]|].
    rewrite (registerSchema_else _ _ _ _ _ Q O3), (openNew_else _ _ _ _ _ _ Q O2). exact HF. }
  rewrite alone_then. unfold andThen. rewrite RR.
  destruct (fillFrom _ _ _) as [st|m| |w]; try reflexivity.
  destruct (et_flush E fout); reflexivity.
Qed.
Lemma openDBS_alone name desc d : run (openDBS E name desc) d = openDB E name desc d.
Proof.
  unfold openDBS, openDB. apply then_same; [apply openNewS_alone|]. intros [] d1 _.
  apply then_same; [apply registerSchemaS_alone|]. intros [] d2 _. apply setAppMetaS_alone.
Qed.
Lemma closeDBS_alone name d : run (closeDBS E name) d = closeDB E name d.
Proof. unfold closeDBS, closeDB. destruct (et_flush E name); reflexivity. Qed.
Lemma packS_alone packed unpacked d : run (packS E packed unpacked) d = packDB E packed unpacked d.
Proof.
  unfold packS, packDB. apply then_same; [apply openReadS_alone|]. intros f d1 O.
  assert (d1 = d /\ d unpacked = Some f) as [-> HF].
  { unfold openRead in O. destruct (d unpacked) as [f0|]; [destruct (et_open E d unpacked)|]; try (exfalso; apply (f_equal snd) in O; discriminate O); injection O as <- <-; auto. }
  apply then_same; [apply openNewS_alone|]. intros [] d2 O2.
  apply then_same; [apply registerSchemaS_alone|]. intros [] d3 O3.
  apply then_same; [destruct (d_meta f); [apply setAppMetaS_alone | reflexivity]|]. intros [] d4 O4.
  assert (RR : run (recordsS E unpacked packed) d4 = (d4, Val (if String.eqb unpacked packed then et_stale E else d_recs f))).
  { unfold recordsS. destruct (String.eqb_spec unpacked packed) as [Q|Q]; [reflexivity|]. cbn [alone perform].
    assert (X : d4 unpacked = Some f); [|rewrite X; reflexivity].
    transitivity (d3 unpacked); [destruct (d_meta f); [apply (setAppMeta_else _ _ _ _ _ _ Q O4) | injection O4 as <-; reflexivity]|].
    rewrite (registerSchema_else _ _ _ _ _ Q O3), (openNew_else _ _ _ _ _ _ Q O2). exact HF. }
  rewrite alone_then. unfold andThen at 1. rewrite RR. destruct (_ || _); [reflexivity|].
  destruct (negb (st_begin_ok _)); [reflexivity|]. destruct (negb (d_size f =? PAYLOADSIZE)); [reflexivity|].
  destruct (copyRecs _ _ _ _) as [l|m| |w]; try reflexivity.
  destruct (negb (st_end_ok _)); [reflexivity|]. destruct (negb (et_close E unpacked)); [reflexivity|].
  destruct (negb (et_close E packed)); reflexivity.
Qed.
Lemma insertS_alone L name p lon lat elev res d : run (insertS E L name p lon lat elev res) d = insert E L (Some name) p lon lat elev res d.
Proof.
  unfold insertS, insert, andThen, lift. destruct (level L res) as [lev|m| |w]; try reflexivity.
  destruct (lonLatElevToAddr L _ lon lat elev) as [r|m| |w]; try reflexivity.
  cbn [alone perform]. destruct (d name) as [f|] eqn:D; [|reflexivity]. destruct (et_insert E (d_recs f) (snd r)); [|reflexivity].
  unfold write. rewrite D. reflexivity.
Qed.
Definition unnumbered {A} (r : disk * A * outcome unit) : disk * outcome unit := let '(d, _, o) := r in (d, o).
Lemma addPointsS_alone F L db res n : forall s a i d,
  run (addPointsS E F L db res n s) d = unnumbered (addPoints E F L db res n s a i d).
Proof.
  induction n as [|n IH]; intros s a i d; cbn [addPointsS addPoints]; [reflexivity|]. destruct (getLine F s) as [s' l].
  destruct (negb (good s')); [reflexivity|]. destruct (_ && _); [|apply IH].
  rewrite alone_then. unfold andThen. rewrite insertS_alone. destruct (insert E L (Some db) _ _ _ _ res d) as [d1 [u|m| |w]]; try reflexivity. apply IH.
Qed.
Lemma addGridS_alone F T L p o t m db file d :
  run (addGridS E F T L db file) d = unnumbered (addGrid E F T L (mkIngester p o t m true) db file d).
Proof.
  unfold addGridS, addGrid. cbn [gi_geom negb]. destruct (T file) as [x|]; [|reflexivity].
  repeat match goal with |- context[getNum ?c ?o ?x] => destruct (getNum c o x) end.
  destruct (differs _ VERTEXAG); [reflexivity|]. destruct (level L _) as [lev| | |]; [|reflexivity..].
  destruct (edgeLen lev) as [len| | |]; [|reflexivity..]. destruct (differs _ len); [reflexivity|]. apply addPointsS_alone.
Qed.
Lemma addGridsS_alone F T L p o t m db files : forall d,
  run (addGridsS E F T L db files) d = unnumbered (addGrids E F T L (mkIngester p o t m true) db files d).
Proof.
  induction files as [|f r IH]; intros d; cbn [addGridsS addGrids]; [reflexivity|].
  rewrite alone_then. unfold andThen. rewrite (addGridS_alone F T L p o t m). destruct (addGrid _ _ _ _ _ _ _ _) as [[d1 c] [u|x| |w]]; try reflexivity.
  cbn [unnumbered]. rewrite IH. destruct (addGrids _ _ _ _ _ _ _ _) as [[d2 cs] ox]. reflexivity.
Qed.
Lemma ingestS_alone F T L p o t m d :
  run (ingestS E F T L p o t m) d = unnumbered (GridIngester.run E F T L (mkIngester p o t m true) d).
Proof.
  unfold ingestS, GridIngester.run. cbn [gi_params gi_tmp gi_out gi_desc]. destruct (_ || _); [reflexivity|].
  destruct (readParams T _) as [files|x| |w]; try reflexivity.
  rewrite alone_then. unfold andThen at 1. rewrite openDBS_alone. destruct (openDB E t m d) as [d1 [u|x| |w]]; try reflexivity.
  rewrite alone_then. unfold andThen at 1. rewrite (addGridsS_alone F T L p o t m). destruct (addGrids _ _ _ _ _ _ _ _) as [[d2 cs] [u2|x| |w]]; try reflexivity.
  cbn [unnumbered]. rewrite alone_then. unfold andThen. rewrite closeDBS_alone. destruct (closeDB E t d2) as [d3 [u3|x| |w]]; try reflexivity.
  rewrite packS_alone. destruct (packDB E o t d3) as [d4 ox]. reflexivity.
Qed.
Lemma endedS_alone {A} (p : prog A) d : run (endedS p) d = ended (run p d).
Proof.
  revert d. induction p as [[a|m| |w]|R c q IH]; intros d; try reflexivity. cbn [endedS alone]. destruct (perform E opens c d) as [d1 r]. apply IH.
Qed.
Lemma ended_uncounted {A} (r : disk * outcome A) : ended (uncounted r) = ended r.
Proof. destruct r as [d [a|m| |w]]; reflexivity. Qed.
Lemma avgMainS_alone args d : run (avgMainS E args) d = avgMain E args d.
Proof.
  unfold avgMainS, avgMain. destruct (avgArgs args) as [c|]; [|reflexivity].
  rewrite endedS_alone, averageS_alone. apply ended_uncounted.
Qed.
Lemma packMainS_alone T args d : run (packMainS E T args) d = packMain E T args d.
Proof. unfold packMainS, packMain. destruct (packArgs T args) as [c|]; [|reflexivity]. rewrite endedS_alone, packS_alone. reflexivity. Qed.
Lemma genMainS_alone F T L files args d : run (genMainS E F T L files args) d = genMain E F T L files args d.
Proof.
  unfold genMainS, genMain. destruct (genArgs T args) as [c|]; [|reflexivity]. rewrite endedS_alone, ingestS_alone.
  destruct (GridIngester.run _ _ _ _ _ d) as [[d1 cs] o]. reflexivity.
Qed.

Section Grade.
Context {DB : Type}.
Variables (EQ : env DB) (F : numfmt) (T : GridIngester.texts) (L : libm) (G : gstore (list (addr * payload)) payload).
Lemma foldS_alone {X Y} (f : Y -> X -> prog Y) (h : Y -> X -> io Y) l : (forall y x d, run (f y x) d = h y x d) ->
  forall y d, run (foldS f l y) d = VsRun.foldIO h l y d.
Proof.
  intros H. induction l as [|x l IH]; intros y d; [reflexivity|]. cbn [foldS VsRun.foldIO]. apply then_same; [apply H | intros a d' _; apply IH].
Qed.
Lemma unwindingS_alone {A} (q : qstate DB) (p : prog A) m d : run p d = m d -> run (unwindingS EQ q p) d = VsRun.unwinding EQ q m d.
Proof.
  unfold VsRun.unwinding. intros <-. clear m. revert d. induction p as [[a|s| |w]|R c k IH]; intros d; try reflexivity.
  - cbn [unwindingS alone]. destruct (destroy EQ q) as [| | |]; reflexivity.
  - cbn [unwindingS alone]. destruct (perform E opens c d) as [d1 r]. apply IH.
Qed.
Lemma extractS_alone v fs d : run (extractS EQ E F L v fs) d = VsRun.extract EQ E F L v fs d.
Proof.
  unfold extractS, VsRun.extract. apply then_same; [reflexivity|]. intros q d1 _. apply unwindingS_alone.
  apply then_same; [apply openDBS_alone|]. intros [] d2 _.
  apply then_same; [reflexivity|]. intros n1 d3 _. apply then_same; [reflexivity|]. intros n2 d4 _.
  apply then_same; [reflexivity|]. intros n3 d5 _. apply then_same; [reflexivity|]. intros q2 d6 _.
  apply then_same.
  - apply foldS_alone. intros y x d0. apply foldS_alone. intros y' x' d0'. apply then_same; [reflexivity|]. intros ll d7 _.
    apply foldS_alone. intros [[q3 fs3] vals] i d8. unfold extractPointS, VsRun.extractPoint.
    apply then_same; [reflexivity|]. intros r d9 _. apply then_same; [reflexivity|]. intros p d10 _.
    apply then_same; [apply insertS_alone|]. intros [] d11 _. reflexivity.
  - intros st d7 _. apply then_same; [apply closeDBS_alone|]. intros [] d8 _. reflexivity.
Qed.
Lemma gradeFileS_alone g name d : run (gradeFileS E L G g name) d = VsRun.gradeFile E L opens G g name d.
Proof.
  unfold gradeFileS, VsRun.gradeFile. cbn [alone perform]. destruct (d name) as [f|] eqn:D; [|reflexivity]. destruct (opens d name); [|reflexivity].
  destruct (grade _ _ _ _ _ _) as [l|m| |w]; try reflexivity.
Qed.
Lemma gradientS_alone v fs d : run (gradientS EQ E F T L G v fs) d = VsRun.run EQ E F T L opens G v fs d.
Proof.
  unfold gradientS, VsRun.run. apply then_same; [reflexivity|]. intros v1 d1 _. apply then_same; [reflexivity|]. intros v2 d2 _.
  apply then_same; [apply extractS_alone|]. intros [] d3 _. apply then_same; [apply packS_alone|]. intros [] d4 _. apply gradeFileS_alone.
Qed.
Lemma gradeMainS_alone X args fs d : run (gradeMainS EQ E F X L T G args fs) d = gradeMain EQ E F X L T opens G args fs d.
Proof.
  unfold gradeMainS, gradeMain. destruct (gradeArgs X args) as [c|]; [|reflexivity]. rewrite endedS_alone, gradientS_alone. reflexivity.
Qed.
End Grade.
End Alone.
