(** C69: a storage call that fails is not passed over. *)
From Coq Require Import ZArith Bool String Ascii List Lia.
From Verif Require Import Outcome Float Payload Addr AvgEngine Geom Store Averager VMCreator Stream GridIngester
  ErrorHandler VMQuery VsGrader GetOpt QueryApp SpecHist SpecApp SmallApps SpecSmall SmallFacts Steps SpecSteps StepFacts SpecAvg SpecStore SpecFail AvgFail SpecFlawless PropSteps.
From Verif Require VsRun.
Import ListNotations.
Open Scope Z_scope.

(** An exception, or the other outcome *)
Definition orThrow {A} (o o' : outcome A) : Prop := o = o' \/ exists m, o = Throw m.
Lemma orThrow_bind {A B} (m m' : outcome A) (k k' : A -> outcome B) :
  orThrow m m' -> (forall a, orThrow (k a) (k' a)) -> orThrow (bind m k) (bind m' k').
Proof. intros [->|[s ->]] H; [destruct m'; cbn; try (left; reflexivity); apply H | right; exists s; reflexivity]. Qed.
Lemma orThrow_refl {A} (o : outcome A) : orThrow o o. Proof. left; reflexivity. Qed.

Section Gradient.
Context {P S D DB LL : Type}.
Variables (A : arith P S D) (G G' : gstore DB P) (FD : fails_or_does G G').
Lemma mapM_orThrow {X Y} (f g : X -> outcome Y) l : (forall x, orThrow (f x) (g x)) -> orThrow (mapM f l) (mapM g l).
Proof. intros H. induction l as [|x l IH]; cbn [mapM]; [left; reflexivity|]. apply orThrow_bind; [apply H|]. intros y. apply orThrow_bind; [exact IH|]. intros r. left. reflexivity. Qed.
Lemma foldM_orThrow {X Y} (f g : Y -> X -> outcome Y) l : (forall y x, orThrow (f y x) (g y x)) -> forall y, orThrow (foldM f l y) (foldM g l y).
Proof. intros H. induction l as [|x l IH]; intros y; cbn [foldM]; [left; reflexivity|]. apply orThrow_bind; [apply H | exact IH]. Qed.
Lemma pull_orThrow db a : orThrow (pullData G db a) (pullData G' db a).
Proof.
  unfold pullData. apply orThrow_bind; [apply orThrow_refl|]. intros x. destruct (proj1 FD db x) as [->| ->]; [right; eexists; reflexivity | apply orThrow_refl].
Qed.
Lemma push_orThrow db a p : orThrow (pushData G db a p) (pushData G' db a p).
Proof.
  unfold pushData. apply orThrow_bind; [apply orThrow_refl|]. intros x. destruct (proj2 FD db x p) as [->| ->]; [right; eexists; reflexivity | apply orThrow_refl].
Qed.
Lemma line_orThrow d at_ db : orThrow (gradeLine A G d at_ db) (gradeLine A G' d at_ db).
Proof.
  unfold gradeLine. apply orThrow_bind; [apply mapM_orThrow; intros; apply pull_orThrow|]. intros data. apply foldM_orThrow.
  intros y [a [p c]]. destruct c; [apply push_orThrow | apply orThrow_refl].
Qed.
Lemma dirs_orThrow (lonlat : Z -> Z -> outcome LL) locate nl nw nh dv dh db :
  orThrow (gradeDirs A G lonlat locate nl nw nh dv dh db) (gradeDirs A G' lonlat locate nl nw nh dv dh db).
Proof.
  unfold gradeDirs. apply orThrow_bind; [|intros db1; apply orThrow_bind; [|intros db2]].
  - apply foldM_orThrow. intros y x. apply foldM_orThrow. intros y' x'. apply orThrow_bind; [apply orThrow_refl|]. intros ll. apply line_orThrow.
  - apply foldM_orThrow. intros y x. apply foldM_orThrow. intros y' x'. apply line_orThrow.
  - apply foldM_orThrow. intros y x. apply foldM_orThrow. intros y' x'. apply line_orThrow.
Qed.
End Gradient.
Lemma grade_orThrow {DB} (G G' : gstore DB payload) L g closes msg db : fails_or_does G G' ->
  orThrow (grade L g G closes msg db) (grade L g G' true msg db).
Proof.
  intros FD. unfold grade. do 3 (apply orThrow_bind; [apply orThrow_refl | intros ?]). apply orThrow_bind; [apply dirs_orThrow, FD|]. intros db'.
  destruct closes; [apply orThrow_refl | right; exists msg; reflexivity].
Qed.

Lemma averageFrom_flawless R inp : (forall a, rd_get R a = true) -> forall s,
  averageFrom never_fails R s inp = averageAll never_fails s (delivered (rd_adv R) inp).
Proof.
  intros H. induction inp as [|[a p] r IH]; intros s; cbn [averageFrom delivered fst]; [reflexivity|]. rewrite H.
  destruct (rd_adv R a); cbn [averageAll]; destruct (averageOctant never_fails s a p); cbn [bind]; auto.
Qed.
Lemma fill_orThrow st c g adv inp :
  orThrow (fillFrom st (mkReading c g adv) inp) (fillFrom never_fails (mkReading true (fun _ => true) adv) inp).
Proof.
  destruct inp as [|x l]; [left; reflexivity|].
  assert (Q : fillFrom never_fails (mkReading true (fun _ => true) adv) (x :: l) = fillOctants never_fails (delivered adv (x :: l))).
  { unfold fillFrom. cbn [orb rd_init negb never_fails st_begin_ok st_end_ok]. rewrite averageFrom_flawless by reflexivity. cbn [rd_adv].
    destruct x as [a p]. cbn [delivered fst]. destruct (adv a); reflexivity. }
  rewrite Q. destruct (fill_sub st (mkReading c g adv) (x :: l)) as [H|(m & _ & H)]; [discriminate|left; exact H|].
  right. exists m. exact H.
Qed.
Lemma copy_orThrow E n todo : forall done, orThrow (copyRecs E n done todo) (copyRecs (flawless E) n done todo).
Proof.
  induction todo as [|[a p] r IH]; intros done; cbn [copyRecs]; [left; reflexivity|].
  destruct (et_get E n a); cbn [negb]; [|right; eexists; reflexivity].
  destruct (st_append_ok (et_store E) (as_orecs done) a); cbn [negb]; [|right; eexists; reflexivity].
  cbn [flawless et_get negb et_store never_fails st_append_ok et_adv]. destruct (et_adv E n a); [apply IH | left; reflexivity].
Qed.

Section Programs.
Variables (E : etree) (opens : disk -> string -> bool).
Let E' := flawless E.
Let all (_ : disk) (_ : string) := true.
Definition told {A} (p p' : prog A) : Prop :=
  forall d, alone E opens p d = alone E' all p' d \/ exists d1 m, alone E opens p d = (d1, Throw m).
Lemma told_done {A} (o o' : outcome A) : orThrow o o' -> told (Done o) (Done o').
Proof. intros [->|[m ->]] d; cbn [alone]; [left; reflexivity | right; eexists; eexists; reflexivity]. Qed.
Lemma told_same {A} (o : outcome A) : told (Done o) (Done o). Proof. apply told_done, orThrow_refl. Qed.
Lemma told_throw {A} m (p : prog A) : told (throwS m) p.
Proof. intros d. right. eexists; eexists; reflexivity. Qed.
Lemma told_then {A B} (p p' : prog A) (k k' : A -> prog B) : told p p' -> (forall a, told (k a) (k' a)) -> told (thenS p k) (thenS p' k').
Proof.
  intros H K d. rewrite !alone_then. unfold andThen. destruct (H d) as [->|(d1 & m & ->)]; [|right; eexists; eexists; reflexivity].
  destruct (alone E' all p' d) as [d1 [a|m| |w]]; [apply K | left; reflexivity..].
Qed.
Lemma told_change n g : told (changeS n g) (changeS n g). Proof. intros d. left. reflexivity. Qed.
Lemma told_close n : told (closeS n) (closeS n). Proof. intros d. left. reflexivity. Qed.
Lemma told_openRead n msg : told (openReadS n msg) (openReadS n msg).
Proof.
  intros d. unfold openReadS. cbn [alone perform]. destruct (d n) as [f|]; [|left; reflexivity]. cbn [E' flawless et_open].
  destruct (et_open E d n); [left; reflexivity | right; eexists; eexists; reflexivity].
Qed.
Lemma told_openNew n msg : told (openNewS n msg) (openNewS n msg).
Proof.
  intros d. unfold openNewS. cbn [alone perform E' flawless et_create]. destruct (et_create E d n); [left; reflexivity | right; eexists; eexists; reflexivity].
Qed.
Lemma told_schema n : told (registerSchemaS E n) (registerSchemaS E' n).
Proof. unfold registerSchemaS. cbn [E' flawless et_regschema]. destruct (et_regschema E n); [apply told_change | apply told_throw]. Qed.
Lemma told_meta n m : told (setAppMetaS E n m) (setAppMetaS E' n m).
Proof. unfold setAppMetaS. cbn [E' flawless et_setmeta]. destruct (et_setmeta E n m); [apply told_change | apply told_throw]. Qed.
Lemma told_copyMeta n m : told (copyMetaS E n m) (copyMetaS E' n m).
Proof. destruct m; [apply told_meta | apply told_same]. Qed.
Lemma told_records n o : told (recordsS E n o) (recordsS E' n o).
Proof. intros d. left. unfold recordsS. destruct (String.eqb n o); reflexivity. Qed.
Lemma told_average fin fout : told (averageS E fin fout) (averageS E' fin fout).
Proof.
  unfold averageS. apply told_then; [apply told_openRead|]. intros f. destruct (negb _); [apply told_throw|].
  destruct (d_schema f) as [s|]; [|apply told_same]. destruct (negb _); [apply told_throw|].
  apply told_then; [apply told_openNew|]. intros _. apply told_then; [apply told_schema|]. intros _.
  apply told_then; [apply told_copyMeta|]. intros _. apply told_then; [apply told_records|]. intros recs.
  destruct (fill_orThrow (et_store E) (et_cursor E fin) (et_get E fin) (et_adv E fin) recs) as [->|[m ->]].
  - cbn [E' flawless et_store et_adv et_flush et_partial].
    change (mkReading (et_cursor (flawless E) fin) (et_get (flawless E) fin) (et_adv E fin)) with (mkReading true (fun _ : addr => true) (et_adv E fin)).
    destruct (fillFrom never_fails _ recs) as [s0|m| |w]; [|apply told_then; [apply told_change | intros; apply told_throw]|apply told_same..].
    destruct (et_flush E fout); [apply told_then; [apply told_change | intros; apply told_close] | apply told_change].
  - intros d. right. rewrite alone_then. unfold andThen. destruct (alone E opens (changeS fout _) d) as [d1 [[]|m'| |w]] eqn:Q.
    + eexists; eexists; reflexivity.
    + discriminate.
    + discriminate.
    + discriminate.
Qed.
Lemma told_failed {A} n g m (p : prog A) : told (go* _ := changeS n g in throwS m) p.
Proof. intros d. right. eexists; eexists; reflexivity. Qed.
Lemma told_pack packed unpacked : told (packS E packed unpacked) (packS E' packed unpacked).
Proof.
  unfold packS. cbv zeta. apply told_then; [apply told_openRead|]. intros f. apply told_then; [apply told_openNew|]. intros _.
  apply told_then; [apply told_schema|]. intros _. apply told_then; [apply told_copyMeta|]. intros _. apply told_then; [apply told_records|]. intros recs.
  destruct recs as [|x l]; [apply told_throw|]. cbn [orb E' flawless et_cursor negb et_store never_fails st_begin_ok st_end_ok et_close].
  destruct (et_cursor E unpacked); cbn [negb]; [|apply told_throw]. destruct (st_begin_ok (et_store E)); cbn [negb]; [|apply told_throw].
  destruct (negb _); [apply told_same|]. pose proof (copy_orThrow E unpacked (x :: l) []) as CP. fold E' in CP. destruct CP as [->|[m ->]]; [|apply told_failed].
  destruct (copyRecs E' unpacked [] (x :: l)) as [r|m| |w]; [|apply told_failed|apply told_same..].
  destruct (st_end_ok (et_store E)); cbn [negb]; [|apply told_failed]. destruct (et_close E unpacked); cbn [negb]; [|apply told_failed].
  destruct (et_close E packed); cbn [negb]; [|apply told_failed]. apply told_then; [apply told_change | intros; apply told_close].
Qed.
Lemma told_openDB n m : told (openDBS E n m) (openDBS E' n m).
Proof. unfold openDBS. apply told_then; [apply told_openNew|]. intros _. apply told_then; [apply told_schema|]. intros _. exact (told_meta n (createdMeta E m)). Qed.
Lemma told_closeDB n : told (closeDBS E n) (closeDBS E' n).
Proof. unfold closeDBS. cbn [E' flawless et_flush et_partial]. destruct (et_flush E n); [apply told_close | apply told_change]. Qed.
Lemma told_insert L n p lon lat elev res : told (insertS E L n p lon lat elev res) (insertS E' L n p lon lat elev res).
Proof.
  unfold insertS. destruct (level L res); [|apply told_same..]. destruct (lonLatElevToAddr _ _ _ _ _) as [r| | |]; [|apply told_same..].
  intros d. cbn [alone perform]. destruct (d n) as [f|]; cbn [E' flawless et_insert];
    [destruct (et_insert E (d_recs f) (snd r)); [left; reflexivity | right; eexists; eexists; reflexivity] | left; reflexivity].
Qed.
Lemma told_points F L db res n : forall s, told (addPointsS E F L db res n s) (addPointsS E' F L db res n s).
Proof.
  induction n as [|n IH]; intros s; cbn [addPointsS]; [apply told_same|]. destruct (getLine F s) as [s' l]. destruct (negb (good s')); [apply told_throw|].
  destruct (_ && _); [|apply IH]. apply told_then; [apply told_insert | intros _; apply IH].
Qed.
Lemma told_grids F T L db fl : told (addGridsS E F T L db fl) (addGridsS E' F T L db fl).
Proof.
  induction fl as [|f r IH]; cbn [addGridsS]; [apply told_same|]. apply told_then; [|intros _; exact IH]. unfold addGridS. destruct (T f) as [t|]; [|apply told_throw].
  repeat match goal with |- context[getNum ?c ?o ?x] => destruct (getNum c o x) end.
  destruct (differs _ VERTEXAG); [apply told_throw|]. destruct (level L _) as [lev| | |]; [|apply told_same..].
  destruct (edgeLen lev) as [len| | |]; [|apply told_same..]. destruct (differs _ len); [apply told_throw|]. apply told_points.
Qed.
Lemma told_ingest F T L p o t m : told (ingestS E F T L p o t m) (ingestS E' F T L p o t m).
Proof.
  unfold ingestS. destruct (_ || _); [apply told_same|]. destruct (readParams T _) as [fl| | |]; [|apply told_same..].
  apply told_then; [apply told_openDB|]. intros _. apply told_then; [apply told_grids|]. intros _. apply told_then; [apply told_closeDB | intros _; apply told_pack].
Qed.
Section Gradient.
Context {DB : Type}.
Variables (EQ : env DB) (F : numfmt) (T : GridIngester.texts) (L : libm) (G G' : gstore (list (addr * payload)) payload).
Hypotheses (CL : forall db, e_close EQ db = true) (FD : fails_or_does G G').
Lemma told_fold {X Y} (f g : Y -> X -> prog Y) l : (forall y x, told (f y x) (g y x)) -> forall y, told (foldS f l y) (foldS g l y).
Proof. intros H. induction l as [|x l IH]; intros y; cbn [foldS]; [apply told_same|]. apply told_then; [apply H | exact IH]. Qed.
Lemma told_unwinding {A} (q : qstate DB) (p p' : prog A) : told p p' -> told (unwindingS EQ q p) (unwindingS EQ q p').
Proof.
  intros H d. assert (D : destroy EQ q = Val tt) by (unfold destroy; destruct (q_db q), (q_dbExt q); rewrite ?CL; reflexivity).
  rewrite (unwindingS_alone E opens EQ q p (fun d => alone E opens p d)), (unwindingS_alone E' all EQ q p' (fun d => alone E' all p' d)) by reflexivity.
  unfold VsRun.unwinding. rewrite D. destruct (H d) as [->|(d1 & m & ->)]; [left; reflexivity | right; eexists; eexists; reflexivity].
Qed.
Lemma told_extract v fs : told (extractS EQ E F L v fs) (extractS EQ E' F L v fs).
Proof.
  unfold extractS. apply told_then; [apply told_same|]. intros q. apply told_unwinding.
  apply told_then; [apply told_openDB|]. intros _. do 4 (apply told_then; [apply told_same | intros ?]).
  apply told_then; [|intros st; apply told_then; [apply told_closeDB | intros _; apply told_same]].
  apply told_fold. intros st x. apply told_fold. intros st' x'. apply told_then; [apply told_same|]. intros ll. apply told_fold.
  intros [[q1 fs1] vals] h. unfold extractPointS. apply told_then; [apply told_same|]. intros r. apply told_then; [apply told_same|]. intros p.
  apply told_then; [apply told_insert | intros _; apply told_same].
Qed.
Lemma told_gradeFile g name : told (gradeFileS E L G g name) (gradeFileS E' L G' g name).
Proof.
  intros d. unfold gradeFileS. cbn [alone perform]. destruct (d name) as [f|]; [|left; reflexivity]. unfold all.
  destruct (opens d name); [|right; eexists; eexists; reflexivity]. cbn [E' flawless et_close et_error et_partial].
  destruct (grade_orThrow G G' L g (et_close E name) (et_error E) (d_recs f) FD) as [->|[m ->]]; [|right; eexists; eexists; reflexivity].
  destruct (grade L g G' true (et_error E) (d_recs f)); left; reflexivity.
Qed.
Lemma told_gradient v fs : told (gradientS EQ E F T L G v fs) (gradientS EQ E' F T L G' v fs).
Proof.
  unfold gradientS. do 2 (apply told_then; [apply told_same | intros ?]). apply told_then; [apply told_extract|]. intros _.
  apply told_then; [apply told_pack | intros _; apply told_gradeFile].
Qed.
End Gradient.
End Programs.

(** ** C69 *)
(** A program ends as it would with storage that does not fail, or with exit code 1 and a
    message. *)
Theorem C69_told : forall DB (EQ : env DB) E opens F X L T G G' fs j d,
  (forall db, e_close EQ db = true) -> fails_or_does G G' ->
  main_of EQ E opens F X L T G fs j d = main_of EQ (flawless E) (fun _ _ => true) F X L T G' fs j d \/
  exists d1 m, main_of EQ E opens F X L T G fs j d = (d1, Val (1, [Said m])).
Proof.
  intros DB EQ E opens F X L T G G' fs j d CL FD. rewrite <- !main_alone.
  assert (EN : forall A (p p' : prog A), told E opens p p' ->
    alone E opens (endedS p) d = alone (flawless E) (fun _ _ => true) (endedS p') d \/ exists d1 m, alone E opens (endedS p) d = (d1, Val (1, [Said m]))).
  { intros A p p' H. rewrite !endedS_alone. destruct (H d) as [->|(d1 & m & ->)]; [left; reflexivity | right; eexists; eexists; reflexivity]. }
  destruct j as [a|a|a|a]; cbn [calls_of]; [unfold avgMainS | unfold packMainS | unfold genMainS | unfold gradeMainS];
    match goal with |- context[match ?c with Some _ => _ | None => _ end] => destruct c as [c0|]; [|left; reflexivity] end; apply EN.
  - apply told_average.
  - apply told_pack.
  - apply told_ingest.
  - apply told_gradient; assumption.
Qed.
Print Assumptions C69_told.
(** Exit code 0: nothing that failed made a difference. *)
Theorem C69_exit_0 : forall DB (EQ : env DB) E opens F X L T G G' fs j d d1 said,
  (forall db, e_close EQ db = true) -> fails_or_does G G' ->
  main_of EQ E opens F X L T G fs j d = (d1, Val (0, said)) ->
  main_of EQ (flawless E) (fun _ _ => true) F X L T G' fs j d = (d1, Val (0, said)).
Proof.
  intros DB EQ E opens F X L T G G' fs j d d1 said CL FD H.
  destruct (C69_told DB EQ E opens F X L T G G' fs j d CL FD) as [Q|(d2 & m & Q)]; [rewrite <- Q; exact H|].
  rewrite H in Q. apply (f_equal snd) in Q. discriminate Q.
Qed.
Print Assumptions C69_exit_0.

(** The input of the gradient program must close: when it does not, an exception of the
    storage ends in undefined behaviour, because the destructor of the query object uses
    the error handler that it has deleted. *)
From Verif Require Import PropStore PropApp ToyLib ToyGrade ToyGrid PropVsRun.
From Verif Require PropParams PropGrid.
From Verif Require Import SpecQuery AvgFinal.
Open Scope string_scope. Open Scope Z_scope.
Definition grade_job : job := Grade ["-p"; "grade.par"; "-i"; "in.etree"; "-o"; "out.etree"; "-t"; "tmp.etree"].
Definition grade_main (EQ : env contents) (E : etree) (G : gstore (list (addr * payload)) payload) : disk * outcome (Z * list said) :=
  main_of EQ E (fun _ _ => true) toy_fmt app_texts toy2 (PropParams.sample_file grade_text) G (fun _ => None) grade_job (fun _ => None).
(** Storage that cannot insert, and storage that cannot update *)
Definition no_insert : etree :=
  mkEtree (fun _ _ => true) (fun _ _ => true) (fun f => f) (fun _ => true) (fun _ _ => true)
    (fun _ => true) (fun _ _ => true) (fun _ _ => true) simple_storage (fun _ _ => false) (et_before toy_etree)
    (fun _ => true) (fun _ => true) [] [] "error" "Mon Jan  1 00:00:00 2007" "host".
Definition no_update : gstore (list (addr * payload)) payload := mkGstore (gs_search lstore) (fun _ _ _ => None).
Definition not_closing : env contents :=
  mkEnv (e_open (source full_input)) (fun _ => false) (e_search (source full_input)) (e_writable (source full_input))
    (e_sci (source full_input)) (e_gen (source full_input)) (e_straddr (source full_input)).
Theorem C69_not_closing_refuted :
  exists w, snd (grade_main not_closing no_insert lstore) = UB w.
Proof. eexists. vm_compute. reflexivity. Qed.
Print Assumptions C69_not_closing_refuted.
Example C69_example :
  (forall db, e_close (source full_input) db = true) /\ fails_or_does lstore lstore /\ fails_or_does no_update lstore /\
  (exists d1, grade_main (source full_input) toy_etree lstore = (d1, Val (0, []))) /\
  snd (grade_main (source full_input) toy_etree no_update) = Val (1, [Said "Could not update octant in database."]) /\
  snd (grade_main (source full_input) no_insert lstore) = Val (1, [Said "error"]).
Proof.
  split; [reflexivity|]. split; [split; right; reflexivity|]. split; [split; [right; reflexivity | left; reflexivity]|].
  split; [|split; vm_compute; reflexivity].
  assert (Q : snd (grade_main (source full_input) toy_etree lstore) = Val (0, [])) by (vm_compute; reflexivity).
  destruct (grade_main (source full_input) toy_etree lstore) as [d1 o]. exists d1. cbn [snd] in Q. rewrite Q. reflexivity.
Qed.
(** Averaging on storage that fails in the middle *)
Definition full_disk : etree :=
  mkEtree (fun _ _ => true) (fun _ _ => true) (fun f => f) (fun _ => true) (fun _ _ => true)
    (fun _ => true) (fun _ _ => true) (fun _ _ => true)
    (mkStorage true (fun db _ => Nat.ltb (List.length db) 5) (fun _ _ => true) true) (fun _ _ => false) (et_before toy_etree)
    (fun _ => true) (fun _ => true) [] [] "error" "Mon Jan  1 00:00:00 2007" "host".
Example C69_example_average : exists m,
  snd (avgMain full_disk ["-i"; "in"; "-o"; "out"] toy_disk) = Val (1, [Said m]) /\
  snd (avgMain (flawless full_disk) ["-i"; "in"; "-o"; "out"] toy_disk) = Val (0, []).
Proof. eexists. split; vm_compute; reflexivity. Qed.
