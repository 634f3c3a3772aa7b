(** Which files the programs touch, and what follows for killed and for simultaneous
    processes. *)
From Coq Require Import ZArith Bool String List Lia.
From Verif Require Import Outcome Float Payload Addr AvgEngine Geom Store Averager VMCreator Stream GridIngester
  ErrorHandler VMQuery VsGrader GetOpt QueryApp SmallApps Steps StepFacts SpecSteps.
From Verif Require VsRun PropVsRun.
Import ListNotations.
Open Scope Z_scope.

(** ** Discipline: every written file is created first, and other files are only read *)
Section Discipline.
Variables (Rd Wr : string -> Prop).
Definition created_by {R} (c : call R) (C : list string) : list string :=
  match c with CNew n => n :: C | _ => C end.
Definition allowed {R} (C : list string) (c : call R) : Prop :=
  match c with
  | COpen n | CFetch n => In n C \/ Rd n
  | CNew n => Wr n
  | CEdit n | CChange n _ | CInsert n _ _ | CClose n => In n C
  end.
Fixpoint tidy {A} (C : list string) (p : prog A) : Prop :=
  match p with
  | Done _ => True
  | Step c k => allowed C c /\ forall r, tidy (created_by c C) (k r)
  end.
Lemma tidy_mono {A} (p : prog A) : forall C C', incl C C' -> tidy C p -> tidy C' p.
Proof.
  induction p as [o|R c k IH]; intros C C' I; [trivial|]. cbn [tidy]. intros [H1 H2]. split.
  - destruct c; cbn [allowed] in *; auto; destruct H1; auto.
  - intros r. apply (IH r (created_by c C)); [|apply H2]. destruct c; cbn [created_by]; auto. intros x [->|Hx]; [left; reflexivity | right; auto].
Qed.
(** [D]: files certainly created when [p] returns a value *)
Fixpoint makes {A} (p : prog A) (C D : list string) : Prop :=
  match p with
  | Done (Val _) => incl D C
  | Done _ => True
  | Step c k => forall r, makes (k r) (created_by c C) D
  end.
Lemma makes_own {A} (p : prog A) : forall C, makes p C C.
Proof.
  assert (M : forall (q : prog A) C C' D, incl C C' -> makes q C D -> makes q C' D).
  { induction q as [[a|m| |w]|R c k IH]; intros C C' D I; cbn [makes]; auto.
    - intros H x Hx. auto.
    - intros H r. apply (IH r (created_by c C)); [|apply H]. destruct c; cbn [created_by]; auto. intros x [->|Hx]; [left; reflexivity | right; auto]. }
  assert (S : forall (q : prog A) C D D', incl D' D -> makes q C D -> makes q C D').
  { induction q as [[a|m| |w]|R c k IH]; intros C D D' I; cbn [makes]; auto.
    - intros H x Hx. auto.
    - intros H r. apply (IH r _ D); auto. }
  induction p as [[a|m| |w]|R c k IH]; intros C; cbn [makes]; auto; [apply incl_refl|].
  intros r. apply (S _ _ (created_by c C)); [|apply IH]. destruct c; cbn [created_by]; first [apply incl_refl | apply incl_tl, incl_refl].
Qed.
Lemma tidy_then {A B} (p : prog A) (k : A -> prog B) D : forall C, tidy C p -> makes p C D -> (forall a, tidy D (k a)) -> tidy C (thenS p k).
Proof.
  induction p as [[a|m| |w]|R c q IH]; intros C T M K; cbn [thenS]; try exact I.
  - apply (tidy_mono _ D); [exact M | apply K].
  - cbn [tidy] in *. destruct T as [T1 T2]. split; [exact T1|]. intros r. apply IH; [apply T2 | apply M | exact K].
Qed.
Lemma tidy_then' {A B} (p : prog A) (k : A -> prog B) C : tidy C p -> (forall a, tidy C (k a)) -> tidy C (thenS p k).
Proof. intros T K. apply (tidy_then _ _ C); auto. apply makes_own. Qed.
Lemma tidy_ended {A} (p : prog A) : forall C, tidy C p -> tidy C (endedS p).
Proof. induction p as [[a|m| |w]|R c q IH]; intros C T; cbn [endedS tidy] in *; auto. destruct T as [T1 T2]. split; auto. Qed.
End Discipline.

(** Programs and their files *)
Section Files.
Variables (Rd Wr : string -> Prop) (E : etree).
Notation tidy := (tidy Rd Wr).
Lemma tidy_openRead C n msg : In n C \/ Rd n -> tidy C (openReadS n msg).
Proof. intros H. split; [exact H|]. intros [f|]; exact I. Qed.
Lemma tidy_openNew C n msg : Wr n -> tidy C (openNewS n msg).
Proof. intros H. split; [exact H|]. intros [|]; exact I. Qed.
Lemma makes_openNew C n msg : makes (openNewS n msg) C (n :: C).
Proof. intros [|]; cbn [created_by makes okS throwS]; [apply incl_refl | exact I]. Qed.
Lemma tidy_change C n g : In n C -> tidy C (changeS n g).
Proof. intros H. split; [exact H|]. intros r. exact I. Qed.
Lemma tidy_close C n : In n C -> tidy C (closeS n).
Proof. intros H. split; [exact H|]. intros r. exact I. Qed.
Lemma tidy_schema C n : In n C -> tidy C (registerSchemaS E n).
Proof. intros H. unfold registerSchemaS. destruct (et_regschema E n); [apply tidy_change, H | exact I]. Qed.
Lemma tidy_meta C n m : In n C -> tidy C (setAppMetaS E n m).
Proof. intros H. unfold setAppMetaS. destruct (et_setmeta E n m); [apply tidy_change, H | exact I]. Qed.
Lemma tidy_copyMeta C n m : In n C -> tidy C (copyMetaS E n m).
Proof. intros H. unfold copyMetaS. destruct m; [apply tidy_meta, H | exact I]. Qed.
Lemma tidy_records C n other : In n C \/ Rd n -> tidy C (recordsS E n other).
Proof. intros H. unfold recordsS. destruct (String.eqb n other); [exact I|]. split; [exact H|]. intros r. exact I. Qed.
Lemma tidy_then_throw {A} C n g m : In n C -> tidy C (thenS (changeS n g) (fun _ => @throwS A m)).
Proof. intros H. split; [exact H|]. intros r. exact I. Qed.
Lemma tidy_change_close C n g : In n C -> tidy C (thenS (changeS n g) (fun _ => closeS n)).
Proof. intros H. split; [exact H|]. intros r. split; [exact H|]. intros r'. exact I. Qed.
Lemma tidy_average C fin fout : In fin C \/ Rd fin -> Wr fout -> tidy C (averageS E fin fout).
Proof.
  intros R W. unfold averageS. apply tidy_then'; [apply tidy_openRead, R|]. intros f.
  destruct (negb _); [exact I|]. destruct (d_schema f) as [s|]; [|exact I]. destruct (negb _); [exact I|].
  apply (tidy_then _ _ _ _ (fout :: C)); [apply tidy_openNew, W | apply makes_openNew|]. intros _.
  assert (IN : In fout (fout :: C)) by (left; reflexivity). assert (R' : In fin (fout :: C) \/ Rd fin) by (destruct R; [left; right; assumption | right; assumption]).
  apply tidy_then'; [apply tidy_schema, IN|]. intros _. apply tidy_then'; [apply tidy_copyMeta, IN|]. intros _.
  apply tidy_then'; [apply tidy_records, R'|]. intros recs. destruct (fillFrom _ _ _); try exact I.
  - destruct (et_flush E fout); [apply tidy_change_close, IN | apply tidy_change, IN].
  - apply tidy_then_throw, IN.
Qed.
Lemma tidy_pack C packed unpacked : In unpacked C \/ Rd unpacked -> Wr packed -> tidy C (packS E packed unpacked).
Proof.
  intros R W. unfold packS. apply tidy_then'; [apply tidy_openRead, R|]. intros f.
  apply (tidy_then _ _ _ _ (packed :: C)); [apply tidy_openNew, W | apply makes_openNew|]. intros _.
  assert (IN : In packed (packed :: C)) by (left; reflexivity). assert (R' : In unpacked (packed :: C) \/ Rd unpacked) by (destruct R; [left; right; assumption | right; assumption]).
  apply tidy_then'; [apply tidy_schema, IN|]. intros _. apply tidy_then'; [apply tidy_copyMeta, IN|]. intros _.
  apply tidy_then'; [apply tidy_records, R'|]. intros recs. destruct (_ || _); [exact I|]. destruct (negb _); [exact I|]. destruct (negb _); [exact I|].
  destruct (copyRecs _ _ _ _); try exact I; [|apply tidy_then_throw, IN].
  do 3 (destruct (negb _); [apply tidy_then_throw, IN|]). apply tidy_change_close, IN.
Qed.
Lemma makes_then {A B} (p : prog A) (k : A -> prog B) D D' : forall C, makes p C D -> (forall a C', incl D C' -> makes (k a) C' D') -> makes (thenS p k) C D'.
Proof.
  induction p as [[a|m| |w]|R c q IH]; intros C M K; cbn [thenS makes] in *; auto.
Qed.
Lemma makes_sub {A} (p : prog A) D D' : incl D' D -> forall C, incl D C -> makes p C D'.
Proof.
  intros I. induction p as [[a|m| |w]|R c q IH]; intros C H; cbn [makes]; auto.
  - intros x Hx. auto.
  - intros r. apply IH. destruct c; cbn [created_by]; auto. apply incl_tl, H.
Qed.
Lemma tidy_openDB C name desc : Wr name -> tidy C (openDBS E name desc).
Proof.
  intros W. unfold openDBS. apply (tidy_then _ _ _ _ (name :: C)); [apply tidy_openNew, W | apply makes_openNew|]. intros _.
  assert (IN : In name (name :: C)) by (left; reflexivity). apply tidy_then'; [apply tidy_schema, IN|]. intros _. apply tidy_meta, IN.
Qed.
Lemma makes_openDB C name desc : makes (openDBS E name desc) C (name :: C).
Proof. unfold openDBS. apply (makes_then _ _ (name :: C)); [apply makes_openNew|]. intros _ C' H. apply (makes_sub _ (name :: C)); auto using incl_refl. Qed.
Lemma tidy_closeDB C name : In name C -> tidy C (closeDBS E name).
Proof. intros H. unfold closeDBS. destruct (et_flush E name); [apply tidy_close, H | apply tidy_change, H]. Qed.
Lemma tidy_insert C L name p lon lat elev res : In name C -> tidy C (insertS E L name p lon lat elev res).
Proof.
  intros H. unfold insertS. destruct (level L res); try exact I. destruct (lonLatElevToAddr _ _ _ _ _); try exact I.
  split; [exact H|]. intros [|]; exact I.
Qed.
Lemma tidy_addPoints C F L db res n : In db C -> forall s, tidy C (addPointsS E F L db res n s).
Proof.
  intros H. induction n as [|n IH]; intros s; cbn [addPointsS]; [exact I|]. destruct (getLine F s) as [s' l]. destruct (negb (good s')); [exact I|].
  destruct (_ && _); [|apply IH]. apply tidy_then'; [apply tidy_insert, H|]. intros _. apply IH.
Qed.
Lemma tidy_addGrid C F T L db file : In db C -> tidy C (addGridS E F T L db file).
Proof.
  intros H. unfold addGridS. destruct (T file) as [t|]; [|exact I].
  repeat match goal with |- context[getNum ?c ?o ?x] => destruct (getNum c o x) end.
  destruct (differs _ VERTEXAG); [exact I|]. destruct (level L _) as [lev| | |]; [|exact I..].
  destruct (edgeLen lev) as [len| | |]; [|exact I..]. destruct (differs _ len); [exact I|]. apply tidy_addPoints, H.
Qed.
Lemma tidy_addGrids C F T L db files : In db C -> tidy C (addGridsS E F T L db files).
Proof.
  intros H. induction files as [|f r IH]; cbn [addGridsS]; [exact I|]. apply tidy_then'; [apply tidy_addGrid, H|]. intros _. apply IH.
Qed.
Lemma tidy_ingest C F T L params out tmp desc : Wr tmp -> Wr out -> tidy C (ingestS E F T L params out tmp desc).
Proof.
  intros W1 W2. unfold ingestS. destruct (_ || _); [exact I|]. destruct (readParams _ _) as [fl| | |]; try exact I.
  apply (tidy_then _ _ _ _ (tmp :: C)); [apply tidy_openDB, W1 | apply makes_openDB|]. intros _.
  assert (IN : In tmp (tmp :: C)) by (left; reflexivity).
  apply tidy_then'; [apply tidy_addGrids, IN|]. intros _. apply tidy_then'; [apply tidy_closeDB, IN|]. intros _. apply tidy_pack; [left; exact IN | exact W2].
Qed.
Section Grade.
Context {DB : Type}.
Variables (EQ : env DB) (F : numfmt) (T : GridIngester.texts) (L : libm) (G : gstore (list (addr * payload)) payload).
Lemma tidy_fold {X Y} C (f : Y -> X -> prog Y) l : (forall y x, tidy C (f y x)) -> forall y, tidy C (foldS f l y).
Proof. intros H. induction l as [|x l IH]; intros y; cbn [foldS]; [exact I|]. apply tidy_then'; [apply H | intros a; apply IH]. Qed.
Lemma tidy_unwinding {A} (q : qstate DB) (p : prog A) : forall C, tidy C p -> tidy C (unwindingS EQ q p).
Proof. induction p as [[a|m| |w]|R c k IH]; intros C H; cbn [unwindingS StepRuns.tidy] in *; auto. destruct H as [H1 H2]. split; auto. Qed.
Lemma tidy_done {A} C (o : outcome A) : tidy C (Done o).
Proof. exact I. Qed.
Lemma makes_unwinding {A} (q : qstate DB) (p : prog A) D : forall C, makes p C D -> makes (unwindingS EQ q p) C D.
Proof.
  induction p as [[a|m| |w]|R c k IH]; intros C H; cbn [unwindingS makes] in *; auto. destruct (destroy EQ q); exact I || (intros x []) || exact I.
Qed.
Lemma tidy_extract C v fs : Wr (VsRun.vg_tmp v) -> tidy C (extractS EQ E F L v fs).
Proof.
  intros W. unfold extractS. apply tidy_then'; [exact I|]. intros q. apply tidy_unwinding.
  apply (tidy_then _ _ _ _ (VsRun.vg_tmp v :: C)); [apply tidy_openDB, W | apply makes_openDB|]. intros _.
  assert (IN : In (VsRun.vg_tmp v) (VsRun.vg_tmp v :: C)) by (left; reflexivity).
  do 4 (apply tidy_then'; [exact I | intros ?]). apply tidy_then'.
  - apply tidy_fold. intros y x. apply tidy_fold. intros y' x'. apply tidy_then'; [exact I|]. intros ll. apply tidy_fold. intros [[q3 f3] vals] i.
    unfold extractPointS. do 2 (apply tidy_then'; [exact I | intros ?]). apply tidy_then'; [apply tidy_insert, IN|]. intros _. exact I.
  - intros st. apply tidy_then'; [apply tidy_closeDB, IN|]. intros _. exact I.
Qed.
Lemma makes_extract C v fs : makes (extractS EQ E F L v fs) C (VsRun.vg_tmp v :: C).
Proof.
  unfold extractS. apply (makes_then _ _ C); [apply makes_own|]. intros q C' I1. apply makes_unwinding.
  apply (makes_then _ _ (VsRun.vg_tmp v :: C')); [apply makes_openDB|]. intros _ C2 I2. apply (makes_sub _ (VsRun.vg_tmp v :: C')); [|exact I2].
  intros x [->|Hx]; [left; reflexivity | right; auto].
Qed.
Lemma tidy_gradeFile C g name : In name C -> tidy C (gradeFileS E L G g name).
Proof.
  intros H. split; [exact H|]. intros [f|]; [|exact I]. destruct (grade _ _ _ _ _ _); try exact I; [apply tidy_change_close, H | apply tidy_then_throw, H].
Qed.
Lemma makes_pack C packed unpacked : makes (packS E packed unpacked) C (packed :: C).
Proof.
  unfold packS. apply (makes_then _ _ C); [apply makes_own|]. intros f C' I1.
  apply (makes_then _ _ (packed :: C')); [apply makes_openNew|]. intros _ C2 I2. apply (makes_sub _ (packed :: C')); [|exact I2].
  intros x [->|Hx]; [left; reflexivity | right; auto].
Qed.
Lemma tidy_gradient C v fs : Wr (VsRun.vg_tmp v) -> Wr (VsRun.vg_out v) -> tidy C (gradientS EQ E F T L G v fs).
Proof.
  intros W1 W2. unfold gradientS. destruct (VsRun.readParams F T v) as [v1| | |] eqn:RP; try exact I. cbn [thenS].
  pose proof (PropVsRun.readParams_names _ _ _ _ RP) as Nm. unfold PropVsRun.names in Nm. injection Nm as _ Eo Et _.
  unfold VsRun.initialize. destruct (project L _ _) as [[x y]| | |]; try exact I. cbn [bind thenS].
  set (v2 := VsRun.set_g v1 _).
  apply (tidy_then _ _ _ _ (VsRun.vg_tmp v2 :: C)); [apply tidy_extract; cbn; rewrite Et; exact W1 | apply makes_extract|]. intros _.
  apply (tidy_then _ _ _ _ (VsRun.vg_out v2 :: VsRun.vg_tmp v2 :: C)); [apply tidy_pack; [left; left; reflexivity | cbn; rewrite Eo; exact W2] | apply makes_pack|]. intros _.
  apply tidy_gradeFile. left. reflexivity.
Qed.
End Grade.
End Files.

(** ** Calls on files that agree *)
Section Machine.
Variables (E : etree) (opens : disk -> string -> bool).
Hypothesis LO : local_open E opens.
Notation perform := (perform E opens).
Notation alone := (alone E opens).

Lemma put_same d n f : put d n f n = f.
Proof. unfold put. rewrite String.eqb_refl. reflexivity. Qed.
Lemma put_else d n f m : m <> n -> put d n f m = d m.
Proof. intros H. unfold put. apply String.eqb_neq in H. rewrite H. reflexivity. Qed.
Lemma put_agree (P : string -> Prop) e d n f : (forall m, P m -> e m = d m) -> forall m, P m -> put e n f m = put d n f m.
Proof. intros H m Hm. unfold put. destruct (String.eqb m n); auto. Qed.

(** What a call changes *)
Definition target {R} (c : call R) : string :=
  match c with COpen n | CNew n | CEdit n | CFetch n | CChange n _ | CInsert n _ _ | CClose n => n end.
Lemma perform_else {R} (c : call R) d m : m <> target c -> fst (perform c d) m = d m.
Proof.
  destruct c; cbn [target Steps.perform fst]; intros N; try reflexivity.
  - destruct (et_create E d n); cbn [fst]; apply put_else, N.
  - apply put_else, N.
  - destruct (d n) as [f|]; [|reflexivity]. destruct (et_insert E (d_recs f) a); [apply put_else, N | reflexivity].
Qed.
Lemma perform_reads {R} (c : call R) d : (match c with COpen _ | CFetch _ => True | _ => False end) -> fst (perform c d) = d.
Proof. destruct c; intros H; try destruct H; reflexivity. Qed.
(** The same call on two states that agree on its file and in which a creation does the same *)
Lemma perform_agree {R} (c : call R) (P : string -> Prop) e d : P (target c) -> (forall n, P n -> e n = d n) ->
  (match c with CNew n => et_create E e n = et_create E d n | _ => True end) ->
  snd (perform c e) = snd (perform c d) /\ forall n, P n -> fst (perform c e) n = fst (perform c d) n.
Proof.
  intros HT A HC. destruct c as [n|n|n|n|n g|n a p|n]; cbn [target] in HT; cbn [Steps.perform] in *.
  - rewrite (A n HT). destruct (LO e d n (A n HT)) as [-> _]. split; [reflexivity | exact A].
  - rewrite HC. destruct (et_create E d n); cbn [fst snd]; (split; [reflexivity|]); [apply put_agree, A|]. rewrite (A n HT). apply put_agree, A.
  - rewrite (A n HT). destruct (LO e d n (A n HT)) as [_ ->]. split; [reflexivity | exact A].
  - rewrite (A n HT). split; [reflexivity | exact A].
  - rewrite (A n HT). split; [reflexivity | apply put_agree, A].
  - rewrite (A n HT). destruct (d n) as [f|]; [|split; [reflexivity | exact A]]. destruct (et_insert E (d_recs f) a); cbn [fst snd]; (split; [reflexivity|]); [apply put_agree, A | exact A].
  - split; [reflexivity | exact A].
Qed.

Section One.
Variables (Rd Wr : string -> Prop).
Hypothesis CR : forall n, Wr n -> creatable E n.
Hypothesis RW : forall n, Rd n -> ~ Wr n.
Lemma allowed_target {R} C (c : call R) : (forall n, In n C -> Wr n) -> allowed Rd Wr C c -> Rd (target c) \/ Wr (target c).
Proof. intros I. destruct c; cbn [allowed target]; intros H; try (right; auto; fail); destruct H; auto. Qed.
Lemma created_Wr {R} C (c : call R) : (forall n, In n C -> Wr n) -> allowed Rd Wr C c -> forall n, In n (created_by c C) -> Wr n.
Proof. intros I. destruct c; cbn [allowed created_by]; intros H m Hm; auto. destruct Hm as [<-|Hm]; auto. Qed.
(** A killed program *)
Lemma killed_confined {A} (p : prog A) : forall C W d d', tidy Rd Wr C p -> (forall n, In n C -> Wr n) -> (forall n, In n W -> Wr n) ->
  killed E opens W p d d' -> forall n, ~ Wr n -> d' n = d n.
Proof.
  induction p as [o|R c k IH]; intros C W d d' T HC HW K n Hn; cbn [killed] in K.
  - destruct K as [K|[]]. apply K. intros H. auto.
  - destruct K as [K|K]; [apply K; intros H; auto|]. destruct (perform c d) as [d1 r] eqn:P. destruct T as [T1 T2].
    transitivity (d1 n).
    + apply (IH r (created_by c C) (writing c r W)) with (d := d1) (d' := d'); auto; [apply created_Wr; auto|].
      intros m Hm. destruct c; cbn [writing allowed] in *; auto.
      * destruct Hm as [<-|Hm]; auto.
      * destruct r; auto. destruct Hm as [<-|Hm]; auto.
      * apply in_remove in Hm. destruct Hm. auto.
    + replace d1 with (fst (perform c d)) by (rewrite P; reflexivity).
      destruct (string_dec n (target c)) as [->|N]; [|apply perform_else, N].
      destruct c; cbn [allowed target] in *; try (exfalso; auto; fail); reflexivity.
Qed.
Lemma alone_agree {A} (p : prog A) : forall C d e, tidy Rd Wr C p -> (forall n, In n C -> Wr n) -> (forall n, e n = d n) ->
  same_end (alone p e) (alone p d).
Proof.
  induction p as [o|R c k IH]; intros C d e T HC H; cbn [Steps.alone]; [split; [reflexivity | exact H]|]. destruct T as [T1 T2].
  destruct (perform_agree c (fun _ => True) e d I (fun n _ => H n)) as [Q1 Q2].
  { destruct c; try exact I. cbn [allowed] in T1. rewrite !(CR _ T1). reflexivity. }
  destruct (perform c e) as [e1 r]. destruct (perform c d) as [d1 r']. cbn [fst snd] in *. subst r'.
  apply (IH r (created_by c C)); auto. apply created_Wr; auto.
Qed.
(** Running again: [e] is the second run, at the same place as the first run [d] that was
    killed later with [d']. *)
Lemma again {A} (p : prog A) : forall C W d d' e, tidy Rd Wr C p -> (forall n, In n C -> Wr n) -> incl W C ->
  killed E opens W p d d' -> (forall n, In n C -> e n = d n) -> (forall n, ~ In n C -> e n = d' n) ->
  same_end (alone p e) (alone p d).
Proof.
  induction p as [o|R c k IH]; intros C W d d' e T HC HW K H1 H2.
  - cbn [killed] in K. destruct K as [K|[]]. split; [reflexivity|]. cbn [Steps.alone fst]. intros n.
    destruct (in_dec string_dec n C) as [J|J]; [auto|]. rewrite (H2 n J). apply K. intros X. auto.
  - pose proof (killed_confined _ C W d d' T HC (fun n J => HC n (HW n J)) K) as CF.
    cbn [killed] in K. destruct K as [K|K].
    { apply (alone_agree _ C); auto. intros n. destruct (in_dec string_dec n C) as [J|J]; [auto|]. rewrite (H2 n J). apply K. intros X. auto. }
    cbn [Steps.alone]. destruct T as [T1 T2].
    assert (RD : forall n, In n C \/ Rd n -> e n = d n).
    { intros n [J|J]; [auto|]. destruct (in_dec string_dec n C) as [Q|Q]; [auto|]. rewrite (H2 n Q). apply CF. apply RW, J. }
    assert (X : snd (perform c e) = snd (perform c d) /\ (forall n, In n (created_by c C) -> fst (perform c e) n = fst (perform c d) n)).
    { destruct c as [n|n|n|n|n g|n a p0|n]; cbn [allowed] in T1; cbn [created_by];
        try (match goal with |- snd (Steps.perform _ _ ?cc e) = _ /\ _ =>
               destruct (perform_agree cc (fun m => In m C \/ Rd m) e d) as [Q1 Q2];
               [cbn [target]; first [exact T1 | left; exact T1] | exact RD | exact I | split; [exact Q1 | intros m Hm; apply Q2; left; exact Hm]] end).
      cbn [Steps.perform]. rewrite !(CR _ T1). cbn [fst snd]. split; [reflexivity|]. intros m Hm. destruct (string_dec m n) as [->|N].
      - rewrite !put_same. reflexivity.
      - rewrite !put_else by exact N. destruct Hm as [J|J]; [congruence | auto]. }
    assert (PE : forall n, ~ In n (created_by c C) -> fst (perform c e) n = e n).
    { intros n J. destruct (string_dec n (target c)) as [->|N]; [|apply perform_else, N].
      destruct c; cbn [allowed target created_by] in *; try (exfalso; auto; fail); try reflexivity. destruct J. left. reflexivity. }
    destruct (perform c e) as [e1 r]. destruct (perform c d) as [d1 r']. cbn [fst snd] in *. destruct X as [-> X].
    apply (IH r' (created_by c C) (writing c r' W) d1 d'); auto.
    + apply created_Wr; auto.
    + destruct c; cbn [writing created_by allowed] in *; auto.
      * intros m [<-|Hm]; [left; reflexivity | right; auto].
      * destruct r' as [f|]; auto. intros m [<-|Hm]; auto.
      * intros m Hm. apply in_remove in Hm. destruct Hm. auto.
    + intros n J. assert (NC : ~ In n C) by (intros Q; apply J; destruct c; cbn [created_by]; auto; right; exact Q).
      rewrite <- (H2 n NC). apply PE, J.
Qed.
End One.

(** ** Several processes *)
Hypothesis LC : local_create E.
Lemma nth_middle_error {X} (ps qs : list X) x : nth_error (ps ++ x :: qs) (List.length ps) = Some x.
Proof. rewrite nth_error_app2 by lia. rewrite Nat.sub_diag. reflexivity. Qed.
Lemma nth_other_error {X} (ps qs : list X) x y i : i <> List.length ps -> nth_error (ps ++ x :: qs) i = nth_error (ps ++ y :: qs) i.
Proof.
  intros N. destruct (Nat.lt_ge_cases i (List.length ps)) as [H|H]; [rewrite !nth_error_app1 by exact H; reflexivity|].
  rewrite !nth_error_app2 by exact H. destruct (i - List.length ps)%nat eqn:Q; [lia | reflexivity].
Qed.
Lemma together_alone {A} (ps : list (prog A)) d d' os : together E opens ps d d' os ->
  forall (Rd Wr : nat -> string -> Prop) (C : nat -> list string) (solo : nat -> disk),
  (forall i j n, i <> j -> (i < List.length ps)%nat -> (j < List.length ps)%nat -> Wr i n -> ~ Wr j n /\ ~ Rd j n) ->
  (forall i p, nth_error ps i = Some p -> tidy (Rd i) (Wr i) (C i) p /\ (forall n, In n (C i) -> Wr i n) /\
     (forall n, Rd i n \/ Wr i n -> solo i n = d n)) ->
  List.length os = List.length ps /\
  (forall i p, nth_error ps i = Some p -> nth_error os i = Some (snd (alone p (solo i))) /\
     forall n, Wr i n -> d' n = fst (alone p (solo i)) n) /\
  (forall n, (forall i, (i < List.length ps)%nat -> ~ Wr i n) -> d' n = d n).
Proof.
  induction 1 as [os d|ps qs R c k d d1 r d' os P K IH]; intros Rd Wr C solo SEP INV.
  - rewrite map_length. split; [reflexivity|]. split; [|reflexivity]. intros i p Hi. destruct (INV i p Hi) as (_ & _ & AG).
    rewrite nth_error_map in Hi. destruct (nth_error os i) as [o|] eqn:Q; [|discriminate]. injection Hi as <-. cbn [Steps.alone fst snd].
    split; [reflexivity|]. intros n Hn. symmetry. apply AG. right. exact Hn.
  - set (i := List.length ps) in *. assert (LEN : List.length (ps ++ k r :: qs) = List.length (ps ++ Step c k :: qs)) by (rewrite !app_length; reflexivity).
    assert (Li : (i < List.length (ps ++ Step c k :: qs))%nat) by (rewrite app_length; cbn [List.length]; unfold i; lia).
    destruct (INV i _ (nth_middle_error ps qs (Step c k))) as ([T1 T2] & HC & AG).
    assert (TG : Rd i (target c) \/ Wr i (target c)) by exact (allowed_target (Rd i) (Wr i) (C i) c HC T1).
    destruct (perform_agree c (fun n => Rd i n \/ Wr i n) (solo i) d TG AG) as [Q1 Q2].
    { destruct c; try exact I. apply LC, AG. exact TG. }
    rewrite P in Q1, Q2. cbn [fst snd] in Q1, Q2.
    assert (OTH : forall n, ~ Wr i n -> d1 n = d n).
    { intros n Hn. replace d1 with (fst (perform c d)) by (rewrite P; reflexivity).
      destruct (string_dec n (target c)) as [->|N]; [|apply perform_else, N].
      destruct c; cbn [allowed target] in *; try (exfalso; auto; fail); reflexivity. }
    specialize (IH Rd Wr (fun j => if Nat.eqb j i then created_by c (C i) else C j) (fun j => if Nat.eqb j i then fst (perform c (solo i)) else solo j)).
    destruct IH as (L1 & L2 & L3).
    + intros a b n. rewrite LEN. apply SEP.
    + intros j p Hj. destruct (Nat.eqb_spec j i) as [->|N].
      * unfold i in Hj at 1. rewrite nth_middle_error in Hj. injection Hj as <-. split; [apply T2|]. split; [apply (created_Wr (Rd i)); auto|]. exact Q2.
      * rewrite (nth_other_error ps qs _ (Step c k) j N) in Hj. destruct (INV j p Hj) as (J1 & J2 & J3). split; [exact J1|]. split; [exact J2|].
        assert (Lj : (j < List.length (ps ++ Step c k :: qs))%nat) by (apply nth_error_Some; congruence).
        intros n Hn. rewrite (J3 n Hn). symmetry. apply OTH. intros Wn. destruct (SEP i j n (not_eq_sym N) Li Lj Wn) as [S1 S2]. destruct Hn; auto.
    + rewrite LEN in L1, L3. split; [exact L1|]. split.
      * intros j p Hj. destruct (Nat.eqb_spec j i) as [->|N].
        -- unfold i in Hj at 1. rewrite nth_middle_error in Hj. injection Hj as <-.
           destruct (L2 i (k r) (nth_middle_error ps qs (k r))) as [M1 M2]. rewrite Nat.eqb_refl in M1, M2.
           cbn [Steps.alone]. destruct (perform c (solo i)) as [s1 r1]. cbn [fst snd] in *. subst r1. split; [exact M1 | exact M2].
        -- rewrite (nth_other_error ps qs _ (k r) j N) in Hj. destruct (L2 j p Hj) as [M1 M2].
           apply Nat.eqb_neq in N. rewrite N in M1, M2. split; [exact M1 | exact M2].
      * intros n Hn. rewrite (L3 n Hn). apply OTH. apply Hn, Li.
Qed.
(** They always come to an end. *)
Lemma together_append {A} (p : prog A) os : forall qs d, 
  (forall o e, exists d' os', together E opens (map Done os ++ Done o :: qs) e d' os') -> 
  exists d' os', together E opens (map Done os ++ p :: qs) d d' os'.
Proof.
  induction p as [o|R c k IH]; intros qs d H; [apply H|]. destruct (perform c d) as [d1 r] eqn:P. destruct (IH r qs d1 H) as (d' & os' & K).
  exists d', os'. eapply together_step; [exact P | exact K].
Qed.
Lemma together_ends {A} (ps : list (prog A)) : forall os d, exists d' os', together E opens (map Done os ++ ps) d d' os'.
Proof.
  induction ps as [|p ps IH]; intros os d.
  - exists d, os. rewrite app_nil_r. apply together_end.
  - apply together_append. intros o e. destruct (IH (os ++ [o])%list e) as (d' & os' & K). rewrite map_app, <- app_assoc in K. exists d', os'. exact K.
Qed.
End Machine.

(** ** Killed in the second part of a program *)
Lemma killed_then E opens {A B} (p : prog A) (k : A -> prog B) : forall W d d', killed E opens W (thenS p k) d d' ->
  killed E opens W p d d' \/ exists d1 a, alone E opens p d = (d1, Val a) /\ killed E opens (held E opens W p d) (k a) d1 d'.
Proof.
  induction p as [[a|m| |w]|R c q IH]; intros W d d' K; cbn [thenS] in K.
  - right. exists d, a. split; [reflexivity | exact K].
  - left. exact K.
  - left. exact K.
  - left. exact K.
  - cbn [killed] in K. destruct K as [K|K]; [left; left; exact K|]. cbn [killed alone held]. destruct (perform E opens c d) as [d1 r].
    destruct (IH r _ _ _ K) as [K'|K']; [left; right; exact K' | right; exact K'].
Qed.
Lemma held_then E opens {A B} (p : prog A) (k : A -> prog B) : forall W d d1 a, alone E opens p d = (d1, Val a) ->
  held E opens W (thenS p k) d = held E opens (held E opens W p d) (k a) d1.
Proof.
  induction p as [[x|m| |w]|R c q IH]; intros W d d1 a H; try discriminate.
  - injection H as <- <-. reflexivity.
  - cbn [thenS held alone] in *. destruct (perform E opens c d) as [d2 r]. apply IH, H.
Qed.
Lemma killed_ended E opens {A} (p : prog A) : forall W d d', killed E opens W (endedS p) d d' <-> killed E opens W p d d'.
Proof.
  induction p as [[x|m| |w]|R c q IH]; intros W d d'; try reflexivity. cbn [endedS killed]. destruct (perform E opens c d) as [d2 r]. rewrite (IH r). reflexivity.
Qed.
