(** C84 for programs in C: the functions of the C interface cannot tell a packed database
    from the one it was made of. *)
From Coq Require Import ZArith Bool Lia String List.
From Verif Require Import Outcome Float Payload Addr Geom ErrorHandler VMQuery SpecQuery SpecHist
  Store VMCreator SpecStore CApi SpecSame PropStore PropSame.
Import ListNotations.
Open Scope Z_scope.

(** ** Programs *)
(** What a program in C can call, on any handle whatever: null, of the wrong kind, destroyed
    or never made. *)
Inductive c_does :=
| DCreate (g : libm) | DDestroy (h : ptr) | DOpen (h : ptr) | DClose (h : ptr)
| DType (n : Z) (h : ptr) | DRes (r : f64) (h : ptr) | DVals (names : option (list string)) (h : ptr)
| DName (n : string) (h : ptr) | DCache (s : Z) (h : ptr) | DNameExt (n : string) (h : ptr) | DCacheExt (s : Z) (h : ptr)
| DSquash (flag : Z) (limit : f64) (h : ptr)
| DQuery (vals : option (list f64)) (lon lat elev : f64) (h : ptr)
| DHandler (h : ptr) | DLogFile (n : string) (h : ptr) | DLogging (on : Z) (h : ptr) | DReset (h : ptr)
| DStatus (h : ptr) | DMessage (h : ptr).
(** What it gets back. *)
Inductive c_gets := GPtr (h : ptr) | GCode (z : Z) | GValues (z : Z) (vs : option (list f64)) | GText (s : option string).

Definition giving {DB A} (f : A -> c_gets) (o : outcome (world DB * A)) : outcome (world DB * c_gets) :=
  match o with Val (w, a) => Val (w, f a) | Throw m => Throw m | Abort => Abort | UB why => UB why end.
Definition c_play {DB} (E : env DB) (a : c_does) (w : world DB) : outcome (world DB * c_gets) :=
  match a with
  | DCreate g => giving GPtr (Val (cencalvm_createQuery g w))
  | DDestroy h => giving GCode (cencalvm_destroyQuery E h w)
  | DOpen h => giving GCode (cencalvm_open E h w)
  | DClose h => giving GCode (cencalvm_close E h w)
  | DType n h => giving GCode (cencalvm_queryType n h w)
  | DRes r h => giving GCode (cencalvm_queryRes r h w)
  | DVals names h => giving GCode (cencalvm_queryVals names h w)
  | DName n h => giving GCode (cencalvm_filename n h w)
  | DCache s h => giving GCode (cencalvm_cacheSize s h w)
  | DNameExt n h => giving GCode (cencalvm_filenameExt n h w)
  | DCacheExt s h => giving GCode (cencalvm_cacheSizeExt s h w)
  | DSquash f l h => giving GCode (cencalvm_squash f l h w)
  | DQuery vals lon lat elev h =>
      match cencalvm_query E vals lon lat elev h w with
      | Val (w', z, vs) => Val (w', GValues z vs) | Throw m => Throw m | Abort => Abort | UB why => UB why end
  | DHandler h => giving GPtr (cencalvm_errorHandler h w)
  | DLogFile n h => giving GCode (cencalvm_error_logFilename (e_writable E) n h w)
  | DLogging on h => giving GCode (cencalvm_error_loggingOn (e_writable E) on h w)
  | DReset h => giving GCode (cencalvm_error_resetStatus h w)
  | DStatus h => giving GCode (cencalvm_error_status h w)
  | DMessage h => giving GText (cencalvm_error_message h w)
  end.
Fixpoint c_plays {DB} (E : env DB) (l : list c_does) (w : world DB) : outcome (world DB * list c_gets) :=
  match l with
  | [] => Val (w, [])
  | a :: l => match c_play E a w with
              | Val (w1, r) => match c_plays E l w1 with
                               | Val (w2, rs) => Val (w2, r :: rs)
                               | Throw m => Throw m | Abort => Abort | UB why => UB why end
              | Throw m => Throw m | Abort => Abort | UB why => UB why end
  end.
(** A program that starts without query objects: all results, the log files and the lines on
    standard error, if nothing goes wrong; else what goes wrong. *)
Definition c_session {DB} (E : env DB) (fs : files) (l : list c_does) : outcome (list c_gets * files * list string) :=
  match c_plays E l (mkWorld (fun _ => None) 0%nat fs []) with
  | Val (w, rs) => Val (rs, w_files w, w_cerr w)
  | Throw m => Throw m | Abort => Abort | UB why => UB why end.

(** ** Equivalent worlds *)
Section Two.
Context {DB1 DB2 : Type} (E1 : env DB1) (E2 : env DB2).
Hypothesis TX : same_texts E1 E2.
Hypothesis OP : forall n c, match e_open E1 n c, e_open E2 n c with
  | Some d1, Some d2 => same_database E1 E2 d1 d2 | None, None => True | _, _ => False end.

Definition objR (o1 : option (qstate DB1)) (o2 : option (qstate DB2)) : Prop :=
  match o1, o2 with Some q1, Some q2 => twin E1 E2 q1 q2 | None, None => True | _, _ => False end.
Definition worldR (w1 : world DB1) (w2 : world DB2) : Prop :=
  (forall n, objR (w_objs w1 n) (w_objs w2 n)) /\ w_next w1 = w_next w2 /\ w_files w1 = w_files w2 /\ w_cerr w1 = w_cerr w2.
Definition afterR {A} (x : world DB1 * A) (y : world DB2 * A) : Prop := worldR (fst x) (fst y) /\ snd x = snd y.

Lemma upd_same o1 o2 n x1 x2 : (forall m, objR (o1 m) (o2 m)) -> objR x1 x2 -> forall m, objR (upd o1 n x1 m) (upd o2 n x2 m).
Proof. intros H X m. unfold upd. destruct (Nat.eqb m n); auto. Qed.
Lemma complain_same m w1 w2 : worldR w1 w2 -> worldR (complain m w1) (complain m w2).
Proof. intros (A & B & C & D). split; [exact A|]. split; [exact B|]. split; [exact C|]. cbn. rewrite D. reflexivity. Qed.
Lemma replace_same w1 w2 n q1 q2 fs : worldR w1 w2 -> twin E1 E2 q1 q2 -> worldR (replace w1 n q1 fs) (replace w2 n q2 fs).
Proof. intros (A & B & C & D) T. split; [apply upd_same; [exact A | exact T]|]. split; [exact B|]. split; [reflexivity | exact D]. Qed.

Lemma giving_same {A} (f : A -> c_gets) o1 o2 : outR afterR o1 o2 -> outR afterR (giving f o1) (giving f o2).
Proof.
  destruct o1 as [[w1 a]| | |], o2 as [[w2 b]| | |]; cbn [outR giving]; auto; try contradiction.
  intros [W Q]. cbn [fst snd] in W, Q. subst b. split; [exact W | reflexivity].
Qed.
Lemma on_query_same what m1 m2 h w1 w2 : worldR w1 w2 ->
  (forall q1 q2 fs, twin E1 E2 q1 q2 -> outR (stR E1 E2) (m1 q1 fs) (m2 q2 fs)) ->
  outR afterR (on_query what m1 h w1) (on_query what m2 h w2).
Proof.
  intros W M. pose proof W as (A & B & C & D). destruct h as [|n|n]; cbn [on_query outR].
  - split; [apply complain_same, W | reflexivity].
  - specialize (A n). destruct (w_objs w1 n) as [q1|], (w_objs w2 n) as [q2|]; cbn [objR] in A; try contradiction; [|reflexivity].
    rewrite C. specialize (M q1 q2 (w_files w2) A).
    destruct (m1 q1 (w_files w2)) as [[q1' f1]| | |], (m2 q2 (w_files w2)) as [[q2' f2]| | |]; cbn [outR bind] in *; try contradiction; auto.
    destruct M as [T F]. cbn [fst snd] in T, F. subst f2. split; [apply replace_same; assumption|]. cbn [snd]. rewrite (tw_err _ _ _ _ T). reflexivity.
  - reflexivity.
Qed.
Lemma quietly_same f1 f2 : (forall q1 q2, twin E1 E2 q1 q2 -> twin E1 E2 (f1 q1) (f2 q2)) ->
  forall q1 q2 fs, twin E1 E2 q1 q2 -> outR (stR E1 E2) (quietly f1 q1 fs) (quietly f2 q2 fs).
Proof. intros H q1 q2 fs T. split; [apply H, T | reflexivity]. Qed.
Lemma may_fail_same f1 f2 : (forall q1 q2, twin E1 E2 q1 q2 -> outR (twin E1 E2) (f1 q1) (f2 q2)) ->
  forall q1 q2 fs, twin E1 E2 q1 q2 -> outR (stR E1 E2) (may_fail f1 q1 fs) (may_fail f2 q2 fs).
Proof.
  intros H q1 q2 fs T. specialize (H q1 q2 T). unfold may_fail.
  destruct (f1 q1), (f2 q2); cbn [outR bind] in *; try contradiction; auto. split; [exact H | reflexivity].
Qed.
Lemma on_handler_same what m1 m2 h w1 w2 : worldR w1 w2 -> (forall e fs, m1 e fs = m2 e fs) ->
  outR afterR (on_handler what m1 h w1) (on_handler what m2 h w2).
Proof.
  intros W M. pose proof W as (A & B & C & D). destruct h as [|n|n]; cbn [on_handler outR].
  - split; [apply complain_same, W | reflexivity].
  - reflexivity.
  - specialize (A n). destruct (w_objs w1 n) as [q1|], (w_objs w2 n) as [q2|]; cbn [objR] in A; try contradiction; [|reflexivity].
    rewrite C, M, (tw_err _ _ _ _ A). destruct (m2 (q_err q2) (w_files w2)) as [e fs].
    split; [apply replace_same; [exact W | apply twin_err, A] | reflexivity].
Qed.
Lemma destroy_same q1 q2 : twin E1 E2 q1 q2 -> destroy E1 q1 = destroy E2 q2.
Proof.
  intros []. unfold destroy. unfold optR in *.
  assert (C : forall o1 o2, match o1, o2 with Some d1, Some d2 => same_database E1 E2 d1 d2 | None, None => True | _, _ => False end ->
    match o1 with Some d => e_close E1 d | None => true end = match o2 with Some d => e_close E2 d | None => true end).
  { intros [d1|] [d2|] H; try contradiction; [apply H | reflexivity]. }
  rewrite (C _ _ tw_db), (C _ _ tw_ext). reflexivity.
Qed.

(** A setting is a step of a script. *)
Lemma by_step a f1 f2 : (forall q fs, step (q, fs) (done_in E1 a) = Val (f1 q, fs)) -> (forall q fs, step (q, fs) (done_in E2 a) = Val (f2 q, fs)) ->
  forall q1 q2, twin E1 E2 q1 q2 -> twin E1 E2 (f1 q1) (f2 q2).
Proof.
  intros H1 H2 q1 q2 T. pose proof (step_same E1 E2 TX OP a q1 q2 (fun _ => None) T) as S. rewrite H1, H2 in S. exact (proj1 S).
Qed.

Lemma play_same a w1 w2 : worldR w1 w2 -> outR afterR (c_play E1 a w1) (c_play E2 a w2).
Proof.
  intros W. pose proof W as (A & B & C & D). pose proof TX as (WR & _).
  destruct a as [g|h|h|h|n h|r h|names h|n h|s h|n h|s h|f l h|vals lon lat elev h|h|n h|on h|h|h|h]; cbn [c_play]; try apply giving_same.
  - unfold cencalvm_createQuery. rewrite B. split; [|reflexivity]. split; [|auto]. cbn [fst w_objs]. apply upd_same; [exact A|]. constructor; cbn; auto.
  - unfold cencalvm_destroyQuery. destruct h as [|n|n]; cbn [outR]; [split; auto| |reflexivity].
    pose proof (A n) as An. destruct (w_objs w1 n) as [q1|], (w_objs w2 n) as [q2|]; cbn [objR] in An; try contradiction; [|reflexivity].
    rewrite (destroy_same q1 q2 An). destruct (destroy E2 q2); cbn [bind outR]; auto. split; [|reflexivity]. split; [|auto]. cbn [fst w_objs]. apply upd_same; [exact A | exact I].
  - apply on_query_same; [exact W|]. apply may_fail_same. apply (open_same E1 E2 OP).
  - apply on_query_same; [exact W|]. apply quietly_same. apply close_same.
  - apply on_query_same; [exact W|]. apply quietly_same. apply (by_step (AQueryType n)); reflexivity.
  - apply on_query_same; [exact W|]. apply quietly_same. apply (by_step (AQueryRes r)); reflexivity.
  - apply on_query_same; [exact W|]. apply may_fail_same. intros q1 q2 T.
    pose proof (step_same E1 E2 TX OP (AQueryVals names) q1 q2 (fun _ => None) T) as S. cbn [done_in step] in S.
    destruct (set_queryVals names q1), (set_queryVals names q2); cbn [bind outR] in *; try contradiction; auto. exact (proj1 S).
  - apply on_query_same; [exact W|]. apply quietly_same. apply (by_step (AFilename n)); reflexivity.
  - apply on_query_same; [exact W|]. apply quietly_same. apply (by_step (ACacheSize s)); reflexivity.
  - apply on_query_same; [exact W|]. apply quietly_same. apply (by_step (AFilenameExt n)); reflexivity.
  - apply on_query_same; [exact W|]. apply quietly_same. apply (by_step (ACacheSizeExt s)); reflexivity.
  - apply on_query_same; [exact W|]. apply quietly_same. apply (by_step (ASquash (negb (f =? 0)) l)); reflexivity.
  - unfold cencalvm_query. destruct h as [|n|n]; cbn [outR]; [split; [apply complain_same, W | reflexivity]| |reflexivity].
    pose proof (A n) as An. destruct (w_objs w1 n) as [q1|], (w_objs w2 n) as [q2|]; cbn [objR] in An; try contradiction; [|reflexivity].
    rewrite C. pose proof (query_same E1 E2 TX q1 q2 (w_files w2) vals lon lat elev An) as Q.
    destruct (query E1 q1 (w_files w2) vals lon lat elev) as [[[q1' f1] v1]| | |], (query E2 q2 (w_files w2) vals lon lat elev) as [[[q2' f2] v2]| | |];
      cbn [outR bind resR] in *; try contradiction; auto.
    destruct Q as (T & -> & ->). split; [apply replace_same; assumption|]. cbn [snd]. rewrite (tw_err _ _ _ _ T). reflexivity.
  - unfold cencalvm_errorHandler. destruct h as [|n|n]; cbn [outR]; [split; [apply complain_same, W | reflexivity]| |reflexivity].
    pose proof (A n) as An. destruct (w_objs w1 n) as [q1|], (w_objs w2 n) as [q2|]; cbn [objR] in An; try contradiction; [|reflexivity]. split; auto.
  - apply on_handler_same; [exact W|]. intros e fs. unfold eh_logFilename, open_trunc. rewrite WR. reflexivity.
  - apply on_handler_same; [exact W|]. intros e fs. unfold eh_loggingOn, open_app. rewrite WR. reflexivity.
  - apply on_handler_same; [exact W|]. reflexivity.
  - unfold cencalvm_error_status. destruct h as [|n|n]; cbn [outR]; [split; [apply complain_same, W | reflexivity]|reflexivity|].
    pose proof (A n) as An. destruct (w_objs w1 n) as [q1|], (w_objs w2 n) as [q2|]; cbn [objR] in An; try contradiction; [|reflexivity].
    split; [exact W|]. cbn [snd]. rewrite (tw_err _ _ _ _ An). reflexivity.
  - unfold cencalvm_error_message. destruct h as [|n|n]; cbn [outR]; [split; [apply complain_same, W | reflexivity]|reflexivity|].
    pose proof (A n) as An. destruct (w_objs w1 n) as [q1|], (w_objs w2 n) as [q2|]; cbn [objR] in An; try contradiction; [|reflexivity].
    split; [exact W|]. cbn [snd]. rewrite (tw_err _ _ _ _ An). reflexivity.
Qed.
Lemma plays_same l : forall w1 w2, worldR w1 w2 -> outR afterR (c_plays E1 l w1) (c_plays E2 l w2).
Proof.
  induction l as [|a l IH]; intros w1 w2 W; cbn [c_plays]; [split; [exact W | reflexivity]|].
  pose proof (play_same a w1 w2 W) as P. destruct (c_play E1 a w1) as [[x1 r1]| | |], (c_play E2 a w2) as [[x2 r2]| | |]; cbn [outR] in *; try contradiction; auto.
  destruct P as [P1 P2]. cbn [fst snd] in P1, P2. subst r2. specialize (IH x1 x2 P1).
  destruct (c_plays E1 l x1) as [[y1 s1]| | |], (c_plays E2 l x2) as [[y2 s2]| | |]; cbn [outR] in *; try contradiction; auto.
  destruct IH as [I1 I2]. cbn [fst snd] in I1, I2. subst s2. split; [exact I1 | reflexivity].
Qed.
End Two.

(** C84, C interface: every program, with any number of query objects and any handles, gets
    the same results from files with the same records, leaves the same log files and prints
    the same lines; if something goes wrong, the same thing goes wrong. *)
Theorem C84_c_programs : forall DB1 (E1 : env DB1) DB2 (E2 : env DB2) fs program,
  same_world E1 E2 -> c_session E1 fs program = c_session E2 fs program.
Proof.
  intros DB1 E1 DB2 E2 fs l [TX OP]. unfold c_session.
  assert (W : worldR E1 E2 (mkWorld (fun _ => None) 0%nat fs []) (mkWorld (fun _ => None) 0%nat fs [])) by (split; [intros n; exact I | auto]).
  pose proof (plays_same E1 E2 TX OP l _ _ W) as P.
  destruct (c_plays E1 l _) as [[w1 r1]| | |], (c_plays E2 l _) as [[w2 r2]| | |]; cbn [outR] in P; try contradiction; [|congruence..].
  destruct P as [(_ & _ & F & C) R]. cbn [fst snd] in *. rewrite F, C, R. reflexivity.
Qed.
Print Assumptions C84_c_programs.

(** In particular a packed database can be put in the place of the unpacked one. *)
Theorem C84_packed_c : forall E packed unpacked d d' DB1 (E1 : env DB1) DB2 (E2 : env DB2) fs program,
  packed <> unpacked -> reads_on E unpacked -> packDB E packed unpacked d = (d', Val tt) ->
  of_disk E1 d -> of_disk E2 (put_in_place d unpacked d' packed) -> same_failures E1 E2 -> same_texts E1 E2 ->
  c_session E1 fs program = c_session E2 fs program.
Proof.
  intros E p u d d' DB1 E1 DB2 E2 fs l N R P D1 D2 SF TX.
  apply C84_c_programs. exact (packed_world E p u d d' _ E1 _ E2 N R P D1 D2 SF TX).
Qed.
Print Assumptions C84_packed_c.

(** ** Example: two query objects on the packed and the unpacked database of C84_example *)
From Verif Require PropQuery.
From Verif Require Import ToyLib ToyDb.
Open Scope string_scope. Open Scope Z_scope.
Definition c_visit : list c_does :=
  [DCreate toy; DCreate toy; DName "model" (QueryPtr 0); DOpen (QueryPtr 0); DName "none" (QueryPtr 1); DOpen (QueryPtr 1);
   DType 2 (QueryPtr 0); DRes (i2f64 1) (QueryPtr 0); DVals (Some ["Vs"; "Vp"]) (QueryPtr 0); DHandler (QueryPtr 0);
   DQuery (Some [f_zero; f_zero]) toy_x toy_y elev_a (QueryPtr 0); DStatus (HandlerPtr 0); DReset (HandlerPtr 0); DStatus (HandlerPtr 0);
   DOpen Null; DClose (QueryPtr 0); DDestroy (QueryPtr 0)].
Example C84_c_example :
  c_session (forth shop) PropQuery.no_files c_visit = c_session (back (put_in_place shop "model" packed_shop "packed")) PropQuery.no_files c_visit.
Proof.
  apply (C84_packed_c works "packed" "model" shop packed_shop);
    [discriminate|intros ?; reflexivity|exact shop_packed|exact shop_disk|exact packed_disk|exact shop_failures|repeat split].
Qed.
Example C84_c_example_values :
  match c_session (forth shop) PropQuery.no_files c_visit with
  | Val (rs, _, err) => rs = [GPtr (QueryPtr 0); GPtr (QueryPtr 1); GCode 0; GCode 0; GCode 0; GCode 2; GCode 0; GCode 0; GCode 0; GPtr (HandlerPtr 0);
      GValues 1 (Some [widen (p_vs v_leaf); widen (p_vp v_leaf)]); GCode 1; GCode 0; GCode 0; GCode 2; GCode 0; GCode 0] /\
      err = ["Null handle for query manager in call to open()."]
  | _ => False
  end.
Proof. vm_compute. split; reflexivity. Qed.
(** Using a destroyed object goes wrong in both. *)
Example C84_c_example_dangling : exists why,
  c_session (forth shop) PropQuery.no_files (c_visit ++ [DClose (QueryPtr 0)])%list = UB why.
Proof. eexists. vm_compute. reflexivity. Qed.
