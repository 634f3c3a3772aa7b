(** Facts about the C and Fortran interfaces. *)
From Coq Require Import ZArith Bool Ascii String List Lia.
From Verif Require Import Outcome Float Payload Addr Geom ErrorHandler VMQuery SpecHist CApi SpecCApi
  SpecText Stream StreamFacts Fortran.
Import ListNotations.
Open Scope Z_scope.

Section Facts.
Context {DB : Type}.
Notation world := (world DB).

Lemma upd_same (o : nat -> option (qstate DB)) n x : upd o n x n = x.
Proof. unfold upd. rewrite Nat.eqb_refl. reflexivity. Qed.
Lemma upd_other (o : nat -> option (qstate DB)) n x m : m <> n -> upd o n x m = o m.
Proof. intros H. unfold upd. apply Nat.eqb_neq in H. rewrite H. reflexivity. Qed.
Lemma replace_only (w : world) n q fs : only_changed w (replace w n q fs) n q fs.
Proof.
  unfold only_changed, replace; cbn. split; [apply upd_same|].
  split; [intros m H; apply upd_other; exact H | repeat split].
Qed.
Lemma code_status (q : qstate DB) :
  status_code (eh_status (q_err q)) = match eh_status (q_err q) with OK => 0 | WARNING => 1 | ERROR => 2 end.
Proof. destruct (eh_status (q_err q)); reflexivity. Qed.

Lemma c_call_valid c n (w : world) q : w_objs w n = Some q ->
  match step (q, w_files w) (method c) with
  | Val (q', fs') => exists w', c_call c (QueryPtr n) (HandlerPtr n) w = Val (w', code c q') /\
                                only_changed w w' n q' fs'
  | Throw m => c_call c (QueryPtr n) (HandlerPtr n) w = Throw m
  | Abort => c_call c (QueryPtr n) (HandlerPtr n) w = Abort
  | UB y => c_call c (QueryPtr n) (HandlerPtr n) w = UB y
  end.
Proof.
  intros H.
  destruct c; cbn [c_call method step hstep];
    unfold cencalvm_open, cencalvm_close, cencalvm_queryType, cencalvm_queryRes, cencalvm_queryVals,
      cencalvm_filename, cencalvm_cacheSize, cencalvm_filenameExt, cencalvm_cacheSizeExt, cencalvm_squash,
      cencalvm_error_logFilename, cencalvm_error_loggingOn, cencalvm_error_resetStatus, on_query, on_handler,
      quietly, may_fail; rewrite H; cbn [bind].
  all: try (eexists; split; [unfold code; cbn [on_errors]; rewrite <- code_status; reflexivity | apply replace_only]).
  - destruct (open E q) as [q'| | |]; cbn [bind]; try reflexivity.
    eexists; split; [unfold code; cbn [on_errors]; rewrite <- code_status; reflexivity | apply replace_only].
  - destruct (set_queryVals names q) as [q'| | |]; cbn [bind]; try reflexivity.
    eexists; split; [unfold code; cbn [on_errors]; rewrite <- code_status; reflexivity | apply replace_only].
  - destruct (eh_logFilename writable n0 (q_err q) (w_files w)) as [e fs].
    eexists; split; [reflexivity | apply replace_only].
  - destruct (eh_loggingOn writable (negb (on =? 0)) (q_err q) (w_files w)) as [e fs].
    eexists; split; [reflexivity | apply replace_only].
  - eexists; split; [reflexivity | apply replace_only].
Qed.

Lemma query_valid E n (w : world) q vals lon lat elev : w_objs w n = Some q ->
  match query E q (w_files w) vals lon lat elev with
  | Val (q', fs', vs) => exists w',
      cencalvm_query E vals lon lat elev (QueryPtr n) w =
        Val (w', match eh_status (q_err q') with OK => 0 | WARNING => 1 | ERROR => 2 end, Some vs) /\
      only_changed w w' n q' fs'
  | Throw m => cencalvm_query E vals lon lat elev (QueryPtr n) w = Throw m
  | Abort => cencalvm_query E vals lon lat elev (QueryPtr n) w = Abort
  | UB y => cencalvm_query E vals lon lat elev (QueryPtr n) w = UB y
  end.
Proof.
  intros H. unfold cencalvm_query. rewrite H.
  destruct (query E q (w_files w) vals lon lat elev) as [[[q' fs'] vs]| | |]; cbn [bind]; try reflexivity.
  eexists. split; [rewrite <- code_status; reflexivity | apply replace_only].
Qed.

(** ** The state of an object does not depend on the log files *)
Lemma query_files E (q : qstate DB) fs1 fs2 vals lon lat elev :
  match query E q fs1 vals lon lat elev with
  | Val (q', _, vs) => exists fs', query E q fs2 vals lon lat elev = Val (q', fs', vs)
  | Throw m => query E q fs2 vals lon lat elev = Throw m
  | Abort => query E q fs2 vals lon lat elev = Abort
  | UB y => query E q fs2 vals lon lat elev = UB y
  end.
Proof.
  unfold query. destruct vals as [olds|]; [|reflexivity].
  destruct (assert_ _) as [u| | |]; cbn [bind]; try reflexivity.
  destruct (query_body E q lon lat elev) as [[[e p] r]| | |]; cbn [bind]; try reflexivity.
  destruct p as [p|]; [|reflexivity].
  destruct (p_block p =? NODATABLOCK).
  - destruct (copy E q lon lat elev p (q_vals q) olds (eh_warning (nodata_msg E lon lat elev) e) r)
      as [[vs e'']| | |]; cbn [bind]; try reflexivity. eexists; reflexivity.
  - destruct (copy E q lon lat elev p (q_vals q) olds e r) as [[vs e'']| | |]; cbn [bind]; try reflexivity.
    eexists; reflexivity.
Qed.
Lemma hstep_files wr e fs1 fs2 c : fst (hstep wr (e, fs1) c) = fst (hstep wr (e, fs2) c).
Proof.
  destruct c; cbn; try reflexivity.
  - unfold eh_logFilename, open_trunc. destruct (String.eqb n NULLFILE); [reflexivity|].
    destruct (wr n); reflexivity.
  - unfold eh_loggingOn, open_trunc, open_app. destruct (on && negb (String.eqb (eh_logname e) "")).
    + destruct (String.eqb (eh_logname e) NULLFILE); [reflexivity|]. destruct (wr (eh_logname e)); reflexivity.
    + reflexivity.
Qed.
Lemma step_files (q : qstate DB) fs1 fs2 c :
  match step (q, fs1) c with
  | Val (q', _) => exists fs', step (q, fs2) c = Val (q', fs')
  | Throw m => step (q, fs2) c = Throw m
  | Abort => step (q, fs2) c = Abort
  | UB y => step (q, fs2) c = UB y
  end.
Proof.
  destruct c; cbn [step]; try (eexists; reflexivity).
  - destruct (open E q); cbn [bind]; try reflexivity. eexists; reflexivity.
  - destruct (set_queryVals names q); cbn [bind]; try reflexivity. eexists; reflexivity.
  - destruct (geometry g q); cbn [bind]; try reflexivity. eexists; reflexivity.
  - pose proof (hstep_files writable (q_err q) fs1 fs2 c) as H.
    destruct (hstep writable (q_err q, fs1) c) as [e1 f1], (hstep writable (q_err q, fs2) c) as [e2 f2].
    cbn [fst] in H. subst. eexists; reflexivity.
  - pose proof (query_files E q fs1 fs2 vals lon lat elev) as H.
    destruct (query E q fs1 vals lon lat elev) as [[[q' f'] vs]| | |]; cbn [bind];
      [destruct H as (fs' & ->) | rewrite H..]; cbn [bind]; try reflexivity. eexists; reflexivity.
Qed.

(** One call of a program: the result and the new object depend only on the
    object; other objects stay. *)
Lemma p_call_local c n (w w' : world) r : p_call c n w = Val (w', r) ->
  exists q q', w_objs w n = Some q /\ w_objs w' n = Some q' /\
    (forall m, m <> n -> w_objs w' m = w_objs w m) /\
    forall w2, w_objs w2 n = Some q -> exists w2', p_call c n w2 = Val (w2', r) /\ w_objs w2' n = Some q'.
Proof.
  intros H. destruct (w_objs w n) as [q|] eqn:Q.
  2:{ exfalso. destruct c as [c|E vals lon lat elev| |]; cbn [p_call] in H.
      - destruct c; cbn in H; rewrite Q in H; discriminate.
      - unfold cencalvm_query in H. rewrite Q in H. discriminate.
      - cbn in H. rewrite Q in H. discriminate.
      - cbn in H. rewrite Q in H. discriminate. }
  destruct c as [c|E vals lon lat elev| |]; cbn [p_call] in *.
  - pose proof (c_call_valid c n w q Q) as V.
    destruct (step (q, w_files w) (method c)) as [[q' fs']| | |] eqn:S1;
      [destruct V as (w1 & V1 & V2) | rewrite V in H; discriminate..].
    rewrite V1 in H. cbn [bind] in H. injection H as <- <-.
    exists q, q'. split; [reflexivity|]. split; [apply V2|]. split; [apply V2|].
    intros w2 Q2. pose proof (c_call_valid c n w2 q Q2) as V'.
    pose proof (step_files q (w_files w) (w_files w2) (method c)) as F. rewrite S1 in F.
    destruct F as (fs2 & F). rewrite F in V'. destruct V' as (w2' & V3 & V4).
    exists w2'. rewrite V3. split; [reflexivity | apply V4].
  - pose proof (query_valid E n w q vals lon lat elev Q) as V.
    destruct (query E q (w_files w) vals lon lat elev) as [[[q' fs'] vs]| | |] eqn:S1;
      [destruct V as (w1 & V1 & V2) | rewrite V in H; discriminate..].
    rewrite V1 in H. cbn [bind] in H. injection H as <- <-.
    exists q, q'. split; [reflexivity|]. split; [apply V2|]. split; [apply V2|].
    intros w2 Q2. pose proof (query_valid E n w2 q vals lon lat elev Q2) as V'.
    pose proof (query_files E q (w_files w) (w_files w2) vals lon lat elev) as F. rewrite S1 in F.
    destruct F as (fs2 & F). rewrite F in V'. destruct V' as (w2' & V3 & V4).
    exists w2'. rewrite V3. split; [reflexivity | apply V4].
  - unfold cencalvm_error_status in *. rewrite Q in H. cbn [bind] in H. injection H as <- <-.
    exists q, q. split; [reflexivity|]. split; [exact Q|]. split; [reflexivity|].
    intros w2 Q2. exists w2. rewrite Q2. split; reflexivity.
  - unfold cencalvm_error_message in *. rewrite Q in H. cbn [bind] in H. injection H as <- <-.
    exists q, q. split; [reflexivity|]. split; [exact Q|]. split; [reflexivity|].
    intros w2 Q2. exists w2. rewrite Q2. split; reflexivity.
Qed.

Lemma p_run_local p : forall (w w' : world) rs n q, p_run p w = Val (w', rs) -> w_objs w n = Some q ->
  exists q', w_objs w' n = Some q' /\
    forall w2, w_objs w2 n = Some q ->
    exists w2', p_run (of_object n p) w2 = Val (w2', of_object n rs) /\ w_objs w2' n = Some q'.
Proof.
  induction p as [|[m c] p IH]; intros w w' rs n q H Q.
  - cbn in H. injection H as <- <-. exists q. split; [exact Q|]. intros w2 Q2. exists w2. split; [reflexivity | exact Q2].
  - cbn [p_run] in H. apply bind_val in H. destruct H as ([w1 r] & H1 & H).
    apply bind_val in H. destruct H as ([w3 rs'] & H2 & H). injection H as <- <-.
    destruct (p_call_local c m w w1 r H1) as (q0 & q1 & A1 & A2 & A3 & A4).
    unfold of_object. cbn [filter fst]. destruct (Nat.eqb m n) eqn:E.
    + apply Nat.eqb_eq in E. subst m. rewrite Q in A1. injection A1 as <-.
      destruct (IH w1 w3 rs' n q1 H2 A2) as (q' & B1 & B2). exists q'. split; [exact B1|].
      intros w2 Q2. destruct (A4 w2 Q2) as (w2a & C1 & C2). destruct (B2 w2a C2) as (w2b & D1 & D2).
      exists w2b. split; [|exact D2]. cbn [p_run]. rewrite C1. cbn [bind].
      unfold of_object in D1. rewrite D1. reflexivity.
    + apply Nat.eqb_neq in E. apply (IH w1 w3 rs' n q H2). rewrite <- Q. apply A3. congruence.
Qed.
End Facts.

(** ** Fortran strings *)
Lemma c_string_ends s rest : (forall c, In c (list_ascii_of_string s) -> nat_of_ascii c <> 0%nat) ->
  c_string (list_ascii_of_string s ++ ascii_of_nat 0 :: rest) = Some s.
Proof.
  induction s as [|c s IH]; intros H; [reflexivity|]. cbn [list_ascii_of_string app c_string].
  destruct (Nat.eqb (nat_of_ascii c) 0) eqn:E.
  - apply Nat.eqb_eq in E. exfalso. exact (H c (or_introl eq_refl) E).
  - rewrite IH; [reflexivity|]. intros x Hx. apply H. right; exact Hx.
Qed.
Lemma c_string_none mem : (forall c, In c mem -> nat_of_ascii c <> 0%nat) -> c_string mem = None.
Proof.
  induction mem as [|c mem IH]; intros H; [reflexivity|]. cbn [c_string].
  destruct (Nat.eqb (nat_of_ascii c) 0) eqn:E.
  - apply Nat.eqb_eq in E. exfalso. exact (H c (or_introl eq_refl) E).
  - rewrite IH; [reflexivity|]. intros x Hx. apply H. right; exact Hx.
Qed.

Lemma first_word_found b w t rest : blanks b -> word w ->
  (t = ""%string \/ exists c t', t = String c t' /\ blank c) ->
  (forall c, In c (list_ascii_of_string (b ++ w ++ t)) -> nat_of_ascii c <> 0%nat) ->
  first_word (list_ascii_of_string (b ++ w ++ t) ++ ascii_of_nat 0 :: rest) = Val w.
Proof.
  intros Hb Hw Ht Hz. unfold first_word. rewrite c_string_ends by exact Hz.
  change (openText (b ++ w ++ t)) with (fresh (b ++ w ++ t)).
  destruct Ht as [->|(c & t' & -> & Hc)].
  - replace (w ++ "")%string with w by (clear; induction w; cbn; congruence).
    rewrite getWord_last by assumption. reflexivity.
  - assert (L : laid_out [w] (b ++ w ++ String c "")).
    { apply laid_word; try assumption. apply laid_blank. intros x []. }
    destruct (getWord_laid w [] _ t' L) as (t2 & G & _).
    replace (b ++ w ++ String c t')%string with ((b ++ w ++ String c "") ++ t')%string
      by (rewrite !app_assoc_s; reflexivity).
    rewrite G. reflexivity.
Qed.
Lemma first_word_blank b rest : blanks b ->
  first_word (list_ascii_of_string b ++ ascii_of_nat 0 :: rest) = Val ""%string.
Proof.
  intros Hb. unfold first_word. rewrite c_string_ends.
  - change (openText b) with (fresh b). rewrite getWord_none by exact Hb. reflexivity.
  - intros c Hc E. specialize (Hb c Hc). unfold blank in Hb. rewrite E in Hb. cbn in Hb.
    repeat (destruct Hb as [Hb|Hb]; [discriminate|]). exact Hb.
Qed.

Lemma strncpy_length s : forall len, List.length (strncpy s len) = len.
Proof.
  assert (Z : forall k, List.length (strncpy "" k) = k) by (induction k; cbn; congruence).
  induction s as [|c s IH]; [exact Z|]. intros [|len]; cbn; [reflexivity|]. rewrite IH. reflexivity.
Qed.
Lemma strncpy_pad k : strncpy "" k = repeat (ascii_of_nat 0) k.
Proof. induction k as [|k IH]; [reflexivity|]. cbn [strncpy repeat]. rewrite IH. reflexivity. Qed.
Lemma strncpy_spec s : forall len,
  strncpy s len = (firstn len (list_ascii_of_string s) ++ repeat (ascii_of_nat 0) (len - String.length s))%list.
Proof.
  induction s as [|c s IH]; intros len.
  - rewrite firstn_nil, strncpy_pad, Nat.sub_0_r. reflexivity.
  - destruct len as [|len]; [reflexivity|]. cbn [strncpy list_ascii_of_string firstn app String.length Nat.sub].
    rewrite IH. reflexivity.
Qed.
