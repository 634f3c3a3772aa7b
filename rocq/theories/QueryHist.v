(** Proofs about histories of calls. *)
From Coq Require Import ZArith Bool Lia String Ascii List.
From Verif Require Import Outcome Float Payload Addr SpecOct SpecGeom Geom ErrorHandler VMQuery SpecQuery SpecHist
  QueryFacts QueryProof.
Import ListNotations.
Open Scope Z_scope.

(** ** Last value given *)
Lemma last_given_snoc {C A} (f : C -> option A) h c a :
  last_given f (h ++ [c]) a = match f c with Some x => x | None => last_given f h a end.
Proof.
  unfold last_given. rewrite rev_app_distr. cbn [rev app flat_map].
  destruct (f c); reflexivity.
Qed.
Lemma last_given_app {C A} (f : C -> option A) h2 : forall h1 a,
  last_given f (h1 ++ h2) a = last_given f h2 (last_given f h1 a).
Proof.
  induction h2 as [|c h2 IH] using rev_ind; intros h1 a.
  - rewrite app_nil_r. reflexivity.
  - rewrite app_assoc, !last_given_snoc, IH. reflexivity.
Qed.
Lemma last_given_cons {C A} (f : C -> option A) c h a :
  last_given f (c :: h) a = last_given f h (match f c with Some x => x | None => a end).
Proof.
  change (c :: h) with ([c] ++ h)%list. rewrite last_given_app. f_equal. apply (last_given_snoc f [] c a).
Qed.

(** ** Error handler *)
Lemma handler_last writable h : forall s,
  (eh_status (fst (hrun writable h s)), eh_msg (fst (hrun writable h s))) =
    last_given report h (eh_status (fst s), eh_msg (fst s)).
Proof.
  induction h as [|c h IH]; intros [e fs]; [reflexivity|].
  cbn [hrun fold_left]. fold (hrun writable h (hstep writable (e, fs) c)).
  rewrite IH, last_given_cons. f_equal.
  destruct c; cbn [hstep report fst]; try reflexivity.
  - unfold eh_logFilename. destruct (open_trunc writable n fs). reflexivity.
  - unfold eh_loggingOn. destruct (if (_ && _)%bool then _ else _). reflexivity.
Qed.

Lemma string_app_nil s : (s ++ "")%string = s.
Proof. induction s; cbn; [reflexivity | now rewrite IHs]. Qed.
Lemma string_app_assoc a b c : ((a ++ b) ++ c)%string = (a ++ b ++ c)%string.
Proof. induction a; cbn; [reflexivity | now rewrite IHa]. Qed.
Lemma fset_same fs n c : fset fs n c n = Some c.
Proof. unfold fset. now rewrite String.eqb_refl. Qed.
Lemma fset_other fs n c m : m <> n -> fset fs n c m = fs m.
Proof. intros H. unfold fset. apply String.eqb_neq in H. now rewrite H. Qed.

Section Log.
Variable writable : string -> bool.
Variable n : string.
Hypothesis Hw : writable n = true.
Hypothesis Hn : n <> NULLFILE.
Hypothesis He : n <> ""%string.

Definition log_state (on : bool) (e : errh) : Prop :=
  eh_logname e = n /\ eh_stream e = Some (if on then n else NULLFILE).

Lemma log_suffix h : Forall keeps_file h -> forall on e fs c, log_state on e -> fs n = Some c ->
  (snd (hrun writable h (e, fs))) n = Some (c ++ logged on h)%string /\
  forall m, m <> n -> (snd (hrun writable h (e, fs))) m = fs m.
Proof.
  apply String.eqb_neq in Hn, He.
  induction 1 as [|x h Hk Hh IH]; intros on e fs c [L1 L2] Hc.
  - cbn. rewrite string_app_nil. auto.
  - cbn [hrun fold_left]. fold (hrun writable h (hstep writable (e, fs) x)).
    destruct x; cbn [hstep logged]; try contradiction.
    + apply IH; [split; assumption | exact Hc].
    + apply IH; [split; assumption | exact Hc].
    + apply IH; [split; assumption | exact Hc].
    + unfold eh_loggingOn. rewrite L1, He. destruct on0; cbn [andb negb].
      * unfold open_app. rewrite Hn, Hw.
        assert (Hc' : fset fs n (content fs n) n = Some c) by (rewrite fset_same; unfold content; now rewrite Hc).
        destruct (IH true (mkErrh (eh_status e) (eh_msg e) n (Some n)) (fset fs n (content fs n)) c) as [I1 I2];
          [split; reflexivity | exact Hc' |].
        split; [exact I1|]. intros m Hm. eapply eq_trans; [exact (I2 m Hm) | apply fset_other, Hm].
      * unfold open_trunc. rewrite String.eqb_refl. apply IH; [split; reflexivity | exact Hc].
    + unfold eh_log. rewrite L2. destruct on.
      * rewrite Hn. destruct (IH true e (fset fs n (content fs n ++ m)) (c ++ m)%string) as [I1 I2];
          [split; assumption | rewrite fset_same; unfold content; now rewrite Hc |].
        split; [eapply eq_trans; [exact I1 | f_equal; apply string_app_assoc]|].
        intros k Hk'. eapply eq_trans; [exact (I2 k Hk') | apply fset_other, Hk'].
      * rewrite String.eqb_refl. apply IH; [split; assumption | exact Hc].
Qed.

Lemma log_contents h0 h s : Forall keeps_file h ->
  (snd (hrun writable (h0 ++ HLogFile n :: h) s)) n = Some (logged true h) /\
  forall m, m <> n -> (snd (hrun writable (h0 ++ HLogFile n :: h) s)) m = snd (hrun writable h0 s) m.
Proof.
  intros Hk. unfold hrun at 1 2. rewrite fold_left_app. cbn [fold_left].
  fold (hrun writable h0 s). destruct (hrun writable h0 s) as [e fs]. cbn [hstep snd].
  unfold eh_logFilename, open_trunc. pose proof Hn as Hn'. apply String.eqb_neq in Hn'. rewrite Hn', Hw.
  destruct (log_suffix h Hk true (mkErrh (eh_status e) (eh_msg e) n (Some n)) (fset fs n "") "") as [I1 I2];
    [split; reflexivity | apply fset_same |].
  split; [exact I1|]. intros m Hm. rewrite <- (fset_other fs n "" m Hm). apply I2, Hm.
Qed.
End Log.

(** Before any log file is named, nothing is written. *)
Lemma log_none writable h e fs : Forall keeps_file h -> eh_logname e = NULLFILE -> eh_stream e = Some NULLFILE ->
  snd (hrun writable h (e, fs)) = fs.
Proof.
  intros Hk. revert e fs. induction Hk as [|x h Hx Hh IH]; intros e fs L1 L2; [reflexivity|].
  cbn [hrun fold_left]. fold (hrun writable h (hstep writable (e, fs) x)).
  destruct x; cbn [hstep]; try contradiction; try (apply IH; assumption).
  - unfold eh_loggingOn. rewrite L1. destruct on; cbn [andb negb String.eqb NULLFILE].
    + unfold open_app. cbn. apply IH; reflexivity.
    + unfold open_trunc. cbn. apply IH; reflexivity.
  - unfold eh_log. rewrite L2. cbn. apply IH; assumption.
Qed.

(** ** Settings *)
Section Settings.
Context {DB : Type}.
Notation state := (qstate DB * files)%type.

Lemma query_with_err E (q : qstate DB) fs vals lon lat elev q' fs' vs :
  query E q fs vals lon lat elev = Val (q', fs', vs) -> exists e, q' = with_err q e.
Proof.
  unfold query. destruct vals as [olds|]; [|discriminate]. intros H.
  apply bind_val in H. destruct H as (_ & _ & H). apply bind_val in H. destruct H as ([[e p] r] & _ & H).
  destruct p as [p|]; [|discriminate].
  destruct (if p_block p =? NODATABLOCK then _ else _) as [e1 fs1].
  apply bind_val in H. destruct H as ([vs1 e2] & _ & H). injection H as <- _ _. eauto.
Qed.

Lemma geometry_sets g (q q' : qstate DB) : geometry g q = Val q' ->
  exists g', g = Some g' /\ q' = mkQ (q_res q) (q_limit q) (q_db q) (q_dbExt q) (q_vals q) g' (q_err q)
      (q_name q) (q_nameExt q) (q_type q) (q_cache q) (q_cacheExt q) (q_squash q).
Proof. destruct g as [g|]; [|discriminate]. intros H. injection H as <-. eauto. Qed.

Lemma open_sets E (q q' : qstate DB) : open E q = Val q' -> exists d x e, q' = set_db q d x e.
Proof.
  unfold open. intros H. apply bind_val in H. destruct H as ([d e1] & _ & H).
  apply bind_val in H. destruct H as ([x e2] & _ & H). injection H as <-. eauto.
Qed.

Lemma queryVals_sets names (q q' : qstate DB) : set_queryVals names q = Val q' ->
  (names = Some [] /\ q' = q) \/ exists n ns e, names = Some (n :: ns) /\
    q' = mkQ (q_res q) (q_limit q) (q_db q) (q_dbExt q) (map selector (n :: ns)) (q_geom q) e
        (q_name q) (q_nameExt q) (q_type q) (q_cache q) (q_cacheExt q) (q_squash q).
Proof.
  destruct names as [[|n ns]|]; [| |discriminate].
  - intros H. injection H as <-. left. auto.
  - intros H. injection H as <-. right. exists n, ns. eexists. split; reflexivity.
Qed.

(** A projection of the state that each call changes only as [f] says. *)
Definition tracks {A} (get : qstate DB -> A) (f : call DB -> option A) : Prop :=
  forall q fs c q' fs', step (q, fs) c = Val (q', fs') -> get q' = match f c with Some a => a | None => get q end.

Lemma tracks_run {A} (get : qstate DB -> A) f : tracks get f -> forall h q fs q' fs',
  run h (q, fs) = Val (q', fs') -> get q' = last_given f h (get q).
Proof.
  intros T. induction h as [|c h IH]; intros q fs q' fs' H.
  - injection H as <- _. reflexivity.
  - cbn [run] in H. apply bind_val in H. destruct H as ([q1 fs1] & H1 & H2).
    rewrite (IH _ _ _ _ H2), last_given_cons. f_equal. apply (T _ _ _ _ _ H1).
Qed.

Lemma step_cases q fs c (q' : qstate DB) fs' : step (q, fs) c = Val (q', fs') ->
  match c with
  | Open _ => exists d x e, q' = set_db q d x e
  | Close _ => exists d x e, q' = set_db q d x e
  | Filename n => q' = set_filename n q
  | FilenameExt n => q' = set_filenameExt n q
  | CacheSize n => q' = set_cacheSize n q
  | CacheSizeExt n => q' = set_cacheSizeExt n q
  | QueryRes r => q' = set_queryRes r q
  | QueryType n => q' = set_queryType n q
  | QueryVals names => set_queryVals names q = Val q'
  | Squash on l => q' = set_squash on l q
  | Geometry g => geometry g q = Val q'
  | Handler _ _ => exists e, q' = with_err q e
  | Query _ _ _ _ _ => exists e, q' = with_err q e
  end.
Proof.
  intros H. destruct c; cbn [step] in H; try (injection H as <- _; reflexivity).
  - apply bind_val in H. destruct H as (q1 & H1 & H). injection H as <- _. eapply open_sets, H1.
  - injection H as <- _. unfold close. eauto.
  - apply bind_val in H. destruct H as (q1 & H1 & H). injection H as <- _. exact H1.
  - apply bind_val in H. destruct H as (q1 & H1 & H). injection H as <- _. exact H1.
  - destruct (hstep writable (q_err q, fs) c). injection H as <- _. eauto.
  - apply bind_val in H. destruct H as ([[q1 fs1] vs] & H1 & H). injection H as <- _. eapply query_with_err, H1.
Qed.

Ltac tk :=
  intros q fs c q' fs' H; apply step_cases in H; destruct c;
  try (destruct H as (? & ? & ? & ->); reflexivity);
  try (destruct H as (? & ->); reflexivity);
  try (apply geometry_sets in H; destruct H as (? & -> & ->); reflexivity);
  try (apply queryVals_sets in H; destruct H as [[-> ->]|(? & ? & ? & -> & ->)]; reflexivity);
  subst q'; try reflexivity.

Lemma track_cache : tracks q_cache sets_cache.
Proof.
  tk.
  - cbn [sets_cache]. unfold set_cacheSize. destruct (0 <? s); reflexivity.
  - cbn [sets_cache]. unfold set_cacheSizeExt. destruct (0 <? s); reflexivity.
  - cbn [sets_cache]. unfold set_queryRes. destruct (fgt r f_zero); reflexivity.
  - cbn [sets_cache]. unfold set_queryType. destruct (qtype_of n); reflexivity.
Qed.
Lemma track_cacheExt : tracks q_cacheExt sets_cacheExt.
Proof.
  tk.
  - cbn [sets_cacheExt]. unfold set_cacheSize. destruct (0 <? s); reflexivity.
  - cbn [sets_cacheExt]. unfold set_cacheSizeExt. destruct (0 <? s); reflexivity.
  - cbn [sets_cacheExt]. unfold set_queryRes. destruct (fgt r f_zero); reflexivity.
  - cbn [sets_cacheExt]. unfold set_queryType. destruct (qtype_of n); reflexivity.
Qed.
Lemma track_res : tracks q_res sets_res.
Proof.
  tk.
  - unfold set_cacheSize. destruct (0 <? s); reflexivity.
  - unfold set_cacheSizeExt. destruct (0 <? s); reflexivity.
  - cbn [sets_res]. unfold set_queryRes. change (fgt r f_zero) with (flt f_zero r). destruct (flt f_zero r); reflexivity.
  - unfold set_queryType. destruct (qtype_of n); reflexivity.
Qed.
Lemma qtype_of_eq n : qtype_of n = match n with 0 => Some MAXRES | 1 => Some FIXEDRES | 2 => Some WAVERES | _ => None end.
Proof.
  unfold qtype_of. destruct (Z.eqb_spec n 0) as [->|N0]; [reflexivity|].
  destruct (Z.eqb_spec n 1) as [->|N1]; [reflexivity|]. destruct (Z.eqb_spec n 2) as [->|N2]; [reflexivity|].
  destruct n as [|[p|[p|p|]|]|p]; try reflexivity; contradiction.
Qed.
Lemma track_type : tracks q_type sets_type.
Proof.
  tk.
  - unfold set_cacheSize. destruct (0 <? s); reflexivity.
  - unfold set_cacheSizeExt. destruct (0 <? s); reflexivity.
  - unfold set_queryRes. destruct (fgt r f_zero); reflexivity.
  - cbn [sets_type]. unfold set_queryType. rewrite qtype_of_eq.
    destruct n as [|[p|[p|p|]|]|p]; reflexivity.
Qed.
Lemma track_name : tracks q_name sets_name.
Proof.
  tk.
  - unfold set_cacheSize. destruct (0 <? s); reflexivity.
  - unfold set_cacheSizeExt. destruct (0 <? s); reflexivity.
  - unfold set_queryRes. destruct (fgt r f_zero); reflexivity.
  - unfold set_queryType. destruct (qtype_of n); reflexivity.
Qed.
Lemma track_nameExt : tracks q_nameExt sets_nameExt.
Proof.
  tk.
  - unfold set_cacheSize. destruct (0 <? s); reflexivity.
  - unfold set_cacheSizeExt. destruct (0 <? s); reflexivity.
  - unfold set_queryRes. destruct (fgt r f_zero); reflexivity.
  - unfold set_queryType. destruct (qtype_of n); reflexivity.
Qed.
Lemma track_squash : tracks (fun q => (q_squash q, q_limit q)) sets_squash.
Proof.
  tk.
  - unfold set_cacheSize. destruct (0 <? s); reflexivity.
  - unfold set_cacheSizeExt. destruct (0 <? s); reflexivity.
  - unfold set_queryRes. destruct (fgt r f_zero); reflexivity.
  - unfold set_queryType. destruct (qtype_of n); reflexivity.
Qed.
Lemma track_geometry : tracks q_geom sets_geometry.
Proof.
  tk.
  - unfold set_cacheSize. destruct (0 <? s); reflexivity.
  - unfold set_cacheSizeExt. destruct (0 <? s); reflexivity.
  - unfold set_queryRes. destruct (fgt r f_zero); reflexivity.
  - unfold set_queryType. destruct (qtype_of n); reflexivity.
Qed.
Definition sets_sel (c : call DB) := match sets_names c with Some ns => Some (map selector ns) | None => None end.
Lemma track_vals : tracks q_vals sets_sel.
Proof.
  tk.
  - unfold set_cacheSize. destruct (0 <? s); reflexivity.
  - unfold set_cacheSizeExt. destruct (0 <? s); reflexivity.
  - unfold set_queryRes. destruct (fgt r f_zero); reflexivity.
  - unfold set_queryType. destruct (qtype_of n); reflexivity.
Qed.
End Settings.
