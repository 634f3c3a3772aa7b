(** C87: the order of unrelated calls on a query object does not matter. *)
From Coq Require Import ZArith Bool Lia String List Permutation.
From Verif Require Import Outcome Float Payload Addr Geom ErrorHandler VMQuery SpecQuery SpecHist SpecSame QueryIndep QueryHist SpecOrderCalls.
Import ListNotations.
Open Scope Z_scope. Open Scope list_scope.

(** ** Settings as functions *)
Section One.
Context {DB : Type}.
Notation st := (qstate DB).
Inductive setting := SNone | SName (n : string) | SNameExt (n : string) | SCache (z : Z) | SCacheExt (z : Z) | SRes (r : f64)
| SKind (t : qtype) | SVals (v : list (option Z)) | SValsErr (v : list (option Z)) (F : errh -> errh)
| SSquash (b : bool) (l : f64) | SPlace (g : libm) | SErr (F : errh -> errh).
Definition put (s : setting) (q : st) : st :=
  match s with
  | SNone => q
  | SName n => set_filename n q | SNameExt n => set_filenameExt n q
  | SCache z => mkQ (q_res q) (q_limit q) (q_db q) (q_dbExt q) (q_vals q) (q_geom q) (q_err q) (q_name q) (q_nameExt q) (q_type q) z (q_cacheExt q) (q_squash q)
  | SCacheExt z => mkQ (q_res q) (q_limit q) (q_db q) (q_dbExt q) (q_vals q) (q_geom q) (q_err q) (q_name q) (q_nameExt q) (q_type q) (q_cache q) z (q_squash q)
  | SRes r => mkQ r (q_limit q) (q_db q) (q_dbExt q) (q_vals q) (q_geom q) (q_err q) (q_name q) (q_nameExt q) (q_type q) (q_cache q) (q_cacheExt q) (q_squash q)
  | SKind t => mkQ (q_res q) (q_limit q) (q_db q) (q_dbExt q) (q_vals q) (q_geom q) (q_err q) (q_name q) (q_nameExt q) t (q_cache q) (q_cacheExt q) (q_squash q)
  | SVals v => mkQ (q_res q) (q_limit q) (q_db q) (q_dbExt q) v (q_geom q) (q_err q) (q_name q) (q_nameExt q) (q_type q) (q_cache q) (q_cacheExt q) (q_squash q)
  | SValsErr v F => mkQ (q_res q) (q_limit q) (q_db q) (q_dbExt q) v (q_geom q) (F (q_err q)) (q_name q) (q_nameExt q) (q_type q) (q_cache q) (q_cacheExt q) (q_squash q)
  | SSquash b l => set_squash b l q
  | SPlace g => mkQ (q_res q) (q_limit q) (q_db q) (q_dbExt q) (q_vals q) g (q_err q) (q_name q) (q_nameExt q) (q_type q) (q_cache q) (q_cacheExt q) (q_squash q)
  | SErr F => with_err q (F (q_err q))
  end.
Definition touched (s : setting) (p : part) : Prop :=
  match s with
  | SNone => False | SName _ => p = Name | SNameExt _ => p = NameExt | SCache _ => p = Cache | SCacheExt _ => p = CacheExt
  | SRes _ => p = Res | SKind _ => p = Kind | SVals _ => p = Values | SValsErr _ _ => p = Values \/ p = Report
  | SSquash _ _ => p = Squashing | SPlace _ => p = Place | SErr _ => p = Report
  end.
Definition is_setting (a : action) : Prop :=
  match a with AOpen | AClose | AHandler _ | AQuery _ _ _ _ | AQueryVals None | AGeometry None => False | _ => True end.

Lemma type_range n : if (0 <=? n) && (n <=? 2) then exists t, qtype_of n = Some t else qtype_of n = None.
Proof.
  rewrite qtype_of_eq. destruct (Z.leb_spec 0 n), (Z.leb_spec n 2); cbn [andb]; destruct n as [|[p|[p|p|]|]|p]; try reflexivity; eauto; lia.
Qed.
Lemma names_quiet l : (Forall (fun s => selector s <> None) l) \/ Exists (fun s => forall v, ~ names_value s v) l.
Proof.
  induction l as [|s l IH]; [left; constructor|]. destruct (selector s) eqn:S.
  - destruct IH as [F|X]; [left; constructor; [congruence|exact F]|right; apply Exists_cons_tl, X].
  - right. apply Exists_cons_hd. intros v H. rewrite (selector_name _ _ H) in S. discriminate.
Qed.
Lemma fold_quiet l e : Forall (fun s => selector s <> None) l ->
  fold_left (fun e n => match selector n with Some _ => e | None => eh_error (name_msg n) e end) l e = e.
Proof. intros F. revert e. induction F as [|s l H F IH]; intros e; [reflexivity|]. cbn [fold_left]. destruct (selector s); [apply IH|contradiction]. Qed.
Lemma normal a : is_setting a -> exists s, (forall p, touched s p -> changes a p) /\
  forall (E : env DB) q fs, observe E (q, fs) a = Val (put s q, fs, []).
Proof.
  destruct a as [| |n|n|z|z|r|n|[l|]|b l|[g|]|c|v x y z]; cbn [is_setting]; intros []; cbn [observe step done_in bind].
  - exists (SName n). split; [auto|reflexivity].
  - exists (SNameExt n). split; [auto|reflexivity].
  - unfold set_cacheSize. destruct (0 <? z); [exists (SCache z)|exists SNone]; (split; [cbn; tauto|reflexivity]).
  - unfold set_cacheSizeExt. destruct (0 <? z); [exists (SCacheExt z)|exists SNone]; (split; [cbn; tauto|reflexivity]).
  - unfold set_queryRes. destruct (fgt r f_zero); [exists (SRes r)|exists SNone]; (split; [cbn; tauto|reflexivity]).
  - unfold set_queryType. pose proof (type_range n) as T. cbn [changes]. destruct ((0 <=? n) && (n <=? 2)).
    + destruct T as [t ->]. exists (SKind t). split; [auto|reflexivity].
    + rewrite T. exists (SErr (eh_error "Could not find query function for requested query type.")). split; [auto|reflexivity].
  - destruct l as [|s l]; [exists SNone; split; [cbn; tauto|reflexivity]|]. destruct (names_quiet (s :: l)) as [F|X].
    + exists (SVals (map selector (s :: l))). split; [cbn; tauto|]. intros E q fs. unfold set_queryVals. rewrite fold_quiet by exact F. reflexivity.
    + exists (SValsErr (map selector (s :: l)) (fold_left (fun e n => match selector n with Some _ => e | None => eh_error (name_msg n) e end) (s :: l))).
      split; [cbn [touched changes]; tauto|reflexivity].
  - exists (SSquash b l). split; [auto|reflexivity].
  - exists (SPlace g). split; [auto|reflexivity].
Qed.

Ltac clash H := exfalso; first [solve [apply (H Name); cbn; tauto] | solve [apply (H NameExt); cbn; tauto] | solve [apply (H Cache); cbn; tauto]
  | solve [apply (H CacheExt); cbn; tauto] | solve [apply (H Res); cbn; tauto] | solve [apply (H Kind); cbn; tauto] | solve [apply (H Values); cbn; tauto]
  | solve [apply (H Squashing); cbn; tauto] | solve [apply (H Place); cbn; tauto] | solve [apply (H Report); cbn; tauto]].
Lemma put_put s t q : (forall p, touched s p -> touched t p -> False) -> put s (put t q) = put t (put s q).
Proof. intros H. destruct s, t; try reflexivity; clash H. Qed.

(** Calls that are not settings *)
Variable E : env DB.
Lemma put_open s q : (forall p, touched s p -> changes AOpen p \/ depends AOpen p -> False) ->
  open E (put s q) = let* q := open E q in Val (put s q).
Proof.
  intros H. destruct s; try (clash H).
  all: unfold open; cbn [put q_db q_err q_cache q_name q_nameExt q_dbExt q_cacheExt set_squash bind].
  all: destruct (q_db q) as [d|]; cbn [bind]; [|unfold assert_; destruct (0 <? q_cache q); cbn [bind]; [|reflexivity]; destruct (e_open E (q_name q) (q_cache q)); cbn [bind]].
  all: destruct (String.eqb (q_nameExt q) ""); cbn [bind]; [reflexivity|]; destruct (q_dbExt q); cbn [bind]; [reflexivity|].
  all: unfold assert_; destruct (0 <? q_cacheExt q); cbn [bind]; [|reflexivity]; destruct (e_open E (q_nameExt q) (q_cacheExt q)); reflexivity.
Qed.
Lemma put_close s q : (forall p, touched s p -> changes AClose p \/ depends AClose p -> False) -> close E (put s q) = put s (close E q).
Proof. intros H. destruct s; try (clash H); reflexivity. Qed.
Lemma put_err s q e : ~ touched s Report -> with_err (put s q) e = put s (with_err q e) /\ q_err (put s q) = q_err q.
Proof. intros H. destruct s; try (exfalso; apply H; cbn; tauto); split; reflexivity. Qed.

Section Ask.
Variables (q1 q2 : st).
Hypothesis A : q_res q1 = q_res q2 /\ q_limit q1 = q_limit q2 /\ q_db q1 = q_db q2 /\ q_dbExt q1 = q_dbExt q2 /\ q_vals q1 = q_vals q2 /\
  q_geom q1 = q_geom q2 /\ q_err q1 = q_err q2 /\ q_type q1 = q_type q2 /\ q_squash q1 = q_squash q2.
Lemma ask_climb fuel : forall e d a lon lat elev m child p res,
  climb E fuel q1 e d a lon lat elev m child p res = climb E fuel q2 e d a lon lat elev m child p res.
Proof.
  induction fuel as [|fuel IH]; intros; cbn [climb]; [reflexivity|].
  destruct (if fgt (widen (p_vs p)) f_zero then _ else _) as [b| | |]; cbn [bind]; try reflexivity. destruct (negb b); [reflexivity|].
  destruct (findAncestor res (a_level res - 1)) as [a'| | |]; cbn [bind]; try reflexivity. destruct (e_search E d a') as [[r p']|]; [apply IH|reflexivity].
Qed.
Lemma ask_fn e d lon lat elev use : queryFn E q1 e d lon lat elev use = queryFn E q2 e d lon lat elev use.
Proof.
  pose proof A as (R & _ & _ & _ & _ & G & _ & T & _). unfold queryFn. rewrite T. destruct (q_type q2).
  - unfold queryMax. rewrite G. reflexivity.
  - unfold queryFixed. rewrite G, R. reflexivity.
  - unfold queryWave. rewrite G, R. destruct (need_db d) as [d'| | |]; cbn [bind]; try reflexivity.
    destruct (query_addr _ _ _ _ _ _) as [[a i]| | |]; cbn [bind]; try reflexivity. destruct (negb i); [reflexivity|].
    destruct (e_search E d' a) as [[h p]|]; [|reflexivity]. cbv zeta. destruct (if otype_eqb _ _ then _ else _) as [c| | |]; cbn [bind]; try reflexivity.
    destruct c; [reflexivity|]. rewrite ask_climb. reflexivity.
Qed.
Lemma ask_elev lon lat elev b : queryElev E q1 lon lat elev b = queryElev E q2 lon lat elev b.
Proof. destruct A as (_ & _ & D & X & _ & G & _). unfold queryElev. rewrite D, X, G. reflexivity. Qed.
Lemma ask_copy lon lat elev p ss : forall olds e r, copy E q1 lon lat elev p ss olds e r = copy E q2 lon lat elev p ss olds e r.
Proof.
  induction ss as [|s ss IH]; intros [|o olds] e r; cbn [copy]; try reflexivity.
  assert (C : copy1 E q1 lon lat elev p s o e r = copy1 E q2 lon lat elev p s o e r) by (unfold copy1; rewrite ask_elev; reflexivity).
  rewrite C. destruct (copy1 E q2 lon lat elev p s o e r) as [[[v e'] r']| | |]; cbn [bind]; try reflexivity. rewrite IH. reflexivity.
Qed.
Lemma ask_body lon lat elev : query_body E q1 lon lat elev = query_body E q2 lon lat elev.
Proof.
  unfold query_body. rewrite ask_elev. pose proof A as (_ & L & D & X & _ & _ & R & _ & S). rewrite L, D, X, R, S. pose proof ask_fn as AF. clear L D X R S.
  match goal with |- match ?X with _ => _ end = match ?Y with _ => _ end => assert (XY : X = Y); [|rewrite XY; reflexivity] end.
  destruct (if q_squash q2 && _ then _ else _) as [s| | |]; cbn [bind]; try reflexivity. rewrite AF.
  destruct (queryFn E q2 _ _ _ _ _ None) as [[[e p] a]| | |]; cbn [bind]; try reflexivity.
  destruct (q_dbExt q2) as [x|]; [|reflexivity]. rewrite AF. reflexivity.
Qed.
Lemma ask fs vals lon lat elev :
  query E q1 fs vals lon lat elev = let* (q, fs, vs) := query E q2 fs vals lon lat elev in Val (with_err q1 (q_err q), fs, vs).
Proof.
  unfold query. destruct vals as [olds|]; [|reflexivity]. pose proof A as (_ & _ & _ & _ & V & _). rewrite V, ask_body.
  unfold assert_. destruct (Nat.eqb _ _); cbn [bind]; [|reflexivity].
  destruct (query_body E q2 lon lat elev) as [[[e [p|]] r]| | |]; cbn [bind]; try reflexivity.
  destruct (if p_block p =? NODATABLOCK then _ else _) as [e' fs']. rewrite ask_copy.
  destruct (copy E q2 _ _ _ _ _ _ _ _) as [[vs e'']| | |]; reflexivity.
Qed.
End Ask.
Lemma put_query s q fs vals lon lat elev : (forall p, touched s p -> changes (AQuery vals lon lat elev) p \/ depends (AQuery vals lon lat elev) p -> False) ->
  query E (put s q) fs vals lon lat elev = let* (q, fs, vs) := query E q fs vals lon lat elev in Val (put s q, fs, vs).
Proof.
  intros H. rewrite (ask (put s q) q) by (destruct s; try (clash H); repeat split).
  assert (RO : match query E q fs vals lon lat elev with Val (q', _, _) => q' = with_err q (q_err q') | _ => True end).
  { unfold query. destruct vals as [olds|]; [|exact I]. destruct (assert_ _); cbn [bind]; try exact I.
    destruct (query_body E q lon lat elev) as [[[e [p|]] r]| | |]; cbn [bind]; try exact I.
    destruct (if p_block p =? NODATABLOCK then _ else _) as [e' fs']. destruct (copy E q _ _ _ _ _ _ _ _) as [[vs e'']| | |]; cbn [bind]; try exact I. reflexivity. }
  destruct (query E q fs vals lon lat elev) as [[[q' f] v]| | |]; cbn [bind]; try reflexivity.
  rewrite (proj1 (put_err s q (q_err q') ltac:(intros T; exact (H Report T (or_introl eq_refl))))), <- RO. reflexivity.
Qed.

(** ** Two calls *)
Definition both_ways a b s : Prop :=
  (let* (q, fs, r) := observe E s a in let* (q, fs, r') := observe E (q, fs) b in Val (q, fs, r ++ r')) =
  (let* (q, fs, r) := observe E s b in let* (q, fs, r') := observe E (q, fs) a in Val (q, fs, r ++ r')).
Lemma set_other a b s : is_setting a -> ~ is_setting b -> unrelated a b -> both_ways a b s.
Proof.
  intros SA NB U. destruct (normal a SA) as (t & T & O). destruct s as [q fs]. unfold both_ways. rewrite O. cbn [bind app].
  assert (H : forall p, touched t p -> changes b p \/ depends b p -> False).
  { intros p X Y. destruct (proj1 (U p) (T p X)) as [N1 N2]. tauto. }
  destruct b as [| |n|n|z|z|r|n|[l|]|sq l|[g|]|c|v x y z]; try (exfalso; apply NB; exact I); cbn [observe step done_in fst snd].
  - rewrite (put_open t q H). destruct (open E q); cbn [bind]; try reflexivity. rewrite O. reflexivity.
  - rewrite (put_close t q H). cbn [bind]. rewrite O. reflexivity.
  - reflexivity.
  - reflexivity.
  - pose proof (fun e => put_err t q e (fun X => H Report X (or_introl eq_refl))) as P. rewrite (proj2 (P (q_err q))).
    destruct (hstep (e_writable E) (q_err q, fs) c) as [e fs']. cbn [bind]. rewrite O, (proj1 (P e)). reflexivity.
  - rewrite (put_query t q fs v x y z H). destruct (query E q fs v x y z) as [[[q' f'] vs]| | |]; cbn [bind]; try reflexivity. rewrite O. cbn [bind app].
    rewrite (proj2 (put_err t q' (q_err q') (fun X => H Report X (or_introl eq_refl)))). reflexivity.
Qed.
Lemma unrelated_sym a b : unrelated a b -> unrelated b a.
Proof. intros U p. destruct (U p). tauto. Qed.
Lemma swap a b s : unrelated a b -> both_ways a b s.
Proof.
  intros U.
  assert (DEC : forall x, is_setting x \/ ~ is_setting x) by (intros [| |n|n|z|z|r|n|[l|]|sq l|[g|]|c|v x y z]; cbn; tauto).
  destruct (DEC a) as [SA|NA], (DEC b) as [SB|NB].
  - destruct (normal a SA) as (t & T & O), (normal b SB) as (t' & T' & O'). destruct s as [q fs]. unfold both_ways.
    rewrite O, O'. cbn [bind]. rewrite O, O'. cbn [bind]. rewrite (put_put t' t); [reflexivity|].
    intros p X Y. exact (proj1 (proj1 (U p) (T p Y)) (T' p X)).
  - apply set_other; assumption.
  - symmetry. apply set_other; [assumption|assumption|apply unrelated_sym, U].
  - exfalso. destruct (U Report) as [K _].
    assert (R : forall x, ~ is_setting x -> changes x Report).
    { intros [| |n|n|z|z|r|n|[l|]|sq l|[g|]|c|v x y z] N; cbn [changes]; auto; exfalso; apply N; exact I. }
    exact (proj1 (K (R a NA)) (R b NB)).
Qed.
Lemma observes_app l : forall s l', observes E s (l ++ l') =
  let* (q, fs, r) := observes E s l in let* (q, fs, r') := observes E (q, fs) l' in Val (q, fs, r ++ r').
Proof.
  induction l as [|a l IH]; intros [q fs] l'; cbn [app observes bind fst snd].
  - destruct (observes E (q, fs) l') as [[[q' f'] r]| | |]; reflexivity.
  - destruct (observe E (q, fs) a) as [[[q' f'] r]| | |]; cbn [bind]; try reflexivity. rewrite IH.
    destruct (observes E (q', f') l) as [[[q2 f2] r2]| | |]; cbn [bind]; try reflexivity.
    destruct (observes E (q2, f2) l') as [[[q3 f3] r3]| | |]; cbn [bind]; try reflexivity. rewrite app_assoc. reflexivity.
Qed.
Lemma observes_two a b l s : observes E s (a :: b :: l) =
  let* (q, fs, r) := (let* (q, fs, r) := observe E s a in let* (q, fs, r') := observe E (q, fs) b in Val (q, fs, r ++ r')) in
  let* (q, fs, rs) := observes E (q, fs) l in Val (q, fs, r ++ rs).
Proof.
  cbn [observes]. destruct (observe E s a) as [[[q f] r]| | |]; cbn [bind]; try reflexivity.
  destruct (observe E (q, f) b) as [[[q' f'] r']| | |]; cbn [bind]; try reflexivity.
  destruct (observes E (q', f') l) as [[[q2 f2] r2]| | |]; cbn [bind]; try reflexivity. rewrite app_assoc. reflexivity.
Qed.
Lemma rearranged_same l l' : rearranged l l' -> forall s, observes E s l = observes E s l'.
Proof.
  induction 1 as [l|pre a b post U|l1 l2 l3 H1 IH1 H2 IH2]; intros s; [reflexivity| |rewrite IH1; apply IH2].
  rewrite !observes_app. destruct (observes E s pre) as [[[q f] r]| | |]; cbn [bind]; try reflexivity.
  rewrite !observes_two. pose proof (swap a b (q, f) U) as S. unfold both_ways in S. rewrite S. reflexivity.
Qed.
End One.

(** C87. Exchanging unrelated calls cannot be noticed. *)
Theorem C87_order : forall DB (E : env DB) g fs program program', rearranged program program' ->
  seen E g fs program = seen E g fs program'.
Proof. intros DB E g fs l l' R. unfold seen. rewrite (rearranged_same E l l' R). reflexivity. Qed.
Print Assumptions C87_order.

Lemma rearranged_cons a l l' : rearranged l l' -> rearranged (a :: l) (a :: l').
Proof.
  induction 1 as [l|pre x y post U|l1 l2 l3 H1 IH1 H2 IH2]; [constructor| |eapply once_more; eassumption].
  exact (exchanged (a :: pre) x y post U).
Qed.
Lemma rearranged_app pre post l l' : rearranged l l' -> rearranged (pre ++ l ++ post) (pre ++ l' ++ post).
Proof.
  intros H. induction pre as [|a pre IH]; [|apply rearranged_cons, IH].
  cbn [app]. induction H as [l|b x y af U|l1 l2 l3 H1 IH1 H2 IH2]; [constructor| |eapply once_more; eassumption].
  rewrite <- !app_assoc. cbn [app]. apply exchanged, U.
Qed.
Lemma pairs_perm l l' : Permutation l l' -> ForallOrdPairs unrelated l -> ForallOrdPairs unrelated l'.
Proof.
  induction 1 as [|x l l' P IH|x y l|l1 l2 l3 P1 IH1 P2 IH2]; intros F; auto.
  - inversion F as [|? ? A B]; subst. constructor; [|apply IH, B]. exact (Permutation_Forall P A).
  - inversion F as [|? ? A B]; subst. inversion B as [|? ? C D]; subst. inversion A as [|? ? U V]; subst.
    constructor; [constructor; [apply unrelated_sym, U|exact C]|constructor; assumption].
Qed.
Lemma perm_rearranged l l' : Permutation l l' -> ForallOrdPairs unrelated l -> rearranged l l'.
Proof.
  induction 1 as [|x l l' P IH|x y l|l1 l2 l3 P1 IH1 P2 IH2]; intros F.
  - constructor.
  - inversion F as [|? ? A B]; subst. apply rearranged_cons, IH, B.
  - inversion F as [|? ? A B]; subst. inversion A as [|? ? U V]; subst. exact (exchanged [] y x l U).
  - eapply once_more; [apply IH1, F|]. apply IH2. exact (pairs_perm _ _ P1 F).
Qed.
(** C87. In particular a group of calls of which no two are related can be made in any
    order, anywhere in a program. *)
Theorem C87_any_order : forall DB (E : env DB) g fs before group group' after,
  ForallOrdPairs unrelated group -> Permutation group group' ->
  seen E g fs (before ++ group ++ after) = seen E g fs (before ++ group' ++ after).
Proof.
  intros DB E g fs before l l' after F P. apply C87_order, rearranged_app, perm_rearranged; assumption.
Qed.
Print Assumptions C87_any_order.

(** C87. How to answer can be settled before or after opening, what to open can be
    changed before or after a query. *)
Definition answering (a : action) : Prop := match a with
  | AQueryRes _ | ASquash _ _ | AGeometry (Some _) => True | AQueryType n => 0 <= n <= 2
  | AQueryVals (Some l) => Forall (fun s => exists v, names_value s v) l | _ => False end.
Definition choosing (a : action) : Prop := match a with AFilename _ | AFilenameExt _ | ACacheSize _ | ACacheSizeExt _ => True | _ => False end.
Theorem C87_around_open : forall DB (E : env DB) g fs before a after, answering a ->
  seen E g fs (before ++ a :: AOpen :: after) = seen E g fs (before ++ AOpen :: a :: after).
Proof.
  intros DB E g fs before a after A. apply C87_order, exchanged. intros p.
  destruct a as [| |n|n|z|z|r|n|[l|]|sq l|[h|]|c|v x y z]; cbn [answering] in A; try contradiction; cbn [changes depends].
  - split; [intros ->; split; intuition discriminate|tauto].
  - replace ((0 <=? n) && (n <=? 2)) with true by (symmetry; apply andb_true_intro; split; apply Z.leb_le; lia).
    split; [intros ->; split; intuition discriminate|tauto].
  - assert (Q : ~ Exists (fun s => forall v, ~ names_value s v) l).
    { intros X. apply Exists_exists in X. destruct X as (s & I & N). rewrite Forall_forall in A. destruct (A s I) as [v V]. exact (N v V). }
    split; [intros [->|[-> X]]; [split; intuition discriminate|contradiction]|tauto].
  - split; [intros ->; split; intuition discriminate|tauto].
  - split; [intros ->; split; intuition discriminate|tauto].
Qed.
Print Assumptions C87_around_open.
Theorem C87_around_query : forall DB (E : env DB) g fs before a vals lon lat elev after, choosing a ->
  seen E g fs (before ++ a :: AQuery vals lon lat elev :: after) = seen E g fs (before ++ AQuery vals lon lat elev :: a :: after).
Proof.
  intros DB E g fs before a vals lon lat elev after A. apply C87_order, exchanged. intros p.
  destruct a; cbn [choosing] in A; try contradiction; cbn [changes depends]; (split; [intros ->; split; intuition discriminate|tauto]).
Qed.
Print Assumptions C87_around_query.

(** ** Examples *)
From Verif Require PropQuery.
From Verif Require Import Store PropStore PropSame ToyLib ToyDb.
Open Scope string_scope. Open Scope Z_scope. Open Scope list_scope.
Definition wishes : list action :=
  [AFilename "model"; ACacheSize 64; AQueryType 0; AQueryVals (Some ["Vs"; "Vp"]); ASquash false f_zero; AQueryRes (i2f64 100); ACacheSizeExt (-7)].
Definition asks : action := AQuery (Some [f_zero; f_zero]) toy_x toy_y elev_a.
Lemma speeds_known : ~ Exists (fun s => forall v, ~ names_value s v) ["Vs"; "Vp"].
Proof.
  intros X. inversion X as [? ? N|? ? Y]; subst; [exact (N NVs eq_refl)|]. inversion Y as [? ? N|? ? Z]; subst; [exact (N NVp eq_refl)|]. inversion Z.
Qed.
Lemma wishes_unrelated : ForallOrdPairs unrelated wishes.
Proof.
  pose proof speeds_known as K.
  repeat apply FOP_cons; try apply FOP_nil; repeat (apply Forall_cons || apply Forall_nil); intros p; cbn [changes depends Z.leb Z.compare andb Pos.compare Pos.compare_cont];
    (split; [|tauto]); (intros H; split; [|tauto]); intros H'; destruct p; intuition discriminate.
Qed.
(** Seven settings in one order and in the opposite one, then opening, a query, another
    name, another query. *)
Example C87_example :
  seen (forth shop) toy PropQuery.no_files (wishes ++ [AOpen; asks; AFilename "none"; asks]) =
  seen (forth shop) toy PropQuery.no_files (rev wishes ++ [AOpen; asks; AFilename "none"; asks]).
Proof. exact (C87_any_order _ (forth shop) toy PropQuery.no_files [] wishes (rev wishes) _ wishes_unrelated (Permutation_rev wishes)). Qed.
Example C87_example_seen :
  match seen (forth shop) toy PropQuery.no_files (rev wishes ++ [AOpen; asks; AFilename "none"; asks]) with
  | Val (rs, st, m, _) => (rs, st, m) = ([([widen (p_vs v_leaf); widen (p_vp v_leaf)], OK, ""); ([widen (p_vs v_leaf); widen (p_vp v_leaf)], OK, "")], OK, "")
  | _ => False
  end.
Proof. vm_compute. reflexivity. Qed.
(** ... and with the settings that say how to answer made after opening. *)
Example C87_example_open :
  seen (forth shop) toy PropQuery.no_files ([AFilename "model"; AQueryVals (Some ["Vs"; "Vp"])] ++ AQueryType 0 :: AOpen :: [asks; AFilename "none"; asks]) =
  seen (forth shop) toy PropQuery.no_files ([AFilename "model"; AQueryVals (Some ["Vs"; "Vp"])] ++ AOpen :: AQueryType 0 :: [asks; AFilename "none"; asks]).
Proof. apply C87_around_open. cbn. lia. Qed.
Example C87_example_query :
  seen (forth shop) toy PropQuery.no_files ([AFilename "model"; AQueryVals (Some ["Vs"; "Vp"]); AOpen] ++ AFilename "none" :: asks :: [AClose]) =
  seen (forth shop) toy PropQuery.no_files ([AFilename "model"; AQueryVals (Some ["Vs"; "Vp"]); AOpen] ++ asks :: AFilename "none" :: [AClose]).
Proof. apply C87_around_query. exact I. Qed.

(** Settings of different parts can be related all the same: the last complaint is the
    one that is reported. *)
Theorem C87_complaints_refuted : ~ (forall DB (E : env DB) g fs n names,
  seen E g fs [AQueryType n; AQueryVals (Some names)] = seen E g fs [AQueryVals (Some names); AQueryType n]).
Proof. intros H. specialize (H _ (forth shop) toy PropQuery.no_files 7 ["speed"]). vm_compute in H. discriminate H. Qed.
Print Assumptions C87_complaints_refuted.
(** The name has to be given before opening. *)
Theorem C87_name_after_open_refuted : ~ (forall DB (E : env DB) g fs n,
  seen E g fs [AFilename n; AOpen] = seen E g fs [AOpen; AFilename n]).
Proof. intros H. specialize (H _ (forth shop) toy PropQuery.no_files "model"). vm_compute in H. discriminate H. Qed.
Print Assumptions C87_name_after_open_refuted.
