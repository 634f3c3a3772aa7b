(** Proofs: value names, read-only queries, history independence, squashing,
    opening and closing, failures. *)
From Coq Require Import ZArith Bool Lia String Ascii List.
From Verif Require Import Outcome Float Payload Addr SpecOct SpecGeom Geom GeomProof ErrorHandler VMQuery
  SpecQuery SpecHist QueryFacts QueryProof QueryHist.
Import ListNotations.
Open Scope Z_scope.

(** ** Value names *)
Lemma lower_eq c : lower c = letter_lower c.
Proof.
  unfold lower, letter_lower. set (n := nat_of_ascii c).
  destruct (Nat.leb_spec 65 n); destruct (Nat.leb_spec n 90); cbn [andb];
    destruct (Nat.compare_spec n 65); destruct (Nat.compare_spec n 90); try lia; reflexivity.
Qed.
Lemma casecmp_iff a : forall b, casecmp a b = true <-> lowercase a = lowercase b.
Proof.
  unfold lowercase. induction a as [|c a IH]; intros [|d b]; cbn [casecmp list_ascii_of_string map].
  - tauto.
  - split; discriminate.
  - split; discriminate.
  - rewrite andb_true_iff, Ascii.eqb_eq, IH, !lower_eq. split; [intros [-> ->]; reflexivity|].
    intros H. injection H. auto.
Qed.
Lemma casecmp_lower a b b' : lowercase b = lowercase b' -> casecmp a b = casecmp a b'.
Proof.
  intros H. destruct (casecmp a b) eqn:A; destruct (casecmp a b') eqn:B; try reflexivity.
  - apply casecmp_iff in A. rewrite H in A. apply casecmp_iff in A. congruence.
  - apply casecmp_iff in B. rewrite <- H in B. apply casecmp_iff in B. congruence.
Qed.
Lemma selector_name s n : names_value s n -> selector s = Some (code n).
Proof.
  unfold names_value. intros H. unfold selector. rewrite !(casecmp_lower _ _ _ H).
  destruct n; vm_compute; reflexivity.
Qed.
Lemma selector_inv s k : selector s = Some k -> exists n, names_value s n /\ k = code n.
Proof.
  unfold selector, names_value. intros H.
  repeat match type of H with
  | (if casecmp ?a s then _ else _) = _ => destruct (casecmp a s) eqn:?
  end; try discriminate; injection H as <-;
  match goal with
  | C : casecmp ?a s = true |- _ => apply casecmp_iff in C; symmetry in C
  end.
  - exists NVp; auto. 
  - exists NVs; auto.
  - exists NDensity; auto.
  - exists NQp; auto.
  - exists NQs; auto.
  - exists NDepthFreeSurf; auto.
  - exists NFaultBlock; auto.
  - exists NZone; auto.
  - exists NElevation; auto.
Qed.
Lemma selector_unknown s : (forall n, ~ names_value s n) -> selector s = None.
Proof.
  intros H. destruct (selector s) as [k|] eqn:S; [|reflexivity].
  destruct (selector_inv s k S) as (n & Hn & _). exfalso. exact (H n Hn).
Qed.
Lemma selector_range s k : selector s = Some k -> 0 <= k <= 8.
Proof. intros H. apply selector_inv in H. destruct H as (n & _ & ->). destruct n; cbn; lia. Qed.

Definition omap {A B} (f : A -> B) (o : outcome A) : outcome B :=
  match o with Val a => Val (f a) | Throw m => Throw m | Abort => Abort | UB w => UB w end.
Lemma omap_bind {A B C} (f : B -> C) (o : outcome A) (k : A -> outcome B) :
  omap f (bind o k) = bind o (fun a => omap f (k a)).
Proof. destruct o; reflexivity. Qed.

Section Indep.
Context {DB : Type}.
Variable E : env DB.

(** ** Names, at the level of the query object *)
Lemma queryVals_known strs names (q : qstate DB) : Forall2 names_value strs names -> names <> [] ->
  exists q', set_queryVals (Some strs) q = Val q' /\ selected q' names /\ q_err q' = q_err q /\
    q' = mkQ (q_res q) (q_limit q) (q_db q) (q_dbExt q) (q_vals q') (q_geom q) (q_err q)
        (q_name q) (q_nameExt q) (q_type q) (q_cache q) (q_cacheExt q) (q_squash q).
Proof.
  intros H Hne.
  assert (M : map selector strs = map (fun n => Some (code n)) names).
  { clear Hne. induction H as [|s n ss ns Hs Hss IH]; [reflexivity|]. cbn [map]. rewrite IH, (selector_name s n Hs). reflexivity. }
  assert (F : forall e, fold_left (fun e n => match selector n with Some _ => e | None => eh_error (name_msg n) e end) strs e = e).
  { clear Hne M. induction H as [|s n ss ns Hs Hss IH]; intros e; [reflexivity|].
    cbn [fold_left]. rewrite (selector_name s n Hs). apply IH. }
  destruct strs as [|s strs]; [inversion H; subst; contradiction|].
  eexists. split; [reflexivity|]. split; [exact M|]. split; [apply F|]. cbn [q_vals q_err]. rewrite F. reflexivity.
Qed.

Lemma queryVals_unknown strs (q : qstate DB) : Exists (fun s => forall n, ~ names_value s n) strs ->
  exists q', set_queryVals (Some strs) q = Val q' /\ In None (q_vals q') /\
    eh_status (q_err q') = ERROR /\
    exists bad, In bad strs /\ (forall n, ~ names_value bad n) /\ eh_msg (q_err q') = name_msg bad.
Proof.
  intros H. destruct strs as [|s0 strs0] eqn:Es; [inversion H|].
  eexists. split; [reflexivity|]. cbn [q_vals q_err]. rewrite <- Es in *. clear Es s0 strs0. split.
  - apply Exists_exists in H. destruct H as (s & I & U). apply in_map_iff. exists s. split; [apply selector_unknown, U | exact I].
  - assert (G : forall l e, (exists m, eh_status e = ERROR /\ In m strs /\ (forall n, ~ names_value m n) /\ eh_msg e = name_msg m) \/
        Exists (fun s => forall n, ~ names_value s n) l -> incl l strs ->
      let e' := fold_left (fun e n => match selector n with Some _ => e | None => eh_error (name_msg n) e end) l e in
      eh_status e' = ERROR /\ exists bad, In bad strs /\ (forall n, ~ names_value bad n) /\ eh_msg e' = name_msg bad).
    { induction l as [|s l IH]; intros e He Hi; cbn [fold_left].
      - destruct He as [(m & S & I & U & M)|He]; [|inversion He]. split; [exact S | exists m; auto].
      - apply IH; [|intros x Hx; apply Hi; right; exact Hx].
        destruct (selector s) as [k|] eqn:S.
        + destruct He as [He|He]; [left; exact He|]. right. inversion He as [? ? Hs|? ? Hs]; subst; [|exact Hs].
          rewrite (selector_unknown s Hs) in S. discriminate.
        + left. exists s. split; [reflexivity|]. split; [apply Hi; left; reflexivity|]. split; [|reflexivity].
          intros n Hn. rewrite (selector_name s n Hn) in S. discriminate. }
    apply G; [right; exact H | apply incl_refl].
Qed.

(** ** What the three query functions depend on *)
Definition same_view (q1 q2 : qstate DB) : Prop :=
  q_type q1 = q_type q2 /\ q_geom q1 = q_geom q2 /\ q_res q1 = q_res q2.

Lemma climb_indep q1 q2 d a lon lat elev t fuel : forall e1 e2 c p res,
  omap snd (climb E fuel q1 e1 d a lon lat elev t c p res) = omap snd (climb E fuel q2 e2 d a lon lat elev t c p res).
Proof.
  induction fuel as [|fuel IH]; intros e1 e2 c p res; cbn [climb]; rewrite ?omap_bind;
    destruct (if fgt (widen (p_vs p)) f_zero then _ else _) as [[|]| | |]; cbn [bind negb]; try reflexivity.
  rewrite ?omap_bind. destruct (findAncestor res (a_level res - 1)); cbn [bind]; try reflexivity.
  destruct (e_search E d a0) as [[res' p']|]; [apply IH|].
  destruct (e_search E d a) as [[? ?]|]; reflexivity.
Qed.

Lemma queryFn_indep q1 q2 e1 e2 d lon lat elev use : same_view q1 q2 ->
  omap (fun x => (snd (fst x), snd x)) (queryFn E q1 e1 d lon lat elev use) =
  omap (fun x => (snd (fst x), snd x)) (queryFn E q2 e2 d lon lat elev use).
Proof.
  intros (T & G & R). unfold queryFn. rewrite <- T. destruct (q_type q1).
  - unfold queryMax. rewrite G. rewrite ?omap_bind. destruct (need_db d) as [d'| | |]; cbn [bind]; try reflexivity.
    rewrite ?omap_bind. destruct (query_addr _ _ _ _ _ _) as [[b i]| | |]; cbn [bind]; try reflexivity.
    destruct i; cbn [negb]; [|reflexivity]. destruct (e_search E _ b) as [[? ?]|]; reflexivity.
  - unfold queryFixed. rewrite G, R. rewrite ?omap_bind. destruct (need_db d) as [d'| | |]; cbn [bind]; try reflexivity.
    rewrite ?omap_bind. destruct (match use with Some _ => _ | None => _ end); cbn [bind]; try reflexivity.
    rewrite ?omap_bind. destruct (query_addr _ _ _ _ _ _) as [[b i]| | |]; cbn [bind]; try reflexivity.
    destruct i; cbn [negb]; [|reflexivity]. destruct (e_search E _ b) as [[? ?]|]; reflexivity.
  - unfold queryWave. rewrite G, R. rewrite ?omap_bind. destruct (need_db d) as [d'| | |]; cbn [bind]; try reflexivity.
    rewrite ?omap_bind. destruct (query_addr _ _ _ _ _ _) as [[b i]| | |]; cbn [bind]; try reflexivity.
    destruct i; cbn [negb]; [|reflexivity]. destruct (e_search E d' b) as [[h p]|]; [|reflexivity].
    rewrite ?omap_bind. destruct (if otype_eqb (a_type h) Interior then _ else _) as [[|]| | |]; cbn [bind]; try reflexivity.
    rewrite ?omap_bind.
    pose proof (climb_indep q1 q2 d' b lon lat elev (mul64 VERTEXAG (q_res q2)) (Z.to_nat (a_level h)) e1 e2 p p h) as C.
    destruct (climb _ _ q1 _ _ _ _ _ _ _ _ _ _) as [[x1 y1]| | |];
      destruct (climb _ _ q2 _ _ _ _ _ _ _ _ _ _) as [[x2 y2]| | |]; cbn in C |- *; congruence.
Qed.

Definition same_open (q1 q2 : qstate DB) : Prop := q_db q1 = q_db q2 /\ q_dbExt q1 = q_dbExt q2.

Lemma body_at_indep q1 q2 e1 e2 lon lat elev : same_view q1 q2 -> same_open q1 q2 ->
  omap snd (body_at E q1 e1 lon lat elev) = omap snd (body_at E q2 e2 lon lat elev).
Proof.
  intros V [D X]. unfold body_at. rewrite D, X. rewrite ?omap_bind.
  pose proof (queryFn_indep q1 q2 e1 e2 (q_db q2) lon lat elev None V) as Q.
  destruct (queryFn E q1 _ _ _ _ _ _) as [[[x1 p1] a1]| | |];
    destruct (queryFn E q2 _ _ _ _ _ _) as [[[x2 p2] a2]| | |]; cbn in Q |- *; try congruence.
  injection Q as -> ->. destruct (q_dbExt q2) as [x|]; [|reflexivity].
  destruct (p_block p2 =? NODATABLOCK); [|reflexivity]. rewrite ?omap_bind.
  pose proof (queryFn_indep q1 q2 x1 x2 (Some x) lon lat elev (Some a2) V) as Q2.
  destruct (queryFn E q1 _ _ _ _ _ _) as [[[y1 r1] b1]| | |];
    destruct (queryFn E q2 _ _ _ _ _ _) as [[[y2 r2] b2]| | |]; cbn in Q2 |- *; congruence.
Qed.

Lemma queryElev_indep q1 q2 lon lat elev allow : same_open q1 q2 -> q_geom q1 = q_geom q2 ->
  queryElev E q1 lon lat elev allow = queryElev E q2 lon lat elev allow.
Proof. intros [D X] G. unfold queryElev. rewrite D, X, G. reflexivity. Qed.

Lemma body_cases q lon lat elev :
  (q_squash q && fgt elev (q_limit q) = false /\
   query_body E q lon lat elev = wrap (body_at E q (q_err q) lon lat elev) (q_err q) f_zero) \/
  (q_squash q && fgt elev (q_limit q) = true /\
   match queryElev E q lon lat elev true with
   | Val s => query_body E q lon lat elev = wrap (body_at E q (q_err q) lon lat (shifted elev s)) (q_err q) s
   | Throw m => query_body E q lon lat elev = Val (eh_error m (q_err q), None, f_zero)
   | Abort => query_body E q lon lat elev = Abort
   | UB w => query_body E q lon lat elev = UB w
   end).
Proof.
  destruct (q_squash q && fgt elev (q_limit q)) eqn:S.
  - right. split; [reflexivity|]. destruct (queryElev E q lon lat elev true) eqn:Q.
    + apply body_squash; assumption.
    + unfold query_body. rewrite S, Q. reflexivity.
    + unfold query_body. rewrite S, Q. reflexivity.
    + unfold query_body. rewrite S, Q. reflexivity.
  - left. split; [reflexivity|]. apply body_plain, S.
Qed.

Lemma wrap_indep o1 o2 e1 e2 s : omap snd o1 = omap snd o2 ->
  omap (fun x => (snd (fst x), snd x)) (wrap o1 e1 s) = omap (fun x => (snd (fst x), snd x)) (wrap o2 e2 s).
Proof. destruct o1 as [[? ?]| | |]; destruct o2 as [[? ?]| | |]; cbn; congruence. Qed.

Lemma body_indep q e lon lat elev :
  omap (fun x => (snd (fst x), snd x)) (query_body E q lon lat elev) =
  omap (fun x => (snd (fst x), snd x)) (query_body E (with_err q e) lon lat elev).
Proof.
  assert (V : same_view q (with_err q e)) by (split; [|split]; reflexivity).
  assert (O : same_open q (with_err q e)) by (split; reflexivity).
  pose proof (queryElev_indep q (with_err q e) lon lat elev true O eq_refl) as QE.
  destruct (body_cases q lon lat elev) as [[S ->]|[S B]];
    destruct (body_cases (with_err q e) lon lat elev) as [[S' B']|[S' B']];
    change (q_squash (with_err q e)) with (q_squash q) in S';
    change (q_limit (with_err q e)) with (q_limit q) in S'; try congruence.
  - rewrite B'. apply wrap_indep, body_at_indep; assumption.
  - rewrite <- QE in B'. destruct (queryElev E q lon lat elev true); rewrite B, B'; try reflexivity.
    apply wrap_indep, body_at_indep; assumption.
Qed.

(** ** Copying *)
Definition known_codes (ss : list (option Z)) : Prop :=
  forall k, In (Some k) ss -> 0 <= k <= 8.

Lemma copy1_indep q q2 lon lat elev p s old1 old2 e1 e2 r : same_open q q2 -> q_geom q = q_geom q2 ->
  (forall k, s = Some k -> 0 <= k <= 8) ->
  omap (fun x => (fst (fst x), snd x)) (copy1 E q lon lat elev p s old1 e1 r) =
  omap (fun x => (fst (fst x), snd x)) (copy1 E q2 lon lat elev p s old2 e2 r).
Proof.
  intros O G K. unfold copy1. destruct s as [k|]; [|reflexivity].
  rewrite (queryElev_indep q q2 lon lat elev false O G).
  specialize (K k eq_refl).
  assert (C : k = 0 \/ k = 1 \/ k = 2 \/ k = 3 \/ k = 4 \/ k = 5 \/ k = 6 \/ k = 7 \/ k = 8) by lia.
  destruct C as [->|[->|[->|[->|[->|[->|[->|[->| ->]]]]]]]]; cbn [Z.eqb Pos.eqb]; try reflexivity.
  destruct (queryElev E q2 lon lat elev false); reflexivity.
Qed.
Lemma copy_indep q q2 lon lat elev p : same_open q q2 -> q_geom q = q_geom q2 ->
  forall ss, known_codes ss -> forall olds1 olds2 e1 e2 r, List.length olds1 = List.length olds2 ->
  omap fst (copy E q lon lat elev p ss olds1 e1 r) = omap fst (copy E q2 lon lat elev p ss olds2 e2 r).
Proof.
  intros O G. induction ss as [|s ss IH]; intros K olds1 olds2 e1 e2 r Hl; [reflexivity|].
  destruct olds1 as [|o1 olds1]; destruct olds2 as [|o2 olds2]; try discriminate; [reflexivity|].
  injection Hl as Hl. cbn [copy]. rewrite ?omap_bind.
  pose proof (copy1_indep q q2 lon lat elev p s o1 o2 e1 e2 r O G) as C.
  specialize (C ltac:(intros k ->; apply K; left; reflexivity)).
  destruct (copy1 E q _ _ _ _ _ _ _ _) as [[[v1 x1] r1]| | |];
    destruct (copy1 E q2 _ _ _ _ _ _ _ _) as [[[v2 x2] r2]| | |]; cbn in C |- *; try congruence.
  injection C as -> ->. rewrite ?omap_bind.
  assert (K' : known_codes ss) by (intros k Hk; apply K; right; exact Hk).
  pose proof (IH K' olds1 olds2 x1 x2 r2 Hl) as C2.
  destruct (copy E q _ _ _ _ _ _ _ _) as [[w1 y1]| | |];
    destruct (copy E q2 _ _ _ _ _ _ _ _) as [[w2 y2]| | |]; cbn in C2 |- *; congruence.
Qed.

(** The values of a query do not depend on the error handler, the files or the
    caller's array. *)
Lemma query_indep q e fs1 fs2 olds1 olds2 lon lat elev : known_codes (q_vals q) ->
  List.length olds1 = List.length olds2 ->
  omap snd (query E q fs1 (Some olds1) lon lat elev) =
  omap snd (query E (with_err q e) fs2 (Some olds2) lon lat elev).
Proof.
  intros K Hl. unfold query. change (q_vals (with_err q e)) with (q_vals q). rewrite Hl, ?omap_bind.
  destruct (assert_ (Datatypes.length olds2 =? Datatypes.length (q_vals q))%nat); cbn [bind]; try reflexivity.
  rewrite ?omap_bind. pose proof (body_indep q e lon lat elev) as B.
  destruct (query_body E q _ _ _) as [[[x1 p1] r1]| | |];
    destruct (query_body E (with_err q e) _ _ _) as [[[x2 p2] r2]| | |]; cbn in B |- *; try congruence.
  injection B as -> ->. destruct p2 as [p|]; [|reflexivity].
  assert (O : same_open q (with_err q e)) by (split; reflexivity).
  destruct (p_block p =? NODATABLOCK); cbv beta iota; rewrite ?omap_bind.
  - pose proof (copy_indep q (with_err q e) lon lat elev p O eq_refl (q_vals q) K olds1 olds2
       (eh_warning (nodata_msg E lon lat elev) x1) (eh_warning (nodata_msg E lon lat elev) x2) r2 Hl) as C.
    destruct (copy E q _ _ _ _ _ _ _ _) as [[w1 y1]| | |];
      destruct (copy E (with_err q e) _ _ _ _ _ _ _ _) as [[w2 y2]| | |]; cbn in C |- *; congruence.
  - pose proof (copy_indep q (with_err q e) lon lat elev p O eq_refl (q_vals q) K olds1 olds2 x1 x2 r2 Hl) as C.
    destruct (copy E q _ _ _ _ _ _ _ _) as [[w1 y1]| | |];
      destruct (copy E (with_err q e) _ _ _ _ _ _ _ _) as [[w2 y2]| | |]; cbn in C |- *; congruence.
Qed.

(** ** What a query does to the error handler and the files *)
Definition reports_only (h : list hcall) : Prop :=
  Forall (fun c => match c with HError _ | HWarning _ => True | _ => False end) h.
Definition after_reports (e e' : errh) : Prop :=
  exists h, reports_only h /\ e' = fst (hrun (fun _ => true) h (e, fun _ => None)).

Lemma after_refl e : after_reports e e.
Proof. exists []. split; [constructor | reflexivity]. Qed.
Lemma reports_fs h : reports_only h -> forall e fs fs', fst (hrun (fun _ => true) h (e, fs)) = fst (hrun (fun _ => true) h (e, fs')).
Proof.
  induction 1 as [|c h Hc Hh IH]; intros e fs fs'; [reflexivity|].
  cbn [hrun fold_left]. destruct c; try contradiction; cbn [hstep]; apply IH.
Qed.
Lemma after_trans e1 e2 e3 : after_reports e1 e2 -> after_reports e2 e3 -> after_reports e1 e3.
Proof.
  intros (h1 & R1 & ->) (h2 & R2 & ->). exists (h1 ++ h2)%list. split; [apply Forall_app; auto|].
  unfold hrun at 3. rewrite fold_left_app. fold (hrun (fun _ => true) h1 (e1, fun _ => None)).
  destruct (hrun (fun _ => true) h1 (e1, fun _ => None)) as [e fs]. cbn [fst].
  apply (reports_fs h2 R2).
Qed.
Lemma after_warning m e : after_reports e (eh_warning m e).
Proof. exists [HWarning m]. split; [repeat constructor | reflexivity]. Qed.
Lemma after_error m e : after_reports e (eh_error m e).
Proof. exists [HError m]. split; [repeat constructor | reflexivity]. Qed.
Lemma after_log e e' : after_reports e e' -> eh_stream e' = eh_stream e /\ eh_logname e' = eh_logname e.
Proof.
  intros (h & R & ->). generalize (fun _ : string => @None string). intros fs. revert e fs.
  induction R as [|c h Hc Hh IH]; intros e fs; [split; reflexivity|].
  cbn [hrun fold_left]. destruct c; try contradiction; cbn [hstep]; [exact (IH (eh_error m e) fs) | exact (IH (eh_warning m e) fs)].
Qed.

Lemma climb_after q d a lon lat elev t fuel : forall e c p res e' p',
  climb E fuel q e d a lon lat elev t c p res = Val (e', p') -> after_reports e e'.
Proof.
  induction fuel as [|fuel IH]; intros e c p res e' p' H; cbn [climb] in H; apply bind_val in H;
    destruct H as ([|] & _ & H); cbn [negb] in H; try discriminate;
    try (injection H as <- _; apply after_refl).
  apply bind_val in H. destruct H as (par & _ & H). destruct (e_search E d par) as [[res' p1]|].
  - eapply IH, H.
  - destruct (e_search E d a) as [[? ?]|]; injection H as <- _; apply after_warning.
Qed.
Lemma queryFn_after q e d lon lat elev use e' p a :
  queryFn E q e d lon lat elev use = Val (e', p, a) -> after_reports e e'.
Proof.
  unfold queryFn. destruct (q_type q); [unfold queryMax | unfold queryFixed | unfold queryWave]; intros H;
    apply bind_val in H; destruct H as (d' & _ & H).
  - apply bind_val in H. destruct H as ([b i] & _ & H). destruct i; cbn [negb] in H;
      [destruct (e_search E d' b) as [[? ?]|]|]; injection H as <- _ _; apply after_refl.
  - apply bind_val in H. destruct H as (l & _ & H). apply bind_val in H. destruct H as ([b i] & _ & H).
    destruct i; cbn [negb] in H; [destruct (e_search E d' b) as [[? ?]|]|]; injection H as <- _ _; apply after_refl.
  - apply bind_val in H. destruct H as ([b i] & _ & H). destruct i; cbn [negb] in H;
      [destruct (e_search E d' b) as [[h v]|]|]; try (injection H as <- _ _; apply after_refl).
    apply bind_val in H. destruct H as ([|] & _ & H); [injection H as <- _ _; apply after_refl|].
    apply bind_val in H. destruct H as ([e1 p1] & H1 & H). injection H as <- _ _. eapply climb_after, H1.
Qed.
Lemma body_at_after q e lon lat elev e' p : body_at E q e lon lat elev = Val (e', p) -> after_reports e e'.
Proof.
  unfold body_at. intros H. apply bind_val in H. destruct H as ([[e1 p1] a] & H1 & H). apply queryFn_after in H1.
  destruct (q_dbExt q) as [x|]; [|injection H as <- _; exact H1].
  destruct (p_block p1 =? NODATABLOCK); [|injection H as <- _; exact H1].
  apply bind_val in H. destruct H as ([[e2 p2] a2] & H2 & H). injection H as <- _.
  eapply after_trans; [exact H1 | eapply queryFn_after, H2].
Qed.
Lemma wrap_after o e s e' p s' : (forall e1 p1, o = Val (e1, p1) -> after_reports e e1) ->
  wrap o e s = Val (e', p, s') -> after_reports e e'.
Proof.
  intros H W. destruct o as [[e1 p1]| | |]; try discriminate; injection W as <- _ _; [eauto | apply after_error].
Qed.
Lemma body_after q lon lat elev e p r : query_body E q lon lat elev = Val (e, p, r) -> after_reports (q_err q) e.
Proof.
  destruct (body_cases q lon lat elev) as [[_ ->]|[_ B]].
  - apply wrap_after. intros e1 p1. apply body_at_after.
  - destruct (queryElev E q lon lat elev true); rewrite B; try discriminate.
    + apply wrap_after. intros e1 p1. apply body_at_after.
    + intros H. injection H as <- _ _. apply after_error.
Qed.
Lemma copy_after q lon lat elev p ss : forall olds e r vs e',
  copy E q lon lat elev p ss olds e r = Val (vs, e') -> after_reports e e'.
Proof.
  induction ss as [|s ss IH]; intros olds e r vs e' H; [injection H as _ <-; apply after_refl|].
  destruct olds as [|o olds]; [injection H as _ <-; apply after_refl|].
  cbn [copy] in H. apply bind_val in H. destruct H as ([[v e1] r1] & H1 & H).
  apply bind_val in H. destruct H as ([vs2 e2] & H2 & H). injection H as _ <-. apply IH in H2.
  eapply after_trans; [|exact H2]. clear H2. unfold copy1 in H1.
  destruct s as [k|]; [|discriminate].
  repeat match type of H1 with
  | (if ?b then _ else _) = _ => destruct b; [try (injection H1 as _ <- _; apply after_refl)|]
  end.
  - destruct (queryElev E q lon lat elev false); try discriminate; injection H1 as _ <- _; [apply after_refl | apply after_error].
  - injection H1 as _ <- _. apply after_error.
Qed.

(** The log line is appended to the file the log stream is open on. *)
Definition log_line (e : errh) (line : string) (fs : files) : files :=
  match eh_stream e with
  | Some n => if String.eqb n "/dev/null" then fs
              else fun m => if String.eqb m n then Some (content fs n ++ line)%string else fs m
  | None => fs
  end.
Lemma log_line_eq e e0 line fs : eh_stream e = eh_stream e0 -> eh_log line e fs = log_line e0 line fs.
Proof. intros H. unfold eh_log, log_line. rewrite H. destruct (eh_stream e0); reflexivity. Qed.

Lemma query_effects q fs vals lon lat elev q' fs' vs :
  query E q fs vals lon lat elev = Val (q', fs', vs) ->
  q' = with_err q (q_err q') /\ after_reports (q_err q) (q_err q') /\
  (fs' = fs \/ fs' = log_line (q_err q) (nodata_line E lon lat elev) fs) /\
  exists olds, vals = Some olds /\ List.length vs = List.length olds.
Proof.
  unfold query. destruct vals as [olds|]; [|discriminate]. intros H.
  apply bind_val in H. destruct H as (u & HA & H). apply bind_val in H. destruct H as ([[e p] r] & H1 & H).
  destruct p as [p|]; [|discriminate]. apply body_after in H1.
  assert (CL : forall ss olds e r vs e', copy E q lon lat elev p ss olds e r = Val (vs, e') ->
     List.length olds = List.length ss -> List.length vs = List.length olds).
  { clear. induction ss as [|s ss IH]; intros olds e r vs e' H Hl; destruct olds as [|o olds]; try discriminate.
    - injection H as <- _. reflexivity.
    - injection Hl as Hl. cbn [copy] in H. apply bind_val in H. destruct H as ([[v e1] r1] & H1 & H).
      apply bind_val in H. destruct H as ([vs2 e2] & H2 & H). injection H as <- _. cbn. f_equal. eapply IH; eassumption. }
  apply assert_val in HA. apply Nat.eqb_eq in HA.
  destruct (p_block p =? NODATABLOCK); apply bind_val in H; destruct H as ([vs1 e2] & H2 & H);
    injection H as <- <- <-; cbn [q_err with_err]; pose proof (CL _ _ _ _ _ _ H2 HA) as CL'; apply copy_after in H2.
  - split; [reflexivity|]. split; [eapply after_trans; [exact H1|]; eapply after_trans; [apply after_warning | exact H2]|].
    split; [|eauto].
    right. apply log_line_eq. apply after_log, H1.
  - split; [reflexivity|]. split; [eapply after_trans; eassumption|]. split; [left; reflexivity | eauto].
Qed.

(** No exception leaves a query. *)
Lemma copy_no_throw q lon lat elev p ss : forall olds e r m, copy E q lon lat elev p ss olds e r <> Throw m.
Proof.
  induction ss as [|s ss IH]; intros olds e r m; [discriminate|]. destruct olds as [|o olds]; [discriminate|].
  cbn [copy]. destruct (copy1 E q lon lat elev p s o e r) as [[[v e1] r1]|m1| |w] eqn:C; cbn [bind]; try discriminate.
  - specialize (IH olds e1 r1 m). destruct (copy E q lon lat elev p ss olds e1 r1) as [[vs2 e2]|m2| |w]; cbn [bind]; try discriminate.
    intros F. injection F as ->. exact (IH eq_refl).
  - unfold copy1 in C. destruct s as [k|]; [|discriminate].
    repeat match type of C with (if ?b then _ else _) = _ => destruct b; try discriminate end.
    destruct (queryElev E q lon lat elev false); discriminate.
Qed.
Lemma query_no_throw q fs vals lon lat elev m : query E q fs vals lon lat elev <> Throw m.
Proof.
  unfold query. destruct vals as [olds|]; [|discriminate].
  destruct (assert_ _) eqn:A; cbn [bind]; try discriminate.
  - destruct (query_body E q lon lat elev) as [[[e p] r]|m1| |w] eqn:B; cbn [bind]; try discriminate.
    + destruct p as [p|]; [|discriminate]. destruct (if p_block p =? NODATABLOCK then _ else _) as [e1 fs1].
      pose proof (copy_no_throw q lon lat elev p (q_vals q) olds e1 r) as N.
      destruct (copy E q lon lat elev p (q_vals q) olds e1 r) as [[vs2 e2]|m2| |w]; cbn [bind]; try discriminate.
      exfalso. exact (N m2 eq_refl).
    + unfold query_body in B. destruct (bind _ _) as [| | |]; discriminate.
  - unfold assert_ in A. destruct (_ =? _)%nat in A; discriminate.
Qed.

(** A query with a missing selector never returns. *)
Lemma copy_poison q lon lat elev p ss : In None ss -> forall olds e r, List.length olds = List.length ss ->
  forall x, copy E q lon lat elev p ss olds e r <> Val x.
Proof.
  induction ss as [|s ss IH]; intros HI olds e r Hl x; [destruct HI|].
  destruct olds as [|o olds]; [discriminate|]. injection Hl as Hl. cbn [copy].
  destruct HI as [->|HI]; [discriminate|].
  destruct (copy1 E q lon lat elev p s o e r) as [[[v e1] r1]| | |]; cbn [bind]; try discriminate.
  specialize (IH HI olds e1 r1 Hl).
  destruct (copy E q lon lat elev p ss olds e1 r1) as [y| | |]; cbn [bind]; try discriminate. exfalso. exact (IH y eq_refl).
Qed.
Lemma query_poison q fs vals lon lat elev : In None (q_vals q) ->
  query E q fs vals lon lat elev = Abort \/ exists w, query E q fs vals lon lat elev = UB w.
Proof.
  intros HI. pose proof (query_no_throw q fs vals lon lat elev) as NT.
  assert (NV : forall x, query E q fs vals lon lat elev <> Val x).
  { intros x H. unfold query in H. destruct vals as [olds|]; [|discriminate].
    apply bind_val in H. destruct H as (u & HA & H). apply assert_val in HA. apply Nat.eqb_eq in HA.
    apply bind_val in H. destruct H as ([[e p] r] & _ & H). destruct p as [p|]; [|discriminate].
    destruct (if p_block p =? NODATABLOCK then _ else _) as [e1 fs1]. apply bind_val in H. destruct H as (y & H & _).
    exact (copy_poison q lon lat elev p (q_vals q) HI olds e1 r HA y H). }
  destruct (query E q fs vals lon lat elev) as [x|m| |w]; [exfalso; exact (NV x eq_refl) | exfalso; exact (NT m eq_refl) | auto | eauto].
Qed.

(** ** Squashing *)
Lemma copy_material q1 q2 lon1 lat1 elev1 lon2 lat2 elev2 p names : Forall material names ->
  forall olds e1 e2 r1 r2, List.length olds = List.length names ->
  omap fst (copy E q1 lon1 lat1 elev1 p (map (fun n => Some (code n)) names) olds e1 r1) =
  omap fst (copy E q2 lon2 lat2 elev2 p (map (fun n => Some (code n)) names) olds e2 r2).
Proof.
  intros HM olds e1 e2 r1 r2 Hl.
  assert (N : ~ In NElevation names).
  { intros I. rewrite Forall_forall in HM. exact (HM _ I eq_refl). }
  rewrite (copy_spec E q1 lon1 lat1 elev1 p f_zero names olds e1 r1 Hl) by (intros I; contradiction).
  rewrite (copy_spec E q2 lon2 lat2 elev2 p f_zero names olds e2 r2 Hl) by (intros I; contradiction).
  reflexivity.
Qed.

Lemma query_values q1 q2 fs olds lon lat elev1 elev2 names :
  selected q1 names -> selected q2 names -> Forall material names ->
  omap (fun x => snd (fst x)) (query_body E q1 lon lat elev1) =
  omap (fun x => snd (fst x)) (query_body E q2 lon lat elev2) ->
  omap snd (query E q1 fs (Some olds) lon lat elev1) = omap snd (query E q2 fs (Some olds) lon lat elev2).
Proof.
  intros S1 S2 HM B. unfold query. rewrite S1, S2, ?omap_bind. rewrite map_length.
  destruct (assert_ (List.length olds =? List.length names)%nat) eqn:A; cbn [bind]; try reflexivity.
  assert (Hl : List.length olds = List.length names) by (apply Nat.eqb_eq; eapply assert_val; exact A).
  rewrite ?omap_bind.
  destruct (query_body E q1 _ _ _) as [[[x1 p1] r1]| | |];
    destruct (query_body E q2 _ _ _) as [[[x2 p2] r2]| | |]; cbn in B |- *; try congruence.
  injection B as ->. destruct p2 as [p|]; [|reflexivity].
  assert (K : forall e1 e2 (fs1 fs2 : files),
    omap snd (let* (vs, e'') := copy E q1 lon lat elev1 p (map (fun n => Some (code n)) names) olds e1 r1 in Val (with_err q1 e'', fs1, vs)) =
    omap snd (let* (vs, e'') := copy E q2 lon lat elev2 p (map (fun n => Some (code n)) names) olds e2 r2 in Val (with_err q2 e'', fs2, vs))).
  { intros e1 e2 fs1 fs2. pose proof (copy_material q1 q2 lon lat elev1 lon lat elev2 p names HM olds e1 e2 r1 r2 Hl) as C.
    destruct (copy E q1 _ _ _ _ _ _ _ _) as [[w1 y1]| | |];
      destruct (copy E q2 _ _ _ _ _ _ _ _) as [[w2 y2]| | |]; cbn in C |- *; congruence. }
  destruct (p_block p =? NODATABLOCK); cbv beta iota; rewrite S1, S2; apply K.
Qed.

Lemma wrap_payload o1 o2 e1 e2 s1 s2 : omap snd o1 = omap snd o2 ->
  omap (fun x => snd (fst x)) (wrap o1 e1 s1) = omap (fun x => snd (fst x)) (wrap o2 e2 s2).
Proof. destruct o1 as [[? ?]| | |]; destruct o2 as [[? ?]| | |]; cbn; congruence. Qed.

Lemma squash_shift q fs olds lon lat elev s l names :
  selected q names -> Forall material names ->
  q_squash q = true -> flt (q_limit q) elev = true -> queryElev E q lon lat elev true = Val s ->
  omap snd (query E q fs (Some olds) lon lat elev) =
  omap snd (query E (set_squash false l q) fs (Some olds) lon lat (shifted elev s)).
Proof.
  intros HS HM Hq Hl He. apply (query_values q (set_squash false l q) fs olds lon lat elev (shifted elev s) names HS HS HM).
  rewrite (body_squash E q lon lat elev s) by (rewrite ?Hq; assumption).
  rewrite (body_plain E (set_squash false l q)) by reflexivity.
  apply wrap_payload, body_at_indep; split; try split; reflexivity.
Qed.
Lemma squash_off q fs olds lon lat elev l names :
  selected q names -> Forall material names ->
  (q_squash q = false \/ flt (q_limit q) elev = false) ->
  omap snd (query E q fs (Some olds) lon lat elev) =
  omap snd (query E (set_squash false l q) fs (Some olds) lon lat elev).
Proof.
  intros HS HM Hq. apply (query_values q (set_squash false l q) fs olds lon lat elev elev names HS HS HM).
  rewrite (body_plain E q) by (destruct Hq as [->|Hq]; [reflexivity | change (fgt elev (q_limit q)) with (flt (q_limit q) elev); rewrite Hq; apply andb_false_r]).
  rewrite (body_plain E (set_squash false l q)) by reflexivity.
  apply wrap_payload, body_at_indep; split; try split; reflexivity.
Qed.

(** ** Projection failure *)
Lemma toAddr_throw g a lon lat elev : 0 <= a_level a <= 31 -> m_project g lon lat = None ->
  lonLatElevToAddr g a lon lat elev = Throw "Error while projecting location."%string.
Proof.
  intros Hl H. unfold lonLatElevToAddr.
  replace ((0 <=? a_level a) && (a_level a <? 32)) with true
    by (symmetry; apply andb_true_iff; split; [apply Z.leb_le | apply Z.ltb_lt]; lia).
  cbn [assert_ bind]. unfold project. rewrite H. reflexivity.
Qed.
Lemma query_projection q fs olds lon lat elev d r :
  q_db q = Some d -> resolution_of q r -> m_project (q_geom q) lon lat = None ->
  List.length olds = List.length (q_vals q) ->
  query_body E q lon lat elev = Val (eh_error "Error while projecting location." (q_err q), None, f_zero) /\
  query E q fs (Some olds) lon lat elev = UB "uninitialised payload read"%string.
Proof.
  intros Hd HR HP Hl.
  assert (F : forall e, queryFn E q e (Some d) lon lat elev None = Throw "Error while projecting location."%string).
  { intros e. unfold resolution_of in HR. unfold queryFn. destruct (q_type q).
    - unfold queryMax. cbn [need_db bind query_addr]. rewrite toAddr_throw; [reflexivity | cbn [a_level]; unfold MAXLEVEL; lia | exact HP].
    - destruct HR as (l & Hlv & Bl & _). unfold queryFixed. cbn [need_db bind].
      change (mul64 VERTEXAG (q_res q)) with (mul64 (i2f64 4) (q_res q)). rewrite Hlv. cbn [bind query_addr].
      rewrite toAddr_throw; [reflexivity | cbn [a_level]; unfold MAXLEVEL; lia | exact HP].
    - unfold queryWave. cbn [need_db bind query_addr]. rewrite toAddr_throw; [reflexivity | cbn [a_level]; unfold MAXLEVEL; lia | exact HP]. }
  assert (B : query_body E q lon lat elev = Val (eh_error "Error while projecting location." (q_err q), None, f_zero)).
  { destruct (body_cases q lon lat elev) as [[_ ->]|[_ B]].
    - unfold body_at. rewrite Hd, F. reflexivity.
    - assert (QE : queryElev E q lon lat elev true = Throw "Error while projecting location."%string).
      { unfold queryElev. rewrite toAddr_throw; [reflexivity | cbn [a_level]; unfold MAXLEVEL; lia | exact HP]. }
      rewrite QE in B. exact B. }
  split; [exact B|]. unfold query. rewrite Hl, Nat.eqb_refl. cbn [assert_ bind]. rewrite B. reflexivity.
Qed.

(** ** Opening and closing *)
Lemma set_db_same (q : qstate DB) : set_db q (q_db q) (q_dbExt q) (q_err q) = q.
Proof. destruct q; reflexivity. Qed.
Lemma open_again q d : q_db q = Some d -> (q_nameExt q = ""%string \/ exists x, q_dbExt q = Some x) -> open E q = Val q.
Proof.
  intros Hd Hx. unfold open. rewrite Hd. cbn [bind]. destruct Hx as [Hx|[x Hx]].
  - rewrite Hx. cbn [String.eqb bind]. rewrite <- Hd, set_db_same. reflexivity.
  - rewrite Hx. destruct (String.eqb (q_nameExt q) ""); cbn [bind]; rewrite <- Hd, <- Hx, set_db_same; reflexivity.
Qed.
Definition opened (old : option DB) (n : string) (cache : Z) : option DB :=
  match old with Some d => Some d | None => e_open E n cache end.
Lemma open_spec q : 0 < q_cache q -> 0 < q_cacheExt q ->
  let d := opened (q_db q) (q_name q) (q_cache q) in
  let x := if String.eqb (q_nameExt q) "" then q_dbExt q else opened (q_dbExt q) (q_nameExt q) (q_cacheExt q) in
  exists e, open E q = Val (set_db q d x e) /\ after_reports (q_err q) e /\
    (d <> None -> (q_nameExt q = ""%string \/ x <> None) -> e = q_err q) /\
    (d = None -> (q_nameExt q = ""%string \/ x <> None) -> e = eh_error (open_msg (q_name q)) (q_err q)) /\
    (q_nameExt q <> ""%string -> x = None -> eh_status e = ERROR /\ eh_msg e = open_ext_msg (q_nameExt q)).
Proof.
  intros C1 C2 d x. unfold open. apply Z.ltb_lt in C1, C2.
  assert (D : exists e1, (match q_db q with
    | Some d => Val (Some d, q_err q)
    | None => let* _ := assert_ (0 <? q_cache q) in
        match e_open E (q_name q) (q_cache q) with
        | Some d => Val (Some d, q_err q)
        | None => Val (None, eh_error (open_msg (q_name q)) (q_err q)) end
    end) = Val (d, e1) /\ (d <> None -> e1 = q_err q) /\ (d = None -> e1 = eh_error (open_msg (q_name q)) (q_err q)) /\
      after_reports (q_err q) e1).
  { unfold d, opened. destruct (q_db q) as [d0|].
    - eexists. split; [reflexivity|]. split; [auto|]. split; [discriminate | apply after_refl].
    - rewrite C1. cbn [assert_ bind]. destruct (e_open E (q_name q) (q_cache q)) as [d0|].
      + eexists. split; [reflexivity|]. split; [auto|]. split; [discriminate | apply after_refl].
      + eexists. split; [reflexivity|]. split; [contradiction|]. split; [auto | apply after_error]. }
  destruct D as (e1 & -> & D1 & D2 & D3). cbn [bind]. unfold x, opened. clear x.
  destruct (String.eqb (q_nameExt q) "") eqn:EX.
  - apply String.eqb_eq in EX. cbn [bind]. exists e1. split; [reflexivity|]. split; [exact D3|].
    split; [auto|]. split; [auto|]. intros N. contradiction.
  - apply String.eqb_neq in EX. destruct (q_dbExt q) as [x0|].
    + cbn [bind]. exists e1. split; [reflexivity|]. split; [exact D3|]. split; [auto|]. split; [auto|]. discriminate.
    + rewrite C2. cbn [assert_ bind]. destruct (e_open E (q_nameExt q) (q_cacheExt q)) as [x0|]; cbn [bind].
      * exists e1. split; [reflexivity|]. split; [exact D3|]. split; [auto|]. split; [auto|]. discriminate.
      * eexists. split; [reflexivity|]. split; [eapply after_trans; [exact D3 | apply after_error]|].
        split; [|split].
        -- intros _ [N|N]; contradiction.
        -- intros _ [N|N]; contradiction.
        -- intros _ _. split; reflexivity.
Qed.
Lemma close_spec q : q_db (close E q) = None /\ q_dbExt (close E q) = None /\
  close E q = set_db q None None (q_err (close E q)) /\
  ((forall d, q_db q = Some d \/ q_dbExt q = Some d -> e_close E d = true) -> q_err (close E q) = q_err q).
Proof.
  split; [reflexivity|]. split; [reflexivity|]. split; [reflexivity|].
  intros H. unfold close. cbn [set_db q_err]. unfold close1.
  destruct (q_db q) as [d|]; [rewrite (H d (or_introl eq_refl))|];
    (destruct (q_dbExt q) as [x|]; [rewrite (H x (or_intror eq_refl))|]); reflexivity.
Qed.
Lemma close_again E' (q : qstate DB) : close E (close E' q) = close E' q.
Proof. unfold close. cbn [set_db q_db q_dbExt q_err close1]. reflexivity. Qed.
Lemma close_failed q d : (q_db q = Some d \/ q_dbExt q = Some d) -> e_close E d = false ->
  eh_status (q_err (close E q)) = ERROR /\ eh_msg (q_err (close E q)) = close_msg (q_name q).
Proof.
  intros H F. unfold close. cbn [set_db q_err]. unfold close1.
  destruct H as [H|H]; rewrite H, F.
  - destruct (q_dbExt q) as [x|]; [destruct (e_close E x)|]; split; reflexivity.
  - destruct (q_db q) as [x|]; [destruct (e_close E x)|]; split; reflexivity.
Qed.
End Indep.
