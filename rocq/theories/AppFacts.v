(** Proofs about the query application. *)
From Coq Require Import ZArith Bool Lia Reals String Ascii List.
From Verif Require Import Outcome Float Payload Addr SpecOct SpecGeom Geom GeomFacts ErrorHandler VMQuery SpecQuery SpecHist
  QueryFacts QueryProof QueryHist QueryIndep Stream GetOpt QueryApp SpecText StreamFacts SpecApp.
Import ListNotations.
Open Scope Z_scope.

(** ** The error handler is only written to *)
Section Shift.
Context {DB : Type}.
Variable E : env DB.
Variable f : errh -> errh.
Hypothesis f_error : forall m e, f (eh_error m e) = eh_error m (f e).
Hypothesis f_warning : forall m e, f (eh_warning m e) = eh_warning m (f e).

Lemma climb_shift q q2 d a lon lat elev t fuel : forall e c p res,
  climb E fuel q2 (f e) d a lon lat elev t c p res =
  omap (fun x => (f (fst x), snd x)) (climb E fuel q e d a lon lat elev t c p res).
Proof.
  induction fuel as [|fuel IH]; intros e c p res; cbn [climb]; rewrite ?omap_bind;
    destruct (if fgt (widen (p_vs p)) f_zero then _ else _) as [[|]| | |]; cbn [bind negb]; try reflexivity.
  rewrite ?omap_bind. destruct (findAncestor res (a_level res - 1)) as [par| | |]; cbn [bind]; try reflexivity.
  destruct (e_search E d par) as [[res' p']|]; [apply IH|].
  destruct (e_search E d a) as [[? ?]|]; cbn [omap fst snd]; rewrite f_warning; reflexivity.
Qed.

Lemma queryFn_shift q e' e d lon lat elev use :
  queryFn E (with_err q e') (f e) d lon lat elev use =
  omap (fun x => (f (fst (fst x)), snd (fst x), snd x)) (queryFn E q e d lon lat elev use).
Proof.
  unfold queryFn. change (q_type (with_err q e')) with (q_type q). destruct (q_type q).
  - unfold queryMax. rewrite ?omap_bind. destruct (need_db d) as [d'| | |]; cbn [bind]; try reflexivity.
    rewrite ?omap_bind. change (q_geom (with_err q e')) with (q_geom q).
    destruct (query_addr _ _ _ _ _ _) as [[b i]| | |]; cbn [bind]; try reflexivity.
    destruct i; cbn [negb]; [|reflexivity]. destruct (e_search E _ b) as [[? ?]|]; reflexivity.
  - unfold queryFixed. change (q_geom (with_err q e')) with (q_geom q). change (q_res (with_err q e')) with (q_res q).
    rewrite ?omap_bind. destruct (need_db d) as [d'| | |]; cbn [bind]; try reflexivity.
    rewrite ?omap_bind. destruct (match use with Some _ => _ | None => _ end); cbn [bind]; try reflexivity.
    rewrite ?omap_bind. destruct (query_addr _ _ _ _ _ _) as [[b i]| | |]; cbn [bind]; try reflexivity.
    destruct i; cbn [negb]; [|reflexivity]. destruct (e_search E _ b) as [[? ?]|]; reflexivity.
  - unfold queryWave. change (q_geom (with_err q e')) with (q_geom q). change (q_res (with_err q e')) with (q_res q).
    rewrite ?omap_bind. destruct (need_db d) as [d'| | |]; cbn [bind]; try reflexivity.
    rewrite ?omap_bind. destruct (query_addr _ _ _ _ _ _) as [[b i]| | |]; cbn [bind]; try reflexivity.
    destruct i; cbn [negb]; [|reflexivity]. destruct (e_search E d' b) as [[h p]|]; [|reflexivity].
    rewrite ?omap_bind. destruct (if otype_eqb (a_type h) Interior then _ else _) as [[|]| | |]; cbn [bind]; try reflexivity.
    rewrite ?omap_bind. rewrite (climb_shift q (with_err q e')).
    destruct (climb _ _ q _ _ _ _ _ _ _ _ _ _) as [[x1 y1]| | |]; reflexivity.
Qed.

Lemma body_at_shift q e' e lon lat elev :
  body_at E (with_err q e') (f e) lon lat elev = omap (fun x => (f (fst x), snd x)) (body_at E q e lon lat elev).
Proof.
  unfold body_at. change (q_db (with_err q e')) with (q_db q). change (q_dbExt (with_err q e')) with (q_dbExt q).
  rewrite (queryFn_shift q e' e), ?omap_bind.
  destruct (queryFn E q e _ _ _ _ _) as [[[x1 p1] a1]| | |]; cbn [bind omap fst snd]; try reflexivity.
  destruct (q_dbExt q) as [x|]; [|reflexivity].
  destruct (p_block p1 =? NODATABLOCK); [|reflexivity].
  rewrite (queryFn_shift q e' x1), ?omap_bind.
  destruct (queryFn E q x1 _ _ _ _ _) as [[[y1 r1] b1]| | |]; reflexivity.
Qed.

Lemma body_shift q lon lat elev :
  query_body E (with_err q (f (q_err q))) lon lat elev =
  omap (fun x => (f (fst (fst x)), snd (fst x), snd x)) (query_body E q lon lat elev).
Proof.
  set (q2 := with_err q (f (q_err q))).
  assert (W : forall elevQ s, wrap (body_at E q2 (q_err q2) lon lat elevQ) (q_err q2) s =
    omap (fun x => (f (fst (fst x)), snd (fst x), snd x)) (wrap (body_at E q (q_err q) lon lat elevQ) (q_err q) s)).
  { intros elevQ s. unfold q2. rewrite (body_at_shift q (f (q_err q)) (q_err q)).
    change (q_err (with_err q (f (q_err q)))) with (f (q_err q)).
    destruct (body_at E q (q_err q) lon lat elevQ) as [[e p]|m| |w]; cbn [omap wrap fst snd]; try reflexivity.
    rewrite f_error. reflexivity. }
  pose proof (queryElev_indep E q q2 lon lat elev true (conj eq_refl eq_refl) eq_refl) as QE.
  destruct (body_cases E q lon lat elev) as [[S ->]|[S B]];
    destruct (body_cases E q2 lon lat elev) as [[S' B']|[S' B']];
    change (q_squash q2) with (q_squash q) in S'; change (q_limit q2) with (q_limit q) in S'; try congruence.
  - rewrite <- QE in B'. destruct (queryElev E q lon lat elev true); rewrite B, B'; try reflexivity.
    + apply W.
    + cbn [omap fst snd]. rewrite f_error. reflexivity.
Qed.
End Shift.

(** ** Queries of all nine values *)
Section Nine.
Context {DB : Type}.
Variable E : env DB.

Definition values9 (p : payload) (s : f64) : list f64 :=
  [widen (p_vp p); widen (p_vs p); widen (p_density p); widen (p_qp p); widen (p_qs p); widen (p_dfs p);
   i2f64 (p_block p); i2f64 (p_zone p); s].

Lemma copy_nine q lon lat elev p olds e r : List.length olds = 9%nat ->
  copy E q lon lat elev p nine olds e r =
  match queryElev E q lon lat elev false with
  | Val s => Val (values9 p s, e)
  | Throw m => Val (values9 p r, eh_error m e)
  | Abort => Abort
  | UB w => UB w
  end.
Proof.
  intros H. destruct olds as [|o0 [|o1 [|o2 [|o3 [|o4 [|o5 [|o6 [|o7 [|o8 [|o9 l]]]]]]]]]]; try discriminate.
  unfold nine. cbn [map copy copy1 bind Z.eqb Pos.eqb].
  destruct (queryElev E q lon lat elev false); reflexivity.
Qed.

Lemma query_nine q fs olds lon lat elev : q_vals q = nine -> List.length olds = 9%nat ->
  query E q fs (Some olds) lon lat elev =
  match query_body E q lon lat elev with
  | Val (e, Some p, r) =>
      let e1 := if p_block p =? 0 then eh_warning (nodata_msg E lon lat elev) e else e in
      let fs1 := if p_block p =? 0 then eh_log (nodata_line E lon lat elev) e fs else fs in
      match queryElev E q lon lat elev false with
      | Val s => Val (with_err q e1, fs1, values9 p s)
      | Throw m => Val (with_err q (eh_error m e1), fs1, values9 p r)
      | Abort => Abort
      | UB w => UB w
      end
  | Val (_, None, _) => UB "uninitialised payload read"%string
  | Throw m => Throw m
  | Abort => Abort
  | UB w => UB w
  end.
Proof.
  intros HV HL. unfold query. rewrite HV, HL. change (assert_ (9 =? List.length nine)%nat) with (Val tt). cbn [bind].
  destruct (query_body E q lon lat elev) as [[[e [p|]] r]|m| |w]; cbn [bind]; try reflexivity.
  change NODATABLOCK with 0. destruct (p_block p =? 0); cbv beta iota zeta; rewrite copy_nine by exact HL;
    destruct (queryElev E q lon lat elev false); reflexivity.
Qed.

Lemma query_length q fs olds lon lat elev x : query E q fs (Some olds) lon lat elev = Val x ->
  List.length olds = List.length (q_vals q).
Proof.
  unfold query. intros H. apply bind_val in H. destruct H as (u & A & _). apply assert_val in A.
  apply Nat.eqb_eq, A.
Qed.

(** *** Fault blocks and zones *)
Definition pay_short (p : payload) : Prop := short (p_block p) /\ short (p_zone p).
Lemma nodata_short : pay_short noData.
Proof. split; split; vm_compute; discriminate. Qed.
Lemma climb_short q d (SH : stores_shorts E (Some d)) a lon lat elev t fuel : forall e c p res e' p', pay_short p ->
  climb E fuel q e d a lon lat elev t c p res = Val (e', p') -> pay_short p'.
Proof.
  induction fuel as [|fuel IH]; intros e c p res e' p' HP H; cbn [climb] in H; apply bind_val in H;
    destruct H as ([|] & _ & H); cbn [negb] in H; try discriminate;
    try (injection H as _ <-; exact HP).
  apply bind_val in H. destruct H as (par & _ & H). destruct (e_search E d par) as [[res' p1]|] eqn:Q.
  - eapply IH; [|exact H]. exact (SH _ _ _ _ eq_refl Q).
  - destruct (e_search E d a) as [[? ?]|] eqn:Q2; injection H as _ <-; [exact (SH _ _ _ _ eq_refl Q2) | exact HP].
Qed.
Lemma queryFn_short q e d (SH : stores_shorts E d) lon lat elev use e' p a :
  queryFn E q e d lon lat elev use = Val (e', p, a) -> pay_short p.
Proof.
  unfold queryFn. destruct (q_type q); [unfold queryMax | unfold queryFixed | unfold queryWave]; intros H;
    apply bind_val in H; destruct H as (d' & D & H); destruct d as [d1|]; try discriminate; injection D as ->.
  - apply bind_val in H. destruct H as ([b i] & _ & H). destruct i; cbn [negb] in H;
      [destruct (e_search E d' b) as [[? ?]|] eqn:Q|]; injection H as _ <- _; try exact nodata_short.
    destruct (otype_eqb _ _); [exact nodata_short | exact (SH _ _ _ _ eq_refl Q)].
  - apply bind_val in H. destruct H as (l & _ & H). apply bind_val in H. destruct H as ([b i] & _ & H).
    destruct i; cbn [negb] in H; [destruct (e_search E d' b) as [[? ?]|] eqn:Q|]; injection H as _ <- _; try exact nodata_short.
    destruct (_ && _); [exact nodata_short | exact (SH _ _ _ _ eq_refl Q)].
  - apply bind_val in H. destruct H as ([b i] & _ & H). destruct i; cbn [negb] in H;
      [destruct (e_search E d' b) as [[h v]|] eqn:Q|]; try (injection H as _ <- _; exact nodata_short).
    apply bind_val in H. destruct H as ([|] & _ & H); [injection H as _ <- _; exact nodata_short|].
    apply bind_val in H. destruct H as ([e1 p1] & H1 & H). injection H as _ <- _. eapply climb_short; [exact SH| |exact H1].
    exact (SH _ _ _ _ eq_refl Q).
Qed.
Lemma body_short q (SH : stores_shorts E (q_db q)) (SX : stores_shorts E (q_dbExt q)) lon lat elev e p r : query_body E q lon lat elev = Val (e, Some p, r) -> pay_short p.
Proof.
  assert (B : forall elevQ e1 p1, body_at E q (q_err q) lon lat elevQ = Val (e1, p1) -> pay_short p1).
  { intros elevQ e1 p1 H. unfold body_at in H. apply bind_val in H. destruct H as ([[e2 p2] a] & H1 & H).
    apply queryFn_short in H1; [|exact SH]. destruct (q_dbExt q) as [x|] eqn:DX; [|injection H as _ <-; exact H1].
    destruct (p_block p2 =? NODATABLOCK); [|injection H as _ <-; exact H1].
    apply bind_val in H. destruct H as ([[e3 p3] a3] & H2 & H). injection H as _ <-. eapply queryFn_short, H2. exact SX. }
  assert (W : forall elevQ s, wrap (body_at E q (q_err q) lon lat elevQ) (q_err q) s = Val (e, Some p, r) -> pay_short p).
  { intros elevQ s H. destruct (body_at E q (q_err q) lon lat elevQ) as [[e1 p1]|m| |w] eqn:Q; try discriminate.
    injection H as _ <- _. eapply B, Q. }
  destruct (body_cases E q lon lat elev) as [[_ ->]|[_ C]]; [apply W|].
  destruct (queryElev E q lon lat elev true); rewrite C; try discriminate. apply W.
Qed.
End Nine.

(** ** Integers in the output *)
Lemma toInt_short b : short b -> toInt (i2f64 b) = Val b.
Proof.
  intros H. unfold short in H. destruct (repr_int b ltac:(lia)) as (V & F & R).
  unfold toInt. rewrite (ftrunc_R _ F), R, Flocq.Core.Raux.Ztrunc_IZR.
  rewrite (proj2 (Z.leb_le _ _)), (proj2 (Z.leb_le _ _)) by lia. reflexivity.
Qed.
Lemma i2f64_zero b : short b -> feq (i2f64 b) f_zero = (b =? 0).
Proof.
  intros H. unfold short in H. destruct (Z.eqb_spec b 0) as [->|N]; [reflexivity|].
  destruct (feq (i2f64 b) f_zero) eqn:Q; [|reflexivity]. exfalso. apply N.
  destruct (repr_int b ltac:(lia)) as (V & F & R).
  apply eq_IZR. rewrite <- R. unfold feq, SFeqb in Q.
  destruct (i2f64 b) as [s|s| |s m e]; try discriminate F; [reflexivity|].
  destruct s; discriminate Q.
Qed.
Lemma outLine_values T lon lat elev p s : pay_short p ->
  outLine T lon lat elev (values9 p s) = Val (line_text T (lon, lat, elev) (values9 p s) (p_block p) (p_zone p)).
Proof.
  intros [H1 H2]. unfold outLine. change (nth64 (values9 p s) 6) with (i2f64 (p_block p)).
  change (nth64 (values9 p s) 7) with (i2f64 (p_zone p)). rewrite !toInt_short by assumption. reflexivity.
Qed.

(** ** Reading locations *)
Section Read.
Variable T : texts.
Notation F := (t_num T).
Variables (rest : list string) (e : string).
Hypothesis HR : no_location F rest.
Hypothesis HE : unterminated e.

(** The stream and the variables when these locations are still to be handled: the
    first one has been read. *)
Definition at_locations (loc : location) (s : istream) (ls : list location) : Prop :=
  match ls with
  | [] => good s = false
  | l :: ls' => loc = l /\ exists ws t, s = fresh (t ++ e) /\ laid_out (ws ++ rest) t /\ located F ws ls'
  end.

Lemma readLocation_eq old s : readLocation T old s =
  let r1 := getNum (n_f64 F) (fst (fst old)) s in
  let r2 := getNum (n_f64 F) (snd (fst old)) (fst r1) in
  let r3 := getNum (n_f64 F) (snd old) (fst r2) in
  (fst r3, (snd r1, snd r2, snd r3)).
Proof.
  destruct old as [[a b] c]. unfold readLocation. cbn [fst snd].
  destruct (getNum (n_f64 F) a s) as [s1 x1]. cbn [fst snd].
  destruct (getNum (n_f64 F) b s1) as [s2 x2]. cbn [fst snd].
  destruct (getNum (n_f64 F) c s2) as [s3 x3]. reflexivity.
Qed.

Lemma getNum_fail w ws t old v : laid_out (w :: ws) t -> n_f64 F w = (v, false) ->
  good (fst (getNum (n_f64 F) old (fresh (t ++ e)))) = false.
Proof.
  intros H C. destruct (getNum_laid (n_f64 F) old w ws t e v false H C) as (t' & -> & _). reflexivity.
Qed.

Lemma read_stops old t : laid_out rest t ->
  good (fst (readLocation T old (fresh (t ++ e)))) = false.
Proof.
  intros H. rewrite readLocation_eq. cbv zeta. cbn [fst].
  set (s0 := fresh (t ++ e)). set (o1 := fst (fst old)). set (o2 := snd (fst old)). set (o3 := snd old).
  destruct rest as [|a [|b [|c r]]] eqn:R.
  - assert (B : blanks t) by (inversion H; assumption).
    do 2 apply getNum_bad. apply getNum_end; [exact B | exact HE].
  - destruct (n_f64 F a) as [va [|]] eqn:A.
    + destruct (getNum_laid (n_f64 F) o1 a [] t e va true H A) as (t1 & Q & H1). fold s0 in Q. rewrite Q.
      assert (B : blanks t1) by (inversion H1; assumption).
      apply getNum_bad. apply (getNum_end (n_f64 F) o2 t1 e B HE).
    + do 2 apply getNum_bad. exact (getNum_fail a [] t o1 va H A).
  - destruct (n_f64 F a) as [va [|]] eqn:A; [|do 2 apply getNum_bad; exact (getNum_fail a [b] t o1 va H A)].
    destruct (getNum_laid (n_f64 F) o1 a [b] t e va true H A) as (t1 & Q & H1). fold s0 in Q. rewrite Q. cbn [fst negb].
    change (mkIn (chars (t1 ++ e)) false false) with (fresh (t1 ++ e)).
    destruct (n_f64 F b) as [vb [|]] eqn:B; [|apply getNum_bad; exact (getNum_fail b [] t1 o2 vb H1 B)].
    destruct (getNum_laid (n_f64 F) o2 b [] t1 e vb true H1 B) as (t2 & Q2 & H2). rewrite Q2. cbn [fst negb].
    assert (Bl : blanks t2) by (inversion H2; assumption). apply (getNum_end (n_f64 F) o3 t2 e Bl HE).
  - destruct (n_f64 F a) as [va [|]] eqn:A; [|do 2 apply getNum_bad; exact (getNum_fail a _ t o1 va H A)].
    destruct (getNum_laid (n_f64 F) o1 a _ t e va true H A) as (t1 & Q & H1). fold s0 in Q. rewrite Q. cbn [fst negb].
    change (mkIn (chars (t1 ++ e)) false false) with (fresh (t1 ++ e)).
    destruct (n_f64 F b) as [vb [|]] eqn:B; [|apply getNum_bad; exact (getNum_fail b _ t1 o2 vb H1 B)].
    destruct (getNum_laid (n_f64 F) o2 b _ t1 e vb true H1 B) as (t2 & Q2 & H2). rewrite Q2. cbn [fst negb].
    change (mkIn (chars (t2 ++ e)) false false) with (fresh (t2 ++ e)).
    destruct (n_f64 F c) as [vc [|]] eqn:C; [|exact (getNum_fail c _ t2 o3 vc H2 C)].
    exfalso. apply (HR a b c r va vb vc eq_refl). split; [|split]; assumption.
Qed.

Lemma read_next old ws t ls : laid_out (ws ++ rest) t -> located F ws ls ->
  let r := readLocation T old (fresh (t ++ e)) in at_locations (snd r) (fst r) ls.
Proof.
  intros H L. inversion L as [|a b c lon lat elev ws' ls' A B C L']; subst.
  - cbv zeta. unfold at_locations. apply read_stops, H.
  - cbv zeta. cbn [app] in H. unfold numeral in A, B, C.
    destruct (getNum_laid (n_f64 F) (fst (fst old)) a _ t e lon true H A) as (t1 & Q1 & H1).
    destruct (getNum_laid (n_f64 F) (snd (fst old)) b _ t1 e lat true H1 B) as (t2 & Q2 & H2).
    destruct (getNum_laid (n_f64 F) (snd old) c _ t2 e elev true H2 C) as (t3 & Q3 & H3).
    cbn [negb] in Q1, Q2, Q3. change (mkIn (chars (t1 ++ e)) false false) with (fresh (t1 ++ e)) in Q1.
    change (mkIn (chars (t2 ++ e)) false false) with (fresh (t2 ++ e)) in Q2.
    change (mkIn (chars (t3 ++ e)) false false) with (fresh (t3 ++ e)) in Q3.
    rewrite readLocation_eq. cbv zeta. rewrite Q1. cbn [fst snd]. rewrite Q2. cbn [fst snd]. rewrite Q3. cbn [fst snd].
    unfold at_locations. split; [reflexivity|]. exists ws', t3. split; [reflexivity|]. split; [exact H3 | exact L'].
Qed.
End Read.

Lemma laid_length ws t : laid_out ws t -> (List.length ws <= String.length t)%nat.
Proof.
  induction 1 as [|s w c r ws Hs Hw Hc Hr IH]; [cbn; lia|].
  cbn [List.length]. rewrite !length_app_s. cbn [String.length]. lia.
Qed.
Lemma located_length F ws ls : located F ws ls -> List.length ws = (3 * List.length ls)%nat.
Proof. induction 1; cbn [List.length] in *; lia. Qed.

(** ** One query of the loop *)
Section Loop.
Context {DB : Type}.
Variables (E : env DB) (T : texts) (S : os).
Hypothesis WOK : forall l, o_write S l = true.
Variable q0 : qstate DB.
Hypothesis SH : stores_shorts E (q_db q0).
Hypothesis SX : stores_shorts E (q_dbExt q0).
Hypothesis Q0v : q_vals q0 = nine.
Hypothesis Q0e : q_err q0 = eh_new.

Definition clean (e : errh) : Prop := eh_status e = OK /\ eh_msg e = ""%string.
Definition relog (e1 e : errh) : errh := mkErrh (eh_status e) (eh_msg e) (eh_logname e1) (eh_stream e1).
Lemma relog_new e1 : clean e1 -> relog e1 eh_new = e1.
Proof. intros [H1 H2]. destruct e1; cbn in *; subst; reflexivity. Qed.

Lemma query_relog e1 fs fs0 vals olds lon lat elev : clean e1 ->
  List.length vals = 9%nat -> List.length olds = 9%nat ->
  query E (with_err q0 e1) fs (Some vals) lon lat elev =
  match query E q0 fs0 (Some olds) lon lat elev with
  | Val (q', _, v) => Val (with_err q0 (relog e1 (q_err q')),
      if feq (nth64 v 6) f_zero then eh_log (nodata_line E lon lat elev) e1 fs else fs, v)
  | Throw m => Throw m
  | Abort => Abort
  | UB w => UB w
  end.
Proof.
  intros HC HV HO. rewrite (query_nine E (with_err q0 e1)) by (assumption || exact Q0v). rewrite (query_nine E q0) by assumption.
  assert (SHF : query_body E (with_err q0 e1) lon lat elev =
    omap (fun x => (relog e1 (fst (fst x)), snd (fst x), snd x)) (query_body E q0 lon lat elev)).
  { rewrite <- (body_shift E (relog e1)) by (intros; reflexivity). rewrite Q0e, relog_new by exact HC. reflexivity. }
  rewrite SHF.
  destruct (query_body E q0 lon lat elev) as [[[e [p|]] r]|m| |w] eqn:QB; cbn [omap fst snd]; try reflexivity.
  pose proof (body_short E q0 SH SX lon lat elev e p r QB) as [PB PZ].
  rewrite (queryElev_indep E (with_err q0 e1) q0 lon lat elev false (conj eq_refl eq_refl) eq_refl).
  assert (EL : eh_log (nodata_line E lon lat elev) (relog e1 e) fs = eh_log (nodata_line E lon lat elev) e1 fs) by reflexivity.
  cbv zeta. destruct (queryElev E q0 lon lat elev false) as [s|m| |w]; cbv iota beta; try reflexivity.
  - change (nth64 (values9 p s) 6) with (i2f64 (p_block p)). rewrite i2f64_zero by exact PB.
    destruct (p_block p =? 0); reflexivity.
  - change (nth64 (values9 p r) 6) with (i2f64 (p_block p)). rewrite i2f64_zero by exact PB.
    destruct (p_block p =? 0); reflexivity.
Qed.

Lemma reply_line l y : replies E q0 l y -> exists line,
  outLine T (fst (fst l)) (snd (fst l)) (snd l) (y_vals y) = Val line /\ line_for T l y line /\ List.length (y_vals y) = 9%nat.
Proof.
  destruct l as [[lon lat] elev]. intros (fs & olds & q' & fs' & Q & _ & _). cbn [fst snd].
  pose proof (query_length E _ _ _ _ _ _ _ Q) as L. rewrite Q0v in L. change (List.length nine) with 9%nat in L.
  rewrite query_nine in Q by assumption.
  destruct (query_body E q0 lon lat elev) as [[[e [p|]] r]|m| |w] eqn:QB; try discriminate.
  pose proof (body_short E q0 SH SX lon lat elev e p r QB) as PS. cbv zeta in Q.
  assert (G : exists s, y_vals y = values9 p s).
  { destruct (queryElev E q0 lon lat elev false) as [s|m| |w]; try discriminate;
      injection Q as _ _ <-; eauto. }
  destruct G as [s G]. exists (line_text T (lon, lat, elev) (y_vals y) (p_block p) (p_zone p)). rewrite G.
  split; [apply outLine_values, PS|]. split; [|reflexivity]. exists (p_block p), (p_zone p). destruct PS as [P1 P2].
  rewrite G. auto.
Qed.

(** What the log gets, starting from files [fs]. *)
Fixpoint logs (e1 : errh) (ls : list location) (ys : list reply) (fs : files) : files :=
  match ls, ys with
  | (lon, lat, elev) :: ls', y :: ys' =>
      logs e1 ls' ys' (if no_data_reply y then eh_log (nodata_line E lon lat elev) e1 fs else fs)
  | _, _ => fs
  end.

Variables (rest : list string) (e : string).
Hypothesis HR : no_location (t_num T) rest.
Hypothesis HE : unterminated e.

Lemma loop_good ls ys : Forall2 (replies E q0) ls ys -> Forall (fun y => y_status y <> ERROR) ys ->
  forall more fuel e1 w lines fs vals loc s, clean e1 -> List.length vals = 9%nat ->
  at_locations T rest e loc s (ls ++ more) -> (List.length (ls ++ more) <= fuel)%nat ->
  exists fuel' vals' loc' s' e2 lines', clean e2 /\ eh_stream e2 = eh_stream e1 /\ List.length vals' = 9%nat /\
    (List.length more <= fuel')%nat /\ at_locations T rest e loc' s' more /\ lines_for T ls ys lines' /\
    locationLoop E T S fuel (with_err q0 e1) w lines fs true vals loc s =
    locationLoop E T S fuel' (with_err q0 e2) (w ++ warned ys)%list (lines ++ lines')%list (logs e1 ls ys fs) true vals' loc' s'.
Proof.
  induction 1 as [|l y ls ys Hl Hls IH]; intros NE more fuel e1 w lines fs vals loc s HC HV HA HF.
  - exists fuel, vals, loc, s, e1, []. change (warned []) with (@nil said). cbn [logs]. rewrite !app_nil_r.
    repeat (split; [first [assumption | reflexivity | constructor]|]). reflexivity.
  - inversion NE as [|y' ys' NE1 NE2]; subst.
    cbn [app at_locations] in HA. destruct HA as (-> & ws & t & -> & Ht & Hw).
    destruct fuel as [|fuel]; [cbn in HF; lia|].
    destruct (reply_line l y Hl) as (line & QL & LF & LV). destruct l as [[lon lat] elev]. cbn [fst snd] in QL.
    destruct Hl as (fs0 & olds & q' & fs' & Q & QS & QM).
    pose proof (query_length E _ _ _ _ _ _ _ Q) as LO. rewrite Q0v in LO. change (List.length nine) with 9%nat in LO.
    pose proof (query_relog e1 fs fs0 vals olds lon lat elev HC HV LO) as QR. rewrite Q in QR.
    set (e2 := eh_reset (relog e1 (q_err q'))).
    pose proof (read_next T rest e HR HE (lon, lat, elev) ws t (ls ++ more) Ht Hw) as RN. cbv zeta in RN.
    set (r := readLocation T (lon, lat, elev) (fresh (t ++ e))) in *.
    specialize (IH NE2 more fuel). 
    set (fs1 := if feq (nth64 (y_vals y) 6) f_zero then eh_log (nodata_line E lon lat elev) e1 fs else fs) in *.
    assert (ST : exists e3, clean e3 /\ eh_stream e3 = eh_stream e1 /\
      locationLoop E T S (Datatypes.S fuel) (with_err q0 e1) w lines fs true vals (lon, lat, elev) (fresh (t ++ e)) =
      locationLoop E T S fuel (with_err q0 e3) (w ++ warned [y])%list (lines ++ [line])%list fs1 true (y_vals y) (snd r) (fst r)).
    { cbn [locationLoop]. change (negb (i_eof (fresh (t ++ e))) && good (fresh (t ++ e)) && true) with true. cbv iota.
      rewrite QR. cbn [bind]. unfold bad, is_error. cbn [with_err q_err relog eh_status]. rewrite QS, QL. cbn [bind].
      unfold tell. cbn [with_err q_err relog eh_msg]. rewrite QM. rewrite WOK.
      unfold warned. cbn [flat_map app]. fold r. rewrite (surjective_pairing r). cbn [fst snd].
      destruct (y_status y) eqn:YS; cbn [andb].
      - exists (relog e1 (q_err q')). rewrite app_nil_r.
        assert (CM : clean (relog e1 (q_err q'))).
        { split; [exact QS|]. cbn [relog eh_msg].
          assert (AR : after_reports (q_err q0) (q_err q')) by (eapply query_effects; exact Q).
          destruct AR as (h & RO & QH). clear - RO QH QS Q0e.
          pose proof (handler_last (fun _ => true) h (q_err q0, fun _ => None)) as HL. cbn [fst] in HL.
          rewrite <- QH, QS, Q0e in HL. cbn [eh_new eh_status eh_msg] in HL. clear QH QS.
          destruct h as [|c h _] using rev_ind; [injection HL as ->; reflexivity|].
          rewrite last_given_snoc in HL. apply Forall_app in RO. destruct RO as [_ RO]. inversion RO as [|c' h' RC _]; subst.
          destruct c; try contradiction; discriminate HL. }
        split; [exact CM|]. split; reflexivity.
      - exists e2. split; [split; reflexivity|]. split; [reflexivity|]. rewrite app_nil_r. reflexivity.
      - contradiction. }
    destruct ST as (e3 & C3 & S3 & ST).
    destruct (IH e3 (w ++ warned [y])%list (lines ++ [line])%list fs1 (y_vals y) (snd r) (fst r) C3 LV RN)
      as (fuel' & vals' & loc' & s' & e4 & lines' & C4 & S4 & LV' & LF' & A' & LL & QQ).
    { cbn [app List.length] in HF. lia. }
    exists fuel', vals', loc', s', e4, (line :: lines').
    split; [exact C4|]. split; [congruence|]. split; [exact LV'|]. split; [exact LF'|]. split; [exact A'|].
    split; [constructor; assumption|]. rewrite ST, QQ.
    replace (w ++ warned (y :: ys))%list with ((w ++ warned [y]) ++ warned ys)%list
      by (unfold warned; cbn [flat_map]; rewrite app_nil_r, app_assoc; reflexivity).
    replace (lines ++ line :: lines')%list with ((lines ++ [line]) ++ lines')%list by (rewrite <- app_assoc; reflexivity).
    cbn [logs]. change (if no_data_reply y then _ else fs) with fs1.
    assert (LG : forall ls ys fs, logs e3 ls ys fs = logs e1 ls ys fs).
    { clear - S3. induction ls as [|[[? ?] ?] ls IH]; intros [|y ys] fs; cbn [logs]; try reflexivity.
      rewrite IH. unfold eh_log. rewrite S3. reflexivity. }
    rewrite LG. reflexivity.
Qed.

Lemma loop_error l y : replies E q0 l y -> y_status y = ERROR ->
  forall more fuel e1 w lines fs vals s, clean e1 -> List.length vals = 9%nat ->
  at_locations T rest e l s (l :: more) -> (1 <= fuel)%nat ->
  exists e2 , locationLoop E T S fuel (with_err q0 e1) w lines fs true vals l s =
    leave E 1 (with_err q0 e2) (w ++ [Said (y_msg y)])%list (Some lines) (logs e1 [l] [y] fs).
Proof.
  intros Hl YE more fuel e1 w lines fs vals s HC HV HA HF.
  destruct HA as (_ & ws & t & -> & _). destruct fuel as [|fuel]; [lia|]. destruct l as [[lon lat] elev].
  destruct Hl as (fs0 & olds & q' & fs' & Q & QS & QM).
  pose proof (query_length E _ _ _ _ _ _ _ Q) as LO. rewrite Q0v in LO. change (List.length nine) with 9%nat in LO.
  pose proof (query_relog e1 fs fs0 vals olds lon lat elev HC HV LO) as QR. rewrite Q in QR.
  exists (relog e1 (q_err q')).
  cbn [locationLoop]. change (negb (i_eof (fresh (t ++ e))) && good (fresh (t ++ e)) && true) with true. cbv iota.
  rewrite QR. cbn [bind]. unfold bad, is_error. cbn [with_err q_err relog eh_status]. rewrite QS, YE. cbn [andb].
  unfold tell. cbn [with_err q_err relog eh_msg]. rewrite QM. reflexivity.
Qed.

Lemma loop_fails l o : fails E q0 l o ->
  forall more fuel e1 w lines fs vals s, clean e1 -> List.length vals = 9%nat ->
  at_locations T rest e l s (l :: more) -> (1 <= fuel)%nat ->
  locationLoop E T S fuel (with_err q0 e1) w lines fs true vals l s = o.
Proof.
  intros Hl more fuel e1 w lines fs vals s HC HV HA HF.
  destruct HA as (_ & ws & t & -> & _). destruct fuel as [|fuel]; [lia|]. destruct l as [[lon lat] elev].
  destruct Hl as (fs0 & olds & LO & Q).
  pose proof (query_relog e1 fs fs0 vals olds lon lat elev HC HV LO) as QR.
  cbn [locationLoop]. change (negb (i_eof (fresh (t ++ e))) && good (fresh (t ++ e)) && true) with true. cbv iota.
  rewrite QR. destruct Q as [[-> ->]|(why & -> & ->)]; reflexivity.
Qed.

Lemma loop_end fuel q w lines fs vals loc s : at_locations T rest e loc s [] ->
  locationLoop E T S fuel q w lines fs true vals loc s = finish E q w lines fs.
Proof.
  unfold at_locations. intros H. destruct fuel; cbn [locationLoop]; rewrite H, andb_false_r; reflexivity.
Qed.
End Loop.
