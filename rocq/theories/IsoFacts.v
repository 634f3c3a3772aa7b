(** Proofs about the search for an isosurface. *)
From Coq Require Import ZArith Bool Reals Lra Lia Psatz String Ascii List.
From Flocq Require Import Core BinarySingleNaN.
From Verif Require Import Outcome Float Payload Addr SpecOct SpecGeom FloatFacts Geom GeomFacts ErrorHandler VMQuery SpecQuery SpecHist
  QueryFacts QueryProof QueryHist QueryIndep Stream GetOpt QueryApp IsoApp SpecText SpecApp SpecIso IsoNum.
Import ListNotations.
Open Scope Z_scope.

Section Search.
Context {DB : Type}.
Variables (E : env DB).

(** ** Objects that are asked for one value *)
Definition only (k : Z) (q : qstate DB) : qstate DB :=
  mkQ (q_res q) (q_limit q) (q_db q) (q_dbExt q) [Some k] (q_geom q) (q_err q)
      (q_name q) (q_nameExt q) (q_type q) (q_cache q) (q_cacheExt q) (q_squash q).
Lemma set_vs q : set_queryVals (Some ["Vs"%string]) q = Val (only 1 q).
Proof. destruct q. reflexivity. Qed.
Lemma set_elevation q : set_queryVals (Some ["Elevation"%string]) q = Val (only 8 q).
Proof. destruct q. reflexivity. Qed.
Lemma only_err k (q : qstate DB) e : only k (with_err q e) = with_err (only k q) e.
Proof. destruct q. reflexivity. Qed.
Lemma only_only j k (q : qstate DB) : only j (only k q) = only j q.
Proof. destruct q. reflexivity. Qed.
Lemma err_err (q : qstate DB) e e' : with_err (with_err q e) e' = with_err q e'.
Proof. destruct q. reflexivity. Qed.
Lemma err_same (q : qstate DB) : with_err q (q_err q) = q.
Proof. destruct q. reflexivity. Qed.

(** *** No error is reported by a query for a wave speed *)
Lemma climb_ne q d a lon lat elev t fuel : forall e c p res e' p',
  climb E fuel q e d a lon lat elev t c p res = Val (e', p') -> eh_status e <> ERROR -> eh_status e' <> ERROR.
Proof.
  induction fuel as [|fuel IH]; intros e c p res e' p' H N; cbn [climb] in H; apply bind_val in H;
    destruct H as ([|] & _ & H); cbn [negb] in H; try discriminate;
    try (injection H as <- _; exact N).
  apply bind_val in H. destruct H as (par & _ & H). destruct (e_search E d par) as [[res' p1]|].
  - eapply IH; eassumption.
  - destruct (e_search E d a) as [[? ?]|]; injection H as <- _; discriminate.
Qed.
Lemma queryFn_ne q e d lon lat elev use e' p a :
  queryFn E q e d lon lat elev use = Val (e', p, a) -> eh_status e <> ERROR -> eh_status e' <> ERROR.
Proof.
  unfold queryFn. destruct (q_type q); [unfold queryMax | unfold queryFixed | unfold queryWave]; intros H N;
    apply bind_val in H; destruct H as (d' & _ & H).
  - apply bind_val in H. destruct H as ([b i] & _ & H). destruct i; cbn [negb] in H;
      [destruct (e_search E d' b) as [[? ?]|]|]; injection H as <- _ _; exact N.
  - apply bind_val in H. destruct H as (l & _ & H). apply bind_val in H. destruct H as ([b i] & _ & H).
    destruct i; cbn [negb] in H; [destruct (e_search E d' b) as [[? ?]|]|]; injection H as <- _ _; exact N.
  - apply bind_val in H. destruct H as ([b i] & _ & H). destruct i; cbn [negb] in H;
      [destruct (e_search E d' b) as [[h v]|]|]; try (injection H as <- _ _; exact N).
    apply bind_val in H. destruct H as ([|] & _ & H); [injection H as <- _ _; exact N|].
    apply bind_val in H. destruct H as ([e1 p1] & H1 & H). injection H as <- _ _. eapply climb_ne; eassumption.
Qed.
Lemma body_at_ne q e lon lat elev e' p : body_at E q e lon lat elev = Val (e', p) ->
  eh_status e <> ERROR -> eh_status e' <> ERROR.
Proof.
  unfold body_at. intros H N. apply bind_val in H. destruct H as ([[e1 p1] a] & H1 & H). pose proof (queryFn_ne _ _ _ _ _ _ _ _ _ _ H1 N) as N1.
  destruct (q_dbExt q) as [x|]; [|injection H as <- _; exact N1].
  destruct (p_block p1 =? NODATABLOCK); [|injection H as <- _; exact N1].
  apply bind_val in H. destruct H as ([[e2 p2] a2] & H2 & H). injection H as <- _.
  eapply queryFn_ne; eassumption.
Qed.
Lemma body_ne q lon lat elev e p r : query_body E q lon lat elev = Val (e, Some p, r) ->
  eh_status (q_err q) <> ERROR -> eh_status e <> ERROR.
Proof.
  intros H N.
  assert (W : forall elevQ s, wrap (body_at E q (q_err q) lon lat elevQ) (q_err q) s = Val (e, Some p, r) -> eh_status e <> ERROR).
  { intros elevQ s W. destruct (body_at E q (q_err q) lon lat elevQ) as [[e1 p1]| | |] eqn:B; cbn [wrap] in W; try discriminate.
    injection W as <- _ _. eapply body_at_ne; eassumption. }
  destruct (body_cases E q lon lat elev) as [[S B]|[S B]].
  - rewrite B in H. eapply W, H.
  - destruct (queryElev E q lon lat elev true); rewrite B in H; try discriminate. eapply W, H.
Qed.

(** *** Queries for one value *)
Lemma query_old k q fs old old' lon lat z : q_vals q = [Some k] -> 0 <= k <= 8 ->
  query E q fs (Some [old]) lon lat z = query E q fs (Some [old']) lon lat z.
Proof.
  intros V K. unfold query. rewrite V. cbn [List.length Nat.eqb assert_ bind].
  destruct (query_body E q lon lat z) as [[[e [p|]] r]| | |]; cbn [bind]; try reflexivity.
  assert (C : forall e', copy E q lon lat z p [Some k] [old] e' r = copy E q lon lat z p [Some k] [old'] e' r).
  { intros e'. cbn [copy]. unfold copy1.
    assert (D : k = 0 \/ k = 1 \/ k = 2 \/ k = 3 \/ k = 4 \/ k = 5 \/ k = 6 \/ k = 7 \/ k = 8) by lia.
    destruct D as [->|[->|[->|[->|[->|[->|[->|[->| ->]]]]]]]]; cbn [Z.eqb Pos.eqb]; reflexivity. }
  destruct (p_block p =? NODATABLOCK); cbv beta iota; rewrite C; reflexivity.
Qed.
Lemma query_vs_ne q fs old lon lat z q' fs' v : q_vals q = [Some 1] ->
  query E q fs (Some [old]) lon lat z = Val (q', fs', v) -> eh_status (q_err q) <> ERROR -> eh_status (q_err q') <> ERROR.
Proof.
  intros V H N. unfold query in H. rewrite V in H. cbn [List.length Nat.eqb assert_ bind] in H.
  destruct (query_body E q lon lat z) as [[[e [p|]] r]| | |] eqn:B; cbn [bind] in H; try discriminate.
  pose proof (body_ne _ _ _ _ _ _ _ B N) as Ne.
  destruct (p_block p =? NODATABLOCK); cbn [copy copy1 Z.eqb Pos.eqb bind] in H; injection H as <- _ _; cbn [with_err q_err];
    [discriminate | exact Ne].
Qed.

(** What a series of queries for wave speeds does to the error handler. *)
Definition quiet (e e' : errh) : Prop :=
  after_reports e e' /\ (eh_status e <> ERROR -> eh_status e' <> ERROR).
Lemma quiet_refl e : quiet e e.
Proof. split; [apply after_refl | auto]. Qed.
Lemma quiet_trans e1 e2 e3 : quiet e1 e2 -> quiet e2 e3 -> quiet e1 e3.
Proof. intros [A B] [C D]. split; [eapply after_trans; eassumption | auto]. Qed.
Lemma quiet_log e e' : quiet e e' -> eh_stream e' = eh_stream e /\ eh_logname e' = eh_logname e.
Proof. intros [A _]. apply after_log, A. Qed.

Lemma ask_effects q fs lon lat old z q' fs' v : ask E q fs lon lat old z = Val (q', fs', v) ->
  q' = with_err q (q_err q') /\ after_reports (q_err q) (q_err q') /\
  (eh_stream (q_err q) = Some "/dev/null"%string -> fs' = fs).
Proof.
  unfold ask. intros H. apply bind_val in H. destruct H as ([[q1 fs1] v1] & Q & H). injection H as <- <- <-.
  destruct (query_effects E _ _ _ _ _ _ _ _ _ Q) as (A & B & C & _). split; [exact A|]. split; [exact B|].
  intros St. destruct C as [->| ->]; [reflexivity|]. unfold log_line. rewrite St. reflexivity.
Qed.
Lemma ask_old k q fs old old' lon lat z : q_vals q = [Some k] -> 0 <= k <= 8 ->
  ask E q fs lon lat old z = ask E q fs lon lat old' z.
Proof. intros V K. unfold ask. rewrite (query_old k q fs old old' lon lat z V K). reflexivity. Qed.

Lemma ask_reads q lon lat z v : reads E q "Vs" lon lat z v ->
  forall e fs old, exists e' fs', ask E (with_err (only 1 q) e) fs lon lat old z = Val (with_err (only 1 q) e', fs', v) /\
    quiet e e' /\ (eh_stream e = Some "/dev/null"%string -> fs' = fs).
Proof.
  intros (q1 & fs0 & old0 & q0' & fs0' & H1 & H) e fs old. rewrite set_vs in H1. injection H1 as <-.
  assert (K : known_codes (q_vals (only 1 q))).
  { intros j [J|[]]. injection J as <-. lia. }
  pose proof (query_indep E (only 1 q) e fs0 fs [old0] [old] lon lat z K eq_refl) as I. rewrite H in I. cbn [omap snd] in I.
  unfold ask. destruct (query E (with_err (only 1 q) e) fs (Some [old]) lon lat z) as [[[q' fs'] vals]| | |] eqn:Q;
    cbn [omap snd] in I; try discriminate. injection I as <-.
  destruct (query_effects E _ _ _ _ _ _ _ _ _ Q) as (A & B & C & _).
  pose proof (query_vs_ne (with_err (only 1 q) e) fs old lon lat z q' fs' _ eq_refl Q) as N. cbn [with_err q_err] in N, B, C.
  cbn [bind nth64 nth]. rewrite A, err_err. eexists _, _. split; [reflexivity|]. split; [split; assumption|].
  intros St. destruct C as [->| ->]; [reflexivity|]. unfold log_line. rewrite St. reflexivity.
Qed.

(** ** The search *)
Variables (q : qstate DB) (lon lat t L0 U0 : f64) (vs : f64 -> f64).
Hypothesis HP : profile E q lon lat L0 U0 vs.
Hypothesis Ht : finite_double t.
Hypothesis HR : search_range L0 U0.

Lemma fgt_val x : finite_double x -> fgt t x = true <-> (value x < value t)%R.
Proof.
  intros [V F]. unfold fgt. change (SFltb x t) with (flt x t). rewrite (flt_R prec64 emax64) by (assumption || apply Ht).
  change (SF2R radix2 x) with (value x). change (SF2R radix2 t) with (value t).
  destruct (Rlt_bool_spec (value x) (value t)); split; intros; try reflexivity; try discriminate; lra.
Qed.
Lemma fle_val x : finite_double x -> fle t x = true <-> (value t <= value x)%R.
Proof.
  intros [V F]. rewrite (fle_R prec64 emax64) by (assumption || apply Ht).
  change (SF2R radix2 x) with (value x). change (SF2R radix2 t) with (value t).
  destruct (Rle_bool_spec (value t) (value x)); split; intros; try reflexivity; try discriminate; lra.
Qed.
Lemma neg_val x : finite_double x -> flt x f_zero = true <-> (value x < 0)%R.
Proof.
  intros [V F]. rewrite (flt_R prec64 emax64) by (assumption || reflexivity).
  change (SF2R radix2 x) with (value x). change (SF2R radix2 f_zero) with 0%R.
  destruct (Rlt_bool_spec (value x) 0); split; intros; try reflexivity; try discriminate; lra.
Qed.
Lemma fgt_le x : finite_double x -> fgt t x = negb (fle t x).
Proof.
  intros F. pose proof (fgt_val x F). pose proof (fle_val x F).
  destruct (fgt t x), (fle t x); try reflexivity; exfalso.
  - destruct H as [H _], H0 as [H0 _]. specialize (H eq_refl). specialize (H0 eq_refl). lra.
  - destruct H as [_ H], H0 as [_ H0]. destruct (Rlt_le_dec (value x) (value t)) as [C|C].
    + discriminate (H C). + discriminate (H0 C).
Qed.

Lemma not_marker z : between L0 U0 z -> fne z noSurface = true.
Proof.
  intros [[V F] B]. destruct HR as (_ & _ & BL & BU & _). apply Rabs_def2 in BL. apply Rabs_def2 in BU.
  destruct (repr_int 1000000 ltac:(lia)) as (Vn & Fn & En).
  unfold fne. change (SFeqb z noSurface) with (feq z noSurface).
  rewrite (feq_R z noSurface V Vn F Fn). change (SF2R radix2 noSurface) with (SF2R radix2 (i2f64 1000000)). rewrite En.
  change (SF2R radix2 z) with (value z). rewrite Req_bool_false by lra. reflexivity.
Qed.

Lemma small z : between L0 U0 z -> (Rabs (value z) <= 1000000)%R.
Proof.
  intros [_ B]. destruct HR as (_ & _ & BL & BU & _). apply Rlt_le, Rabs_le_inv in BL. apply Rlt_le, Rabs_le_inv in BU.
  apply Rabs_le. lra.
Qed.
Lemma middle_in L U : between L0 U0 L -> between L0 U0 U -> (value L <= value U)%R ->
  between L0 U0 (middle L U) /\ (value L <= value (middle L U) <= value U)%R /\
  (Rabs (value (middle L U) - (value L + value U) / 2) <= mid_err)%R.
Proof.
  intros HL HU H. pose proof (small L HL) as SL. pose proof (small U HU) as SU.
  destruct HL as [FL BL], HU as [FU BU]. destruct (middle_spec L U FL FU SL SU H) as (F & B & C).
  split; [split; [exact F | lra]|]. split; assumption.
Qed.

(** One iteration, with the answers of the three queries. *)
Lemma bisect_step k e fs old L U found : between L0 U0 L -> between L0 U0 U -> (value L <= value U)%R ->
  let M := middle L U in
  exists e' fs', quiet e e' /\ (eh_stream e = Some "/dev/null"%string -> fs' = fs) /\
  bisect E (Datatypes.S k) (with_err (only 1 q) e) fs t lon lat old U L found =
    (if fgt t (vs U) && fle t (vs M) then bisect E k (with_err (only 1 q) e') fs' t lon lat (vs M) U M M
     else if fgt t (vs M) && fle t (vs L) then bisect E k (with_err (only 1 q) e') fs' t lon lat (vs M) M L L
     else if fle t (vs U) then Val (with_err (only 1 q) e', fs', inl U)
     else if flt (vs L) f_zero then Val (with_err (only 1 q) e', fs', inl noSurface)
     else Val (with_err (only 1 q) e', fs', inr (rangeMsg E t lon lat U (vs U) L (vs L) M (vs M)))).
Proof.
  intros HL HU H M. destruct (middle_in L U HL HU H) as (HM & _).
  destruct (HP U HU) as [_ RU]. destruct (HP L HL) as [_ RL]. destruct (HP M HM) as [_ RM].
  destruct (ask_reads q lon lat U _ RU e fs old) as (e1 & fs1 & Q1 & A1 & S1).
  destruct (ask_reads q lon lat L _ RL e1 fs1 (vs U)) as (e2 & fs2 & Q2 & A2 & S2).
  destruct (ask_reads q lon lat M _ RM e2 fs2 (vs L)) as (e3 & fs3 & Q3 & A3 & S3).
  exists e3, fs3. split; [exact (quiet_trans _ _ _ (quiet_trans _ _ _ A1 A2) A3)|]. split.
  { intros St. pose proof (proj1 (quiet_log _ _ A1)) as T1. pose proof (proj1 (quiet_log _ _ A2)) as T2.
    rewrite S3, S2, S1; congruence. }
  cbn [bisect]. rewrite Q1. cbn [bind]. rewrite Q2. cbn [bind]. change (mul64 half64 (add64 U L)) with M.
  rewrite Q3. cbn [bind]. reflexivity.
Qed.

Lemma bisect_bracket k : forall e fs old L U w,
  between L0 U0 L -> between L0 U0 U -> (value L <= value U)%R ->
  (value (vs U) < value t <= value (vs L))%R -> (value U - value L <= w)%R ->
  exists e' fs' r, quiet e e' /\ (eh_stream e = Some "/dev/null"%string -> fs' = fs) /\
    bisect E k (with_err (only 1 q) e) fs t lon lat old U L L = Val (with_err (only 1 q) e', fs', inl r) /\
    between L0 U0 r /\ (value t <= value (vs r))%R /\
    exists u, between L0 U0 u /\ (value (vs u) < value t)%R /\
      (value r <= value u <= value r + (w / 2 ^ k + 2 * mid_err * (1 - / 2 ^ k)))%R.
Proof.
  induction k as [|k IH]; intros e fs old L U w HL HU H Hb Hw.
  - exists e, fs, L. split; [apply quiet_refl|]. split; [reflexivity|]. split; [reflexivity|].
    split; [exact HL|]. split; [lra|]. exists U. split; [exact HU|]. split; [lra|]. cbn [pow]. lra.
  - destruct (bisect_step k e fs old L U L HL HU H) as (e1 & fs1 & A1 & S1 & Q). rewrite Q. clear Q.
    destruct (middle_in L U HL HU H) as (HM & BM & EM). set (M := middle L U) in *.
    destruct (HP U HU) as [FvU _]. destruct (HP L HL) as [FvL _]. destruct (HP M HM) as [FvM _].
    apply Rabs_le_inv in EM.
    assert (G : forall L' U' e2 fs2 old2, quiet e e2 -> (eh_stream e = Some "/dev/null"%string -> fs2 = fs) ->
       between L0 U0 L' -> between L0 U0 U' -> (value L' <= value U')%R ->
       (value (vs U') < value t <= value (vs L'))%R -> (value U' - value L' <= w / 2 + mid_err)%R ->
       exists e' fs' r, quiet e e' /\ (eh_stream e = Some "/dev/null"%string -> fs' = fs) /\
         bisect E k (with_err (only 1 q) e2) fs2 t lon lat old2 U' L' L' = Val (with_err (only 1 q) e', fs', inl r) /\
         between L0 U0 r /\ (value t <= value (vs r))%R /\
         exists u, between L0 U0 u /\ (value (vs u) < value t)%R /\
           (value r <= value u <= value r + (w / 2 ^ Datatypes.S k + 2 * mid_err * (1 - / 2 ^ Datatypes.S k)))%R).
    { intros L' U' e2 fs2 old2 A2 S2 HL' HU' H' Hb' Hw'.
      destruct (IH e2 fs2 old2 L' U' _ HL' HU' H' Hb' Hw') as (e3 & fs3 & r & A3 & S3 & Q & Br & Tr & u & Bu & Tu & Wu).
      exists e3, fs3, r. split; [exact (quiet_trans _ _ _ A2 A3)|]. split.
      { intros St. rewrite S3, S2; try congruence. rewrite (proj1 (quiet_log _ _ A2)). exact St. }
      split; [exact Q|]. split; [exact Br|]. split; [exact Tr|]. exists u. split; [exact Bu|]. split; [exact Tu|].
      split; [apply Wu|]. eapply Rle_trans; [apply Wu|]. apply Rplus_le_compat_l. apply Req_le.
      assert (P : (2 ^ k <> 0)%R) by (apply pow_nonzero; lra). cbn [pow]. field. exact P. }
    assert (CU : fgt t (vs U) = true) by (apply fgt_val; [exact FvU | lra]).
    assert (CL : fle t (vs L) = true) by (apply fle_val; [exact FvL | lra]).
    rewrite CU, CL. cbn [andb]. rewrite (fgt_le _ FvM). destruct (fle t (vs M)) eqn:CM; cbn [negb andb].
    + apply (fle_val _ FvM) in CM. apply G; try assumption; try lra.
    + assert (CM' : fgt t (vs M) = true) by (rewrite (fgt_le _ FvM), CM; reflexivity).
      apply (fgt_val _ FvM) in CM'. apply G; try assumption; try lra.
Qed.

Variables (g : libm) (eps : R).
Hypothesis HG : good_log eps g L0 U0.

Lemma range_in : between L0 U0 L0 /\ between L0 U0 U0 /\ (value L0 <= value U0)%R.
Proof. destruct HR as (FL & FU & _ & _ & B). split; [split; [exact FL | lra]|]. split; [split; [exact FU | lra] | lra]. Qed.

Lemma search_start e fs junk : exists n, searchVs E g (with_err q e) fs junk t lon lat U0 L0 =
    bisect E (Z.to_nat n) (with_err (only 1 q) e) fs t lon lat junk U0 L0 L0 /\
  ((value U0 - value L0) / 2 ^ Z.to_nat n <= resolution eps - / 2000)%R /\
  ((value L0 + 15 <= value U0)%R -> (1 <= n)%Z).
Proof.
  destruct (searchIters_spec eps g L0 U0 HR HG) as (n & Qn & _ & Wn & Pn). exists n.
  split; [|split; assumption]. unfold searchVs. rewrite Qn, set_vs. cbn [bind]. rewrite only_err. reflexivity.
Qed.

Lemma mid_small k : (2 * mid_err * (1 - / 2 ^ k) <= / 4000)%R.
Proof.
  assert (P : (0 < / 2 ^ k)%R) by (apply Rinv_0_lt_compat, pow_lt; lra). unfold mid_err. lra.
Qed.

(** The result, whatever it is, from an interval with the target in it. *)
Lemma finds_from k e fs old L U : between L0 U0 L -> between L0 U0 U -> (value L <= value U)%R ->
  (value (vs U) < value t <= value (vs L))%R -> ((value U - value L) / 2 ^ k <= resolution eps - / 4000)%R ->
  exists e' fs' r, quiet e e' /\ (eh_stream e = Some "/dev/null"%string -> fs' = fs) /\
    bisect E k (with_err (only 1 q) e) fs t lon lat old U L L = Val (with_err (only 1 q) e', fs', inl r) /\
    crossing (resolution eps) vs t L0 U0 r.
Proof.
  intros HL HU H Hb Hw. destruct (bisect_bracket k e fs old L U _ HL HU H Hb (Rle_refl _))
    as (e' & fs' & r & A & S1 & Q & Br & Tr & u & Bu & Tu & Wu).
  exists e', fs', r. split; [exact A|]. split; [exact S1|]. split; [exact Q|]. split; [exact Br|]. split; [exact Tr|].
  exists u. split; [exact Bu|]. split; [exact Tu|]. pose proof (mid_small k). lra.
Qed.

Lemma search_found e fs junk : (value (vs U0) < value t <= value (vs L0))%R ->
  exists e' fs' r, quiet e e' /\ (eh_stream e = Some "/dev/null"%string -> fs' = fs) /\
    searchVs E g (with_err q e) fs junk t lon lat U0 L0 = Val (with_err (only 1 q) e', fs', inl r) /\
    crossing (resolution eps) vs t L0 U0 r.
Proof.
  intros Hb. destruct (search_start e fs junk) as (n & -> & Wn & _). destruct range_in as (HL & HU & H).
  apply finds_from; try assumption. lra.
Qed.

(** Every other case, for ranges of 15 m and more. *)
Lemma search_cases e fs junk : (value L0 + 15 <= value U0)%R ->
  let M := middle L0 U0 in
  exists e' fs' r, quiet e e' /\ (eh_stream e = Some "/dev/null"%string -> fs' = fs) /\
    searchVs E g (with_err q e) fs junk t lon lat U0 L0 = Val (with_err (only 1 q) e', fs', r) /\
    ((value (vs U0) < value t <= value (vs M) \/ value (vs M) < value t <= value (vs L0))%R ->
       exists z, r = inl z /\ crossing (resolution eps) vs t L0 U0 z) /\
    (~ (value (vs U0) < value t <= value (vs M) \/ value (vs M) < value t <= value (vs L0))%R ->
       r = if fle t (vs U0) then inl U0
           else if flt (vs L0) f_zero then inl noSurface
           else inr (rangeMsg E t lon lat U0 (vs U0) L0 (vs L0) M (vs M))).
Proof.
  intros H15 M. destruct (search_start e fs junk) as (n & -> & Wn & Pn). specialize (Pn H15).
  destruct range_in as (HL & HU & H). destruct (middle_in L0 U0 HL HU H) as (HM & BM & EM). fold M in HM, BM, EM.
  destruct (Z.to_nat n) as [|k] eqn:K; [lia|].
  destruct (bisect_step k e fs junk L0 U0 L0 HL HU H) as (e1 & fs1 & A1 & S1 & Q). rewrite Q. clear Q. fold M.
  destruct (HP U0 HU) as [FvU _]. destruct (HP L0 HL) as [FvL _]. destruct (HP M HM) as [FvM _].
  apply Rabs_le_inv in EM.
  assert (Wk : ((value U0 - value L0) / 2 / 2 ^ k <= resolution eps - / 2000)%R).
  { eapply Rle_trans; [|exact Wn]. apply Req_le. cbn [pow]. field. apply pow_nonzero. lra. }
  assert (Pk : (0 < / 2 ^ k <= 1)%R).
  { split; [apply Rinv_0_lt_compat, pow_lt; lra|]. rewrite <- Rinv_1. apply Rinv_le_contravar; [lra|]. apply pow_R1_Rle. lra. }
  assert (W2 : forall a b, (b - a <= (value U0 - value L0) / 2 + mid_err -> (b - a) / 2 ^ k <= resolution eps - / 4000)%R).
  { intros a b Hab. unfold Rdiv in Wk |- *.
    apply Rle_trans with (((value U0 - value L0) * / 2 + mid_err) * / 2 ^ k)%R; [apply Rmult_le_compat_r; lra|].
    rewrite Rmult_plus_distr_r. unfold mid_err. nra. }
  assert (G : forall L U e2 fs2 old2, quiet e e2 -> (eh_stream e = Some "/dev/null"%string -> fs2 = fs) ->
     between L0 U0 L -> between L0 U0 U -> (value L <= value U)%R -> (value (vs U) < value t <= value (vs L))%R ->
     (value U - value L <= (value U0 - value L0) / 2 + mid_err)%R ->
     exists e' fs' z, quiet e e' /\ (eh_stream e = Some "/dev/null"%string -> fs' = fs) /\
       bisect E k (with_err (only 1 q) e2) fs2 t lon lat old2 U L L = Val (with_err (only 1 q) e', fs', inl z) /\
       crossing (resolution eps) vs t L0 U0 z).
  { intros L U e2 fs2 old2 A2 S2 HL' HU' H' Hb' Hw'.
    destruct (finds_from k e2 fs2 old2 L U HL' HU' H' Hb' (W2 _ _ Hw')) as (e3 & fs3 & z & A3 & S3 & Q3 & C).
    exists e3, fs3, z. split; [exact (quiet_trans _ _ _ A2 A3)|]. split; [|split; assumption].
    intros St. rewrite S3, S2; try congruence. rewrite (proj1 (quiet_log _ _ A2)). exact St. }
  destruct (fgt t (vs U0) && fle t (vs M)) eqn:C1.
  { apply andb_true_iff in C1. destruct C1 as [C1 C1']. apply (fgt_val _ FvU) in C1. apply (fle_val _ FvM) in C1'.
    destruct (G M U0 e1 fs1 (vs M) A1 S1 HM HU ltac:(lra) ltac:(lra) ltac:(lra)) as (e' & fs' & z & A & S2 & Q & C).
    exists e', fs', (inl z). split; [exact A|]. split; [exact S2|]. split; [exact Q|]. split; [intros _; eauto|].
    intros N. exfalso. apply N. left. lra. }
  destruct (fgt t (vs M) && fle t (vs L0)) eqn:C2.
  { apply andb_true_iff in C2. destruct C2 as [C2 C2']. apply (fgt_val _ FvM) in C2. apply (fle_val _ FvL) in C2'.
    destruct (G L0 M e1 fs1 (vs M) A1 S1 HL HM ltac:(lra) ltac:(lra) ltac:(lra)) as (e' & fs' & z & A & S2 & Q & C).
    exists e', fs', (inl z). split; [exact A|]. split; [exact S2|]. split; [exact Q|]. split; [intros _; eauto|].
    intros N. exfalso. apply N. right. lra. }
  assert (N : ~ (value (vs U0) < value t <= value (vs M) \/ value (vs M) < value t <= value (vs L0))%R).
  { intros [N|N]; [rewrite andb_false_iff in C1; destruct C1 as [C|C] | rewrite andb_false_iff in C2; destruct C2 as [C|C]].
    - rewrite (proj2 (fgt_val _ FvU)) in C by lra. discriminate.
    - rewrite (proj2 (fle_val _ FvM)) in C by lra. discriminate.
    - rewrite (proj2 (fgt_val _ FvM)) in C by lra. discriminate.
    - rewrite (proj2 (fle_val _ FvL)) in C by lra. discriminate. }
  destruct (fle t (vs U0)); [|destruct (flt (vs L0) f_zero)]; eexists _, _, _;
    (split; [exact A1|]; split; [exact S1|]; split; [reflexivity|]; split; [intros C; contradiction | reflexivity]).
Qed.
End Search.
