(** Numerical facts about the search for an isosurface: the number of iterations and
    the width of the last interval. *)
From Coq Require Import ZArith Bool Reals Lra Lia Psatz List String.
From Flocq Require Import Core BinarySingleNaN Relative.
From Verif Require Import Outcome Float Addr SpecOct SpecGeom FloatFacts Geom GeomFacts GeomProof GeomLevel
  QueryApp IsoApp SpecIso.
Import ListNotations.
Open Scope R_scope.

Local Notation fexp64 := (SpecFloat.fexp prec64 emax64).
Local Notation rnd64 := (round radix2 fexp64 (round_mode mode_NE)).
#[local] Instance fexp64_ok : Valid_exp fexp64 := fexp_correct prec64 emax64 Hp64.
#[local] Instance fexp64_mono : Monotone_exp fexp64 := fexp_monotone prec64 emax64.
#[local] Instance rnd64_ok : Valid_rnd (round_mode mode_NE) := valid_rnd_N _.

Lemma sub_approx x y : valid64 x -> valid64 y -> is_fin x = true -> is_fin y = true ->
  Rabs (fval x - fval y) < 1000000000000 ->
  valid64 (sub64 x y) /\ is_fin (sub64 x y) = true /\ fval (sub64 x y) = rnd64 (fval x - fval y).
Proof.
  intros Vx Vy Fx Fy B.
  pose proof (sub_round prec64 emax64 Hp64 Hm64 x y Vx Vy Fx Fy) as D. cbv zeta in D.
  rewrite Rlt_bool_true in D by (apply rnd_bound, B). destruct D.
  split; [apply (sub_valid prec64 emax64 Hp64 Hm64); assumption|]. split; assumption.
Qed.
Lemma mul_approx x y : valid64 x -> valid64 y -> is_fin x = true -> is_fin y = true ->
  Rabs (fval x * fval y) < 1000000000000 ->
  valid64 (mul64 x y) /\ is_fin (mul64 x y) = true /\ fval (mul64 x y) = rnd64 (fval x * fval y).
Proof.
  intros Vx Vy Fx Fy B.
  pose proof (mul_round prec64 emax64 Hp64 Hm64 x y Vx Vy Fx Fy) as D. cbv zeta in D.
  rewrite Rlt_bool_true in D by (apply rnd_bound, B). destruct D.
  split; [apply (mul_valid prec64 emax64 Hp64 Hm64); assumption|]. split; assumption.
Qed.
Lemma feq_R x y : valid64 x -> valid64 y -> is_fin x = true -> is_fin y = true ->
  feq x y = Req_bool (fval x) (fval y).
Proof.
  intros Hx Hy. destruct (valid_ex prec64 emax64 x Hx) as [bx ->]. destruct (valid_ex prec64 emax64 y Hy) as [b_y ->].
  rewrite !(fin_B2SF prec64 emax64), !SF2R_B2SF. apply Beqb_correct.
Qed.
Lemma half_repr : repr half64 (/ 2).
Proof.
  split; [reflexivity|]. split; [reflexivity|].
  change half64 with (S754_finite false 4503599627370496 (-53)).
  unfold SF2R, F2R. cbn [Fnum Fexp cond_Zopp].
  change (bpow radix2 (-53)) with (/ 9007199254740992). lra.
Qed.

(** ** ceil *)
Lemma fceil_spec x : finite_double x -> Rabs (value x) <= 1000 ->
  exists z, fceil x = i2f64 z /\ (Z.abs z <= 1001)%Z /\ value x <= IZR z < value x + 1.
Proof.
  intros [V F] B. unfold fceil. rewrite (ftrunc_R x F). change (fval x) with (value x).
  set (k := Ztrunc (value x)).
  apply Rabs_le_inv in B.
  assert (K : (Z.abs k <= 1000)%Z).
  { apply Z.abs_le. unfold k. split.
    - change (- (1000))%Z with (-1000)%Z. rewrite <- (Ztrunc_IZR (-1000)). apply Ztrunc_le. lra.
    - rewrite <- (Ztrunc_IZR 1000). apply Ztrunc_le. lra. }
  destruct (repr_int k ltac:(lia)) as (Vk & Fk & Ek).
  rewrite (flt_R prec64 emax64) by assumption. change (SF2R radix2 (i2f64 k)) with (fval (i2f64 k)). rewrite Ek.
  change (SF2R radix2 x) with (value x).
  assert (C : value x < 0 /\ IZR k < value x + 1 /\ value x <= IZR k \/ 0 <= value x /\ IZR k <= value x < IZR k + 1).
  { destruct (Rlt_le_dec (value x) 0) as [N|P].
    - left. unfold k. rewrite Ztrunc_ceil by lra. split; [exact N|]. pose proof (Zceil_ub (value x)). split; [|lra].
      pose proof (Zceil_lb (value x)). lra.
    - right. unfold k. rewrite Ztrunc_floor by lra. split; [exact P|]. split; [apply Zfloor_lb | apply Zfloor_ub]. }
  destruct (Rlt_bool_spec (IZR k) (value x)) as [H|H].
  - exists (k + 1)%Z. split; [reflexivity|]. split; [lia|]. rewrite plus_IZR. lra.
  - exists k. split; [reflexivity|]. split; [lia|]. lra.
Qed.

(** ** The number of iterations *)
Lemma log2_range X : / 25 <= X <= 80000 -> - 5 <= ln X / ln 2 <= 17.
Proof.
  intros H. pose proof ln2_bounds as B.
  assert (A : ln X <= 17 * ln 2).
  { replace 17 with (INR 17) by (rewrite INR_IZR_INZ; reflexivity). rewrite <- ln_pow' by lra.
    destruct (Rle_lt_or_eq_dec X (2 ^ 17)) as [I|I]; [cbn; lra | |].
    - left. apply ln_increasing; lra.
    - rewrite I. lra. }
  assert (C : -5 * ln 2 <= ln X).
  { assert (D : ln (/ 32) <= ln X).
    { destruct (Rle_lt_or_eq_dec (/ 32) X) as [I|I]; [lra | |].
      - left. apply ln_increasing; lra.
      - rewrite I. lra. }
    rewrite ln_Rinv in D by lra. replace 32 with (2 ^ 5) in D by (cbn; lra). rewrite ln_pow' in D by lra.
    replace (INR 5) with 5 in D by (rewrite INR_IZR_INZ; reflexivity). lra. }
  split; apply (Rmult_le_reg_r (ln 2)); try lra; unfold Rdiv; rewrite Rmult_assoc, Rinv_l, Rmult_1_r by lra; lra.
Qed.
Lemma log2_low X : 3 / 5 <= X -> - (3 / 4) <= ln X / ln 2.
Proof.
  intros H. pose proof ln2_bounds as B.
  assert (A : ln (3 / 5) <= ln X).
  { destruct (Rle_lt_or_eq_dec _ _ H) as [I|I]; [left; apply ln_increasing; lra | rewrite I; lra]. }
  assert (C : - 3 * ln 2 <= 4 * ln (3 / 5)).
  { assert (C1 : ln (/ 2 ^ 3) < ln ((3 / 5) ^ 4)) by (apply ln_increasing; cbn; lra).
    rewrite ln_Rinv, !ln_pow' in C1 by (try apply pow_lt; lra).
    replace (INR 3) with 3 in C1 by (cbn; lra). replace (INR 4) with 4 in C1 by (cbn; lra). lra. }
  apply (Rmult_le_reg_r (ln 2)); [lra|]. unfold Rdiv. rewrite Rmult_assoc, Rinv_l, Rmult_1_r by lra. lra.
Qed.

Lemma quotient_log g eps q t : 0 <= eps <= / 256 ->
  log_within eps q (m_log g q) -> log_within eps (i2f64 2) (m_log g (i2f64 2)) ->
  - 6 <= t <= 18 -> Rabs (ln (value q) - t * ln 2) <= / 100000000000000 ->
  let v := div64 (m_log g q) (m_log g (i2f64 2)) in
  finite_double v /\ Rabs (value v - t) <= 37 * eps + / 10000000000.
Proof.
  intros He [[Va Fa] Ea] [[Vb Fb] Eb] Tl Lq. pose proof ln2_bounds as B2.
  set (d := / 100000000000000) in *.
  set (a := value (m_log g q)) in *. set (b := value (m_log g (i2f64 2))) in *.
  assert (E2 : value (i2f64 2) = 2) by apply (repr_int 2 ltac:(lia)).
  rewrite E2 in Eb. rewrite (Rabs_right (ln 2)) in Eb by lra.
  set (lq := ln (value q)) in *. set (l2 := ln 2) in *.
  assert (Al : Rabs lq <= 18 * l2 + d).
  { replace lq with (lq - t * l2 + t * l2) by ring. eapply Rle_trans; [apply Rabs_triang|].
    assert (Rabs (t * l2) <= 18 * l2).
    { rewrite Rabs_mult, (Rabs_right l2) by lra. apply Rmult_le_compat_r; [lra|]. apply Rabs_le. lra. }
    lra. }
  assert (Pb : l2 * (1 - eps) <= b) by (apply Rabs_le_inv in Eb; lra).
  assert (Pb' : 68 / 100 <= b) by nra.
  assert (Dab : Rabs (a - t * b) <= (37 * eps + / 1000000000000) * b).
  { replace (a - t * b) with ((a - lq) + (lq - t * l2) + t * (l2 - b)) by ring.
    assert (T3 : Rabs (t * (l2 - b)) <= 18 * (eps * l2)).
    { rewrite Rabs_mult. apply Rmult_le_compat; try apply Rabs_pos; [apply Rabs_le; lra|].
      rewrite Rabs_minus_sym. exact Eb. }
    assert (T1 : Rabs (a - lq) <= eps * (18 * l2 + d))
      by (eapply Rle_trans; [exact Ea|]; apply Rmult_le_compat_l; lra).
    eapply Rle_trans; [apply Rabs_triang|]. eapply Rle_trans; [apply Rplus_le_compat_r, Rabs_triang|].
    assert (K : (37 * eps + / 1000000000000) * (l2 * (255 / 256)) <= (37 * eps + / 1000000000000) * b)
      by (apply Rmult_le_compat_l; [lra|]; nra).
    assert (Z1 : 0 <= eps * l2) by nra. unfold d in *. nra. }
  assert (Dv : Rabs (a / b - t) <= 37 * eps + / 1000000000000).
  { replace (a / b - t) with ((a - t * b) * / b) by (field; lra).
    rewrite Rabs_mult, (Rabs_right (/ b)) by (apply Rle_ge, Rlt_le, Rinv_0_lt_compat; lra).
    apply (Rmult_le_reg_r b); [lra|]. rewrite Rmult_assoc, Rinv_l, Rmult_1_r by lra. exact Dab. }
  destruct (div_approx (m_log g q) (m_log g (i2f64 2)) Va Vb Fa) as (Vv & Fv & Ev).
  { change (b <> 0). lra. }
  { change (Rabs (a / b) < 1000000000000). apply Rabs_def1; apply Rabs_le_inv in Dv; lra. }
  change (fval (m_log g q) / fval (m_log g (i2f64 2))) with (a / b) in Ev.
  assert (Ha2 : Rabs (a / b) <= 19) by (apply Rabs_le; apply Rabs_le_inv in Dv; lra).
  pose proof (rnd_err (a / b)) as Er. rewrite <- Ev in Er.
  intros v. split; [split; assumption|]. change (value v) with (fval v). fold v in Er.
  replace (fval v - t) with ((fval v - a / b) + (a / b - t)) by ring.
  eapply Rle_trans; [apply Rabs_triang|]. unfold u53, tiny in Er. lra.
Qed.

Lemma ln_near x X d : 0 < X -> 0 <= d <= / 4 -> X * (1 - d) <= x <= X * (1 + d) -> Rabs (ln x - ln X) <= 2 * d.
Proof.
  intros PX Hd Hx. assert (Px : 0 < x) by nra.
  assert (E : ln x - ln X = ln (x / X))
    by (unfold Rdiv; rewrite ln_mult, ln_Rinv by (try apply Rinv_0_lt_compat; assumption); ring).
  rewrite E. set (y := x / X).
  assert (Hy : 1 - d <= y <= 1 + d).
  { unfold y. split; apply (Rmult_le_reg_r X); try exact PX; replace (x / X * X) with x by (field; lra); lra. }
  assert (Py : 0 < y) by lra.
  pose proof (ln_le_lin y Py) as U. pose proof (ln_ge_lin y Py) as W.
  assert (V : / y <= 1 + 2 * d).
  { apply (Rmult_le_reg_r y); [exact Py|]. rewrite Rinv_l by lra. nra. }
  apply Rabs_le. lra.
Qed.

Lemma toInt_small z x : repr x (IZR z) -> (Z.abs z <= 1000000)%Z -> toInt x = Val z.
Proof.
  intros (V & F & E) B. unfold toInt. rewrite (ftrunc_R x F), E, Ztrunc_IZR.
  replace ((-2147483648 <=? z) && (z <=? 2147483647))%Z with true; [reflexivity|].
  symmetry. apply andb_true_iff. split; apply Z.leb_le; lia.
Qed.

Lemma exp_ge x : 1 + x <= exp x.
Proof.
  destruct (Req_dec x 0) as [->|N]; [rewrite exp_0; lra | left; apply exp_ineq1, N].
Qed.

Lemma searchIters_spec eps g L U : search_range L U -> good_log eps g L U ->
  exists n, searchIters g U L = Val n /\ (n <= 100)%Z /\
    (value U - value L) / 2 ^ Z.to_nat n <= resolution eps - / 2000 /\
    (value L + 15 <= value U -> (1 <= n)%Z).
Proof.
  intros ([VL FL] & [VU FU] & BL & BU & Bw) (He & Hq & H2). set (q := div64 (sub64 U L) (i2f64 25)) in *.
  pose proof ln2_bounds as B2.
  apply Rlt_le, Rabs_le_inv in BL. apply Rlt_le, Rabs_le_inv in BU.
  set (w := value U - value L). assert (Hw : 1 <= w <= 2000000) by (unfold w; lra).
  destruct (sub_approx U L VU VL FU FL) as (Vs & Fs & Es).
  { change (Rabs w < 1000000000000). rewrite Rabs_right; lra. }
  change (fval U - fval L) with w in Es.
  pose proof (rnd_err w) as Ew. rewrite <- Es in Ew. rewrite (Rabs_right w) in Ew by lra. apply Rabs_le_inv in Ew.
  destruct (repr_int 25 ltac:(lia)) as (V25 & F25 & E25).
  destruct (div_approx (sub64 U L) (i2f64 25) Vs V25 Fs) as (Vq & Fq & Eq).
  { rewrite E25. lra. }
  { rewrite E25. apply Rabs_def1; unfold u53, tiny in Ew; lra. }
  fold q in Vq, Fq, Eq. rewrite E25 in Eq.
  pose proof (rnd_err (fval (sub64 U L) / 25)) as Er. rewrite <- Eq in Er.
  rewrite (Rabs_right (fval (sub64 U L) / 25)) in Er by (unfold u53, tiny in Ew; lra). apply Rabs_le_inv in Er.
  set (X := w / 25). set (d := / 1000000000000000).
  assert (HX : / 25 <= X <= 80000) by (unfold X; lra).
  assert (Rq : X * (1 - d) <= value q <= X * (1 + d)).
  { change (value q) with (fval q). unfold X, d, u53, tiny in *. lra. }
  set (t := ln X / ln 2). assert (EX : ln X = t * ln 2) by (unfold t; field; lra).
  pose proof (log2_range X HX) as Ht. fold t in Ht.
  assert (Lq : Rabs (ln (value q) - t * ln 2) <= / 100000000000000).
  { rewrite <- EX. eapply Rle_trans; [apply (ln_near _ X d); [lra | unfold d; lra | exact Rq]|]. unfold d. lra. }
  destruct (quotient_log g eps q t He Hq H2 ltac:(lra) Lq) as [Fv Bv]. set (v := div64 (m_log g q) (m_log g (i2f64 2))) in *.
  apply Rabs_le_inv in Bv.
  destruct (fceil_spec v Fv) as (z & Ez & Bz & Cz).
  { apply Rabs_le. lra. }
  exists (1 + z)%Z.
  assert (Z1 : (z <= 20)%Z) by (apply le_IZR; lra).
  split; [|split; [lia|split]].
  - unfold searchIters. fold q. fold v. rewrite Ez. apply toInt_small; [|lia].
    rewrite plus_IZR. apply repr_add; [apply (repr_int 1); lia | apply repr_int; lia|].
    rewrite <- (plus_IZR 1 z). apply dy_int. lia.
  - assert (P : 2 * X * (1 - (26 * eps + / 1000000000)) <= 2 ^ Z.to_nat (1 + z)).
    { set (k := Z.to_nat (1 + z)).
      assert (Hk : 1 + value v <= INR k).
      { unfold k. rewrite INR_IZR_INZ. apply Rle_trans with (IZR (1 + z)); [rewrite plus_IZR; lra | apply IZR_le; lia]. }
      assert (E : 2 ^ k = exp (INR k * ln 2)).
      { rewrite <- ln_pow' by lra. rewrite exp_ln by (apply pow_lt; lra). reflexivity. }
      rewrite E.
      apply Rle_trans with (exp ((1 + value v) * ln 2)).
      - replace ((1 + value v) * ln 2) with (ln 2 + ln X + (value v - t) * ln 2) by (rewrite EX; ring).
        rewrite !exp_plus, !exp_ln by lra. apply Rmult_le_compat_l; [lra|].
        eapply Rle_trans; [|apply exp_ge]. nra.
      - destruct (Rle_lt_or_eq_dec _ _ Hk) as [I|I]; [|rewrite I; lra].
        left. apply exp_increasing. apply Rmult_lt_compat_r; lra. }
    assert (PP : 0 < 2 ^ Z.to_nat (1 + z)) by (apply pow_lt; lra).
    apply (Rmult_le_reg_r (2 ^ Z.to_nat (1 + z))); [exact PP|].
    unfold Rdiv. rewrite Rmult_assoc, Rinv_l, Rmult_1_r by lra. fold w.
    assert (W : w = 25 * X) by (unfold X; lra).
    apply Rle_trans with ((resolution eps - / 2000) * (2 * X * (1 - (26 * eps + / 1000000000)))).
    + rewrite W. unfold resolution.
      replace ((25 / 2 + 400 * eps + / 1000 - / 2000) * (2 * X * (1 - (26 * eps + / 1000000000))))
        with (X * ((25 + 800 * eps + / 1000) * (1 - (26 * eps + / 1000000000)))) by lra.
      rewrite (Rmult_comm 25). apply Rmult_le_compat_l; [lra|].
      nra.
    + apply Rmult_le_compat_l; [unfold resolution; lra | exact P].
  - intros H15. assert (HX5 : 3 / 5 <= X) by (unfold X, w; lra).
    pose proof (log2_low X HX5) as T5. fold t in T5.
    assert (-1 < IZR z) by lra. assert (-1 < z)%Z by (apply lt_IZR; exact H). lia.
Qed.

(** ** The middle of two elevations *)
Definition mid_err : R := / 1000000000.
Lemma middle_spec L U : finite_double L -> finite_double U -> Rabs (value L) <= 1000000 -> Rabs (value U) <= 1000000 ->
  value L <= value U ->
  finite_double (middle L U) /\ value L <= value (middle L U) <= value U /\
  Rabs (value (middle L U) - (value L + value U) / 2) <= mid_err.
Proof.
  intros [VL FL] [VU FU] BL BU H.
  apply Rabs_le_inv in BL. apply Rabs_le_inv in BU.
  destruct (add_approx U L VU VL FU FL) as [Fa Ea].
  { change (Rabs (value U + value L) < 1000000000000). apply Rabs_def1; lra. }
  change (fval U + fval L) with (value U + value L) in Ea.
  assert (Va : valid64 (add64 U L)) by (apply (add_valid prec64 emax64 Hp64 Hm64); assumption).
  pose proof (rnd_err (value U + value L)) as Er. rewrite <- Ea in Er.
  assert (Bs : Rabs (value U + value L) <= 2000000) by (apply Rabs_le; lra).
  assert (Er' : Rabs (fval (add64 U L) - (value U + value L)) <= / 1000000000)
    by (unfold u53, tiny in Er; lra).
  apply Rabs_le_inv in Er'. apply Rabs_le_inv in Bs.
  destruct half_repr as (Vh & Fh & Eh).
  destruct (mul_approx half64 (add64 U L) Vh Va Fh Fa) as (Vm & Fm & Em).
  { rewrite Eh. apply Rabs_def1; lra. }
  rewrite Eh in Em. fold (middle L U) in Vm, Fm, Em. change (fval (middle L U)) with (value (middle L U)) in Em.
  split; [split; assumption|].
  assert (fmtd : forall x, valid64 x -> generic_format radix2 fexp64 (value x))
    by (intros x Vx; apply (val_format prec64 emax64), Vx).
  assert (up : 2 * value L <= fval (add64 U L) <= 2 * value U).
  { assert (D : forall x, finite_double x -> Rabs (value x) <= 1000000 -> generic_format radix2 fexp64 (2 * value x)).
    { intros x [Vx Fx] _. replace (2 * value x) with (value x * bpow radix2 1) by (cbn; lra).
      pose proof (fmtd x Vx) as G.
      apply (generic_format_FLT radix2 (3 - emax64 - prec64) prec64).
      apply (FLT_format_generic radix2 (3 - emax64 - prec64) prec64) in G.
      destruct G as [[fm fe] G1 G2 G3]. exists (Float radix2 fm (fe + 1)).
      - rewrite G1. unfold F2R. cbn [Fnum Fexp]. rewrite bpow_plus. ring.
      - exact G2.
      - cbn [Fexp] in *. lia. }
    rewrite Ea. split.
    - rewrite <- (round_generic radix2 fexp64 (round_mode mode_NE) (2 * value L)) by (apply D; [split; assumption | apply Rabs_le; lra]).
      apply round_le; [apply fexp64_ok | apply rnd64_ok | lra].
    - rewrite <- (round_generic radix2 fexp64 (round_mode mode_NE) (2 * value U)) by (apply D; [split; assumption | apply Rabs_le; lra]).
      apply round_le; [apply fexp64_ok | apply rnd64_ok | lra]. }
  split.
  - rewrite Em. split.
    + rewrite <- (round_generic radix2 fexp64 (round_mode mode_NE) (value L)) at 1 by (apply fmtd, VL).
      apply round_le; [apply fexp64_ok | apply rnd64_ok | lra].
    + rewrite <- (round_generic radix2 fexp64 (round_mode mode_NE) (value U)) at 1 by (apply fmtd, VU).
      apply round_le; [apply fexp64_ok | apply rnd64_ok | lra].
  - pose proof (rnd_err (/ 2 * fval (add64 U L))) as E2. rewrite <- Em in E2.
    assert (B2 : Rabs (/ 2 * fval (add64 U L)) <= 1000001) by (apply Rabs_le; lra).
    assert (E2' : Rabs (value (middle L U) - / 2 * fval (add64 U L)) <= / 4000000000)
      by (unfold u53, tiny in E2; lra).
    apply Rabs_le_inv in E2'. apply Rabs_le. unfold mid_err, u53, tiny in *.
    assert (Er2 : Rabs (fval (add64 U L) - (value U + value L)) <= / 4000000000).
    { eapply Rle_trans; [exact Er|]. assert (Rabs (value U + value L) <= 2000000) by (apply Rabs_le; lra). lra. }
    apply Rabs_le_inv in Er2. lra.
Qed.
