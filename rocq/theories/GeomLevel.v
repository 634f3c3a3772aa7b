(** Level of a resolution: the results behind C07. *)
From Coq Require Import ZArith Bool Reals Lra Lia Psatz List String.
From Flocq Require Import Core BinarySingleNaN Relative.
From Verif Require Import Outcome Float Addr SpecOct SpecGeom AddrFacts FloatFacts Geom GeomFacts GeomProof.
Import ListNotations.
Open Scope R_scope.

Local Notation fexp64 := (SpecFloat.fexp prec64 emax64).
Local Notation rnd64 := (round radix2 fexp64 (round_mode mode_NE)).
#[local] Instance fexp64_ok : Valid_exp fexp64 := fexp_correct prec64 emax64 Hp64.
#[local] Instance fexp64_mono : Monotone_exp fexp64 := fexp_monotone prec64 emax64.
#[local] Instance rnd64_ok : Valid_rnd (round_mode mode_NE) := valid_rnd_N _.

Definition u53 : R := / 9007199254740992.
Definition tiny : R := / 1000000000000000000.

Lemma rnd_err v : Rabs (rnd64 v - v) <= u53 * Rabs v + tiny.
Proof.
  destruct (error_N_FLT radix2 (3 - emax64 - prec64) prec64 Hp64 (fun x => negb (Z.even x)) v)
    as (eps & eta & H1 & H2 & _ & E).
  change (round radix2 (FLT_exp (3 - emax64 - prec64) prec64) (Znearest (fun x => negb (Z.even x))) v)
    with (rnd64 v) in E.
  rewrite E. replace (v * (1 + eps) + eta - v) with (eps * v + eta) by ring.
  eapply Rle_trans; [apply Rabs_triang|]. apply Rplus_le_compat.
  - rewrite Rabs_mult. apply Rmult_le_compat_r; [apply Rabs_pos|].
    eapply Rle_trans; [exact H1|]. unfold u53.
    assert (E2 : bpow radix2 (- prec64 + 1) = / 4503599627370496) by reflexivity.
    rewrite E2. lra.
  - eapply Rle_trans; [exact H2|].
    apply Rle_trans with (/ 2 * bpow radix2 (-60)).
    + apply Rmult_le_compat_l; [lra|]. apply bpow_le. unfold emax64, prec64. lia.
    + assert (E2 : bpow radix2 (-60) = / 1152921504606846976) by reflexivity. rewrite E2. unfold tiny. lra.
Qed.

Lemma rnd_bound v : Rabs v < 1000000000000 -> Rabs (rnd64 v) < bpow radix2 emax64.
Proof.
  intros H. pose proof (rnd_err v) as E.
  apply Rle_lt_trans with 2000000000000.
  - replace (rnd64 v) with (rnd64 v - v + v) by ring. eapply Rle_trans; [apply Rabs_triang|].
    unfold u53, tiny in E. lra.
  - apply Rlt_trans with (bpow radix2 50); [|apply bpow_lt; unfold emax64; lia].
    change (bpow radix2 50) with 1125899906842624. lra.
Qed.

Lemma div_approx x y : valid64 x -> valid64 y -> is_fin x = true -> fval y <> 0 ->
  Rabs (fval x / fval y) < 1000000000000 ->
  valid64 (div64 x y) /\ is_fin (div64 x y) = true /\ fval (div64 x y) = rnd64 (fval x / fval y).
Proof.
  intros Vx Vy Fx Ny B.
  pose proof (div_round prec64 emax64 Hp64 Hm64 x y Vx Vy Fx Ny) as D. cbv zeta in D.
  rewrite Rlt_bool_true in D by (apply rnd_bound, B).
  split; [apply (div_valid prec64 emax64 Hp64 Hm64); assumption|].
  destruct D as [D1 D2]. split; assumption.
Qed.
Lemma add_approx x y : valid64 x -> valid64 y -> is_fin x = true -> is_fin y = true ->
  Rabs (fval x + fval y) < 1000000000000 ->
  is_fin (add64 x y) = true /\ fval (add64 x y) = rnd64 (fval x + fval y).
Proof.
  intros Vx Vy Fx Fy B.
  pose proof (add_round prec64 emax64 Hp64 Hm64 x y Vx Vy Fx Fy) as D. cbv zeta in D.
  rewrite Rlt_bool_true in D by (apply rnd_bound, B). destruct D; split; assumption.
Qed.

(** ** Bounds on the logarithm *)
Lemma ln_le_lin x : 0 < x -> ln x <= x - 1.
Proof.
  intros H. destruct (Req_dec (ln x) 0) as [E|N].
  - assert (x = 1) by (rewrite <- (exp_ln x H), E, exp_0; reflexivity). lra.
  - pose proof (exp_ineq1 (ln x) N) as E. rewrite exp_ln in E by exact H. lra.
Qed.
Lemma ln_ge_lin x : 0 < x -> 1 - / x <= ln x.
Proof.
  intros H. pose proof (ln_le_lin (/ x) (Rinv_0_lt_compat _ H)) as E.
  rewrite ln_Rinv in E by exact H. lra.
Qed.
Lemma ln_pow' x n : 0 < x -> ln (x ^ n) = INR n * ln x.
Proof.
  intros H. induction n as [|n IH]; [cbn; rewrite ln_1; ring|].
  rewrite S_INR. cbn [pow]. rewrite ln_mult, IH by (try apply pow_lt; exact H). ring.
Qed.

Lemma ln2_bounds : 692 / 1000 < ln 2 < 694 / 1000.
Proof.
  split.
  - (* (1/(1-h))^692 < 2 *)
    assert (P : (1000 / 999) ^ 692 < 2).
    { unfold Rdiv. rewrite Rpow_mult_distr, pow_inv.
      apply (Rmult_lt_reg_r (999 ^ 692)); [apply pow_lt; lra|].
      rewrite Rmult_assoc, Rinv_l, Rmult_1_r by (apply pow_nonzero; lra).
      rewrite !pow_IZR. rewrite <- mult_IZR. apply IZR_lt. vm_compute. reflexivity. }
    assert (Q : 0 < (1000 / 999) ^ 692) by (apply pow_lt; lra).
    pose proof (ln_increasing _ _ Q P) as I. rewrite ln_pow' in I by lra.
    assert (G : 1 / 1000 <= ln (1000 / 999)).
    { eapply Rle_trans; [|apply ln_ge_lin; lra]. lra. }
    replace (INR 692) with 692 in I by (rewrite INR_IZR_INZ; reflexivity). lra.
  - assert (P : 2 < (1001 / 1000) ^ 694).
    { unfold Rdiv. rewrite Rpow_mult_distr, pow_inv.
      apply (Rmult_lt_reg_r (1000 ^ 694)); [apply pow_lt; lra|].
      rewrite Rmult_assoc, Rinv_l, Rmult_1_r by (apply pow_nonzero; lra).
      rewrite !pow_IZR. rewrite <- mult_IZR. apply IZR_lt. vm_compute. reflexivity. }
    pose proof (ln_increasing 2 _ ltac:(lra) P) as I. rewrite ln_pow' in I by lra.
    assert (G : ln (1001 / 1000) <= 1 / 1000).
    { eapply Rle_trans; [apply ln_le_lin; lra|]. lra. }
    replace (INR 694) with 694 in I by (rewrite INR_IZR_INZ; reflexivity). lra.
Qed.

Lemma ratio_bounds X : 0 < X -> -2 * ln 2 <= ln X <= 32 * ln 2 -> / 4 <= X <= 4294967296.
Proof.
  intros H [H1 H2]. split.
  - apply Rnot_lt_le. intros F. pose proof (ln_increasing _ _ H F) as I.
    rewrite ln_Rinv in I by lra. replace 4 with (2 ^ 2) in I by (cbn; lra).
    rewrite ln_pow' in I by lra. cbn [INR] in I. lra.
  - apply Rnot_lt_le. intros F. pose proof (ln_increasing 4294967296 X ltac:(lra) F) as I.
    replace 4294967296 with (2 ^ 32) in I by (cbn; lra).
    rewrite ln_pow' in I by lra. replace (INR 32) with 32 in I by (rewrite INR_IZR_INZ; reflexivity). lra.
Qed.

Definition slack (eps : R) : R := 64 * eps + / 1000000000.

Lemma level_correct L eps res k :
  0 <= eps <= / 256 -> (0 <= k <= 31)%Z -> finite_double res -> 0 < value res ->
  log_within eps (div64 ROOTLEN res) (m_log L (div64 ROOTLEN res)) ->
  log_within eps (i2f64 2) (m_log L (i2f64 2)) ->
  (if Z.eqb k 0 then - (3 / 2) else IZR k - / 2) + slack eps <= log2_ratio res <= IZR k + / 2 - slack eps ->
  level L res = Val k.
Proof.
  intros He Hk [Vr Fr] Pr [[Va Fa] Ea] [[Vb Fb] Eb] Ht.
  set (t := log2_ratio res) in *. pose proof ln2_bounds as B2.
  assert (Tl : -(3 / 2) <= t <= 63 / 2).
  { assert (0 <= IZR k <= 31) by (split; apply IZR_le; lia). unfold slack in Ht.
    destruct (Z.eqb_spec k 0); lra. }
  set (X := root / value res) in *.
  assert (PX : 0 < X) by (apply Rmult_lt_0_compat; [unfold root; lra | apply Rinv_0_lt_compat, Pr]).
  assert (EX : ln X = t * ln 2) by (unfold t, log2_ratio; fold X; field; lra).
  assert (BX : / 4 <= X <= 4294967296) by (apply ratio_bounds; [exact PX | rewrite EX; nra]).
  destruct root_repr as (Vo & Fo & Eo).
  assert (Nr : fval res <> 0) by (apply Rgt_not_eq; exact Pr).
  assert (XA : fval ROOTLEN / fval res = X) by (rewrite Eo; reflexivity).
  destruct (div_approx ROOTLEN res Vo Vr Fo Nr) as (Vq & Fq & Eq).
  { rewrite XA, Rabs_right by lra. lra. }
  rewrite XA in Eq. set (q := div64 ROOTLEN res) in *.
  set (d := / 1000000000000000).
  assert (Rq : X * (1 - d) <= value q <= X * (1 + d)).
  { pose proof (rnd_err X) as E. rewrite <- Eq in E. fold (value q) in E. rewrite (Rabs_right X) in E by lra.
    apply Rabs_le_inv in E. unfold u53, tiny, d in *. lra. }
  assert (Pq : 0 < value q) by (unfold d in Rq; nra).
  assert (Lq : Rabs (ln (value q) - t * ln 2) <= 2 * d).
  { rewrite <- EX. assert (E : ln (value q) - ln X = ln (value q / X))
      by (unfold Rdiv; rewrite ln_mult, ln_Rinv by (try apply Rinv_0_lt_compat; assumption); ring).
    rewrite E. set (y := value q / X).
    assert (Hy : 1 - d <= y <= 1 + d).
    { unfold y. split; apply (Rmult_le_reg_r X); try exact PX;
        replace (value q / X * X) with (value q) by (field; lra); lra. }
    assert (Py : 0 < y) by (unfold d in Hy; lra).
    pose proof (ln_le_lin y Py) as U. pose proof (ln_ge_lin y Py) as W.
    assert (V : / y <= 1 + 2 * d).
    { apply (Rmult_le_reg_r y); [exact Py|]. rewrite Rinv_l by lra. unfold d in *. nra. }
    apply Rabs_le. lra. }
  set (a := value (m_log L q)) in *. set (b := value (m_log L (i2f64 2))) in *.
  assert (E2 : value (i2f64 2) = 2) by apply (repr_int 2 ltac:(lia)).
  rewrite E2 in Eb. rewrite (Rabs_right (ln 2)) in Eb by lra.
  set (lq := ln (value q)) in *. set (l2 := ln 2) in *.
  assert (Al : Rabs lq <= 63 / 2 * l2 + 2 * d).
  { replace lq with (lq - t * l2 + t * l2) by ring. eapply Rle_trans; [apply Rabs_triang|].
    assert (Rabs (t * l2) <= 63 / 2 * l2).
    { rewrite Rabs_mult, (Rabs_right l2) by lra. apply Rmult_le_compat_r; [lra|]. apply Rabs_le. lra. }
    lra. }
  assert (Pb : l2 * (1 - eps) <= b) by (apply Rabs_le_inv in Eb; lra).
  assert (Pb' : 68 / 100 <= b) by nra.
  assert (Dab : Rabs (a - t * b) <= (64 * eps + / 1000000000000) * b).
  { replace (a - t * b) with ((a - lq) + (lq - t * l2) + t * (l2 - b)) by ring.
    assert (T3 : Rabs (t * (l2 - b)) <= 63 / 2 * (eps * l2)).
    { rewrite Rabs_mult. apply Rmult_le_compat; try apply Rabs_pos; [apply Rabs_le; lra|].
      rewrite Rabs_minus_sym. exact Eb. }
    assert (T1 : Rabs (a - lq) <= eps * (63 / 2 * l2 + 2 * d))
      by (eapply Rle_trans; [exact Ea|]; apply Rmult_le_compat_l; lra).
    eapply Rle_trans; [apply Rabs_triang|]. eapply Rle_trans; [apply Rplus_le_compat_r, Rabs_triang|].
    assert (K : (64 * eps + / 1000000000000) * (l2 * (255 / 256)) <= (64 * eps + / 1000000000000) * b)
      by (apply Rmult_le_compat_l; [lra|]; nra).
    assert (Z1 : 0 <= eps * l2) by nra. unfold d in *. nra. }
  assert (Dv : Rabs (a / b - t) <= 64 * eps + / 1000000000000).
  { replace (a / b - t) with ((a - t * b) * / b) by (field; lra).
    rewrite Rabs_mult, (Rabs_right (/ b)) by (apply Rle_ge, Rlt_le, Rinv_0_lt_compat; lra).
    apply (Rmult_le_reg_r b); [lra|]. rewrite Rmult_assoc, Rinv_l, Rmult_1_r by lra. exact Dab. }
  destruct (div_approx (m_log L q) (m_log L (i2f64 2)) Va Vb Fa) as (Vv & Fv & Ev).
  { change (b <> 0). lra. }
  { change (Rabs (a / b) < 1000000000000). apply Rabs_def1; apply Rabs_le_inv in Dv; lra. }
  change (fval (m_log L q) / fval (m_log L (i2f64 2))) with (a / b) in Ev.
  assert (Ha2 : Rabs (a / b) <= 33) by (apply Rabs_le; apply Rabs_le_inv in Dv; lra).
  pose proof (rnd_err (a / b)) as Er. rewrite <- Ev in Er.
  set (v := div64 (m_log L q) (m_log L (i2f64 2))) in *.
  assert (Hh : repr half64 (/ 2)).
  { split; [reflexivity|]. split; [reflexivity|].
    change half64 with (S754_finite false 4503599627370496 (-53)).
    unfold SF2R, F2R. cbn [Fnum Fexp cond_Zopp].
    change (bpow radix2 (-53)) with (/ 9007199254740992). lra. }
  destruct Hh as (Vh & Fh & Eh).
  assert (Bv : Rabs (fval v - t) <= 64 * eps + / 100000000000).
  { replace (fval v - t) with ((fval v - a / b) + (a / b - t)) by ring.
    eapply Rle_trans; [apply Rabs_triang|]. unfold u53, tiny in Er. lra. }
  apply Rabs_le_inv in Bv.
  destruct (add_approx half64 v Vh Vv Fh Fv) as [Fs Es].
  { rewrite Eh. apply Rabs_def1; lra. }
  pose proof (rnd_err (fval half64 + fval v)) as Ef. rewrite <- Es, Eh in Ef.
  assert (Bs : Rabs (/ 2 + fval v) <= 34) by (apply Rabs_le; lra).
  assert (Bf : Rabs (fval (add64 half64 v) - (/ 2 + fval v)) <= / 100000000000)
    by (unfold u53, tiny in Ef; lra).
  apply Rabs_le_inv in Bf. unfold level. fold q. fold v. unfold f2int.
  rewrite (ftrunc_R _ Fs). set (f := fval (add64 half64 v)) in *.
  assert (Tr : Ztrunc f = k).
  { unfold slack in Ht. destruct (Z.eqb_spec k 0) as [->|Nk].
    - destruct (Rlt_le_dec f 0) as [Hf|Hf].
      + rewrite Ztrunc_ceil by lra. apply Zceil_imp. cbn [Z.sub Z.add Z.opp]. lra.
      + rewrite Ztrunc_floor by lra. apply Zfloor_imp. cbn [Z.add]. lra.
    - assert (1 <= IZR k) by (apply IZR_le; lia).
      rewrite Ztrunc_floor by lra. apply Zfloor_imp. rewrite plus_IZR. lra. }
  rewrite Tr. replace ((- 2 ^ 31 <=? k) && (k <? 2 ^ 31))%Z with true; [reflexivity|].
  symmetry. apply andb_true_iff. split; [apply Z.leb_le | apply Z.ltb_lt]; lia.
Qed.

Lemma level_edge L eps k :
  0 <= eps <= / 256 -> (0 <= k <= 31)%Z ->
  log_within eps (i2f64 (2 ^ k)) (m_log L (i2f64 (2 ^ k))) ->
  log_within eps (i2f64 2) (m_log L (i2f64 2)) ->
  exists e, edgeLen k = Val e /\ finite_double e /\ value e = root / 2 ^ Z.to_nat k /\ level L e = Val k.
Proof.
  intros He Hk H1 H2. unfold edgeLen.
  replace ((0 <=? k) && (k <? 32))%Z with true
    by (symmetry; apply andb_true_iff; split; [apply Z.leb_le | apply Z.ltb_lt]; lia).
  set (e := div64 ROOTLEN (i2f64 (2 ^ k))).
  assert (Re : repr e (edge k)) by (apply repr_res, Hk).
  exists e. split; [reflexivity|]. split; [split; apply Re|].
  assert (Ek : edge k = root / 2 ^ Z.to_nat k).
  { rewrite <- root_div. unfold root. f_equal. f_equal. rewrite bpow_Z by lia.
    rewrite pow_IZR. f_equal. rewrite Z2Nat.id by lia. reflexivity. }
  split; [rewrite <- Ek; apply Re|].
  assert (Dq : div64 ROOTLEN e = i2f64 (2 ^ k)).
  { assert (C : forall j, (0 <= j <= 31)%Z -> div64 ROOTLEN (div64 ROOTLEN (i2f64 (2 ^ j))) = i2f64 (2 ^ j)).
    { assert (All : forallb (fun n => SFeqb (div64 ROOTLEN (div64 ROOTLEN (i2f64 (2 ^ Z.of_nat n)))) (i2f64 (2 ^ Z.of_nat n)))
        (seq 0 32) = true) by (vm_compute; reflexivity).
      intros j Hj.
      assert (In (Z.to_nat j) (seq 0 32)) by (apply in_seq; lia).
      clear All. replace j with (Z.of_nat (Z.to_nat j)) by lia. revert H.
      generalize (Z.to_nat j). intros n Hn. cbn [seq] in Hn.
      repeat (destruct Hn as [<-|Hn]; [vm_compute; reflexivity|]). destruct Hn. }
    apply C, Hk. }
  apply (level_correct L eps); try assumption.
  - split; apply Re.
  - unfold value. destruct Re as (_ & _ & Re). rewrite Re. apply edge_pos.
  - rewrite Dq. exact H1.
  - assert (T : log2_ratio e = IZR k).
    { unfold log2_ratio, value. destruct Re as (_ & _ & Re). rewrite Re, root_edge.
      rewrite bpow_Z by lia. replace (2 ^ k)%Z with (2 ^ Z.of_nat (Z.to_nat k))%Z by (f_equal; lia).
      rewrite <- pow_IZR, ln_pow', INR_IZR_INZ, Z2Nat.id by (lra || lia).
      field. pose proof ln2_bounds. lra. }
    rewrite T. unfold slack. pose proof (IZR_le 0 k ltac:(lia)).
    destruct (Z.eqb_spec k 0) as [->|]; lra.
Qed.

(** A zero resolution (the value before any call of the setter). *)
Lemma level_zero L : m_log L (S754_infinity false) = S754_infinity false ->
  finite_double (m_log L (i2f64 2)) ->
  exists why, level L f_zero = UB why.
Proof.
  intros H1 [V F]. unfold level. change (div64 ROOTLEN f_zero) with (S754_infinity false). rewrite H1.
  destruct (m_log L (i2f64 2)) as [s|s| |s m e]; try discriminate; destruct s; eexists; reflexivity.
Qed.
