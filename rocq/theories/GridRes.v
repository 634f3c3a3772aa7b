(** Resolution checks and unit conversion of grid ingestion, in real numbers. *)
From Coq Require Import ZArith Bool Reals Lra Lia Psatz List String.
From Flocq Require Import Core BinarySingleNaN Relative.
From Verif Require Import Outcome Float Addr SpecOct SpecGeom FloatFacts Geom GeomFacts GeomProof GeomLevel
  Payload SpecText Stream GridIngester SpecQuery QuerySurface SpecGrid.
Import ListNotations.
Open Scope R_scope.

Local Notation fexp64 := (SpecFloat.fexp prec64 emax64).
Local Notation rnd64 := (round radix2 fexp64 (round_mode mode_NE)).
#[local] Instance fexp64_ok : Valid_exp fexp64 := fexp_correct prec64 emax64 Hp64.
#[local] Instance rnd64_ok : Valid_rnd (round_mode mode_NE) := valid_rnd_N _.

Lemma sub_approx x y : valid64 x -> valid64 y -> is_fin x = true -> is_fin y = true ->
  Rabs (fval x - fval y) < 1000000000000 ->
  valid64 (sub64 x y) /\ is_fin (sub64 x y) = true /\ fval (sub64 x y) = rnd64 (fval x - fval y).
Proof.
  intros Vx Vy Fx Fy B.
  pose proof (sub_round prec64 emax64 Hp64 Hm64 x y Vx Vy Fx Fy) as D. cbv zeta in D.
  rewrite Rlt_bool_true in D by (apply rnd_bound, B).
  split; [apply (sub_valid prec64 emax64 Hp64 Hm64); assumption|]. destruct D; split; assumption.
Qed.
Lemma mul_approx x y : valid64 x -> valid64 y -> is_fin x = true -> is_fin y = true ->
  Rabs (fval x * fval y) < 1000000000000 ->
  valid64 (mul64 x y) /\ is_fin (mul64 x y) = true /\ fval (mul64 x y) = rnd64 (fval x * fval y).
Proof.
  intros Vx Vy Fx Fy B.
  pose proof (mul_round prec64 emax64 Hp64 Hm64 x y Vx Vy Fx Fy) as D. cbv zeta in D.
  rewrite Rlt_bool_true in D by (apply rnd_bound, B).
  split; [apply (mul_valid prec64 emax64 Hp64 Hm64); assumption|]. destruct D; split; assumption.
Qed.
Lemma abs_valid x : valid64 x -> valid64 (SFabs x).
Proof. destruct x; intros H; exact H. Qed.
Lemma abs_fin x : is_fin x = true -> is_fin (SFabs x) = true.
Proof. destruct x; intros H; exact H. Qed.
Lemma abs_val x : is_fin x = true -> fval (SFabs x) = Rabs (fval x).
Proof.
  destruct x as [s|s| |s m e]; intros H; try discriminate; cbn.
  - rewrite Rabs_R0. reflexivity.
  - destruct s; cbn [cond_Zopp Z.opp].
    + rewrite <- F2R_Zabs. reflexivity.
    + rewrite <- F2R_Zabs. reflexivity.
Qed.

Definition tol : R := / 1000000.
Lemma tolerance_val : valid64 (dec64 1 6) /\ is_fin (dec64 1 6) = true /\
  Rabs (fval (dec64 1 6) - tol) <= / 10 ^ 17.
Proof.
  unfold dec64. change (10 ^ 6)%Z with 1000000%Z.
  destruct (repr_int 1 ltac:(lia)) as (V1 & F1 & E1).
  destruct (repr_int 1000000 ltac:(lia)) as (V2 & F2 & E2).
  assert (N2 : fval (i2f64 1000000) <> 0) by (rewrite E2; lra).
  destruct (div_approx (i2f64 1) (i2f64 1000000) V1 V2 F1 N2) as (V & F & E).
  { rewrite E1, E2. rewrite Rabs_pos_eq by lra. lra. }
  split; [exact V|]. split; [exact F|]. rewrite E, E1, E2.
  pose proof (rnd_err (1 / 1000000)) as G. unfold tol.
  replace (/ 1000000) with (1 / 1000000) by lra.
  eapply Rle_trans; [exact G|]. rewrite Rabs_pos_eq by lra. unfold u53, tiny. lra.
Qed.

(** The comparison of a quotient with 1. *)
Lemma about_one_R a b : valid64 a -> valid64 b -> is_fin a = true -> is_fin b = true ->
  fval b <> 0 -> Rabs (fval a / fval b) < 100000000000 ->
  about_one a b = Rle_bool (Rabs (rnd64 (1 - rnd64 (fval a / fval b)))) (fval (dec64 1 6)).
Proof.
  intros Va Vb Fa Fb Nb B. unfold about_one.
  destruct (div_approx a b Va Vb Fa Nb) as (V1 & F1 & E1); [lra|].
  destruct (repr_int 1 ltac:(lia)) as (V2 & F2 & E2).
  pose proof (rnd_err (fval a / fval b)) as G.
  assert (B2 : Rabs (fval (i2f64 1) - fval (div64 a b)) < 1000000000000).
  { rewrite E1, E2. unfold u53, tiny in G.
    assert (Rabs (rnd64 (fval a / fval b)) <= Rabs (fval a / fval b) + Rabs (rnd64 (fval a / fval b) - fval a / fval b)).
    { replace (rnd64 (fval a / fval b)) with (fval a / fval b + (rnd64 (fval a / fval b) - fval a / fval b)) at 1 by ring.
      apply Rabs_triang. }
    eapply Rle_lt_trans; [apply Rabs_triang|]. rewrite Rabs_Ropp, (Rabs_pos_eq 1) by lra. lra. }
  destruct (sub_approx (i2f64 1) (div64 a b) V2 V1 F2 F1 B2) as (V3 & F3 & E3).
  destruct tolerance_val as (V4 & F4 & _).
  rewrite (flt_R prec64 emax64 _ _ V4 (abs_valid _ V3) F4 (abs_fin _ F3)).
  change (SF2R radix2 (SFabs (sub64 (i2f64 1) (div64 a b)))) with (fval (SFabs (sub64 (i2f64 1) (div64 a b)))).
  rewrite abs_val by exact F3. rewrite E3, E1, E2.
  rewrite <- negb_Rlt_bool, negb_involutive. reflexivity.
Qed.

(** If the computed quotient differs from [q] by at most 1e-14 q + 1e-17, the check
    decides |1 - q| <= 1e-6 up to 1e-11. *)
Lemma about_one_bounds a b q : valid64 a -> valid64 b -> is_fin a = true -> is_fin b = true ->
  fval b <> 0 -> 0 < q < 50000000000 -> Rabs (fval a / fval b - q) <= q / 10 ^ 14 ->
  (about_one a b = true -> Rabs (q - 1) <= 100001 / 10 ^ 11) /\
  (Rabs (q - 1) <= 99999 / 10 ^ 11 -> about_one a b = true).
Proof.
  intros Va Vb Fa Fb Nb Hq HC.
  assert (B : Rabs (fval a / fval b) < 100000000000).
  { replace (fval a / fval b) with (q + (fval a / fval b - q)) by ring.
    eapply Rle_lt_trans; [apply Rabs_triang|]. rewrite (Rabs_pos_eq q) by lra. lra. }
  rewrite (about_one_R a b Va Vb Fa Fb Nb B).
  pose proof (rnd_err (fval a / fval b)) as G1. set (w := rnd64 (fval a / fval b)) in *.
  pose proof (rnd_err (1 - w)) as G2. set (z := rnd64 (1 - w)) in *.
  destruct tolerance_val as (_ & _ & HT). set (tf := fval (dec64 1 6)) in *.
  set (r := fval a / fval b) in *. unfold u53, tiny, tol in *.
  assert (Hr : Rabs r <= q + q / 10 ^ 14).
  { replace r with (q + (r - q)) by ring. eapply Rle_trans; [apply Rabs_triang|].
    rewrite (Rabs_pos_eq q) by lra. lra. }
  assert (Hw : Rabs (w - q) <= 2 * q / 10 ^ 14 + / 10 ^ 17).
  { replace (w - q) with ((w - r) + (r - q)) by ring. eapply Rle_trans; [apply Rabs_triang|]. lra. }
  assert (A0 : forall x, x <= Rabs x /\ - x <= Rabs x).
  { intros x. split; [apply Rle_abs | rewrite <- Rabs_Ropp; apply Rle_abs]. }
  assert (Hz : Rabs z <= Rabs (1 - w) + Rabs (z - (1 - w))).
  { replace z with ((1 - w) + (z - (1 - w))) at 1 by ring. apply Rabs_triang. }
  assert (Hz2 : Rabs (1 - w) <= Rabs z + Rabs (z - (1 - w))).
  { replace (1 - w) with (z + - (z - (1 - w))) at 1 by ring.
    eapply Rle_trans; [apply Rabs_triang|]. rewrite Rabs_Ropp. lra. }
  pose proof (A0 (tf - / 1000000)) as [T1 T2].
  split.
  - intros H. destruct (Rle_bool_spec (Rabs z) tf) as [H'|]; [clear H; rename H' into H | discriminate].
    assert (W : Rabs (1 - w) <= 1000001 / 10 ^ 12) by lra.
    pose proof (A0 (1 - w)). pose proof (A0 (w - q)).
    assert (Q2 : q <= 2) by lra.
    apply Rabs_le. lra.
  - intros H. pose proof (A0 (q - 1)).
    apply Rle_bool_true.
    assert (W : Rabs (1 - w) <= 999991 / 10 ^ 12).
    { replace (1 - w) with (- ((w - q) + (q - 1))) by ring. rewrite Rabs_Ropp.
      eapply Rle_trans; [apply Rabs_triang|]. lra. }
    lra.
Qed.

Lemma quot_close a b X Y k : 0 < a -> 0 < b -> 0 <= k <= / 1000 ->
  Rabs (X - a) <= k * a -> Rabs (Y - b) <= k * b -> Rabs (X / Y - a / b) <= 3 * k * (a / b) /\ 0 < Y.
Proof.
  intros Ha Hb Hk HX HY.
  assert (Y0 : b * (999 / 1000) <= Y).
  { assert (A0 : - (Y - b) <= Rabs (Y - b)) by (rewrite <- Rabs_Ropp; apply Rle_abs).
    assert (k * b <= / 1000 * b) by (apply Rmult_le_compat_r; lra). lra. }
  assert (Yp : 0 < Y) by lra. split; [|exact Yp].
  replace (X / Y - a / b) with (((X - a) * b - a * (Y - b)) * / (Y * b)) by (field; lra).
  rewrite Rabs_mult, (Rabs_pos_eq (/ (Y * b))) by (left; apply Rinv_0_lt_compat; nra).
  assert (N : Rabs ((X - a) * b - a * (Y - b)) <= 2 * k * a * b).
  { eapply Rle_trans; [apply Rabs_triang|]. rewrite Rabs_Ropp, !Rabs_mult.
    rewrite (Rabs_pos_eq a), (Rabs_pos_eq b) by lra. nra. }
  replace (3 * k * (a / b)) with (3 * k * a * Y * / (Y * b)) by (field; lra).
  apply Rmult_le_compat_r; [left; apply Rinv_0_lt_compat; nra|].
  eapply Rle_trans; [exact N|].
  assert (0 <= k * a) by nra. nra.
Qed.

(** Metres from kilometres. *)
Lemma x1000_close x : finite_double x -> / 10000 <= value x <= 10000 ->
  valid64 (x1000 x) /\ is_fin (x1000 x) = true /\
  Rabs (fval (x1000 x) - 1000 * value x) <= / 10 ^ 15 * (1000 * value x).
Proof.
  intros [V F] H. destruct (repr_int 1000 ltac:(lia)) as (V2 & F2 & E2).
  unfold value in *. fold (fval x) in *.
  destruct (mul_approx x (i2f64 1000) V V2 F F2) as (V3 & F3 & E3).
  { rewrite E2. rewrite Rabs_pos_eq by lra. lra. }
  split; [exact V3|]. split; [exact F3|]. unfold x1000. rewrite E3, E2.
  replace (1000 * fval x) with (fval x * 1000) by ring.
  eapply Rle_trans; [apply rnd_err|]. rewrite Rabs_pos_eq by lra. unfold u53, tiny. lra.
Qed.

Lemma ratio_check rh rv : finite_double rh -> finite_double rv ->
  / 10000 <= value rh <= 10000 -> / 10000 <= value rv <= 10000 ->
  (about_one (div64 (x1000 rh) (x1000 rv)) (i2f64 4) = true ->
     Rabs (value rh / value rv - 4) <= 400004 / 10 ^ 11) /\
  (Rabs (value rh / value rv - 4) <= 399996 / 10 ^ 11 ->
     about_one (div64 (x1000 rh) (x1000 rv)) (i2f64 4) = true).
Proof.
  intros H1 H2 B1 B2.
  destruct (x1000_close rh H1 B1) as (V1 & F1 & E1). destruct (x1000_close rv H2 B2) as (V2 & F2 & E2).
  destruct (quot_close (1000 * value rh) (1000 * value rv) _ _ (/ 10 ^ 15) ltac:(lra) ltac:(lra)
    ltac:(lra) E1 E2) as [Q Yp].
  assert (QB : 0 < value rh / value rv <= 100000000).
  { split; [apply Rdiv_lt_0_compat; lra|].
    apply Rmult_le_reg_r with (value rv); [lra|]. unfold Rdiv. rewrite Rmult_assoc, Rinv_l by lra. lra. }
  replace (1000 * value rh / (1000 * value rv)) with (value rh / value rv) in Q by (field; lra).
  set (q := value rh / value rv) in *. set (r := fval (x1000 rh) / fval (x1000 rv)) in *.
  assert (RB : Rabs r <= 2 * q).
  { replace r with (q + (r - q)) by ring. eapply Rle_trans; [apply Rabs_triang|].
    rewrite (Rabs_pos_eq q) by lra. lra. }
  destruct (div_approx (x1000 rh) (x1000 rv) V1 V2 F1 ltac:(lra)) as (V3 & F3 & E3); [fold r; lra|].
  fold r in E3. pose proof (rnd_err r) as G. rewrite <- E3 in G. unfold u53, tiny in G.
  destruct (repr_int 4 ltac:(lia)) as (V4 & F4 & E4).
  (* when the ratio is below 1e-3 the check fails on both sides *)
  destruct (Rle_dec q (/ 1000)) as [Hs|Hs].
  - assert (N : about_one (div64 (x1000 rh) (x1000 rv)) (i2f64 4) = false).
    { rewrite (about_one_R _ _ V3 V4 F3 F4); [|rewrite E4; lra|].
      - rewrite E4. set (v := fval (div64 (x1000 rh) (x1000 rv))) in *.
        assert (VB : Rabs v <= / 100).
        { replace v with (r + (v - r)) by ring. eapply Rle_trans; [apply Rabs_triang|]. lra. }
        assert (VB4 : Rabs (v / 4) <= / 100).
        { unfold Rdiv. rewrite Rabs_mult, (Rabs_pos_eq (/ 4)) by lra. lra. }
        pose proof (rnd_err (v / 4)) as G1. set (w := rnd64 (v / 4)) in *.
        pose proof (rnd_err (1 - w)) as G2. unfold u53, tiny in *.
        assert (WB : Rabs w <= / 50).
        { replace w with (v / 4 + (w - v / 4)) by ring. eapply Rle_trans; [apply Rabs_triang|]. lra. }
        assert (W1 : 98 / 100 <= 1 - w <= 102 / 100) by (apply Rabs_le_inv in WB; lra).
        rewrite (Rabs_pos_eq (1 - w)) in G2 by lra. apply Rabs_le_inv in G2.
        destruct tolerance_val as (_ & _ & HT). apply Rabs_le_inv in HT. unfold tol in HT.
        destruct (Rle_bool_spec (Rabs (rnd64 (1 - w))) (fval (dec64 1 6))) as [K|K]; [|reflexivity].
        pose proof (Rle_abs (rnd64 (1 - w))). lra.
      - rewrite E4. set (v := fval (div64 (x1000 rh) (x1000 rv))) in *.
        assert (VB : Rabs v <= / 100).
        { replace v with (r + (v - r)) by ring. eapply Rle_trans; [apply Rabs_triang|]. lra. }
        unfold Rdiv. rewrite Rabs_mult, (Rabs_pos_eq (/ 4)) by lra. lra. }
    rewrite N. split; [discriminate|]. intros K. apply Rabs_le_inv in K. lra.
  - assert (C : Rabs (fval (div64 (x1000 rh) (x1000 rv)) / fval (i2f64 4) - q / 4) <= q / 4 / 10 ^ 14).
    { rewrite E4. set (v := fval (div64 (x1000 rh) (x1000 rv))) in *.
      replace (v / 4 - q / 4) with (((v - r) + (r - q)) * / 4) by field.
      rewrite Rabs_mult, (Rabs_pos_eq (/ 4)) by lra.
      pose proof (Rabs_triang (v - r) (r - q)). lra. }
    destruct (about_one_bounds _ _ (q / 4) V3 V4 F3 F4 ltac:(rewrite E4; lra) ltac:(lra) C) as [K1 K2].
    split.
    + intros H. specialize (K1 H). apply Rabs_le_inv in K1. apply Rabs_le. lra.
    + intros H. apply K2. apply Rabs_le_inv in H. apply Rabs_le. lra.
Qed.

Lemma edge_check rh lev : finite_double rh -> / 10000 <= value rh <= 10000 -> (0 <= lev <= 31)%Z ->
  let e := root / 2 ^ Z.to_nat lev in
  (about_one (x1000 rh) (div64 (i2f64 1638400) (i2f64 (2 ^ lev))) = true ->
     Rabs (1000 * value rh / e - 1) <= 100001 / 10 ^ 11) /\
  (Rabs (1000 * value rh / e - 1) <= 99999 / 10 ^ 11 ->
     about_one (x1000 rh) (div64 (i2f64 1638400) (i2f64 (2 ^ lev))) = true).
Proof.
  intros H1 B1 HL e. destruct (x1000_close rh H1 B1) as (V1 & F1 & E1).
  destruct (repr_res lev HL) as (V2 & F2 & E2).
  change (div64 ROOTLEN (i2f64 (2 ^ lev))) with (div64 (i2f64 1638400) (i2f64 (2 ^ lev))) in *.
  assert (EE : e = edge lev).
  { unfold e, edge, root, Rdiv. f_equal. rewrite bpow_opp, bpow_Z by lia.
    rewrite pow_IZR. f_equal. rewrite Z2Nat.id by lia. reflexivity. }
  pose proof (edge_pos lev) as EP.
  assert (EB : 7 / 10 ^ 4 <= edge lev).
  { unfold edge. apply Rle_trans with (1638400 * bpow radix2 (-31)).
    + change (bpow radix2 (-31)) with (/ 2147483648). lra.
    + apply Rmult_le_compat_l; [lra|]. apply bpow_le. lia. }
  rewrite EE. set (q := 1000 * value rh / edge lev).
  assert (QB : 0 < q < 50000000000).
  { unfold q. split; [apply Rdiv_lt_0_compat; lra|].
    apply Rmult_lt_reg_r with (edge lev); [lra|]. unfold Rdiv. rewrite Rmult_assoc, Rinv_l by lra. lra. }
  destruct (quot_close (1000 * value rh) (edge lev) (fval (x1000 rh)) (edge lev) (/ 10 ^ 15)
    ltac:(lra) EP ltac:(lra) E1) as [Q _].
  { rewrite Rminus_eq_0, Rabs_R0. lra. }
  fold q in Q.
  apply about_one_bounds; try assumption.
  - rewrite E2; lra.
  - rewrite E2. eapply Rle_trans; [exact Q|]. lra.
Qed.

(** Unit conversion of single precision values: the product by 1000 is exact in
    double precision, so the stored value is 1000 x correctly rounded. *)
Lemma si32_round x : finite_single x -> SFeqb x (i2f32 (-999)) = false ->
  Rabs (value x) <= bpow radix2 118 ->
  finite_single (si32 x) /\
  value (si32 x) = round radix2 (FLT_exp (-149) 24) ZnearestE (1000 * value x).
Proof.
  intros Hx Hn HB. unfold si32. rewrite Hn. pose proof (widen_repr x Hx) as W.
  assert (P : repr (x1000 (widen x)) (value x * 1000)).
  { unfold x1000. apply repr_mul; [exact W | apply repr_int; lia |].
    destruct Hx as [V F]. destruct x as [s| | |s m e]; try discriminate F.
    - exists 0%Z, 0%Z. split; [unfold value; cbn; lra|]. lia.
    - destruct (single_bounds s m e V) as [Hm He].
      exists ((if s then Z.neg m else Z.pos m) * 1000)%Z, e. split.
      + unfold value, SF2R, F2R. rewrite mult_IZR. destruct s; cbn [cond_Zopp Fnum Fexp Z.opp]; ring.
      + split; [destruct s; lia | lia]. }
  destruct P as (V & F & E). set (y := x1000 (widen x)) in *.
  assert (VN : valid32 (narrow y)) by (apply (convert_valid prec32 emax32 Hp32 Hm32)).
  assert (G : is_fin (narrow y) = true /\
    value (narrow y) = round radix2 (FLT_exp (-149) 24) ZnearestE (fval y)).
  { destruct y as [s|s| |s m e]; try discriminate F.
    - split; [reflexivity|]. cbn. rewrite round_0; [reflexivity | apply valid_rnd_N].
    - unfold narrow, convert.
      pose proof (normalize_round prec32 emax32 Hp32 Hm32 (if s then Z.neg m else Z.pos m) e s) as N.
      cbv zeta in N.
      assert (EF : F2R (Float radix2 (if s then Z.neg m else Z.pos m) e) = fval (S754_finite s m e))
        by (destruct s; reflexivity).
      rewrite EF in N.
      assert (BB : Rabs (round radix2 (SpecFloat.fexp prec32 emax32) (round_mode mode_NE) (fval (S754_finite s m e)))
                   < bpow radix2 emax32).
      { apply Rle_lt_trans with (1000 * bpow radix2 118).
        - apply abs_round_le_generic; try typeclasses eauto.
          + apply generic_format_FLT with (emin := (-149)%Z) (prec := 24%Z).
            exists (Float radix2 1000 118); cbn; [reflexivity | lia | lia].
          + rewrite E, Rabs_mult, (Rabs_pos_eq 1000) by lra. lra.
        - change (bpow radix2 emax32) with (bpow radix2 (10 + 118)). rewrite bpow_plus.
          change (bpow radix2 10) with 1024. pose proof (bpow_gt_0 radix2 118). lra. }
      rewrite Rlt_bool_true in N by exact BB. destruct N as [N1 N2].
      split; [exact N2|]. exact N1. }
  destruct G as [G1 G2]. split; [split; assumption|]. rewrite G2, E. f_equal. ring.
Qed.

Lemma si64_round x : finite_double x -> SFeqb x (i2f64 (-999)) = false ->
  Rabs (value x) <= bpow radix2 1000 ->
  finite_double (si64 x) /\
  value (si64 x) = round radix2 (FLT_exp (-1074) 53) ZnearestE (1000 * value x).
Proof.
  intros [V F] Hn HB. unfold si64. rewrite Hn. unfold x1000.
  assert (VK : fval (i2f64 1000) = 1000) by (vm_compute; lra).
  pose proof (mul_round prec64 emax64 Hp64 Hm64 x (i2f64 1000) V eq_refl F eq_refl) as M. cbv zeta in M.
  rewrite VK in M.
  assert (BB : Rabs (rnd64 (fval x * 1000)) < bpow radix2 emax64).
  { apply Rle_lt_trans with (1000 * bpow radix2 1000).
    - apply abs_round_le_generic; try typeclasses eauto.
      + apply generic_format_FLT with (emin := (-1074)%Z) (prec := 53%Z).
        exists (Float radix2 1000 1000); cbn [Fnum Fexp F2R]; [unfold F2R; cbn [Fnum Fexp]; reflexivity | cbn; lia | lia].
      + rewrite Rabs_mult, (Rabs_pos_eq 1000) by lra. rewrite Rmult_comm.
        apply Rmult_le_compat_l; [lra | exact HB].
    - change emax64 with (24 + 1000)%Z. rewrite bpow_plus.
      apply Rmult_lt_compat_r; [apply bpow_gt_0|]. change (bpow radix2 24) with 16777216. lra. }
  rewrite Rlt_bool_true in M by exact BB. destruct M as [M1 M2].
  split; [split; [apply (mul_valid prec64 emax64 Hp64 Hm64); [exact V | reflexivity] | exact M2]|].
  unfold value. unfold mul64. rewrite M1, Rmult_comm. reflexivity.
Qed.
