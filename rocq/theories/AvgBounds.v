(** Rounding error of the single-precision means. *)
From Coq Require Import ZArith Bool Reals Lra Lia Psatz List.
From Flocq Require Import Core Relative Plus_error BinarySingleNaN.
From Verif Require Import Outcome Float Payload Addr SpecOct SpecAvg FloatFacts.
Import ListNotations.
Open Scope R_scope.

Notation fval := (SF2R radix2).
Definition u32 : R := bpow radix2 (-24).
Definition eta32 : R := bpow radix2 (-150).

Lemma u_ro_32 : u_ro radix2 24 = u32.
Proof. unfold u_ro, u32. change (/ 2) with (bpow radix2 (-1)). rewrite <- bpow_plus. reflexivity. Qed.
Lemma u32_pos : 0 < u32. Proof. apply bpow_gt_0. Qed.
Lemma u32_small : u32 <= / 1000000.
Proof. unfold u32. cbn. lra. Qed.

Lemma eps_le eps : Rabs eps <= u_ro radix2 24 / (1 + u_ro radix2 24) -> Rabs eps <= u32.
Proof.
  intros H. apply Rle_trans with (1 := H). rewrite <- u_ro_32. apply u_rod1pu_ro_le_u_ro.
Qed.

Local Notation rnd32 := (round radix2 (SpecFloat.fexp prec32 emax32) (round_mode mode_NE)).

Lemma round_add_err x y : valid32 x -> valid32 y ->
  exists eps, Rabs eps <= u32 /\ rnd32 (fval x + fval y) = (fval x + fval y) * (1 + eps).
Proof.
  intros Hx Hy.
  destruct (FLT_plus_error_N_ex radix2 (3 - emax32 - prec32) prec32 (fun n => negb (Z.even n))
    (fval x) (fval y)) as (eps & H1 & H2).
  - exact (val_format prec32 emax32 x Hx).
  - exact (val_format prec32 emax32 y Hy).
  - exists eps. split; [apply eps_le, H1|]. exact H2.
Qed.

Lemma round_div_err x : exists eps eta, Rabs eps <= u32 /\ Rabs eta <= eta32 /\
  rnd32 x = x * (1 + eps) + eta.
Proof.
  destruct (relative_error_N_FLT'_ex radix2 (3 - emax32 - prec32) prec32 Hp32 (fun n => negb (Z.even n)) x)
    as (eps & eta & H1 & H2 & _ & H3).
  exists eps, eta. split; [apply eps_le, H1|]. split; [|exact H3].
  replace eta32 with (/ 2 * bpow radix2 (3 - emax32 - prec32)); [exact H2|].
  unfold eta32. change (/ 2) with (bpow radix2 (-1)). rewrite <- bpow_plus. reflexivity.
Qed.

Definition rsum (xs : list R) : R := fold_right Rplus 0 xs.

Lemma rsum_app a b : rsum (a ++ b) = rsum a + rsum b.
Proof. unfold rsum. induction a as [|x a IH]; cbn; [lra | rewrite IH; lra]. Qed.

Lemma rsum_bound M xs : (forall x, In x xs -> Rabs x <= M) -> Rabs (rsum xs) <= INR (length xs) * M.
Proof.
  induction xs as [|x xs IH]; intros H.
  - cbn. rewrite Rabs_R0. lra.
  - cbn [rsum fold_right length]. rewrite S_INR.
    apply Rle_trans with (1 := Rabs_triang _ _).
    pose proof (H x (or_introl eq_refl)). pose proof (IH (fun y Hy => H y (or_intror Hy))).
    unfold rsum in *. lra.
Qed.

Lemma pow_ge1 k : 1 <= (1 + u32) ^ k.
Proof. apply pow_R1_Rle. pose proof u32_pos. lra. Qed.
Lemma pow_small k : (k <= 9)%nat -> (1 + u32) ^ k <= 1001 / 1000.
Proof.
  intros H. apply Rle_trans with ((1 + u32) ^ 9).
  - apply Rle_pow; [pose proof u32_pos; lra | lia].
  - pose proof u32_pos. pose proof u32_small.
    apply Rle_trans with ((1 + / 1000000) ^ 9); [apply pow_incr; lra | cbn; lra].
Qed.

(** State after adding [k] terms. *)
Definition sum_ok (M : R) (xs : list f32) (s : f32) : Prop :=
  valid32 s /\ is_fin s = true /\
  Rabs (fval s - rsum (map fval xs)) <= INR (length xs) * M * ((1 + u32) ^ length xs - 1).

Lemma big_bound : 8 * bpow radix2 124 * (1001 / 1000) * (1 + u32) < bpow radix2 emax32.
Proof.
  change emax32 with (3 + (1 + 124))%Z. rewrite !bpow_plus.
  assert (0 < bpow radix2 124) by apply bpow_gt_0.
  pose proof u32_small. change (bpow radix2 3) with 8. change (bpow radix2 1) with 2.
  apply Rle_lt_trans with (8 * bpow radix2 124 * (1001 / 1000) * (1 + / 1000000)).
  - apply Rmult_le_compat_l; lra.
  - lra.
Qed.

Lemma sum_step M xs s x :
  0 <= M <= bpow radix2 124 -> (length xs < 8)%nat ->
  (forall y, In y (xs ++ [x]) -> valid32 y /\ is_fin y = true /\ Rabs (fval y) <= M) ->
  sum_ok M xs s -> sum_ok M (xs ++ [x]) (add32 s x).
Proof.
  intros HM HL HX (Vs & Fs & Es).
  destruct (HX x) as (Vx & Fx & Bx); [apply in_or_app; right; left; reflexivity|].
  destruct (round_add_err s x Vs Vx) as (eps & He & Hr).
  set (k := length xs) in *. set (T := rsum (map fval xs)) in *.
  assert (BT : Rabs (T + fval x) <= INR (S k) * M).
  { assert (E : T + fval x = rsum (map fval (xs ++ [x]))).
    { rewrite map_app, rsum_app. fold T. cbn [map]. unfold rsum. cbn [fold_right]. rewrite Rplus_0_r. reflexivity. }
    rewrite E. replace (S k) with (length (map fval (xs ++ [x])))
      by (rewrite map_length, app_length; cbn; unfold k; lia).
    apply rsum_bound. intros y Hy. apply in_map_iff in Hy. destruct Hy as (z & <- & Hz). apply HX, Hz. }
  set (E := INR k * M * ((1 + u32) ^ k - 1)) in *.
  assert (Kpos : 0 <= INR k) by apply pos_INR.
  pose proof (pow_ge1 k) as G1. pose proof u32_pos as U.
  assert (E0 : 0 <= E).
  { unfold E. apply Rmult_le_pos; [apply Rmult_le_pos; lra | lra]. }
  set (g := (1 + u32) ^ k) in *.
  assert (Esum : Rabs (fval s + fval x) <= INR (S k) * M * g).
  { replace (fval s + fval x) with ((fval s - T) + (T + fval x)) by ring.
    apply Rle_trans with (1 := Rabs_triang _ _).
    apply Rle_trans with (E + INR (S k) * M); [lra|].
    rewrite S_INR. unfold E. 
    assert (0 <= M * (g - 1)) by (apply Rmult_le_pos; lra).
    nra. }
  assert (Rb : Rabs (rnd32 (fval s + fval x)) < bpow radix2 emax32).
  { rewrite Hr, Rabs_mult.
    apply Rle_lt_trans with (8 * bpow radix2 124 * (1001 / 1000) * (1 + u32)); [|apply big_bound].
    apply Rmult_le_compat; try apply Rabs_pos.
    - apply Rle_trans with (1 := Esum).
      assert (I8 : INR (S k) <= 8).
      { replace 8 with (INR 8) by (cbn; lra). apply le_INR. lia. }
      pose proof (pow_small k ltac:(lia)) as G2. fold g in G2.
      assert (0 <= INR (S k)) by apply pos_INR.
      apply Rmult_le_compat; [apply Rmult_le_pos; lra | lra | | exact G2].
      apply Rmult_le_compat; lra.
    - apply Rle_trans with (1 := Rabs_triang _ _). rewrite Rabs_R1. lra. }
  pose proof (add_round prec32 emax32 Hp32 Hm32 s x Vs Vx Fs Fx) as A.
  rewrite Rlt_bool_true in A by exact Rb. destruct A as [A1 A2].
  split; [|split].
  - apply (add_valid prec32 emax32 Hp32 Hm32); assumption.
  - exact A2.
  - unfold add32. rewrite A1, Hr.
    replace (length (xs ++ [x])) with (S k) by (rewrite app_length; cbn; unfold k; lia).
    assert (ET : rsum (map fval (xs ++ [x])) = T + fval x).
    { rewrite map_app, rsum_app. unfold T. cbn [map]. unfold rsum. cbn [fold_right]. rewrite Rplus_0_r. reflexivity. }
    rewrite ET.
    replace ((fval s + fval x) * (1 + eps) - (T + fval x))
      with ((fval s - T) + eps * (fval s + fval x)) by ring.
    apply Rle_trans with (1 := Rabs_triang _ _). rewrite Rabs_mult.
    assert (H1 : Rabs eps * Rabs (fval s + fval x) <= u32 * (E + INR (S k) * M)).
    { apply Rmult_le_compat; try apply Rabs_pos; [exact He|].
      replace (fval s + fval x) with ((fval s - T) + (T + fval x)) by ring.
      apply Rle_trans with (1 := Rabs_triang _ _). lra. }
    apply Rle_trans with (E + u32 * (E + INR (S k) * M)); [lra|].
    cbn [pow]. fold g. rewrite S_INR. unfold E.
    assert (0 <= M * (g - 1)) by (apply Rmult_le_pos; lra).
    assert (0 <= M * (g - 1) * (1 + u32)) by (apply Rmult_le_pos; lra).
    nra.
Qed.

Lemma sum_from M ys : forall xs s,
  0 <= M <= bpow radix2 124 -> (length xs + length ys <= 8)%nat ->
  (forall y, In y (xs ++ ys) -> valid32 y /\ is_fin y = true /\ Rabs (fval y) <= M) ->
  sum_ok M xs s -> sum_ok M (xs ++ ys) (fold_left add32 ys s).
Proof.
  induction ys as [|y ys IH]; intros xs s HM HL HX H.
  - rewrite app_nil_r. exact H.
  - cbn [fold_left length] in *. replace (xs ++ y :: ys) with ((xs ++ [y]) ++ ys)
      by (rewrite <- app_assoc; reflexivity).
    apply IH; [exact HM | rewrite app_length; cbn; lia | |].
    + intros z Hz. apply HX. rewrite <- app_assoc in Hz. exact Hz.
    + apply sum_step; [exact HM | lia | | exact H].
      intros z Hz. apply HX. apply in_app_or in Hz. apply in_or_app.
      destruct Hz as [Hz|[<-|[]]]; [left; exact Hz | right; left; reflexivity].
Qed.

Lemma sum_solid_ok M xs : 0 <= M <= bpow radix2 124 -> (1 <= length xs <= 8)%nat ->
  (forall y, In y xs -> valid32 y /\ is_fin y = true /\ Rabs (fval y) <= M) ->
  sum_ok M xs (sum_solid xs).
Proof.
  intros HM HL HX. destruct xs as [|x xs]; [cbn in HL; lia|]. cbn [sum_solid].
  apply (sum_from M xs [x]); [exact HM | cbn in *; lia | exact HX|].
  destruct (HX x (or_introl eq_refl)) as (V & F & B).
  split; [exact V|]. split; [exact F|]. cbn [map rsum fold_right length INR].
  replace (fval x - (fval x + 0)) with 0 by lra. rewrite Rabs_R0.
  pose proof u32_pos. cbn. apply Rmult_le_pos; lra.
Qed.

Lemma sum_water_ok M xs : 0 <= M <= bpow radix2 124 -> (length xs <= 8)%nat ->
  (forall y, In y xs -> valid32 y /\ is_fin y = true /\ Rabs (fval y) <= M) ->
  sum_ok M xs (sum_water xs).
Proof.
  intros HM HL HX. unfold sum_water. apply (sum_from M xs []); [exact HM | exact HL | exact HX|].
  split; [reflexivity|]. split; [reflexivity|]. cbn. rewrite Rminus_0_r, Rabs_R0. lra.
Qed.

Lemma small_exact n : (1 <= n <= 8)%nat ->
  fval (i2f32 (Z.of_nat n)) = INR n /\ valid32 (i2f32 (Z.of_nat n)).
Proof.
  intros H. assert (C : (n = 1 \/ n = 2 \/ n = 3 \/ n = 4 \/ n = 5 \/ n = 6 \/ n = 7 \/ n = 8)%nat) by lia.
  split; [|decompose [or] C; subst n; reflexivity].
  decompose [or] C; subst n;
  match goal with |- fval ?t = _ => let v := eval vm_compute in t in change t with v end;
  unfold SF2R, F2R; cbn; lra.
Qed.

Lemma mean_ok M xs s : 0 <= M <= bpow radix2 124 -> (1 <= length xs <= 8)%nat ->
  (forall y, In y xs -> valid32 y /\ is_fin y = true /\ Rabs (fval y) <= M) ->
  sum_ok M xs s ->
  let m := div32 s (i2f32 (Z.of_nat (length xs))) in
  is_fin m = true /\
  Rabs (fval m - rsum (map fval xs) / INR (length xs)) <=
    M * ((1 + u32) ^ S (length xs) - 1) + eta32.
Proof.
  intros HM HL HX (Vs & Fs & Es) m.
  destruct (small_exact (length xs) HL) as [En Vn].
  set (n := length xs) in *. set (T := rsum (map fval xs)) in *.
  assert (In1 : 1 <= INR n) by (replace 1 with (INR 1) by reflexivity; apply le_INR; lia).
  assert (BT : Rabs T <= INR n * M).
  { unfold T, n. replace (length xs) with (length (map fval xs)) by apply map_length.
    apply rsum_bound. intros y Hy. apply in_map_iff in Hy. destruct Hy as (z & <- & Hz). apply HX, Hz. }
  pose proof (pow_ge1 n) as G1. pose proof (pow_small n ltac:(lia)) as G2. pose proof u32_pos as U.
  set (g := (1 + u32) ^ n) in *.
  assert (Q1 : Rabs (fval s / INR n - T / INR n) <= M * (g - 1)).
  { replace (fval s / INR n - T / INR n) with ((fval s - T) / INR n) by (field; lra).
    unfold Rdiv. rewrite Rabs_mult, (Rabs_right (/ INR n)) by (apply Rle_ge, Rlt_le, Rinv_0_lt_compat; lra).
    apply (Rmult_le_reg_r (INR n)); [lra|]. rewrite Rmult_assoc, Rinv_l, Rmult_1_r by lra.
    replace (M * (g - 1) * INR n) with (INR n * M * (g - 1)) by ring. exact Es. }
  assert (Q2 : Rabs (T / INR n) <= M).
  { unfold Rdiv. rewrite Rabs_mult, (Rabs_right (/ INR n)) by (apply Rle_ge, Rlt_le, Rinv_0_lt_compat; lra).
    apply (Rmult_le_reg_r (INR n)); [lra|]. rewrite Rmult_assoc, Rinv_l, Rmult_1_r by lra. lra. }
  assert (Q3 : Rabs (fval s / INR n) <= M * g).
  { replace (fval s / INR n) with ((fval s / INR n - T / INR n) + T / INR n) by ring.
    apply Rle_trans with (1 := Rabs_triang _ _). lra. }
  destruct (round_div_err (fval s / INR n)) as (eps & eta & He & Ht & Hr).
  assert (Rb : Rabs (rnd32 (fval s / INR n)) < bpow radix2 emax32).
  { rewrite Hr. apply Rle_lt_trans with (1 := Rabs_triang _ _). rewrite Rabs_mult.
    assert (Rabs (1 + eps) <= 1 + u32) by (apply Rle_trans with (1 := Rabs_triang _ _); rewrite Rabs_R1; lra).
    assert (P1 : Rabs (fval s / INR n) * Rabs (1 + eps) <= M * g * (1 + u32))
      by (apply Rmult_le_compat; try apply Rabs_pos; assumption).
    assert (P2 : M * g * (1 + u32) <= bpow radix2 124 * (1001 / 1000) * (1 + u32)).
    { apply Rmult_le_compat_r; [lra|]. apply Rmult_le_compat; lra. }
    assert (Et : eta32 <= bpow radix2 124 * (1001 / 1000) * (1 + u32)).
    { apply Rle_trans with (bpow radix2 124).
      - apply bpow_le. lia.
      - assert (0 < bpow radix2 124) by apply bpow_gt_0. nra. }
    pose proof big_bound. pose proof (Rabs_pos eta). lra. }
  pose proof (div_round prec32 emax32 Hp32 Hm32 s _ Vs Vn Fs) as D. rewrite En in D.
  specialize (D ltac:(lra)). rewrite Rlt_bool_true in D by exact Rb. destruct D as [D1 D2].
  split; [exact D2|]. unfold m, div32. rewrite D1, Hr.
  replace (fval s / INR n * (1 + eps) + eta - T / INR n) with
    ((fval s / INR n - T / INR n) + eps * (fval s / INR n) + eta) by ring.
  apply Rle_trans with (1 := Rabs_triang _ _).
  apply Rplus_le_compat; [|exact Ht].
  apply Rle_trans with (1 := Rabs_triang _ _). rewrite Rabs_mult.
  assert (P : Rabs eps * Rabs (fval s / INR n) <= u32 * (M * g))
    by (apply Rmult_le_compat; try apply Rabs_pos; assumption).
  cbn [pow]. fold g. nra.
Qed.
