(** Proofs about limiting gradients in machine arithmetic. *)
From Coq Require Import ZArith Bool Reals Lra Lia Psatz List.
From Flocq Require Import Core BinarySingleNaN Plus_error Relative.
From Verif Require Import Outcome Float Payload Addr FloatFacts VsGrader SpecGrade GradeFacts.
Import ListNotations.
Open Scope R_scope.

Local Notation fexp32 := (SpecFloat.fexp prec32 emax32).
Local Notation fexp64 := (SpecFloat.fexp prec64 emax64).
Local Notation F32 := (generic_format radix2 fexp32).
Local Notation F64 := (generic_format radix2 fexp64).
Local Notation rnd32 := (round radix2 fexp32 (round_mode mode_NE)).
Local Notation rnd64 := (round radix2 fexp64 (round_mode mode_NE)).
Local Notation u32_ := (ulp radix2 fexp32).
#[local] Instance v32 : Valid_exp fexp32 := fexp_correct prec32 emax32 Hp32.
#[local] Instance m32 : Monotone_exp fexp32 := fexp_monotone prec32 emax32.
#[local] Instance v64 : Valid_exp fexp64 := fexp_correct prec64 emax64 Hp64.
#[local] Instance m64 : Monotone_exp fexp64 := fexp_monotone prec64 emax64.
#[local] Instance vr : Valid_rnd (round_mode mode_NE) := valid_rnd_N _.

Lemma f32_f64 x : F32 x -> F64 x.
Proof.
  apply generic_inclusion_mag. intros _. unfold SpecFloat.fexp, SpecFloat.emin, prec32, emax32, prec64, emax64. lia.
Qed.
Lemma f64_int m e : (Z.abs m < 2 ^ 53)%Z -> (-1000 <= e)%Z -> F64 (IZR m * bpow radix2 e).
Proof.
  intros Hm He. apply (generic_format_FLT radix2 (3 - emax64 - prec64) prec64). exists (Float radix2 m e); [reflexivity | exact Hm |].
  cbn. unfold emax64, prec64. lia.
Qed.
Lemma f32_int x : F32 x -> exists m, x = IZR m * bpow radix2 (cexp radix2 fexp32 x).
Proof. intros H. exists (Ztrunc (scaled_mantissa radix2 fexp32 x)). exact H. Qed.
Lemma f64_int_ex x : F64 x -> exists m, x = IZR m * bpow radix2 (cexp radix2 fexp64 x).
Proof. intros H. exists (Ztrunc (scaled_mantissa radix2 fexp64 x)). exact H. Qed.
Lemma bpow_half e : bpow radix2 e / 2 = bpow radix2 (e - 1).
Proof. replace e with (e - 1 + 1)%Z at 1 by lia. rewrite bpow_plus. cbn. lra. Qed.
Lemma int_multiple e k x : (exists m, x = IZR m * bpow radix2 e) -> (k <= e)%Z -> exists m, x = IZR m * bpow radix2 k.
Proof.
  intros (m & ->) H. exists (m * 2 ^ (e - k))%Z. rewrite mult_IZR.
  change (2 ^ (e - k))%Z with (radix2 ^ (e - k))%Z. rewrite IZR_Zpower by lia. rewrite Rmult_assoc, <- bpow_plus. f_equal. f_equal. lia.
Qed.
Lemma int_lt e a b : (exists m, a = IZR m * bpow radix2 e) -> (exists m, b = IZR m * bpow radix2 e) -> a < b -> a <= b - bpow radix2 e.
Proof.
  intros (m & ->) (k & ->) H. assert (m < k)%Z.
  { apply lt_IZR. apply (Rmult_lt_reg_r (bpow radix2 e)); [apply bpow_gt_0 | exact H]. }
  replace (IZR k * bpow radix2 e - bpow radix2 e) with (IZR (k - 1) * bpow radix2 e) by (rewrite minus_IZR; ring).
  apply Rmult_le_compat_r; [apply bpow_ge_0|]. apply IZR_le. lia.
Qed.
Lemma int_sum e a b : (exists m, a = IZR m * bpow radix2 e) -> (exists m, b = IZR m * bpow radix2 e) ->
  exists m, a + b = IZR m * bpow radix2 e.
Proof. intros (m & ->) (k & ->). exists (m + k)%Z. rewrite plus_IZR. ring. Qed.
Lemma int_diff e a b : (exists m, a = IZR m * bpow radix2 e) -> (exists m, b = IZR m * bpow radix2 e) ->
  exists m, a - b = IZR m * bpow radix2 e.
Proof. intros (m & ->) (k & ->). exists (m - k)%Z. rewrite minus_IZR. ring. Qed.

(** ** A step never raises a non-negative value *)
Lemma never_raised q n d : F32 q -> F32 n -> F64 d -> 0 <= q -> 0 <= n -> 0 <= d ->
  d < rnd32 (q - n) -> rnd32 (rnd64 (n + d)) <= q.
Proof.
  intros Fq Fn Fd Hq Hn Hd Hx.
  destruct (Rle_or_lt (n + d) q) as [Le|Lt].
  { apply round_le_generic; [typeclasses eauto.. | exact Fq |]. apply round_le_generic; [typeclasses eauto.. | exact (f32_f64 _ Fq) | exact Le]. }
  set (y := q - n) in *. assert (Hy0 : 0 < y).
  { destruct (Rle_or_lt y 0) as [C|C]; [|exact C]. exfalso.
    assert (rnd32 y <= 0) by (apply round_le_generic; [typeclasses eauto.. | apply generic_format_0 | exact C]). lra. }
  assert (Hyd : y < d) by (unfold y; lra).
  assert (Hyq : y <= q) by (unfold y; lra).
  assert (Q0 : 0 < q) by lra.
  set (z := rnd32 y - y) in *. assert (Hz0 : 0 < z) by (unfold z; lra).
  assert (Fz : F32 z).
  { unfold z, y. apply (plus_error radix2 fexp32 (fun x => negb (Z.even x)) q (- n)); [exact Fq | apply generic_format_opp, Fn]. }
  set (e := cexp radix2 fexp32 q). assert (Ue : u32_ q = bpow radix2 e) by (apply ulp_neq_0; lra).
  assert (Hz : z <= bpow radix2 e / 2).
  { assert (Rabs z <= / 2 * u32_ y) by (apply error_le_half_ulp; typeclasses eauto).
    assert (u32_ y <= u32_ q) by (apply ulp_le; [typeclasses eauto..|]; rewrite !Rabs_pos_eq by lra; exact Hyq).
    rewrite Rabs_pos_eq in H by lra. rewrite Ue in H0. lra. }
  rewrite bpow_half in Hz.
  assert (He : (-148 <= e)%Z).
  { destruct (Z.le_gt_cases (-148) e) as [|C]; [assumption|]. exfalso.
    assert (bpow radix2 (-149) <= z).
    { assert (0 <= z - bpow radix2 (-149)); [|lra]. apply int_lt; [exists 0%Z; ring | | exact Hz0].
      apply (int_multiple (cexp radix2 fexp32 z)); [apply f32_int, Fz|]. unfold cexp, SpecFloat.fexp, SpecFloat.emin, prec32, emax32. lia. }
    assert (bpow radix2 (e - 1) < bpow radix2 (-149)) by (apply bpow_lt; lia). lra. }
  destruct (f32_int q Fq) as (m & Em). fold e in Em.
  assert (Hm : (0 <= m < 2 ^ 24)%Z).
  { split.
    - apply le_IZR. apply (Rmult_le_reg_r (bpow radix2 e)); [apply bpow_gt_0|]. rewrite <- Em. lra.
    - apply lt_IZR. apply (Rmult_lt_reg_r (bpow radix2 e)); [apply bpow_gt_0|]. rewrite <- Em.
      change (2 ^ 24)%Z with (radix2 ^ 24)%Z. rewrite IZR_Zpower, <- bpow_plus by lia.
      pose proof (bpow_mag_gt radix2 q) as B. rewrite Rabs_pos_eq in B by lra. eapply Rlt_le_trans; [exact B|]. apply bpow_le.
      unfold e, cexp, SpecFloat.fexp, prec32. lia. }
  set (T := q + bpow radix2 (e - 1) - bpow radix2 (e - 29)).
  assert (FT : F64 T).
  { replace T with (IZR (m * 2 ^ 29 + 2 ^ 28 - 1) * bpow radix2 (e - 29)).
    - apply f64_int; lia.
    - unfold T. rewrite Em. rewrite minus_IZR, plus_IZR, mult_IZR.
      change (2 ^ 29)%Z with (radix2 ^ 29)%Z. change (2 ^ 28)%Z with (radix2 ^ 28)%Z. rewrite !IZR_Zpower by lia.
      replace (bpow radix2 e) with (bpow radix2 29 * bpow radix2 (e - 29)) by (rewrite <- bpow_plus; f_equal; lia).
      replace (bpow radix2 (e - 1)) with (bpow radix2 28 * bpow radix2 (e - 29)) by (rewrite <- bpow_plus; f_equal; lia). ring. }
  assert (Key : n + d <= T).
  { assert (Nd : n + d < q + z) by (unfold z, y in *; lra).
    destruct (Rle_lt_or_eq_dec _ _ Hz) as [Lz|Ez].
    - assert (Z1 : z <= bpow radix2 (e - 1) - bpow radix2 (e - 25)).
      { assert (FB : F32 (bpow radix2 (e - 1))).
        { apply generic_format_bpow. unfold SpecFloat.fexp, SpecFloat.emin, prec32, emax32. lia. }
        pose proof (pred_ge_gt radix2 fexp32 z (bpow radix2 (e - 1)) Fz FB Lz) as G. rewrite pred_bpow in G.
        eapply Rle_trans; [exact G|]. assert (bpow radix2 (e - 25) <= bpow radix2 (fexp32 (e - 1))); [|lra].
        apply bpow_le. unfold SpecFloat.fexp, prec32. lia. }
      assert (bpow radix2 (e - 29) <= bpow radix2 (e - 25)) by (apply bpow_le; lia). unfold T. lra.
    - assert (Uy : u32_ y = bpow radix2 e).
      { assert (Rabs z <= / 2 * u32_ y) by (apply error_le_half_ulp; typeclasses eauto).
        assert (u32_ y <= u32_ q) by (apply ulp_le; [typeclasses eauto..|]; rewrite !Rabs_pos_eq by lra; exact Hyq).
        rewrite Rabs_pos_eq in H by lra. rewrite Ue in H0. rewrite <- bpow_half in Ez. lra. }
      rewrite ulp_neq_0 in Uy by lra. apply bpow_inj in Uy. unfold cexp, SpecFloat.fexp, SpecFloat.emin, prec32, emax32 in Uy.
      assert (My : mag radix2 y = (e + 24)%Z :> Z) by lia.
      assert (By : bpow radix2 (e + 23) <= y).
      { pose proof (bpow_mag_le radix2 y ltac:(lra)) as B. rewrite My, Rabs_pos_eq in B by lra.
        replace (e + 23)%Z with (e + 24 - 1)%Z by lia. exact B. }
      assert (Id : exists k, d = IZR k * bpow radix2 (e - 29)).
      { apply (int_multiple (cexp radix2 fexp64 d)); [apply f64_int_ex, Fd|].
        assert (e + 23 < mag radix2 d)%Z by (apply mag_gt_bpow; rewrite Rabs_pos_eq; lra).
        unfold cexp, SpecFloat.fexp, prec64. lia. }
      assert (Ir : exists k, rnd32 y = IZR k * bpow radix2 e).
      { assert (Fr : F32 (rnd32 y)) by (apply generic_format_round; typeclasses eauto).
        apply (int_multiple (cexp radix2 fexp32 (rnd32 y))); [apply f32_int, Fr|].
        assert (e + 23 < mag radix2 (rnd32 y))%Z by (apply mag_gt_bpow; rewrite Rabs_pos_eq; lra).
        generalize dependent (rnd32 y). intros. unfold cexp, SpecFloat.fexp, prec32. lia. }
      assert (In_ : exists k, n = IZR k * bpow radix2 (e - 29)).
      { replace n with (q - rnd32 y + bpow radix2 (e - 1)) by (unfold z, y in *; lra). apply int_sum.
        - apply int_diff; apply (int_multiple e); try lia; [exists m; exact Em | exact Ir].
        - apply (int_multiple (e - 1)); [exists 1%Z; ring | lia]. }
      apply int_lt.
      + apply int_sum; assumption.
      + apply int_sum; [apply (int_multiple e); [exists m; exact Em | lia] | apply (int_multiple (e - 1)); [exists 1%Z; ring | lia]].
      + rewrite <- Ez. exact Nd. }
  assert (R64 : rnd64 (n + d) <= T) by (apply round_le_generic; [typeclasses eauto.. | exact FT | exact Key]).
  apply (round_N_le_midp radix2 fexp32 (fun x => negb (Z.even x)) q); [exact Fq|].
  rewrite succ_eq_pos by lra. rewrite Ue. assert (0 < bpow radix2 (e - 29)) by apply bpow_gt_0. unfold T in R64. rewrite <- bpow_half in R64. lra.
Qed.

(** ** Error of a step *)
Lemma err32 x : Rabs (rnd32 x - x) <= Rabs x * bpow radix2 (-24) + bpow radix2 (-150).
Proof.
  destruct (error_N_FLT radix2 (-149) 24 ltac:(lia) (fun x => negb (Z.even x)) x) as (eps & eta & He & Ht & _ & R).
  change (rnd32 x = x * (1 + eps) + eta) in R. rewrite R.
  replace (x * (1 + eps) + eta - x) with (x * eps + eta) by ring.
  assert (Rabs (x * eps) <= Rabs x * bpow radix2 (-24)).
  { rewrite Rabs_mult. apply Rmult_le_compat_l; [apply Rabs_pos|]. eapply Rle_trans; [exact He|].
    pose proof (bpow_half (-23)) as Q. change (-23 - 1)%Z with (-24)%Z in Q. change (- (24) + 1)%Z with (-23)%Z. lra. }
  assert (Rabs eta <= bpow radix2 (-150)).
  { eapply Rle_trans; [exact Ht|]. pose proof (bpow_half (-149)) as Q. change (-149 - 1)%Z with (-150)%Z in Q. lra. }
  eapply Rle_trans; [apply Rabs_triang|]. lra.
Qed.
Lemma err64 x : Rabs (rnd64 x - x) <= Rabs x * bpow radix2 (-53) + bpow radix2 (-1075).
Proof.
  destruct (error_N_FLT radix2 (-1074) 53 ltac:(lia) (fun x => negb (Z.even x)) x) as (eps & eta & He & Ht & _ & R).
  change (rnd64 x = x * (1 + eps) + eta) in R. rewrite R.
  replace (x * (1 + eps) + eta - x) with (x * eps + eta) by ring.
  assert (Rabs (x * eps) <= Rabs x * bpow radix2 (-53)).
  { rewrite Rabs_mult. apply Rmult_le_compat_l; [apply Rabs_pos|]. eapply Rle_trans; [exact He|].
    pose proof (bpow_half (-52)) as Q. change (-52 - 1)%Z with (-53)%Z in Q. change (- (53) + 1)%Z with (-52)%Z. lra. }
  assert (Rabs eta <= bpow radix2 (-1075)).
  { eapply Rle_trans; [exact Ht|]. pose proof (bpow_half (-1074)) as Q. change (-1074 - 1)%Z with (-1075)%Z in Q. lra. }
  eapply Rle_trans; [apply Rabs_triang|]. lra.
Qed.
Lemma step_error_small x M : 0 <= x -> x <= M * (1 + bpow radix2 (-24)) + bpow radix2 (-150) ->
  Rabs (rnd32 (rnd64 x) - x) <= slack M.
Proof.
  intros H0 H. pose proof (err64 x) as E1. pose proof (err32 (rnd64 x)) as E2. rewrite (Rabs_pos_eq x) in E1 by lra.
  assert (P64 : 0 <= rnd64 x) by (apply round_ge_generic; [typeclasses eauto.. | apply generic_format_0 | exact H0]).
  rewrite (Rabs_pos_eq (rnd64 x)) in E2 by lra.
  assert (Rabs (rnd32 (rnd64 x) - x) <= Rabs (rnd32 (rnd64 x) - rnd64 x) + Rabs (rnd64 x - x)).
  { replace (rnd32 (rnd64 x) - x) with ((rnd32 (rnd64 x) - rnd64 x) + (rnd64 x - x)) by ring. apply Rabs_triang. }
  assert (rnd64 x <= x + Rabs (rnd64 x - x)) by (pose proof (Rle_abs (rnd64 x - x)); lra).
  unfold slack. 
  set (a := bpow radix2 (-24)) in *. set (b := bpow radix2 (-53)) in *. set (t := bpow radix2 (-150)) in *. set (s := bpow radix2 (-1075)) in *.
  replace (bpow radix2 (-23)) with (2 * a) by (unfold a; pose proof (bpow_half (-23)) as Q; change (-23 - 1)%Z with (-24)%Z in Q; lra).
  replace (bpow radix2 (-149)) with (2 * t) by (unfold t; pose proof (bpow_half (-149)) as Q; change (-149 - 1)%Z with (-150)%Z in Q; lra).
  assert (Ba : a = / 16777216) by (unfold a; reflexivity || (cbn; lra)).
  assert (Bb : b <= / 4194304 * a).
  { unfold a, b. replace (-53)%Z with (-22 + -31)%Z by lia. rewrite bpow_plus. replace (bpow radix2 (-22)) with (/ 4194304) by (cbn; lra).
    apply Rmult_le_compat_l; [lra|]. apply bpow_le. lia. }
  assert (B0 : 0 < b) by apply bpow_gt_0. assert (T0 : 0 < t) by apply bpow_gt_0. assert (S0 : 0 < s) by apply bpow_gt_0.
  assert (St : s <= / 4194304 * t).
  { unfold s, t. replace (-1075)%Z with (-22 + -1053)%Z by lia. rewrite bpow_plus. replace (bpow radix2 (-22)) with (/ 4194304) by (cbn; lra).
    apply Rmult_le_compat_l; [lra|]. apply bpow_le. lia. }
  assert (M0 : 0 <= x * b <= x * (/ 4194304 * a)) by (split; [nra | apply Rmult_le_compat_l; lra]).
  rewrite Ba in *. nra.
Qed.

(** [q'] is what the entry [q] becomes next to the neighbour [n]. *)
Definition near (eta d n q q' : R) : Prop :=
  0 <= q' <= q /\ Rabs (q' - Rmin q (n + d)) <= eta /\ (q' = q \/ n <= q').
Lemma near_step M d n q : F32 q -> F32 n -> F64 d -> 0 <= q <= M -> 0 <= n -> 0 <= d ->
  near (slack M) d n q (if Rlt_dec d (rnd32 (q - n)) then rnd32 (rnd64 (n + d)) else q).
Proof.
  intros Fq Fn Fd Hq Hn Hd.
  assert (S0 : 0 <= slack M).
  { unfold slack. assert (0 < bpow radix2 (-23)) by apply bpow_gt_0. assert (0 < bpow radix2 (-149)) by apply bpow_gt_0. nra. }
  pose proof (err32 (q - n)) as E.
  assert (Yb : q - n <= 0 \/ Rabs (q - n) <= M) by (destruct (Rle_or_lt (q - n) 0); [left; assumption | right; rewrite Rabs_pos_eq; lra]).
  assert (A0 : 0 < bpow radix2 (-24)) by apply bpow_gt_0. assert (T0 : 0 < bpow radix2 (-150)) by apply bpow_gt_0.
  destruct (Rlt_dec d (rnd32 (q - n))) as [Lt|Ge].
  - pose proof (never_raised q n d Fq Fn Fd (proj1 Hq) Hn Hd Lt) as NR.
    assert (Y0 : 0 < q - n).
    { destruct (Rle_or_lt (q - n) 0) as [C|C]; [|exact C]. exfalso.
      assert (rnd32 (q - n) <= 0) by (apply round_le_generic; [typeclasses eauto.. | apply generic_format_0 | exact C]). lra. }
    destruct Yb as [Yb|Yb]; [lra|]. rewrite (Rabs_pos_eq (q - n)) in * by lra.
    assert (Xb : n + d <= q + (M * bpow radix2 (-24) + bpow radix2 (-150))).
    { pose proof (Rle_abs (rnd32 (q - n) - (q - n))). assert ((q - n) * bpow radix2 (-24) <= M * bpow radix2 (-24)) by (apply Rmult_le_compat_r; lra). lra. }
    pose proof (step_error_small (n + d) M ltac:(lra) ltac:(lra)) as SE. apply Rabs_le_iff in SE.
    assert (Ge0 : n <= rnd32 (rnd64 (n + d))).
    { apply round_ge_generic; [typeclasses eauto.. | exact Fn |]. apply round_ge_generic; [typeclasses eauto.. | exact (f32_f64 _ Fn) | lra]. }
    split; [split; lra|]. split; [|right; exact Ge0]. unfold Rmin. apply Rabs_le_iff. destruct (Rle_dec q (n + d)); lra.
  - split; [lra|]. split; [|left; reflexivity]. apply Rnot_lt_le in Ge. unfold Rmin. destruct (Rle_dec q (n + d)) as [C|C].
    + rewrite Rminus_diag_eq, Rabs_R0 by reflexivity. exact S0.
    + destruct Yb as [Yb|Yb]; [lra|]. apply Rabs_le_iff in E. apply Rabs_le_iff.
      assert (Rabs (q - n) * bpow radix2 (-24) <= M * bpow radix2 (-24)) by (apply Rmult_le_compat_r; lra).
      unfold slack. assert (bpow radix2 (-24) <= bpow radix2 (-23)) by (apply bpow_le; lia). assert (bpow radix2 (-150) <= bpow radix2 (-149)) by (apply bpow_le; lia).
      assert (0 <= M) by lra. assert (M * bpow radix2 (-24) <= M * bpow radix2 (-23)) by (apply Rmult_le_compat_l; lra). lra.
Qed.
