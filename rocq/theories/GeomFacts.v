(** Facts about the geometry model. *)
From Coq Require Import ZArith Bool Reals Lra Lia Psatz List String.
From Flocq Require Import Core BinarySingleNaN.
From Verif Require Import Outcome Float Addr SpecOct AddrFacts FloatFacts Geom.
Import ListNotations.
Open Scope R_scope.

Notation fval := (SF2R radix2).
Local Notation fexp64 := (SpecFloat.fexp prec64 emax64).
Local Notation fmt := (generic_format radix2 fexp64).
Local Notation rnd64 := (round radix2 fexp64 (round_mode mode_NE)).

#[local] Instance fexp64_ok : Valid_exp fexp64 := fexp_correct prec64 emax64 Hp64.
#[local] Instance fexp64_mono : Monotone_exp fexp64 := fexp_monotone prec64 emax64.
#[local] Instance rnd64_ok : Valid_rnd (round_mode mode_NE) := valid_rnd_N _.

(** ** Exactly representable values *)
(** [dy r]: r = m * 2^e with |m| < 2^53 and a small exponent. *)
Definition dy (r : R) : Prop :=
  exists m e, r = IZR m * bpow radix2 e /\ (Z.abs m < 2 ^ 53)%Z /\ (-1000 <= e <= 900)%Z.

Lemma dy_fmt r : dy r -> fmt r.
Proof.
  intros (m & e & -> & Hm & He).
  apply (generic_format_FLT radix2 (3 - emax64 - prec64) prec64).
  exists (Float radix2 m e).
  - reflexivity.
  - exact Hm.
  - cbn. unfold emax64, prec64. lia.
Qed.
Lemma dy_bound r : dy r -> Rabs r < bpow radix2 emax64.
Proof.
  intros (m & e & -> & Hm & He). rewrite Rabs_mult, (Rabs_right (bpow radix2 e)) by (apply Rle_ge, bpow_ge_0).
  rewrite <- abs_IZR.
  apply Rlt_le_trans with (bpow radix2 53 * bpow radix2 e).
  - apply Rmult_lt_compat_r; [apply bpow_gt_0|]. change (bpow radix2 53) with (IZR (2 ^ 53)). apply IZR_lt, Hm.
  - rewrite <- bpow_plus. apply bpow_le. unfold emax64. lia.
Qed.

Definition repr (x : f64) (r : R) : Prop := valid64 x /\ is_fin x = true /\ fval x = r.

Lemma repr_add x y a b : repr x a -> repr y b -> dy (a + b) -> repr (add64 x y) (a + b).
Proof.
  intros (V1 & F1 & E1) (V2 & F2 & E2) D. subst.
  destruct (add_exact prec64 emax64 Hp64 Hm64 x y V1 V2 F1 F2 (dy_fmt _ D) (dy_bound _ D)) as [H1 H2].
  split; [apply (add_valid prec64 emax64 Hp64 Hm64); assumption|]. split; assumption.
Qed.
Lemma repr_sub x y a b : repr x a -> repr y b -> dy (a - b) -> repr (sub64 x y) (a - b).
Proof.
  intros (V1 & F1 & E1) (V2 & F2 & E2) D. subst.
  destruct (sub_exact prec64 emax64 Hp64 Hm64 x y V1 V2 F1 F2 (dy_fmt _ D) (dy_bound _ D)) as [H1 H2].
  split; [apply (sub_valid prec64 emax64 Hp64 Hm64); assumption|]. split; assumption.
Qed.
Lemma repr_mul x y a b : repr x a -> repr y b -> dy (a * b) -> repr (mul64 x y) (a * b).
Proof.
  intros (V1 & F1 & E1) (V2 & F2 & E2) D. subst.
  destruct (mul_exact prec64 emax64 Hp64 Hm64 x y V1 V2 F1 F2 (dy_fmt _ D) (dy_bound _ D)) as [H1 H2].
  split; [apply (mul_valid prec64 emax64 Hp64 Hm64); assumption|]. split; assumption.
Qed.
Lemma repr_div x y a b : repr x a -> repr y b -> b <> 0 -> dy (a / b) -> repr (div64 x y) (a / b).
Proof.
  intros (V1 & F1 & E1) (V2 & F2 & E2) N D. subst.
  destruct (div_exact prec64 emax64 Hp64 Hm64 x y V1 V2 F1 N (dy_fmt _ D) (dy_bound _ D)) as [H1 H2].
  split; [apply (div_valid prec64 emax64 Hp64 Hm64); assumption|]. split; assumption.
Qed.
Lemma dy_int z : (Z.abs z < 2 ^ 53)%Z -> dy (IZR z).
Proof. intros H. exists z, 0%Z. split; [cbn; ring|]. split; [exact H | lia]. Qed.
Lemma repr_int z : (Z.abs z < 2 ^ 53)%Z -> repr (i2f64 z) (IZR z).
Proof.
  intros H. unfold i2f64.
  pose proof (normalize_exact prec64 emax64 Hp64 Hm64 z 0 false) as N. cbv zeta in N.
  assert (E : F2R (Float radix2 z 0) = IZR z) by (unfold F2R; cbn; ring).
  rewrite E in N. destruct (N (dy_fmt _ (dy_int z H)) (dy_bound _ (dy_int z H))) as [H1 H2].
  split; [apply (normalize_valid prec64 emax64 Hp64 Hm64)|]. split; assumption.
Qed.

Lemma bpow_Z k : (0 <= k)%Z -> bpow radix2 k = IZR (2 ^ k).
Proof. intros H. change 2%Z with (radix_val radix2). rewrite IZR_Zpower by exact H. reflexivity. Qed.

Lemma repr_pow k : (0 <= k <= 52)%Z -> repr (i2f64 (2 ^ k)) (bpow radix2 k).
Proof.
  intros H. rewrite bpow_Z by lia. apply repr_int. rewrite Z.abs_eq by (apply Z.pow_nonneg; lia).
  apply Z.pow_lt_mono_r; lia.
Qed.
Lemma repr_root : repr ROOTLEN 1638400.
Proof. apply (repr_int 1638400). lia. Qed.

(** ** Edge length of a level *)
Definition edge (l : Z) : R := 1638400 * bpow radix2 (- l).

Lemma root_div l : 1638400 / bpow radix2 l = edge l.
Proof. unfold edge, Rdiv. rewrite bpow_opp. reflexivity. Qed.
Lemma edge_pos l : 0 < edge l.
Proof. unfold edge. apply Rmult_lt_0_compat; [lra | apply bpow_gt_0]. Qed.

Lemma repr_res l : (0 <= l <= 31)%Z -> repr (div64 ROOTLEN (i2f64 (2 ^ l))) (edge l).
Proof.
  intros H. rewrite <- root_div. apply repr_div; [apply repr_root | apply repr_pow; lia | |].
  - apply Rgt_not_eq, bpow_gt_0.
  - rewrite root_div. exists 1638400%Z, (- l)%Z. split; [reflexivity|]. lia.
Qed.

(** ** Truncation *)
Lemma ftrunc_R x : is_fin x = true -> ftrunc x = Some (Ztrunc (fval x)).
Proof.
  destruct x as [s|s| |s m e]; try discriminate; intros _; cbn [ftrunc].
  - cbn. rewrite Ztrunc_IZR. reflexivity.
  - f_equal.
    assert (G : forall m e, Zfloor (F2R (Float radix2 (Zpos m) e)) =
       if (0 <=? e)%Z then (Zpos m * 2 ^ e)%Z else (Zpos m / 2 ^ (- e))%Z).
    { clear. intros m e. unfold F2R; cbn [Fnum Fexp]. destruct (Z.leb_spec 0 e) as [He|He].
      - rewrite bpow_Z by exact He. rewrite <- mult_IZR. apply Zfloor_IZR.
      - rewrite <- (Z.opp_involutive e) at 1. rewrite bpow_opp, bpow_Z by lia.
        apply Zfloor_div. apply Z.pow_nonzero; lia. }
    destruct s; cbn [SF2R cond_Zopp].
    + replace (F2R (Float radix2 (- Zpos m) e)) with (- F2R (Float radix2 (Zpos m) e))%R
        by (rewrite <- F2R_Zopp; reflexivity).
      rewrite Ztrunc_opp, Ztrunc_floor by (apply F2R_ge_0; cbn; lia). rewrite G. reflexivity.
    + rewrite Ztrunc_floor by (apply F2R_ge_0; cbn; lia). rewrite G. reflexivity.
Qed.

(** ** Division by the edge length and truncation give the exact floor *)
Section Floor.
Variable l : Z.
Hypothesis Hl : (0 <= l <= 31)%Z.

(** multiples of the edge are representable and never powers of two *)
Lemma mult_dy k : (Z.abs k <= 2 ^ 31)%Z -> dy (IZR k * edge l).
Proof.
  intros H. exists (k * 1638400)%Z, (- l)%Z. split; [|lia].
  unfold edge. rewrite mult_IZR. ring.
Qed.

Lemma not_pow k e : (1 <= k)%Z -> IZR k * edge l <> bpow radix2 e.
Proof.
  intros Hk E.
  assert (E' : IZR k * 1638400 = bpow radix2 (e + l)).
  { rewrite bpow_plus, <- E. unfold edge. rewrite bpow_opp. field. apply Rgt_not_eq, bpow_gt_0. }
  destruct (Z.lt_ge_cases (e + l) 0) as [Hn|Hn].
  - assert (bpow radix2 (e + l) <= bpow radix2 0) by (apply bpow_le; lia).
    change (bpow radix2 0) with 1 in H. assert (1 <= IZR k) by (apply IZR_le; lia). lra.
  - rewrite bpow_Z in E' by exact Hn. rewrite <- mult_IZR in E'. apply eq_IZR in E'.
    assert (D : (5 | 2 ^ (e + l))%Z) by (exists (k * 327680)%Z; lia).
    set (n := (e + l)%Z) in *. clearbody n. clear E E'.
    assert (P : forall m, (0 <= m)%Z -> ~ (5 | 2 ^ m)%Z).
    { intros m Hm. pattern m. apply natlike_ind; [| |exact Hm].
      - intros [z Hz]. cbn in Hz. lia.
      - intros x Hx IH [z Hz]. apply IH. rewrite Z.pow_succ_r in Hz by exact Hx.
        apply (Znumtheory.Gauss 5 2); [exists z; lia|]. apply Znumtheory.Zgcd_1_rel_prime. reflexivity. }
    exact (P n Hn D).
Qed.

Lemma div_strict p k : fmt p -> (1 <= k <= 2 ^ 31)%Z -> p < IZR k * edge l ->
  rnd64 (p / edge l) < IZR k.
Proof.
  intros Fp Hk Hp.
  pose proof (edge_pos l) as He.
  set (X := IZR k * edge l) in *.
  assert (FX : fmt X) by (apply dy_fmt, mult_dy; lia).
  assert (Fk : fmt (IZR k)) by (apply dy_fmt, dy_int; lia).
  assert (K1 : 1 <= IZR k) by (apply IZR_le; lia).
  assert (X0 : 0 < X) by (apply Rmult_lt_0_compat; lra).
  assert (K0 : 0 < IZR k) by lra.
  (* p is at most the predecessor of X *)
  assert (Pp : p <= pred radix2 fexp64 X).
  { apply pred_ge_gt; [apply fexp64_ok | exact Fp | exact FX | exact Hp]. }
  (* X is not a power of two, so its predecessor is X - ulp X *)
  assert (PX : pred radix2 fexp64 X = X - ulp radix2 fexp64 X).
  { rewrite pred_eq_pos by lra. unfold pred_pos.
    rewrite Req_bool_false; [reflexivity|]. apply not_pow. lia. }
  (* gaps *)
  set (eX := mag_val radix2 X (mag radix2 X) : Z).
  set (eK := mag_val radix2 (IZR k) (mag radix2 (IZR k)) : Z).
  assert (BX : bpow radix2 (eX - 1) <= X < bpow radix2 eX).
  { pose proof (bpow_mag_le radix2 X ltac:(lra)) as M1. pose proof (bpow_mag_gt radix2 X) as M2.
    rewrite Rabs_right in M1, M2 by lra. split; [exact M1 | exact M2]. }
  assert (BK : bpow radix2 (eK - 1) <= IZR k < bpow radix2 eK).
  { pose proof (bpow_mag_le radix2 (IZR k) ltac:(lra)) as M1. pose proof (bpow_mag_gt radix2 (IZR k)) as M2.
    rewrite Rabs_right in M1, M2 by lra. split; [exact M1 | exact M2]. }
  assert (eK1 : (1 <= eK)%Z).
  { destruct (Z.lt_ge_cases eK 1) as [F|F]; [|exact F]. exfalso.
    assert (bpow radix2 eK <= bpow radix2 0) by (apply bpow_le; lia). change (bpow radix2 0) with 1 in H. lra. }
  assert (eXlo : (-40 <= eX)%Z).
  { destruct (Z.lt_ge_cases eX (-40)) as [F|F]; [|exact F]. exfalso.
    assert (H1 : bpow radix2 eX <= bpow radix2 (-40)) by (apply bpow_le; lia).
    assert (H2 : bpow radix2 (-31) <= bpow radix2 (- l)) by (apply bpow_le; lia).
    assert (H3 : bpow radix2 (-40) < bpow radix2 (-31)) by (apply bpow_lt; lia).
    assert (H4 : bpow radix2 (- l) <= X).
    { unfold X, edge. pose proof (bpow_gt_0 radix2 (- l)).
      apply Rle_trans with (1 * (1 * bpow radix2 (- l))); [lra|].
      apply Rmult_le_compat; try lra. }
    lra. }
  assert (ulpX : ulp radix2 fexp64 X = bpow radix2 (eX - 53)).
  { rewrite ulp_neq_0 by lra. unfold cexp. fold eX. f_equal.
    unfold SpecFloat.fexp, SpecFloat.emin, prec64, emax64. lia. }
  assert (ulpK : ulp radix2 fexp64 (IZR k) = bpow radix2 (eK - 53)).
  { rewrite ulp_neq_0 by lra. unfold cexp. fold eK. f_equal.
    unfold SpecFloat.fexp, SpecFloat.emin, prec64, emax64. lia. }
  set (pk := pred radix2 fexp64 (IZR k)).
  assert (Fpk : fmt pk) by (apply generic_format_pred; [apply fexp64_ok | exact Fk]).
  assert (SP : succ radix2 fexp64 pk = IZR k) by (apply succ_pred; [apply fexp64_ok | exact Fk]).
  assert (pkK : pk < IZR k) by (apply pred_lt_id; lra).
  assert (gapK : IZR k - pk <= bpow radix2 (eK - 53)).
  { rewrite <- ulpK. unfold pk. rewrite pred_eq_pos by lra. unfold pred_pos.
    destruct (Req_bool_spec (IZR k) (bpow radix2 (mag radix2 (IZR k) - 1))) as [_|_]; [|lra].
    fold eK. rewrite ulpK.
    assert (bpow radix2 (fexp64 (eK - 1)) <= bpow radix2 (eK - 53)); [|lra].
    apply bpow_le. unfold SpecFloat.fexp, SpecFloat.emin, prec64, emax64. lia. }
  assert (Q : p / edge l < (pk + succ radix2 fexp64 pk) / 2).
  { rewrite SP.
    apply Rle_lt_trans with ((X - bpow radix2 (eX - 53)) / edge l).
    - apply Rmult_le_compat_r; [apply Rlt_le, Rinv_0_lt_compat, He|]. rewrite <- ulpX, <- PX. exact Pp.
    - assert (E1 : (X - bpow radix2 (eX - 53)) / edge l = IZR k - bpow radix2 (eX - 53) / edge l)
        by (unfold X; field; lra).
      rewrite E1.
      assert (E2 : bpow radix2 (eK - 53) / 2 < bpow radix2 (eX - 53) / edge l); [|lra].
      apply (Rmult_lt_reg_r (edge l)); [exact He|].
      replace (bpow radix2 (eX - 53) / edge l * edge l) with (bpow radix2 (eX - 53)) by (field; lra).
      replace (bpow radix2 (eK - 53) / 2) with (bpow radix2 (eK - 1) * bpow radix2 (-53)).
      2:{ rewrite <- bpow_plus. replace (eK - 53)%Z with (1 + (eK - 1 + -53))%Z by lia.
          rewrite (bpow_plus radix2 1). change (bpow radix2 1) with 2. field. }
      replace (eX - 53)%Z with (eX + -53)%Z by lia. rewrite bpow_plus.
      replace (bpow radix2 (eK - 1) * bpow radix2 (-53) * edge l)
        with (bpow radix2 (eK - 1) * edge l * bpow radix2 (-53)) by ring.
      apply Rmult_lt_compat_r; [apply bpow_gt_0|].
      apply Rle_lt_trans with X; [|lra]. apply Rmult_le_compat_r; lra. }
  apply Rle_lt_trans with pk; [|exact pkK].
  apply round_N_le_midp; [apply fexp64_ok | exact Fpk | exact Q].
Qed.

Lemma div_lower p k : (0 <= k <= 2 ^ 31)%Z -> IZR k * edge l <= p -> IZR k <= rnd64 (p / edge l).
Proof.
  intros Hk Hp. pose proof (edge_pos l) as He.
  apply round_ge_generic; [apply fexp64_ok | apply rnd64_ok | apply dy_fmt, dy_int; lia|].
  apply (Rmult_le_reg_r (edge l)); [exact He|].
  replace (p / edge l * edge l) with p by (field; lra). exact Hp.
Qed.

Lemma floor_exact p : fmt p -> 0 <= p <= 1638400 ->
  Zfloor (rnd64 (p / edge l)) = Zfloor (p / edge l) /\
  (0 <= Zfloor (p / edge l) <= 2 ^ l)%Z /\ rnd64 (p / edge l) <= IZR (2 ^ l).
Proof.
  intros Fp Hp. pose proof (edge_pos l) as He.
  set (k := Zfloor (p / edge l)).
  assert (B1 : 0 <= p / edge l) by (apply Rmult_le_pos; [lra | apply Rlt_le, Rinv_0_lt_compat, He]).
  assert (EP : IZR (2 ^ l) * edge l = 1638400).
  { rewrite <- bpow_Z by lia. unfold edge. rewrite bpow_opp. field. apply Rgt_not_eq, bpow_gt_0. }
  assert (B2 : p / edge l <= IZR (2 ^ l)).
  { apply (Rmult_le_reg_r (edge l)); [exact He|].
    replace (p / edge l * edge l) with p by (field; lra). lra. }
  assert (K0 : (0 <= k)%Z) by (apply Zfloor_lub; exact B1).
  assert (K1 : (k <= 2 ^ l)%Z).
  { apply le_IZR. apply Rle_trans with (2 := B2). apply Zfloor_lb. }
  assert (L31 : (2 ^ l <= 2 ^ 31)%Z) by (apply Z.pow_le_mono_r; lia).
  assert (Up : rnd64 (p / edge l) <= IZR (2 ^ l)).
  { apply round_le_generic; [apply fexp64_ok | apply rnd64_ok | | exact B2].
    apply dy_fmt, dy_int. assert (0 < 2 ^ l)%Z by (apply Z.pow_pos_nonneg; lia). lia. }
  split; [|split; [lia | exact Up]].
  apply Zfloor_imp. rewrite plus_IZR. split.
  - apply div_lower; [lia|]. apply (Rmult_le_reg_r (/ edge l)); [apply Rinv_0_lt_compat, He|].
    replace (IZR k * edge l * / edge l) with (IZR k) by (field; lra). apply Zfloor_lb.
  - destruct (Z.eq_dec k (2 ^ l)) as [E|E].
    + apply Rle_lt_trans with (1 := Up). rewrite <- E. lra.
    + rewrite <- plus_IZR. apply div_strict; [exact Fp | lia|].
      rewrite plus_IZR. apply (Rmult_lt_reg_r (/ edge l)); [apply Rinv_0_lt_compat, He|].
      replace ((IZR k + 1) * edge l * / edge l) with (IZR k + 1) by (field; lra). apply Zfloor_ub.
Qed.

(** The converted coordinate. *)
Lemma f2tick_ok x p : repr x p -> 0 <= p <= 1638400 ->
  f2tick (div64 x (div64 ROOTLEN (i2f64 (2 ^ l)))) = Val (Zfloor (p / edge l)) /\
  (0 <= Zfloor (p / edge l) <= 2 ^ l)%Z.
Proof.
  intros (V & F & E) Hp.
  destruct (repr_res l Hl) as (Vr & Fr & Er).
  assert (Fp : fmt p) by (rewrite <- E; apply (val_format prec64 emax64), V).
  destruct (floor_exact p Fp Hp) as (H1 & H2 & H3).
  pose proof (edge_pos l) as He.
  pose proof (div_round prec64 emax64 Hp64 Hm64 x _ V Vr F) as D.
  rewrite Er, E in D. specialize (D ltac:(lra)).
  assert (R0 : 0 <= rnd64 (p / edge l)).
  { apply Rle_trans with (IZR 0); [lra|]. apply div_lower; [lia|]. rewrite Rmult_0_l. lra. }
  rewrite Rlt_bool_true in D.
  2:{ rewrite Rabs_right by lra. apply Rle_lt_trans with (1 := H3).
      rewrite <- bpow_Z by lia. apply bpow_lt. unfold emax64. lia. }
  destruct D as [D1 D2]. fold (div64 x (div64 ROOTLEN (i2f64 (2 ^ l)))) in D1, D2.
  split; [|exact H2].
  unfold f2tick. rewrite ftrunc_R by exact D2.
  change (fval (div64 x (div64 ROOTLEN (i2f64 (2 ^ l)))) = rnd64 (p / edge l)) in D1. rewrite D1.
  rewrite Ztrunc_floor by exact R0. rewrite H1.
  assert (2 ^ l <= 2 ^ 31)%Z by (apply Z.pow_le_mono_r; lia).
  replace ((0 <=? Zfloor (p / edge l)) && (Zfloor (p / edge l) <? 2 ^ 32))%Z with true; [reflexivity|].
  symmetry. apply andb_true_iff. split; [apply Z.leb_le | apply Z.ltb_lt]; lia.
Qed.
End Floor.
