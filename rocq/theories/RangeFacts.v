(** Proofs for C78: induction over the levels of the tree. *)
From Coq Require Import ZArith Bool Reals Lra Lia Psatz Sorting.Sorted List.
From Flocq Require Import Core BinarySingleNaN.
From Verif Require Import Outcome Float Payload Addr SpecOct SpecAvg SpecQuery SpecE2E SpecRange FloatFacts AddrFacts AvgBounds AvgProof E2EFacts.
Import ListNotations.
Open Scope R_scope.

(** ** One mean *)
Definition grow : R := (1 + u32) ^ 9.

Lemma grow_ge1 : 1 <= grow.
Proof. apply pow_ge1. Qed.

Lemma rsum_range lo hi xs : (forall x, In x xs -> lo <= x <= hi) ->
  INR (length xs) * lo <= rsum xs <= INR (length xs) * hi.
Proof.
  induction xs as [|x xs IH]; intros H; [cbn; lra|]. cbn [rsum fold_right length]. rewrite S_INR.
  pose proof (H x (or_introl eq_refl)). pose proof (IH (fun y Hy => H y (or_intror Hy))). unfold rsum in *. lra.
Qed.

Lemma mean_range lo hi B xs s : 0 <= B <= bpow radix2 124 -> (1 <= length xs <= 8)%nat ->
  (forall y, In y xs -> valid32 y /\ is_fin y = true /\ Rabs (fval y) <= B) ->
  (forall y, In y xs -> lo <= fval y <= hi) -> sum_ok B xs s ->
  let m := div32 s (i2f32 (Z.of_nat (length xs))) in
  valid32 m /\ is_fin m = true /\
  lo - (B * (grow - 1) + eta32) <= fval m <= hi + (B * (grow - 1) + eta32).
Proof.
  intros HB HL HX HR HS m. destruct (mean_ok B xs s HB HL HX HS) as [F E]. fold m in F, E.
  split; [apply (div_valid prec32 emax32 Hp32 Hm32); [exact (proj1 HS)|apply small_exact, HL]|]. split; [exact F|].
  assert (I1 : 1 <= INR (length xs)) by (replace 1 with (INR 1) by reflexivity; apply le_INR; lia).
  assert (RM : lo <= rsum (map fval xs) / INR (length xs) <= hi).
  { destruct (rsum_range lo hi (map fval xs)) as [A1 A2].
    { intros x Hx. apply in_map_iff in Hx. destruct Hx as (y & <- & Hy). apply HR, Hy. }
    assert (L : length (map fval xs) = length xs) by apply map_length. rewrite L in A1, A2.
    assert (N0 : INR (length xs) <> 0) by (apply Rgt_not_eq; lra).
    clear - I1 A1 A2 N0. set (n := INR (length xs)) in *. set (t := rsum (map fval xs)) in *. clearbody n t.
    split.
    - apply (Rmult_le_reg_r n); [lra|]. unfold Rdiv. rewrite Rmult_assoc, Rinv_l, Rmult_1_r by exact N0. lra.
    - apply (Rmult_le_reg_r n); [lra|]. unfold Rdiv. rewrite Rmult_assoc, Rinv_l, Rmult_1_r by exact N0. lra. }
  assert (G : (1 + u32) ^ S (length xs) <= grow) by (apply Rle_pow; [pose proof u32_pos; lra|lia]).
  assert (B * ((1 + u32) ^ S (length xs) - 1) <= B * (grow - 1)) by (apply Rmult_le_compat_l; lra).
  apply Rabs_le_inv in E. lra.
Qed.

(** The mean of positive values is positive: sums and quotients of multiples of the
    smallest positive number do not fall below it. *)
Definition tiny : R := bpow radix2 (-149).
Lemma tiny_positive x : valid32 x -> 0 < fval x -> bpow radix2 (-149) <= fval x.
Proof.
  intros V P. apply (generic_format_ge_bpow radix2 (SpecFloat.fexp prec32 emax32)); [|exact P|exact (val_format prec32 emax32 x V)].
  intros e. unfold SpecFloat.fexp, SpecFloat.emin, prec32, emax32. lia.
Qed.

Lemma tiny_format j : (j <= 8)%nat -> generic_format radix2 (SpecFloat.fexp prec32 emax32) (INR j * tiny).
Proof.
  intros H. apply (generic_format_FLT radix2 (-149) 24). exists (Float radix2 (Z.of_nat j) (-149)).
  - unfold F2R, tiny. cbn [Fnum Fexp]. rewrite INR_IZR_INZ. reflexivity.
  - cbn [Fnum]. apply Z.le_lt_trans with 8%Z; [lia|reflexivity].
  - cbn [Fexp]. lia.
Qed.
Lemma round_tiny j x : (j <= 8)%nat -> INR j * tiny <= x ->
  INR j * tiny <= round radix2 (SpecFloat.fexp prec32 emax32) (round_mode mode_NE) x.
Proof.
  intros H L. apply round_ge_generic; [apply (fexp_correct prec32 emax32), Hp32|apply valid_rnd_round_mode|apply tiny_format, H|exact L].
Qed.

Lemma fold_tiny M ys : forall xs s j, 0 <= M <= bpow radix2 124 -> (length xs + length ys <= 8)%nat ->
  (forall y, In y (xs ++ ys) -> valid32 y /\ is_fin y = true /\ Rabs (fval y) <= M) ->
  (forall y, In y ys -> 0 < fval y) -> sum_ok M xs s -> j = length xs -> INR j * tiny <= fval s ->
  INR (j + length ys) * tiny <= fval (fold_left add32 ys s).
Proof.
  induction ys as [|y ys IH]; intros xs s j HM HL HX HP H Ej B.
  - cbn [fold_left length]. rewrite Nat.add_0_r. exact B.
  - cbn [fold_left length] in *. replace (j + S (length ys))%nat with (S j + length ys)%nat by lia.
    assert (HX' : forall z, In z (xs ++ [y]) -> valid32 z /\ is_fin z = true /\ Rabs (fval z) <= M).
    { intros z Hz. apply HX. apply in_app_or in Hz. apply in_or_app. destruct Hz as [Hz|[<-|[]]]; [left; exact Hz|right; left; reflexivity]. }
    assert (H' : sum_ok M (xs ++ [y]) (add32 s y)) by (apply sum_step; [exact HM|lia|exact HX'|exact H]).
    apply (IH (xs ++ [y])).
    + exact HM.
    + rewrite app_length. cbn [length]. lia.
    + intros z Hz. apply HX. rewrite <- app_assoc in Hz. exact Hz.
    + intros z Hz. apply HP. right. exact Hz.
    + exact H'.
    + rewrite app_length. cbn [length]. lia.
    + destruct H as (Vs & Fs & _). destruct H' as (_ & F' & _).
      destruct (HX y) as (Vy & Fy & _); [apply in_or_app; right; left; reflexivity|].
      pose proof (add_round prec32 emax32 Hp32 Hm32 s y Vs Vy Fs Fy) as A. unfold add32 in F' |- *.
      destruct (Rlt_bool _ _); [|destruct A as [A _]; rewrite A in F'; discriminate F'].
      destruct A as [-> _]. apply round_tiny; [lia|].
      pose proof (tiny_positive y Vy (HP y (or_introl eq_refl))). fold tiny in H. rewrite S_INR. lra.
Qed.

Lemma sum_solid_tiny M xs : 0 <= M <= bpow radix2 124 -> (1 <= length xs <= 8)%nat ->
  (forall y, In y xs -> valid32 y /\ is_fin y = true /\ Rabs (fval y) <= M) ->
  (forall y, In y xs -> 0 < fval y) -> INR (length xs) * tiny <= fval (sum_solid xs).
Proof.
  intros HM HL HX HP. destruct xs as [|x xs]; [cbn in HL; lia|]. cbn [sum_solid].
  destruct (HX x (or_introl eq_refl)) as (V & F & B).
  apply (fold_tiny M xs [x] x 1); [exact HM|exact (proj2 HL)|exact HX|intros y Hy; apply HP; right; exact Hy| |reflexivity|].
  - apply (sum_solid_ok M [x]); [exact HM|cbn; lia|]. intros y [<-|[]]. apply HX. left. reflexivity.
  - cbn [INR]. rewrite Rmult_1_l. apply tiny_positive; [exact V|]. apply HP. left. reflexivity.
Qed.
Lemma sum_water_tiny M xs : 0 <= M <= bpow radix2 124 -> (1 <= length xs <= 8)%nat ->
  (forall y, In y xs -> valid32 y /\ is_fin y = true /\ Rabs (fval y) <= M) ->
  (forall y, In y xs -> 0 < fval y) -> INR (length xs) * tiny <= fval (sum_water xs).
Proof.
  intros HM HL HX HP. unfold sum_water.
  apply (fold_tiny M xs [] f_zero 0); [exact HM|exact (proj2 HL)|exact HX|exact HP| |reflexivity|].
  - apply (sum_water_ok M []); [exact HM|cbn; lia|]. intros y [].
  - cbn. lra.
Qed.

Lemma mean_positive M xs s : 0 <= M <= bpow radix2 124 -> (1 <= length xs <= 8)%nat ->
  (forall y, In y xs -> valid32 y /\ is_fin y = true /\ Rabs (fval y) <= M) -> sum_ok M xs s ->
  INR (length xs) * tiny <= fval s -> 0 < fval (div32 s (i2f32 (Z.of_nat (length xs)))).
Proof.
  intros HM HL HX HS B. destruct (mean_ok M xs s HM HL HX HS) as [F _].
  destruct HS as (Vs & Fs & _). destruct (small_exact (length xs) HL) as [En Vn].
  assert (I1 : 1 <= INR (length xs)) by (replace 1 with (INR 1) by reflexivity; apply le_INR; lia).
  pose proof (div_round prec32 emax32 Hp32 Hm32 s _ Vs Vn Fs) as D. rewrite En in D. specialize (D ltac:(lra)).
  unfold div32 in F |- *. destruct (Rlt_bool _ _); [|rewrite D in F; discriminate F].
  destruct D as [-> _]. apply Rlt_le_trans with (INR 1 * tiny); [cbn [INR]; rewrite Rmult_1_l; apply bpow_gt_0|].
  apply round_tiny; [lia|]. cbn [INR]. apply (Rmult_le_reg_r (INR (length xs))); [lra|].
  unfold Rdiv. rewrite (Rmult_assoc (fval s)), Rinv_l, Rmult_1_r by lra. rewrite Rmult_1_l, Rmult_comm. exact B.
Qed.

(** The mean of values none of which is positive is not positive. *)
Lemma mean_nonpos xs s : (1 <= length xs <= 8)%nat ->
  (forall y, In y xs -> valid32 y /\ is_fin y = true /\ - bpow radix2 121 <= fval y <= 0) ->
  (forall M, 0 <= M <= bpow radix2 124 ->
    (forall y, In y xs -> valid32 y /\ is_fin y = true /\ Rabs (fval y) <= M) -> sum_ok M xs s) ->
  fval (div32 s (i2f32 (Z.of_nat (length xs)))) <= 0.
Proof.
  intros HL HX HS. set (T := rsum (map fval xs)).
  assert (GE : forall y, In y xs -> T <= fval y).
  { unfold T. assert (HX' : forall y, In y xs -> fval y <= 0) by (intros y Hy; destruct (HX y Hy) as (_ & _ & _ & ?); lra).
    clear HX HS HL T. assert (NS : forall l, (forall y, In y l -> fval y <= 0) -> rsum (map fval l) <= 0).
    { induction l as [|z l IH]; intros Hl; [cbn; lra|]. cbn [map rsum fold_right].
      pose proof (Hl z (or_introl eq_refl)). pose proof (IH (fun y Hy => Hl y (or_intror Hy))). unfold rsum in *. lra. }
    induction xs as [|x xs IH]; intros y []; cbn [map rsum fold_right].
    - subst y. pose proof (NS xs (fun y Hy => HX' y (or_intror Hy))). unfold rsum in *. lra.
    - assert (rsum (map fval xs) <= fval y) by (apply IH; [intros z Hz; apply HX'; right; exact Hz|assumption]).
      pose proof (HX' x (or_introl eq_refl)). unfold rsum in *. lra. }
  assert (I1 : 1 <= INR (length xs)) by (replace 1 with (INR 1) by reflexivity; apply le_INR; lia).
  assert (I8 : INR (length xs) <= 8) by (replace 8 with (INR 8) by (cbn; lra); apply le_INR; lia).
  assert (L : length (map fval xs) = length xs) by apply map_length.
  assert (TB : INR (length xs) * - bpow radix2 121 <= T <= INR (length xs) * 0).
  { unfold T. rewrite <- L. apply rsum_range.
    intros x Hx. apply in_map_iff in Hx. destruct Hx as (y & <- & Hy). apply HX, Hy. }
  assert (TB' : 0 <= - T <= bpow radix2 124).
  { change 124%Z with (3 + 121)%Z. rewrite bpow_plus. change (bpow radix2 3) with 8.
    pose proof (bpow_gt_0 radix2 121). nra. }
  assert (HM : forall y, In y xs -> valid32 y /\ is_fin y = true /\ Rabs (fval y) <= - T).
  { intros y Hy. destruct (HX y Hy) as (V & F & _ & U). split; [exact V|]. split; [exact F|].
    rewrite Rabs_left1 by lra. pose proof (GE y Hy). lra. }
  pose proof (HS (- T) TB' HM) as SO.
  destruct (mean_ok (- T) xs s) as [F E]; [exact TB'|exact HL|exact HM|exact SO|].
  fold T in E. apply Rabs_le_inv in E.
  assert (V : valid32 (div32 s (i2f32 (Z.of_nat (length xs))))).
  { apply (div_valid prec32 emax32 Hp32 Hm32); [exact (proj1 SO)|apply small_exact, HL]. }
  pose proof (pow_small (S (length xs)) ltac:(lia)) as G. pose proof (pow_ge1 (S (length xs))) as G1.
  assert (Q : T / INR (length xs) <= / 8 * T).
  { assert (/ 8 * - T <= - T / INR (length xs)).
    { unfold Rdiv. rewrite (Rmult_comm (/ 8)). apply Rmult_le_compat_l; [lra|]. apply Rinv_le; lra. }
    unfold Rdiv in *. lra. }
  assert (Q2 : - T * ((1 + u32) ^ S (length xs) - 1) <= - T * (1 / 1000)) by (apply Rmult_le_compat_l; lra).
  destruct (Rle_or_lt (fval (div32 s (i2f32 (Z.of_nat (length xs))))) 0) as [H|H]; [exact H|exfalso].
  apply tiny_positive in H; [|exact V].
  assert (N : bpow radix2 (-149) = 2 * eta32).
  { unfold eta32. change (-149)%Z with (1 + -150)%Z. rewrite bpow_plus. reflexivity. }
  assert (N0 : 0 < eta32) by apply bpow_gt_0.
  unfold f32 in *. set (m := fval (div32 s (i2f32 (Z.of_nat (length xs))))) in *. clearbody m.
  clear - E Q Q2 N N0 H TB'. lra.
Qed.

(** ** How the bounds grow from level to level *)
Fixpoint bnd (k : nat) (M : R) : R := match k with O => M | S k => grow * bnd k M + eta32 end.

Lemma eta_pos : 0 < eta32. Proof. apply bpow_gt_0. Qed.
Lemma bnd_ge k M : 0 <= M -> M <= bnd k M.
Proof.
  intros HM. induction k as [|k IH]; cbn [bnd]; [lra|]. pose proof grow_ge1. pose proof eta_pos. nra.
Qed.
Lemma bnd_closed k M : 0 <= M -> bnd k M <= grow ^ k * (M + INR k * eta32).
Proof.
  intros HM. induction k as [|k IH]; [cbn; lra|]. cbn [bnd pow]. rewrite S_INR.
  pose proof grow_ge1 as G. pose proof eta_pos as E.
  assert (G1 : 1 <= grow * grow ^ k).
  { replace 1 with (1 * 1) by ring. apply Rmult_le_compat; try lra. apply pow_R1_Rle, G. }
  assert (grow * bnd k M <= grow * (grow ^ k * (M + INR k * eta32))) by (apply Rmult_le_compat_l; lra).
  assert (eta32 <= grow * grow ^ k * eta32) by nra. lra.
Qed.
Lemma pow_bernoulli x n : 0 <= x -> (1 + x) ^ n * (1 - INR n * x) <= 1.
Proof.
  intros Hx. induction n as [|n IH]; [cbn; lra|]. cbn [pow]. rewrite S_INR.
  assert (0 <= (1 + x) ^ n) by (apply pow_le; lra).
  assert ((1 + x) * (1 - (INR n + 1) * x) <= 1 - INR n * x) by (pose proof (pos_INR n); nra).
  apply Rle_trans with ((1 + x) ^ n * (1 - INR n * x)); [|exact IH].
  replace ((1 + x) * (1 + x) ^ n * (1 - (INR n + 1) * x)) with ((1 + x) ^ n * ((1 + x) * (1 - (INR n + 1) * x))) by ring.
  apply Rmult_le_compat_l; assumption.
Qed.
Lemma grow_31 : grow ^ 31 <= 1 + bpow radix2 (-15).
Proof.
  unfold grow. rewrite <- pow_mult. change (9 * 31)%nat with 279%nat.
  assert (U : u32 = / 16777216) by (unfold u32; cbn; lra).
  pose proof (pow_bernoulli u32 279 (Rlt_le _ _ u32_pos)) as B.
  replace (INR 279) with 279 in B by (rewrite INR_IZR_INZ; reflexivity).
  assert (P : 0 < (1 + u32) ^ 279) by (apply pow_lt; pose proof u32_pos; lra).
  set (g := (1 + u32) ^ 279) in *. clearbody g. rewrite U in B.
  change (bpow radix2 (-15)) with (/ 32768). lra.
Qed.
Lemma bnd_31 k M : (k <= 31)%nat -> 0 <= M -> bnd k M <= M + (M * bpow radix2 (-15) + bpow radix2 (-144)).
Proof.
  intros Hk HM. apply Rle_trans with (1 := bnd_closed k M HM).
  assert (G : grow ^ k <= 1 + bpow radix2 (-15)).
  { apply Rle_trans with (2 := grow_31). apply Rle_pow; [apply grow_ge1|exact Hk]. }
  assert (G0 : 0 <= grow ^ k) by (apply pow_le; pose proof grow_ge1; lra).
  assert (K : 0 <= INR k <= 31).
  { split; [apply pos_INR|]. replace 31 with (INR 31) by (rewrite INR_IZR_INZ; reflexivity). apply le_INR, Hk. }
  assert (N : bpow radix2 (-144) = 64 * eta32).
  { unfold eta32. change (-144)%Z with (6 + -150)%Z. rewrite bpow_plus. reflexivity. }
  pose proof eta_pos as E. rewrite N. change (bpow radix2 (-15)) with (/ 32768) in *.
  assert (0 <= INR k * eta32 <= 31 * eta32) by (split; [apply Rmult_le_pos; lra | apply Rmult_le_compat_r; lra]).
  apply Rle_trans with ((1 + / 32768) * (M + INR k * eta32)); [apply Rmult_le_compat_r; lra|]. lra.
Qed.
