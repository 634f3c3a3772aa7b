(** The floating-point operations of the model, related to real numbers through
    Flocq.  Used in proofs only. *)
From Coq Require Import ZArith Bool Reals Lra Lia SpecFloat.
From Flocq Require Import Core BinarySingleNaN.
From Verif Require Import Float.
Open Scope Z_scope.

Lemma round_nearest_even_equiv s m l :
  round_nearest_even m l = choice_mode mode_NE s m l.
Proof.
  case l; [reflexivity | intro c].
  case c; [|reflexivity..].
  now simpl; unfold Round.cond_incr; case Z.even.
Qed.

Section Format.
Variables prec emax : Z.
Context (Hp : Prec_gt_0 prec) (Hm : Prec_lt_emax prec emax).

Local Notation fexp := (SpecFloat.fexp prec emax).
Local Notation valid x := (valid_binary prec emax x = true).
Local Notation rnd := (round radix2 fexp (round_mode mode_NE)).
Local Notation val := (SF2R radix2).

#[local] Instance fexp_ok : Valid_exp fexp := fexp_correct prec emax Hp.
#[local] Instance fexp_mono : Monotone_exp fexp := fexp_monotone prec emax.
#[local] Instance rnd_ok : Valid_rnd (round_mode mode_NE) := valid_rnd_N _.

Lemma binary_round_aux_equiv sx mx ex lx :
  SpecFloat.binary_round_aux prec emax sx mx ex lx
  = BinarySingleNaN.binary_round_aux prec emax mode_NE sx mx ex lx.
Proof.
  unfold SpecFloat.binary_round_aux, BinarySingleNaN.binary_round_aux.
  set (mrse' := shr_fexp _ _ _ _ _).
  case mrse'; intros mrs' e'; simpl.
  now rewrite (round_nearest_even_equiv sx).
Qed.

Lemma binary_round_equiv s m e :
  SpecFloat.binary_round prec emax s m e = BinarySingleNaN.binary_round prec emax mode_NE s m e.
Proof.
  unfold SpecFloat.binary_round, BinarySingleNaN.binary_round, shl_align_fexp.
  set (mez := shl_align _ _ _); case mez as [mz ez].
  apply binary_round_aux_equiv.
Qed.

Lemma binary_normalize_equiv m e szero :
  SpecFloat.binary_normalize prec emax m e szero
  = B2SF (BinarySingleNaN.binary_normalize prec emax Hp Hm mode_NE m e szero).
Proof.
  case m as [ | p | p].
  - now simpl.
  - simpl; rewrite B2SF_SF2B; apply binary_round_equiv.
  - simpl; rewrite B2SF_SF2B; apply binary_round_equiv.
Qed.

Lemma mul_equiv (x y : binary_float prec emax) :
  SFmul prec emax (B2SF x) (B2SF y) = B2SF (Bmult mode_NE x y).
Proof.
  case x as [sx|sx| |sx mx ex Bx]; case y as [sy|sy| |sy my ey By]; [now trivial..|].
  simpl. rewrite B2SF_SF2B. apply binary_round_aux_equiv.
Qed.

Lemma add_equiv (x y : binary_float prec emax) :
  SFadd prec emax (B2SF x) (B2SF y) = B2SF (Bplus mode_NE x y).
Proof.
  case x as [sx|sx| |sx mx ex Bx]; case y as [sy|sy| |sy my ey By];
    [now (trivial || simpl; case Bool.eqb)..|].
  apply binary_normalize_equiv.
Qed.

Lemma sub_equiv (x y : binary_float prec emax) :
  SFsub prec emax (B2SF x) (B2SF y) = B2SF (Bminus mode_NE x y).
Proof.
  case x as [sx|sx| |sx mx ex Bx]; case y as [sy|sy| |sy my ey By];
    [now (trivial || simpl; case Bool.eqb)..|].
  simpl. unfold Zminus. rewrite <- cond_Zopp_negb. apply binary_normalize_equiv.
Qed.

Lemma div_equiv (x y : binary_float prec emax) :
  SFdiv prec emax (B2SF x) (B2SF y) = B2SF (Bdiv mode_NE x y).
Proof.
  case x as [sx|sx| |sx mx ex Bx]; case y as [sy|sy| |sy my ey By];
    [now (trivial || simpl; case Bool.eqb)..|].
  simpl. rewrite B2SF_SF2B.
  set (melz := SFdiv_core_binary _ _ _ _ _ _). case melz as [[mz ez] lz].
  apply binary_round_aux_equiv.
Qed.

Lemma valid_ex x : valid x -> exists b : binary_float prec emax, x = B2SF b.
Proof. intros H. exists (SF2B x H). symmetry. apply B2SF_SF2B. Qed.

Lemma fin_B2SF (b : binary_float prec emax) : is_fin (B2SF b) = is_finite b.
Proof. now case b. Qed.

(** ** Validity *)
Lemma add_valid x y : valid x -> valid y -> valid (SFadd prec emax x y).
Proof.
  intros Hx Hy. destruct (valid_ex x Hx) as [bx ->]. destruct (valid_ex y Hy) as [b_y ->].
  rewrite add_equiv. apply valid_binary_B2SF.
Qed.
Lemma sub_valid x y : valid x -> valid y -> valid (SFsub prec emax x y).
Proof.
  intros Hx Hy. destruct (valid_ex x Hx) as [bx ->]. destruct (valid_ex y Hy) as [b_y ->].
  rewrite sub_equiv. apply valid_binary_B2SF.
Qed.
Lemma mul_valid x y : valid x -> valid y -> valid (SFmul prec emax x y).
Proof.
  intros Hx Hy. destruct (valid_ex x Hx) as [bx ->]. destruct (valid_ex y Hy) as [b_y ->].
  rewrite mul_equiv. apply valid_binary_B2SF.
Qed.
Lemma div_valid x y : valid x -> valid y -> valid (SFdiv prec emax x y).
Proof.
  intros Hx Hy. destruct (valid_ex x Hx) as [bx ->]. destruct (valid_ex y Hy) as [b_y ->].
  rewrite div_equiv. apply valid_binary_B2SF.
Qed.
Lemma normalize_valid m e s : valid (SpecFloat.binary_normalize prec emax m e s).
Proof. rewrite binary_normalize_equiv. apply valid_binary_B2SF. Qed.
Lemma convert_valid x : valid (convert prec emax x).
Proof. destruct x; cbn [convert]; try reflexivity. apply normalize_valid. Qed.

(** ** Correct rounding *)
Lemma add_round x y :
  valid x -> valid y -> is_fin x = true -> is_fin y = true ->
  if Rlt_bool (Rabs (rnd (val x + val y))) (bpow radix2 emax)
  then val (SFadd prec emax x y) = rnd (val x + val y) /\ is_fin (SFadd prec emax x y) = true
  else SFadd prec emax x y = S754_infinity (sign_SF x) /\ sign_SF x = sign_SF y.
Proof.
  intros Hx Hy. destruct (valid_ex x Hx) as [bx ->]. destruct (valid_ex y Hy) as [b_y ->].
  rewrite !fin_B2SF, !SF2R_B2SF. intros Fx Fy.
  pose proof (Bplus_correct prec emax Hp Hm mode_NE bx b_y Fx Fy) as H.
  rewrite add_equiv. destruct (Rlt_bool _ _).
  - rewrite SF2R_B2SF, fin_B2SF. tauto.
  - destruct H as [H1 H2].
    assert (S1 : forall b : binary_float prec emax, sign_SF (B2SF b) = Bsign b) by (now intros [| | |]).
    rewrite !S1. split; [exact H1 | exact H2].
Qed.

Lemma sub_round x y :
  valid x -> valid y -> is_fin x = true -> is_fin y = true ->
  if Rlt_bool (Rabs (rnd (val x - val y))) (bpow radix2 emax)
  then val (SFsub prec emax x y) = rnd (val x - val y) /\ is_fin (SFsub prec emax x y) = true
  else SFsub prec emax x y = S754_infinity (sign_SF x) /\ sign_SF x = negb (sign_SF y).
Proof.
  intros Hx Hy. destruct (valid_ex x Hx) as [bx ->]. destruct (valid_ex y Hy) as [b_y ->].
  rewrite !fin_B2SF, !SF2R_B2SF. intros Fx Fy.
  pose proof (Bminus_correct prec emax Hp Hm mode_NE bx b_y Fx Fy) as H.
  rewrite sub_equiv. destruct (Rlt_bool _ _).
  - rewrite SF2R_B2SF, fin_B2SF. tauto.
  - destruct H as [H1 H2].
    assert (S1 : forall b : binary_float prec emax, sign_SF (B2SF b) = Bsign b) by (now intros [| | |]).
    rewrite !S1. split; [exact H1 | exact H2].
Qed.

Lemma mul_round x y :
  valid x -> valid y -> is_fin x = true -> is_fin y = true ->
  if Rlt_bool (Rabs (rnd (val x * val y))) (bpow radix2 emax)
  then val (SFmul prec emax x y) = rnd (val x * val y) /\ is_fin (SFmul prec emax x y) = true
  else SFmul prec emax x y = S754_infinity (xorb (sign_SF x) (sign_SF y)).
Proof.
  intros Hx Hy. destruct (valid_ex x Hx) as [bx ->]. destruct (valid_ex y Hy) as [b_y ->].
  rewrite !fin_B2SF, !SF2R_B2SF. intros Fx Fy.
  pose proof (Bmult_correct prec emax Hp Hm mode_NE bx b_y) as H.
  rewrite mul_equiv. destruct (Rlt_bool _ _).
  - rewrite SF2R_B2SF, fin_B2SF. rewrite Fx, Fy in H. tauto.
  - assert (S1 : forall b : binary_float prec emax, sign_SF (B2SF b) = Bsign b) by (now intros [| | |]).
    rewrite !S1. exact H.
Qed.

Lemma div_round x y :
  valid x -> valid y -> is_fin x = true -> (val y <> 0)%R ->
  if Rlt_bool (Rabs (rnd (val x / val y))) (bpow radix2 emax)
  then val (SFdiv prec emax x y) = rnd (val x / val y) /\ is_fin (SFdiv prec emax x y) = true
  else SFdiv prec emax x y = S754_infinity (xorb (sign_SF x) (sign_SF y)).
Proof.
  intros Hx Hy. destruct (valid_ex x Hx) as [bx ->]. destruct (valid_ex y Hy) as [b_y ->].
  rewrite !fin_B2SF, !SF2R_B2SF. intros Fx Ny.
  pose proof (Bdiv_correct prec emax Hp Hm mode_NE bx b_y Ny) as H.
  rewrite div_equiv. destruct (Rlt_bool _ _).
  - rewrite SF2R_B2SF, fin_B2SF. rewrite Fx in H. tauto.
  - assert (S1 : forall b : binary_float prec emax, sign_SF (B2SF b) = Bsign b) by (now intros [| | |]).
    rewrite !S1. exact H.
Qed.

Lemma normalize_round m e s :
  let x := F2R (Float radix2 m e) in
  if Rlt_bool (Rabs (rnd x)) (bpow radix2 emax)
  then val (SpecFloat.binary_normalize prec emax m e s) = rnd x /\
       is_fin (SpecFloat.binary_normalize prec emax m e s) = true
  else SpecFloat.binary_normalize prec emax m e s = S754_infinity (Rlt_bool x 0).
Proof.
  intros x. pose proof (binary_normalize_correct prec emax Hp Hm mode_NE m e s) as H.
  cbv zeta in H. fold x in H. rewrite binary_normalize_equiv. destruct (Rlt_bool _ _).
  - rewrite SF2R_B2SF, fin_B2SF. tauto.
  - exact H.
Qed.

(** Exact results. *)
Lemma rnd_format x : generic_format radix2 fexp x -> rnd x = x.
Proof. intros H. apply round_generic; [typeclasses eauto | exact H]. Qed.

Lemma val_format x : valid x -> generic_format radix2 fexp (val x).
Proof.
  intros H. destruct (valid_ex x H) as [b ->]. rewrite SF2R_B2SF.
  apply generic_format_B2R.
Qed.

Lemma val_lt_emax x : valid x -> (Rabs (val x) < bpow radix2 emax)%R.
Proof.
  intros H. destruct (valid_ex x H) as [b ->]. rewrite SF2R_B2SF.
  apply abs_B2R_lt_emax; assumption.
Qed.

Lemma add_exact x y :
  valid x -> valid y -> is_fin x = true -> is_fin y = true ->
  generic_format radix2 fexp (val x + val y) -> (Rabs (val x + val y) < bpow radix2 emax)%R ->
  val (SFadd prec emax x y) = (val x + val y)%R /\ is_fin (SFadd prec emax x y) = true.
Proof.
  intros Hx Hy Fx Fy G B. pose proof (add_round x y Hx Hy Fx Fy) as H.
  rewrite (rnd_format _ G), Rlt_bool_true in H by exact B. exact H.
Qed.
Lemma sub_exact x y :
  valid x -> valid y -> is_fin x = true -> is_fin y = true ->
  generic_format radix2 fexp (val x - val y) -> (Rabs (val x - val y) < bpow radix2 emax)%R ->
  val (SFsub prec emax x y) = (val x - val y)%R /\ is_fin (SFsub prec emax x y) = true.
Proof.
  intros Hx Hy Fx Fy G B. pose proof (sub_round x y Hx Hy Fx Fy) as H.
  rewrite (rnd_format _ G), Rlt_bool_true in H by exact B. exact H.
Qed.
Lemma mul_exact x y :
  valid x -> valid y -> is_fin x = true -> is_fin y = true ->
  generic_format radix2 fexp (val x * val y) -> (Rabs (val x * val y) < bpow radix2 emax)%R ->
  val (SFmul prec emax x y) = (val x * val y)%R /\ is_fin (SFmul prec emax x y) = true.
Proof.
  intros Hx Hy Fx Fy G B. pose proof (mul_round x y Hx Hy Fx Fy) as H.
  rewrite (rnd_format _ G), Rlt_bool_true in H by exact B. exact H.
Qed.
Lemma div_exact x y :
  valid x -> valid y -> is_fin x = true -> (val y <> 0)%R ->
  generic_format radix2 fexp (val x / val y) -> (Rabs (val x / val y) < bpow radix2 emax)%R ->
  val (SFdiv prec emax x y) = (val x / val y)%R /\ is_fin (SFdiv prec emax x y) = true.
Proof.
  intros Hx Hy Fx Ny G B. pose proof (div_round x y Hx Hy Fx Ny) as H.
  rewrite (rnd_format _ G), Rlt_bool_true in H by exact B. exact H.
Qed.
Lemma normalize_exact m e s :
  let x := F2R (Float radix2 m e) in
  generic_format radix2 fexp x -> (Rabs x < bpow radix2 emax)%R ->
  val (SpecFloat.binary_normalize prec emax m e s) = x /\
  is_fin (SpecFloat.binary_normalize prec emax m e s) = true.
Proof.
  intros x G B. pose proof (normalize_round m e s) as H. cbv zeta in H. fold x in H.
  rewrite (rnd_format _ G), Rlt_bool_true in H by exact B. exact H.
Qed.

(** ** Comparison *)
Lemma flt_R x y :
  valid x -> valid y -> is_fin x = true -> is_fin y = true ->
  flt x y = Rlt_bool (val x) (val y).
Proof.
  intros Hx Hy. destruct (valid_ex x Hx) as [bx ->]. destruct (valid_ex y Hy) as [b_y ->].
  rewrite !fin_B2SF, !SF2R_B2SF. apply Bltb_correct.
Qed.
Lemma fle_R x y :
  valid x -> valid y -> is_fin x = true -> is_fin y = true ->
  fle x y = Rle_bool (val x) (val y).
Proof.
  intros Hx Hy. destruct (valid_ex x Hx) as [bx ->]. destruct (valid_ex y Hy) as [b_y ->].
  rewrite !fin_B2SF, !SF2R_B2SF. apply Bleb_correct.
Qed.
End Format.

(** ** The two formats *)
#[export] Instance Hp32 : Prec_gt_0 prec32 := eq_refl _.
#[export] Instance Hm32 : Prec_lt_emax prec32 emax32 := eq_refl _.
#[export] Instance Hp64 : Prec_gt_0 prec64 := eq_refl _.
#[export] Instance Hm64 : Prec_lt_emax prec64 emax64 := eq_refl _.

Definition valid32 (x : f32) : Prop := valid_binary prec32 emax32 x = true.
Definition valid64 (x : f64) : Prop := valid_binary prec64 emax64 x = true.

(** ** Signs of sums (used for shear speeds: "solid" means positive) *)
Section Signs.
Variables prec emax : Z.
Context (Hp : Prec_gt_0 prec) (Hm : Prec_lt_emax prec emax).
Local Notation fexp := (SpecFloat.fexp prec emax).
Local Notation valid x := (valid_binary prec emax x = true).
Local Notation rnd := (round radix2 fexp (round_mode mode_NE)).
Local Notation val := (SF2R radix2).
#[local] Instance fexp_ok' : Valid_exp fexp := fexp_correct prec emax Hp.
#[local] Instance fexp_mono' : Monotone_exp fexp := fexp_monotone prec emax.
#[local] Instance rnd_ok' : Valid_rnd (round_mode mode_NE) := valid_rnd_N _.

Lemma flt_zero_cases x :
  flt f_zero x = true -> x = S754_infinity false \/ exists m e, x = S754_finite false m e.
Proof. destruct x as [[]|[]| |[] m e]; cbn; try discriminate; eauto. Qed.

Lemma fin_pos_val m e : (0 < val (S754_finite false m e))%R.
Proof. cbn. apply F2R_gt_0. reflexivity. Qed.

Lemma pos_val_flt x : is_fin x = true -> (0 < val x)%R -> flt f_zero x = true.
Proof.
  destruct x as [[]|[]| |[] m e]; cbn; try discriminate; intros _ H; try lra; try reflexivity.
  exfalso. assert (F2R (Float radix2 (Z.neg m) e) < 0)%R by (apply F2R_lt_0; reflexivity). lra.
Qed.

Lemma add_pos x y :
  valid x -> valid y -> flt f_zero x = true -> flt f_zero y = true ->
  flt f_zero (SFadd prec emax x y) = true.
Proof.
  intros Hx Hy Px Py.
  destruct (flt_zero_cases x Px) as [->|(mx & ex & ->)];
  destruct (flt_zero_cases y Py) as [->|(my & ey & ->)]; try reflexivity.
  pose proof (fin_pos_val mx ex) as Vx. pose proof (fin_pos_val my ey) as Vy.
  pose proof (add_round prec emax Hp Hm _ _ Hx Hy eq_refl eq_refl) as H.
  destruct (Rlt_bool _ _).
  - destruct H as [H1 H2]. apply pos_val_flt; [exact H2|]. rewrite H1.
    apply Rlt_le_trans with (1 := Vx).
    rewrite <- (rnd_format prec emax (val (S754_finite false mx ex))) at 1
      by (apply val_format; assumption).
    apply round_le; [typeclasses eauto..|]. lra.
  - destruct H as [-> _]. reflexivity.
Qed.

Lemma fle_zero_cases x :
  fle x f_zero = true ->
  (exists s, x = S754_zero s) \/ x = S754_infinity true \/ exists m e, x = S754_finite true m e.
Proof. destruct x as [s|[]| |[] m e]; cbn; try discriminate; eauto. Qed.

Lemma nonpos_val_fle x : is_fin x = true -> (val x <= 0)%R -> fle x f_zero = true.
Proof.
  destruct x as [[]|[]| |[] m e]; cbn; try discriminate; intros _ H; try reflexivity.
  exfalso. assert (0 < F2R (Float radix2 (Z.pos m) e))%R by (apply F2R_gt_0; reflexivity). lra.
Qed.

Lemma fle_nonpos_val x : fle x f_zero = true -> (val x <= 0)%R.
Proof.
  intros H. destruct (fle_zero_cases x H) as [[s ->]|[->|(m & e & ->)]]; cbn; try lra.
  apply Rlt_le, F2R_lt_0. reflexivity.
Qed.

Lemma add_nonpos x y :
  valid x -> valid y -> fle x f_zero = true -> fle y f_zero = true ->
  fle (SFadd prec emax x y) f_zero = true.
Proof.
  intros Hx Hy Px Py.
  pose proof (fle_nonpos_val x Px) as Vx. pose proof (fle_nonpos_val y Py) as Vy.
  destruct (is_fin x) eqn:Fx; [destruct (is_fin y) eqn:Fy|].
  - pose proof (add_round prec emax Hp Hm _ _ Hx Hy Fx Fy) as H.
    destruct (Rlt_bool _ _) eqn:E.
    + destruct H as [H1 H2]. apply nonpos_val_fle; [exact H2|]. rewrite H1.
      rewrite <- (round_0 radix2 fexp (round_mode mode_NE)).
      apply round_le; [typeclasses eauto..|]. lra.
    + destruct H as [-> H2].
      destruct (fle_zero_cases x Px) as [[s ->]|[->|(m & e & ->)]]; [|reflexivity|reflexivity].
      (* zero + y does not overflow *)
      exfalso. cbn [SF2R] in E. rewrite Rplus_0_l in E.
      rewrite (rnd_format prec emax) in E by (apply (val_format prec emax); assumption).
      rewrite Rlt_bool_true in E by (apply (val_lt_emax prec emax); assumption). discriminate.
  - destruct (fle_zero_cases x Px) as [[s ->]|[->|(m & e & ->)]];
    destruct (fle_zero_cases y Py) as [[s' ->]|[->|(m' & e' & ->)]]; try discriminate; reflexivity.
  - destruct (fle_zero_cases x Px) as [[s ->]|[->|(m & e & ->)]];
    destruct (fle_zero_cases y Py) as [[s' ->]|[->|(m' & e' & ->)]]; try discriminate; reflexivity.
Qed.

Lemma flt_fle_excl x : flt f_zero x = true -> fle x f_zero = false.
Proof. destruct x as [[]|[]| |[] m e]; cbn; try discriminate; reflexivity. Qed.
Lemma fle_flt_excl x : fle x f_zero = true -> flt f_zero x = false.
Proof. destruct x as [[]|[]| |[] m e]; cbn; try discriminate; reflexivity. Qed.
Lemma not_nan_cases x : Float.is_nan x = false -> flt f_zero x = true \/ fle x f_zero = true.
Proof. destruct x as [[]|[]| |[] m e]; cbn; try discriminate; auto. Qed.
Lemma fle_not_nan x : fle x f_zero = true -> Float.is_nan x = false.
Proof. destruct x as [[]|[]| |[] m e]; cbn; try discriminate; auto. Qed.
Lemma flt_not_nan x : flt f_zero x = true -> Float.is_nan x = false.
Proof. destruct x as [[]|[]| |[] m e]; cbn; try discriminate; auto. Qed.

(** Dividing a number that is not NaN by a positive finite one is not NaN. *)
Lemma div_not_nan x m e :
  valid x -> valid (S754_finite false m e) -> Float.is_nan x = false ->
  Float.is_nan (SFdiv prec emax x (S754_finite false m e)) = false.
Proof.
  intros Hx Hy Nx.
  destruct (is_fin x) eqn:Fx.
  - pose proof (fin_pos_val m e) as Vy.
    pose proof (div_round prec emax Hp Hm x _ Hx Hy Fx ltac:(lra)) as H.
    destruct (Rlt_bool _ _).
    + destruct H as [_ H]. destruct (SFdiv _ _ _ _); try discriminate; reflexivity.
    + rewrite H. reflexivity.
  - destruct x as [[]|[]| |[] mx ex]; try discriminate; reflexivity.
Qed.
End Signs.
