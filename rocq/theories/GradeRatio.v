(** Limiting keeps the ratios between Vs and the scaled values, up to rounding. *)
From Coq Require Import ZArith Bool Reals Lra Lia Psatz List.
From Flocq Require Import Core BinarySingleNaN Relative.
From Verif Require Import Outcome Float Payload Addr FloatFacts SpecGeom GeomFacts QuerySurface VsGrader SpecGrade GradeFacts GradeGrid GradeFloat GradeMach.
Import ListNotations.
Open Scope R_scope.

Local Notation fexp32 := (SpecFloat.fexp prec32 emax32).
Local Notation fexp64 := (SpecFloat.fexp prec64 emax64).
Local Notation rnd32 := (round radix2 fexp32 (round_mode mode_NE)).
Local Notation rnd64 := (round radix2 fexp64 (round_mode mode_NE)).
#[local] Instance v32 : Valid_exp fexp32 := fexp_correct prec32 emax32 Hp32.
#[local] Instance v64 : Valid_exp fexp64 := fexp_correct prec64 emax64 Hp64.
#[local] Instance vr : Valid_rnd (round_mode mode_NE) := valid_rnd_N _.

Definition tiny (r : R) (k : R) : Prop := Rabs r <= k * bpow radix2 (-24).
Lemma rel32 t : t = 0 \/ bpow radix2 (-126) <= Rabs t -> exists e, tiny e 1 /\ rnd32 t = t * (1 + e).
Proof.
  intros [->|H].
  - exists 0. split; [unfold tiny; rewrite Rabs_R0; assert (0 < bpow radix2 (-24)) by apply bpow_gt_0; lra|]. rewrite round_0 by typeclasses eauto. ring.
  - destruct (relative_error_N_FLT_ex radix2 (-149) 24 ltac:(lia) (fun x => negb (Z.even x)) t H) as (e & B & E).
    exists e. split; [|exact E]. unfold tiny. eapply Rle_trans; [exact B|].
    pose proof (bpow_half (-23)) as Q. change (-23 - 1)%Z with (-24)%Z in Q. change (- (24) + 1)%Z with (-23)%Z. lra.
Qed.
Lemma rel64 t : t = 0 \/ bpow radix2 (-1022) <= Rabs t -> exists e, tiny e (/ 1000000) /\ rnd64 t = t * (1 + e).
Proof.
  intros [->|H].
  - exists 0. split; [unfold tiny; rewrite Rabs_R0; assert (0 < bpow radix2 (-24)) by apply bpow_gt_0; lra|]. rewrite round_0 by typeclasses eauto. ring.
  - destruct (relative_error_N_FLT_ex radix2 (-1074) 53 ltac:(lia) (fun x => negb (Z.even x)) t H) as (e & B & E).
    exists e. split; [|exact E]. unfold tiny. eapply Rle_trans; [exact B|].
    pose proof (bpow_half (-52)) as Q. change (-52 - 1)%Z with (-53)%Z in Q. change (- (53) + 1)%Z with (-52)%Z.
    replace (-53)%Z with (-29 + -24)%Z in Q by lia. rewrite bpow_plus in Q. replace (bpow radix2 (-29)) with (/ 536870912) in Q by (cbn; lra).
    assert (0 < bpow radix2 (-24)) by apply bpow_gt_0. lra.
Qed.
Lemma tiny_combine eps e1 e2 e3 e4 E : tiny eps E -> E <= 20 -> tiny e1 1 -> tiny e2 (/ 1000000) -> tiny e3 (/ 1000000) -> tiny e4 1 ->
  exists eps', tiny eps' (E + 3) /\ (1 + eps) * (1 + e2) * (1 + e3) * (1 + e4) = (1 + eps') * (1 + e1).
Proof.
  unfold tiny. rewrite !Rabs_le_iff. assert (A : bpow radix2 (-24) = / 16777216) by (cbn; lra). rewrite A.
  intros H0 HE H1 H2 H3 H4. exists ((1 + eps) * (1 + e2) * (1 + e3) * (1 + e4) / (1 + e1) - 1). split; [|field; lra].
  set (a := / 16777216) in *. assert (Ha : a = / 16777216) by reflexivity. clearbody a.
  assert (P1 : 0 < 1 + e1) by lra.
  set (g := (1 + e2) * (1 + e3)). assert (G : 1 - 0.0001 * a <= g <= 1 + 0.0001 * a) by (unfold g; split; nra).
  set (h := g * (1 + e4)). assert (Hh : 1 - 1.001 * a <= h <= 1 + 1.001 * a) by (unfold h; split; nra).
  set (k := h / (1 + e1)). assert (K : 1 - 2.5 * a <= k <= 1 + 2.5 * a).
  { unfold k. split.
    - apply (Rmult_le_reg_r (1 + e1)); [exact P1|]. unfold Rdiv. rewrite Rmult_assoc, Rinv_l, Rmult_1_r by lra. nra.
    - apply (Rmult_le_reg_r (1 + e1)); [exact P1|]. unfold Rdiv. rewrite Rmult_assoc, Rinv_l, Rmult_1_r by lra. nra. }
  replace ((1 + eps) * (1 + e2) * (1 + e3) * (1 + e4) / (1 + e1)) with ((1 + eps) * k) by (unfold k, h, g; field; lra).
  assert (-0.001 <= eps <= 0.001) by (rewrite Ha in H0; nra). apply Rabs_le_iff. split; nra.
Qed.

(** [x] belongs to the speed [vs] as [x0] to [vs0]. *)
Definition same_ratio (k : R) (x0 vs0 x vs : f32) : Prop :=
  ordinary x0 -> finite_single x /\ exists e, tiny e k /\ value x * value vs0 = value x0 * value vs * (1 + e).
Definition speed (vs : R) : Prop := bpow radix2 (-20) <= vs <= bpow radix2 40.

Lemma mul64_round x y : finite_double x -> finite_double y -> Rabs (value x * value y) <= bpow radix2 1000 ->
  finite_double (mul64 x y) /\ value (mul64 x y) = rnd64 (value x * value y).
Proof.
  intros [Vx Fx] [Vy Fy] B. pose proof (mul_round prec64 emax64 Hp64 Hm64 x y Vx Vy Fx Fy) as H. rewrite Rlt_bool_true in H.
  - split; [split; [apply (mul_valid prec64 emax64 Hp64 Hm64); assumption | apply H] | apply H].
  - apply Rle_lt_trans with (bpow radix2 1000); [|apply bpow_lt; reflexivity].
    apply abs_round_le_generic; [typeclasses eauto.. | |exact B]. apply generic_format_bpow. unfold SpecFloat.fexp, SpecFloat.emin, prec64, emax64. lia.
Qed.
Lemma div64_round x y : finite_double x -> finite_double y -> value y <> 0 -> Rabs (value x / value y) <= bpow radix2 1000 ->
  finite_double (div64 x y) /\ value (div64 x y) = rnd64 (value x / value y).
Proof.
  intros [Vx Fx] [Vy Fy] N B. pose proof (div_round prec64 emax64 Hp64 Hm64 x y Vx Vy Fx N) as H. rewrite Rlt_bool_true in H.
  - split; [split; [apply (div_valid prec64 emax64 Hp64 Hm64); assumption | apply H] | apply H].
  - apply Rle_lt_trans with (bpow radix2 1000); [|apply bpow_lt; reflexivity].
    apply abs_round_le_generic; [typeclasses eauto.. | |exact B]. apply generic_format_bpow. unfold SpecFloat.fexp, SpecFloat.emin, prec64, emax64. lia.
Qed.
Lemma widen_fin x : finite_single x -> finite_double (widen x) /\ value (widen x) = value x.
Proof. intros F. destruct (widen_repr x F) as (A & B & C). split; [split; assumption | exact C]. Qed.
Lemma pow_pos e : 0 < bpow radix2 e. Proof. apply bpow_gt_0. Qed.

(** One rescaling. *)
Lemma rescale k x0 vs0 x vs (X : f64) : k <= 20 -> finite_single vs0 -> speed (value vs0) -> finite_single vs -> speed (value vs) ->
  finite_double X -> bpow radix2 (-20) <= value X <= bpow radix2 41 ->
  finite_single (narrow X) -> value (narrow X) = rnd32 (value X) ->
  same_ratio k x0 vs0 x vs ->
  same_ratio (k + 3) x0 vs0 (narrow (mul64 (widen x) (div64 X (widen vs)))) (narrow X).
Proof.
  intros Hk F0 S0 Fv Sv FX BX Fn En Hr Ho. destruct (Hr Ho) as (Fx & eps & Te & Er). destruct Ho as [Fx0 Hx0].
  destruct (widen_fin _ Fv) as [Wv Ev]. destruct (widen_fin _ Fx) as [Wx Ex].
  pose proof (pow_pos (-20)) as P20. unfold speed in *.
  assert (Vp : 0 < value vs) by lra. assert (V0 : 0 < value vs0) by lra. assert (Xp : 0 < value X) by lra.
  assert (C20 : bpow radix2 (-20) * bpow radix2 20 = 1) by (rewrite <- bpow_plus; reflexivity).
  assert (C40 : bpow radix2 40 * bpow radix2 (-40) = 1) by (rewrite <- bpow_plus; reflexivity).
  pose proof (pow_pos 20) as P20'. pose proof (pow_pos (-40)) as P40'. pose proof (pow_pos 40) as P40.
  assert (Iv : bpow radix2 (-40) <= / value vs <= bpow radix2 20).
  { split; apply (Rmult_le_reg_r (value vs)); try exact Vp; rewrite Rinv_l by lra; nra. }
  assert (I0 : bpow radix2 (-40) <= / value vs0 <= bpow radix2 20).
  { split; apply (Rmult_le_reg_r (value vs0)); try exact V0; rewrite Rinv_l by lra; nra. }
  assert (Sx : bpow radix2 (-60) <= value X / value vs <= bpow radix2 61).
  { unfold Rdiv. replace (-60)%Z with (-20 + -40)%Z by lia. replace 61%Z with (41 + 20)%Z by lia. rewrite !bpow_plus.
    split; apply Rmult_le_compat; lra. }
  pose proof (pow_pos (-60)) as P60.
  (* the scale *)
  destruct (div64_round X (widen vs) FX Wv) as [Fs Es].
  { rewrite Ev. lra. }
  { rewrite Ev. rewrite Rabs_pos_eq by lra. eapply Rle_trans; [apply Sx | apply bpow_le; lia]. }
  rewrite Ev in Es. destruct (rel64 (value X / value vs)) as (e2 & T2 & R2).
  { right. rewrite Rabs_pos_eq by lra. eapply Rle_trans; [|apply Sx]. apply bpow_le. lia. }
  rewrite R2 in Es.
  (* the product before rounding *)
  assert (Small : forall r k0, tiny r k0 -> k0 <= 20 -> - / 1000 <= r <= / 1000).
  { intros r k0 T Hk0. unfold tiny in T. apply Rabs_le_iff in T. replace (bpow radix2 (-24)) with (/ 16777216) in T by (cbn; lra). lra. }
  pose proof (Small _ _ Te Hk) as Be. pose proof (Small _ _ T2 ltac:(lra)) as B2.
  set (Y := value x0 * (value X / value vs0)).
  assert (Xv : value x * (value X / value vs) = Y * (1 + eps)).
  { unfold Y. replace (value x) with (value x0 * value vs * (1 + eps) / value vs0) by (rewrite <- Er; field; lra). field. lra. }
  assert (YB : Y = 0 \/ bpow radix2 (-90) <= Rabs Y <= bpow radix2 101).
  { destruct Hx0 as [Z0|Hx0]; [left; unfold Y; rewrite Z0; ring | right]. unfold Y. rewrite Rabs_mult.
    assert (Sx0 : bpow radix2 (-60) <= value X / value vs0 <= bpow radix2 61).
    { unfold Rdiv. replace (-60)%Z with (-20 + -40)%Z by lia. replace 61%Z with (41 + 20)%Z by lia. rewrite !bpow_plus. split; apply Rmult_le_compat; lra. }
    rewrite (Rabs_pos_eq (value X / value vs0)) by lra. pose proof (pow_pos (-30)).
    replace (-90)%Z with (-30 + -60)%Z by lia. replace 101%Z with (40 + 61)%Z by lia. rewrite !bpow_plus. split; apply Rmult_le_compat; lra. }
  assert (Half : forall k1, bpow radix2 (k1 - 1) = / 2 * bpow radix2 k1) by (intros k1; rewrite <- bpow_half; lra).
  assert (Scale : forall y r lo hi, y = 0 \/ bpow radix2 lo <= Rabs y <= bpow radix2 hi -> - / 10 <= r <= / 10 ->
    y * (1 + r) = 0 \/ bpow radix2 (lo - 1) <= Rabs (y * (1 + r)) <= bpow radix2 (hi + 1)).
  { intros y r lo hi [->|B] Hr'; [left; ring | right]. rewrite Rabs_mult, (Rabs_pos_eq (1 + r)) by lra. rewrite Half.
    assert (bpow radix2 (hi + 1) = 2 * bpow radix2 hi) by (pose proof (Half (hi + 1)%Z) as Q; replace (hi + 1 - 1)%Z with hi in Q by lia; lra).
    pose proof (pow_pos lo). pose proof (pow_pos hi). pose proof (Rabs_pos y). split; nra. }
  assert (P1 : value (widen x) * value (div64 X (widen vs)) = Y * (1 + eps) * (1 + e2)).
  { rewrite Ex, Es. rewrite <- Rmult_assoc, Xv. reflexivity. }
  pose proof (Scale _ _ _ _ (Scale _ eps _ _ YB ltac:(lra)) (ltac:(lra) : - / 10 <= e2 <= / 10)) as B3.
  destruct (mul64_round (widen x) (div64 X (widen vs)) Wx Fs) as [Fm Em].
  { rewrite P1. destruct B3 as [Z3|B3]; [rewrite Z3, Rabs_R0; left; apply bpow_gt_0 | eapply Rle_trans; [apply B3 | apply bpow_le; lia]]. }
  rewrite P1 in Em. destruct (rel64 (Y * (1 + eps) * (1 + e2))) as (e3 & T3 & R3).
  { destruct B3 as [Z3|B3]; [left; exact Z3 | right; eapply Rle_trans; [|apply B3]; apply bpow_le; lia]. }
  rewrite R3 in Em. pose proof (Small _ _ T3 ltac:(lra)) as B3'.
  pose proof (Scale _ _ _ _ B3 (ltac:(lra) : - / 10 <= e3 <= / 10)) as B4.
  destruct (rel32 (value (mul64 (widen x) (div64 X (widen vs))))) as (e4 & T4 & R4).
  { rewrite Em. destruct B4 as [Z4|B4]; [left; exact Z4 | right; eapply Rle_trans; [|apply B4]; apply bpow_le; lia]. }
  pose proof (Small _ _ T4 ltac:(lra)) as B4'.
  destruct (narrow_round _ Fm) as [Fr En'].
  { rewrite R4, Em. pose proof (Scale _ _ _ _ B4 (ltac:(lra) : - / 10 <= e4 <= / 10)) as B5.
    destruct B5 as [Z5|B5]; [rewrite Z5, Rabs_R0; apply bpow_gt_0 | eapply Rle_lt_trans; [apply B5 | apply bpow_lt; lia]]. }
  rewrite R4, Em in En'. split; [exact Fr|].
  destruct (rel32 (value X)) as (e1 & T1 & R1).
  { right. rewrite Rabs_pos_eq by lra. eapply Rle_trans; [|apply BX]. apply bpow_le. lia. }
  destruct (tiny_combine eps e1 e2 e3 e4 k Te Hk T1 T2 T3 T4) as (eps' & T' & C). exists eps'. split; [exact T'|].
  rewrite En', En, R1. unfold Y. transitivity (value x0 * value X * ((1 + eps) * (1 + e2) * (1 + e3) * (1 + e4))); [field; lra|]. rewrite C. ring.
Qed.

(** ** Lines *)
Definition speeds (p : payload) : Prop := finite_single (p_vs p) /\ speed (value (p_vs p)).
Definition ratios (k : R) (p0 p : payload) : Prop :=
  same_ratio k (p_vp p0) (p_vs p0) (p_vp p) (p_vs p) /\
  same_ratio k (p_density p0) (p_vs p0) (p_density p) (p_vs p) /\
  same_ratio k (p_qp p0) (p_vs p0) (p_qp p) (p_vs p) /\
  same_ratio k (p_qs p0) (p_vs p0) (p_qs p) (p_vs p).
Lemma speeds_good p : speeds p -> good (bpow radix2 40) p.
Proof. intros [F [A B]]. pose proof (pow_pos (-20)). split; [exact F | lra]. Qed.
Lemma ratios_refl p : ratios 0 p p.
Proof.
  assert (H : forall x vs, same_ratio 0 x vs x vs).
  { intros x vs [F _]. split; [exact F|]. exists 0. split; [unfold tiny; rewrite Rabs_R0; lra | ring]. }
  split; [|split; [|split]]; apply H.
Qed.
Lemma ratios_mono k k' p q : k <= k' -> ratios k p q -> ratios k' p q.
Proof.
  intros Hk. assert (H : forall x0 v0 x v, same_ratio k x0 v0 x v -> same_ratio k' x0 v0 x v).
  { intros x0 v0 x v H O. destruct (H O) as (F & e & T & E). split; [exact F|]. exists e. split; [|exact E]. unfold tiny in *. pose proof (pow_pos (-24)). nra. }
  intros (A & B & C & D). split; [|split; [|split]]; apply H; assumption.
Qed.
Lemma ratio_step d n q p0 k : finite_double d -> 0 <= value d -> speeds n -> speeds q -> speeds p0 -> 0 <= k <= 20 -> ratios k p0 q ->
  speeds (fst (limit1 machine d n q)) /\ ratios (k + 3) p0 (fst (limit1 machine d n q)).
Proof.
  intros Fd Hd Sn Sq S0 Hk Hr.
  destruct (step_good _ d n q (speeds_good _ Sn) (speeds_good _ Sq) Fd Hd) as ([F1 B1] & (_ & _ & N) & Hv).
  assert (S1 : speeds (fst (limit1 machine d n q))).
  { split; [exact F1|]. destruct Sn as [_ [Sn _]], Sq as [_ [Sq _]]. split; [|apply B1]. destruct N as [->|N]; lra. }
  split; [exact S1|]. revert S1 Hv. unfold limit1. destruct (ar_gt machine _ d); [|intros _ _; apply (ratios_mono k); [lra | exact Hr]].
  cbn [fst snd machine ar_set ar_add ar_vs scaled p_vs]. intros S1 Hv. destruct (Hv eq_refl) as [Ev Lt]. clear Hv.
  destruct S1 as [Fn Sp]. cbn [scaled p_vs] in Fn, Sp.
  destruct (widen_fin _ (proj1 Sn)) as [Wn En].
  set (X := add64 (widen (p_vs n)) d) in *.
  assert (EX : finite_double X /\ value X = rnd64 (value (p_vs n) + value d)).
  { pose proof (add_round prec64 emax64 Hp64 Hm64 _ _ (proj1 Wn) (proj1 Fd) (proj2 Wn) (proj2 Fd)) as A.
    change (SF2R radix2 (widen (p_vs n))) with (value (widen (p_vs n))) in A. rewrite En in A. change (SF2R radix2 d) with (value d) in A.
    rewrite Rlt_bool_true in A.
    - split; [split; [apply (add_valid prec64 emax64 Hp64 Hm64); [apply Wn | apply Fd] | apply A] | apply A].
    - destruct Sn as [Fsn [Ln Un]]. destruct Sq as [Fsq [Lq Uq]]. pose proof (pow_pos (-20)).
      assert (U : rnd32 (value (p_vs q) - value (p_vs n)) <= value (p_vs q)).
      { apply round_le_generic; [typeclasses eauto.. | apply (val_format prec32 emax32 _ (proj1 Fsq)) | lra]. }
      apply Rle_lt_trans with (bpow radix2 41); [|apply bpow_lt; reflexivity].
      apply abs_round_le_generic; [typeclasses eauto.. | |].
      + apply generic_format_bpow. unfold SpecFloat.fexp, SpecFloat.emin, prec64, emax64. lia.
      + rewrite Rabs_pos_eq by lra. pose proof (bpow_half 41) as Q. change (41 - 1)%Z with 40%Z in Q. lra. }
  destruct EX as [FX EX]. rewrite <- EX in Ev.
  assert (BX : bpow radix2 (-20) <= value X <= bpow radix2 41).
  { destruct Sn as [Fsn [Ln Un]]. pose proof (pow_pos (-20)). rewrite EX. split.
    - apply round_ge_generic; [typeclasses eauto.. | |lra]. apply generic_format_bpow. unfold SpecFloat.fexp, SpecFloat.emin, prec64, emax64. lia.
    - destruct Sq as [Fsq [Lq Uq]]. assert (U : rnd32 (value (p_vs q) - value (p_vs n)) <= value (p_vs q)).
      { apply round_le_generic; [typeclasses eauto.. | apply (val_format prec32 emax32 _ (proj1 Fsq)) | lra]. }
      apply round_le_generic; [typeclasses eauto.. | |].
      + apply generic_format_bpow. unfold SpecFloat.fexp, SpecFloat.emin, prec64, emax64. lia.
      + pose proof (bpow_half 41) as Q. change (41 - 1)%Z with 40%Z in Q. lra. }
  destruct S0 as [F0 S0]. destruct Sq as [Fq Sq]. destruct Hr as (R1 & R2 & R3 & R4).
  unfold ratios. cbn [p_vp p_density p_qp p_qs p_vs]. split; [|split; [|split]]; (eapply rescale; [| | |exact Fq|..]; eauto; lra).
Qed.

Section TwoSteps.
Variable d : f64.
Hypothesis Fd : finite_double d.
Hypothesis Hd : 0 <= value d.
Definition keeps (k : R) (p q : payload) : Prop := speeds p /\ speeds q /\ ratios k p q.
Lemma forward_ratio k : 0 <= k <= 20 -> forall l0 l, Forall2 (keeps k) l0 l -> forall n, speeds n ->
  Forall2 (fun p r => keeps (k + 3) p (fst r)) l0 (forward machine d n l).
Proof.
  intros Hk l0 l H. induction H as [|p q l0 l (Sp & Sq & Hr) H IH]; intros n Sn; [constructor|]. cbn [forward].
  destruct (ratio_step d n q p k Fd Hd Sn Sq Sp Hk Hr) as [A B].
  destruct (limit1 machine d n q) as [q' c]. cbn [fst] in *. constructor; [split; [exact Sp | split; assumption] | apply IH; assumption].
Qed.
Lemma backward_ratio k : 0 <= k <= 20 -> forall l0 l, Forall2 (fun p r => keeps k p (fst r)) l0 l ->
  Forall2 (fun p r => keeps (k + 3) p (fst r)) l0 (backward machine d l).
Proof.
  intros Hk l0 l H. induction H as [|p [q c] l0 l (Sp & Sq & Hr) H IH]; [constructor|]. cbn [backward fst] in *.
  destruct (backward machine d l) as [|[n b] r].
  - inversion IH; subst. constructor; [|constructor]. split; [exact Sp|]. split; [exact Sq|]. apply (ratios_mono k); [lra | exact Hr].
  - inversion IH as [|? ? ? ? (_ & Sn & _) IH']; subst. cbn [fst] in Sn.
    destruct (ratio_step d n q p k Fd Hd Sn Sq Sp Hk Hr) as [A B].
    destruct (limit1 machine d n q) as [q' c']. cbn [fst] in *. constructor; [split; [exact Sp | split; assumption] | exact IH].
Qed.
Lemma limitDiff_ratio_from k l0 l : 0 <= k <= 17 -> Forall2 (keeps k) l0 l ->
  Forall2 (fun p r => keeps (k + 6) p (fst r)) l0 (limitDiff machine d l).
Proof.
  intros Hk H. destruct H as [|p q l0 l (Sp & Sq & Hr) H]; [constructor|]. unfold limitDiff. replace (k + 6) with (k + 3 + 3) by ring.
  apply backward_ratio; [lra|]. constructor; [|apply forward_ratio; [lra | exact H | exact Sq]].
  split; [exact Sp|]. split; [exact Sq|]. apply (ratios_mono k); [lra | exact Hr].
Qed.
Lemma limitDiff_ratio l : Forall speeds l -> Forall2 (fun p r => speeds p /\ speeds (fst r) /\ ratios 6 p (fst r)) l (limitDiff machine d l).
Proof.
  intros S. replace 6 with (0 + 6) by ring. apply limitDiff_ratio_from; [lra|].
  induction S as [|q l Sq S IH]; constructor; [|exact IH]. split; [exact Sq|]. split; [exact Sq|]. apply ratios_refl.
Qed.
End TwoSteps.
