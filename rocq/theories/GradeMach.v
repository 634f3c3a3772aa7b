(** Profiles and grids limited in machine arithmetic, compared with exact arithmetic. *)
From Coq Require Import ZArith Bool Reals Lra Lia Psatz List.
From Flocq Require Import Core BinarySingleNaN.
From Verif Require Import Outcome Float Payload Addr FloatFacts SpecGeom GeomFacts QuerySurface VsGrader SpecGrade GradeFacts GradeGrid GradeFloat.
Import ListNotations.
Open Scope R_scope.

Local Notation fexp32 := (SpecFloat.fexp prec32 emax32).
Local Notation fexp64 := (SpecFloat.fexp prec64 emax64).
Local Notation rnd32 := (round radix2 fexp32 (round_mode mode_NE)).
Local Notation rnd64 := (round radix2 fexp64 (round_mode mode_NE)).
#[local] Instance v32 : Valid_exp fexp32 := fexp_correct prec32 emax32 Hp32.
#[local] Instance v64 : Valid_exp fexp64 := fexp_correct prec64 emax64 Hp64.
#[local] Instance vr : Valid_rnd (round_mode mode_NE) := valid_rnd_N _.

(** ** One step *)
Definition good (M : R) (p : payload) : Prop := finite_single (p_vs p) /\ 0 <= value (p_vs p) <= M.

Lemma narrow_round x : finite_double x -> Rabs (rnd32 (value x)) < bpow radix2 128 ->
  finite_single (narrow x) /\ value (narrow x) = rnd32 (value x).
Proof.
  intros [V F] B. destruct x as [s| | |s m e]; try discriminate F.
  - split; [split; reflexivity|]. symmetry. apply round_0. typeclasses eauto.
  - pose proof (normalize_round prec32 emax32 Hp32 Hm32 (if s then Z.neg m else Z.pos m) e s) as N. cbv zeta in N.
    assert (E : F2R (Float radix2 (if s then Z.neg m else Z.pos m) e) = value (S754_finite s m e)).
    { unfold value, SF2R, F2R. destruct s; reflexivity. }
    rewrite E in N. rewrite Rlt_bool_true in N by exact B. destruct N as [N1 N2].
    split; [split; [apply (convert_valid prec32 emax32 Hp32 Hm32) | exact N2] | exact N1].
Qed.
Lemma sub32_round M x y : finite_single x -> finite_single y -> 0 <= value x <= M -> 0 <= value y ->
  finite_single (sub32 x y) /\ value (sub32 x y) = rnd32 (value x - value y).
Proof.
  intros [Vx Fx] [Vy Fy] Hx Hy. pose proof (sub_round prec32 emax32 Hp32 Hm32 x y Vx Vy Fx Fy) as H.
  rewrite Rlt_bool_true in H.
  - split; [split; [apply (sub_valid prec32 emax32 Hp32 Hm32); assumption | apply H] | apply H].
  - change (SF2R radix2 x) with (value x). change (SF2R radix2 y) with (value y).
    assert (U : rnd32 (value x - value y) <= value x).
    { apply round_le_generic; [typeclasses eauto.. | apply (val_format prec32 emax32 x Vx) | lra]. }
    assert (L : - value y <= rnd32 (value x - value y)).
    { apply round_ge_generic; [typeclasses eauto.. | apply generic_format_opp, (val_format prec32 emax32 y Vy) | lra]. }
    pose proof (val_lt_emax prec32 emax32 x Vx) as Bx. pose proof (val_lt_emax prec32 emax32 y Vy) as By.
    change (SF2R radix2 x) with (value x) in Bx. change (SF2R radix2 y) with (value y) in By.
    rewrite Rabs_pos_eq in Bx, By by lra. apply Rabs_lt. lra.
Qed.

Lemma step_good M d n q : good M n -> good M q -> finite_double d -> 0 <= value d ->
  good M (fst (limit1 machine d n q)) /\
  near (slack M) (value d) (value (p_vs n)) (value (p_vs q)) (value (p_vs (fst (limit1 machine d n q)))) /\
  (snd (limit1 machine d n q) = true -> value (p_vs (fst (limit1 machine d n q))) = rnd32 (rnd64 (value (p_vs n) + value d)) /\
     value d < rnd32 (value (p_vs q) - value (p_vs n))).
Proof.
  intros [Fn Bn] [Fq Bq] Fd Hd.
  pose proof (near_step M (value d) (value (p_vs n)) (value (p_vs q)) (val_format prec32 emax32 _ (proj1 Fq))
    (val_format prec32 emax32 _ (proj1 Fn)) (val_format prec64 emax64 _ (proj1 Fd)) Bq (proj1 Bn) Hd) as N.
  destruct (sub32_round M _ _ Fq Fn Bq (proj1 Bn)) as [Fs Es].
  destruct (widen_repr _ Fs) as (Vw & Fw & Ew).
  unfold limit1, machine. cbn [ar_gt ar_sub ar_vs ar_set ar_add].
  assert (C : fgt (widen (sub32 (p_vs q) (p_vs n))) d = Rlt_bool (value d) (rnd32 (value (p_vs q) - value (p_vs n)))).
  { unfold fgt. change (SFltb d ?x) with (flt d x). rewrite (flt_R prec64 emax64 d _ (proj1 Fd) Vw (proj2 Fd) Fw).
    change (SF2R radix2 (widen (sub32 (p_vs q) (p_vs n)))) with (fval (widen (sub32 (p_vs q) (p_vs n)))). rewrite Ew, Es. reflexivity. }
  rewrite C. destruct (Rlt_dec (value d) (rnd32 (value (p_vs q) - value (p_vs n)))) as [Lt|Ge].
  - rewrite Rlt_bool_true by exact Lt. cbn [fst snd scaled p_vs].
    destruct (widen_repr _ Fn) as (Vn & Fin & En).
    pose proof (add_round prec64 emax64 Hp64 Hm64 _ _ Vn (proj1 Fd) Fin (proj2 Fd)) as A.
    change (SF2R radix2 (widen (p_vs n))) with (fval (widen (p_vs n))) in A. rewrite En in A. change (SF2R radix2 d) with (value d) in A.
    assert (Bx : Rabs (rnd64 (value (p_vs n) + value d)) < bpow radix2 emax64).
    { assert (X : value (p_vs n) + value d <= bpow radix2 129).
      { pose proof (val_lt_emax prec32 emax32 _ (proj1 Fn)) as B1. change (SF2R radix2 (p_vs n)) with (value (p_vs n)) in B1. rewrite Rabs_pos_eq in B1 by lra.
        pose proof (val_lt_emax prec32 emax32 _ (proj1 Fs)) as B2. change (SF2R radix2 (sub32 (p_vs q) (p_vs n))) with (value (sub32 (p_vs q) (p_vs n))) in B2.
        rewrite Es in B2. pose proof (Rle_abs (rnd32 (value (p_vs q) - value (p_vs n)))).
        replace (bpow radix2 129) with (bpow radix2 128 + bpow radix2 128); [unfold emax32 in *; lra|].
        pose proof (bpow_half 129) as Q. change (129 - 1)%Z with 128%Z in Q. lra. }
      apply Rle_lt_trans with (bpow radix2 129); [|apply bpow_lt; reflexivity].
      apply abs_round_le_generic; [typeclasses eauto.. | |rewrite Rabs_pos_eq by lra; exact X].
      apply generic_format_bpow. unfold SpecFloat.fexp, SpecFloat.emin, prec64, emax64. lia. }
    rewrite Rlt_bool_true in A by exact Bx. destruct A as [A1 A2].
    assert (Fa : finite_double (add64 (widen (p_vs n)) d)).
    { split; [apply (add_valid prec64 emax64 Hp64 Hm64); [exact Vn | apply Fd] | exact A2]. }
    destruct (narrow_round _ Fa) as [Fr Er].
    { change (value (add64 (widen (p_vs n)) d)) with (SF2R radix2 (SFadd prec64 emax64 (widen (p_vs n)) d)). rewrite A1.
      destruct N as [[N0 N1] _]. rewrite Rabs_pos_eq by exact N0. eapply Rle_lt_trans; [exact N1|].
      pose proof (val_lt_emax prec32 emax32 _ (proj1 Fq)) as B1. eapply Rle_lt_trans; [apply Rle_abs | exact B1]. }
    change (value (add64 (widen (p_vs n)) d)) with (SF2R radix2 (SFadd prec64 emax64 (widen (p_vs n)) d)) in Er. rewrite A1 in Er.
    rewrite Er. split; [split; cbn [scaled p_vs]; [exact Fr|]; rewrite Er; destruct N as [[N0 N1] _]; lra|]. split; [exact N|].
    intros _. split; [reflexivity | exact Lt].
  - rewrite Rlt_bool_false by lra. cbn [fst snd]. split; [split; assumption|]. split; [exact N | discriminate].
Qed.

(** ** Approximate limiting of a profile *)
Section Approx.
Variables eta d : R.
Hypothesis E0 : 0 <= eta.
Fixpoint afwd (n : R) (l l' : list R) : Prop :=
  match l, l' with
  | [], [] => True
  | q :: l, q' :: l' => near eta d n q q' /\ afwd q' l l'
  | _, _ => False
  end.
Fixpoint abwd (l l' : list R) : Prop :=
  match l, l' with
  | [], [] => True
  | q :: l, q' :: l' => abwd l l' /\ match l' with [] => q' = q | n :: _ => near eta d n q q' end
  | _, _ => False
  end.
Definition alimit (v b : list R) : Prop :=
  match v with [] => b = [] | q :: l => exists m, afwd q l m /\ abwd (q :: m) b end.

Lemma afwd_below : forall l n m, afwd n l m -> below m l.
Proof. induction l as [|q l IH]; intros n [|q' m] H; try contradiction; constructor; [apply H | apply (IH q'), H]. Qed.
Lemma abwd_below : forall l b, abwd l b -> below b l.
Proof.
  induction l as [|q l IH]; intros [|q' b] H; try contradiction; [constructor|]. destruct H as [H1 H2]. constructor; [|apply IH, H1].
  destruct b; [subst; lra | apply H2].
Qed.
Lemma below_trans a b c : below a b -> below b c -> below a c.
Proof. intros H. revert c. induction H; intros c H'; inversion H'; subst; constructor; [lra | apply IHForall2; assumption]. Qed.
Lemma alimit_below v b : alimit v b -> below b v.
Proof.
  destruct v as [|q l]; [intros ->; constructor|]. intros (m & F & B). apply (below_trans _ (q :: m)); [apply abwd_below, B|].
  constructor; [lra | apply (afwd_below _ _ _ F)].
Qed.
Lemma near_up n q q' : near eta d n q q' -> q' <= n + d + eta.
Proof. intros (_ & H & _). apply Rabs_le_iff in H. pose proof (Rmin_r q (n + d)). lra. Qed.
Lemma afwd_ups : forall l n m, afwd n l m -> ups (d + eta) n m.
Proof.
  induction l as [|q l IH]; intros n [|q' m] H; try contradiction; cbn [ups]; [exact I|]. destruct H as [H1 H2].
  split; [pose proof (near_up _ _ _ H1); lra | apply IH, H2].
Qed.
Lemma abwd_limited : 0 <= d -> forall m q b0 b, ups (d + eta) q m -> abwd (q :: m) (b0 :: b) ->
  ups (d + eta) b0 b /\ downs (d + eta) b0 b.
Proof.
  intros D0. induction m as [|q1 m IH]; intros q b0 [|b1 b] U [H1 H2]; try contradiction; [split; exact I|].
  destruct U as [U1 U2]. destruct (IH q1 b1 b U2 H1) as [IU ID]. cbn [ups downs].
  pose proof (near_up _ _ _ H2) as NU. pose proof (abwd_below _ _ H1) as Bl. inversion Bl; subst.
  destruct H2 as (_ & _ & [->|G]); repeat split; try assumption; lra.
Qed.
Lemma alimit_limited v b : 0 <= d -> alimit v b -> limited (d + eta) b.
Proof.
  intros D0. destruct v as [|q l]; [intros ->; intros [|i] x y H; discriminate H|]. intros (m & F & B).
  destruct b as [|b0 b]; [intros [|i] x y H; discriminate H|]. apply limited_cons. apply (abwd_limited D0 m q); [apply (afwd_ups l), F | exact B].
Qed.

(** Distance from the exact result. *)
Definition within (e : R) (l m : list R) : Prop := Forall2 (fun x y => Rabs (x - y) <= e) l m.
Lemma rmin_lip a b a' b' e : Rabs (a - a') <= e -> Rabs (b - b') <= e -> Rabs (Rmin a b - Rmin a' b') <= e.
Proof. rewrite !Rabs_le_iff. intros H1 H2. unfold Rmin. destruct (Rle_dec a b), (Rle_dec a' b'); lra. Qed.
Lemma near_lip n n' q q0 q' e : 0 <= e -> near eta d n q q' -> Rabs (n - n') <= e -> Rabs (q - q0) <= e -> Rabs (q' - Rmin q0 (n' + d)) <= e + eta.
Proof.
  intros He (_ & H & _) H1 H2. pose proof (rmin_lip q (n + d) q0 (n' + d) e H2) as L.
  assert (L' : Rabs (n + d - (n' + d)) <= e) by (replace (n + d - (n' + d)) with (n - n') by ring; exact H1). specialize (L L').
  apply Rabs_le_iff in L, H. apply Rabs_le_iff. lra.
Qed.
Lemma within_mono e e' l m : e <= e' -> within e l m -> within e' l m.
Proof. intros H W. induction W; constructor; [lra | assumption]. Qed.
Lemma afwd_within : forall l n n' m e, 0 <= e -> Rabs (n - n') <= e -> afwd n l m ->
  within (e + INR (length l) * eta) m (rfwd d n' l).
Proof.
  induction l as [|q l IH]; intros n n' [|q' m] e He Hn H; try contradiction; [constructor|].
  destruct H as [H1 H2]. cbn [rfwd]. assert (S1 : Rabs (q' - Rmin q (n' + d)) <= e + eta).
  { apply (near_lip n n' q q q' e He H1 Hn). rewrite Rminus_diag_eq, Rabs_R0 by reflexivity. exact He. }
  pose proof (IH q' (Rmin q (n' + d)) m (e + eta) ltac:(lra) S1 H2) as W. cbn [length]. rewrite S_INR.
  pose proof (pos_INR (length l)). assert (0 <= INR (length l) * eta) by (apply Rmult_le_pos; lra).
  constructor; [lra|]. apply (within_mono (e + eta + INR (length l) * eta)); [lra | exact W].
Qed.
Lemma abwd_within : forall l l0 b e, 0 <= e -> within e l l0 -> abwd l b -> within (e + INR (length l) * eta) b (rbwd d l0).
Proof.
  intros l l0 b e He W. revert b. induction W as [|q q0 l l0 Hq W IH]; intros [|q' b] H; try contradiction; [constructor|].
  destruct H as [H1 H2]. specialize (IH b H1). cbn [rbwd length]. rewrite S_INR. pose proof (pos_INR (length l)). assert (0 <= INR (length l) * eta) by (apply Rmult_le_pos; lra).
  inversion IH as [Q1 Q2|n n0 r r0 Hn Hr Q1 Q2].
  - rewrite <- Q1 in H2. subst q'. constructor; [lra | constructor].
  - rewrite <- Q1 in H2. constructor.
    + pose proof (near_lip n n0 q q0 q' (e + INR (length l) * eta) ltac:(lra) H2 Hn ltac:(lra)). lra.
    + apply (within_mono (e + INR (length l) * eta)); [lra|]. constructor; assumption.
Qed.
Lemma within_refl l : within 0 l l.
Proof. induction l; constructor; [rewrite Rminus_diag_eq, Rabs_R0 by reflexivity; lra | assumption]. Qed.
Lemma alimit_within v b : alimit v b -> within (2 * INR (length v) * eta) b (rlimit d v).
Proof.
  destruct v as [|q l]; [intros ->; constructor|]. intros (m & F & B). unfold rlimit.
  pose proof (pos_INR (length l)). assert (0 <= INR (length l) * eta) by (apply Rmult_le_pos; lra).
  assert (W1 : within (INR (length l) * eta) m (rfwd d q l)).
  { replace (INR (length l) * eta) with (0 + INR (length l) * eta) by ring. apply (afwd_within l q q m 0); [lra | | exact F].
    rewrite Rminus_diag_eq, Rabs_R0 by reflexivity. lra. }
  assert (W2 : within (INR (length l) * eta) (q :: m) (q :: rfwd d q l)).
  { constructor; [rewrite Rminus_diag_eq, Rabs_R0 by reflexivity; lra | exact W1]. }
  assert (P0 : 0 <= INR (length l) * eta) by lra. pose proof (abwd_within _ _ b _ P0 W2 B) as W. apply (within_mono (INR (length l) * eta + INR (length (q :: m)) * eta)); [|exact W].
  assert (Lm : length m = length l) by (apply forall2_nth in W1; destruct W1 as [W1 _]; rewrite W1; clear; revert q; induction l as [|x l IH]; intros q; cbn; [reflexivity | rewrite IH; reflexivity]).
  cbn [length]. rewrite Lm, S_INR. lra.
Qed.
End Approx.

(** ** The loops in machine arithmetic *)
Section Loops.
Variables (M : R) (d : f64).
Hypothesis Fd : finite_double d.
Hypothesis Hd : 0 <= value d.
Notation vsof := (fun p => value (p_vs p)).
Lemma forward_near : forall l n, good M n -> Forall (good M) l ->
  Forall (fun x => good M (fst x)) (forward machine d n l) /\
  afwd (slack M) (value d) (vsof n) (map vsof l) (map (fun x => vsof (fst x)) (forward machine d n l)).
Proof.
  induction l as [|q l IH]; intros n Gn G; [split; [constructor | exact I]|]. inversion G as [|? ? Gq G']; subst.
  destruct (step_good M d n q Gn Gq Fd Hd) as (S1 & S2 & _). cbn [forward].
  destruct (limit1 machine d n q) as [q' c]. cbn [fst] in S1, S2. destruct (IH q' S1 G') as [I1 I2].
  split; [constructor; assumption|]. cbn [map afwd fst]. split; assumption.
Qed.
Lemma backward_near : forall l, Forall (fun x => good M (fst x)) l ->
  Forall (fun x => good M (fst x)) (backward machine d l) /\
  abwd (slack M) (value d) (map (fun x => vsof (fst x)) l) (map (fun x => vsof (fst x)) (backward machine d l)).
Proof.
  induction l as [|[q c] l IH]; intros G; [split; [constructor | exact I]|]. inversion G as [|? ? Gq G']; subst. destruct (IH G') as [I1 I2].
  cbn [backward]. destruct (backward machine d l) as [|[n b] r].
  - split; [constructor; [exact Gq | constructor]|]. destruct l; [|contradiction]. cbn. split; [exact I | reflexivity].
  - inversion I1 as [|? ? Gn G1]; subst. cbn [fst] in *. destruct (step_good M d n q Gn Gq Fd Hd) as (S1 & S2 & _).
    destruct (limit1 machine d n q) as [q' c']. cbn [fst] in S1, S2. split; [constructor; assumption|]. cbn [map abwd fst] in *.
    split; [exact I2 | exact S2].
Qed.
Lemma limitDiff_near l : Forall (good M) l ->
  Forall (fun x => good M (fst x)) (limitDiff machine d l) /\
  alimit (slack M) (value d) (map vsof l) (map (fun x => vsof (fst x)) (limitDiff machine d l)).
Proof.
  destruct l as [|q l]; [split; [constructor | reflexivity]|]. intros G. inversion G as [|? ? Gq G']; subst.
  destruct (forward_near l q Gq G') as [F1 F2]. unfold limitDiff.
  destruct (backward_near ((q, false) :: forward machine d q l)) as [B1 B2]; [constructor; assumption|].
  split; [exact B1|]. cbn [alimit map]. exists (map (fun x => vsof (fst x)) (forward machine d q l)). split; [exact F2 | exact B2].
Qed.
End Loops.
Lemma slack_pos M : 0 <= M -> 0 <= slack M.
Proof. intros H. unfold slack. assert (0 < bpow radix2 (-23)) by apply bpow_gt_0. assert (0 < bpow radix2 (-149)) by apply bpow_gt_0. nra. Qed.

(** ** Grids *)
Lemma within_range e u v n : within e (map u (range n)) (map v (range n)) <-> forall i, (0 <= i < n)%Z -> Rabs (u i - v i) <= e.
Proof.
  unfold within. rewrite forall2_nth, !map_length. split.
  - intros [_ H] i B. exact (H _ _ _ (range_nth u n i B) (range_nth v n i B)).
  - intros H. split; [reflexivity|]. intros i x y Hx Hy. apply range_nth_inv in Hx, Hy. destruct Hx as [B ->], Hy as [B' ->]. apply H. lia.
Qed.
Lemma range_length n : length (range n) = Z.to_nat n.
Proof. unfold range. rewrite map_length, seq_length. reflexivity. Qed.
Lemma list_as_fun n l : length l = Z.to_nat n -> map (fun i => nth (Z.to_nat i) l 0) (range n) = l.
Proof.
  intros H. unfold range. rewrite map_map. rewrite (map_ext _ (fun i => nth i l 0)) by (intros; rewrite Nat2Z.id; reflexivity). rewrite <- H. clear.
  assert (G : forall k, map (fun i => nth i (repeat 0 k ++ l) 0) (seq k (length l)) = l).
  { induction l as [|x l IH]; intros k; [reflexivity|]. cbn [length seq map]. f_equal.
    - rewrite app_nth2 by (rewrite repeat_length; lia). rewrite repeat_length, Nat.sub_diag. reflexivity.
    - rewrite <- (IH (S k)) at 2. apply map_ext_in. intros i I. apply in_seq in I.
      rewrite !app_nth2 by (rewrite repeat_length; lia). rewrite !repeat_length. replace (i - k)%nat with (S (i - S k)) by lia. reflexivity. }
  exact (G 0%nat).
Qed.
Lemma rlimit_length d l : length (rlimit d l) = length l.
Proof.
  pose proof (limitDiff_vs d (map (fun x => mkRpay 0 x 0 0 0 0 0 0) l)) as Q. rewrite map_map in Q. cbn [r_vs] in Q. rewrite map_id in Q.
  rewrite <- Q, map_length, limitDiff_length, map_length. reflexivity.
Qed.
(** The line [b] approximates the largest line below [u]. *)
Definition line_near (n : Z) (d e : R) (u b : Z -> R) : Prop :=
  (forall i, (0 <= i < n)%Z -> b i <= u i) /\
  exists c, line_largest n d u c /\ forall i, (0 <= i < n)%Z -> Rabs (b i - c i) <= e.
Lemma line_near_of n d eta u b : 0 <= d -> 0 <= eta -> (0 <= n)%Z -> alimit eta d (map u (range n)) (map b (range n)) ->
  line_near n d (2 * IZR n * eta) u b.
Proof.
  intros Hd He Hn A. split; [apply below_range, (alimit_below eta d), A|].
  pose proof (list_as_fun n (rlimit d (map u (range n)))) as Q. rewrite rlimit_length, map_length, range_length in Q. specialize (Q eq_refl).
  exists (fun i => nth (Z.to_nat i) (rlimit d (map u (range n))) 0). split; [apply line_largest_of; assumption|].
  apply within_range. rewrite Q. pose proof (alimit_within eta d He _ _ A) as W. rewrite map_length, range_length, INR_IZR_INZ, Z2Nat.id in W by exact Hn. exact W.
Qed.
Lemma line_exists n d u : 0 <= d -> exists c, line_largest n d u c.
Proof.
  intros Hd. exists (fun i => nth (Z.to_nat i) (rlimit d (map u (range n))) 0). apply line_largest_of; [exact Hd|].
  apply list_as_fun. rewrite rlimit_length, map_length, range_length. reflexivity.
Qed.
Lemma line_near_stable n d e c u u' b b' : line_near n d e u b -> line_largest n d u' b' ->
  (forall i, (0 <= i < n)%Z -> Rabs (u i - u' i) <= c) -> forall i, (0 <= i < n)%Z -> Rabs (b i - b' i) <= c + e.
Proof.
  intros (_ & k & K & Hk) L H i Hi. pose proof (line_stable n d u u' k b' c K L H i Hi) as S1. specialize (Hk i Hi).
  apply Rabs_le_iff in S1, Hk. apply Rabs_le_iff. lra.
Qed.

Definition limit_fun (n : Z) (d : R) (u : Z -> R) (i : Z) : R := nth (Z.to_nat i) (rlimit d (map u (range n))) 0.
Lemma limit_fun_largest n d u : 0 <= d -> line_largest n d u (limit_fun n d u).
Proof.
  intros Hd. apply line_largest_of; [exact Hd|]. unfold limit_fun.
  apply list_as_fun. rewrite rlimit_length, map_length, range_length. reflexivity.
Qed.
Lemma three_near nl nw nh dv dh e1 e2 e3 v0 v1 v2 v3 : 0 <= dv -> 0 <= dh ->
  (forall l w, (0 <= l < nl)%Z -> (0 <= w < nw)%Z -> line_near nh dv e1 (v0 l w) (v1 l w)) ->
  (forall w h, (0 <= w < nw)%Z -> (0 <= h < nh)%Z -> line_near nl dh e2 (fun l => v1 l w h) (fun l => v2 l w h)) ->
  (forall l h, (0 <= l < nl)%Z -> (0 <= h < nh)%Z -> line_near nw dh e3 (fun w => v2 l w h) (fun w => v3 l w h)) ->
  below3 nl nw nh v3 v0 /\
  exists b, largest_limited3 nl nw nh dv dh v0 b /\
    forall l w h, in_grid nl nw nh l w h -> Rabs (v3 l w h - b l w h) <= e1 + e2 + e3.
Proof.
  intros Hv Hh P1 P2 P3. split.
  { intros l w h (A & B & C). pose proof (proj1 (P3 l h A C) w B) as Q3. pose proof (proj1 (P2 w h B C) l A) as Q2.
    pose proof (proj1 (P1 l w A B) h C) as Q1. cbn beta in *. lra. }
  set (b1 := fun l w => limit_fun nh dv (v0 l w)).
  set (b2 := fun l w h => limit_fun nl dh (fun l => b1 l w h) l).
  set (b3 := fun l w h => limit_fun nw dh (fun w => b2 l w h) w).
  exists b3. split.
  { apply (three_passes nl nw nh dv dh v0 b1 b2 b3).
    - intros l w _ _. apply (limit_fun_largest nh dv (v0 l w) Hv).
    - intros w h _ _. apply (limit_fun_largest nl dh (fun l => b1 l w h) Hh).
    - intros l h _ _. apply (limit_fun_largest nw dh (fun w => b2 l w h) Hh). }
  assert (D1 : forall l w h, in_grid nl nw nh l w h -> Rabs (v1 l w h - b1 l w h) <= 0 + e1).
  { intros l w h (A & B & C). apply (line_near_stable nh dv e1 0 (v0 l w) (v0 l w) (v1 l w) (b1 l w) (P1 l w A B) (limit_fun_largest nh dv (v0 l w) Hv)); [|exact C].
    intros i _. rewrite Rminus_diag_eq, Rabs_R0 by reflexivity. lra. }
  assert (D2 : forall l w h, in_grid nl nw nh l w h -> Rabs (v2 l w h - b2 l w h) <= e1 + e2).
  { intros l w h (A & B & C). apply (line_near_stable nl dh e2 e1 (fun l => v1 l w h) (fun l => b1 l w h) (fun l => v2 l w h) (fun l => b2 l w h) (P2 w h B C) (limit_fun_largest nl dh (fun l => b1 l w h) Hh)); [|exact A].
    intros i Hi. specialize (D1 i w h). cbn beta. rewrite Rplus_0_l in D1. apply D1. split; [exact Hi | split; assumption]. }
  intros l w h (A & B & C). apply (line_near_stable nw dh e3 (e1 + e2) (fun w => v2 l w h) (fun w => b2 l w h) (fun w => v3 l w h) (fun w => b3 l w h) (P3 l h A C) (limit_fun_largest nw dh (fun w => b2 l w h) Hh)); [|exact B].
  intros i Hi. apply D2. split; [exact A | split; assumption].
Qed.
