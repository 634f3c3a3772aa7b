(** Proofs for C78: values half way between two octants. *)
From Coq Require Import ZArith Bool Reals Lra Lia Psatz List.
From Flocq Require Import Core BinarySingleNaN.
From Verif Require Import Outcome Float Payload Addr SpecOct SpecGeom SpecAvg SpecQuery SpecE2E SpecRange FloatFacts GeomFacts QuerySurface GradeMach
  AddrFacts AvgBounds AvgProof E2EFacts RangeFacts RangeTree.
Import ListNotations.
Open Scope R_scope.

Local Notation fexp32 := (SpecFloat.fexp prec32 emax32).
Local Notation rnd32 := (round radix2 fexp32 (round_mode mode_NE)).
#[local] Instance v32 : Valid_exp fexp32 := fexp_correct prec32 emax32 Hp32.
#[local] Instance vr : Valid_rnd (round_mode mode_NE) := valid_rnd_N _.

Lemma half_repr : repr half64 (/ 2).
Proof.
  change half64 with (S754_finite false 4503599627370496 (-53)). split; [reflexivity|]. split; [reflexivity|].
  unfold SF2R, F2R. cbn. lra.
Qed.

(** Half of a single precision number is a double precision number. *)
Lemma half_format x : generic_format radix2 fexp32 x -> generic_format radix2 (SpecFloat.fexp prec64 emax64) (/ 2 * x).
Proof.
  intros G. assert (P : Prec_gt_0 24) by reflexivity.
  destruct (FLT_format_generic radix2 (-149) 24 x G) as [f Hf Hm He].
  apply (generic_format_FLT radix2 (-1074) 53). exists (Float radix2 (Fnum f) (Fexp f - 1)).
  - rewrite Hf. unfold F2R. cbn [Fnum Fexp]. replace (Fexp f - 1)%Z with (-1 + Fexp f)%Z by ring. rewrite bpow_plus.
    change (bpow radix2 (-1)) with (/ 2). ring.
  - cbn [Fnum]. apply Z.lt_trans with (1 := Hm). reflexivity.
  - cbn [Fexp]. lia.
Qed.

Lemma half_small x : Rabs x < bpow radix2 128 -> Rabs (rnd32 (/ 2 * x)) < bpow radix2 128.
Proof.
  intros B. apply Rle_lt_trans with (bpow radix2 127); [|apply bpow_lt; lia].
  apply abs_round_le_generic; [typeclasses eauto..| |].
  - apply generic_format_bpow. unfold SpecFloat.fexp, SpecFloat.emin, prec32, emax32. lia.
  - rewrite Rabs_mult, (Rabs_right (/ 2)) by lra. change 128%Z with (1 + 127)%Z in B. rewrite bpow_plus in B.
    change (bpow radix2 1) with 2 in B. lra.
Qed.

Lemma half_sum_val x y : finite_single x -> finite_single y -> Rabs (rnd32 (value x + value y)) < bpow radix2 128 ->
  finite_single (half_sum x y) /\ value (half_sum x y) = rnd32 (/ 2 * rnd32 (value x + value y)).
Proof.
  intros [Vx Fx] [Vy Fy] B. unfold value in *.
  pose proof (add_round prec32 emax32 Hp32 Hm32 x y Vx Vy Fx Fy) as A.
  rewrite Rlt_bool_true in A by exact B. destruct A as [A1 A2].
  assert (Vs : valid32 (add32 x y)) by (apply (add_valid prec32 emax32 Hp32 Hm32); assumption).
  destruct (widen_repr (add32 x y) (conj Vs A2)) as (V1 & F1 & E1). unfold value in E1.
  change (SFadd prec32 emax32 x y) with (add32 x y) in A1. rewrite A1 in E1.
  destruct half_repr as (V2 & F2 & E2).
  assert (G : generic_format radix2 (SpecFloat.fexp prec64 emax64) (/ 2 * rnd32 (SF2R radix2 x + SF2R radix2 y))).
  { apply half_format, generic_format_round; typeclasses eauto. }
  assert (Bb : Rabs (/ 2 * rnd32 (SF2R radix2 x + SF2R radix2 y)) < bpow radix2 emax64).
  { rewrite Rabs_mult, (Rabs_right (/ 2)) by lra.
    assert (bpow radix2 128 < bpow radix2 emax64) by (apply bpow_lt; reflexivity).
    pose proof (Rabs_pos (rnd32 (SF2R radix2 x + SF2R radix2 y))). lra. }
  destruct (mul_exact prec64 emax64 Hp64 Hm64 half64 (widen (add32 x y)) V2 V1 F2 F1) as [M1 M2].
  - rewrite E1, E2. exact G.
  - rewrite E1, E2. exact Bb.
  - rewrite E1, E2 in M1.
    destruct (narrow_round (mul64 half64 (widen (add32 x y)))) as [N1 N2].
    + split; [|exact M2]. apply (mul_valid prec64 emax64 Hp64 Hm64); assumption.
    + unfold value, mul64. rewrite M1. apply half_small, B.
    + split; [exact N1|]. unfold value in N2. unfold half_sum. rewrite N2. unfold mul64. rewrite M1. reflexivity.
Qed.

Lemma sum_small B x y : 0 <= B <= bpow radix2 125 -> Rabs x <= B -> Rabs y <= B -> Rabs (rnd32 (x + y)) < bpow radix2 128.
Proof.
  intros HB Hx Hy. apply Rle_lt_trans with (bpow radix2 126); [|apply bpow_lt; lia].
  apply abs_round_le_generic; [typeclasses eauto..| |].
  - apply generic_format_bpow. unfold SpecFloat.fexp, SpecFloat.emin, prec32, emax32. lia.
  - apply Rle_trans with (1 := Rabs_triang _ _). change 126%Z with (1 + 125)%Z. rewrite bpow_plus. change (bpow radix2 1) with 2. lra.
Qed.

(** Half the sum lies between the two, up to rounding. *)
Lemma half_sum_range lo hi B x y : 0 <= B <= bpow radix2 125 -> finite_single x -> finite_single y ->
  Rabs (value x) <= B -> Rabs (value y) <= B -> lo <= value x <= hi -> lo <= value y <= hi ->
  finite_single (half_sum x y) /\ lo - (B * bpow radix2 (-22) + bpow radix2 (-149)) <= value (half_sum x y) <= hi + (B * bpow radix2 (-22) + bpow radix2 (-149)).
Proof.
  intros HB Fx Fy Bx By Rx Ry.
  destruct (half_sum_val x y Fx Fy (sum_small B _ _ HB Bx By)) as [F E]. split; [exact F|].
  destruct (round_add_err x y (proj1 Fx) (proj1 Fy)) as (e1 & H1 & E1).
  destruct (round_div_err (/ 2 * rnd32 (value x + value y))) as (e2 & n2 & H2 & N2 & E2).
  rewrite E, E2. unfold value in *. rewrite E1. clear E E1 E2 F.
  set (a := SF2R radix2 x) in *. set (b := SF2R radix2 y) in *. clearbody a b. clear Fx Fy x y.
  assert (U : u32 = bpow radix2 (-24)) by reflexivity. 
  assert (U4 : bpow radix2 (-22) = 4 * u32).
  { rewrite U. change (-22)%Z with (2 + -24)%Z. rewrite bpow_plus. reflexivity. }
  assert (T2 : bpow radix2 (-149) = 2 * eta32).
  { unfold eta32. change (-149)%Z with (1 + -150)%Z. rewrite bpow_plus. reflexivity. }
  pose proof eta_pos as P0. pose proof u32_pos as P1.
  assert (U1 : u32 <= / 1000) by (rewrite U; change (bpow radix2 (-24)) with (/ 16777216); lra).
  assert (D : Rabs (/ 2 * ((a + b) * (1 + e1)) * (1 + e2) + n2 - / 2 * (a + b)) <= B * (3 * u32) + eta32).
  { replace (/ 2 * ((a + b) * (1 + e1)) * (1 + e2) + n2 - / 2 * (a + b)) with (/ 2 * (a + b) * (e1 + e2 + e1 * e2) + n2) by ring.
    apply Rle_trans with (1 := Rabs_triang _ _). apply Rplus_le_compat; [|exact N2].
    rewrite Rabs_mult. apply Rmult_le_compat; try apply Rabs_pos.
    - rewrite Rabs_mult, (Rabs_right (/ 2)) by lra. pose proof (Rabs_triang a b). lra.
    - apply Rle_trans with (1 := Rabs_triang _ _). pose proof (Rabs_triang e1 e2). rewrite Rabs_mult.
      assert (Rabs e1 * Rabs e2 <= u32 * 1) by (apply Rmult_le_compat; try apply Rabs_pos; lra). lra. }
  apply Rabs_le_inv in D. rewrite U4, T2. 
  assert (0 <= B * u32) by (apply Rmult_le_pos; lra). lra.
Qed.

(** The sign of half the sum. *)
Lemma half_sum_pos B x y : 0 <= B <= bpow radix2 125 -> finite_single x -> finite_single y ->
  Rabs (value x) <= B -> Rabs (value y) <= B -> 0 < value x -> 0 < value y -> 0 < value (half_sum x y).
Proof.
  intros HB Fx Fy Bx By Px Py. destruct (half_sum_val x y Fx Fy (sum_small B _ _ HB Bx By)) as [_ ->].
  apply Rlt_le_trans with (INR 1 * tiny); [cbn [INR]; rewrite Rmult_1_l; apply bpow_gt_0|].
  apply round_tiny; [lia|]. 
  assert (H : INR 2 * tiny <= rnd32 (value x + value y)).
  { apply round_tiny; [lia|]. pose proof (tiny_positive x (proj1 Fx) Px). pose proof (tiny_positive y (proj1 Fy) Py).
    unfold tiny, value in *. cbn [INR]. lra. }
  cbn [INR] in *. lra.
Qed.

(** Half the sum of a number and itself has the same sign, whatever the number. *)
Lemma inf_through s : half_sum (S754_infinity s) (S754_infinity s) = S754_infinity s.
Proof. destruct s; reflexivity. Qed.
Lemma half_self x : valid32 x -> flt f_zero x = false -> flt f_zero (half_sum x x) = false.
Proof.
  intros V H. destruct x as [s|s| |s m e].
  - destruct s; reflexivity.
  - rewrite inf_through. exact H.
  - reflexivity.
  - destruct s; [|discriminate H]. set (x := S754_finite true m e) in *.
    assert (F : is_fin x = true) by reflexivity.
    assert (N : value x <= 0).
    { unfold value, x, SF2R. apply Rlt_le, F2R_lt_0. reflexivity. }
    destruct (Rlt_or_le (Rabs (rnd32 (value x + value x))) (bpow radix2 128)) as [B|B].
    + destruct (half_sum_val x x (conj V F) (conj V F) B) as [[Vh Fh] E].
      destruct (flt f_zero (half_sum x x)) eqn:Q; [|reflexivity]. exfalso.
      rewrite (flt_R prec32 emax32 f_zero _ eq_refl Vh eq_refl Fh) in Q.
      destruct (Rlt_bool_spec (SF2R radix2 f_zero) (SF2R radix2 (half_sum x x))) as [P|P]; [|discriminate Q].
      change (0 < value (half_sum x x)) in P. rewrite E in P.
      assert (R1 : rnd32 (value x + value x) <= 0) by (apply round_le_generic; [typeclasses eauto..|apply generic_format_0|lra]).
      assert (R2 : rnd32 (/ 2 * rnd32 (value x + value x)) <= 0) by (apply round_le_generic; [typeclasses eauto..|apply generic_format_0|lra]).
      lra.
    + pose proof (add_round prec32 emax32 Hp32 Hm32 x x V V F F) as A. fold (value x) in A.
      rewrite Rlt_bool_false in A by exact B. destruct A as [A _].
      unfold half_sum, add32. unfold f32 in *. rewrite A. reflexivity.
Qed.

Section Wave.
Variable inp : list (addr * payload).
Hypothesis HW : wf_input inp.
Hypothesis HV : forall a p, In (a, p) inp -> proper_values p.
Hypothesis HT : forall a p, In (a, p) inp -> tame p.
Local Notation good := (good inp).

Lemma get6_half f p v : get6 f (halfway p v) = half_sum (get6 f p) (get6 f v).
Proof. destruct f; reflexivity. Qed.

(** The octant before: the same, or a rock octant inside. *)
Definition comes_from (h : addr) (v : payload) (prev : payload) : Prop :=
  prev = v \/ exists hp, octant_ok hp /\ covers h hp /\ rock_in inp hp /\ good hp prev.

Lemma rock_up h hp : covers h hp -> rock_in inp hp -> rock_in inp h.
Proof. intros C (q & (a & I & Ca) & S). exists q. split; [exists a; split; [exact I|exact (covers_trans _ _ _ C Ca)]|exact S]. Qed.

(** The previous values are good for an octant whose input counts for this one too. *)
Lemma previous h v prev : octant_ok h -> good h v -> comes_from h v prev -> rock_in inp h \/ water_in inp h ->
  exists hp, octant_ok hp /\ good hp prev /\ (rock_in inp hp \/ water_in inp hp) /\
    (rock_in inp hp <-> rock_in inp h) /\ (forall q, counts inp hp q -> counts inp h q).
Proof.
  intros O G [->|(hp & Op & C & R & Gp)] D.
  - exists h. tauto.
  - exists hp. split; [exact Op|]. split; [exact Gp|]. split; [left; exact R|]. split.
    + split; intros _; [exact (rock_up h hp C R)|exact R].
    + intros q. apply (counts_up inp); [left; exact R|exact C].
Qed.

Lemma depth_31 b : octant_ok b -> (depth b <= 31)%nat.
Proof. intros ((L1 & L2) & _). unfold depth. lia. Qed.

Lemma half_range h v prev f lo hi M : octant_ok h -> good h v -> comes_from h v prev -> rock_in inp h \/ water_in inp h ->
  0 <= M <= bpow radix2 120 -> - M <= lo -> hi <= M -> (forall q, counts inp h q -> lo <= fval (get6 f q) <= hi) ->
  let slack := M * bpow radix2 (-14) + bpow radix2 (-143) in
  finite_single (get6 f (halfway prev v)) /\ lo - slack <= fval (get6 f (halfway prev v)) <= hi + slack.
Proof.
  intros O G CF D HM Hlo Hhi H slack. destruct (previous h v prev O G CF D) as (hp & Op & Gp & Dp & _ & Cp).
  destruct (g_range inp h v G f lo hi M HM Hlo Hhi H D) as [Fv Rv].
  destruct (g_range inp hp prev Gp f lo hi M HM Hlo Hhi (fun q Q => H q (Cp q Q)) Dp) as [Fp Rp].
  pose proof (bnd_31 _ M (depth_31 h O) (proj1 HM)) as B1. pose proof (bnd_31 _ M (depth_31 hp Op) (proj1 HM)) as B2.
  set (s := M * bpow radix2 (-15) + bpow radix2 (-144)) in *.
  assert (Hs : slack = 2 * s).
  { unfold slack, s. change (-14)%Z with (1 + -15)%Z. change (-143)%Z with (1 + -144)%Z. rewrite !bpow_plus.
    change (bpow radix2 1) with 2. ring. }
  assert (Rv' : lo - s <= fval (get6 f v) <= hi + s) by lra.
  assert (Rp' : lo - s <= fval (get6 f prev) <= hi + s) by lra.
  assert (S0 : 0 <= s).
  { unfold s. pose proof (bpow_ge_0 radix2 (-144)). assert (0 <= M * bpow radix2 (-15)) by (apply Rmult_le_pos; [lra|apply bpow_ge_0]). lra. }
  assert (HB : 0 <= M + s <= bpow radix2 125).
  { split; [lra|]. unfold s. change 125%Z with (5 + 120)%Z. rewrite bpow_plus. change (bpow radix2 5) with 32.
    assert (bpow radix2 (-144) <= bpow radix2 120) by (apply bpow_le; lia).
    change (bpow radix2 (-15)) with (/ 32768). lra. }
  rewrite get6_half.
  destruct (half_sum_range (lo - s) (hi + s) (M + s) (get6 f prev) (get6 f v) HB) as [F R].
  - split; [apply (g_valid inp hp prev Gp)|exact Fp].
  - split; [apply (g_valid inp h v G)|exact Fv].
  - apply Rabs_le. unfold value. lra.
  - apply Rabs_le. unfold value. lra.
  - exact Rp'.
  - exact Rv'.
  - split; [exact F|]. unfold value in R. rewrite Hs.
    assert (X : (M + s) * bpow radix2 (-22) + bpow radix2 (-149) <= s).
    { unfold s. replace (bpow radix2 (-149)) with (/ 32 * bpow radix2 (-144)).
      2: { change (-149)%Z with (-5 + -144)%Z. rewrite bpow_plus. reflexivity. }
      change (bpow radix2 (-15)) with (/ 32768). change (bpow radix2 (-22)) with (/ 4194304).
      pose proof (bpow_ge_0 radix2 (-144)). lra. }
    lra.
Qed.

Lemma half_summary h v prev : octant_ok h -> good h v -> comes_from h v prev -> summarises_roughly inp h (halfway prev v).
Proof.
  intros O G CF.
  assert (HB : 0 <= bpow radix2 121 <= bpow radix2 125) by (split; [apply bpow_ge_0|apply bpow_le; lia]).
  assert (FB : forall b p f, octant_ok b -> good b p -> rock_in inp b \/ water_in inp b ->
    finite_single (get6 f p) /\ Rabs (value (get6 f p)) <= bpow radix2 121).
  { intros b p f Ob Gb D. destruct (good_fin inp HV HT b p f Gb D Ob) as [F R].
    split; [split; [apply (g_valid inp b p Gb)|exact F]|apply Rabs_le, R]. }
  assert (POS : forall f, (rock_in inp h \/ water_in inp h) ->
    (forall b p, good b p -> octant_ok b -> rock_in inp b \/ water_in inp b -> (rock_in inp b <-> rock_in inp h) -> 0 < fval (get6 f p)) ->
    flt f_zero (get6 f (halfway prev v)) = true).
  { intros f D K. destruct (previous h v prev O G CF D) as (hp & Op & Gp & Dp & RR & _).
    destruct (FB h v f O G D) as [F1 B1]. destruct (FB hp prev f Op Gp Dp) as [F2 B2].
    destruct (half_range h v prev f _ _ _ O G CF D (big_M) (Rle_refl _) (Rle_refl _) (fun q => counts_big inp HT h f q)) as [[V F] _].
    apply pos_val_flt; [exact F|]. rewrite get6_half. apply (half_sum_pos (bpow radix2 121)); try assumption.
    - exact (K hp prev Gp Op Dp RR).
    - apply (K h v G O D). tauto. }
  assert (NR : ~ rock_in inp h -> prev = v).
  { intros N. destruct CF as [E|(hp & _ & C & R & _)]; [exact E|]. exfalso. exact (N (rock_up h hp C R)). }
  assert (SN : ~ rock_in inp h -> solid (halfway prev v) = false).
  { intros N. rewrite (NR N). apply half_self; [apply (g_valid inp h v G PVs)|].
    destruct (solid v) eqn:E; [|exact E]. exfalso. apply N, (g_rock inp h v G), E. }
  split; [|split; [|split]].
  - split.
    + intros S. destruct (solid v) eqn:E; [apply (g_rock inp h v G), E|]. exfalso.
      assert (N : ~ rock_in inp h) by (intros R; apply (g_rock inp h v G) in R; congruence).
      rewrite (SN N) in S. discriminate.
    + intros R. apply (POS PVs); [left; exact R|]. intros b p Gb Ob Db RR.
      apply (solid_pos p); [apply (g_valid inp b p Gb PVs)|apply (g_rock inp b p Gb), RR, R|].
      apply (good_fin inp HV HT b p PVs Gb Db Ob).
  - intros N. split.
    + intros Wt. apply (g_water inp h v G N). destruct (water v) eqn:E; [reflexivity|]. exfalso.
      assert (Q : water (halfway prev v) = false).
      { rewrite (NR N). apply half_self; [apply (g_valid inp h v G PVp)|exact E]. }
      congruence.
    + intros Wt. apply (POS PVp); [right; exact Wt|]. intros b p Gb Ob Db RR.
      assert (Nb : ~ rock_in inp b) by tauto.
      apply (water_pos p); [apply (g_valid inp b p Gb PVp)|apply (g_water inp b p Gb Nb); tauto|].
      apply (good_fin inp HV HT b p PVp Gb Db Ob).
  - intros f lo hi M D HM Hlo Hhi H.
    destruct (half_range h v prev f lo hi M O G CF D HM Hlo Hhi H) as [[_ F] R]. split; [exact F|exact R].
  - intros A N1 N2 f. rewrite (NR N1), get6_half, (g_none inp h v G A N1 N2 f). vm_compute. reflexivity.
Qed.

(** Only rock octants are too fine. *)
Lemma fine_rock period h v : valid32 (p_vs v) -> too_fine period h v -> solid v = true.
Proof.
  intros V (H & _). unfold solid. destruct (p_vs v) as [s|s| |s m e] eqn:E; try (destruct s); try exact H; try discriminate H; try reflexivity.
  exfalso. set (x := S754_finite true m e) in *.
  destruct (widen_repr x (conj V eq_refl)) as (V1 & F1 & E1).
  rewrite (flt_R prec64 emax64 f_zero _ eq_refl V1 eq_refl F1) in H. rewrite E1 in H.
  destruct (Rlt_bool_spec (SF2R radix2 f_zero) (value x)) as [P|P]; [|discriminate H].
  assert (N : value x < 0) by (unfold value, x, SF2R; apply F2R_lt_0; reflexivity).
  change (SF2R radix2 f_zero) with 0 in P. lra.
Qed.

Lemma coarsened_summary period w prev h v ans : coarsened inp period prev h v ans ->
  octant_ok h -> good h v -> comes_from h v prev -> holds h w ->
  exists b, octant_ok b /\ holds b w /\ covers b h /\ summarises_roughly inp b ans.
Proof.
  induction 1 as [prev h v N|prev h v h' v' ans TF O' L C A CO IH]; intros O G CF Hw.
  - exists h. split; [exact O|]. split; [exact Hw|]. split; [unfold covers; lia|]. apply half_summary; assumption.
  - destruct IH as (b & Ob & Hb & Cb & Sb).
    + exact O'.
    + exact (averaged_good inp HW HV HT h' v' A).
    + right. exists h. split; [exact O|]. split; [exact C|]. split; [|exact G].
      apply (g_rock inp h v G). apply (fine_rock period h v (g_valid inp h v G PVs) TF).
    + exact (QueryFacts.holds_cover h' h w Hw C).
    + exists b. split; [exact Ob|]. split; [exact Hb|]. split; [exact (covers_trans _ _ _ Cb C)|exact Sb].
Qed.
End Wave.
