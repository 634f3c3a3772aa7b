(** Where the grid points of a domain are: numbers of points, positions, octants. *)
From Coq Require Import ZArith Bool Reals Lra Lia Psatz List String.
From Flocq Require Import Core BinarySingleNaN Relative.
From Verif Require Import Outcome Float Payload Addr SpecOct SpecGeom AddrFacts FloatFacts Geom GeomFacts GeomProof GeomLevel GeomRot TrigNum
  IsoNum VsGrader SpecGrade SpecDomain.
Import ListNotations.
Open Scope R_scope.

Local Notation fexp64 := (SpecFloat.fexp prec64 emax64).
Local Notation rnd64 := (round radix2 fexp64 (round_mode mode_NE)).
#[local] Instance fexp64_ok : Valid_exp fexp64 := fexp_correct prec64 emax64 Hp64.
#[local] Instance fexp64_mono : Monotone_exp fexp64 := fexp_monotone prec64 emax64.
#[local] Instance rnd64_ok : Valid_rnd (round_mode mode_NE) := valid_rnd_N _.

(** ** Numbers of points *)
Lemma rnd_int_le z v : (Z.abs z < 2 ^ 53)%Z -> IZR z <= v -> IZR z <= rnd64 v.
Proof.
  intros Hz H. rewrite <- (rnd_format prec64 emax64 (IZR z)) by (apply dy_fmt, dy_int, Hz).
  apply round_le; auto with typeclass_instances.
Qed.

Lemma count_fills len res : finite_double len -> finite_double res -> 0 <= value len -> 0 < value res ->
  value len <= 1000000000 * value res ->
  exists n, count len res = Val n /\ fills n (value len) (value res).
Proof.
  intros [Vl Fl] [Vr Fr] Pl Pr Hle. unfold value in *.
  set (a := SF2R radix2 len) in *. set (r := SF2R radix2 res) in *.
  assert (Q0 : 0 <= a / r) by (apply Rmult_le_pos; [exact Pl | left; apply Rinv_0_lt_compat, Pr]).
  assert (Q1 : a / r <= 1000000000).
  { apply (Rmult_le_reg_r r); [exact Pr|]. unfold Rdiv. rewrite Rmult_assoc, Rinv_l by lra. lra. }
  assert (B1 : Rabs (a / r) < 1000000000000) by (rewrite Rabs_right; lra).
  destruct (div_approx len res Vl Vr Fl ltac:(fold r; lra) B1) as (Vq & Fq & Eq).
  fold a r in Eq. set (q := a / r) in *. set (q' := fval (div64 len res)) in *.
  pose proof (rnd_err q) as R1. rewrite <- Eq in R1. rewrite (Rabs_right q) in R1 by lra. apply Rabs_le_inv in R1.
  assert (Q'0 : 0 <= q').
  { rewrite Eq. apply (rnd_int_le 0); [lia | exact Q0]. }
  destruct (repr_int 1 ltac:(lia)) as (V1 & F1 & E1).
  assert (B2 : Rabs (fval (i2f64 1) + q') < 1000000000000) by (rewrite E1, Rabs_right; unfold u53, tiny in R1; lra).
  destruct (add_approx (i2f64 1) (div64 len res) V1 Vq F1 Fq B2) as (Fs & Es).
  fold q' in Es. rewrite E1 in Es. set (s := fval (add64 (i2f64 1) (div64 len res))) in *.
  pose proof (rnd_err (1 + q')) as R2. rewrite <- Es in R2. rewrite (Rabs_right (1 + q')) in R2 by lra. apply Rabs_le_inv in R2.
  assert (S1 : 1 <= s) by (rewrite Es; apply (rnd_int_le 1); [lia | lra]).
  assert (S2 : s <= 2000000000) by (unfold u53, tiny in *; lra).
  set (n := Zfloor s).
  pose proof (Zfloor_lb s) as L1. pose proof (Zfloor_ub s) as L2. fold n in L1, L2.
  assert (N1 : (1 <= n)%Z) by (apply Zfloor_lub; exact S1).
  assert (N2 : (n <= 2000000000)%Z) by (apply le_IZR; lra).
  exists n. split.
  { unfold count, f2int. rewrite ftrunc_R by exact Fs. fold s. rewrite Ztrunc_floor by lra. fold n.
    replace ((- 2 ^ 31 <=? n) && (n <? 2 ^ 31))%Z with true; [reflexivity|].
    symmetry. apply andb_true_iff. split; [apply Z.leb_le | apply Z.ltb_lt]; lia. }
  split; [exact N1|].
  assert (A : a = q * r) by (unfold q; field; lra).
  assert (P50 : / 2 ^ 50 = / 1125899906842624) by (f_equal; cbn; lra). rewrite P50.
  split.
  - destruct (Z.eq_dec n 1) as [E|N].
    + rewrite E. replace (IZR (1 - 1)) with 0 by reflexivity. lra.
    + assert (N' : 2 <= IZR n) by (apply IZR_le; lia). rewrite minus_IZR.
      assert (T : (IZR n - 1) * (1 - / 1125899906842624) <= q) by (unfold u53, tiny in *; lra).
      rewrite A. replace ((IZR n - 1) * r * (1 - / 1125899906842624)) with ((IZR n - 1) * (1 - / 1125899906842624) * r) by ring.
      apply Rmult_le_compat_r; lra.
  - rewrite A. apply Rmult_lt_compat_r; [exact Pr|].
    apply Rnot_le_lt. intros C.
    assert (C1 : IZR n <= q') by (rewrite Eq; apply rnd_int_le; [lia | exact C]).
    assert (C2 : IZR (n + 1) <= s) by (rewrite Es; apply rnd_int_le; [lia | rewrite plus_IZR; lra]).
    rewrite plus_IZR in C2. lra.
Qed.

Lemma fills_whole n k len res : fills n len res -> 0 < res -> (0 <= k <= 1000000000)%Z -> len = IZR k * res -> n = (k + 1)%Z.
Proof.
  intros (N & H1 & H2) Pr Hk E.
  assert (P50 : / 2 ^ 50 = / 1125899906842624) by (f_equal; cbn; lra). rewrite P50 in H1.
  rewrite E in *. apply Rmult_lt_reg_r in H2; [|exact Pr]. apply lt_IZR in H2.
  assert (H3 : IZR (n - 1) * (1 - / 1125899906842624) <= IZR k).
  { apply (Rmult_le_reg_r res); [exact Pr|]. lra. }
  assert (H4 : IZR k <= 1000000000) by (apply IZR_le; lia).
  assert (n - 1 < k + 1)%Z by (apply lt_IZR; rewrite plus_IZR; lra). lia.
Qed.

(** ** Direction of the domain *)
Lemma azimuthLen_value : value azimuthLen = - (IZR 5716298514205737 / IZR (2 ^ 53)).
Proof.
  replace azimuthLen with (S754_finite true 5716298514205737 (-53)) by (symmetry; vm_compute; reflexivity).
  unfold value. rewrite dyadic by lia. change (- -53)%Z with 53%Z. cbv iota. lra.
Qed.
Lemma azimuthLen_close : Rabs (value azimuthLen - length_azimuth) <= 2 / 10 ^ 16.
Proof. rewrite azimuthLen_value. unfold length_azimuth. pose proof pi_bounds. apply abs_bound. cbn in *. lra. Qed.
Lemma az_perp : cos length_azimuth = sin azimuth /\ sin length_azimuth = - cos azimuth.
Proof.
  replace length_azimuth with (azimuth - PI / 2) by (unfold length_azimuth, azimuth; lra).
  rewrite cos_minus, sin_minus, cos_PI2, sin_PI2. split; ring.
Qed.

(** The length of the domain runs along the first axis of the root cube, backwards, and its
    width along the second axis: (c, s) is the direction of the root cube, (c', s') the
    direction of the domain. *)
Definition aligned (c s c' s' : R) : Prop := Rabs (c' - s) <= / 10 ^ 14 /\ Rabs (s' + c) <= / 10 ^ 14.
Lemma trig_aligned L : trig_at (m_cos L) (m_sin L) azR -> trig_at (m_cos L) (m_sin L) azimuthLen ->
  aligned (value (m_cos L azR)) (value (m_sin L azR)) (value (m_cos L azimuthLen)) (value (m_sin L azimuthLen)).
Proof.
  intros H K. destruct (trig_near _ _ _ _ H azR_close) as [A B]. destruct (trig_near _ _ _ _ K azimuthLen_close) as [C D].
  destruct az_perp as [E F]. rewrite E in C. rewrite F in D. unfold near in *.
  apply Rabs_le_inv in A. apply Rabs_le_inv in B. apply Rabs_le_inv in C. apply Rabs_le_inv in D.
  assert (N : 2 * (4 / 10 ^ 16) <= / 10 ^ 14) by (clear; cbn; lra).
  split; apply abs_bound; lra.
Qed.

(** ** Positions *)
Lemma steps_ap i h : (0 <= i <= 4000000000)%Z -> finite_double h -> 0 <= value h -> IZR i * value h <= root ->
  ap (mul64 (i2f64 i) h) (IZR i * value h) u.
Proof.
  intros Hi [Vh Fh] Ph B. unfold value, root in *.
  destruct (repr_int i ltac:(lia)) as (V & F & E).
  assert (I0 : 0 <= IZR i) by (apply IZR_le; lia).
  assert (P0 : 0 <= IZR i * fval h) by (apply Rmult_le_pos; assumption).
  destruct (mul_approx (i2f64 i) h V Vh F Fh) as (V' & F' & E'); [rewrite E, Rabs_right; lra|].
  split; [exact V'|]. split; [exact F'|]. rewrite E', E.
  eapply Rle_trans; [apply rnd_err|]. rewrite Rabs_right by lra. unfold u53, tiny, u. lra.
Qed.

Lemma grid_close c s c0 s0 x y H l w : near c c0 -> near s s0 -> (0 <= l)%Z -> (0 <= w)%Z -> 0 < H -> IZR l * H <= root -> IZR w * H <= root ->
  Rabs (grid_x c s x H l w - grid_x c0 s0 x H l w) <= / 100000000 /\ Rabs (grid_y c s y H l w - grid_y c0 s0 y H l w) <= / 100000000.
Proof.
  unfold near. intros NC NS Hl Hw PH Bl Bw.
  assert (M : forall i e, (0 <= i)%Z -> IZR i * H <= root -> Rabs e <= 4 / 10 ^ 16 -> - / 500000000 <= IZR i * H * e <= / 500000000).
  { intros i e Hi Bi He. apply Rabs_le_inv. rewrite Rabs_mult.
    assert (0 <= IZR i * H) by (apply Rmult_le_pos; [apply IZR_le; lia | lra]). rewrite (Rabs_right (IZR i * H)) by lra.
    apply Rle_trans with (root * (4 / 10 ^ 16)).
    - apply Rmult_le_compat; try assumption. apply Rabs_pos.
    - unfold root. cbn. lra. }
  pose proof (M l _ Hl Bl NC). pose proof (M l _ Hl Bl NS). pose proof (M w _ Hw Bw NC). pose proof (M w _ Hw Bw NS).
  split.
  - replace (grid_x c s x H l w - grid_x c0 s0 x H l w) with (IZR l * H * (s - s0) + IZR w * H * (c - c0)) by (unfold grid_x; ring).
    apply abs_bound. lra.
  - replace (grid_y c s y H l w - grid_y c0 s0 y H l w) with (IZR l * H * (c - c0) - IZR w * H * (s - s0)) by (unfold grid_y; ring).
    apply abs_bound. lra.
Qed.

Section Positions.
Variable L : libm.
Variable g : gparams.
Let c' := value (m_cos L azimuthLen).
Let s' := value (m_sin L azimuthLen).
Let H := value (resHoriz g).
Hypothesis U' : unit_vector (m_cos L azimuthLen) (m_sin L azimuthLen).
Hypothesis FH : finite_double (resHoriz g).
Hypothesis PH : 0 < H.
Hypothesis FX : finite_double (gp_x g).
Hypothesis FY : finite_double (gp_y g).
Hypothesis BX : Rabs (value (gp_x g)) <= 1500000.
Hypothesis BY : Rabs (value (gp_y g)) <= 1500000.

Definition grid_xf (l w : Z) : f64 :=
  add64 (add64 (gp_x g) (mul64 (mul64 (i2f64 l) (resHoriz g)) (m_sin L azimuthLen))) (mul64 (mul64 (i2f64 w) (resHoriz g)) (m_cos L azimuthLen)).
Definition grid_yf (l w : Z) : f64 :=
  sub64 (add64 (gp_y g) (mul64 (mul64 (i2f64 l) (resHoriz g)) (m_cos L azimuthLen))) (mul64 (mul64 (i2f64 w) (resHoriz g)) (m_sin L azimuthLen)).

Lemma lonlat_eq l w : indexToLonLat L g l w = invProject L (grid_xf l w) (grid_yf l w).
Proof. reflexivity. Qed.

Lemma map_ap l w : (0 <= l <= 4000000000)%Z -> (0 <= w <= 4000000000)%Z -> IZR l * H <= root -> IZR w * H <= root ->
  ap (grid_xf l w) (grid_x c' s' (value (gp_x g)) H l w) (10 * u) /\
  ap (grid_yf l w) (grid_y c' s' (value (gp_y g)) H l w) (10 * u) /\
  Rabs (grid_x c' s' (value (gp_x g)) H l w) <= 4800000 /\ Rabs (grid_y c' s' (value (gp_y g)) H l w) <= 4800000.
Proof using U' FH PH FX FY BX BY.
  intros Hl Hw Bl Bw. destruct U' as (Fc & Fs & Hc & Hs & _).
  assert (AL := steps_ap l _ Hl FH ltac:(fold H; lra) Bl).
  assert (AW := steps_ap w _ Hw FH ltac:(fold H; lra) Bw). fold H in AL, AW.
  set (lh := IZR l * H) in *. set (wh := IZR w * H) in *.
  assert (L0 : 0 <= lh) by (unfold lh; apply Rmult_le_pos; [apply IZR_le; lia | lra]).
  assert (W0 : 0 <= wh) by (unfold wh; apply Rmult_le_pos; [apply IZR_le; lia | lra]).
  unfold root in Bl, Bw. assert (U0 : 0 <= u <= / 1000) by (unfold u; lra).
  assert (bd : forall r e, -15000000 <= r <= 15000000 -> 0 <= e <= 1 -> Rabs r + e <= 20000000).
  { intros r e Hr He. pose proof (abs_bound r 15000000 Hr). lra. }
  assert (Cb : -1 <= c' <= 1) by (apply Rabs_le_inv, Hc). assert (Sb : -1 <= s' <= 1) by (apply Rabs_le_inv, Hs).
  apply Rabs_le_inv in BX. apply Rabs_le_inv in BY.
  assert (LS := ap_mul _ _ _ _ AL Fs Hs ltac:(apply bd; lra)). assert (LC := ap_mul _ _ _ _ AL Fc Hc ltac:(apply bd; lra)).
  assert (WS := ap_mul _ _ _ _ AW Fs Hs ltac:(apply bd; lra)). assert (WC := ap_mul _ _ _ _ AW Fc Hc ltac:(apply bd; lra)).
  fold c' in LC, WC. fold s' in LS, WS.
  pose proof (mul_unit lh c' 1638400 ltac:(lra) Cb) as B1. pose proof (mul_unit lh s' 1638400 ltac:(lra) Sb) as B2.
  pose proof (mul_unit wh c' 1638400 ltac:(lra) Cb) as B3. pose proof (mul_unit wh s' 1638400 ltac:(lra) Sb) as B4.
  assert (X1 := ap_add _ _ _ _ _ _ (ap_self _ FX) LS ltac:(apply bd; lra)).
  assert (X2 := ap_add _ _ _ _ _ _ X1 WC ltac:(apply bd; lra)).
  assert (Y1 := ap_add _ _ _ _ _ _ (ap_self _ FY) LC ltac:(apply bd; lra)).
  assert (Y2 := ap_sub _ _ _ _ _ _ Y1 WS ltac:(apply bd; lra)).
  unfold grid_x, grid_y. fold lh wh.
  split; [eapply ap_weaken; [exact X2 | lra]|]. split; [eapply ap_weaken; [exact Y2 | lra]|].
  split; apply abs_bound; lra.
Qed.

Lemma elev_ap h : (0 <= h <= 4000000000)%Z -> finite_double (gp_res g) -> 0 <= value (gp_res g) -> IZR h * value (gp_res g) <= root ->
  finite_double (gp_elev g) -> Rabs (value (gp_elev g)) <= 1000000 ->
  ap (indexToElev g h) (grid_z (value (gp_elev g)) (value (gp_res g)) h) (2 * u).
Proof.
  intros Hh Fr Pr B Fe Be. assert (A := steps_ap h _ Hh Fr Pr B). apply Rabs_le_inv in Be.
  assert (P0 : 0 <= IZR h * value (gp_res g)) by (apply Rmult_le_pos; [apply IZR_le; lia | exact Pr]).
  unfold root in B. assert (U0 : 0 <= u <= / 1000) by (unfold u; lra).
  assert (S := ap_sub _ _ _ _ _ _ (ap_self _ Fe) A ltac:(pose proof (abs_bound (value (gp_elev g) - IZR h * value (gp_res g)) 15000000 ltac:(lra)); lra)).
  eapply ap_weaken; [exact S | lra].
Qed.
End Positions.

(** ** Octants *)
Section Cells.
Variable L : libm.
Variable g : gparams.
Let c := value (m_cos L azR).
Let s := value (m_sin L azR).
Let c' := value (m_cos L azimuthLen).
Let s' := value (m_sin L azimuthLen).
Let H := value (resHoriz g).
Let V := value (gp_res g).
Hypothesis HU : unit_vector (m_cos L azR) (m_sin L azR).
Hypothesis HU' : unit_vector (m_cos L azimuthLen) (m_sin L azimuthLen).
Hypothesis HP : projection_inverts (m_project L) (m_invproject L).
Hypothesis FV : finite_double (gp_res g).
Hypothesis PV : 0 < V.
Hypothesis FH : finite_double (resHoriz g).
Hypothesis PH : 0 < H.
Hypothesis FX : finite_double (gp_x g).
Hypothesis FY : finite_double (gp_y g).
Hypothesis FE : finite_double (gp_elev g).
Hypothesis BX : Rabs (value (gp_x g)) <= 1500000.
Hypothesis BY : Rabs (value (gp_y g)) <= 1500000.
Hypothesis BE : Rabs (value (gp_elev g)) <= 500000.

Definition cube_p (l w : Z) : R := map_to_p c s (grid_x c' s' (value (gp_x g)) H l w) (grid_y c' s' (value (gp_y g)) H l w).
Definition cube_q (l w : Z) : R := map_to_q c s (grid_x c' s' (value (gp_x g)) H l w) (grid_y c' s' (value (gp_y g)) H l w).
Definition cube_r (h : Z) : R := (grid_z (value (gp_elev g)) V h - 12800) * 4 + root.

Lemma point_octant l w h k lon lat :
  (0 <= l <= 4000000000)%Z -> (0 <= w <= 4000000000)%Z -> (0 <= h <= 4000000000)%Z ->
  IZR l * H <= root -> IZR w * H <= root -> IZR h * V <= root / 4 -> (0 <= k <= 31)%Z -> level L (resHoriz g) = Val k ->
  indexToLonLat L g l w = Val (lon, lat) ->
  / 2000 <= cube_p l w <= root - / 2000 -> / 2000 <= cube_q l w <= root - / 2000 -> / 2000 <= cube_r h <= root - / 2000 ->
  exists b, gridAddr L g (lon, lat) h = Val b /\ a_level b = k /\ a_type b = Leaf /\ octant_ok b /\
    spans_mm (a_x b) k (cube_p l w) /\ spans_mm (a_y b) k (cube_q l w) /\ spans_mm (a_z b) k (cube_r h).
Proof using HU HU' HP FV PV FH PH FX FY FE BX BY BE.
  intros Hl Hw Hh Bl Bw Bh Hk EL EI IP IQ IR.
  destruct (map_ap L g HU' FH PH FX FY BX BY l w Hl Hw Bl Bw) as (AX & AY & MX & MY).
  assert (AE := elev_ap g h Hh FV ltac:(fold V; lra) ltac:(fold V; unfold root in *; lra) FE ltac:(lra)).
  fold c' s' H in AX, AY, MX, MY. fold V in AE.
  rewrite lonlat_eq in EI. unfold invProject in EI.
  destruct (m_invproject L (grid_xf L g l w) (grid_yf L g l w)) as [[lo la]|] eqn:EI'; [|discriminate].
  injection EI as -> ->.
  set (X := grid_x c' s' (value (gp_x g)) H l w) in *. set (Y := grid_y c' s' (value (gp_y g)) H l w) in *.
  destruct AX as (VX & FX' & DX). destruct AY as (VY & FY' & DY). destruct AE as (VE & FE' & DE).
  assert (U0 : u = / 200000000) by reflexivity.
  assert (BX' : Rabs (fval (grid_xf L g l w)) <= 5000000).
  { apply Rabs_le_inv in DX. apply Rabs_le_inv in MX. apply abs_bound. lra. }
  assert (BY' : Rabs (fval (grid_yf L g l w)) <= 5000000).
  { apply Rabs_le_inv in DY. apply Rabs_le_inv in MY. apply abs_bound. lra. }
  destruct (HP _ _ _ _ (conj VX FX') (conj VY FY') BX' BY' EI') as (x2 & y2 & EP & F2x & F2y & Dx & Dy & B2x & B2y).
  assert (Ez : 0 <= IZR h * V) by (apply Rmult_le_pos; [apply IZR_le; lia | lra]).
  assert (BE' : Rabs (value (indexToElev g h)) <= 1000000).
  { apply Rabs_le_inv in DE. apply Rabs_le_inv in BE. unfold grid_z, root, value in *. apply abs_bound. lra. }
  assert (TX : Rabs (value x2 - X) <= / 10000).
  { apply Rabs_le_inv in DX. apply Rabs_le_inv in Dx. unfold value in *. apply abs_bound. lra. }
  assert (TY : Rabs (value y2 - Y) <= / 10000).
  { apply Rabs_le_inv in DY. apply Rabs_le_inv in Dy. unfold value in *. apply abs_bound. lra. }
  destruct (map_lipschitz L HU _ _ _ _ _ TX TY) as [LP LQ]. fold c s in LP, LQ.
  change (map_to_p c s X Y) with (cube_p l w) in LP. change (map_to_q c s X Y) with (cube_q l w) in LQ.
  apply Rabs_le_inv in LP. apply Rabs_le_inv in LQ.
  assert (LR : - / 1000000 <= (value (indexToElev g h) - 12800) * 4 + root - cube_r h <= / 1000000).
  { apply Rabs_le_inv in DE. unfold cube_r, value in *. lra. }
  destruct (true_location L (mkAddr 0 0 0 0 k Leaf) lon lat (indexToElev g h) x2 y2 HU Hk EP F2x F2y (conj VE FE') B2x B2y BE')
    as (b & E & El & Et & Eo & Sp); fold c s; try (unfold micron; lra).
  fold c s in Sp.
  exists b. split.
  { unfold gridAddr. rewrite EL. cbn [bind fst snd]. rewrite E. reflexivity. }
  split; [exact El|]. split; [exact Et|]. split; [exact Eo|].
  cbn [a_level] in El. rewrite El in Sp. unfold spans_mm, micron in *.
  split; [|split].
  - specialize (Sp _ _ (or_introl eq_refl)). lra.
  - specialize (Sp _ _ (or_intror (or_introl eq_refl))). lra.
  - specialize (Sp _ _ (or_intror (or_intror (or_introl eq_refl)))). lra.
Qed.

Lemma tick_unique t t' k v : (0 <= k <= 31)%Z -> (side k | t)%Z -> (side k | t')%Z -> spans_mm t k v ->
  IZR t' * tick + / 1500 <= v <= IZR (t' + side k) * tick - / 1500 -> t = t'.
Proof.
  intros Hk [a ->] [b ->] [S1 S2] [W1 W2].
  assert (T : 0 < tick) by (unfold tick, root; lra).
  assert (A1 : IZR (a * side k) < IZR (b * side k + side k)) by (apply (Rmult_lt_reg_r tick); [exact T | lra]).
  assert (A2 : IZR (b * side k) < IZR (a * side k + side k)) by (apply (Rmult_lt_reg_r tick); [exact T | lra]).
  apply lt_IZR in A1. apply lt_IZR in A2.
  assert (0 < side k)%Z by (apply Z.pow_pos_nonneg; lia).
  f_equal. nia.
Qed.

(** A grid with steps of one octant along the axes of the root cube. *)
Hypothesis AL : aligned c s c' s'.

Lemma cube_steps l w : (0 <= l)%Z -> (0 <= w)%Z -> IZR l * H <= root -> IZR w * H <= root ->
  Rabs (cube_p l w - (cube_p 0 0 - IZR l * H)) <= / 100000 /\ Rabs (cube_q l w - (cube_q 0 0 + IZR w * H)) <= / 100000.
Proof using HU PH AL.
  intros Hl Hw Bl Bw. pose proof (cb L HU) as Cb. pose proof (sb L HU) as Sb. fold c in Cb. fold s in Sb.
  destruct HU as (_ & _ & _ & _ & N). destruct AL as [A1 A2].
  apply Rabs_le_inv in N. apply Rabs_le_inv in A1. apply Rabs_le_inv in A2.
  change (value (m_cos L azR)) with c in N. change (value (m_sin L azR)) with s in N.
  assert (L0 : 0 <= IZR l * H) by (apply Rmult_le_pos; [apply IZR_le; lia | lra]).
  assert (W0 : 0 <= IZR w * H) by (apply Rmult_le_pos; [apply IZR_le; lia | lra]).
  unfold root in *. set (lh := IZR l * H) in *. set (wh := IZR w * H) in *.
  set (e2 := c' - s) in *. set (e1 := s' + c) in *.
  assert (E15 : / 10 ^ 15 <= / 10 ^ 14) by (cbn; lra).
  set (d := / 10 ^ 14) in *. assert (D0 : d = / 100000000000000) by (unfold d; cbn; lra).
  pose proof (mul_unit e1 c d A2 Cb) as M1. pose proof (mul_unit e2 s d A1 Sb) as M2.
  pose proof (mul_unit e2 c d A1 Cb) as M3. pose proof (mul_unit e1 s d A2 Sb) as M4.
  assert (G : forall a k, 0 <= a <= 1638400 -> - (3 * d) <= k <= 3 * d -> - / 200000 <= a * k <= / 200000).
  { intros a k Ha Hk.
    pose proof (mul_unit a (k / (3 * d)) 1638400 ltac:(lra)) as M.
    assert (K : -1 <= k / (3 * d) <= 1).
    { rewrite D0. lra. }
    specialize (M K). replace (a * k) with (a * (k / (3 * d)) * (3 * d)) by (field; rewrite D0; lra). rewrite D0 in *. lra. }
  split.
  - replace (cube_p l w - (cube_p 0 0 - lh)) with (lh * (e1 * c - e2 * s - (c * c + s * s - 1)) + wh * (e2 * c + e1 * s))
      by (unfold cube_p, map_to_p, grid_x, grid_y, lh, wh, e1, e2; ring).
    pose proof (G lh (e1 * c - e2 * s - (c * c + s * s - 1)) ltac:(lra) ltac:(lra)).
    pose proof (G wh (e2 * c + e1 * s) ltac:(lra) ltac:(lra)). apply abs_bound. lra.
  - replace (cube_q l w - (cube_q 0 0 + wh)) with (wh * (e2 * s - e1 * c + (c * c + s * s - 1)) + lh * (e2 * c + e1 * s))
      by (unfold cube_q, map_to_q, grid_x, grid_y, lh, wh, e1, e2; ring).
    pose proof (G wh (e2 * s - e1 * c + (c * c + s * s - 1)) ltac:(lra) ltac:(lra)).
    pose proof (G lh (e2 * c + e1 * s) ltac:(lra) ltac:(lra)). apply abs_bound. lra.
Qed.
End Cells.

(** The cell of a grid point when the grid steps over whole octants. *)
Definition step_cell (a : addr) (l w h : Z) : addr :=
  let n := side (a_level a) in mkAddr (a_x a - l * n) (a_y a + w * n) (a_z a - h * n) 0 (a_level a) Leaf.

Lemma step_ok a l w h nl nw nh : octant_ok a -> octant_ok (step_cell a (nl - 1) (nw - 1) (nh - 1)) ->
  in_grid nl nw nh l w h -> octant_ok (step_cell a l w h).
Proof.
  intros (Hk & _ & A) (_ & _ & B) (Il & Iw & Ih). cbn [step_cell a_x a_y a_z a_level In] in *.
  set (n := side (a_level a)) in *. assert (N : (0 < n)%Z) by (unfold n, side; apply Z.pow_pos_nonneg; lia).
  destruct (A (a_x a) ltac:(tauto)) as [A1 D1]. destruct (A (a_y a) ltac:(tauto)) as [A2 D2]. destruct (A (a_z a) ltac:(tauto)) as [A3 D3].
  destruct (B (a_x a - (nl - 1) * n)%Z ltac:(tauto)) as [B1 _]. destruct (B (a_y a + (nw - 1) * n)%Z ltac:(tauto)) as [B2 _].
  destruct (B (a_z a - (nh - 1) * n)%Z ltac:(tauto)) as [B3 _].
  split; [exact Hk|]. split; [reflexivity|]. cbn [step_cell a_x a_y a_z a_level In]. fold n.
  assert (DN : forall i, (n | i * n)%Z) by (intros i; exists i; reflexivity).
  assert (ML : forall i m, (0 <= i < m -> 0 <= i * n <= (m - 1) * n)%Z).
  { intros i m Hi. split; [apply Z.mul_nonneg_nonneg; lia | apply Z.mul_le_mono_nonneg_r; lia]. }
  pose proof (ML l nl Il). pose proof (ML w nw Iw). pose proof (ML h nh Ih). clear A B ML.
  intros t [<-|[<-|[<-|[]]]].
  - split; [lia | apply Z.divide_sub_r; auto].
  - split; [lia | apply Z.divide_add_r; auto].
  - split; [lia | apply Z.divide_sub_r; auto].
Qed.

Lemma shift_in a d n e v v0 : IZR d * tick = e -> IZR a * tick + / 1100 <= v0 <= IZR (a + n) * tick - / 1100 ->
  - / 100000 <= v - (v0 + e) <= / 100000 -> IZR (a + d) * tick + / 1500 <= v <= IZR (a + d + n) * tick - / 1500.
Proof. intros E H D. rewrite !plus_IZR, !Rmult_plus_distr_r in *. lra. Qed.
Lemma octant_top t k : (0 <= k <= 31)%Z -> (0 <= t < 2 ^ 31)%Z -> (side k | t)%Z -> (t + side k <= 2 ^ 31)%Z.
Proof.
  intros Hk Ht [i ->]. assert (E : (side k * 2 ^ k = 2 ^ 31)%Z) by (unfold side; rewrite <- Z.pow_add_r by lia; f_equal; lia).
  assert (N : (0 < side k)%Z) by (unfold side; apply Z.pow_pos_nonneg; lia).
  assert (i < 2 ^ k)%Z.
  { apply (Z.mul_lt_mono_pos_r (side k)); [exact N|]. rewrite (Z.mul_comm (2 ^ k)). lia. }
  rewrite <- E. replace (i * side k + side k)%Z with (side k * (i + 1))%Z by ring. apply Z.mul_le_mono_nonneg_l; lia.
Qed.

Lemma level_of_edge L eps res k : 0 <= eps <= / 256 -> (0 <= k <= 31)%Z -> finite_double res -> value res = edge k ->
  log_within eps (div64 ROOTLEN res) (m_log L (div64 ROOTLEN res)) -> log_within eps (i2f64 2) (m_log L (i2f64 2)) ->
  level L res = Val k.
Proof.
  intros He Hk Fr Er H1 H2. apply (level_correct L eps); try assumption.
  - rewrite Er. apply edge_pos.
  - assert (T : log2_ratio res = IZR k).
    { unfold log2_ratio. rewrite Er, root_edge.
      rewrite bpow_Z by lia. replace (2 ^ k)%Z with (2 ^ Z.of_nat (Z.to_nat k))%Z by (f_equal; lia).
      rewrite <- pow_IZR, ln_pow', INR_IZR_INZ, Z2Nat.id by (lra || lia).
      field. pose proof ln2_bounds. lra. }
    rewrite T. unfold GeomLevel.slack. pose proof (IZR_le 0 k ltac:(lia)).
    destruct (Z.eqb_spec k 0) as [->|]; lra.
Qed.

Lemma domain_points L g eps nl nw nh first :
  let k := a_level first in
  trig_at (m_cos L) (m_sin L) azR -> trig_at (m_cos L) (m_sin L) azimuthLen ->
  projection_inverts (m_project L) (m_invproject L) -> inverse_works (m_invproject L) ->
  0 <= eps <= / 256 -> log_within eps (div64 ROOTLEN (resHoriz g)) (m_log L (div64 ROOTLEN (resHoriz g))) ->
  log_within eps (i2f64 2) (m_log L (i2f64 2)) ->
  finite_double (gp_x g) -> finite_double (gp_y g) -> finite_double (gp_elev g) -> finite_double (gp_res g) ->
  Rabs (value (gp_x g)) <= 1500000 -> Rabs (value (gp_y g)) <= 1500000 -> Rabs (value (gp_elev g)) <= 500000 ->
  (1 <= nl)%Z -> (1 <= nw)%Z -> (1 <= nh)%Z ->
  octant_ok first -> octant_ok (step_cell first (nl - 1) (nw - 1) (nh - 1)) ->
  4 * value (gp_res g) = IZR (side k) * tick ->
  well_inside (a_x first) k (map_to_p (cos azimuth) (sin azimuth) (value (gp_x g)) (value (gp_y g))) ->
  well_inside (a_y first) k (map_to_q (cos azimuth) (sin azimuth) (value (gp_x g)) (value (gp_y g))) ->
  well_inside (a_z first) k ((value (gp_elev g) - 12800) * 4 + root) ->
  finite_double (resHoriz g) /\ value (resHoriz g) = IZR (side k) * tick /\
  grid_points (indexToLonLat L g) (gridAddr L g) nl nw nh (step_cell first).
Proof.
  intros k TR TR' HP HI He HL1 HL2 FX FY FE FV BX BY BE Nl Nw Nh O1 O2 E4 WP WQ WR.
  set (c := value (m_cos L azR)). set (s := value (m_sin L azR)).
  set (c' := value (m_cos L azimuthLen)). set (s' := value (m_sin L azimuthLen)).
  pose proof (trig_unit _ _ _ TR) as HU. pose proof (trig_unit _ _ _ TR') as HU'. pose proof (trig_aligned L TR TR') as AL. fold c s c' s' in AL.
  assert (WPQ : Rabs (map_to_p c s (value (gp_x g)) (value (gp_y g)) - map_to_p (cos azimuth) (sin azimuth) (value (gp_x g)) (value (gp_y g))) <= / 100000000 /\
     Rabs (map_to_q c s (value (gp_x g)) (value (gp_y g)) - map_to_q (cos azimuth) (sin azimuth) (value (gp_x g)) (value (gp_y g))) <= / 100000000).
  { destruct (trig_near _ _ _ _ TR azR_close) as [NC NS]. apply near_coords; try assumption; [apply HU | lra | lra]. }
  destruct WPQ as [DP DQ]. apply Rabs_le_inv in DP. apply Rabs_le_inv in DQ. unfold well_inside in WP, WQ, WR.
  assert (WP' : IZR (a_x first) * tick + / 1100 <= map_to_p c s (value (gp_x g)) (value (gp_y g)) <= IZR (a_x first + side k) * tick - / 1100) by (clear -WP DP; lra).
  assert (WQ' : IZR (a_y first) * tick + / 1100 <= map_to_q c s (value (gp_x g)) (value (gp_y g)) <= IZR (a_y first + side k) * tick - / 1100) by (clear -WQ DQ; lra).
  assert (WR' : IZR (a_z first) * tick + / 1100 <= (value (gp_elev g) - 12800) * 4 + root <= IZR (a_z first + side k) * tick - / 1100) by (clear -WR; lra).
  clear WP WQ WR DP DQ. rename WP' into WP. rename WQ' into WQ. rename WR' into WR.
  pose proof O1 as (Hk & _ & OT1). pose proof O2 as (_ & _ & OT2). fold k in Hk.
  assert (ET : IZR (side k) * tick = edge k).
  { pose proof (edge_tick k 1 Hk) as E. rewrite Z.mul_1_r in E. lra. }
  pose proof (edge_pos k) as EP.
  assert (RV : repr (gp_res g) (edge k / 4)).
  { destruct FV as [V F]. split; [exact V|]. split; [exact F|]. unfold value in E4. lra. }
  assert (RH : repr (resHoriz g) (edge k)).
  { unfold resHoriz. replace (edge k) with (edge k / 4 * 4) by field.
    apply repr_mul; [exact RV | apply (repr_int 4); lia|].
    replace (edge k / 4 * 4) with (IZR 1 * edge k) by (cbn; field). apply mult_dy; [exact Hk | lia]. }
  assert (FH : finite_double (resHoriz g)) by (split; apply RH).
  assert (EH : value (resHoriz g) = edge k) by apply RH.
  assert (EV : value (gp_res g) = edge k / 4) by apply RV.
  split; [exact FH|]. split; [rewrite EH, ET; reflexivity|].
  assert (EL : level L (resHoriz g) = Val k) by (apply (level_of_edge L eps); assumption).
  set (n := side k) in *. assert (N : (0 < n)%Z) by (unfold n, side; apply Z.pow_pos_nonneg; lia).
  assert (T : 0 < tick) by (unfold tick, root; lra).
  assert (ST : forall i, IZR (i * n) * tick = IZR i * edge k).
  { intros i. rewrite Z.mul_comm. apply edge_tick, Hk. }
  assert (RT : IZR (2 ^ 31) * tick = root) by (unfold tick, root; change (2 ^ 31)%Z with 2147483648%Z; replace (2 ^ 31) with 2147483648 by (cbn; lra); field).
  cbn [In] in OT1. fold k n in OT1.
  destruct (OT1 (a_x first) ltac:(tauto)) as [X0 XD]. destruct (OT1 (a_y first) ltac:(tauto)) as [Y0 YD]. destruct (OT1 (a_z first) ltac:(tauto)) as [Z0 ZD].
  assert (SOK : forall l w h, in_grid nl nw nh l w h -> octant_ok (step_cell first l w h)).
  { intros l w h I. eapply step_ok; eassumption. }
  (* bounds on the steps *)
  assert (SB : forall l w h, in_grid nl nw nh l w h ->
    (0 <= l <= 4000000000 /\ 0 <= w <= 4000000000 /\ 0 <= h <= 4000000000)%Z /\
    IZR l * edge k <= root /\ IZR w * edge k <= root /\ IZR h * (edge k / 4) <= root / 4).
  { intros l w h I. destruct (SOK _ _ _ I) as (_ & _ & D). destruct I as (Il & Iw & Ih).
    cbn [step_cell a_x a_y a_z a_level In] in D. fold k n in D.
    destruct (D (a_x first - l * n)%Z ltac:(tauto)) as [D1 _]. destruct (D (a_y first + w * n)%Z ltac:(tauto)) as [D2 _].
    destruct (D (a_z first - h * n)%Z ltac:(tauto)) as [D3 _].
    assert (P31 : (2 ^ 31 = 2147483648)%Z) by reflexivity.
    assert (M : forall i, (i * n < 2 ^ 31)%Z -> IZR i * edge k <= root).
    { intros i Hi. rewrite <- ST, <- RT. apply Rmult_le_compat_r; [lra|]. apply IZR_le. lia. }
    pose proof (M l ltac:(lia)). pose proof (M w ltac:(lia)). pose proof (M h ltac:(lia)).
    assert (NB : forall i, (0 <= i)%Z -> (i * n < 2 ^ 31)%Z -> (i <= 4000000000)%Z).
    { intros i I0 Hi. assert (i * 1 <= i * n)%Z by (apply Z.mul_le_mono_nonneg_l; lia). lia. }
    pose proof (NB l ltac:(lia) ltac:(lia)). pose proof (NB w ltac:(lia) ltac:(lia)). pose proof (NB h ltac:(lia) ltac:(lia)).
    split; [lia|]. clear M NB. lra. }
  assert (PT : forall l w h lon lat, in_grid nl nw nh l w h -> indexToLonLat L g l w = Val (lon, lat) ->
     gridAddr L g (lon, lat) h = Val (step_cell first l w h)).
  { intros l w h lon lat I EI. destruct (SB _ _ _ I) as ((Hl & Hw & Hh) & Bl & Bw & Bh).
    destruct (SOK _ _ _ I) as (_ & _ & D). cbn [step_cell a_x a_y a_z a_level In] in D. fold k n in D.
    destruct (D (a_x first - l * n)%Z ltac:(tauto)) as [D1 D1']. destruct (D (a_y first + w * n)%Z ltac:(tauto)) as [D2 D2'].
    destruct (D (a_z first - h * n)%Z ltac:(tauto)) as [D3 D3'].
    assert (PHH : 0 < value (resHoriz g)) by (rewrite EH; exact EP).
    assert (Z00 : forall a b, grid_x a b (value (gp_x g)) (value (resHoriz g)) 0 0 = value (gp_x g)) by (intros; unfold grid_x; ring).
    assert (Z01 : forall a b, grid_y a b (value (gp_y g)) (value (resHoriz g)) 0 0 = value (gp_y g)) by (intros; unfold grid_y; ring).
    destruct (cube_steps L g HU PHH AL l w ltac:(lia) ltac:(lia) ltac:(rewrite EH; exact Bl) ltac:(rewrite EH; exact Bw)) as [SP SQ].
    apply Rabs_le_inv in SP. apply Rabs_le_inv in SQ.
    assert (CP : cube_p L g 0 0 = map_to_p c s (value (gp_x g)) (value (gp_y g))) by (unfold cube_p; rewrite Z00, Z01; reflexivity).
    assert (CQ : cube_q L g 0 0 = map_to_q c s (value (gp_x g)) (value (gp_y g))) by (unfold cube_q; rewrite Z00, Z01; reflexivity).
    assert (CR : cube_r g h = (value (gp_elev g) - 12800) * 4 + root - IZR h * edge k) by (unfold cube_r, grid_z; rewrite EV; field).
    rewrite CP in SP. rewrite CQ in SQ. rewrite EH in SP, SQ.
    assert (TOP : forall t, (0 <= t < 2 ^ 31)%Z -> (n | t)%Z -> IZR (t + n) * tick <= root).
    { intros t Ht Dt. rewrite <- RT. apply Rmult_le_compat_r; [lra|]. apply IZR_le. apply octant_top; assumption. }
    pose proof (TOP _ D1 D1') as SX. pose proof (TOP _ D2 D2') as SY. pose proof (TOP _ D3 D3') as SZ. clear TOP.
    assert (SX0 : 0 <= IZR (a_x first - l * n) * tick) by (apply Rmult_le_pos; [apply IZR_le; lia | lra]).
    assert (SY0 : 0 <= IZR (a_y first + w * n) * tick) by (apply Rmult_le_pos; [apply IZR_le; lia | lra]).
    assert (SZ0 : 0 <= IZR (a_z first - h * n) * tick) by (apply Rmult_le_pos; [apply IZR_le; lia | lra]).
    assert (IP : IZR (a_x first - l * n) * tick + / 1500 <= cube_p L g l w <= IZR (a_x first - l * n + n) * tick - / 1500).
    { exact (shift_in (a_x first) (- (l * n)) n (- (IZR l * edge k)) _ _ ltac:(rewrite opp_IZR, <- ST; ring) WP SP). }
    assert (IQ : IZR (a_y first + w * n) * tick + / 1500 <= cube_q L g l w <= IZR (a_y first + w * n + n) * tick - / 1500).
    { exact (shift_in (a_y first) (w * n) n (IZR w * edge k) _ _ (ST w) WQ SQ). }
    assert (IR : IZR (a_z first - h * n) * tick + / 1500 <= cube_r g h <= IZR (a_z first - h * n + n) * tick - / 1500).
    { rewrite CR. refine (shift_in (a_z first) (- (h * n)) n (- (IZR h * edge k)) _ _ ltac:(rewrite opp_IZR, <- ST; ring) WR _). clear. set (b := IZR h * edge k). set (a := (_ - _) * 4 + root). lra. }
    destruct (point_octant L g HU HU' HP FV ltac:(rewrite EV; lra) FH PHH FX FY FE BX BY BE l w h k lon lat Hl Hw Hh
       ltac:(rewrite EH; exact Bl) ltac:(rewrite EH; exact Bw) ltac:(rewrite EV; exact Bh) Hk EL EI ltac:(lra) ltac:(lra) ltac:(lra))
      as (b & Eb & Lb & Tb & Ob & Sx & Sy & Sz).
    rewrite Eb. f_equal. destruct Ob as (_ & T0 & Db). rewrite Lb in Db. fold n in Db. cbn [In] in Db.
    destruct (Db (a_x b) ltac:(tauto)) as [_ Bx']. destruct (Db (a_y b) ltac:(tauto)) as [_ By']. destruct (Db (a_z b) ltac:(tauto)) as [_ Bz'].
    unfold step_cell. fold k n.
    rewrite <- (tick_unique _ _ k _ Hk Bx' D1' Sx IP), <- (tick_unique _ _ k _ Hk By' D2' Sy IQ), <- (tick_unique _ _ k _ Hk Bz' D3' Sz IR).
    rewrite <- T0, <- Lb, <- Tb. destruct b; reflexivity. }
  split; [|split].
  - intros l w Il Iw.
    assert (I0 : in_grid nl nw nh l w 0) by (repeat split; lia).
      destruct (SB _ _ _ I0) as ((Hl & Hw & _) & Bl & Bw & _).
      destruct (map_ap L g HU' FH ltac:(rewrite EH; exact EP) FX FY BX BY l w Hl Hw ltac:(rewrite EH; exact Bl) ltac:(rewrite EH; exact Bw)) as (AX & AY & MX & MY).
      destruct AX as (VX & FX' & DX). destruct AY as (VY & FY' & DY).
      assert (U0 : u = / 200000000) by reflexivity.
      assert (NN : m_invproject L (grid_xf L g l w) (grid_yf L g l w) <> None).
      { apply HI; [split; assumption | split; assumption | |].
        - apply Rabs_le_inv in DX. apply Rabs_le_inv in MX. apply abs_bound. unfold value in *. lra.
        - apply Rabs_le_inv in DY. apply Rabs_le_inv in MY. apply abs_bound. unfold value in *. lra. }
      assert (EI : exists ll, indexToLonLat L g l w = Val ll).
      { rewrite lonlat_eq. unfold invProject. destruct (m_invproject L (grid_xf L g l w) (grid_yf L g l w)) as [ll|]; [exists ll; reflexivity | congruence]. }
      destruct EI as [[lon lat] EI]. exists (lon, lat). split; [exact EI|].
      intros h Ih. apply PT; [repeat split; lia | exact EI].
  - intros l w h I. split; [apply SOK, I | reflexivity].
  - intros l w h l2 w2 h2 _ _ E. unfold step_cell in E. fold k n in E.
    assert (Ex : (a_x first - l * n = a_x first - l2 * n)%Z) by exact (f_equal a_x E).
    assert (Ey : (a_y first + w * n = a_y first + w2 * n)%Z) by exact (f_equal a_y E).
    assert (Ez : (a_z first - h * n = a_z first - h2 * n)%Z) by exact (f_equal a_z E).
    assert (MI : forall i j, (i * n = j * n)%Z -> i = j) by (intros i j Hij; apply (Z.mul_reg_r i j n); lia).
    repeat split; apply MI; lia.
Qed.
