(** Rotation between the map and the root cube: the results behind C45. *)
From Coq Require Import ZArith Bool Reals Lra Lia Psatz List String.
From Flocq Require Import Core BinarySingleNaN.
From Verif Require Import Outcome Float Addr SpecOct SpecGeom AddrFacts FloatFacts Geom GeomFacts GeomProof GeomLevel.
Import ListNotations.
Open Scope R_scope.

Local Notation fexp64 := (SpecFloat.fexp prec64 emax64).
Local Notation rnd64 := (round radix2 fexp64 (round_mode mode_NE)).

(** [x] is finite and within [e] of [r]. *)
Definition ap (x : f64) (r e : R) : Prop := valid64 x /\ is_fin x = true /\ Rabs (fval x - r) <= e.

Definition u : R := / 200000000.

Lemma ap_exact x r : repr x r -> ap x r 0.
Proof. intros (V & F & E). split; [exact V|]. split; [exact F|]. rewrite E, Rminus_eq_0, Rabs_R0. lra. Qed.
Lemma ap_self x : finite_double x -> ap x (value x) 0.
Proof. intros [V F]. split; [exact V|]. split; [exact F|]. unfold value. rewrite Rminus_eq_0, Rabs_R0. lra. Qed.
Lemma ap_weaken x r e e' : ap x r e -> e <= e' -> ap x r e'.
Proof. intros (V & F & E) H. split; [exact V|]. split; [exact F|]. lra. Qed.

Lemma round_ap v r e : Rabs (v - r) <= e -> Rabs r + e <= 20000000 -> Rabs (rnd64 v - r) <= e + u.
Proof.
  intros H B. pose proof (rnd_err v) as E.
  assert (Rabs v <= 20000000).
  { replace v with (v - r + r) by ring. eapply Rle_trans; [apply Rabs_triang|]. lra. }
  replace (rnd64 v - r) with ((rnd64 v - v) + (v - r)) by ring.
  eapply Rle_trans; [apply Rabs_triang|]. unfold u53, tiny, u in *. lra.
Qed.
Lemma bound_v v r e : Rabs (v - r) <= e -> Rabs r + e <= 20000000 -> Rabs (rnd64 v) < bpow radix2 emax64.
Proof.
  intros H B. apply rnd_bound. replace v with (v - r + r) by ring.
  eapply Rle_lt_trans; [apply Rabs_triang|]. lra.
Qed.

Lemma ap_add x y a b e1 e2 : ap x a e1 -> ap y b e2 -> Rabs (a + b) + (e1 + e2) <= 20000000 ->
  ap (add64 x y) (a + b) (e1 + e2 + u).
Proof.
  intros (V1 & F1 & E1) (V2 & F2 & E2) B.
  assert (H : Rabs (fval x + fval y - (a + b)) <= e1 + e2).
  { replace (fval x + fval y - (a + b)) with ((fval x - a) + (fval y - b)) by ring.
    eapply Rle_trans; [apply Rabs_triang|]. lra. }
  pose proof (add_round prec64 emax64 Hp64 Hm64 x y V1 V2 F1 F2) as D. cbv zeta in D.
  rewrite Rlt_bool_true in D by (eapply bound_v; eassumption). destruct D as [D1 D2].
  split; [apply (add_valid prec64 emax64 Hp64 Hm64); assumption|]. split; [exact D2|].
  unfold add64. rewrite D1. apply round_ap; assumption.
Qed.
Lemma ap_sub x y a b e1 e2 : ap x a e1 -> ap y b e2 -> Rabs (a - b) + (e1 + e2) <= 20000000 ->
  ap (sub64 x y) (a - b) (e1 + e2 + u).
Proof.
  intros (V1 & F1 & E1) (V2 & F2 & E2) B.
  assert (H : Rabs (fval x - fval y - (a - b)) <= e1 + e2).
  { replace (fval x - fval y - (a - b)) with ((fval x - a) - (fval y - b)) by ring.
    eapply Rle_trans; [apply Rabs_triang|]. rewrite Rabs_Ropp. lra. }
  pose proof (sub_round prec64 emax64 Hp64 Hm64 x y V1 V2 F1 F2) as D. cbv zeta in D.
  rewrite Rlt_bool_true in D by (eapply bound_v; eassumption). destruct D as [D1 D2].
  split; [apply (sub_valid prec64 emax64 Hp64 Hm64); assumption|]. split; [exact D2|].
  unfold sub64. rewrite D1. apply round_ap; assumption.
Qed.
Lemma ap_mul x k a e : ap x a e -> finite_double k -> Rabs (value k) <= 1 -> Rabs a + e <= 20000000 ->
  ap (mul64 x k) (a * value k) (e + u).
Proof.
  intros (V1 & F1 & E1) [V2 F2] K B.
  assert (E0 : 0 <= e) by (eapply Rle_trans; [apply Rabs_pos | exact E1]).
  assert (H : Rabs (fval x * fval k - a * value k) <= e).
  { unfold value in *. replace (fval x * fval k - a * fval k) with ((fval x - a) * fval k) by ring.
    rewrite Rabs_mult. replace e with (e * 1) by ring. apply Rmult_le_compat; try apply Rabs_pos; assumption. }
  assert (B' : Rabs (a * value k) + e <= 20000000).
  { rewrite Rabs_mult. assert (Rabs a * Rabs (value k) <= Rabs a * 1)
      by (apply Rmult_le_compat_l; [apply Rabs_pos | exact K]). lra. }
  pose proof (mul_round prec64 emax64 Hp64 Hm64 x k V1 V2 F1 F2) as D. cbv zeta in D.
  rewrite Rlt_bool_true in D by (eapply bound_v; eassumption). destruct D as [D1 D2].
  split; [apply (mul_valid prec64 emax64 Hp64 Hm64); assumption|]. split; [exact D2|].
  unfold mul64. rewrite D1. apply round_ap; assumption.
Qed.
Lemma ap_dec m : (Z.abs m < 2 ^ 53)%Z -> (Z.abs m <= 1000000000)%Z -> ap (dec64 m 3) (IZR m / 1000) u.
Proof.
  intros H H'. unfold dec64. change (10 ^ 3)%Z with 1000%Z.
  destruct (repr_int m H) as (V1 & F1 & E1). destruct (repr_int 1000 ltac:(lia)) as (V2 & F2 & E2).
  assert (B : Rabs (IZR m / 1000) <= 1000000).
  { unfold Rdiv. rewrite Rabs_mult, (Rabs_right (/ 1000)) by lra. rewrite <- abs_IZR.
    apply IZR_le in H'. lra. }
  assert (N2 : fval (i2f64 1000) <> 0) by (rewrite E2; lra).
  destruct (div_approx (i2f64 m) (i2f64 1000) V1 V2 F1 N2) as (V & F & E).
  { rewrite E1, E2. lra. }
  split; [exact V|]. split; [exact F|]. rewrite E, E1, E2.
  replace u with (0 + u) by ring. apply round_ap; [rewrite Rminus_eq_0, Rabs_R0; lra | lra].
Qed.

Lemma abs_bound a M : - M <= a <= M -> Rabs a <= M.
Proof. intros H. apply Rabs_le, H. Qed.

Section Rot.
Variable L : libm.
Notation c64 := (m_cos L azR).
Notation s64 := (m_sin L azR).
Notation c := (value c64).
Notation s := (value s64).
Hypothesis HU : unit_vector c64 s64.

Lemma cb : -1 <= c <= 1.
Proof. destruct HU as (_ & _ & H & _). apply Rabs_le_inv in H. exact H. Qed.
Lemma sb : -1 <= s <= 1.
Proof. destruct HU as (_ & _ & _ & H & _). apply Rabs_le_inv in H. exact H. Qed.

Ltac bnd := apply Rle_trans with 19000000;
  [ | lra ]; pose proof cb; pose proof sb.

Lemma corner_ap : ap (projXNWRoot L) (corner_x c s) (10 * u) /\ ap (projYNWRoot L) (corner_y c s) (10 * u).
Proof.
  destruct HU as (Fc & Fs & Hc & Hs & _). pose proof cb as Cb. pose proof sb as Sb.
  assert (X0 := ap_dec (-74937817) ltac:(lia) ltac:(lia)).
  assert (Y0 := ap_dec 380186124 ltac:(lia) ltac:(lia)).
  assert (N0 := ap_exact _ _ (repr_int 409600 ltac:(lia))).
  assert (S0 := ap_exact _ _ (repr_int 204800 ltac:(lia))).
  assert (NC := ap_mul _ _ _ _ N0 Fc Hc ltac:(rewrite Rabs_right; lra)).
  assert (NS := ap_mul _ _ _ _ N0 Fs Hs ltac:(rewrite Rabs_right; lra)).
  assert (SC := ap_mul _ _ _ _ S0 Fc Hc ltac:(rewrite Rabs_right; lra)).
  assert (SS := ap_mul _ _ _ _ S0 Fs Hs ltac:(rewrite Rabs_right; lra)).
  fold BUFFERNW in *. fold BUFFERSW in *. fold PROJXNW in X0. fold PROJYNW in Y0.
  assert (U0 : 0 <= u <= / 1000) by (unfold u; lra).
  assert (bd : forall r e, -1000000 <= r <= 1000000 -> 0 <= e <= 1 -> Rabs r + e <= 20000000).
  { intros r e Hr He. pose proof (abs_bound r 1000000 Hr). lra. }
  split.
  - assert (T1 := ap_sub _ _ _ _ _ _ X0 NC ltac:(apply bd; lra)).
    assert (T2 := ap_sub _ _ _ _ _ _ T1 SS ltac:(apply bd; lra)).
    unfold projXNWRoot, corner_x.
    replace (- (74937817 / 1000) - 409600 * c - 204800 * s) with (IZR (-74937817) / 1000 - 409600 * c - 204800 * s)
      by (change (IZR (-74937817)) with (- (74937817)); field).
    apply (ap_weaken _ _ _ _ T2). lra.
  - assert (T1 := ap_add _ _ _ _ _ _ Y0 NS ltac:(apply bd; lra)).
    assert (T2 := ap_sub _ _ _ _ _ _ T1 SC ltac:(apply bd; lra)).
    apply (ap_weaken _ _ _ _ T2). lra.
Qed.

Lemma corner_bounds : -1000000 <= corner_x c s <= 1000000 /\ -1000000 <= corner_y c s <= 1000000.
Proof. pose proof cb. pose proof sb. unfold corner_x, corner_y. lra. Qed.

Definition in_map (x : f64) : Prop := finite_double x /\ Rabs (value x) <= 5000000.

Lemma mul_unit a k M : - M <= a <= M -> -1 <= k <= 1 -> - M <= a * k <= M.
Proof.
  intros H1 H2. apply Rabs_le_inv. rewrite Rabs_mult.
  assert (Rabs a <= M) by (apply Rabs_le; exact H1). assert (Rabs k <= 1) by (apply Rabs_le; exact H2).
  replace M with (M * 1) by ring. apply Rmult_le_compat; try apply Rabs_pos; assumption.
Qed.

Lemma rot_ap x y : in_map x -> in_map y ->
  ap (rot_p L x y) (map_to_p c s (value x) (value y)) (30 * u) /\
  ap (rot_q L x y) (map_to_q c s (value x) (value y)) (30 * u).
Proof.
  intros [Fx Bx] [Fy By].
  destruct corner_ap as [CX CY]. destruct corner_bounds as [BX BY].
  destruct HU as (Fc & Fs & Hc & Hs & _). pose proof cb as Cb. pose proof sb as Sb.
  apply Rabs_le_inv in Bx. apply Rabs_le_inv in By.
  assert (U0 : 0 <= u <= / 1000) by (unfold u; lra).
  assert (bd : forall r e, -15000000 <= r <= 15000000 -> 0 <= e <= 1 -> Rabs r + e <= 20000000).
  { intros r e Hr He. pose proof (abs_bound r 15000000 Hr). lra. }
  set (cx := corner_x c s) in *. set (cy := corner_y c s) in *.
  assert (DX := ap_sub _ _ _ _ _ _ (ap_self x Fx) CX ltac:(apply bd; lra)).
  assert (DY := ap_sub _ _ _ _ _ _ (ap_self y Fy) CY ltac:(apply bd; lra)).
  assert (XC := ap_mul _ _ _ _ DX Fc Hc ltac:(apply bd; lra)).
  assert (XS := ap_mul _ _ _ _ DX Fs Hs ltac:(apply bd; lra)).
  assert (YC := ap_mul _ _ _ _ DY Fc Hc ltac:(apply bd; lra)).
  assert (YS := ap_mul _ _ _ _ DY Fs Hs ltac:(apply bd; lra)).
  pose proof (mul_unit (value x - cx) c 6000000 ltac:(lra) Cb) as B1.
  pose proof (mul_unit (value x - cx) s 6000000 ltac:(lra) Sb) as B2.
  pose proof (mul_unit (value y - cy) c 6000000 ltac:(lra) Cb) as B3.
  pose proof (mul_unit (value y - cy) s 6000000 ltac:(lra) Sb) as B4.
  assert (P := ap_sub _ _ _ _ _ _ XC YS ltac:(apply bd; lra)).
  assert (Q := ap_add _ _ _ _ _ _ XS YC ltac:(apply bd; lra)).
  split; eapply ap_weaken; [exact P | lra | exact Q | lra].
Qed.

Lemma centre_ap l t : (0 <= l <= 31)%Z -> (0 <= t < 2 ^ 31)%Z -> (side l | t)%Z ->
  repr (centre l t) (centre_of t l) /\ 0 < centre_of t l < root.
Proof.
  intros Hl Ht Hd. split; [apply centroid_dy; assumption|].
  unfold centre_of.
  assert (T0 : 0 < tick) by (unfold tick, root; cbn; lra).
  assert (S0 : 0 < IZR (side l)) by (apply IZR_lt, Z.pow_pos_nonneg; lia).
  assert (Z0 : 0 <= IZR t) by (apply IZR_le; lia).
  split; [apply Rmult_lt_0_compat; lra|].
  pose proof (side_pow l Hl) as SP. destruct Hd as [k Hk].
  assert (Hs : (0 < side l)%Z) by (apply Z.pow_pos_nonneg; lia).
  assert (Hm : (t + side l <= 2 ^ 31)%Z).
  { assert (k + 1 <= 2 ^ l)%Z by nia. nia. }
  apply IZR_le in Hm. rewrite plus_IZR in Hm.
  apply Rlt_le_trans with (IZR (2 ^ 31) * tick); [apply Rmult_lt_compat_r; [exact T0|]; lra|].
  unfold tick. change (IZR (2 ^ 31)) with 2147483648. replace (2 ^ 31) with 2147483648 by (cbn; lra).
  unfold root. lra.
Qed.

(** The map point computed for the centre of an octant. *)
Definition out_x (a : addr) : f64 :=
  add64 (add64 (projXNWRoot L) (mul64 (centre (a_level a) (a_x a)) c64)) (mul64 (centre (a_level a) (a_y a)) s64).
Definition out_y (a : addr) : f64 :=
  add64 (sub64 (projYNWRoot L) (mul64 (centre (a_level a) (a_x a)) s64)) (mul64 (centre (a_level a) (a_y a)) c64).

Lemma out_ap a : octant_ok a ->
  let p := centre_of (a_x a) (a_level a) in let q := centre_of (a_y a) (a_level a) in
  ap (out_x a) (map_x c s p q) (20 * u) /\ ap (out_y a) (map_y c s p q) (20 * u) /\
  in_map (out_x a) /\ in_map (out_y a).
Proof.
  intros (Hl & _ & Ht) p q.
  destruct (Ht (a_x a) ltac:(cbn; tauto)) as [T1 D1]. destruct (Ht (a_y a) ltac:(cbn; tauto)) as [T2 D2].
  destruct (centre_ap _ _ Hl T1 D1) as [P BP]. destruct (centre_ap _ _ Hl T2 D2) as [Q BQ].
  fold p in P, BP. fold q in Q, BQ. unfold root in BP, BQ.
  destruct corner_ap as [CX CY]. destruct corner_bounds as [BX BY].
  destruct HU as (Fc & Fs & Hc & Hs & _). pose proof cb as Cb. pose proof sb as Sb.
  assert (U0 : 0 <= u <= / 1000) by (unfold u; lra).
  assert (bd : forall r e, -15000000 <= r <= 15000000 -> 0 <= e <= 1 -> Rabs r + e <= 20000000).
  { intros r e Hr He. pose proof (abs_bound r 15000000 Hr). lra. }
  assert (PC := ap_mul _ _ _ _ (ap_exact _ _ P) Fc Hc ltac:(apply bd; lra)).
  assert (PS := ap_mul _ _ _ _ (ap_exact _ _ P) Fs Hs ltac:(apply bd; lra)).
  assert (QC := ap_mul _ _ _ _ (ap_exact _ _ Q) Fc Hc ltac:(apply bd; lra)).
  assert (QS := ap_mul _ _ _ _ (ap_exact _ _ Q) Fs Hs ltac:(apply bd; lra)).
  pose proof (mul_unit p c 1638400 ltac:(lra) Cb) as B1.
  pose proof (mul_unit p s 1638400 ltac:(lra) Sb) as B2.
  pose proof (mul_unit q c 1638400 ltac:(lra) Cb) as B3.
  pose proof (mul_unit q s 1638400 ltac:(lra) Sb) as B4.
  assert (X1 := ap_add _ _ _ _ _ _ CX PC ltac:(apply bd; lra)).
  assert (X2 := ap_add _ _ _ _ _ _ X1 QS ltac:(apply bd; lra)).
  assert (Y1 := ap_sub _ _ _ _ _ _ CY PS ltac:(apply bd; lra)).
  assert (Y2 := ap_add _ _ _ _ _ _ Y1 QC ltac:(apply bd; lra)).
  assert (A1 : ap (out_x a) (map_x c s p q) (20 * u)) by (eapply ap_weaken; [exact X2 | lra]).
  assert (A2 : ap (out_y a) (map_y c s p q) (20 * u)) by (eapply ap_weaken; [exact Y2 | lra]).
  split; [exact A1|]. split; [exact A2|].
  assert (IM : forall x r, ap x r (20 * u) -> -4900000 <= r <= 4900000 -> in_map x).
  { intros x r (V & F & E) Hr. split; [split; assumption|]. apply Rabs_le_inv in E. apply Rabs_le.
    unfold value. lra. }
  split; [eapply IM; [exact A1|] | eapply IM; [exact A2|]]; unfold map_x, map_y; lra.
Qed.

Lemma map_inverse p q : Rabs p <= 1638400 -> Rabs q <= 1638400 ->
  Rabs (map_to_p c s (map_x c s p q) (map_y c s p q) - p) <= / 100000000 /\
  Rabs (map_to_q c s (map_x c s p q) (map_y c s p q) - q) <= / 100000000.
Proof.
  intros Bp Bq. destruct HU as (_ & _ & _ & _ & N).
  assert (K : forall t, Rabs t <= 1638400 -> Rabs (t * (c * c + s * s - 1)) <= / 100000000).
  { intros t Ht. rewrite Rabs_mult. apply Rle_trans with (1638400 * / 10 ^ 15).
    - apply Rmult_le_compat; try apply Rabs_pos; assumption.
    - cbn. lra. }
  unfold map_to_p, map_to_q, map_x, map_y. split.
  - match goal with |- Rabs ?e <= _ => replace e with (p * (c * c + s * s - 1)) by ring end. apply K, Bp.
  - match goal with |- Rabs ?e <= _ => replace e with (q * (c * c + s * s - 1)) by ring end. apply K, Bq.
Qed.

Lemma map_lipschitz x y x' y' d : Rabs (x - x') <= d -> Rabs (y - y') <= d ->
  Rabs (map_to_p c s x y - map_to_p c s x' y') <= 2 * d /\
  Rabs (map_to_q c s x y - map_to_q c s x' y') <= 2 * d.
Proof.
  intros Hx Hy. pose proof cb as Cb. pose proof sb as Sb.
  apply Rabs_le_inv in Hx. apply Rabs_le_inv in Hy.
  pose proof (mul_unit (x - x') c d Hx Cb). pose proof (mul_unit (x - x') s d Hx Sb).
  pose proof (mul_unit (y - y') c d Hy Cb). pose proof (mul_unit (y - y') s d Hy Sb).
  unfold map_to_p, map_to_q. split; apply Rabs_le; lra.
Qed.

Lemma half_edge l : (0 <= l <= 31)%Z -> / 1500 <= edge l.
Proof.
  intros H. unfold edge. apply Rle_trans with (1638400 * bpow radix2 (-31)).
  - assert (E : bpow radix2 (-31) = / 2147483648) by reflexivity. rewrite E. lra.
  - apply Rmult_le_compat_l; [lra|]. apply bpow_le. lia.
Qed.

Lemma near_centre_spans a t x : (0 <= a_level a <= 31)%Z -> Rabs (value x - centre_of t (a_level a)) <= / 4000 ->
  spans t (a_level a) x.
Proof.
  intros Hl H. apply Rabs_le_inv in H. unfold spans, centre_of in *.
  pose proof (edge_tick (a_level a) 1 Hl) as E. rewrite Z.mul_1_r in E. rewrite plus_IZR.
  pose proof (half_edge (a_level a) Hl) as HE.
  rewrite Rmult_plus_distr_r in H. rewrite Rmult_plus_distr_r.
  replace (IZR (side (a_level a)) / 2 * tick) with (IZR (side (a_level a)) * tick / 2) in H by field.
  rewrite E in *. lra.
Qed.

Lemma round_trip a b lon lat elev :
  projection_inverts (m_project L) (m_invproject L) -> octant_ok a -> a_level b = a_level a ->
  addrToLonLatElev L a = Val (lon, lat, elev) ->
  lonLatElevToAddr L b lon lat elev =
    Val (0%Z, mkAddr (a_x a) (a_y a) (a_z a) 0 (a_level a) (a_type b)).
Proof.
  intros HP Ha Hb E. pose proof Ha as (Hl & Htt & Ht).
  destruct (out_ap a Ha) as (AX & AY & MX & MY).
  destruct (Ht (a_x a) ltac:(cbn; tauto)) as [T1 D1]. destruct (Ht (a_y a) ltac:(cbn; tauto)) as [T2 D2].
  destruct (Ht (a_z a) ltac:(cbn; tauto)) as [T3 D3].
  destruct (centre_ap _ _ Hl T1 D1) as [_ BP]. destruct (centre_ap _ _ Hl T2 D2) as [_ BQ].
  set (p := centre_of (a_x a) (a_level a)) in *. set (q := centre_of (a_y a) (a_level a)) in *.
  pose proof (geom_centroid L a lon lat elev Ha E) as G.
  unfold addrToLonLatElev in E.
  replace ((0 <=? a_level a) && (a_level a <? 32))%Z with true in E
    by (symmetry; apply andb_true_iff; split; [apply Z.leb_le | apply Z.ltb_lt]; lia).
  cbn [assert_ bind] in E. apply bind_val in E. destruct E as ([lo la] & E1 & E2).
  injection E2 as -> -> _. fold (out_x a) in E1. fold (out_y a) in E1. unfold invProject in E1.
  destruct (m_invproject L (out_x a) (out_y a)) as [[lo' la']|] eqn:EI; [|discriminate].
  injection E1 as -> ->.
  destruct (HP _ _ _ _ (proj1 MX) (proj1 MY) (proj2 MX) (proj2 MY) EI)
    as (x' & y' & EP & Fx & Fy & Dx & Dy & Bx & By).
  destruct (rot_ap x' y' (conj Fx Bx) (conj Fy By)) as [RP RQ].
  destruct G as (_ & _ & G).
  assert (Bp' : Rabs p <= 1638400) by (apply Rabs_le; unfold root in BP; lra).
  assert (Bq' : Rabs q <= 1638400) by (apply Rabs_le; unfold root in BQ; lra).
  destruct (map_inverse p q Bp' Bq') as [IP IQ].
  assert (DX : Rabs (value x' - map_x c s p q) <= / 15000).
  { destruct AX as (_ & _ & AX). replace (value x' - map_x c s p q) with
      ((value x' - value (out_x a)) + (fval (out_x a) - map_x c s p q)) by (unfold value; ring).
    eapply Rle_trans; [apply Rabs_triang|]. unfold u in AX. lra. }
  assert (DY : Rabs (value y' - map_y c s p q) <= / 15000).
  { destruct AY as (_ & _ & AY). replace (value y' - map_y c s p q) with
      ((value y' - value (out_y a)) + (fval (out_y a) - map_y c s p q)) by (unfold value; ring).
    eapply Rle_trans; [apply Rabs_triang|]. unfold u in AY. lra. }
  destruct (map_lipschitz _ _ _ _ _ DX DY) as [LP LQ].
  assert (NP : Rabs (value (rot_p L x' y') - p) <= / 4000).
  { destruct RP as (_ & _ & RP). unfold value at 1.
    match type of RP with Rabs (_ - ?m) <= _ => match type of LP with Rabs (_ - ?n) <= _ =>
      replace (fval (rot_p L x' y') - p) with ((fval (rot_p L x' y') - m) + (m - n) + (n - p)) by ring end end.
    eapply Rle_trans; [apply Rabs_triang|]. eapply Rle_trans; [apply Rplus_le_compat_r, Rabs_triang|].
    unfold u in RP. lra. }
  assert (NQ : Rabs (value (rot_q L x' y') - q) <= / 4000).
  { destruct RQ as (_ & _ & RQ). unfold value at 1.
    match type of RQ with Rabs (_ - ?m) <= _ => match type of LQ with Rabs (_ - ?n) <= _ =>
      replace (fval (rot_q L x' y') - q) with ((fval (rot_q L x' y') - m) + (m - n) + (n - q)) by ring end end.
    eapply Rle_trans; [apply Rabs_triang|]. eapply Rle_trans; [apply Rplus_le_compat_r, Rabs_triang|].
    unfold u in RQ. lra. }
  pose proof (near_centre_spans a _ _ Hl NP) as SP. pose proof (near_centre_spans a _ _ Hl NQ) as SQ.
  assert (INS : forall t w, (0 <= t < 2 ^ 31)%Z -> (side (a_level a) | t)%Z -> finite_double w ->
     spans t (a_level a) w -> inside w).
  { intros t w Htt' Hd Fw [S1 S2]. split; [exact Fw|].
    assert (T0 : 0 < tick) by (unfold tick, root; cbn; lra).
    assert (0 <= IZR t) by (apply IZR_le; lia). split; [eapply Rle_trans; [|exact S1]; apply Rmult_le_pos; lra|].
    eapply Rlt_le_trans; [exact S2|]. pose proof (side_pow (a_level a) Hl) as SPw.
    assert (Hs : (0 < side (a_level a))%Z) by (apply Z.pow_pos_nonneg; lia).
    destruct Hd as [k Hk]. assert (Hm : (t + side (a_level a) <= 2 ^ 31)%Z).
    { assert (k + 1 <= 2 ^ (a_level a))%Z by nia. nia. }
    apply IZR_le in Hm. apply Rle_trans with (IZR (2 ^ 31) * tick); [apply Rmult_le_compat_r; lra|].
    unfold tick. change (IZR (2 ^ 31)) with 2147483648. replace (2 ^ 31) with 2147483648 by (cbn; lra).
    unfold root. lra. }
  assert (FP : finite_double (rot_p L x' y')) by (split; apply RP).
  assert (FQ : finite_double (rot_q L x' y')) by (split; apply RQ).
  assert (CO : coords L lon lat elev (rot_p L x' y') (rot_q L x' y') (vert_r elev)).
  { exists x', y'. auto. }
  destruct (G b lon lat _ _ Hb CO (INS _ _ T1 D1 FP SP) (INS _ _ T2 D2 FQ SQ)) as (r & Er & Ez & El & Ex & Ey).
  rewrite Er. f_equal. f_equal.
  assert (Hlb : (0 <= a_level b <= 31)%Z) by lia.
  rewrite (toAddr_eq L b _ _ _ _ _ _ Hlb CO) in Er. unfold pqr_to_addr in Er.
  destruct (_ || _); [discriminate|].
  apply bind_val in Er. destruct Er as (i & _ & Er). apply bind_val in Er. destruct Er as (j & _ & Er).
  apply bind_val in Er. destruct Er as (k & _ & Er). injection Er as <-.
  cbn [a_x a_y a_z a_level] in *. f_equal; auto.
Qed.
End Rot.

Lemma vert_ap elev : finite_double elev -> Rabs (value elev) <= 1000000 ->
  ap (vert_r elev) ((value elev - 12800) * 4 + root) (6 * u).
Proof.
  intros Fe Be. apply Rabs_le_inv in Be.
  assert (U0 : 0 <= u <= / 1000) by (unfold u; lra).
  assert (bd : forall r e, -15000000 <= r <= 15000000 -> 0 <= e <= 1 -> Rabs r + e <= 20000000).
  { intros r e Hr He. pose proof (abs_bound r 15000000 Hr). lra. }
  assert (M := ap_exact _ _ (repr_int 12800 ltac:(lia))). fold MAXELEV in M.
  assert (S := ap_sub _ _ _ _ _ _ (ap_self _ Fe) M ltac:(apply bd; lra)).
  assert (T : ap (mul64 (sub64 elev MAXELEV) VERTEXAG) ((value elev - 12800) * 4) (5 * u)).
  { destruct S as (V1 & F1 & E1). destruct (repr_int 4 ltac:(lia)) as (V2 & F2 & E2).
    fold VERTEXAG in V2, F2, E2.
    assert (H : Rabs (fval (sub64 elev MAXELEV) * fval VERTEXAG - (value elev - 12800) * 4) <= 4 * u).
    { rewrite E2. match goal with |- Rabs ?e <= _ =>
        replace e with ((fval (sub64 elev MAXELEV) - (value elev - 12800)) * 4) by ring end.
      rewrite Rabs_mult, (Rabs_right 4) by lra. lra. }
    assert (B : Rabs ((value elev - 12800) * 4) + 4 * u <= 20000000) by (apply bd; lra).
    pose proof (mul_round prec64 emax64 Hp64 Hm64 _ _ V1 V2 F1 F2) as D. cbv zeta in D.
    rewrite Rlt_bool_true in D by (eapply bound_v; eassumption). destruct D as [D1 D2].
    split; [apply (mul_valid prec64 emax64 Hp64 Hm64); assumption|]. split; [exact D2|].
    unfold mul64. rewrite D1. replace (5 * u) with (4 * u + u) by ring. apply round_ap; assumption. }
  assert (R := ap_add _ _ _ _ _ _ T (ap_exact _ _ root_repr) ltac:(apply bd; unfold root; lra)).
  eapply ap_weaken; [exact R | lra].
Qed.

Definition micron : R := / 1000000.

Lemma true_location L a lon lat elev x y :
  let c := value (m_cos L azR) in let s := value (m_sin L azR) in
  unit_vector (m_cos L azR) (m_sin L azR) -> (0 <= a_level a <= 31)%Z ->
  m_project L lon lat = Some (x, y) -> finite_double x -> finite_double y -> finite_double elev ->
  Rabs (value x) <= 5000000 -> Rabs (value y) <= 5000000 -> Rabs (value elev) <= 1000000 ->
  let P := map_to_p c s (value x) (value y) in
  let Q := map_to_q c s (value x) (value y) in
  let R := (value elev - 12800) * 4 + root in
  micron <= P < root - micron -> micron <= Q < root - micron -> micron <= R < root - micron ->
  exists b, lonLatElevToAddr L a lon lat elev = Val (0%Z, b) /\
    a_level b = a_level a /\ a_type b = a_type a /\ octant_ok b /\
    forall t v, In (t, v) [(a_x b, P); (a_y b, Q); (a_z b, R)] ->
      IZR t * tick - micron <= v < IZR (t + side (a_level b)) * tick + micron.
Proof.
  intros c s HU Hl EP Fx Fy Fe Bx By Be P Q R IP IQ IR.
  destruct (rot_ap L HU x y (conj Fx Bx) (conj Fy By)) as [AP AQ].
  pose proof (vert_ap elev Fe Be) as AR. fold c s in AP, AQ. fold P in AP. fold Q in AQ. fold R in AR.
  assert (U : 30 * u <= micron) by (unfold u, micron; lra).
  assert (U' : 0 <= u) by (unfold u; lra).
  assert (INS : forall w v, ap w v (30 * u) -> micron <= v < root - micron -> inside w).
  { intros w v (V & F & E) Hv. split; [split; assumption|]. apply Rabs_le_inv in E. unfold value. lra. }
  assert (AR' : ap (vert_r elev) R (30 * u)) by (eapply ap_weaken; [exact AR | lra]).
  destruct (geom_contains L a lon lat elev _ _ _ Hl
     (ex_intro _ x (ex_intro _ y (conj EP (conj eq_refl (conj eq_refl eq_refl)))))
     (INS _ _ AP IP) (INS _ _ AQ IQ) (INS _ _ AR' IR)) as (b & E & El & Et & Eo & SX & SY & SZ).
  exists b. split; [exact E|]. split; [exact El|]. split; [exact Et|]. split; [exact Eo|].
  assert (K : forall t w v, spans t (a_level b) w -> ap w v (30 * u) ->
    IZR t * tick - micron <= v < IZR (t + side (a_level b)) * tick + micron).
  { intros t w v [S1 S2] (_ & _ & Ea). apply Rabs_le_inv in Ea. unfold value in *. lra. }
  intros t v [H|[H|[H|[]]]]; injection H as <- <-; eapply K; eassumption.
Qed.
