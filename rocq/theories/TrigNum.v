(** Bounds for pi, cosines and sines by rational arithmetic; the azimuths of the model.
    Proofs only. *)
From Coq Require Import ZArith QArith Qreals Reals Ratan Machin Lra Lia.
From Flocq Require Import Core BinarySingleNaN.
From Verif Require Import Float SpecGeom Geom GeomRot.
Open Scope R_scope.

(** ** Series over the rationals *)
Fixpoint sumQ (f : nat -> Q) (n : nat) : Q :=
  match n with O => f O | S k => Qred (sumQ f k + f (S k)) end.
Lemma sumQ_R f g n : (forall i, Q2R (f i) = g i) -> Q2R (sumQ f n) = sum_f_R0 g n.
Proof.
  intros H. induction n as [|n IH]; cbn [sumQ sum_f_R0]; [apply H|].
  rewrite (Qeq_eqR _ _ (Qred_correct _)), Q2R_plus, IH, H. reflexivity.
Qed.
Fixpoint powQ (q : Q) (n : nat) : Q := match n with O => 1%Q | S k => Qred (q * powQ q k) end.
Lemma powQ_R q n : Q2R (powQ q n) = Q2R q ^ n.
Proof.
  induction n as [|n IH]; cbn [powQ pow]; [unfold Q2R; cbn; lra|].
  rewrite (Qeq_eqR _ _ (Qred_correct _)), Q2R_mult, IH. reflexivity.
Qed.
Fixpoint factZ (n : nat) : positive := match n with O => 1%positive | S k => (Pos.of_succ_nat k * factZ k)%positive end.
Lemma factZ_R n : IZR (Zpos (factZ n)) = INR (fact n).
Proof.
  induction n as [|n IH]; [reflexivity|].
  change (fact (S n)) with (S n * fact n)%nat. rewrite mult_INR, <- IH.
  cbn [factZ]. rewrite Pos2Z.inj_mul, mult_IZR, INR_IZR_INZ. reflexivity.
Qed.
Lemma over_R a p r : IZR (Zpos p) = r -> Q2R (a * (1 # p)) = Q2R a / r.
Proof. intros <-. rewrite Q2R_mult. unfold Q2R at 2. cbn [Qnum Qden]. unfold Rdiv. ring. Qed.
Lemma le_R a b : Qle_bool a b = true -> Q2R a <= Q2R b.
Proof. intros H. apply Qle_Rle, Qle_bool_iff, H. Qed.

(** ** Pi *)
Definition atanQ (q : Q) (n : nat) : Q := powQ q (2 * n + 1) * (1 # Pos.of_succ_nat (2 * n)).
Lemma atanQ_R q n : Q2R (atanQ q n) = Ratan_seq (Q2R q) n.
Proof.
  unfold atanQ, Ratan_seq. rewrite (over_R _ _ (INR (2 * n + 1))), powQ_R; [reflexivity|].
  rewrite INR_IZR_INZ, Nat.add_1_r. reflexivity.
Qed.
Definition piQ (n : nat) : Q := powQ (-1 # 1) n * (2 * atanQ (1 # 3) n + atanQ (1 # 7) n).
Lemma piQ_R n : Q2R (piQ n) = tg_alt PI_2_3_7_tg n.
Proof.
  unfold piQ, tg_alt, PI_2_3_7_tg. rewrite Q2R_mult, powQ_R, Q2R_plus, Q2R_mult, !atanQ_R.
  replace (Q2R (-1 # 1)) with (-1) by (unfold Q2R; cbn; lra). replace (Q2R 2) with 2 by (unfold Q2R; cbn; lra).
  replace (Q2R (1 # 3)) with (/ 3) by (unfold Q2R; cbn; lra). replace (Q2R (1 # 7)) with (/ 7) by (unfold Q2R; cbn; lra).
  reflexivity.
Qed.
Lemma Q2R_eq a b : Q2R (a # b) = IZR a / IZR (Zpos b).
Proof. reflexivity. Qed.
Lemma pi_bounds : 31415926535897932 / 10 ^ 16 <= PI <= 31415926535897933 / 10 ^ 16.
Proof.
  pose proof (PI_2_3_7_ineq 8) as [A B].
  change (S (2 * 8)) with 17%nat in A. change (2 * 8)%nat with 16%nat in B.
  rewrite <- (sumQ_R piQ _ 17 piQ_R) in A. rewrite <- (sumQ_R piQ _ 16 piQ_R) in B.
  assert (A' : Q2R (31415926535897932 # 40000000000000000) <= Q2R (sumQ piQ 17)) by (apply le_R; vm_compute; reflexivity).
  assert (B' : Q2R (sumQ piQ 16) <= Q2R (31415926535897933 # 40000000000000000)) by (apply le_R; vm_compute; reflexivity).
  rewrite Q2R_eq in A', B'. lra.
Qed.

(** ** Cosine and sine *)
Definition cosQ (q : Q) (n : nat) : Q := powQ (-1 # 1) n * (powQ q (2 * n) * (1 # factZ (2 * n))).
Definition sinQ (q : Q) (n : nat) : Q := powQ (-1 # 1) n * (powQ q (2 * n + 1) * (1 # factZ (2 * n + 1))).
Lemma cosQ_R q n : Q2R (cosQ q n) = cos_term (Q2R q) n.
Proof.
  unfold cosQ, cos_term. rewrite Q2R_mult, (over_R _ _ _ (factZ_R _)), !powQ_R.
  replace (Q2R (-1 # 1)) with (-1) by (unfold Q2R; cbn; lra). reflexivity.
Qed.
Lemma sinQ_R q n : Q2R (sinQ q n) = sin_term (Q2R q) n.
Proof.
  unfold sinQ, sin_term. rewrite Q2R_mult, (over_R _ _ _ (factZ_R _)), !powQ_R.
  replace (Q2R (-1 # 1)) with (-1) by (unfold Q2R; cbn; lra). reflexivity.
Qed.
Definition cos_in (q lo hi : Q) : bool := Qle_bool lo (sumQ (cosQ q) 11) && Qle_bool (sumQ (cosQ q) 12) hi.
Definition sin_in (q lo hi : Q) : bool := Qle_bool lo (sumQ (sinQ q) 11) && Qle_bool (sumQ (sinQ q) 12) hi.
Lemma cos_in_R q lo hi : cos_in q lo hi = true -> 0 <= Q2R q <= 1 -> Q2R lo <= cos (Q2R q) <= Q2R hi.
Proof.
  intros H Hq. apply andb_prop in H as [H1 H2]. apply le_R in H1, H2.
  rewrite (sumQ_R _ _ 11 (cosQ_R q)) in H1. rewrite (sumQ_R _ _ 12 (cosQ_R q)) in H2. pose proof pi_bounds.
  destruct (cos_bound (Q2R q) 5 ltac:(lra) ltac:(lra)) as [A B]. unfold cos_approx in *. cbn [Nat.mul Nat.add] in A, B. lra.
Qed.
Lemma sin_in_R q lo hi : sin_in q lo hi = true -> 0 <= Q2R q <= 1 -> Q2R lo <= sin (Q2R q) <= Q2R hi.
Proof.
  intros H Hq. apply andb_prop in H as [H1 H2]. apply le_R in H1, H2.
  rewrite (sumQ_R _ _ 11 (sinQ_R q)) in H1. rewrite (sumQ_R _ _ 12 (sinQ_R q)) in H2. pose proof pi_bounds.
  destruct (sin_bound (Q2R q) 5 ltac:(lra) ltac:(lra)) as [A B]. unfold sin_approx in *. cbn [Nat.mul Nat.add] in A, B. lra.
Qed.

Lemma sin_abs_le x : Rabs (sin x) <= Rabs x.
Proof.
  destruct (Rtotal_order x 0) as [H|[->|H]].
  - rewrite <- (Ropp_involutive x) at 1. rewrite sin_neg, Rabs_Ropp, (Rabs_left x H).
    destruct (Rle_lt_dec (- x) 1) as [K|K].
    + pose proof (sin_lt_x (- x) ltac:(lra)). pose proof pi_bounds. pose proof (sin_ge_0 (- x) ltac:(lra) ltac:(lra)).
      rewrite Rabs_right; lra.
    + pose proof (SIN_bound (- x)). apply Rabs_le. lra.
  - rewrite sin_0. lra.
  - rewrite (Rabs_right x) by lra. destruct (Rle_lt_dec x 1) as [K|K].
    + pose proof (sin_lt_x x H). pose proof pi_bounds. pose proof (sin_ge_0 x ltac:(lra) ltac:(lra)). rewrite Rabs_right; lra.
    + pose proof (SIN_bound x). apply Rabs_le. lra.
Qed.
Lemma half_prod x y d : Rabs x <= d -> Rabs (2 * sin (x / 2) * y) <= d * Rabs y.
Proof.
  intros H. rewrite !Rabs_mult, (Rabs_right 2) by lra. apply Rmult_le_compat_r; [apply Rabs_pos|].
  pose proof (sin_abs_le (x / 2)) as S. unfold Rdiv in S. rewrite Rabs_mult, (Rabs_right (/ 2)) in S by lra.
  unfold Rdiv. lra.
Qed.
Lemma cos_close a b d : Rabs (a - b) <= d -> Rabs (cos a - cos b) <= d.
Proof.
  intros H. rewrite form2. replace (-2 * sin ((a - b) / 2) * sin ((a + b) / 2)) with (2 * sin ((a - b) / 2) * - sin ((a + b) / 2)) by ring.
  eapply Rle_trans; [apply half_prod, H|].
  pose proof (SIN_bound ((a + b) / 2)). assert (Rabs (- sin ((a + b) / 2)) <= 1) by (rewrite Rabs_Ropp; apply Rabs_le; lra).
  rewrite <- (Rmult_1_r d) at 2. apply Rmult_le_compat_l; [|assumption]. pose proof (Rabs_pos (a - b)). lra.
Qed.
Lemma sin_close a b d : Rabs (a - b) <= d -> Rabs (sin a - sin b) <= d.
Proof.
  intros H. rewrite form4. replace (2 * cos ((a + b) / 2) * sin ((a - b) / 2)) with (2 * sin ((a - b) / 2) * cos ((a + b) / 2)) by ring.
  eapply Rle_trans; [apply half_prod, H|].
  pose proof (COS_bound ((a + b) / 2)). assert (Rabs (cos ((a + b) / 2)) <= 1) by (apply Rabs_le; lra).
  rewrite <- (Rmult_1_r d) at 2. apply Rmult_le_compat_l; [|assumption]. pose proof (Rabs_pos (a - b)). lra.
Qed.

(** ** The azimuths *)
Lemma dyadic s m e : (e <= 0)%Z -> SF2R radix2 (S754_finite s m e) = (if s then -1 else 1) * (IZR (Zpos m) / IZR (2 ^ (- e))).
Proof.
  intros H. unfold SF2R, F2R. cbn [cond_Zopp Fnum Fexp]. 
  replace (bpow radix2 e) with (/ IZR (2 ^ (- e))).
  - destruct s; cbn [cond_Zopp]; [rewrite opp_IZR|]; unfold Rdiv; ring.
  - rewrite <- (Z.opp_involutive e) at 2. rewrite bpow_opp, <- IZR_Zpower by lia. reflexivity.
Qed.
Lemma azR_value : value azR = IZR 8432176989851143 / IZR (2 ^ 53).
Proof.
  replace azR with (S754_finite false 8432176989851143 (-53)) by (symmetry; vm_compute; reflexivity).
  unfold value. rewrite dyadic by lia. change (- -53)%Z with 53%Z. cbv iota. lra.
Qed.
Lemma azR_close : Rabs (value azR - azimuth) <= 2 / 10 ^ 16.
Proof. rewrite azR_value. unfold azimuth. pose proof pi_bounds. apply abs_bound. cbn in *. lra. Qed.

Definition near (a b : R) : Prop := Rabs (a - b) <= 4 / 10 ^ 16.
Lemma near_of a b c : Rabs (a - b) <= / 2 ^ 53 -> Rabs (b - c) <= 2 / 10 ^ 16 -> near a c.
Proof. intros H K. apply Rabs_le_inv in H, K. apply abs_bound. cbn in *. lra. Qed.
Lemma trig_unit cosf sinf x : trig_at cosf sinf x -> unit_vector (cosf x) (sinf x).
Proof.
  intros (Fc & Fs & Bc & Bs & Dc & Ds). do 4 (split; [assumption|]).
  pose proof (sin2_cos2 (value x)) as T. unfold Rsqr in T. pose proof (COS_bound (value x)) as CB. pose proof (SIN_bound (value x)) as SB.
  set (C := cos (value x)) in *. set (S := sin (value x)) in *.
  set (e1 := value (cosf x) - C) in *. set (e2 := value (sinf x) - S) in *.
  replace (value (cosf x) * value (cosf x) + value (sinf x) * value (sinf x) - 1) with (2 * (e1 * C) + 2 * (e2 * S) + e1 * e1 + e2 * e2)
    by (unfold e1, e2; lra).
  set (d := / 2 ^ 53) in *. assert (D : 0 <= d <= 111023 / 10 ^ 21) by (unfold d; cbn; lra).
  apply Rabs_le_inv in Dc, Ds.
  assert (M : forall a b k, - k <= a <= k -> -1 <= b <= 1 -> - k <= a * b <= k).
  { intros a b k Ha Hb. apply Rabs_le_inv. rewrite Rabs_mult. rewrite <- (Rmult_1_r k).
    apply Rmult_le_compat; try apply Rabs_pos; apply Rabs_le; assumption. }
  pose proof (M e1 C d Dc ltac:(lra)). pose proof (M e2 S d Ds ltac:(lra)).
  pose proof (M e1 e1 d Dc ltac:(cbn in D; lra)). pose proof (M e2 e2 d Ds ltac:(cbn in D; lra)).
  apply abs_bound. cbn in D |- *. lra.
Qed.
Lemma trig_near cosf sinf x a : trig_at cosf sinf x -> Rabs (value x - a) <= 2 / 10 ^ 16 ->
  near (value (cosf x)) (cos a) /\ near (value (sinf x)) (sin a).
Proof.
  intros (_ & _ & _ & _ & Dc & Ds) H. split; (eapply near_of; [eassumption|]).
  - apply cos_close, H.
  - apply sin_close, H.
Qed.

(** The coordinates computed with nearly the cosine and sine of the azimuth *)
Lemma near_coords c s x y : near c (cos azimuth) -> near s (sin azimuth) -> Rabs (c * c + s * s - 1) <= / 10 ^ 15 ->
  Rabs x <= 5000000 -> Rabs y <= 5000000 ->
  Rabs (map_to_p c s x y - map_to_p (cos azimuth) (sin azimuth) x y) <= / 100000000 /\
  Rabs (map_to_q c s x y - map_to_q (cos azimuth) (sin azimuth) x y) <= / 100000000.
Proof.
  unfold near. intros Nc Ns U Bx By. pose proof (sin2_cos2 azimuth) as T. unfold Rsqr in T.
  set (C := cos azimuth) in *. set (S := sin azimuth) in *. set (e1 := c - C) in *. set (e2 := s - S) in *.
  set (t := c * c + s * s - 1) in *.
  set (X := x + 74937817 / 1000). set (Y := y - 380186124 / 1000).
  apply Rabs_le_inv in Nc, Ns, U, Bx, By.
  assert (HX : Rabs X <= 5500000) by (unfold X; apply abs_bound; lra).
  assert (HY : Rabs Y <= 5500000) by (unfold Y; apply abs_bound; lra).
  assert (M : forall a e, Rabs a <= 5500000 -> - (4 / 10 ^ 16) <= e <= 4 / 10 ^ 16 -> - (22 / 10 ^ 10) <= a * e <= 22 / 10 ^ 10).
  { intros a e Ha He. apply Rabs_le_inv. rewrite Rabs_mult. replace (22 / 10 ^ 10) with (5500000 * (4 / 10 ^ 16)) by (cbn; lra).
    apply Rmult_le_compat; try apply Rabs_pos; [exact Ha | apply Rabs_le; exact He]. }
  pose proof (M X e1 HX Nc). pose proof (M X e2 HX Ns). pose proof (M Y e1 HY Nc). pose proof (M Y e2 HY Ns).
  split.
  - replace (map_to_p c s x y - map_to_p C S x y) with (X * e1 - Y * e2 + 409600 * t - 409600 * (S * S + C * C - 1))
      by (unfold map_to_p, corner_x, corner_y, X, Y, e1, e2, t; field).
    rewrite T. apply abs_bound. cbn in *. lra.
  - replace (map_to_q c s x y - map_to_q C S x y) with (X * e2 + Y * e1 + 204800 * t - 204800 * (S * S + C * C - 1))
      by (unfold map_to_q, corner_x, corner_y, X, Y, e1, e2, t; field).
    rewrite T. apply abs_bound. cbn in *. lra.
Qed.

(** ** Computed coordinates and true ones *)
Section True.
Variables (L : libm) (x y elev : f64).
Hypothesis TR : trig_at (m_cos L) (m_sin L) azR.
Hypothesis Fx : finite_double x.
Hypothesis Fy : finite_double y.
Hypothesis Bx : Rabs (value x) <= 5000000.
Hypothesis By : Rabs (value y) <= 5000000.
Let P := map_to_p (cos azimuth) (sin azimuth) (value x) (value y).
Let Q := map_to_q (cos azimuth) (sin azimuth) (value x) (value y).
Definition dev : R := 2 / 10000000.

Lemma rot_true : (finite_double (rot_p L x y) /\ Rabs (value (rot_p L x y) - P) <= dev) /\
  (finite_double (rot_q L x y) /\ Rabs (value (rot_q L x y) - Q) <= dev).
Proof using TR Fx Fy Bx By.
  pose proof (trig_unit _ _ _ TR) as HU. destruct (trig_near _ _ _ _ TR azR_close) as [NC NS].
  destruct (near_coords _ _ (value x) (value y) NC NS ltac:(apply HU) Bx By) as [DP DQ].
  destruct (rot_ap L HU x y (conj Fx Bx) (conj Fy By)) as [(VP & FP & EP) (VQ & FQ & EQ)].
  fold P in DP. fold Q in DQ. unfold value in *.
  set (p := map_to_p _ _ _ _) in DP, EP. set (q := map_to_q _ _ _ _) in DQ, EQ.
  assert (U : 30 * u + / 100000000 <= dev) by (unfold u, dev; lra).
  apply Rabs_le_inv in DP. apply Rabs_le_inv in DQ. apply Rabs_le_inv in EP. apply Rabs_le_inv in EQ.
  split; (split; [split; assumption|]); apply abs_bound; lra.
Qed.
Lemma vert_true : finite_double elev -> Rabs (value elev) <= 1000000 ->
  finite_double (vert_r elev) /\ Rabs (value (vert_r elev) - ((value elev - 12800) * 4 + root)) <= dev.
Proof.
  intros F B. destruct (vert_ap elev F B) as (V & F' & E). split; [split; assumption|].
  eapply Rle_trans; [exact E|]. unfold u, dev. lra.
Qed.
End True.
