(** Locations and octants: the results behind C02-C07. *)
From Coq Require Import ZArith Bool Reals Lra Lia Psatz List String.
From Flocq Require Import Core BinarySingleNaN.
From Verif Require Import Outcome Float Addr SpecOct SpecGeom AddrFacts FloatFacts Geom GeomFacts.
Import ListNotations.
Open Scope R_scope.

Definition closed (c : f64) : Prop := finite_double c /\ 0 <= value c <= root.

Lemma closed_repr c : closed c -> repr c (value c).
Proof. intros [[V F] _]. split; [exact V|]. split; [exact F | reflexivity]. Qed.

Lemma root_repr : repr ROOTLEN root.
Proof. exact repr_root. Qed.

Lemma out_of_root_iff c : double c -> (out_of_root c = true <-> outside c).
Proof.
  intros V. unfold out_of_root, outside. rewrite orb_true_iff.
  destruct (is_fin c) eqn:F.
  - destruct root_repr as (Vr & Fr & Er).
    change (fgt c ROOTLEN) with (flt ROOTLEN c).
    rewrite (flt_R prec64 emax64 c f_zero V eq_refl F eq_refl).
    rewrite (flt_R prec64 emax64 ROOTLEN c Vr V Fr F). rewrite Er.
    change (SF2R radix2 f_zero) with 0. change (SF2R radix2 c) with (value c).
    split.
    + intros H. split; [exact V|]. right. right. split; [reflexivity|].
      destruct H as [H|H]; [left | right].
      * destruct (Rlt_bool_spec (value c) 0); [assumption | discriminate].
      * destruct (Rlt_bool_spec root (value c)); [assumption | discriminate].
    + intros [_ [H|[H|[_ H]]]]; [subst; discriminate..|].
      destruct H as [H|H]; [left | right]; apply Rlt_bool_true, H.
  - destruct c as [s|s| |s m e]; try discriminate.
    + split; [intros _ | intros _; destruct s; [left | right]; vm_compute; reflexivity].
      split; [exact V|]. destruct s; auto.
    + split.
      * intros [H|H]; vm_compute in H; discriminate.
      * intros [_ [H|[H|[H _]]]]; discriminate.
Qed.

Lemma closed_not_out c : closed c -> out_of_root c = false.
Proof.
  intros H. apply not_true_is_false. intros F. destruct H as [[V Fc] B].
  apply out_of_root_iff in F; [|exact V]. destruct F as [_ [F|[F|[_ F]]]]; [subst; discriminate..|lra].
Qed.

Lemma tickLen_side l : (0 <= l <= 31)%Z -> Z.shiftr 2147483648 l = side l.
Proof.
  intros H. unfold side. rewrite Z.shiftr_div_pow2 by lia.
  change 2147483648%Z with (2 ^ 31)%Z. replace (2 ^ 31)%Z with (2 ^ (31 - l) * 2 ^ l)%Z
    by (rewrite <- Z.pow_add_r by lia; f_equal; lia).
  apply Z.div_mul. apply Z.pow_nonzero; lia.
Qed.

Definition cell (l : Z) (c : f64) : Z := Zfloor (value c / edge l).

Lemma side_pow l : (0 <= l <= 31)%Z -> (side l * 2 ^ l = 2 ^ 31)%Z.
Proof. intros H. unfold side. rewrite <- Z.pow_add_r by lia. f_equal. lia. Qed.

Lemma u32_small z : (0 <= z < 2 ^ 32)%Z -> u32 z = z.
Proof. intros H. apply Z.mod_small, H. Qed.

Lemma pqr_ok a p q r : (0 <= a_level a <= 31)%Z -> closed p -> closed q -> closed r ->
  let l := a_level a in
  pqr_to_addr a p q r =
    Val (0%Z, mkAddr (side l * cell l p) (side l * cell l q) (side l * cell l r) 0 l (a_type a)) /\
  (0 <= cell l p <= 2 ^ l /\ 0 <= cell l q <= 2 ^ l /\ 0 <= cell l r <= 2 ^ l)%Z.
Proof.
  intros Hl Cp Cq Cr l. unfold pqr_to_addr. fold l.
  rewrite (closed_not_out p Cp), (closed_not_out q Cq), (closed_not_out r Cr). cbn [orb].
  destruct (f2tick_ok l Hl p _ (closed_repr p Cp) (proj2 Cp)) as [E1 B1].
  destruct (f2tick_ok l Hl q _ (closed_repr q Cq) (proj2 Cq)) as [E2 B2].
  destruct (f2tick_ok l Hl r _ (closed_repr r Cr) (proj2 Cr)) as [E3 B3].
  rewrite E1, E2, E3. cbn [bind].
  fold (cell l p) in *. fold (cell l q) in *. fold (cell l r) in *.
  rewrite tickLen_side by exact Hl.
  pose proof (side_pow l Hl) as SP.
  assert (S0 : (0 < side l)%Z) by (apply Z.pow_pos_nonneg; lia).
  rewrite !u32_small by nia. auto.
Qed.

Lemma edge_tick l k : (0 <= l <= 31)%Z -> IZR (side l * k) * tick = IZR k * edge l.
Proof.
  intros H. unfold tick, edge, root.
  assert (E : IZR (side l) = bpow radix2 31 * bpow radix2 (- l)).
  { unfold side. rewrite <- bpow_Z by lia. rewrite <- bpow_plus. f_equal. }
  rewrite mult_IZR, E. change (bpow radix2 31) with (2147483648%R).
  replace (2 ^ 31) with 2147483648 by (cbn; lra). field.
Qed.

Lemma cell_spans l c : (0 <= l <= 31)%Z -> spans (side l * cell l c) l c.
Proof.
  intros H. unfold spans. pose proof (edge_pos l) as He.
  replace (side l * cell l c + side l)%Z with (side l * (cell l c + 1))%Z by ring.
  rewrite !edge_tick by exact H. unfold cell. set (k := Zfloor (value c / edge l)).
  split.
  - apply (Rmult_le_reg_r (/ edge l)); [apply Rinv_0_lt_compat, He|].
    replace (IZR k * edge l * / edge l) with (IZR k) by (field; lra). apply Zfloor_lb.
  - apply (Rmult_lt_reg_r (/ edge l)); [apply Rinv_0_lt_compat, He|].
    replace (IZR (k + 1) * edge l * / edge l) with (IZR (k + 1)) by (field; lra).
    rewrite plus_IZR. apply Zfloor_ub.
Qed.

Lemma spans_unique l t c : (0 <= l <= 31)%Z -> (side l | t)%Z -> spans t l c -> (side l * cell l c)%Z = t.
Proof.
  intros Hl [k ->] [H1 H2]. unfold cell.
  replace (k * side l + side l)%Z with (side l * (k + 1))%Z in H2 by ring.
  rewrite Z.mul_comm in H1. rewrite edge_tick in H1, H2 by exact Hl. rewrite Z.mul_comm. f_equal.
  apply Zfloor_imp. pose proof (edge_pos l) as He. split.
  - apply (Rmult_le_reg_r (edge l)); [exact He|].
    replace (value c / edge l * edge l) with (value c) by (field; lra). exact H1.
  - apply (Rmult_lt_reg_r (edge l)); [exact He|].
    replace (value c / edge l * edge l) with (value c) by (field; lra). exact H2.
Qed.

Lemma inside_closed c : inside c -> closed c.
Proof. intros [F B]. split; [exact F | lra]. Qed.
Lemma face_closed c : on_upper_face c -> closed c.
Proof. intros [F B]. split; [exact F | rewrite B; unfold root; lra]. Qed.

Lemma root_edge l : root / edge l = bpow radix2 l.
Proof. unfold root, edge. rewrite bpow_opp. field. apply Rgt_not_eq, bpow_gt_0. Qed.

Lemma cell_inside l c : (0 <= l <= 31)%Z -> inside c -> (0 <= cell l c < 2 ^ l)%Z.
Proof.
  intros H I. destruct (pqr_ok (mkAddr 0 0 0 0 l Leaf) c c c H (inside_closed _ I) (inside_closed _ I) (inside_closed _ I))
    as [_ [B _]]. cbn [a_level] in B. split; [lia|].
  apply lt_IZR. unfold cell. apply Rle_lt_trans with (1 := Zfloor_lb _).
  rewrite <- bpow_Z by lia. rewrite <- root_edge. destruct I as [_ [_ I]].
  apply Rmult_lt_compat_r; [apply Rinv_0_lt_compat, edge_pos | exact I].
Qed.

Lemma cell_face l c : (0 <= l <= 31)%Z -> on_upper_face c -> cell l c = (2 ^ l)%Z.
Proof.
  intros H [_ E]. unfold cell. rewrite E, root_edge, bpow_Z by lia. apply Zfloor_IZR.
Qed.

Section Lib.
Variable L : libm.

(** The rotated coordinates of a location. *)
Definition coords (lon lat elev p q r : f64) : Prop :=
  exists x y, m_project L lon lat = Some (x, y) /\
    p = rot_p L x y /\ q = rot_q L x y /\ r = vert_r elev.

Lemma toAddr_eq a lon lat elev p q r : (0 <= a_level a <= 31)%Z -> coords lon lat elev p q r ->
  lonLatElevToAddr L a lon lat elev = pqr_to_addr a p q r.
Proof.
  intros Hl (x & y & E & -> & -> & ->). unfold lonLatElevToAddr.
  replace ((0 <=? a_level a) && (a_level a <? 32))%Z with true
    by (symmetry; apply andb_true_iff; split; [apply Z.leb_le | apply Z.ltb_lt]; lia).
  cbn [assert_ bind]. unfold project. rewrite E. reflexivity.
Qed.

Lemma geom_contains a lon lat elev p q r :
  (0 <= a_level a <= 31)%Z -> coords lon lat elev p q r -> inside p -> inside q -> inside r ->
  exists b, lonLatElevToAddr L a lon lat elev = Val (0%Z, b) /\
    a_level b = a_level a /\ a_type b = a_type a /\ octant_ok b /\
    spans (a_x b) (a_level b) p /\ spans (a_y b) (a_level b) q /\ spans (a_z b) (a_level b) r.
Proof.
  intros Hl Hc Ip Iq Ir. rewrite (toAddr_eq _ _ _ _ _ _ _ Hl Hc).
  destruct (pqr_ok a p q r Hl (inside_closed _ Ip) (inside_closed _ Iq) (inside_closed _ Ir)) as [E _].
  eexists. split; [exact E|]. cbn [a_level a_type a_x a_y a_z].
  set (l := a_level a) in *.
  split; [reflexivity|]. split; [reflexivity|]. split.
  - pose proof (cell_inside l p Hl Ip). pose proof (cell_inside l q Hl Iq). pose proof (cell_inside l r Hl Ir).
    pose proof (side_pow l Hl) as SP.
    assert (S0 : (0 < side l)%Z) by (apply Z.pow_pos_nonneg; lia).
    split; [exact Hl|]. split; [reflexivity|]. cbn [a_x a_y a_z a_level].
    intros c [<-|[<-|[<-|[]]]]; (split; [nia | apply Z.divide_factor_l]).
  - split; [|split]; apply cell_spans, Hl.
Qed.

Lemma geom_upper_face a lon lat elev p q r :
  (0 <= a_level a <= 31)%Z -> coords lon lat elev p q r ->
  (forall c, In c [p; q; r] -> inside c \/ on_upper_face c) ->
  exists b, lonLatElevToAddr L a lon lat elev = Val (0%Z, b) /\ a_level b = a_level a /\
    (forall c t, In (c, t) [(p, a_x b); (q, a_y b); (r, a_z b)] ->
       (on_upper_face c -> t = (2 ^ 31)%Z) /\ (inside c -> (0 <= t < 2 ^ 31)%Z /\ spans t (a_level b) c)).
Proof.
  intros Hl Hc HI. rewrite (toAddr_eq _ _ _ _ _ _ _ Hl Hc).
  assert (C : forall c, In c [p; q; r] -> closed c).
  { intros c Hin. destruct (HI c Hin); [apply inside_closed | apply face_closed]; assumption. }
  destruct (pqr_ok a p q r Hl (C p ltac:(cbn; tauto)) (C q ltac:(cbn; tauto)) (C r ltac:(cbn; tauto))) as [E _].
  eexists. split; [exact E|]. split; [reflexivity|]. cbn [a_x a_y a_z a_level].
  set (l := a_level a) in *. pose proof (side_pow l Hl) as SP.
  assert (S0 : (0 < side l)%Z) by (apply Z.pow_pos_nonneg; lia).
  intros c t Hin.
  assert (Et : t = (side l * cell l c)%Z).
  { destruct Hin as [Hin|[Hin|[Hin|[]]]]; injection Hin as <- <-; reflexivity. }
  subst t. split.
  - intros F. rewrite (cell_face l c Hl F). exact SP.
  - intros I. split; [|apply cell_spans, Hl]. pose proof (cell_inside l c Hl I). nia.
Qed.

Lemma geom_outside a lon lat elev p q r :
  (0 <= a_level a <= 31)%Z -> coords lon lat elev p q r ->
  (exists c, In c [p; q; r] /\ outside c) ->
  lonLatElevToAddr L a lon lat elev =
    Val (1%Z, mkAddr (2 ^ 32 - 1) (2 ^ 32 - 1) (2 ^ 32 - 1) 0 (a_level a) (a_type a)).
Proof.
  intros Hl Hc (c & Hin & Ho). rewrite (toAddr_eq _ _ _ _ _ _ _ Hl Hc).
  unfold pqr_to_addr.
  assert (E : out_of_root c = true) by (apply out_of_root_iff; [apply Ho | exact Ho]).
  assert (E' : out_of_root p || out_of_root q || out_of_root r = true).
  { destruct Hin as [<-|[<-|[<-|[]]]]; rewrite E; rewrite ?orb_true_r; reflexivity. }
  rewrite E'. reflexivity.
Qed.

Lemma geom_nan a lon lat elev p q r :
  (0 <= a_level a <= 31)%Z -> coords lon lat elev p q r ->
  (forall c, In c [p; q; r] -> c = S754_nan \/ inside c \/ on_upper_face c) ->
  (exists c, In c [p; q; r] /\ c = S754_nan) ->
  exists why, lonLatElevToAddr L a lon lat elev = UB why.
Proof.
  intros Hl Hc HI (c & Hin & Hn). rewrite (toAddr_eq _ _ _ _ _ _ _ Hl Hc).
  unfold pqr_to_addr. set (l := a_level a) in *.
  assert (Q : forall x, In x [p; q; r] -> out_of_root x = false /\
    (x = S754_nan \/ exists k, f2tick (div64 x (div64 ROOTLEN (i2f64 (2 ^ l)))) = Val k)).
  { intros x Hx. destruct (HI x Hx) as [->|H].
    - split; [reflexivity | left; reflexivity].
    - assert (Cx : closed x) by (destruct H; [apply inside_closed | apply face_closed]; assumption).
      split; [apply closed_not_out, Cx|]. right.
      destruct (f2tick_ok l Hl x _ (closed_repr x Cx) (proj2 Cx)) as [E _]. eexists; exact E. }
  destruct (Q p ltac:(cbn; tauto)) as [Op Tp]. destruct (Q q ltac:(cbn; tauto)) as [Oq Tq].
  destruct (Q r ltac:(cbn; tauto)) as [Or Tr]. rewrite Op, Oq, Or. cbn [orb].
  assert (N : forall d, f2tick (div64 S754_nan d) = UB "double to unsigned conversion of NaN or infinity")
    by (intros []; reflexivity).
  destruct Tp as [->|[i Ei]]; [rewrite N; eexists; reflexivity|]. rewrite Ei. cbn [bind].
  destruct Tq as [->|[j Ej]]; [rewrite N; eexists; reflexivity|]. rewrite Ej. cbn [bind].
  destruct Tr as [->|[k Ek]]; [rewrite N; eexists; reflexivity|].
  exfalso. destruct Hin as [<-|[<-|[<-|[]]]]; subst; rewrite N in *; discriminate.
Qed.

Lemma geom_bad_level a lon lat elev : ~ (0 <= a_level a <= 31)%Z ->
  lonLatElevToAddr L a lon lat elev = Abort.
Proof.
  intros H. unfold lonLatElevToAddr.
  replace ((0 <=? a_level a) && (a_level a <? 32))%Z with false; [reflexivity|].
  symmetry. apply andb_false_iff. destruct (Z.lt_ge_cases (a_level a) 0) as [F|F].
  - left. apply Z.leb_gt, F.
  - right. apply Z.ltb_ge. lia.
Qed.

(** ** Nested levels *)
Lemma Zfloor_div_pow x d : 0 <= x -> (0 <= d)%Z ->
  (Zfloor x / 2 ^ d = Zfloor (x * bpow radix2 (- d)))%Z.
Proof.
  intros Hx Hd. symmetry. apply Zfloor_imp.
  set (n := (2 ^ d)%Z). assert (N0 : (0 < n)%Z) by (apply Z.pow_pos_nonneg; lia).
  assert (Eb : bpow radix2 (- d) = / IZR n) by (rewrite bpow_opp, bpow_Z by exact Hd; reflexivity).
  rewrite Eb. assert (N0' : 0 < IZR n) by (apply IZR_lt, N0).
  pose proof (Z.div_mod (Zfloor x) n ltac:(lia)) as D. pose proof (Z.mod_pos_bound (Zfloor x) n N0) as M.
  set (k := (Zfloor x / n)%Z) in *.
  split.
  - apply (Rmult_le_reg_r (IZR n)); [exact N0'|].
    replace (x * / IZR n * IZR n) with x by (field; lra).
    apply Rle_trans with (IZR (Zfloor x)); [|apply Zfloor_lb].
    rewrite <- mult_IZR. apply IZR_le. lia.
  - apply (Rmult_lt_reg_r (IZR n)); [exact N0'|].
    replace (x * / IZR n * IZR n) with x by (field; lra).
    apply Rlt_le_trans with (IZR (Zfloor x) + 1); [apply Zfloor_ub|].
    rewrite <- plus_IZR, <- mult_IZR. apply IZR_le. nia.
Qed.

Lemma cell_nested j k c : (0 <= j <= k)%Z -> (k <= 31)%Z -> 0 <= value c ->
  floor_to (31 - j) (side k * cell k c) = (side j * cell j c)%Z.
Proof.
  intros H1 H2 Hc. unfold floor_to, side. rewrite (Z.mul_comm (2 ^ (31 - j)) (cell j c)). f_equal.
  replace (31 - j)%Z with ((31 - k) + (k - j))%Z by lia.
  rewrite Z.pow_add_r by lia. rewrite <- Z.div_div by (try apply Z.pow_nonzero; try apply Z.pow_pos_nonneg; lia).
  rewrite Z.mul_comm, Z.div_mul by (apply Z.pow_nonzero; lia).
  unfold cell. rewrite Zfloor_div_pow; [|apply Rmult_le_pos; [exact Hc | apply Rlt_le, Rinv_0_lt_compat, edge_pos] | lia].
  f_equal. unfold edge, Rdiv. rewrite !Rinv_mult, <- !bpow_opp, Rmult_assoc, Rmult_assoc.
  rewrite <- bpow_plus. do 3 f_equal. lia.
Qed.

Lemma geom_nested a b lon lat elev p q r :
  (0 <= a_level a < a_level b)%Z -> (a_level b <= 31)%Z -> coords lon lat elev p q r ->
  (forall c, In c [p; q; r] -> inside c \/ on_upper_face c) ->
  exists ca fb anc, lonLatElevToAddr L a lon lat elev = Val (0%Z, ca) /\
    lonLatElevToAddr L b lon lat elev = Val (0%Z, fb) /\
    findAncestor fb (a_level a) = Val anc /\ same_octant ca anc.
Proof.
  intros H1 H2 Hc HI.
  assert (C : forall c, In c [p; q; r] -> closed c).
  { intros c Hin. destruct (HI c Hin); [apply inside_closed | apply face_closed]; assumption. }
  rewrite (toAddr_eq a _ _ _ p q r) by (assumption || lia).
  rewrite (toAddr_eq b _ _ _ p q r) by (assumption || lia).
  destruct (pqr_ok a p q r ltac:(lia) (C p ltac:(cbn; tauto)) (C q ltac:(cbn; tauto)) (C r ltac:(cbn; tauto))) as [Ea _].
  destruct (pqr_ok b p q r ltac:(lia) (C p ltac:(cbn; tauto)) (C q ltac:(cbn; tauto)) (C r ltac:(cbn; tauto))) as [Eb Bb].
  rewrite Ea, Eb.
  pose proof (side_pow (a_level b) ltac:(lia)) as SP.
  assert (S0 : (0 < side (a_level b))%Z) by (apply Z.pow_pos_nonneg; lia).
  set (fb := mkAddr (side (a_level b) * cell (a_level b) p) (side (a_level b) * cell (a_level b) q)
    (side (a_level b) * cell (a_level b) r) 0 (a_level b) (a_type b)).
  eexists. exists fb. eexists. split; [reflexivity|]. split; [reflexivity|].
  assert (Hb : forall t, In t [a_x fb; a_y fb; a_z fb] -> (0 <= t < 2 ^ 32)%Z).
  { unfold fb; cbn [a_x a_y a_z]. intros t [<-|[<-|[<-|[]]]]; nia. }
  split; [apply findAncestor_eq; [exact H1 | unfold fb; cbn [a_level]; lia | exact Hb]|].
  unfold same_octant, fb; cbn [a_x a_y a_z a_level].
  rewrite !cell_nested by (try lia; apply C; cbn; tauto). auto.
Qed.

(** ** Elevation of the centroid *)
Lemma centroid_dy l z : (0 <= l <= 31)%Z -> (0 <= z < 2 ^ 31)%Z -> (side l | z)%Z ->
  repr (centre l z) ((IZR z + IZR (side l) / 2) * tick).
Proof.
  intros Hl Hz [k ->].
  pose proof (side_pow l Hl) as SP. assert (S0 : (0 < side l)%Z) by (apply Z.pow_pos_nonneg; lia).
  assert (Hk : (0 <= k < 2 ^ l)%Z) by nia.
  assert (L31 : (2 ^ l <= 2 ^ 31)%Z) by (apply Z.pow_le_mono_r; lia).
  assert (S31 : (side l <= 2 ^ 31)%Z) by (apply Z.pow_le_mono_r; lia).
  unfold centre. rewrite tickLen_side by exact Hl.
  assert (R1 : repr (div64 (i2f64 (k * side l)) (i2f64 (side l))) (IZR k)).
  { replace (IZR k) with (IZR (k * side l) / IZR (side l)).
    - apply repr_div; [apply repr_int; lia | apply repr_int; lia | apply Rgt_not_eq, IZR_lt, S0|].
      rewrite mult_IZR. replace (IZR k * IZR (side l) / IZR (side l)) with (IZR k)
        by (field; apply Rgt_not_eq, IZR_lt, S0). apply dy_int. lia.
    - rewrite mult_IZR. field. apply Rgt_not_eq, IZR_lt, S0. }
  assert (R2 : repr half64 (/ 2)).
  { split; [reflexivity|]. split; [reflexivity|].
    change half64 with (S754_finite false 4503599627370496 (-53)).
    unfold SF2R, F2R. cbn [Fnum Fexp cond_Zopp].
    change (bpow radix2 (-53)) with (/ 9007199254740992). lra. }
  assert (R3 := repr_add _ _ _ _ R1 R2).
  assert (D3 : dy (IZR k + / 2)).
  { exists (2 * k + 1)%Z, (-1)%Z. split; [|lia]. rewrite plus_IZR, mult_IZR.
    change (bpow radix2 (-1)) with (/ 2). field. }
  specialize (R3 D3).
  assert (R4 := repr_mul _ _ _ _ R3 (repr_res l Hl)).
  assert (Ev : (IZR (k * side l) + IZR (side l) / 2) * tick = (IZR k + / 2) * edge l).
  { pose proof (edge_tick l k Hl) as E1. pose proof (edge_tick l 1 Hl) as E2.
    rewrite Z.mul_comm in E1. rewrite Z.mul_1_r in E2.
    replace ((IZR (k * side l) + IZR (side l) / 2) * tick) with
      (IZR (k * side l) * tick + IZR (side l) * tick / 2) by field.
    rewrite E1, E2. field. }
  rewrite Ev. apply R4.
  exists ((2 * k + 1) * 1638400)%Z, (- l - 1)%Z. split.
  - unfold edge. replace (- l - 1)%Z with (-1 + - l)%Z by lia. rewrite bpow_plus.
    change (bpow radix2 (-1)) with (/ 2). rewrite mult_IZR, plus_IZR, mult_IZR. field.
  - lia.
Qed.

(** elevation of a model coordinate r *)
Definition elev_of (r : R) : R := (r - root) / 4 + 12800.

Lemma elevation_repr l z : (0 <= l <= 31)%Z -> (0 <= z < 2 ^ 31)%Z -> (side l | z)%Z ->
  let r := (IZR z + IZR (side l) / 2) * tick in
  let e := add64 (div64 (sub64 (centre l z) ROOTLEN) VERTEXAG) MAXELEV in
  repr e (elev_of r) /\ repr (vert_r e) r.
Proof.
  intros Hl Hz Hd r e. pose proof (centroid_dy l z Hl Hz Hd) as R0.
  fold r in R0. destruct Hd as [k Hk].
  pose proof (side_pow l Hl) as SP. assert (S0 : (0 < side l)%Z) by (apply Z.pow_pos_nonneg; lia).
  assert (Hk2 : (0 <= k < 2 ^ l)%Z) by nia.
  assert (L31 : (2 ^ l <= 2 ^ 31)%Z) by (apply Z.pow_le_mono_r; lia).
  assert (Er : r = IZR (2 * k + 1) * 25 * bpow radix2 (15 - l)).
  { unfold r. pose proof (edge_tick l k Hl) as E1. pose proof (edge_tick l 1 Hl) as E2.
    rewrite Z.mul_comm in E1. rewrite Z.mul_1_r in E2. rewrite Hk.
    replace ((IZR (k * side l) + IZR (side l) / 2) * tick) with
      (IZR (k * side l) * tick + IZR (side l) * tick / 2) by field.
    rewrite E1, E2. unfold edge. replace (15 - l)%Z with (15 + - l)%Z by lia.
    rewrite bpow_plus, plus_IZR, mult_IZR.
    change (bpow radix2 15) with 32768. field. }
  assert (Eroot : root = IZR (2 * 2 ^ l) * 25 * bpow radix2 (15 - l)).
  { unfold root. replace (15 - l)%Z with (15 + - l)%Z by lia.
    rewrite bpow_plus, mult_IZR, <- bpow_Z, bpow_opp by lia. change (bpow radix2 15) with 32768.
    field. apply Rgt_not_eq, bpow_gt_0. }
  assert (E128 : 12800 = IZR (2 ^ l) * 25 * 4 * bpow radix2 (15 - l) / 256).
  { replace (15 - l)%Z with (15 + - l)%Z by lia.
    rewrite bpow_plus, <- bpow_Z, bpow_opp by lia. change (bpow radix2 15) with 32768.
    field. apply Rgt_not_eq, bpow_gt_0. }
  (* r - root *)
  assert (R1 : repr (sub64 (centre l z) ROOTLEN) (r - root)).
  { apply repr_sub; [exact R0 | exact root_repr|].
    exists ((2 * k + 1 - 2 * 2 ^ l) * 25)%Z, (15 - l)%Z. split.
    - rewrite Er. rewrite Eroot at 1. repeat (rewrite ?mult_IZR, ?minus_IZR, ?plus_IZR). ring.
    - lia. }
  assert (R4 : repr VERTEXAG 4) by (apply (repr_int 4); lia).
  assert (R2 : repr (div64 (sub64 (centre l z) ROOTLEN) VERTEXAG) ((r - root) / 4)).
  { apply repr_div; [exact R1 | exact R4 | lra|].
    exists ((2 * k + 1 - 2 * 2 ^ l) * 25)%Z, (13 - l)%Z. split.
    - rewrite Er. rewrite Eroot at 1. repeat (rewrite ?mult_IZR, ?minus_IZR, ?plus_IZR).
      replace (15 - l)%Z with (2 + (13 - l))%Z by lia. rewrite bpow_plus. change (bpow radix2 2) with 4. field.
    - lia. }
  assert (RM : repr MAXELEV 12800) by (apply (repr_int 12800); lia).
  assert (R3 : repr e (elev_of r)).
  { apply repr_add; [exact R2 | exact RM|].
    exists ((2 * k + 1 - 2 * 2 ^ l) * 25 * 16 + 2 ^ l * 25)%Z, (9 - l)%Z. split.
    - rewrite Er. rewrite Eroot at 1. rewrite E128 at 1. repeat (rewrite ?mult_IZR, ?minus_IZR, ?plus_IZR).
      replace (15 - l)%Z with (6 + (9 - l))%Z by lia. rewrite bpow_plus. change (bpow radix2 6) with 64. field.
    - lia. }
  split; [exact R3|].
  assert (R5 : repr (sub64 e MAXELEV) ((r - root) / 4)).
  { replace ((r - root) / 4) with (elev_of r - 12800) by (unfold elev_of; ring).
    apply repr_sub; [exact R3 | exact RM|]. 
    replace (elev_of r - 12800) with ((r - root) / 4) by (unfold elev_of; ring).
    exists ((2 * k + 1 - 2 * 2 ^ l) * 25)%Z, (13 - l)%Z. split.
    - rewrite Er. rewrite Eroot at 1. repeat (rewrite ?mult_IZR, ?minus_IZR, ?plus_IZR).
      replace (15 - l)%Z with (2 + (13 - l))%Z by lia. rewrite bpow_plus. change (bpow radix2 2) with 4. field.
    - lia. }
  assert (R6 : repr (mul64 (sub64 e MAXELEV) VERTEXAG) (r - root)).
  { replace (r - root) with ((r - root) / 4 * 4) by field.
    apply repr_mul; [exact R5 | exact R4|]. replace ((r - root) / 4 * 4) with (r - root) by field.
    exists ((2 * k + 1 - 2 * 2 ^ l) * 25)%Z, (15 - l)%Z. split.
    - rewrite Er. rewrite Eroot at 1. repeat (rewrite ?mult_IZR, ?minus_IZR, ?plus_IZR). ring.
    - lia. }
  replace r with (r - root + root) by ring. apply repr_add; [exact R6 | exact root_repr|].
  replace (r - root + root) with r by ring. rewrite Er.
  exists ((2 * k + 1) * 25)%Z, (15 - l)%Z. split; [rewrite mult_IZR; ring | lia].
Qed.

Lemma geom_centroid a lon lat elev : octant_ok a ->
  addrToLonLatElev L a = Val (lon, lat, elev) ->
  let r := (IZR (a_z a) + IZR (side (a_level a)) / 2) * tick in
  finite_double elev /\ value elev = (r - root) / 4 + 12800 /\
  forall b lon' lat' p q, a_level b = a_level a -> coords lon' lat' elev p q (vert_r elev) ->
    inside p -> inside q ->
    exists c, lonLatElevToAddr L b lon' lat' elev = Val (0%Z, c) /\ a_z c = a_z a /\ a_level c = a_level a /\
      (spans (a_x a) (a_level a) p -> a_x c = a_x a) /\ (spans (a_y a) (a_level a) q -> a_y c = a_y a).
Proof.
  intros Ha E r.
  destruct Ha as (Hl & Ht & Hc). destruct (Hc (a_z a) ltac:(cbn; tauto)) as [Hz Hd].
  unfold addrToLonLatElev in E.
  replace ((0 <=? a_level a) && (a_level a <? 32))%Z with true in E
    by (symmetry; apply andb_true_iff; split; [apply Z.leb_le | apply Z.ltb_lt]; lia).
  cbn [assert_ bind] in E. apply bind_val in E. destruct E as ([lo la] & _ & E).
  injection E as _ _ E.
  destruct (elevation_repr (a_level a) (a_z a) Hl Hz Hd) as [R1 R2]. rewrite E in R1, R2.
  fold r in R1, R2.
  split; [split; apply R1|]. split; [apply R1|].
  intros b lon' lat' p q Hb Hco Ip Iq.
  assert (Ir : inside (vert_r elev)).
  { split; [split; apply R2|]. destruct R2 as (_ & _ & R2). unfold value. rewrite R2. unfold r.
    assert (T0 : 0 < tick) by (unfold tick, root; cbn; lra).
    assert (S0 : 0 < IZR (side (a_level a))) by (apply IZR_lt, Z.pow_pos_nonneg; lia).
    assert (Z0 : 0 <= IZR (a_z a)) by (apply IZR_le; lia).
    split; [apply Rmult_le_pos; lra|].
    pose proof (side_pow (a_level a) Hl) as SP. destruct Hd as [k Hk].
    assert (Hs : (0 < side (a_level a))%Z) by (apply Z.pow_pos_nonneg; lia).
    assert (Hm : (a_z a + side (a_level a) <= 2 ^ 31)%Z).
    { assert (k + 1 <= 2 ^ (a_level a))%Z by nia. nia. }
    apply IZR_le in Hm. rewrite plus_IZR in Hm.
    apply Rlt_le_trans with (IZR (2 ^ 31) * tick); [apply Rmult_lt_compat_r; [exact T0|]; lra|].
    unfold tick. change (IZR (2 ^ 31)) with 2147483648. replace (2 ^ 31) with 2147483648 by (cbn; lra).
    unfold root. lra. }
  assert (Hlb : (0 <= a_level b <= 31)%Z) by lia.
  rewrite (toAddr_eq b _ _ _ _ _ _ Hlb Hco).
  destruct (pqr_ok b p q (vert_r elev) Hlb (inside_closed _ Ip) (inside_closed _ Iq) (inside_closed _ Ir)) as [E1 _].
  eexists. split; [exact E1|]. cbn [a_x a_y a_z a_level].
  assert (U : forall t c, (side (a_level a) | t)%Z -> spans t (a_level a) c -> (side (a_level b) * cell (a_level b) c)%Z = t).
  { intros t c Hdt Hs. rewrite Hb. apply spans_unique; auto. }
  split; [|split; [exact Hb | split; intros Hs; apply U; try exact Hs; apply (Hc _); cbn; tauto]].
  rewrite Hb. destruct Hd as [k Hk]. 
  assert (Ec : cell (a_level a) (vert_r elev) = k).
  { unfold cell. destruct R2 as (_ & _ & R2). unfold value. rewrite R2.
    apply Zfloor_imp. pose proof (edge_pos (a_level a)) as He.
    assert (Er : r / edge (a_level a) = IZR k + / 2).
    { unfold r. pose proof (edge_tick (a_level a) k Hl) as E2. pose proof (edge_tick (a_level a) 1 Hl) as E3.
      rewrite Z.mul_comm in E2. rewrite Z.mul_1_r in E3. rewrite Hk.
      replace ((IZR (k * side (a_level a)) + IZR (side (a_level a)) / 2) * tick) with
        (IZR (k * side (a_level a)) * tick + IZR (side (a_level a)) * tick / 2) by field.
      rewrite E2, E3. field. lra. }
    rewrite Er, plus_IZR. lra. }
  rewrite Ec. lia.
Qed.
End Lib.
