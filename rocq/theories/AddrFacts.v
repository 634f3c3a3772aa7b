(** Facts about octant addresses: ancestors, paths, etree order. *)
From Coq Require Import ZArith Bool List Lia ZifyBool ZifyNat.
From Verif Require Import Outcome Addr SpecOct.
Import ListNotations.
Open Scope Z_scope.

Local Ltac Zify.zify_post_hook ::= Z.div_mod_to_equations.

(** ** Masks *)
Lemma LEFTMOSTONE_val : LEFTMOSTONE = 2 ^ 31.
Proof. reflexivity. Qed.

Lemma ancestor_mask_val k :
  0 <= k < 32 -> ancestor_mask k = 2 ^ 32 - 2 ^ (31 - k).
Proof.
  intros Hk.
  assert (H : forallb (fun n => ancestor_mask (Z.of_nat n) =? 2 ^ 32 - 2 ^ (31 - Z.of_nat n))
                (seq 0 32) = true) by (vm_compute; reflexivity).
  rewrite forallb_forall in H.
  specialize (H (Z.to_nat k)). rewrite Z2Nat.id in H by lia.
  apply Z.eqb_eq, H, in_seq. lia.
Qed.

Lemma land_mask x n m :
  0 <= n <= m -> 0 <= x < 2 ^ m ->
  Z.land x (2 ^ m - 2 ^ n) = x / 2 ^ n * 2 ^ n.
Proof.
  intros Hn Hx.
  replace (2 ^ m - 2 ^ n) with (Z.shiftl (Z.ones (m - n)) n).
  2:{ rewrite Z.shiftl_mul_pow2, Z.ones_equiv by lia.
      replace (2 ^ m) with (2 ^ (m - n) * 2 ^ n)
        by (rewrite <- Z.pow_add_r by lia; f_equal; lia).
      lia. }
  rewrite <- Z.shiftr_div_pow2, <- Z.shiftl_mul_pow2 by lia.
  apply Z.bits_inj'; intros i Hi.
  rewrite Z.land_spec.
  destruct (Z.ltb_spec i n).
  - rewrite !Z.shiftl_spec_low by lia. apply andb_false_r.
  - rewrite !Z.shiftl_spec by lia. rewrite Z.shiftr_spec by lia.
    replace (i - n + n) with i by lia.
    destruct (Z.ltb_spec i m).
    + rewrite Z.ones_spec_low by lia. apply andb_true_r.
    + rewrite Z.ones_spec_high by lia. rewrite andb_false_r.
      symmetry. destruct (Z.eq_dec x 0) as [->|Hne]; [apply Z.bits_0|].
      apply Z.bits_above_log2; [lia|].
      assert (Z.log2 x < m) by (apply Z.log2_lt_pow2; lia). lia.
Qed.

Definition floor_to (n x : Z) : Z := x / 2 ^ n * 2 ^ n.

Lemma pow2_pos n : 0 <= n -> 0 < 2 ^ n.
Proof. intros; apply Z.pow_pos_nonneg; lia. Qed.

Lemma floor_to_bounds n x : 0 <= n -> floor_to n x <= x < floor_to n x + 2 ^ n.
Proof.
  intros Hn; unfold floor_to; pose proof (pow2_pos n Hn).
  pose proof (Z.div_mod x (2 ^ n)). pose proof (Z.mod_pos_bound x (2 ^ n)). lia.
Qed.

Lemma floor_to_divide n x : (2 ^ n | floor_to n x).
Proof. exists (x / 2 ^ n); reflexivity. Qed.

Lemma floor_to_unique n x y :
  0 <= n -> (2 ^ n | y) -> y <= x < y + 2 ^ n -> floor_to n x = y.
Proof.
  intros Hn [c ->] H. unfold floor_to. pose proof (pow2_pos n Hn).
  f_equal. symmetry. apply Z.div_unique with (r := x - c * 2 ^ n); lia.
Qed.

Lemma floor_to_nonneg n x : 0 <= n -> 0 <= x -> 0 <= floor_to n x.
Proof.
  intros Hn Hx; unfold floor_to. pose proof (pow2_pos n Hn).
  apply Z.mul_nonneg_nonneg; [apply Z.div_pos|]; lia.
Qed.

Lemma pow2_divide m n : 0 <= m <= n -> (2 ^ m | 2 ^ n).
Proof.
  intros H. exists (2 ^ (n - m)). rewrite <- Z.pow_add_r by lia. f_equal; lia.
Qed.

Lemma floor_to_floor_to m n x : 0 <= m <= n -> floor_to n (floor_to m x) = floor_to n x.
Proof.
  intros H. apply floor_to_unique; [lia | apply floor_to_divide |].
  pose proof (floor_to_bounds n x ltac:(lia)).
  pose proof (floor_to_bounds m x ltac:(lia)).
  split; [|lia].
  (* floor_to n x is a multiple of 2^m below x, hence below floor_to m x *)
  destruct (floor_to_divide n x) as [c Hc].
  destruct (pow2_divide m n H) as [d Hd].
  rewrite Hc, Hd. unfold floor_to at 1.
  pose proof (pow2_pos m ltac:(lia)).
  replace (c * (d * 2 ^ m)) with (c * d * 2 ^ m) by ring.
  apply Z.mul_le_mono_nonneg_r; [lia|].
  apply Z.div_le_lower_bound; [lia|].
  rewrite Hc, Hd in H0. lia.
Qed.

(** If a multiple of 2^m with its cell [v, v+2^m) ... *)
Lemma floor_to_cell m n x :
  0 <= m <= n -> (2 ^ m | x) -> x + 2 ^ m <= floor_to n x + 2 ^ n.
Proof.
  intros H [c Hc].
  pose proof (floor_to_bounds n x ltac:(lia)).
  destruct (floor_to_divide n x) as [e He].
  destruct (pow2_divide m n H) as [d Hd].
  pose proof (pow2_pos m ltac:(lia)).
  rewrite He, Hd in *. rewrite Hc in *.
  assert (c < e * d + d) by nia. nia.
Qed.

Lemma findAncestor_eq c l :
  0 <= l < a_level c -> a_level c <= 32 ->
  (forall t, In t [a_x c; a_y c; a_z c] -> 0 <= t < 2 ^ 32) ->
  findAncestor c l =
    Val (mkAddr (floor_to (31 - l) (a_x c)) (floor_to (31 - l) (a_y c))
                (floor_to (31 - l) (a_z c)) 0 l Interior).
Proof.
  intros Hl Hc Ht. unfold findAncestor.
  replace ((0 <=? l) && (l <? a_level c)) with true by lia. cbn [assert_ bind].
  replace (32 <=? l) with false by lia.
  rewrite ancestor_mask_val by lia.
  rewrite !land_mask; try lia; try (apply Ht; simpl; tauto).
  reflexivity.
Qed.

(** ** Paths *)
Lemma path_ok_nil : path_ok [].
Proof. split; [simpl; lia | constructor]. Qed.

Lemma path_ok_app p q : path_ok (p ++ q) -> path_ok p.
Proof.
  intros [H1 H2]; rewrite app_length in H1; apply Forall_app in H2.
  split; [lia | tauto].
Qed.

Lemma ticks_app ax l p q :
  ticks ax l (p ++ q) = ticks ax l p + ticks ax (l + Z.of_nat (length p)) q.
Proof.
  revert l; induction p as [|d p IH]; intros l.
  - cbn [app ticks length]. rewrite Z.add_0_l. f_equal; lia.
  - cbn [app ticks length]. rewrite IH.
    replace (l + 1 + Z.of_nat (length p)) with (l + Z.of_nat (S (length p))) by lia. lia.
Qed.

Lemma ticks_bounds ax l p :
  0 <= l -> l + Z.of_nat (length p) <= 31 ->
  0 <= ticks ax l p /\
  ticks ax l p + 2 ^ (31 - (l + Z.of_nat (length p))) <= 2 ^ (31 - l).
Proof.
  revert l; induction p as [|d p IH]; intros l H0 H1; cbn [ticks length] in *.
  - replace (31 - (l + Z.of_nat 0)) with (31 - l) by lia. lia.
  - specialize (IH (l + 1) ltac:(lia) ltac:(lia)).
    replace (l + Z.of_nat (S (length p))) with (l + 1 + Z.of_nat (length p)) by lia.
    assert (E : 2 ^ (31 - l) = 2 * 2 ^ (31 - (l + 1))).
    { replace (31 - l) with (Z.succ (31 - (l + 1))) by lia.
      rewrite Z.pow_succ_r by lia. reflexivity. }
    pose proof (pow2_pos (31 - (l + 1)) ltac:(lia)).
    destruct (Z.testbit d ax); lia.
Qed.

Lemma ticks_divide ax l p :
  0 <= l -> l + Z.of_nat (length p) <= 31 ->
  (2 ^ (31 - (l + Z.of_nat (length p))) | ticks ax l p).
Proof.
  revert l; induction p as [|d p IH]; intros l H0 H1; cbn [ticks length] in *.
  - apply Z.divide_0_r.
  - replace (l + Z.of_nat (S (length p))) with (l + 1 + Z.of_nat (length p)) in * by lia.
    apply Z.divide_add_r; [|apply IH; lia].
    destruct (Z.testbit d ax); [apply pow2_divide; lia | apply Z.divide_0_r].
Qed.

Lemma addr_of_level p ty : a_level (addr_of p ty) = Z.of_nat (length p).
Proof. reflexivity. Qed.

Lemma addr_of_ok p ty : path_ok p -> octant_ok (addr_of p ty).
Proof.
  intros [H1 H2]. unfold octant_ok, side; cbn [addr_of a_level a_t a_x a_y a_z].
  split; [lia|]. split; [reflexivity|].
  assert (G : forall ax, 0 <= ticks ax 0 p < 2 ^ 31 /\
                         (2 ^ (31 - Z.of_nat (length p)) | ticks ax 0 p)).
  { intros ax. pose proof (ticks_bounds ax 0 p ltac:(lia) ltac:(lia)) as HB.
    pose proof (ticks_divide ax 0 p ltac:(lia) ltac:(lia)) as HD.
    rewrite Z.add_0_l in *. pose proof (pow2_pos (31 - Z.of_nat (length p)) ltac:(lia)).
    replace (31 - 0) with 31 in HB by lia. split; [lia | exact HD]. }
  intros c [<-|[<-|[<-|[]]]]; apply G.
Qed.

Lemma floor_ticks ax p q :
  (length (p ++ q) <= 31)%nat ->
  floor_to (31 - Z.of_nat (length p)) (ticks ax 0 (p ++ q)) = ticks ax 0 p.
Proof.
  rewrite app_length; intros H.
  apply floor_to_unique; [lia | |].
  - pose proof (ticks_divide ax 0 p ltac:(lia) ltac:(lia)) as HD.
    rewrite Z.add_0_l in HD; exact HD.
  - rewrite ticks_app.
    pose proof (ticks_bounds ax (0 + Z.of_nat (length p)) q ltac:(lia) ltac:(lia)).
    pose proof (pow2_pos (31 - (0 + Z.of_nat (length p) + Z.of_nat (length q))) ltac:(lia)).
    rewrite Z.add_0_l in *. lia.
Qed.

(** The code's ancestor computation follows the path. *)
Lemma findAncestor_path p q ty :
  path_ok (p ++ q) -> q <> [] ->
  findAncestor (addr_of (p ++ q) ty) (Z.of_nat (length p)) = Val (addr_of p Interior).
Proof.
  intros [H1 H2] Hq.
  assert (0 < length q)%nat by (destruct q; [congruence | simpl; lia]).
  rewrite findAncestor_eq.
  - unfold addr_of; cbn [a_x a_y a_z].
    rewrite !floor_ticks by exact H1. reflexivity.
  - rewrite addr_of_level, app_length; lia.
  - rewrite addr_of_level; lia.
  - intros t Ht. destruct (addr_of_ok (p ++ q) ty (conj H1 H2)) as [_ [_ G]].
    specialize (G t Ht). lia.
Qed.

(** ** Digits *)
Lemma testbit_ticks ax p d :
  (length (p ++ [d]) <= 31)%nat ->
  Z.testbit (ticks ax 0 (p ++ [d])) (31 - Z.of_nat (length (p ++ [d]))) = Z.testbit d ax.
Proof.
  rewrite app_length; cbn [length]; intros H.
  set (n := 31 - Z.of_nat (length p + 1)).
  rewrite ticks_app; cbn [ticks].
  replace (31 - (0 + Z.of_nat (length p) + 1)) with n by (unfold n; lia).
  pose proof (ticks_divide ax 0 p ltac:(lia) ltac:(lia)) as [c Hc].
  rewrite Hc. replace (31 - (0 + Z.of_nat (length p))) with (n + 1) by (unfold n; lia).
  assert (Hn : 0 <= n) by (unfold n; lia).
  rewrite Z.add_0_r.
  replace (c * 2 ^ (n + 1) + (if Z.testbit d ax then 2 ^ n else 0))
    with ((c * 2 + (if Z.testbit d ax then 1 else 0)) * 2 ^ n)
    by (rewrite Z.pow_add_r by lia; destruct (Z.testbit d ax); lia).
  rewrite Z.mul_pow2_bits by lia.
  replace (n - n) with 0 by lia. rewrite Z.bit0_odd.
  rewrite Z.odd_add, Z.odd_mul, andb_false_r.
  destruct (Z.testbit d ax); reflexivity.
Qed.

Lemma testbit_ticks_prefix ax p q i :
  (length (p ++ q) <= 31)%nat -> 1 <= i <= Z.of_nat (length p) ->
  Z.testbit (ticks ax 0 (p ++ q)) (31 - i) = Z.testbit (ticks ax 0 p) (31 - i).
Proof.
  intros H Hi.
  pose proof H as H'. rewrite app_length in H'.
  rewrite <- (floor_ticks ax p q H).
  unfold floor_to.
  rewrite Z.mul_pow2_bits by lia.
  rewrite Z.div_pow2_bits by lia.
  f_equal. lia.
Qed.

Lemma digit_recompose d :
  0 <= d < 8 ->
  4 * (if Z.testbit d 2 then 1 else 0) + 2 * (if Z.testbit d 1 then 1 else 0) +
  (if Z.testbit d 0 then 1 else 0) = d.
Proof.
  intros H.
  assert (E : forallb (fun n => let d := Z.of_nat n in
     (4 * (if Z.testbit d 2 then 1 else 0) + 2 * (if Z.testbit d 1 then 1 else 0) +
      (if Z.testbit d 0 then 1 else 0)) =? d) (seq 0 8) = true) by reflexivity.
  rewrite forallb_forall in E. specialize (E (Z.to_nat d)).
  cbv zeta in E. rewrite Z2Nat.id in E by lia. apply Z.eqb_eq, E, in_seq. lia.
Qed.

Lemma path_of_addr_of p ty : path_ok p -> path_of (addr_of p ty) = p.
Proof.
  intros [H1 H2]. unfold path_of. rewrite addr_of_level, Nat2Z.id.
  revert H1 H2. pattern p. apply rev_ind; clear p.
  - reflexivity.
  - intros d p IH H1 H2.
    pose proof H1 as H1'. rewrite app_length in H1'. cbn [length] in H1'.
    apply Forall_app in H2. destruct H2 as [H2 Hd]. inversion Hd as [|? ? Hd' _]; subst.
    rewrite app_length; cbn [length]. rewrite Nat.add_1_r, seq_S, map_app; cbn [map].
    f_equal.
    + rewrite <- (IH ltac:(lia) H2) at 2. apply map_ext_in. intros i Hi.
      apply in_seq in Hi. unfold digit; cbn [addr_of a_x a_y a_z].
      rewrite !testbit_ticks_prefix by (try exact H1; lia). reflexivity.
    + f_equal. unfold digit; cbn [addr_of a_x a_y a_z].
      replace (Z.of_nat (1 + length p)) with (Z.of_nat (length (p ++ [d])))
        by (rewrite app_length; cbn [length]; lia).
      rewrite !testbit_ticks by exact H1. apply digit_recompose, Hd'.
Qed.

Lemma addr_of_inj p q t1 t2 :
  path_ok p -> path_ok q -> same_octant (addr_of p t1) (addr_of q t2) -> p = q.
Proof.
  intros Hp Hq (Ex & Ey & Ez & El).
  rewrite <- (path_of_addr_of p t1 Hp), <- (path_of_addr_of q t2 Hq).
  unfold path_of. rewrite El. apply map_ext. intros i.
  unfold digit. rewrite Ex, Ey, Ez. reflexivity.
Qed.

Lemma same_key_iff a b : same_key a b = true <-> same_octant a b.
Proof. unfold same_key, same_octant. rewrite !andb_true_iff, !Z.eqb_eq. tauto. Qed.

Lemma same_key_path p q t1 t2 :
  path_ok p -> path_ok q ->
  same_key (addr_of p t1) (addr_of q t2) = true <-> p = q.
Proof.
  intros Hp Hq. rewrite same_key_iff. split.
  - apply addr_of_inj; assumption.
  - intros <-. repeat split.
Qed.

Lemma digit_range a i : 0 <= digit a i < 8.
Proof.
  unfold digit. destruct (Z.testbit (a_z a) (31 - i)), (Z.testbit (a_y a) (31 - i)),
    (Z.testbit (a_x a) (31 - i)); lia.
Qed.

Lemma path_of_ok a : octant_ok a -> path_ok (path_of a).
Proof.
  intros (Hl & _ & _). split.
  - unfold path_of. rewrite map_length, seq_length. lia.
  - unfold path_of. apply Forall_forall. intros d Hd. apply in_map_iff in Hd.
    destruct Hd as (i & <- & _). apply digit_range.
Qed.

Lemma path_of_length a : 0 <= a_level a -> Z.of_nat (length (path_of a)) = a_level a.
Proof. intros H. unfold path_of. rewrite map_length, seq_length. lia. Qed.

(** Every well-formed octant address is the address of its path. *)
Lemma testbit_digit a i :
  Z.testbit (digit a i) 0 = Z.testbit (a_x a) (31 - i) /\
  Z.testbit (digit a i) 1 = Z.testbit (a_y a) (31 - i) /\
  Z.testbit (digit a i) 2 = Z.testbit (a_z a) (31 - i).
Proof.
  unfold digit. destruct (Z.testbit (a_z a) (31 - i)), (Z.testbit (a_y a) (31 - i)),
    (Z.testbit (a_x a) (31 - i)); repeat split.
Qed.

Lemma ticks_recompose ax (f : Z -> Z) c n :
  (n <= 31)%nat ->
  (forall i, Z.testbit (f i) ax = Z.testbit c (31 - i)) ->
  0 <= c < 2 ^ 31 ->
  ticks ax 0 (map (fun i => f (Z.of_nat i)) (seq 1 n)) = floor_to (31 - Z.of_nat n) c.
Proof.
  intros Hn Hf Hc. induction n as [|n IH].
  - cbn [seq map ticks]. symmetry. apply floor_to_unique; [lia| |].
    + apply Z.divide_0_r.
    + simpl (31 - Z.of_nat 0). lia.
  - rewrite seq_S, map_app, ticks_app, IH by lia. cbn [map ticks].
    rewrite map_length, seq_length.
    replace (31 - (0 + Z.of_nat n + 1)) with (31 - Z.of_nat (S n)) by lia.
    replace (1 + n)%nat with (S n) by lia.
    rewrite Hf. set (m := 31 - Z.of_nat (S n)). replace (31 - Z.of_nat n) with (m + 1) by lia.
    rewrite Z.add_0_r. assert (0 <= m) by lia.
    unfold floor_to. rewrite Z.pow_add_r, <- Zdiv_Zdiv by (try lia; apply Z.pow_nonneg; lia).
    assert (EB : Z.b2z (Z.testbit c m) = (c / 2 ^ m) mod 2) by (apply Z.testbit_spec'; lia).
    rewrite Z.pow_1_r.
    set (v := c / 2 ^ m) in *.
    pose proof (Z.div_mod v 2 ltac:(lia)) as E.
    destruct (Z.testbit c m); cbn [Z.b2z] in EB; rewrite <- EB in E; clear EB; nia.
Qed.

Lemma addr_of_path_of a :
  octant_ok a -> addr_of (path_of a) (a_type a) = a.
Proof.
  intros (Hl & Ht & Hc).
  assert (G : forall ax c, In c [a_x a; a_y a; a_z a] ->
            (forall i, Z.testbit (digit a i) ax = Z.testbit c (31 - i)) ->
            ticks ax 0 (path_of a) = c).
  { intros ax c Hin Hb. unfold path_of.
    destruct (Hc c Hin) as [Hr Hd].
    rewrite (ticks_recompose ax (digit a) c) by (assumption || lia).
    rewrite Z2Nat.id by lia.
    apply floor_to_unique; [lia | exact Hd |].
    pose proof (pow2_pos (31 - a_level a) ltac:(lia)). lia. }
  unfold addr_of. rewrite path_of_length by lia.
  rewrite (G 0 (a_x a)), (G 1 (a_y a)), (G 2 (a_z a));
    try (simpl; tauto); try (intros i; apply testbit_digit).
  destruct a; cbn in *; subst; reflexivity.
Qed.

(** Containment of cubes is the prefix relation on paths. *)
Definition prefix (p q : list Z) : Prop := exists r, q = p ++ r.

Lemma covers_floor a b ax_a ax_b :
  0 <= a <= b -> b <= 31 ->
  (2 ^ (31 - a) | ax_a) ->
  ax_a <= ax_b -> ax_b + 2 ^ (31 - b) <= ax_a + 2 ^ (31 - a) ->
  floor_to (31 - a) ax_b = ax_a.
Proof.
  intros H1 H2 H3 H4 H5. apply floor_to_unique; [lia | assumption |].
  pose proof (pow2_pos (31 - b) ltac:(lia)). lia.
Qed.

Lemma covers_level a b :
  octant_ok a -> octant_ok b -> covers a b -> a_level a <= a_level b.
Proof.
  intros (Hl & _) (Hl' & _) (H1 & H2 & _). unfold side in *.
  destruct (Z.le_gt_cases (a_level a) (a_level b)); [assumption|].
  assert (2 ^ (31 - a_level a) < 2 ^ (31 - a_level b)) by (apply Z.pow_lt_mono_r; lia).
  lia.
Qed.

Lemma covers_prefix p q t1 t2 :
  path_ok p -> path_ok q -> covers (addr_of p t1) (addr_of q t2) <-> prefix p q.
Proof.
  intros Hp Hq. split.
  - intros HC.
    pose proof (covers_level _ _ (addr_of_ok p t1 Hp) (addr_of_ok q t2 Hq) HC) as HL.
    destruct HC as (X1 & X2 & Y1 & Y2 & Z1 & Z2).
    rewrite !addr_of_level in HL.
    unfold side in *. cbn [addr_of a_x a_y a_z a_level] in *.
    destruct Hp as [Hp1 Hp2]. destruct Hq as [Hq1 Hq2].
    rewrite <- (firstn_skipn (length p) q).
    assert (E : firstn (length p) q = p).
    { assert (Hlen : length (firstn (length p) q) = length p) by (rewrite firstn_length; lia).
      apply (addr_of_inj _ _ Leaf Leaf).
      - split; [lia|]. rewrite <- (firstn_skipn (length p) q) in Hq2.
        apply Forall_app in Hq2; tauto.
      - split; assumption.
      - assert (T : forall ax, ticks ax 0 p <= ticks ax 0 q ->
           ticks ax 0 q + 2 ^ (31 - Z.of_nat (length q)) <=
           ticks ax 0 p + 2 ^ (31 - Z.of_nat (length p)) ->
           ticks ax 0 (firstn (length p) q) = ticks ax 0 p).
        { intros ax T1 T2.
          rewrite <- (floor_ticks ax (firstn (length p) q) (skipn (length p) q))
            by (rewrite firstn_skipn; exact Hq1).
          rewrite firstn_skipn, Hlen.
          apply covers_floor with (b := Z.of_nat (length q)); try lia.
          apply (ticks_divide ax 0 p); lia. }
        repeat split; cbn [addr_of a_x a_y a_z a_level]; try (apply T; assumption).
        lia. }
    rewrite E. eexists; reflexivity.
  - intros [r ->]. destruct Hq as [Hq1 Hq2]. pose proof Hq1 as Hq1'. rewrite app_length in Hq1'.
    unfold covers, side; cbn [addr_of a_x a_y a_z a_level].
    assert (T : forall ax, ticks ax 0 p <= ticks ax 0 (p ++ r) /\
       ticks ax 0 (p ++ r) + 2 ^ (31 - Z.of_nat (length (p ++ r))) <=
       ticks ax 0 p + 2 ^ (31 - Z.of_nat (length p))).
    { intros ax. rewrite ticks_app, app_length.
      pose proof (ticks_bounds ax (0 + Z.of_nat (length p)) r ltac:(lia) ltac:(lia)) as B.
      rewrite !Z.add_0_l in *.
      replace (31 - Z.of_nat (length p + length r))
        with (31 - (Z.of_nat (length p) + Z.of_nat (length r))) by lia.
      lia. }
    repeat split; apply T.
Qed.

(** ** Lexicographic order on paths *)
Lemma path_lt_irrefl p : ~ path_lt p p.
Proof. induction p as [|d p IH]; cbn; [tauto | intros [H|[_ H]]; [lia | tauto]]. Qed.

Lemma path_lt_trans p q r : path_lt p q -> path_lt q r -> path_lt p r.
Proof.
  revert q r; induction p as [|a p IH]; intros [|b q] [|c r]; cbn; try tauto.
  intros [H|[-> H]] [H'|[-> H']]; [left; lia | left; lia | left; lia |].
  right; split; [reflexivity | eapply IH; eassumption].
Qed.

Lemma path_lt_app_l p q r : path_lt (p ++ q) (p ++ r) <-> path_lt q r.
Proof.
  induction p as [|a p IH]; cbn; [tauto|].
  split; [intros [H|[_ H]]; [lia | tauto] | intros H; right; tauto].
Qed.

Lemma prefix_lt p q : prefix p q -> p <> q -> path_lt p q.
Proof.
  intros [r ->] H. destruct r as [|d r]; [rewrite app_nil_r in H; congruence|].
  rewrite <- (app_nil_r p) at 1. apply path_lt_app_l. exact I.
Qed.

Lemma path_lt_total p q : {path_lt p q} + {p = q} + {path_lt q p}.
Proof.
  revert q; induction p as [|a p IH]; intros [|b q]; cbn.
  - left; right; reflexivity.
  - left; left; exact I.
  - right; exact I.
  - destruct (Z_dec a b) as [[H|H]|<-].
    + left; left; left; lia.
    + right; left; lia.
    + destruct (IH q) as [[H|<-]|H].
      * left; left; right; tauto.
      * left; right; reflexivity.
      * right; right; tauto.
Qed.

(** ** findAncestor on well-formed octants, stated geometrically *)
Lemma findAncestor_spec c l :
  octant_ok c -> 0 <= l < a_level c ->
  exists a, findAncestor c l = Val a /\ octant_ok a /\ a_level a = l /\
            a_type a = Interior /\ covers a c /\
            (forall b, octant_ok b -> a_level b = l -> covers b c -> same_octant a b).
Proof.
  intros Hc Hl.
  pose proof Hc as (Hlev & _ & _).
  pose proof (path_of_ok c Hc) as Hpc.
  assert (Hlen : Z.of_nat (length (path_of c)) = a_level c) by (apply path_of_length; lia).
  set (p := firstn (Z.to_nat l) (path_of c)).
  set (q := skipn (Z.to_nat l) (path_of c)).
  assert (E : path_of c = p ++ q) by (symmetry; apply firstn_skipn).
  assert (Lp : length p = Z.to_nat l) by (unfold p; rewrite firstn_length; lia).
  assert (Hq : q <> []).
  { intros F. rewrite F, app_nil_r in E. rewrite E in Hlen. lia. }
  rewrite E in Hpc. pose proof (path_ok_app _ _ Hpc) as Hp.
  exists (addr_of p Interior).
  assert (Ec : c = addr_of (p ++ q) (a_type c)) by (rewrite <- E; symmetry; apply addr_of_path_of, Hc).
  split; [|split; [|split; [|split; [|split]]]].
  - rewrite Ec at 1. replace l with (Z.of_nat (length p)) at 1 by lia.
    apply findAncestor_path; assumption.
  - apply addr_of_ok, Hp.
  - rewrite addr_of_level; lia.
  - reflexivity.
  - rewrite Ec. apply covers_prefix; try assumption. exists q; reflexivity.
  - intros b Hb Hbl HC.
    rewrite <- (addr_of_path_of b Hb) in HC |- *.
    rewrite Ec in HC. pose proof (path_of_ok b Hb) as Hpb.
    apply covers_prefix in HC; [|assumption|assumption].
    destruct HC as [r Hr].
    assert (Lb : length (path_of b) = length p).
    { pose proof (path_of_length b). lia. }
    assert (p = path_of b).
    { apply (f_equal (firstn (length p))) in Hr.
      rewrite <- Lb in Hr at 2. rewrite !firstn_app in Hr.
      rewrite !Nat.sub_diag, !firstn_all in Hr. cbn in Hr. rewrite !app_nil_r in Hr. exact Hr. }
    subst p. rewrite H. repeat split.
Qed.

(** ** findAncestor for any aligned 32-bit address *)
Lemma findAncestor_spec32 c l :
  octant32 c -> 0 <= l < a_level c ->
  exists a, findAncestor c l = Val a /\ octant32 a /\ a_level a = l /\ a_t a = 0 /\
            a_type a = Interior /\ covers a c /\
            (forall b, octant32 b -> a_level b = l -> covers b c -> same_octant a b).
Proof.
  intros (Hc & Ht) Hl.
  assert (T : forall t, In t [a_x c; a_y c; a_z c] -> 0 <= t < 2 ^ 32)
    by (intros t Hin; apply Ht, Hin).
  rewrite findAncestor_eq by (assumption || lia).
  eexists; split; [reflexivity|].
  unfold octant32, covers, same_octant, side; cbn [a_x a_y a_z a_level a_t a_type].
  assert (G : forall t, In t [a_x c; a_y c; a_z c] ->
     (0 <= floor_to (31 - l) t < 2 ^ 32 /\ (2 ^ (31 - l) | floor_to (31 - l) t)) /\
     floor_to (31 - l) t <= t /\
     t + 2 ^ (31 - a_level c) <= floor_to (31 - l) t + 2 ^ (31 - l)).
  { intros t Hin. destruct (Ht t Hin) as [H1 H2].
    pose proof (floor_to_bounds (31 - l) t ltac:(lia)).
    pose proof (floor_to_nonneg (31 - l) t ltac:(lia) ltac:(lia)).
    split; [split; [lia | apply floor_to_divide]|]. split; [lia|].
    apply floor_to_cell; [lia | exact H2]. }
  assert (Gx := G (a_x c) ltac:(simpl; tauto)).
  assert (Gy := G (a_y c) ltac:(simpl; tauto)).
  assert (Gz := G (a_z c) ltac:(simpl; tauto)).
  split; [split; [lia|]|split; [reflexivity|split; [reflexivity|split; [reflexivity|split]]]].
  - intros t [<-|[<-|[<-|[]]]]; tauto.
  - tauto.
  - intros b (_ & Hb) Hbl (X1 & X2 & Y1 & Y2 & Z1 & Z2). rewrite Hbl in *.
    repeat split; try (symmetry; assumption).
    all: apply covers_floor with (b := a_level c); try lia.
    all: apply Hb; simpl; tauto.
Qed.

Lemma findAncestor_compose c k j a :
  (forall t, In t [a_x c; a_y c; a_z c] -> 0 <= t < 2 ^ 32) -> a_level c <= 31 ->
  0 <= j < k -> findAncestor c k = Val a -> findAncestor a j = findAncestor c j.
Proof.
  intros Ht Hc Hj Ha.
  assert (Hk : 0 <= k < a_level c).
  { unfold findAncestor in Ha. apply bind_val in Ha. destruct Ha as ([] & Ha & _).
    apply assert_val in Ha. lia. }
  rewrite (findAncestor_eq c j) by (assumption || lia).
  rewrite (findAncestor_eq c k) in Ha by (assumption || lia).
  injection Ha as <-.
  rewrite findAncestor_eq; cbn [a_x a_y a_z a_level]; try lia.
  - rewrite !(floor_to_floor_to (31 - k) (31 - j)) by lia. reflexivity.
  - assert (G : forall x, In x [a_x c; a_y c; a_z c] -> 0 <= floor_to (31 - k) x < 2 ^ 32).
    { intros x Hx. specialize (Ht x Hx).
      pose proof (floor_to_bounds (31 - k) x ltac:(lia)) as B1.
      pose proof (floor_to_nonneg (31 - k) x ltac:(lia) ltac:(lia)) as B2.
      set (f := floor_to (31 - k) x) in *. clearbody f. lia. }
    intros t [<-|[<-|[<-|[]]]]; apply G; simpl; tauto.
Qed.

Lemma findAncestor_bad_level c l :
  ~ (0 <= l < a_level c) -> findAncestor c l = Abort.
Proof.
  intros H. unfold findAncestor.
  replace ((0 <=? l) && (l <? a_level c)) with false by lia. reflexivity.
Qed.
