(** Proofs for C86: two databases with the same octants. *)
From Coq Require Import ZArith Bool Reals Lra Lia Psatz Sorting.Sorted List.
From Flocq Require Import Core BinarySingleNaN.
From Verif Require Import Outcome Float Payload Addr SpecOct SpecAvg SpecQuery SpecE2E SpecRange SpecRaise FloatFacts AddrFacts AvgBounds AvgProof E2EFacts
  RangeFacts RangeTree.
Import ListNotations.
Open Scope R_scope.

Local Notation rnd32 := (round radix2 (SpecFloat.fexp prec32 emax32) (round_mode mode_NE)).

Lemma same_length {A B} (R : A -> B -> Prop) l l' : Forall2 R l l' -> length l = length l'.
Proof. induction 1; cbn [length]; congruence. Qed.

(** ** Single-precision sums and quotients are monotonic *)
Lemma add_value x y : valid32 x -> valid32 y -> is_fin x = true -> is_fin y = true ->
  is_fin (add32 x y) = true -> fval (add32 x y) = rnd32 (fval x + fval y).
Proof.
  intros Vx Vy Fx Fy F. pose proof (add_round prec32 emax32 Hp32 Hm32 x y Vx Vy Fx Fy) as H.
  destruct (Rlt_bool _ _); [exact (proj1 H)|]. destruct H as [H _]. unfold add32 in F. rewrite H in F. discriminate.
Qed.
Lemma div_value x y : valid32 x -> valid32 y -> is_fin x = true -> fval y <> 0 ->
  is_fin (div32 x y) = true -> fval (div32 x y) = rnd32 (fval x / fval y).
Proof.
  intros Vx Vy Fx Ny F. pose proof (div_round prec32 emax32 Hp32 Hm32 x y Vx Vy Fx Ny) as H.
  destruct (Rlt_bool _ _); [exact (proj1 H)|]. unfold div32 in F. rewrite H in F. discriminate.
Qed.
Lemma rnd_le x y : x <= y -> rnd32 x <= rnd32 y.
Proof. intros H. apply round_le; [exact (fexp_correct prec32 emax32 Hp32)|typeclasses eauto|exact H]. Qed.

Definition small (M : R) (xs : list f32) : Prop := forall y, In y xs -> valid32 y /\ is_fin y = true /\ Rabs (fval y) <= M.
Lemma fold_mono M (ys1 ys2 : list f32) : Forall2 (fun x y : f32 => fval x <= fval y) ys1 ys2 -> forall (xs1 xs2 : list f32) (s1 s2 : f32), 0 <= M <= bpow radix2 124 ->
  (length xs1 + length ys1 <= 8)%nat -> (length xs2 + length ys2 <= 8)%nat ->
  small M (xs1 ++ ys1) -> small M (xs2 ++ ys2) -> sum_ok M xs1 s1 -> sum_ok M xs2 s2 -> fval s1 <= fval s2 ->
  fval (fold_left add32 ys1 s1) <= fval (fold_left add32 ys2 s2).
Proof.
  induction 1 as [|x y ys1 ys2 L F IH]; intros xs1 xs2 s1 s2 HM L1 L2 X1 X2 S1 S2 Le; cbn [fold_left length] in *; [exact Le|].
  assert (Y1 : small M ((xs1 ++ [x]) ++ ys1)) by (rewrite <- app_assoc; exact X1).
  assert (Y2 : small M ((xs2 ++ [y]) ++ ys2)) by (rewrite <- app_assoc; exact X2).
  assert (T1 : sum_ok M (xs1 ++ [x]) (add32 s1 x)).
  { apply sum_step; [exact HM|lia| |exact S1]. intros z Hz. apply Y1, in_or_app. left. exact Hz. }
  assert (T2 : sum_ok M (xs2 ++ [y]) (add32 s2 y)).
  { apply sum_step; [exact HM|lia| |exact S2]. intros z Hz. apply Y2, in_or_app. left. exact Hz. }
  apply (IH (xs1 ++ [x]) (xs2 ++ [y])); [exact HM|rewrite app_length; cbn; lia|rewrite app_length; cbn; lia|exact Y1|exact Y2|exact T1|exact T2|].
  destruct (X1 x) as (Vx & Fx & _); [apply in_or_app; right; left; reflexivity|].
  destruct (X2 y) as (Vy & Fy & _); [apply in_or_app; right; left; reflexivity|].
  rewrite (add_value s1 x), (add_value s2 y); [apply rnd_le; lra|..]; try assumption;
    try apply S1; try apply S2; try apply T1; apply T2.
Qed.
Lemma solid_mono M (xs ys : list f32) : Forall2 (fun x y : f32 => fval x <= fval y) xs ys -> 0 <= M <= bpow radix2 124 -> (1 <= length xs <= 8)%nat ->
  small M xs -> small M ys -> fval (sum_solid xs) <= fval (sum_solid ys).
Proof.
  intros F HM HL X Y. pose proof (same_length _ _ _ F) as L. destruct F as [|x y xs ys Le F]; [cbn in HL; lia|]. cbn [sum_solid length] in *.
  apply (fold_mono M xs ys F [x] [y]); [exact HM|cbn; lia|cbn; lia|exact X|exact Y| | |exact Le].
  - apply (sum_solid_ok M [x]); [exact HM|cbn; lia|]. intros z [<-|[]]. apply X. left. reflexivity.
  - apply (sum_solid_ok M [y]); [exact HM|cbn; lia|]. intros z [<-|[]]. apply Y. left. reflexivity.
Qed.
Lemma water_mono M (xs ys : list f32) : Forall2 (fun x y : f32 => fval x <= fval y) xs ys -> 0 <= M <= bpow radix2 124 -> (1 <= length xs <= 8)%nat ->
  small M xs -> small M ys -> fval (sum_water xs) <= fval (sum_water ys).
Proof.
  intros F HM HL X Y. pose proof (same_length _ _ _ F) as L. unfold sum_water.
  apply (fold_mono M xs ys F [] []); [exact HM|cbn; lia|cbn; lia|exact X|exact Y| | |apply Rle_refl].
  - apply (sum_water_ok M []); [exact HM|cbn; lia|]. intros z [].
  - apply (sum_water_ok M []); [exact HM|cbn; lia|]. intros z [].
Qed.
Lemma quotient_mono M (xs ys : list f32) (s t : f32) : 0 <= M <= bpow radix2 124 -> (1 <= length xs <= 8)%nat -> length xs = length ys ->
  small M xs -> small M ys -> sum_ok M xs s -> sum_ok M ys t -> fval s <= fval t ->
  fval (div32 s (i2f32 (Z.of_nat (length xs)))) <= fval (div32 t (i2f32 (Z.of_nat (length ys)))).
Proof.
  intros HM HL E X Y S T Le. destruct (small_exact (length xs) HL) as [En Vn].
  destruct (mean_ok M xs s HM HL X S) as [F1 _]. destruct (mean_ok M ys t HM ltac:(lia) Y T) as [F2 _].
  rewrite <- E in *.
  assert (I1 : 1 <= INR (length xs)) by (replace 1 with (INR 1) by reflexivity; apply le_INR; lia).
  rewrite (div_value s), (div_value t); try assumption; try apply S; try apply T; try (rewrite En; lra).
  apply rnd_le. rewrite En. apply Rmult_le_compat_r; [apply Rlt_le, Rinv_0_lt_compat; lra|exact Le].
Qed.

(** The difference of two means is at most the largest difference. *)
Lemma rsum_near e xs ys : Forall2 (fun x y => Rabs (x - y) <= e) xs ys -> Rabs (rsum xs - rsum ys) <= INR (length xs) * e.
Proof.
  induction 1 as [|x y xs ys H F IH]; [cbn; rewrite Rminus_0_r, Rabs_R0; lra|].
  cbn [rsum fold_right length]. rewrite S_INR. unfold rsum in IH.
  replace (x + fold_right Rplus 0 xs - (y + fold_right Rplus 0 ys)) with ((x - y) + (fold_right Rplus 0 xs - fold_right Rplus 0 ys)) by ring.
  apply Rle_trans with (1 := Rabs_triang _ _). lra.
Qed.
Lemma quotient_near M e (xs ys : list f32) (s t : f32) : 0 <= M <= bpow radix2 124 -> (1 <= length xs <= 8)%nat -> length xs = length ys ->
  small M xs -> small M ys -> sum_ok M xs s -> sum_ok M ys t -> Forall2 (fun x y : f32 => Rabs (fval x - fval y) <= e) xs ys ->
  Rabs (fval (div32 s (i2f32 (Z.of_nat (length xs)))) - fval (div32 t (i2f32 (Z.of_nat (length ys))))) <= e + 2 * (M * (grow - 1) + eta32).
Proof.
  intros HM HL E X Y S T F.
  destruct (mean_ok M xs s HM HL X S) as [F1 E1]. destruct (mean_ok M ys t HM ltac:(lia) Y T) as [F2 E2].
  rewrite <- E in *. set (n := length xs) in *.
  assert (G : (1 + u32) ^ Datatypes.S n <= grow) by (apply Rle_pow; [pose proof u32_pos; lra|lia]).
  assert (G' : M * ((1 + u32) ^ Datatypes.S n - 1) <= M * (grow - 1)) by (apply Rmult_le_compat_l; lra).
  assert (I1 : 1 <= INR n) by (replace 1 with (INR 1) by reflexivity; apply le_INR; lia).
  assert (D : Rabs (rsum (map fval xs) / INR n - rsum (map fval ys) / INR n) <= e).
  { replace (rsum (map fval xs) / INR n - rsum (map fval ys) / INR n) with ((rsum (map fval xs) - rsum (map fval ys)) / INR n) by (field; lra).
    unfold Rdiv. rewrite Rabs_mult, (Rabs_right (/ INR n)) by (apply Rle_ge, Rlt_le, Rinv_0_lt_compat; lra).
    apply (Rmult_le_reg_r (INR n)); [lra|]. rewrite Rmult_assoc, Rinv_l, Rmult_1_r by lra.
    assert (N : Forall2 (fun x y => Rabs (x - y) <= e) (map fval xs) (map fval ys)).
    { clear - F. induction F; cbn [map]; constructor; assumption. }
    apply rsum_near in N. assert (Q : length (map fval xs) = n) by (unfold n; apply map_length). rewrite Q in N. lra. }
  apply Rabs_le_inv in E1, E2, D. apply Rabs_le. lra.
Qed.

(** ** Two trees *)
Open Scope Z_scope.
Section Two.
Variables (m1 m2 : list (addr * payload)).
Hypothesis (W1 : wf_input m1) (W2 : wf_input m2) (SAME : map fst m1 = map fst m2).

Lemma above_both b : above_input m1 b <-> above_input m2 b.
Proof. unfold above_input. rewrite SAME. tauto. Qed.
Lemma populated_both b : populated m1 b <-> populated m2 b.
Proof. unfold populated, above_input. rewrite SAME. tauto. Qed.
Lemma partner a x : In (a, x) m1 -> exists y, In (a, y) m2.
Proof.
  intros I. apply (in_map fst) in I. rewrite SAME in I. apply in_map_iff in I. destruct I as ([a' y] & Q & I). cbn [fst] in Q. subst a'. exists y. exact I.
Qed.

Definition kid_pair (b : addr) (k1 k2 : addr * payload) : Prop :=
  averaged m1 (fst k1) (snd k1) /\ averaged m2 (fst k2) (snd k2) /\ same_octant (fst k1) (fst k2) /\
  a_level (fst k1) = a_level b + 1.

Lemma two_trees (T : addr -> payload -> payload -> Prop) :
  (forall a p q, In (a, p) m1 -> In (a, q) m2 -> T a p q) ->
  (forall b ks1 ks2 p q, octant_ok b -> averaged m1 b p ->
     Forall2 (fun k1 k2 => kid_pair b k1 k2 /\ T (fst k1) (snd k1) (snd k2)) ks1 ks2 -> (length ks1 <= 8)%nat ->
     mean_payload (map snd ks1) p -> mean_payload (map snd ks2) q -> T b p q) ->
  forall n b p b' q, (Z.to_nat (31 - a_level b) < n)%nat -> averaged m1 b p -> averaged m2 b' q -> same_octant b b' -> T b p q.
Proof.
  intros TI TM. induction n as [|n IH]; intros b p b' q Hn A A' Sb; [lia|].
  pose proof (averaged_ok m1 W1 _ _ A) as Ob0. pose proof A as A0.
  destruct A as [a p I|b p kids O A SK EK AK MK]; destruct A' as [a' q I'|b' q kids' O' A' SK' EK' AK' MK'].
  - destruct (partner a p I) as (y & Iy). rewrite <- (input_unique m2 W2 _ _ _ _ Iy I' Sb). exact (TI a p y I Iy).
  - exfalso. apply (not_above_input m1 W1 a p b' I (same_octant_sym _ _ Sb)), above_both, A'.
  - exfalso. apply (not_above_input m2 W2 a' q b I' Sb), above_both, A.
  - assert (Ok : forall k, In k (map fst kids) -> octant_ok k).
    { intros k Ik. apply in_map_iff in Ik. destruct Ik as ([k' v] & Q & Ik). cbn [fst] in Q. subst k'. exact (averaged_ok _ W1 _ _ (AK _ _ Ik)). }
    assert (Ok' : forall k, In k (map fst kids') -> octant_ok k).
    { intros k Ik. apply in_map_iff in Ik. destruct Ik as ([k' v] & Q & Ik). cbn [fst] in Q. subst k'. exact (averaged_ok _ W2 _ _ (AK' _ _ Ik)). }
    assert (CC : forall c, octant_ok c -> ((exists k, In k (map fst kids) /\ same_octant c k) <-> (exists k, In k (map fst kids') /\ same_octant c k))).
    { intros c Oc. rewrite (EK c Oc), (EK' c Oc), populated_both. destruct Sb as (X & Y & Z & L). unfold covers. rewrite X, Y, Z, L. tauto. }
    assert (P : map path_of (map fst kids) = map path_of (map fst kids')).
    { apply path_sorted_eq; [apply sorted_paths, SK | apply sorted_paths, SK' |]. intros r. split; intros Iq;
      apply in_map_iff in Iq; destruct Iq as (k & <- & Ik).
      - destruct (proj1 (CC k (Ok k Ik)) (ex_intro _ k (conj Ik (conj eq_refl (conj eq_refl (conj eq_refl eq_refl)))))) as (k' & Ik' & Sk).
        rewrite (same_octant_path _ _ Sk). apply in_map, Ik'.
      - destruct (proj2 (CC k (Ok' k Ik)) (ex_intro _ k (conj Ik (conj eq_refl (conj eq_refl (conj eq_refl eq_refl)))))) as (k' & Ik' & Sk).
        rewrite (same_octant_path _ _ Sk). apply in_map, Ik'. }
    assert (LV : forall k, In k (map fst kids) -> octant_ok k /\ a_level k = a_level b + 1 /\ covers b k).
    { intros k Ik. split; [exact (Ok k Ik)|]. apply (EK k (Ok k Ik)). exists k. split; [exact Ik | repeat split]. }
    assert (L8 : (length kids <= 8)%nat) by (rewrite <- (map_length fst); exact (children_few b _ O SK LV)).
    apply (TM b kids kids' p q O A0); [|exact L8|exact MK|exact MK'].
    clear EK EK' CC SK SK' MK MK' L8 A0. revert kids' AK' Ok' P. induction kids as [|[k v] kids IHk]; intros [|[k' v'] kids'] AK' Ok' P; cbn [map] in P; try discriminate P.
    + constructor.
    + injection P as P1 P2. destruct (LV k ltac:(left; reflexivity)) as (Bk & Lk & _).
      assert (Sk : same_octant k k') by (apply path_same; [exact Bk|apply Ok'; left; reflexivity|exact P1]).
      pose proof (AK k v ltac:(left; reflexivity)) as V. pose proof (AK' k' v' ltac:(left; reflexivity)) as V'.
      constructor.
      * split; [split; [exact V|]; split; [exact V'|]; split; [exact Sk|exact Lk]|]. cbn [fst snd].
        apply (IH k v k' v'); [|exact V|exact V'|exact Sk]. destruct Bk as (B & _). lia.
      * apply IHk.
        -- intros k0 v0 I0. apply AK. right. exact I0.
        -- intros k0 I0. apply Ok. right. exact I0.
        -- intros k0 I0. apply LV. right. exact I0.
        -- intros k0 v0 I0. apply AK'. right. exact I0.
        -- intros k0 I0. apply Ok'. right. exact I0.
        -- exact P2.
Qed.

Hypothesis (V1 : forall a p, In (a, p) m1 -> proper_values p) (V2 : forall a p, In (a, p) m2 -> proper_values p).
Hypothesis (T1 : forall a p, In (a, p) m1 -> tame p) (T2 : forall a p, In (a, p) m2 -> tame p).
Hypothesis KIND : forall a x y, In (a, x) m1 -> In (a, y) m2 -> same_kind x y.

Lemma partner' a y : In (a, y) m2 -> exists x, In (a, x) m1.
Proof.
  intros I. apply (in_map fst) in I. rewrite <- SAME in I. apply in_map_iff in I. destruct I as ([a' x] & Q & I). cbn [fst] in Q. subst a'. exists x. exact I.
Qed.
Lemma rock_both b b' : same_octant b b' -> rock_in m1 b <-> rock_in m2 b'.
Proof.
  intros Sb. assert (C : forall a, covers b a <-> covers b' a) by (intros a; destruct Sb as (X & Y & Z & L); unfold covers; rewrite X, Y, Z, L; tauto).
  split; intros (q & (a & I & Ca) & Sq).
  - destruct (partner a q I) as (y & Iy). exists y. split; [exists a; split; [exact Iy|apply C, Ca]|]. rewrite <- (proj1 (KIND a q y I Iy)). exact Sq.
  - destruct (partner' a q I) as (y & Iy). exists y. split; [exists a; split; [exact Iy|apply C, Ca]|]. rewrite (proj1 (KIND a y q Iy I)). exact Sq.
Qed.
Lemma water_both b b' : same_octant b b' -> water_in m1 b <-> water_in m2 b'.
Proof.
  intros Sb. assert (C : forall a, covers b a <-> covers b' a) by (intros a; destruct Sb as (X & Y & Z & L); unfold covers; rewrite X, Y, Z, L; tauto).
  split; intros (q & (a & I & Ca) & Sq & Wq).
  - destruct (partner a q I) as (y & Iy). exists y. split; [exists a; split; [exact Iy|apply C, Ca]|]. destruct (KIND a q y I Iy) as [K1 K2].
    rewrite <- K1, <- (K2 Sq). auto.
  - destruct (partner' a q I) as (y & Iy). exists y. split; [exists a; split; [exact Iy|apply C, Ca]|]. destruct (KIND a y q Iy I) as [K1 K2].
    rewrite K1. split; [exact Sq|]. rewrite K2; [exact Wq|rewrite K1; exact Sq].
Qed.
Lemma bool_eq (x y : bool) : (x = true <-> y = true) -> x = y.
Proof. destruct x, y; intuition congruence. Qed.
Lemma kind_both b p b' q : averaged m1 b p -> averaged m2 b' q -> same_octant b b' -> same_kind p q.
Proof.
  intros A B Sb. pose proof (averaged_good m1 W1 V1 T1 b p A) as G. pose proof (averaged_good m2 W2 V2 T2 b' q B) as H.
  assert (Sol : solid p = solid q) by (apply bool_eq; rewrite (g_rock _ _ _ G), (g_rock _ _ _ H); apply rock_both, Sb).
  split; [exact Sol|]. intros N.
  assert (N1 : ~ rock_in m1 b) by (rewrite <- (g_rock _ _ _ G); congruence).
  assert (N2 : ~ rock_in m2 b') by (rewrite <- (g_rock _ _ _ H); congruence).
  apply bool_eq. rewrite (g_water _ _ _ G N1), (g_water _ _ _ H N2). apply water_both, Sb.
Qed.
Lemma data_in m (W : wf_input m) (V : forall a p, In (a, p) m -> proper_values p) (T : forall a p, In (a, p) m -> tame p) b p :
  averaged m b p -> has_data p -> rock_in m b \/ water_in m b.
Proof.
  intros A [D|D]; pose proof (averaged_good m W V T b p A) as G.
  - left. apply (g_rock _ _ _ G), D.
  - destruct (solid p) eqn:E; [left; apply (g_rock _ _ _ G), E|]. right. apply (g_water _ _ _ G); [|exact D].
    rewrite <- (g_rock _ _ _ G). congruence.
Qed.

(** The children that count, side by side. *)
Lemma filter2 {A B} (R : A -> B -> Prop) (f : A -> bool) (g : B -> bool) l l' :
  Forall2 R l l' -> (forall x y, R x y -> f x = g y) -> Forall2 (fun x y => R x y /\ f x = true) (filter f l) (filter g l').
Proof.
  intros F E. induction F as [|x y l l' H F IH]; [constructor|]. cbn [filter]. rewrite <- (E x y H). destruct (f x) eqn:Q; [constructor; auto|exact IH].
Qed.
Lemma map2 {A B C D} (R : C -> D -> Prop) (f : A -> C) (g : B -> D) l l' :
  Forall2 (fun x y => R (f x) (g y)) l l' -> Forall2 R (map f l) (map g l').
Proof. induction 1; cbn [map]; constructor; assumption. Qed.
Lemma weaken2 {A B} (R R' : A -> B -> Prop) l l' : (forall x y, R x y -> R' x y) -> Forall2 R l l' -> Forall2 R' l l'.
Proof. intros H. induction 1; constructor; auto. Qed.

(** [Cmp f] is a way to compare children that have data; [mean] says what follows for
    the means of paired lists. *)
Lemma mean_two (Cmp : payload -> payload -> Prop) (f : prop6) (concl : R -> R -> Prop) b ks1 ks2 p q :
  octant_ok b -> averaged m1 b p -> has_data p ->
  Forall2 (fun k1 k2 => kid_pair b k1 k2 /\ (has_data (snd k1) -> Cmp (snd k1) (snd k2))) ks1 ks2 -> (length ks1 <= 8)%nat ->
  mean_payload (map snd ks1) p -> mean_payload (map snd ks2) q ->
  (forall sum xs ys, sum = sum_solid \/ sum = sum_water -> (1 <= length xs <= 8)%nat ->
     Forall2 (fun x y => Cmp x y /\ (exists k, octant_ok k /\ a_level k = a_level b + 1 /\ averaged m1 k x /\ has_data x) /\
                                   (exists k, octant_ok k /\ a_level k = a_level b + 1 /\ averaged m2 k y /\ has_data y)) xs ys ->
     concl (fval (div32 (sum (map (get6 f) xs)) (i2f32 (Z.of_nat (length xs)))))
           (fval (div32 (sum (map (get6 f) ys)) (i2f32 (Z.of_nat (length ys)))))) ->
  concl (fval (get6 f p)) (fval (get6 f q)).
Proof.
  intros Ob A D F L8 [M1 _] [M2 _] K. rewrite (M1 f), (M2 f).
  assert (F' : Forall2 (fun x y => same_kind x y /\ (has_data x -> Cmp x y /\
      (exists k, octant_ok k /\ a_level k = a_level b + 1 /\ averaged m1 k x /\ has_data x) /\
      (exists k, octant_ok k /\ a_level k = a_level b + 1 /\ averaged m2 k y /\ has_data y))) (map snd ks1) (map snd ks2)).
  { apply map2. apply (weaken2 _ _ _ _ (fun x y H => H)) in F. eapply weaken2; [|exact F].
    intros [k1 x] [k2 y] ((P1 & P2 & P3 & P4) & P5). cbn [fst snd] in *.
    pose proof (kind_both _ _ _ _ P1 P2 P3) as Kd. split; [exact Kd|]. intros Dx. split; [exact (P5 Dx)|]. split.
    - exists k1. split; [exact (averaged_ok _ W1 _ _ P1)|]. auto.
    - exists k2. split; [exact (averaged_ok _ W2 _ _ P2)|]. split; [destruct P3 as (_ & _ & _ & <-); exact P4|]. split; [exact P2|].
      destruct Kd as [E1 E2]. unfold has_data in *. rewrite <- E1. destruct (solid x) eqn:Sx; [left; reflexivity|]. right. rewrite <- (E2 eq_refl). destruct Dx; congruence. }
  pose proof (filter2 _ solid solid _ _ F' (fun x y H => proj1 (proj1 H))) as FS.
  assert (LS : (length (filter solid (map snd ks1)) <= 8)%nat).
  { apply Nat.le_trans with (length (map snd ks1)); [apply filter_len|rewrite map_length; exact L8]. }
  unfold mean_prop in *.
  destruct (filter solid (map snd ks1)) as [|s0 ss] eqn:E1, (filter solid (map snd ks2)) as [|t0 tt]; [|exfalso; inversion FS..|].
  - (* no rock: water *)
    assert (NS : forall x, In x (map snd ks1) -> solid x = false).
    { intros x I. destruct (solid x) eqn:Q; [|reflexivity]. exfalso. assert (G : In x (filter solid (map snd ks1))) by (apply filter_In; auto). rewrite E1 in G. destruct G. }
    assert (FW : Forall2 (fun x y => (same_kind x y /\ (has_data x -> Cmp x y /\
      (exists k, octant_ok k /\ a_level k = a_level b + 1 /\ averaged m1 k x /\ has_data x) /\
      (exists k, octant_ok k /\ a_level k = a_level b + 1 /\ averaged m2 k y /\ has_data y))) /\ water x = true)
      (filter water (map snd ks1)) (filter water (map snd ks2))).
    { assert (F2 : Forall2 (fun x y => solid x = false /\ (same_kind x y /\ (has_data x -> Cmp x y /\
        (exists k, octant_ok k /\ a_level k = a_level b + 1 /\ averaged m1 k x /\ has_data x) /\
        (exists k, octant_ok k /\ a_level k = a_level b + 1 /\ averaged m2 k y /\ has_data y)))) (map snd ks1) (map snd ks2)).
      { clear - F' NS. induction F' as [|x y l l' H F IH]; constructor; [split; [apply NS; left; reflexivity|exact H]|].
        apply IH. intros z Hz. apply NS. right. exact Hz. }
      eapply weaken2; [|apply (filter2 _ water water _ _ F2)].
      - intros x y ((_ & Q) & Wx). split; assumption.
      - intros x y (N & (_ & Q) & _). exact (Q N). }
    assert (LW : (length (filter water (map snd ks1)) <= 8)%nat).
    { apply Nat.le_trans with (length (map snd ks1)); [apply filter_len|rewrite map_length; exact L8]. }
    destruct (filter water (map snd ks1)) as [|w0 ws] eqn:E2, (filter water (map snd ks2)) as [|u0 uu]; [|exfalso; inversion FW..|].
    + (* nothing: no data *)
      exfalso. destruct D as [D|D].
      * assert (X : p_vs p = i2f32 (-999)) by exact (M1 PVs). unfold solid in D. rewrite X in D. vm_compute in D. discriminate.
      * assert (X : p_vp p = i2f32 (-999)) by exact (M1 PVp). unfold water in D. rewrite X in D. vm_compute in D. discriminate.
    + apply (K sum_water (w0 :: ws) (u0 :: uu)); [right; reflexivity|cbn [length] in *; lia|].
      eapply weaken2; [|exact FW]. intros x y ((_ & Q) & Wx). apply Q. right. exact Wx.
  - apply (K sum_solid (s0 :: ss) (t0 :: tt)); [left; reflexivity|cbn [length] in *; lia|].
    eapply weaken2; [|exact FS]. intros x y ((_ & Q) & Sx). apply Q. left. exact Sx.
Qed.

Lemma data_fin m (W : wf_input m) (V : forall a p, In (a, p) m -> proper_values p) (T : forall a p, In (a, p) m -> tame p) f k x :
  octant_ok k -> averaged m k x -> has_data x -> valid32 (get6 f x) /\ is_fin (get6 f x) = true /\ (Rabs (fval (get6 f x)) <= bpow radix2 121)%R.
Proof.
  intros O A D. pose proof (averaged_good m W V T k x A) as G. split; [apply (g_valid _ _ _ G)|].
  destruct (good_fin m V T k x f G (data_in m W V T k x A D) O) as [F R]. split; [exact F|]. apply Rabs_le, R.
Qed.
Lemma B121 : (0 <= bpow radix2 121 <= bpow radix2 124)%R.
Proof. split; [apply bpow_ge_0|apply bpow_le; lia]. Qed.

Lemma lower_both f : (forall a x y, In (a, x) m1 -> In (a, y) m2 -> lower f x y) ->
  forall b p b' q, averaged m1 b p -> averaged m2 b' q -> same_octant b b' -> lower f p q.
Proof.
  intros H b p b' q A B Sb. apply (two_trees (fun _ => lower f) H) with (n := S (Z.to_nat (31 - a_level b))) (b := b) (b' := b'); [|lia|exact A|exact B|exact Sb].
  clear b p b' q A B Sb. intros b ks1 ks2 p q Ob A F L8 M1 M2 D. unfold real_of.
  apply (mean_two (fun x y => (fval (get6 f x) <= fval (get6 f y))%R) f Rle b ks1 ks2 p q Ob A D); [exact F|exact L8|exact M1|exact M2|].
  intros sum xs ys Hs HL G.
  assert (X : small (bpow radix2 121) (map (get6 f) xs)).
  { clear - G W1 V1 T1. intros y Hy. induction G as [|x z xs ys (_ & (k & O & _ & A & D) & _) G IH]; [destruct Hy|]. destruct Hy as [<-|Hy]; [|exact (IH Hy)].
    exact (data_fin m1 W1 V1 T1 f k x O A D). }
  assert (Y : small (bpow radix2 121) (map (get6 f) ys)).
  { clear - G W2 V2 T2. intros y Hy. induction G as [|x z xs ys (_ & _ & (k & O & _ & A & D)) G IH]; [destruct Hy|]. destruct Hy as [<-|Hy]; [|exact (IH Hy)].
    exact (data_fin m2 W2 V2 T2 f k z O A D). }
  assert (E : length xs = length ys) by exact (same_length _ _ _ G).
  assert (Le : Forall2 (fun x y : f32 => (fval x <= fval y)%R) (map (get6 f) xs) (map (get6 f) ys)).
  { apply map2. eapply weaken2; [|exact G]. intros x y [Q _]. exact Q. }
  rewrite <- (map_length (get6 f) xs), <- (map_length (get6 f) ys).
  apply (quotient_mono (bpow radix2 121)); [exact B121|rewrite map_length; exact HL|rewrite !map_length; exact E|exact X|exact Y| | |].
  - destruct Hs as [->| ->]; [apply sum_solid_ok|apply sum_water_ok]; try exact B121; try exact X; rewrite map_length; lia.
  - destruct Hs as [->| ->]; [apply sum_solid_ok|apply sum_water_ok]; try exact B121; try exact Y; rewrite map_length; lia.
  - destruct Hs as [->| ->]; [apply (solid_mono _ _ _ Le B121)|apply (water_mono _ _ _ Le B121)]; try exact X; try exact Y; rewrite map_length; exact HL.
Qed.

Lemma range_fin m (W : wf_input m) (V : forall a p, In (a, p) m -> proper_values p) (T : forall a p, In (a, p) m -> tame p) f M k x :
  (0 <= M <= bpow radix2 120)%R -> at_most f M m ->
  averaged m k x -> has_data x -> valid32 (get6 f x) /\ is_fin (get6 f x) = true /\ (Rabs (fval (get6 f x)) <= bnd (depth k) M)%R.
Proof.
  intros HM B A D. pose proof (averaged_good m W V T k x A) as G. split; [apply (g_valid _ _ _ G)|].
  destruct (g_range _ _ _ G f (- M) M M HM (Rle_refl _) (Rle_refl _)) as [F R].
  - intros q [(a & I & _) C]. apply Rabs_le_inv, (B a q I). unfold has_data. tauto.
  - exact (data_in m W V T k x A D).
  - split; [exact F|]. apply Rabs_le. lra.
Qed.

Lemma within_both f e M : (0 <= M <= bpow radix2 120)%R -> at_most f M m1 -> at_most f M m2 ->
  (forall a x y, In (a, x) m1 -> In (a, y) m2 -> within f e x y) ->
  forall b p b' q, averaged m1 b p -> averaged m2 b' q -> same_octant b b' -> within f (e + 2 * (bnd (depth b) M - M)) p q.
Proof.
  intros HM B1 B2 H b p b' q A B Sb.
  apply (two_trees (fun b => within f (e + 2 * (bnd (depth b) M - M)))) with (n := S (Z.to_nat (31 - a_level b))) (b := b) (b' := b'); [| |lia|exact A|exact B|exact Sb].
  { intros a x y I J D. pose proof (bnd_ge (depth a) M (proj1 HM)) as G. specialize (H a x y I J D). lra. }
  clear b p b' q A B Sb. intros b ks1 ks2 p q Ob A F L8 M1 M2 D. unfold real_of.
  set (k' := Nat.pred (depth b)). set (C := bnd k' M).
  apply (mean_two (fun x y => (Rabs (fval (get6 f x) - fval (get6 f y)) <= e + 2 * (C - M))%R) f
    (fun u v => (Rabs (u - v) <= e + 2 * (bnd (depth b) M - M))%R) b ks1 ks2 p q Ob A D); [|exact L8|exact M1|exact M2|].
  { eapply weaken2; [|exact F]. intros [k1 x] [k2 y] [P Q]. split; [exact P|]. intros Dx. cbn [fst snd] in *.
    destruct P as (P1 & P2 & P3 & P4). cbn [fst snd] in *. pose proof (averaged_ok m1 W1 _ _ P1) as ((K1 & K2) & _).
    assert (E : depth k1 = k') by (unfold k', depth; lia). specialize (Q Dx). rewrite E in Q. exact Q. }
  intros sum xs ys Hs HL G.
  assert (Lb : depth b = S k').
  { destruct G as [|x y xs ys (_ & (k & ((K1 & K2) & _) & Lk & _) & _) G]; [cbn in HL; lia|]. destruct Ob as ((O1 & O2) & _). unfold k', depth. lia. }
  assert (K31 : (k' <= 31)%nat) by (destruct Ob as ((O1 & O2) & _); unfold k', depth; lia).
  assert (HC : (0 <= C <= bpow radix2 124)%R).
  { pose proof (bnd_121 k' M K31 HM) as Q1. pose proof (bnd_ge k' M (proj1 HM)) as Q2. split; [unfold C; lra|].
    apply Rle_trans with (1 := Q1). apply bpow_le. lia. }
  assert (DK : forall k, octant_ok k -> a_level k = a_level b + 1 -> depth k = k').
  { intros k ((K1 & K2) & _) E. unfold k', depth. lia. }
  assert (X : small C (map (get6 f) xs)).
  { clear - G W1 V1 T1 HM B1 DK. intros y Hy. induction G as [|x z xs ys (_ & (k & O & Lk & A & D) & _) G IH]; [destruct Hy|]. destruct Hy as [<-|Hy]; [|exact (IH Hy)].
    unfold C. rewrite <- (DK k O Lk). exact (range_fin m1 W1 V1 T1 f M k x HM B1 A D). }
  assert (Y : small C (map (get6 f) ys)).
  { clear - G W2 V2 T2 HM B2 DK. intros y Hy. induction G as [|x z xs ys (_ & _ & (k & O & Lk & A & D)) G IH]; [destruct Hy|]. destruct Hy as [<-|Hy]; [|exact (IH Hy)].
    unfold C. rewrite <- (DK k O Lk). exact (range_fin m2 W2 V2 T2 f M k z HM B2 A D). }
  assert (E : length xs = length ys) by exact (same_length _ _ _ G).
  assert (Le : Forall2 (fun x y : f32 => (Rabs (fval x - fval y) <= e + 2 * (C - M))%R) (map (get6 f) xs) (map (get6 f) ys)).
  { apply map2. eapply weaken2; [|exact G]. intros x y [Q _]. exact Q. }
  rewrite <- (map_length (get6 f) xs), <- (map_length (get6 f) ys).
  assert (N : (Rabs (fval (div32 (sum (map (get6 f) xs)) (i2f32 (Z.of_nat (length (map (get6 f) xs))))) -
                     fval (div32 (sum (map (get6 f) ys)) (i2f32 (Z.of_nat (length (map (get6 f) ys)))))) <=
               e + 2 * (C - M) + 2 * (C * (grow - 1) + eta32))%R).
  { apply (quotient_near C); [exact HC|rewrite map_length; exact HL|rewrite !map_length; exact E|exact X|exact Y| | |exact Le].
    - destruct Hs as [->| ->]; [apply sum_solid_ok|apply sum_water_ok]; try exact HC; try exact X; rewrite map_length; lia.
    - destruct Hs as [->| ->]; [apply sum_solid_ok|apply sum_water_ok]; try exact HC; try exact Y; rewrite map_length; lia. }
  apply Rle_trans with (1 := N). rewrite Lb. cbn [bnd]. fold C. apply Req_le. ring.
Qed.
End Two.
