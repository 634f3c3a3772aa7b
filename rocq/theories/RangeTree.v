(** Proofs for C78: from the leaves to the root. *)
From Coq Require Import ZArith Bool Reals Lra Lia Psatz Sorting.Sorted List.
From Flocq Require Import Core BinarySingleNaN.
From Verif Require Import Outcome Float Payload Addr SpecOct SpecAvg SpecQuery SpecE2E SpecRange FloatFacts AddrFacts AvgBounds AvgProof E2EFacts RangeFacts.
Import ListNotations.
Open Scope Z_scope.

(** ** The children of an octant *)
Lemma sorted_nodup l : StronglySorted path_lt l -> NoDup l.
Proof.
  induction 1 as [|p l S IH F]; [constructor|]. constructor; [|exact IH]. intros I.
  apply (proj1 (Forall_forall _ _)) with (x := p) in F; [|exact I]. clear - F.
  induction p as [|d p IH]; cbn [path_lt] in F; [exact F|]. destruct F as [F|[_ F]]; [lia|exact (IH F)].
Qed.

Lemma child_path b k : octant_ok b -> octant_ok k -> a_level k = a_level b + 1 -> covers b k ->
  exists d, 0 <= d < 8 /\ path_of k = path_of b ++ [d].
Proof.
  intros Ob Ok L C. apply (proj1 (covers_path b k Ob Ok)) in C. destruct C as (r & E).
  pose proof (path_of_length b (proj1 (proj1 Ob))) as Lb. pose proof (path_of_length k (proj1 (proj1 Ok))) as Lk.
  rewrite E, app_length in Lk. destruct r as [|d [|d' r]]; cbn [length] in Lk; [lia| |lia].
  exists d. split; [|exact E]. destruct (path_of_ok k Ok) as [_ F]. rewrite E in F.
  apply Forall_app in F. destruct F as [_ F]. inversion F; assumption.
Qed.

Lemma children_few b (ks : list addr) : octant_ok b -> StronglySorted etree_lt ks ->
  (forall k, In k ks -> octant_ok k /\ a_level k = a_level b + 1 /\ covers b k) -> (length ks <= 8)%nat.
Proof.
  intros Ob S H.
  assert (N : NoDup (map path_of ks)) by (apply sorted_nodup, sorted_paths, S).
  assert (I : incl (map path_of ks) (map (fun d => path_of b ++ [d]) [0; 1; 2; 3; 4; 5; 6; 7])).
  { intros p Ip. apply in_map_iff in Ip. destruct Ip as (k & <- & Ik). destruct (H k Ik) as (Ok & L & C).
    destruct (child_path b k Ob Ok L C) as (d & Bd & ->). apply (in_map (fun d => path_of b ++ [d])).
    assert (d = 0 \/ d = 1 \/ d = 2 \/ d = 3 \/ d = 4 \/ d = 5 \/ d = 6 \/ d = 7) by lia. cbn. intuition. }
  apply (NoDup_incl_length N) in I. rewrite !map_length in I. exact I.
Qed.

Section Tree.
Variable inp : list (addr * payload).
Hypothesis HW : wf_input inp.

(** An input octant inside [b] is inside a child of [b]. *)
Lemma inside_child b kids q : octant_ok b -> above_input inp b ->
  (forall c, octant_ok c -> ((exists k, In k (map fst kids) /\ same_octant c k) <->
        populated inp c /\ a_level c = a_level b + 1 /\ covers b c)) ->
  inside inp b q -> exists k (v : payload), In (k, v) kids /\ inside inp k q.
Proof.
  intros Ob A EK (a & Ia & Ca). pose proof (input_ok inp HW _ _ Ia) as Oa.
  pose proof (proj1 (covers_path b a Ob Oa) Ca) as (r & E).
  destruct r as [|d r].
  - exfalso. rewrite app_nil_r in E.
    apply (not_above_input inp HW a q b Ia); [|exact A]. apply path_same; [exact Ob|exact Oa|congruence].
  - set (c := addr_of (path_of b ++ [d]) Leaf).
    assert (Pc : path_ok (path_of b ++ [d])).
    { destruct (path_of_ok a Oa) as [La Fa]. rewrite E in La, Fa. split; [rewrite app_length in *; cbn [length] in *; lia|].
      apply Forall_app in Fa. destruct Fa as [F1 F2]. apply Forall_app. split; [exact F1|]. inversion F2; subst. constructor; [assumption|constructor]. }
    assert (Oc : octant_ok c) by (apply addr_of_ok, Pc).
    assert (PC : path_of c = path_of b ++ [d]) by (apply path_of_addr_of, Pc).
    assert (Lc : a_level c = a_level b + 1).
    { unfold c. rewrite addr_of_level, app_length. cbn [length].
      pose proof (path_of_length b (proj1 (proj1 Ob))). lia. }
    assert (Cb : covers b c) by (apply (covers_path b c Ob Oc); exists [d]; exact PC).
    assert (Cc : covers c a).
    { apply (covers_path c a Oc Oa). exists r. rewrite PC, E, <- app_assoc. reflexivity. }
    assert (Pop : populated inp c).
    { destruct r as [|d' r].
      - right. exists a. split; [apply in_map_iff; exists (a, q); auto|]. apply path_same; [exact Oc|exact Oa|congruence].
      - left. exists a. split; [apply in_map_iff; exists (a, q); auto|]. apply (ancestor_path c a Oc Oa). split.
        + apply (covers_path c a Oc Oa), Cc.
        + intros Q. apply (f_equal (@length Z)) in Q. rewrite PC, E, !app_length in Q. cbn [length] in Q. lia. }
    destruct (proj2 (EK c Oc)) as (k & Ik & Sk); [auto|].
    apply in_map_iff in Ik. destruct Ik as ([k' v] & Q & Ik). cbn [fst] in Q. subst k'.
    exists k, v. split; [exact Ik|]. exists a. split; [exact Ia|].
    apply covers_trans with c; [apply same_octant_covers, same_octant_sym, Sk|exact Cc].
Qed.

(** Inside an input octant there is only itself. *)
Lemma inside_input a p q : In (a, p) inp -> inside inp a q <-> q = p.
Proof.
  intros I. pose proof (input_ok inp HW _ _ I) as O. split.
  - intros (a' & I' & C). pose proof (input_ok inp HW _ _ I') as O'.
    apply (input_unique inp HW a' q a p I' I). apply same_octant_sym.
    pose proof (covers_level a a' O O' C) as L. destruct (Z.eq_dec (a_level a) (a_level a')) as [Q|N].
    + unfold covers in C. unfold same_octant. rewrite Q in *. lia.
    + exfalso. apply (wf_disjoint _ HW a a'); [apply in_map_iff; exists (a, p); auto|apply in_map_iff; exists (a', q); auto|].
      split; [lia|exact C].
  - intros ->. exists a. split; [exact I|]. unfold covers. lia.
Qed.

Hypothesis HV : forall a p, In (a, p) inp -> proper_values p.
Hypothesis HT : forall a p, In (a, p) inp -> tame p.

Definition depth (b : addr) : nat := Z.to_nat (31 - a_level b).

(** What holds of every octant of the averaged tree. *)
Record good (b : addr) (p : payload) : Prop := {
  g_valid : forall f, valid32 (get6 f p);
  g_rock : solid p = true <-> rock_in inp b;
  g_water : ~ rock_in inp b -> (water p = true <-> water_in inp b);
  g_range : forall f lo hi M, (0 <= M <= bpow radix2 120)%R -> (- M <= lo)%R -> (hi <= M)%R ->
    (forall q, counts inp b q -> (lo <= fval (get6 f q) <= hi)%R) -> rock_in inp b \/ water_in inp b ->
    is_fin (get6 f p) = true /\ (lo - (bnd (depth b) M - M) <= fval (get6 f p) <= hi + (bnd (depth b) M - M))%R;
  g_none : above_input inp b -> ~ rock_in inp b -> ~ water_in inp b -> forall f, get6 f p = i2f32 (-999) }.

Lemma good_input a p : In (a, p) inp -> good a p.
Proof.
  intros I. pose proof (HV a p I) as [V _]. pose proof (HT a p I) as T1.
  assert (R : rock_in inp a <-> solid p = true).
  { split; [intros (q & Iq & S)|intros S; exists p; split; [apply (inside_input a p p I); reflexivity|exact S]].
    apply (inside_input a p q I) in Iq. now subst q. }
  assert (W : water_in inp a <-> solid p = false /\ water p = true).
  { split; [intros (q & Iq & S)|intros S; exists p; split; [apply (inside_input a p p I); reflexivity|exact S]].
    apply (inside_input a p q I) in Iq. now subst q. }
  constructor.
  - exact V.
  - symmetry. exact R.
  - intros N. rewrite W. split; [|tauto]. intros Wp. split; [|exact Wp]. destruct (solid p) eqn:S; [|reflexivity].
    exfalso. apply N, R. reflexivity.
  - intros f lo hi M HM Hlo Hhi H D. pose proof (bnd_ge (depth a) M (proj1 HM)) as B.
    assert (D' : solid p = true \/ water p = true) by (rewrite R, W in D; tauto).
    split; [apply T1, D'|].
    assert (C : counts inp a p).
    { split; [apply (inside_input a p p I); reflexivity|]. rewrite R, W in D. destruct (solid p) eqn:S; [left; reflexivity|].
      right. split; [rewrite R; congruence|]. split; [reflexivity|]. destruct D as [D|D]; [discriminate D|apply D]. }
    specialize (H p C). lra.
  - intros A. exfalso. apply (not_above_input inp HW a p a I); [|exact A]. repeat split.
Qed.

Lemma not_solid_nonpos p : valid32 (p_vs p) -> is_fin (p_vs p) = true -> solid p = false -> (fval (p_vs p) <= 0)%R.
Proof.
  intros V F S. destruct (Rle_or_lt (fval (p_vs p)) 0) as [H|H]; [exact H|exfalso].
  pose proof (pos_val_flt (p_vs p) F H) as Q. unfold solid in S. congruence.
Qed.
Lemma pos_solid p : is_fin (p_vs p) = true -> (0 < fval (p_vs p))%R -> solid p = true.
Proof. intros F H. apply (pos_val_flt (p_vs p) F H). Qed.
Lemma pos_water p : is_fin (p_vp p) = true -> (0 < fval (p_vp p))%R -> water p = true.
Proof. intros F H. apply (pos_val_flt (p_vp p) F H). Qed.

Lemma big_M : (0 <= bpow radix2 120 <= bpow radix2 120)%R.
Proof. split; [apply bpow_ge_0|apply Rle_refl]. Qed.
Lemma bnd_121 k M : (k <= 31)%nat -> (0 <= M <= bpow radix2 120)%R -> (bnd k M <= bpow radix2 121)%R.
Proof.
  intros Hk [H0 HM]. apply Rle_trans with (1 := bnd_31 k M Hk H0).
  change 121 with (1 + 120). rewrite bpow_plus. change (bpow radix2 1) with 2%R.
  assert (bpow radix2 (-144) <= bpow radix2 0)%R by (apply bpow_le; lia). change (bpow radix2 0) with 1%R in *.
  assert (bpow radix2 1 <= bpow radix2 120)%R by (apply bpow_le; lia). change (bpow radix2 1) with 2%R in *.
  change (bpow radix2 (-15)) with (/ 32768)%R. lra.
Qed.

(** All counting values of an octant are tame. *)
Lemma counts_big b f q : counts inp b q -> (- bpow radix2 120 <= fval (get6 f q) <= bpow radix2 120)%R.
Proof.
  intros [(a & I & _) S]. pose proof (HT a q I) as T1. destruct (T1 ltac:(tauto) f) as [_ T]. apply Rabs_le_inv in T. exact T.
Qed.
Lemma good_fin b p f : good b p -> rock_in inp b \/ water_in inp b -> octant_ok b ->
  is_fin (get6 f p) = true /\ (- bpow radix2 121 <= fval (get6 f p) <= bpow radix2 121)%R.
Proof.
  intros G D O.
  assert (K : (depth b <= 31)%nat) by (destruct O as ((L1 & L2) & _); unfold depth; lia).
  destruct (g_range b p G f (- bpow radix2 120) (bpow radix2 120) (bpow radix2 120) big_M (Rle_refl _) (Rle_refl _)
    (fun q => counts_big b f q) D) as [F R].
  split; [exact F|]. pose proof (bnd_121 (depth b) (bpow radix2 120) K big_M) as B. lra.
Qed.

(** ** The mean over some of the children *)
Section Mean.
Variables (b : addr) (cs : list payload) (sum : list f32 -> f32).
Hypothesis Ob : octant_ok b.
Hypothesis Hb : (a_level b < 31).
Hypothesis HL : (1 <= length cs <= 8)%nat.
Hypothesis HS : forall M xs, (0 <= M <= bpow radix2 124)%R -> (1 <= length xs <= 8)%nat ->
  (forall y, In y xs -> valid32 y /\ is_fin y = true /\ (Rabs (fval y) <= M)%R) -> sum_ok M xs (sum xs).
Definition kid_ok (p : payload) : Prop := exists k, octant_ok k /\ a_level k = a_level b + 1 /\ good k p /\
  (rock_in inp k \/ water_in inp k) /\ (forall q, counts inp k q -> counts inp b q).
Hypothesis HK : forall p, In p cs -> kid_ok p.
Definition mean_of (f : prop6) : f32 := div32 (sum (map (get6 f) cs)) (i2f32 (Z.of_nat (length (map (get6 f) cs)))).

Lemma depth_kid k : octant_ok k -> a_level k = a_level b + 1 -> depth b = S (depth k).
Proof. intros (L & _) E. unfold depth. lia. Qed.
Lemma len6 f : (1 <= length (map (get6 f) cs) <= 8)%nat.
Proof. rewrite map_length. exact HL. Qed.

Lemma mean_in_range f lo hi M : (0 <= M <= bpow radix2 120)%R -> (- M <= lo)%R -> (hi <= M)%R ->
  (forall q, counts inp b q -> (lo <= fval (get6 f q) <= hi)%R) ->
  valid32 (mean_of f) /\ is_fin (mean_of f) = true /\
  (lo - (bnd (depth b) M - M) <= fval (mean_of f) <= hi + (bnd (depth b) M - M))%R.
Proof.
  intros HM Hlo Hhi H.
  set (k' := Nat.pred (depth b)). set (B := bnd k' M).
  assert (K : (k' <= 31)%nat) by (unfold k', depth; destruct Ob as ((L1 & L2) & _); lia).
  assert (DB : depth b = S k') by (unfold k', depth; lia).
  pose proof (bnd_121 k' M K HM) as B1. pose proof (bnd_ge k' M (proj1 HM)) as B0. fold B in B0, B1.
  assert (X : forall y, In y (map (get6 f) cs) -> valid32 y /\ is_fin y = true /\ (lo - (B - M) <= fval y <= hi + (B - M))%R).
  { intros y Hy. apply in_map_iff in Hy. destruct Hy as (p & <- & Hp). destruct (HK p Hp) as (k & Ok & Lk & G & D & C).
    split; [apply (g_valid k p G)|].
    destruct (g_range k p G f lo hi M HM Hlo Hhi (fun q Q => H q (C q Q)) D) as [F R].
    split; [exact F|]. pose proof (depth_kid k Ok Lk) as Dk. assert (depth k = k') by lia. unfold B. rewrite <- H0. exact R. }
  assert (X' : forall y, In y (map (get6 f) cs) -> valid32 y /\ is_fin y = true /\ (Rabs (fval y) <= B)%R).
  { intros y Hy. destruct (X y Hy) as (V & F & R). split; [exact V|]. split; [exact F|]. apply Rabs_le. lra. }
  assert (BB : (0 <= B <= bpow radix2 124)%R).
  { split; [lra|]. apply Rle_trans with (1 := B1). apply bpow_le. lia. }
  destruct (mean_range (lo - (B - M)) (hi + (B - M)) B _ _ BB (len6 f) X' (fun y Hy => proj2 (proj2 (X y Hy)))
    (HS B _ BB (len6 f) X')) as (V & F & R).
  split; [exact V|]. split; [exact F|]. unfold mean_of. rewrite DB. cbn [bnd]. fold B.
  revert R. set (m := fval _). clearbody m. intros R.
  assert (grow * B = B * (grow - 1) + B)%R by ring. lra.
Qed.

Lemma mean_big f p : In p cs -> valid32 (get6 f p) /\ is_fin (get6 f p) = true /\
  (- bpow radix2 121 <= fval (get6 f p) <= bpow radix2 121)%R.
Proof.
  intros Hp. destruct (HK p Hp) as (k & Ok & Lk & G & D & C). split; [apply (g_valid k p G)|]. exact (good_fin k p f G D Ok).
Qed.

Hypothesis HP : forall M xs, (0 <= M <= bpow radix2 124)%R -> (1 <= length xs <= 8)%nat ->
  (forall y, In y xs -> valid32 y /\ is_fin y = true /\ (Rabs (fval y) <= M)%R) ->
  (forall y, In y xs -> (0 < fval y)%R) -> (INR (length xs) * tiny <= fval (sum xs))%R.
Lemma mean_pos f : (forall p, In p cs -> (0 < fval (get6 f p))%R) -> (0 < fval (mean_of f))%R.
Proof.
  intros H.
  assert (B : (0 <= bpow radix2 121 <= bpow radix2 124)%R) by (split; [apply bpow_ge_0|apply bpow_le; lia]).
  assert (X : forall y, In y (map (get6 f) cs) -> valid32 y /\ is_fin y = true /\ (Rabs (fval y) <= bpow radix2 121)%R).
  { intros y Hy. apply in_map_iff in Hy. destruct Hy as (p & <- & Hp). destruct (mean_big f p Hp) as (V & F & R).
    split; [exact V|]. split; [exact F|]. apply Rabs_le, R. }
  apply (mean_positive (bpow radix2 121)); [exact B|apply len6|exact X|apply HS; [exact B|apply len6|exact X]|].
  apply (HP (bpow radix2 121)); [exact B|apply len6|exact X|]. intros y Hy. apply in_map_iff in Hy.
  destruct Hy as (p & <- & Hp). apply H, Hp.
Qed.

Lemma mean_never f : (forall p, In p cs -> (fval (get6 f p) <= 0)%R) -> (fval (mean_of f) <= 0)%R.
Proof.
  intros H. apply mean_nonpos; [apply len6| |].
  - intros y Hy. apply in_map_iff in Hy. destruct Hy as (p & <- & Hp). destruct (mean_big f p Hp) as (V & F & R).
    split; [exact V|]. split; [exact F|]. split; [lra|apply H, Hp].
  - intros M HM X. apply HS; [exact HM|apply len6|exact X].
Qed.
End Mean.

Lemma counts_up b k q : rock_in inp k \/ ~ rock_in inp b -> covers b k -> counts inp k q -> counts inp b q.
Proof.
  intros R C [(a & I & Ca) S]. split; [exists a; split; [exact I|exact (covers_trans _ _ _ C Ca)]|].
  destruct S as [S|(N & S)]; [left; exact S|]. right. split; [|exact S]. destruct R as [R|R]; [contradiction|exact R].
Qed.

Lemma solid_pos p : valid32 (p_vs p) -> solid p = true -> is_fin (p_vs p) = true -> (0 < fval (p_vs p))%R.
Proof.
  intros V S F. unfold solid in S. rewrite (flt_R prec32 emax32 f_zero (p_vs p) eq_refl V eq_refl F) in S.
  destruct (Rlt_bool_spec (SF2R radix2 f_zero) (SF2R radix2 (p_vs p))) as [H|H]; [exact H|discriminate].
Qed.

Lemma water_pos p : valid32 (p_vp p) -> water p = true -> is_fin (p_vp p) = true -> (0 < fval (p_vp p))%R.
Proof.
  intros V S F. unfold water in S. rewrite (flt_R prec32 emax32 f_zero (p_vp p) eq_refl V eq_refl F) in S.
  destruct (Rlt_bool_spec (SF2R radix2 f_zero) (SF2R radix2 (p_vp p))) as [H|H]; [exact H|discriminate].
Qed.

Lemma good_mean b p kids : octant_ok b -> above_input inp b -> StronglySorted etree_lt (map fst kids) ->
  (forall c, octant_ok c -> ((exists k, In k (map fst kids) /\ same_octant c k) <->
        populated inp c /\ a_level c = a_level b + 1 /\ covers b c)) ->
  (forall k v, In (k, v) kids -> octant_ok k /\ a_level k = a_level b + 1 /\ covers b k) ->
  (forall k v, In (k, v) kids -> good k v) -> mean_payload (map snd kids) p -> good b p.
Proof.
  intros Ob A ST EK KO KG [MP _].
  assert (LK : (length (map snd kids) <= 8)%nat).
  { rewrite map_length, <- (map_length fst). apply (children_few b); [exact Ob|exact ST|].
    intros k Ik. apply in_map_iff in Ik. destruct Ik as ([k' v] & Q & Ik). cbn [fst] in Q. subst k'. exact (KO k v Ik). }
  assert (Lb : a_level b < 31).
  { destruct A as (a & Ia & L & _). apply in_map_iff in Ia. destruct Ia as ([a' q] & Q & Ia). cbn [fst] in Q. subst a'.
    destruct (input_ok inp HW _ _ Ia) as ((_ & L') & _). lia. }
  assert (KI : forall q, inside inp b q -> exists k v, In (k, v) kids /\ inside inp k q).
  { intros q. apply (inside_child b kids q Ob A EK). }
  assert (KU : forall k v q, In (k, v) kids -> inside inp k q -> inside inp b q).
  { intros k v q Ik (a & Ia & C). exists a. split; [exact Ia|]. exact (covers_trans _ _ _ (proj2 (proj2 (KO k v Ik))) C). }
  unfold mean_prop in MP. set (cs := map snd kids) in *.
  destruct (filter solid cs) as [|s0 ss] eqn:FS.
  - (* no rock *)
    assert (NR : ~ rock_in inp b).
    { intros (q & Iq & S). destruct (KI q Iq) as (k & v & Ik & Iq').
      assert (Sv : solid v = true) by (apply (g_rock k v (KG k v Ik)); exists q; auto).
      assert (In v (filter solid cs)) by (apply filter_In; split; [apply in_map_iff; exists (k, v); auto|exact Sv]).
      rewrite FS in H. destruct H. }
    assert (NRk : forall k v, In (k, v) kids -> ~ rock_in inp k).
    { intros k v Ik (q & Iq & S). apply NR. exists q. split; [exact (KU k v q Ik Iq)|exact S]. }
    destruct (filter water cs) as [|w0 ws] eqn:FW.
    + (* no data *)
      assert (NW : ~ water_in inp b).
      { intros (q & Iq & S). destruct (KI q Iq) as (k & v & Ik & Iq').
        assert (Wv : water v = true) by (apply (g_water k v (KG k v Ik) (NRk k v Ik)); exists q; auto).
        assert (In v (filter water cs)) by (apply filter_In; split; [apply in_map_iff; exists (k, v); auto|exact Wv]).
        rewrite FW in H. destruct H. }
      assert (Vs : p_vs p = i2f32 (-999)) by exact (MP PVs). assert (Vp : p_vp p = i2f32 (-999)) by exact (MP PVp).
      constructor.
      * intros f. rewrite (MP f). reflexivity.
      * split; [|intros H; contradiction]. unfold solid. rewrite Vs. intros H. vm_compute in H. discriminate.
      * intros _. split; [|intros H; contradiction]. unfold water. rewrite Vp. intros H. vm_compute in H. discriminate.
      * intros f lo hi M _ _ _ _ [H|H]; contradiction.
      * intros _ _ _ f. exact (MP f).
    + (* water *)
      assert (IW : forall v, In v (w0 :: ws) -> exists k, In (k, v) kids /\ water v = true).
      { intros v Iv. rewrite <- FW in Iv. apply filter_In in Iv. destruct Iv as [Iv Wv]. apply in_map_iff in Iv.
        destruct Iv as ([k v'] & Q & Ik). cbn [snd] in Q. subst v'. exists k. auto. }
      assert (WK : forall k v, In (k, v) kids -> water v = true -> water_in inp k).
      { intros k v Ik Wv. apply (g_water k v (KG k v Ik) (NRk k v Ik)), Wv. }
      assert (WB : water_in inp b).
      { destruct (IW w0 (or_introl eq_refl)) as (k & Ik & Wv). destruct (WK k w0 Ik Wv) as (q & Iq & S).
        exists q. split; [exact (KU k w0 q Ik Iq)|exact S]. }
      assert (HL : (1 <= length (w0 :: ws) <= 8)%nat).
      { rewrite <- FW. split; [rewrite FW; cbn [length]; lia|]. apply Nat.le_trans with (length cs); [apply filter_len|exact LK]. }
      assert (HK : forall v, In v (w0 :: ws) -> kid_ok b v).
      { intros v Iv. destruct (IW v Iv) as (k & Ik & Wv). destruct (KO k v Ik) as (Ok & Lk & Ck). exists k.
        split; [exact Ok|]. split; [exact Lk|]. split; [exact (KG k v Ik)|]. split; [right; exact (WK k v Ik Wv)|].
        intros q. apply counts_up; [right; exact NR|exact Ck]. }
      assert (HS : forall M xs, (0 <= M <= bpow radix2 124)%R -> (1 <= length xs <= 8)%nat ->
        (forall y, In y xs -> valid32 y /\ is_fin y = true /\ (Rabs (fval y) <= M)%R) -> sum_ok M xs (sum_water xs)).
      { intros M xs HM HX X. apply sum_water_ok; [exact HM|lia|exact X]. }
      assert (MQ : forall f, get6 f p = mean_of (w0 :: ws) sum_water f).
      { intros f. rewrite (MP f). unfold mean_of. rewrite map_length. reflexivity. }
      assert (B0 : forall f q, counts inp b q -> (- bpow radix2 120 <= fval (get6 f q) <= bpow radix2 120)%R)
        by (intros f q; apply counts_big).
      assert (VF : forall f, valid32 (get6 f p) /\ is_fin (get6 f p) = true).
      { intros f. rewrite MQ. destruct (mean_in_range b (w0 :: ws) sum_water Ob Lb HL HS HK f _ _ _ big_M (Rle_refl _) (Rle_refl _) (B0 f)) as (V & F & _). auto. }
      assert (POS : (0 < fval (p_vp p))%R).
      { change (p_vp p) with (get6 PVp p). rewrite MQ. apply (mean_pos b (w0 :: ws) sum_water HL HS HK sum_water_tiny).
        intros v Iv. destruct (IW v Iv) as (k & Ik & Wv). change (get6 PVp v) with (p_vp v).
        apply water_pos; [apply (g_valid k v (KG k v Ik) PVp)|exact Wv|].
        apply (good_fin k v PVp (KG k v Ik)); [right; exact (WK k v Ik Wv)|apply (KO k v Ik)]. }
      constructor.
      * intros f. apply VF.
      * split; [|intros H; contradiction]. intros S. exfalso.
        assert (H : (fval (mean_of (w0 :: ws) sum_water PVs) <= 0)%R).
        { apply (mean_never b (w0 :: ws) sum_water HL HS HK). intros v Iv. destruct (IW v Iv) as (k & Ik & Wv).
          change (get6 PVs v) with (p_vs v). destruct (KO k v Ik) as (Ok & _).
          apply not_solid_nonpos.
          - apply (g_valid k v (KG k v Ik) PVs).
          - apply (good_fin k v PVs (KG k v Ik)); [right; exact (WK k v Ik Wv)|exact Ok].
          - destruct (solid v) eqn:E; [|reflexivity]. exfalso. apply (NRk k v Ik), (g_rock k v (KG k v Ik)), E. }
        rewrite <- MQ in H. apply (solid_pos p (proj1 (VF PVs))) in S; [|exact (proj2 (VF PVs))].
        change (get6 PVs p) with (p_vs p) in H. lra.
      * intros _. split; [intros _; exact WB|]. intros _. apply pos_water; [exact (proj2 (VF PVp))|exact POS].
      * intros f lo hi M HM Hlo Hhi H _. rewrite MQ.
        destruct (mean_in_range b (w0 :: ws) sum_water Ob Lb HL HS HK f lo hi M HM Hlo Hhi H) as (_ & F & R). auto.
      * intros _ _ H; contradiction.
  - (* rock *)
    assert (IR : forall v, In v (s0 :: ss) -> exists k, In (k, v) kids /\ rock_in inp k).
    { intros v Iv. rewrite <- FS in Iv. apply filter_In in Iv. destruct Iv as [Iv Sv]. apply in_map_iff in Iv.
      destruct Iv as ([k v'] & Q & Ik). cbn [snd] in Q. subst v'. exists k. split; [exact Ik|]. apply (g_rock k v (KG k v Ik)), Sv. }
    assert (RB : rock_in inp b).
    { destruct (IR s0 (or_introl eq_refl)) as (k & Ik & q & Iq & S). exists q. split; [exact (KU k s0 q Ik Iq)|exact S]. }
    assert (HL : (1 <= length (s0 :: ss) <= 8)%nat).
    { rewrite <- FS. split; [rewrite FS; cbn [length]; lia|]. apply Nat.le_trans with (length cs); [apply filter_len|exact LK]. }
    assert (HK : forall v, In v (s0 :: ss) -> kid_ok b v).
    { intros v Iv. destruct (IR v Iv) as (k & Ik & Rk). destruct (KO k v Ik) as (Ok & Lk & Ck). exists k.
      split; [exact Ok|]. split; [exact Lk|]. split; [exact (KG k v Ik)|]. split; [left; exact Rk|].
      intros q. apply counts_up; [left; exact Rk|exact Ck]. }
    assert (HS : forall M xs, (0 <= M <= bpow radix2 124)%R -> (1 <= length xs <= 8)%nat ->
      (forall y, In y xs -> valid32 y /\ is_fin y = true /\ (Rabs (fval y) <= M)%R) -> sum_ok M xs (sum_solid xs)) by exact sum_solid_ok.
    assert (MQ : forall f, get6 f p = mean_of (s0 :: ss) sum_solid f).
    { intros f. rewrite (MP f). unfold mean_of. rewrite map_length. reflexivity. }
    assert (VF : forall f, valid32 (get6 f p) /\ is_fin (get6 f p) = true).
    { intros f. rewrite MQ. destruct (mean_in_range b (s0 :: ss) sum_solid Ob Lb HL HS HK f _ _ _ big_M (Rle_refl _) (Rle_refl _) (fun q => counts_big b f q)) as (V & F & _). auto. }
    assert (POS : (0 < fval (p_vs p))%R).
    { change (p_vs p) with (get6 PVs p). rewrite MQ. apply (mean_pos b (s0 :: ss) sum_solid HL HS HK sum_solid_tiny).
      intros v Iv. destruct (IR v Iv) as (k & Ik & Rk). change (get6 PVs v) with (p_vs v).
      apply solid_pos; [apply (g_valid k v (KG k v Ik) PVs)|apply (g_rock k v (KG k v Ik)), Rk|].
      apply (good_fin k v PVs (KG k v Ik)); [left; exact Rk|apply (KO k v Ik)]. }
    constructor.
    + intros f. apply VF.
    + split; [intros _; exact RB|]. intros _. apply pos_solid; [exact (proj2 (VF PVs))|exact POS].
    + intros H; contradiction.
    + intros f lo hi M HM Hlo Hhi H _. rewrite MQ.
      destruct (mean_in_range b (s0 :: ss) sum_solid Ob Lb HL HS HK f lo hi M HM Hlo Hhi H) as (_ & F & R). auto.
    + intros _ H; contradiction.
Qed.

Lemma averaged_ok b p : averaged inp b p -> octant_ok b.
Proof. intros []; [exact (input_ok inp HW _ _ H)|assumption]. Qed.

Lemma averaged_good b p : averaged inp b p -> good b p.
Proof.
  remember (Z.to_nat (31 - a_level b)) as n eqn:En. revert b p En.
  induction n as [n IH] using (well_founded_induction Nat.lt_wf_0). intros b p -> H.
  destruct H as [a q I|b q kids Ob A ST EK KA M]; [exact (good_input a q I)|].
  assert (KO : forall k v, In (k, v) kids -> octant_ok k /\ a_level k = a_level b + 1 /\ covers b k).
  { intros k v Ik. pose proof (averaged_ok k v (KA k v Ik)) as Ok. split; [exact Ok|].
    destruct (proj1 (EK k Ok)) as (_ & L & C); [|auto]. exists k. split; [apply in_map_iff; exists (k, v); auto|]. repeat split. }
  apply (good_mean b q kids Ob A ST EK KO); [|exact M].
  intros k v Ik. destruct (KO k v Ik) as (Ok & L & _). apply (IH (Z.to_nat (31 - a_level k))); [|reflexivity|exact (KA k v Ik)].
  destruct Ok as ((L1 & L2) & _). lia.
Qed.
End Tree.
