(** Averaging: the results of AvgProof, AvgOverlap and AvgBounds stated for a
    run of the engine, and a checker for well-formed inputs. *)
From Coq Require Import ZArith Bool String Reals Lra Lia Sorting.Sorted List.
From Flocq Require Import Core BinarySingleNaN.
From Verif Require Import Outcome Float Payload Addr SpecOct SpecAvg AddrFacts AvgEngine PathFacts
  AvgInv AvgOverlap FloatFacts AvgProof AvgBounds.
Import ListNotations.
Open Scope Z_scope.

Section Final.
Variable st : storage.
Hypothesis Hst : accepts st.
Variable inp : list (addr * payload).
Hypothesis Hwf : wf_input inp.

Lemma run_of s : fillOctants st inp = Val s -> exists N C val, run_ok st inp s N C val.
Proof.
  intros E. destruct (run_exists st Hst inp Hwf) as (s' & N & C & val & R).
  assert (s' = s) by (pose proof (r_run _ _ _ _ _ _ R); congruence). subst s'. eauto.
Qed.

Lemma final_succeeds : exists s, fillOctants st inp = Val s /\
  (forall r, In r (e_db s) -> exists p, o_pay r = Some p).
Proof.
  destruct (run_exists st Hst inp Hwf) as (s & N & C & val & R).
  exists s. split; [exact (r_run _ _ _ _ _ _ R)|]. intros r. eapply out_filled; eauto.
Qed.

Lemma final_keeps s : fillOctants st inp = Val s -> forall a p, In (a, p) inp ->
  filter (fun r => same_key (o_addr r) a) (e_db s) = [mkOrec a (Some p)].
Proof. intros E a p H. destruct (run_of s E) as (N & C & val & R). eapply out_keeps; eauto. Qed.

Lemma final_adds s : fillOctants st inp = Val s ->
  (forall r, In r (e_db s) ->
     exists p, o_pay r = Some p /\
     (In (o_addr r, p) inp \/
      (a_type (o_addr r) = Interior /\ octant_ok (o_addr r) /\
       exists l, In l (map fst inp) /\ ancestor_of (o_addr r) l))) /\
  (forall a l, octant_ok a -> In l (map fst inp) -> ancestor_of a l ->
     exists p, filter (fun r => same_key (o_addr r) a) (e_db s) =
       [mkOrec (mkAddr (a_x a) (a_y a) (a_z a) 0 (a_level a) Interior) (Some p)]).
Proof.
  intros E. destruct (run_of s E) as (N & C & val & R). split.
  - intros r Hr. destruct (out_record st inp Hwf s N C val R r Hr) as (p & H1 & H2).
    exists p. split; [exact H1|]. destruct H2 as [H2|(_ & H2)]; [left | right]; exact H2.
  - intros a l. eapply out_all; eauto.
Qed.

Lemma final_order s : fillOctants st inp = Val s -> StronglySorted etree_lt (map o_addr (e_db s)).
Proof. intros E. destruct (run_of s E) as (N & C & val & R). eapply out_sorted; eauto. Qed.

Lemma final_mean s : (forall a p, In (a, p) inp -> proper_values p) ->
  fillOctants st inp = Val s ->
  forall r p, In r (interior_records inp (e_db s)) -> o_pay r = Some p ->
  mean_payload (values (children (e_db s) (o_addr r))) p.
Proof.
  intros HV E r p Hr Hp. destruct (run_of s E) as (N & C & val & R).
  apply filter_In in Hr. destruct Hr as [Hr Hi]. apply negb_true_iff in Hi.
  eapply out_mean; eauto.
Qed.

Lemma final_counters s : fillOctants st inp = Val s ->
  e_cnt s = mkCnt (Z.of_nat (List.length inp)) (Z.of_nat (List.length (e_db s)))
    (Z.of_nat (List.length (interior_records inp (e_db s))))
    (count_with inp (e_db s) missing_x) (count_with inp (e_db s) missing_y)
    (count_with inp (e_db s) missing_z) (count_with inp (e_db s) missing_xy)
    (count_with inp (e_db s) missing_yz) (count_with inp (e_db s) missing_xz)
    (count_with inp (e_db s) missing_xyz) (count_irregular inp (e_db s)) /\
  List.length (e_db s) = (List.length inp + List.length (interior_records inp (e_db s)))%nat.
Proof.
  intros E. destruct (run_of s E) as (N & C & val & R). split.
  - eapply out_counters; eauto.
  - pose proof (out_total st inp Hwf s N C val R). lia.
Qed.

(** Rounding error of the stored means. *)

Lemma final_error s : (forall a p, In (a, p) inp -> proper_values p) ->
  fillOctants st inp = Val s ->
  forall r p f M, In r (interior_records inp (e_db s)) -> o_pay r = Some p ->
  let xs := map (get6 f) (contributors (values (children (e_db s) (o_addr r)))) in
  xs <> [] -> (0 <= M <= bpow radix2 124)%R ->
  (forall x, In x xs -> is_fin x = true /\ (Rabs (fval x) <= M)%R) ->
  is_fin (get6 f p) = true /\
  (Rabs (fval (get6 f p) - rsum (map fval xs) / INR (List.length xs)) <=
    M * ((1 + u32) ^ S (List.length xs) - 1) + eta32)%R.
Proof.
  intros HV E r p f M Hr Hp xs Hne HM Hx.
  pose proof (final_mean s HV E r p Hr Hp) as (Hm & _). specialize (Hm f).
  destruct (run_of s E) as (N & C & val & R).
  apply filter_In in Hr. destruct Hr as [Hr Hi].
  set (cs := values (children (e_db s) (o_addr r))) in *.
  assert (HL : (List.length cs <= 8)%nat).
  { apply (rec_in st inp s N C val R) in Hr. destruct Hr as (n & Hn & ->). unfold cs.
    rewrite (values_children st inp s N C val R n Hn). unfold pays. rewrite map_length. apply kids_len. }
  assert (HP : forall c, In c cs -> proper_values c).
  { intros c Hc. unfold cs, values in Hc. apply in_flat_map in Hc. destruct Hc as (r' & Hr' & Hc).
    destruct (o_pay r') eqn:Ep; [|destruct Hc]. destruct Hc as [<-|[]].
    unfold children in Hr'. apply filter_In in Hr'. destruct Hr' as [Hr' _].
    eapply out_proper; eauto. }
  assert (HX : forall x, In x xs -> valid32 x /\ is_fin x = true /\ (Rabs (fval x) <= M)%R).
  { intros x Hin. destruct (Hx x Hin) as [H1 H2]. split; [|auto].
    unfold xs in Hin. apply in_map_iff in Hin. destruct Hin as (c & <- & Hc).
    apply HP. unfold contributors in Hc. destruct (filter solid cs) as [|s0 ss] eqn:ES.
    - apply filter_In in Hc. tauto.
    - rewrite <- ES in Hc. apply filter_In in Hc. tauto. }
  assert (HLx : (1 <= List.length xs <= 8)%nat).
  { unfold xs in *. rewrite map_length. clear HX Hx Hm.
    pose proof (filter_len solid cs). pose proof (filter_len water cs).
    unfold contributors in *. destruct (filter solid cs) as [|s0 ss].
    - destruct (filter water cs); [cbn in Hne; congruence|]. cbn [List.length] in *; lia.
    - cbn [List.length] in *; lia. }
  unfold mean_prop in Hm. unfold contributors in xs.
  destruct (filter solid cs) as [|s0 ss] eqn:ES.
  - destruct (filter water cs) as [|w0 ws] eqn:EW; [exfalso; apply Hne; reflexivity|].
    assert (L : List.length (w0 :: ws) = List.length xs) by (unfold xs; rewrite map_length; reflexivity).
    rewrite L in Hm. rewrite Hm.
    apply (mean_ok M xs); [exact HM | exact HLx | exact HX|].
    apply sum_water_ok; [exact HM | apply (proj2 HLx) | exact HX].
  - assert (L : List.length (s0 :: ss) = List.length xs) by (unfold xs; rewrite map_length; reflexivity).
    rewrite L in Hm. rewrite Hm.
    apply (mean_ok M xs); [exact HM | exact HLx | exact HX|].
    apply sum_solid_ok; [exact HM | exact HLx | exact HX].
Qed.
End Final.

Lemma final_overlap st inp : accepts st -> refuses_duplicates st ->
  (forall a, In a (map fst inp) -> octant_ok a /\ 1 <= a_level a) ->
  StronglySorted etree_lt (map fst inp) ->
  (exists a b, In a (map fst inp) /\ In b (map fst inp) /\ ancestor_of a b) ->
  exists msg, fillOctants st inp = Throw msg.
Proof.
  intros Hst Hdup Hok Hord (a & b & Ha & Hb & Hanc).
  rewrite <- (map_in_rec_conv inp) by (intros x Hx; apply Hok, Hx).
  apply (overlap_throws st Hst Hdup).
  - intros x Hx. apply in_map_iff in Hx. destruct Hx as ([c p] & <- & Hin).
    apply (in_map fst) in Hin. destruct (Hok _ Hin) as [H1 H2]. cbn [fst] in *.
    unfold in_path, conv; cbn [fst]. split; [apply path_of_ok, H1|].
    intros E. pose proof (path_of_length c (proj1 (proj1 H1))) as L. rewrite E in L. cbn in L. lia.
  - rewrite map_in_path_conv. apply sorted_map. exact Hord.
  - apply ancestor_path in Hanc; [|apply Hok, Ha | apply Hok, Hb].
    apply in_map_iff in Ha. destruct Ha as (xa & <- & Ha).
    apply in_map_iff in Hb. destruct Hb as (xb & <- & Hb).
    exists (conv xa), (conv xb). split; [apply in_map, Ha|]. split; [apply in_map, Hb|]. exact Hanc.
Qed.

Lemma final_root_alone st a p : a_level a <= 0 ->
  st_begin_ok st = true -> st_end_ok st = true ->
  exists s, fillOctants st [(a, p)] = Val s /\ e_db s = [] /\ e_cnt s = mkCnt 0 0 0 0 0 0 0 0 0 0 0.
Proof.
  intros Hl Hb He. exists engine0. unfold fillOctants. rewrite Hb, He.
  cbn [averageAll]. unfold averageOctant. rewrite (proj2 (Z.leb_le _ _) Hl). cbn [bind].
  split; [reflexivity | split; reflexivity].
Qed.

Lemma final_root_dropped st a p rest : a_level a <= 0 -> rest <> [] ->
  fillOctants st ((a, p) :: rest) = fillOctants st rest.
Proof.
  intros Hl Hr. unfold fillOctants. destruct rest as [|y ys]; [congruence|].
  cbn [averageAll]. unfold averageOctant at 1. rewrite (proj2 (Z.leb_le _ _) Hl). cbn [bind]. reflexivity.
Qed.

Lemma final_overlap0 st inp : accepts st -> refuses_duplicates st ->
  (forall a, In a (map fst inp) -> octant_ok a) ->
  StronglySorted etree_lt (map fst inp) ->
  (exists a b, In a (map fst inp) /\ In b (map fst inp) /\ 1 <= a_level a /\ ancestor_of a b) ->
  exists msg, fillOctants st inp = Throw msg.
Proof.
  intros Hst Hdup Hok Hord (a & b & Ha & Hb & La & Hanc). destruct inp as [|[r p] rest]; [destruct Ha|].
  cbn [map fst] in Hord. inversion Hord as [|? ? So Fr]; subst. rewrite Forall_forall in Fr.
  assert (Lrest : forall c, In c (map fst rest) -> 1 <= a_level c).
  { intros c Hc. specialize (Fr c Hc). unfold etree_lt in Fr.
    destruct (Hok c (or_intror Hc)) as [[L0 _] _]. pose proof (path_of_length c L0) as Q.
    destruct (path_of r), (path_of c); cbn in Fr, Q; lia || contradiction. }
  destruct (Z_le_gt_dec (a_level r) 0) as [L|L].
  - assert (Ar : In a (map fst rest)) by (destruct Ha as [<-|Ha]; [cbn [fst] in La; lia|exact Ha]).
    assert (Br : In b (map fst rest)).
    { destruct Hb as [<-|Hb]; [|exact Hb]. exfalso. pose proof (proj1 Hanc). cbn [fst] in *. lia. }
    rewrite final_root_dropped; [|exact L|intros ->; destruct Ar]. apply final_overlap; try assumption.
    + intros c Hc. split; [apply Hok; right; exact Hc|exact (Lrest c Hc)].
    + exists a, b. auto.
  - apply final_overlap; try assumption.
    + intros c Hc. split; [exact (Hok c Hc)|]. destruct Hc as [<-|Hc]; [cbn [fst]; lia|exact (Lrest c Hc)].
    + exists a, b. auto.
Qed.

(** ** Averaging twice *)
Lemma sorted_same {X} (R : X -> X -> Prop) : (forall x, ~ R x x) -> (forall x y, R x y -> ~ R y x) ->
  forall l1 l2, StronglySorted R l1 -> StronglySorted R l2 -> (forall x, In x l1 <-> In x l2) -> l1 = l2.
Proof.
  intros I A. induction l1 as [|x l1 IH]; intros l2 S1 S2 H.
  - destruct l2 as [|y l2]; [reflexivity|]. destruct (proj2 (H y) (or_introl eq_refl)).
  - destruct l2 as [|y l2]; [destruct (proj1 (H x) (or_introl eq_refl))|].
    inversion S1 as [|? ? S1' F1]; inversion S2 as [|? ? S2' F2]; subst. rewrite Forall_forall in F1, F2.
    assert (E : x = y).
    { destruct (proj1 (H x) (or_introl eq_refl)) as [E|Hx]; [congruence|].
      destruct (proj2 (H y) (or_introl eq_refl)) as [E|Hy]; [congruence|].
      destruct (A _ _ (F1 _ Hy) (F2 _ Hx)). }
    subst y. f_equal. apply IH; [assumption|assumption|]. intros z. split; intros Hz.
    + destruct (proj1 (H z) (or_intror Hz)) as [<-|Q]; [destruct (I _ (F1 _ Hz))|exact Q].
    + destruct (proj2 (H z) (or_intror Hz)) as [<-|Q]; [destruct (I _ (F2 _ Hz))|exact Q].
Qed.

Section Twice.
Variable st : storage.
Hypothesis Hst : accepts st.
Variable inp : list (addr * payload).
Hypothesis Hwf : wf_input inp.
Variable s : est.
Hypothesis Hrun : fillOctants st inp = Val s.

Lemma in_output_ok r : In r (e_db s) -> octant_ok (o_addr r).
Proof.
  intros H. destruct (proj1 (final_adds st Hst inp Hwf s Hrun) r H) as (p & _ & [Q|(_ & Q & _)]); [|exact Q].
  apply (wf_octants _ Hwf), (in_map fst _ _ Q).
Qed.
Lemma root_first : exists p rest, e_db s = mkOrec (mkAddr 0 0 0 0 0 Interior) (Some p) :: rest /\
  forall r, In r rest -> 1 <= a_level (o_addr r).
Proof.
  destruct inp as [|[l0 p0] inp'] eqn:Ei; [destruct (wf_nonempty _ Hwf eq_refl)|].
  destruct (wf_octants _ Hwf l0 (or_introl eq_refl)) as [O1 O2].
  set (root := mkAddr 0 0 0 0 0 Interior).
  assert (Or : octant_ok root) by exact (addr_of_ok [] Interior path_ok_nil).
  assert (Pr : path_of root = []) by reflexivity.
  assert (An : ancestor_of root l0).
  { apply ancestor_path; [exact Or|exact O1|]. rewrite Pr. split; [apply prefix_nil|]. intros E.
    pose proof (path_of_length l0 (proj1 (proj1 O1))) as Q. rewrite <- E in Q. cbn in Q. lia. }
  rewrite <- Ei in *. assert (Hin : In l0 (map fst inp)) by (rewrite Ei; left; reflexivity).
  destruct (proj2 (final_adds st Hst inp Hwf s Hrun) root l0 Or Hin An) as (p & F).
  assert (Hr : In (mkOrec root (Some p)) (e_db s)).
  { assert (Q : In (mkOrec root (Some p)) (filter (fun r => same_key (o_addr r) root) (e_db s))) by (rewrite F; left; reflexivity).
    apply filter_In in Q. apply Q. }
  exists p. destruct (in_split _ _ Hr) as (x & y & E). pose proof (final_order st Hst inp Hwf s Hrun) as So.
  pose proof in_output_ok as Ok. rewrite E in So. rewrite map_app in So. cbn [map o_addr] in So.
  assert (Ex : x = []).
  { destruct x as [|z x]; [reflexivity|]. cbn [map app] in So. inversion So as [|? ? _ Fz]; subst. rewrite Forall_forall in Fz.
    specialize (Fz root). rewrite in_app_iff in Fz. specialize (Fz (or_intror (or_introl eq_refl))).
    unfold etree_lt in Fz. rewrite Pr in Fz. destruct (path_of (o_addr z)); destruct Fz. }
  subst x. exists y. split; [exact E|]. intros r Hy. cbn [map app] in So. inversion So as [|? ? _ Fy]; subst.
  rewrite Forall_forall in Fy. specialize (Fy (o_addr r) (in_map o_addr _ _ Hy)). unfold etree_lt in Fy. rewrite Pr in Fy.
  assert (Ho : octant_ok (o_addr r)) by (apply Ok; rewrite E; right; exact Hy).
  pose proof (path_of_length _ (proj1 (proj1 Ho))) as Q. destruct (path_of (o_addr r)); [destruct Fy|]. cbn in Q. lia.
Qed.

Variable recs : list (addr * payload).
Hypothesis Hrecs : map (fun x => mkOrec (fst x) (Some (snd x))) recs = e_db s.

Lemma recs_split : exists p rest, recs = (mkAddr 0 0 0 0 0 Interior, p) :: rest /\
  (forall a, In a (map fst rest) -> octant_ok a /\ 1 <= a_level a) /\
  StronglySorted etree_lt (map fst rest) /\ (forall x, In x inp -> In x rest).
Proof.
  destruct root_first as (p & rest & E & Hl). rewrite E in Hrecs.
  destruct recs as [|[a0 q0] rest']; [discriminate|]. cbn [map fst snd] in Hrecs. injection Hrecs as -> -> Er.
  exists p, rest'. split; [reflexivity|]. pose proof (final_order st Hst inp Hwf s Hrun) as So. rewrite E in So. cbn [map o_addr] in So.
  split; [|split].
  - intros a Ha. apply in_map_iff in Ha. destruct Ha as (x & <- & Hx).
    assert (Q : In (mkOrec (fst x) (Some (snd x))) rest).
    { rewrite <- Er. apply (in_map (fun x => mkOrec (fst x) (Some (snd x)))), Hx. }
    split; [apply (in_output_ok (mkOrec (fst x) (Some (snd x)))); rewrite E; right; exact Q | exact (Hl _ Q)].
  - inversion So as [|? ? S1 _]; subst. rewrite map_map in S1. exact S1.
  - intros [a q] Hx. pose proof (final_keeps st Hst inp Hwf s Hrun a q Hx) as K.
    assert (Q : In (mkOrec a (Some q)) (e_db s)).
    { assert (Q : In (mkOrec a (Some q)) (filter (fun r => same_key (o_addr r) a) (e_db s))) by (rewrite K; left; reflexivity).
      apply filter_In in Q. apply Q. }
    rewrite E in Q. destruct Q as [Q|Q].
    + exfalso. apply (f_equal (fun r => a_level (o_addr r))) in Q. cbn [o_addr a_level] in Q.
      pose proof (proj2 (wf_octants _ Hwf a (in_map fst _ _ Hx))). lia.
    + rewrite <- Er in Q. apply in_map_iff in Q. destruct Q as ([b t] & Q & Hb). cbn [fst snd] in Q. injection Q as -> ->. exact Hb.
Qed.

Lemma final_twice : refuses_duplicates st -> (exists a, In a (map fst inp) /\ 2 <= a_level a) ->
  exists msg, fillOctants st recs = Throw msg.
Proof.
  intros Hdup (a & Ha & La). destruct recs_split as (p & rest & E & Ok & So & Sub). rewrite E.
  assert (Ar : In a (map fst rest)).
  { apply in_map_iff in Ha. destruct Ha as (x & <- & Hx). apply in_map, Sub, Hx. }
  assert (Hne : rest <> []) by (intros ->; destruct Ar).
  rewrite final_root_dropped; [|cbn; lia|exact Hne]. apply final_overlap; try assumption.
  destruct (wf_octants _ Hwf a Ha) as [Oa _]. pose proof (path_of_ok a Oa) as Pa. pose proof (path_of_length a (proj1 (proj1 Oa))) as Ln.
  set (b := addr_of (firstn 1 (path_of a)) Interior).
  assert (Pb : path_ok (firstn 1 (path_of a))).
  { apply path_ok_app with (q := skipn 1 (path_of a)). rewrite firstn_skipn. exact Pa. }
  assert (Ob : octant_ok b) by (apply addr_of_ok, Pb).
  assert (Eb : path_of b = firstn 1 (path_of a)) by (apply path_of_addr_of, Pb).
  assert (Lf : List.length (firstn 1 (path_of a)) = 1%nat) by (rewrite firstn_length; lia).
  assert (An : ancestor_of b a).
  { apply ancestor_path; [exact Ob|exact Oa|]. rewrite Eb. split; [apply prefix_firstn|]. intros Q. rewrite Q in Lf. lia. }
  destruct (proj2 (final_adds st Hst inp Hwf s Hrun) b a Ob Ha An) as (q & F).
  set (b' := mkAddr (a_x b) (a_y b) (a_z b) 0 (a_level b) Interior) in F.
  assert (Q : In (mkOrec b' (Some q)) (e_db s)).
  { assert (Q : In (mkOrec b' (Some q)) (filter (fun r => same_key (o_addr r) b) (e_db s))) by (rewrite F; left; reflexivity).
    apply filter_In in Q. apply Q. }
  exists b', a. split; [|split; [exact Ar|exact An]].
  rewrite <- Hrecs, E in Q. cbn [map fst snd] in Q. destruct Q as [Q|Q].
  - exfalso. apply (f_equal (fun r => a_level (o_addr r))) in Q. cbn [o_addr a_level b'] in Q. unfold b in Q. rewrite addr_of_level, Lf in Q. discriminate.
  - apply in_map_iff in Q. destruct Q as ([c t] & Q & Hc). cbn [fst snd] in Q. injection Q as Q1 Q2. rewrite <- Q1. exact (in_map fst _ _ Hc).
Qed.

Lemma final_twice_flat : (forall a, In a (map fst inp) -> a_level a = 1) -> fillOctants st recs = Val s.
Proof.
  intros H1. destruct recs_split as (p & rest & E & Ok & So & Sub). rewrite E.
  assert (Hne : rest <> []).
  { pose proof (wf_nonempty _ Hwf) as N. destruct inp as [|x ?]; [congruence|]. specialize (Sub x (or_introl eq_refl)). intros ->. destruct Sub. }
  rewrite final_root_dropped; [|cbn; lia|exact Hne]. rewrite <- Hrun. f_equal.
  assert (S2 : forall l, StronglySorted etree_lt (map fst l) -> StronglySorted (fun x y : addr * payload => etree_lt (fst x) (fst y)) l).
  { clear. induction l as [|x l IH]; intros H; [constructor|]. cbn [map] in H. inversion H as [|? ? H1 H2]; subst. constructor; [exact (IH H1)|].
    rewrite Forall_forall in *. intros y Hy. apply H2, in_map, Hy. }
  apply (sorted_same (fun x y : addr * payload => etree_lt (fst x) (fst y))).
  - intros x. exact (path_lt_irrefl _).
  - intros x y. exact (path_lt_asym _ _).
  - apply S2, So.
  - apply S2, (wf_order _ Hwf).
  - intros [a q]. split; [|exact (Sub _)]. intros Hx.
    assert (Q : In (mkOrec a (Some q)) (e_db s)).
    { rewrite <- Hrecs, E. right. exact (in_map (fun x => mkOrec (fst x) (Some (snd x))) _ _ Hx). }
    destruct (proj1 (final_adds st Hst inp Hwf s Hrun) _ Q) as (q' & Eq & [R|(_ & _ & l & Hl & An)]).
    + cbn [o_pay o_addr] in *. congruence.
    + exfalso. cbn [o_addr] in An. pose proof (proj1 An). pose proof (proj2 (Ok a (in_map fst _ _ Hx))). rewrite (H1 _ Hl) in *. lia.
Qed.
End Twice.

(** ** Checking concrete inputs *)
Fixpoint path_ltb (p q : list Z) : bool :=
  match p, q with
  | [], [] => false
  | [], _ :: _ => true
  | _ :: _, [] => false
  | a :: p', b :: q' => (a <? b) || ((a =? b) && path_ltb p' q')
  end.
Lemma path_ltb_sound p : forall q, path_ltb p q = true -> path_lt p q.
Proof.
  induction p as [|a p IH]; intros [|b q]; cbn; try discriminate; try tauto.
  rewrite orb_true_iff, andb_true_iff, Z.ltb_lt, Z.eqb_eq.
  intros [H|[H1 H2]]; [left; exact H | right; split; [exact H1 | apply IH, H2]].
Qed.
Fixpoint sortedb {A} (f : A -> A -> bool) (l : list A) : bool :=
  match l with [] => true | a :: r => forallb (f a) r && sortedb f r end.
Lemma sortedb_sound {A} (f : A -> A -> bool) (P : A -> A -> Prop) l :
  (forall a b, f a b = true -> P a b) -> sortedb f l = true -> StronglySorted P l.
Proof.
  intros H. induction l as [|a l IH]; cbn; intros E; constructor; apply andb_true_iff in E.
  - apply IH, E.
  - rewrite Forall_forall. intros b Hb. apply H. destruct E as [E _].
    rewrite forallb_forall in E. apply E, Hb.
Qed.
Definition octant_okb (a : addr) : bool :=
  (0 <=? a_level a) && (a_level a <=? 31) && (a_t a =? 0) &&
  forallb (fun c => (0 <=? c) && (c <? 2 ^ 31) && (c mod side (a_level a) =? 0))
          [a_x a; a_y a; a_z a].
Lemma octant_okb_sound a : octant_okb a = true -> octant_ok a.
Proof.
  unfold octant_okb. rewrite !andb_true_iff, !Z.leb_le, Z.eqb_eq, forallb_forall.
  intros [[[H1 H2] H3] H4]. split; [lia|]. split; [exact H3|]. intros c Hc.
  specialize (H4 c Hc). rewrite !andb_true_iff, Z.leb_le, Z.ltb_lt, Z.eqb_eq in H4.
  destruct H4 as [[H4 H5] H6]. split; [lia|].
  apply Z.mod_divide; [|exact H6]. unfold side. apply Z.pow_nonzero; lia.
Qed.
Definition ancestorb (a b : addr) : bool := (a_level a <? a_level b) && coversb a b.
Definition wf_inputb (inp : list (addr * payload)) : bool :=
  negb (Nat.eqb (List.length inp) 0) &&
  forallb (fun a => octant_okb a && (1 <=? a_level a)) (map fst inp) &&
  sortedb (fun a b => path_ltb (path_of a) (path_of b)) (map fst inp) &&
  forallb (fun a => forallb (fun b => negb (ancestorb a b)) (map fst inp)) (map fst inp).
Lemma wf_inputb_sound inp : wf_inputb inp = true -> wf_input inp.
Proof.
  unfold wf_inputb. rewrite !andb_true_iff. intros [[[H1 H2] H3] H4]. constructor.
  - intros ->. discriminate.
  - intros a Ha. rewrite forallb_forall in H2. specialize (H2 a Ha).
    rewrite andb_true_iff, Z.leb_le in H2. split; [apply octant_okb_sound|]; tauto.
  - eapply sortedb_sound; [|exact H3]. intros a b. apply path_ltb_sound.
  - intros a b Ha Hb [F1 F2]. rewrite forallb_forall in H4. specialize (H4 a Ha).
    rewrite forallb_forall in H4. specialize (H4 b Hb). unfold ancestorb in H4.
    rewrite (proj2 (Z.ltb_lt _ _) F1), (proj2 (coversb_iff _ _) F2) in H4. discriminate.
Qed.

(** Storage that accepts every octant not yet stored. *)
Definition simple_storage : storage :=
  mkStorage true (fun db a => negb (existsb (fun r => same_key (o_addr r) a) db))
            (fun _ _ => true) true.
Lemma simple_accepts : accepts simple_storage.
Proof.
  split; [reflexivity|]. split; [reflexivity|]. split; [|reflexivity].
  intros db a H. cbn. apply negb_true_iff, not_true_is_false. rewrite existsb_exists.
  intros (r & Hr & E). apply same_key_iff in E. specialize (H r Hr).
  unfold etree_lt in H. replace (path_of (o_addr r)) with (path_of a) in H.
  - exact (path_lt_irrefl _ H).
  - destruct E as (E1 & E2 & E3 & E4). unfold path_of, digit. rewrite E1, E2, E3, E4. reflexivity.
Qed.
Lemma simple_refuses : refuses_duplicates simple_storage.
Proof.
  intros db a (r & Hr & E). cbn. apply negb_false_iff, existsb_exists. exists r.
  split; [exact Hr | apply same_key_iff, E].
Qed.
