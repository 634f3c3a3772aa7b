(** Proofs: queries of an averaged database. *)
From Coq Require Import ZArith Bool Sorting.Sorted Lia List.
From Verif Require Import Outcome Float Payload Addr SpecOct AddrFacts PathFacts AvgEngine SpecAvg AvgProof AvgFinal
  SpecQuery QueryFacts SpecStore SpecE2E.
Import ListNotations.
Open Scope Z_scope.

Lemma sorted_filter {A} (R : A -> A -> Prop) f l : StronglySorted R l -> StronglySorted R (filter f l).
Proof.
  induction 1 as [|a l S IH F]; [constructor|]. cbn [filter]. destruct (f a); [|exact IH].
  constructor; [exact IH|]. rewrite Forall_forall in *. intros x I. apply filter_In in I. apply F, I.
Qed.
Lemma sorted_map_filter {A B} (g : A -> B) (R : B -> B -> Prop) f l :
  StronglySorted R (map g l) -> StronglySorted R (map g (filter f l)).
Proof.
  induction l as [|a l IH]; intros S; [constructor|]. cbn [map] in S. inversion S as [|? ? S1 F1]; subst. cbn [filter].
  destruct (f a); [|exact (IH S1)]. cbn [map]. constructor; [exact (IH S1)|].
  rewrite Forall_forall in *. intros x I. apply in_map_iff in I. destruct I as (y & <- & I). apply filter_In in I.
  apply F1. apply in_map. apply I.
Qed.
Lemma sorted_two {A B} (g : A -> B) (R : B -> B -> Prop) l x y :
  StronglySorted R (map g l) -> In x l -> In y l -> x = y \/ R (g x) (g y) \/ R (g y) (g x).
Proof.
  induction l as [|a l IH]; intros S [] []; cbn [map] in S; inversion S as [|? ? S1 F1]; subst; rewrite Forall_forall in F1.
  - left. reflexivity.
  - right. left. apply F1. apply in_map. assumption.
  - right. right. apply F1. apply in_map. assumption.
  - apply IH; assumption.
Qed.
Lemma same_octant_path a b : same_octant a b -> path_of a = path_of b.
Proof.
  intros (X & Y & Z & L). unfold path_of. rewrite L. apply map_ext. intros i. unfold digit. rewrite X, Y, Z. reflexivity.
Qed.
Lemma etree_lt_irrefl a b : same_octant a b -> ~ etree_lt a b.
Proof. intros S L. unfold etree_lt in L. rewrite (same_octant_path a b S) in L. exact (path_lt_irrefl _ L). Qed.

Lemma covers_trans a b c : covers a b -> covers b c -> covers a c.
Proof. unfold covers. lia. Qed.
Lemma same_octant_covers a b : same_octant a b -> covers a b.
Proof. unfold same_octant, covers. intros (-> & -> & -> & ->). lia. Qed.
Lemma same_octant_sym a b : same_octant a b -> same_octant b a.
Proof. unfold same_octant. intuition congruence. Qed.
Lemma same_octant_holds a b w : same_octant a b -> holds a w -> holds b w.
Proof. intros (X & Y & Z & L) H. destruct w as [[p q] r]. unfold holds in *. rewrite <- X, <- Y, <- Z, <- L. exact H. Qed.

Definition root_addr : addr := mkAddr 0 0 0 0 0 Interior.
Lemma root_ok : octant_ok root_addr.
Proof.
  split; [cbn; lia|]. split; [reflexivity|]. intros c I. cbn in I. assert (c = 0) as -> by intuition. split; [lia|]. exists 0. reflexivity.
Qed.
Lemma root_covers b : octant_ok b -> covers root_addr b.
Proof.
  intros (L & _ & C). unfold covers. cbn [root_addr a_x a_y a_z a_level]. 
  assert (G : forall c, In c [a_x b; a_y b; a_z b] -> 0 <= c /\ c + side (a_level b) <= 0 + side 0).
  { intros c I. destruct (C c I) as ((H0 & H1) & k & Q). split; [exact H0|]. 
    assert (P : side 0 = 2 ^ a_level b * side (a_level b)) by (unfold side; rewrite <- Z.pow_add_r by lia; f_equal; lia).
    assert (P0 : side 0 = 2 ^ 31) by reflexivity. pose proof (Z.pow_pos_nonneg 2 (31 - a_level b) ltac:(lia) ltac:(lia)) as S.
    fold (side (a_level b)) in S. rewrite P. rewrite <- P0, P in H1. subst c.
    apply Z.mul_lt_mono_pos_r in H1; [|exact S]. assert (M : (k + 1) * side (a_level b) <= 2 ^ a_level b * side (a_level b)) by (apply Z.mul_le_mono_nonneg_r; lia). lia. }
  destruct (G (a_x b) ltac:(cbn; auto)). destruct (G (a_y b) ltac:(cbn; auto)). destruct (G (a_z b) ltac:(cbn; auto)). lia.
Qed.
Lemma some_in {A} (l : list A) : l <> [] -> exists x, In x l.
Proof. destruct l as [|x l]; [contradiction|]. intros _. exists x. left. reflexivity. Qed.

Section File.
Variables (st : storage) (inp : list (addr * payload)) (s : est) (out : list (addr * payload)).
Hypothesis HA : accepts st.
Hypothesis HW : wf_input inp.
Hypothesis HF : fillOctants st inp = Val s.
Hypothesis HS : stored (e_db s) out.

Lemma out_rec b v : In (b, v) out <-> In (mkOrec b (Some v)) (e_db s).
Proof.
  rewrite <- HS. split; intros I.
  - apply in_map_iff. exists (b, v). split; [reflexivity | exact I].
  - apply in_map_iff in I. destruct I as ([b' v'] & Q & I). injection Q as <- <-. exact I.
Qed.
Lemma out_cases b v : In (b, v) out ->
  In (b, v) inp \/ (a_type b = Interior /\ octant_ok b /\ above_input inp b).
Proof.
  intros I. apply out_rec in I. destruct (final_adds st HA inp HW s HF) as [A _].
  destruct (A _ I) as (p & Q & H). injection Q as <-. cbn [o_addr] in H.
  destruct H as [H|(T & O & l & Il & L)]; [left; exact H | right]. split; [exact T|]. split; [exact O|]. exists l. auto.
Qed.
Lemma out_input a p : In (a, p) inp -> In (a, p) out.
Proof.
  intros I. apply out_rec. pose proof (final_keeps st HA inp HW s HF a p I) as F.
  assert (G : In (mkOrec a (Some p)) (filter (fun r => same_key (o_addr r) a) (e_db s))) by (rewrite F; left; reflexivity).
  apply filter_In in G. apply G.
Qed.
Lemma out_above b : octant_ok b -> above_input inp b ->
  exists c v, In (c, v) out /\ same_octant b c /\ a_type c = Interior.
Proof.
  intros O (l & Il & L). destruct (final_adds st HA inp HW s HF) as [_ A]. destruct (A b l O Il L) as (p & F).
  match type of F with _ = [mkOrec ?c (Some p)] => exists c, p end. split; [|split; [repeat split | reflexivity]].
  apply out_rec. match type of F with ?L = [?R] => assert (G : In R L) by (rewrite F; left; reflexivity) end.
  apply filter_In in G. apply G.
Qed.
Lemma input_ok a p : In (a, p) inp -> octant_ok a.
Proof. intros I. apply (wf_octants _ HW a). apply in_map_iff. exists (a, p). auto. Qed.
Lemma out_ok b v : In (b, v) out -> octant_ok b.
Proof. intros I. destruct (out_cases b v I) as [H|(_ & O & _)]; [exact (input_ok _ _ H) | exact O]. Qed.
Lemma out_sorted : StronglySorted etree_lt (map fst out).
Proof.
  pose proof (final_order st HA inp HW s HF) as S. rewrite <- HS in S. rewrite map_map in S. exact S.
Qed.
Lemma out_db_ok : db_ok out.
Proof.
  split; [exact out_ok|]. intros h p h' p' I I' S.
  destruct (sorted_two fst etree_lt out _ _ out_sorted I I') as [Q|[L|L]]; [exact Q | | ]; exfalso; cbn [fst] in L.
  - exact (etree_lt_irrefl _ _ S L).
  - exact (etree_lt_irrefl _ _ (same_octant_sym _ _ S) L).
Qed.

Lemma not_above_input a p b : In (a, p) inp -> same_octant b a -> ~ above_input inp b.
Proof.
  intros I S (l & Il & Lv & C). apply (wf_disjoint _ HW a l); [apply in_map_iff; exists (a, p); auto | exact Il |].
  destruct S as (X & Y & Z & L). split; [lia|]. unfold covers in *. rewrite <- X, <- Y, <- Z, <- L. exact C.
Qed.
Lemma out_populated c : octant_ok c -> populated inp c <-> exists k v, In (k, v) out /\ same_octant c k.
Proof.
  intros O. split.
  - intros [A|(a & I & S)].
    + destruct (out_above c O A) as (k & v & I & S & _). exists k, v. auto.
    + apply in_map_iff in I. destruct I as ([a' p] & Q & I). cbn [fst] in Q. subst a'. exists a, p. split; [apply out_input, I | exact S].
  - intros (k & v & I & S). destruct (out_cases k v I) as [H|(_ & _ & A)].
    + right. exists k. split; [apply in_map_iff; exists (k, v); auto | exact S].
    + left. destruct A as (l & Il & Lv & C). exists l. split; [exact Il|]. destruct S as (X & Y & Z & L).
      split; [lia|]. unfold covers in *. rewrite X, Y, Z, L. exact C.
Qed.

Hypothesis HV : forall a p, In (a, p) inp -> proper_values p.

Lemma out_averaged : forall n b v, (Z.to_nat (31 - a_level b) < n)%nat -> In (b, v) out -> averaged inp b v.
Proof.
  induction n as [|n IH]; intros b v Hn I; [lia|].
  destruct (out_cases b v I) as [H|(T & O & A)]; [constructor; exact H|].
  set (kids := filter (fun x => childb b (fst x)) out).
  assert (VK : values (children (e_db s) b) = map snd kids).
  { unfold kids, children. rewrite <- HS. clear. induction out as [|[k v] l IH]; [reflexivity|]. cbn [map filter fst snd o_addr].
    destruct (childb b k); [|exact IH]. cbn [map snd]. rewrite <- IH. reflexivity. }
  assert (LK : forall k u, In (k, u) kids -> In (k, u) out /\ a_level k = a_level b + 1 /\ covers b k).
  { intros k u K. apply filter_In in K. destruct K as [K C]. cbn [fst] in C. unfold childb in C. apply andb_true_iff in C.
    rewrite Z.eqb_eq, coversb_iff in C. tauto. }
  apply (averaged_mean inp b v kids); [exact O | exact A | | | |].
  - apply sorted_map_filter, out_sorted.
  - intros c Oc. split.
    + intros (k & Ik & S). apply in_map_iff in Ik. destruct Ik as ([k' u] & Q & Ik). cbn [fst] in Q. subst k'.
      destruct (LK k u Ik) as (Io & L & C). split; [apply (out_populated c Oc); exists k, u; auto|].
      destruct S as (X & Y & Z & L'). split; [lia|]. unfold covers in *. rewrite X, Y, Z, L'. exact C.
    + intros (P & L & C). apply (out_populated c Oc) in P. destruct P as (k & u & Ik & S). exists k. split; [|exact S].
      apply in_map_iff. exists (k, u). split; [reflexivity|]. apply filter_In. split; [exact Ik|]. cbn [fst]. unfold childb.
      apply andb_true_iff. rewrite Z.eqb_eq, coversb_iff. destruct S as (X & Y & Z & L').
      split; [lia|]. unfold covers in *. rewrite <- X, <- Y, <- Z, <- L'. exact C.
  - intros k u Ik. destruct (LK k u Ik) as (Io & L & C). apply IH; [|exact Io].
    destruct (out_ok k u Io) as (B & _). lia.
  - rewrite <- VK. apply (final_mean st HA inp HW s HV HF (mkOrec b (Some v)) v); [|reflexivity].
    unfold interior_records. apply filter_In. split; [apply out_rec, I|].
    destruct (is_input inp (mkOrec b (Some v))) eqn:N; [exfalso | reflexivity].
    unfold is_input in N. apply existsb_exists in N. destruct N as ([a p] & Ia & K). cbn [fst o_addr] in K.
    apply same_key_iff in K. exact (not_above_input a p b Ia (same_octant_sym _ _ K) A).
Qed.

(** ** Answers *)
Hypothesis HL : forall a p, In (a, p) inp -> a_type a = Leaf.

(** An average above an input octant that holds the location is coarser. *)
Lemma above_coarser a p b w : In (a, p) inp -> octant_ok b -> above_input inp b -> holds a w -> holds b w -> a_level b < a_level a.
Proof.
  intros I O A Ha Hb. destruct (Z.lt_ge_cases (a_level b) (a_level a)) as [|G]; [assumption|]. exfalso.
  assert (C : covers a b) by (apply (cover_holds a b w); [exact (input_ok _ _ I) | exact O | lia | exact Ha | exact Hb]).
  destruct A as (l & Il & Lv & C'). apply (wf_disjoint _ HW a l); [apply in_map_iff; exists (a, p); auto | exact Il |].
  split; [lia | exact (covers_trans _ _ _ C C')].
Qed.

Lemma max_out w ans : max_answer out w ans -> finest_input inp w ans.
Proof.
  intros [(h & v & (I & H & L & F) & ->)|(N & ->)].
  - destruct (out_cases h v I) as [Hi|(T & O & A)].
    + rewrite (HL _ _ Hi). left. exists h. auto.
    + rewrite T. right. split; [reflexivity|]. intros a p Ia Ha.
      pose proof (above_coarser a p h w Ia O A Ha H). pose proof (input_ok _ _ Ia) as ((_ & L31) & _).
      specialize (F a p (out_input _ _ Ia) Ha L31). lia.
  - right. split; [reflexivity|]. intros a p Ia Ha. specialize (N a p (out_input _ _ Ia) Ha).
    pose proof (input_ok _ _ Ia) as ((_ & L31) & _). lia.
Qed.

Lemma fixed_out l w ans : 0 <= l -> fixed_answer out l w ans -> input_at_level inp l w ans.
Proof.
  intros Hl0 [(h & v & (I & H & L & F) & ->)|(N & ->)].
  - destruct (out_cases h v I) as [Hi|(T & O & A)].
    + rewrite (HL _ _ Hi). left. exists h. auto.
    + rewrite T. right. destruct (Z.eqb_spec (a_level h) l) as [Q|Q].
      * left. exists h. split; [exact O|]. split; [exact Q|]. split; [exact H|]. split; [exact A|].
        exact (out_averaged _ h v (Nat.lt_succ_diag_r _) I).
      * right. split; [reflexivity|]. split.
        -- intros a p Ia Ha. destruct (Z.lt_ge_cases l (a_level a)) as [|G]; [assumption|]. exfalso.
           pose proof (above_coarser a p h w Ia O A Ha H). specialize (F a p (out_input _ _ Ia) Ha ltac:(lia)). lia.
        -- intros b Ob Lb Hb Ab. destruct (out_above b Ob Ab) as (c & u & Ic & S & _).
           pose proof (same_octant_holds b c w S Hb) as Hc. destruct S as (_ & _ & _ & Lc).
           specialize (F c u Ic Hc ltac:(lia)). lia.
  - right. right. split; [reflexivity|]. split.
    + intros a p Ia Ha. exact (N a p (out_input _ _ Ia) Ha).
    + intros b Ob Lb Hb Ab. destruct (out_above b Ob Ab) as (c & u & Ic & S & _).
      pose proof (same_octant_holds b c w S Hb) as Hc. destruct S as (_ & _ & _ & Lc). specialize (N c u Ic Hc). lia.
Qed.

Lemma root_above : above_input inp root_addr.
Proof.
  destruct (some_in inp (wf_nonempty _ HW)) as ([a p] & I). assert (I' : In a (map fst inp)) by (apply in_map_iff; exists (a, p); auto).
  exists a. split; [exact I'|]. destruct (wf_octants _ HW a I') as [O L]. split; [cbn; lia | apply root_covers, O].
Qed.

Lemma parent_there h v : In (h, v) out -> 0 < a_level h ->
  exists c u, In (c, u) out /\ a_level c = a_level h - 1 /\ covers c h.
Proof.
  intros I L. pose proof (out_ok _ _ I) as O.
  destruct (findAncestor_spec h (a_level h - 1) O ltac:(lia)) as (b & _ & Ob & Lb & _ & C & _).
  assert (A : above_input inp b).
  { destruct (out_cases h v I) as [H|(_ & _ & l & Il & Ll & Cl)].
    - exists h. split; [apply in_map_iff; exists (h, v); auto|]. split; [lia | exact C].
    - exists l. split; [exact Il|]. split; [lia | exact (covers_trans _ _ _ C Cl)]. }
  destruct (out_above b Ob A) as (c & u & Ic & (X & Y & Z & Lc) & _). exists c, u. split; [exact Ic|]. split; [lia|].
  unfold covers in *. rewrite <- X, <- Y, <- Z, <- Lc. exact C.
Qed.

Lemma climbs_out period w prev h v r : climbs out period w prev h v r -> In (h, v) out -> holds h w ->
  exists p here, r = Stopped p here /\ coarsened inp period prev h v (halfway p here).
Proof.
  induction 1 as [prev h v N|prev h v h' v' r T F C IH|prev h v T N]; intros I H.
  - exists prev, v. split; [reflexivity | constructor; exact N].
  - destruct F as (I' & H' & L' & F). destruct (IH I' H') as (p & here & -> & K). exists p, here. split; [reflexivity|].
    destruct T as (T1 & T2 & T3). destruct (parent_there h v I T3) as (c & u & Ic & Lc & Cc).
    pose proof (F c u Ic (holds_cover c h w H Cc) ltac:(lia)) as B.
    apply (coarsened_up inp period prev h v h' v'); [split; auto | exact (out_ok _ _ I') | lia | | | exact K].
    + apply (cover_holds h' h w); [exact (out_ok _ _ I') | exact (out_ok _ _ I) | lia | exact H' | exact H].
    + exact (out_averaged _ h' v' (Nat.lt_succ_diag_r _) I').
  - exfalso. destruct T as (T1 & T2 & T3). destruct (parent_there h v I T3) as (c & u & Ic & Lc & Cc).
    specialize (N c u Ic (holds_cover c h w H Cc)). lia.
Qed.

(** The wavelength dependent answer; no octant lacks a parent. *)
Lemma wave_out period w ans o : (exists b, octant_ok b /\ holds b w) ->
  wave_answer out period w ans o -> o = None /\ input_for_period inp period w ans.
Proof.
  intros (b0 & Ob0 & Hb0) [(h & v & (I & H & L & F) & K)|(N & _ & _)].
  - assert (NI : forall a p, In (a, p) inp -> holds a w -> a_level a <= a_level h).
    { intros a p Ia Ha. pose proof (input_ok _ _ Ia) as ((_ & L31) & _). exact (F a p (out_input _ _ Ia) Ha L31). }
    destruct (out_cases h v I) as [Hi|(T & O & A)].
    + assert (NC : ~ too_coarse period h v) by (intros [T _]; rewrite (HL _ _ Hi) in T; discriminate T).
      destruct K as [(TC & _)|(_ & [(p & here & C & -> & ->)|(o' & C & _)])]; [contradiction | |].
      * split; [reflexivity|]. left. exists h, v. split; [exact Hi|]. split; [exact H|].
        destruct (climbs_out _ _ _ _ _ _ C I H) as (p' & here' & Q & K). injection Q as <- <-. exact K.
      * destruct (climbs_out _ _ _ _ _ _ C I H) as (p' & here' & Q & K). discriminate Q.
    + assert (S : smallest_above inp w h).
      { split; [exact O|]. split; [exact A|]. split; [exact H|]. intros b' Ob Ab Hb.
        destruct (out_above b' Ob Ab) as (c & u & Ic & S & _). pose proof (same_octant_holds b' c w S Hb) as Hc.
        destruct S as (_ & _ & _ & Lc). destruct Ob as ((_ & L31) & _). specialize (F c u Ic Hc ltac:(lia)). lia. }
      assert (NO : forall a p, In (a, p) inp -> ~ holds a w).
      { intros a p Ia Ha. pose proof (above_coarser a p h w Ia O A Ha H). specialize (NI a p Ia Ha). lia. }
      pose proof (out_averaged _ h v (Nat.lt_succ_diag_r _) I) as AV.
      destruct K as [((_ & TC) & -> & ->)|(NC & [(p & here & C & -> & ->)|(o' & C & _)])].
      * split; [reflexivity|]. right. split; [exact NO|]. exists h, v. split; [exact S|]. split; [exact AV|]. left. auto.
      * split; [reflexivity|]. right. split; [exact NO|]. exists h, v. split; [exact S|]. split; [exact AV|]. right. split.
        -- destruct (flt period (crossing_time h v)) eqn:Q; [exfalso; apply NC; split; assumption | reflexivity].
        -- destruct (climbs_out _ _ _ _ _ _ C I H) as (p' & here' & Q & K). injection Q as <- <-. exact K.
      * destruct (climbs_out _ _ _ _ _ _ C I H) as (p' & here' & Q & K). discriminate Q.
  - exfalso. destruct (out_above root_addr root_ok root_above) as (c & u & Ic & S & _).
    pose proof (holds_cover root_addr b0 w Hb0 (root_covers b0 Ob0)) as Hr.
    specialize (N c u Ic (same_octant_holds _ _ _ S Hr)). destruct S as (_ & _ & _ & Lc). cbn in Lc. lia.
Qed.
End File.

(** ** The recursive mean is determined by the input *)
Lemma path_sorted_eq l1 l2 : StronglySorted path_lt l1 -> StronglySorted path_lt l2 ->
  (forall p, In p l1 <-> In p l2) -> l1 = l2.
Proof.
  revert l2. induction l1 as [|a l1 IH]; intros l2 S1 S2 E.
  - destruct l2 as [|b l2]; [reflexivity|]. destruct (proj2 (E b)). left; reflexivity.
  - destruct l2 as [|b l2]; [destruct (proj1 (E a)); left; reflexivity|].
    inversion S1 as [|? ? S1' F1]; subst. inversion S2 as [|? ? S2' F2]; subst. rewrite Forall_forall in F1, F2.
    assert (a = b).
    { destruct (proj1 (E a) ltac:(left; reflexivity)) as [Q|Ia]; [congruence|].
      destruct (proj2 (E b) ltac:(left; reflexivity)) as [Q|Ib]; [congruence|].
      exfalso. apply (path_lt_irrefl a). exact (path_lt_trans _ _ _ (F1 _ Ib) (F2 _ Ia)). }
    subst b. f_equal. apply IH; [assumption..|]. intros p. split; intros I.
    + destruct (proj1 (E p) ltac:(right; exact I)) as [Q|]; [|assumption]. subst p. exfalso. exact (path_lt_irrefl _ (F1 _ I)).
    + destruct (proj2 (E p) ltac:(right; exact I)) as [Q|]; [|assumption]. subst p. exfalso. exact (path_lt_irrefl _ (F2 _ I)).
Qed.
Lemma path_same a b : octant_ok a -> octant_ok b -> path_of a = path_of b -> same_octant a b.
Proof.
  intros Oa Ob E. rewrite <- (addr_of_path_of a Oa), <- (addr_of_path_of b Ob), E. repeat split.
Qed.
Lemma sorted_paths l : StronglySorted etree_lt l -> StronglySorted path_lt (map path_of l).
Proof.
  induction 1 as [|a l S IH F]; [constructor|]. cbn [map]. constructor; [exact IH|]. rewrite Forall_forall in *.
  intros p I. apply in_map_iff in I. destruct I as (b & <- & I). exact (F b I).
Qed.
Lemma mean_unique cs p q : mean_payload cs p -> mean_payload cs q -> p = q.
Proof.
  intros (A & B & C) (A' & B' & C').
  pose proof (fun f => eq_trans (A f) (eq_sym (A' f))) as G.
  destruct p as [p1 p2 p3 p4 p5 p6 p7 p8], q as [q1 q2 q3 q4 q5 q6 q7 q8]. cbn in *.
  pose proof (G PVp). pose proof (G PVs). pose proof (G PDensity). pose proof (G PQp). pose proof (G PQs). pose proof (G PDfs).
  cbn in *. congruence.
Qed.
Section Unique.
Variable inp : list (addr * payload).
Hypothesis HW : wf_input inp.
Lemma averaged_ok b p : averaged inp b p -> octant_ok b.
Proof. intros [a q I|b' q kids O A S E K M]; [exact (input_ok inp HW _ _ I) | exact O]. Qed.
Lemma input_unique a p a' p' : In (a, p) inp -> In (a', p') inp -> same_octant a a' -> p = p'.
Proof.
  intros I I' S. destruct (sorted_two fst etree_lt inp _ _ (wf_order _ HW) I I') as [Q|[L|L]]; [congruence | exfalso | exfalso]; cbn [fst] in L.
  - exact (etree_lt_irrefl _ _ S L).
  - exact (etree_lt_irrefl _ _ (same_octant_sym _ _ S) L).
Qed.
Lemma averaged_unique : forall n b p b' p', (Z.to_nat (31 - a_level b) < n)%nat ->
  averaged inp b p -> averaged inp b' p' -> same_octant b b' -> p = p'.
Proof.
  induction n as [|n IH]; intros b p b' p' Hn A A' S; [lia|].
  pose proof (averaged_ok _ _ A) as Ob0.
  destruct A as [a p I|b p kids O A SK EK AK MK]; destruct A' as [a' p' I'|b' p' kids' O' A' SK' EK' AK' MK'].
  - exact (input_unique _ _ _ _ I I' S).
  - exfalso. apply (not_above_input inp HW a p b' I (same_octant_sym _ _ S) A').
  - exfalso. apply (not_above_input inp HW a' p' b I' S A).
  - assert (Ok : forall k, In k (map fst kids) -> octant_ok k).
    { intros k Ik. apply in_map_iff in Ik. destruct Ik as ([k' v] & Q & Ik). cbn [fst] in Q. subst k'. exact (averaged_ok _ _ (AK _ _ Ik)). }
    assert (Ok' : forall k, In k (map fst kids') -> octant_ok k).
    { intros k Ik. apply in_map_iff in Ik. destruct Ik as ([k' v] & Q & Ik). cbn [fst] in Q. subst k'. exact (averaged_ok _ _ (AK' _ _ Ik)). }
    assert (CC : forall c, octant_ok c -> ((exists k, In k (map fst kids) /\ same_octant c k) <-> (exists k, In k (map fst kids') /\ same_octant c k))).
    { intros c Oc. rewrite (EK c Oc), (EK' c Oc). destruct S as (X & Y & Z & L). unfold covers. rewrite X, Y, Z, L. tauto. }
    assert (P : map path_of (map fst kids) = map path_of (map fst kids')).
    { apply path_sorted_eq; [apply sorted_paths, SK | apply sorted_paths, SK' |]. intros q. split; intros Iq;
      apply in_map_iff in Iq; destruct Iq as (k & <- & Ik).
      - destruct (proj1 (CC k (Ok k Ik)) (ex_intro _ k (conj Ik (conj eq_refl (conj eq_refl (conj eq_refl eq_refl)))))) as (k' & Ik' & Sk).
        rewrite (same_octant_path _ _ Sk). apply in_map, Ik'.
      - destruct (proj2 (CC k (Ok' k Ik)) (ex_intro _ k (conj Ik (conj eq_refl (conj eq_refl (conj eq_refl eq_refl)))))) as (k' & Ik' & Sk).
        rewrite (same_octant_path _ _ Sk). apply in_map, Ik'. }
    assert (LV : forall k, In k (map fst kids) -> a_level k = a_level b + 1).
    { intros k Ik. apply (EK k (Ok k Ik)). exists k. split; [exact Ik | repeat split]. }
    assert (V : map snd kids = map snd kids').
    { clear EK EK' CC SK SK' MK MK'. revert kids' AK' Ok' P. induction kids as [|[k v] kids IHk]; intros [|[k' v'] kids'] AK' Ok' P; cbn [map] in P; try discriminate P.
      - reflexivity.
      - injection P as P1 P2. cbn [map snd]. f_equal.
        + apply (IH k v k' v').
          * rewrite (LV k) by (left; reflexivity). pose proof (Ok k ltac:(left; reflexivity)) as (B & _).
            rewrite (LV k) in B by (left; reflexivity). lia.
          * apply AK. left. reflexivity.
          * apply AK'. left. reflexivity.
          * apply path_same; [apply Ok; left; reflexivity | apply Ok'; left; reflexivity | exact P1].
        + apply IHk.
          * intros k0 v0 I0. apply AK. right. exact I0.
          * intros k0 I0. apply Ok. right. exact I0.
          * intros k0 I0. apply LV. right. exact I0.
          * intros k0 v0 I0. apply AK'. right. exact I0.
          * intros k0 I0. apply Ok'. right. exact I0.
          * exact P2. }
    rewrite <- V in MK'. exact (mean_unique _ _ _ MK MK').
Qed.
(** At most one input octant holds a location. *)
Lemma input_holding a p a' p' w : In (a, p) inp -> In (a', p') inp -> holds a w -> holds a' w -> same_octant a a'.
Proof.
  assert (G : forall a p a' p', In (a, p) inp -> In (a', p') inp -> holds a w -> holds a' w -> a_level a <= a_level a' -> same_octant a a').
  { clear a p a' p'. intros a p a' p' I I' H H' L. pose proof (input_ok inp HW _ _ I) as O. pose proof (input_ok inp HW _ _ I') as O'.
    pose proof (cover_holds a a' w O O' L H H') as C. destruct (Z.lt_ge_cases (a_level a) (a_level a')) as [Lt|Ge].
    - exfalso. apply (wf_disjoint _ HW a a'); [apply in_map_iff; exists (a, p); auto | apply in_map_iff; exists (a', p'); auto | split; assumption].
    - assert (Q : a_level a = a_level a') by lia. unfold covers in C. unfold same_octant. rewrite Q in *. lia. }
  intros I I' H H'. destruct (Z.le_ge_cases (a_level a) (a_level a')).
  - exact (G a p a' p' I I' H H' H0).
  - apply same_octant_sym. exact (G a' p' a p I' I H' H H0).
Qed.
End Unique.
