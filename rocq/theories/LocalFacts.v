(** Proofs for C80: recursive means depend only on the input inside. *)
From Coq Require Import ZArith Bool Lia Sorting.Sorted List.
From Verif Require Import Outcome Float Payload Addr SpecOct SpecAvg AvgEngine SpecQuery AddrFacts AvgProof QueryFacts QueryProof SpecE2E E2EFacts SpecLocal.
Import ListNotations.
Open Scope Z_scope.

Lemma inside_sym m1 m2 b : agree_inside m1 m2 b -> agree_inside m2 m1 b.
Proof. intros A a p C. symmetry. exact (A a p C). Qed.
Lemma inside_cover m1 m2 b c : agree_inside m1 m2 b -> covers b c -> agree_inside m1 m2 c.
Proof. intros A C a p H. apply A. exact (covers_trans _ _ _ C H). Qed.
Lemma covers_refl b : covers b b.
Proof. unfold covers. lia. Qed.

Lemma inside_addr m1 m2 b a : agree_inside m1 m2 b -> covers b a -> In a (map fst m1) -> In a (map fst m2).
Proof.
  intros A C I. apply in_map_iff in I. destruct I as ([a' p] & Q & I). cbn [fst] in Q. subst a'.
  apply in_map_iff. exists (a, p). split; [reflexivity|]. apply (A a p C), I.
Qed.
Lemma above_local m1 m2 b : agree_inside m1 m2 b -> above_input m1 b -> above_input m2 b.
Proof. intros A (a & I & L). exists a. split; [exact (inside_addr _ _ _ _ A (proj2 L) I)|exact L]. Qed.
Lemma populated_local m1 m2 b : agree_inside m1 m2 b -> populated m1 b -> populated m2 b.
Proof.
  intros A [H|(a & I & S)]; [left; exact (above_local _ _ _ A H)|right].
  exists a. split; [exact (inside_addr _ _ _ _ A (same_octant_covers _ _ S) I)|exact S].
Qed.

Lemma cover_chain b h' h : octant_ok b -> octant_ok h' -> octant_ok h -> covers b h -> covers h' h -> a_level b <= a_level h' -> covers b h'.
Proof.
  intros O O' Oh Cb C' L.
  apply (proj1 (covers_path b h O Oh)) in Cb. apply (proj1 (covers_path h' h O' Oh)) in C'.
  apply (covers_path b h' O O'). destruct Cb as (r & Er), C' as (r' & Er').
  pose proof (path_of_length b (proj1 (proj1 O))) as Pb.
  pose proof (path_of_length h' (proj1 (proj1 O'))) as Ph. rewrite Er in Er'.
  assert (Le : (length (path_of b) <= length (path_of h'))%nat) by lia. clear - Er' Le.
  revert Er' Le. generalize (path_of h') (path_of b). intros x y. revert x.
  induction y as [|c y IH]; intros x Q Le; [exists x; reflexivity|].
  destruct x as [|c' x]; cbn [length] in Le; [lia|]. cbn [app] in Q. injection Q as -> Q.
  destruct (IH x Q ltac:(lia)) as (z & ->). exists z. reflexivity.
Qed.
Lemma covers_same a b : covers a b -> a_level a = a_level b -> same_octant a b.
Proof. intros C L. unfold covers in C. unfold same_octant. rewrite L in *. lia. Qed.

Lemma above_finer m (W : wf_input m) a p b w : In (a, p) m -> octant_ok b -> above_input m b -> holds a w -> holds b w -> a_level b < a_level a.
Proof.
  intros I O A Ha Hb. destruct (Z.lt_ge_cases (a_level b) (a_level a)) as [|G]; [assumption|]. exfalso.
  assert (C : covers a b) by (apply (cover_holds a b w); [exact (input_ok m W _ _ I) | exact O | lia | exact Ha | exact Hb]).
  destruct A as (l & Il & Lv & C'). apply (wf_disjoint _ W a l); [apply in_map_iff; exists (a, p); auto | exact Il |].
  split; [lia | exact (covers_trans _ _ _ C C')].
Qed.

Section Two.
Variables (m1 m2 : list (addr * payload)).
Hypothesis (W1 : wf_input m1) (W2 : wf_input m2).

Lemma averaged_local b p : averaged m1 b p -> agree_inside m1 m2 b -> averaged m2 b p.
Proof.
  induction 1 as [a p I|b p kids O A SK EK AK IH MK]; intros G.
  - apply averaged_input. apply (G a p (covers_refl a)), I.
  - apply (averaged_mean m2 b p kids O (above_local _ _ _ G A) SK); [| |exact MK].
    + intros c Oc. rewrite (EK c Oc). split; intros (P & L & C); (split; [|split; [exact L|exact C]]).
      * exact (populated_local _ _ _ (inside_cover _ _ _ _ G C) P).
      * exact (populated_local _ _ _ (inside_sym _ _ _ (inside_cover _ _ _ _ G C)) P).
    + intros k v I. apply (IH k v I). apply inside_cover with b; [exact G|].
      apply (EK k (averaged_ok m1 W1 _ _ (AK k v I))). exists k. split; [apply in_map_iff; exists (k, v); auto|repeat split].
Qed.

Lemma averaged_populated m b p : averaged m b p -> populated m b.
Proof.
  intros [a q I|b' q kids O A S E K M]; [right; exists a|left; exact A].
  split; [apply in_map_iff; exists (a, q); auto|repeat split].
Qed.

(** Where an octant around a location is populated, no input octant there is coarser. *)
Lemma populated_finer m a p b w : wf_input m -> In (a, p) m -> octant_ok b -> populated m b -> holds a w -> holds b w -> covers b a.
Proof.
  intros W I O P Ha Hb. destruct P as [A|(a' & I' & S)].
  - apply (cover_holds b a w O (input_ok m W _ _ I)); [|exact Hb|exact Ha].
    pose proof (above_finer m W a p b w I O A Ha Hb). lia.
  - apply in_map_iff in I'. destruct I' as ([a1 p'] & Q & I'). cbn [fst] in Q. subst a1.
    pose proof (input_holding m W a p a' p' w I I' Ha (same_octant_holds _ _ _ S Hb)) as S'.
    apply covers_trans with a'; [exact (same_octant_covers _ _ S)|exact (same_octant_covers _ _ (same_octant_sym _ _ S'))].
Qed.

Lemma max_local w ans : agree_at m1 m2 w -> finest_input m1 w ans -> finest_input m2 w ans.
Proof.
  intros G [(a & I & H)|[-> N]].
  - left. exists a. split; [apply (G a ans H), I|exact H].
  - right. split; [reflexivity|]. intros a p I H. apply (N a p); [apply (G a p H), I|exact H].
Qed.

Lemma fixed_local l b w ans : octant_ok b -> a_level b = l -> holds b w -> agree_inside m1 m2 b -> agree_around m1 m2 b ->
  input_at_level m1 l w ans -> input_at_level m2 l w ans.
Proof.
  intros O L Hb G1 G2 [(a & I & H & La)|[(b' & O' & L' & H' & A & V)|(-> & N1 & N2)]].
  - left. exists a. split; [|split; [exact H|exact La]]. apply (G2 a ans); [|exact I].
    apply (cover_holds a b w); [exact (input_ok m1 W1 _ _ I)|exact O|lia|exact H|exact Hb].
  - assert (C : covers b b') by (apply (cover_holds b b' w O O'); [lia|exact Hb|exact H']).
    right. left. exists b'. split; [exact O'|]. split; [exact L'|]. split; [exact H'|].
    split; [exact (above_local _ _ _ (inside_cover _ _ _ _ G1 C) A)|exact (averaged_local _ _ V (inside_cover _ _ _ _ G1 C))].
  - right. right. split; [reflexivity|]. split.
    + intros a p I H. destruct (Z.lt_ge_cases l (a_level a)) as [|Ge]; [assumption|].
      apply (N1 a p); [|exact H]. apply (G2 a p); [|exact I].
      apply (cover_holds a b w); [exact (input_ok m2 W2 _ _ I)|exact O|lia|exact H|exact Hb].
    + intros b' O' L' H' A. apply (N2 b' O' L' H').
      assert (C : covers b b') by (apply (cover_holds b b' w O O'); [lia|exact Hb|exact H']).
      exact (above_local _ _ _ (inside_sym _ _ _ (inside_cover _ _ _ _ G1 C)) A).
Qed.

(** Climbing from inside [b] does not leave [b], where the values suffice. *)
Lemma coarsened_local t b u prev h v ans : octant_ok b -> averaged m1 b u -> ~ too_fine t b u -> agree_inside m1 m2 b ->
  coarsened m1 t prev h v ans -> averaged m1 h v -> covers b h -> coarsened m2 t prev h v ans.
Proof.
  intros O A N G. induction 1 as [prev h v NF|prev h v h' v' ans F O' L' C' A' K IH]; intros Ah Cb.
  - constructor. exact NF.
  - pose proof (averaged_ok m1 W1 _ _ Ah) as Oh.
    destruct (Z.eq_dec (a_level b) (a_level h)) as [Q|NQ].
    + exfalso. apply N. assert (S : same_octant b h).
      { unfold covers in Cb. unfold same_octant. rewrite Q in *. lia. }
      pose proof (averaged_unique m1 W1 _ b u h v (Nat.lt_succ_diag_r _) A Ah S) as ->.
      unfold too_fine, crossing_time in *. rewrite Q. exact F.
    + assert (Cb' : covers b h').
      { pose proof (covers_level b h O Oh Cb) as Lb. apply (cover_chain b h' h O O' Oh Cb C'). lia. }
      apply (coarsened_up m2 t prev h v h' v'); [exact F|exact O'|exact L'|exact C'| |exact (IH A' Cb')].
      exact (averaged_local _ _ A' (inside_cover _ _ _ _ G Cb')).
Qed.

Lemma wave_local t b u w ans : octant_ok b -> holds b w -> averaged m1 b u -> ~ too_fine t b u -> agree_inside m1 m2 b ->
  input_for_period m1 t w ans -> input_for_period m2 t w ans.
Proof.
  intros O Hb A N G. pose proof (averaged_populated _ _ _ A) as P1. pose proof (populated_local _ _ _ G P1) as P2.
  intros [(a & p & I & H & K)|(NO & b0 & v0 & (O0 & A0 & H0 & M0) & V0 & K)].
  - pose proof (populated_finer m1 a p b w W1 I O P1 H Hb) as C.
    left. exists a, p. split; [apply (G a p C), I|]. split; [exact H|].
    exact (coarsened_local t b u p a p ans O A N G K (averaged_input _ _ _ I) C).
  - right. assert (NO2 : forall a p, In (a, p) m2 -> ~ holds a w).
    { intros a p I H. pose proof (populated_finer m2 a p b w W2 I O P2 H Hb) as C. apply (NO a p); [apply (G a p C), I|exact H]. }
    split; [exact NO2|].
    assert (Ab : above_input m1 b).
    { destruct P1 as [Ab|(a & I & S)]; [exact Ab|exfalso]. apply in_map_iff in I. destruct I as ([a1 p] & Q & I). cbn [fst] in Q. subst a1.
      exact (NO a p I (same_octant_holds _ _ _ S Hb)). }
    assert (C : covers b b0) by (apply (cover_holds b b0 w O O0); [exact (M0 b O Ab Hb)|exact Hb|exact H0]).
    exists b0, v0. split; [|split; [exact (averaged_local _ _ V0 (inside_cover _ _ _ _ G C))|]].
    + split; [exact O0|]. split; [exact (above_local _ _ _ (inside_cover _ _ _ _ G C) A0)|]. split; [exact H0|].
      intros b' O' A' H'. destruct (Z.le_gt_cases (a_level b') (a_level b0)) as [|Gt]; [assumption|].
      apply (M0 b' O'); [|exact H'].
      assert (C' : covers b b') by (apply (cover_holds b b' w O O'); [pose proof (M0 b O Ab Hb); lia|exact Hb|exact H']).
      exact (above_local _ _ _ (inside_sym _ _ _ (inside_cover _ _ _ _ G C')) A').
    + destruct K as [K|[F K]]; [left; exact K|right]. split; [exact F|].
      exact (coarsened_local t b u v0 b0 v0 ans O A N G K V0 C).
Qed.
End Two.

(** ** The answers are determined *)
Section One.
Variable m : list (addr * payload).
Hypothesis W : wf_input m.

Lemma max_det w x y : finest_input m w x -> finest_input m w y -> x = y.
Proof.
  intros [(a & I & H)|[-> N]] [(a' & I' & H')|[-> N']].
  - exact (input_unique m W _ _ _ _ I I' (input_holding m W _ _ _ _ w I I' H H')).
  - exfalso. exact (N' _ _ I H).
  - exfalso. exact (N _ _ I' H').
  - reflexivity.
Qed.
Lemma same_place a b w : octant_ok a -> octant_ok b -> a_level a = a_level b -> holds a w -> holds b w -> same_octant a b.
Proof.
  intros Oa Ob L Ha Hb. assert (C : covers a b) by (apply (cover_holds a b w Oa Ob); [lia|exact Ha|exact Hb]).
  unfold covers in C. unfold same_octant. rewrite L in *. lia.
Qed.
Lemma averaged_det a b x y : averaged m a x -> averaged m b y -> same_octant a b -> x = y.
Proof. exact (averaged_unique m W _ a x b y (Nat.lt_succ_diag_r _)). Qed.

Lemma fixed_det l w x y : input_at_level m l w x -> input_at_level m l w y -> x = y.
Proof.
  intros [(a & I & H & La)|[(b & O & L & H & A & V)|(-> & N1 & N2)]]
         [(a' & I' & H' & La')|[(b' & O' & L' & H' & A' & V')|(-> & N1' & N2')]].
  - exact (input_unique m W _ _ _ _ I I' (input_holding m W _ _ _ _ w I I' H H')).
  - exfalso. pose proof (above_finer m W a x b' w I O' A' H H'). lia.
  - exfalso. specialize (N1' _ _ I H). lia.
  - exfalso. pose proof (above_finer m W a' y b w I' O A H' H). lia.
  - exact (averaged_det _ _ _ _ V V' (same_place _ _ w O O' ltac:(lia) H H')).
  - exfalso. exact (N2' b O L H A).
  - exfalso. specialize (N1 _ _ I' H'). lia.
  - exfalso. exact (N2 b' O' L' H' A').
  - reflexivity.
Qed.

Lemma too_fine_same t a b v : same_octant a b -> too_fine t a v -> too_fine t b v.
Proof. intros (_ & _ & _ & L). unfold too_fine, crossing_time. rewrite L. auto. Qed.

Lemma coarsened_det t prev h v x : coarsened m t prev h v x -> octant_ok h ->
  forall h1 y, octant_ok h1 -> same_octant h h1 -> coarsened m t prev h1 v y -> x = y.
Proof.
  induction 1 as [prev h v N|prev h v h' v' ans F O' L' C' A' K IH]; intros Oh h1 y O1 S Y;
    inversion Y as [prev1 h3 v1 N1|prev1 h3 v1 h2 v2 ans1 F1 O2 L2 C2 A2 K2]; subst.
  - reflexivity.
  - exfalso. exact (N (too_fine_same _ _ _ _ (same_octant_sym _ _ S) F1)).
  - exfalso. exact (N1 (too_fine_same _ _ _ _ S F)).
  - assert (Q : a_level h' = a_level h2) by (destruct S as (_ & _ & _ & S); lia).
    assert (S' : same_octant h' h2).
    { apply covers_same; [|exact Q]. apply (cover_chain h' h2 h O' O2 Oh C'); [|lia].
      exact (covers_trans _ _ _ C2 (same_octant_covers _ _ (same_octant_sym _ _ S))). }
    pose proof (averaged_det _ _ _ _ A' A2 S') as ->. exact (IH O' h2 y O2 S' K2).
Qed.

Lemma wave_det t w x y : input_for_period m t w x -> input_for_period m t w y -> x = y.
Proof.
  intros [(a & p & I & H & K)|(NO & b & v & (O & A & H & M) & V & K)]
         [(a' & p' & I' & H' & K')|(NO' & b' & v' & (O' & A' & H' & M') & V' & K')].
  - pose proof (input_holding m W _ _ _ _ w I I' H H') as S. pose proof (input_unique m W _ _ _ _ I I' S) as <-.
    exact (coarsened_det t p a p x K (input_ok m W _ _ I) a' y (input_ok m W _ _ I') S K').
  - exfalso. exact (NO' _ _ I H).
  - exfalso. exact (NO _ _ I' H').
  - assert (L : a_level b = a_level b') by (pose proof (M b' O' A' H'); pose proof (M' b O A H); lia).
    pose proof (same_place b b' w O O' L H H') as S. pose proof (averaged_det _ _ _ _ V V' S) as <-.
    unfold crossing_time in K'. rewrite <- L in K'. fold (crossing_time b v) in K'.
    destruct K as [[F ->]|[F K]], K' as [[F' ->]|[F' K']]; try congruence.
    exact (coarsened_det t v b v x K O b' y O' S K').
Qed.
End One.
