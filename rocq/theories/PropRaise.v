(** C86: raising the values of a model raises its averages; changing them a little
    changes the averages a little. *)
From Coq Require Import ZArith Bool Reals Lra Lia String Sorting.Sorted List.
From Flocq Require Import Core BinarySingleNaN.
From Verif Require Import Outcome Float Payload Addr SpecOct SpecAvg AvgEngine AvgFinal SpecGeom Geom Store Averager SpecStore StoreFacts
  ErrorHandler VMQuery SpecQuery QueryFacts QueryProof QueryMain SpecE2E E2EFacts SpecRange SpecRaise AddrFacts LocalFacts RangeFacts RangeTree RaiseFacts
  ToyLib ToyDb PropAvg PropStore PropQuery PropE2E PropRange.
Import ListNotations.
Open Scope Z_scope.

(** The octants of the averages depend on the octants of the input only. *)
Lemma same_stored E1 d1 d1' m1 recs1 E2 d2 d2' m2 recs2 :
  averaged_into E1 d1 d1' m1 recs1 -> averaged_into E2 d2 d2' m2 recs2 -> map fst m1 = map fst m2 -> map fst recs1 = map fst recs2.
Proof.
  assert (G : forall E1 d1 d1' m1 recs1 E2 d2 d2' m2 recs2,
    averaged_into E1 d1 d1' m1 recs1 -> averaged_into E2 d2 d2' m2 recs2 -> map fst m1 = map fst m2 ->
    forall h, In h (map fst recs1) -> In h (map fst recs2)).
  { clear. intros E1 d1 d1' m1 recs1 E2 d2 d2' m2 recs2 A1 A2 S h I.
    destruct (averaged_run _ _ _ _ _ A1) as (X1 & W1 & _ & _ & s1 & F1 & St1).
    destruct (averaged_run _ _ _ _ _ A2) as (X2 & W2 & _ & _ & s2 & F2 & St2).
    apply in_map_iff in I. destruct I as ([h' v] & Q & I). cbn [fst] in Q. subst h'.
    destruct (out_cases _ _ _ _ X1 W1 F1 St1 h v I) as [Ih|(T & O & Ab)].
    - destruct (partner m1 m2 S h v Ih) as (y & Iy). apply in_map_iff. exists (h, y). split; [reflexivity|]. exact (out_input _ _ _ _ X2 W2 F2 St2 _ _ Iy).
    - destruct (out_above _ _ _ _ X2 W2 F2 St2 h O (proj1 (above_both m1 m2 S h) Ab)) as (c & u & Ic & Sc & Tc).
      pose proof (out_ok _ _ _ _ X2 W2 F2 St2 _ _ Ic) as Oc. apply in_map_iff. exists (c, u). split; [|exact Ic]. cbn [fst].
      destruct O as (_ & Ot & _), Oc as (_ & Oct & _).
      destruct Sc as (Sx & Sy & Sz & Sl). destruct h as [x1 y1 z1 t1 l1 k1], c as [x2 y2 z2 t2 l2 k2]. cbn [a_x a_y a_z a_t a_level a_type] in *. congruence. }
  intros A1 A2 S.
  destruct (averaged_run _ _ _ _ _ A1) as (X1 & W1 & _ & _ & s1 & F1 & St1).
  destruct (averaged_run _ _ _ _ _ A2) as (X2 & W2 & _ & _ & s2 & F2 & St2).
  apply (sorted_same etree_lt).
  - intros x. apply etree_lt_irrefl. repeat split.
  - intros x y B C. assert (D : etree_lt x x) by (unfold etree_lt in *; eapply path_lt_trans; eassumption).
    revert D. apply etree_lt_irrefl. repeat split.
  - exact (out_sorted _ _ _ _ X1 W1 F1 St1).
  - exact (out_sorted _ _ _ _ X2 W2 F2 St2).
  - intros h. split; [exact (G _ _ _ _ _ _ _ _ _ _ A1 A2 S h)|exact (G _ _ _ _ _ _ _ _ _ _ A2 A1 (eq_sym S) h)].
Qed.

(** C86. Two models have the same octants, of the same kind, and where there is data
    a property is nowhere higher in the first.  Then their averages compare the same
    way, octant by octant, at every level, exactly: rounding does not change it. *)
Theorem C86_raised : forall f E1 d1 d1' m1 recs1 E2 d2 d2' m2 recs2,
  averaged_into E1 d1 d1' m1 recs1 -> averaged_into E2 d2 d2' m2 recs2 ->
  (forall a p, In (a, p) m1 -> tame p) -> (forall a p, In (a, p) m2 -> tame p) ->
  paired (lower f) m1 m2 -> paired (lower f) recs1 recs2.
Proof.
  intros f E1 d1 d1' m1 recs1 E2 d2 d2' m2 recs2 A1 A2 T1 T2 [S H].
  split; [exact (same_stored _ _ _ _ _ _ _ _ _ _ A1 A2 S)|]. intros b x y I J.
  destruct (averaged_run _ _ _ _ _ A1) as (_ & W1 & V1 & _). destruct (averaged_run _ _ _ _ _ A2) as (_ & W2 & V2 & _).
  pose proof (C44_stored_means _ _ _ _ _ A1 b x I) as X. pose proof (C44_stored_means _ _ _ _ _ A2 b y J) as Y.
  assert (SB : same_octant b b) by (repeat split).
  assert (K : forall a x y, In (a, x) m1 -> In (a, y) m2 -> same_kind x y) by (intros a u v P Q; exact (proj1 (H a u v P Q))).
  split; [exact (kind_both m1 m2 W1 W2 S V1 V2 T1 T2 K _ _ _ _ X Y SB)|].
  apply (lower_both m1 m2 W1 W2 S V1 V2 T1 T2 K f (fun a u v P Q => proj2 (H a u v P Q)) _ _ _ _ X Y SB).
Qed.
Print Assumptions C86_raised.

(** C86. If the property differs by at most [e], the averages differ by at most [e]
    up to rounding: a fraction 2^-14 of the largest magnitude (and 2^-143). *)
Definition rounding (M : R) : R := (M * bpow radix2 (-14) + bpow radix2 (-143))%R.
Lemma twice_31 k M : (k <= 31)%nat -> (0 <= M)%R -> (2 * (bnd k M - M) <= rounding M)%R.
Proof.
  intros K H. pose proof (bnd_31 k M K H) as B. unfold rounding.
  assert (E1 : bpow radix2 (-14) = (2 * bpow radix2 (-15))%R) by (change (-14) with (1 + -15); rewrite bpow_plus; reflexivity).
  assert (E2 : bpow radix2 (-143) = (2 * bpow radix2 (-144))%R) by (change (-143) with (1 + -144); rewrite bpow_plus; reflexivity).
  rewrite E1, E2. lra.
Qed.
Theorem C86_changed : forall f e M E1 d1 d1' m1 recs1 E2 d2 d2' m2 recs2,
  averaged_into E1 d1 d1' m1 recs1 -> averaged_into E2 d2 d2' m2 recs2 ->
  (forall a p, In (a, p) m1 -> tame p) -> (forall a p, In (a, p) m2 -> tame p) ->
  (0 <= M <= bpow radix2 120)%R -> at_most f M m1 -> at_most f M m2 ->
  paired (within f e) m1 m2 -> paired (within f (e + rounding M)) recs1 recs2.
Proof.
  intros f e M E1 d1 d1' m1 recs1 E2 d2 d2' m2 recs2 A1 A2 T1 T2 HM B1 B2 [S H].
  split; [exact (same_stored _ _ _ _ _ _ _ _ _ _ A1 A2 S)|]. intros b x y I J.
  destruct (averaged_run _ _ _ _ _ A1) as (_ & W1 & V1 & _). destruct (averaged_run _ _ _ _ _ A2) as (_ & W2 & V2 & _).
  pose proof (C44_stored_means _ _ _ _ _ A1 b x I) as X. pose proof (C44_stored_means _ _ _ _ _ A2 b y J) as Y.
  assert (SB : same_octant b b) by (repeat split).
  assert (K : forall a x y, In (a, x) m1 -> In (a, y) m2 -> same_kind x y) by (intros a u v P Q; exact (proj1 (H a u v P Q))).
  split; [exact (kind_both m1 m2 W1 W2 S V1 V2 T1 T2 K _ _ _ _ X Y SB)|]. intros D.
  pose proof (within_both m1 m2 W1 W2 S V1 V2 T1 T2 K f e M HM B1 B2 (fun a u v P Q => proj2 (H a u v P Q)) _ _ _ _ X Y SB D) as G.
  pose proof (E2EFacts.averaged_ok m1 W1 _ _ X) as ((L1 & L2) & _).
  pose proof (twice_31 (depth b) M ltac:(unfold depth; lia) (proj1 HM)) as G2. lra.
Qed.
Print Assumptions C86_changed.

(** C86. So queries at the same resolution (or at maximum resolution) of the two
    averaged databases compare the same way at every location. *)
Theorem C86_maxres : forall C E1 d1 d1' m1 recs1 E2 d2 d2' m2 recs2 DB1 (EQ1 : env DB1) q1 fs1 DB2 (EQ2 : env DB2) q2 fs2
    lon lat elev w names olds,
  averaged_into E1 d1 d1' m1 recs1 -> averaged_into E2 d2 d2' m2 recs2 -> paired C m1 m2 ->
  serves EQ1 q1 recs1 -> serves EQ2 q2 recs2 -> q_type q1 = MAXRES -> q_type q2 = MAXRES ->
  plain q1 lon lat elev w names olds -> plain q2 lon lat elev w names olds -> place_inside w -> Forall material names ->
  exists x y, (x = no_data /\ y = no_data \/ same_kind x y /\ C x y) /\
    (exists q1' fs1', query EQ1 q1 fs1 (Some olds) lon lat elev = Val (q1', fs1', values x f_zero names)) /\
    (exists q2' fs2', query EQ2 q2 fs2 (Some olds) lon lat elev = Val (q2', fs2', values y f_zero names)).
Proof.
  intros C E1 d1 d1' m1 recs1 E2 d2 d2' m2 recs2 DB1 EQ1 q1 fs1 DB2 EQ2 q2 fs2 lon lat elev w names olds A1 A2 [S H] S1 S2 Y1 Y2 P1 P2 I Mn.
  destruct (C44_maxres _ _ _ _ _ _ EQ1 q1 fs1 lon lat elev w names olds A1 S1 Y1 P1 I Mn) as (x & X & Q1).
  destruct (C44_maxres _ _ _ _ _ _ EQ2 q2 fs2 lon lat elev w names olds A2 S2 Y2 P2 I Mn) as (y & Y & Q2).
  exists x, y. split; [|split; [exact Q1|exact Q2]].
  destruct (averaged_run _ _ _ _ _ A2) as (_ & W2 & _).
  destruct X as [(a & Ia & Ha)|(-> & N)].
  - right. destruct (partner m1 m2 S a x Ia) as (y' & Iy).
    pose proof (max_det m2 W2 w y' y (or_introl (ex_intro _ a (conj Iy Ha))) Y) as <-. exact (H a x y' Ia Iy).
  - left. split; [reflexivity|]. apply (max_det m2 W2 w y no_data Y). right. split; [reflexivity|].
    intros a p Ia Ha. destruct (partner' m1 m2 S a p Ia) as (x' & Ix). exact (N a x' Ix Ha).
Qed.
Print Assumptions C86_maxres.
Theorem C86_fixedres : forall C E1 d1 d1' m1 recs1 E2 d2 d2' m2 recs2 DB1 (EQ1 : env DB1) q1 fs1 DB2 (EQ2 : env DB2) q2 fs2
    lon lat elev w names olds l,
  averaged_into E1 d1 d1' m1 recs1 -> averaged_into E2 d2 d2' m2 recs2 -> map fst m1 = map fst m2 -> paired C recs1 recs2 ->
  serves EQ1 q1 recs1 -> serves EQ2 q2 recs2 -> q_type q1 = FIXEDRES -> q_type q2 = FIXEDRES ->
  level (q_geom q1) (mul64 (i2f64 4) (q_res q1)) = Val l -> level (q_geom q2) (mul64 (i2f64 4) (q_res q2)) = Val l -> 0 <= l <= 31 ->
  plain q1 lon lat elev w names olds -> plain q2 lon lat elev w names olds -> place_inside w -> Forall material names ->
  exists x y, (x = no_data /\ y = no_data \/ same_kind x y /\ C x y) /\
    (exists q1' fs1', query EQ1 q1 fs1 (Some olds) lon lat elev = Val (q1', fs1', values x f_zero names)) /\
    (exists q2' fs2', query EQ2 q2 fs2 (Some olds) lon lat elev = Val (q2', fs2', values y f_zero names)).
Proof.
  intros C E1 d1 d1' m1 recs1 E2 d2 d2' m2 recs2 DB1 EQ1 q1 fs1 DB2 EQ2 q2 fs2 lon lat elev w names olds l A1 A2 S [SR H] S1 S2 Y1 Y2 L1 L2 Bl P1 P2 I Mn.
  destruct (C44_fixedres _ _ _ _ _ _ EQ1 q1 fs1 lon lat elev w names olds l A1 S1 Y1 L1 Bl P1 I Mn) as (x & X & Q1).
  destruct (C44_fixedres _ _ _ _ _ _ EQ2 q2 fs2 lon lat elev w names olds l A2 S2 Y2 L2 Bl P2 I Mn) as (y & Y & Q2).
  exists x, y. split; [|split; [exact Q1|exact Q2]].
  destruct (averaged_run _ _ _ _ _ A1) as (X1 & W1 & _ & _ & s1 & F1 & St1).
  destruct (averaged_run _ _ _ _ _ A2) as (X2 & W2 & _ & _ & s2 & F2 & St2).
  destruct X as [(a & Ia & Ha & La)|[(b & Ob & Lb & Hb & Ab & Vb)|(-> & N1 & N2)]].
  - right. destruct (partner m1 m2 S a x Ia) as (y' & Iy).
    pose proof (fixed_det m2 W2 l w y' y (or_introl (ex_intro _ a (conj Iy (conj Ha La)))) Y) as <-.
    exact (H a x y' (out_input _ _ _ _ X1 W1 F1 St1 _ _ Ia) (out_input _ _ _ _ X2 W2 F2 St2 _ _ Iy)).
  - right. destruct (out_above _ _ _ _ X1 W1 F1 St1 b Ob Ab) as (c & u & Ic & Sc & Tc).
    pose proof (C44_stored_means _ _ _ _ _ A1 c u Ic) as U. pose proof (averaged_det m1 W1 _ _ _ _ Vb U Sc) as <-.
    destruct (partner recs1 recs2 SR c x Ic) as (y' & Iy). pose proof (C44_stored_means _ _ _ _ _ A2 c y' Iy) as V.
    assert (Oc : octant_ok c) by exact (out_ok _ _ _ _ X1 W1 F1 St1 _ _ Ic).
    assert (Ac : above_input m2 c).
    { apply (above_both m1 m2 S). destruct Ab as (a & Ia & An). exists a. split; [exact Ia|]. destruct Sc as (Z1 & Z2 & Z3 & Z4).
      unfold ancestor_of, covers in *. rewrite <- Z1, <- Z2, <- Z3, <- Z4. exact An. }
    assert (G : input_at_level m2 l w y').
    { right. left. exists c. split; [exact Oc|]. split; [destruct Sc as (_ & _ & _ & <-); exact Lb|].
      split; [exact (same_octant_holds _ _ w Sc Hb)|]. split; [exact Ac|exact V]. }
    pose proof (fixed_det m2 W2 l w y' y G Y) as <-. exact (H c x y' Ic Iy).
  - left. split; [reflexivity|]. apply (fixed_det m2 W2 l w y no_data Y). right. right. split; [reflexivity|]. split.
    + intros a p Ia Ha. destruct (partner' m1 m2 S a p Ia) as (x' & Ix). exact (N1 a x' Ix Ha).
    + intros b Ob Lb Hb Ab. exact (N2 b Ob Lb Hb (proj2 (above_both m1 m2 S b) Ab)).
Qed.
Print Assumptions C86_fixedres.

(** ** Example: the cubes of C78, and the same with rock that is faster by 100 m/s *)
Definition file_of (m : list (addr * payload)) : disk := fun n =>
  if String.eqb n "in" then Some (mkDb m (Some SCHEMA) (Some "USGS model"%string) 28) else None.
Definition recs_of (m : list (addr * payload)) : list (addr * payload) :=
  match fst (average works "in" "out" (file_of m)) "out"%string with Some g => d_recs g | None => [] end.
Definition usual (m : list (addr * payload)) : bool :=
  wf_inputb m && forallb (fun x => match a_type (fst x) with Leaf => proper_valuesb (snd x) && tameb (snd x) | _ => false end) m.
Lemma usual_wf m : usual m = true -> wf_input m.
Proof. unfold usual. rewrite andb_true_iff. intros [H _]. apply wf_inputb_sound, H. Qed.
Lemma usual_tame m : usual m = true -> forall a p, In (a, p) m -> tame p.
Proof.
  unfold usual. rewrite andb_true_iff. intros [_ G] a p I. rewrite forallb_forall in G. specialize (G _ I). cbn [fst snd] in G.
  destruct (a_type a); [|discriminate G]. apply andb_true_iff in G. apply tameb_ok, G.
Qed.
Lemma usual_averaged m : usual m = true -> exists d', averaged_into works (file_of m) d' m (recs_of m).
Proof.
  intros Us. pose proof (usual_wf m Us) as W.
  assert (P : forall a p, In (a, p) m -> a_type a = Leaf /\ proper_values p).
  { unfold usual in Us. rewrite andb_true_iff in Us. destruct Us as [_ G]. intros a p I. rewrite forallb_forall in G. specialize (G _ I). cbn [fst snd] in G.
    destruct (a_type a); [|discriminate G]. apply andb_true_iff in G. split; [reflexivity|apply proper_valuesb_ok, G]. }
  assert (U : usable works (file_of m) "in" (mkDb m (Some SCHEMA) (Some "USGS model"%string) 28)) by (repeat split).
  assert (C : can_create works (file_of m) "out") by (repeat split).
  destruct (C17_averages_file works "in" "out" (file_of m) _ ltac:(discriminate) U C ltac:(repeat split) eq_refl ltac:(apply simple_accepts) W)
    as (d' & s & out & F & R & S & G & _).
  exists d', "in"%string, "out"%string. eexists. eexists. exists (e_cnt s).
  split; [discriminate|]. split; [exact U|]. split; [exact C|]. split; [repeat split|]. split; [reflexivity|]. split; [apply simple_accepts|]. split; [reflexivity|].
  split; [exact W|]. split; [exact P|]. split; [exact R|]. split; [exact G|].
  unfold recs_of. rewrite R. cbn [fst]. rewrite G. reflexivity.
Qed.
Definition each (g : payload -> payload) (m : list (addr * payload)) : list (addr * payload) := map (fun r => (fst r, g (snd r))) m.
Lemma paired_each g C m : wf_input m -> Forall (fun r => same_kind (snd r) (g (snd r)) /\ C (snd r) (g (snd r))) m -> paired C m (each g m).
Proof.
  intros W H. split; [unfold each; rewrite map_map; reflexivity|]. intros a x y I J. unfold each in J.
  apply in_map_iff in J. destruct J as ([a' x'] & Q & J). cbn [fst snd] in Q. injection Q as -> <-.
  rewrite (input_unique m W a x' a x J I ltac:(repeat split)). rewrite Forall_forall in H. exact (H _ I).
Qed.
Definition faster (p : payload) : payload :=
  if solid p then mkPayload (p_vp p) (add32 (p_vs p) (i2f32 100)) (p_density p) (p_qp p) (p_qs p) (p_dfs p) (p_block p) (p_zone p) else p.
Ltac numbers := repeat match goal with |- context [SF2R radix2 ?t] => let v := eval vm_compute in t in
  lazymatch v with t => fail | _ => change t with v end end; unfold SF2R, F2R; cbn.
Lemma faster_lower : paired (lower PVs) mixed (each faster mixed).
Proof.
  apply paired_each; [exact mixed_wf|]. unfold mixed.
  repeat (apply Forall_cons; [cbn [snd]; split; [split; [vm_compute; reflexivity|intros _; vm_compute; reflexivity]|intros _; unfold real_of; numbers; lra]|]).
  apply Forall_nil.
Qed.
Lemma faster_within : paired (within PVs 100) mixed (each faster mixed).
Proof.
  apply paired_each; [exact mixed_wf|]. unfold mixed.
  repeat (apply Forall_cons; [cbn [snd]; split; [split; [vm_compute; reflexivity|intros _; vm_compute; reflexivity]|intros _; unfold real_of; numbers; apply Rabs_le; lra]|]).
  apply Forall_nil.
Qed.
Lemma most_each f M m : Forall (fun r => has_data (snd r) -> (Rabs (real_of (get6 f (snd r))) <= M)%R) m -> at_most f M m.
Proof. intros H a x I. rewrite Forall_forall in H. exact (H _ I). Qed.
Lemma mixed_most : at_most PVs 2000 mixed /\ at_most PVs 2000 (each faster mixed).
Proof.
  split; apply most_each; unfold mixed; cbn [each map fst snd];
  repeat (apply Forall_cons; [cbn [snd]; intros _; unfold real_of; numbers; apply Rabs_le; lra|]); apply Forall_nil.
Qed.
Lemma mixed_usual : usual mixed = true. Proof. vm_compute. reflexivity. Qed.
Lemma faster_usual : usual (each faster mixed) = true. Proof. vm_compute. reflexivity. Qed.
Example C86_example : paired (lower PVs) (recs_of mixed) (recs_of (each faster mixed)) /\
  paired (within PVs (100 + rounding 2000)) (recs_of mixed) (recs_of (each faster mixed)).
Proof.
  destruct (usual_averaged _ mixed_usual) as (d1 & A1). destruct (usual_averaged _ faster_usual) as (d2 & A2). split.
  - exact (C86_raised PVs _ _ _ _ _ _ _ _ _ _ A1 A2 (usual_tame _ mixed_usual) (usual_tame _ faster_usual) faster_lower).
  - apply (C86_changed PVs 100 2000 _ _ _ _ _ _ _ _ _ _ A1 A2 (usual_tame _ mixed_usual) (usual_tame _ faster_usual)).
    + split; [lra|]. apply Rle_trans with (bpow radix2 11); [cbn; lra|apply bpow_le; lia].
    + apply mixed_most.
    + apply mixed_most.
    + exact faster_within.
Qed.
(** The root and the cube with rock get faster by 100 m/s; the others do not change. *)
Example C86_example_values :
  map (fun r => (a_level (fst r), p_vs (snd r))) (filter (fun r => a_level (fst r) <=? 1) (recs_of mixed)) =
    [(0, narrow (dec64 12505 1)); (1, narrow (dec64 12505 1)); (1, narrow (dec64 (-4995) 1)); (1, i2f32 (-999))] /\
  map (fun r => (a_level (fst r), p_vs (snd r))) (filter (fun r => a_level (fst r) <=? 1) (recs_of (each faster mixed))) =
    [(0, narrow (dec64 13505 1)); (1, narrow (dec64 13505 1)); (1, narrow (dec64 (-4995) 1)); (1, i2f32 (-999))].
Proof. split; vm_compute; reflexivity. Qed.

(** The kinds must agree: where water becomes slow rock (the shear speed is raised from
    0 to 10 m/s), the averages around it get lower. *)
Definition mud (p : payload) : payload :=
  if solid p then p else if water p then mkPayload (p_vp p) (i2f32 10) (p_density p) (p_qp p) (p_qs p) (p_dfs p) (p_block p) (p_zone p) else p.
Theorem C86_kinds_refuted : usual mixed = true /\ usual (each mud mixed) = true /\
  (forall a x y, In (a, x) mixed -> In (a, y) (each mud mixed) -> lower PVs x y) /\
  ~ (forall a x y, In (a, x) (recs_of mixed) -> In (a, y) (recs_of (each mud mixed)) -> lower PVs x y).
Proof.
  split; [exact mixed_usual|]. split; [vm_compute; reflexivity|]. split.
  - intros a x y I J. unfold each in J. apply in_map_iff in J. destruct J as ([a' x'] & Q & J). cbn [fst snd] in Q. injection Q as -> <-.
    rewrite (input_unique mixed mixed_wf a x' a x J I ltac:(repeat split)).
    assert (F : Forall (fun r => lower PVs (snd r) (mud (snd r))) mixed).
    { unfold mixed. repeat (apply Forall_cons; [cbn [snd]; intros _; unfold real_of; numbers; lra|]). apply Forall_nil. }
    rewrite Forall_forall in F. exact (F _ I).
  - intros H.
    destruct (recs_of mixed) as [|[a x] l1] eqn:E1; [vm_compute in E1; discriminate|].
    destruct (recs_of (each mud mixed)) as [|[b y] l2] eqn:E2; [vm_compute in E2; discriminate|].
    assert (Qx : x = snd (hd (root_addr, none_v) (recs_of mixed))) by (rewrite E1; reflexivity).
    assert (Qy : y = snd (hd (root_addr, none_v) (recs_of (each mud mixed)))) by (rewrite E2; reflexivity).
    assert (Qa : a = fst (hd (root_addr, none_v) (recs_of mixed))) by (rewrite E1; reflexivity).
    assert (Qb : b = fst (hd (root_addr, none_v) (recs_of (each mud mixed)))) by (rewrite E2; reflexivity).
    clear E1 E2. vm_compute in Qx, Qy, Qa, Qb. subst a b.
    assert (Bad : lower PVs x y) by (eapply H; left; reflexivity). clear H. subst x y.
    unfold lower, real_of in Bad. cbn [get6 p_vs] in Bad. unfold SF2R, F2R in Bad. cbn in Bad.
    specialize (Bad ltac:(left; vm_compute; reflexivity)). lra.
Qed.
Print Assumptions C86_kinds_refuted.

(** C86 for queries, on the leaves of C44 and the same leaves with faster rock. *)
Lemma leaves_usual : usual leaves = true. Proof. vm_compute. reflexivity. Qed.
Lemma faster_leaves : usual (each faster leaves) = true. Proof. vm_compute. reflexivity. Qed.
Lemma leaves_lower : paired (lower PVs) leaves (each faster leaves).
Proof.
  apply paired_each; [exact leaves_wf|]. unfold leaves.
  repeat (apply Forall_cons; [cbn [snd]; split; [split; [vm_compute; reflexivity|intros _; vm_compute; reflexivity]|intros _; unfold real_of; numbers; lra]|]).
  apply Forall_nil.
Qed.
Lemma recs_served m ty res : serves toy_env (toy_q ty res (recs_of m) None false all_names) (recs_of m).
Proof. split; [reflexivity|]. exists (recs_of m). split; [reflexivity | apply lsearch_ok]. Qed.
Example C86_example_queries :
  (exists x y, (x = no_data /\ y = no_data \/ same_kind x y /\ lower PVs x y) /\
    (exists q1' fs1', query toy_env (toy_q MAXRES f_zero (recs_of leaves) None false all_names) no_files (Some four) toy_x toy_y elev_a =
       Val (q1', fs1', values x f_zero all_names)) /\
    (exists q2' fs2', query toy_env (toy_q MAXRES f_zero (recs_of (each faster leaves)) None false all_names) no_files (Some four) toy_x toy_y elev_a =
       Val (q2', fs2', values y f_zero all_names))) /\
  (exists x y, (x = no_data /\ y = no_data \/ same_kind x y /\ lower PVs x y) /\
    (exists q1' fs1', query toy_env (toy_q FIXEDRES (i2f64 25) (recs_of leaves) None false all_names) no_files (Some four) toy_x toy_y elev_a =
       Val (q1', fs1', values x f_zero all_names)) /\
    (exists q2' fs2', query toy_env (toy_q FIXEDRES (i2f64 25) (recs_of (each faster leaves)) None false all_names) no_files (Some four) toy_x toy_y elev_a =
       Val (q2', fs2', values y f_zero all_names))).
Proof.
  destruct (usual_averaged _ leaves_usual) as (d1 & A1). destruct (usual_averaged _ faster_leaves) as (d2 & A2). split.
  - exact (C86_maxres (lower PVs) _ _ _ _ _ _ _ _ _ _ _ toy_env (toy_q MAXRES f_zero (recs_of leaves) None false all_names) no_files
      _ toy_env (toy_q MAXRES f_zero (recs_of (each faster leaves)) None false all_names) no_files toy_x toy_y elev_a (toy_place elev_a) all_names four
      A1 A2 leaves_lower (recs_served _ _ _) (recs_served _ _ _) eq_refl eq_refl
      (toy_plain4 _ _ _ _ _) (toy_plain4 _ _ _ _ _) toy_inside_a names_material).
  - exact (C86_fixedres (lower PVs) _ _ _ _ _ _ _ _ _ _ _ toy_env (toy_q FIXEDRES (i2f64 25) (recs_of leaves) None false all_names) no_files
      _ toy_env (toy_q FIXEDRES (i2f64 25) (recs_of (each faster leaves)) None false all_names) no_files toy_x toy_y elev_a (toy_place elev_a) all_names four 14
      A1 A2 (proj1 leaves_lower)
      (C86_raised PVs _ _ _ _ _ _ _ _ _ _ A1 A2 (usual_tame _ leaves_usual) (usual_tame _ faster_leaves) leaves_lower)
      (recs_served _ _ _) (recs_served _ _ _) eq_refl eq_refl ltac:(vm_compute; reflexivity) ltac:(vm_compute; reflexivity) ltac:(lia)
      (toy_plain4 _ _ _ _ _) (toy_plain4 _ _ _ _ _) toy_inside_a names_material).
Qed.
(** The mean shear speed rises from 3000 to 3100 m/s. *)
Example C86_example_answers :
  outcome_values (query toy_env (toy_q FIXEDRES (i2f64 25) (recs_of leaves) None false all_names) no_files (Some four) toy_x toy_y elev_a) =
    Val [i2f64 3000; i2f64 5200; i2f64 (-999); i2f64 3000] /\
  outcome_values (query toy_env (toy_q FIXEDRES (i2f64 25) (recs_of (each faster leaves)) None false all_names) no_files (Some four) toy_x toy_y elev_a) =
    Val [i2f64 3100; i2f64 5200; i2f64 (-999); i2f64 3100].
Proof. split; vm_compute; reflexivity. Qed.
