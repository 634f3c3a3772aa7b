(** C80: changing a model in one place does not change it elsewhere. *)
From Coq Require Import ZArith Bool Reals Lra Lia String Sorting.Sorted List.
From Verif Require Import Outcome Float Payload Addr SpecOct SpecAvg AvgEngine AvgFinal SpecGeom Geom Store Averager SpecStore
  ErrorHandler VMQuery SpecQuery SpecHist QueryFacts QueryProof QueryMain SpecE2E E2EFacts SpecLocal LocalFacts PropE2E.
Import ListNotations.
Open Scope Z_scope.

(** C80: two databases are averaged.  If the inputs have the same records inside an
    octant, so do the results. *)
Theorem C80_stored : forall E1 d1 d1' inp1 recs1 E2 d2 d2' inp2 recs2 b,
  averaged_into E1 d1 d1' inp1 recs1 -> averaged_into E2 d2 d2' inp2 recs2 ->
  agree_inside inp1 inp2 b -> agree_inside recs1 recs2 b.
Proof.
  assert (G : forall E1 d1 d1' inp1 recs1 E2 d2 d2' inp2 recs2 b,
    averaged_into E1 d1 d1' inp1 recs1 -> averaged_into E2 d2 d2' inp2 recs2 ->
    agree_inside inp1 inp2 b -> forall a p, covers b a -> In (a, p) recs1 -> In (a, p) recs2).
  { intros E1 d1 d1' inp1 recs1 E2 d2 d2' inp2 recs2 b A1 A2 G h v C I.
    pose proof (C44_stored_means _ _ _ _ _ A1 h v I) as V.
    destruct (averaged_run _ _ _ _ _ A1) as (X1 & W1 & V1 & L1 & s1 & F1 & St1).
    destruct (averaged_run _ _ _ _ _ A2) as (X2 & W2 & V2 & L2 & s2 & F2 & St2).
    pose proof (inside_cover _ _ _ _ G C) as Gh. pose proof (averaged_local inp1 inp2 W1 h v V Gh) as V'.
    destruct (out_cases _ _ _ _ X1 W1 F1 St1 h v I) as [Ih|(T & O & Ab)].
    - apply (out_input _ _ _ _ X2 W2 F2 St2). apply (G h v C), Ih.
    - destruct (out_above _ _ _ _ X2 W2 F2 St2 h O (above_local _ _ _ Gh Ab)) as (c & u & Ic & S & Tc).
      pose proof (C44_stored_means _ _ _ _ _ A2 c u Ic) as U.
      pose proof (averaged_det inp2 W2 _ _ _ _ V' U S) as <-.
      pose proof (averaged_ok inp2 W2 _ _ U) as Oc. destruct O as (_ & Ot & _), Oc as (_ & Oct & _).
      destruct S as (Sx & Sy & Sz & Sl). destruct h as [x1 y1 z1 t1 l1 k1], c as [x2 y2 z2 t2 l2 k2]. cbn [a_x a_y a_z a_t a_level a_type] in *. subst. exact Ic. }
  intros E1 d1 d1' inp1 recs1 E2 d2 d2' inp2 recs2 b A1 A2 H a p C. split; intros I.
  - exact (G _ _ _ _ _ _ _ _ _ _ _ A1 A2 H a p C I).
  - exact (G _ _ _ _ _ _ _ _ _ _ _ A2 A1 (inside_sym _ _ _ H) a p C I).
Qed.
Print Assumptions C80_stored.

(** Two query objects, each on one of the averaged databases, asked for the same
    location and values, give the same answers: at highest resolution if the inputs
    agree at the location. *)
Theorem C80_maxres : forall E1 d1 d1' inp1 recs1 E2 d2 d2' inp2 recs2 DB1 (EQ1 : env DB1) q1 fs1 DB2 (EQ2 : env DB2) q2 fs2
    lon lat elev w names olds,
  averaged_into E1 d1 d1' inp1 recs1 -> averaged_into E2 d2 d2' inp2 recs2 ->
  serves EQ1 q1 recs1 -> serves EQ2 q2 recs2 -> q_type q1 = MAXRES -> q_type q2 = MAXRES ->
  plain q1 lon lat elev w names olds -> plain q2 lon lat elev w names olds -> place_inside w -> Forall material names ->
  agree_at inp1 inp2 w ->
  exists vals q1' fs1' q2' fs2', query EQ1 q1 fs1 (Some olds) lon lat elev = Val (q1', fs1', vals) /\
    query EQ2 q2 fs2 (Some olds) lon lat elev = Val (q2', fs2', vals).
Proof.
  intros E1 d1 d1' inp1 recs1 E2 d2 d2' inp2 recs2 DB1 EQ1 q1 fs1 DB2 EQ2 q2 fs2 lon lat elev w names olds A1 A2 S1 S2 T1 T2 P1 P2 I M G.
  destruct (C44_maxres _ _ _ _ _ _ EQ1 q1 fs1 lon lat elev w names olds A1 S1 T1 P1 I M) as (x & X & q1' & fs1' & Q1).
  destruct (C44_maxres _ _ _ _ _ _ EQ2 q2 fs2 lon lat elev w names olds A2 S2 T2 P2 I M) as (y & Y & q2' & fs2' & Q2).
  destruct (averaged_run _ _ _ _ _ A2) as (_ & W2 & _).
  pose proof (max_det inp2 W2 w x y (max_local inp1 inp2 w x G X) Y) as <-.
  eexists _, q1', fs1', q2', fs2'. split; [exact Q1|exact Q2].
Qed.
Print Assumptions C80_maxres.

(** At a fixed resolution if the inputs agree inside and around the octant of that
    resolution that holds the location. *)
Theorem C80_fixedres : forall E1 d1 d1' inp1 recs1 E2 d2 d2' inp2 recs2 DB1 (EQ1 : env DB1) q1 fs1 DB2 (EQ2 : env DB2) q2 fs2
    lon lat elev w names olds b,
  averaged_into E1 d1 d1' inp1 recs1 -> averaged_into E2 d2 d2' inp2 recs2 ->
  serves EQ1 q1 recs1 -> serves EQ2 q2 recs2 -> q_type q1 = FIXEDRES -> q_type q2 = FIXEDRES ->
  level (q_geom q1) (mul64 (i2f64 4) (q_res q1)) = Val (a_level b) ->
  level (q_geom q2) (mul64 (i2f64 4) (q_res q2)) = Val (a_level b) ->
  plain q1 lon lat elev w names olds -> plain q2 lon lat elev w names olds -> place_inside w -> Forall material names ->
  octant_ok b -> holds b w -> agree_inside inp1 inp2 b -> agree_around inp1 inp2 b ->
  exists vals q1' fs1' q2' fs2', query EQ1 q1 fs1 (Some olds) lon lat elev = Val (q1', fs1', vals) /\
    query EQ2 q2 fs2 (Some olds) lon lat elev = Val (q2', fs2', vals).
Proof.
  intros E1 d1 d1' inp1 recs1 E2 d2 d2' inp2 recs2 DB1 EQ1 q1 fs1 DB2 EQ2 q2 fs2 lon lat elev w names olds b A1 A2 S1 S2 T1 T2 L1 L2 P1 P2 I M O H G1 G2.
  pose proof (proj1 O) as B.
  destruct (C44_fixedres _ _ _ _ _ _ EQ1 q1 fs1 lon lat elev w names olds _ A1 S1 T1 L1 B P1 I M) as (x & X & q1' & fs1' & Q1).
  destruct (C44_fixedres _ _ _ _ _ _ EQ2 q2 fs2 lon lat elev w names olds _ A2 S2 T2 L2 B P2 I M) as (y & Y & q2' & fs2' & Q2).
  destruct (averaged_run _ _ _ _ _ A1) as (_ & W1 & _). destruct (averaged_run _ _ _ _ _ A2) as (_ & W2 & _).
  pose proof (fixed_det inp2 W2 _ w x y (fixed_local inp1 inp2 W1 W2 _ b w x O eq_refl H G1 G2 X) Y) as <-.
  eexists _, q1', fs1', q2', fs2'. split; [exact Q1|exact Q2].
Qed.
Print Assumptions C80_fixedres.

(** For a shortest period if the inputs agree inside an octant around the location
    that is not too fine for the period. *)
Theorem C80_waveres : forall E1 d1 d1' inp1 recs1 E2 d2 d2' inp2 recs2 DB1 (EQ1 : env DB1) q1 fs1 DB2 (EQ2 : env DB2) q2 fs2
    lon lat elev w names olds b v,
  averaged_into E1 d1 d1' inp1 recs1 -> averaged_into E2 d2 d2' inp2 recs2 ->
  serves EQ1 q1 recs1 -> serves EQ2 q2 recs2 -> q_type q1 = WAVERES -> q_type q2 = WAVERES -> q_res q1 = q_res q2 ->
  plain q1 lon lat elev w names olds -> plain q2 lon lat elev w names olds -> place_inside w -> Forall material names ->
  In (b, v) recs1 -> holds b w -> ~ too_fine (mul64 (i2f64 4) (q_res q1)) b v -> agree_inside inp1 inp2 b ->
  exists vals q1' fs1' q2' fs2', query EQ1 q1 fs1 (Some olds) lon lat elev = Val (q1', fs1', vals) /\
    query EQ2 q2 fs2 (Some olds) lon lat elev = Val (q2', fs2', vals).
Proof.
  intros E1 d1 d1' inp1 recs1 E2 d2 d2' inp2 recs2 DB1 EQ1 q1 fs1 DB2 EQ2 q2 fs2 lon lat elev w names olds b v A1 A2 S1 S2 T1 T2 R P1 P2 I M Ib H N G.
  pose proof (C44_stored_means _ _ _ _ _ A1 b v Ib) as V.
  destruct (C44_waveres _ _ _ _ _ _ EQ1 q1 fs1 lon lat elev w names olds A1 S1 T1 P1 I M) as (x & X & q1' & fs1' & Q1 & _).
  destruct (C44_waveres _ _ _ _ _ _ EQ2 q2 fs2 lon lat elev w names olds A2 S2 T2 P2 I M) as (y & Y & q2' & fs2' & Q2 & _).
  destruct (averaged_run _ _ _ _ _ A1) as (_ & W1 & _). destruct (averaged_run _ _ _ _ _ A2) as (_ & W2 & _).
  rewrite R in X, N.
  pose proof (wave_det inp2 W2 _ w x y (wave_local inp1 inp2 W1 W2 _ b v w x (averaged_ok inp1 W1 _ _ V) H V N G X) Y) as <-.
  eexists _, q1', fs1', q2', fs2'. split; [exact Q1|exact Q2].
Qed.
Print Assumptions C80_waveres.

(** ** Example: the leaves of C44, and the same with other values far away *)
From Verif Require Import StoreFacts ToyLib ToyDb PropAvg PropStore PropQuery.
Definition changed : list (addr * payload) := [(low_leaf, v_low); (toy_leaf, v_leaf); (toy_top, v_low)].
Definition changed_disk : disk := fun n =>
  if String.eqb n "in" then Some (mkDb changed (Some SCHEMA) (Some "USGS model"%string) 28) else None.
Definition changed_recs : list (addr * payload) :=
  match fst (average works "in" "out" changed_disk) "out"%string with Some g => d_recs g | None => [] end.
Lemma changed_wf : wf_input changed.
Proof. apply wf_inputb_sound. vm_compute. reflexivity. Qed.
Lemma changed_proper a p : In (a, p) changed -> a_type a = Leaf /\ proper_values p.
Proof.
  assert (G : forallb (fun x => match a_type (fst x) with Leaf => proper_valuesb (snd x) | _ => false end) changed = true)
    by (vm_compute; reflexivity).
  intros I. rewrite forallb_forall in G. specialize (G _ I). cbn [fst snd] in G.
  destruct (a_type a); [discriminate G || (split; [reflexivity | apply proper_valuesb_ok, G]) ..].
Qed.
Lemma changed_averaged : exists d', averaged_into works changed_disk d' changed changed_recs.
Proof.
  assert (U : usable works changed_disk "in" (mkDb changed (Some SCHEMA) (Some "USGS model"%string) 28)) by (repeat split).
  assert (C : can_create works changed_disk "out") by (repeat split).
  destruct (C17_averages_file works "in" "out" changed_disk _ ltac:(discriminate) U C ltac:(repeat split) eq_refl ltac:(apply simple_accepts) changed_wf)
    as (d' & s & out & F & R & S & G & _).
  exists d', "in"%string, "out"%string. eexists. eexists. exists (e_cnt s).
  split; [discriminate|]. split; [exact U|]. split; [exact C|]. split; [repeat split|]. split; [reflexivity|]. split; [apply simple_accepts|]. split; [reflexivity|].
  split; [exact changed_wf|]. split; [exact changed_proper|]. split; [exact R|]. split; [exact G|].
  unfold changed_recs. rewrite R. cbn [fst]. rewrite G. reflexivity.
Qed.
Lemma changed_outside b : coversb b toy_top = false -> agree_inside leaves changed b.
Proof.
  intros N a p C. assert (X : toy_top <> a) by (intros <-; apply coversb_iff in C; congruence).
  unfold leaves, changed. cbn [In]. split; (intros [Q|[Q|[Q|[]]]]; [left; exact Q|right; left; exact Q|exfalso; apply X; exact (f_equal fst Q)]).
Qed.
Lemma changed_around b : coversb toy_top b = false -> agree_around leaves changed b.
Proof.
  intros N a p C. assert (X : toy_top <> a) by (intros <-; apply coversb_iff in C; congruence).
  unfold leaves, changed. cbn [In]. split; (intros [Q|[Q|[Q|[]]]]; [left; exact Q|right; left; exact Q|exfalso; apply X; exact (f_equal fst Q)]).
Qed.
(** The octant of level 14 keeps its mean, the root does not. *)
Example C80_example_stored : agree_inside leaves_recs changed_recs toy_parent /\ leaves_recs <> changed_recs.
Proof.
  destruct leaves_averaged as (d1 & A1). destruct changed_averaged as (d2 & A2). split.
  - apply (C80_stored _ _ _ _ _ _ _ _ _ _ _ A1 A2). apply changed_outside. vm_compute. reflexivity.
  - intros Q. apply (f_equal (map (fun r => p_vs (snd r)))) in Q. vm_compute in Q. discriminate.
Qed.
Lemma changed_served ty res : serves toy_env (toy_q ty res changed_recs None false all_names) changed_recs.
Proof. split; [reflexivity|]. exists changed_recs. split; [reflexivity | apply lsearch_ok]. Qed.
Example C80_example_fixedres : exists vals q1' fs1' q2' fs2',
  query toy_env (toy_q FIXEDRES (i2f64 25) leaves_recs None false all_names) no_files (Some four) toy_x toy_y elev_a = Val (q1', fs1', vals) /\
  query toy_env (toy_q FIXEDRES (i2f64 25) changed_recs None false all_names) no_files (Some four) toy_x toy_y elev_a = Val (q2', fs2', vals).
Proof.
  destruct leaves_averaged as (d1 & A1). destruct changed_averaged as (d2 & A2).
  apply (C80_fixedres _ _ _ _ _ _ _ _ _ _ _ toy_env (toy_q FIXEDRES (i2f64 25) leaves_recs None false all_names) no_files
    _ toy_env (toy_q FIXEDRES (i2f64 25) changed_recs None false all_names) no_files toy_x toy_y elev_a (toy_place elev_a) all_names four
    toy_parent A1 A2 (leaves_served _ _) (changed_served _ _) eq_refl eq_refl ltac:(vm_compute; reflexivity) ltac:(vm_compute; reflexivity)
    (toy_plain4 _ _ _ _ _) (toy_plain4 _ _ _ _ _) toy_inside_a names_material).
  - apply octant_okb_sound. vm_compute. reflexivity.
  - apply (holds_cover toy_parent toy_leaf); [exact toy_leaf_holds|apply coversb_iff; vm_compute; reflexivity].
  - apply changed_outside. vm_compute. reflexivity.
  - apply changed_around. vm_compute. reflexivity.
Qed.
Example C80_example_waveres : exists vals q1' fs1' q2' fs2',
  query toy_env (toy_q WAVERES (dec64 6 3) leaves_recs None false all_names) no_files (Some four) toy_x toy_y elev_a = Val (q1', fs1', vals) /\
  query toy_env (toy_q WAVERES (dec64 6 3) changed_recs None false all_names) no_files (Some four) toy_x toy_y elev_a = Val (q2', fs2', vals).
Proof.
  destruct leaves_averaged as (d1 & A1). destruct changed_averaged as (d2 & A2).
  destruct (find (fun r => same_key (fst r) toy_parent) leaves_recs) as [[b v]|] eqn:F; [|vm_compute in F; discriminate F].
  apply (C80_waveres _ _ _ _ _ _ _ _ _ _ _ toy_env (toy_q WAVERES (dec64 6 3) leaves_recs None false all_names) no_files
    _ toy_env (toy_q WAVERES (dec64 6 3) changed_recs None false all_names) no_files toy_x toy_y elev_a (toy_place elev_a) all_names four
    b v A1 A2 (leaves_served _ _) (changed_served _ _) eq_refl eq_refl eq_refl
    (toy_plain4 _ _ _ _ _) (toy_plain4 _ _ _ _ _) toy_inside_a names_material).
  - exact (proj1 (find_some _ _ F)).
  - vm_compute in F. injection F as <- _. apply (holds_cover _ toy_leaf); [exact toy_leaf_holds|apply coversb_iff; vm_compute; reflexivity].
  - vm_compute in F. injection F as <- <-. intros (_ & T & _). vm_compute in T. discriminate T.
  - apply changed_outside. vm_compute in F. injection F as <- _. vm_compute. reflexivity.
Qed.
Example C80_example_maxres : exists vals q1' fs1' q2' fs2',
  query toy_env (toy_q MAXRES f_zero leaves_recs None false all_names) no_files (Some four) toy_x toy_y elev_a = Val (q1', fs1', vals) /\
  query toy_env (toy_q MAXRES f_zero changed_recs None false all_names) no_files (Some four) toy_x toy_y elev_a = Val (q2', fs2', vals).
Proof.
  destruct leaves_averaged as (d1 & A1). destruct changed_averaged as (d2 & A2).
  apply (C80_maxres _ _ _ _ _ _ _ _ _ _ _ toy_env (toy_q MAXRES f_zero leaves_recs None false all_names) no_files
    _ toy_env (toy_q MAXRES f_zero changed_recs None false all_names) no_files toy_x toy_y elev_a (toy_place elev_a) all_names four
    A1 A2 (leaves_served _ _) (changed_served _ _) eq_refl eq_refl
    (toy_plain4 _ _ _ _ _) (toy_plain4 _ _ _ _ _) toy_inside_a names_material).
  intros a p H. assert (X : toy_top <> a).
  { intros <-. pose proof (input_holding leaves leaves_wf toy_leaf v_leaf toy_top v_top _ ltac:(right; left; reflexivity) ltac:(right; right; left; reflexivity) toy_leaf_holds H) as S.
    pose proof (proj1 (proj2 (proj2 S))) as Z'. vm_compute in Z'. discriminate Z'. }
  unfold leaves, changed. cbn [In]. split; (intros [Q|[Q|[Q|[]]]]; [left; exact Q|right; left; exact Q|exfalso; apply X; exact (f_equal fst Q)]).
Qed.
