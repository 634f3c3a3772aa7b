(** C80 with an extended database: what a query with two models open cannot notice. *)
From Coq Require Import ZArith Bool Lia String List.
From Verif Require Import Outcome Float Payload Addr SpecOct SpecAvg AvgEngine AvgFinal SpecGeom Geom Store Averager SpecStore
  ErrorHandler VMQuery SpecQuery SpecHist QueryFacts QueryProof QueryMain SpecE2E E2EFacts SpecLocal LocalFacts PropE2E PropE2EExt.
Import ListNotations.
Open Scope Z_scope.

(** Two inputs agree as far as a query at [w] can tell: they are the same, or they agree
    at the location, in and around the octant of the resolution, or inside an octant
    around the location with input in it that is not too fine for the period. *)
Definition agree_for (r : resolution) (m1 m2 : list (addr * payload)) (w : place) : Prop :=
  (forall a p, In (a, p) m1 <-> In (a, p) m2) \/
  match r with
  | Finest => agree_at m1 m2 w
  | AtLevel l => exists b, octant_ok b /\ a_level b = l /\ holds b w /\ agree_inside m1 m2 b /\ agree_around m1 m2 b
  | ForPeriod t => exists b v, octant_ok b /\ holds b w /\ averaged m1 b v /\ ~ too_fine t b v /\ agree_inside m1 m2 b
  end.

Section SAME.
Variables m1 m2 : list (addr * payload).
Hypothesis W1 : wf_input m1.
Hypothesis Q : forall a p, In (a, p) m1 <-> In (a, p) m2.
Lemma same_averaged b v : averaged m1 b v -> averaged m2 b v.
Proof. intros A. apply (averaged_local m1 m2 W1 b v A). intros a p _. apply Q. Qed.
Lemma same_above b : above_input m1 b <-> above_input m2 b.
Proof. split; apply above_local; intros a p _; [apply Q|symmetry; apply Q]. Qed.
Lemma same_coarsened t prev h v ans : coarsened m1 t prev h v ans -> coarsened m2 t prev h v ans.
Proof.
  induction 1 as [prev h v N|prev h v h' v' ans F O L C A K IH]; [constructor; exact N|].
  exact (coarsened_up m2 t prev h v h' v' ans F O L C (same_averaged _ _ A) IH).
Qed.
Lemma same_for_period t w ans : input_for_period m1 t w ans -> input_for_period m2 t w ans.
Proof.
  intros [(a & p & I & H & K)|(N & b & v & (O & A & H & M) & V & K)].
  - left. exists a, p. split; [apply Q, I|]. split; [exact H|]. exact (same_coarsened _ _ _ _ _ K).
  - right. split; [intros a p I; apply (N a p), Q, I|]. exists b, v.
    split; [split; [exact O|split; [apply same_above, A|split; [exact H|intros b' O' A' H'; apply M; [exact O'|apply same_above, A'|exact H']]]]|].
    split; [exact (same_averaged _ _ V)|].
    destruct K as [K|[K1 K2]]; [left; exact K|right; split; [exact K1|exact (same_coarsened _ _ _ _ _ K2)]].
Qed.
Lemma same_at_level l w ans : input_at_level m1 l w ans -> input_at_level m2 l w ans.
Proof.
  intros [(a & I & H & L)|[(b & O & L & H & A & V)|(-> & N1 & N2)]].
  - left. exists a. split; [apply Q, I|]. split; [exact H|exact L].
  - right. left. exists b. split; [exact O|]. split; [exact L|]. split; [exact H|]. split; [apply same_above, A|exact (same_averaged _ _ V)].
  - right. right. split; [reflexivity|]. split; [intros a p I; apply (N1 a p), Q, I|]. intros b O L H A. apply (N2 b O L H), same_above, A.
Qed.
End SAME.

Lemma answer_local r m1 m2 w ans : wf_input m1 -> wf_input m2 -> agree_for r m1 m2 w ->
  input_answer m1 r w ans -> input_answer m2 r w ans.
Proof.
  intros W1 W2 [Q|G].
  - destruct r as [|l|t]; cbn [input_answer].
    + apply max_local. intros a p _. apply Q.
    + exact (same_at_level m1 m2 W1 Q l w ans).
    + exact (same_for_period m1 m2 W1 Q t w ans).
  - destruct r as [|l|t]; cbn [input_answer] in *.
    + exact (max_local m1 m2 w ans G).
    + destruct G as (b & O & L & H & G1 & G2). exact (fixed_local m1 m2 W1 W2 l b w ans O L H G1 G2).
    + destruct G as (b & v & O & H & A & N & G). exact (wave_local m1 m2 W1 W2 t b v w ans O H A N G).
Qed.

(** C80. Two query objects with the same kind of query, each with a detailed and an extended
    database that were averaged, give the same values at a location where the detailed
    inputs agree, provided that the extended inputs agree there too or the detailed
    input has data. *)
Theorem C80_extended : forall E1 d1 d1' inp1 recs1 E2 d2 d2' inp2 recs2 Ex1 dx1 dx1' inpx1 recsx1 Ex2 dx2 dx2' inpx2 recsx2
    DB1 (EQ1 : env DB1) q1 fs1 DB2 (EQ2 : env DB2) q2 fs2 r lon lat elev w names olds,
  averaged_into E1 d1 d1' inp1 recs1 -> averaged_into E2 d2 d2' inp2 recs2 ->
  averaged_into Ex1 dx1 dx1' inpx1 recsx1 -> averaged_into Ex2 dx2 dx2' inpx2 recsx2 ->
  serves_two EQ1 q1 recs1 recsx1 -> serves_two EQ2 q2 recs2 recsx2 -> resolution_of q1 r -> resolution_of q2 r ->
  plain q1 lon lat elev w names olds -> plain q2 lon lat elev w names olds -> place_inside w -> Forall material names ->
  agree_for r inp1 inp2 w ->
  ((forall first, input_answer inp1 r w first -> p_block first <> 0) \/ agree_for r inpx1 inpx2 w) ->
  exists vals q1' fs1' q2' fs2', query EQ1 q1 fs1 (Some olds) lon lat elev = Val (q1', fs1', vals) /\
    query EQ2 q2 fs2 (Some olds) lon lat elev = Val (q2', fs2', vals).
Proof.
  intros E1 d1 d1' inp1 recs1 E2 d2 d2' inp2 recs2 Ex1 dx1 dx1' inpx1 recsx1 Ex2 dx2 dx2' inpx2 recsx2
    DB1 EQ1 q1 fs1 DB2 EQ2 q2 fs2 r lon lat elev w names olds A1 A2 X1 X2 S1 S2 R1 R2 P1 P2 I M G GX.
  destruct (C44_extended _ _ _ _ _ _ _ _ _ _ _ EQ1 q1 r fs1 lon lat elev w names olds A1 X1 S1 R1 P1 I M)
    as (x & (f & F & K1 & K2) & q1' & fs1' & Q1 & _).
  destruct (C44_extended _ _ _ _ _ _ _ _ _ _ _ EQ2 q2 r fs2 lon lat elev w names olds A2 X2 S2 R2 P2 I M)
    as (y & Y & q2' & fs2' & Q2 & _).
  destruct (averaged_run _ _ _ _ _ A1) as (_ & W1 & _). destruct (averaged_run _ _ _ _ _ A2) as (_ & W2 & _).
  destruct (averaged_run _ _ _ _ _ X1) as (_ & V1 & _). destruct (averaged_run _ _ _ _ _ X2) as (_ & V2 & _).
  assert (L : match r with AtLevel l => 0 <= l <= 31 | _ => True end).
  { unfold resolution_of in R1. destruct (q_type q1); [subst r; exact Logic.I| |subst r; exact Logic.I]. destruct R1 as (l & _ & B & ->). exact B. }
  assert (T : two_inputs inp2 inpx2 r w x).
  { exists f. split; [exact (answer_local r inp1 inp2 w f W1 W2 G F)|]. split; [exact K1|]. intros B.
    destruct GX as [GX|GX]; [exfalso; exact (GX f F B)|]. exact (answer_local r inpx1 inpx2 w x V1 V2 GX (K2 B)). }
  pose proof (C44_extended_determined inp2 inpx2 r w x y W2 V2 L T Y) as <-.
  eexists _, q1', fs1', q2', fs2'. split; [exact Q1|exact Q2].
Qed.
Print Assumptions C80_extended.

(** ** Examples: a change of the extended model under data of the detailed one, and a
    change of the detailed model far from a location that only the extended one has *)
From Verif Require Import StoreFacts ToyLib ToyDb PropAvg PropStore PropQuery PropLocal.
Lemma changed_both ty res : serves_two toy_env (toy_q ty res changed_recs (Some coarse_recs) false all_names) changed_recs coarse_recs.
Proof. exists changed_recs, coarse_recs. split; [reflexivity|]. split; [apply lsearch_ok|]. split; [reflexivity | apply lsearch_ok]. Qed.
(** The extended database of the second query object is the detailed one of C44. *)
Lemma odd_pair ty res : serves_two toy_env (toy_q ty res leaves_recs (Some leaves_recs) false all_names) leaves_recs leaves_recs.
Proof. exists leaves_recs, leaves_recs. split; [reflexivity|]. split; [apply lsearch_ok|]. split; [reflexivity | apply lsearch_ok]. Qed.
Example C80_extended_hidden : exists vals q1' fs1' q2' fs2',
  query toy_env (toy_q MAXRES f_zero leaves_recs (Some coarse_recs) false all_names) no_files (Some four) toy_x toy_y elev_a = Val (q1', fs1', vals) /\
  query toy_env (toy_q MAXRES f_zero leaves_recs (Some leaves_recs) false all_names) no_files (Some four) toy_x toy_y elev_a = Val (q2', fs2', vals).
Proof.
  destruct leaves_averaged as (d1 & A1). destruct coarse_averaged as (d2 & A2).
  apply (C80_extended _ _ _ _ _ _ _ _ _ _ _ _ _ _ _ _ _ _ _ _
    _ toy_env (toy_q MAXRES f_zero leaves_recs (Some coarse_recs) false all_names) no_files
    _ toy_env (toy_q MAXRES f_zero leaves_recs (Some leaves_recs) false all_names) no_files Finest toy_x toy_y elev_a (toy_place elev_a) all_names four
    A1 A1 A2 A1 (both_served _ _) (odd_pair _ _) eq_refl eq_refl
    (toy_plain4 _ _ _ _ _) (toy_plain4 _ _ _ _ _) toy_inside_a names_material).
  - left. tauto.
  - left. intros f [(a & I & H)|[_ N]]; [|exfalso; exact (N toy_leaf v_leaf ltac:(right; left; reflexivity) toy_leaf_holds)].
    destruct I as [E|[E|[E|[]]]]; apply (f_equal (fun x => p_block (snd x))) in E; cbn [snd] in E; rewrite <- E; vm_compute; discriminate.
Qed.
Lemma deep_elsewhere : agree_at leaves changed (toy_place (i2f64 (-20000))).
Proof.
  intros a p H. assert (X : toy_top <> a).
  { intros <-. exact (toy_levels toy_top v_top ltac:(right; right; right; left; reflexivity) H). }
  unfold leaves, changed. cbn [In]. split; (intros [Q|[Q|[Q|[]]]]; [left; exact Q|right; left; exact Q|exfalso; apply X; exact (f_equal fst Q)]).
Qed.
Example C80_extended_example : exists vals q1' fs1' q2' fs2',
  query toy_env (toy_q MAXRES f_zero leaves_recs (Some coarse_recs) false all_names) no_files (Some four) toy_x toy_y (i2f64 (-20000)) = Val (q1', fs1', vals) /\
  query toy_env (toy_q MAXRES f_zero changed_recs (Some coarse_recs) false all_names) no_files (Some four) toy_x toy_y (i2f64 (-20000)) = Val (q2', fs2', vals).
Proof.
  destruct leaves_averaged as (d1 & A1). destruct changed_averaged as (d2 & A2). destruct coarse_averaged as (d3 & A3).
  apply (C80_extended _ _ _ _ _ _ _ _ _ _ _ _ _ _ _ _ _ _ _ _
    _ toy_env (toy_q MAXRES f_zero leaves_recs (Some coarse_recs) false all_names) no_files
    _ toy_env (toy_q MAXRES f_zero changed_recs (Some coarse_recs) false all_names) no_files Finest toy_x toy_y (i2f64 (-20000)) (toy_place (i2f64 (-20000))) all_names four
    A1 A2 A3 A3 (both_served _ _) (changed_both _ _) eq_refl eq_refl
    (toy_plain4 _ _ _ _ _) (toy_plain4 _ _ _ _ _) toy_inside_deep names_material).
  - right. exact deep_elsewhere.
  - right. left. tauto.
Qed.
