(** C44 with an extended database: both models are averaged, a query object has both open. *)
From Coq Require Import ZArith Bool Reals Lia String List.
From Verif Require Import Outcome Float Payload Addr SpecOct SpecAvg AvgEngine AvgFinal SpecGeom Geom Store Averager SpecStore
  ErrorHandler VMQuery SpecQuery SpecHist QueryFacts QueryProof QueryMain SpecE2E E2EFacts SpecLocal LocalFacts
  ToyLib ToyDb PropStore PropQuery PropE2E.
Import ListNotations.
Open Scope Z_scope.

(** The answer of one model to a query, in terms of its input. *)
Definition input_answer (inp : list (addr * payload)) (r : resolution) (w : place) (ans : payload) : Prop :=
  match r with
  | Finest => finest_input inp w ans
  | AtLevel l => input_at_level inp l w ans
  | ForPeriod t => input_for_period inp t w ans
  end.
(** The detailed model, and the extended one where the former has no data (fault block 0). *)
Definition two_inputs (inp inpx : list (addr * payload)) (r : resolution) (w : place) (ans : payload) : Prop :=
  exists first, input_answer inp r w first /\
    (p_block first <> 0 -> ans = first) /\ (p_block first = 0 -> input_answer inpx r w ans).
(** The databases that a query object has open hold the records [recs] and [recsx]. *)
Definition serves_two {DB} (E : env DB) (q : qstate DB) (recs recsx : list (addr * payload)) : Prop :=
  exists d x, q_db q = Some d /\ searches (e_search E d) recs /\ q_dbExt q = Some x /\ searches (e_search E x) recsx.

Lemma answer_out E d d' inp recs r w ans o : averaged_into E d d' inp recs -> place_inside w ->
  match r with AtLevel l => 0 <= l | _ => True end ->
  answer r recs w ans o -> o = None /\ input_answer inp r w ans.
Proof.
  intros A I L H. destruct (averaged_run _ _ _ _ _ A) as (A1 & W & V & Lf & s & F & St).
  destruct r as [|l|t]; cbn [answer input_answer] in *.
  - destruct H as [H ->]. split; [reflexivity|]. exact (max_out _ _ _ _ A1 W F St V Lf w ans H).
  - destruct H as [H ->]. split; [reflexivity|]. exact (fixed_out _ _ _ _ A1 W F St V Lf l w ans L H).
  - exact (wave_out _ _ _ _ A1 W F St V Lf _ w ans o (inside_held w I) H).
Qed.
Lemma input_answer_det inp r w x y : wf_input inp -> match r with AtLevel l => 0 <= l <= 31 | _ => True end ->
  input_answer inp r w x -> input_answer inp r w y -> x = y.
Proof.
  intros W L. destruct r as [|l|t]; cbn [input_answer].
  - apply max_det; assumption.
  - apply fixed_det; assumption.
  - apply wave_det; assumption.
Qed.

(** C44. Whatever the kind of query: the answer is that of the detailed model if its fault
    block is not 0, else that of the extended model, each in terms of the input that was
    averaged.  Unless there is no data nothing is reported and nothing changes. *)
Theorem C44_extended : forall E d d' inp recs Ex dx dx' inpx recsx DB (EQ : env DB) q r fs lon lat elev w names olds,
  averaged_into E d d' inp recs -> averaged_into Ex dx dx' inpx recsx -> serves_two EQ q recs recsx ->
  resolution_of q r -> plain q lon lat elev w names olds -> place_inside w -> Forall material names ->
  exists ans, two_inputs inp inpx r w ans /\
    exists q' fs', query EQ q fs (Some olds) lon lat elev = Val (q', fs', values ans f_zero names) /\
      (p_block ans <> 0 -> q' = q /\ fs' = fs).
Proof.
  intros E d d' inp recs Ex dx dx' inpx recsx DB EQ q r fs lon lat elev w names olds A X (db & x & D & S & DX & SX) HR P I M.
  assert (HS : setup EQ q recs (Some recsx)).
  { destruct (averaged_run _ _ _ _ _ A) as (A1 & W & V & L & s & F & St).
    destruct (averaged_run _ _ _ _ _ X) as (A1' & W' & V' & L' & s' & F' & St'). split.
    - exists db. split; [exact D|]. split; [exact S|]. exact (out_db_ok _ _ _ _ A1 W F St).
    - exists x. split; [exact DX|]. split; [exact SX|]. exact (out_db_ok _ _ _ _ A1' W' F' St'). }
  assert (L : match r with AtLevel l => 0 <= l | _ => True end).
  { unfold resolution_of in HR. destruct (q_type q); [subst r; exact Logic.I| |subst r; exact Logic.I]. destruct HR as (l & _ & B & ->). apply B. }
  destruct (query_inside EQ q fs lon lat elev w names olds recs (Some recsx) r f_zero HS HR P I
      (no_elevation EQ q lon lat elev names f_zero M)) as (ans & o1 & o2 & e1 & e2 & e' & fs' & Q & C & W1 & W2 & K).
  destruct C as (first & F1 & X1 & X2).
  destruct (answer_out _ _ _ _ _ _ _ _ _ A I L F1) as [-> H1]. cbn [orphan_reported] in W1.
  exists ans. split.
  - exists first. split; [exact H1|]. split; [intros B; apply (X2 B)|]. intros B. exact (proj2 (answer_out _ _ _ _ _ _ _ _ _ X I L (X1 B))).
  - exists (with_err q e'), fs'. split; [exact Q|]. intros B.
    assert (o2 = None) as ->.
    { destruct (Z.eq_dec (p_block first) 0) as [Z0|Z0]; [|apply (X2 Z0)]. exact (proj1 (answer_out _ _ _ _ _ _ _ _ _ X I L (X1 Z0))). }
    cbn [orphan_reported] in W2. destruct K as [(_ & -> & ->)|(Z0 & _)]; [|contradiction].
    subst e2 e1. split; [destruct q; reflexivity|reflexivity].
Qed.
Print Assumptions C44_extended.

(** The description leaves no choice. *)
Theorem C44_extended_determined : forall inp inpx r w x y, wf_input inp -> wf_input inpx ->
  match r with AtLevel l => 0 <= l <= 31 | _ => True end ->
  two_inputs inp inpx r w x -> two_inputs inp inpx r w y -> x = y.
Proof.
  intros inp inpx r w x y W WX L (f & F & X1 & X2) (g & G & Y1 & Y2).
  pose proof (input_answer_det inp r w f g W L F G) as <-.
  destruct (Z.eq_dec (p_block f) 0) as [Z0|Z0].
  - exact (input_answer_det inpx r w x y WX L (X2 Z0) (Y2 Z0)).
  - rewrite (X1 Z0), (Y1 Z0). reflexivity.
Qed.
Print Assumptions C44_extended_determined.

(** ** Example: the model of C44's example with an extended model of two coarse octants *)
Definition coarse : list (addr * payload) :=
  [(toy_addr 6 (i2f64 (-90000)) Leaf, ToyDb.pay 6800 3900 3000 (i2f32 90000) 22 9); (ext_octant, v_ext)].
Definition coarse_disk : disk := fun n =>
  if String.eqb n "in" then Some (mkDb coarse (Some SCHEMA) (Some "USGS extended"%string) 28) else None.
Definition coarse_recs : list (addr * payload) :=
  match fst (average works "in" "out" coarse_disk) "out"%string with Some g => d_recs g | None => [] end.
Lemma coarse_wf : wf_input coarse.
Proof. apply wf_inputb_sound. vm_compute. reflexivity. Qed.
Lemma coarse_proper a p : In (a, p) coarse -> a_type a = Leaf /\ proper_values p.
Proof.
  assert (G : forallb (fun x => match a_type (fst x) with Leaf => proper_valuesb (snd x) | _ => false end) coarse = true)
    by (vm_compute; reflexivity).
  intros I. rewrite forallb_forall in G. specialize (G _ I). cbn [fst snd] in G.
  destruct (a_type a); [discriminate G || (split; [reflexivity | apply proper_valuesb_ok, G]) ..].
Qed.
Example coarse_averaged : exists d', averaged_into works coarse_disk d' coarse coarse_recs.
Proof.
  assert (U : usable works coarse_disk "in" (mkDb coarse (Some SCHEMA) (Some "USGS extended"%string) 28)) by (repeat split).
  assert (C : can_create works coarse_disk "out") by (repeat split).
  destruct (C17_averages_file works "in" "out" coarse_disk _ ltac:(discriminate) U C ltac:(repeat split) eq_refl ltac:(apply simple_accepts) coarse_wf)
    as (d' & s & out & F & R & S & G & _).
  exists d', "in"%string, "out"%string. eexists. eexists. exists (e_cnt s).
  split; [discriminate|]. split; [exact U|]. split; [exact C|]. split; [repeat split|]. split; [reflexivity|]. split; [apply simple_accepts|]. split; [reflexivity|].
  split; [exact coarse_wf|]. split; [exact coarse_proper|]. split; [exact R|]. split; [exact G|].
  unfold coarse_recs. rewrite R. cbn [fst]. rewrite G. reflexivity.
Qed.
Example both_served ty res : serves_two toy_env (toy_q ty res leaves_recs (Some coarse_recs) false all_names) leaves_recs coarse_recs.
Proof. exists leaves_recs, coarse_recs. split; [reflexivity|]. split; [apply lsearch_ok|]. split; [reflexivity | apply lsearch_ok]. Qed.
Example C44_extended_example : exists ans, two_inputs leaves coarse Finest (toy_place (i2f64 (-20000))) ans.
Proof.
  destruct leaves_averaged as (d1 & A). destruct coarse_averaged as (d2 & X).
  destruct (C44_extended _ _ _ _ _ _ _ _ _ _ _ toy_env (toy_q MAXRES f_zero leaves_recs (Some coarse_recs) false all_names) Finest no_files
    toy_x toy_y (i2f64 (-20000)) (toy_place (i2f64 (-20000))) all_names four A X (both_served _ _) eq_refl (toy_plain4 _ _ _ _ _)
    toy_inside_deep names_material) as (ans & H & _). exists ans. exact H.
Qed.
(** The detailed model near the surface, and the extended one below it. *)
Example C44_extended_values :
  outcome_values (query toy_env (toy_q MAXRES f_zero leaves_recs (Some coarse_recs) false all_names) no_files (Some four) toy_x toy_y elev_a) =
    Val [i2f64 2900; i2f64 5000; i2f64 11; i2f64 2900] /\
  outcome_values (query toy_env (toy_q MAXRES f_zero leaves_recs (Some coarse_recs) false all_names) no_files (Some four) toy_x toy_y (i2f64 (-20000))) =
    Val [i2f64 3700; i2f64 6500; i2f64 21; i2f64 3700].
Proof. split; vm_compute; reflexivity. Qed.
