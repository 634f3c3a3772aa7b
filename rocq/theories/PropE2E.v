(** C44: end to end.  A database is averaged into a new file, the file is opened and
    queried; the answers are described in terms of the database before averaging. *)
From Coq Require Import ZArith Bool Reals Lra Lia String Sorting.Sorted List.
From Verif Require Import Outcome Float Payload Addr SpecOct SpecAvg AvgEngine AvgFinal SpecGeom Geom Store Averager SpecStore StoreFacts
  ErrorHandler VMQuery SpecQuery SpecHist QueryFacts QueryProof QueryMain SpecE2E E2EFacts ToyLib ToyDb PropAvg PropStore PropQuery.
Import ListNotations.
Open Scope Z_scope.

(** Averaging the file [fin], which holds [inp], into [fout] worked, and [recs] are the
    records of [fout] afterwards.  The input is well formed, as written by the
    package: disjoint octants below the root, marked as leaves, in order.  By
    C17_averages_file averaging always works when the storage library does. *)
Definition averaged_into (E : etree) (d d' : disk) (inp recs : list (addr * payload)) : Prop :=
  exists fin fout f g c, fin <> fout /\ usable E d fin f /\ can_create E d fout /\ can_read E fin /\
    et_flush E fout = true /\ accepts (et_store E) /\
    d_recs f = inp /\ wf_input inp /\ (forall a p, In (a, p) inp -> a_type a = Leaf /\ proper_values p) /\
    average E fin fout d = (d', Val c) /\ d' fout = Some g /\ d_recs g = recs.

Lemma averaged_run E d d' inp recs : averaged_into E d d' inp recs ->
  accepts (et_store E) /\ wf_input inp /\ (forall a p, In (a, p) inp -> proper_values p) /\
  (forall a p, In (a, p) inp -> a_type a = Leaf) /\
  exists s, fillOctants (et_store E) inp = Val s /\ stored (e_db s) recs.
Proof.
  intros (fin & fout & f & g & c & N & U & C & Rd & Fl & A & <- & W & V & R & G & <-).
  split; [exact A|]. split; [exact W|]. split; [intros a p I; apply (V a p I)|]. split; [intros a p I; apply (V a p I)|].
  destruct (C17_averages_file E fin fout d f N U C Rd Fl A W) as (d2 & s & out & F & R2 & S & G2 & _).
  rewrite R in R2. injection R2 as <- _. rewrite G in G2. injection G2 as ->. exists s. split; [exact F | exact S].
Qed.
Lemma served {DB} (EQ : env DB) q recs E d d' inp : averaged_into E d d' inp recs -> serves EQ q recs -> setup EQ q recs None.
Proof.
  intros A (X & db & D & S). destruct (averaged_run _ _ _ _ _ A) as (A1 & W & V & L & s & F & St).
  split; [|exact X]. exists db. split; [exact D|]. split; [exact S|]. exact (out_db_ok _ _ _ _ A1 W F St).
Qed.
Lemma inside_held w : place_inside w -> exists b, octant_ok b /\ holds b w.
Proof.
  destruct w as [[p q] r]. intros (I1 & I2 & I3). exists root_addr. split; [exact root_ok|].
  assert (G : forall c, inside c -> spans 0 0 c).
  { intros c (F & B0 & B1). unfold spans. rewrite Z.add_0_l. unfold side, tick. rewrite Z.sub_0_r, Rmult_0_l. change 31 with (Z.of_nat 31). rewrite <- (pow_IZR 2 31).
    split; [exact B0|]. unfold root in *. field_simplify; lra. }
  split; [exact (G _ I1)|]. split; [exact (G _ I2) | exact (G _ I3)].
Qed.

(** Highest resolution: the values of the input octant that holds the location; no
    data if none does. *)
Theorem C44_maxres : forall E d d' inp recs DB (EQ : env DB) q fs lon lat elev w names olds,
  averaged_into E d d' inp recs -> serves EQ q recs -> q_type q = MAXRES ->
  plain q lon lat elev w names olds -> place_inside w -> Forall material names ->
  exists ans, finest_input inp w ans /\
    exists q' fs', query EQ q fs (Some olds) lon lat elev = Val (q', fs', values ans f_zero names).
Proof.
  intros E d d' inp recs DB EQ q fs lon lat elev w names olds A S T P I M.
  destruct (averaged_run _ _ _ _ _ A) as (A1 & W & V & L & s & F & St).
  destruct (C18_maxres DB EQ q fs lon lat elev w names olds recs (served _ _ _ _ _ _ _ A S) T P I M) as (ans & H & Q).
  exists ans. split; [|exact Q]. exact (max_out _ _ _ _ A1 W F St V L w ans H).
Qed.
Print Assumptions C44_maxres.

(** Fixed resolution, level [l]: the values of the input octant that holds the
    location if it is not finer than asked for; otherwise the recursive mean over the
    octant of level [l] around the location if that has input inside; otherwise no
    data. *)
Theorem C44_fixedres : forall E d d' inp recs DB (EQ : env DB) q fs lon lat elev w names olds l,
  averaged_into E d d' inp recs -> serves EQ q recs -> q_type q = FIXEDRES ->
  level (q_geom q) (mul64 (i2f64 4) (q_res q)) = Val l -> 0 <= l <= 31 ->
  plain q lon lat elev w names olds -> place_inside w -> Forall material names ->
  exists ans, input_at_level inp l w ans /\
    exists q' fs', query EQ q fs (Some olds) lon lat elev = Val (q', fs', values ans f_zero names).
Proof.
  intros E d d' inp recs DB EQ q fs lon lat elev w names olds l A S T Lv Bl P I M.
  destruct (averaged_run _ _ _ _ _ A) as (A1 & W & V & L & s & F & St).
  destruct (C19_fixedres DB EQ q fs lon lat elev w names olds recs l (served _ _ _ _ _ _ _ A S) T Lv Bl P I M) as (ans & H & Q).
  exists ans. split; [|exact Q]. exact (fixed_out _ _ _ _ A1 W F St V L l w ans (proj1 Bl) H).
Qed.
Print Assumptions C44_fixedres.

(** Wavelength dependent resolution: from the input octant that holds the location
    upwards through the enclosing octants, each with its recursive mean, one level at
    a time.  No parent is ever missing: unless the answer is no data, nothing is
    reported and the query object is unchanged. *)
Theorem C44_waveres : forall E d d' inp recs DB (EQ : env DB) q fs lon lat elev w names olds,
  averaged_into E d d' inp recs -> serves EQ q recs -> q_type q = WAVERES ->
  plain q lon lat elev w names olds -> place_inside w -> Forall material names ->
  exists ans, input_for_period inp (mul64 (i2f64 4) (q_res q)) w ans /\
    exists q' fs', query EQ q fs (Some olds) lon lat elev = Val (q', fs', values ans f_zero names) /\
      (p_block ans <> 0 -> q' = q /\ fs' = fs).
Proof.
  intros E d d' inp recs DB EQ q fs lon lat elev w names olds A S T P I M.
  destruct (averaged_run _ _ _ _ _ A) as (A1 & W & V & L & s & F & St).
  destruct (C20_waveres DB EQ q fs lon lat elev w names olds recs (served _ _ _ _ _ _ _ A S) T P I M) as (ans & o & H & q' & fs' & Q & K).
  destruct (wave_out _ _ _ _ A1 W F St V L _ w ans o (inside_held w I) H) as [-> H'].
  exists ans. split; [exact H'|]. exists q', fs'. split; [exact Q|]. apply K. reflexivity.
Qed.
Print Assumptions C44_waveres.

(** The descriptions above leave no choice: a location is in at most one input
    octant, and an octant has one recursive mean. *)
Theorem C44_determined : forall inp, wf_input inp ->
  (forall a p a' p' w, In (a, p) inp -> In (a', p') inp -> holds a w -> holds a' w -> p = p') /\
  (forall b p b' p', averaged inp b p -> averaged inp b' p' -> same_octant b b' -> p = p').
Proof.
  intros inp W. split.
  - intros a p a' p' w I I' H H'. exact (input_unique inp W _ _ _ _ I I' (input_holding inp W a p a' p' w I I' H H')).
  - intros b p b' p' A A' S. exact (averaged_unique inp W _ b p b' p' (Nat.lt_succ_diag_r _) A A' S).
Qed.
Print Assumptions C44_determined.

(** Every octant stored by averaging that is not input holds its recursive mean. *)
Theorem C44_stored_means : forall E d d' inp recs, averaged_into E d d' inp recs ->
  forall b v, In (b, v) recs -> averaged inp b v.
Proof.
  intros E d d' inp recs A b v I. destruct (averaged_run _ _ _ _ _ A) as (A1 & W & V & L & s & F & St).
  exact (out_averaged _ _ _ _ A1 W F St V _ b v (Nat.lt_succ_diag_r _) I).
Qed.
Print Assumptions C44_stored_means.

(** ** Example: two leaves in one octant of level 14, and one far away *)
Definition low_leaf : addr := toy_addr 15 (dec64 (-12470) 1) Leaf.
Definition v_low : payload := ToyDb.pay 5400 3100 2800 (i2f32 1275) 11 3.
Definition leaves : list (addr * payload) := [(low_leaf, v_low); (toy_leaf, v_leaf); (toy_top, v_top)].
Definition leaves_disk : disk := fun n =>
  if String.eqb n "in" then Some (mkDb leaves (Some SCHEMA) (Some "USGS model"%string) 28) else None.
Definition leaves_recs : list (addr * payload) :=
  match fst (average works "in" "out" leaves_disk) "out"%string with Some g => d_recs g | None => [] end.

Lemma leaves_wf : wf_input leaves.
Proof. apply wf_inputb_sound. vm_compute. reflexivity. Qed.
Definition proper_valuesb (p : payload) : bool :=
  forallb (fun f => valid_binary prec32 emax32 (get6 f p)) [PVp; PVs; PDensity; PQp; PQs; PDfs] && negb (is_nan (p_vs p)).
Lemma proper_valuesb_ok p : proper_valuesb p = true -> proper_values p.
Proof.
  unfold proper_valuesb. rewrite andb_true_iff, forallb_forall. intros (F & N). split.
  - intros f. apply F. destruct f; cbn; auto 7.
  - destruct (is_nan (p_vs p)); [discriminate N | reflexivity].
Qed.
Lemma leaves_proper a p : In (a, p) leaves -> a_type a = Leaf /\ proper_values p.
Proof.
  assert (G : forallb (fun x => match a_type (fst x) with Leaf => proper_valuesb (snd x) | _ => false end) leaves = true)
    by (vm_compute; reflexivity).
  intros I. rewrite forallb_forall in G. specialize (G _ I). cbn [fst snd] in G.
  destruct (a_type a); [discriminate G || (split; [reflexivity | apply proper_valuesb_ok, G]) ..].
Qed.
Example leaves_averaged : exists d', averaged_into works leaves_disk d' leaves leaves_recs.
Proof.
  assert (U : usable works leaves_disk "in" (mkDb leaves (Some SCHEMA) (Some "USGS model"%string) 28)) by (repeat split).
  assert (C : can_create works leaves_disk "out") by (repeat split).
  destruct (C17_averages_file works "in" "out" leaves_disk _ ltac:(discriminate) U C ltac:(repeat split) eq_refl ltac:(apply simple_accepts) leaves_wf)
    as (d' & s & out & F & R & S & G & _).
  exists d', "in"%string, "out"%string. eexists. eexists. exists (e_cnt s).
  split; [discriminate|]. split; [exact U|]. split; [exact C|]. split; [repeat split|]. split; [reflexivity|]. split; [apply simple_accepts|]. split; [reflexivity|].
  split; [exact leaves_wf|]. split; [exact leaves_proper|]. split; [exact R|]. split; [exact G|].
  unfold leaves_recs. rewrite R. cbn [fst]. rewrite G. reflexivity.
Qed.
Example leaves_served ty res : serves toy_env (toy_q ty res leaves_recs None false all_names) leaves_recs.
Proof. split; [reflexivity|]. exists leaves_recs. split; [reflexivity | apply lsearch_ok]. Qed.
(** The theorems apply, and the values are those of the leaf, the mean over level 14,
    and a value half way between levels. *)
Example C44_example : exists ans, finest_input leaves (toy_place elev_a) ans.
Proof.
  destruct leaves_averaged as (d' & A).
  destruct (C44_maxres works leaves_disk d' leaves leaves_recs _ toy_env (toy_q MAXRES f_zero leaves_recs None false all_names) no_files
    toy_x toy_y elev_a (toy_place elev_a) all_names four A (leaves_served _ _) eq_refl (toy_plain4 _ _ _ _ _)
    toy_inside_a names_material) as (ans & H & _). exists ans. exact H.
Qed.
Example C44_example_values :
  outcome_values (query toy_env (toy_q MAXRES f_zero leaves_recs None false all_names) no_files (Some four) toy_x toy_y elev_a) =
    Val [i2f64 2900; i2f64 5000; i2f64 11; i2f64 2900] /\
  outcome_values (query toy_env (toy_q FIXEDRES (i2f64 25) leaves_recs None false all_names) no_files (Some four) toy_x toy_y elev_a) =
    Val [i2f64 3000; i2f64 5200; i2f64 (-999); i2f64 3000] /\
  outcome_values (query toy_env (toy_q WAVERES (dec64 6 3) leaves_recs None false all_names) no_files (Some four) toy_x toy_y elev_a) =
    Val [i2f64 2950; i2f64 5100; i2f64 (-999); i2f64 2950].
Proof. split; [|split]; vm_compute; reflexivity. Qed.
