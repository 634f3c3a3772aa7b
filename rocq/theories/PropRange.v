(** C78: averaged values lie in the range of the input inside the octant. *)
From Coq Require Import ZArith Bool Reals Lra Lia String List.
From Flocq Require Import Core BinarySingleNaN.
From Verif Require Import Outcome Float Payload Addr SpecOct SpecAvg AvgEngine AvgFinal SpecGeom Geom Store Averager SpecStore StoreFacts
  ErrorHandler VMQuery SpecQuery QueryFacts QueryProof QueryMain SpecE2E E2EFacts SpecRange RangeFacts RangeTree RangeWave
  ToyLib ToyDb PropAvg PropStore PropQuery PropE2E.
Import ListNotations.
Open Scope Z_scope.

Lemma averaged_summary inp b v : wf_input inp -> (forall a p, In (a, p) inp -> proper_values p) ->
  (forall a p, In (a, p) inp -> tame p) -> averaged inp b v -> summarises inp b v.
Proof.
  intros W V T A. pose proof (averaged_good inp W V T b v A) as G. pose proof (averaged_ok inp W b v A) as O.
  split; [exact (g_rock _ _ _ G)|]. split; [exact (g_water _ _ _ G)|]. split; [|exact (g_none _ _ _ G)].
  intros f lo hi M D HM Hlo Hhi H.
  destruct (g_range _ _ _ G f lo hi M HM Hlo Hhi H D) as [F R]. split; [exact F|].
  assert (K : (depth b <= 31)%nat) by (destruct O as ((L1 & L2) & _); unfold depth; lia).
  pose proof (bnd_31 (depth b) M K (proj1 HM)) as B. unfold real_of. lra.
Qed.

(** C78. Every octant of an averaged database summarises the input inside it. *)
Theorem C78_stored : forall E d d' inp recs, averaged_into E d d' inp recs ->
  (forall a p, In (a, p) inp -> tame p) ->
  forall b v, In (b, v) recs -> summarises inp b v.
Proof.
  intros E d d' inp recs A T b v I. destruct (averaged_run _ _ _ _ _ A) as (_ & W & V & _).
  exact (averaged_summary inp b v W V T (C44_stored_means E d d' inp recs A b v I)).
Qed.
Print Assumptions C78_stored.

(** C78. So a query at a fixed resolution gives values that summarise the input in one
    octant around the location, not finer than asked for, or it gives no data. *)
Theorem C78_fixedres : forall E d d' inp recs DB (EQ : env DB) q fs lon lat elev w names olds l,
  averaged_into E d d' inp recs -> (forall a p, In (a, p) inp -> tame p) ->
  serves EQ q recs -> q_type q = FIXEDRES ->
  level (q_geom q) (mul64 (i2f64 4) (q_res q)) = Val l -> 0 <= l <= 31 ->
  plain q lon lat elev w names olds -> place_inside w -> Forall material names ->
  exists ans,
    ((ans = no_data /\ forall a p, In (a, p) inp -> holds a w -> l < a_level a) \/
     exists b, octant_ok b /\ holds b w /\ a_level b <= l /\ summarises inp b ans) /\
    exists q' fs', query EQ q fs (Some olds) lon lat elev = Val (q', fs', QueryMain.values ans f_zero names).
Proof.
  intros E d d' inp recs DB EQ q fs lon lat elev w names olds l A T S Ty Lv Bl P I M.
  destruct (averaged_run _ _ _ _ _ A) as (_ & W & V & _).
  destruct (C44_fixedres E d d' inp recs DB EQ q fs lon lat elev w names olds l A S Ty Lv Bl P I M) as (ans & H & Q).
  exists ans. split; [|exact Q]. destruct H as [(a & Ia & Ha & La)|[(b & Ob & Lb & Hb & _ & Ab)|(-> & N & _)]].
  - right. exists a. split; [exact (input_ok inp W _ _ Ia)|]. split; [exact Ha|]. split; [exact La|].
    apply averaged_summary; [exact W|exact V|exact T|]. apply averaged_input, Ia.
  - right. exists b. split; [exact Ob|]. split; [exact Hb|]. split; [lia|]. apply averaged_summary; assumption.
  - left. auto.
Qed.
Print Assumptions C78_fixedres.

(** C78. And a query at a resolution that depends on the wavelength gives values that
    summarise the input in one octant around the location, with twice the slack, or it
    gives no data where no input octant holds the location. *)
Theorem C78_waveres : forall E d d' inp recs DB (EQ : env DB) q fs lon lat elev w names olds,
  averaged_into E d d' inp recs -> (forall a p, In (a, p) inp -> tame p) ->
  serves EQ q recs -> q_type q = WAVERES ->
  plain q lon lat elev w names olds -> place_inside w -> Forall material names ->
  exists ans,
    ((ans = no_data /\ forall a p, In (a, p) inp -> ~ holds a w) \/
     exists b, octant_ok b /\ holds b w /\ summarises_roughly inp b ans) /\
    exists q' fs', query EQ q fs (Some olds) lon lat elev = Val (q', fs', QueryMain.values ans f_zero names).
Proof.
  intros E d d' inp recs DB EQ q fs lon lat elev w names olds A T S Ty P I M.
  destruct (averaged_run _ _ _ _ _ A) as (_ & W & V & _).
  destruct (C44_waveres E d d' inp recs DB EQ q fs lon lat elev w names olds A S Ty P I M) as (ans & H & q' & fs' & Q & _).
  exists ans. split; [|exists q', fs'; exact Q].
  assert (K : forall h v, averaged inp h v -> holds h w -> coarsened inp (mul64 (i2f64 4) (q_res q)) v h v ans ->
    exists b, octant_ok b /\ holds b w /\ summarises_roughly inp b ans).
  { intros h v Av Hh C. destruct (coarsened_summary inp W V T _ w v h v ans C (averaged_ok inp W h v Av)
      (averaged_good inp W V T h v Av) (or_introl eq_refl) Hh) as (b & Ob & Hb & _ & Sb). exists b. auto. }
  destruct H as [(a & p & Ia & Ha & C)|(N & b & v & (_ & _ & Hb & _) & Av & [[_ ->]|[_ C]])].
  - right. exact (K a p (averaged_input _ _ _ Ia) Ha C).
  - left. split; [reflexivity|exact N].
  - right. exact (K b v Av Hb C).
Qed.
Print Assumptions C78_waveres.

(** ** The hypotheses are met *)
Definition smallb (x : f32) : bool :=
  match x with S754_zero _ => true | S754_finite _ m e => (Zpos m <? 2 ^ 24) && (e <=? 96) | _ => false end.
Lemma smallb_ok x : smallb x = true -> is_fin x = true /\ (Rabs (real_of x) <= bpow radix2 120)%R.
Proof.
  destruct x as [s| | |s m e]; cbn [smallb]; try discriminate.
  - intros _. split; [reflexivity|]. unfold real_of. cbn [SF2R]. rewrite Rabs_R0. apply bpow_ge_0.
  - rewrite andb_true_iff, Z.ltb_lt, Z.leb_le. intros [Hm He]. split; [reflexivity|]. unfold real_of. cbn [SF2R].
    rewrite <- F2R_Zabs. replace (Z.abs _) with (Zpos m) by (destruct s; reflexivity).
    unfold F2R. cbn [Fnum Fexp]. change 120 with (24 + 96). rewrite bpow_plus. apply Rmult_le_compat; [apply IZR_le; lia|apply bpow_ge_0| |apply bpow_le, He].
    change (bpow radix2 24) with (IZR (2 ^ 24)). apply IZR_le. lia.
Qed.
Definition tameb (p : payload) : bool := forallb (fun f => smallb (get6 f p)) [PVp; PVs; PDensity; PQp; PQs; PDfs].
Lemma tameb_ok p : tameb p = true -> tame p.
Proof.
  unfold tameb. rewrite forallb_forall. intros H _ f. apply smallb_ok, H. destruct f; cbn; auto 7.
Qed.
Lemma leaves_tame a p : In (a, p) leaves -> tame p.
Proof.
  intros I. apply tameb_ok. assert (G : forallb (fun x => tameb (snd x)) leaves = true) by (vm_compute; reflexivity).
  rewrite forallb_forall in G. exact (G _ I).
Qed.
(** A cube with rock and water, one with water and an octant without data, and one
    without data.  The first is rock, with the values of the rock alone. *)
Definition rock_v : payload := mkPayload (i2f32 3000) (i2f32 1000) (i2f32 2200) (i2f32 100) (i2f32 50) (i2f32 700) 3 2.
Definition rock_w : payload := mkPayload (i2f32 4001) (i2f32 1501) (i2f32 2400) (i2f32 100) (i2f32 50) (i2f32 900) 3 2.
Definition sea_v : payload := mkPayload (i2f32 1500) (i2f32 0) (i2f32 1000) (i2f32 100) (i2f32 0) (i2f32 (-20)) 3 2.
Definition sea_w : payload := mkPayload (i2f32 1480) (i2f32 (-999)) (i2f32 1020) (i2f32 100) (i2f32 0) (i2f32 (-10)) 3 2.
Definition none_v : payload := mkPayload (i2f32 (-999)) (i2f32 (-999)) (i2f32 (-999)) (i2f32 (-999)) (i2f32 (-999)) (i2f32 (-999)) 0 0.
Definition mixed : list (addr * payload) :=
  [(oct 2 0 0 0, rock_v); (oct 2 1 0 0, sea_v); (oct 2 0 1 0, rock_w);
   (oct 2 2 0 0, sea_v); (oct 2 3 0 0, none_v); (oct 2 2 1 0, sea_w); (oct 2 0 2 0, none_v)].
Definition mixed_disk : disk := fun n =>
  if String.eqb n "in" then Some (mkDb mixed (Some SCHEMA) (Some "USGS model"%string) 28) else None.
Definition mixed_recs : list (addr * payload) :=
  match fst (average works "in" "out" mixed_disk) "out"%string with Some g => d_recs g | None => [] end.
Lemma mixed_wf : wf_input mixed.
Proof. apply wf_inputb_sound. vm_compute. reflexivity. Qed.
Lemma mixed_proper a p : In (a, p) mixed -> a_type a = Leaf /\ proper_values p.
Proof.
  assert (G : forallb (fun x => match a_type (fst x) with Leaf => proper_valuesb (snd x) | _ => false end) mixed = true)
    by (vm_compute; reflexivity).
  intros I. rewrite forallb_forall in G. specialize (G _ I). cbn [fst snd] in G.
  destruct (a_type a); [discriminate G || (split; [reflexivity | apply proper_valuesb_ok, G]) ..].
Qed.
Lemma mixed_tame a p : In (a, p) mixed -> tame p.
Proof.
  intros I. apply tameb_ok. assert (G : forallb (fun x => tameb (snd x)) mixed = true) by (vm_compute; reflexivity).
  rewrite forallb_forall in G. exact (G _ I).
Qed.
Lemma mixed_averaged : exists d', averaged_into works mixed_disk d' mixed mixed_recs.
Proof.
  assert (U : usable works mixed_disk "in" (mkDb mixed (Some SCHEMA) (Some "USGS model"%string) 28)) by (repeat split).
  assert (C : can_create works mixed_disk "out") by (repeat split).
  destruct (C17_averages_file works "in" "out" mixed_disk _ ltac:(discriminate) U C ltac:(repeat split) eq_refl ltac:(apply simple_accepts) mixed_wf)
    as (d' & s & out & F & R & S & G & _).
  exists d', "in"%string, "out"%string. eexists. eexists. exists (e_cnt s).
  split; [discriminate|]. split; [exact U|]. split; [exact C|]. split; [repeat split|]. split; [reflexivity|]. split; [apply simple_accepts|]. split; [reflexivity|].
  split; [exact mixed_wf|]. split; [exact mixed_proper|]. split; [exact R|]. split; [exact G|].
  unfold mixed_recs. rewrite R. cbn [fst]. rewrite G. reflexivity.
Qed.
Example C78_example : forall b v, In (b, v) mixed_recs -> summarises mixed b v.
Proof. destruct mixed_averaged as (d' & A). exact (C78_stored _ _ _ _ _ A mixed_tame). Qed.
(** The root is half way between the two rocks; the three cubes; no more. *)
Example C78_example_values : map (fun r => (a_level (fst r), p_vs (snd r), p_vp (snd r))) (filter (fun r => a_level (fst r) <=? 1) mixed_recs) =
  [(0, narrow (dec64 12505 1), narrow (dec64 35005 1));
   (1, narrow (dec64 12505 1), narrow (dec64 35005 1));
   (1, narrow (dec64 (-4995) 1), i2f32 1490);
   (1, i2f32 (-999), i2f32 (-999))].
Proof. vm_compute. reflexivity. Qed.
Example C78_example_counts : counts mixed (oct 1 0 0 0) rock_v /\ counts mixed (oct 1 0 0 0) rock_w /\ ~ counts mixed (oct 1 0 0 0) sea_v.
Proof.
  assert (R : rock_in mixed (oct 1 0 0 0)).
  { exists rock_v. split; [|vm_compute; reflexivity]. exists (oct 2 0 0 0). split; [left; reflexivity|]. unfold covers. vm_compute. intuition discriminate. }
  split; [|split].
  - split; [|left; vm_compute; reflexivity]. exists (oct 2 0 0 0). split; [left; reflexivity|]. unfold covers. vm_compute. intuition discriminate.
  - split; [|left; vm_compute; reflexivity]. exists (oct 2 0 1 0). split; [right; right; left; reflexivity|]. unfold covers. vm_compute. intuition discriminate.
  - intros [_ [S|[N _]]]; [vm_compute in S; discriminate|exact (N R)].
Qed.
(** C78 for a query, on the leaves of C44. *)
Example C78_example_fixedres : exists b ans, octant_ok b /\ holds b (toy_place elev_a) /\ summarises leaves b ans /\
  exists q' fs', query toy_env (toy_q FIXEDRES (i2f64 25) leaves_recs None false all_names) no_files (Some four) toy_x toy_y elev_a =
    Val (q', fs', QueryMain.values ans f_zero all_names).
Proof.
  destruct leaves_averaged as (d' & A).
  destruct (C78_fixedres works leaves_disk d' leaves leaves_recs _ toy_env (toy_q FIXEDRES (i2f64 25) leaves_recs None false all_names) no_files
    toy_x toy_y elev_a (toy_place elev_a) all_names four 14 A leaves_tame (leaves_served _ _) eq_refl ltac:(vm_compute; reflexivity) ltac:(lia) (toy_plain4 _ _ _ _ _)
    toy_inside_a names_material) as (ans & [[-> _]|(b & O & H & _ & S)] & q' & fs' & Q).
  - exfalso. pose proof (f_equal outcome_values Q) as Q'. rewrite (proj1 (proj2 C44_example_values)) in Q'. vm_compute in Q'. discriminate.
  - exists b, ans. split; [exact O|]. split; [exact H|]. split; [exact S|]. exists q', fs'. exact Q.
Qed.
(** The same for a wavelength; the answer is half way between two levels. *)
Example C78_example_waveres : exists b ans, octant_ok b /\ holds b (toy_place elev_a) /\ summarises_roughly leaves b ans /\
  exists q' fs', query toy_env (toy_q WAVERES (dec64 6 3) leaves_recs None false all_names) no_files (Some four) toy_x toy_y elev_a =
    Val (q', fs', QueryMain.values ans f_zero all_names).
Proof.
  destruct leaves_averaged as (d' & A).
  destruct (C78_waveres works leaves_disk d' leaves leaves_recs _ toy_env (toy_q WAVERES (dec64 6 3) leaves_recs None false all_names) no_files
    toy_x toy_y elev_a (toy_place elev_a) all_names four A leaves_tame (leaves_served _ _) eq_refl (toy_plain4 _ _ _ _ _)
    toy_inside_a names_material) as (ans & [[-> _]|(b & O & H & S)] & q' & fs' & Q).
  - exfalso. pose proof (f_equal outcome_values Q) as Q'. rewrite (proj2 (proj2 C44_example_values)) in Q'. vm_compute in Q'. discriminate.
  - exists b, ans. split; [exact O|]. split; [exact H|]. split; [exact S|]. exists q', fs'. exact Q.
Qed.
(** Without the bound on the values, a mean can be infinite. *)
Definition heavy : list (addr * payload) :=
  let p := mkPayload (i2f32 3000) (i2f32 1000) (S754_finite false 12582912 104) (i2f32 100) (i2f32 50) (i2f32 700) 3 2 in
  [(oct 1 0 0 0, p); (oct 1 1 0 0, p)].
Example C78_bound_needed : wf_input heavy /\ exists s r p, fillOctants simple_storage heavy = Val s /\
  In r (e_db s) /\ o_pay r = Some p /\ p_density p = S754_infinity false.
Proof.
  split; [apply wf_inputb_sound; vm_compute; reflexivity|].
  destruct (fillOctants simple_storage heavy) as [s|m| |m] eqn:E; vm_compute in E; try discriminate.
  injection E as <-. eexists. eexists. eexists. split; [reflexivity|]. split; [left; reflexivity|]. split; reflexivity.
Qed.
