(** C03/C04 (queries), C18-C24, C28, C46: what a query returns. *)
From Coq Require Import ZArith Bool Reals Lra Lia Classical String List.
From Verif Require Import Outcome Float Payload Addr SpecOct SpecGeom Geom GeomFacts GeomProof ErrorHandler VMQuery SpecQuery SpecHist
  QueryFacts QueryProof QuerySurface QueryHist QueryIndep QueryMain ToyLib ToyDb PropGeom.
Import ListNotations.
Open Scope Z_scope.

(** Common hypotheses.  [setup E q db ext]: the open databases of the query object
    have contents [db] and [ext], and the storage library meets its contract
    ([searches], SpecQuery.v).  [plain q lon lat elev w names olds]: the object
    returns the values [names], the location has model coordinates [w], squashing
    does not apply, and the caller's array has the right length.  The state [q] of
    the query object and the files [fs] are arbitrary, so every theorem holds after
    every history of calls. *)

Lemma no_elevation {DB} (E : env DB) q lon lat elev names s : Forall material names ->
  In NElevation names -> queryElev E q lon lat elev false = Val s.
Proof. intros HM I. rewrite Forall_forall in HM. exfalso. exact (HM _ I eq_refl). Qed.

Lemma inside_not_beyond w : place_inside w -> place_beyond w -> False.
Proof.
  destruct w as [[p r0] s]. intros (I1 & I2 & I3) B.
  assert (G : forall c, In c [p; r0; s] -> inside c) by (intros c [<-|[<-|[<-|[]]]]; assumption).
  assert (NO : forall c, inside c -> ~ outside c /\ ~ on_upper_face c).
  { intros c [[V F] [H1 H2]]. split.
    - intros (_ & [->|[->|(_ & [K|K])]]); try discriminate F; lra.
    - intros (_ & K). lra. }
  destruct B as [(c & Ic & O)|(_ & c & Ic & O)]; destruct (NO c (G c Ic)); contradiction.
Qed.

(** C18. A maximum resolution query returns the values of the finest octant that
    holds the location if it is a leaf, and no data otherwise. *)
Theorem C18_maxres : forall DB (E : env DB) q fs lon lat elev w names olds db,
  setup E q db None -> q_type q = MAXRES -> plain q lon lat elev w names olds ->
  place_inside w -> Forall material names ->
  exists ans, max_answer db w ans /\
    exists q' fs', query E q fs (Some olds) lon lat elev = Val (q', fs', values ans f_zero names).
Proof.
  intros DB E q fs lon lat elev w names olds db HS HT HP HI HM.
  assert (HR : resolution_of q Finest) by (unfold resolution_of; rewrite HT; reflexivity).
  destruct (query_inside E q fs lon lat elev w names olds db None Finest f_zero HS HR HP HI
    (no_elevation E q lon lat elev names f_zero HM)) as (ans & o1 & o2 & e1 & e2 & e' & fs' & Q & C & _).
  destruct C as (first & (A & _) & -> & _). exists first. split; [exact A|]. eexists. eexists. exact Q.
Qed.
Print Assumptions C18_maxres.

(** C19. A fixed resolution query at level [l] (see C07 for the level of a
    resolution) returns the values of the finest octant of level at most [l] that
    holds the location, unless that octant is an average and larger than asked
    for. *)
Theorem C19_fixedres : forall DB (E : env DB) q fs lon lat elev w names olds db l,
  setup E q db None -> q_type q = FIXEDRES ->
  level (q_geom q) (mul64 (i2f64 4) (q_res q)) = Val l -> 0 <= l <= 31 ->
  plain q lon lat elev w names olds -> place_inside w -> Forall material names ->
  exists ans, fixed_answer db l w ans /\
    exists q' fs', query E q fs (Some olds) lon lat elev = Val (q', fs', values ans f_zero names).
Proof.
  intros DB E q fs lon lat elev w names olds db l HS HT HL BL HP HI HM.
  assert (HR : resolution_of q (AtLevel l)) by (unfold resolution_of; rewrite HT; eauto).
  destruct (query_inside E q fs lon lat elev w names olds db None (AtLevel l) f_zero HS HR HP HI
    (no_elevation E q lon lat elev names f_zero HM)) as (ans & o1 & o2 & e1 & e2 & e' & fs' & Q & C & _).
  destruct C as (first & (A & _) & -> & _). exists first. split; [exact A|]. eexists. eexists. exact Q.
Qed.
Print Assumptions C19_fixedres.

(** C20. A wavelength dependent query terminates and returns the answer described
    by [wave_answer] for the period 4 * resolution. *)
Theorem C20_waveres : forall DB (E : env DB) q fs lon lat elev w names olds db,
  setup E q db None -> q_type q = WAVERES -> plain q lon lat elev w names olds ->
  place_inside w -> Forall material names ->
  exists ans o, wave_answer db (mul64 (i2f64 4) (q_res q)) w ans o /\
    exists q' fs', query E q fs (Some olds) lon lat elev = Val (q', fs', values ans f_zero names) /\
      (o = None -> p_block ans <> 0 -> q' = q /\ fs' = fs).
Proof.
  intros DB E q fs lon lat elev w names olds db HS HT HP HI HM.
  set (r := ForPeriod (mul64 (i2f64 4) (q_res q))).
  assert (HR : resolution_of q r) by (unfold resolution_of; rewrite HT; reflexivity).
  destruct (query_inside E q fs lon lat elev w names olds db None r f_zero HS HR HP HI
    (no_elevation E q lon lat elev names f_zero HM)) as (ans & o1 & o2 & e1 & e2 & e' & fs' & Q & C & W1 & W2 & K).
  destruct C as (first & A & -> & ->). exists first, o1. split; [exact A|]. eexists. eexists. split; [exact Q|].
  intros -> B. cbn [orphan_reported] in W1, W2. subst e2. subst e1.
  destruct K as [(_ & -> & ->)|(B0 & _)]; [|contradiction]. split; [destruct q; reflexivity | reflexivity].
Qed.
Print Assumptions C20_waveres.

(** C21. When an octant needed on the way up is missing, the values are exactly
    those of the finest octant, and the status is WARNING with a message that names
    the octant and its missing parent. *)
Theorem C21_missing_parent : forall DB (E : env DB) q fs lon lat elev w names olds db h v c,
  setup E q db None -> q_type q = WAVERES -> plain q lon lat elev w names olds ->
  place_inside w -> Forall material names ->
  let period := mul64 (i2f64 4) (q_res q) in
  finest db 31 w h v -> ~ too_coarse period h v -> climbs db period w v h v (Orphan c) ->
  exists q' fs' parent,
    query E q fs (Some olds) lon lat elev = Val (q', fs', values v f_zero names) /\
    octant_ok parent /\ covers parent c /\ a_level parent = a_level c - 1 /\
    eh_status (q_err q') = WARNING /\
    (p_block v <> 0 -> eh_msg (q_err q') = orphan_message E parent c lon lat elev /\ fs' = fs).
Proof.
  intros DB E q fs lon lat elev w names olds db h v c HS HT HP HI HM period HF HC HO.
  assert (HR : resolution_of q (ForPeriod period)) by (unfold resolution_of; rewrite HT; reflexivity).
  destruct (query_inside E q fs lon lat elev w names olds db None (ForPeriod period) f_zero HS HR HP HI
    (no_elevation E q lon lat elev names f_zero HM)) as (ans & o1 & o2 & e1 & e2 & e' & fs' & Q & C & W1 & W2 & K).
  destruct C as (first & A & -> & ->).
  assert (A' : answer (ForPeriod period) db w v (Some c)).
  { left. exists h, v. split; [exact HF|]. right. split; [exact HC|]. right. exists c. auto. }
  destruct HS as ((d & _ & _ & DO) & _).
  destruct (answer_unique _ _ _ _ _ _ _ DO A A') as [-> ->].
  cbn [orphan_reported] in W2. subst e2. destruct W1 as (p & Op & Cp & Lp & Sp & Mp & _).
  exists (with_err q e'), fs', p. split; [exact Q|]. split; [exact Op|]. split; [exact Cp|]. split; [exact Lp|].
  cbn [with_err q_err]. destruct K as [(B & -> & ->)|(B & S & M & _)].
  - split; [exact Sp|]. auto.
  - split; [exact S|]. intros N. contradiction.
Qed.
Print Assumptions C21_missing_parent.

(** C22. When neither database holds the location, at any resolution: the real values
    are -999, fault block and zone are 0, the status is WARNING with the no-data
    message, and one line is appended to the log. *)
Definition no_data_values (names : list vname) : list f64 :=
  map (fun n => match n with NFaultBlock | NZone => i2f64 0 | _ => i2f64 (-999) end) names.
Lemma no_data_values_ok names s : Forall material names -> values no_data s names = no_data_values names.
Proof.
  induction 1 as [|n ns Hn Hns IH]; [reflexivity|]. cbn [values map no_data_values].
  unfold values, no_data_values in IH. rewrite IH. f_equal. destruct n; try reflexivity. contradiction Hn; reflexivity.
Qed.
Theorem C22_no_data : forall DB (E : env DB) q fs lon lat elev w names olds db ext r,
  setup E q db ext -> resolution_of q r -> plain q lon lat elev w names olds -> Forall material names ->
  (place_inside w /\ nothing db 31 w /\ (forall dbx, ext = Some dbx -> nothing dbx 31 w)) \/ place_beyond w ->
  exists q', query E q fs (Some olds) lon lat elev =
      Val (q', log_line (q_err q) (no_data_line E lon lat elev) fs, no_data_values names) /\
    eh_status (q_err q') = WARNING /\ eh_msg (q_err q') = no_data_message E lon lat elev.
Proof.
  intros DB E q fs lon lat elev w names olds db ext r HS HR HP HM [(HI & N & NX)|HB].
  - destruct (query_inside E q fs lon lat elev w names olds db ext r f_zero HS HR HP HI
      (no_elevation E q lon lat elev names f_zero HM)) as (ans & o1 & o2 & e1 & e2 & e' & fs' & Q & C & W1 & W2 & K).
    assert (HL : match r with AtLevel l => l <= 31 | _ => True end).
    { pose proof (res_level_ok q r HR). destruct r; cbn in *; lia. }
    destruct (combined_nothing r db ext w ans o1 o2 HL N NX C) as (-> & -> & ->).
    cbn [orphan_reported] in W1, W2. subst e2 e1. rewrite no_data_values_ok in Q by exact HM.
    destruct K as [(B & _)|(_ & S & M & _ & _ & ->)]; [contradiction B; reflexivity|].
    exists (with_err q e'). split; [exact Q | split; assumption].
  - destruct (query_beyond E q fs lon lat elev w names olds db ext r f_zero HS HR HP HB
      (no_elevation E q lon lat elev names f_zero HM)) as (e' & fs' & Q & K).
    rewrite no_data_values_ok in Q by exact HM.
    destruct K as [(B & _)|(_ & S & M & _ & _ & ->)]; [contradiction B; reflexivity|].
    exists (with_err q e'). split; [exact Q | split; assumption].
Qed.
Print Assumptions C22_no_data.

(** C22, the converse: when the answer has a non-zero fault block nothing is logged,
    and the status changes only if an octant without parent was met (C21). *)
Theorem C22_data_is_quiet : forall DB (E : env DB) q fs lon lat elev w names olds db ext r ans o1 o2,
  setup E q db ext -> resolution_of q r -> plain q lon lat elev w names olds -> Forall material names ->
  place_inside w -> combined r db ext w ans o1 o2 -> p_block ans <> 0 ->
  exists q', query E q fs (Some olds) lon lat elev = Val (q', fs, values ans f_zero names) /\
    (o1 = None -> o2 = None -> q' = q).
Proof.
  intros DB E q fs lon lat elev w names olds db ext r ans o1 o2 HS HR HP HM HI HC HB.
  destruct (query_inside E q fs lon lat elev w names olds db ext r f_zero HS HR HP HI
      (no_elevation E q lon lat elev names f_zero HM)) as (ans' & p1 & p2 & e1 & e2 & e' & fs' & Q & C & W1 & W2 & K).
  assert (DO : db_ok db) by (destruct HS as ((d & _ & _ & DO) & _); exact DO).
  assert (DX : forall dbx, ext = Some dbx -> db_ok dbx).
  { intros dbx ->. destruct HS as (_ & x & _ & _ & O). exact O. }
  destruct (combined_unique _ _ _ _ _ _ _ _ _ _ DO DX HC C) as (<- & <- & <-).
  destruct K as [(_ & -> & ->)|(B & _)]; [|contradiction].
  exists (with_err q e2). split; [exact Q|]. intros -> ->. cbn [orphan_reported] in W1, W2. subst. destruct q; reflexivity.
Qed.
Print Assumptions C22_data_is_quiet.

(** C23. With an extended database the answer is that of the detailed database if its
    fault block is not 0, and else the answer the same kind of query gets from the
    extended database; without one it is the answer of the detailed database. *)
Theorem C23_extended : forall DB (E : env DB) q fs lon lat elev w names olds db ext r,
  setup E q db ext -> resolution_of q r -> plain q lon lat elev w names olds -> Forall material names ->
  place_inside w ->
  exists first o1 ans o2, answer r db w first o1 /\
    match ext with
    | Some dbx => (p_block first = 0 -> answer r dbx w ans o2) /\ (p_block first <> 0 -> ans = first)
    | None => ans = first
    end /\
    exists q' fs', query E q fs (Some olds) lon lat elev = Val (q', fs', values ans f_zero names).
Proof.
  intros DB E q fs lon lat elev w names olds db ext r HS HR HP HM HI.
  destruct (query_inside E q fs lon lat elev w names olds db ext r f_zero HS HR HP HI
      (no_elevation E q lon lat elev names f_zero HM)) as (ans & o1 & o2 & e1 & e2 & e' & fs' & Q & C & _).
  destruct C as (first & A & X). exists first, o1, ans, o2. split; [exact A|]. split; [|eauto].
  destruct ext as [dbx|]; [|apply X]. destruct X as [X1 X2]. split; [exact X1|]. intros B. apply (X2 B).
Qed.
Print Assumptions C23_extended.

(** C24. Names are recognised whatever the case of their letters, and every later
    query returns the values in the order of the names. *)
Theorem C24_names_selected : forall DB (q : qstate DB) strs names,
  Forall2 names_value strs names -> names <> [] ->
  exists q', set_queryVals (Some strs) q = Val q' /\ selected q' names /\ q_err q' = q_err q.
Proof.
  intros DB q strs names H N. destruct (queryVals_known strs names q H N) as (q' & A & B & C & _). eauto.
Qed.
Print Assumptions C24_names_selected.

Theorem C24_values_in_order : forall DB (E : env DB) q db ext r lon lat elev w,
  setup E q db ext -> resolution_of q r -> place_inside w -> at_place q lon lat elev w ->
  (q_squash q = false \/ flt (q_limit q) elev = false) ->
  exists ans, (exists o1 o2, combined r db ext w ans o1 o2) /\
    forall strs names q1 fs olds s, Forall2 names_value strs names -> names <> [] ->
      set_queryVals (Some strs) q = Val q1 -> List.length olds = List.length names ->
      (In NElevation names -> queryElev E q lon lat elev false = Val s) ->
      exists q2 fs2, query E q1 fs (Some olds) lon lat elev =
        Val (q2, fs2, map (fun n => stored_value n ans s) names).
Proof.
  intros DB E q db ext r lon lat elev w HS HR HI HW SQ.
  destruct (body_inside E q (q_err q) lon lat elev w r db ext HS HR HW HI) as (ans & o1 & o2 & _ & _ & _ & C & _).
  exists ans. split; [eauto|]. intros strs names q1 fs olds s HN NE HV HL HE.
  destruct (queryVals_known strs names q HN NE) as (q1' & V & Sel & _ & Q1). rewrite HV in V. injection V as <-.
  assert (HS1 : setup E q1 db ext) by (rewrite Q1; exact HS).
  assert (HR1 : resolution_of q1 r) by (rewrite Q1; exact HR).
  assert (HW1 : at_place q1 lon lat elev w) by (rewrite Q1; exact HW).
  assert (HE1 : In NElevation names -> queryElev E q1 lon lat elev false = Val s) by (rewrite Q1; exact HE).
  assert (HP1 : plain q1 lon lat elev w names olds).
  { split; [rewrite Q1; exact SQ|]. split; [exact HW1|]. split; assumption. }
  destruct (query_inside E q1 fs lon lat elev w names olds db ext r s HS1 HR1 HP1 HI HE1)
    as (ans' & p1 & p2 & e1 & e2 & e' & fs' & Q & C' & _).
  assert (DO : db_ok db) by (destruct HS as ((d & _ & _ & DO) & _); exact DO).
  assert (DX : forall dbx, ext = Some dbx -> db_ok dbx).
  { intros dbx ->. destruct HS as (_ & x & _ & _ & O). exact O. }
  destruct (combined_unique _ _ _ _ _ _ _ _ _ _ DO DX C C') as (<- & _). eexists. eexists. exact Q.
Qed.
Print Assumptions C24_values_in_order.

(** C46. The value "elevation" is the elevation of the ground surface: the centre of
    the octant the surface is taken from plus the depth stored there, and -999 if
    there is none or the location is outside. *)
Theorem C46_surface_elevation : forall DB (E : env DB) q fs lon lat elev w olds db ext r,
  setup E q db ext -> resolution_of q r -> plain q lon lat elev w [NElevation] olds ->
  depths_ok q db ext ->
  place_inside w \/ place_beyond w ->
  exists s q' fs', query E q fs (Some olds) lon lat elev = Val (q', fs', [s]) /\
    (place_beyond w -> s = i2f64 (-999)) /\
    (place_inside w ->
      (no_surface db ext w /\ s = i2f64 (-999)) \/
      exists src h v, surface_octant db ext w src h v /\ surface_elev (a_z h) (a_level h) v s).
Proof.
  intros DB E q fs lon lat elev w olds db ext r HS HR HP DP HW.
  pose proof (inside_not_beyond w) as DJ.
  destruct HW as [HI|HB].
  - destruct (queryElev_spec E q db ext HS DP lon lat elev w false) as (s & Es & Hs); [apply HP | exact HI|].
    destruct (query_inside E q fs lon lat elev w [NElevation] olds db ext r s HS HR HP HI (fun _ => Es))
      as (ans & o1 & o2 & e1 & e2 & e' & fs' & Q & _).
    exists s. eexists. eexists. split; [exact Q|]. split; [intros B; contradiction (DJ HI B)|]. intros _.
    destruct Hs as [Hs|(src & h & v & s0 & w0 & O & S0 & _ & [(_ & _ & ->)|[(_ & ->)|(F & _)]])]; try discriminate F;
      [left; exact Hs | right; eauto | right; eauto].
  - destruct (query_beyond E q fs lon lat elev w [NElevation] olds db ext r (i2f64 (-999)) HS HR HP HB) as (e' & fs' & Q & _).
    { intros _. apply (queryElev_beyond E q db ext HS DP lon lat elev w false); [apply HP | exact HB]. }
    exists (i2f64 (-999)). eexists. eexists. split; [exact Q|]. split; [reflexivity|]. intros I. contradiction (DJ I HB).
Qed.
Print Assumptions C46_surface_elevation.

(** C28. Squashing.  The values (or the failure) of a query, leaving aside the error
    handler and the files: *)
Definition outcome_values {DB} (o : outcome (qstate DB * files * list f64)) : outcome (list f64) :=
  match o with Val (_, _, vs) => Val vs | Throw m => Throw m | Abort => Abort | UB w => UB w end.
Lemma outcome_values_eq {DB} (o : outcome (qstate DB * files * list f64)) : outcome_values o = omap snd o.
Proof. destruct o as [[[? ?] ?]| | |]; reflexivity. Qed.

(** Squashing on, above the limit: the query is the unsquashed query shifted by the
    surface elevation, when a surface is found. *)
Theorem C28_squashed : forall DB (E : env DB) q fs lon lat elev w names olds db ext l,
  setup E q db ext -> selected q names -> Forall material names ->
  depths_ok q db ext ->
  at_place q lon lat elev w ->
  q_squash q = true -> flt (q_limit q) elev = true ->
  exists s,
    (place_inside w -> surface_is q db ext lon lat w true s) /\
    (place_beyond w -> s = i2f64 (-999)) /\
    (place_inside w \/ place_beyond w ->
     outcome_values (query E q fs (Some olds) lon lat elev) =
     outcome_values (query E (set_squash false l q) fs (Some olds) lon lat
       (if feq (i2f64 (-999)) s then elev else add64 elev s))).
Proof.
  intros DB E q fs lon lat elev w names olds db ext l HS HN HM DP HW SQ SL.
  assert (G : forall s, queryElev E q lon lat elev true = Val s ->
    outcome_values (query E q fs (Some olds) lon lat elev) =
    outcome_values (query E (set_squash false l q) fs (Some olds) lon lat
      (if feq (i2f64 (-999)) s then elev else add64 elev s))).
  { intros s Es. rewrite !outcome_values_eq.
    rewrite (squash_shift E q fs olds lon lat elev s l names HN HM SQ SL Es).
    replace (shifted elev s) with (if feq (i2f64 (-999)) s then elev else add64 elev s); [reflexivity|].
    unfold shifted, fne. change (widen NODATAVAL) with (i2f64 (-999)). unfold feq.
    destruct (SFeqb (i2f64 (-999)) s); reflexivity. }
  destruct (classic (place_inside w)) as [HI|NI].
  - destruct (queryElev_spec E q db ext HS DP lon lat elev w true HW HI) as (s & Es & Hs).
    exists s. split; [intros _; exact Hs|]. split; [intros HB; contradiction (inside_not_beyond w HI HB)|].
    intros _. exact (G s Es).
  - exists (i2f64 (-999)). split; [intros HI; contradiction|]. split; [reflexivity|]. intros [HI|HB]; [contradiction|].
    apply G. exact (queryElev_beyond E q db ext HS DP lon lat elev w true HW HB).
Qed.
Print Assumptions C28_squashed.

(** Squashing off, or at or below the limit: the query is the unsquashed one. *)
Theorem C28_unaffected : forall DB (E : env DB) q fs lon lat elev names olds l,
  selected q names -> Forall material names ->
  (q_squash q = false \/ flt (q_limit q) elev = false) ->
  outcome_values (query E q fs (Some olds) lon lat elev) =
  outcome_values (query E (set_squash false l q) fs (Some olds) lon lat elev).
Proof.
  intros DB E q fs lon lat elev names olds l HN HM H. rewrite !outcome_values_eq.
  exact (squash_off E q fs olds lon lat elev l names HN HM H).
Qed.
Print Assumptions C28_unaffected.

(** C03, C04.  A query on an upper face or outside finds no data in either database,
    whatever they hold: this is the second case of [C22_no_data].  Outside, without
    an extended database, this holds even if the storage library does not meet its
    contract: the detailed database is not consulted. *)
Theorem C04_query_outside : forall DB (E : env DB) q fs lon lat elev p r0 s0 names olds d r,
  q_db q = Some d -> q_dbExt q = None -> resolution_of q r -> plain q lon lat elev (p, r0, s0) names olds ->
  (exists c, In c [p; r0; s0] /\ outside c) -> Forall material names ->
  exists q', query E q fs (Some olds) lon lat elev =
      Val (q', log_line (q_err q) (no_data_line E lon lat elev) fs, no_data_values names) /\
    eh_status (q_err q') = WARNING /\ eh_msg (q_err q') = no_data_message E lon lat elev.
Proof.
  intros DB E q fs lon lat elev p r0 s0 names olds d r Hd Hx HR HP HO HM.
  destruct (query_outside_untouched E q fs lon lat elev p r0 s0 names olds d r Hd Hx HR HP HO HM) as (e' & fs' & Q & K).
  rewrite no_data_values_ok in Q by exact HM.
  destruct K as [(B & _)|(_ & S & M & _ & _ & ->)]; [contradiction B; reflexivity|].
  exists (with_err q e'). split; [exact Q | split; assumption].
Qed.
Print Assumptions C04_query_outside.

Theorem C03_query_upper_face : forall DB (E : env DB) q fs lon lat elev p r0 s0 names olds db ext r,
  setup E q db ext -> resolution_of q r -> plain q lon lat elev (p, r0, s0) names olds -> Forall material names ->
  (forall c, In c [p; r0; s0] -> inside c \/ on_upper_face c) -> (exists c, In c [p; r0; s0] /\ on_upper_face c) ->
  exists q', query E q fs (Some olds) lon lat elev =
      Val (q', log_line (q_err q) (no_data_line E lon lat elev) fs, no_data_values names) /\
    eh_status (q_err q') = WARNING /\ eh_msg (q_err q') = no_data_message E lon lat elev.
Proof.
  intros DB E q fs lon lat elev p r0 s0 names olds db ext r HS HR HP HM HA HO.
  apply (C22_no_data DB E q fs lon lat elev (p, r0, s0) names olds db ext r HS HR HP HM).
  right. right. split; assumption.
Qed.
Print Assumptions C03_query_upper_face.

(** ** The hypotheses are met *)
Definition all_names := [NVs; NVp; NFaultBlock; NVs].
Definition toy_q (ty : qtype) (res : f64) (d : contents) (x : option contents) (squash : bool) (names : list vname) : qstate contents :=
  mkQ res (i2f64 (-2000)) (Some d) x (map (fun n => Some (code n)) names) toy eh_new "detailed" "" ty 128 128 squash.
Definition toy_place (elev : f64) : place := (rot_p toy toy_x toy_y, rot_q toy toy_x toy_y, vert_r elev).
Definition no_files : files := fun _ => None.
Definition four : list f64 := [f_zero; f_zero; f_zero; f_zero].

Lemma toy_setup ty res squash names : setup toy_env (toy_q ty res toy_db None squash names) toy_db None.
Proof. split; [exists toy_db; split; [reflexivity | split; [apply lsearch_ok | exact toy_db_ok]] | reflexivity]. Qed.
Lemma toy_setup_orphan ty res squash names : setup toy_env (toy_q ty res orphan_db None squash names) orphan_db None.
Proof. split; [exists orphan_db; split; [reflexivity | split; [apply lsearch_ok | exact orphan_db_ok]] | reflexivity]. Qed.
Lemma toy_setup_ext ty res squash names : setup toy_env (toy_q ty res toy_db (Some ext_db) squash names) toy_db (Some ext_db).
Proof.
  split; [exists toy_db; split; [reflexivity | split; [apply lsearch_ok | exact toy_db_ok]]|].
  exists ext_db; split; [reflexivity | split; [apply lsearch_ok | exact ext_db_ok]].
Qed.
Lemma toy_at ty res d x squash names elev : at_place (toy_q ty res d x squash names) toy_x toy_y elev (toy_place elev).
Proof. exists toy_x, toy_y. split; [reflexivity | auto]. Qed.
Lemma toy_plain ty res d x names elev olds : List.length olds = List.length names ->
  plain (toy_q ty res d x false names) toy_x toy_y elev (toy_place elev) names olds.
Proof. intros L. split; [left; reflexivity|]. split; [apply toy_at|]. split; [reflexivity | exact L]. Qed.
Lemma toy_plain4 ty res d x elev : plain (toy_q ty res d x false all_names) toy_x toy_y elev (toy_place elev) all_names four.
Proof. apply toy_plain. reflexivity. Qed.
Lemma toy_inside_a : place_inside (toy_place elev_a).
Proof. split; [|split]; inside_tac. Qed.
Lemma toy_inside_deep : place_inside (toy_place (i2f64 (-20000))).
Proof. split; [|split]; inside_tac. Qed.
Lemma names_material : Forall material all_names.
Proof. repeat constructor; discriminate. Qed.
Lemma toy_depths ty res b names d x : d = toy_db \/ d = orphan_db -> x = None \/ x = Some ext_db ->
  depths_ok (toy_q ty res d x b names) d x.
Proof.
  intros Hd Hx.
  assert (A : forallb (fun x => SpecFloat.valid_binary prec32 emax32 (p_dfs (snd x)) && is_fin (p_dfs (snd x)) &&
      match addrToLonLatElev toy (fst x) with Val _ => true | _ => false end)
    (toy_db ++ orphan_db ++ ext_db)%list = true) by (vm_compute; reflexivity).
  rewrite forallb_forall in A.
  intros h v H. assert (J : In (h, v) (toy_db ++ orphan_db ++ ext_db)%list).
  { rewrite !in_app_iff. destruct H as [[I _]|(y & Q & I)].
    - destruct Hd as [Hd|Hd]; rewrite Hd in I; [left | right; left]; exact I.
    - destruct Hx as [Hx|Hx]; rewrite Hx in Q; [discriminate|]. injection Q as <-. right; right; exact I. }
  specialize (A _ J). cbn [fst snd] in A. apply andb_prop in A. destruct A as [A B]. apply andb_prop in A.
  split; [split; apply A|]. cbn [toy_q q_geom]. destruct (addrToLonLatElev toy h); try discriminate. eauto.
Qed.

(** The theorems apply to the toy database, and the values are those of the octants. *)
Example C18_example : exists ans, max_answer toy_db (toy_place elev_a) ans.
Proof.
  destruct (C18_maxres _ toy_env (toy_q MAXRES f_zero toy_db None false all_names) no_files toy_x toy_y elev_a
    (toy_place elev_a) all_names four toy_db (toy_setup _ _ _ _) eq_refl (toy_plain4 _ _ _ _ _)
    toy_inside_a names_material) as (ans & A & _). exists ans. exact A.
Qed.
Example C18_example_value :
  outcome_values (query toy_env (toy_q MAXRES f_zero toy_db None false all_names) no_files (Some four) toy_x toy_y elev_a) =
  Val [i2f64 2900; i2f64 5000; i2f64 11; i2f64 2900].
Proof. vm_compute. reflexivity. Qed.
Example C19_example : exists l, level toy (mul64 (i2f64 4) (i2f64 25)) = Val l /\ 0 <= l <= 31 /\
  exists ans, fixed_answer toy_db l (toy_place elev_a) ans.
Proof.
  exists 14. split; [vm_compute; reflexivity|]. split; [lia|].
  destruct (C19_fixedres _ toy_env (toy_q FIXEDRES (i2f64 25) toy_db None false all_names) no_files toy_x toy_y elev_a
    (toy_place elev_a) all_names four toy_db 14 (toy_setup _ _ _ _) eq_refl ltac:(vm_compute; reflexivity) ltac:(lia)
    (toy_plain4 _ _ _ _ _) toy_inside_a names_material) as (ans & A & _). exists ans. exact A.
Qed.
Example C19_example_value :
  outcome_values (query toy_env (toy_q FIXEDRES (i2f64 25) toy_db None false all_names) no_files (Some four) toy_x toy_y elev_a) =
  Val [i2f64 2800; i2f64 4800; i2f64 11; i2f64 2800].
Proof. vm_compute. reflexivity. Qed.
(** The period 4 * 0.011 s lies between the crossing times of levels 14 and 13: the
    values are half way between those two octants. *)
Definition res_w : f64 := dec64 11 3.
Example C20_example : exists ans o, wave_answer toy_db (mul64 (i2f64 4) res_w) (toy_place elev_a) ans o.
Proof.
  destruct (C20_waveres _ toy_env (toy_q WAVERES res_w toy_db None false all_names) no_files toy_x toy_y elev_a
    (toy_place elev_a) all_names four toy_db (toy_setup _ _ _ _) eq_refl
    (toy_plain4 _ _ _ _ _) toy_inside_a names_material) as (ans & o & A & _). exists ans, o. exact A.
Qed.
Example C20_example_value :
  outcome_values (query toy_env (toy_q WAVERES res_w toy_db None false all_names) no_files (Some four) toy_x toy_y elev_a) =
  Val [i2f64 2750; i2f64 4700; i2f64 12; i2f64 2750].
Proof. vm_compute. reflexivity. Qed.
(** The leaf of [orphan_db] is too fine for the same period and has no parent. *)
Lemma toy_leaf_holds : holds toy_leaf (toy_place elev_a).
Proof.
  destruct toy_inside_a as (I1 & I2 & I3).
  destruct (C02_octant_contains_location toy (lev 15) toy_x toy_y elev_a _ _ _ ltac:(cbn; lia)
    (toy_at MAXRES f_zero toy_db None false [] elev_a) I1 I2 I3) as (b & E & L & T & _ & S1 & S2 & S3).
  replace toy_leaf with b; [|unfold toy_leaf, toy_addr; change (mkAddr 0 0 0 0 15 Leaf) with (lev 15); rewrite E; reflexivity].
  split; [exact S1 | split; [exact S2 | exact S3]].
Qed.

Lemma orphan_levels h v : In (h, v) orphan_db -> a_level h = 15.
Proof. intros [I|[I|[]]]; apply (f_equal fst) in I; cbn [fst] in I; rewrite <- I; vm_compute; reflexivity. Qed.
Example C21_example :
  let period := mul64 (i2f64 4) res_w in
  finest orphan_db 31 (toy_place elev_a) toy_leaf v_leaf /\ ~ too_coarse period toy_leaf v_leaf /\
  climbs orphan_db period (toy_place elev_a) v_leaf toy_leaf v_leaf (Orphan toy_leaf) /\
  exists q' fs' , query toy_env (toy_q WAVERES res_w orphan_db None false all_names) no_files (Some four) toy_x toy_y elev_a =
    Val (q', fs', values v_leaf f_zero all_names) /\ eh_status (q_err q') = WARNING.
Proof.
  intros period.
  assert (L : a_level toy_leaf = 15) by (vm_compute; reflexivity).
  assert (A : finest orphan_db 31 (toy_place elev_a) toy_leaf v_leaf).
  { split; [left; reflexivity|]. split; [exact toy_leaf_holds|]. split; [rewrite L; lia|].
    intros h' v' I _ _. rewrite (orphan_levels h' v' I), L. lia. }
  assert (B : ~ too_coarse period toy_leaf v_leaf) by (intros [T _]; vm_compute in T; discriminate T).
  assert (C : climbs orphan_db period (toy_place elev_a) v_leaf toy_leaf v_leaf (Orphan toy_leaf)).
  { apply climbs_orphan.
    - split; [vm_compute; reflexivity|]. split; [vm_compute; reflexivity | rewrite L; lia].
    - intros h v I _. rewrite (orphan_levels h v I), L. lia. }
  split; [exact A|]. split; [exact B|]. split; [exact C|].
  destruct (C21_missing_parent _ toy_env (toy_q WAVERES res_w orphan_db None false all_names) no_files toy_x toy_y elev_a
    (toy_place elev_a) all_names four orphan_db toy_leaf v_leaf toy_leaf (toy_setup_orphan _ _ _ _) eq_refl
    (toy_plain4 _ _ _ _ _) toy_inside_a names_material A B C) as (q' & fs' & p & Q & _ & _ & _ & S & _).
  exists q', fs'. split; [exact Q | exact S].
Qed.

(** At 20 km depth the detailed database holds nothing, the extended one does. *)
Lemma toy_levels h v : In (h, v) toy_db -> ~ holds h (toy_place (i2f64 (-20000))).
Proof.
  intros I H. destruct toy_inside_deep as (I1 & I2 & I3).
  destruct (C02_octant_contains_location toy (lev 31) toy_x toy_y (i2f64 (-20000)) _ _ _ ltac:(cbn; lia)
    (toy_at MAXRES f_zero toy_db None false [] (i2f64 (-20000))) I1 I2 I3) as (b & E & L & T & O & S1 & S2 & S3).
  assert (Hb : holds b (toy_place (i2f64 (-20000)))) by (split; [exact S1 | split; [exact S2 | exact S3]]).
  assert (Oh : octant_ok h) by exact (proj1 toy_db_ok h v I).
  assert (C : covers h b).
  { apply (cover_holds h b (toy_place (i2f64 (-20000)))); [exact Oh | exact O | | exact H | exact Hb]. rewrite L. cbn. apply Oh. }
  apply coversb_iff in C.
  assert (G : b = match lonLatElevToAddr toy (lev 31) toy_x toy_y (i2f64 (-20000)) with Val (_, a) => a | _ => lev 0 end) by (rewrite E; reflexivity).
  clear - I C G. rewrite G in C. clear G.
  destruct I as [I|[I|[I|[I|[]]]]]; apply (f_equal fst) in I; cbn [fst] in I; rewrite <- I in C; vm_compute in C; discriminate C.
Qed.
Lemma toy_nothing : nothing toy_db 31 (toy_place (i2f64 (-20000))).
Proof. intros h v I H. contradiction (toy_levels h v I H). Qed.
Example C22_example : exists q', query toy_env (toy_q FIXEDRES (i2f64 25) toy_db None false all_names) no_files (Some four)
    toy_x toy_y (i2f64 (-20000)) =
    Val (q', no_files, [i2f64 (-999); i2f64 (-999); i2f64 0; i2f64 (-999)]) /\ eh_status (q_err q') = WARNING.
Proof.
  assert (R : resolution_of (toy_q FIXEDRES (i2f64 25) toy_db None false all_names) (AtLevel 14)).
  { exists 14. split; [vm_compute; reflexivity|]. split; [lia | reflexivity]. }
  destruct (C22_no_data _ toy_env (toy_q FIXEDRES (i2f64 25) toy_db None false all_names) no_files toy_x toy_y (i2f64 (-20000))
    (toy_place (i2f64 (-20000))) all_names four toy_db None (AtLevel 14) (toy_setup _ _ _ _) R
    (toy_plain4 _ _ _ _ _) names_material) as (q' & Q & S & _).
  { left. split; [exact toy_inside_deep|]. split; [exact toy_nothing|]. intros ? ?. discriminate. }
  exists q'. split; [exact Q | exact S].
Qed.
Example C23_example : exists first o1 ans o2,
  answer Finest toy_db (toy_place (i2f64 (-20000))) first o1 /\ p_block first = 0 /\
  answer Finest ext_db (toy_place (i2f64 (-20000))) ans o2.
Proof.
  destruct (C23_extended _ toy_env (toy_q MAXRES f_zero toy_db (Some ext_db) false all_names) no_files toy_x toy_y (i2f64 (-20000))
    (toy_place (i2f64 (-20000))) all_names four toy_db (Some ext_db) Finest (toy_setup_ext _ _ _ _) eq_refl
    (toy_plain4 _ _ _ _ _) names_material toy_inside_deep) as (f & o1 & ans & o2 & A & [B _] & _).
  exists f, o1, ans, o2. destruct (answer_nothing Finest toy_db _ f o1 I toy_nothing A) as [-> ->].
  split; [exact A|]. split; [reflexivity|]. apply B. reflexivity.
Qed.
Example C23_example_value :
  outcome_values (query toy_env (toy_q MAXRES f_zero toy_db (Some ext_db) false all_names) no_files (Some four)
    toy_x toy_y (i2f64 (-20000))) = Val [i2f64 3700; i2f64 6500; i2f64 21; i2f64 3700].
Proof. vm_compute. reflexivity. Qed.

Example C24_example : exists q', set_queryVals (Some ["vs"; "VP"; "faultBLOCK"; "Vs"]%string)
    (toy_q MAXRES f_zero toy_db None false [NZone]) = Val q' /\ selected q' all_names.
Proof.
  destruct (C24_names_selected _ (toy_q MAXRES f_zero toy_db None false [NZone])
    ["vs"; "VP"; "faultBLOCK"; "Vs"]%string all_names) as (q' & A & B & _).
  - repeat constructor; vm_compute; reflexivity.
  - discriminate.
  - exists q'. split; assumption.
Qed.

Example C46_example : exists s q' fs', query toy_env (toy_q MAXRES f_zero toy_db None false [NElevation]) no_files
    (Some [f_zero]) toy_x toy_y elev_a = Val (q', fs', [s]) /\
  ((no_surface toy_db None (toy_place elev_a) /\ s = i2f64 (-999)) \/
   exists src h v, surface_octant toy_db None (toy_place elev_a) src h v /\ surface_elev (a_z h) (a_level h) v s).
Proof.
  destruct (C46_surface_elevation _ toy_env (toy_q MAXRES f_zero toy_db None false [NElevation]) no_files toy_x toy_y elev_a
    (toy_place elev_a) [f_zero] toy_db None Finest (toy_setup _ _ _ _) eq_refl (toy_plain _ _ _ _ [NElevation] _ [f_zero] eq_refl)
    (toy_depths _ _ _ _ _ _ (or_introl eq_refl) (or_introl eq_refl)) (or_introl toy_inside_a))
    as (s & q' & fs' & Q & _ & S).
  exists s, q', fs'. split; [exact Q | exact (S toy_inside_a)].
Qed.
(** Centre of the octant at -1231.25 m, depth 1250 m: the surface is at 18.75 m. *)
Example C46_example_value :
  outcome_values (query toy_env (toy_q MAXRES f_zero toy_db None false [NElevation]) no_files (Some [f_zero]) toy_x toy_y elev_a) =
  Val [dec64 1875 2].
Proof. vm_compute. reflexivity. Qed.

Example C28_example : exists s, surface_is (toy_q MAXRES f_zero toy_db None true all_names) toy_db None
    toy_x toy_y (toy_place elev_a) true s.
Proof.
  destruct (C28_squashed _ toy_env (toy_q MAXRES f_zero toy_db None true all_names) no_files toy_x toy_y elev_a
    (toy_place elev_a) all_names four toy_db None f_zero (toy_setup _ _ _ _) eq_refl names_material 
    (toy_depths _ _ _ _ _ _ (or_introl eq_refl) (or_introl eq_refl)) (toy_at _ _ _ _ _ _ _) eq_refl eq_refl) as (s & S & _).
  exists s. exact (S toy_inside_a).
Qed.
(** There is nothing at 18.75 m, so the surface is put one octant lower, at 6.25 m. *)
Example C28_example_value : let q b := toy_q MAXRES f_zero toy_db None b all_names in
  outcome_values (query toy_env (q true) no_files (Some four) toy_x toy_y elev_a) =
  outcome_values (query toy_env (q false) no_files (Some four) toy_x toy_y (add64 elev_a (dec64 625 2))) /\
  queryElev toy_env (q true) toy_x toy_y elev_a true = Val (dec64 625 2).
Proof. split; vm_compute; reflexivity. Qed.

Example C03_query_example : place_beyond (toy_place (i2f64 12800)).
Proof.
  right. split.
  - intros c [<-|[<-|[<-|[]]]]; [left; inside_tac | left; inside_tac | right; apply C03_example].
  - exists (vert_r (i2f64 12800)). split; [right; right; left; reflexivity | apply C03_example].
Qed.
Example C04_query_example : exists c, In c (let '(p, q, r) := toy_place (S754_infinity true) in [p; q; r]) /\ outside c.
Proof. exists (vert_r (S754_infinity true)). split; [right; right; left; reflexivity | apply C04_example_infinite]. Qed.
