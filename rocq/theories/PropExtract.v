(** C55: the gradient program copies the values of the original database at the points of
    its grid. *)
From Coq Require Import ZArith Bool Reals Lra Lia String List Permutation Sorted.
From Flocq Require Import Core BinarySingleNaN.
From Verif Require Import Outcome Float Payload Addr SpecOct SpecGeom FloatFacts Geom GeomFacts GeomProof ErrorHandler VMQuery SpecQuery
  QueryFacts QueryProof QueryHist QueryMain Store SpecStore StoreFacts Averager VMCreator Stream GridIngester SpecGrid GridFacts GridMain VsGrader SpecGrade VsRun
  SpecExtract ExtractFacts ToyLib ToyDb ToyGrade ToyGrid.
Import ListNotations.
Open Scope Z_scope.

(** C55.  For every input database that opens and every grid whose points lie in distinct
    octants, the temporary file gets exactly one record per point.  Its values are those the
    input gives for the location of the point at the wanted resolution, where missing data
    become 10^10 and shear speeds below the smallest one are raised to it. *)
Theorem C55_extract : forall DB (EQ : env DB) E F L v dq inp r fs d nl nw nh cell,
  let g := vg_g v in
  0 < vg_cache v -> e_open EQ (vg_in v) (vg_cache v) = Some dq -> searches (e_search EQ dq) inp -> db_ok inp ->
  (forall a p, In (a, p) inp -> storable p) -> asked L v r ->
  count (gp_len g) (resHoriz g) = Val nl -> count (gp_width g) (resHoriz g) = Val nw -> count (gp_ht g) (gp_res g) = Val nh ->
  grid_points (indexToLonLat L g) (gridAddr L g) nl nw nh cell ->
  (forall i j k x y z, in_grid nl nw nh i j k -> point_place L g i j k (x, y, z) -> double x /\ double y /\ double z) ->
  takes_new E -> can_create E d (vg_tmp v) -> et_flush E (vg_tmp v) = true ->
  exists d' recs vals, extract EQ E F L v fs d = (d', Val tt) /\
    d' (vg_tmp v) = Some (mkDb recs (Some SCHEMA) (Some (graded_metadata (n_show F) (gp_gradient (vg_g v)) (et_now E) (et_host E))) 28) /\
    exactly_grid recs nl nw nh cell vals /\
    (in_order E -> StronglySorted etree_lt (map fst recs)) /\
    others_untouched (vg_tmp v) d d' /\
    forall i j k, in_grid nl nw nh i j k -> exists w ans o, point_place L g i j k w /\ holds (cell i j k) w /\
      answer r inp w ans o /\ vals i j k = prepared (gp_minVs g) ans.
Proof.
  intros DB EQ E F L v dq inp r fs d nl nw nh cell g HC HO HS HK HA HR N1 N2 N3 GP HD HT CC CF.
  assert (HP : forall i j k, in_grid nl nw nh i j k -> exists w, point_place L g i j k w /\ place_inside w /\ holds (cell i j k) w).
  { intros i j k G. pose proof G as (Gi & Gj & Gk). destruct GP as (P1 & P2 & _). destruct (P1 i j Gi Gj) as ([lon lat] & EI & EG).
    apply (cell_place L g i j k (cell i j k) lon lat EI (EG k Gk) (proj1 (P2 i j k G))). intros x y z. apply HD, G. }
  destruct (extract_ok EQ E F L v dq inp r fs d nl nw nh cell HC HO HS HK HA HR N1 N2 N3 GP) as (d' & vals & X1 & X2 & X3 & X4); [|exact HT | exact CC | exact CF|].
  { intros i j k G. destruct (HP i j k G) as (w & W1 & W2 & _). exists w. auto. }
  exists d', (add_all E (grid_records nl nw nh cell vals) []), vals. split; [exact X1|]. split; [rewrite <- described; exact X2|].
  split; [exact (exactly_records E nl nw nh _ _ cell vals GP)|]. split; [exact (records_sorted E nl nw nh _ _ cell vals GP)|]. split; [exact X3|].
  intros i j k G. destruct (HP i j k G) as ([[x y] z] & W1 & W2 & W3). pose proof W1 as (lon & lat & _ & C).
  destruct (ask EQ L v dq inp r HC HS HK HR (q_err (asking L v dq)) fs lon lat (indexToElev g k) (x, y, z) (repeat f_zero 8) C W2 eq_refl)
    as (ans & o & _ & _ & _ & A).
  exists (x, y, z), ans, o. split; [exact W1|]. split; [exact W3|]. split; [exact A | exact (X4 i j k _ ans o G W1 A W2)].
Qed.
Print Assumptions C55_extract.

(** C55, the input cannot be opened: the program does not notice.  It creates the temporary
    file and stops at an assertion when it asks for the first point. *)
Theorem C55_input_unopened : forall DB (EQ : env DB) E F L v fs d nl nw nh cell,
  let g := vg_g v in
  0 < vg_cache v -> e_open EQ (vg_in v) (vg_cache v) = None ->
  count (gp_len g) (resHoriz g) = Val nl -> count (gp_width g) (resHoriz g) = Val nw -> count (gp_ht g) (gp_res g) = Val nh ->
  0 < nl -> 0 < nw -> 0 < nh ->
  grid_points (indexToLonLat L g) (gridAddr L g) nl nw nh cell -> can_create E d (vg_tmp v) ->
  exists d', extract EQ E F L v fs d = (d', Abort) /\
    d' (vg_tmp v) = Some (mkDb [] (Some SCHEMA) (Some (graded_metadata (n_show F) (gp_gradient (vg_g v)) (et_now E) (et_host E))) 28) /\ others_untouched (vg_tmp v) d d'.
Proof.
  intros DB EQ E F L v fs d nl nw nh cell g HC HO N1 N2 N3 Pl Pw Ph GP CC.
  destruct (openDB_ok E (vg_tmp v) (description F v) d CC) as (d1 & O1 & O2 & O3). exists d1. split; [|split; [rewrite <- described; exact O2 | exact O3]].
  destruct (orig_fields (DB := DB) L v HC) as (EN & EC & ET & EX & ED & EDX & ES & EG & _).
  unfold extract. unfold andThen at 1, lift at 1. fold (orig (DB := DB) L v). set (q := orig (DB := DB) L v) in *.
  unfold open. rewrite ED, EX, EDX, EC, EN. rewrite (proj2 (Z.ltb_lt _ _) HC). cbn [assert_ bind]. rewrite HO. cbn [bind String.eqb]. cbv iota beta.
  cbn [bind]. set (e := eh_error _ _). set (q1 := set_db q None None e). unfold unwinding. fold g.
  unfold andThen at 1. rewrite O1. cbv beta iota.
  unfold andThen at 1, lift at 1. rewrite N1. cbv beta iota. unfold andThen at 1, lift at 1. rewrite N2. cbv beta iota.
  unfold andThen at 1, lift at 1. rewrite N3. cbv beta iota.
  change (set_queryVals (Some valNames) q1) with (Val (mkQ (q_res q1) (q_limit q1) (q_db q1) (q_dbExt q1) (map (fun n => Some (code n)) eight) (q_geom q1) (q_err q1)
    (q_name q1) (q_nameExt q1) (q_type q1) (q_cache q1) (q_cacheExt q1) (q_squash q1))).
  set (q2 := mkQ _ _ _ _ _ _ _ _ _ _ _ _ _). unfold andThen at 1, lift at 1. cbv beta iota.
  destruct GP as (P1 & _). destruct (P1 0 0) as ([lon lat] & EI & _); [lia..|].
  assert (QA : query EQ q2 fs (Some (repeat f_zero 8 : list f64)) lon lat (indexToElev g 0) = Abort).
  { unfold query. change (assert_ _) with (Val tt : outcome unit). cbn [bind]. unfold query_body.
    assert (Sq : q_squash q2 = false) by exact ES. assert (Dq : q_db q2 = None) by reflexivity.
    rewrite Sq, Dq. cbn [andb bind]. unfold queryFn. destruct (q_type q2); reflexivity. }
  assert (R : forall n, 0 < n -> exists l, range n = 0 :: l).
  { intros n Hn. assert (I : In 0 (range n)) by (apply GradeGrid.range_in; lia).
    unfold range in *. destruct (Z.to_nat n) as [|m] eqn:Q; [lia|]. cbn [seq map]. eexists. reflexivity. }
  destruct (R nl Pl) as [ll Rl]. destruct (R nw Pw) as [lw Rw]. destruct (R nh Ph) as [lh Rh].
  rewrite Rl, Rw, Rh. unfold andThen at 1. cbn [foldIO]. unfold andThen at 1. unfold andThen at 1. unfold andThen at 1. unfold lift at 1. rewrite EI. cbv beta iota.
  cbn [fst snd foldIO]. unfold andThen at 1. unfold extractPoint at 1. fold g. unfold andThen at 1, lift at 1. rewrite QA. reflexivity.
Qed.
Print Assumptions C55_input_unopened.

(** C55, the temporary file cannot be created: an exception, and no other file changes. *)
Theorem C55_no_temporary : forall DB (EQ : env DB) E F L v dq fs d,
  0 < vg_cache v -> e_open EQ (vg_in v) (vg_cache v) = Some dq -> e_close EQ dq = true ->
  et_create E d (vg_tmp v) = false ->
  exists d' m, extract EQ E F L v fs d = (d', Throw m) /\ others_untouched (vg_tmp v) d d'.
Proof.
  intros DB EQ E F L v dq fs d HC HO HCl HN. eexists _, _. split.
  - unfold extract. unfold andThen at 1, lift at 1. fold (orig (DB := DB) L v). rewrite (open_ok EQ L v dq HC HO). cbv beta iota.
    unfold unwinding. unfold andThen at 1. unfold openDB. unfold andThen at 1, openNew at 1. rewrite HN. cbv beta iota.
    unfold destroy. cbn [opened set_db q_db q_dbExt]. rewrite HCl. reflexivity.
  - intros n Hn. apply put_other, Hn.
Qed.
Print Assumptions C55_no_temporary.

(** Fault blocks and zones are stored as 16-bit numbers: a number that does not fit is
    never stored (converting it is undefined). *)
Theorem C55_labels_fit : forall minVs vals p, takeVals minVs vals = Val p ->
  -32768 <= p_block p <= 32767 /\ -32768 <= p_zone p <= 32767.
Proof.
  assert (G : forall x z, f2short x = Val z -> -32768 <= z <= 32767).
  { intros x z. unfold f2short. destruct (f2int x) as [y| | |]; cbn [bind]; try discriminate.
    destruct (Z.leb_spec (-32768) y), (Z.leb_spec y 32767); cbn [andb]; intros Q; try discriminate Q.
    assert (y = z) as <- by congruence. lia. }
  intros minVs vals p. unfold takeVals.
  destruct (f2short (nth 6 vals _)) as [b| | |] eqn:B; cbn [bind]; try discriminate.
  destruct (f2short (nth 7 vals _)) as [z| | |] eqn:Z'; cbn [bind]; try discriminate.
  apply G in B. apply G in Z'. cbv zeta.
  destruct (flt _ f_zero); [|destruct (flt _ minVs)]; intros Q; apply (f_equal (fun o => match o with Val p => (p_block p, p_zone p) | _ => (0, 0) end)) in Q;
    cbn [p_block p_zone] in Q; change GRADENOBLOCK with 999 in *; change GRADENOZONE with 999 in *;
    destruct p as [v1 v2 v3 v4 v5 v6 pb pz]; cbn [p_block p_zone] in *; inversion Q; subst; lia.
Qed.
Print Assumptions C55_labels_fit.
Example C55_labels_fit_example : exists p, takeVals f_zero [i2f64 5000; i2f64 2900; i2f64 2700; i2f64 200; i2f64 100; i2f64 10; i2f64 (-32768); i2f64 3] = Val p /\
  takeVals f_zero [i2f64 5000; i2f64 2900; i2f64 2700; i2f64 200; i2f64 100; i2f64 10; i2f64 32768; i2f64 3] = UB "double out of the range of int16_t"%string.
Proof. eexists. split; vm_compute; reflexivity. Qed.

(** ** A grid of 2 by 3 by 2 points *)
(** The input has no data at the point (1,2,1), and a shear speed of 50 m/s at (1,0,0). *)
Definition slow : payload := mkPayload (i2f32 300) (i2f32 50) (i2f32 1800) (i2f32 20) (i2f32 10) (i2f32 0) 3 4.
Definition toy_input : contents :=
  map (fun p => let '(l, w, h) := p in (toy_cell l w h, if (l =? 1) && (w =? 0) && (h =? 0) then slow else toy_values l w h))
    (filter (fun p => let '(l, w, h) := p in negb ((l =? 1) && (w =? 2) && (h =? 1))) points).
Definition toy_source : env contents :=
  mkEnv (fun n _ => if String.eqb n "original" then Some toy_input else None) (fun _ => true) lsearch (fun _ => true)
    (fun _ => ""%string) (fun _ => ""%string) (fun _ => ""%string).
Definition toy_run (name : string) : vsgrader := mkVsg name "out" "tmp" "params" 128 f_zero MAXRES toy_grid.
Definition no_files : disk := fun _ => None.
Definition no_logs : files := fun _ => None.

Lemma toy_places i j k x y z : in_grid 2 3 2 i j k -> point_place toy2 toy_grid i j k (x, y, z) -> double x /\ double y /\ double z.
Proof.
  intros (A & B & C) (lon & lat & E & (u & v & P & -> & -> & ->)).
  assert (Ci : i = 0 \/ i = 1) by lia. assert (Cj : j = 0 \/ j = 1 \/ j = 2) by lia. assert (Ck : k = 0 \/ k = 1) by lia.
  assert (D : forall a b, double a -> double b -> m_project toy2 lon lat = Some (a, b) ->
    double (rot_p toy2 u v) /\ double (rot_q toy2 u v) /\ double (vert_r (indexToElev toy_grid k))).
  { intros a b Da Db Q. rewrite P in Q. injection Q as <- <-.
    assert (V1 : double (m_cos toy2 azR)) by (vm_compute; reflexivity). assert (V2 : double (m_sin toy2 azR)) by (vm_compute; reflexivity).
    assert (V3 : double (projXNWRoot toy2)) by (vm_compute; reflexivity). assert (V4 : double (projYNWRoot toy2)) by (vm_compute; reflexivity).
    pose proof (mul_valid prec64 emax64 Hp64 Hm64) as HM. pose proof (sub_valid prec64 emax64 Hp64 Hm64) as HS. pose proof (add_valid prec64 emax64 Hp64 Hm64) as HA.
    pose proof (HS _ _ Da V3) as DX. pose proof (HS _ _ Db V4) as DY. unfold double in *.
    split; [exact (HS _ _ (HM _ _ DX V1) (HM _ _ DY V2))|]. split; [exact (HA _ _ (HM _ _ DX V2) (HM _ _ DY V1))|].
    destruct Ck as [->| ->]; vm_compute; reflexivity. }
  destruct Ci as [->| ->], Cj as [->|[->| ->]]; (match type of E with ?t = _ => let r := eval vm_compute in t in change (r = Val (lon, lat)) in E end;
    injection E as <- <-; eapply D; [| |vm_compute; reflexivity]; vm_compute; reflexivity).
Qed.

(** All hypotheses of C55_extract hold, and the values of five points are as described. *)
Example C55_example :
  let v := toy_run "original" in
  (0 < vg_cache v /\ e_open toy_source (vg_in v) (vg_cache v) = Some toy_input /\ searches (e_search toy_source toy_input) toy_input /\ db_ok toy_input /\
   (forall a p, In (a, p) toy_input -> storable p) /\ asked toy2 v Finest) /\
  (count (gp_len toy_grid) (resHoriz toy_grid) = Val 2 /\ count (gp_width toy_grid) (resHoriz toy_grid) = Val 3 /\ count (gp_ht toy_grid) (gp_res toy_grid) = Val 2 /\
   grid_points (indexToLonLat toy2 toy_grid) (gridAddr toy2 toy_grid) 2 3 2 toy_cell /\
   (forall i j k x y z, in_grid 2 3 2 i j k -> point_place toy2 toy_grid i j k (x, y, z) -> double x /\ double y /\ double z)) /\
  takes_new toy_etree /\ in_order toy_etree /\ can_create toy_etree no_files "tmp" /\
  let (d', o) := extract toy_source toy_etree toy_fmt toy2 v no_logs no_files in
  o = Val tt /\ match d' "tmp"%string with
    | Some f => List.length (d_recs f) = 12%nat /\
        map (fun c => lsearch (d_recs f) c) [toy_cell 0 0 0; toy_cell 0 2 1; toy_cell 1 0 0; toy_cell 1 2 1; toy_cell 1 2 0] =
        map Some [(toy_cell 0 0 0, toy_values 0 0 0); (toy_cell 0 2 1, toy_values 0 2 1); (toy_cell 1 0 0, with_vs slow (i2f32 100));
                  (toy_cell 1 2 1, void); (toy_cell 1 2 0, toy_values 1 2 0)]
    | None => False
    end.
Proof.
  cbv zeta. split; [|split; [|split; [exact toy_takes_new|split; [exact toy_in_order|split; [repeat split|]]]]].
  - split; [reflexivity|]. split; [reflexivity|]. split; [exact (lsearch_ok toy_input)|]. split; [apply db_okb_ok; vm_compute; reflexivity|].
    split; [|reflexivity].
    intros a p I. apply in_map_iff in I. destruct I as ([[l w] h] & E & I). injection E as _ <-.
    apply filter_In in I. destruct I as [I _]. unfold points in I. apply in_prod_iff in I. destruct I as [I Ih]. apply in_prod_iff in I. destruct I as [Il Iw].
    apply GradeGrid.range_in in Il, Iw, Ih.
    assert (Ci : l = 0 \/ l = 1) by lia. assert (Cj : w = 0 \/ w = 1 \/ w = 2) by lia. assert (Ck : h = 0 \/ h = 1) by lia.
    destruct Ci as [->| ->], Cj as [->|[->| ->]], Ck as [->| ->]; cbn [Z.eqb andb Pos.eqb]; split; try (cbn; lia); repeat constructor; vm_compute; reflexivity.
  - pose proof toy_counts as (A & B & C). split; [exact A|]. split; [exact B|]. split; [exact C|]. split; [exact toy_points|]. exact toy_places.
  - vm_compute. auto.
Qed.

(** The input cannot be opened. *)
Example C55_input_unopened_example :
  e_open toy_source "missing" 128 = None /\ can_create toy_etree no_files "tmp" /\
  snd (extract toy_source toy_etree toy_fmt toy2 (toy_run "missing") no_logs no_files) = Abort.
Proof. split; [reflexivity|]. split; [repeat split | vm_compute; reflexivity]. Qed.

(** The temporary file cannot be created. *)
Example C55_no_temporary_example :
  let E := mkEtree (fun _ _ => true) (fun _ n => negb (String.eqb n "tmp")) (fun f => f) (fun _ => true) (fun _ _ => true)
    (fun _ => true) (fun _ _ => true) (fun _ _ => true) (et_store toy_etree) (et_insert toy_etree) (et_before toy_etree) (fun _ => true) (fun _ => true) [] [] "error" "" "" in
  e_open toy_source "original" 128 = Some toy_input /\ e_close toy_source toy_input = true /\ et_create E no_files "tmp" = false /\
  snd (extract toy_source E toy_fmt toy2 (toy_run "original") no_logs no_files) = Throw "Could not create etree database."%string.
Proof. cbv zeta. split; [reflexivity|]. split; [reflexivity|]. split; [reflexivity|]. vm_compute. reflexivity. Qed.
