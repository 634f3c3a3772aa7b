(** C56: a whole run of the gradient program. *)
From Coq Require Import ZArith Bool Reals Lra Lia Ascii String List Permutation Sorted.
From Flocq Require Import Core BinarySingleNaN.
From Verif Require Import Outcome Float Payload Addr SpecOct SpecAvg SpecGeom FloatFacts Geom GeomFacts GeomProof GradePlace ErrorHandler VMQuery SpecQuery
  QueryFacts QueryProof QueryHist QueryMain Store SpecStore StoreFacts Averager VMCreator Stream GridIngester SpecGrid GridFacts GridMain VsGrader SpecGrade GradeGrid AvgFinal VsRun
  SpecExtract ExtractFacts PropGrade PropParams PropExtract ToyLib ToyDb ToyGrade ToyGrid.
Import ListNotations.
Open Scope Z_scope.

Lemma forall2_fst {P} (R : addr * P -> addr * P -> Prop) l l' :
  Forall2 (fun r r' => fst r' = fst r /\ R r r') l l' -> map fst l' = map fst l.
Proof. induction 1 as [|x y l l' [E _] _ IH]; [reflexivity|]. cbn [map]. rewrite E, IH. reflexivity. Qed.
Lemma different_fst l l' : map fst l' = map fst l -> all_different l -> all_different l'.
Proof.
  revert l'. induction l as [|x l IH]; intros [|y l'] E D; try discriminate E; [exact D|].
  cbn [map] in E. injection E as E1 E2. inversion D as [|? ? Fx Dl]; subst. constructor; [|exact (IH l' E2 Dl)].
  rewrite Forall_forall in *. intros z I. apply (in_map fst) in I. rewrite E2 in I. apply in_map_iff in I. destruct I as (z' & E3 & I).
  rewrite E1, <- E3. exact (Fx z' I).
Qed.
Lemma different_same l x y : all_different l -> In x l -> In y l -> same_octant (fst x) (fst y) -> x = y.
Proof.
  unfold all_different. induction 1 as [|z l F _ IH]; intros I J S; [contradiction|].
  rewrite Forall_forall in F. destruct I as [<-|I], J as [<-|J].
  - reflexivity.
  - destruct (F _ J S).
  - destruct (F _ I). destruct S as (A & B & C & D). repeat split; symmetry; assumption.
  - exact (IH I J S).
Qed.

(** Grading a file that holds exactly the grid. *)
Lemma graded_grid {LL} (lonlat : Z -> Z -> outcome LL) locate nl nw nh cell (l l' : records payload) v v' :
  grid_points lonlat locate nl nw nh cell -> exactly_grid l nl nw nh cell v ->
  records_ok l' -> holds_grid l' nl nw nh cell v' -> same_elsewhere l l' nl nw nh cell -> exactly_grid l' nl nw nh cell v'.
Proof.
  intros GP (D & X) (O1 & O2) HG SE. pose proof (forall2_fst _ _ _ SE) as EF.
  assert (FI : forall a p, In (a, p) l' -> exists i j k, in_grid nl nw nh i j k /\ a = cell i j k).
  { intros a p I. apply (in_map fst) in I. rewrite EF in I. apply in_map_iff in I. destruct I as ([a' p'] & E & I). cbn [fst] in E. subst a'.
    apply X in I. destruct I as (i & j & k & G & E & _). exists i, j, k. auto. }
  assert (SL : forall i j k i' j' k', in_grid nl nw nh i j k -> in_grid nl nw nh i' j' k' -> same_octant (cell i j k) (cell i' j' k') -> cell i j k = cell i' j' k').
  { intros i j k i' j' k' G G' S. destruct GP as (_ & P2 & _). destruct (P2 i j k G) as [A B]. destruct (P2 i' j' k' G') as [A' B'].
    apply same_leaf; try assumption. congruence. }
  split; [exact (different_fst _ _ EF D)|]. intros a p. split.
  - intros I. destruct (FI a p I) as (i & j & k & G & ->). exists i, j, k. split; [exact G|]. split; [reflexivity|].
    destruct (HG i j k G) as (h & S & I2). assert (Q : (h, v' i j k) = (cell i j k, p)) by (exact (O2 _ _ _ _ I2 I S)). congruence.
  - intros (i & j & k & G & -> & ->). destruct (HG i j k G) as (h & S & I). destruct (FI _ _ I) as (i' & j' & k' & G' & E). subst h.
    rewrite (SL _ _ _ _ _ _ G' G S) in I. exact I.
Qed.
Lemma grid_records_ok {LL} (lonlat : Z -> Z -> outcome LL) locate nl nw nh cell l v :
  grid_points lonlat locate nl nw nh cell -> exactly_grid l nl nw nh cell v -> records_ok l /\ holds_grid l nl nw nh cell v.
Proof.
  intros (_ & P2 & _) (D & X). split; [split|].
  - intros h p I. apply X in I. destruct I as (i & j & k & G & -> & _). apply P2, G.
  - intros h p h' p' I I' S. exact (different_same l _ _ D I I' S).
  - intros i j k G. exists (cell i j k). split; [repeat split|]. apply X. exists i, j, k. auto.
Qed.

(** C56.  A run with a parameter file that reads well and storage that works: the output
    file has exactly one record for each grid point; its shear speeds are the largest ones
    below those of the input that respect the limit between neighbours, up to rounding;
    Vp, density, Qp and Qs keep their ratios to Vs up to a relative error of 2^-19;
    depths, blocks and zones are those of the input; besides the output only the temporary
    file changes. *)
Theorem C56_run : forall DB (EQ : env DB) E F T L opens G v0 v x y dq inp r fs d nl nw nh cell M,
  readParams F T v0 = Val v -> m_project L (gp_lon (vg_g v)) (gp_lat (vg_g v)) = Some (x, y) ->
  let g := set_xy (vg_g v) x y in
  let dv := mul64 (gp_gradient g) (gp_res g) in
  let dh := mul64 (gp_gradient g) (resHoriz g) in
  let tol := (2 * IZR (nl + nw + nh) * slack M)%R in
  0 < vg_cache v -> e_open EQ (vg_in v) (vg_cache v) = Some dq -> searches (e_search EQ dq) inp -> db_ok inp ->
  (forall a p, In (a, p) inp -> storable p) -> asked L v r ->
  count (gp_len g) (resHoriz g) = Val nl -> count (gp_width g) (resHoriz g) = Val nw -> count (gp_ht g) (gp_res g) = Val nh ->
  0 < nl -> 0 < nw -> 0 < nh ->
  grid_points (indexToLonLat L g) (gridAddr L g) nl nw nh cell ->
  (forall i j k a b c, in_grid nl nw nh i j k -> point_place L g i j k (a, b, c) -> double a /\ double b /\ double c) ->
  (forall i j k w ans o, in_grid nl nw nh i j k -> point_place L g i j k w -> answer r inp w ans o -> speed_upto M (prepared (gp_minVs g) ans)) ->
  (0 <= M)%R -> finite_double dv -> (0 <= value dv)%R -> finite_double dh -> (0 <= value dh)%R ->
  vg_tmp v <> vg_out v -> takes_new E -> in_order E -> accepts (et_store E) ->
  (forall d1, can_create E d1 (vg_tmp v) /\ can_create E d1 (vg_out v) /\ et_open E d1 (vg_tmp v) = true) ->
  can_read E (vg_tmp v) -> et_flush E (vg_tmp v) = true -> et_close E (vg_tmp v) = true -> et_close E (vg_out v) = true ->
  (forall d1, opens d1 (vg_out v) = true) -> stores G (fun l => l) ->
  exists d' recs before after, run EQ E F T L opens G v0 fs d = (d', Val tt) /\
    d' (vg_out v) = Some (mkDb recs (Some SCHEMA) (Some (graded_metadata (n_show F) (gp_gradient (vg_g v)) (et_now E) (et_host E))) 28) /\
    exactly_grid recs nl nw nh cell after /\ StronglySorted etree_lt (map fst recs) /\
    (forall i j k, in_grid nl nw nh i j k -> exists w ans o, point_place L g i j k w /\ holds (cell i j k) w /\
       answer r inp w ans o /\ before i j k = prepared (gp_minVs g) ans) /\
    below3 nl nw nh (fun i j k => value (p_vs (after i j k))) (fun i j k => value (p_vs (before i j k))) /\
    (exists b, largest_limited3 nl nw nh (value dv) (value dh) (fun i j k => value (p_vs (before i j k))) b /\
       forall i j k, in_grid nl nw nh i j k -> (Rabs (value (p_vs (after i j k)) - b i j k) <= tol)%R) /\
    limited3 nl nw nh (value dv + 2 * tol) (value dh + 2 * tol) (fun i j k => value (p_vs (after i j k))) /\
    ((forall i j k, in_grid nl nw nh i j k -> speed_ordinary (before i j k)) ->
     forall i j k, in_grid nl nw nh i j k -> ratios_kept (bpow radix2 (-19)) (before i j k) (after i j k)) /\
    (forall i j k, in_grid nl nw nh i j k -> speed_upto M (after i j k) /\ storable (after i j k) /\ p_dfs (after i j k) = p_dfs (before i j k) /\
       p_block (after i j k) = p_block (before i j k) /\ p_zone (after i j k) = p_zone (before i j k)) /\
    forall n, n <> vg_out v -> n <> vg_tmp v -> d' n = d n.
Proof.
  intros DB EQ E F T L opens G v0 v x y dq inp r fs d nl nw nh cell M RP PJ g dv dh tol HC HO HS HK HA HR N1 N2 N3 Pl Pw Ph GP HD SP
    HM Fv Hv Fh Hh Hne HT HIn HAc HCr (R1 & R2 & R3) K0 K1 K2 HOp HSt.
  set (v1 := set_g v g).
  destruct (C55_extract DB EQ E F L v1 dq inp r fs d nl nw nh cell HC HO HS HK HA HR N1 N2 N3 GP HD HT (proj1 (HCr d)) K0)
    as (d1 & recs & before & X1 & X2 & X3 & X4 & X5 & X6).
  rewrite <- described in X2. specialize (X4 HIn). change (vg_tmp v1) with (vg_tmp v) in *. change (vg_g v1) with g in *.
  change (description F v1) with (description F v) in X2.
  assert (NE : recs <> []).
  { intros ->. destruct X3 as [_ X3]. apply (proj2 (X3 (cell 0 0 0) (before 0 0 0))). exists 0, 0, 0. split; [unfold in_grid; lia | auto]. }
  assert (PW : exists d2, packDB E (vg_out v) (vg_tmp v) d1 = (d2, Val tt)).
  { match type of X2 with _ = Some ?f => apply (pack_works E (vg_out v) (vg_tmp v) d1 f) end; try assumption.
    - congruence.
    - split; [exact X2|]. split; [apply HCr|]. split; reflexivity.
    - apply HCr. }
  destruct PW as (d2 & PW).
  destruct (pack_returns E _ _ _ _ (not_eq_sym Hne) R3 PW) as (f & Q1 & Q2 & Q3). rewrite X2 in Q1. injection Q1 as <-. cbn [d_recs d_meta] in Q3.
  destruct (grid_records_ok _ _ _ _ _ _ _ _ GP X3) as [RO HG].
  destruct (C42_program (list (addr * payload)) G (fun l => l) L g (et_error E) nl nw nh cell recs before M N1 N2 N3 ltac:(lia) ltac:(lia) ltac:(lia) HM Fv Hv Fh Hh
    HSt RO GP HG) as (out & after & G1 & G2 & G3 & G4 & G5 & G6 & G7 & G7r & G8).
  { intros i j k I. destruct (X6 i j k I) as (w & ans & o & W1 & _ & W3 & ->). exact (SP i j k w ans o I W1 W3). }
  exists (put d2 (vg_out v) (Some (mkDb out (Some SCHEMA) (Some (createdMeta E (description F v))) 28))), out, before, after.
  split; [|split; [rewrite <- described; apply put_same|split; [|split; [|split; [exact X6|split; [exact G5|split; [exact G6|split; [exact G7|split; [exact G7r|split]]]]]]]]].
  - unfold run. unfold andThen at 1, lift at 1. rewrite RP. cbv beta iota. unfold andThen at 1, lift at 1. unfold initialize, project. rewrite PJ. cbn [bind].
    fold g. fold v1. unfold andThen at 1. rewrite X1. cbv beta iota. change (vg_out v1) with (vg_out v). change (vg_tmp v1) with (vg_tmp v). unfold andThen. rewrite PW. cbv beta iota.
    unfold gradeFile. rewrite Q3, (HOp d2), K2. cbn [d_recs]. change (vg_g v1) with g. rewrite G1. unfold write. rewrite Q3. reflexivity.
  - exact (graded_grid _ _ _ _ _ _ _ _ _ _ GP X3 G2 G3 G4).
  - rewrite (forall2_fst _ _ _ G4). exact X4.
  - intros i j k I. destruct (G8 i j k I) as (Y1 & Y2 & Y3 & Y4 & Y5). split; [exact Y1|]. split; [|auto].
    destruct (X6 i j k I) as (w & ans & o & _ & _ & W3 & W4).
    assert (SB : storable (before i j k)) by (rewrite W4; apply prepared_storable, (answer_storable _ _ _ _ _ HA W3)).
    split; [exact (Y2 (proj1 SB)) | rewrite Y4, Y5; exact (proj2 SB)].
  - intros n A B. rewrite put_other by exact A. pose proof (packDB_confined E (vg_out v) (vg_tmp v) d1) as C. rewrite PW in C. cbn [fst] in C.
    rewrite (C n A). exact (X5 n B).
Qed.
Print Assumptions C56_run.

(** ** Failing runs *)
(** Reading parameters leaves the names of the files alone. *)
Definition names (v : vsgrader) : string * string * string * string := (vg_in v, vg_out v, vg_tmp v, vg_params v).
Lemma setting_names F t s v s' v' : setting F t s v = Val (s', v') -> names v' = names v.
Proof.
  unfold setting, getFresh. intros H. destruct (dtoken t).
  - destruct (getNum _ _ _) as [s2 z]. injection H as _ <-. reflexivity.
  - destruct (casecmp t "cache-size").
    + destruct (getWord _) as [s2 [w|]]; [|discriminate]. destruct (n_int F w) as [n ok]. cbn [bind] in H. injection H as _ <-. destruct (0 <? n); reflexivity.
    + destruct (casecmp t "query-resolution").
      * destruct (getWord _) as [s2 [w|]]; [|discriminate]. destruct (n_f64 F w) as [n ok]. cbn [bind] in H. injection H as _ <-. destruct (fle f_zero n); reflexivity.
      * destruct (casecmp t "query-type"); [|discriminate]. destruct (getWord _) as [s2 w]. cbv zeta in H.
        repeat match type of H with (if ?b then _ else _) = _ => destruct b; [injection H as _ <-; reflexivity|] end. discriminate.
Qed.
Lemma settings_names F fuel : forall t s v s' v', settings F fuel t s v = Val (s', v') -> names v' = names v.
Proof.
  induction fuel as [|fuel IH]; intros t s v s' v' H; [discriminate|]. cbn [settings] in H.
  destruct (_ && _); [|injection H as _ <-; reflexivity].
  destruct (setting F t s v) as [[s1 v1]| | |] eqn:E; try discriminate. cbn [bind] in H. destruct (getWord s1) as [s2 w].
  rewrite (IH _ _ _ _ _ H). exact (setting_names _ _ _ _ _ _ E).
Qed.
Lemma readParams_names F T v v' : readParams F T v = Val v' -> names v' = names v.
Proof.
  unfold readParams. intros H. destruct (T _) as [text|]; [|discriminate]. destruct (getWord _) as [s name].
  destruct (casecmp _ _); [|discriminate]. destruct (getWord _) as [s1 t].
  match type of H with context [settings ?F ?n ?t ?s ?v] => destruct (settings F n t s v) as [[s2 v2]| | |] eqn:E end; try discriminate. cbn [bind] in H.
  destruct (negb (good s2)); [discriminate|]. destruct (complaints v2); [|discriminate]. injection H as <-.
  rewrite (settings_names _ _ _ _ _ _ _ E). reflexivity.
Qed.
Lemma confined_fold {X Y} n (f : Y -> X -> io Y) l : (forall y x, confined n (f y x)) -> forall y, confined n (foldIO f l y).
Proof. intros H. induction l as [|x l IH]; intros y; cbn [foldIO]; [apply confined_ret|]. apply confined_then; [apply H | exact IH]. Qed.
Lemma confined_unwinding {DB A} (EQ : env DB) q n (m : io A) : confined n m -> confined n (unwinding EQ q m).
Proof. intros H d. specialize (H d). unfold unwinding. destruct (m d) as [d' [a|s| |w]]; try exact H. destruct (destroy EQ q); exact H. Qed.
Lemma extract_confined {DB} (EQ : env DB) E F L v fs : confined (vg_tmp v) (extract EQ E F L v fs).
Proof.
  unfold extract. cbv zeta. apply confined_then; [apply confined_lift|]. intros q. apply confined_unwinding.
  apply confined_then; [apply openDB_confined|]. intros _. do 4 (apply confined_then; [apply confined_lift|]; intros ?).
  apply confined_then; [|intros st; unfold closeDB; confine].
  apply confined_fold. intros y i. apply confined_fold. intros y2 j. apply confined_then; [apply confined_lift|]. intros ll. apply confined_fold. intros [[q2 fs2] vals] k.
  unfold extractPoint. apply confined_then; [apply confined_lift|]. intros [[q3 fs3] vals3]. apply confined_then; [apply confined_lift|]. intros p.
  apply confined_then; [apply insert_confined|]. intros ?. apply confined_ret.
Qed.
Lemma gradeFile_confined E L opens G g n : confined n (gradeFile E L opens G g n).
Proof.
  intros d. unfold gradeFile. destruct (d n) as [f|] eqn:Q; [|apply others_refl]. destruct (opens d n); [|apply others_refl].
  destruct (grade _ _ _ _ _ _); try apply others_refl; [apply confined_write|]. apply confined_then; [apply confined_write | intros ?; apply confined_throw].
Qed.

(** C56, no other file changes: whatever the parameters, the input, the storage library and
    the outcome of the run. *)
Theorem C56_confined : forall DB (EQ : env DB) E F T L opens G v0 fs d n,
  n <> vg_out v0 -> n <> vg_tmp v0 -> fst (run EQ E F T L opens G v0 fs d) n = d n.
Proof.
  intros DB EQ E F T L opens G v0 fs d n A B. unfold run, andThen, lift.
  destruct (readParams F T v0) as [v| | |] eqn:RP; try reflexivity.
  pose proof (readParams_names _ _ _ _ RP) as Nm. unfold names in Nm. injection Nm as _ Eo Et _.
  unfold initialize. destruct (project L (gp_lon (vg_g v)) (gp_lat (vg_g v))) as [[x y]| | |]; try reflexivity. cbn [bind].
  set (v1 := set_g v _). assert (Eo1 : vg_out v1 = vg_out v0) by exact Eo. assert (Et1 : vg_tmp v1 = vg_tmp v0) by exact Et. clearbody v1.
  pose proof (extract_confined EQ E F L v1 fs d) as C1. rewrite Et1 in C1. specialize (C1 n B).
  destruct (extract EQ E F L v1 fs d) as [d1 [u|m| |w]]; cbn [fst] in *; try exact C1.
  pose proof (packDB_confined E (vg_out v1) (vg_tmp v1) d1) as C2. rewrite Eo1 in C2 at 1. specialize (C2 n A).
  destruct (packDB E (vg_out v1) (vg_tmp v1) d1) as [d2 [u2|m| |w]]; cbn [fst] in *; try congruence.
  pose proof (gradeFile_confined E L opens G (vg_g v1) (vg_out v1) d2) as C3. rewrite Eo1 in C3 at 1. specialize (C3 n A). congruence.
Qed.
Print Assumptions C56_confined.

(** C56, bad parameters or a corner that cannot be projected: an exception before any file
    is touched. *)
Theorem C56_no_start : forall DB (EQ : env DB) E F T L opens G v0 fs d,
  (forall m, readParams F T v0 = Throw m -> run EQ E F T L opens G v0 fs d = (d, Throw m)) /\
  (forall v, readParams F T v0 = Val v -> m_project L (gp_lon (vg_g v)) (gp_lat (vg_g v)) = None ->
     exists m, run EQ E F T L opens G v0 fs d = (d, Throw m)).
Proof.
  intros DB EQ E F T L opens G v0 fs d. split.
  - intros m H. unfold run, andThen, lift. rewrite H. reflexivity.
  - intros v H P. eexists. unfold run, andThen, lift. rewrite H. unfold initialize, project. rewrite P. reflexivity.
Qed.
Print Assumptions C56_no_start.

(** C56, the copy of the input fails: the output file is as before. *)
Theorem C56_no_copy : forall DB (EQ : env DB) E F T L opens G v0 v x y fs d d1 o,
  readParams F T v0 = Val v -> m_project L (gp_lon (vg_g v)) (gp_lat (vg_g v)) = Some (x, y) ->
  extract EQ E F L (set_g v (set_xy (vg_g v) x y)) fs d = (d1, o) -> (forall u, o <> Val u) ->
  vg_tmp v <> vg_out v ->
  exists d', run EQ E F T L opens G v0 fs d = (d', o) /\ d' (vg_out v) = d (vg_out v).
Proof.
  intros DB EQ E F T L opens G v0 v x y fs d d1 o RP PJ X NV NE. exists d1.
  pose proof (extract_confined EQ E F L (set_g v (set_xy (vg_g v) x y)) fs d) as C. rewrite X in C. split; [|apply C; exact (not_eq_sym NE)].
  unfold run, andThen, lift. rewrite RP. unfold initialize, project. rewrite PJ. cbn [bind]. rewrite X. destruct o; try reflexivity. destruct (NV a eq_refl).
Qed.
Print Assumptions C56_no_copy.

(** ** A run on a grid of 2 by 3 by 2 points *)
Definition grade_settings : list (string * string) :=
  [("vs-min", "100"); ("vs-gradient-max", "0.5"); ("swcorner-lon", "297208.4784"); ("swcorner-lat", "541996.2864"); ("swcorner-elev", "-200");
   ("domain-length", "1600"); ("domain-width", "3200"); ("domain-height", "400"); ("resolution-vert", "400")]%string.
Definition grade_text : string := ("VsGrader" ++ " " ++ "{" ++ typed grade_settings ++ "}" ++ String "010"%char "")%string.
Definition run_grid : gparams := Eval vm_compute in
  match readParams toy_fmt (sample_file grade_text) sample_run with Val v => vg_g v | _ => vg_g vg_new end.
Definition run_start : vsgrader := sample_run.
Definition run_read : vsgrader := mkVsg "in.etree" "out.etree" "tmp.etree" "grade.par" 128 f_zero MAXRES run_grid.
Definition run_placed : gparams := set_xy run_grid (gp_lon run_grid) (gp_lat run_grid).
(** Databases: with values at all points, and with one point missing and one slow point. *)
Definition full_input : contents := map (fun p => let '(l, w, h) := p in (toy_cell l w h, toy_values l w h)) points.
Definition source (db : contents) : env contents :=
  mkEnv (fun n _ => if String.eqb n "in.etree" then Some db else None) (fun _ => true) lsearch (fun _ => true)
    (fun _ => ""%string) (fun _ => ""%string) (fun _ => ""%string).
Definition run_on (db : contents) : disk * outcome unit :=
  run (source db) toy_etree toy_fmt (sample_file grade_text) toy2 (fun _ _ => true) lstore run_start no_logs no_files.

Lemma run_reads : readParams toy_fmt (sample_file grade_text) run_start = Val run_read.
Proof. vm_compute. reflexivity. Qed.
Lemma run_counts : count (gp_len run_placed) (resHoriz run_placed) = Val 2 /\ count (gp_width run_placed) (resHoriz run_placed) = Val 3 /\
  count (gp_ht run_placed) (gp_res run_placed) = Val 2.
Proof. vm_compute. auto. Qed.
Definition run_lonlat (l w : Z) : f64 * f64 := match indexToLonLat toy2 run_placed l w with Val ll => ll | _ => (f_zero, f_zero) end.
Lemma run_points : grid_points (indexToLonLat toy2 run_placed) (gridAddr toy2 run_placed) 2 3 2 toy_cell.
Proof.
  split; [|exact (proj2 toy_points)].
  intros l w Hl Hw. exists (run_lonlat l w).
  assert (Cl : l = 0 \/ l = 1) by lia. assert (Cw : w = 0 \/ w = 1 \/ w = 2) by lia.
  split; [destruct Cl as [->| ->], Cw as [->|[->| ->]]; vm_compute; reflexivity|].
  intros h Hh. assert (Ch : h = 0 \/ h = 1) by lia.
  destruct Cl as [->| ->], Cw as [->|[->| ->]], Ch as [->| ->]; vm_compute; reflexivity.
Qed.
Lemma run_places i j k x y z : in_grid 2 3 2 i j k -> point_place toy2 run_placed i j k (x, y, z) -> double x /\ double y /\ double z.
Proof.
  intros (A & B & C) (lon & lat & E & (u & v & P & -> & -> & ->)).
  assert (Ci : i = 0 \/ i = 1) by lia. assert (Cj : j = 0 \/ j = 1 \/ j = 2) by lia. assert (Ck : k = 0 \/ k = 1) by lia.
  assert (D : forall a b, double a -> double b -> m_project toy2 lon lat = Some (a, b) ->
    double (rot_p toy2 u v) /\ double (rot_q toy2 u v) /\ double (vert_r (indexToElev run_placed k))).
  { intros a b Da Db Q. rewrite P in Q. injection Q as <- <-.
    assert (V1 : double (m_cos toy2 azR)) by (vm_compute; reflexivity). assert (V2 : double (m_sin toy2 azR)) by (vm_compute; reflexivity).
    assert (V3 : double (projXNWRoot toy2)) by (vm_compute; reflexivity). assert (V4 : double (projYNWRoot toy2)) by (vm_compute; reflexivity).
    pose proof (mul_valid prec64 emax64 Hp64 Hm64) as HM. pose proof (sub_valid prec64 emax64 Hp64 Hm64) as HS. pose proof (add_valid prec64 emax64 Hp64 Hm64) as HA.
    pose proof (HS _ _ Da V3) as DX. pose proof (HS _ _ Db V4) as DY. unfold double in *.
    split; [exact (HS _ _ (HM _ _ DX V1) (HM _ _ DY V2))|]. split; [exact (HA _ _ (HM _ _ DX V2) (HM _ _ DY V1))|].
    destruct Ck as [->| ->]; vm_compute; reflexivity. }
  destruct Ci as [->| ->], Cj as [->|[->| ->]]; (match type of E with ?t = _ => let r := eval vm_compute in t in change (r = Val (lon, lat)) in E end;
    injection E as <- <-; eapply D; [| |vm_compute; reflexivity]; vm_compute; reflexivity).
Qed.
Lemma full_storable a p : In (a, p) full_input -> storable p.
Proof.
  intros I. apply in_map_iff in I. destruct I as ([[l w] h] & E & I). injection E as _ <-.
  unfold points in I. apply in_prod_iff in I. destruct I as [I Ih]. apply in_prod_iff in I. destruct I as [Il Iw].
  apply range_in in Il, Iw, Ih.
  assert (Ci : l = 0 \/ l = 1) by lia. assert (Cj : w = 0 \/ w = 1 \/ w = 2) by lia. assert (Ck : h = 0 \/ h = 1) by lia.
  destruct Ci as [->| ->], Cj as [->|[->| ->]], Ck as [->| ->]; split; try (cbn; lia); repeat constructor; vm_compute; reflexivity.
Qed.

(** Places and answers are determined. *)
Lemma place_unique L g i j k w w' : point_place L g i j k w -> point_place L g i j k w' -> w = w'.
Proof.
  destruct w as [[p q] s], w' as [[p' q'] s']. intros (lon & lat & E & x & y & P & -> & -> & ->) (lon' & lat' & E' & x' & y' & P' & -> & -> & ->).
  rewrite E in E'. injection E' as <- <-. rewrite P in P'. injection P' as <- <-. reflexivity.
Qed.

Definition copy_of (inp : contents) : contents :=
  match fst (extract (source inp) toy_etree toy_fmt toy2 (set_g run_read run_placed) no_logs no_files) "tmp.etree"%string with Some f => d_recs f | None => [] end.
Definition run_ready : vsgrader := set_g run_read run_placed.
Lemma ready_grid : vg_g run_ready = run_placed.
Proof. reflexivity. Qed.
Lemma ready_tmp : vg_tmp run_ready = "tmp.etree"%string.
Proof. reflexivity. Qed.
Lemma copy_facts inp : db_ok inp -> (forall a p, In (a, p) inp -> storable p) ->
  exists vals, exactly_grid (copy_of inp) 2 3 2 toy_cell vals /\
    forall i j k, in_grid 2 3 2 i j k -> exists w ans o, point_place toy2 run_placed i j k w /\ holds (toy_cell i j k) w /\
      answer Finest inp w ans o /\ vals i j k = prepared (gp_minVs run_placed) ans.
Proof.
  intros OK ST. pose proof run_counts as (C1 & C2 & C3). pose proof run_points as GP. pose proof run_places as PL.
  rewrite <- ready_grid in C1, C2, C3, GP, PL |- *.
  assert (Op : e_open (source inp) (vg_in run_ready) (vg_cache run_ready) = Some inp) by reflexivity.
  assert (CC : can_create toy_etree no_files (vg_tmp run_ready)) by (repeat split).
  destruct (C55_extract _ (source inp) toy_etree toy_fmt toy2 run_ready inp inp Finest no_logs no_files 2 3 2 toy_cell
    eq_refl Op (lsearch_ok inp) OK ST eq_refl C1 C2 C3 GP PL toy_takes_new CC eq_refl)
    as (d' & recs & vals & X1 & X2 & X3 & _ & _ & X6).
  exists vals. split; [|exact X6]. unfold copy_of. fold run_ready. rewrite X1. cbn [fst]. rewrite ready_tmp in X2. rewrite X2. exact X3.
Qed.
(** What the copy of [inp] holds at a point is what is prepared from its answer. *)
Lemma copied_value inp i j k w ans o : db_ok inp -> (forall a p, In (a, p) inp -> storable p) ->
  in_grid 2 3 2 i j k -> point_place toy2 run_placed i j k w -> answer Finest inp w ans o ->
  In (toy_cell i j k, prepared (gp_minVs run_placed) ans) (copy_of inp).
Proof.
  intros OK ST G PP A. destruct (copy_facts inp OK ST) as (vals & X3 & X6).
  destruct (X6 i j k G) as (w' & ans' & o' & W1 & W2 & W3 & W4). rewrite (place_unique _ _ _ _ _ _ _ W1 PP) in *.
  destruct (answer_unique _ _ _ _ _ _ _ OK A W3) as [-> _]. rewrite <- W4. apply (proj2 (proj2 X3 (toy_cell i j k) (vals i j k))). exists i, j, k. auto.
Qed.

Lemma full_ok : db_ok full_input.
Proof. apply db_okb_ok. vm_compute. reflexivity. Qed.
Definition full_copy : contents := Eval vm_compute in copy_of full_input.
Lemma full_copied : copy_of full_input = full_copy.
Proof. vm_compute. reflexivity. Qed.

(** All hypotheses of C56_run hold for the complete input, with M = 4096, and the run gives
    what C42_nontrivial shows. *)
Example C56_example :
  readParams toy_fmt (sample_file grade_text) run_start = Val run_read /\
  m_project toy2 (gp_lon run_grid) (gp_lat run_grid) = Some (gp_lon run_grid, gp_lat run_grid) /\
  (0 < vg_cache run_read /\ e_open (source full_input) (vg_in run_read) (vg_cache run_read) = Some full_input /\ searches (e_search (source full_input) full_input) full_input /\
   db_ok full_input /\ (forall a p, In (a, p) full_input -> storable p) /\ asked toy2 run_read Finest) /\
  (count (gp_len run_placed) (resHoriz run_placed) = Val 2 /\ count (gp_width run_placed) (resHoriz run_placed) = Val 3 /\ count (gp_ht run_placed) (gp_res run_placed) = Val 2 /\
   grid_points (indexToLonLat toy2 run_placed) (gridAddr toy2 run_placed) 2 3 2 toy_cell) /\
  (forall i j k a b c, in_grid 2 3 2 i j k -> point_place toy2 run_placed i j k (a, b, c) -> double a /\ double b /\ double c) /\
  (forall i j k w ans o, in_grid 2 3 2 i j k -> point_place toy2 run_placed i j k w -> answer Finest full_input w ans o ->
     speed_upto 4096 (prepared (gp_minVs run_placed) ans)) /\
  (let dv := mul64 (gp_gradient run_placed) (gp_res run_placed) in let dh := mul64 (gp_gradient run_placed) (resHoriz run_placed) in
   finite_double dv /\ (0 <= value dv)%R /\ finite_double dh /\ (0 <= value dh)%R) /\
  (vg_tmp run_read <> vg_out run_read /\ takes_new toy_etree /\ in_order toy_etree /\ accepts (et_store toy_etree) /\
   (forall d1, can_create toy_etree d1 (vg_tmp run_read) /\ can_create toy_etree d1 (vg_out run_read) /\ et_open toy_etree d1 (vg_tmp run_read) = true) /\
   can_read toy_etree (vg_tmp run_read) /\ et_flush toy_etree (vg_tmp run_read) = true /\ et_close toy_etree (vg_tmp run_read) = true /\ et_close toy_etree (vg_out run_read) = true /\ stores lstore (fun l => l)) /\
  let (d', o) := run_on full_input in
  o = Val tt /\ match d' "out.etree"%string with
    | Some f => List.length (d_recs f) = 12%nat /\
        map (fun w => option_map (fun r => p_vs (snd r)) (lsearch (d_recs f) (toy_cell 0 w 0))) [0; 1; 2] = map Some (map i2f32 [500; 1300; 940])
    | None => False
    end.
Proof.
  split; [exact run_reads|]. split; [vm_compute; reflexivity|].
  split; [split; [reflexivity|]; split; [reflexivity|]; split; [exact (lsearch_ok full_input)|]; split; [apply db_okb_ok; vm_compute; reflexivity|]; split; [exact full_storable | reflexivity]|].
  split; [split; [apply run_counts|]; split; [apply run_counts|]; split; [apply run_counts | exact run_points]|].
  split; [exact run_places|]. split; [|split; [|split]].
  - intros i j k w ans o G PP A.
    pose proof (copied_value full_input i j k w ans o full_ok full_storable G PP A) as I. rewrite full_copied in I. revert I. clear. intros I.
    unfold full_copy in I.
    set (p := prepared _ _) in *. clearbody p.
    repeat (destruct I as [I|I]; [apply (f_equal snd) in I; cbn [snd] in I; subst p; split; [split; vm_compute; reflexivity|]; cbn [p_vs]; unfold value, SF2R, F2R; cbn; lra|]). destruct I.
  - cbv zeta. split; [split; vm_compute; reflexivity|]. split; [|split; [split; vm_compute; reflexivity|]];
    match goal with |- (0 <= value ?x)%R => let r := eval vm_compute in x in change (0 <= value r)%R end; unfold value, SF2R, F2R; cbn; lra.
  - split; [discriminate|]. split; [exact toy_takes_new|]. split; [exact toy_in_order|]. split; [exact simple_accepts|].
    split; [intros d1; repeat split|]. split; [repeat split|]. do 3 (split; [reflexivity|]). exact lstore_ok.
  - vm_compute. auto.
Qed.

(** C56, voids: a point without data does not stay one.  The input has no octant at the
    point (1,2,1).  The output has a record there whose speeds, density and quality factors
    are all 1540, the limit set by the neighbours. *)
Lemma gap_storable a p : In (a, p) toy_input -> storable p.
Proof. exact (proj1 (proj2 (proj2 (proj2 (proj2 (proj1 C55_example))))) a p). Qed.
Lemma gap_ok : db_ok toy_input.
Proof. apply db_okb_ok. vm_compute. reflexivity. Qed.
Theorem C56_voids_kept_refuted : exists inp d' f w p,
  db_ok inp /\ (forall a q, In (a, q) inp -> storable q) /\
  run_on inp = (d', Val tt) /\ d' (vg_out run_read) = Some f /\
  point_place toy2 run_placed 1 2 1 w /\ nothing inp 31 w /\ answer Finest inp w no_data None /\
  In (toy_cell 1 2 1, p) (d_recs f) /\
  p = (let x := i2f32 1540 in mkPayload x x x x x (i2f32 10000000000) 999 999).
Proof.
  destruct (copy_facts toy_input gap_ok gap_storable) as (vals & _ & X6).
  destruct (X6 1 2 1) as (w & ans & o & W1 & W2 & _ & _); [unfold in_grid; lia|].
  assert (NO : nothing toy_input 31 w).
  { intros h v I H. exfalso.
    assert (K : forall x, In x toy_input -> a_level (fst x) = 10 /\ coversb (fst x) (toy_cell 1 2 1) = false).
    { assert (B : forallb (fun x => (a_level (fst x) =? 10) && negb (coversb (fst x) (toy_cell 1 2 1))) toy_input = true) by (vm_compute; reflexivity).
      rewrite forallb_forall in B. intros x Hx. specialize (B x Hx). apply andb_true_iff in B. rewrite Z.eqb_eq, negb_true_iff in B. exact B. }
    destruct (K (h, v) I) as [K1 K2]. cbn [fst] in K1, K2.
    assert (C : covers h (toy_cell 1 2 1)).
    { apply (cover_holds h (toy_cell 1 2 1) w); [exact (proj1 gap_ok h v I) | | rewrite K1; cbn; lia | exact H | exact W2].
      apply toy_points. unfold in_grid. lia. }
    apply coversb_iff in C. congruence. }
  assert (R : match snd (run_on toy_input), fst (run_on toy_input) (vg_out run_read) with
    | Val tt, Some f => lsearch (d_recs f) (toy_cell 1 2 1) =
       Some (toy_cell 1 2 1, let x := i2f32 1540 in mkPayload x x x x x (i2f32 10000000000) 999 999)
    | _, _ => False end) by (vm_compute; reflexivity).
  destruct (run_on toy_input) as [d' o'] eqn:RE. cbn [fst snd] in R. destruct o' as [[]| | |]; try contradiction.
  destruct (d' (vg_out run_read)) as [f|] eqn:DE; [|contradiction].
  exists toy_input, d', f, w, (let x := i2f32 1540 in mkPayload x x x x x (i2f32 10000000000) 999 999).
  split; [exact gap_ok|]. split; [exact gap_storable|]. split; [exact RE|]. split; [exact DE|]. split; [exact W1|]. split; [exact NO|].
  split; [split; [right; split; [exact NO | reflexivity] | reflexivity]|]. split; [|reflexivity].
  pose proof (lsearch_ok (d_recs f) (toy_cell 1 2 1)) as LO. rewrite R in LO. exact (proj1 LO).
Qed.
Print Assumptions C56_voids_kept_refuted.

(** Runs that stop early: an unreadable parameter file, a corner far away, a missing input. *)
Example C56_failing_examples :
  (exists m, readParams toy_fmt (fun _ => None) run_start = Throw m) /\
  (let far := sample_file (sample_text "1" ("}" ++ String "010"%char ""))%string in
   exists v, readParams toy_fmt far run_start = Val v /\
     m_project (mkLibm (m_cos toy2) (m_sin toy2) (m_log toy2) (fun _ _ => None) (m_invproject toy2)) (gp_lon (vg_g v)) (gp_lat (vg_g v)) = None) /\
  (exists d1, extract toy_source toy_etree toy_fmt toy2 (set_g run_read run_placed) no_logs no_files = (d1, Abort)).
Proof.
  split; [|split].
  - eexists. reflexivity.
  - eexists. split; [vm_compute; reflexivity | reflexivity].
  - assert (H : snd (extract toy_source toy_etree toy_fmt toy2 (set_g run_read run_placed) no_logs no_files) = Abort) by (vm_compute; reflexivity).
    destruct (extract _ _ _ _ _ _ _) as [d1 o]. cbn [snd] in H. subst o. exists d1. reflexivity.
Qed.
