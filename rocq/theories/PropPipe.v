(** C59: from text files to answers.  Grid files are made into a database by cencalvmgen,
    that is averaged by cencalvmavg, the result is opened and queried. *)
From Coq Require Import ZArith Bool Lia String Ascii Sorting.Sorted Sorting.Permutation List.
From Verif Require Import Outcome Float Payload Addr SpecOct AvgEngine SpecAvg SpecGeom Geom GeomProof ErrorHandler VMQuery Store Averager VMCreator SpecStore StoreFacts
  Stream GetOpt QueryApp SpecHist SpecApp SpecText SpecGrid SpecQuery QueryFacts QueryProof QueryMain SpecE2E E2EFacts
  SmallApps SpecSmall SmallFacts SpecPipe PropAvg PropStore PropSmall PropE2E PropQuery.
From Verif Require GridIngester PropGrid PropVsRun.
Import GridIngester(l_lon, l_lat, l_elev, l_pay).
Import ListNotations.
Open Scope Z_scope.

Lemma toAddr_type L a lon lat elev cd b : lonLatElevToAddr L a lon lat elev = Val (cd, b) -> a_type b = a_type a.
Proof.
  unfold lonLatElevToAddr. destruct (assert_ _); try discriminate. cbn [bind]. destruct (project L lon lat) as [[x y]| | |]; try discriminate.
  cbn [bind]. unfold pqr_to_addr. destruct (_ || _ || _); [intros H; injection H as <- <-; reflexivity|].
  cbv zeta. repeat (destruct (f2tick _); cbn [bind]; try discriminate). intros H. injection H as <- <-. reflexivity.
Qed.
Lemma recs_points L grids recss : grids_recs L grids recss -> forall r, In r (concat recss) ->
  exists lev pts l, In (lev, pts) grids /\ In l pts /\ has_data l = true /\ point_rec L lev l r.
Proof.
  induction 1 as [|[lev pts] recs grids recss H _ IH]; intros r I; [contradiction|]. cbn [concat] in I. apply in_app_iff in I. destruct I as [I|I].
  - clear IH. cbn [fst snd] in H. unfold grid_recs in H.
    assert (X : exists l, In l (filter has_data pts) /\ point_rec L lev l r).
    { revert I. induction H as [|l r0 ls rs P _ IH]; intros I; [contradiction|]. destruct I as [<-|I]; [exists l; split; [left; reflexivity | exact P]|].
      destruct (IH I) as (l' & A & B). exists l'. split; [right; exact A | exact B]. }
    destruct X as (l & A & B). apply filter_In in A. exists lev, pts, l. split; [left; reflexivity|]. tauto.
  - destruct (IH r I) as (lev' & pts' & l & A & B). exists lev', pts', l. split; [right; exact A | exact B].
Qed.
Lemma points_recs L grids recss : grids_recs L grids recss -> forall lev pts l, In (lev, pts) grids -> In l pts -> has_data l = true ->
  exists r, In r (concat recss) /\ point_rec L lev l r.
Proof.
  induction 1 as [|[lev0 pts0] recs grids recss H _ IH]; intros lev pts l I J D; [contradiction|]. destruct I as [Q|I].
  - injection Q as -> ->. cbn [fst snd] in H. unfold grid_recs in H. assert (K : In l (filter has_data pts)) by (apply filter_In; auto).
    cbn [concat]. revert K. clear -H. induction H as [|l0 r0 ls rs P _ IH]; intros K; [contradiction|]. destruct K as [<-|K].
    + exists r0. split; [left; reflexivity | exact P].
    + destruct (IH K) as (r & A & B). exists r. split; [right; exact A | exact B].
  - destruct (IH _ _ _ I J D) as (r & A & B). exists r. split; [cbn [concat]; apply in_app_iff; right; exact A | exact B].
Qed.
Lemma pairs_in {A} (R : A -> A -> Prop) l : (forall x y, R x y -> R y x) -> ForallOrdPairs R l -> forall x y, In x l -> In y l -> x = y \/ R x y.
Proof.
  intros S. induction 1 as [|z l F _ IH]; intros x y I J; [contradiction|]. rewrite Forall_forall in F. destruct I as [<-|I], J as [<-|J]; auto.
Qed.
Lemma good_different recs : good_model recs -> all_different recs.
Proof.
  intros (_ & _ & P). unfold all_different. induction P as [|x l F _ IH]; constructor; [|exact IH].
  eapply Forall_impl; [|exact F]. cbv beta. intros y [N _] S. apply N, same_octant_covers, S.
Qed.
Lemma good_wf recs out : good_model recs -> Permutation out recs -> StronglySorted etree_lt (map fst out) -> wf_input out.
Proof.
  intros (N & O & P) Q S. constructor.
  - intros ->. apply N. apply Permutation_nil in Q. exact Q.
  - intros a I. apply in_map_iff in I. destruct I as ([b v] & <- & I). apply (Permutation_in _ Q) in I. destruct (O _ _ I) as (A & B & _). auto.
  - exact S.
  - intros a b I J [L C]. apply in_map_iff in I, J. destruct I as (x & <- & I), J as (y & <- & J).
    apply (Permutation_in _ Q) in I. apply (Permutation_in _ Q) in J.
    destruct (pairs_in _ _ (fun x y H => conj (proj2 H) (proj1 H)) P x y I J) as [->|[X _]]; [lia | exact (X C)].
Qed.

(** C59.  The two programs exit with code 0; the database [fo] has the standard layout, and
    is the average of the records of the points with data: all of C44 applies to it. *)
Theorem C59_built : forall E F T L files gargs gk aargs ak fp ft fm fo d grids recss,
  storage_works E -> model_files F L files fp grids recss -> good_model (concat recss) ->
  command gen_letters gargs gk -> named "i" gk fp -> named "t" gk ft -> named "o" gk fm -> ft <> fm ->
  command avg_letters aargs ak -> named "i" ak fm -> named "o" ak fo -> fm <> fo ->
  exists d1 d2 inp g, genMain E F T L files gargs d = (d1, Val (0, [])) /\
    avgMain E aargs d1 = (d2, Val (0, [])) /\
    Permutation inp (concat recss) /\ averaged_into E d1 d2 inp (d_recs g) /\
    usable E d2 fo g /\
    (forall n, n <> ft -> n <> fm -> n <> fo -> d2 n = d n).
Proof.
  intros E F T L files gargs gk aargs ak fp ft fm fo d grids recss (S1 & S2 & S3 & S4 & S5 & S6 & S7 & S8)
    (text & tail & listed & M1 & M2 & M3 & M4 & M5) GM K N1 N2 N3 Hn K' N4 N5 Hn'.
  set (g := GridIngester.mkIngester fp fm ft authors true).
  destruct (PropGrid.C36_database_built E F files L g d text tail listed grids recss) as (d1 & out & R & D1 & PM & SR & C1); try assumption.
  { reflexivity. } { apply N1. } { apply N2. } { apply N3. }
  { intros d0. split; [apply S4|]. split; [apply S4 | apply S5]. }
  { apply S6. } { apply S8. } { apply S7. } { apply S7. } { apply good_different, GM. }
  { intros [a v] I. exact (proj1 (proj1 (proj2 GM) a v I)). } { apply GM. }
  assert (RG : genMain E F T L files gargs d = (d1, Val (0, []))).
  { pose proof (proj1 (C57_gen E F T L files gargs d) gk fp fm ft K N1 N3 N2) as X. unfold ingest in X. fold g in X. rewrite R in X. cbn [fst snd] in X.
    destruct X as [X1 X2]. destruct (genMain E F T L files gargs d) as [d1' o]. cbn [fst snd] in *. subst d1'. inversion X2; subst. reflexivity. }
  change (GridIngester.gi_out g) with fm in D1, C1. change (GridIngester.gi_tmp g) with ft in C1.
  set (f := mkDb out (Some SCHEMA) (Some _) 28) in D1.
  assert (U : usable E d1 fm f) by (split; [exact D1|]; split; [apply S5|]; split; reflexivity).
  assert (W : wf_input (d_recs f)) by exact (good_wf _ _ GM PM SR).
  destruct (C17_averages_file E fm fo d1 f Hn' U (S4 _ _) (S6 _) (S8 _) S3 W) as (d2 & st & avg & FO & RA & ST & D2 & C2).
  assert (RG2 : avgMain E aargs d1 = (d2, Val (0, []))).
  { pose proof (proj1 (C57_avg E aargs d1) ak fm fo K' N4 N5) as [X1 X2]. rewrite RA in X1, X2. destruct (avgMain E aargs d1) as [d2' o].
    cbn [fst snd] in *. subst d2'. inversion X2; subst. reflexivity. }
  eexists d1, d2, out, _. split; [exact RG|]. split; [exact RG2|]. split; [exact PM|]. split; [|split].
  - exists fm, fo, f. eexists. exists (e_cnt st). split; [exact Hn'|]. split; [exact U|]. split; [apply S4|]. split; [apply S6|]. split; [apply S8|]. split; [exact S3|]. split; [reflexivity|].
    split; [exact W|]. split; [|split; [exact RA|]; split; [exact D2 | reflexivity]].
    intros a p I. apply (Permutation_in _ PM) in I. split; [|exact (proj2 (proj2 (proj1 (proj2 GM) a p I)))].
    destruct (recs_points _ _ _ M5 _ I) as (lev & pts & l & _ & _ & _ & (cd & Q) & _). apply toAddr_type in Q. exact Q.
  - split; [exact D2|]. split; [apply S5|]. split; reflexivity.
  - intros n A B C. rewrite (C2 n C). apply C1; assumption.
Qed.
Print Assumptions C59_built.

(** Queries at highest resolution: a location has the values of the grid point in whose
    octant it lies, and no data if there is none. *)
Theorem C59_answers : forall E d1 d2 inp recs recss DB (EQ : env DB) q fs lon lat elev w names olds,
  averaged_into E d1 d2 inp recs -> Permutation inp (concat recss) -> serves EQ q recs -> q_type q = MAXRES ->
  plain q lon lat elev w names olds -> place_inside w -> Forall material names ->
  exists ans q' fs', query EQ q fs (Some olds) lon lat elev = Val (q', fs', values ans f_zero names) /\
    ((exists a, In (a, ans) (concat recss) /\ holds a w) \/
     (ans = no_data /\ forall a v, In (a, v) (concat recss) -> ~ holds a w)).
Proof.
  intros E d1 d2 inp recs recss DB EQ q fs lon lat elev w names olds A PM S TY P I M.
  destruct (C44_maxres E d1 d2 inp recs DB EQ q fs lon lat elev w names olds A S TY P I M) as (ans & FI & q' & fs' & Q).
  exists ans, q', fs'. split; [exact Q|]. destruct FI as [(a & IA & H)|[-> H]].
  - left. exists a. split; [exact (Permutation_in _ PM IA) | exact H].
  - right. split; [reflexivity|]. intros a v IA. apply (H a v), (Permutation_in _ (Permutation_sym PM)), IA.
Qed.
Print Assumptions C59_answers.

(** Each point of the grid files with data, asked for where it is, has its own values, in SI
    units. *)
Theorem C59_grid_points : forall E F L files fp d1 d2 inp recs grids recss lev pts l DB (EQ : env DB) q fs w names olds,
  averaged_into E d1 d2 inp recs -> model_files F L files fp grids recss -> Permutation inp (concat recss) ->
  In (lev, pts) grids -> In l pts -> has_data l = true ->
  serves EQ q recs -> q_type q = MAXRES -> q_geom q = L ->
  plain q (l_lon l) (l_lat l) (si64 (l_elev l)) w names olds -> place_inside w -> Forall material names ->
  exists q' fs', query EQ q fs (Some olds) (l_lon l) (l_lat l) (si64 (l_elev l)) =
    Val (q', fs', values (si_values (l_pay l)) f_zero names).
Proof.
  intros E F L files fp d1 d2 inp recs grids recss lev pts l DB EQ q fs w names olds A MF PM IG IP D S TY HG P I M.
  destruct MF as (text & tail & listed & M1 & M2 & M3 & M4 & M5).
  assert (LV : 0 <= lev <= 31).
  { clear -M4 IG. induction M4 as [|n [lev0 pts0] ns gs H _ IH]; [contradiction|]. destruct IG as [Q|IG]; [|exact (IH IG)].
    injection Q as -> ->. destruct H as (t & _ & (a & b & c & d & e & f & _ & _ & _ & _ & G)). destruct G as (_ & G & _). cbn [fst] in G. lia. }
  destruct (points_recs _ _ _ M5 _ _ _ IG IP D) as ([a v] & IR & (cd & Q) & V). cbn [fst snd] in Q, V. subst v.
  destruct (averaged_run _ _ _ _ _ A) as (_ & W & _).
  destruct w as [[p r] s]. destruct I as (I1 & I2 & I3). pose proof P as (_ & C & _). unfold at_place in C. rewrite HG in C.
  destruct (geom_contains L (mkAddr 0 0 0 0 lev Leaf) (l_lon l) (l_lat l) (si64 (l_elev l)) p r s LV C I1 I2 I3) as (b & Qb & _ & _ & _ & H1 & H2 & H3).
  rewrite Qb in Q. injection Q as <- <-.
  assert (H : holds b (p, r, s)) by (split; [exact H1|]; split; [exact H2 | exact H3]).
  destruct (C44_maxres E d1 d2 inp recs DB EQ q fs _ _ _ (p, r, s) names olds A S TY P (conj I1 (conj I2 I3)) M) as (ans & FI & q' & fs' & QQ).
  exists q', fs'. rewrite QQ. do 2 f_equal. apply (Permutation_in _ (Permutation_sym PM)) in IR.
  assert (X : ans = si_values (l_pay l)); [|rewrite X; reflexivity]. destruct FI as [(a & IA & H')|[_ N]].
  - apply (input_unique inp W a ans b _ IA IR). exact (input_holding inp W a ans b _ (p, r, s) IA IR H' H).
  - destruct (N _ _ IR H).
Qed.
Print Assumptions C59_grid_points.

(** ** Example: the grid of ToyGrid.v *)
From Verif Require Import ToyLib ToyDb ToyGrid PropApp AvgFinal.
Definition gen_args : list string := ["-i"; "list.txt"; "-t"; "tmp.etree"; "-o"; "raw.etree"]%string.
Definition avg_args : list string := ["-i"; "raw.etree"; "-o"; "model.etree"]%string.
Definition gen_named : list (ascii * string) := [("i"%char, "list.txt"); ("t"%char, "tmp.etree"); ("o"%char, "raw.etree")]%string.
Definition avg_named : list (ascii * string) := [("i"%char, "raw.etree"); ("o"%char, "model.etree")]%string.
Lemma toy_storage : storage_works toy_etree.
Proof.
  split; [exact toy_takes_new|]. split; [exact toy_in_order|]. split; [exact simple_accepts|].
  split; [intros d n; repeat split|]. split; [reflexivity|]. split; [intros n; repeat split | split; reflexivity].
Qed.
Lemma toy_files : model_files toy_fmt toy PropGrid.toy_texts "list.txt" [(5, toy_pts)] [toy_recs].
Proof.
  exists "grid.txt "%string, ""%string, ["grid.txt"%string]. split; [reflexivity|]. split; [apply (lay_laid ["grid.txt"%string]); reflexivity|].
  split; [left; reflexivity|]. split; [|constructor; [exact toy_grid_recs | constructor]].
  constructor; [exists toy_text; split; [reflexivity | exact toy_grid_file] | constructor].
Qed.
Lemma toy_good : good_model (concat [toy_recs]).
Proof.
  change (concat [toy_recs]) with (toy_recs ++ [])%list. rewrite app_nil_r. split; [discriminate|]. split.
  - assert (X : forallb (fun x => (1 <=? a_level (fst x)) && proper_valuesb (snd x)) toy_recs = true) by (vm_compute; reflexivity).
    intros a v I. split; [exact (toy_recs_ok _ I)|]. rewrite forallb_forall in X. specialize (X _ I). cbn [fst snd] in X.
    apply andb_true_iff in X. destruct X as [X1 X2]. split; [apply Z.leb_le, X1 | apply proper_valuesb_ok, X2].
  - apply FOP_cons; [|apply FOP_cons; [constructor | apply FOP_nil]]. constructor; [|constructor].
    split; intros C; apply ToyDb.coversb_iff in C; vm_compute in C; discriminate.
Qed.
Lemma gen_command : command gen_letters gen_args gen_named.
Proof. apply (C57_separate_words gen_letters gen_named). repeat constructor; cbn; tauto. Qed.
Lemma avg_command : command avg_letters avg_args avg_named.
Proof. apply (C57_separate_words avg_letters avg_named). repeat constructor; cbn; tauto. Qed.
(** The hypotheses of C59_built hold; *)
Example C59_example : exists d1 d2 inp g,
  genMain toy_etree toy_fmt app_texts toy PropGrid.toy_texts gen_args (fun _ => None) = (d1, Val (0, [])) /\
  avgMain toy_etree avg_args d1 = (d2, Val (0, [])) /\ Permutation inp (concat [toy_recs]) /\ averaged_into toy_etree d1 d2 inp (d_recs g) /\
  usable toy_etree d2 "model.etree" g.
Proof.
  destruct (C59_built toy_etree toy_fmt app_texts toy PropGrid.toy_texts gen_args gen_named avg_args avg_named
    "list.txt" "tmp.etree" "raw.etree" "model.etree" (fun _ => None) [(5, toy_pts)] [toy_recs]) as (d1 & d2 & inp & g & X1 & X2 & X3 & X4 & X5 & _).
  - exact toy_storage.
  - exact toy_files.
  - exact toy_good.
  - exact gen_command.
  - split; [reflexivity | discriminate].
  - split; [reflexivity | discriminate].
  - split; [reflexivity | discriminate].
  - discriminate.
  - exact avg_command.
  - split; [reflexivity | discriminate].
  - split; [reflexivity | discriminate].
  - discriminate.
  - exists d1, d2, inp, g. auto.
Qed.
(** the third line of the grid file, 3.5 km/s and 2.1 km/s in fault block 7, comes back as
    Vs 2100 m/s, Vp 3500 m/s and 7; *)
Definition toy_model : list (addr * payload) :=
  match fst (avgMain toy_etree avg_args (fst (genMain toy_etree toy_fmt app_texts toy PropGrid.toy_texts gen_args (fun _ => None)))) "model.etree"%string with
  | Some g => d_recs g | None => [] end.
Definition third : GridIngester.gridline := nth 2 toy_pts (parse_line []).
Example C59_example_values :
  outcome_values (query toy_env (toy_q MAXRES f_zero toy_model None false all_names) no_files (Some four) (l_lon third) (l_lat third) (si64 (l_elev third))) =
    Val (map widen [narrow (dec64 2100 0); i2f32 3500; i2f32 7; narrow (dec64 2100 0)]) /\
  List.length toy_model = 9%nat.
Proof. split; vm_compute; reflexivity. Qed.
(** and C59_grid_points applies to it. *)
Example C59_example_point : exists q' fs',
  query toy_env (toy_q MAXRES f_zero toy_model None false all_names) no_files (Some four) (l_lon third) (l_lat third) (si64 (l_elev third)) =
  Val (q', fs', values (si_values (l_pay third)) f_zero all_names).
Proof.
  destruct C59_example as (d1 & d2 & inp & g & X1 & X2 & X3 & X4 & X5).
  assert (G : d_recs g = toy_model).
  { unfold toy_model. rewrite X1. cbn [fst]. rewrite X2. cbn [fst]. rewrite (proj1 X5). reflexivity. }
  rewrite G in X4.
  assert (C : exists p q r, coords toy (l_lon third) (l_lat third) (si64 (l_elev third)) p q r /\ place_inside (p, q, r)).
  { destruct (ExtractFacts.address_place toy (mkAddr 0 0 0 0 5 Leaf) (l_lon third) (l_lat third) (si64 (l_elev third)) 0 (addr_at third)) as (p & q & r & A & B & _).
    - cbn. lia.
    - vm_compute. reflexivity.
    - apply ToyGrid.octant_okb_ok. vm_compute. reflexivity.
    - intros p q r (x & y & E & -> & -> & ->). assert (K : m_project toy (l_lon third) (l_lat third) = Some (l_lon third, l_lat third)) by (vm_compute; reflexivity).
      rewrite K in E. injection E as <- <-. split; [|split]; vm_compute; reflexivity.
    - exists p, q, r. auto. }
  destruct C as (p & q & r & C & I).
  apply (C59_grid_points toy_etree toy_fmt toy PropGrid.toy_texts "list.txt" d1 d2 inp toy_model [(5, toy_pts)] [toy_recs] 5 toy_pts third contents toy_env _ _ (p, q, r)).
  - exact X4.
  - exact toy_files.
  - exact X3.
  - left. reflexivity.
  - right; right; left. reflexivity.
  - vm_compute. reflexivity.
  - split; [reflexivity|]. exists toy_model. split; [reflexivity | apply lsearch_ok].
  - reflexivity.
  - reflexivity.
  - split; [left; reflexivity|]. split; [exact C|]. split; [|reflexivity]. apply (toy_plain4 MAXRES f_zero toy_model None f_zero).
  - exact I.
  - exact names_material.
Qed.
