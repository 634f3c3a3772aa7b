(** C76: cencalvmavg refuses databases in which octants overlap, and so its own output. *)
From Coq Require Import ZArith Bool Lia String Ascii Sorting.Sorted Sorting.Permutation List.
From Verif Require Import Outcome Float Payload Addr SpecOct AvgEngine SpecAvg Geom Store Averager VMCreator SpecStore StoreFacts
  Stream GetOpt QueryApp SpecApp SpecText SpecGrid SmallApps SpecSmall SmallFacts SpecPipe PropAvg PropStore PropSmall.
From Verif Require GridIngester PropGrid.
Import GridIngester(l_lon, l_lat, l_elev, l_pay).
Import ListNotations.
Open Scope Z_scope.

(** Two octants of which one, not the root, contains the other. *)
Definition overlap (recs : list (addr * payload)) : Prop :=
  exists a b, In a (map fst recs) /\ In b (map fst recs) /\ 1 <= a_level a /\ ancestor_of a b.

Lemma average_refused E fin fout d f m : fin <> fout -> usable E d fin f -> can_create E d fout -> can_read E fin ->
  fillOctants (et_store E) (d_recs f) = Throw m ->
  exists d', average E fin fout d = (d', Throw m) /\ others_untouched fout d d'.
Proof.
  intros Hn (U1 & U2 & U3 & U4) (C1 & C2 & C3) (R1 & R2 & R3) Hs.
  rewrite <- (fillFrom_good (et_store E) (reading_of E fin) (d_recs f) R1 R2 R3) in Hs.
  pose proof (average_confined E fin fout d) as G.
  assert (X : exists d', average E fin fout d = (d', Throw m)).
  { clear G. apply String.eqb_neq in Hn. unfold average, andThen, openRead. fold (reading_of E fin).
    rewrite U1, U2, U3, U4. change (28 =? PAYLOADSIZE) with true. cbn [negb]. rewrite String.eqb_refl. cbn [negb].
    unfold openNew. rewrite C1. cbv beta iota. unfold registerSchema. rewrite C2. unfold write at 1. cbv beta iota. rewrite put_same. cbn [option_map].
    destruct (d_meta f) as [mm|]; cbv beta iota.
    - unfold setAppMeta. rewrite C3. unfold write at 1. cbv beta iota zeta. rewrite Hn, Hs. unfold write, throw. cbv beta iota. rewrite !put_same. eexists. reflexivity.
    - unfold ret at 1. cbv beta iota zeta. rewrite Hn, Hs. unfold write, throw. cbv beta iota. rewrite !put_same. eexists. reflexivity. }
  destruct X as [d' X]. exists d'. split; [exact X|]. rewrite X in G. exact G.
Qed.
Lemma program_refuses E args kvs fin fout d d' m : command avg_letters args kvs -> named "i" kvs fin -> named "o" kvs fout ->
  average E fin fout d = (d', Throw m) -> avgMain E args d = (d', Val (1, [Said m])).
Proof.
  intros K N1 N2 A. pose proof (proj1 (C57_avg E args d) kvs fin fout K N1 N2) as [X1 X2]. rewrite A in X1, X2.
  destruct (avgMain E args d) as [d2 o]. cbn [fst snd] in *. subst d2. inversion X2; subst. reflexivity.
Qed.
Lemma program_averages E args kvs fin fout d d' n : command avg_letters args kvs -> named "i" kvs fin -> named "o" kvs fout ->
  average E fin fout d = (d', Val n) -> avgMain E args d = (d', Val (0, [])).
Proof.
  intros K N1 N2 A. pose proof (proj1 (C57_avg E args d) kvs fin fout K N1 N2) as [X1 X2]. rewrite A in X1, X2.
  destruct (avgMain E args d) as [d2 o]. cbn [fst snd] in *. subst d2. inversion X2; subst. reflexivity.
Qed.

(** A database with overlapping octants is refused with a message and exit code 1; no file
    but the output changes. *)
Theorem C76_overlap : forall E args kvs fin fout d f,
  command avg_letters args kvs -> named "i" kvs fin -> named "o" kvs fout -> fin <> fout ->
  usable E d fin f -> can_create E d fout -> can_read E fin -> accepts (et_store E) -> refuses_duplicates (et_store E) ->
  (forall a, In a (map fst (d_recs f)) -> octant_ok a) -> StronglySorted etree_lt (map fst (d_recs f)) -> overlap (d_recs f) ->
  exists d' m, avgMain E args d = (d', Val (1, [Said m])) /\ others_untouched fout d d'.
Proof.
  intros E args kvs fin fout d f K N1 N2 Hn U C R A D O S OV.
  destruct (C14_overlap_rejected _ _ A D O S OV) as [m M].
  destruct (average_refused E fin fout d f m Hn U C R M) as (d' & X & G).
  exists d', m. split; [exact (program_refuses E args kvs fin fout d d' m K N1 N2 X) | exact G].
Qed.
Print Assumptions C76_overlap.

(** Grid files whose points lie in overlapping octants: cencalvmgen makes a database of
    them, cencalvmavg refuses it. *)
Theorem C76_grids : forall E F T L files gargs gk aargs ak fp ft fm fo d grids recss,
  storage_works E -> refuses_duplicates (et_store E) -> model_files F L files fp grids recss ->
  all_different (concat recss) -> (forall r, In r (concat recss) -> octant_ok (fst r)) -> overlap (concat recss) ->
  command gen_letters gargs gk -> named "i" gk fp -> named "t" gk ft -> named "o" gk fm -> ft <> fm ->
  command avg_letters aargs ak -> named "i" ak fm -> named "o" ak fo -> fm <> fo ->
  exists d1 d2 f m, genMain E F T L files gargs d = (d1, Val (0, [])) /\ usable E d1 fm f /\ Permutation (d_recs f) (concat recss) /\
    avgMain E aargs d1 = (d2, Val (1, [Said m])) /\ others_untouched fo d1 d2.
Proof.
  intros E F T L files gargs gk aargs ak fp ft fm fo d grids recss (S1 & S2 & S3 & S4 & S5 & S6 & S7 & S8) RD
    (text & tail & listed & M1 & M2 & M3 & M4 & M5) AD OK OV K N1 N2 N3 Hn K' N4 N5 Hn'.
  set (g := GridIngester.mkIngester fp fm ft authors true).
  destruct (PropGrid.C36_database_built E F files L g d text tail listed grids recss) as (d1 & out & R & D1 & PM & SR & C1); try assumption.
  { reflexivity. } { apply N1. } { apply N2. } { apply N3. }
  { intros d0. split; [apply S4|]. split; [apply S4 | apply S5]. }
  { apply S6. } { apply S8. } { apply S7. } { apply S7. }
  { destruct OV as (a & _ & I & _). intros Q. rewrite Q in I. exact I. }
  assert (RG : genMain E F T L files gargs d = (d1, Val (0, []))).
  { pose proof (proj1 (C57_gen E F T L files gargs d) gk fp fm ft K N1 N3 N2) as X. unfold ingest in X. fold g in X. rewrite R in X. cbn [fst snd] in X.
    destruct X as [X1 X2]. destruct (genMain E F T L files gargs d) as [d1' o]. cbn [fst snd] in *. subst d1'. inversion X2; subst. reflexivity. }
  change (GridIngester.gi_out g) with fm in D1.
  set (f := mkDb out (Some SCHEMA) (Some _) 28) in D1.
  assert (U : usable E d1 fm f) by (split; [exact D1|]; split; [apply S5|]; split; reflexivity).
  destruct (C76_overlap E aargs ak fm fo d1 f) as (d2 & m & X & G); try assumption; try apply S4; try apply S6.
  - intros a I. change (d_recs f) with out in I. apply in_map_iff in I. destruct I as (r & <- & I). apply OK. exact (Permutation_in _ PM I).
  - destruct OV as (a & b & Ia & Ib & Q). exists a, b. change (d_recs f) with out.
    split; [exact (Permutation_in _ (Permutation_map fst (Permutation_sym PM)) Ia)|].
    split; [exact (Permutation_in _ (Permutation_map fst (Permutation_sym PM)) Ib) | exact Q].
  - exists d1, d2, f, m. auto.
Qed.
Print Assumptions C76_grids.

(** Averaging twice.  The second run refuses the output of the first one, unless that holds
    only octants just below the root; it leaves it as it is. *)
Theorem C76_twice : forall E args kvs args' kvs' fin fout fout' d f,
  command avg_letters args kvs -> named "i" kvs fin -> named "o" kvs fout -> fin <> fout ->
  command avg_letters args' kvs' -> named "i" kvs' fout -> named "o" kvs' fout' -> fout <> fout' ->
  storage_works E -> refuses_duplicates (et_store E) -> usable E d fin f -> wf_input (d_recs f) ->
  (exists a, In a (map fst (d_recs f)) /\ 2 <= a_level a) ->
  exists d1 d2 m, avgMain E args d = (d1, Val (0, [])) /\ avgMain E args' d1 = (d2, Val (1, [Said m])) /\ d2 fout = d1 fout.
Proof.
  intros E args kvs args' kvs' fin fout fout' d f K N1 N2 Hn K' N3 N4 Hn' (S1 & S2 & S3 & S4 & S5 & S6 & S7 & S8) RD U W L2.
  destruct (C17_averages_file E fin fout d f Hn U (S4 _ _) (S6 _) (S8 _) S3 W) as (d1 & s & out & FO & A1 & ST & D1 & C1).
  destruct (C14_averaged_rejected (et_store E) (d_recs f) s out S3 RD W FO ST L2) as [m M].
  set (g := mkDb out (Some SCHEMA) _ 28) in D1.
  assert (U1 : usable E d1 fout g) by (split; [exact D1|]; split; [apply S5|]; split; reflexivity).
  destruct (average_refused E fout fout' d1 g m Hn' U1 (S4 _ _) (S6 _) M) as (d2 & A2 & G).
  exists d1, d2, m. split; [exact (program_averages E args kvs fin fout d d1 _ K N1 N2 A1)|].
  split; [exact (program_refuses E args' kvs' fout fout' d1 d2 m K' N3 N4 A2) | exact (G fout Hn')].
Qed.
Print Assumptions C76_twice.

(** Otherwise the second run ends with exit code 0 and gives the same records. *)
Theorem C76_twice_flat : forall E args kvs args' kvs' fin fout fout' d f,
  command avg_letters args kvs -> named "i" kvs fin -> named "o" kvs fout -> fin <> fout ->
  command avg_letters args' kvs' -> named "i" kvs' fout -> named "o" kvs' fout' -> fout <> fout' ->
  storage_works E -> usable E d fin f -> wf_input (d_recs f) ->
  (forall a, In a (map fst (d_recs f)) -> a_level a = 1) ->
  exists d1 d2 g g', avgMain E args d = (d1, Val (0, [])) /\ avgMain E args' d1 = (d2, Val (0, [])) /\
    usable E d1 fout g /\ usable E d2 fout' g' /\ d_recs g' = d_recs g /\ d2 fout = d1 fout.
Proof.
  intros E args kvs args' kvs' fin fout fout' d f K N1 N2 Hn K' N3 N4 Hn' (S1 & S2 & S3 & S4 & S5 & S6 & S7 & S8) U W L1.
  destruct (C17_averages_file E fin fout d f Hn U (S4 _ _) (S6 _) (S8 _) S3 W) as (d1 & s & out & FO & A1 & ST & D1 & C1).
  pose proof (C14_one_level_unchanged (et_store E) (d_recs f) s out S3 W FO ST L1) as M.
  set (g := mkDb out (Some SCHEMA) _ 28) in D1.
  assert (U1 : usable E d1 fout g) by (split; [exact D1|]; split; [apply S5|]; split; reflexivity).
  destruct (average_runs E fout fout' d1 g out s U1 (S4 _ _) (S6 _) (S8 _)) as (d2 & A2 & D2 & C2).
  { apply String.eqb_neq in Hn'. rewrite Hn'. reflexivity. }
  { exact M. }
  eexists d1, d2, g, _. split; [exact (program_averages E args kvs fin fout d d1 _ K N1 N2 A1)|].
  split; [exact (program_averages E args' kvs' fout fout' d1 d2 _ K' N3 N4 A2)|]. split; [exact U1|].
  split; [split; [exact D2|]; split; [apply S5|]; split; reflexivity|]. split; [|exact (C2 fout Hn')].
  cbn [d_recs g]. unfold stored in ST. rewrite <- ST. unfold file_recs. rewrite map_map. cbn. rewrite <- (map_id out) at 2. apply map_ext. intros [a v]. reflexivity.
Qed.
Print Assumptions C76_twice_flat.

(** ** Examples *)
From Verif Require Import PropE2E PropPipe ToyLib ToyDb ToyGrid AvgFinal.
Open Scope string_scope. Open Scope Z_scope.
(** The model of ToyGrid.v, made by cencalvmgen, averaged once and then again. *)
Definition again_args : list string := ["-i"; "model.etree"; "-o"; "again.etree"].
Definition again_named : list (ascii * string) := [("i"%char, "model.etree"); ("o"%char, "again.etree")].
Lemma again_command : command avg_letters again_args again_named.
Proof. apply (C57_separate_words avg_letters again_named). repeat constructor; cbn; tauto. Qed.
Definition raw_disk (recs : list (addr * payload)) : disk := fun n => if String.eqb n "raw.etree" then Some (mkDb recs (Some SCHEMA) None 28) else None.
Fixpoint sortedb (l : list addr) : bool := match l with [] => true | a :: r => forallb (fun b => path_ltb (path_of a) (path_of b)) r && sortedb r end.
Lemma sortedb_ok l : sortedb l = true -> StronglySorted etree_lt l.
Proof.
  induction l as [|a l IH]; intros H; [constructor|]. cbn [sortedb] in H. apply andb_prop in H. destruct H as [A B].
  constructor; [exact (IH B)|]. apply Forall_forall. intros b I. rewrite forallb_forall in A. apply path_ltb_lt. exact (A b I).
Qed.
Lemma octants_ok l : forallb octant_okb l = true -> forall a, In a l -> octant_ok a.
Proof. intros H a I. apply octant_okb_ok. rewrite forallb_forall in H. exact (H a I). Qed.
Example C76_twice_example : exists d1 d2 m, avgMain toy_etree avg_args (raw_disk toy_recs) = (d1, Val (0, [])) /\
  avgMain toy_etree again_args d1 = (d2, Val (1, [Said m])) /\ d2 "model.etree" = d1 "model.etree".
Proof.
  apply (C76_twice toy_etree avg_args avg_named again_args again_named "raw.etree" "model.etree" "again.etree" (raw_disk toy_recs) (mkDb toy_recs (Some SCHEMA) None 28)).
  - exact avg_command.
  - split; [reflexivity | discriminate].
  - split; [reflexivity | discriminate].
  - discriminate.
  - exact again_command.
  - split; [reflexivity | discriminate].
  - split; [reflexivity | discriminate].
  - discriminate.
  - exact toy_storage.
  - exact simple_refuses.
  - repeat split.
  - apply (good_wf (concat [toy_recs]) toy_recs toy_good); [cbn [concat]; rewrite app_nil_r; apply Permutation_refl|].
    apply sortedb_ok. vm_compute. reflexivity.
  - exists (fst (nth 0 toy_recs (mkAddr 0 0 0 0 0 Leaf, l_pay (parse_line [])))). split; [left; reflexivity | vm_compute; discriminate].
Qed.
(** An octant just below the root is averaged into the root, again and again. *)
Definition flat_recs : list (addr * payload) := [(mkAddr 0 0 0 0 1 Leaf, snd (nth 0 toy_recs (mkAddr 0 0 0 0 0 Leaf, l_pay (parse_line []))))].
Lemma flat_good : good_model flat_recs.
Proof.
  split; [discriminate|]. split; [|apply FOP_cons; constructor]. intros a v [Q|[]]. injection Q as <- <-.
  split; [apply octant_okb_ok; reflexivity|]. split; [cbn; lia | apply proper_valuesb_ok; vm_compute; reflexivity].
Qed.
Example C76_twice_flat_example : exists d1 d2 g g', avgMain toy_etree avg_args (raw_disk flat_recs) = (d1, Val (0, [])) /\
  avgMain toy_etree again_args d1 = (d2, Val (0, [])) /\
  usable toy_etree d1 "model.etree" g /\ usable toy_etree d2 "again.etree" g' /\ d_recs g' = d_recs g /\ d2 "model.etree" = d1 "model.etree".
Proof.
  apply (C76_twice_flat toy_etree avg_args avg_named again_args again_named "raw.etree" "model.etree" "again.etree" (raw_disk flat_recs) (mkDb flat_recs (Some SCHEMA) None 28)).
  - exact avg_command.
  - split; [reflexivity | discriminate].
  - split; [reflexivity | discriminate].
  - discriminate.
  - exact again_command.
  - split; [reflexivity | discriminate].
  - split; [reflexivity | discriminate].
  - discriminate.
  - exact toy_storage.
  - repeat split.
  - apply (good_wf flat_recs flat_recs flat_good (Permutation_refl _)). apply sortedb_ok. vm_compute. reflexivity.
  - intros a [<-|[]]. reflexivity.
Qed.
Example C76_twice_flat_records : option_map (fun g => List.length (d_recs g))
  (fst (avgMain toy_etree again_args (fst (avgMain toy_etree avg_args (raw_disk flat_recs)))) "again.etree") = Some 2%nat.
Proof. vm_compute. reflexivity. Qed.

(** A second grid file of twice the resolution has a point in the first octant of the first. *)
Definition fine_head : list string := ["25.6"; "6.4"; "1"; "1"; "1"; "1"].
Definition fine_lines : list (list string) := [["296908.4784"; "541696.2864"; "-1.5"; "3.3"; "1.9"; "2.5"; "100"; "50"; "1.5"; "1"; "2"; "1"]].
Definition fine_text : string := lay (fine_head ++ concat fine_lines).
Definition fine_pts : list GridIngester.gridline := Eval vm_compute in map parse_line fine_lines.
Definition fine_at (l : GridIngester.gridline) : addr :=
  match lonLatElevToAddr toy (mkAddr 0 0 0 0 6 Leaf) (l_lon l) (l_lat l) (si64 (l_elev l)) with
  | Val (_, a) => a | _ => mkAddr 0 0 0 0 0 Leaf end.
Definition fine_recs : list (addr * payload) := Eval vm_compute in map (fun l => (fine_at l, si_values (l_pay l))) fine_pts.
Definition both_files : GridIngester.texts := fun n =>
  if String.eqb n "list.txt" then Some "grid.txt fine.txt " else if String.eqb n "grid.txt" then Some toy_text
  else if String.eqb n "fine.txt" then Some fine_text else None.
Lemma fine_grid : grid_file toy_fmt toy fine_text 6 fine_pts.
Proof.
  exists fine_text, "", fine_head, fine_lines, (fst (toy_double "25.6")), (fst (toy_double "6.4")). split.
  { symmetry. generalize fine_text. induction s as [|c s IH]; [reflexivity|]. cbn. rewrite IH. reflexivity. }
  split; [apply lay_laid; vm_compute; reflexivity|]. split; [do 9 eexists; split; [reflexivity|]; repeat split; vm_compute; reflexivity|].
  split; [repeat constructor; do 12 eexists; (split; [reflexivity|]); repeat split; vm_compute; reflexivity|].
  split; [vm_compute; reflexivity|]. split; [lia|]. split; vm_compute; reflexivity.
Qed.
Lemma both_model : model_files toy_fmt toy both_files "list.txt" [(5, toy_pts); (6, fine_pts)] [toy_recs; fine_recs].
Proof.
  exists "grid.txt fine.txt ", "", ["grid.txt"; "fine.txt"]. split; [reflexivity|].
  split; [apply (lay_laid ["grid.txt"; "fine.txt"]); reflexivity|]. split; [left; reflexivity|]. split.
  - constructor; [exists toy_text; split; [reflexivity | exact toy_grid_file]|].
    constructor; [exists fine_text; split; [reflexivity | exact fine_grid] | constructor].
  - constructor; [exact toy_grid_recs|]. constructor; [|constructor].
    unfold grid_recs. cbn [fst snd]. assert (F : filter has_data fine_pts = [nth 0 fine_pts (parse_line [])]) by (vm_compute; reflexivity).
    rewrite F. apply Forall2_cons; [split; [exists 0; vm_compute; reflexivity | vm_compute; reflexivity] | apply Forall2_nil].
Qed.
Example C76_grids_example : exists d1 d2 f m, genMain toy_etree toy_fmt PropApp.app_texts toy both_files gen_args (fun _ => None) = (d1, Val (0, [])) /\
  usable toy_etree d1 "raw.etree" f /\ Permutation (d_recs f) (concat [toy_recs; fine_recs]) /\
  avgMain toy_etree avg_args d1 = (d2, Val (1, [Said m])) /\ others_untouched "model.etree" d1 d2.
Proof.
  apply (C76_grids toy_etree toy_fmt PropApp.app_texts toy both_files gen_args gen_named avg_args avg_named
    "list.txt" "tmp.etree" "raw.etree" "model.etree" (fun _ => None) [(5, toy_pts); (6, fine_pts)]).
  - exact toy_storage.
  - exact simple_refuses.
  - exact both_model.
  - repeat (apply FOP_cons; [repeat (apply Forall_cons; [intros Q; apply ToyGrid.same_octantb_same in Q; vm_compute in Q; discriminate|]); apply Forall_nil|]). apply FOP_nil.
  - intros r I. apply (octants_ok (map fst (concat [toy_recs; fine_recs]))); [vm_compute; reflexivity | apply in_map, I].
  - exists (fst (nth 0 toy_recs (mkAddr 0 0 0 0 0 Leaf, l_pay (parse_line [])))), (fst (nth 0 fine_recs (mkAddr 0 0 0 0 0 Leaf, l_pay (parse_line [])))).
    split; [left; reflexivity|]. split; [right; right; left; reflexivity|]. split; [vm_compute; discriminate|].
    split; [vm_compute; reflexivity | apply ToyDb.coversb_iff; vm_compute; reflexivity].
  - exact gen_command.
  - split; [reflexivity | discriminate].
  - split; [reflexivity | discriminate].
  - split; [reflexivity | discriminate].
  - discriminate.
  - exact avg_command.
  - split; [reflexivity | discriminate].
  - split; [reflexivity | discriminate].
  - discriminate.
Qed.
(** The same database, given to cencalvmavg directly. *)
Definition both_recs : list (addr * payload) := Eval vm_compute in
  match nth_error toy_recs 0, nth_error fine_recs 0, nth_error toy_recs 1 with Some a, Some b, Some c => [a; b; c] | _, _, _ => [] end.
Example C76_overlap_example : exists d' m, avgMain toy_etree avg_args (raw_disk both_recs) = (d', Val (1, [Said m])) /\ others_untouched "model.etree" (raw_disk both_recs) d'.
Proof.
  apply (C76_overlap toy_etree avg_args avg_named "raw.etree" "model.etree" (raw_disk both_recs) (mkDb both_recs (Some SCHEMA) None 28)).
  - exact avg_command.
  - split; [reflexivity | discriminate].
  - split; [reflexivity | discriminate].
  - discriminate.
  - repeat split.
  - apply toy_storage.
  - apply toy_storage.
  - apply simple_accepts.
  - exact simple_refuses.
  - apply octants_ok. vm_compute. reflexivity.
  - apply sortedb_ok. vm_compute. reflexivity.
  - exists (fst (nth 0 both_recs (mkAddr 0 0 0 0 0 Leaf, l_pay (parse_line [])))), (fst (nth 1 both_recs (mkAddr 0 0 0 0 0 Leaf, l_pay (parse_line [])))).
    split; [left; reflexivity|]. split; [right; left; reflexivity|]. split; [vm_compute; discriminate|].
    split; [vm_compute; reflexivity | apply ToyDb.coversb_iff; vm_compute; reflexivity].
Qed.
