(** C63: storage calls that fail while a database is averaged are reported.  C64: the
    failures that are not. *)
From Coq Require Import ZArith Bool String Lia Sorting.Sorted Permutation List.
From Verif Require Import Outcome Float Payload Addr SpecOct AvgEngine SpecAvg AvgFinal Store Averager VMCreator SpecStore StoreFacts
  SpecFail AvgFail Geom Stream GridIngester SpecText SpecGrid StreamFacts GridFacts GridMain PropAvg PropStore PropGrid ToyLib ToyGrid.
Import ListNotations.
Open Scope Z_scope.

(** C63: whatever calls fail, a run of the averaging engine gives exactly what a run
    without failures gives on the octants that were delivered, or it throws one of seven
    messages; it throws if any of the calls it makes fails. *)
Theorem C63_failures_reported : forall R st inp, wf_input inp ->
  let seen := delivered (rd_adv R) inp in
  exists s, fillOctants never_fails seen = Val s /\
    (fillFrom st R inp = Val s \/ exists m, complaint m /\ fillFrom st R inp = Throw m) /\
    (some_failure R st seen (e_db s) -> exists m, complaint m /\ fillFrom st R inp = Throw m).
Proof.
  intros R st inp W seen. pose proof (delivered_wf (rd_adv R) inp W) as W'.
  destruct (C12_averaging_succeeds never_fails seen never_fails_accepts W') as (s & F & _).
  exists s. split; [exact F|].
  assert (K : fillFrom st R inp = Val s \/ exists m, complaint m /\ fillFrom st R inp = Throw m).
  { rewrite <- F. exact (fill_sub st R inp (wf_nonempty _ W)). }
  split; [exact K|]. intros SF. destruct K as [K|K]; [|exact K].
  exfalso. exact (failure_stops R st inp s W' F SF s K).
Qed.
Print Assumptions C63_failures_reported.

(** The same for files, where creating the output and writing its header can fail too. *)
Theorem C63_file_failures : forall E fin fout d f, fin <> fout -> usable E d fin f -> wf_input (d_recs f) ->
  let seen := delivered (et_adv E fin) (d_recs f) in
  let described := match d_meta f with
    | Some m => Some (m ++ String (Ascii.ascii_of_nat 10) "" ++ "spatially averaged on: " ++ et_now E ++ "host: " ++ et_host E)%string
    | None => None end in
  exists s out, fillOctants never_fails seen = Val s /\ stored (e_db s) out /\
    ((exists d', average E fin fout d = (d', Val (e_cnt s)) /\
        d' fout = Some (mkDb (if et_flush E fout then out else et_partial E) (Some SCHEMA) described 28)) \/
     (exists d' m, average E fin fout d = (d', Throw m))) /\
    (et_create E d fout = false \/ et_regschema E fout = false \/
     (exists m, described = Some m /\ et_setmeta E fout m = false) \/
     some_failure (mkReading (et_cursor E fin) (et_get E fin) (et_adv E fin)) (et_store E) seen (e_db s) ->
     exists d' m, average E fin fout d = (d', Throw m)) /\
    others_untouched fout d (fst (average E fin fout d)).
Proof.
  intros E fin fout d f Hn (U1 & U2 & U3 & U4) W seen described.
  pose proof (delivered_wf (et_adv E fin) (d_recs f) W) as W'. fold seen in W'.
  destruct (C12_averaging_succeeds never_fails seen never_fails_accepts W') as (s0 & F0 & P0).
  destruct (C63_failures_reported (mkReading (et_cursor E fin) (et_get E fin) (et_adv E fin)) (et_store E) (d_recs f) W) as (s & F & K & SF).
  cbn [rd_adv] in F, SF. fold seen in F, SF. rewrite F0 in F. injection F as <-.
  exists s0, (file_recs junk0 (e_db s0)). split; [exact F0|]. split; [apply stored_values, P0|].
  rewrite <- and_assoc. split; [|apply C17_only_output_changes].
  destruct (average E fin fout d) as [d' o] eqn:A.
  unfold average, andThen, openRead in A. rewrite U1, U2, U3, U4 in A.
  change (28 =? PAYLOADSIZE) with true in A. cbn [negb] in A. rewrite String.eqb_refl in A. cbn [negb] in A.
  unfold openNew in A. destruct (et_create E d fout);
    [|injection A as <- <-; split; [right; eexists; eexists; reflexivity | intros _; eexists; eexists; reflexivity]]. cbv beta iota in A.
  unfold registerSchema in A. destruct (et_regschema E fout);
    [|injection A as <- <-; split; [right; eexists; eexists; reflexivity | intros _; eexists; eexists; reflexivity]].
  unfold write at 1 in A. cbv beta iota in A. rewrite put_same in A. cbn [option_map] in A.
  apply String.eqb_neq in Hn. rewrite Hn in A.
  set (R := mkReading (et_cursor E fin) (et_get E fin) (et_adv E fin)) in *.
  assert (X : forall d1 g, d1 fout = Some (mkDb [] (Some SCHEMA) g 28) -> g = described ->
    (match fillFrom (et_store E) R (d_recs f) with
      | Val s => do* _ := write fout (fun g => set_recs g (if et_flush E fout then file_recs junk0 (e_db s) else et_partial E)) in ret (e_cnt s)
      | Throw m => do* _ := write fout (fun g => set_recs g (et_partial E)) in throw m
      | Abort => lift Abort
      | UB w => lift (UB w) end) d1 = (d', o) ->
    ((exists d2, (d', o) = (d2, Val (e_cnt s0)) /\
        d2 fout = Some (mkDb (if et_flush E fout then file_recs junk0 (e_db s0) else et_partial E) (Some SCHEMA) described 28)) \/
     (exists d2 m, (d', o) = (d2, Throw m))) /\
    (some_failure R (et_store E) seen (e_db s0) -> exists d2 m, (d', o) = (d2, Throw m))).
  { intros d1 g D1 -> B. split.
    - destruct K as [K|(m & _ & K)]; rewrite K in B; unfold andThen, write, ret, throw in B; cbv beta iota in B; injection B as <- <-.
      + left. eexists. split; [reflexivity|]. rewrite put_same, D1. reflexivity.
      + right. eexists. eexists. reflexivity.
    - intros S. destruct (SF S) as (m & _ & T). rewrite T in B. unfold andThen, write, throw in B. cbv beta iota in B.
      injection B as <- <-. eexists. eexists. reflexivity. }
  unfold described in *. destruct (d_meta f) as [m|].
  - unfold setAppMeta in A. change (averagedMeta E m) with (m ++ String (Ascii.ascii_of_nat 10) "" ++ "spatially averaged on: " ++ et_now E ++ "host: " ++ et_host E)%string in A.
    destruct (et_setmeta E fout _) eqn:Em;
      [|injection A as <- <-; split; [right; eexists; eexists; reflexivity | intros _; eexists; eexists; reflexivity]].
    unfold write at 1 in A. cbv beta iota zeta in A. rewrite put_same in A. cbn [option_map] in A.
    apply X with (g := Some (m ++ String (Ascii.ascii_of_nat 10) "" ++ "spatially averaged on: " ++ et_now E ++ "host: " ++ et_host E)%string) in A; [|apply put_same | reflexivity].
    destruct A as [X1 X2]. split; [exact X1|]. intros [C|[C|[(m' & C1 & C2)|C]]]; try discriminate; [|exact (X2 C)].
    apply (f_equal (fun y => match y with Some x => et_setmeta E fout x | None => true end)) in C1. cbv beta iota in C1. congruence.
  - unfold ret at 1 in A. cbv beta iota zeta in A.
    apply X with (g := None) in A; [|apply put_same | reflexivity].
    destruct A as [X1 X2]. split; [exact X1|]. intros [C|[C|[(m' & C1 & C2)|C]]]; try discriminate. exact (X2 C).
Qed.
Print Assumptions C63_file_failures.

(** C64: if the cursor fails to advance from the record [r], averaging ends normally with
    the averages of the records up to [r]; the report counts only these. *)
Theorem C64_average_truncated : forall E fin fout d f before r after, fin <> fout ->
  usable E d fin f -> can_create E d fout -> et_cursor E fin = true -> (forall a, et_get E fin a = true) ->
  accepts (et_store E) -> wf_input (d_recs f) -> et_flush E fout = true ->
  d_recs f = (before ++ r :: after)%list -> (forall x, In x before -> et_adv E fin (fst x) = true) ->
  et_adv E fin (fst r) = false ->
  exists d' s out, fillOctants (et_store E) (before ++ [r]) = Val s /\ stored (e_db s) out /\
    average E fin fout d = (d', Val (e_cnt s)) /\
    c_input (e_cnt s) = Z.of_nat (List.length before) + 1 /\
    option_map d_recs (d' fout) = Some out.
Proof.
  intros E fin fout d f before r after Hn HU HC H1 H2 HA HW HF HR HB Hr.
  assert (D : delivered (et_adv E fin) (d_recs f) = (before ++ [r])%list).
  { rewrite HR. clear - HB Hr. induction before as [|x t IH]; cbn [app delivered]; [rewrite Hr; reflexivity|].
    rewrite (HB x) by (left; reflexivity). rewrite IH; [reflexivity|]. intros y Hy. apply HB. right. exact Hy. }
  assert (W : wf_input (before ++ [r])) by (rewrite <- D; apply delivered_wf, HW).
  destruct (C12_averaging_succeeds _ _ HA W) as (s & Hs & Hp).
  destruct (average_ends E fin fout d f (d_recs f) s HU HC) as (d' & A1 & A2 & _).
  - apply String.eqb_neq in Hn. rewrite Hn. reflexivity.
  - rewrite fillFrom_delivered; cbn [reading_of rd_init rd_get rd_adv]; [rewrite D; exact Hs | exact H1 | intros; apply H2].
  - exists d', s, (file_recs junk0 (e_db s)). split; [exact Hs|]. split; [apply stored_values, Hp|]. split; [exact A1|]. split.
    + destruct (C11_counts _ _ _ HA W Hs) as [C _]. rewrite C. cbn [c_input]. rewrite app_length. cbn [List.length]. lia.
    + rewrite A2, HF. reflexivity.
Qed.
Print Assumptions C64_average_truncated.

(** So does packing: it returns normally with the records up to [r]. *)
Theorem C64_pack_truncated : forall E packed unpacked d f before r after, packed <> unpacked ->
  usable E d unpacked f -> StronglySorted etree_lt (map fst (d_recs f)) -> can_create E d packed ->
  et_cursor E unpacked = true -> (forall a, et_get E unpacked a = true) -> accepts (et_store E) ->
  et_close E unpacked = true -> et_close E packed = true ->
  d_recs f = (before ++ r :: after)%list -> (forall x, In x before -> et_adv E unpacked (fst x) = true) ->
  et_adv E unpacked (fst r) = false ->
  exists d', packDB E packed unpacked d = (d', Val tt) /\
    d' packed = Some (mkDb (before ++ [r]) (Some SCHEMA) (d_meta f) 28).
Proof.
  intros E p u d f before r after Hn HU HS HC H1 H2 HA K1 K2 HR HB Hr.
  assert (D : delivered (et_adv E u) (d_recs f) = (before ++ [r])%list).
  { rewrite HR. clear - HB Hr. induction before as [|x t IH]; cbn [app delivered]; [rewrite Hr; reflexivity|].
    rewrite (HB x) by (left; reflexivity). rewrite IH; [reflexivity|]. intros y Hy. apply HB. right. exact Hy. }
  assert (NE : d_recs f <> []) by (rewrite HR; destruct before; discriminate).
  destruct (pack_works E p u d f Hn HU NE HS HC H1 H2 HA K1 K2) as (d' & P).
  exists d'. split; [exact P|]. destruct (pack_ends E p u d d' Hn P) as (f' & F1 & _ & F3).
  destruct HU as (U1 & _). rewrite U1 in F1. injection F1 as <-. rewrite D in F3. exact F3.
Qed.
Print Assumptions C64_pack_truncated.

(** If the averaged database cannot be closed, averaging ends normally and reports the counts
    of a complete database, but the file has unspecified contents. *)
Theorem C64_average_not_closed : forall E fin fout d f, fin <> fout ->
  usable E d fin f -> can_create E d fout -> can_read E fin -> accepts (et_store E) -> wf_input (d_recs f) ->
  et_flush E fout = false ->
  exists d' s, fillOctants (et_store E) (d_recs f) = Val s /\ average E fin fout d = (d', Val (e_cnt s)) /\
    option_map d_recs (d' fout) = Some (et_partial E).
Proof.
  intros E fin fout d f Hn HU HC (R1 & R2 & R3) HA HW HF.
  destruct (C12_averaging_succeeds _ _ HA HW) as (s & Hs & _).
  destruct (average_ends E fin fout d f (d_recs f) s HU HC) as (d' & A1 & A2 & _).
  - apply String.eqb_neq in Hn. rewrite Hn. reflexivity.
  - rewrite fillFrom_good; [exact Hs | exact R1 | exact R2 | exact R3].
  - exists d', s. split; [exact Hs|]. split; [exact A1|]. rewrite A2, HF. reflexivity.
Qed.
Print Assumptions C64_average_not_closed.

(** If the database that collects the grid points cannot be closed, the program packs what
    is in the file and ends normally with the counts of all points. *)
Theorem C64_grid_not_closed : forall E F T L g d text tail names grids recss,
  gi_geom g = true -> gi_params g <> ""%string -> gi_tmp g <> ""%string -> gi_out g <> ""%string ->
  gi_tmp g <> gi_out g ->
  T (gi_params g) = Some (text ++ tail)%string -> laid_out names text -> unterminated tail ->
  grids_read F L T names grids -> grids_recs L grids recss ->
  takes_new E -> accepts (et_store E) ->
  (forall d1, can_create E d1 (gi_tmp g) /\ can_create E d1 (gi_out g) /\ et_open E d1 (gi_tmp g) = true) ->
  can_read E (gi_tmp g) -> et_close E (gi_tmp g) = true -> et_close E (gi_out g) = true ->
  all_different (concat recss) -> et_flush E (gi_tmp g) = false ->
  et_partial E <> [] -> StronglySorted etree_lt (map fst (et_partial E)) ->
  exists d', run E F T L g d =
      (d', map (fun gr => (count (filter has_data (snd gr)), count (no_data_points (snd gr)))) grids, Val tt) /\
    option_map d_recs (d' (gi_out g)) = Some (et_partial E).
Proof.
  intros E F T L g d text tail names grids recss HG H1 H2 H3 Hne HT Hws Htl HR HC HN HA HCr (R1 & R2 & R3) K1 K2 HD HF NE SP.
  unfold run. apply String.eqb_neq in H1, H2, H3. rewrite H1, H2, H3. cbn [orb].
  unfold readParams. rewrite HT. cbv beta iota.
  change (openText (text ++ tail)) with (fresh (text ++ tail)).
  rewrite (readNames_spec text _ names tail Hws Htl) by (rewrite length_app_s; lia).
  destruct (openDB_ok E (gi_tmp g) (gi_desc g) d (proj1 (HCr d))) as (d1 & M1 & M2 & M3).
  rewrite M1.
  destruct (addGrids_ok E F T L g (gi_tmp g) HG HN names grids recss d1 _ HR HC M2 HD) as (d2 & P1 & P2 & P3).
  rewrite P1. unfold closeDB. rewrite HF. unfold andThen, write. cbv beta iota. rewrite P2. cbn [option_map].
  match goal with |- context [put d2 (gi_tmp g) (Some ?y)] => set (f := y) end.
  set (d3 := put d2 (gi_tmp g) (Some f)).
  assert (D3 : d3 (gi_tmp g) = Some f) by apply put_same.
  destruct (pack_works E (gi_out g) (gi_tmp g) d3 f) as (d4 & PW); try assumption.
  - congruence.
  - split; [exact D3|]. split; [apply HCr|]. split; reflexivity.
  - apply HCr.
  - rewrite PW. exists d4. split; [reflexivity|].
    destruct (pack_returns E _ _ _ _ (not_eq_sym Hne) R3 PW) as (f' & Q1 & Q2 & Q3).
    rewrite D3 in Q1. injection Q1 as <-. rewrite Q3. reflexivity.
Qed.
Print Assumptions C64_grid_not_closed.

(** ** Concrete cases *)
(** The machine of PropStore.v with other results of some calls. *)
Definition failing (adv : addr -> bool) (st : storage) (flush : bool) : etree :=
  mkEtree (fun _ _ => true) (fun _ _ => true) (fun f => f) (fun _ => true) (fun _ _ => true)
    (fun _ => true) (fun _ _ => true) (fun _ => adv) st (fun _ _ => true) (fun _ _ => false)
    (fun _ => true) (fun _ => flush) [] [] "error" "" "".
Definition reads_well : reading := mkReading true (fun _ => true) (fun _ => true).
(** Storage that cannot change octants of level 2, and storage that is full after ten. *)
Definition no_updates : storage := mkStorage true (fun _ _ => true) (fun _ a => negb (a_level a =? 2)) true.
Definition ten_only : storage := mkStorage true (fun db _ => Nat.ltb (List.length db) 10) (fun _ _ => true) true.
Definition tree_run : est := match fillOctants never_fails tree with Val s => s | _ => engine0 end.

Example C63_example_update :
  some_failure reads_well no_updates (delivered (rd_adv reads_well) tree) (e_db tree_run) /\
  fillFrom no_updates reads_well tree = Throw "Could not update octant in etree database."%string.
Proof.
  split; [|vm_compute; reflexivity].
  apply (not_updated _ _ _ _ (nth 2 (e_db tree_run) (mkOrec (oct 3 0 0 0) None))).
  - vm_compute. tauto.
  - intros db' a S. destruct S as (_ & _ & _ & S). cbn [no_updates st_update_ok]. rewrite <- S. vm_compute. reflexivity.
Qed.
Example C63_example_append :
  some_failure reads_well ten_only (delivered (rd_adv reads_well) tree) (e_db tree_run) /\
  fillFrom ten_only reads_well tree = Throw "Error occurred while trying to append octant to etree."%string.
Proof.
  split; [|vm_compute; reflexivity].
  apply (not_appended _ _ _ _ (firstn 10 (e_db tree_run)) (nth 10 (e_db tree_run) (mkOrec (oct 3 0 0 0) None)) (skipn 11 (e_db tree_run))).
  - vm_compute. reflexivity.
  - intros db' H. cbn [ten_only st_append_ok]. apply (f_equal (@List.length addr)) in H. rewrite !map_length in H. rewrite H. vm_compute. reflexivity.
Qed.
(** A run that succeeds although the storage refuses other octants. *)
Example C63_example_works : fillFrom (mkStorage true (fun _ a => negb (a_level a =? 5)) (fun _ _ => true) true) reads_well tree = Val tree_run.
Proof. vm_compute. reflexivity. Qed.

(** The cursor cannot get past the third of the twelve octants; the averager reports three
    input octants and writes six records. *)
Definition stuck (a : addr) : bool := negb (same_key a (oct 3 0 1 0)).
Example C64_example_truncated :
  d_recs tree_file = (firstn 2 tree ++ nth 2 tree (oct 3 0 0 0, pay 0) :: skipn 3 tree)%list /\
  (forall x, In x (firstn 2 tree) -> stuck (fst x) = true) /\ stuck (fst (nth 2 tree (oct 3 0 0 0, pay 0))) = false /\
  usable (failing stuck simple_storage true) toy_disk "in" tree_file /\ can_create (failing stuck simple_storage true) toy_disk "out" /\
  option_map (fun f => List.length (d_recs f)) (fst (average (failing stuck simple_storage true) "in" "out" toy_disk) "out"%string) = Some 6%nat /\
  option_map (fun f => List.length (d_recs f)) (fst (packDB (failing stuck simple_storage true) "out" "in" toy_disk) "out"%string) = Some 3%nat /\
  snd (packDB (failing stuck simple_storage true) "out" "in" toy_disk) = Val tt.
Proof.
  split; [reflexivity|]. split; [|split; [reflexivity|]; split; [repeat split|]; split; [repeat split|]; split; [|split]; vm_compute; reflexivity].
  intros x [<-|[<-|[]]]; reflexivity.
Qed.
Example C64_example_not_closed :
  snd (average (failing (fun _ => true) simple_storage false) "in" "out" toy_disk) = Val (e_cnt tree_run) /\
  option_map d_recs (fst (average (failing (fun _ => true) simple_storage false) "in" "out" toy_disk) "out"%string) = Some [].
Proof. split; vm_compute; reflexivity. Qed.

(** The grid ingester on a machine that keeps only the first of its records: the same counts as
    in C36_example_database, but one octant. *)
Definition loses : etree :=
  mkEtree (fun _ _ => true) (fun _ _ => true) (fun f => f) (fun _ => true) (fun _ _ => true)
    (fun _ => true) (fun _ _ => true) (fun _ _ => true) simple_storage (et_insert toy_etree) (et_before toy_etree)
    (fun _ => true) (fun _ => false) [] (firstn 1 toy_recs) "error" "" "".
Example C64_example_grid : takes_new loses /\ et_partial loses <> [] /\ StronglySorted etree_lt (map fst (et_partial loses)) /\
  exists d', run loses toy_fmt toy_texts toy toy_ingester (fun _ => None) = (d', [(2, 1)], Val tt) /\
    option_map d_recs (d' "model.etree"%string) = Some (firstn 1 toy_recs).
Proof.
  split; [exact toy_takes_new|]. split; [discriminate|]. split; [repeat constructor|].
  apply (C64_grid_not_closed loses toy_fmt toy_texts toy toy_ingester (fun _ => None)
    "grid.txt " "" ["grid.txt"%string] [(5, toy_pts)] [toy_recs]).
  - reflexivity.
  - discriminate.
  - discriminate.
  - discriminate.
  - discriminate.
  - reflexivity.
  - apply (lay_laid ["grid.txt"%string]). reflexivity.
  - left; reflexivity.
  - constructor; [exists toy_text; split; [reflexivity | exact toy_grid_file] | constructor].
  - constructor; [exact toy_grid_recs | constructor].
  - exact toy_takes_new.
  - exact simple_accepts.
  - intros d1. repeat split.
  - repeat split.
  - reflexivity.
  - reflexivity.
  - cbn [concat]. rewrite app_nil_r. exact toy_recs_differ.
  - reflexivity.
  - discriminate.
  - repeat constructor.
Qed.

(** So a normal return does not mean that every octant of the input is in the output. *)
Theorem C64_return_means_complete_refuted :
  ~ (forall E fin fout d d' f c g, fin <> fout -> usable E d fin f -> wf_input (d_recs f) -> accepts (et_store E) ->
       average E fin fout d = (d', Val c) -> d' fout = Some g -> forall r, In r (d_recs f) -> In r (d_recs g)).
Proof.
  intros H. set (E := failing stuck simple_storage true).
  destruct (C64_average_truncated E "in" "out" toy_disk tree_file (firstn 2 tree) (nth 2 tree (oct 3 0 0 0, pay 0)) (skipn 3 tree))
    as (d' & s & out & F & S & A & _ & O).
  - discriminate.
  - repeat split.
  - repeat split.
  - reflexivity.
  - reflexivity.
  - exact simple_accepts.
  - exact tree_wf.
  - reflexivity.
  - reflexivity.
  - intros x [<-|[<-|[]]]; reflexivity.
  - reflexivity.
  - destruct (d' "out"%string) as [g|] eqn:D; [|discriminate]. cbn [option_map] in O.
    assert (U : usable E toy_disk "in" tree_file) by (repeat split).
    assert (N : "in"%string <> "out"%string) by discriminate.
    pose proof (H E _ _ _ _ _ _ _ N U tree_wf simple_accepts A D (oct 2 0 0 1, pay 37)) as K.
    assert (K2 : In (oct 2 0 0 1, pay 37) (d_recs g)) by (apply K; cbn [tree_file d_recs tree In]; tauto).
    injection O as O. rewrite O in K2.
    assert (K3 : In (mkOrec (oct 2 0 0 1) (Some (pay 37))) (e_db s)) by (rewrite <- S; apply in_map_iff; eexists; split; [|exact K2]; reflexivity).
    assert (Es : e_db s = e_db (match fillOctants simple_storage (firstn 3 tree) with Val s => s | _ => engine0 end)).
    { change (firstn 3 tree) with (firstn 2 tree ++ [nth 2 tree (oct 3 0 0 0, pay 0)])%list. change simple_storage with (et_store E). rewrite F. reflexivity. }
    rewrite Es in K3. apply (in_map o_addr) in K3. revert K3. vm_compute. intros K3.
    repeat (destruct K3 as [K3|K3]; [discriminate K3|]). exact K3.
Qed.
Print Assumptions C64_return_means_complete_refuted.
