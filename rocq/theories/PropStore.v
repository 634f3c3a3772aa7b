(** C17, C35: averaging and packing database files. *)
From Coq Require Import ZArith Bool String Sorting.Sorted List.
From Verif Require Import Outcome Float Payload Addr SpecOct AvgEngine SpecAvg AvgFinal PropAvg
  Store Averager VMCreator SpecStore StoreFacts.
Import ListNotations.
Open Scope Z_scope.

(** C17: a file that cannot be opened, or that has another payload size or schema,
    is reported by an exception and no file is changed.  (A database without any
    schema is outside: see below.) *)
Theorem C17_validates_first : forall E fin fout d, unusable E d fin ->
  (forall f, d fin = Some f -> d_schema f <> None) ->
  exists m, average E fin fout d = (d, Throw m).
Proof. intros E fin fout d H1 H2. apply average_unusable; [exact H1|]. intros f Hf _ _. exact (H2 f Hf). Qed.
Print Assumptions C17_validates_first.

(** Whatever happens, no file but the output changes. *)
Theorem C17_only_output_changes : forall E fin fout d,
  others_untouched fout d (fst (average E fin fout d)).
Proof. intros. apply average_confined. Qed.
Print Assumptions C17_only_output_changes.

(** A usable input with a well-formed tree: the output file holds the result of the
    averaging engine, the standard schema, and the description of the input with
    the date and host appended; the report is the engine's. *)
Theorem C17_averages_file : forall E fin fout d f, fin <> fout ->
  usable E d fin f -> can_create E d fout -> can_read E fin -> et_flush E fout = true ->
  accepts (et_store E) -> wf_input (d_recs f) ->
  exists d' s out, fillOctants (et_store E) (d_recs f) = Val s /\
    average E fin fout d = (d', Val (e_cnt s)) /\ stored (e_db s) out /\
    d' fout = Some (mkDb out (Some SCHEMA)
      (match d_meta f with
       | Some m => Some (m ++ String (Ascii.ascii_of_nat 10) "" ++ "spatially averaged on: " ++
                         et_now E ++ "host: " ++ et_host E)%string
       | None => None end) 28) /\
    others_untouched fout d d'.
Proof.
  intros E fin fout d f Hn HU HC HR HF HA HW.
  destruct (C12_averaging_succeeds _ _ HA HW) as (s & Hs & Hp).
  destruct (average_runs E fin fout d f (d_recs f) s HU HC HR HF) as (d' & H1 & H2 & H3).
  - apply String.eqb_neq in Hn. rewrite Hn. reflexivity.
  - exact Hs.
  - exists d', s, (file_recs junk0 (e_db s)).
    split; [exact Hs|]. split; [exact H1|]. split; [apply stored_values; exact Hp|].
    split; [|exact H3]. rewrite H2. destruct (d_meta f); reflexivity.
Qed.
Print Assumptions C17_averages_file.

(** Averaging a file onto itself destroys it: the outcome and the final file are
    the same whatever records it held. *)
Theorem C17_same_file_destroyed : forall E n d1 d2 f1 f2,
  usable E d1 n f1 -> usable E d2 n f2 -> d_meta f1 = d_meta f2 ->
  others_untouched n d1 d2 -> et_create E d1 n = true -> et_create E d2 n = true ->
  snd (average E n n d1) = snd (average E n n d2) /\
  fst (average E n n d1) n = fst (average E n n d2) n.
Proof. exact average_self. Qed.
Print Assumptions C17_same_file_destroyed.

(** A database that opens, has the right payload size and no schema: undefined. *)
Theorem C17_missing_schema_undefined : forall E fin fout d f,
  d fin = Some f -> et_open E d fin = true -> d_size f = 28 -> d_schema f = None ->
  exists w, average E fin fout d = (d, UB w).
Proof.
  intros E fin fout d f H1 H2 H3 H4. unfold average, andThen, openRead.
  rewrite H1, H2, H3. change (28 =? PAYLOADSIZE) with true. cbn [negb]. rewrite H4.
  eexists. reflexivity.
Qed.
Print Assumptions C17_missing_schema_undefined.

(** C35: if packing returns and the cursor did not stop before the end, the packed
    file has the records of the unpacked one in their order, its description and
    the standard schema; nothing else changed. *)
Theorem C35_pack_exact : forall E packed unpacked d d', packed <> unpacked -> reads_on E unpacked ->
  packDB E packed unpacked d = (d', Val tt) ->
  (exists f, d unpacked = Some f /\ d_recs f <> [] /\
     d' packed = Some (mkDb (d_recs f) (Some SCHEMA) (d_meta f) 28)) /\
  others_untouched packed d d'.
Proof.
  intros E p u d d' Hn HR H. split; [exact (pack_returns E p u d d' Hn HR H)|].
  pose proof (packDB_confined E p u d) as G. rewrite H in G. exact G.
Qed.
Print Assumptions C35_pack_exact.

(** It returns when all storage calls work. *)
Theorem C35_pack_works : forall E packed unpacked d f, packed <> unpacked ->
  usable E d unpacked f -> d_recs f <> [] -> StronglySorted etree_lt (map fst (d_recs f)) ->
  can_create E d packed -> can_read E unpacked -> accepts (et_store E) ->
  et_close E unpacked = true -> et_close E packed = true ->
  exists d', packDB E packed unpacked d = (d', Val tt).
Proof. intros E p u d f H1 H2 H3 H4 H5 (R1 & R2 & _). exact (pack_works E p u d f H1 H2 H3 H4 H5 R1 R2). Qed.
Print Assumptions C35_pack_works.

(** Otherwise there is an exception: a failure at any storage call, and an empty
    database, is reported. *)
Theorem C35_pack_reports : forall E packed unpacked d f, packed <> unpacked ->
  d unpacked = Some f -> d_size f = 28 ->
  (d_recs f = [] \/ et_open E d unpacked = false \/ et_create E d packed = false \/
   et_regschema E packed = false \/
   (exists m, d_meta f = Some m /\ et_setmeta E packed m = false) \/
   et_cursor E unpacked = false \/ st_begin_ok (et_store E) = false \/
   (exists a, In a (map fst (delivered (et_adv E unpacked) (d_recs f))) /\ et_get E unpacked a = false) \/
   (exists done r rest, delivered (et_adv E unpacked) (d_recs f) = done ++ r :: rest /\
      st_append_ok (et_store E) (map (fun r => mkOrec (fst r) (Some (snd r))) done) (fst r) = false) \/
   st_end_ok (et_store E) = false \/ et_close E unpacked = false \/ et_close E packed = false)%list ->
  exists d' m, packDB E packed unpacked d = (d', Throw m) /\ others_untouched packed d d'.
Proof. exact pack_reports. Qed.
Print Assumptions C35_pack_reports.

(** Packing a database onto itself destroys it (the file is truncated before it is
    read): the final file does not depend on the records. *)
Theorem C35_pack_onto_itself : forall E n d1 d2 f1 f2,
  usable E d1 n f1 -> usable E d2 n f2 -> d_meta f1 = d_meta f2 ->
  et_create E d1 n = true -> et_create E d2 n = true ->
  snd (packDB E n n d1) = snd (packDB E n n d2) /\
  fst (packDB E n n d1) n = fst (packDB E n n d2) n.
Proof. exact pack_self. Qed.
Print Assumptions C35_pack_onto_itself.

(** ** A concrete machine: every call works; one database with the tree of
    PropAvg.v, one with an outdated schema, and an old output file. *)
Definition works : etree :=
  mkEtree (fun _ _ => true) (fun _ _ => true) (fun f => f) (fun _ => true) (fun _ _ => true)
    (fun _ => true) (fun _ _ => true) (fun _ _ => true) simple_storage (fun _ _ => true) (fun _ _ => false)
    (fun _ => true) (fun _ => true) [] [] "error" "Mon Jan  1 00:00:00 2007" "host".
Definition tree_file : dbfile := mkDb tree (Some SCHEMA) (Some "USGS model"%string) 28.
Definition old_file : dbfile := mkDb tree (Some "float32_t Vp;"%string) None 28.
Definition toy_disk : disk := fun n =>
  if String.eqb n "in" then Some tree_file
  else if String.eqb n "old" then Some old_file
  else if String.eqb n "out" then Some old_file else None.

Example tree_usable : usable works toy_disk "in" tree_file.
Proof. repeat split. Qed.
Example old_unusable : unusable works toy_disk "old" /\
  (forall f, toy_disk "old"%string = Some f -> d_schema f <> None).
Proof.
  split.
  - apply (wrong_schema _ _ _ old_file "float32_t Vp;"); [reflexivity..|discriminate].
  - intros f H. injection H as <-. discriminate.
Qed.
Example works_creates : can_create works toy_disk "out" /\ can_read works "in" /\
  accepts (et_store works) /\ et_close works "in" = true /\ et_close works "out" = true /\
  et_flush works "out" = true.
Proof.
  split; [repeat split|]. split; [repeat split|].
  split; [apply simple_accepts|]. repeat split.
Qed.
Example tree_averaged : exists d', fst (average works "in" "out" toy_disk) = d' /\
  exists f, d' "out"%string = Some f /\ List.length (d_recs f) = 17%nat /\
  d' "in"%string = Some tree_file /\
  d_meta f = Some ("USGS model" ++ String (Ascii.ascii_of_nat 10) "" ++
    "spatially averaged on: Mon Jan  1 00:00:00 2007host: host")%string.
Proof.
  eexists. split; [reflexivity|].
  destruct (average_runs works "in" "out" toy_disk tree_file tree
    (match fillOctants simple_storage tree with Val s => s | _ => engine0 end))
    as (d' & H1 & H2 & H3).
  - exact tree_usable.
  - apply works_creates.
  - apply works_creates.
  - reflexivity.
  - reflexivity.
  - vm_compute. reflexivity.
  - rewrite H1. cbn [fst]. eexists. split; [exact H2|]. split; [vm_compute; reflexivity|].
    split; [apply (H3 "in"%string); discriminate | reflexivity].
Qed.
Example tree_sorted : d_recs tree_file <> [] /\
  StronglySorted etree_lt (map fst (d_recs tree_file)).
Proof. split; [discriminate|]. apply tree_wf. Qed.
Example tree_packs : exists d', packDB works "out" "in" toy_disk = (d', Val tt).
Proof.
  apply (C35_pack_works works "out" "in" toy_disk tree_file); try apply tree_sorted;
    try apply works_creates; [discriminate | exact tree_usable].
Qed.
(** An empty database cannot be packed. *)
Example empty_not_packed :
  snd (packDB works "out" "in"
    (fun n => if String.eqb n "in" then Some (mkDb [] (Some SCHEMA) None 28) else None)) =
  Throw "error"%string.
Proof. reflexivity. Qed.
(** Averaging a file onto itself with a library that finds the file empty: the
    call fails and the data are gone. *)
Example self_destroyed :
  snd (average works "in" "in" toy_disk) =
    Throw "Error occurred while initializing etree cursor."%string /\
  option_map d_recs (fst (average works "in" "in" toy_disk) "in"%string) = Some [].
Proof. split; reflexivity. Qed.
