(** C57, C58: the command line programs cencalvmavg, cencalvmgen, cencalvmpack and
    gradecencalvm. *)
From Coq Require Import ZArith Bool Lia String Ascii Sorting.Sorted Sorting.Permutation List.
From Verif Require Import Outcome Float Payload Addr SpecOct AvgEngine SpecAvg Geom ErrorHandler VMQuery Store Averager VMCreator SpecStore StoreFacts
  Stream GetOpt QueryApp VsGrader SpecHist SpecApp AppMain SmallApps SpecSmall SmallFacts PropAvg PropStore SpecText SpecGrid GridInv.
From Verif Require GridIngester VsRun PropVsRun PropGrid.
Import ListNotations.
Open Scope Z_scope.

Lemma ended_does {A} (r : disk * outcome A) : does (ended r) r.
Proof. destruct r as [d [a|m| |w]]; split; cbn; constructor. Qed.

(** C57.  The averager runs with the names given by -i and -o, the last of each, if the
    command line is well formed and neither is empty; otherwise it shows its usage, exits
    with code 1 and touches nothing. *)
Theorem C57_avg : forall E args d,
  (forall kvs fin fout, command avg_letters args kvs -> named "i" kvs fin -> named "o" kvs fout ->
     does (avgMain E args d) (average E fin fout d)) /\
  ((forall kvs fin fout, command avg_letters args kvs -> named "i" kvs fin -> named "o" kvs fout -> False) ->
     refuses d (avgMain E args d)).
Proof.
  intros E args d. unfold avgMain. split.
  - intros kvs fin fout K N1 N2. rewrite (proj2 (avgArgs_iff args (mkNames "" fin fout "" 0))) by (exists kvs, fin, fout; auto).
    apply ended_does.
  - intros N. destruct (avgArgs args) as [c|] eqn:Q; [|reflexivity]. exfalso. apply avgArgs_iff in Q.
    destruct Q as (kvs & fin & fout & K & N1 & N2 & _). exact (N _ _ _ K N1 N2).
Qed.
Print Assumptions C57_avg.

Theorem C57_pack : forall E T args d,
  (forall kvs fin fout, command pack_letters args kvs -> named "i" kvs fin -> named "o" kvs fout ->
     does (packMain E T args d) (packDB E fout fin d)) /\
  ((forall kvs fin fout, command pack_letters args kvs -> named "i" kvs fin -> named "o" kvs fout -> False) ->
     refuses d (packMain E T args d)).
Proof.
  intros E T args d. unfold packMain. split.
  - intros kvs fin fout K N1 N2.
    rewrite (proj2 (packArgs_iff T args (mkNames "" fin fout "" (given_as (t_atoi T) "c" kvs 64)))) by (exists kvs, fin, fout; auto).
    apply ended_does.
  - intros N. destruct (packArgs T args) as [c|] eqn:Q; [|reflexivity]. exfalso. apply packArgs_iff in Q.
    destruct Q as (kvs & fin & fout & K & N1 & N2 & _). exact (N _ _ _ K N1 N2).
Qed.
Print Assumptions C57_pack.

(** The description that cencalvmgen puts into its databases. *)
Definition authors : string :=
  ("U.S. Geological Survey" ++ String "010" "" ++
   "Thomas Brocher, Robert Jachens, Carl Wentworth, Russel Graymer, Robert Simpson, Brad Aagaard")%string.
Definition ingest E F files L fp fout ft d : disk * outcome unit :=
  let r := GridIngester.run E F files L (GridIngester.mkIngester fp fout ft authors true) d in (fst (fst r), snd r).
Theorem C57_gen : forall E F T L files args d,
  (forall kvs fp fout ft, command gen_letters args kvs -> named "i" kvs fp -> named "o" kvs fout -> named "t" kvs ft ->
     does (genMain E F T L files args d) (ingest E F files L fp fout ft d)) /\
  ((forall kvs fp fout ft, command gen_letters args kvs -> named "i" kvs fp -> named "o" kvs fout -> named "t" kvs ft -> False) ->
     refuses d (genMain E F T L files args d)).
Proof.
  intros E F T L files args d. unfold genMain, ingest. split.
  - intros kvs fp fout ft K N1 N2 N3.
    rewrite (proj2 (genArgs_iff T args (mkNames fp "" fout ft (given_as (t_atoi T) "c" kvs 512)))) by (exists kvs, fp, fout, ft; auto 6).
    cbn [f_params f_out f_tmp]. change genDescription with authors. destruct (GridIngester.run _ _ _ _ _ _) as [[d' cs] o]. apply ended_does.
  - intros N. destruct (genArgs T args) as [c|] eqn:Q; [|reflexivity]. exfalso. apply genArgs_iff in Q.
    destruct Q as (kvs & fp & fout & ft & K & N1 & N2 & N3 & _). exact (N _ _ _ _ K N1 N2 N3).
Qed.
Print Assumptions C57_gen.

(** The program that limits gradients, with the cache size of -c if that is positive and 128
    otherwise (the parameter file can change it again, C54). *)
Definition limiter (fp fin fout ft : string) (cache : Z) : VsRun.vsgrader :=
  VsRun.mkVsg fin fout ft fp (if 0 <? cache then cache else 128) f_zero MAXRES
    (mkGparams f_zero f_zero f_zero f_zero f_zero f_zero f_zero f_zero (i2f64 1) f_zero f_zero).
Theorem C57_grade : forall DB (EQ : env DB) E F T L files opens G args fs d,
  (forall kvs fp fin fout ft, command grade_letters args kvs -> named "p" kvs fp -> named "i" kvs fin -> named "o" kvs fout -> named "t" kvs ft ->
     does (gradeMain EQ E F T L files opens G args fs d)
       (VsRun.run EQ E F files L opens G (limiter fp fin fout ft (given_as (t_atoi T) "c" kvs 128)) fs d)) /\
  ((forall kvs fp fin fout ft, command grade_letters args kvs -> named "p" kvs fp -> named "i" kvs fin -> named "o" kvs fout -> named "t" kvs ft -> False) ->
     refuses d (gradeMain EQ E F T L files opens G args fs d)).
Proof.
  intros DB EQ E F T L files opens G args fs d. unfold gradeMain. split.
  - intros kvs fp fin fout ft K N1 N2 N3 N4.
    rewrite (proj2 (gradeArgs_iff T args (mkNames fp fin fout ft (given_as (t_atoi T) "c" kvs 128)))) by (exists kvs, fp, fin, fout, ft; auto 7).
    replace (gradeObject _) with (limiter fp fin fout ft (given_as (t_atoi T) "c" kvs 128)); [apply ended_does|].
    unfold limiter, gradeObject. cbn [f_cache f_in f_out f_tmp f_params]. destruct (0 <? _); reflexivity.
  - intros N. destruct (gradeArgs T args) as [c|] eqn:Q; [|reflexivity]. exfalso. apply gradeArgs_iff in Q.
    destruct Q as (kvs & fp & fin & fout & ft & K & N1 & N2 & N3 & N4 & _). exact (N _ _ _ _ _ K N1 N2 N3 N4).
Qed.
Print Assumptions C57_grade.

(** Options given the usual way, each value in a word of its own, are a well-formed command
    line; and a command line is read in one way only. *)
Theorem C57_separate_words : forall letters kvs, Forall (fun kv => In (fst kv) letters) kvs -> command letters (opt_words kvs) kvs.
Proof. exact command_words. Qed.
Print Assumptions C57_separate_words.
Theorem C57_read_in_one_way : forall letters args kvs kvs', ~ In "-"%char letters ->
  command letters args kvs -> command letters args kvs' -> kvs = kvs'.
Proof.
  intros letters args kvs kvs' N (items & tail & F & R & A & _ & ->) (items' & tail' & F' & R' & A' & _ & ->).
  set (opts := fun k => if existsb (Ascii.eqb k) letters then Some true else None).
  assert (LT : forall k, opts k = Some true <-> In k letters).
  { intros k. unfold opts. split.
    - destruct (existsb (Ascii.eqb k) letters) eqn:Q; [|discriminate]. intros _. apply existsb_exists in Q. destruct Q as (x & I & Q).
      apply Ascii.eqb_eq in Q. subst. exact I.
    - intros I. replace (existsb (Ascii.eqb k) letters) with true; [reflexivity|]. symmetry. apply existsb_exists. exists k. split; [exact I | apply Ascii.eqb_refl]. }
  assert (Q : args_of (settings items) = args_of (settings items')).
  { rewrite <- (app_nil_r (args_of (settings items))), <- (app_nil_r (args_of (settings items'))).
    rewrite <- (getopts_rest opts tail R) at 1. rewrite <- (getopts_rest opts tail' R').
    rewrite <- !(getopts_items opts letters LT N) by assumption. congruence. }
  revert Q. generalize (settings items) (settings items'). clear. unfold args_of.
  induction l as [|[k v] l IH]; intros [|[k' v'] l'] Q; try discriminate; [reflexivity|]. cbn [map fst snd] in Q. injection Q as -> -> Q.
  f_equal. exact (IH _ Q).
Qed.
Print Assumptions C57_read_in_one_way.

(** Asking for help is an error: after any options, -h gives the usage and exit code 1. *)
Lemma help_stops opts letters handle n c kvs more :
  (forall k, opts k = Some true <-> In k letters) -> ~ In "-"%char letters -> opts "h"%char = Some false ->
  Forall (fun kv => In (fst kv) letters) kvs ->
  scan handle n c (getopts opts None (opt_words kvs ++ "-h"%string :: more)) = None.
Proof.
  intros LT ND HF F. revert n c. induction F as [|[k v] kvs H _ IH]; intros n c.
  - cbn [opt_words flat_map app getopts]. change (String.eqb "-h" "--") with false. cbn [list_ascii_of_string].
    change (Ascii.eqb "-" dash) with true. cbv iota. cbn [cluster]. rewrite HF. reflexivity.
  - change (opt_words ((k, v) :: kvs) ++ "-h"%string :: more)%list with (item_words (Separate k v) ++ (opt_words kvs ++ "-h"%string :: more))%list.
    rewrite (getopts_item opts letters LT ND) by exact H. cbn [settings flat_map app args_of map fst snd scan].
    destruct (handle c k v); [apply IH | reflexivity].
Qed.
Theorem C57_help : forall kvs more E F T L files d DB (EQ : env DB) opens G fs,
  (Forall (fun kv => In (fst kv) avg_letters) kvs -> refuses d (avgMain E (opt_words kvs ++ "-h"%string :: more) d)) /\
  (Forall (fun kv => In (fst kv) gen_letters) kvs -> refuses d (genMain E F T L files (opt_words kvs ++ "-h"%string :: more) d)) /\
  (Forall (fun kv => In (fst kv) pack_letters) kvs -> refuses d (packMain E T (opt_words kvs ++ "-h"%string :: more) d)) /\
  (Forall (fun kv => In (fst kv) grade_letters) kvs ->
     refuses d (gradeMain EQ E F T L files opens G (opt_words kvs ++ "-h"%string :: more) fs d)).
Proof.
  intros kvs more E F T L files d DB EQ opens G fs.
  unfold refuses, avgMain, genMain, packMain, gradeMain, avgArgs, genArgs, packArgs, gradeArgs. repeat split; intros H.
  - rewrite (help_stops _ _ _ _ _ _ _ avg_iff ltac:(no_dash) eq_refl H). reflexivity.
  - rewrite (help_stops _ _ _ _ _ _ _ gen_iff ltac:(no_dash) eq_refl H). reflexivity.
  - rewrite (help_stops _ _ _ _ _ _ _ pack_iff ltac:(no_dash) eq_refl H). reflexivity.
  - rewrite (help_stops _ _ _ _ _ _ _ grade_iff ltac:(no_dash) eq_refl H). reflexivity.
Qed.
Print Assumptions C57_help.

(** A word that belongs to no option is usually refused, but not if as many options are
    joined with their values; *)
Theorem C57_leftover_words_refuted : ~ (forall E items d, Forall (item_ok avg_letters) items -> (0 < stray items)%nat ->
  refuses d (avgMain E (flat_map item_words items) d)).
Proof.
  intros H. specialize (H works [Joined "i" "in"; Joined "o" "out"; Stray "a"; Stray "b"] (fun _ => None)).
  assert (A : Forall (item_ok avg_letters) [Joined "i" "in"; Joined "o" "out"; Stray "a"; Stray "b"]).
  { repeat apply Forall_cons; try apply Forall_nil; cbn [item_ok]; try (split; [cbn; tauto | discriminate]); intros c s; discriminate. }
  specialize (H A ltac:(cbn; lia)). vm_compute in H. discriminate.
Qed.
Print Assumptions C57_leftover_words_refuted.
(** and options that are all joined with their values are always refused. *)
Theorem C57_joined_refused : forall E items d, Forall (item_ok avg_letters) items -> stray items = 0%nat -> (0 < joined items)%nat ->
  refuses d (avgMain E (flat_map item_words items) d).
Proof.
  intros E items d F S J. apply C57_avg. intros kvs fin fout K _ _.
  pose proof (command_argc _ _ avg_iff ltac:(no_dash) _ _ avg_handles avg_unhandled _ _ (mkNames "" "" "" "" 0) K) as Q.
  rewrite <- (app_nil_r (flat_map item_words items)) in Q at 1.
  rewrite (getopts_items _ _ avg_iff ltac:(no_dash)) in Q by exact F. cbn [getopts] in Q. rewrite app_nil_r in Q.
  rewrite (scan_args _ _ _ avg_handles) in Q by (apply settings_letters, F).
  assert (N : 1 + 2 * Z.of_nat (List.length (settings items)) = argc (flat_map item_words items)) by congruence.
  pose proof (words_count items). unfold argc in N. lia.
Qed.
Print Assumptions C57_joined_refused.

(** ** C58: what an exit code tells *)
(** Exit code 0 of the averager: the input opened and had the expected layout, and the
    output has the averaged octants of the input as far as it was delivered, the standard
    schema and the description of the input with date and host, if it could be closed; no
    other file changed and nothing was said. *)
Lemma average_returns E fin fout d d' c : fin <> fout -> average E fin fout d = (d', Val c) ->
  exists f s, usable E d fin f /\ fillOctants (et_store E) (delivered (et_adv E fin) (d_recs f)) = Val s /\ c = e_cnt s /\
    d' fout = Some (mkDb (if et_flush E fout then file_recs junk0 (e_db s) else et_partial E) (Some SCHEMA) (option_map (averagedMeta E) (d_meta f)) 28).
Proof.
  intros Hn H. unfold average, andThen, openRead in H. fold (reading_of E fin) in H.
  destruct (d fin) as [f|] eqn:D; [|discriminate]. destruct (et_open E d fin) eqn:O; [|discriminate].
  destruct (d_size f =? PAYLOADSIZE) eqn:SZ; [|discriminate]. cbn [negb] in H. apply Z.eqb_eq in SZ.
  destruct (d_schema f) as [s|] eqn:SC; [|discriminate].
  destruct (String.eqb_spec s SCHEMA) as [->|]; [|discriminate]. cbn [negb] in H.
  unfold openNew in H. destruct (et_create E d fout); [|discriminate]. cbv beta iota in H.
  unfold registerSchema in H. destruct (et_regschema E fout); [|discriminate]. unfold write at 1 in H. cbv beta iota in H.
  rewrite put_same in H. cbn [option_map] in H. apply String.eqb_neq in Hn. rewrite Hn in H.
  assert (U : usable E d fin f) by (repeat split; assumption).
  destruct (d_meta f) as [m|] eqn:DM.
  - unfold setAppMeta in H. destruct (et_setmeta E fout _); [|discriminate]. unfold write at 1 in H. cbv beta iota zeta in H.
    rewrite put_same in H. cbn [option_map] in H.
    destruct (fillFrom (et_store E) (reading_of E fin) (d_recs f)) as [st|m'| |w] eqn:FO; try discriminate. apply fillFrom_val in FO. destruct FO as (_ & _ & FO).
    unfold write, ret in H. cbv beta iota in H. rewrite put_same in H. injection H as <- <-.
    exists f, st. rewrite DM. split; [exact U|]. split; [exact FO|]. split; [reflexivity|]. rewrite put_same. reflexivity.
  - unfold ret at 1 in H. cbv beta iota zeta in H.
    destruct (fillFrom (et_store E) (reading_of E fin) (d_recs f)) as [st|m'| |w] eqn:FO; try discriminate. apply fillFrom_val in FO. destruct FO as (_ & _ & FO).
    unfold write, ret in H. cbv beta iota in H. rewrite put_same in H. injection H as <- <-.
    exists f, st. rewrite DM. split; [exact U|]. split; [exact FO|]. split; [reflexivity|]. rewrite put_same. reflexivity.
Qed.
Lemma does_zero {A} program (call : disk * outcome A) d' s : does program call -> program = (d', Val (0, s)) ->
  exists a, call = (d', Val a) /\ s = [].
Proof.
  intros [F X] ->. destruct call as [d o]. cbn [fst snd] in *. subst d'. inversion X; subst. eexists. split; reflexivity.
Qed.
Lemma refused_code {A : Prop} d program d' s : refuses d program -> program = (d', Val (0, s)) -> A.
Proof. intros -> H. discriminate. Qed.

Theorem C58_avg_exit_0 : forall E args d d' s, avgMain E args d = (d', Val (0, s)) ->
  exists kvs fin fout, command avg_letters args kvs /\ named "i" kvs fin /\ named "o" kvs fout /\ s = [] /\
    others_untouched fout d d' /\
    (fin <> fout -> et_flush E fout = true -> exists f, usable E d fin f /\
      (accepts (et_store E) -> wf_input (delivered (et_adv E fin) (d_recs f)) ->
       exists st out, fillOctants (et_store E) (delivered (et_adv E fin) (d_recs f)) = Val st /\ stored (e_db st) out /\
         d' fout = Some (mkDb out (Some SCHEMA)
           (match d_meta f with
            | Some m => Some (m ++ String "010" "" ++ "spatially averaged on: " ++ et_now E ++ "host: " ++ et_host E)%string
            | None => None end) 28))).
Proof.
  intros E args d d' s H. unfold avgMain in H. destruct (avgArgs args) as [c|] eqn:Q; [|exact (refused_code d _ d' s eq_refl H)].
  apply avgArgs_iff in Q. destruct Q as (kvs & fin & fout & K & N1 & N2 & ->). cbn [f_in f_out] in H.
  destruct (does_zero _ _ _ _ (ended_does _) H) as (a & C & ->). exists kvs, fin, fout. do 4 (split; [assumption || reflexivity|]). split.
  - pose proof (C17_only_output_changes E fin fout d) as O. rewrite C in O. exact O.
  - intros Hn HF. destruct (average_returns _ _ _ _ _ _ Hn C) as (f & st & U & FO & _ & D). rewrite HF in D. exists f. split; [exact U|]. intros A W.
    destruct (C12_averaging_succeeds _ _ A W) as (st' & FO' & HP). rewrite FO in FO'. injection FO' as <-.
    exists st, (file_recs junk0 (e_db st)). split; [exact FO|]. split; [apply stored_values; exact HP|]. rewrite D. destruct (d_meta f); reflexivity.
Qed.
Print Assumptions C58_avg_exit_0.

(** Exit code 0 of the packing program: the output is the input as far as it was delivered,
    record by record, with the standard schema; no other file changed. *)
Theorem C58_pack_exit_0 : forall E T args d d' s, packMain E T args d = (d', Val (0, s)) ->
  exists kvs fin fout, command pack_letters args kvs /\ named "i" kvs fin /\ named "o" kvs fout /\ s = [] /\
    others_untouched fout d d' /\
    (fin <> fout -> exists f, d fin = Some f /\ d_recs f <> [] /\ d' fout = Some (mkDb (delivered (et_adv E fin) (d_recs f)) (Some SCHEMA) (d_meta f) 28)).
Proof.
  intros E T args d d' s H. unfold packMain in H. destruct (packArgs T args) as [c|] eqn:Q; [|exact (refused_code d _ d' s eq_refl H)].
  apply packArgs_iff in Q. destruct Q as (kvs & fin & fout & K & N1 & N2 & ->). cbn [f_in f_out] in H.
  destruct (does_zero _ _ _ _ (ended_does _) H) as (a & C & ->). exists kvs, fin, fout. do 4 (split; [assumption || reflexivity|]). split.
  - pose proof (packDB_confined E fout fin d) as O. rewrite C in O. exact O.
  - intros Hn. destruct a. exact (pack_ends E fout fin d d' (not_eq_sym Hn) C).
Qed.
Print Assumptions C58_pack_exit_0.

(** Exit code 0 of cencalvmgen: the list of grid files was readable, each file listed was
    there, the output has the records of all the points with data of each file that starts
    with a header, and there is at least one, if the temporary file could be closed and read to
    its end; the description is the one of the program with
    date and host.  Only the output and the temporary file changed. *)
Theorem C58_gen_exit_0 : forall E F T L files args d d' s, genMain E F T L files args d = (d', Val (0, s)) ->
  exists kvs fp fout ft, command gen_letters args kvs /\ named "i" kvs fp /\ named "o" kvs fout /\ named "t" kvs ft /\ s = [] /\
    (forall n, n <> fout -> n <> ft -> d' n = d n) /\
    (ft <> fout -> et_flush E ft = true -> reads_on E ft -> exists text tail listed recss out,
       files fp = Some (text ++ tail)%string /\ laid_out listed text /\ unterminated tail /\
       Forall2 (all_or_nothing F L files) listed recss /\
       Permutation out (concat recss) /\ out <> [] /\
       d' fout = Some (mkDb out (Some SCHEMA)
         (Some (authors ++ String "010" "" ++ "created on: " ++ et_now E ++ "host: " ++ et_host E)%string) 28)).
Proof.
  intros E F T L files args d d' s H. unfold genMain in H. destruct (genArgs T args) as [c|] eqn:Q; [|exact (refused_code d _ d' s eq_refl H)].
  apply genArgs_iff in Q. destruct Q as (kvs & fp & fout & ft & K & N1 & N2 & N3 & ->). cbn [f_params f_out f_tmp] in H.
  change genDescription with authors in H. set (g := GridIngester.mkIngester fp fout ft authors true) in H.
  destruct (GridIngester.run E F files L g d) as [[d1 cs] o] eqn:R.
  destruct (does_zero _ _ _ _ (ended_does _) H) as ([] & C & ->). injection C as -> ->. exists kvs, fp, fout, ft.
  do 5 (split; [assumption || reflexivity|]). split.
  - intros n A B. pose proof (run_confined E F files L g d n A B) as X. rewrite R in X. exact X.
  - intros Hn HF HRd. destruct (run_inv E F files L g d d' cs eq_refl Hn HF HRd R) as (text & tail & ns & recss & out & X1 & X2 & X3 & X4 & X5 & X6 & X7).
    exists text, tail, ns, recss, out. do 6 (split; [assumption|]). exact X5.
Qed.
Print Assumptions C58_gen_exit_0.

(** The programs catch every exception: they end with code 0 in silence, or with code 1 and
    one message, unless an assertion fails or the behaviour is undefined. *)
Definition ends_well (program : disk * outcome (Z * list said)) : Prop :=
  match snd program with
  | Val (n, s) => (n = 0 /\ s = []) \/ (n = 1 /\ exists m, s = [m])
  | Throw _ => False
  | Abort => True
  | UB _ => True
  end.
Theorem C58_codes : forall E F T L files DB (EQ : env DB) opens G fs args d,
  ends_well (avgMain E args d) /\ ends_well (genMain E F T L files args d) /\ ends_well (packMain E T args d) /\
  ends_well (gradeMain EQ E F T L files opens G args fs d).
Proof.
  intros E F T L files DB EQ opens G fs args d.
  assert (W : forall A (r : disk * outcome A), ends_well (ended r)).
  { intros A [d0 [a|m| |w]]; unfold ends_well; cbn; try exact I; [left; auto | right; eauto]. }
  assert (U : ends_well (usageExit d)) by (unfold ends_well; cbn; right; eauto).
  unfold avgMain, genMain, packMain, gradeMain. repeat split.
  - destruct (avgArgs args); [apply W | exact U].
  - destruct (genArgs T args); [|exact U]. destruct (GridIngester.run _ _ _ _ _ _) as [[d1 cs] o]. apply W.
  - destruct (packArgs T args); [apply W | exact U].
  - destruct (gradeArgs T args); [apply W | exact U].
Qed.
Print Assumptions C58_codes.

(** However a program ends, it has changed no files but those given for the output and for
    temporary data. *)
Theorem C58_confined : forall E F T L files DB (EQ : env DB) opens G fs args d n,
  let given_for letters k := exists kvs, command letters args kvs /\ named k kvs n in
  (~ given_for avg_letters "o"%char -> fst (avgMain E args d) n = d n) /\
  (~ given_for pack_letters "o"%char -> fst (packMain E T args d) n = d n) /\
  (~ given_for gen_letters "o"%char -> ~ given_for gen_letters "t"%char -> fst (genMain E F T L files args d) n = d n) /\
  (~ given_for grade_letters "o"%char -> ~ given_for grade_letters "t"%char ->
     fst (gradeMain EQ E F T L files opens G args fs d) n = d n).
Proof.
  intros E F T L files DB EQ opens G fs args d n. cbv zeta.
  assert (W : forall A (r : disk * outcome A), fst (ended r) = fst r) by (intros A [d0 [a|m| |w]]; reflexivity).
  split; [|split; [|split]].
  - intros NO. unfold avgMain. destruct (avgArgs args) as [c|] eqn:Q; [|reflexivity]. apply avgArgs_iff in Q.
    destruct Q as (kvs & fin & fout & K & N1 & N2 & ->). rewrite W. cbn [f_in f_out]. apply C17_only_output_changes.
    intros ->. apply NO. exists kvs. auto.
  - intros NO. unfold packMain. destruct (packArgs T args) as [c|] eqn:Q; [|reflexivity]. apply packArgs_iff in Q.
    destruct Q as (kvs & fin & fout & K & N1 & N2 & ->). rewrite W. cbn [f_in f_out]. apply packDB_confined.
    intros ->. apply NO. exists kvs. auto.
  - intros NO NT. unfold genMain. destruct (genArgs T args) as [c|] eqn:Q; [|reflexivity]. apply genArgs_iff in Q.
    destruct Q as (kvs & fp & fout & ft & K & N1 & N2 & N3 & ->). cbn [f_params f_out f_tmp].
    set (g := GridIngester.mkIngester fp fout ft genDescription true).
    pose proof (run_confined E F files L g d n) as X. destruct (GridIngester.run E F files L g d) as [[d1 cs] o]. rewrite W. cbn [fst] in *.
    apply X; cbn; intros ->; [apply NO | apply NT]; exists kvs; auto.
  - intros NO NT. unfold gradeMain. destruct (gradeArgs T args) as [c|] eqn:Q; [|reflexivity]. apply gradeArgs_iff in Q.
    destruct Q as (kvs & fp & fin & fout & ft & K & N1 & N2 & N3 & N4 & ->). rewrite W.
    apply PropVsRun.C56_confined; unfold gradeObject; cbn [f_cache f_in f_out f_tmp f_params];
      destruct (0 <? _); cbn; intros ->; try (apply NO; exists kvs; auto; fail); apply NT; exists kvs; auto.
Qed.
Print Assumptions C58_confined.

From Verif Require Import ToyLib ToyGrid PropApp.
(** A listed file without a header is passed over only if the values that are not read are
    accepted as resolutions: files with nothing but the two resolutions are (C39), so exit
    code 0 does not tell that every listed file was used. *)
Theorem C58_every_file_used_refuted : ~ (forall E F T L files args d d' s kvs fp listed text tail,
  genMain E F T L files args d = (d', Val (0, s)) -> command gen_letters args kvs -> named "i" kvs fp ->
  files fp = Some (text ++ tail)%string -> laid_out listed text -> unterminated tail ->
  forall n, In n listed -> exists t, files n = Some t /\ has_header F t).
Proof.
  intros H. set (files := fun n => if String.eqb n "list" then Some "grid.txt short.txt "%string else
    if String.eqb n "short.txt" then Some "51.2 12.8 "%string else PropGrid.toy_texts n).
  set (args := ["-i"; "list"; "-t"; "tmp"; "-o"; "out"]%string).
  set (r := genMain toy_etree toy_fmt app_texts toy files args (fun _ => None)).
  assert (R : snd r = Val (0, [])) by (vm_compute; reflexivity).
  destruct (H toy_etree toy_fmt app_texts toy files args (fun _ => None) (fst r) [] [("i"%char, "list"%string); ("t"%char, "tmp"%string); ("o"%char, "out"%string)] "list"%string
    ["grid.txt"; "short.txt"]%string "grid.txt short.txt "%string ""%string) with (n := "short.txt"%string) as (t & Q & HH).
  - rewrite <- R. apply surjective_pairing.
  - apply (command_words gen_letters [("i"%char, "list"%string); ("t"%char, "tmp"%string); ("o"%char, "out"%string)]). repeat constructor; cbn; tauto.
  - split; [reflexivity | discriminate].
  - reflexivity.
  - apply (lay_laid ["grid.txt"; "short.txt"]%string). reflexivity.
  - left. reflexivity.
  - right. left. reflexivity.
  - injection Q as <-.
    pose proof (fun s2 s3 s4 s5 s6 s7 rh rv nx ny nz n => header_runs toy_fmt "51.2 12.8 " s2 s3 s4 s5 s6 s7 rh rv nx ny nz n HH) as X.
    edestruct X as [G _]; [vm_compute; reflexivity..|]. discriminate G.
Qed.
Print Assumptions C58_every_file_used_refuted.

(** ** Examples *)
Definition seen (r : disk * outcome (Z * list said)) (n : string) : outcome (Z * list said) * option nat :=
  (snd r, option_map (fun f => List.length (d_recs f)) (fst r n)).
Example C57_example_avg :
  command avg_letters ["-i"; "in"; "-o"; "out"]%string [("i"%char, "in"%string); ("o"%char, "out"%string)] /\
  command avg_letters ["-iin"; "file"; "-oold"; "-o"; "out"; "--"]%string [("i"%char, "in"%string); ("o"%char, "old"%string); ("o"%char, "out"%string)] /\
  named "o" [("i"%char, "in"%string); ("o"%char, "old"%string); ("o"%char, "out"%string)] "out" /\
  seen (avgMain works ["-i"; "in"; "-o"; "out"]%string toy_disk) "out" = seen (avgMain works ["-iin"; "file"; "-oold"; "-o"; "out"; "--"]%string toy_disk) "out" /\
  fst (seen (avgMain works ["-i"; "in"; "-o"; "out"]%string toy_disk) "out") = Val (0, []).
Proof.
  split; [apply (command_words avg_letters [("i"%char, "in"%string); ("o"%char, "out"%string)]); repeat constructor; cbn; tauto|].
  split.
  { exists [Joined "i" "in"; Stray "file"; Joined "o" "old"; Separate "o" "out"]%string, ["--"%string]. split.
    - repeat apply Forall_cons; try apply Forall_nil; cbn [item_ok]; [split; [cbn; tauto | discriminate] | intros c s; discriminate | split; [cbn; tauto | discriminate] | cbn; tauto].
    - split; [right; exists []; reflexivity|]. split; [reflexivity|]. split; reflexivity. }
  split; [split; [reflexivity | discriminate]|]. split; vm_compute; reflexivity.
Qed.
Example C57_example_others :
  fst (seen (packMain works app_texts ["-c"; "64"; "-i"; "in"; "-o"; "out"]%string toy_disk) "out") = Val (0, []) /\
  packMain works app_texts ["-i"; "in"; "-o"; ""]%string toy_disk = (toy_disk, Val (1, [Usage])) /\
  snd (packMain works app_texts ["-i"; "none"; "-o"; "out"]%string toy_disk) = snd (packMain works app_texts ["-i"; "none"; "-o"; "out"]%string (fun _ => None)) /\
  snd (genMain toy_etree toy_fmt app_texts toy PropGrid.toy_texts ["-i"; "list.txt"; "-o"; "model"; "-t"; "tmp"]%string (fun _ => None)) = Val (0, []) /\
  genMain toy_etree toy_fmt app_texts toy PropGrid.toy_texts ["-i"; "list.txt"; "-o"; "model"]%string (fun _ => None) = (fun _ => None, Val (1, [Usage])).
Proof. split; [vm_compute; reflexivity|]. split; [reflexivity|]. split; [reflexivity|]. split; [vm_compute; reflexivity | reflexivity]. Qed.
Example C58_example :
  seen (genMain toy_etree toy_fmt app_texts toy PropGrid.toy_texts ["-i"; "list.txt"; "-o"; "model"; "-t"; "tmp"]%string (fun _ => None)) "model" = (Val (0, []), Some 2%nat) /\
  exists m, seen (genMain toy_etree toy_fmt app_texts toy PropGrid.toy_texts ["-i"; "none"; "-o"; "model"; "-t"; "tmp"]%string (fun _ => None)) "model" = (Val (1, [Said m]), None).
Proof. split; [vm_compute; reflexivity|]. eexists. vm_compute. reflexivity. Qed.
