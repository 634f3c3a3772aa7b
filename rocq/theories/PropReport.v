(** C65 and C66: what the programs print. *)
From Coq Require Import ZArith Bool Lia Ascii String Sorting.Permutation List.
From Verif Require Import Outcome Float Payload Addr SpecOct AddrFacts AvgEngine SpecAvg AvgFinal Geom Store Averager
  VMCreator Stream GridIngester SpecText SpecStore SpecGrid StreamFacts StoreFacts GridFacts GridMain GridInv GetOpt QueryApp SpecHist SpecApp
  SpecSmall SmallFacts SpecInfo SpecReport Report ReportFacts PropAvg PropStore.
From Verif Require SmallApps PropInfo PropSmall.
Import ListNotations.
Open Scope string_scope.
Open Scope Z_scope.

(** ** C65: the report of averaging *)
Lemma counters_report st inp s : accepts st -> wf_input inp -> fillOctants st inp = Val s ->
  averaging_report inp (e_db s) (printOctantInfo (e_cnt s)).
Proof.
  intros A W FO. destruct (C11_counts st inp s A W FO) as [-> _]. unfold printOctantInfo. cbn [c_input c_output c_interior c_x c_y c_z c_xy c_yz c_xz c_xyz c_invalid].
  assert (P : forall i d cs, 0 <= count_with i d cs) by (intros; unfold count_with; lia).
  assert (P' : forall i d, 0 <= count_irregular i d) by (intros; unfold count_irregular; lia).
  do 11 eexists. do 11 (split; [apply PropInfo.showZ_spells; first [apply P | apply P' | lia]|]).
  cbn [as_lines]. change newline with nl. rewrite !app_assoc_s. reflexivity.
Qed.

(** Averaging a well-formed database prints the report on it and on what is in the output
    file; a quiet object prints nothing. *)
Theorem C65_report : forall E fin fout d f, fin <> fout ->
  usable E d fin f -> can_create E d fout -> can_read E fin -> et_flush E fout = true ->
  accepts (et_store E) -> wf_input (d_recs f) ->
  exists d' db out text, averageP false E fin fout d = (d', mkPrinted text "", Val tt) /\
    averageP true E fin fout d = (d', silent, Val tt) /\
    averaging_report (d_recs f) db text /\ stored db out /\ (exists g, d' fout = Some g /\ d_recs g = out).
Proof.
  intros E fin fout d f H1 H2 H3 H4 H5 H6 H7.
  destruct (C17_averages_file E fin fout d f H1 H2 H3 H4 H5 H6 H7) as (d' & s & out & FO & A & ST & D & _).
  exists d', (e_db s), out, (printOctantInfo (e_cnt s)). unfold averageP. rewrite A. do 2 (split; [reflexivity|]).
  split; [exact (counters_report _ _ _ H6 H7 FO)|]. split; [exact ST|]. eexists. split; [exact D | reflexivity].
Qed.
Print Assumptions C65_report.

(** No report, not even a part of it, unless the averaging has finished. *)
Theorem C65_no_report : forall quiet E fin fout d d' pr o,
  averageP quiet E fin fout d = (d', pr, o) -> o <> Val tt -> pr = silent.
Proof.
  intros quiet E fin fout d d' pr o H N. unfold averageP in H. destruct (average E fin fout d) as [d1 [c| | |]]; injection H as <- <- <-; try reflexivity.
  destruct (N eq_refl).
Qed.
Print Assumptions C65_no_report.

(** The program cencalvmavg: what it does to the files and how it ends is what C57 and C58 say;
    with exit code 0 it has printed the report, otherwise nothing on standard output, and
    nothing but the message of C57 on standard error. *)
Theorem C65_program : forall E args d d' pr o, avgMainP E args d = (d', pr, o) ->
  SmallApps.avgMain E args d = (d', o) /\ on_err pr = "" /\
  (forall s, o = Val (0, s) -> exists kvs fin fout, command avg_letters args kvs /\ named "i" kvs fin /\ named "o" kvs fout /\
     (fin <> fout -> exists f, usable E d fin f /\
       (accepts (et_store E) -> wf_input (delivered (et_adv E fin) (d_recs f)) ->
        exists st, fillOctants (et_store E) (delivered (et_adv E fin) (d_recs f)) = Val st /\
          averaging_report (delivered (et_adv E fin) (d_recs f)) (e_db st) (on_out pr)))) /\
  ((forall s, o <> Val (0, s)) -> on_out pr = "").
Proof.
  intros E args d d' pr o H. pose proof (avgMainP_drop E args d) as D. rewrite H in D. cbn [drop] in D.
  split; [symmetry; exact D|]. unfold avgMainP in H. destruct (SmallApps.avgArgs args) as [c|] eqn:Q.
  2:{ injection H as <- <- <-. split; [reflexivity|]. split; [intros s X; discriminate | reflexivity]. }
  apply avgArgs_iff in Q. destruct Q as (kvs & fin & fout & K & N1 & N2 & ->). cbn [SmallApps.f_in SmallApps.f_out] in H. unfold averageP in H.
  destruct (average E fin fout d) as [d1 [c|m| |w]] eqn:A; injection H as <- <- <-.
  - split; [reflexivity|]. split; [|intros X; destruct (X [] eq_refl)]. intros s _. exists kvs, fin, fout. do 3 (split; [assumption|]).
    intros Hn. destruct (PropSmall.average_returns _ _ _ _ _ _ Hn A) as (f & st & U & FO & CC & _). exists f. split; [exact U|].
    intros AC W. exists st. split; [exact FO|]. cbn [on_out]. subst c. exact (counters_report _ _ _ AC W FO).
  - split; [reflexivity|]. split; [intros s X; discriminate | reflexivity].
  - split; [reflexivity|]. split; [intros s X; discriminate | reflexivity].
  - split; [reflexivity|]. split; [intros s X; discriminate | reflexivity].
Qed.
Print Assumptions C65_program.

(** The number of octants that cencalvminfo tells of the averaged database is the one in the
    report. *)
Theorem C65_agrees_with_info : forall E fin fout d f m, fin <> fout ->
  usable E d fin f -> can_create E d fout -> can_read E fin -> et_flush E fout = true ->
  accepts (et_store E) -> wf_input (d_recs f) -> d_meta f = Some m ->
  (forall d0, et_open E d0 fout = true) -> et_close E fout = true ->
  exists d' text info n, averageP false E fin fout d = (d', mkPrinted text "", Val tt) /\
    SmallApps.infoMain E [fout] d' = (0, [], info) /\
    (exists before after, text = before ++ newline ++ "  OUT total: " ++ n ++ ", interior: " ++ after) /\
    (exists before, info = before ++ newline ++ "Number of octants: " ++ n ++ newline).
Proof.
  intros E fin fout d f m H1 H2 H3 H4 H5 H6 H7 HM HO HC.
  destruct (C17_averages_file E fin fout d f H1 H2 H3 H4 H5 H6 H7) as (d' & s & out & FO & A & ST & D & _). rewrite HM in D.
  assert (LEN : List.length out = List.length (e_db s)) by (rewrite <- ST, map_length; reflexivity).
  exists d', (printOctantInfo (e_cnt s)). eexists. exists (showZ (Z.of_nat (List.length out))). split; [unfold averageP; rewrite A; reflexivity|].
  split; [|split].
  - unfold SmallApps.infoMain, openRead. rewrite D, HO. cbn [d_meta d_schema d_recs]. rewrite HC. reflexivity.
  - destruct (C11_counts _ _ _ H6 H7 FO) as [-> _]. unfold printOctantInfo. cbn [c_input c_output]. rewrite LEN.
    exists ("Summary of etree averaging" ++ nl ++ "Number of octants" ++ nl ++ "  IN: " ++ showZ (Z.of_nat (List.length (d_recs f)))).
    eexists. change newline with nl. rewrite !app_assoc_s. reflexivity.
  - match goal with |- context[_ ++ "Database schema:" ++ nl ++ ?sc ++ nl ++ nl ++ _] => idtac end.
    match goal with |- exists before, (?a ++ "Database schema:" ++ nl ++ ?sc ++ _) = _ => exists (a ++ "Database schema:" ++ nl ++ sc ++ nl) end.
    change newline with nl. rewrite !app_assoc_s. reflexivity.
Qed.
Print Assumptions C65_agrees_with_info.

(** ** C66: the messages of cencalvmgen *)
(** Printing changes nothing else: files, exit code and final message are those of C57 and C58. *)
Theorem C66_effects : forall E F X L sci files args d d' pr o,
  genMainP E F X L sci files args d = (d', pr, o) -> SmallApps.genMain E F X L files args d = (d', o).
Proof. intros E F X L sci files args d d' pr o H. rewrite <- (genMainP_drop E F X L sci), H. reflexivity. Qed.
Print Assumptions C66_effects.

(** Each grid file that can be opened is announced.  Points left out are listed on standard
    error in their order; the numbers of the final line, or of the message about an
    exception, are those of the points with and without data that were read, and as many
    records as that were stored. *)
Theorem C66_file : forall E F T L sci g db file text d f d' c pr o, gi_geom g = true -> T file = Some text -> d db = Some f ->
  addGridP false E F T L sci g db file d = (d', c, pr, o) ->
  exists lev pts recs f', points_read F text pts /\ grid_recs L lev pts recs /\ d' db = Some f' /\ got f f' recs /\
    match o with
    | Val _ => all_points F L text lev pts /\ exists dn, done_line file pts dn /\
        on_out pr = as_lines [begin_line file; dn] /\ on_err pr = left_out_lines sci pts
    | Throw m => exists ct, caught_text file pts m ct /\
        on_out pr = as_lines [begin_line file] /\ on_err pr = left_out_lines sci pts ++ ct
    | _ => on_out pr = as_lines [begin_line file] /\ on_err pr = left_out_lines sci pts
    end.
Proof.
  intros E F T L sci g db file text d f d' c pr o HG HT Hd H.
  destruct (addGridP_says false E F T L sci g db file text d d' f c pr o HG HT Hd H) as (lev & pts & recs & P1 & P2 & P3 & P4 & P5).
  exists lev, pts, recs. eexists. do 2 (split; [assumption|]). split; [exact P3|].
  split; [split; [cbn [set_recs d_recs]; apply add_all_perm | repeat split]|].
  destruct o as [u|m| |w].
  - destruct P5 as (A & dn & D & ->). split; [exact A|]. exists dn. split; [exact D|]. split; reflexivity.
  - destruct P5 as (ct & C & ->). exists ct. split; [exact C|]. split; [|reflexivity]. unfold shown, also. cbn [on_out as_lines]. apply app_nil_r_s.
  - subst pr. split; reflexivity.
  - subst pr. split; reflexivity.
Qed.
Print Assumptions C66_file.

(** Told to be quiet, the ingester prints nothing but the message about an exception. *)
Theorem C66_quiet : forall E F T L sci g db file d d' c pr o,
  addGridP true E F T L sci g db file d = (d', c, pr, o) -> on_out pr = "" /\ ((forall m, o <> Throw m) -> on_err pr = "").
Proof.
  intros E F T L sci g db file d d' c pr o H. unfold addGridP in H. destruct (negb (gi_geom g)); [injection H as <- <- <- <-; split; reflexivity|].
  destruct (T file) as [t|]; [|injection H as <- <- <- <-; split; reflexivity]. 
  assert (S : forall n res s a i dd, snd (fst (addPointsP true E F L sci db res n s a i silent dd)) = silent).
  { induction n as [|n IH]; intros res s a i dd; cbn [addPointsP]; [reflexivity|]. destruct (getLine F s) as [s' l]. destruct (negb (good s')); [reflexivity|].
    destruct (_ && _); [destruct (insert E L (Some db) _ _ _ _ res dd) as [d1 [u| | |]]; [apply IH | reflexivity..]|].
    replace (silent +++ ignoring true sci l) with silent; [apply IH|]. unfold ignoring, warn. destruct (negb _); reflexivity. }
  assert (R : snd (fst (readGridP true E F L sci g db file t d)) = silent).
  { unfold readGridP. repeat match goal with |- context[getNum ?c ?o ?x] => destruct (getNum c o x) end.
    destruct (differs _ VERTEXAG); [reflexivity|]. destruct (level L _) as [lev| | |]; [|reflexivity..].
    destruct (edgeLen lev) as [len| | |]; [|reflexivity..]. destruct (differs _ len); [reflexivity|]. apply S. }
  destruct (readGridP true E F L sci g db file t d) as [[[d1 [na ni]] pr1] o1]. cbn [fst snd] in R. subst pr1.
  destruct o1 as [u|m| |w]; injection H as <- <- <- <-; (split; [reflexivity|]); intros N; try reflexivity. destruct (N m eq_refl).
Qed.
Print Assumptions C66_quiet.

Lemma closeDB_val E n d : exists d', closeDB E n d = (d', Val tt).
Proof. unfold closeDB. destruct (et_flush E n); [eexists; reflexivity|]. unfold write. destruct (d n); eexists; reflexivity. Qed.
Lemma packDBP_says E p u d d' pr o : packDBP false E p u d = (d', pr, o) -> on_err pr = "" /\
  on_out pr = as_lines (("Creating packed etree database '" ++ p ++ "' from unpacked etree database '" ++ u ++ "'.") ::
    match o with Val _ => [packed_line] | _ => [] end).
Proof.
  unfold packDBP. destruct (packDB E p u d) as [d1 [[]| | |]]; intros H; pose proof (f_equal (fun r => snd (fst r)) H) as P; pose proof (f_equal snd H) as O; cbn [fst snd] in P, O; subst pr o; clear H;
    (split; [reflexivity|]);
    unfold tell, also; cbn [on_out app as_lines]; change newline with nl; rewrite ?app_nil_r_s, ?app_assoc_s; reflexivity.
Qed.
Lemma openDBP_says E n desc d d' pr o : openDBP false E n desc d = (d', pr, o) -> on_err pr = "" /\
  on_out pr = as_lines (("Opening new etree database '" ++ n ++ "'.") :: match o with Val _ => [ready_line] | _ => [] end).
Proof.
  unfold openDBP. destruct (openDB E n desc d) as [d1 [[]| | |]]; intros H; pose proof (f_equal (fun r => snd (fst r)) H) as P; pose proof (f_equal snd H) as O; cbn [fst snd] in P, O; subst pr o; clear H;
    (split; [reflexivity|]);
    unfold tell, also; cbn [on_out app as_lines]; change newline with nl; rewrite ?app_nil_r_s, ?app_assoc_s; reflexivity.
Qed.

(** Exit code 0: the list and all its files were read, in order, and the text is complete. *)
Theorem C66_exit_0 : forall E F X L sci files args d d' pr s, genMainP E F X L sci files args d = (d', pr, Val (0, s)) ->
  exists kvs fp fout ft text tail listed ptss lines n, command gen_letters args kvs /\
    named "i" kvs fp /\ named "o" kvs fout /\ named "t" kvs ft /\ s = [] /\
    files fp = Some (text ++ tail) /\ laid_out listed text /\ unterminated tail /\
    files_read F L files listed ptss /\ file_lines listed ptss lines /\ spells n (Z.of_nat (List.length listed)) /\
    on_out pr = as_lines (first_lines n ft ++ [ready_line] ++ lines ++ last_lines ft fout ++ [packed_line])%list /\
    on_err pr = left_out_lines sci (concat ptss).
Proof.
  intros E F X L sci files args d d' pr s H. unfold genMainP in H. destruct (SmallApps.genArgs X args) as [c|] eqn:Q; [|discriminate].
  apply genArgs_iff in Q. destruct Q as (kvs & fp & fout & ft & K & N1 & N2 & N3 & ->). cbn [SmallApps.f_params SmallApps.f_out SmallApps.f_tmp] in H.
  set (g := mkIngester fp fout ft SmallApps.genDescription true) in H.
  destruct (runP false E F files L sci g d) as [[[d1 cs] pr1] o1] eqn:R. rewrite endedP_drop in H.
  destruct o1 as [[]|m| |w]; [|discriminate..]. injection H as -> -> <-.
  unfold runP in R. destruct (String.eqb (gi_params g) "" || String.eqb (gi_tmp g) "" || String.eqb (gi_out g) ""); [discriminate|].
  unfold readParams in R. cbn [gi_params gi_tmp gi_out gi_desc g] in R. destruct (files fp) as [text0|] eqn:HT; [|discriminate].
  destruct (text_form text0) as (names & text & tail & -> & Ht & He).
  change (openText (text ++ tail)) with (fresh (text ++ tail)) in R.
  rewrite (readNames_spec text _ names tail Ht He) in R by (rewrite length_app_s; lia).
  match type of R with context[tell false ?x] => remember (tell false x) as p0 eqn:P0 in R end.
  destruct (openDBP false E ft SmallApps.genDescription d) as [[e1 p1] [u1| | |]] eqn:Q1; [|discriminate..].
  pose proof (openDBP_says _ _ _ _ _ _ _ Q1) as [Z1 Z2].
  assert (D1 : e1 ft = Some (mkDb [] (Some SCHEMA) (Some (createdMeta E SmallApps.genDescription)) 28)).
  { apply openDB_inv with (d := d). rewrite <- (openDBP_drop false), Q1. destruct u1. reflexivity. }
  destruct (addGridsP false E F files L sci g ft names e1) as [[[e2 cs2] p2] [u2| | |]] eqn:Q2; [|exfalso; apply (f_equal snd) in R; discriminate R..].
  pose proof (addGridsP_says false E F files L sci g ft eq_refl names e1 _ _ _ _ _ D1 Q2) as (ptss & lines & A1 & A2 & A3).
  destruct (closeDB_val E ft e2) as [e3 C3]. unfold closeDBP in R. rewrite C3 in R.
  match type of R with context[tell false ?x] => remember (tell false x) as p3 eqn:P3 in R end.
  destruct (packDBP false E fout ft e3) as [[e4 p4] o4] eqn:Q4. injection R as -> -> <- ->. pose proof (packDBP_says _ _ _ _ _ _ _ Q4) as [Z3 Z4].
  exists kvs, fp, fout, ft, text, tail, names, ptss, lines, (showZ (Z.of_nat (List.length names))).
  do 10 (split; [assumption || reflexivity|]). split; [apply PropInfo.showZ_spells; lia|].
  split.
  - subst p0 p3. unfold also, tell, shown in *. cbn [on_out]. rewrite Z2, Z4, A3. cbn [on_out]. unfold first_lines, last_lines, packing_line. cbn [app as_lines].
    change newline with nl. rewrite !as_lines_app. cbn [as_lines]. change newline with nl. rewrite ?app_nil_r_s, !app_assoc_s. reflexivity.
  - subst p0 p3. unfold also, tell, shown in *. cbn [on_err]. rewrite Z1, Z3, A3. cbn [on_err append]. rewrite !app_nil_r_s. reflexivity.
Qed.
Print Assumptions C66_exit_0.

(** Exit code 1, after a command line that is accepted: the text tells how far the program
    came, at which file it stopped and what had been read of it; the message [m] follows on
    standard error, after the text there without a line break. *)
Theorem C66_exit_1 : forall E F X L sci files args d d' pr s, genMainP E F X L sci files args d = (d', pr, Val (1, s)) ->
  (pr = silent /\ s = [Usage]) \/
  exists kvs fp fout ft m, command gen_letters args kvs /\ named "i" kvs fp /\ named "o" kvs fout /\ named "t" kvs ft /\ s = [Said m] /\
    ((files fp = None /\ pr = silent) \/
     exists text tail listed n, files fp = Some (text ++ tail) /\ laid_out listed text /\ unterminated tail /\
       spells n (Z.of_nat (List.length listed)) /\
       ((on_out pr = as_lines (first_lines n ft) /\ on_err pr = "" /\ exists d1, openDB E ft PropSmall.authors d = (d1, Throw m)) \/
        (exists lines, stopped_at F L files sci listed lines (on_err pr) m /\
           on_out pr = as_lines (first_lines n ft ++ [ready_line] ++ lines)%list) \/
        (exists ptss lines d1 d2, files_read F L files listed ptss /\ file_lines listed ptss lines /\
           on_out pr = as_lines (first_lines n ft ++ [ready_line] ++ lines ++ last_lines ft fout)%list /\
           on_err pr = left_out_lines sci (concat ptss) /\ packDB E fout ft d1 = (d2, Throw m)))).
Proof.
  intros E F X L sci files args d d' pr s H. unfold genMainP in H. destruct (SmallApps.genArgs X args) as [c|] eqn:Q.
  2:{ injection H as <- <- <-. left. split; reflexivity. }
  right. apply genArgs_iff in Q. destruct Q as (kvs & fp & fout & ft & K & N1 & N2 & N3 & ->). cbn [SmallApps.f_params SmallApps.f_out SmallApps.f_tmp] in H.
  set (g := mkIngester fp fout ft SmallApps.genDescription true) in H.
  destruct (runP false E F files L sci g d) as [[[d1 cs] pr1] o1] eqn:R. rewrite endedP_drop in H.
  destruct o1 as [[]|m| |w]; [discriminate| |discriminate..]. injection H as -> -> <-.
  exists kvs, fp, fout, ft, m. do 5 (split; [assumption || reflexivity|]).
  unfold runP in R. destruct N1 as [N1 N1'], N2 as [N2 N2'], N3 as [N3 N3'].
  destruct (String.eqb (gi_params g) "" || String.eqb (gi_tmp g) "" || String.eqb (gi_out g) ""); [discriminate|].
  unfold readParams in R. cbn [gi_params gi_tmp gi_out gi_desc g] in R. destruct (files fp) as [text0|] eqn:HT.
  2:{ injection R as <- <- <- <-. left. split; reflexivity. }
  right. destruct (text_form text0) as (names & text & tail & -> & Ht & He).
  change (openText (text ++ tail)) with (fresh (text ++ tail)) in R.
  rewrite (readNames_spec text _ names tail Ht He) in R by (rewrite length_app_s; lia).
  match type of R with context[tell false ?x] => remember (tell false x) as p0 eqn:P0 in R end.
  exists text, tail, names, (showZ (Z.of_nat (List.length names))). do 3 (split; [assumption || reflexivity|]).
  split; [apply PropInfo.showZ_spells; lia|].
  destruct (openDBP false E ft SmallApps.genDescription d) as [[e1 p1] o1] eqn:Q1.
  pose proof (openDBP_says _ _ _ _ _ _ _ Q1) as [Z1 Z2].
  assert (Q1' : openDB E ft SmallApps.genDescription d = (e1, o1)) by (rewrite <- (openDBP_drop false), Q1; reflexivity).
  destruct o1 as [[]|m1| |w1]; [|injection R as -> <- <- ->|discriminate..].
  2:{ left. subst p0. unfold also, tell. cbn [on_out on_err]. rewrite Z1, Z2. unfold first_lines. cbn [app as_lines]. change newline with nl.
      rewrite ?app_nil_r_s, !app_assoc_s. split; [reflexivity|]. split; [reflexivity|]. exists d'. exact Q1'. }
  right. assert (D1 : e1 ft = Some (mkDb [] (Some SCHEMA) (Some (createdMeta E SmallApps.genDescription)) 28)) by exact (openDB_inv _ _ _ _ _ Q1').
  destruct (addGridsP false E F files L sci g ft names e1) as [[[e2 cs2] p2] o2] eqn:Q2.
  pose proof (addGridsP_says false E F files L sci g ft eq_refl names e1 _ _ _ _ _ D1 Q2) as AS.
  destruct o2 as [[]|m2| |w2]; [|injection R as -> -> <- ->|exfalso; apply (f_equal snd) in R; discriminate R..].
  2:{ left. destruct (AS eq_refl) as (lines & err & ST & ->). exists lines. subst p0. unfold also, tell. cbn [on_out on_err]. rewrite Z1, Z2. cbn [append].
      split; [exact ST|]. unfold first_lines. cbn [app as_lines]. change newline with nl. rewrite ?app_nil_r_s, !app_assoc_s. reflexivity. }
  right. destruct AS as (ptss & lines & A1 & A2 & A3).
  destruct (closeDB_val E ft e2) as [e3 C3]. unfold closeDBP in R. rewrite C3 in R.
  match type of R with context[tell false ?x] => remember (tell false x) as p3 eqn:P3 in R end.
  destruct (packDBP false E fout ft e3) as [[e4 p4] o4] eqn:Q4. injection R as -> -> <- ->. pose proof (packDBP_says _ _ _ _ _ _ _ Q4) as [Z3 Z4].
  exists ptss, lines, e3, d'. do 2 (split; [assumption|]). split; [|split].
  - subst p0 p3. unfold also, tell, shown in *. cbn [on_out]. rewrite Z2, Z4, A3. cbn [on_out]. unfold first_lines, last_lines, packing_line. cbn [app as_lines].
    change newline with nl. rewrite !as_lines_app. cbn [as_lines]. change newline with nl. rewrite ?app_nil_r_s, !app_assoc_s. reflexivity.
  - subst p0 p3. unfold also, tell, shown in *. cbn [on_err]. rewrite Z1, Z3, A3. cbn [on_err append]. rewrite !app_nil_r_s. reflexivity.
  - rewrite <- (packDBP_drop false), Q4. reflexivity.
Qed.
Print Assumptions C66_exit_1.

(** cencalvmpack: the effects are those of C57 and C58; it announces what it does, and says
    that it is done if the exit code is 0. *)
Theorem C66_pack : forall E X args d d' pr o, packMainP E X args d = (d', pr, o) ->
  SmallApps.packMain E X args d = (d', o) /\ on_err pr = "" /\
  ((on_out pr = "" /\ o = Val (1, [Usage])) \/
   exists kvs fin fout, command pack_letters args kvs /\ named "i" kvs fin /\ named "o" kvs fout /\
     ((exists s, o = Val (0, s)) -> on_out pr = as_lines [packing_line fin fout; packed_line]) /\
     ((forall s, o <> Val (0, s)) -> on_out pr = as_lines [packing_line fin fout])).
Proof.
  intros E X args d d' pr o H. pose proof (packMainP_drop E X args d) as D. rewrite H in D. cbn [drop] in D.
  split; [symmetry; exact D|]. unfold packMainP in H. destruct (SmallApps.packArgs X args) as [c|] eqn:Q.
  2:{ injection H as <- <- <-. split; [reflexivity|]. left. split; reflexivity. }
  apply packArgs_iff in Q. destruct Q as (kvs & fin & fout & K & N1 & N2 & ->). cbn [SmallApps.f_in SmallApps.f_out] in H.
  destruct (packDBP false E fout fin d) as [[d1 p1] o1] eqn:P. pose proof (packDBP_says _ _ _ _ _ _ _ P) as [Z1 Z2].
  rewrite endedP_drop in H.
  destruct o1 as [[]|m| |w]; injection H as <- <- <-; (split; [exact Z1|]); right; exists kvs, fin, fout; do 3 (split; [assumption|]);
    rewrite Z2; unfold packing_line; cbn [as_lines]; change newline with nl; rewrite ?app_nil_r_s, ?app_assoc_s.
  all: split; [intros [s X1] | intros X1]; try discriminate; try reflexivity. destruct (X1 [] eq_refl).
Qed.
Print Assumptions C66_pack.

(** The label of a point that is left out.  "No fault block" is said of points that have a
    fault block, and no zone; "Ignoring" of those without fault block. *)
Lemma append_cancel a : forall b c : string, a ++ b = a ++ c -> b = c.
Proof. induction a as [|x a IH]; intros b c H; [exact H|]. injection H as H. exact (IH _ _ H). Qed.
Theorem C66_labels : forall sci l, has_data l = false ->
  (left_out sci l = place_of sci l ++ ", No fault block" <-> p_block (l_pay l) <> 0 /\ p_zone (l_pay l) = 0) /\
  (left_out sci l = place_of sci l ++ ", Ignoring" <-> p_block (l_pay l) = 0).
Proof.
  intros sci l H. unfold left_out, has_data in *. destruct (Z.eqb_spec (p_block (l_pay l)) 0) as [B|B].
  - split; split; intros X.
    + apply append_cancel in X. discriminate.
    + destruct X as [X _]. destruct (X B).
    + exact B.
    + reflexivity.
  - cbn [negb andb] in H. apply negb_false_iff, Z.eqb_eq in H. split; split; intros X.
    + split; assumption.
    + reflexivity.
    + apply append_cancel in X. discriminate.
    + destruct (B X).
Qed.
Print Assumptions C66_labels.

From Verif Require Import ToyLib ToyGrid PropApp.
Open Scope string_scope.
Open Scope Z_scope.
(** ** Examples *)
(** Two points with data, one without anything, one with fault block 4 and zone 0 *)
Definition more_lines : list (list string) :=
  (toy_lines ++ [["476908.4784"; "541696.2864"; "-2.5"; "3.2"; "1.8"; "2.4"; "100"; "50"; "1.5"; "4"; "0"; "1"]])%list.
Definition more_text (n : string) : string := lay (["51.2"; "12.8"; "4"; "1"; "1"; n] ++ concat more_lines)%list.
Definition report_texts (n : string) : option string :=
  if String.eqb n "list.txt" then Some "more.txt " else
  if String.eqb n "long.txt" then Some "more.txt bad.txt " else
  if String.eqb n "more.txt" then Some (more_text "4") else
  if String.eqb n "bad.txt" then Some "51.2 12.8 1 1 1 1 0 0 x " else None.
Definition said_of (r : disk * printed * outcome (Z * list said)) : string * string * outcome (Z * list said) :=
  (on_out (snd (fst r)), on_err (snd (fst r)), snd r).
Definition toy_sci (x : f64) : string := app_show x.
(** Of the two points left out the first has no fault block and the second has one. *)
Example C66_example :
  said_of (genMainP toy_etree toy_fmt app_texts toy toy_sci report_texts ["-i"; "list.txt"; "-o"; "model"; "-t"; "tmp"] (fun _ => None)) =
  (as_lines ["Starting processing of 1 grid files."; "Opening new etree database 'tmp'."; "Finished preparing database.";
     "Beginning processing of 'more.txt'..."; "Done procesing 'more.txt'.  # points added: 2,  # points ignored: 2";
     "Closing database 'tmp'."; "Creating packed etree database 'model' from unpacked etree database 'tmp'."; "Done packing etree database."],
   as_lines ["356908, 541696, -1500, Ignoring"; "476908, 541696, -2500, No fault block"],
   Val (0, [])).
Proof. vm_compute. reflexivity. Qed.
(** A second file whose first point cannot be read *)
Example C66_example_stopped :
  said_of (genMainP toy_etree toy_fmt app_texts toy toy_sci report_texts ["-i"; "long.txt"; "-o"; "model"; "-t"; "tmp"] (fun _ => None)) =
  (as_lines ["Starting processing of 2 grid files."; "Opening new etree database 'tmp'."; "Finished preparing database.";
     "Beginning processing of 'more.txt'..."; "Done procesing 'more.txt'.  # points added: 2,  # points ignored: 2";
     "Beginning processing of 'bad.txt'..."],
   as_lines ["356908, 541696, -1500, Ignoring"; "476908, 541696, -2500, No fault block";
     "Caught error while reading grid from 'bad.txt'."; "Successfully added 0 points and ignored 0 others."] ++
   "Error message: Couldn't parse line.",
   Val (1, [Said "Couldn't parse line."])).
Proof. vm_compute. reflexivity. Qed.

(** So the message does not tell the truth about the point. *)
Theorem C66_no_fault_block_refuted : ~ (forall E F T L sci g db file text d f d' c pr lev l others, gi_geom g = true ->
  T file = Some text -> d db = Some f -> addGridP false E F T L sci g db file d = (d', c, pr, Val tt) ->
  grid_file F L text lev (others ++ [l])%list -> has_data l = false ->
  on_err pr = left_out_lines sci others ++ place_of sci l ++ ", No fault block" ++ newline ->
  p_block (l_pay l) = 0).
Proof.
  intros H. set (g := mkIngester "list.txt" "model" "tmp" "" true).
  set (d := fun n : string => if String.eqb n "db" then Some (mkDb [] None None 28) else None).
  set (r := addGridP false toy_etree toy_fmt report_texts toy toy_sci g "db" "more.txt" d).
  set (l := parse_line (nth 3 more_lines [])).
  assert (R : snd r = Val tt) by (vm_compute; reflexivity).
  assert (X : p_block (l_pay l) = 0); [|vm_compute in X; discriminate].
  eapply (H toy_etree toy_fmt report_texts toy toy_sci g "db" "more.txt" (more_text "4") d _ (fst (fst (fst r))) (snd (fst (fst r))) (snd (fst r)) 5 l toy_pts).
  - reflexivity.
  - reflexivity.
  - reflexivity.
  - rewrite <- R. unfold r. destruct (addGridP _ _ _ _ _ _ _ _ _ _) as [[[? ?] ?] ?]. reflexivity.
  - exists (more_text "4"), "", ["51.2"; "12.8"; "4"; "1"; "1"; "4"], more_lines, toy_rh, toy_rv. split; [symmetry; apply app_nil_r_s|].
    split; [apply lay_laid; vm_compute; reflexivity|]. split; [do 9 eexists; split; [reflexivity|]; repeat split; vm_compute; reflexivity|].
    split; [|exact toy_fits]. unfold more_lines. apply Forall2_app; [exact toy_reads|]. constructor; [|constructor].
    do 12 eexists; (split; [reflexivity|]); repeat split; vm_compute; reflexivity.
  - vm_compute. reflexivity.
  - vm_compute. reflexivity.
Qed.
Print Assumptions C66_no_fault_block_refuted.

(** The tree of PropAvg.v has 12 octants; five are added, of which four lack some of their
    children. *)
Example C65_example : usable works toy_disk "in" tree_file /\ can_create works toy_disk "out" /\ can_read works "in" /\
  accepts (et_store works) /\ wf_input (d_recs tree_file) /\ d_meta tree_file = Some "USGS model" /\
  said_of (avgMainP works ["-i"; "in"; "-o"; "out"] toy_disk) =
  (as_lines ["Summary of etree averaging"; "Number of octants"; "  IN: 12"; "  OUT total: 17, interior: 5"; "Incomplete octants";
    "  x: 0"; "  y: 0"; "  z: 0"; "  xy: 0"; "  yz: 0"; "  xz: 1"; "  xyz: 1"; "  invalid: 2"; ""], "", Val (0, [])).
Proof.
  split; [exact tree_usable|]. split; [apply works_creates|]. split; [apply works_creates|]. split; [apply simple_accepts|].
  split; [exact tree_wf|]. split; [reflexivity|]. vm_compute. reflexivity.
Qed.
Example C65_example_stopped : said_of (avgMainP works ["-i"; "old"; "-o"; "out"] toy_disk) =
  ("", "", snd (SmallApps.avgMain works ["-i"; "old"; "-o"; "out"] toy_disk)) /\
  exists m, snd (SmallApps.avgMain works ["-i"; "old"; "-o"; "out"] toy_disk) = Val (1, [Said m]).
Proof. split; [vm_compute; reflexivity|]. eexists. vm_compute. reflexivity. Qed.
Example C66_example_quiet : exists d' c, addGridP true toy_etree toy_fmt report_texts toy toy_sci (mkIngester "list.txt" "model" "tmp" "" true)
    "db" "more.txt" (fun n => if String.eqb n "db" then Some (mkDb [] None None 28) else None) = (d', c, silent, Val tt) /\ c = (2, 2).
Proof. do 2 eexists. split; [vm_compute; reflexivity | reflexivity]. Qed.
Example C66_pack_example : said_of (packMainP works app_texts ["-i"; "in"; "-o"; "out"] toy_disk) =
  (as_lines ["Creating packed etree database 'out' from unpacked etree database 'in'."; "Done packing etree database."], "", Val (0, [])).
Proof. vm_compute. reflexivity. Qed.
