(** C90: the work of the isosurface application can be split, joined and shuffled. *)
From Coq Require Import ZArith Bool Reals Lia String Ascii List Permutation.
From Verif Require Import Outcome Float Payload Addr SpecOct SpecGeom FloatFacts Geom GeomFacts ErrorHandler VMQuery SpecQuery SpecHist
  QueryFacts QueryProof QueryHist QueryIndep Stream GetOpt QueryApp IsoApp SpecText StreamFacts SpecApp AppFacts AppMain SpecIso IsoNum IsoFacts IsoMain IsoRun
  ToyLib ToyDb Averager PropGeom ToyIso PropIso.
From Verif Require PropSplit.
Import ListNotations.
Open Scope Z_scope. Open Scope list_scope.

(** Two command lines ask for the same surface in the same model; the names of the files
    that are read and written may differ. *)
Definition same_surface (c c' : isoconf) : Prop :=
  i_vs c = i_vs c' /\ i_db c = i_db c' /\ i_dbExt c = i_dbExt c' /\ i_cache c = i_cache c' /\ i_squash c = i_squash c' /\ i_elevMin c = i_elevMin c'.

Lemma same_starts {DB} (E : env DB) g c c' q : same_surface c c' -> starts E g c q -> starts E g c' q.
Proof.
  intros (A & B & C & D & F & G) (d & x & O & ->). exists d, x. unfold iso_opens, iso_object, iso_cache, iso_squashes in *.
  rewrite B, C, D in O. rewrite B, C, D, F. auto.
Qed.
Lemma same_gives {DB} (E : env DB) T c c' g q fs l y : same_surface c c' -> gives E T c g q fs l y -> gives E T c' g q fs l y.
Proof.
  intros (A & B & C & D & F & G) (junk & H). exists junk. rewrite <- H. unfold isoLocation. rewrite A, F, G. reflexivity.
Qed.
Lemma same_sym c c' : same_surface c c' -> same_surface c' c.
Proof. unfold same_surface. intuition congruence. Qed.
Lemma location_code {DB} (E : env DB) T c g q fs junk lon lat q' fs' w code u :
  isoLocation E T c g q fs junk lon lat = Val (q', fs', w, inl code, u) -> code = 1.
Proof.
  unfold isoLocation. destruct (isoElev E q fs junk lon lat) as [[[q1 fs1] topo]| | |]; cbn [bind]; try discriminate.
  destruct (searchVs E g q1 fs1 junk _ lon lat _ _) as [[[q2 fs2] [z|m]]| | |]; cbn [bind]; try discriminate.
  - destruct (bad q2 && is_error q2); intros H; [injection H; congruence | discriminate H].
  - intros H. injection H. congruence.
Qed.

Section Runs.
Context {DB : Type}.
Variables (E : env DB) (T : texts) (g : libm) (S : os) (args : list string) (c : isoconf) (junk : f64) (fs : files) (q0 : qstate DB).
Hypothesis ST : starts E g c q0.
Lemma all_or_first ls : (exists ys, Forall2 (gives E T c g q0 fs) ls ys) \/
  (exists before l after ys, ls = before ++ l :: after /\ Forall2 (gives E T c g q0 fs) before ys /\
    forall w lines k r, first_point E T c g fs junk q0 w lines l k = Val r -> r_code r = 1).
Proof.
  destruct (starts_clean E g c q0 ST) as [C N].
  induction ls as [|l ls IH]; [left; exists []; constructor|].
  destruct (isoLocation E T c g q0 fs junk (fst l) (snd l)) as [[[[[q1 fs1] w1] r] u]|m| |why] eqn:Q.
  - destruct (isoLocation_effects E T c g q0 fs junk (fst l) (snd l) q1 fs1 w1 r u Q C N) as (-> & _ & K).
    destruct r as [code|line].
    + apply location_code in Q as Z. subst code. right. exists [], l, ls, []. split; [reflexivity|]. split; [constructor|].
      intros w lines k r H. unfold first_point in H. rewrite Q in H. cbn [bind] in H. destruct u; [|injection H as <-; reflexivity].
      unfold leave in H. destruct (destroy E q1); cbn [bind] in H; try discriminate H. injection H as <-. reflexivity.
    + destruct (K line eq_refl) as [-> ->]. assert (G : gives E T c g q0 fs l (w1, line)) by (exists junk; exact Q).
      destruct IH as [(ys & A)|(before & l' & after & ys & -> & A & B)].
      * left. exists ((w1, line) :: ys). constructor; assumption.
      * right. exists (l :: before), l', after, ((w1, line) :: ys). split; [reflexivity|]. split; [constructor; assumption | exact B].
  - right. exists [], l, ls, []. split; [reflexivity|]. split; [constructor|]. intros w lines k r H. unfold first_point in H. rewrite Q in H. discriminate H.
  - right. exists [], l, ls, []. split; [reflexivity|]. split; [constructor|]. intros w lines k r H. unfold first_point in H. rewrite Q in H. discriminate H.
  - right. exists [], l, ls, []. split; [reflexivity|]. split; [constructor|]. intros w lines k r H. unfold first_point in H. rewrite Q in H. discriminate H.
Qed.
(** A run that exits with code 0 has found all surfaces and closed its files. *)
Lemma run_gives ls said out fs' : iso_running T S args c ls -> isoMain E T S g junk args fs = Val (mkResult 0 said out fs') ->
  (forall w lines, finish E q0 w lines fs = Val (mkResult 0 w (Some lines) fs)) /\ fs' = fs /\
  exists ys, Forall2 (gives E T c g q0 fs) ls ys /\ said = concat (map fst ys) /\ out = Some (map snd ys).
Proof.
  intros (HA & (text & HT & HL) & HC & HW) M.
  destruct (all_or_first ls) as [(ys & G)|(before & l & after & ys & -> & G & B)].
  - rewrite (run_all_points E T S HW g args fs c HA junk text ls q0 ys ST HT HC HL G) in M.
    destruct (finish_cases E q0) as [F|[m F]]; rewrite F in M; [|discriminate M]. injection M as <- <- <-.
    split; [intros; apply F|]. split; [reflexivity|]. exists ys. auto.
  - exfalso. destruct (run_many E T S HW g args fs c HA junk text before l q0 ys ST HT HC after HL G) as (k & Q).
    rewrite Q in M. apply B in M. discriminate M.
Qed.
Lemma gives_run ls ys : iso_running T S args c ls -> (forall w lines, finish E q0 w lines fs = Val (mkResult 0 w (Some lines) fs)) ->
  Forall2 (gives E T c g q0 fs) ls ys -> isoMain E T S g junk args fs = Val (mkResult 0 (concat (map fst ys)) (Some (map snd ys)) fs).
Proof.
  intros (HA & (text & HT & HL) & HC & HW) F G.
  rewrite (run_all_points E T S HW g args fs c HA junk text ls q0 ys ST HT HC HL G). apply F.
Qed.
End Runs.
Lemma same_all {DB} (E : env DB) T c c' g q fs ls ys : same_surface c c' -> Forall2 (gives E T c g q fs) ls ys -> Forall2 (gives E T c' g q fs) ls ys.
Proof. intros H. induction 1; constructor; [eapply same_gives; eassumption | assumption]. Qed.

(** ** C90 *)
(** If the runs over two parts of a list of points exit with code 0, so does a run over the
    whole list.  It writes the lines of the first part and then those of the second, with
    the messages of both. *)
Theorem C90_join : forall DB (E : env DB) T g d x S S1 S2 args args1 args2 c c1 c2 junk junk1 junk2 ls1 ls2 fs said1 said2 out1 out2 fs1 fs2,
  iso_running T S args c (ls1 ++ ls2) -> iso_running T S1 args1 c1 ls1 -> iso_running T S2 args2 c2 ls2 ->
  iso_opens E c d x -> same_surface c1 c -> same_surface c2 c ->
  isoMain E T S1 g junk1 args1 fs = Val (mkResult 0 said1 (Some out1) fs1) -> isoMain E T S2 g junk2 args2 fs = Val (mkResult 0 said2 (Some out2) fs2) ->
  isoMain E T S g junk args fs = Val (mkResult 0 (said1 ++ said2) (Some (out1 ++ out2)) fs).
Proof.
  intros DB E T g d x S S1 S2 args args1 args2 c c1 c2 junk junk1 junk2 ls1 ls2 fs said1 said2 out1 out2 fs1 fs2 R R1 R2 O E1 E2 M1 M2.
  assert (ST : starts E g c (iso_object c g (Some d) x)) by (exists d, x; auto).
  destruct (run_gives E T g S1 args1 c1 junk1 fs _ (same_starts E g c c1 _ (same_sym _ _ E1) ST) ls1 said1 _ fs1 R1 M1) as (F & _ & ys1 & G1 & -> & Q1). injection Q1 as ->.
  destruct (run_gives E T g S2 args2 c2 junk2 fs _ (same_starts E g c c2 _ (same_sym _ _ E2) ST) ls2 said2 _ fs2 R2 M2) as (_ & _ & ys2 & G2 & -> & Q2). injection Q2 as ->.
  rewrite (gives_run E T g S args c junk fs _ ST (ls1 ++ ls2) (ys1 ++ ys2) R F).
  - rewrite !map_app, concat_app. reflexivity.
  - apply Forall2_app; [exact (same_all E T c1 c g _ fs _ _ E1 G1) | exact (same_all E T c2 c g _ fs _ _ E2 G2)].
Qed.
Print Assumptions C90_join.

(** If the run over the whole list exits with code 0, so do runs over its parts, and the
    whole output is theirs put together. *)
Theorem C90_split : forall DB (E : env DB) T g d x S S1 S2 args args1 args2 c c1 c2 junk junk1 junk2 ls1 ls2 fs said out fs',
  iso_running T S args c (ls1 ++ ls2) -> iso_running T S1 args1 c1 ls1 -> iso_running T S2 args2 c2 ls2 ->
  iso_opens E c d x -> same_surface c1 c -> same_surface c2 c ->
  isoMain E T S g junk args fs = Val (mkResult 0 said (Some out) fs') ->
  exists said1 said2 out1 out2, said = said1 ++ said2 /\ out = out1 ++ out2 /\ List.length out1 = List.length ls1 /\ List.length out2 = List.length ls2 /\
    isoMain E T S1 g junk1 args1 fs = Val (mkResult 0 said1 (Some out1) fs) /\ isoMain E T S2 g junk2 args2 fs = Val (mkResult 0 said2 (Some out2) fs).
Proof.
  intros DB E T g d x S S1 S2 args args1 args2 c c1 c2 junk junk1 junk2 ls1 ls2 fs said out fs' R R1 R2 O E1 E2 M.
  assert (ST : starts E g c (iso_object c g (Some d) x)) by (exists d, x; auto).
  destruct (run_gives E T g S args c junk fs _ ST _ said _ fs' R M) as (F & _ & ys & G & -> & Q). injection Q as ->.
  apply Forall2_app_inv_l in G. destruct G as (ys1 & ys2 & G1 & G2 & ->).
  exists (concat (map fst ys1)), (concat (map fst ys2)), (map snd ys1), (map snd ys2).
  split; [rewrite map_app, concat_app; reflexivity|]. split; [apply map_app|]. rewrite !map_length.
  split; [symmetry; exact (PropSplit.F2_len _ _ _ G1)|]. split; [symmetry; exact (PropSplit.F2_len _ _ _ G2)|].
  apply same_sym in E1, E2. split.
  - exact (gives_run E T g S1 args1 c1 junk1 fs _ (same_starts E g c c1 _ E1 ST) ls1 ys1 R1 F (same_all E T c c1 g _ fs _ _ E1 G1)).
  - exact (gives_run E T g S2 args2 c2 junk2 fs _ (same_starts E g c c2 _ E2 ST) ls2 ys2 R2 F (same_all E T c c2 g _ fs _ _ E2 G2)).
Qed.
Print Assumptions C90_split.

(** Runs over the same points in another order: the same line for each of them. *)
Theorem C90_shuffle : forall DB (E : env DB) T g d x S S' args args' c c' junk junk' ls ls' fs said out fs1,
  iso_running T S args c ls -> iso_running T S' args' c' ls' -> iso_opens E c d x -> same_surface c' c -> Permutation ls ls' ->
  isoMain E T S g junk args fs = Val (mkResult 0 said (Some out) fs1) ->
  exists said' out', isoMain E T S' g junk' args' fs = Val (mkResult 0 said' (Some out') fs) /\
    List.length out = List.length ls /\ List.length out' = List.length ls' /\ Permutation (combine ls out) (combine ls' out').
Proof.
  intros DB E T g d x S S' args args' c c' junk junk' ls ls' fs said out fs1 R R' O EC P M.
  assert (ST : starts E g c (iso_object c g (Some d) x)) by (exists d, x; auto).
  destruct (run_gives E T g S args c junk fs _ ST _ said _ fs1 R M) as (F & _ & ys & G & -> & Q). injection Q as ->.
  destruct (PropSplit.shuffle _ ls ls' P ys G) as (ys' & G' & PZ). apply same_sym in EC.
  exists (concat (map fst ys')), (map snd ys'). rewrite !map_length.
  split; [exact (gives_run E T g S' args' c' junk' fs _ (same_starts E g c c' _ EC ST) ls' ys' R' F (same_all E T c c' g _ fs _ _ EC G'))|].
  split; [symmetry; exact (PropSplit.F2_len _ _ _ G)|]. split; [symmetry; exact (PropSplit.F2_len _ _ _ G')|].
  rewrite !PropSplit.combine_map. apply Permutation_map. exact PZ.
Qed.
Print Assumptions C90_shuffle.

(** ** Examples *)
(** The points of C53_all_lines_example in two files, and in another order; where there is
    no data the depth is -999 and a message is written. *)
Notation surface_run text := (isoMain column_env (iso_texts iso_show) (iso_os text) toy S754_nan (iso_args "column" "-1612.5") (fun _ => None)).
Definition line_x : string := " 296908 541696 200".
Definition line_y : string := " 541696 296908 -999".
Lemma part_x : iso_running (iso_texts iso_show) (iso_os "x y ") (iso_args "column" "-1612.5") column_config [px].
Proof. apply (many_running iso_show _ _ ["x"; "y"]%string); [vm_compute; reflexivity.. |]. points_tac. Qed.
Lemma part_yx : iso_running (iso_texts iso_show) (iso_os "y x x y ") (iso_args "column" "-1612.5") column_config [py; px].
Proof. apply (many_running iso_show _ _ ["y"; "x"; "x"; "y"]%string); [vm_compute; reflexivity.. |]. points_tac. Qed.
Lemma turned_running : iso_running (iso_texts iso_show) (iso_os "y x x y x y ") (iso_args "column" "-1612.5") column_config [py; px; px].
Proof. apply (many_running iso_show _ _ ["y"; "x"; "x"; "y"; "x"; "y"]%string); [vm_compute; reflexivity.. |]. points_tac. Qed.
Lemma surface_opens : iso_opens column_env column_config column None.
Proof. split; reflexivity. Qed.
Lemma iso_val o code said lines : iso_seen o = Some (code, said, lines) -> exists fs', o = Val (mkResult code said lines fs').
Proof. destruct o as [[a b e f]|?| |?]; cbn; intros H; try discriminate H. injection H as <- <- <-. eauto. Qed.
Example C90_parts : iso_seen (surface_run "x y ") = Some (0, [no_data_msg], Some [line_x]) /\
  iso_seen (surface_run "y x x y ") = Some (0, [no_data_msg; no_data_msg], Some [line_y; line_x]).
Proof. split; vm_compute; reflexivity. Qed.
Example C90_join_example : surface_run "x y y x x y " =
  Val (mkResult 0 [no_data_msg; no_data_msg; no_data_msg] (Some [line_x; line_y; line_x]) (fun _ => None)).
Proof.
  destruct C90_parts as [P1 P2]. destruct (iso_val _ _ _ _ P1) as [fs1 Q1]. destruct (iso_val _ _ _ _ P2) as [fs2 Q2]. clear P1 P2.
  assert (SS : same_surface column_config column_config) by (repeat split).
  exact (C90_join _ column_env (iso_texts iso_show) toy column None (iso_os "x y y x x y ") (iso_os "x y ") (iso_os "y x x y ") (iso_args "column" "-1612.5")
    (iso_args "column" "-1612.5") (iso_args "column" "-1612.5") column_config column_config column_config S754_nan S754_nan S754_nan [px] [py; px] (fun _ => None)
    [no_data_msg] [no_data_msg; no_data_msg] [line_x] [line_y; line_x] fs1 fs2 (proj1 C53_all_lines_example) part_x part_yx surface_opens SS SS Q1 Q2).
Qed.
Example C90_split_example : exists said1 said2 out1 out2, [no_data_msg; no_data_msg; no_data_msg] = said1 ++ said2 /\ [line_x; line_y; line_x] = out1 ++ out2 /\
  List.length out1 = 1%nat /\ List.length out2 = 2%nat /\
  surface_run "x y " = Val (mkResult 0 said1 (Some out1) (fun _ => None)) /\ surface_run "y x x y " = Val (mkResult 0 said2 (Some out2) (fun _ => None)).
Proof.
  assert (SS : same_surface column_config column_config) by (repeat split).
  exact (C90_split _ column_env (iso_texts iso_show) toy column None (iso_os "x y y x x y ") (iso_os "x y ") (iso_os "y x x y ") (iso_args "column" "-1612.5")
    (iso_args "column" "-1612.5") (iso_args "column" "-1612.5") column_config column_config column_config S754_nan S754_nan S754_nan [px] [py; px] (fun _ => None)
    [no_data_msg; no_data_msg; no_data_msg] [line_x; line_y; line_x] (fun _ => None) (proj1 C53_all_lines_example) part_x part_yx surface_opens SS SS C90_join_example).
Qed.
Example C90_shuffle_example : exists said out, surface_run "y x x y x y " = Val (mkResult 0 said (Some out) (fun _ => None)) /\
  Permutation out [line_x; line_y; line_x].
Proof.
  destruct (C90_shuffle _ column_env (iso_texts iso_show) toy column None (iso_os "x y y x x y ") (iso_os "y x x y x y ") (iso_args "column" "-1612.5") (iso_args "column" "-1612.5")
    column_config column_config S754_nan S754_nan [px; py; px] [py; px; px] (fun _ => None) [no_data_msg; no_data_msg; no_data_msg] [line_x; line_y; line_x] (fun _ => None)
    (proj1 C53_all_lines_example) turned_running surface_opens) as (m & out & M & N & N' & P); [repeat split | apply perm_swap | exact C90_join_example|].
  exists m, out. split; [exact M|]. apply (Permutation_map snd) in P. symmetry in P.
  destruct out as [|a [|b [|c [|? ?]]]]; try discriminate N'. exact P.
Qed.
