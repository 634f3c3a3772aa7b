(** Lemmas about the command line programs around the library. *)
From Coq Require Import ZArith Bool Lia String Ascii List.
From Verif Require Import Outcome Float ErrorHandler Store GetOpt QueryApp SpecHist SpecApp AppMain SmallApps SpecSmall.
Import ListNotations.
Open Scope Z_scope.

(** ** getopt() *)
Section Words.
Variables (opts : ascii -> option bool) (letters : list ascii).
Hypothesis LT : forall k, opts k = Some true <-> In k letters.
Hypothesis ND : ~ In "-"%char letters.
Definition args_of (kvs : list (ascii * string)) : list optev := map (fun kv => Arg (fst kv) (snd kv)) kvs.

Lemma getopts_item i l : item_ok letters i ->
  getopts opts None (item_words i ++ l) = (args_of (settings [i]) ++ getopts opts None l)%list.
Proof.
  destruct i as [k v|k v|w]; cbn [item_ok item_words settings flat_map app args_of map fst snd]; intros H.
  - assert (N : String.eqb (String "-" (String k "")) "--" = false) by (apply String.eqb_neq; intros Q; injection Q as ->; contradiction).
    cbn [getopts]. rewrite N. cbn [list_ascii_of_string]. change (Ascii.eqb "-" dash) with true. cbv iota. cbn [cluster].
    rewrite (proj2 (LT k) H). reflexivity.
  - destruct H as [H V].
    assert (N : String.eqb (String "-" (String k v)) "--" = false) by (apply String.eqb_neq; intros Q; injection Q as -> _; contradiction).
    cbn [getopts]. rewrite N. cbn [list_ascii_of_string]. change (Ascii.eqb "-" dash) with true. cbv iota. cbn [cluster].
    rewrite (proj2 (LT k) H). destruct v as [|x v]; [contradiction|]. cbn [list_ascii_of_string]. cbn [app].
    change (string_of_list_ascii (x :: list_ascii_of_string v)) with (String x (string_of_list_ascii (list_ascii_of_string v))).
    rewrite string_of_list_ascii_of_string. reflexivity.
  - cbn [getopts]. destruct (String.eqb_spec w "--") as [->|_]; [exfalso; exact (H _ _ eq_refl)|].
    destruct w as [|x [|y w]]; try reflexivity. cbn [list_ascii_of_string].
    destruct (Ascii.eqb_spec x dash) as [->|_]; [exfalso; exact (H _ _ eq_refl) | reflexivity].
Qed.
Lemma getopts_items items l : Forall (item_ok letters) items ->
  getopts opts None (flat_map item_words items ++ l) = (args_of (settings items) ++ getopts opts None l)%list.
Proof.
  induction 1 as [|i items H _ IH]; [reflexivity|]. cbn [flat_map]. rewrite <- app_assoc, getopts_item by exact H. rewrite IH.
  unfold args_of, settings. cbn [flat_map]. rewrite app_nil_r, map_app, <- app_assoc. reflexivity.
Qed.
Lemma getopts_rest tail : rest_ok tail -> getopts opts None tail = [].
Proof. intros [->|(r & ->)]; reflexivity. Qed.

Lemma getopts_inv : forall n args kvs, (List.length args <= n)%nat -> getopts opts None args = args_of kvs ->
  exists items tail, Forall (item_ok letters) items /\ rest_ok tail /\
    args = (flat_map item_words items ++ tail)%list /\ kvs = settings items.
Proof.
  induction n as [|n IH]; intros args kvs Ln H.
  { destruct args; [|cbn in Ln; lia]. destruct kvs; [|discriminate]. exists [], []. repeat split; [constructor | left; reflexivity]. }
  destruct args as [|a rest].
  { destruct kvs; [|discriminate]. exists [], []. repeat split; [constructor | left; reflexivity]. }
  cbn [List.length] in Ln. cbn [getopts] in H. destruct (String.eqb_spec a "--") as [->|Na].
  { destruct kvs; [|discriminate]. exists [], ("--"%string :: rest). repeat split; [constructor | right; eexists; reflexivity]. }
  assert (ST : (forall c s, a <> String "-" (String c s)) -> getopts opts None rest = args_of kvs ->
     exists items tail, Forall (item_ok letters) items /\ rest_ok tail /\ a :: rest = (flat_map item_words items ++ tail)%list /\ kvs = settings items).
  { intros NA G. destruct (IH rest kvs ltac:(lia) G) as (items & tail & F & R & E & K). exists (Stray a :: items), tail.
    repeat split; [constructor; [exact NA | exact F] | exact R | cbn; rewrite E; reflexivity | exact K]. }
  destruct a as [|x [|y w]]; cbn [list_ascii_of_string] in H.
  { apply ST; [discriminate | exact H]. }
  { apply ST; [discriminate | exact H]. }
  destruct (Ascii.eqb_spec x dash) as [->|Nx]; [|apply ST; [intros c s Q; injection Q as Q _; contradiction | exact H]].
  cbn [cluster] in H. destruct (opts y) as [[|]|] eqn:Oy.
  - apply LT in Oy. destruct w as [|z w]; cbn [list_ascii_of_string] in H.
    + cbn [app] in H. destruct rest as [|v rest]; cbn [getopts] in H; [destruct kvs; discriminate|].
      destruct kvs as [|[k v'] kvs]; [discriminate|]. unfold args_of in H. cbn [map fst snd] in H. injection H as -> -> H.
      cbn [List.length] in Ln. destruct (IH rest kvs ltac:(lia) H) as (items & tail & F & R & E & K).
      exists (Separate k v' :: items), tail.
      repeat split; [constructor; [exact Oy | exact F] | exact R | cbn; rewrite E; reflexivity | cbn; rewrite K; reflexivity].
    + cbn [app] in H. destruct kvs as [|[k v'] kvs]; [discriminate|]. unfold args_of in H. cbn [map fst snd] in H.
      change (string_of_list_ascii (z :: list_ascii_of_string w)) with (String z (string_of_list_ascii (list_ascii_of_string w))) in H.
      rewrite string_of_list_ascii_of_string in H. injection H as -> <- H.
      destruct (IH rest kvs ltac:(lia) H) as (items & tail & F & R & E & K). exists (Joined k (String z w) :: items), tail.
      repeat split; [constructor; [split; [exact Oy | discriminate] | exact F] | exact R | cbn; rewrite E; reflexivity | cbn; rewrite K; reflexivity].
  - destruct (cluster opts (list_ascii_of_string w)) as [l p]. destruct kvs; discriminate.
  - destruct (cluster opts (list_ascii_of_string w)) as [l p]. destruct kvs; discriminate.
Qed.

Lemma words_count items : (List.length (flat_map item_words items) + joined items = 2 * List.length (settings items) + stray items)%nat.
Proof using. clear.
  induction items as [|i items IH]; [reflexivity|]. unfold joined, stray, settings in *. cbn [flat_map filter]. rewrite !app_length.
  destruct i; cbn [List.length item_words]; lia.
Qed.

(** ** The loop *)
Variables (handle : names -> ascii -> string -> option names) (upd : names -> ascii * string -> names).
Hypothesis HH : forall c k v, In k letters -> handle c k v = Some (upd c (k, v)).
Hypothesis HN : forall c k v, ~ In k letters -> handle c k v = None.

Lemma scan_args kvs : Forall (fun kv => In (fst kv) letters) kvs -> forall n c,
  scan handle n c (args_of kvs) = Some (n + 2 * Z.of_nat (List.length kvs), fold_left upd kvs c).
Proof using HH. clear -HH.
  induction 1 as [|[k v] kvs H _ IH]; intros n c.
  - cbn. rewrite Z.add_0_r. reflexivity.
  - cbn [args_of map fst snd scan fold_left]. rewrite HH by exact H. fold (args_of kvs). rewrite IH. do 2 f_equal. cbn [List.length]. lia.
Qed.
Lemma scan_inv evs : forall n c r, scan handle n c evs = Some r ->
  exists kvs, evs = args_of kvs /\ Forall (fun kv => In (fst kv) letters) kvs.
Proof.
  induction evs as [|e evs IH]; intros n c r H; [exists []; split; [reflexivity | constructor]|].
  destruct e as [k|k v|]; cbn [scan] in H; try discriminate. destruct (handle c k v) as [c'|] eqn:Q; [|discriminate].
  destruct (IH _ _ _ H) as (kvs & -> & F). exists ((k, v) :: kvs). split; [reflexivity|]. constructor; [|exact F].
  cbn [fst]. destruct (in_dec ascii_dec k letters) as [I|I]; [exact I|]. rewrite HN in Q by exact I. discriminate.
Qed.
Lemma settings_letters items : Forall (item_ok letters) items -> Forall (fun kv => In (fst kv) letters) (settings items).
Proof.
  induction 1 as [|i items H _ IH]; [constructor|]. unfold settings. cbn [flat_map].
  destruct i as [k v|k v|w]; cbn [item_ok app] in *; [constructor; [exact H | exact IH] | constructor; [exact (proj1 H) | exact IH] | exact IH].
Qed.

(** The command lines that are taken. *)
Lemma scan_command c0 args n c :
  scan handle 1 c0 (getopts opts None args) = Some (n, c) /\ n = argc args <->
  exists kvs, command letters args kvs /\ n = argc args /\ c = fold_left upd kvs c0.
Proof.
  split.
  - intros [H N]. destruct (scan_inv _ _ _ _ H) as (kvs & E & F). destruct (getopts_inv _ _ _ (le_n _) E) as (items & tail & FI & R & A & K).
    rewrite E, scan_args in H by exact F. assert (E1 : 1 + 2 * Z.of_nat (List.length kvs) = n) by congruence. assert (E2 : fold_left upd kvs c0 = c) by congruence. exists kvs. split; [|split; [exact N | symmetry; exact E2]].
    exists items, tail. split; [exact FI|]. split; [exact R|]. split; [exact A|]. split; [|exact K].
    pose proof (words_count items) as W. rewrite <- K in W. rewrite N in E1. unfold argc in E1. rewrite A, app_length in E1. lia.
  - intros (kvs & (items & tail & FI & R & A & J & K) & N & ->). split; [|exact N].
    rewrite A at 1. rewrite getopts_items, getopts_rest, app_nil_r, scan_args by (try exact FI; try exact R; apply settings_letters, FI).
    rewrite <- K. do 2 f_equal. rewrite N, A. unfold argc. rewrite app_length. pose proof (words_count items) as W. rewrite <- K in W. lia.
Qed.
Lemma command_argc args kvs c0 : command letters args kvs ->
  scan handle 1 c0 (getopts opts None args) = Some (argc args, fold_left upd kvs c0).
Proof. intros H. apply (proj2 (scan_command c0 args (argc args) _)). exists kvs. auto. Qed.
End Words.

Lemma command_words letters kvs : Forall (fun kv => In (fst kv) letters) kvs -> command letters (opt_words kvs) kvs.
Proof.
  intros H. exists (map (fun kv => Separate (fst kv) (snd kv)) kvs), [].
  assert (Q : joined (map (fun kv => Separate (fst kv) (snd kv)) kvs) = O /\ stray (map (fun kv => Separate (fst kv) (snd kv)) kvs) = O).
  { induction kvs as [|kv kvs IH]; [split; reflexivity|]. inversion H; subst. apply IH. assumption. }
  split; [apply Forall_map; exact H|]. split; [left; reflexivity|]. split; [|split].
  - rewrite app_nil_r. induction kvs as [|kv kvs IH]; [reflexivity|]. inversion H; subst.
    cbn [opt_words flat_map map item_words app]. f_equal. f_equal. apply IH; [assumption|]. split; apply Q.
  - destruct Q as [-> ->]. reflexivity.
  - clear. induction kvs as [|[k v] kvs IH]; [reflexivity|]. cbn. f_equal. exact IH.
Qed.

(** ** The four programs *)
Definition is_letter (s : string) (letters : list ascii) (k : ascii) : bool :=
  Bool.eqb (match options s k with Some b => b | None => false end) (existsb (Ascii.eqb k) letters).
Lemma letters_iff s letters : (forall k, is_letter s letters k = true) -> forall k, options s k = Some true <-> In k letters.
Proof.
  intros H k. specialize (H k). unfold is_letter in H. apply Bool.eqb_prop in H.
  assert (X : existsb (Ascii.eqb k) letters = true <-> In k letters).
  { rewrite existsb_exists. split; [intros (x & I & Q); apply Ascii.eqb_eq in Q; subst; exact I | intros I; exists k; split; [exact I | apply Ascii.eqb_refl]]. }
  rewrite <- X, <- H. destruct (options s k) as [[|]|]; split; congruence.
Qed.
Definition update (handle : names -> ascii -> string -> option names) (c : names) (kv : ascii * string) : names :=
  match handle c (fst kv) (snd kv) with Some c' => c' | None => c end.

Lemma avg_iff k : options avg_options k = Some true <-> In k avg_letters.
Proof. apply letters_iff. clear. intros [[][][][][][][][]]; reflexivity. Qed.
Lemma gen_iff k : options gen_options k = Some true <-> In k gen_letters.
Proof. apply letters_iff. clear. intros [[][][][][][][][]]; reflexivity. Qed.
Lemma pack_iff k : options pack_options k = Some true <-> In k pack_letters.
Proof. apply letters_iff. clear. intros [[][][][][][][][]]; reflexivity. Qed.
Lemma grade_iff k : options grade_options k = Some true <-> In k grade_letters.
Proof. apply letters_iff. clear. intros [[][][][][][][][]]; reflexivity. Qed.

Ltac no_dash := vm_compute; intuition discriminate.
Ltac handles := intros c k v H; cbn [In] in H; unfold update; cbn [fst snd];
  repeat (destruct H as [<-|H]; [reflexivity|]); destruct H.
Ltac unhandled := intros c k v N; destruct k as [[][][][][][][][]]; try reflexivity; exfalso; apply N; vm_compute; repeat (first [left; reflexivity | right]).

Lemma avg_handles : forall c k v, In k avg_letters -> avgOption c k v = Some (update avgOption c (k, v)).
Proof. handles. Qed.
Lemma avg_unhandled : forall c k v, ~ In k avg_letters -> avgOption c k v = None.
Proof. unhandled. Qed.
Lemma gen_handles T : forall c k v, In k gen_letters -> genOption T c k v = Some (update (genOption T) c (k, v)).
Proof. handles. Qed.
Lemma gen_unhandled T : forall c k v, ~ In k gen_letters -> genOption T c k v = None.
Proof. unhandled. Qed.
Lemma pack_handles T : forall c k v, In k pack_letters -> packOption T c k v = Some (update (packOption T) c (k, v)).
Proof. handles. Qed.
Lemma pack_unhandled T : forall c k v, ~ In k pack_letters -> packOption T c k v = None.
Proof. unhandled. Qed.
Lemma grade_handles T : forall c k v, In k grade_letters -> gradeOption T c k v = Some (update (gradeOption T) c (k, v)).
Proof. handles. Qed.
Lemma grade_unhandled T : forall c k v, ~ In k grade_letters -> gradeOption T c k v = None.
Proof. unhandled. Qed.

Lemma command_letters letters args kvs : command letters args kvs -> Forall (fun kv => In (fst kv) letters) kvs.
Proof. intros (items & tail & F & _ & _ & _ & ->). apply settings_letters, F. Qed.

Lemma avg_fold kvs : Forall (fun kv => In (fst kv) avg_letters) kvs -> forall c,
  fold_left (update avgOption) kvs c =
  mkNames (f_params c) (given "i" kvs (f_in c)) (given "o" kvs (f_out c)) (f_tmp c) (f_cache c).
Proof.
  induction 1 as [|[k v] kvs H _ IH]; intros c; [destruct c; reflexivity|]. cbn [fold_left]. rewrite IH, !given_cons. cbn [fst snd] in *.
  repeat (destruct H as [<-|H]; [reflexivity|]). destruct H.
Qed.
Lemma gen_fold T kvs : Forall (fun kv => In (fst kv) gen_letters) kvs -> forall c,
  fold_left (update (genOption T)) kvs c =
  mkNames (given "i" kvs (f_params c)) (f_in c) (given "o" kvs (f_out c)) (given "t" kvs (f_tmp c)) (given_as (t_atoi T) "c" kvs (f_cache c)).
Proof.
  induction 1 as [|[k v] kvs H _ IH]; intros c; [destruct c; reflexivity|]. cbn [fold_left]. rewrite IH, !given_cons, !given_as_cons. cbn [fst snd] in *.
  repeat (destruct H as [<-|H]; [reflexivity|]). destruct H.
Qed.
Lemma pack_fold T kvs : Forall (fun kv => In (fst kv) pack_letters) kvs -> forall c,
  fold_left (update (packOption T)) kvs c =
  mkNames (f_params c) (given "i" kvs (f_in c)) (given "o" kvs (f_out c)) (f_tmp c) (given_as (t_atoi T) "c" kvs (f_cache c)).
Proof.
  induction 1 as [|[k v] kvs H _ IH]; intros c; [destruct c; reflexivity|]. cbn [fold_left]. rewrite IH, !given_cons, !given_as_cons. cbn [fst snd] in *.
  repeat (destruct H as [<-|H]; [reflexivity|]). destruct H.
Qed.
Lemma grade_fold T kvs : Forall (fun kv => In (fst kv) grade_letters) kvs -> forall c,
  fold_left (update (gradeOption T)) kvs c =
  mkNames (given "p" kvs (f_params c)) (given "i" kvs (f_in c)) (given "o" kvs (f_out c)) (given "t" kvs (f_tmp c)) (given_as (t_atoi T) "c" kvs (f_cache c)).
Proof.
  induction 1 as [|[k v] kvs H _ IH]; intros c; [destruct c; reflexivity|]. cbn [fold_left]. rewrite IH, !given_cons, !given_as_cons. cbn [fst snd] in *.
  repeat (destruct H as [<-|H]; [reflexivity|]). destruct H.
Qed.

Lemma empty_not s : empty s = false <-> s <> ""%string.
Proof. apply String.eqb_neq. Qed.

Lemma avgArgs_iff args c : avgArgs args = Some c <->
  exists kvs fin fout, command avg_letters args kvs /\ named "i" kvs fin /\ named "o" kvs fout /\ c = mkNames "" fin fout "" 0.
Proof.
  pose proof (scan_command _ _ avg_iff ltac:(no_dash) avgOption _ avg_handles avg_unhandled (mkNames "" "" "" "" 0) args) as S.
  unfold avgArgs. split.
  - destruct (scan avgOption 1 _ _) as [[n c']|]; [|discriminate].
    destruct (n =? argc args) eqn:N; [|discriminate]. apply Z.eqb_eq in N. cbn [negb orb].
    destruct (empty (f_in c')) eqn:E1; [discriminate|]. destruct (empty (f_out c')) eqn:E2; [discriminate|]. cbn [orb]. intros Q. injection Q as <-.
    destruct (proj1 (S n c') (conj eq_refl N)) as (kvs & K & _ & ->). rewrite avg_fold in * by (exact (command_letters _ _ _ K)).
    apply empty_not in E1, E2. cbn [f_in f_out f_params f_tmp f_cache] in *. exists kvs, (given "i" kvs ""), (given "o" kvs "").
    split; [exact K|]. split; [split; [reflexivity | exact E1]|]. split; [split; [reflexivity | exact E2]|]. reflexivity.
  - intros (kvs & fin & fout & K & [E1 N1] & [E2 N2] & ->).
    rewrite (command_argc _ _ avg_iff ltac:(no_dash) _ _ avg_handles avg_unhandled args kvs _ K), Z.eqb_refl. cbn [negb orb].
    rewrite avg_fold by (exact (command_letters _ _ _ K)). cbn [f_in f_out f_params f_tmp f_cache]. rewrite E1, E2.
    apply empty_not in N1, N2. rewrite N1, N2. reflexivity.
Qed.
Lemma packArgs_iff T args c : packArgs T args = Some c <->
  exists kvs fin fout, command pack_letters args kvs /\ named "i" kvs fin /\ named "o" kvs fout /\
    c = mkNames "" fin fout "" (given_as (t_atoi T) "c" kvs 64).
Proof.
  pose proof (scan_command _ _ pack_iff ltac:(no_dash) (packOption T) _ (pack_handles T) (pack_unhandled T) (mkNames "" "" "" "" 64) args) as S.
  unfold packArgs. split.
  - destruct (scan (packOption T) 1 _ _) as [[n c']|]; [|discriminate].
    destruct (n =? argc args) eqn:N; [|discriminate]. apply Z.eqb_eq in N. cbn [negb orb].
    destruct (empty (f_in c')) eqn:E1; [discriminate|]. destruct (empty (f_out c')) eqn:E2; [discriminate|]. cbn [orb]. intros Q. injection Q as <-.
    destruct (proj1 (S n c') (conj eq_refl N)) as (kvs & K & _ & ->). rewrite pack_fold in * by (exact (command_letters _ _ _ K)).
    apply empty_not in E1, E2. cbn [f_in f_out f_params f_tmp f_cache] in *. exists kvs, (given "i" kvs ""), (given "o" kvs "").
    split; [exact K|]. split; [split; [reflexivity | exact E1]|]. split; [split; [reflexivity | exact E2]|]. reflexivity.
  - intros (kvs & fin & fout & K & [E1 N1] & [E2 N2] & ->).
    rewrite (command_argc _ _ pack_iff ltac:(no_dash) _ _ (pack_handles T) (pack_unhandled T) args kvs _ K), Z.eqb_refl. cbn [negb orb].
    rewrite pack_fold by (exact (command_letters _ _ _ K)). cbn [f_in f_out f_params f_tmp f_cache]. rewrite E1, E2.
    apply empty_not in N1, N2. rewrite N1, N2. reflexivity.
Qed.
Lemma genArgs_iff T args c : genArgs T args = Some c <->
  exists kvs fp fout ft, command gen_letters args kvs /\ named "i" kvs fp /\ named "o" kvs fout /\ named "t" kvs ft /\
    c = mkNames fp "" fout ft (given_as (t_atoi T) "c" kvs 512).
Proof.
  pose proof (scan_command _ _ gen_iff ltac:(no_dash) (genOption T) _ (gen_handles T) (gen_unhandled T) (mkNames "" "" "" "" 512) args) as S.
  unfold genArgs. split.
  - destruct (scan (genOption T) 1 _ _) as [[n c']|]; [|discriminate].
    destruct (n =? argc args) eqn:N; [|discriminate]. apply Z.eqb_eq in N. cbn [negb orb].
    destruct (empty (f_params c')) eqn:E1; [discriminate|]. destruct (empty (f_out c')) eqn:E2; [discriminate|].
    destruct (empty (f_tmp c')) eqn:E3; [discriminate|]. cbn [orb]. intros Q. injection Q as <-.
    destruct (proj1 (S n c') (conj eq_refl N)) as (kvs & K & _ & ->). rewrite gen_fold in * by (exact (command_letters _ _ _ K)).
    apply empty_not in E1, E2, E3. cbn [f_in f_out f_params f_tmp f_cache] in *. exists kvs, (given "i" kvs ""), (given "o" kvs ""), (given "t" kvs "").
    split; [exact K|]. split; [split; [reflexivity | exact E1]|]. split; [split; [reflexivity | exact E2]|].
    split; [split; [reflexivity | exact E3]|]. reflexivity.
  - intros (kvs & fp & fout & ft & K & [E1 N1] & [E2 N2] & [E3 N3] & ->).
    rewrite (command_argc _ _ gen_iff ltac:(no_dash) _ _ (gen_handles T) (gen_unhandled T) args kvs _ K), Z.eqb_refl. cbn [negb orb].
    rewrite gen_fold by (exact (command_letters _ _ _ K)). cbn [f_in f_out f_params f_tmp f_cache]. rewrite E1, E2, E3.
    apply empty_not in N1, N2, N3. rewrite N1, N2, N3. reflexivity.
Qed.
Lemma gradeArgs_iff T args c : gradeArgs T args = Some c <->
  exists kvs fp fin fout ft, command grade_letters args kvs /\ named "p" kvs fp /\ named "i" kvs fin /\ named "o" kvs fout /\ named "t" kvs ft /\
    c = mkNames fp fin fout ft (given_as (t_atoi T) "c" kvs 128).
Proof.
  pose proof (scan_command _ _ grade_iff ltac:(no_dash) (gradeOption T) _ (grade_handles T) (grade_unhandled T) (mkNames "" "" "" "" 128) args) as S.
  unfold gradeArgs. split.
  - destruct (scan (gradeOption T) 1 _ _) as [[n c']|]; [|discriminate].
    destruct (n =? argc args) eqn:N; [|discriminate]. apply Z.eqb_eq in N. cbn [negb orb].
    destruct (empty (f_params c')) eqn:E1; [discriminate|]. destruct (empty (f_in c')) eqn:E4; [discriminate|]. destruct (empty (f_out c')) eqn:E2; [discriminate|].
    destruct (empty (f_tmp c')) eqn:E3; [discriminate|]. cbn [orb]. intros Q. injection Q as <-.
    destruct (proj1 (S n c') (conj eq_refl N)) as (kvs & K & _ & ->). rewrite grade_fold in * by (exact (command_letters _ _ _ K)).
    apply empty_not in E1, E2, E3, E4. cbn [f_in f_out f_params f_tmp f_cache] in *.
    exists kvs, (given "p" kvs ""), (given "i" kvs ""), (given "o" kvs ""), (given "t" kvs "").
    split; [exact K|]. split; [split; [reflexivity | exact E1]|]. split; [split; [reflexivity | exact E4]|]. split; [split; [reflexivity | exact E2]|].
    split; [split; [reflexivity | exact E3]|]. reflexivity.
  - intros (kvs & fp & fin & fout & ft & K & [E1 N1] & [E4 N4] & [E2 N2] & [E3 N3] & ->).
    rewrite (command_argc _ _ grade_iff ltac:(no_dash) _ _ (grade_handles T) (grade_unhandled T) args kvs _ K), Z.eqb_refl. cbn [negb orb].
    rewrite grade_fold by (exact (command_letters _ _ _ K)). cbn [f_in f_out f_params f_tmp f_cache]. rewrite E1, E2, E3, E4.
    apply empty_not in N1, N2, N3, N4. rewrite N1, N2, N3, N4. reflexivity.
Qed.
