(** C89: the work of the query application can be split, joined and shuffled. *)
From Coq Require Import ZArith Bool Reals Lia String Ascii List Permutation.
From Verif Require Import Outcome Float Payload Addr SpecOct SpecGeom FloatFacts Geom GeomFacts ErrorHandler VMQuery SpecQuery SpecHist
  QueryFacts QueryProof QueryHist QueryIndep Stream GetOpt QueryApp SpecText StreamFacts SpecApp AppFacts AppMain
  ToyLib ToyDb Averager PropHist PropApp SpecSplit.
Import ListNotations.
Open Scope Z_scope. Open Scope list_scope.

(** ** Lines are determined by answers *)
Lemma short_inj a b : short a -> short b -> i2f64 a = i2f64 b -> a = b.
Proof.
  intros A B H. pose proof (toInt_short a A) as QA. pose proof (toInt_short b B) as QB. rewrite H in QA. congruence.
Qed.
Lemma line_fun T l y s s' : line_for T l y s -> line_for T l y s' -> s = s'.
Proof.
  intros (b & z & B & Z & QB & QZ & ->) (b' & z' & B' & Z' & QB' & QZ' & ->).
  rewrite (short_inj b b' B B'), (short_inj z z' Z Z'); congruence.
Qed.

Section Runs.
Context {DB : Type}.
Variables (E : env DB) (T : texts) (g : libm).
(** The answer and the line for a location. *)
Definition good (q : qstate DB) (l : location) (z : reply * string) : Prop :=
  replies E q l (fst z) /\ y_status (fst z) <> ERROR /\ line_for T l (fst z) (snd z).
Lemma kinds q l : (exists y, replies E q l y) \/ (exists o, fails E q l o /\ (o = Abort \/ exists why, o = UB why)).
Proof.
  destruct l as [[lon lat] elev]. cbv beta iota delta [replies fails]. set (olds := repeat S754_nan 9).
  destruct (query E q (fun _ => None) (Some olds) lon lat elev) as [[[q' fs'] v]|m| |why] eqn:Q.
  - left. exists (mkReply (eh_status (q_err q')) (eh_msg (q_err q')) v), (fun _ => None), olds, q', fs'. auto.
  - exfalso. exact (C47_no_exception DB E q _ _ lon lat elev m Q).
  - right. exists Abort. split; [|left; reflexivity]. exists (fun _ => None), olds. split; [reflexivity|]. left. auto.
  - right. exists (UB why). split; [|right; eauto]. exists (fun _ => None), olds. split; [reflexivity|]. right. eauto.
Qed.
Lemma all_or_first q ls :
  (exists ys, Forall2 (replies E q) ls ys /\ Forall (fun y => y_status y <> ERROR) ys) \/
  (exists before l after ys, ls = before ++ l :: after /\ Forall2 (replies E q) before ys /\ Forall (fun y => y_status y <> ERROR) ys /\
    ((exists y, replies E q l y /\ y_status y = ERROR) \/ (exists o, fails E q l o /\ (o = Abort \/ exists why, o = UB why)))).
Proof.
  induction ls as [|l ls IH]; [left; exists []; split; constructor|].
  destruct (kinds q l) as [(y & R)|F].
  - assert (D : y_status y = ERROR \/ y_status y <> ERROR) by (destruct (y_status y); [right|right|left]; congruence).
    destruct D as [D|D].
    + right. exists [], l, ls, []. split; [reflexivity|]. split; [constructor|]. split; [constructor|]. left. eauto.
    + destruct IH as [(ys & A & B)|(before & l' & after & ys & -> & A & B & C)].
      * left. exists (y :: ys). split; constructor; assumption.
      * right. exists (l :: before), l', after, (y :: ys). split; [reflexivity|]. split; [constructor; assumption|]. split; [constructor; assumption | exact C].
  - right. exists [], l, ls, []. split; [reflexivity|]. split; [constructor|]. split; [constructor|]. right. exact F.
Qed.
Lemma lines_goods q ls ys lines : Forall2 (replies E q) ls ys -> Forall (fun y => y_status y <> ERROR) ys -> lines_for T ls ys lines ->
  exists zs, Forall2 (good q) ls zs /\ map fst zs = ys /\ map snd zs = lines.
Proof.
  intros R N L. revert R N. induction L as [|l y s ls ys ss A L IH]; intros R N.
  - exists []. split; [constructor|]. auto.
  - inversion R; subst. inversion N; subst. destruct IH as (zs & G & <- & <-); [assumption..|].
    exists ((y, s) :: zs). split; [constructor; [repeat split; assumption | exact G]|]. auto.
Qed.
Lemma goods_lines q ls zs : Forall2 (good q) ls zs ->
  Forall2 (replies E q) ls (map fst zs) /\ Forall (fun y => y_status y <> ERROR) (map fst zs) /\ lines_for T ls (map fst zs) (map snd zs).
Proof.
  induction 1 as [|l z ls zs (A & B & C) _ (IA & IB & IC)]; [repeat constructor|]. cbn [map].
  split; [constructor; assumption|]. split; [constructor; assumption|]. constructor; assumption.
Qed.
Lemma lines_fun ls ys lines lines' : lines_for T ls ys lines -> lines_for T ls ys lines' -> lines = lines'.
Proof.
  intros L. revert lines'. induction L as [|l y s ls ys ss A L IH]; intros lines' L'; inversion L'; subst; [reflexivity|].
  f_equal; [eapply line_fun; eassumption | apply IH; assumption].
Qed.

Variables (S : os) (args : list string) (c : config) (w : list said) (k : qtype) (d : DB) (x : option DB) (junk : list f64).
Notation q0 := (object c k g (Some d) x eh_new).
(** A run that exits with code 0 has answered all locations. *)
Lemma run_goods ls fs said out fs' : running E T S args c w k d x junk ls -> main E T S g junk args fs = Val (mkResult 0 said out fs') ->
  closes E d x /\ exists zs, Forall2 (good q0) ls zs /\ said = w ++ warned (map fst zs) /\ out = Some (map snd zs) /\
    logged_files E c fs (log_of E ls (map fst zs)) fs'.
Proof.
  intros R M. destruct (all_or_first q0 ls) as [(ys & A & B)|(before & l & after & ys & -> & A & B & [(y & C & D)|(o & C & D)])].
  - destruct (C40_all_lines DB E T S g args c w k d x junk ls fs ys R A B) as (lines & fs1 & L & G & Q1 & Q2).
    destruct (closed_ok E d x) eqn:K.
    + apply closes_iff in K. split; [exact K|]. rewrite (Q1 K) in M. injection M as <- <- <-.
      destruct (lines_goods q0 ls ys lines A B L) as (zs & Z & <- & <-). exists zs. auto.
    + exfalso. rewrite Q2 in M; [discriminate M|]. intros H. apply closes_iff in H. congruence.
  - exfalso. destruct (C40_first_error DB E T S g args c w k d x junk before l after fs ys y R A B C D) as (lines & fs1 & L & G & Q1 & Q2).
    destruct (closed_ok E d x) eqn:K.
    + apply closes_iff in K. rewrite (Q1 K) in M. discriminate M.
    + destruct Q2 as [why Q2]; [intros H; apply closes_iff in H; congruence|]. rewrite Q2 in M. discriminate M.
  - exfalso. rewrite (C40_undefined DB E T S g args c w k d x junk before l after fs ys o R A B C) in M.
    destruct D as [->|[why ->]]; discriminate M.
Qed.
Lemma goods_run ls fs zs : running E T S args c w k d x junk ls -> closes E d x -> Forall2 (good q0) ls zs ->
  exists fs', logged_files E c fs (log_of E ls (map fst zs)) fs' /\
    main E T S g junk args fs = Val (mkResult 0 (w ++ warned (map fst zs)) (Some (map snd zs)) fs').
Proof.
  intros R C G. destruct (goods_lines _ _ _ G) as (A & B & L).
  destruct (C40_all_lines DB E T S g args c w k d x junk ls fs _ R A B) as (lines & fs' & L' & F & Q & _).
  rewrite (lines_fun _ _ _ _ L' L) in Q. exists fs'. auto.
Qed.
End Runs.

Lemma same_object {DB} c c' k g d x e : same_settings c c' -> @object DB c k g d x e = object c' k g d x e.
Proof.
  intros (A & B & C & D & F & G). unfold object, squashes, cache_of. rewrite A, B, D, F, G. reflexivity.
Qed.
Lemma warned_app a b : warned (a ++ b) = warned a ++ warned b.
Proof. apply flat_map_app. Qed.
Lemma log_app {DB} (E : env DB) ls1 ls2 ys1 ys2 : List.length ls1 = List.length ys1 ->
  log_of E (ls1 ++ ls2) (ys1 ++ ys2) = (log_of E ls1 ys1 ++ log_of E ls2 ys2)%string.
Proof.
  revert ys1. induction ls1 as [|l ls1 IH]; intros [|y ys1] H; try discriminate H; [reflexivity|]. cbn [app log_of].
  rewrite IH by (injection H as H; exact H). symmetry. apply app_assoc_s.
Qed.
Lemma log_kept {DB} (E : env DB) c fs text fs' : keeps_log E c -> logged_files E c fs text fs' -> fs' (c_log c) = Some text.
Proof.
  intros (A & B & C) H. rewrite (H (c_log c)), C, String.eqb_refl. apply String.eqb_neq in A. apply String.eqb_neq in B. rewrite A, B. reflexivity.
Qed.
Lemma F2_len {A B} (P : A -> B -> Prop) l l' : Forall2 P l l' -> List.length l = List.length l'.
Proof. induction 1; cbn [List.length]; congruence. Qed.

(** ** C89 *)
(** If the runs over two parts of a list of locations exit with code 0, so does a run over
    the whole list.  It writes the lines of the first part and then those of the second,
    and its messages and its log are put together in the same way. *)
Theorem C89_join : forall DB (E : env DB) T g k d x S S1 S2 args args1 args2 c c1 c2 w w1 w2 junk junk1 junk2 ls1 ls2 fs fs1 fs2 said1 said2 out1 out2 fs1' fs2',
  running E T S args c w k d x junk (ls1 ++ ls2) -> running E T S1 args1 c1 w1 k d x junk1 ls1 -> running E T S2 args2 c2 w2 k d x junk2 ls2 ->
  same_settings c1 c -> same_settings c2 c ->
  main E T S1 g junk1 args1 fs1 = Val (mkResult 0 said1 (Some out1) fs1') -> main E T S2 g junk2 args2 fs2 = Val (mkResult 0 said2 (Some out2) fs2') ->
  exists m1 m2 fs', said1 = w1 ++ m1 /\ said2 = w2 ++ m2 /\ main E T S g junk args fs = Val (mkResult 0 (w ++ m1 ++ m2) (Some (out1 ++ out2)) fs') /\
    (keeps_log E c -> keeps_log E c1 -> keeps_log E c2 ->
     exists log1 log2, fs1' (c_log c1) = Some log1 /\ fs2' (c_log c2) = Some log2 /\ fs' (c_log c) = Some (log1 ++ log2)%string).
Proof.
  intros DB E T g k d x S S1 S2 args args1 args2 c c1 c2 w w1 w2 junk junk1 junk2 ls1 ls2 fs fs1 fs2 said1 said2 out1 out2 fs1' fs2' R R1 R2 E1 E2 M1 M2.
  destruct (run_goods E T g S1 args1 c1 w1 k d x junk1 ls1 fs1 said1 _ fs1' R1 M1) as (C & zs1 & G1 & -> & Q1 & L1). injection Q1 as ->.
  destruct (run_goods E T g S2 args2 c2 w2 k d x junk2 ls2 fs2 said2 _ fs2' R2 M2) as (_ & zs2 & G2 & -> & Q2 & L2). injection Q2 as ->.
  rewrite (same_object c1 c) in G1 by exact E1. rewrite (same_object c2 c) in G2 by exact E2.
  destruct (goods_run E T g S args c w k d x junk (ls1 ++ ls2) fs (zs1 ++ zs2) R C) as (fs' & F & Q); [apply Forall2_app; assumption|].
  rewrite !map_app, warned_app in Q. exists (warned (map fst zs1)), (warned (map fst zs2)), fs'. split; [reflexivity|]. split; [reflexivity|]. split; [exact Q|].
  intros K K1 K2. do 2 eexists. split; [exact (log_kept E c1 _ _ _ K1 L1)|]. split; [exact (log_kept E c2 _ _ _ K2 L2)|].
  rewrite map_app, log_app in F by (rewrite map_length; exact (F2_len _ _ _ G1)). exact (log_kept E c _ _ _ K F).
Qed.
Print Assumptions C89_join.

(** If the run over the whole list exits with code 0, so do runs over its parts, and the
    whole output is theirs put together. *)
Theorem C89_split : forall DB (E : env DB) T g k d x S S1 S2 args args1 args2 c c1 c2 w w1 w2 junk junk1 junk2 ls1 ls2 fs fs1 fs2 said out fs',
  running E T S args c w k d x junk (ls1 ++ ls2) -> running E T S1 args1 c1 w1 k d x junk1 ls1 -> running E T S2 args2 c2 w2 k d x junk2 ls2 ->
  same_settings c1 c -> same_settings c2 c ->
  main E T S g junk args fs = Val (mkResult 0 said (Some out) fs') ->
  exists m1 m2 out1 out2 fs1' fs2', said = w ++ m1 ++ m2 /\ out = out1 ++ out2 /\ List.length out1 = List.length ls1 /\ List.length out2 = List.length ls2 /\
    main E T S1 g junk1 args1 fs1 = Val (mkResult 0 (w1 ++ m1) (Some out1) fs1') /\ main E T S2 g junk2 args2 fs2 = Val (mkResult 0 (w2 ++ m2) (Some out2) fs2').
Proof.
  intros DB E T g k d x S S1 S2 args args1 args2 c c1 c2 w w1 w2 junk junk1 junk2 ls1 ls2 fs fs1 fs2 said out fs' R R1 R2 E1 E2 M.
  destruct (run_goods E T g S args c w k d x junk _ fs said _ fs' R M) as (C & zs & G & -> & Q & L). injection Q as ->.
  apply Forall2_app_inv_l in G. destruct G as (zs1 & zs2 & G1 & G2 & ->).
  assert (N1 := F2_len _ _ _ G1). assert (N2 := F2_len _ _ _ G2).
  rewrite <- (same_object c1 c) in G1 by exact E1. rewrite <- (same_object c2 c) in G2 by exact E2.
  destruct (goods_run E T g S1 args1 c1 w1 k d x junk1 ls1 fs1 zs1 R1 C G1) as (fs1' & _ & Q1).
  destruct (goods_run E T g S2 args2 c2 w2 k d x junk2 ls2 fs2 zs2 R2 C G2) as (fs2' & _ & Q2).
  do 4 eexists. exists fs1', fs2'. split; [rewrite !map_app, warned_app; reflexivity|]. split; [apply map_app|].
  rewrite !map_length. split; [symmetry; exact N1|]. split; [symmetry; exact N2|]. split; [exact Q1 | exact Q2].
Qed.
Print Assumptions C89_split.

Lemma shuffle {A B} (P : A -> B -> Prop) l l' : Permutation l l' -> forall zs, Forall2 P l zs ->
  exists zs', Forall2 P l' zs' /\ Permutation (combine l zs) (combine l' zs').
Proof.
  induction 1 as [|a l l' H IH|a b l|l l' l'' H IH H' IH']; intros zs F.
  - inversion F; subst. exists []. split; constructor.
  - inversion F as [|? z ? zs0 Pa Fl]; subst. destruct (IH zs0 Fl) as (zs' & F' & Q). exists (z :: zs'). split; [constructor; assumption|]. cbn [combine]. constructor. exact Q.
  - inversion F as [|? z ? zs0 Pa Fl]; subst. inversion Fl as [|? z' ? zs1 Pb Fl']; subst. exists (z' :: z :: zs1).
    split; [constructor; [assumption|constructor; assumption]|]. cbn [combine]. apply perm_swap.
  - destruct (IH zs F) as (zs' & F' & Q). destruct (IH' zs' F') as (zs'' & F'' & Q''). exists zs''. split; [exact F''|]. exact (Permutation_trans Q Q'').
Qed.
Lemma combine_map {A B C} (f : B -> C) (l : list A) : forall zs, combine l (map f zs) = map (fun p => (fst p, f (snd p))) (combine l zs).
Proof. induction l as [|a l IH]; intros [|z zs]; try reflexivity. cbn [map combine]. rewrite IH. reflexivity. Qed.

(** Runs over the same locations in another order: the same line for each of them. *)
Theorem C89_shuffle : forall DB (E : env DB) T g k d x S S' args args' c c' w w' junk junk' ls ls' fs fs0 said out fs',
  running E T S args c w k d x junk ls -> running E T S' args' c' w' k d x junk' ls' -> same_settings c' c -> Permutation ls ls' ->
  main E T S g junk args fs = Val (mkResult 0 said (Some out) fs') ->
  exists said' out' fs0', main E T S' g junk' args' fs0 = Val (mkResult 0 said' (Some out') fs0') /\
    List.length out = List.length ls /\ List.length out' = List.length ls' /\ Permutation (combine ls out) (combine ls' out').
Proof.
  intros DB E T g k d x S S' args args' c c' w w' junk junk' ls ls' fs fs0 said out fs' R R' EC P M.
  destruct (run_goods E T g S args c w k d x junk _ fs said _ fs' R M) as (C & zs & G & -> & Q & L). injection Q as ->.
  destruct (shuffle _ ls ls' P zs G) as (zs' & G' & PZ). assert (N := F2_len _ _ _ G). assert (N' := F2_len _ _ _ G').
  rewrite <- (same_object c' c) in G' by exact EC.
  destruct (goods_run E T g S' args' c' w' k d x junk' ls' fs0 zs' R' C G') as (fs0' & _ & Q').
  do 3 eexists. split; [exact Q'|]. rewrite !map_length. split; [symmetry; exact N|]. split; [symmetry; exact N'|].
  rewrite !combine_map. apply Permutation_map. exact PZ.
Qed.
Print Assumptions C89_shuffle.

(** ** Examples *)
(** The locations of C40_example in two files; the second has one without data. *)
Definition part_os (text : string) : os := mkOs (fun n => if String.eqb n "in" then Some text else None) (fun n => String.eqb n "out") (fun _ => true).
Lemma first_lists : lists (t_num app_texts) "x y -1234.5 " [(toy_x, toy_y, elev_a)].
Proof.
  exists ["x"; "y"; "-1234.5"]%string, [], "x y -1234.5 "%string, ""%string.
  split; [reflexivity|]. split; [|split; [left; reflexivity|split]].
  - cbn [app]. apply (laid_check "" "x" " " "y -1234.5 "); [vm_compute; reflexivity..|]. apply (laid_check "" "y" " " "-1234.5 "); [vm_compute; reflexivity..|].
    apply (laid_check "" "-1234.5" " " ""); [vm_compute; reflexivity..|]. apply laid_blank, blanks_check. reflexivity.
  - repeat (apply located_cons; [reflexivity..|]). apply located_nil.
  - intros a b c r lon lat elev Q. discriminate.
Qed.
Lemma second_lists : lists (t_num app_texts) "x y 5000 x y -0.03 " [(toy_x, toy_y, i2f64 5000); (toy_x, toy_y, elev_b)].
Proof.
  exists ["x"; "y"; "5000"; "x"; "y"; "-0.03"]%string, [], "x y 5000 x y -0.03 "%string, ""%string.
  split; [reflexivity|]. split; [|split; [left; reflexivity|split]].
  - cbn [app]. apply (laid_check "" "x" " " "y 5000 x y -0.03 "); [vm_compute; reflexivity..|]. apply (laid_check "" "y" " " "5000 x y -0.03 "); [vm_compute; reflexivity..|].
    apply (laid_check "" "5000" " " "x y -0.03 "); [vm_compute; reflexivity..|]. apply (laid_check "" "x" " " "y -0.03 "); [vm_compute; reflexivity..|].
    apply (laid_check "" "y" " " "-0.03 "); [vm_compute; reflexivity..|].
    apply (laid_check "" "-0.03" " " ""); [vm_compute; reflexivity..|]. apply laid_blank, blanks_check. reflexivity.
  - repeat (apply located_cons; [reflexivity..|]). apply located_nil.
  - intros a b c r lon lat elev Q. discriminate.
Qed.
Lemma part_running text ls : lists (t_num app_texts) text ls ->
  running toy_env app_texts (part_os text) app_args app_config [] MAXRES toy_db None junk9 ls.
Proof.
  intros H. split; [vm_compute; reflexivity|]. split; [exact app_opens|]. split; [reflexivity|]. split; [intros N; contradiction|].
  split; [apply (app_shorts "detailed"); reflexivity|]. split; [intros db a h p N; discriminate|]. split; [reflexivity|].
  split; [exists text; split; [reflexivity | exact H]|]. split; [reflexivity | intros l; reflexivity].
Qed.
Lemma seen_val o code said lines log : app_seen o = Some (code, said, lines, log) -> exists fs', o = Val (mkResult code said lines fs').
Proof. destruct o as [[a b e f]|?| |?]; cbn; intros H; try discriminate H. injection H as <- <- <- _. eauto. Qed.
Notation part_run text := (main toy_env app_texts (part_os text) toy junk9 app_args (fun _ => None)).
Definition line_a : string := " 296908 541696 -1234 5000 2900 2700 200 100 1250 11 3 18".
Definition line_none : string := " 296908 541696 5000 -999 -999 -999 -999 -999 -999 0 0 -999".
Definition line_b : string := " 296908 541696 0 1500 400 1800 200 100 10 7 2 3".
Definition none_said : said := Said ("WARNING: No data for #, #, #." ++ NL).
Example C89_parts : app_seen (part_run "x y -1234.5 ") = Some (0, [], Some [line_a], Some ""%string) /\
  app_seen (part_run "x y 5000 x y -0.03 ") = Some (0, [none_said], Some [line_none; line_b], Some ("#, #, #, No data" ++ NL)%string).
Proof. split; vm_compute; reflexivity. Qed.
Example C89_join_example : exists fs', main toy_env app_texts (app_os true) toy junk9 app_args (fun _ => None) =
  Val (mkResult 0 [none_said] (Some [line_a; line_none; line_b]) fs') /\ fs' "log"%string = Some ("#, #, #, No data" ++ NL)%string.
Proof.
  destruct C89_parts as [P1 P2]. destruct (seen_val _ _ _ _ _ P1) as [fs1 Q1]. destruct (seen_val _ _ _ _ _ P2) as [fs2 Q2].
  assert (SS : same_settings app_config app_config) by (repeat split).
  assert (R : running toy_env app_texts (app_os true) app_args app_config [] MAXRES toy_db None junk9
    ([(toy_x, toy_y, elev_a)] ++ [(toy_x, toy_y, i2f64 5000); (toy_x, toy_y, elev_b)])) by (cbn [app]; exact (proj1 C40_example)).
  assert (K : keeps_log toy_env app_config) by (split; [discriminate|]; split; [discriminate | reflexivity]).
  rewrite Q1 in P1. rewrite Q2 in P2. cbn [app_seen r_code r_said r_lines r_files] in P1, P2.
  pose proof (C89_join _ toy_env app_texts toy MAXRES toy_db None (app_os true) (part_os "x y -1234.5 ") (part_os "x y 5000 x y -0.03 ") app_args app_args app_args
    app_config app_config app_config [] [] [] junk9 junk9 junk9 [(toy_x, toy_y, elev_a)] [(toy_x, toy_y, i2f64 5000); (toy_x, toy_y, elev_b)]
    (fun _ => None) (fun _ => None) (fun _ => None) [] [none_said] [line_a] [line_none; line_b] fs1 fs2 R (part_running _ _ first_lists) (part_running _ _ second_lists) SS SS Q1 Q2) as J.
  clear Q1 Q2. destruct J as (m1 & m2 & fs' & N1 & N2 & Q & L).
  cbn [app] in N1, N2. subst m1 m2. exists fs'. split; [exact Q|]. clear Q R.
  destruct (L K K K) as (l1 & l2 & A & B & C). change (c_log app_config) with "log"%string in *.
  rewrite A in P1. rewrite B in P2. injection P1 as ->. injection P2 as ->. exact C.
Qed.
(** The same locations in the order of C40_error_example. *)
Example C89_shuffle_example : exists said out fs', main toy_env app_texts error_os toy junk9 app_args (fun _ => None) = Val (mkResult 0 said (Some out) fs') /\
  Permutation out [line_a; line_none; line_b].
Proof.
  destruct C89_join_example as (fs' & Q & _).
  destruct (C89_shuffle _ toy_env app_texts toy MAXRES toy_db None (app_os true) error_os app_args app_args app_config app_config [] [] junk9 junk9 app_locations
    [(toy_x, toy_y, i2f64 5000); (toy_x, toy_y, elev_a); (toy_x, toy_y, elev_b)] (fun _ => None) (fun _ => None) [none_said] [line_a; line_none; line_b] fs' (proj1 C40_example) error_running)
    as (m & out & f & M & N & N' & P); [repeat split|apply perm_swap|exact Q|].
  exists m, out, f. split; [exact M|]. apply (Permutation_map snd) in P. symmetry in P.
  destruct out as [|a [|b [|c [|? ?]]]]; try discriminate N'. exact P.
Qed.
(** Back from the whole file to the parts. *)
Example C89_split_example : exists m1 m2 out1 out2 fs1' fs2', [none_said] = m1 ++ m2 /\ [line_a; line_none; line_b] = out1 ++ out2 /\
  List.length out1 = 1%nat /\ List.length out2 = 2%nat /\
  part_run "x y -1234.5 " = Val (mkResult 0 m1 (Some out1) fs1') /\ part_run "x y 5000 x y -0.03 " = Val (mkResult 0 m2 (Some out2) fs2').
Proof.
  destruct C89_join_example as (fs' & Q & _).
  assert (SS : same_settings app_config app_config) by (repeat split).
  assert (R : running toy_env app_texts (app_os true) app_args app_config [] MAXRES toy_db None junk9
    ([(toy_x, toy_y, elev_a)] ++ [(toy_x, toy_y, i2f64 5000); (toy_x, toy_y, elev_b)])) by (cbn [app]; exact (proj1 C40_example)).
  exact (C89_split _ toy_env app_texts toy MAXRES toy_db None (app_os true) (part_os "x y -1234.5 ") (part_os "x y 5000 x y -0.03 ") app_args app_args app_args
    app_config app_config app_config [] [] [] junk9 junk9 junk9 [(toy_x, toy_y, elev_a)] [(toy_x, toy_y, i2f64 5000); (toy_x, toy_y, elev_b)]
    (fun _ => None) (fun _ => None) (fun _ => None) [none_said] [line_a; line_none; line_b] fs' R (part_running _ _ first_lists) (part_running _ _ second_lists) SS SS Q).
Qed.
