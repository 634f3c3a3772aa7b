(** C40, C50, C51: the query application. *)
From Coq Require Import ZArith Bool Lia String Ascii List.
From Verif Require Import Outcome Float Payload Addr SpecOct SpecGeom Geom GeomFacts ErrorHandler VMQuery SpecQuery SpecHist
  QueryFacts QueryProof QueryHist QueryIndep Stream GetOpt QueryApp SpecText StreamFacts SpecApp AppFacts AppMain
  ToyLib ToyDb Averager.
Import ListNotations.
Open Scope Z_scope.

(** ** An application on the example databases *)
(** Words for numbers; numbers are shown truncated. *)
Definition app_num (w : string) : f64 * bool :=
  if String.eqb w "x" then (toy_x, true) else if String.eqb w "y" then (toy_y, true)
  else if String.eqb w "-1234.5" then (elev_a, true) else if String.eqb w "-0.03" then (elev_b, true)
  else if String.eqb w "5000" then (i2f64 5000, true) else if String.eqb w "far" then (i2f64 (2 ^ 40), true)
  else (f_zero, false).
Definition app_show (x : f64) : string := match ftrunc x with Some z => showZ z | None => "nan" end.
Definition app_texts : texts :=
  mkTexts (mkFmt app_num app_num (fun _ => (0, false)) (fun _ => (0, false)) app_show)
    (fun s => if String.eqb s "64" then 64 else 0) (fun s => fst (app_num s))
    (fun _ _ x => (" " ++ app_show x)%string) (fun _ z => (" " ++ showZ z)%string).
Definition app_text : string := ("x y -1234.5" ++ NL ++ "x y" ++ NL ++ "5000 x  y -0.03 " ++ NL ++ "x y -1234.5")%string.
Definition app_os (ok : bool) : os :=
  mkOs (fun n => if String.eqb n "in" then Some app_text else None) (fun n => String.eqb n "out") (fun _ => ok).
Definition app_args : list string := ["-i"; "in"; "-c"; "64"; "-d"; "missing"; "-o"; "out"; "-l"; "log"; "-d"; "detailed"]%string.
Definition junk9 : list f64 := repeat S754_nan 9.
Definition app_config : config := mkConfig "in" "out" "detailed" "" "log" "maxres" f_zero 64 (i2f64 1000000).

Lemma app_shorts n d : toy_open n 64 = Some d -> stores_shorts toy_env (Some d).
Proof.
  intros H db a h p Q S. injection Q as <-. assert (I : In (h, p) d).
  { pose proof (lsearch_ok d a) as K. change (e_search toy_env) with lsearch in S. rewrite S in K. destruct K as [K _]. exact K. }
  assert (F : forallb (fun x => (-32768 <=? p_block (snd x)) && (p_block (snd x) <=? 32767) && (-32768 <=? p_zone (snd x)) && (p_zone (snd x) <=? 32767)) d = true).
  { unfold toy_open in H. destruct (String.eqb n "detailed"); [injection H as <-; vm_compute; reflexivity|].
    destruct (String.eqb n "orphan"); [injection H as <-; vm_compute; reflexivity|].
    destruct (String.eqb n "extended"); [injection H as <-; vm_compute; reflexivity | discriminate]. }
  rewrite forallb_forall in F. specialize (F _ I). cbn [snd] in F. rewrite !andb_true_iff, !Z.leb_le in F. unfold short. lia.
Qed.
Definition blankb (c : ascii) : bool := existsb (Nat.eqb (nat_of_ascii c)) [9; 10; 11; 12; 13; 32]%nat.
Lemma blankb_iff c : blankb c = true <-> blank c.
Proof.
  unfold blankb, blank. rewrite existsb_exists. split.
  - intros (x & I & Q). apply Nat.eqb_eq in Q. rewrite Q. exact I.
  - intros H. eexists. split; [exact H | apply Nat.eqb_refl].
Qed.
Lemma blanks_check s : forallb blankb (list_ascii_of_string s) = true -> blanks s.
Proof. intros H c I. rewrite forallb_forall in H. apply blankb_iff, H, I. Qed.
Lemma word_check s : negb (String.eqb s "") && forallb (fun c => negb (blankb c)) (list_ascii_of_string s) = true -> word s.
Proof.
  rewrite andb_true_iff, negb_true_iff. intros [N H]. split; [apply String.eqb_neq, N|].
  intros c I B. rewrite forallb_forall in H. specialize (H c I). apply blankb_iff in B. rewrite B in H. discriminate.
Qed.
Lemma laid_check s w c rest t ws : t = (s ++ w ++ String c rest)%string ->
  forallb blankb (list_ascii_of_string s) && (negb (String.eqb w "") && forallb (fun c => negb (blankb c)) (list_ascii_of_string w)) && blankb c = true ->
  laid_out ws rest -> laid_out (w :: ws) t.
Proof.
  rewrite !andb_true_iff. intros -> [[A B] C] H. apply laid_word; [apply blanks_check, A | apply word_check | apply blankb_iff, C | exact H].
  rewrite andb_true_iff. exact B.
Qed.
Definition app_locations : list location := [(toy_x, toy_y, elev_a); (toy_x, toy_y, i2f64 5000); (toy_x, toy_y, elev_b)].
Lemma app_lists : lists (t_num app_texts) app_text app_locations.
Proof.
  exists ["x"; "y"; "-1234.5"; "x"; "y"; "5000"; "x"; "y"; "-0.03"]%string, ["x"; "y"]%string.
  exists ("x y -1234.5" ++ NL ++ "x y" ++ NL ++ "5000 x  y -0.03 " ++ NL ++ "x y ")%string, "-1234.5"%string.
  split; [vm_compute; reflexivity|]. split; [|split; [right; apply word_check; vm_compute; reflexivity|split]].
  - cbn [app].
    apply (laid_check "" "x" " " ("y -1234.5" ++ NL ++ "x y" ++ NL ++ "5000 x  y -0.03 " ++ NL ++ "x y ")); [vm_compute; reflexivity..|].
    apply (laid_check "" "y" " " ("-1234.5" ++ NL ++ "x y" ++ NL ++ "5000 x  y -0.03 " ++ NL ++ "x y ")); [vm_compute; reflexivity..|].
    apply (laid_check "" "-1234.5" "010" ("x y" ++ NL ++ "5000 x  y -0.03 " ++ NL ++ "x y ")); [vm_compute; reflexivity..|].
    apply (laid_check "" "x" " " ("y" ++ NL ++ "5000 x  y -0.03 " ++ NL ++ "x y ")); [vm_compute; reflexivity..|].
    apply (laid_check "" "y" "010" ("5000 x  y -0.03 " ++ NL ++ "x y ")); [vm_compute; reflexivity..|].
    apply (laid_check "" "5000" " " ("x  y -0.03 " ++ NL ++ "x y ")); [vm_compute; reflexivity..|].
    apply (laid_check "" "x" " " (" y -0.03 " ++ NL ++ "x y ")); [vm_compute; reflexivity..|].
    apply (laid_check " " "y" " " ("-0.03 " ++ NL ++ "x y ")); [vm_compute; reflexivity..|].
    apply (laid_check "" "-0.03" " " (NL ++ "x y ")); [vm_compute; reflexivity..|].
    apply (laid_check NL "x" " " "y "); [vm_compute; reflexivity..|].
    apply (laid_check "" "y" " " ""); [vm_compute; reflexivity..|].
    apply laid_blank, blanks_check. reflexivity.
  - repeat (apply located_cons; [reflexivity..|]). apply located_nil.
  - intros a b c r lon lat elev Q. discriminate.
Qed.
(** What can be seen of a run. *)
Definition app_seen (o : outcome result) := match o with
  | Val r => Some (r_code r, r_said r, r_lines r, r_files r "log"%string) | _ => None end.
Lemma app_opens : opens toy_env app_config toy_db None.
Proof. split; reflexivity. Qed.

(** ** C50: the command line *)
(** Options as separate words, in any order and with repetitions: the last value of each
    counts; the run goes on exactly if input, output and database are named. *)
Theorem C50_options : forall T kvs, Forall (fun kv => known_letter (fst kv)) kvs ->
  let c := asked_for T kvs in
  (c_in c <> ""%string /\ c_out c <> ""%string /\ c_db c <> ""%string -> parseArgs T (opt_words kvs) = inr (c, [])) /\
  (c_in c = ""%string \/ c_out c = ""%string \/ c_db c = ""%string -> parseArgs T (opt_words kvs) = inl (1, [Usage])).
Proof.
  intros T kvs H c. rewrite (parse_words T kvs H). fold c. unfold enough. split.
  - intros (A & B & D). rewrite !(proj2 (String.eqb_neq _ _)) by assumption. reflexivity.
  - intros [->|[->| ->]]; change (String.eqb "" "") with true; cbn [negb andb]; rewrite ?andb_false_r; reflexivity.
Qed.
Print Assumptions C50_options.

(** -h ends the run with exit code 0, whatever follows. *)
Theorem C50_help : forall DB (E : env DB) T S g junk fs kvs more, Forall (fun kv => known_letter (fst kv)) kvs ->
  main E T S g junk (opt_words kvs ++ "-h"%string :: more) fs = Val (mkResult 0 [Usage] None fs).
Proof. intros DB E T S g junk fs kvs more H. unfold main. rewrite parse_help by exact H. reflexivity. Qed.
Print Assumptions C50_help.

(** One stray word or unknown option among separate options ends it with exit code 1. *)
Theorem C50_stray : forall DB (E : env DB) T S g junk fs kvs w kvs',
  Forall (fun kv => known_letter (fst kv)) kvs -> Forall (fun kv => known_letter (fst kv)) kvs' ->
  (w <> "--"%string /\ (forall c r, w = String c r -> c = "-"%char -> r = ""%string) \/
   exists c, w = String "-" (String c "") /\ ~ known_letter c /\ c <> "h"%char /\ c <> "-"%char) ->
  exists m, main E T S g junk (opt_words kvs ++ w :: opt_words kvs') fs = Val (mkResult 1 (m ++ [Usage]) None fs).
Proof.
  intros DB E T S g junk fs kvs w kvs' H H' HS.
  destruct (parse_stray T kvs w kvs' H H') as [m Q].
  { destruct HS as [HS|(c & -> & NK & NH & ND)]; [left; exact HS|]. right. exists c. split; [reflexivity|]. split; [exact ND|].
    exact (not_option c NK NH). }
  exists m. unfold main. rewrite Q. reflexivity.
Qed.
Print Assumptions C50_stray.

(** But an unknown option is not always refused: a value joined to its option is counted
    as two words, which makes up for a stray one. *)
Theorem C50_unknown_refused_refuted : ~ (forall T args c w,
  In "-x"%string args -> parseArgs T args = inr (c, w) -> False).
Proof.
  intros H.
  apply (H (mkTexts (mkFmt (fun _ => (f_zero, true)) (fun _ => (f_zero, true)) (fun _ => (0, true)) (fun _ => (0, true)) (fun _ => ""%string))
             (fun _ => 0) (fun _ => f_zero) (fun _ _ _ => ""%string) (fun _ _ => ""%string))
           ["-x"; "-iin"; "-o"; "out"; "-d"; "db"]%string
           (mkConfig "in" "out" "db" "" "" "maxres" f_zero 128 squashDefault) [Usage]).
  - left. reflexivity.
  - vm_compute. reflexivity.
Qed.
Print Assumptions C50_unknown_refused_refuted.

(** ** C51: what can go wrong before the first location *)
Theorem C51_no_start : forall DB (E : env DB) T S g junk args fs c w l m,
  parseArgs T args = inr (c, w) -> cannot_start E S c l m ->
  (forall d, In (Some d) l -> e_close E d = true) ->
  exists fs', main E T S g junk args fs = Val (mkResult 1 (w ++ m) None fs') /\ logged_files E c fs "" fs'.
Proof.
  intros DB E T S g junk args fs c w l m HP HC HL. exists (snd (start_log E c fs)). split.
  - exact (main_cannot_start E T S g junk args fs c w l m HP HC HL).
  - exact (logs_ok E c fs [] [] eq_refl).
Qed.
Print Assumptions C51_no_start.

(** The list of reasons is complete. *)
Theorem C51_complete : forall DB (E : env DB) S c, (forall l m, ~ cannot_start E S c l m) ->
  exists d x k text, opens E c d x /\ asks_kind c k /\ (k <> MAXRES -> flt (c_res c) f_zero = false) /\
    o_read S (c_in c) = Some text /\ o_create S (c_out c) = true.
Proof.
  intros DB E S c H. destruct (start_cases E S c) as [(l & m & C)|C]; [exfalso; exact (H l m C) | exact C].
Qed.
Print Assumptions C51_complete.

(** ** C40: one line per location *)
(** The application is started with configuration [c]; both databases open; the query type
    is known; the input file can be read and lists the locations [ls]; the output file can
    be written.  [replies]: what a query for a location alone, on a new object with these
    settings, returns. *)
Definition running {DB} (E : env DB) (T : texts) (S : os) (args : list string) (c : config) (w : list said)
    (k : qtype) (d : DB) (x : option DB) (junk : list f64) (ls : list location) : Prop :=
  parseArgs T args = inr (c, w) /\ opens E c d x /\ asks_kind c k /\ (k <> MAXRES -> flt (c_res c) f_zero = false) /\
  stores_shorts E (Some d) /\ stores_shorts E x /\ List.length junk = 9%nat /\
  (exists text, o_read S (c_in c) = Some text /\ lists (t_num T) text ls) /\
  o_create S (c_out c) = true /\ (forall l, o_write S l = true).

(** No location gives an ERROR: exactly one line per location, in order; a message on
    standard error for each answer that is not OK; the log gets a line for each location
    without data.  Exit code 0, or 1 if closing a database failed. *)
Theorem C40_all_lines : forall DB (E : env DB) T S g args c w k d x junk ls fs ys,
  running E T S args c w k d x junk ls ->
  Forall2 (replies E (object c k g (Some d) x eh_new)) ls ys -> Forall (fun y => y_status y <> ERROR) ys ->
  exists lines fs', lines_for T ls ys lines /\ logged_files E c fs (log_of E ls ys) fs' /\
    (closes E d x -> main E T S g junk args fs = Val (mkResult 0 (w ++ warned ys) (Some lines) fs')) /\
    (~ closes E d x -> main E T S g junk args fs =
       Val (mkResult 1 (w ++ warned ys ++ [Said ("Could not close the etree database '" ++ c_db c ++ "'.")]) (Some lines) fs')).
Proof.
  intros DB E T S g args c w k d x junk ls fs ys (H1 & H2 & H3 & H4 & H5 & H6 & H7 & (text & H8 & HL) & H9 & H10) HY HE.
  destruct (run_all E T S g c k d x junk args fs w text H5 H6 H10 H1 H2 H3 H4 H7 H8 H9 ls ys HL HY HE) as (lines & fs' & A & B & Q).
  exists lines, fs'. split; [exact A|]. split; [exact B|]. rewrite Q. split.
  - intros C. apply closes_iff in C. rewrite C. reflexivity.
  - intros C. rewrite <- app_assoc. destruct (closed_ok E d x) eqn:K; [|reflexivity].
    exfalso. apply C, closes_iff, K.
Qed.
Print Assumptions C40_all_lines.

(** The first ERROR ends the run with exit code 1; the output holds the lines of the
    locations before it.  (If a database then fails to close, the destructor of the query
    object uses its deleted error handler.) *)
Theorem C40_first_error : forall DB (E : env DB) T S g args c w k d x junk before l after fs ys y,
  running E T S args c w k d x junk (before ++ l :: after) ->
  Forall2 (replies E (object c k g (Some d) x eh_new)) before ys -> Forall (fun y => y_status y <> ERROR) ys ->
  replies E (object c k g (Some d) x eh_new) l y -> y_status y = ERROR ->
  exists lines fs', lines_for T before ys lines /\ logged_files E c fs (log_of E (before ++ [l]) (ys ++ [y])) fs' /\
    (closes E d x -> main E T S g junk args fs =
       Val (mkResult 1 (w ++ warned ys ++ [Said (y_msg y)]) (Some lines) fs')) /\
    (~ closes E d x -> exists why, main E T S g junk args fs = UB why).
Proof.
  intros DB E T S g args c w k d x junk before l after fs ys y
    (H1 & H2 & H3 & H4 & H5 & H6 & H7 & (text & H8 & HL) & H9 & H10) HY HE HB YE.
  destruct (run_error E T S g c k d x junk args fs w text H5 H6 H10 H1 H2 H3 H4 H7 H8 H9 before l after ys y HL HY HE HB YE)
    as (lines & fs' & A & B & Q).
  exists lines, fs'. split; [exact A|]. split; [exact B|]. rewrite Q. split.
  - intros C. apply closes_iff in C. rewrite C, <- app_assoc. reflexivity.
  - intros C. destruct (closed_ok E d x) eqn:K; [exfalso; apply C, closes_iff, K | eauto].
Qed.
Print Assumptions C40_first_error.

(** A location for which the query aborts or is undefined takes the application with it. *)
Theorem C40_undefined : forall DB (E : env DB) T S g args c w k d x junk before l after fs ys o,
  running E T S args c w k d x junk (before ++ l :: after) ->
  Forall2 (replies E (object c k g (Some d) x eh_new)) before ys -> Forall (fun y => y_status y <> ERROR) ys ->
  fails E (object c k g (Some d) x eh_new) l o -> main E T S g junk args fs = o.
Proof.
  intros DB E T S g args c w k d x junk before l after fs ys o
    (H1 & H2 & H3 & H4 & H5 & H6 & H7 & (text & H8 & HL) & H9 & H10) HY HE HB.
  exact (run_fails E T S g c k d x junk args fs w text H5 H6 H10 H1 H2 H3 H4 H7 H8 H9 before l after ys o HL HY HE HB).
Qed.
Print Assumptions C40_undefined.

(** Every text lists some locations. *)
Theorem C40_lists_total : forall F text, exists ls, lists F text ls.
Proof.
  intros F text. destruct (text_form text) as (ws & t & e & -> & Ht & He).
  assert (G : forall n ws, (List.length ws <= n)%nat -> exists w1 rest ls, ws = (w1 ++ rest)%list /\ located F w1 ls /\ no_location F rest).
  { clear. induction n as [|n IH]; intros ws H.
    - destruct ws; [|cbn in H; lia]. exists [], [], []. split; [reflexivity|]. split; [constructor|]. intros a b c r lon lat elev Q. discriminate.
    - destruct ws as [|a [|b [|c ws]]];
        try (eexists []; eexists; exists []; split; [reflexivity|]; split; [constructor|]; intros ? ? ? ? ? ? ? Q; discriminate).
      destruct (n_f64 F a) as [lon [|]] eqn:A; [destruct (n_f64 F b) as [lat [|]] eqn:B; [destruct (n_f64 F c) as [elev [|]] eqn:C|]|].
      + destruct (IH ws) as (w1 & rest & ls & -> & L & N); [cbn in H; lia|].
        exists (a :: b :: c :: w1), rest, ((lon, lat, elev) :: ls). split; [reflexivity|]. split; [constructor; assumption | exact N].
      + exists [], (a :: b :: c :: ws), []. split; [reflexivity|]. split; [constructor|].
        intros a' b' c' r lo la el Q (_ & _ & K). injection Q as <- <- <- <-. unfold numeral in K. congruence.
      + exists [], (a :: b :: c :: ws), []. split; [reflexivity|]. split; [constructor|].
        intros a' b' c' r lo la el Q (_ & K & _). injection Q as <- <- <- <-. unfold numeral in K. congruence.
      + exists [], (a :: b :: c :: ws), []. split; [reflexivity|]. split; [constructor|].
        intros a' b' c' r lo la el Q (K & _ & _). injection Q as <- <- <- <-. unfold numeral in K. congruence. }
  destruct (G _ ws (le_n _)) as (w1 & rest & ls & -> & L & N). exists ls, w1, rest, t, e. auto.
Qed.
Print Assumptions C40_lists_total.

(** And only one list. *)
Theorem C40_lists_unique : forall T text ls ls', lists (t_num T) text ls -> lists (t_num T) text ls' -> ls = ls'.
Proof.
  intros T text ls ls' (ws & rest & t & e & -> & Ht & He & HL & HR) (ws' & rest' & t' & e' & Q & Ht' & He' & HL' & HR').
  pose proof (read_next T rest e HR He (f_zero, f_zero, f_zero) ws t ls Ht HL) as A.
  pose proof (read_next T rest' e' HR' He' (f_zero, f_zero, f_zero) ws' t' ls' Ht' HL') as B.
  rewrite <- Q in B. cbv zeta in A, B. revert A B.
  set (r := readLocation _ _ _). generalize (snd r), (fst r). clear - HR HR' He He'. revert ls'.
  induction ls as [|l ls IH]; intros [|l' ls'] loc s A B; [reflexivity| | |].
  - destruct B as (_ & ws & t & -> & _). discriminate A.
  - destruct A as (_ & ws & t & -> & _). discriminate B.
  - destruct A as (-> & ws & t & -> & Ht & HL), B as (-> & ws' & t' & Q & Ht' & HL'). f_equal.
    pose proof (read_next T rest e HR He l' ws t ls Ht HL) as A.
    pose proof (read_next T rest' e' HR' He' l' ws' t' ls' Ht' HL') as B.
    rewrite <- Q in B. exact (IH _ _ _ A B).
Qed.
Print Assumptions C40_lists_unique.

(** Exit code 0 does not mean that every location has its line: a failed write ends the
    loop without a message. *)
Theorem C40_exit_0_complete_refuted : ~ (forall DB (E : env DB) T S g args c w k d x junk ls fs lines m fs',
  parseArgs T args = inr (c, w) -> opens E c d x -> asks_kind c k -> (k <> MAXRES -> flt (c_res c) f_zero = false) ->
  stores_shorts E (Some d) -> stores_shorts E x -> List.length junk = 9%nat ->
  (exists text, o_read S (c_in c) = Some text /\ lists (t_num T) text ls) -> o_create S (c_out c) = true ->
  main E T S g junk args fs = Val (mkResult 0 m lines fs') ->
  exists l, lines = Some l /\ List.length l = List.length ls).
Proof.
  intros H.
  destruct (main toy_env app_texts (app_os false) toy junk9 app_args (fun _ => None)) as [[code m lines fs']|?| |?] eqn:Q;
    assert (K : app_seen (main toy_env app_texts (app_os false) toy junk9 app_args (fun _ => None)) =
      Some (0, [], Some [], Some ""%string)) by (vm_compute; reflexivity); rewrite Q in K; try discriminate K.
  cbn [app_seen r_code r_said r_lines r_files] in K. injection K as -> -> -> _.
  destruct (H _ toy_env app_texts (app_os false) toy app_args app_config [] MAXRES toy_db None junk9 app_locations (fun _ => None) (Some []) [] fs') as (l & Ql & Len).
  - vm_compute. reflexivity.
  - exact app_opens.
  - reflexivity.
  - intros N. contradiction.
  - apply (app_shorts "detailed"). reflexivity.
  - intros db a h p N. discriminate.
  - reflexivity.
  - exists app_text. split; [reflexivity | exact app_lists].
  - reflexivity.
  - exact Q.
  - injection Ql as <-. discriminate Len.
Qed.
Print Assumptions C40_exit_0_complete_refuted.

Example C50_example : Forall (fun kv => known_letter (fst kv))
    [("i"%char, "in"%string); ("c"%char, "64"%string); ("d"%char, "missing"%string); ("o"%char, "out"%string); ("l"%char, "log"%string); ("d"%char, "detailed"%string)] /\
  parseArgs app_texts app_args = inr (app_config, []).
Proof.
  split; [|vm_compute; reflexivity]. unfold known_letter.
  repeat (apply Forall_cons; [cbn [fst In]; repeat (first [left; reflexivity | right])|]). apply Forall_nil.
Qed.
Example C51_example : cannot_start toy_env (app_os true) (mkConfig "in" "out" "missing" "" "" "maxres" f_zero 64 squashDefault)
  [None] [Said "Could not open the etree database 'missing' for querying."].
Proof. constructor; vm_compute; reflexivity. Qed.

(** Three locations followed by white space, of which the second has no data, and a
    fourth that is not. *)
Example C40_example_run : app_seen (main toy_env app_texts (app_os true) toy junk9 app_args (fun _ => None)) =
  Some (0, [Said ("WARNING: No data for #, #, #." ++ NL)],
    Some [" 296908 541696 -1234 5000 2900 2700 200 100 1250 11 3 18"; " 296908 541696 5000 -999 -999 -999 -999 -999 -999 0 0 -999";
          " 296908 541696 0 1500 400 1800 200 100 10 7 2 3"]%string,
    Some ("#, #, #, No data" ++ NL)%string).
Proof. vm_compute. reflexivity. Qed.

Definition app_object := object app_config MAXRES toy (Some toy_db) None eh_new.
Definition app_reply (l : location) : reply :=
  match query toy_env app_object (fun _ => None) (Some junk9) (fst (fst l)) (snd (fst l)) (snd l) with
  | Val (q, _, v) => mkReply (eh_status (q_err q)) (eh_msg (q_err q)) v
  | _ => mkReply OK "" []
  end.
Definition app_answers (l : location) : bool :=
  match query toy_env app_object (fun _ => None) (Some junk9) (fst (fst l)) (snd (fst l)) (snd l) with Val _ => true | _ => false end.
Lemma app_replies l : app_answers l = true -> replies toy_env app_object l (app_reply l).
Proof.
  destruct l as [[lon lat] elev]. unfold app_answers, app_reply, replies. cbn [fst snd].
  destruct (query toy_env app_object (fun _ => None) (Some junk9) lon lat elev) as [[[q f] v]|?| |?] eqn:Q; try discriminate.
  intros _. exists (fun _ => None), junk9, q, f. cbn [y_vals y_status y_msg]. rewrite Q. auto.
Qed.
Example C40_example : running toy_env app_texts (app_os true) app_args app_config [] MAXRES toy_db None junk9 app_locations /\
  Forall2 (replies toy_env app_object) app_locations (map app_reply app_locations) /\
  map y_status (map app_reply app_locations) = [OK; WARNING; OK] /\ closes toy_env toy_db None.
Proof.
  split; [|split; [|split]].
  - split; [vm_compute; reflexivity|]. split; [exact app_opens|]. split; [reflexivity|]. split; [intros N; contradiction|].
    split; [apply (app_shorts "detailed"); reflexivity|]. split; [intros db a h p N; discriminate|]. split; [reflexivity|].
    split; [exists app_text; split; [reflexivity | exact app_lists]|]. split; [reflexivity | intros l; reflexivity].
  - assert (F : forallb app_answers app_locations = true) by (vm_compute; reflexivity).
    revert F. generalize app_locations. induction l as [|l ls IH]; cbn [forallb map]; intros F; [apply Forall2_nil|].
    apply andb_prop in F. destruct F as [A B]. apply Forall2_cons; [apply app_replies, A | exact (IH B)].
  - vm_compute. reflexivity.
  - split; [reflexivity | intros x' N; discriminate].
Qed.

(** The inverse projection fails: no answer where there are data. *)
Definition no_inverse : libm := mkLibm (m_cos toy) (m_sin toy) (m_log toy) (m_project toy) (fun _ _ => None).
Definition error_text : string := ("x" ++ NL ++ "y" ++ NL ++ "5000" ++ NL ++ "x" ++ NL ++ "y" ++ NL ++ "-1234.5" ++ NL ++ "x" ++ NL ++ "y" ++ NL ++ "-0.03" ++ NL)%string.
Definition error_os : os := mkOs (fun _ => Some error_text) (fun _ => true) (fun _ => true).
Lemma error_lists : lists (t_num app_texts) error_text [(toy_x, toy_y, i2f64 5000); (toy_x, toy_y, elev_a); (toy_x, toy_y, elev_b)].
Proof.
  exists ["x"; "y"; "5000"; "x"; "y"; "-1234.5"; "x"; "y"; "-0.03"]%string, [], error_text, ""%string.
  split; [vm_compute; reflexivity|]. split; [|split; [left; reflexivity|split]].
  - cbn [app].
    apply (laid_check "" "x" "010" ("y" ++ NL ++ "5000" ++ NL ++ "x" ++ NL ++ "y" ++ NL ++ "-1234.5" ++ NL ++ "x" ++ NL ++ "y" ++ NL ++ "-0.03" ++ NL)); [vm_compute; reflexivity..|].
    apply (laid_check "" "y" "010" ("5000" ++ NL ++ "x" ++ NL ++ "y" ++ NL ++ "-1234.5" ++ NL ++ "x" ++ NL ++ "y" ++ NL ++ "-0.03" ++ NL)); [vm_compute; reflexivity..|].
    apply (laid_check "" "5000" "010" ("x" ++ NL ++ "y" ++ NL ++ "-1234.5" ++ NL ++ "x" ++ NL ++ "y" ++ NL ++ "-0.03" ++ NL)); [vm_compute; reflexivity..|].
    apply (laid_check "" "x" "010" ("y" ++ NL ++ "-1234.5" ++ NL ++ "x" ++ NL ++ "y" ++ NL ++ "-0.03" ++ NL)); [vm_compute; reflexivity..|].
    apply (laid_check "" "y" "010" ("-1234.5" ++ NL ++ "x" ++ NL ++ "y" ++ NL ++ "-0.03" ++ NL)); [vm_compute; reflexivity..|].
    apply (laid_check "" "-1234.5" "010" ("x" ++ NL ++ "y" ++ NL ++ "-0.03" ++ NL)); [vm_compute; reflexivity..|].
    apply (laid_check "" "x" "010" ("y" ++ NL ++ "-0.03" ++ NL)); [vm_compute; reflexivity..|].
    apply (laid_check "" "y" "010" ("-0.03" ++ NL)); [vm_compute; reflexivity..|].
    apply (laid_check "" "-0.03" "010" ("")); [vm_compute; reflexivity..|].
    apply laid_blank, blanks_check. reflexivity.
  - repeat (apply located_cons; [reflexivity..|]). apply located_nil.
  - intros a b c r lon lat elev Q. discriminate.
Qed.
Lemma error_running : running toy_env app_texts error_os app_args app_config [] MAXRES toy_db None junk9 [(toy_x, toy_y, i2f64 5000); (toy_x, toy_y, elev_a); (toy_x, toy_y, elev_b)].
Proof.
  split; [vm_compute; reflexivity|]. split; [exact app_opens|]. split; [reflexivity|]. split; [intros N; contradiction|].
  split; [apply (app_shorts "detailed"); reflexivity|]. split; [intros db a h p N; discriminate|]. split; [reflexivity|].
  split; [exists error_text; split; [reflexivity | exact error_lists]|]. split; [reflexivity | intros l; reflexivity].
Qed.
Definition far_text : string := ("x" ++ NL ++ "y" ++ NL ++ "5000" ++ NL ++ "far" ++ NL ++ "y" ++ NL ++ "-0.03" ++ NL ++ "x" ++ NL ++ "y" ++ NL ++ "-1234.5" ++ NL)%string.
Definition far_os : os := mkOs (fun _ => Some far_text) (fun _ => true) (fun _ => true).
Lemma far_lists : lists (t_num app_texts) far_text [(toy_x, toy_y, i2f64 5000); (i2f64 (2 ^ 40), toy_y, elev_b); (toy_x, toy_y, elev_a)].
Proof.
  exists ["x"; "y"; "5000"; "far"; "y"; "-0.03"; "x"; "y"; "-1234.5"]%string, [], far_text, ""%string.
  split; [vm_compute; reflexivity|]. split; [|split; [left; reflexivity|split]].
  - cbn [app].
    apply (laid_check "" "x" "010" ("y" ++ NL ++ "5000" ++ NL ++ "far" ++ NL ++ "y" ++ NL ++ "-0.03" ++ NL ++ "x" ++ NL ++ "y" ++ NL ++ "-1234.5" ++ NL)); [vm_compute; reflexivity..|].
    apply (laid_check "" "y" "010" ("5000" ++ NL ++ "far" ++ NL ++ "y" ++ NL ++ "-0.03" ++ NL ++ "x" ++ NL ++ "y" ++ NL ++ "-1234.5" ++ NL)); [vm_compute; reflexivity..|].
    apply (laid_check "" "5000" "010" ("far" ++ NL ++ "y" ++ NL ++ "-0.03" ++ NL ++ "x" ++ NL ++ "y" ++ NL ++ "-1234.5" ++ NL)); [vm_compute; reflexivity..|].
    apply (laid_check "" "far" "010" ("y" ++ NL ++ "-0.03" ++ NL ++ "x" ++ NL ++ "y" ++ NL ++ "-1234.5" ++ NL)); [vm_compute; reflexivity..|].
    apply (laid_check "" "y" "010" ("-0.03" ++ NL ++ "x" ++ NL ++ "y" ++ NL ++ "-1234.5" ++ NL)); [vm_compute; reflexivity..|].
    apply (laid_check "" "-0.03" "010" ("x" ++ NL ++ "y" ++ NL ++ "-1234.5" ++ NL)); [vm_compute; reflexivity..|].
    apply (laid_check "" "x" "010" ("y" ++ NL ++ "-1234.5" ++ NL)); [vm_compute; reflexivity..|].
    apply (laid_check "" "y" "010" ("-1234.5" ++ NL)); [vm_compute; reflexivity..|].
    apply (laid_check "" "-1234.5" "010" ("")); [vm_compute; reflexivity..|].
    apply laid_blank, blanks_check. reflexivity.
  - repeat (apply located_cons; [reflexivity..|]). apply located_nil.
  - intros a b c r lon lat elev Q. discriminate.
Qed.
Lemma far_running : running toy_env app_texts far_os app_args app_config [] MAXRES toy_db None junk9 [(toy_x, toy_y, i2f64 5000); (i2f64 (2 ^ 40), toy_y, elev_b); (toy_x, toy_y, elev_a)].
Proof.
  split; [vm_compute; reflexivity|]. split; [exact app_opens|]. split; [reflexivity|]. split; [intros N; contradiction|].
  split; [apply (app_shorts "detailed"); reflexivity|]. split; [intros db a h p N; discriminate|]. split; [reflexivity|].
  split; [exists far_text; split; [reflexivity | exact far_lists]|]. split; [reflexivity | intros l; reflexivity].
Qed.

Definition answer_at (g : libm) (l : location) : option (status * string) :=
  match query toy_env (object app_config MAXRES g (Some toy_db) None eh_new) (fun _ => None) (Some junk9) (fst (fst l)) (snd (fst l)) (snd l) with
  | Val (q, _, v) => Some (eh_status (q_err q), eh_msg (q_err q))
  | _ => None
  end.
Lemma answer_reply g l s m : answer_at g l = Some (s, m) ->
  exists y, replies toy_env (object app_config MAXRES g (Some toy_db) None eh_new) l y /\ y_status y = s /\ y_msg y = m.
Proof.
  destruct l as [[lon lat] elev]. unfold answer_at, replies. cbn [fst snd].
  destruct (query toy_env _ (fun _ => None) (Some junk9) lon lat elev) as [[[q f] v]|?| |?] eqn:Q; try discriminate.
  intros H. injection H as <- <-. exists (mkReply (eh_status (q_err q)) (eh_msg (q_err q)) v). split; [|split; reflexivity].
  exists (fun _ => None), junk9, q, f. cbn [y_vals y_status y_msg]. rewrite Q. auto.
Qed.
Example C40_error_example : exists ys y,
  Forall2 (replies toy_env (object app_config MAXRES no_inverse (Some toy_db) None eh_new)) [(toy_x, toy_y, i2f64 5000)] ys /\
  Forall (fun y => y_status y <> ERROR) ys /\
  replies toy_env (object app_config MAXRES no_inverse (Some toy_db) None eh_new) (toy_x, toy_y, elev_a) y /\ y_status y = ERROR /\
  app_seen (main toy_env app_texts error_os no_inverse junk9 app_args (fun _ => None)) =
    Some (1, [Said ("WARNING: No data for #, #, #." ++ NL); Said "Error while inverse projecting location."],
      Some [" 296908 541696 5000 -999 -999 -999 -999 -999 -999 0 0 -999"]%string, Some ("#, #, #, No data" ++ NL)%string).
Proof.
  destruct (answer_reply no_inverse (toy_x, toy_y, i2f64 5000) WARNING ("WARNING: No data for #, #, #." ++ NL)) as (y1 & R1 & S1 & _);
    [vm_compute; reflexivity|].
  destruct (answer_reply no_inverse (toy_x, toy_y, elev_a) ERROR "Error while inverse projecting location.") as (y2 & R2 & S2 & _);
    [vm_compute; reflexivity|].
  exists [y1], y2. split; [apply Forall2_cons; [exact R1 | apply Forall2_nil]|].
  split; [apply Forall_cons; [rewrite S1; discriminate | apply Forall_nil]|]. split; [exact R2|]. split; [exact S2|].
  vm_compute. reflexivity.
Qed.
Example C40_undefined_example : fails toy_env (object app_config MAXRES toy (Some toy_db) None eh_new)
    (i2f64 (2 ^ 40), toy_y, elev_b) (UB "uninitialised payload read") /\
  main toy_env app_texts far_os toy junk9 app_args (fun _ => None) = UB "uninitialised payload read"%string.
Proof.
  split; [|vm_compute; reflexivity]. exists (fun _ => None), junk9. split; [reflexivity|]. right. eexists. split; [|reflexivity].
  vm_compute. reflexivity.
Qed.
