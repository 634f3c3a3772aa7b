(** Proofs about runs of the isosurface application. *)
From Coq Require Import ZArith Bool Reals Lra Lia String Ascii List.
From Verif Require Import Outcome Float Payload Addr SpecOct SpecGeom FloatFacts Geom GeomFacts ErrorHandler VMQuery SpecQuery SpecHist
  QueryFacts QueryProof QueryHist QueryIndep Stream GetOpt QueryApp IsoApp SpecText StreamFacts SpecApp AppFacts AppMain SpecIso IsoNum IsoFacts IsoMain.
Import ListNotations.
Open Scope Z_scope.

(** ** Reading points *)
Section Read.
Variable T : texts.
Notation F := (t_num T).
Variables (rest : list string) (e : string).
Hypothesis HR : no_point F rest.
Hypothesis HE : unterminated e.

(** The first of the points still to be handled has been read. *)
Definition at_points (loc : point) (s : istream) (ls : list point) : Prop :=
  match ls with
  | [] => good s = false
  | l :: ls' => loc = l /\ exists ws t, s = fresh (t ++ e) /\ laid_out (ws ++ rest) t /\ points F ws ls'
  end.
Lemma readLonLat_eq old s : readLonLat T old s =
  let r1 := getNum (n_f64 F) (fst old) s in
  let r2 := getNum (n_f64 F) (snd old) (fst r1) in
  (fst r2, (snd r1, snd r2)).
Proof.
  destruct old as [a b]. unfold readLonLat. cbn [fst snd].
  destruct (getNum (n_f64 F) a s) as [s1 x1]. cbn [fst snd].
  destruct (getNum (n_f64 F) b s1) as [s2 x2]. reflexivity.
Qed.
Lemma point_stops old t : laid_out rest t -> good (fst (readLonLat T old (fresh (t ++ e)))) = false.
Proof.
  intros H. rewrite readLonLat_eq. cbv zeta. cbn [fst].
  set (s0 := fresh (t ++ e)). set (o1 := fst old). set (o2 := snd old).
  destruct rest as [|a [|b r]] eqn:R.
  - assert (B : blanks t) by (inversion H; assumption).
    apply getNum_bad. apply getNum_end; [exact B | exact HE].
  - destruct (n_f64 F a) as [va [|]] eqn:A.
    + destruct (getNum_laid (n_f64 F) o1 a [] t e va true H A) as (t1 & Q & H1). fold s0 in Q. rewrite Q.
      assert (B : blanks t1) by (inversion H1; assumption). apply (getNum_end (n_f64 F) o2 t1 e B HE).
    + apply getNum_bad. exact (getNum_fail T e a [] t o1 va H A).
  - destruct (n_f64 F a) as [va [|]] eqn:A; [|apply getNum_bad; exact (getNum_fail T e a _ t o1 va H A)].
    destruct (getNum_laid (n_f64 F) o1 a _ t e va true H A) as (t1 & Q & H1). fold s0 in Q. rewrite Q. cbn [fst negb].
    change (mkIn (chars (t1 ++ e)) false false) with (fresh (t1 ++ e)).
    destruct (n_f64 F b) as [vb [|]] eqn:B; [|exact (getNum_fail T e b _ t1 o2 vb H1 B)].
    exfalso. apply (HR a b r va vb eq_refl). split; assumption.
Qed.
Lemma point_next old ws t ls : laid_out (ws ++ rest) t -> points F ws ls ->
  let r := readLonLat T old (fresh (t ++ e)) in at_points (snd r) (fst r) ls.
Proof.
  intros H L. inversion L as [|a b lon lat ws' ls' A B L']; subst.
  - cbv zeta. unfold at_points. apply point_stops, H.
  - cbv zeta. cbn [app] in H. unfold numeral in A, B.
    destruct (getNum_laid (n_f64 F) (fst old) a _ t e lon true H A) as (t1 & Q1 & H1).
    destruct (getNum_laid (n_f64 F) (snd old) b _ t1 e lat true H1 B) as (t2 & Q2 & H2).
    cbn [negb] in Q1, Q2. change (mkIn (chars (t1 ++ e)) false false) with (fresh (t1 ++ e)) in Q1.
    change (mkIn (chars (t2 ++ e)) false false) with (fresh (t2 ++ e)) in Q2.
    rewrite readLonLat_eq. cbv zeta. rewrite Q1. cbn [fst snd]. rewrite Q2. cbn [fst snd].
    unfold at_points. split; [reflexivity|]. exists ws', t2. split; [reflexivity|]. split; [exact H2 | exact L'].
Qed.
End Read.
Lemma points_length F ws ls : points F ws ls -> List.length ws = (2 * List.length ls)%nat.
Proof. induction 1; cbn [List.length] in *; lia. Qed.

(** ** The loop *)
Section Loop.
Context {DB : Type}.
Variables (E : env DB) (T : texts) (S : os).
Hypothesis WOK : forall l, o_write S l = true.
Variables (c : isoconf) (g : libm) (q0 : qstate DB) (fs : files).
Hypothesis CL : clean (q_err q0).
Hypothesis NL0 : null_log (q_err q0).
Variables (rest : list string) (e : string).
Hypothesis HR : no_point (t_num T) rest.
Hypothesis HE : unterminated e.

Definition same_object (q : qstate DB) : Prop := q = q0 \/ q = only 1 q0.
Lemma same_location q junk junk' lon lat : same_object q ->
  isoLocation E T c g q fs junk lon lat = isoLocation E T c g q0 fs junk' lon lat.
Proof. intros [->| ->]; [apply isoLocation_junk | apply isoLocation_only]. Qed.
Lemma same_finish q w lines fs' : same_object q -> finish E q w lines fs' = finish E q0 w lines fs'.
Proof. intros [->| ->]; [reflexivity | apply finish_only]. Qed.

Definition gives (l : point) (y : list said * string) : Prop :=
  exists junk, isoLocation E T c g q0 fs junk (fst l) (snd l) = Val (only 1 q0, fs, fst y, inr (snd y), true).

Lemma loop_lines ls ys : Forall2 gives ls ys -> forall more fuel junk q w lines loc s, same_object q ->
  at_points T rest e loc s (ls ++ more) -> (List.length (ls ++ more) <= fuel)%nat ->
  exists fuel' q' loc' s', same_object q' /\ at_points T rest e loc' s' more /\ (List.length more <= fuel')%nat /\
    isoLoop E T S fuel c g junk q w lines fs true loc s =
    isoLoop E T S fuel' c g junk q' (w ++ concat (map fst ys))%list (lines ++ map snd ys)%list fs true loc' s'.
Proof.
  induction 1 as [|l y ls ys Hy Hys IH]; intros more fuel junk q w lines loc s Hq HA HF.
  - exists fuel, q, loc, s. cbn [map concat]. rewrite !app_nil_r. auto.
  - cbn [app] in HA, HF. destruct HA as (-> & ws & t & -> & Ht & Hp). destruct fuel as [|fuel]; [cbn in HF; lia|].
    cbn [isoLoop].
    replace (negb (i_eof (fresh (t ++ e))) && good (fresh (t ++ e)) && true) with true by reflexivity.
    destruct l as [lon lat]. destruct Hy as (junk' & Hy). cbn [fst snd] in Hy.
    rewrite (same_location q junk junk' lon lat Hq), Hy. cbn [bind]. rewrite WOK.
    pose proof (point_next T rest e HR HE (lon, lat) ws t (ls ++ more) Ht Hp) as N. cbv zeta in N.
    destruct (readLonLat T (lon, lat) (fresh (t ++ e))) as [s1 loc1]. cbn [fst snd] in N.
    destruct (IH more fuel junk (only 1 q0) (w ++ fst y)%list (lines ++ [snd y])%list loc1 s1 (or_intror eq_refl) N) as (fuel' & q' & loc' & s' & A & B & C & D).
    { cbn in HF. lia. }
    exists fuel', q', loc', s'. split; [exact A|]. split; [exact B|]. split; [exact C|].
    cbn [map concat]. rewrite D, <- !app_assoc. reflexivity.
Qed.

(** What the first of the remaining points makes the program do. *)
Definition first_point (junk : f64) (q : qstate DB) (w : list said) (lines : list string) (l : point) (k : list said -> string -> outcome result)
  : outcome result :=
  let* (q1, fs1, w1, r, unwinds) := isoLocation E T c g q fs junk (fst l) (snd l) in
  match r with
  | inl code =>
      if unwinds : bool then leave E code q1 (w ++ w1)%list (Some lines) fs1
      else Val (mkResult code (w ++ w1)%list (Some lines) fs1)
  | inr line => k w1 line
  end.
Lemma loop_first l more fuel junk q w lines loc s : same_object q ->
  at_points T rest e loc s (l :: more) -> (List.length (l :: more) <= fuel)%nat ->
  exists fuel' loc' s', at_points T rest e loc' s' more /\ (List.length more <= fuel')%nat /\
    isoLoop E T S fuel c g junk q w lines fs true loc s =
    first_point junk q0 w lines l (fun w1 line => isoLoop E T S fuel' c g junk (only 1 q0) (w ++ w1)%list (lines ++ [line])%list fs true loc' s').
Proof.
  intros Hq (-> & ws & t & -> & Ht & Hp) HF. destruct fuel as [|fuel]; [cbn in HF; lia|].
  destruct l as [lon lat].
  pose proof (point_next T rest e HR HE (lon, lat) ws t more Ht Hp) as N. cbv zeta in N.
  exists fuel, (snd (readLonLat T (lon, lat) (fresh (t ++ e)))), (fst (readLonLat T (lon, lat) (fresh (t ++ e)))).
  split; [exact N|]. split; [cbn in HF; lia|].
  cbn [isoLoop]. replace (negb (i_eof (fresh (t ++ e))) && good (fresh (t ++ e)) && true) with true by reflexivity.
  unfold first_point. cbn [fst snd]. rewrite (same_location q junk junk lon lat Hq).
  destruct (isoLocation E T c g q0 fs junk lon lat) as [[[[[q1 fs1] w1] r] u]| | |] eqn:Q; cbn [bind]; try reflexivity.
  destruct r as [code|line]; [reflexivity|]. rewrite WOK.
  destruct (isoLocation_effects E T c g q0 fs junk lon lat q1 fs1 w1 (inr line) u Q CL NL0) as (-> & _ & H).
  destruct (H line eq_refl) as [-> _]. destruct (readLonLat T (lon, lat) (fresh (t ++ e))) as [s1 loc1]. reflexivity.
Qed.
Lemma loop_stops fuel junk q w lines loc s : same_object q -> at_points T rest e loc s [] ->
  isoLoop E T S fuel c g junk q w lines fs true loc s = finish E q0 w lines fs.
Proof.
  intros Hq A. cbn [at_points] in A. replace (isoLoop E T S fuel c g junk q w lines fs true loc s) with (finish E q w lines fs).
  - apply same_finish, Hq.
  - destruct fuel; cbn [isoLoop]; rewrite A, andb_false_r; reflexivity.
Qed.
End Loop.

(** ** Whole runs *)
Section Run.
Context {DB : Type}.
Variables (E : env DB) (T : texts) (S : os).
Hypothesis WOK : forall l, o_write S l = true.
Variables (g : libm) (args : list string) (fs : files) (c : isoconf).
Hypothesis HA : isoArgs T args = inr c.

Lemma run_start junk text ls q w : isoInit E c g = Val (q, w) -> o_read S (i_in c) = Some text -> o_create S (i_out c) = true ->
  lists_points (t_num T) text ls -> exists rest e loc s,
  no_point (t_num T) rest /\ unterminated e /\ at_points T rest e loc s ls /\
  (List.length ls <= String.length text)%nat /\
  isoMain E T S g junk args fs = isoLoop E T S (String.length text) c g junk q w [] fs true loc s.
Proof.
  intros HI HO HC (ws & rest & t & e & -> & Ht & He & HL & HR). exists rest, e.
  pose proof (point_next T rest e HR He (f_zero, f_zero) ws t ls Ht HL) as RN. cbv zeta in RN.
  eexists. eexists. split; [exact HR|]. split; [exact He|]. split; [exact RN|]. split.
  - pose proof (laid_length _ _ Ht) as L. rewrite app_length in L. rewrite length_app_s.
    pose proof (points_length _ _ _ HL). lia.
  - unfold isoMain. rewrite HA, HI. cbn [bind]. rewrite HO, HC. cbn [negb].
    change (openText (t ++ e)) with (fresh (t ++ e)).
    destruct (readLonLat T (f_zero, f_zero) (fresh (t ++ e))) as [s1 l1]. reflexivity.
Qed.

(** *** Opening *)
Lemma cache_iso_pos : (0 <? iso_cache c) = true.
Proof. unfold iso_cache. destruct (0 <? i_cache c) eqn:Q; [exact Q | reflexivity]. Qed.

Lemma isoInit_eq : isoInit E c g =
  let* q := open E (iso_object c g None None) in
  if bad q then Val (q, [Said (eh_msg (q_err q))]) else Val (set_queryType 0 q, []).
Proof.
  unfold isoInit. cbv zeta.
  assert (C : forall q : qstate DB, set_cacheSize (i_cache c) q = mkQ (q_res q) (q_limit q) (q_db q) (q_dbExt q) (q_vals q) (q_geom q) (q_err q)
    (q_name q) (q_nameExt q) (q_type q) (if 0 <? i_cache c then i_cache c else q_cache q) (q_cacheExt q) (q_squash q))
    by (intros []; unfold set_cacheSize; destruct (0 <? i_cache c); reflexivity).
  assert (CX : forall q : qstate DB, set_cacheSizeExt (i_cache c) q = mkQ (q_res q) (q_limit q) (q_db q) (q_dbExt q) (q_vals q) (q_geom q) (q_err q)
    (q_name q) (q_nameExt q) (q_type q) (q_cache q) (if 0 <? i_cache c then i_cache c else q_cacheExt q) (q_squash q))
    by (intros []; unfold set_cacheSizeExt; destruct (0 <? i_cache c); reflexivity).
  rewrite C, CX. unfold iso_object, iso_cache.
  change (fne (i_squash c) squashDefault) with (iso_squashes c).
  destruct (iso_squashes c); reflexivity.
Qed.
Lemma isoInit_opens d x : iso_opens E c d x -> isoInit E c g = Val (iso_object c g (Some d) x, []).
Proof.
  intros [Hd Hx]. rewrite isoInit_eq. unfold open.
  cbn [iso_object q_res q_limit q_db q_dbExt q_vals q_geom q_err q_name q_nameExt q_type q_cache q_cacheExt q_squash].
  rewrite cache_iso_pos, Hd. cbn [assert_ bind]. destruct (String.eqb (i_dbExt c) "").
  - subst x. reflexivity.
  - destruct Hx as (x' & -> & Hx). rewrite Hx. reflexivity.
Qed.
Definition starts (q0 : qstate DB) : Prop := exists d x, iso_opens E c d x /\ q0 = iso_object c g (Some d) x.
Lemma isoInit_cases : (exists q0, starts q0 /\ isoInit E c g = Val (q0, [])) \/
  (exists q m, isoInit E c g = Val (q, [m]) /\ bad q = true /\ forall d x, ~ iso_opens E c d x).
Proof.
  destruct (e_open E (i_db c) (iso_cache c)) as [d|] eqn:D.
  - destruct (String.eqb (i_dbExt c) "") eqn:X.
    + assert (O : iso_opens E c d None) by (split; [exact D|]; rewrite X; reflexivity).
      left. eexists. split; [|apply (isoInit_opens _ _ O)]. exists d, None. auto.
    + destruct (e_open E (i_dbExt c) (iso_cache c)) as [x|] eqn:Y.
      * assert (O : iso_opens E c d (Some x)) by (split; [exact D|]; rewrite X; eauto).
        left. eexists. split; [|apply (isoInit_opens _ _ O)]. exists d, (Some x). auto.
      * right. rewrite isoInit_eq. unfold open.
        cbn [iso_object q_res q_limit q_db q_dbExt q_vals q_geom q_err q_name q_nameExt q_type q_cache q_cacheExt q_squash].
        rewrite cache_iso_pos, D, X, Y. cbn [assert_ bind]. eexists. eexists. split; [reflexivity|]. split; [reflexivity|].
        intros d' x' [_ O]. rewrite X in O. destruct O as (x2 & _ & O). congruence.
  - right. rewrite isoInit_eq. unfold open.
    cbn [iso_object q_res q_limit q_db q_dbExt q_vals q_geom q_err q_name q_nameExt q_type q_cache q_cacheExt q_squash].
    rewrite cache_iso_pos, D. cbn [assert_ bind].
    assert (N : forall d x, ~ iso_opens E c d x) by (intros d' x' [O _]; congruence).
    destruct (String.eqb (i_dbExt c) ""); cbn [bind]; [eexists; eexists; split; [reflexivity|]; split; [reflexivity | exact N]|].
    destruct (e_open E (i_dbExt c) (iso_cache c)); cbn [bind]; eexists; eexists; (split; [reflexivity|]; split; [reflexivity | exact N]).
Qed.

(** *** One point *)
Lemma isoLocation_bad q junk lon lat : bad q = true -> isoLocation E T c g q fs junk lon lat = Abort.
Proof.
  intros B. unfold isoLocation, isoElev. rewrite set_elevation. cbn [bind]. 
  change (bad (only 8 q)) with (bad q). rewrite B. reflexivity.
Qed.
Lemma run_bad junk text ls : o_read S (i_in c) = Some text -> o_create S (i_out c) = true ->
  lists_points (t_num T) text ls -> ls <> [] -> (forall d x, ~ iso_opens E c d x) ->
  isoMain E T S g junk args fs = Abort.
Proof.
  intros HO HC HL N NO. destruct isoInit_cases as [(q0 & (d & x & O & _) & _)|(q & m & I & B & _)]; [exfalso; exact (NO _ _ O)|].
  destruct (run_start junk text ls q [m] I HO HC HL) as (rest & e & loc & s & HR & He & HP & HF & ->).
  destruct ls as [|[lon lat] ls]; [congruence|]. destruct HP as (-> & ws & t & -> & _).
  destruct (String.length text); [cbn in HF; lia|]. cbn [isoLoop].
  replace (negb (i_eof (fresh (t ++ e))) && good (fresh (t ++ e)) && true) with true by reflexivity.
  rewrite isoLocation_bad by exact B. reflexivity.
Qed.

Lemma starts_clean q0 : starts q0 -> clean (q_err q0) /\ null_log (q_err q0).
Proof. intros (d & x & _ & ->). split; [split; reflexivity | reflexivity]. Qed.

Lemma run_one junk text l q0 : starts q0 -> o_read S (i_in c) = Some text -> o_create S (i_out c) = true ->
  lists_points (t_num T) text [l] ->
  isoMain E T S g junk args fs = first_point E T c g fs junk q0 [] [] l (fun w1 line => finish E q0 w1 [line] fs).
Proof.
  intros HS HO HC HL. pose proof HS as (d & x & OP & EQ). destruct (starts_clean q0 HS) as [C N].
  pose proof (isoInit_opens d x OP) as I. rewrite <- EQ in I.
  destruct (run_start junk text [l] q0 [] I HO HC HL) as (rest & e & loc & s & HR & He & HP & HF & ->).
  destruct (loop_first E T S WOK c g q0 fs C N rest e HR He l [] (String.length text) junk q0 [] [] loc s (or_introl eq_refl) HP HF)
    as (fuel' & loc' & s' & A & B & ->).
  unfold first_point. destruct (isoLocation E T c g q0 fs junk (fst l) (snd l)) as [[[[[q1 fs1] w1] r] u]| | |]; cbn [bind]; try reflexivity.
  destruct r; [reflexivity|]. apply (loop_stops E T S c g q0 fs rest e); [right; reflexivity | exact A].
Qed.
Lemma run_many junk text ls l q0 ys : starts q0 -> o_read S (i_in c) = Some text -> o_create S (i_out c) = true ->
  forall more, lists_points (t_num T) text (ls ++ l :: more) -> Forall2 (gives E T c g q0 fs) ls ys ->
  exists k, isoMain E T S g junk args fs =
    first_point E T c g fs junk q0 (concat (map fst ys)) (map snd ys) l k.
Proof.
  intros HS HO HC more HL HG. pose proof HS as (d & x & OP & EQ). destruct (starts_clean q0 HS) as [C N].
  pose proof (isoInit_opens d x OP) as I. rewrite <- EQ in I.
  destruct (run_start junk text _ q0 [] I HO HC HL) as (rest & e & loc & s & HR & He & HP & HF & ->).
  destruct (loop_lines E T S WOK c g q0 fs rest e HR He ls ys HG (l :: more) (String.length text) junk q0 [] [] loc s (or_introl eq_refl) HP HF)
    as (fuel' & q' & loc' & s' & A & B & D & ->).
  destruct (loop_first E T S WOK c g q0 fs C N rest e HR He l more fuel' junk q' ([] ++ concat (map fst ys))%list ([] ++ map snd ys)%list loc' s' A B D) as (f2 & loc2 & s2 & _ & _ & ->).
  cbn [app]. eexists. reflexivity.
Qed.
Lemma run_all_points junk text ls q0 ys : starts q0 -> o_read S (i_in c) = Some text -> o_create S (i_out c) = true ->
  lists_points (t_num T) text ls -> Forall2 (gives E T c g q0 fs) ls ys ->
  isoMain E T S g junk args fs = finish E q0 (concat (map fst ys)) (map snd ys) fs.
Proof.
  intros HS HO HC HL HG. pose proof HS as (d & x & OP & EQ). destruct (starts_clean q0 HS) as [C N].
  pose proof (isoInit_opens d x OP) as I. rewrite <- EQ in I.
  destruct (run_start junk text _ q0 [] I HO HC HL) as (rest & e & loc & s & HR & He & HP & HF & ->).
  rewrite <- (app_nil_r ls) in HP, HF.
  destruct (loop_lines E T S WOK c g q0 fs rest e HR He ls ys HG [] (String.length text) junk q0 [] [] loc s (or_introl eq_refl) HP HF)
    as (fuel' & q' & loc' & s' & A & B & D & ->).
  apply (loop_stops E T S c g q0 fs rest e); assumption.
Qed.
Lemma finish_cases (q : qstate DB) : (forall w lines fs', finish E q w lines fs' = Val (mkResult 0 w (Some lines) fs')) \/
  (exists m, forall w lines fs', finish E q w lines fs' = Val (mkResult 1 (w ++ [m])%list (Some lines) fs')).
Proof.
  unfold finish, leave, destroy, tell. cbn [close set_db q_db q_dbExt andb bind].
  destruct (bad (close E q)); [right; eexists; reflexivity | left; reflexivity].
Qed.
End Run.

(** ** Command line *)
Lemma iso_getopts_known k v l : iso_letter k ->
  getopts (options iso_options) None (String "-" (String k "") :: v :: l) =
  Arg k v :: getopts (options iso_options) None l.
Proof.
  intros H. assert (K : options iso_options k = Some true) by (destruct H as [<-|[<-|[<-|[<-|[<-|[<-|[<-|[<-|[]]]]]]]]]; reflexivity).
  assert (N : String.eqb (String "-" (String k "")) "--" = false) by (destruct H as [<-|[<-|[<-|[<-|[<-|[<-|[<-|[<-|[]]]]]]]]]; reflexivity).
  cbn [getopts]. rewrite N. cbn [list_ascii_of_string]. change (Ascii.eqb "-" dash) with true. cbv iota.
  cbn [cluster]. rewrite K. reflexivity.
Qed.
Lemma iso_getopts_words kvs l : Forall (fun kv => iso_letter (fst kv)) kvs ->
  getopts (options iso_options) None (opt_words kvs ++ l) =
  (map (fun kv => Arg (fst kv) (snd kv)) kvs ++ getopts (options iso_options) None l)%list.
Proof.
  induction 1 as [|[k v] kvs H _ IH]; [reflexivity|]. cbn [opt_words flat_map fst snd app map].
  rewrite iso_getopts_known by exact H. f_equal. apply IH.
Qed.
Definition iso_from (T : texts) (c : isoconf) (l : list (ascii * string)) : isoconf :=
  mkIso (given_as (t_atof T) "v" l (i_vs c)) (given "i" l (i_in c)) (given "o" l (i_out c)) (given "d" l (i_db c)) (given "e" l (i_dbExt c))
    (given_as (t_atoi T) "c" l (i_cache c)) (given_as (t_atof T) "s" l (i_squash c)) (given_as (t_atof T) "z" l (i_elevMin c)).
Lemma isoOptions_words T kvs rest : Forall (fun kv => iso_letter (fst kv)) kvs -> forall n c,
  isoOptions T n c (map (fun kv => Arg (fst kv) (snd kv)) kvs ++ rest) =
  isoOptions T (n + 2 * Z.of_nat (List.length kvs)) (iso_from T c kvs) rest.
Proof.
  induction 1 as [|[k v] kvs H _ IH]; intros n c.
  - cbn [map app List.length]. rewrite Z.add_0_r. destruct c; reflexivity.
  - cbn [map app fst snd isoOptions].
    assert (Q : exists c', isoOption T n c (Arg k v) = inr (n + 2, c') /\ iso_from T c ((k, v) :: kvs) = iso_from T c' kvs).
    { unfold iso_from. rewrite !given_cons, !given_as_cons. cbn [fst snd].
      cbn [fst] in H. destruct H as [<-|[<-|[<-|[<-|[<-|[<-|[<-|[<-|[]]]]]]]]]; destruct c; eexists; split; reflexivity. }
    destruct Q as (c' & -> & ->). rewrite IH. f_equal. cbn [List.length]. lia.
Qed.
Lemma isoArgs_words T kvs : Forall (fun kv => iso_letter (fst kv)) kvs ->
  isoArgs T (opt_words kvs) =
  let c := iso_asked T kvs in
  if feq f_zero (i_vs c) || String.eqb (i_in c) "" || String.eqb (i_out c) "" || String.eqb (i_db c) "" then inl 1 else inr c.
Proof.
  intros H. unfold isoArgs. pose proof (iso_getopts_words kvs [] H) as G. cbn [getopts] in G. rewrite !app_nil_r in G. rewrite G.
  pose proof (isoOptions_words T kvs [] H 1 iso0) as Q. rewrite app_nil_r in Q. rewrite Q. cbn [isoOptions].
  change (iso_from T iso0 kvs) with (iso_asked T kvs).
  rewrite opt_words_length, Nat2Z.inj_mul. change (Z.of_nat 2) with 2. rewrite Z.eqb_refl. cbn [negb orb]. reflexivity.
Qed.
Lemma isoArgs_help T kvs more : Forall (fun kv => iso_letter (fst kv)) kvs ->
  isoArgs T (opt_words kvs ++ "-h" :: more) = inl 0.
Proof.
  intros H. unfold isoArgs. rewrite iso_getopts_words by exact H.
  assert (F : getopts (options iso_options) None ("-h"%string :: more) = Flag "h" :: getopts (options iso_options) None more).
  { cbn [getopts]. change (String.eqb "-h" "--") with false. cbn [list_ascii_of_string]. change (Ascii.eqb "-" dash) with true. cbv iota.
    cbn [cluster]. change (options iso_options "h"%char) with (Some false). reflexivity. }
  rewrite F, isoOptions_words by exact H. cbn [isoOptions]. unfold isoOption.
  destruct (iso_from T iso0 kvs). reflexivity.
Qed.
Lemma iso_not_option c : ~ iso_letter c -> c <> "h"%char -> options iso_options c = None.
Proof.
  intros N H. unfold options. destruct (optstring _ c) as [b|] eqn:Q; [|reflexivity]. exfalso.
  apply optstring_in in Q. destruct Q as [Q NC]. unfold iso_letter in N.
  assert (A : forall l, (forall y, In y l -> y = ":"%char \/ y = "h"%char \/ In y ["c"; "d"; "e"; "i"; "o"; "s"; "v"; "z"]%char) -> ~ In c l)
    by (intros l HL HI; destruct (HL c HI) as [|[|]]; contradiction).
  revert Q. apply A. apply Forall_forall. unfold iso_options. cbn [list_ascii_of_string].
  repeat (apply Forall_cons; [first [left; reflexivity | right; left; reflexivity | right; right; clear; cbn [In]; repeat (first [left; reflexivity | right])]|]).
  apply Forall_nil.
Qed.
Lemma isoArgs_unknown T kvs c more : Forall (fun kv => iso_letter (fst kv)) kvs ->
  ~ iso_letter c -> c <> "h"%char -> c <> "-"%char ->
  isoArgs T (opt_words kvs ++ String "-" (String c "") :: more) = inl 1.
Proof.
  intros H NK NH ND. unfold isoArgs. rewrite iso_getopts_words by exact H.
  assert (F : getopts (options iso_options) None (String "-" (String c "") :: more) = Unknown :: getopts (options iso_options) None more).
  { cbn [getopts].
    assert (N : String.eqb (String "-" (String c "")) "--" = false) by (apply String.eqb_neq; intros Q; injection Q as ->; contradiction).
    rewrite N. cbn [list_ascii_of_string]. change (Ascii.eqb "-" dash) with true. cbv iota.
    cbn [cluster]. rewrite (iso_not_option c NK NH). reflexivity. }
  rewrite F, isoOptions_words by exact H. cbn [isoOptions]. unfold isoOption.
  destruct (iso_from T iso0 kvs). reflexivity.
Qed.

(** ** The line of one point *)
Section Line.
Context {DB : Type}.
Variables (E : env DB) (T : texts).
Variables (c : isoconf) (g : libm) (q0 : qstate DB) (fs : files).
Hypothesis CL : clean (q_err q0).
Hypothesis NL0 : null_log (q_err q0).
Variables (lon lat topo U L : f64).
Hypothesis HU : U = if iso_squashes c then f_zero else topo.
Hypothesis HL : L = if iso_squashes c then add64 (SFopp topo) (i_elevMin c) else i_elevMin c.
Hypothesis HS : surface E q0 lon lat topo.
Variables (vs : f64 -> f64) (eps : R).
Hypothesis HP : profile E q0 lon lat L U vs.
Hypothesis Ht : finite_double (i_vs c).
Hypothesis HR : search_range L U.
Hypothesis HG : good_log eps g L U.

Lemma searchVs_only e junk t u l : searchVs E g (with_err (only 1 q0) e) fs junk t lon lat u l = searchVs E g (with_err q0 e) fs junk t lon lat u l.
Proof. unfold searchVs. rewrite !set_vs, !only_err, only_only. reflexivity. Qed.

Lemma location_from (P : f64 + string -> Prop) junk :
  (forall e, exists e' fs' r, quiet e e' /\ (eh_stream e = Some "/dev/null"%string -> fs' = fs) /\
     searchVs E g (with_err q0 e) fs junk (i_vs c) lon lat U L = Val (with_err (only 1 q0) e', fs', r) /\ P r) ->
  exists r, P r /\ match r with
  | inl z => exists w, brief w /\ isoLocation E T c g q0 fs junk lon lat = Val (only 1 q0, fs, w, inr (isoLine T lon lat topo z), true)
  | inr m => exists e', isoLocation E T c g q0 fs junk lon lat = Val (with_err (only 1 q0) e', fs, [Said m], inl 1, false)
  end.
Proof.
  intros H. destruct (isoElev_surface E q0 lon lat topo HS CL fs junk) as (e1 & fs1 & A1 & N1 & S1 & Q1).
  rewrite (S1 NL0) in Q1. destruct (H e1) as (e2 & fs2 & r & [A2 N2] & S2 & Q2 & HPr).
  assert (L1 : eh_stream e1 = Some "/dev/null"%string) by (rewrite (proj1 (after_log _ _ A1)); exact NL0).
  rewrite (S2 L1) in Q2.
  unfold isoLocation. rewrite Q1. cbn [bind]. change (fne (i_squash c) squashDefault) with (iso_squashes c). cbv zeta.
  match goal with |- context [searchVs _ _ _ _ _ _ _ _ ?a ?b] => replace a with U by exact HU; replace b with L by exact HL end.
  rewrite searchVs_only, Q2. cbn [bind]. specialize (N2 N1). exists r. split; [exact HPr|].
  destruct r as [z|m]; [|exists e2; reflexivity].
  assert (A : after_reports (q_err q0) e2) by (eapply after_trans; eassumption).
  unfold is_error, bad. cbn [with_err q_err].
  destruct (eh_status e2) eqn:K; [| |contradiction].
  - exists []. split; [left; reflexivity|]. cbn [andb negb]. rewrite (after_ok _ _ A K). reflexivity.
  - exists [Said (eh_msg e2)]. split; [right; eauto|]. cbn [andb negb]. rewrite err_err, (after_reset _ _ A CL). reflexivity.
Qed.

(** The line says how far below the surface [z] is. *)
Lemma isoLine_depth z : between L U z -> isoLine T lon lat topo z = iso_text T lon lat (sub64 topo z).
Proof. intros H. unfold isoLine. rewrite (not_marker _ _ HR z H). reflexivity. Qed.
Lemma location_found junk : (value (vs U) < value (i_vs c) <= value (vs L))%R ->
  exists z w, crossing (resolution eps) vs (i_vs c) L U z /\ brief w /\
    isoLocation E T c g q0 fs junk lon lat = Val (only 1 q0, fs, w, inr (iso_text T lon lat (sub64 topo z)), true).
Proof.
  intros H. destruct (location_from (fun r => exists z, r = inl z /\ crossing (resolution eps) vs (i_vs c) L U z) junk) as (r & (z & -> & C) & w & B & Q).
  - intros e. destruct (search_found E q0 lon lat (i_vs c) _ _ vs HP Ht HR g eps HG e fs junk H) as (e' & fs' & r & A & S & Q & C).
    exists e', fs', (inl r). eauto 6.
  - exists z, w. rewrite Q, isoLine_depth by apply C. auto.
Qed.
Lemma location_other junk : (value L + 15 <= value U)%R -> ~ halves_bracket vs (i_vs c) L U ->
  (exists w, brief w /\
    isoLocation E T c g q0 fs junk lon lat = Val (only 1 q0, fs, w,
      inr (if fle (i_vs c) (vs U) then iso_text T lon lat (sub64 topo U) else iso_text T lon lat (i2f64 (-999))), true) /\
    (fle (i_vs c) (vs U) = true \/ flt (vs L) f_zero = true)) \/
  (exists e', isoLocation E T c g q0 fs junk lon lat = Val (with_err (only 1 q0) e', fs,
      [Said (rangeMsg E (i_vs c) lon lat U (vs U) L (vs L) (middle L U) (vs (middle L U)))], inl 1, false) /\
    fle (i_vs c) (vs U) = false /\ flt (vs L) f_zero = false).
Proof.
  intros H15 NB. destruct (location_from (fun r => r =
     if fle (i_vs c) (vs U) then inl U else if flt (vs L) f_zero then inl noSurface
     else inr (rangeMsg E (i_vs c) lon lat U (vs U) L (vs L) (middle L U) (vs (middle L U)))) junk)
     as (r & -> & Q).
  - intros e. destruct (search_cases E q0 lon lat (i_vs c) _ _ vs HP Ht HR g eps HG e fs junk H15) as (e' & fs' & r & A & S & Q & _ & C).
    exists e', fs', r. auto.
  - destruct (fle (i_vs c) (vs U)) eqn:F; [|destruct (flt (vs L) f_zero) eqn:G].
    + left. destruct Q as (w & B & Q). exists w. rewrite Q, isoLine_depth; [auto|].
      destruct HR as (_ & FU & _ & _ & W). split; [exact FU|]. lra.
    + left. destruct Q as (w & B & Q). exists w. rewrite Q. auto.
    + right. destruct Q as (e' & Q). exists e'. auto.
Qed.
End Line.
