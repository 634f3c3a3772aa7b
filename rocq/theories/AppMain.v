(** Proofs about the query application: command line, start, whole runs. *)
From Coq Require Import ZArith Bool Lia String Ascii List.
From Verif Require Import Outcome Float Payload Addr SpecOct SpecGeom Geom GeomFacts ErrorHandler VMQuery SpecQuery SpecHist
  QueryFacts QueryProof QueryHist QueryIndep Stream GetOpt QueryApp SpecText StreamFacts SpecApp AppFacts.
Import ListNotations.
Open Scope Z_scope.

(** ** Command line *)
Lemma getopts_known k v l : known_letter k ->
  getopts (options query_options) None (String "-" (String k "") :: v :: l) =
  Arg k v :: getopts (options query_options) None l.
Proof.
  intros H. assert (K : options query_options k = Some true) by (destruct H as [<-|[<-|[<-|[<-|[<-|[<-|[<-|[<-|[<-|[]]]]]]]]]]; reflexivity).
  assert (N : String.eqb (String "-" (String k "")) "--" = false) by (destruct H as [<-|[<-|[<-|[<-|[<-|[<-|[<-|[<-|[<-|[]]]]]]]]]]; reflexivity).
  cbn [getopts]. rewrite N. cbn [list_ascii_of_string]. change (Ascii.eqb "-" dash) with true. cbv iota.
  cbn [cluster]. rewrite K. reflexivity.
Qed.
Lemma getopts_words kvs l : Forall (fun kv => known_letter (fst kv)) kvs ->
  getopts (options query_options) None (opt_words kvs ++ l) =
  (map (fun kv => Arg (fst kv) (snd kv)) kvs ++ getopts (options query_options) None l)%list.
Proof.
  induction 1 as [|[k v] kvs H _ IH]; [reflexivity|]. cbn [opt_words flat_map fst snd app map].
  rewrite getopts_known by exact H. f_equal. apply IH.
Qed.

(** The configuration after options, from any start. *)
Definition asked_from (T : texts) (c : config) (l : list (ascii * string)) : config :=
  mkConfig (given "i" l (c_in c)) (given "o" l (c_out c)) (given "d" l (c_db c)) (given "e" l (c_dbExt c))
    (given "l" l (c_log c)) (given "t" l (c_type c)) (given_as (t_atof T) "r" l (c_res c))
    (given_as (t_atoi T) "c" l (c_cache c)) (given_as (t_atof T) "s" l (c_squash c)).
Lemma given_cons k kv l s : given k (kv :: l) s = given k l (if Ascii.eqb (fst kv) k then snd kv else s).
Proof. unfold given. rewrite last_given_cons. destruct (Ascii.eqb (fst kv) k); reflexivity. Qed.
Lemma given_as_cons {A} (f : string -> A) k kv l s :
  given_as f k (kv :: l) s = given_as f k l (if Ascii.eqb (fst kv) k then f (snd kv) else s).
Proof. unfold given_as. rewrite last_given_cons. destruct (Ascii.eqb (fst kv) k); reflexivity. Qed.

Lemma optionLoop_words T kvs rest : Forall (fun kv => known_letter (fst kv)) kvs -> forall n c w,
  optionLoop T n c w (map (fun kv => Arg (fst kv) (snd kv)) kvs ++ rest) =
  optionLoop T (n + 2 * Z.of_nat (List.length kvs)) (asked_from T c kvs) w rest.
Proof.
  induction 1 as [|[k v] kvs H _ IH]; intros n c w.
  - cbn [map app List.length]. rewrite Z.add_0_r. destruct c; reflexivity.
  - cbn [map app fst snd optionLoop].
    assert (Q : exists c', option1 T n c w (Arg k v) = inr (n + 2, c', w) /\ asked_from T c ((k, v) :: kvs) = asked_from T c' kvs).
    { unfold asked_from. rewrite !given_cons, !given_as_cons. cbn [fst snd].
      cbn [fst] in H. destruct H as [<-|[<-|[<-|[<-|[<-|[<-|[<-|[<-|[<-|[]]]]]]]]]]; destruct c; eexists; split; reflexivity. }
    destruct Q as (c' & -> & ->). rewrite IH. f_equal. cbn [List.length]. lia.
Qed.

Definition enough (c : config) : bool :=
  negb (String.eqb (c_in c) "") && negb (String.eqb (c_out c) "") && negb (String.eqb (c_db c) "").
Lemma opt_words_length kvs : List.length (opt_words kvs) = (2 * List.length kvs)%nat.
Proof. induction kvs as [|kv kvs IH]; [reflexivity|]. cbn [opt_words flat_map app List.length]. fold (opt_words kvs). lia. Qed.

Lemma parse_words T kvs : Forall (fun kv => known_letter (fst kv)) kvs ->
  parseArgs T (opt_words kvs) =
  if enough (asked_for T kvs) then inr (asked_for T kvs, []) else inl (1, [Usage]).
Proof.
  intros H. unfold parseArgs. pose proof (getopts_words kvs [] H) as G. cbn [getopts] in G. rewrite !app_nil_r in G. rewrite G.
  pose proof (optionLoop_words T kvs [] H 1 config0 []) as Q. rewrite app_nil_r in Q. rewrite Q. cbn [optionLoop].
  change (asked_from T config0 kvs) with (asked_for T kvs).
  rewrite opt_words_length, Nat2Z.inj_mul. change (Z.of_nat 2) with 2. rewrite Z.eqb_refl. cbn [negb orb app].
  unfold enough. destruct (String.eqb (c_in (asked_for T kvs)) ""), (String.eqb (c_out (asked_for T kvs)) ""),
    (String.eqb (c_db (asked_for T kvs)) ""); reflexivity.
Qed.

Lemma parse_help T kvs more : Forall (fun kv => known_letter (fst kv)) kvs ->
  parseArgs T (opt_words kvs ++ "-h" :: more) = inl (0, [Usage]).
Proof.
  intros H. unfold parseArgs. rewrite getopts_words by exact H.
  assert (F : getopts (options query_options) None ("-h"%string :: more) = Flag "h" :: getopts (options query_options) None more).
  { cbn [getopts]. change (String.eqb "-h" "--") with false. cbn [list_ascii_of_string]. change (Ascii.eqb "-" dash) with true. cbv iota.
    cbn [cluster]. change (options query_options "h"%char) with (Some false). reflexivity. }
  rewrite F.
  rewrite optionLoop_words by exact H. cbn [optionLoop]. unfold option1.
  destruct (asked_from T config0 kvs). reflexivity.
Qed.

(** A word that is not an option, or an unknown option letter, among separate options. *)
Definition stray (w : string) : Prop :=
  (w <> "--"%string /\ forall c r, w = String c r -> c = "-"%char -> r = ""%string) \/
  exists c, w = String "-" (String c "") /\ c <> "-"%char /\ options query_options c = None.
Lemma getopts_stray w l : stray w -> exists evs, getopts (options query_options) None (w :: l) =
  (evs ++ getopts (options query_options) None l)%list /\ (evs = [] \/ evs = [Unknown]).
Proof.
  intros [[N H]|(c & -> & NC & H)].
  - exists []. split; [|left; reflexivity]. cbn [getopts app].
    rewrite (proj2 (String.eqb_neq _ _)) by exact N.
    destruct w as [|d w]; [reflexivity|]. cbn [list_ascii_of_string].
    destruct w as [|x w]; [reflexivity|]. cbn [list_ascii_of_string].
    destruct (Ascii.eqb_spec d dash) as [->|D]; [|reflexivity].
    specialize (H _ _ eq_refl eq_refl). discriminate.
  - exists [Unknown]. split; [|right; reflexivity]. cbn [getopts].
    assert (N : String.eqb (String "-" (String c "")) "--" = false).
    { apply String.eqb_neq. intros Q. injection Q as ->. contradiction. }
    rewrite N. cbn [list_ascii_of_string]. change (Ascii.eqb "-" dash) with true. cbv iota.
    cbn [cluster]. rewrite H. reflexivity.
Qed.
Lemma parse_stray T kvs w kvs' : Forall (fun kv => known_letter (fst kv)) kvs -> Forall (fun kv => known_letter (fst kv)) kvs' ->
  stray w -> exists m, parseArgs T (opt_words kvs ++ w :: opt_words kvs') = inl (1, (m ++ [Usage])%list).
Proof.
  intros H H' HS. unfold parseArgs. rewrite getopts_words by exact H.
  destruct (getopts_stray w (opt_words kvs') HS) as (evs & -> & HV).
  pose proof (getopts_words kvs' [] H') as G. cbn [getopts] in G. rewrite !app_nil_r in G. rewrite G.
  rewrite optionLoop_words by exact H.
  assert (LN : forall n c m, n <> 1 + Z.of_nat (List.length (opt_words kvs ++ w :: opt_words kvs')%list) ->
    match optionLoop T n c m [] with inl x => inl x | inr (n, c, w0) =>
      if negb (n =? 1 + Z.of_nat (List.length (opt_words kvs ++ w :: opt_words kvs')%list)) || String.eqb (c_in c) "" ||
         String.eqb (c_out c) "" || String.eqb (c_db c) ""
      then inl (1, (w0 ++ [Usage])%list) else inr (c, w0) end = inl (1, (m ++ [Usage])%list)).
  { intros n c m Hn. cbn [optionLoop]. rewrite (proj2 (Z.eqb_neq _ _) Hn). reflexivity. }
  assert (LEN : Z.of_nat (List.length (opt_words kvs ++ w :: opt_words kvs')%list) =
    2 * Z.of_nat (List.length kvs) + 1 + 2 * Z.of_nat (List.length kvs')).
  { rewrite app_length. cbn [List.length]. rewrite !opt_words_length. lia. }
  destruct HV as [->| ->]; cbn [app].
  - pose proof (optionLoop_words T kvs' [] H' (1 + 2 * Z.of_nat (List.length kvs)) (asked_from T config0 kvs) []) as Q.
    rewrite app_nil_r in Q. rewrite Q, LN; [exists []; reflexivity|]. rewrite LEN. lia.
  - cbn [optionLoop].
    replace (option1 T (1 + 2 * Z.of_nat (List.length kvs)) (asked_from T config0 kvs) [] Unknown)
      with (@inr (Z * list said) _ (1 + 2 * Z.of_nat (List.length kvs), asked_from T config0 kvs, [Usage]))
      by (unfold option1; destruct (asked_from T config0 kvs); reflexivity).
    pose proof (optionLoop_words T kvs' [] H' (1 + 2 * Z.of_nat (List.length kvs)) (asked_from T config0 kvs) [Usage]) as Q.
    rewrite app_nil_r in Q. rewrite Q, LN; [exists [Usage]; reflexivity|]. rewrite LEN. lia.
Qed.

Lemma optstring_in s c b : optstring s c = Some b -> In c s /\ c <> ":"%char.
Proof.
  induction s as [|x s IH]; cbn [optstring]; [discriminate|].
  destruct (Ascii.eqb_spec x ":") as [->|N]; [intros H; destruct (IH H); split; [right|]; assumption|].
  destruct (Ascii.eqb_spec x c) as [->|]; [intros _; split; [left; reflexivity | exact N]|].
  intros H; destruct (IH H); split; [right|]; assumption.
Qed.
Lemma not_option c : ~ known_letter c -> c <> "h"%char -> options query_options c = None.
Proof.
  intros N H. unfold options. destruct (optstring _ c) as [b|] eqn:Q; [|reflexivity]. exfalso.
  apply optstring_in in Q. destruct Q as [Q NC]. unfold known_letter in N.
  assert (A : forall l, (forall y, In y l -> y = ":"%char \/ y = "h"%char \/ In y ["c"; "d"; "e"; "i"; "l"; "o"; "r"; "s"; "t"]%char) -> ~ In c l)
    by (intros l HL HI; destruct (HL c HI) as [|[|]]; contradiction).
  revert Q. apply A. apply Forall_forall. unfold query_options. cbn [list_ascii_of_string].
  repeat (apply Forall_cons; [first [left; reflexivity | right; left; reflexivity | right; right; clear; cbn [In]; repeat (first [left; reflexivity | right])]|]).
  apply Forall_nil.
Qed.

(** ** Start *)
Section Start.
Context {DB : Type}.
Variables (E : env DB) (T : texts) (S : os) (g : libm).

(** The error handler and the files after the log file was set. *)
Definition start_log (c : config) (fs : files) : errh * files :=
  if String.eqb (c_log c) "" then (eh_new, fs) else eh_logFilename (e_writable E) (c_log c) eh_new fs.
Lemma start_clean c fs : clean (fst (start_log c fs)).
Proof.
  unfold start_log, eh_logFilename. destruct (String.eqb (c_log c) ""); [split; reflexivity|].
  destruct (open_trunc _ _ _) as [s f]. split; reflexivity.
Qed.

(** The object before it is opened. *)
Definition before_open (c : config) (e : errh) : qstate DB :=
  mkQ f_zero (if squashes c then c_squash c else i2f64 (-2000)) None None nine g e (c_db c) (c_dbExt c) MAXRES
      (cache_of c) (if String.eqb (c_dbExt c) "" then 128 else cache_of c) (squashes c).
Lemma configure_eq c fs : configure E c (q_new g) fs = (before_open c (fst (start_log c fs)), snd (start_log c fs)).
Proof.
  unfold configure, start_log. change (q_err (q_new g)) with eh_new.
  destruct (if String.eqb (c_log c) "" then _ else _) as [e fs1]. cbn [fst snd]. apply f_equal2; [|reflexivity].
  assert (C : forall q : qstate DB, set_cacheSize (c_cache c) q = mkQ (q_res q) (q_limit q) (q_db q) (q_dbExt q) (q_vals q) (q_geom q) (q_err q)
    (q_name q) (q_nameExt q) (q_type q) (if 0 <? c_cache c then c_cache c else q_cache q) (q_cacheExt q) (q_squash q))
    by (intros []; unfold set_cacheSize; destruct (0 <? c_cache c); reflexivity).
  assert (CX : forall q : qstate DB, set_cacheSizeExt (c_cache c) q = mkQ (q_res q) (q_limit q) (q_db q) (q_dbExt q) (q_vals q) (q_geom q) (q_err q)
    (q_name q) (q_nameExt q) (q_type q) (q_cache q) (if 0 <? c_cache c then c_cache c else q_cacheExt q) (q_squash q))
    by (intros []; unfold set_cacheSizeExt; destruct (0 <? c_cache c); reflexivity).
  rewrite C, CX. unfold before_open, cache_of.
  change (fne (c_squash c) squashDefault) with (squashes c).
  destruct (squashes c); destruct (String.eqb_spec (c_dbExt c) "") as [->|]; reflexivity.
Qed.

Lemma cache_pos c : (0 <? cache_of c) = true.
Proof. unfold cache_of. destruct (0 <? c_cache c) eqn:Q; [exact Q | reflexivity]. Qed.

Lemma setType_kind c k q : asks_kind c k -> (k <> MAXRES -> flt (c_res c) f_zero = false) -> q_type q = MAXRES -> q_res q = f_zero ->
  setType c q = inl (mkQ (match k with MAXRES => f_zero | _ => positive_or (c_res c) f_zero end) (q_limit q) (q_db q) (q_dbExt q)
    (q_vals q) (q_geom q) (q_err q) (q_name q) (q_nameExt q) k (q_cache q) (q_cacheExt q) (q_squash q)) :> qstate DB + list said.
Proof.
  intros HK HN HT HQ. unfold setType.
  assert (C : forall s, casecmp (c_type c) s = casecmp (kind_name k) s).
  { intros s. destruct (casecmp (kind_name k) s) eqn:A.
    - apply casecmp_iff. rewrite HK. apply casecmp_iff, A.
    - destruct (casecmp (c_type c) s) eqn:B; [|reflexivity]. apply casecmp_iff in B. rewrite HK in B. apply casecmp_iff in B. congruence. }
  rewrite !C. destruct k; cbn [kind_name].
  - change (casecmp "maxres" "maxres") with true. cbv iota. unfold set_queryType. cbn [qtype_of Z.eqb].
    destruct q; cbn in *; subst; reflexivity.
  - change (casecmp "fixedres" "maxres") with false. cbv iota. rewrite HN by discriminate.
    change (casecmp "fixedres" "fixedres") with true. cbv iota. unfold set_queryRes, fgt, positive_or, flt.
    destruct (SFltb f_zero (c_res c)); unfold set_queryType; cbn [qtype_of Z.eqb Pos.eqb];
      destruct q; cbn in *; subst; reflexivity.
  - change (casecmp "waveres" "maxres") with false. cbv iota. rewrite HN by discriminate.
    change (casecmp "waveres" "fixedres") with false. change (casecmp "waveres" "waveres") with true.
    cbv iota. unfold set_queryRes, fgt, positive_or, flt.
    destruct (SFltb f_zero (c_res c)); unfold set_queryType; cbn [qtype_of Z.eqb Pos.eqb];
      destruct q; cbn in *; subst; reflexivity.
Qed.

Lemma open_before c e : open E (before_open c e) =
  let (d, e1) := match e_open E (c_db c) (cache_of c) with Some d => (Some d, e) | None => (None, eh_error (open_msg (c_db c)) e) end in
  let (x, e2) := if String.eqb (c_dbExt c) "" then (None, e1) else
    match e_open E (c_dbExt c) (cache_of c) with Some x => (Some x, e1) | None => (None, eh_error (open_ext_msg (c_dbExt c)) e1) end in
  Val (set_db (before_open c e) d x e2).
Proof.
  unfold open. change (q_db (before_open c e)) with (@None DB). change (q_dbExt (before_open c e)) with (@None DB).
  change (q_err (before_open c e)) with e. change (q_name (before_open c e)) with (c_db c).
  change (q_nameExt (before_open c e)) with (c_dbExt c). change (q_cache (before_open c e)) with (cache_of c).
  change (q_cacheExt (before_open c e)) with (if String.eqb (c_dbExt c) "" then 128 else cache_of c).
  generalize (before_open c e). intros q. rewrite cache_pos. cbn [assert_ bind].
  destruct (e_open E (c_db c) (cache_of c)) as [d|]; cbn [bind]; (destruct (String.eqb (c_dbExt c) ""); [reflexivity|]);
    rewrite cache_pos; cbn [assert_ bind]; destruct (e_open E (c_dbExt c) (cache_of c)); reflexivity.
Qed.
Lemma open_good c e d x : opens E c d x -> open E (before_open c e) =
  Val (set_db (before_open c e) (Some d) x e).
Proof.
  intros [H1 H2]. rewrite open_before, H1.
  destruct (String.eqb (c_dbExt c) ""); [subst x; reflexivity|]. destruct H2 as (x' & -> & ->). reflexivity.
Qed.

Lemma bad_opened (q : qstate DB) d x e : clean e -> bad (set_db q d x e) = false.
Proof. intros [H _]. unfold bad. change (q_err (set_db q d x e)) with e. rewrite H. reflexivity. Qed.
Lemma setType_opened c k d x e : asks_kind c k -> (k <> MAXRES -> flt (c_res c) f_zero = false) ->
  setType c (set_db (before_open c e) (Some d) x e) = inl (object c k g (Some d) x e).
Proof. intros HK HN. exact (setType_kind c k (set_db (before_open c e) (Some d) x e) HK HN eq_refl eq_refl). Qed.

(** The run up to the locations. *)
Lemma main_start junk args fs c w k d x : parseArgs T args = inr (c, w) -> opens E c d x ->
  asks_kind c k -> (k <> MAXRES -> flt (c_res c) f_zero = false) ->
  main E T S g junk args fs =
  locations E T S c junk (object c k g (Some d) x (fst (start_log c fs))) w (snd (start_log c fs)).
Proof.
  intros HP HO HK HN. unfold main. rewrite HP, configure_eq.
  rewrite (open_good c _ d x HO). cbn [bind].
  rewrite (bad_opened _ _ _ _ (start_clean c fs)), (setType_opened c k d x _ HK HN). reflexivity.
Qed.

(** Ends before the first location. *)
Definition handles_close (l : list (option DB)) : Prop :=
  forall y, In (Some y) l -> e_close E y = true.
Lemma leave_start q w m fs l : (forall y, q_db q = Some y -> In (Some y) l) -> (forall y, q_dbExt q = Some y -> In (Some y) l) ->
  handles_close l -> leave E 1 q (w ++ m)%list None fs = Val (mkResult 1 (w ++ m)%list None fs).
Proof.
  intros H1 H2 H. unfold leave, destroy.
  destruct (q_db q) as [d|]; destruct (q_dbExt q) as [x|];
    rewrite ?(H _ (H1 _ eq_refl)), ?(H _ (H2 _ eq_refl)); reflexivity.
Qed.
Lemma casecmp_kind c k : casecmp (c_type c) (kind_name k) = true <-> asks_kind c k.
Proof. apply casecmp_iff. Qed.
Lemma no_kind_cmp c k : ~ asks_kind c k -> casecmp (c_type c) (kind_name k) = false.
Proof. intros H. destruct (casecmp _ _) eqn:Q; [|reflexivity]. apply casecmp_kind in Q. contradiction. Qed.

Lemma main_cannot_start junk args fs c w l m : parseArgs T args = inr (c, w) -> cannot_start E S c l m -> handles_close l ->
  main E T S g junk args fs = Val (mkResult 1 (w ++ m)%list None (snd (start_log c fs))).
Proof.
  intros HP HC HL. unfold main. rewrite HP, configure_eq. set (e := fst (start_log c fs)). set (fs1 := snd (start_log c fs)).
  pose proof (start_clean c fs) as CL. fold e in CL.
  inversion HC as [x H1 H2|H1 H2|d x H1 H2 H3|d x H1 H2 H3|d x k H1 H2 H3 H4|d x k text H1 H2 H3 H4 H5]; subst.
  - assert (Q : open E (before_open c e) = Val (set_db (before_open c e) None x (eh_error (open_msg (c_db c)) e))).
    { rewrite open_before, H1. destruct (String.eqb (c_dbExt c) ""); [subst x; reflexivity|]. destruct H2 as [-> N].
      destruct (e_open E (c_dbExt c) (cache_of c)) as [x|]; [reflexivity | contradiction]. }
    rewrite Q. cbn [bind]. unfold bad. cbn [set_db q_err eh_error eh_status]. unfold tell. cbn [set_db q_err eh_error eh_msg].
    apply (leave_start _ w _ fs1 [x]); [intros y; discriminate| |exact HL]. cbn [set_db q_dbExt]. intros y ->. left. reflexivity.
  - assert (Q : exists e2, open E (before_open c e) = Val (set_db (before_open c e) (e_open E (c_db c) (cache_of c)) None e2) /\
      eh_status e2 = ERROR /\ eh_msg e2 = open_ext_msg (c_dbExt c)).
    { rewrite open_before, (proj2 (String.eqb_neq _ _) H1), H2.
      destruct (e_open E (c_db c) (cache_of c)) as [d|]; eexists; (split; [reflexivity|]); split; reflexivity. }
    destruct Q as (e2 & -> & S2 & M2). cbn [bind]. unfold bad. cbn [set_db q_err]. rewrite S2. unfold tell. cbn [set_db q_err].
    rewrite M2. eapply leave_start; [| |exact HL]; cbn [set_db q_db q_dbExt]; [|discriminate]. intros y ->. left. reflexivity.
  - rewrite (open_good c e d x H1). cbn [bind]. rewrite (bad_opened _ _ _ _ CL).
    unfold setType. rewrite (no_kind_cmp c MAXRES H2 : casecmp (c_type c) "maxres" = false), H3.
    apply (leave_start _ w _ fs1 [Some d; x]); [| |exact HL]; cbn [set_db q_db q_dbExt]; intros y HY; [left; exact HY | right; left; exact HY].
  - rewrite (open_good c e d x H1). cbn [bind]. rewrite (bad_opened _ _ _ _ CL).
    unfold setType. rewrite (no_kind_cmp c MAXRES (H2 _) : casecmp (c_type c) "maxres" = false), H3,
      (no_kind_cmp c FIXEDRES (H2 _) : casecmp (c_type c) "fixedres" = false), (no_kind_cmp c WAVERES (H2 _) : casecmp (c_type c) "waveres" = false).
    apply (leave_start _ w _ fs1 [Some d; x]); [| |exact HL]; cbn [set_db q_db q_dbExt]; intros y HY; [left; exact HY | right; left; exact HY].
  - rewrite (open_good c e d x H1). cbn [bind]. rewrite (bad_opened _ _ _ _ CL).
    rewrite (setType_opened c k d x _ H2 H3). unfold locations. rewrite H4.
    apply (leave_start _ w _ fs1 [Some d; x]); [| |exact HL]; cbn [set_db q_db q_dbExt]; intros y HY; [left; exact HY | right; left; exact HY].
  - rewrite (open_good c e d x H1). cbn [bind]. rewrite (bad_opened _ _ _ _ CL).
    rewrite (setType_opened c k d x _ H2 H3). unfold locations. rewrite H4, H5. cbn [negb].
    apply (leave_start _ w _ fs1 [Some d; x]); [| |exact HL]; cbn [set_db q_db q_dbExt]; intros y HY; [left; exact HY | right; left; exact HY].
Qed.
(** Every run that is not one of those gets to the locations. *)
Lemma start_cases c : (exists l m, cannot_start E S c l m) \/
  exists d x k text, opens E c d x /\ asks_kind c k /\ (k <> MAXRES -> flt (c_res c) f_zero = false) /\
    o_read S (c_in c) = Some text /\ o_create S (c_out c) = true.
Proof.
  assert (OP : (exists l m, cannot_start E S c l m) \/ exists d x, opens E c d x).
  { unfold opens. destruct (String.eqb (c_dbExt c) "") eqn:X.
    - destruct (e_open E (c_db c) (cache_of c)) as [d|] eqn:O; [right; exists d, None; auto|].
      left. eexists. eexists. apply (no_database E S c None O). rewrite X. reflexivity.
    - apply String.eqb_neq in X. destruct (e_open E (c_dbExt c) (cache_of c)) as [x|] eqn:OX.
      + destruct (e_open E (c_db c) (cache_of c)) as [d|] eqn:O; [right; exists d, (Some x); eauto|].
        left. eexists. eexists. apply (no_database E S c (Some x) O). rewrite (proj2 (String.eqb_neq _ _) X). split; [symmetry; exact OX | discriminate].
      + left. eexists. eexists. apply (no_extended E S c X OX). }
  destruct OP as [OP|(d & x & OP)]; [left; exact OP|].
  assert (KD : (exists l m, cannot_start E S c l m) \/ exists k, asks_kind c k /\ (k <> MAXRES -> flt (c_res c) f_zero = false)).
  { destruct (casecmp (c_type c) (kind_name MAXRES)) eqn:K0.
    - right. exists MAXRES. split; [apply casecmp_kind, K0 | intros N; contradiction].
    - assert (N0 : ~ asks_kind c MAXRES) by (intros K; apply casecmp_kind in K; congruence).
      destruct (flt (c_res c) f_zero) eqn:R; [left; eexists; eexists; exact (bad_resolution E S c d x OP N0 R)|].
      destruct (casecmp (c_type c) (kind_name FIXEDRES)) eqn:K1; [right; exists FIXEDRES; split; [apply casecmp_kind, K1 | intros _; reflexivity]|].
      destruct (casecmp (c_type c) (kind_name WAVERES)) eqn:K2; [right; exists WAVERES; split; [apply casecmp_kind, K2 | intros _; reflexivity]|].
      left. eexists. eexists. apply (bad_kind E S c d x OP); [|exact R].
      intros k K. apply casecmp_kind in K. destruct k; congruence. }
  destruct KD as [KD|(k & HK & HN)]; [left; exact KD|].
  destruct (o_read S (c_in c)) as [text|] eqn:RD; [|left; eexists; eexists; exact (no_input E S c d x k OP HK HN RD)].
  destruct (o_create S (c_out c)) eqn:CR; [|left; eexists; eexists; exact (no_output E S c d x k text OP HK HN RD CR)].
  right. exists d, x, k, text. auto.
Qed.

Lemma locations_start c junk q w fs text : o_read S (c_in c) = Some text -> o_create S (c_out c) = true ->
  locations E T S c junk q w fs =
  let r := readLocation T (f_zero, f_zero, f_zero) (openText text) in
  locationLoop E T S (String.length text) q w [] fs true junk (snd r) (fst r).
Proof.
  intros H1 H2. unfold locations. rewrite H1, H2. cbn [negb].
  rewrite (surjective_pairing (readLocation T (f_zero, f_zero, f_zero) (openText text))). reflexivity.
Qed.

(** ** The log file *)
Lemma append_nil_r (s : string) : (s ++ "")%string = s.
Proof. induction s; cbn; congruence. Qed.

Lemma logs_null e1 : eh_stream e1 = Some NULLFILE \/ eh_stream e1 = None -> forall ls ys fs, logs E e1 ls ys fs = fs.
Proof.
  intros H. induction ls as [|[[a b] c] ls IH]; intros [|y ys] fs; cbn [logs]; try reflexivity.
  rewrite IH. destruct (no_data_reply y); [|reflexivity].
  unfold eh_log. destruct H as [->| ->]; reflexivity.
Qed.
Lemma logs_file e1 n : eh_stream e1 = Some n -> String.eqb n NULLFILE = false ->
  forall ls ys fs s, fs n = Some s -> List.length ls = List.length ys ->
  forall m, logs E e1 ls ys fs m = if String.eqb m n then Some (s ++ log_of E ls ys)%string else fs m.
Proof.
  intros HS HN. induction ls as [|[[a b] c] ls IH]; intros [|y ys] fs s Hs HL m; cbn [logs log_of]; try discriminate.
  - rewrite append_nil_r. destruct (String.eqb_spec m n); congruence.
  - injection HL as HL. destruct (no_data_reply y).
    + unfold eh_log. rewrite HS, HN.
      rewrite (IH ys _ (s ++ log_text E (a, b, c))%string) by
        (try assumption; unfold fset, content; rewrite String.eqb_refl, Hs; reflexivity).
      rewrite app_assoc_s. destruct (String.eqb m n) eqn:M; [reflexivity|]. unfold fset. rewrite M. reflexivity.
    + cbn [append]. apply IH; assumption.
Qed.
Lemma logs_ok c fs ls ys : List.length ls = List.length ys ->
  logged_files E c fs (log_of E ls ys) (logs E (fst (start_log c fs)) ls ys (snd (start_log c fs))).
Proof.
  intros HL m. unfold start_log. destruct (String.eqb (c_log c) "") eqn:C0; cbn [negb andb fst snd].
  - rewrite logs_null by (left; reflexivity). reflexivity.
  - unfold eh_logFilename, open_trunc. change "/dev/null"%string with NULLFILE.
    destruct (String.eqb (c_log c) NULLFILE) eqn:C1; cbn [negb andb fst snd].
    + rewrite logs_null by (left; apply String.eqb_eq in C1; rewrite <- C1; reflexivity). reflexivity.
    + destruct (e_writable E (c_log c)); cbn [andb fst snd].
      * rewrite (logs_file (mkErrh (eh_status eh_new) (eh_msg eh_new) (c_log c) (Some (c_log c))) (c_log c) eq_refl C1 ls ys _ ""%string) by
          (try assumption; unfold fset; rewrite String.eqb_refl; reflexivity).
        cbn [append]. destruct (String.eqb m (c_log c)) eqn:M; [reflexivity|]. unfold fset. rewrite M. reflexivity.
      * rewrite logs_null by (right; reflexivity). reflexivity.
Qed.

(** ** Whole runs *)
Variable c : config.
Variables (k : qtype) (d : DB) (x : option DB) (junk : list f64) (args : list string) (fs : files) (w : list said) (text : string).
Hypothesis SH : stores_shorts E (Some d).
Hypothesis SX : stores_shorts E x.
Hypothesis WOK : forall l, o_write S l = true.
Hypothesis HP : parseArgs T args = inr (c, w).
Hypothesis HO : opens E c d x.
Hypothesis HK : asks_kind c k.
Hypothesis HN : k <> MAXRES -> flt (c_res c) f_zero = false.
Hypothesis HJ : List.length junk = 9%nat.
Hypothesis HI : o_read S (c_in c) = Some text.
Hypothesis HC : o_create S (c_out c) = true.
Let q0 := object c k g (Some d) x eh_new.
Let e1 := fst (start_log c fs).
Let fs1 := snd (start_log c fs).

Lemma main_loop ls : lists (t_num T) text ls -> exists rest e loc s,
  no_location (t_num T) rest /\ unterminated e /\ at_locations T rest e loc s ls /\
  (List.length ls <= String.length text)%nat /\
  main E T S g junk args fs = locationLoop E T S (String.length text) (with_err q0 e1) w [] fs1 true junk loc s.
Proof.
  intros (ws & rest & t & e & -> & Ht & He & HL & HR). exists rest, e.
  pose proof (read_next T rest e HR He (f_zero, f_zero, f_zero) ws t ls Ht HL) as RN. cbv zeta in RN.
  eexists. eexists. split; [exact HR|]. split; [exact He|]. split; [exact RN|]. split.
  - pose proof (laid_length _ _ Ht) as L. rewrite app_length in L. rewrite length_app_s.
    pose proof (located_length _ _ _ HL). lia.
  - rewrite (main_start junk args fs c w k d x HP HO HK HN).
    rewrite (locations_start c junk _ w _ _ HI HC). reflexivity.
Qed.

Definition closed_ok : bool := e_close E d && match x with Some x' => e_close E x' | None => true end.
Lemma finish_eq e2 w' lines fs' : clean e2 ->
  finish E (with_err q0 e2) w' lines fs' =
  Val (if closed_ok then mkResult 0 w' (Some lines) fs'
       else mkResult 1 (w' ++ [Said (close_msg (c_db c))])%list (Some lines) fs').
Proof.
  intros [C1 C2]. unfold finish, closed_ok, close, close1, q0, object.
  cbn [with_err q_db q_dbExt q_err q_name].
  destruct x as [x'|]; destruct (e_close E d); try (destruct (e_close E x')); cbn [andb];
    unfold bad, leave, destroy, tell; cbn [set_db q_err q_db q_dbExt eh_error eh_status eh_msg]; rewrite ?C1; reflexivity.
Qed.
Lemma leave_eq e2 w' lines fs' : leave E 1 (with_err q0 e2) w' lines fs' =
  if closed_ok then Val (mkResult 1 w' lines fs') else UB "error handler used after it was deleted"%string.
Proof.
  unfold leave, destroy, closed_ok, q0, object. cbn [with_err q_db q_dbExt].
  destruct x as [x'|]; destruct (e_close E d); try (destruct (e_close E x')); reflexivity.
Qed.
Lemma closes_iff : closed_ok = true <-> closes E d x.
Proof.
  clear - E d x. unfold closed_ok, closes. rewrite andb_true_iff. destruct x as [x'|].
  - split; intros [A B]; (split; [exact A|]); [intros y H; injection H as <-; exact B | apply B; reflexivity].
  - split; intros [A B]; (split; [exact A|]); [intros y H; discriminate | reflexivity].
Qed.

Lemma run_all ls ys : lists (t_num T) text ls -> Forall2 (replies E q0) ls ys ->
  Forall (fun y => y_status y <> ERROR) ys ->
  exists lines fs', lines_for T ls ys lines /\ logged_files E c fs (log_of E ls ys) fs' /\
    main E T S g junk args fs =
    Val (if closed_ok then mkResult 0 (w ++ warned ys)%list (Some lines) fs'
         else mkResult 1 ((w ++ warned ys) ++ [Said (close_msg (c_db c))])%list (Some lines) fs').
Proof.
  intros HL HY HE. destruct (main_loop ls HL) as (rest & e & loc & s & HR & He & HA & HF & ->).
  pose proof (app_nil_r ls) as NR.
  destruct (loop_good E T S WOK q0 SH SX eq_refl eq_refl rest e HR He ls ys HY HE [] (String.length text) e1 w [] fs1 junk loc s
    (start_clean c fs) HJ) as (fuel' & vals' & loc' & s' & e2 & lines & C2 & _ & _ & _ & A' & LF & Q).
  { rewrite NR. exact HA. } { rewrite NR. exact HF. }
  rewrite Q, (loop_end E T S rest e) by exact A'. cbn [app]. exists lines, (logs E e1 ls ys fs1).
  split; [exact LF|]. split.
  - apply logs_ok. clear - HY. induction HY; cbn; congruence.
  - apply finish_eq, C2.
Qed.

Lemma run_error before l after ys y : lists (t_num T) text (before ++ l :: after) -> Forall2 (replies E q0) before ys ->
  Forall (fun y => y_status y <> ERROR) ys -> replies E q0 l y -> y_status y = ERROR ->
  exists lines fs', lines_for T before ys lines /\ logged_files E c fs (log_of E (before ++ [l]) (ys ++ [y])) fs' /\
    main E T S g junk args fs =
    if closed_ok then Val (mkResult 1 ((w ++ warned ys) ++ [Said (y_msg y)])%list (Some lines) fs')
    else UB "error handler used after it was deleted"%string.
Proof.
  intros HL HY HE HB YE. destruct (main_loop _ HL) as (rest & e & loc & s & HR & He & HA & HF & ->).
  destruct (loop_good E T S WOK q0 SH SX eq_refl eq_refl rest e HR He before ys HY HE (l :: after) (String.length text) e1 w [] fs1 junk loc s
    (start_clean c fs) HJ HA HF) as (fuel' & vals' & loc' & s' & e2 & lines & C2 & S2 & LV & FF & A' & LF & Q).
  rewrite Q. cbn [app]. assert (loc' = l) as -> by (destruct A' as [A' _]; exact A').
  destruct (loop_error E T S WOK q0 SH SX eq_refl eq_refl rest e l y HB YE after fuel' e2 (w ++ warned ys)%list lines (logs E e1 before ys fs1) vals' s'
    C2 LV A') as (e3 & QE). { cbn in FF. lia. }
  exists lines, (logs E e1 (before ++ [l]) (ys ++ [y]) fs1). split; [exact LF|]. split.
  - apply logs_ok. clear - HY. induction HY; cbn; congruence.
  - rewrite QE, leave_eq.
    assert (LQ : forall ls ys fs, List.length ls = List.length ys ->
      logs E e2 [l] [y] (logs E e1 ls ys fs) = logs E e1 (ls ++ [l]) (ys ++ [y]) fs).
    { clear - S2. induction ls as [|[[a b] cc] ls IH]; intros [|y0 ys] ffs HL; try discriminate.
      - destruct l as [[a b] cc]. cbn [logs app]. unfold eh_log. rewrite S2. reflexivity.
      - cbn [logs app]. apply IH. injection HL as HL. exact HL. }
    rewrite LQ; [reflexivity|]. clear - HY. induction HY; cbn; congruence.
Qed.

Lemma run_fails before l after ys o : lists (t_num T) text (before ++ l :: after) -> Forall2 (replies E q0) before ys ->
  Forall (fun y => y_status y <> ERROR) ys -> fails E q0 l o -> main E T S g junk args fs = o.
Proof.
  intros HL HY HE HB. destruct (main_loop _ HL) as (rest & e & loc & s & HR & He & HA & HF & ->).
  destruct (loop_good E T S WOK q0 SH SX eq_refl eq_refl rest e HR He before ys HY HE (l :: after) (String.length text) e1 w [] fs1 junk loc s
    (start_clean c fs) HJ HA HF) as (fuel' & vals' & loc' & s' & e2 & lines & C2 & S2 & LV & FF & A' & LF & Q).
  rewrite Q. cbn [app]. assert (loc' = l) as -> by (destruct A' as [A' _]; exact A').
  apply (loop_fails E T S WOK q0 SH SX eq_refl eq_refl rest e l o HB after fuel' e2 _ _ _ vals' s' C2 LV A'). cbn in FF. lia.
Qed.
End Start.
