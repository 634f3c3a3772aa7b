(** Proofs about the Fortran example program. *)
From Coq Require Import ZArith Bool Lia Reals String Ascii List.
From Verif Require Import Outcome Float Payload Addr SpecOct SpecGeom Geom GeomFacts ErrorHandler VMQuery SpecQuery SpecHist
  QueryFacts QueryProof QueryHist QueryIndep Stream GetOpt QueryApp SpecText StreamFacts SpecApp AppFacts AppMain
  CApi CApiFacts Fortran CExample SpecCExample CExampleFacts FExample SpecFExample.
Import ListNotations.
Open Scope Z_scope.

(** ** Names *)
Lemma character_eq n : forall s, (String.length s <= n)%nat ->
  character n s = (list_ascii_of_string s ++ repeat blankc (n - String.length s))%list.
Proof.
  assert (Z : forall n, character n "" = repeat blankc n) by (induction n0 as [|m IH]; [reflexivity|]; cbn [character repeat]; rewrite IH; reflexivity).
  induction n as [|n IH]; intros [|c s] H; cbn [String.length] in H; try (cbn; lia); try reflexivity.
  - exact (Z (Datatypes.S n)).
  - cbn [character list_ascii_of_string app String.length Nat.sub]. rewrite IH by lia. reflexivity.
Qed.
Lemma trim_blanks n : trim (repeat blankc n) = ""%string.
Proof. induction n as [|n IH]; [reflexivity|]. cbn [repeat trim]. rewrite IH. reflexivity. Qed.
Lemma trim_word s n : (forall c, In c (list_ascii_of_string s) -> ~ blank c) ->
  trim (list_ascii_of_string s ++ repeat blankc n) = s.
Proof.
  induction s as [|c s IH]; intros H; cbn [list_ascii_of_string app]; [apply trim_blanks|]. cbn [trim].
  rewrite IH by (intros x Hx; apply H; right; exact Hx). destruct s as [|c' s]; [|reflexivity].
  destruct (Ascii.eqb_spec c blankc) as [->|]; [|reflexivity]. exfalso. apply (H blankc (or_introl eq_refl)).
  unfold blank. vm_compute. tauto.
Qed.
Lemma trim_name n s : plain_name n s -> trim (character n s) = s.
Proof. intros ([_ H] & _ & L). rewrite character_eq by lia. apply trim_word, H. Qed.

Lemma fname_word mem s : plain_name 64 s -> terminated mem -> first_word (fname mem s) = Val s.
Proof.
  intros (Hw & Hz & L) (m & rest & -> & Hm). unfold fname. rewrite character_eq by lia.
  assert (P : exists k, (64 - String.length s = Datatypes.S k)%nat) by (exists (63 - String.length s)%nat; lia).
  destruct P as [k ->]. set (t := String blankc (string_of_list_ascii (repeat blankc k ++ m))).
  assert (Q : (list_ascii_of_string s ++ repeat blankc (Datatypes.S k) ++ m ++ ascii_of_nat 0 :: rest =
    list_ascii_of_string ("" ++ s ++ t) ++ ascii_of_nat 0 :: rest)%list).
  { cbn [append]. rewrite chars_app. unfold t. cbn [list_ascii_of_string repeat app]. rewrite list_ascii_of_string_of_list_ascii.
    rewrite <- app_assoc. cbn [app]. rewrite <- app_assoc. reflexivity. }
  rewrite <- app_assoc, Q. apply first_word_found; [intros x [] | exact Hw | right; eexists; eexists; split; [reflexivity|] |].
  - unfold blank. vm_compute. tauto.
  - cbn [append]. rewrite chars_app. intros c Hc. apply in_app_or in Hc. destruct Hc as [Hc|Hc]; [exact (Hz c Hc)|].
    unfold t in Hc. cbn [list_ascii_of_string] in Hc. rewrite list_ascii_of_string_of_list_ascii in Hc.
    destruct Hc as [<-|Hc]; [discriminate|]. apply in_app_or in Hc. destruct Hc as [Hc|Hc]; [|exact (Hm c Hc)].
    apply repeat_spec in Hc. subst c. discriminate.
Qed.
Lemma fname_none mem s : plain_name 64 s -> (forall c, In c mem -> nat_of_ascii c <> 0%nat) ->
  exists why, first_word (fname mem s) = UB why.
Proof.
  intros (Hw & Hz & L) Hm. unfold first_word. rewrite c_string_none; [eauto|]. unfold fname. rewrite character_eq by lia.
  intros c Hc. apply in_app_or in Hc. destruct Hc as [Hc|Hc]; [|exact (Hm c Hc)].
  apply in_app_or in Hc. destruct Hc as [Hc|Hc]; [exact (Hz c Hc)|]. apply repeat_spec in Hc. subst c. discriminate.
Qed.

(** ** Types of query *)
Lemma starts_iff s name : (String.length name <= 64)%nat -> (forall c, In c (list_ascii_of_string name) -> c <> blankc) ->
  starts s name = true <-> exists rest, s = (name ++ rest)%string.
Proof.
  unfold starts. generalize 64%nat. intros n. revert n s. induction name as [|c name IH]; intros n s L NB.
  - cbn [String.length firstn string_of_list_ascii]. split; [intros _; exists s; reflexivity | reflexivity].
  - cbn [String.length] in *. destruct n as [|n]; [lia|]. destruct s as [|c' s]; cbn [character firstn string_of_list_ascii String.eqb append].
    + split.
      * destruct (Ascii.eqb_spec blankc c) as [Q|]; [|discriminate]. exfalso. apply (NB c); [left; reflexivity | symmetry; exact Q].
      * intros [rest Q]. discriminate.
    + specialize (IH n s ltac:(lia) (fun x Hx => NB x (or_intror Hx))).
      destruct (Ascii.eqb_spec c' c) as [->|N].
      * rewrite IH. split; intros [rest Q]; exists rest; [rewrite Q; reflexivity | injection Q as Q; exact Q].
      * split; [discriminate | intros [rest Q]; injection Q as Q _; congruence].
Qed.
Lemma starts_kind c k : starts (c_type c) (kind_name k) = true <-> f_asks c k.
Proof.
  unfold f_asks. apply starts_iff; [destruct k; apply Nat.leb_le; reflexivity|].
  destruct k; cbn; intros x H; repeat (destruct H as [<-|H]; [discriminate|]); contradiction.
Qed.
Lemma starts_other c k k' : f_asks c k -> k <> k' -> starts (c_type c) (kind_name k') = false.
Proof.
  intros [r R] N. destruct (starts (c_type c) (kind_name k')) eqn:Q; [|reflexivity]. apply starts_kind in Q.
  destruct Q as [r' R']. rewrite R in R'. destruct k, k'; try contradiction; discriminate.
Qed.
Lemma starts_not c k : ~ f_asks c k -> starts (c_type c) (kind_name k) = false.
Proof. intros N. destruct (starts (c_type c) (kind_name k)) eqn:Q; [|reflexivity]. apply starts_kind in Q. contradiction. Qed.

(** ** Calls *)
Section Run.
Context {DB : Type}.
Variables (E : env DB) (F : fsys) (mem : list ascii) (g : libm).
Notation world := (world DB).
Notation hq := (QueryPtr 0).
Notation hh := (HandlerPtr 0).

Lemma f_message_has (w : world) q fs : has w q fs ->
  error_message_f true true 256 hh w = Val (w, match buffer (eh_msg (q_err q)) with Buffer b => b | _ => [] end, 0).
Proof.
  intros [H1 H2]. unfold error_message_f, cencalvm_error_message. rewrite H1. cbn [assert_ bind Z.ltb Z.compare].
  change (Z.to_nat 256) with 256%nat. rewrite strncpy_spec. reflexivity.
Qed.
Lemma at_998_has p lines (w : world) q fs : has w q fs ->
  at_998 hh p lines w = Val (mkFresult End (p ++ [buffer (eh_msg (q_err q)); Printed "ERROR"]) lines fs).
Proof.
  intros H. unfold at_998. rewrite (f_message_has w q fs H). cbn [bind]. unfold at_999. destruct H as [_ ->].
  rewrite <- app_assoc. reflexivity.
Qed.
Lemma or_998_ok p lines call next (w w' : world) : call w = Val (w', 0) -> or_998 hh p lines call next w = next w'.
Proof. intros Q. unfold or_998. rewrite Q. reflexivity. Qed.
Lemma or_998_bad p lines call next (w w' : world) z q fs : call w = Val (w', z) -> z <> 0 -> has w' q fs ->
  or_998 hh p lines call next w = Val (mkFresult End (p ++ [buffer (eh_msg (q_err q)); Printed "ERROR"]) lines fs).
Proof.
  intros Q N H. unfold or_998. rewrite Q. cbn [bind]. apply Z.eqb_neq in N. rewrite N. cbn [negb]. exact (at_998_has p lines w' q fs H).
Qed.
Lemma or_998_set p lines what f next (w : world) q fs : has w q fs -> eh_status (q_err (f q)) = OK ->
  exists w', has w' (f q) fs /\ forall call, call w = on_query what (quietly f) hq w -> or_998 hh p lines call next w = next w'.
Proof.
  intros H K. destruct (on_query_has what (quietly f) w q fs (f q) fs H eq_refl) as (w' & Q & H').
  rewrite K in Q. exists w'. split; [exact H'|]. intros call C. apply or_998_ok. rewrite C. exact Q.
Qed.
Lemma filename_f_eq s (w : world) : plain_name 64 s -> terminated mem ->
  filename_f true (fname mem s) 64 hq w = on_query "filename" (quietly (set_filename s)) hq w.
Proof. intros H T. unfold filename_f. cbn [assert_ bind Z.ltb Z.compare]. rewrite (fname_word mem s H T). reflexivity. Qed.
Lemma filenameext_f_eq s (w : world) : plain_name 64 s -> terminated mem ->
  filenameext_f true (fname mem s) 64 hq w = on_query "filename" (quietly (set_filenameExt s)) hq w.
Proof. intros H T. unfold filenameext_f. cbn [assert_ bind Z.ltb Z.compare]. rewrite (fname_word mem s H T). reflexivity. Qed.

(** ** The start *)
Lemma fSettings_eq c junk (w : world) fs : names_ok c -> terminated mem ->
  has w (with_err (q_new g) (fst (start_log E c fs))) (snd (start_log E c fs)) ->
  exists w', has w' (before_open g c (fst (start_log E c fs))) (snd (start_log E c fs)) /\
    fSettings E F mem c junk hq hh w =
    or_998 hh [] None (open_f true E hq) (fType E F c junk hq hh) w'.
Proof.
  intros (ND & NX & NL) TM H. pose proof (configure_eq E g c fs) as CE. apply (f_equal fst) in CE. cbn [fst] in CE.
  pose proof (start_clean E c fs) as [OKs _].
  assert (CE' : fst (configure E c (q_new g) fs) =
    let q := with_err (q_new g) (fst (start_log E c fs)) in
    let q := set_filename (c_db c) q in
    let q := set_cacheSize (c_cache c) q in
    let q := if String.eqb (c_dbExt c) "" then q
             else set_cacheSizeExt (c_cache c) (set_filenameExt (c_dbExt c) q) in
    if fne (c_squash c) squashDefault then set_squash true (c_squash c) q else q).
  { unfold configure, start_log. change (q_err (q_new g)) with eh_new.
    destruct (if String.eqb (c_log c) "" then _ else _) as [e0 fs0]. reflexivity. }
  rewrite CE' in CE. clear CE'. cbv zeta in CE. rewrite <- CE. clear CE.
  set (q := with_err (q_new g) (fst (start_log E c fs))) in *. set (fs1 := snd (start_log E c fs)) in *.
  assert (Kq : eh_status (q_err q) = OK) by exact OKs. clearbody q fs1. clear OKs.
  unfold fSettings.
  set (opened := or_998 hh [] None (open_f true E hq) (fType E F c junk hq hh)).
  assert (X : forall next, exists w2, has w2 (set_cacheSize (c_cache c) (set_filename (c_db c) q)) fs1 /\
    or_998 hh [] None (filename_f true (fname mem (c_db c)) 64 hq) (or_998 hh [] None (cachesize_f true (c_cache c) hq) next) w = next w2).
  { intros next.
    edestruct (or_998_set [] None "filename" (set_filename (c_db c)) (or_998 hh [] None (cachesize_f true (c_cache c) hq) next)) as (w1 & H1 & Q1);
      [exact H | rewrite err_filename; exact Kq |]. rewrite (Q1 _ (filename_f_eq _ _ ND TM)).
    edestruct (or_998_set [] None "cacheSize" (set_cacheSize (c_cache c)) next) as (w2 & H2 & Q2);
      [exact H1 | rewrite err_cacheSize, err_filename; exact Kq |]. exists w2. split; [exact H2|]. apply Q2. reflexivity. }
  match goal with |- context [or_998 hh [] None (cachesize_f true (c_cache c) hq) ?n] => destruct (X n) as (w2 & H2 & ->) end. clear X.
  set (q2 := set_cacheSize (c_cache c) (set_filename (c_db c) q)) in *.
  assert (K2 : eh_status (q_err q2) = OK) by (unfold q2; rewrite err_cacheSize, err_filename; exact Kq). clearbody q2.
  assert (X : forall next, exists w3, has w3 (if String.eqb (c_dbExt c) "" then q2 else set_cacheSizeExt (c_cache c) (set_filenameExt (c_dbExt c) q2)) fs1 /\
    (if negb (String.eqb (c_dbExt c) "")
     then or_998 hh [] None (filenameext_f true (fname mem (c_dbExt c)) 64 hq) (or_998 hh [] None (cachesizeext_f true (c_cache c) hq) next)
     else next) w2 = next w3).
  { intros next. destruct (String.eqb_spec (c_dbExt c) "") as [|NE]; cbn [negb].
    - exists w2. split; [exact H2 | reflexivity].
    - destruct NX as [NX|NX]; [contradiction|].
      edestruct (or_998_set [] None "filename" (set_filenameExt (c_dbExt c)) (or_998 hh [] None (cachesizeext_f true (c_cache c) hq) next)) as (w3 & H3 & Q3);
        [exact H2 | rewrite err_filenameExt; exact K2 |]. rewrite (Q3 _ (filenameext_f_eq _ _ NX TM)).
      edestruct (or_998_set [] None "cacheSize" (set_cacheSizeExt (c_cache c)) next) as (w4 & H4 & Q4);
        [exact H3 | rewrite err_cacheSizeExt, err_filenameExt; exact K2 |]. exists w4. split; [exact H4|]. apply Q4. reflexivity. }
  match goal with |- context [or_998 hh [] None (cachesizeext_f true (c_cache c) hq) ?n] => destruct (X n) as (w3 & H3 & ->) end. clear X.
  set (q3 := if String.eqb (c_dbExt c) "" then q2 else _) in *.
  assert (K3 : eh_status (q_err q3) = OK).
  { unfold q3. destruct (String.eqb (c_dbExt c) ""); rewrite ?err_cacheSizeExt, ?err_filenameExt; exact K2. } clearbody q3.
  destruct (fne (c_squash c) squashDefault).
  - edestruct (or_998_set [] None "squash" (set_squash true (c_squash c)) opened w3 q3 fs1 H3) as (w4 & H4 & Q4); [rewrite err_squash; exact K3|].
    exists w4. split; [exact H4|]. apply Q4. reflexivity.
  - exists w3. split; [exact H3 | reflexivity].
Qed.

Lemma fMain_opening junk c fs : names_ok c -> terminated mem ->
  exists w, has w (before_open g c (fst (start_log E c fs))) (snd (start_log E c fs)) /\
    fMain E F mem g junk c fs = or_998 hh [] None (open_f true E hq) (fType E F c junk hq hh) w.
Proof.
  intros N TM. unfold fMain. cbn [createquery_f cencalvm_createQuery w_next bind]. unfold errorhandler_f, cencalvm_errorHandler. cbn [w_objs].
  change (upd (fun _ : nat => None) 0 (Some (q_new g)) 0%nat) with (Some (@q_new DB g)). cbv iota. cbn [assert_ bind].
  set (w0 := mkWorld _ _ _ _).
  assert (H0 : has w0 (q_new g) fs) by (split; reflexivity).
  assert (X : exists w1, has w1 (with_err (q_new g) (fst (start_log E c fs))) (snd (start_log E c fs)) /\
    error_logfilename_f true (e_writable E) (fname mem (c_log c)) 64 hh w0 = Val (w1, 0)).
  { destruct N as (_ & _ & NL). unfold error_logfilename_f. cbn [assert_ bind]. rewrite (fname_word mem (c_log c) NL TM). cbn [bind].
    unfold start_log. destruct (String.eqb_spec (c_log c) "") as [Q|_]; [destruct NL as [[K _] _]; contradiction|].
    unfold cencalvm_error_logFilename, on_handler. destruct H0 as [-> ->]. change (q_err (q_new g)) with eh_new.
    destruct (eh_logFilename (e_writable E) (c_log c) eh_new fs) as [e1 fs1]. cbn [fst snd].
    eexists. split; [|reflexivity]. apply has_replace. }
  destruct X as (w1 & H1 & X). rewrite X. cbn [bind Z.eqb negb].
  exact (fSettings_eq c junk w1 fs N TM H1).
Qed.

Lemma f_open_has (w : world) q fs q' : has w q fs -> open E q = Val q' ->
  exists w', open_f true E hq w = Val (w', status_code (eh_status (q_err q'))) /\ has w' q' fs.
Proof. exact (open_has E w q fs q'). Qed.

Definition with_type (c : config) (t : string) : config :=
  mkConfig (c_in c) (c_out c) (c_db c) (c_dbExt c) (c_log c) t (c_res c) (c_cache c) (c_squash c).
Lemma fType_kind c junk (w : world) fs q k q' : has w q fs -> eh_status (q_err q) = OK -> f_asks c k ->
  (k <> MAXRES -> flt (c_res c) f_zero = false) ->
  setType (with_type c (kind_name k)) q = inl q' -> exists w', has w' q' fs /\
    fType E F c junk hq hh w = fLocations E F c junk hq hh [] w'.
Proof.
  intros H HOK HK HN HS. unfold fType. unfold setType, with_type in HS. cbn [c_type c_res] in HS.
  assert (OT : forall n (q0 : qstate DB), eh_status (q_err q0) = OK -> (n = 0 \/ n = 1 \/ n = 2) -> eh_status (q_err (set_queryType n q0)) = OK).
  { intros n q0 K [->|[->| ->]]; exact K. }
  assert (OR : forall r (q0 : qstate DB), eh_status (q_err q0) = OK -> eh_status (q_err (set_queryRes r q0 : qstate DB)) = OK).
  { intros r q0 K. unfold set_queryRes. destruct (fgt r f_zero); exact K. }
  destruct k; cbn [kind_name] in HS.
  - rewrite (proj2 (starts_kind c MAXRES) HK : starts (c_type c) "maxres" = true).
    change (casecmp "maxres" "maxres") with true in HS. cbv iota in HS. injection HS as <-.
    edestruct (or_998_set [] None "queryType" (set_queryType 0) (fLocations E F c junk hq hh []) w q fs H) as (w1 & H1 & Q1);
      [apply OT; auto|]. exists w1. split; [exact H1|]. apply Q1. reflexivity.
  - rewrite (starts_other c FIXEDRES MAXRES HK ltac:(discriminate) : starts (c_type c) "maxres" = false).
    change (casecmp "fixedres" "maxres") with false in HS. change (casecmp "fixedres" "fixedres") with true in HS. cbv iota in HS.
    rewrite HN in HS |- * by discriminate. injection HS as <-.
    match goal with |- context [or_998 hh [] None (queryres_f true (c_res c) hq) ?n w] =>
      edestruct (or_998_set [] None "queryRes" (set_queryRes (c_res c)) n w q fs H) as (w1 & H1 & Q1); [apply OR, HOK|] end.
    rewrite (Q1 (queryres_f true (c_res c) hq) eq_refl). rewrite (proj2 (starts_kind c FIXEDRES) HK : starts (c_type c) "fixedres" = true).
    edestruct (or_998_set [] None "queryType" (set_queryType 1) (fLocations E F c junk hq hh []) w1 _ fs H1) as (w2 & H2 & Q2);
      [apply OT; [apply OR, HOK | auto]|]. exists w2. split; [exact H2|]. apply Q2. reflexivity.
  - rewrite (starts_other c WAVERES MAXRES HK ltac:(discriminate) : starts (c_type c) "maxres" = false).
    change (casecmp "waveres" "maxres") with false in HS. change (casecmp "waveres" "fixedres") with false in HS.
    change (casecmp "waveres" "waveres") with true in HS. cbv iota in HS.
    rewrite HN in HS |- * by discriminate. injection HS as <-.
    match goal with |- context [or_998 hh [] None (queryres_f true (c_res c) hq) ?n w] =>
      edestruct (or_998_set [] None "queryRes" (set_queryRes (c_res c)) n w q fs H) as (w1 & H1 & Q1); [apply OR, HOK|] end.
    rewrite (Q1 (queryres_f true (c_res c) hq) eq_refl). rewrite (starts_other c WAVERES FIXEDRES HK ltac:(discriminate) : starts (c_type c) "fixedres" = false).
    rewrite (proj2 (starts_kind c WAVERES) HK : starts (c_type c) "waveres" = true).
    destruct (on_query_has "queryType" (quietly (set_queryType 2)) w1 _ fs _ fs H1 eq_refl) as (w2 & Q2 & H2).
    change (querytype_f true 2 hq w1) with (on_query "queryType" (quietly (set_queryType 2)) hq w1). rewrite Q2. cbn [bind].
    exists w2. split; [exact H2 | reflexivity].
Qed.

Lemma fMain_start junk c fs k d x : names_ok c -> terminated mem -> opens E c d x -> f_asks c k ->
  (k <> MAXRES -> flt (c_res c) f_zero = false) ->
  exists w, has w (object c k g (Some d) x (fst (start_log E c fs))) (snd (start_log E c fs)) /\
    fMain E F mem g junk c fs = fLocations E F c junk hq hh [] w.
Proof.
  intros N TM HO HK HN. destruct (fMain_opening junk c fs N TM) as (w0 & H0 & ->).
  destruct (f_open_has w0 _ _ _ H0 (open_good E g c _ d x HO)) as (w1 & Q1 & H1).
  destruct (start_clean E c fs) as [OKs _]. cbn [set_db q_err] in Q1. rewrite OKs in Q1.
  rewrite (or_998_ok _ _ _ _ _ _ Q1).
  exact (fType_kind c junk w1 _ _ k _ H1 OKs HK HN (setType_opened g (with_type c (kind_name k)) k d x _ eq_refl HN)).
Qed.

Lemma fMain_refuses junk c fs s p : names_ok c -> terminated mem -> plain_name 128 (c_in c) -> plain_name 64 (c_out c) ->
  f_refuses E F c s p -> fMain E F mem g junk c fs = Val (mkFresult s p None (snd (start_log E c fs))).
Proof.
  intros N TM NI NO HC. destruct (start_clean E c fs) as [OKs _]. set (e0 := fst (start_log E c fs)) in *. set (fs1 := snd (start_log E c fs)).
  inversion HC as [H1 H2|H1 H2|d x H1 H2 H3|d x H1 H2 H3|d x k H1 H2 H3 H4|d x k r H1 H2 H3 H4 H5]; subst s p.
  - destruct (fMain_opening junk c fs N TM) as (w0 & H0 & ->).
    assert (Q : exists x, open E (before_open g c e0) = Val (set_db (before_open g c e0) None x (eh_error (open_msg (c_db c)) e0))).
    { rewrite open_before, H1. destruct (String.eqb_spec (c_dbExt c) "") as [|NE]; [eauto|]. destruct H2 as [H2|H2]; [contradiction|].
      destruct (e_open E (c_dbExt c) (cache_of c)) as [x|]; [eauto | contradiction]. }
    destruct Q as [x Q]. destruct (f_open_has w0 _ _ _ H0 Q) as (w1 & Q1 & K1).
    rewrite (or_998_bad _ _ _ _ _ _ _ _ _ Q1 ltac:(discriminate) K1). reflexivity.
  - destruct (fMain_opening junk c fs N TM) as (w0 & H0 & ->).
    assert (Q : exists q, open E (before_open g c e0) = Val q /\ eh_status (q_err q) = ERROR /\ eh_msg (q_err q) = open_ext_msg (c_dbExt c)).
    { rewrite open_before, (proj2 (String.eqb_neq _ _) H1), H2.
      destruct (e_open E (c_db c) (cache_of c)) as [d|]; eexists; (split; [reflexivity|]); split; reflexivity. }
    destruct Q as (q & Q & S2 & M2). destruct (f_open_has w0 _ _ _ H0 Q) as (w1 & Q1 & K1). rewrite S2 in Q1.
    rewrite (or_998_bad _ _ _ _ _ _ _ _ _ Q1 ltac:(discriminate) K1). rewrite M2. reflexivity.
  - destruct (fMain_opening junk c fs N TM) as (w0 & H0 & ->).
    destruct (f_open_has w0 _ _ _ H0 (open_good E g c _ d x H1)) as (w1 & Q1 & [_ K1]). cbn [set_db q_err] in Q1. fold e0 in Q1. rewrite OKs in Q1.
    rewrite (or_998_ok _ _ _ _ _ _ Q1). unfold fType.
    rewrite (starts_not c MAXRES H2 : starts (c_type c) "maxres" = false), H3. unfold at_999. rewrite K1. reflexivity.
  - destruct (fMain_opening junk c fs N TM) as (w0 & H0 & ->).
    destruct (f_open_has w0 _ _ _ H0 (open_good E g c _ d x H1)) as (w1 & Q1 & K1). cbn [set_db q_err] in Q1. fold e0 in Q1. rewrite OKs in Q1.
    rewrite (or_998_ok _ _ _ _ _ _ Q1). unfold fType.
    rewrite (starts_not c MAXRES (H2 _) : starts (c_type c) "maxres" = false), H3.
    match goal with |- context [or_998 hh [] None (queryres_f true (c_res c) hq) ?n w1] =>
      edestruct (or_998_set [] None "queryRes" (set_queryRes (c_res c)) n w1 _ _ K1) as (w2 & [_ K2] & Q2) end.
    { unfold set_queryRes. destruct (fgt (c_res c) f_zero); exact OKs. }
    rewrite (Q2 (queryres_f true (c_res c) hq) eq_refl). rewrite (starts_not c FIXEDRES (H2 _) : starts (c_type c) "fixedres" = false), (starts_not c WAVERES (H2 _) : starts (c_type c) "waveres" = false).
    unfold at_999. rewrite K2. reflexivity.
  - destruct (fMain_start junk c fs k d x N TM H1 H2 H3) as (w & [_ K] & ->).
    unfold fLocations. rewrite (trim_name _ _ NI), H4, K. reflexivity.
  - destruct (fMain_start junk c fs k d x N TM H1 H2 H3) as (w & [_ K] & ->).
    unfold fLocations. rewrite (trim_name _ _ NI), (trim_name _ _ NO), H4, H5. destruct r as [ls b]. cbn [negb]. rewrite K. reflexivity.
Qed.

(** ** The loop *)
Variable q0 : qstate DB.
Hypothesis SH : stores_shorts E (q_db q0).
Hypothesis SX : stores_shorts E (q_dbExt q0).
Hypothesis Q0v : q_vals q0 = nine.
Hypothesis Q0e : q_err q0 = eh_new.

(** Any texts, to use [reply_line]. *)
Definition no_texts : texts := mkTexts (mkFmt (fun _ => (f_zero, false)) (fun _ => (f_zero, false)) (fun _ => (0, false)) (fun _ => (0, false))
  (fun _ => ""%string)) (fun _ => 0) (fun _ => f_zero) (fun _ _ _ => ""%string) (fun _ _ => ""%string).
Lemma f_reply_line lon lat elev y : replies E q0 (lon, lat, elev) y -> exists line,
  fLine F lon lat elev (y_vals y) = Val line /\ f_line_for F (lon, lat, elev) y line /\ List.length (y_vals y) = 9%nat.
Proof.
  intros H. destruct (reply_line E no_texts q0 SH SX Q0v _ y H) as (_ & _ & (b & z & Sb & Sz & Vb & Vz & _) & L).
  unfold fLine. change (nth 6 (y_vals y) S754_nan) with (value_of (y_vals y) 6). change (nth 7 (y_vals y) S754_nan) with (value_of (y_vals y) 7).
  rewrite Vb, Vz, (toInt_short b Sb), (toInt_short z Sz). cbn [bind]. eexists. split; [reflexivity|]. split; [|exact L].
  exists b, z. auto.
Qed.

(** A location, whatever the status of the answer. *)
Lemma fLoop_step l y : replies E q0 l y ->
  forall at_end ls e1 (w : world) p lines fs vals, clean e1 -> has w (with_err q0 e1) fs -> List.length vals = 9%nat ->
  exists w' e2 line, clean e2 /\ eh_stream e2 = eh_stream e1 /\ has w' (with_err q0 e2) (logs E e1 [l] [y] fs) /\
    f_line_for F l y line /\ List.length (y_vals y) = 9%nat /\
    fLoop E F hq hh at_end w p lines vals (l :: ls) =
    if f_write F (lines ++ [line]) then fLoop E F hq hh at_end w' (p ++ f_warned [y]) (lines ++ [line]) (y_vals y) ls
    else Val (mkFresult RuntimeError (p ++ f_warned [y]) (Some lines) (logs E e1 [l] [y] fs)).
Proof.
  intros Hl at_end ls e1 w p lines fs vals HC HW HV. destruct l as [[lon lat] elev].
  destruct (f_reply_line lon lat elev y Hl) as (line & QL & LF & LV).
  destruct Hl as (fs0 & olds & q' & fs' & Q & QS & QM).
  pose proof (query_length E _ _ _ _ _ _ _ Q) as LO. rewrite Q0v in LO. change (List.length nine) with 9%nat in LO.
  pose proof (query_relog E q0 SH SX Q0v Q0e e1 fs fs0 vals olds lon lat elev HC HV LO) as QR. rewrite Q in QR.
  change (if feq (nth64 (y_vals y) 6) f_zero then eh_log (nodata_line E lon lat elev) e1 fs else fs)
    with (logs E e1 [(lon, lat, elev)] [y] fs) in QR.
  set (fs1 := logs E e1 [(lon, lat, elev)] [y] fs) in *.
  destruct (query_has E w _ fs vals lon lat elev _ _ _ HW QR) as (w1 & Q1 & H1).
  cbn [with_err q_err relog eh_status] in Q1. rewrite QS in Q1.
  cbn [fLoop]. unfold query_f. cbn [assert_ bind]. rewrite Q1. cbn [bind]. unfold f_warned. cbn [flat_map].
  assert (WARN : y_status y <> OK -> exists w2, has w2 (with_err q0 (eh_reset (relog e1 (q_err q')))) fs1 /\
    (let* (w2, b, ok) := error_message_f true true 256 hh w1 in
     let p2 := (p ++ [Buffer b])%list in
     if ok =? 2 then at_999 p2 (Some lines) w2
     else
       let* (w3, ok0) := error_resetstatus_f true hh w2 in
       if negb (ok0 =? 0) then at_998 hh p2 (Some lines) w3
       else let* s := fLine F lon lat elev (y_vals y) in
            if f_write F (lines ++ [s]) then fLoop E F hq hh at_end w3 p2 (lines ++ [s]) (y_vals y) ls
            else Val (mkFresult RuntimeError p2 (Some lines) (w_files w3))) =
    if f_write F (lines ++ [line]) then fLoop E F hq hh at_end w2 (p ++ [buffer (y_msg y)]) (lines ++ [line]) (y_vals y) ls
    else Val (mkFresult RuntimeError (p ++ [buffer (y_msg y)]) (Some lines) fs1)).
  { intros _. destruct (reset_has w1 _ _ H1) as (w2 & Q2 & H2). exists w2. split; [exact H2|].
    rewrite (f_message_has w1 _ _ H1). cbn [bind Z.eqb]. unfold error_resetstatus_f. cbn [assert_ bind]. rewrite Q2.
    change (negb (VMERR_OK =? 0)) with false. cbn [bind]. rewrite QL. cbn [bind]. destruct H2 as [_ ->].
    cbn [with_err q_err relog eh_msg]. rewrite QM. reflexivity. }
  destruct (y_status y) eqn:YS.
  - cbn [status_code Z.eqb negb bind]. rewrite QL. cbn [bind].
    exists w1, (relog e1 (q_err q')), line.
    split; [exact (reply_clean E q0 Q0e fs0 olds lon lat elev q' fs' (y_vals y) e1 Q QS)|]. split; [reflexivity|]. split; [exact H1|].
    split; [exact LF|]. split; [exact LV|]. cbn [app]. rewrite app_nil_r. destruct H1 as [_ ->]. reflexivity.
  - destruct (WARN ltac:(discriminate)) as (w2 & H2 & K).
    exists w2, (eh_reset (relog e1 (q_err q'))), line. split; [split; reflexivity|]. split; [reflexivity|]. split; [exact H2|].
    split; [exact LF|]. split; [exact LV|]. exact K.
  - destruct (WARN ltac:(discriminate)) as (w2 & H2 & K).
    exists w2, (eh_reset (relog e1 (q_err q'))), line. split; [split; reflexivity|]. split; [reflexivity|]. split; [exact H2|].
    split; [exact LF|]. split; [exact LV|]. exact K.
Qed.

(** Locations whose lines can be written. *)
Lemma fLoop_lines ls ys : Forall2 (replies E q0) ls ys ->
  forall at_end more e1 (w : world) p lines fs vals, clean e1 -> has w (with_err q0 e1) fs -> List.length vals = 9%nat ->
  exists new, f_lines_for F ls ys new /\
    ((forall n, (n <= List.length ls)%nat -> (0 < n)%nat -> f_write F (lines ++ firstn n new) = true) ->
     exists w' e2 vals', clean e2 /\ eh_stream e2 = eh_stream e1 /\ has w' (with_err q0 e2) (logs E e1 ls ys fs) /\
     List.length vals' = 9%nat /\
     fLoop E F hq hh at_end w p lines vals (ls ++ more) =
     fLoop E F hq hh at_end w' (p ++ f_warned ys) (lines ++ new) vals' more).
Proof.
  induction 1 as [|l y ls ys Hl Hls IH]; intros at_end more e1 w p lines fs vals HC HW HV.
  - exists []. split; [constructor|]. intros _. exists w, e1, vals. change (f_warned []) with (@nil printed). rewrite !app_nil_r.
    repeat (split; [first [assumption | reflexivity]|]). reflexivity.
  - destruct (fLoop_step l y Hl at_end (ls ++ more) e1 w p lines fs vals HC HW HV) as (w1 & e2 & line & C2 & S2 & H2 & LF & LV & Q).
    destruct (IH at_end more e2 w1 (p ++ f_warned [y])%list (lines ++ [line])%list _ (y_vals y) C2 H2 LV) as (new & LN & K).
    exists (line :: new). split; [constructor; assumption|]. intros HWr.
    pose proof (HWr 1%nat ltac:(cbn; lia) ltac:(lia)) as W1. cbn [firstn] in W1. rewrite W1 in Q.
    destruct K as (w3 & e3 & v3 & C3 & S3 & H3 & L3 & Q3).
    { intros n Hn Hp. specialize (HWr (Datatypes.S n) ltac:(cbn; lia) ltac:(lia)). cbn [firstn] in HWr.
      rewrite <- app_assoc. exact HWr. }
    exists w3, e3, v3. split; [exact C3|]. split; [congruence|]. split; [rewrite <- (logs_cons E e1 e2) by exact S2; exact H3|].
    split; [exact L3|]. cbn [app]. cbn [app] in Q. rewrite Q, Q3. unfold f_warned. cbn [flat_map]. rewrite app_nil_r, <- !app_assoc. reflexivity.
Qed.

Lemma fLoop_fails l o : fails E q0 l o ->
  forall at_end more e1 (w : world) p lines fs vals, clean e1 -> has w (with_err q0 e1) fs -> List.length vals = 9%nat ->
  match o with
  | Val _ | Throw _ => False
  | Abort => fLoop E F hq hh at_end w p lines vals (l :: more) = Abort
  | UB why => fLoop E F hq hh at_end w p lines vals (l :: more) = UB why
  end.
Proof.
  intros Hl at_end more e1 w p lines fs vals HC [HW1 HW2] HV. destruct l as [[lon lat] elev].
  destruct Hl as (fs0 & olds & LO & Q).
  pose proof (query_relog E q0 SH SX Q0v Q0e e1 fs fs0 vals olds lon lat elev HC HV LO) as QR.
  cbn [fLoop]. unfold query_f, cencalvm_query. cbn [assert_ bind]. rewrite HW1, HW2, QR.
  destruct Q as [[-> ->]|(why & -> & ->)]; reflexivity.
Qed.
End Run.
