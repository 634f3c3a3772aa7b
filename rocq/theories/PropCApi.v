(** C33, C34, C48: the C and Fortran interfaces. *)
From Coq Require Import ZArith Bool Ascii String List.
From Verif Require Import Outcome Float Payload Addr Geom ErrorHandler VMQuery SpecHist CApi SpecCApi
  SpecText Stream StreamFacts Fortran CApiFacts SpecQuery ToyLib ToyDb.
Import ListNotations.
Open Scope Z_scope.

(** C33: on a live object a C function is the C++ call; it returns the status after
    it (calls on the error handler return 0), and changes nothing else. *)
Theorem C33_is_the_method : forall DB (c : ccall DB) n (w : world DB) q, w_objs w n = Some q ->
  match step (q, w_files w) (method c) with
  | Val (q', fs') => exists w', c_call c (QueryPtr n) (HandlerPtr n) w = Val (w', code c q') /\
                                only_changed w w' n q' fs'
  | Throw m => c_call c (QueryPtr n) (HandlerPtr n) w = Throw m
  | Abort => c_call c (QueryPtr n) (HandlerPtr n) w = Abort
  | UB y => c_call c (QueryPtr n) (HandlerPtr n) w = UB y
  end.
Proof. intros. apply c_call_valid. assumption. Qed.
Print Assumptions C33_is_the_method.

(** Queries also fill the caller's array. *)
Theorem C33_query : forall DB (E : env DB) n (w : world DB) q vals lon lat elev, w_objs w n = Some q ->
  match query E q (w_files w) vals lon lat elev with
  | Val (q', fs', vs) => exists w',
      cencalvm_query E vals lon lat elev (QueryPtr n) w =
        Val (w', match eh_status (q_err q') with OK => 0 | WARNING => 1 | ERROR => 2 end, Some vs) /\
      only_changed w w' n q' fs'
  | Throw m => cencalvm_query E vals lon lat elev (QueryPtr n) w = Throw m
  | Abort => cencalvm_query E vals lon lat elev (QueryPtr n) w = Abort
  | UB y => cencalvm_query E vals lon lat elev (QueryPtr n) w = UB y
  end.
Proof. intros. apply query_valid. assumption. Qed.
Print Assumptions C33_query.

(** Reading the status and the message changes nothing. *)
Theorem C33_status_and_message : forall DB n (w : world DB) q, w_objs w n = Some q ->
  cencalvm_errorHandler (QueryPtr n) w = Val (w, HandlerPtr n) /\
  cencalvm_error_status (HandlerPtr n) w =
    Val (w, match eh_status (q_err q) with OK => 0 | WARNING => 1 | ERROR => 2 end) /\
  cencalvm_error_message (HandlerPtr n) w = Val (w, Some (eh_msg (q_err q))).
Proof.
  intros DB n w q H. unfold cencalvm_errorHandler, cencalvm_error_status, cencalvm_error_message.
  rewrite H, code_status. repeat split.
Qed.
Print Assumptions C33_status_and_message.

(** A null handle: one line on standard error, code 2 (1 for calls on the error
    handler), a null result from the functions that return pointers, and nothing
    else changes. *)
Theorem C33_null_handle : forall DB (c : ccall DB) (w : world DB),
  exists w', c_call c Null Null w = Val (w', if on_errors c then 1 else 2) /\
    only_printed w w' ("Null handle for " ++ (if on_errors c then "error handler" else "query manager") ++
                       " in call to " ++ called c ++ "().").
Proof.
  intros DB c w. destruct c; eexists; (split; [reflexivity|]); repeat split.
Qed.
Print Assumptions C33_null_handle.
Theorem C33_null_handle_others : forall DB (E : env DB) (w : world DB) vals lon lat elev,
  (exists w', cencalvm_query E vals lon lat elev Null w = Val (w', 2, vals) /\
     only_printed w w' "Null handle for query manager in call to query().") /\
  (exists w', cencalvm_errorHandler Null w = Val (w', Null) /\
     only_printed w w' "Null handle for query manager in call to errorHandler().") /\
  (exists w', cencalvm_error_status Null w = Val (w', 2) /\
     only_printed w w' "Null handle for error handler in call to status().") /\
  (exists w', cencalvm_error_message Null w = Val (w', None) /\
     only_printed w w' "Null handle for error handler in call to message().") /\
  cencalvm_destroyQuery E Null w = Val (w, 0).
Proof.
  intros DB E w vals lon lat elev.
  repeat (split; [eexists; split; [reflexivity | repeat split]|]). reflexivity.
Qed.
Print Assumptions C33_null_handle_others.

(** Creating makes a fresh object in the initial state; destroying removes the
    object and returns success, and is undefined only if a database fails to
    close. *)
Theorem C33_create : forall DB (g : libm) (w w' : world DB) h, cencalvm_createQuery g w = (w', h) ->
  exists n, h = QueryPtr n /\ n = w_next w /\ w_objs w' n = Some (q_new g) /\
    (forall m, m <> n -> w_objs w' m = w_objs w m) /\
    w_files w' = w_files w /\ w_cerr w' = w_cerr w /\ w_next w' = S n.
Proof.
  intros DB g w w' h H. injection H as <- <-. exists (w_next w). cbn.
  split; [reflexivity|]. split; [reflexivity|]. split; [apply upd_same|].
  split; [intros m Hm; apply upd_other; exact Hm | repeat split].
Qed.
Print Assumptions C33_create.
Theorem C33_destroy : forall DB (E : env DB) n (w : world DB) q, w_objs w n = Some q ->
  (forall d, q_db q = Some d \/ q_dbExt q = Some d -> e_close E d = true) ->
  exists w', cencalvm_destroyQuery E (QueryPtr n) w = Val (w', 0) /\ w_objs w' n = None /\
    (forall m, m <> n -> w_objs w' m = w_objs w m) /\
    w_files w' = w_files w /\ w_cerr w' = w_cerr w.
Proof.
  intros DB E n w q H HC. unfold cencalvm_destroyQuery. rewrite H. unfold destroy.
  assert (K : forall x, x = q_db q \/ x = q_dbExt q -> match x with Some d => e_close E d | None => true end = true).
  { intros [d|] Hx; [|reflexivity]. apply HC. destruct Hx as [<-|<-]; [left|right]; reflexivity. }
  rewrite (K (q_db q) (or_introl eq_refl)), (K (q_dbExt q) (or_intror eq_refl)).
  cbn [andb bind]. eexists. split; [reflexivity|]. cbn. split; [apply upd_same|].
  split; [intros m Hm; apply upd_other; exact Hm | repeat split].
Qed.
Print Assumptions C33_destroy.
(** A handle that was destroyed must not be used. *)
Theorem C33_use_after_destroy : forall DB (c : ccall DB) n (w : world DB), w_objs w n = None ->
  exists why, c_call c (QueryPtr n) (HandlerPtr n) w = UB why.
Proof. intros DB c n w H. destruct c; cbn; rewrite H; eexists; reflexivity. Qed.
Print Assumptions C33_use_after_destroy.

(** C48: objects do not interfere.  In any interleaving of calls on several
    objects, an object ends in the state, and its calls give the results, that the
    same calls give when they are the only ones (in any world that has the object
    in its initial state). *)
Theorem C48_objects_independent : forall DB (p : list (nat * pcall)) (w w' : world DB) rs n q,
  p_run p w = Val (w', rs) -> w_objs w n = Some q ->
  exists q', w_objs w' n = Some q' /\
    forall w2, w_objs w2 n = Some q ->
    exists w2', p_run (of_object n p) w2 = Val (w2', of_object n rs) /\ w_objs w2' n = Some q'.
Proof. intros. eapply p_run_local; eassumption. Qed.
Print Assumptions C48_objects_independent.

(** C34: the Fortran functions store the code of the C function; a null pointer for
    the code trips an assertion. *)
Theorem C34_forwards : forall DB (E : env DB) wr n r s f l vals lon lat elev h (w : world DB),
  destroyquery_f true E h w = cencalvm_destroyQuery E h w /\
  open_f true E h w = cencalvm_open E h w /\
  close_f true E h w = cencalvm_close E h w /\
  querytype_f true n h w = cencalvm_queryType n h w /\
  queryres_f true r h w = cencalvm_queryRes r h w /\
  cachesize_f true s h w = cencalvm_cacheSize s h w /\
  cachesizeext_f true s h w = cencalvm_cacheSizeExt s h w /\
  squash_f true f l h w = cencalvm_squash f l h w /\
  query_f true E vals lon lat elev h w = cencalvm_query E (Some vals) lon lat elev h w /\
  errorhandler_f true h w = cencalvm_errorHandler h w /\
  error_loggingon_f true wr n h w = cencalvm_error_loggingOn wr n h w /\
  error_resetstatus_f true h w = cencalvm_error_resetStatus h w /\
  error_status_f true h w = cencalvm_error_status h w.
Proof. intros. repeat split. Qed.
Print Assumptions C34_forwards.
Theorem C34_null_code_aborts : forall DB (E : env DB) wr mem len n r s f l vals lon lat elev h (w : world DB),
  destroyquery_f false E h w = Abort /\ open_f false E h w = Abort /\ close_f false E h w = Abort /\
  querytype_f false n h w = Abort /\ queryres_f false r h w = Abort /\
  filename_f false mem len h w = Abort /\ cachesize_f false s h w = Abort /\
  filenameext_f false mem len h w = Abort /\ cachesizeext_f false s h w = Abort /\
  squash_f false f l h w = Abort /\ query_f false E vals lon lat elev h w = Abort /\
  errorhandler_f false h w = Abort /\ error_logfilename_f false wr mem len h w = Abort /\
  error_loggingon_f false wr n h w = Abort /\ error_resetstatus_f false h w = Abort /\
  error_status_f false h w = Abort /\ error_message_f false true len h w = Abort.
Proof. intros. repeat split. Qed.
Print Assumptions C34_null_code_aborts.

(** A length that is not positive, or a null buffer, ends the program; only the name of the
    log file is taken without looking at the length. *)
Theorem C34_bad_length_aborts : forall DB wr mem len len' h (w : world DB), len <= 0 ->
  filename_f true mem len h w = Abort /\ filenameext_f true mem len h w = Abort /\
  error_message_f true true len h w = Abort /\ error_message_f true false len' h w = Abort /\
  error_logfilename_f true wr mem len h w = error_logfilename_f true wr mem len' h w.
Proof.
  intros DB wr mem len len' h w H. unfold filename_f, filenameext_f, error_message_f. apply Z.ltb_ge in H. rewrite H. repeat split.
Qed.
Print Assumptions C34_bad_length_aborts.
(** A file name: leading white space is skipped, and the name ends at the next
    white space or at the NUL, whatever length is passed. *)
Theorem C34_file_name : forall DB wr b name t rest len h (w : world DB),
  blanks b -> word name -> (t = ""%string \/ exists c t', t = String c t' /\ blank c) ->
  (forall c, In c (list_ascii_of_string (b ++ name ++ t)) -> nat_of_ascii c <> 0%nat) -> 0 < len ->
  let mem := (list_ascii_of_string (b ++ name ++ t) ++ ascii_of_nat 0 :: rest)%list in
  filename_f true mem len h w = cencalvm_filename name h w /\
  filenameext_f true mem len h w = cencalvm_filenameExt name h w /\
  error_logfilename_f true wr mem len h w = cencalvm_error_logFilename wr name h w.
Proof.
  intros DB wr b name t rest len h w Hb Hn Ht Hz Hl mem.
  pose proof (first_word_found b name t rest Hb Hn Ht Hz) as F. fold mem in F.
  unfold filename_f, filenameext_f, error_logfilename_f.
  apply Z.ltb_lt in Hl. rewrite Hl, F. repeat split.
Qed.
Print Assumptions C34_file_name.
(** A blank name is the empty name. *)
Theorem C34_blank_name : forall DB b rest len h (w : world DB), blanks b -> 0 < len ->
  let mem := (list_ascii_of_string b ++ ascii_of_nat 0 :: rest)%list in
  filename_f true mem len h w = cencalvm_filename "" h w /\
  filenameext_f true mem len h w = cencalvm_filenameExt "" h w.
Proof.
  intros DB b rest len h w Hb Hl mem. pose proof (first_word_blank b rest Hb) as F. fold mem in F.
  unfold filename_f, filenameext_f. apply Z.ltb_lt in Hl. rewrite Hl, F. repeat split.
Qed.
Print Assumptions C34_blank_name.
(** Fortran strings have no NUL at their end: if none follows in memory the code
    reads beyond it. *)
Theorem C34_unterminated_name : forall DB wr mem len h (w : world DB),
  (forall c, In c mem -> nat_of_ascii c <> 0%nat) -> 0 < len ->
  exists why, filename_f true mem len h w = UB why /\ filenameext_f true mem len h w = UB why /\
              error_logfilename_f true wr mem len h w = UB why.
Proof.
  intros DB wr mem len h w Hm Hl. exists "unterminated string"%string.
  unfold filename_f, filenameext_f, error_logfilename_f, first_word.
  apply Z.ltb_lt in Hl. rewrite Hl, c_string_none by exact Hm. repeat split.
Qed.
Print Assumptions C34_unterminated_name.

(** The message: exactly [len] characters, the message cut or padded with NULs (so
    no NUL at all when the message has [len] characters or more); code 0. *)
Theorem C34_message : forall DB n (w : world DB) q len, w_objs w n = Some q -> 0 < len ->
  exists buf, error_message_f true true len (HandlerPtr n) w = Val (w, buf, 0) /\
    Z.of_nat (List.length buf) = len /\
    let m := list_ascii_of_string (eh_msg (q_err q)) in
    buf = (firstn (Z.to_nat len) m ++ repeat (ascii_of_nat 0) (Z.to_nat len - List.length m))%list.
Proof.
  intros DB n w q len H Hl. unfold error_message_f, cencalvm_error_message. rewrite H.
  pose proof Hl as Hb. apply Z.ltb_lt in Hb. rewrite Hb. cbn [assert_ bind].
  eexists. split; [reflexivity|]. split; [rewrite strncpy_length; apply Z2Nat.id; apply Z.lt_le_incl, Hl|].
  cbv zeta. rewrite strncpy_spec. do 3 f_equal.
  induction (eh_msg (q_err q)) as [|c s IH]; [reflexivity|]. cbn. rewrite IH. reflexivity.
Qed.
Print Assumptions C34_message.
(** With a null handle it reads from a null pointer. *)
Theorem C34_message_null_undefined : forall DB len (w : world DB), 0 < len ->
  exists why, error_message_f true true len Null w = UB why.
Proof.
  intros DB len w Hl. unfold error_message_f. apply Z.ltb_lt in Hl. rewrite Hl. eexists. reflexivity.
Qed.
Print Assumptions C34_message_null_undefined.

(** Examples: a world with two objects, the first of which has an open database. *)
Definition empty_world : world contents := mkWorld (fun _ => None) 0 (fun _ => None) [].
Definition two_objects : world contents :=
  fst (cencalvm_createQuery toy (fst (cencalvm_createQuery toy empty_world))).
Definition after (o : outcome (world contents * Z)) (w : world contents) : world contents :=
  match o with Val (w', _) => w' | _ => w end.
Definition opened : world contents :=
  let w := after (cencalvm_filename "detailed" (QueryPtr 0) two_objects) two_objects in
  after (cencalvm_open toy_env (QueryPtr 0) w) w.
Definition shown (o : outcome (world contents * Z)) : option (Z * list string * option contents) :=
  match o with
  | Val (w, z) => Some (z, w_cerr w, match w_objs w 0%nat with Some q => q_db q | None => None end)
  | _ => None
  end.
Example C33_example_open : shown (cencalvm_queryType 1 (QueryPtr 0) opened) = Some (0, [], Some toy_db).
Proof. vm_compute. reflexivity. Qed.
Example C33_example_missing :
  shown (cencalvm_open toy_env (QueryPtr 1) (after (cencalvm_filename "missing" (QueryPtr 1) opened) opened)) =
  Some (2, [], Some toy_db).
Proof. vm_compute. reflexivity. Qed.
Example C33_example_null : shown (cencalvm_filenameExt "extended" Null opened) =
  Some (2, ["Null handle for query manager in call to filename()."%string], Some toy_db).
Proof. vm_compute. reflexivity. Qed.
Example C33_example_query :
  match cencalvm_query toy_env (Some (repeat f_zero 9)) toy_x toy_y elev_a (QueryPtr 0) opened with
  | Val (_, z, Some vs) => (z =? 0) && (List.length vs =? 9)%nat &&
      negb (existsb (fun v => SFltb v f_zero) (firstn 3 vs))
  | _ => false
  end = true.
Proof. vm_compute. reflexivity. Qed.
Example C33_example_destroy : exists q, w_objs opened 0%nat = Some q /\ q_db q = Some toy_db /\
  forall d, q_db q = Some d \/ q_dbExt q = Some d -> e_close toy_env d = true.
Proof. eexists. split; [reflexivity|]. split; [reflexivity|]. intros; reflexivity. Qed.
Example C33_example_use_after_destroy :
  let w := after (cencalvm_destroyQuery toy_env (QueryPtr 0) opened) opened in
  w_objs w 0%nat = None /\ exists q, w_objs w 1%nat = Some q.
Proof. split; [reflexivity|]. eexists. reflexivity. Qed.

(** Two objects used in turn. *)
Definition in_turn : list (nat * pcall) :=
  [(0%nat, PCall (CName "detailed")); (1%nat, PCall (CName "missing")); (1%nat, PCall (COpen toy_env));
   (0%nat, PCall (COpen toy_env)); (1%nat, PMessage); (0%nat, PStatus); (1%nat, PStatus)].
Example C48_example : match p_run in_turn two_objects with
  | Val (_, rs) => rs
  | _ => []
  end = [(0%nat, Code 0); (1%nat, Code 0); (1%nat, Code 2); (0%nat, Code 0);
         (1%nat, Text (Some "Could not open the etree database 'missing' for querying."%string));
         (0%nat, Code 0); (1%nat, Code 2)].
Proof. vm_compute. reflexivity. Qed.

Definition chars (s : string) := list_ascii_of_string s.
(** "my file" is cut to "my" although its length is given. *)
Example C34_example_name :
  match filename_f true (chars " my file" ++ [ascii_of_nat 0])%list 8 (QueryPtr 0) opened with
  | Val (w, _) => match w_objs w 0%nat with Some q => q_name q | None => ""%string end
  | _ => ""%string
  end = "my"%string.
Proof. vm_compute. reflexivity. Qed.
Example C34_example_message :
  let w := after (cencalvm_filename "missing" (QueryPtr 1) opened) opened in
  let w' := after (cencalvm_open toy_env (QueryPtr 1) w) w in
  match error_message_f true true 9 (HandlerPtr 1) w' with Val (_, b, _) => b | _ => [] end = chars "Could not" /\
  match error_message_f true true 9 (HandlerPtr 0) w' with Val (_, b, _) => b | _ => [] end = repeat (ascii_of_nat 0) 9.
Proof. split; vm_compute; reflexivity. Qed.
