(** C25-C27, C29-C32, C47: histories of calls on a query object. *)
From Coq Require Import ZArith Bool Lia String List.
From Verif Require Import Outcome Float Payload Addr SpecOct SpecGeom Geom ErrorHandler VMQuery SpecQuery SpecHist
  QueryFacts QueryProof QuerySurface QueryHist QueryIndep QueryMain ToyLib ToyDb PropQuery.
Import ListNotations.
Open Scope Z_scope.

(** A history is a list of calls; [run h (q, fs) = Val (q', fs')] says that all the
    calls return.  Each call that uses the storage library carries its own behaviour
    of that library. *)

(** C25. After an unknown name the status is ERROR with a message about an unknown
    name; until names are selected again no query returns: each one reads a selector
    that was never written, or fails an assertion before. *)
Theorem C25_unknown_name_reported : forall DB strs (q : qstate DB),
  Exists (fun s => forall n, ~ names_value s n) strs ->
  exists q', set_queryVals (Some strs) q = Val q' /\ eh_status (q_err q') = ERROR /\
    exists bad, In bad strs /\ (forall n, ~ names_value bad n) /\
      eh_msg (q_err q') = ("Value name '" ++ bad ++ "' does not match any of the values in the velocity database." ++ newline ++
        "Values in database are:" ++ newline ++
        "  Vp, Vs, Density, Qp, Qs, DepthFreeSurf, FaultBlock, Zone, elevation.")%string.
Proof.
  intros DB strs q H. destruct (queryVals_unknown strs q H) as (q' & A & _ & B & bad & C & D & E).
  exists q'. split; [exact A|]. split; [exact B|]. exists bad. split; [exact C|]. split; [exact D|]. exact E.
Qed.
Print Assumptions C25_unknown_name_reported.
Theorem C25_poisoned : forall DB strs h (q q' : qstate DB) fs fs' E vals lon lat elev,
  Exists (fun s => forall n, ~ names_value s n) strs ->
  run (QueryVals (Some strs) :: h) (q, fs) = Val (q', fs') ->
  (forall c, In c h -> sets_names c = None) ->
  query E q' fs' vals lon lat elev = Abort \/ exists why, query E q' fs' vals lon lat elev = UB why.
Proof.
  intros DB strs h q q' fs fs' E vals lon lat elev H R N. apply query_poison.
  destruct (queryVals_unknown strs q H) as (q1 & A & B & _).
  cbn [run step] in R. rewrite A in R. cbn [bind] in R.
  pose proof (tracks_run q_vals sets_sel track_vals h q1 fs q' fs' R) as T.
  assert (L : last_given sets_sel h (q_vals q1) = q_vals q1).
  { clear R T. induction h as [|c h IH]; [reflexivity|]. rewrite last_given_cons.
    replace (sets_sel c) with (@None (list (option Z))) by (unfold sets_sel; rewrite (N c (or_introl eq_refl)); reflexivity).
    apply IH. intros c' I. apply N. right. exact I. }
  rewrite T, L. exact B.
Qed.
Print Assumptions C25_poisoned.

(** C26. After every history each setting is the last valid one given, and nothing else
    changes it. *)
Theorem C26_settings : forall DB h (q q' : qstate DB) fs fs', run h (q, fs) = Val (q', fs') ->
  q_cache q' = last_given sets_cache h (q_cache q) /\
  q_cacheExt q' = last_given sets_cacheExt h (q_cacheExt q) /\
  q_res q' = last_given sets_res h (q_res q) /\
  q_type q' = last_given sets_type h (q_type q) /\
  q_name q' = last_given sets_name h (q_name q) /\
  q_nameExt q' = last_given sets_nameExt h (q_nameExt q) /\
  (q_squash q', q_limit q') = last_given sets_squash h (q_squash q, q_limit q) /\
  q_geom q' = last_given sets_geometry h (q_geom q).
Proof.
  intros DB h q q' fs fs' R.
  split; [exact (tracks_run _ _ track_cache h q fs q' fs' R)|].
  split; [exact (tracks_run _ _ track_cacheExt h q fs q' fs' R)|].
  split; [exact (tracks_run _ _ track_res h q fs q' fs' R)|].
  split; [exact (tracks_run _ _ track_type h q fs q' fs' R)|].
  split; [exact (tracks_run _ _ track_name h q fs q' fs' R)|].
  split; [exact (tracks_run _ _ track_nameExt h q fs q' fs' R)|].
  split; [exact (tracks_run _ _ track_squash h q fs q' fs' R)|].
  exact (tracks_run _ _ track_geometry h q fs q' fs' R).
Qed.
Print Assumptions C26_settings.

(** C26. The names: the last non-empty list given decides what is returned. *)
Theorem C26_names : forall DB h (q q' : qstate DB) fs fs' strs names,
  run h (q, fs) = Val (q', fs') -> names <> [] -> Forall2 names_value strs names ->
  (forall d, last_given (fun c => match sets_names c with Some s => Some (Some s) | None => None end) h d = Some strs) ->
  selected q' names.
Proof.
  intros DB h q q' fs fs' strs names R NE F L.
  pose proof (tracks_run q_vals sets_sel track_vals h q fs q' fs' R) as T. unfold selected.
  assert (M : map selector strs = map (fun n => Some (code n)) names).
  { clear - F. induction F as [|s n ss ns Hs Hss IH]; [reflexivity|]. cbn [map]. rewrite IH, (selector_name s n Hs). reflexivity. }
  rewrite T, <- M. clear R T M F.
  assert (G : forall h d, match last_given (fun c : call DB => match sets_names c with Some s => Some (Some s) | None => None end) h None with
    | Some s => last_given sets_sel h d = map selector s | None => last_given sets_sel h d = d end).
  { clear. induction h as [|c h IH] using rev_ind; intros d; [reflexivity|]. rewrite !last_given_snoc.
    unfold sets_sel at 1 3. destruct (sets_names c); [reflexivity | apply IH]. }
  specialize (G h (q_vals q)). rewrite (L None) in G. exact G.
Qed.
Print Assumptions C26_names.

(** C26. An unknown query type is reported. *)
Theorem C26_unknown_type : forall DB n (q : qstate DB), (n < 0 \/ 2 < n) ->
  set_queryType n q = with_err q (q_err (set_queryType n q)) /\
  eh_status (q_err (set_queryType n q)) = ERROR.
Proof.
  intros DB n q H. unfold set_queryType. rewrite qtype_of_eq.
  replace (match n with 0 => Some MAXRES | 1 => Some FIXEDRES | 2 => Some WAVERES | _ => None end) with (@None qtype).
  - split; [destruct q|]; reflexivity.
  - destruct n as [|[p|[p|p|]|]|p]; try reflexivity; lia.
Qed.
Print Assumptions C26_unknown_type.

(** C27. Opening. *)
Theorem C27_open_again : forall DB (E : env DB) q d,
  q_db q = Some d -> (q_nameExt q = ""%string \/ exists x, q_dbExt q = Some x) -> open E q = Val q.
Proof. intros DB. exact open_again. Qed.
Print Assumptions C27_open_again.

(** After every history of calls on a new object, opening returns; each database that was
    closed is open exactly if the library could open it; a failure sets ERROR with a
    message naming the file; nothing else changes. *)
Theorem C27_open : forall DB (E : env DB) h g fs0 q fs, run h (q_new g, fs0) = Val (q, fs) ->
  let d := opened E (q_db q) (q_name q) (q_cache q) in
  let x := if String.eqb (q_nameExt q) "" then q_dbExt q else opened E (q_dbExt q) (q_nameExt q) (q_cacheExt q) in
  exists e, open E q = Val (set_db q d x e) /\
    (d <> None -> (q_nameExt q = ""%string \/ x <> None) -> e = q_err q) /\
    (d = None -> (q_nameExt q = ""%string \/ x <> None) ->
       eh_status e = ERROR /\ eh_msg e = ("Could not open the etree database '" ++ q_name q ++ "' for querying.")%string) /\
    (q_nameExt q <> ""%string -> x = None -> eh_status e = ERROR /\
       eh_msg e = ("Could not open the etree (regional) database '" ++ q_nameExt q ++ "' for querying.")%string).
Proof.
  intros DB E h g fs0 q fs R d x.
  assert (P : forall (f : call DB -> option Z), (forall c v, f c = Some v -> 0 < v) -> forall h a, 0 < a -> 0 < last_given f h a).
  { intros f Hf h'. induction h' as [|c h' IH] using rev_ind; intros a Ha; [exact Ha|].
    rewrite last_given_snoc. destruct (f c) as [v|] eqn:C; [exact (Hf c v C) | apply IH, Ha]. }
  assert (C1 : 0 < q_cache q).
  { rewrite (tracks_run _ _ track_cache h _ _ _ _ R). apply P; [|cbn; lia].
    intros [] v; cbn [sets_cache]; try discriminate. destruct (0 <? s) eqn:S; [|discriminate].
    intros V. injection V as <-. apply Z.ltb_lt, S. }
  assert (C2 : 0 < q_cacheExt q).
  { rewrite (tracks_run _ _ track_cacheExt h _ _ _ _ R). apply P; [|cbn; lia].
    intros [] v; cbn [sets_cacheExt]; try discriminate. destruct (0 <? s) eqn:S; [|discriminate].
    intros V. injection V as <-. apply Z.ltb_lt, S. }
  destruct (open_spec E q C1 C2) as (e & A & _ & B & C & D). exists e. split; [exact A|]. split; [exact B|]. split; [|exact D].
  intros N M. rewrite (C N M). split; reflexivity.
Qed.
Print Assumptions C27_open.

(** C27. Closing: both databases are closed even if closing fails; only the error handler
    can change otherwise; a failure sets ERROR (the message names the detailed database
    in both cases); closing again changes nothing. *)
Theorem C27_close : forall DB (E E' : env DB) q,
  close E q = set_db q None None (q_err (close E q)) /\
  ((forall d, q_db q = Some d \/ q_dbExt q = Some d -> e_close E d = true) -> q_err (close E q) = q_err q) /\
  (forall d, (q_db q = Some d \/ q_dbExt q = Some d) -> e_close E d = false ->
     eh_status (q_err (close E q)) = ERROR /\
     eh_msg (q_err (close E q)) = ("Could not close the etree database '" ++ q_name q ++ "'.")%string) /\
  close E' (close E q) = close E q.
Proof.
  intros DB E E' q. destruct (close_spec E q) as (_ & _ & A & B). split; [exact A|]. split; [exact B|].
  split; [exact (close_failed E q) | apply close_again].
Qed.
Print Assumptions C27_close.

(** C29. A query changes no setting and no open database, and no file except that it may
    append one line to the log; the error handler only gets reports. *)
Theorem C29_read_only : forall DB (E : env DB) q fs vals lon lat elev q' fs' vs,
  query E q fs vals lon lat elev = Val (q', fs', vs) ->
  q' = with_err q (q_err q') /\
  eh_stream (q_err q') = eh_stream (q_err q) /\ eh_logname (q_err q') = eh_logname (q_err q) /\
  (fs' = fs \/ fs' = log_line (q_err q) (no_data_line E lon lat elev) fs).
Proof.
  intros DB E q fs vals lon lat elev q' fs' vs H. destruct (query_effects E _ _ _ _ _ _ _ _ _ H) as (A & B & C & _).
  destruct (after_log _ _ B) as [S L]. auto.
Qed.
Print Assumptions C29_read_only.

(** Selectors written by any history are known ones. *)
Lemma known_codes_run {DB} h g (q : qstate DB) fs0 fs : run h (q_new g, fs0) = Val (q, fs) -> known_codes (q_vals q).
Proof.
  intros R. rewrite (tracks_run q_vals sets_sel track_vals h _ _ _ _ R). clear R.
  induction h as [|c h IH] using rev_ind.
  - intros k I. cbn [q_new q_vals last_given rev flat_map] in I. apply in_map_iff in I. destruct I as (i & Q & I).
    injection Q as <-. apply in_seq in I. lia.
  - rewrite last_given_snoc. unfold sets_sel at 1. destruct (sets_names c) as [ns|]; [|exact IH].
    intros k I. apply in_map_iff in I. destruct I as (s & Q & _). exact (selector_range s k Q).
Qed.

(** C29. The values a query returns (or its failure) depend only on settings, open
    databases and location: two objects with these in common, whatever their
    histories, give the same values. *)
Definition same_settings {DB} (q q' : qstate DB) : Prop := q' = with_err q (q_err q').
Theorem C29_history_independent : forall DB (E : env DB) h g fs0 q fs q' fs' olds olds' lon lat elev,
  run h (q_new g, fs0) = Val (q, fs) -> same_settings q q' -> List.length olds = List.length olds' ->
  outcome_values (query E q fs (Some olds) lon lat elev) = outcome_values (query E q' fs' (Some olds') lon lat elev).
Proof.
  intros DB E h g fs0 q fs q' fs' olds olds' lon lat elev R S L. rewrite !outcome_values_eq, S.
  apply query_indep; [|exact L]. exact (known_codes_run h g q fs0 fs R).
Qed.
Print Assumptions C29_history_independent.

(** C29. In particular earlier queries, and calls of the error handler, make no difference. *)
Definition harmless {DB} (c : call DB) : Prop := match c with Query _ _ _ _ _ | Handler _ _ => True | _ => False end.
Theorem C29_earlier_queries : forall DB (E : env DB) h g fs0 q fs h' q' fs' olds lon lat elev,
  run h (q_new g, fs0) = Val (q, fs) -> Forall harmless h' -> run h' (q, fs) = Val (q', fs') ->
  outcome_values (query E q' fs' (Some olds) lon lat elev) = outcome_values (query E q fs (Some olds) lon lat elev).
Proof.
  intros DB E h g fs0 q fs h' q' fs' olds lon lat elev R F R'. symmetry.
  apply (C29_history_independent DB E h g fs0 q fs q' fs' olds olds lon lat elev R); [|reflexivity].
  clear R. revert q fs R'. induction F as [|c h' Hc Hh IH]; intros q fs R'.
  - injection R' as <- _. unfold same_settings. destruct q; reflexivity.
  - cbn [run] in R'. apply bind_val in R'. destruct R' as ([q1 fs1] & R1 & R2).
    assert (S : same_settings q q1).
    { destruct c; try contradiction; cbn [step] in R1.
      - destruct (hstep writable (q_err q, fs) c) as [e fs2]. injection R1 as <- _. destruct q; reflexivity.
      - apply bind_val in R1. destruct R1 as ([[q2 fs2] vs] & Q & R1). injection R1 as <- _.
        exact (proj1 (query_effects E0 _ _ _ _ _ _ _ _ _ Q)). }
    specialize (IH q1 fs1 R2). unfold same_settings in *. rewrite IH, S. destruct q; reflexivity.
Qed.
Print Assumptions C29_earlier_queries.

(** C30. The status and message of an error handler are those of the last error, warning or
    reset; nothing is sticky. *)
Theorem C30_last_event : forall writable h fs,
  let e := fst (hrun writable h (eh_new, fs)) in
  (eh_status e, eh_msg e) = last_given report h (OK, ""%string).
Proof. intros writable h fs. exact (handler_last writable h (eh_new, fs)). Qed.
Print Assumptions C30_last_event.
(** A query acts on the handler as a list of errors and warnings; it never resets. *)
Theorem C30_query_reports : forall DB (E : env DB) q fs vals lon lat elev q' fs' vs,
  query E q fs vals lon lat elev = Val (q', fs', vs) ->
  exists h, Forall (fun c => match c with HError _ | HWarning _ => True | _ => False end) h /\
    (eh_status (q_err q'), eh_msg (q_err q')) = last_given report h (eh_status (q_err q), eh_msg (q_err q)).
Proof.
  intros DB E q fs vals lon lat elev q' fs' vs H. destruct (query_effects E _ _ _ _ _ _ _ _ _ H) as (_ & (h & F & Q) & _).
  exists h. split; [exact F|]. rewrite Q. exact (handler_last _ h (q_err q, fun _ => None)).
Qed.
Print Assumptions C30_query_reports.
(** An error before a query outside the data is hidden: the status becomes WARNING. *)
Theorem C30_error_hidden : forall DB (E : env DB) m q fs lon lat elev w names olds db ext r,
  setup E q db ext -> resolution_of q r -> plain q lon lat elev w names olds -> Forall material names ->
  place_inside w -> nothing db 31 w -> (forall dbx, ext = Some dbx -> nothing dbx 31 w) ->
  exists q' fs', run [Handler (fun _ => true) (HError m); Query E (Some olds) lon lat elev] (q, fs) = Val (q', fs') /\
    eh_status (q_err q') = WARNING.
Proof.
  intros DB E m q fs lon lat elev w names olds db ext r HS HR HP HM HI N NX.
  destruct (C22_no_data DB E (with_err q (eh_error m (q_err q))) fs lon lat elev w names olds db ext r HS HR HP HM
    (or_introl (conj HI (conj N NX)))) as (q' & Q & S & _).
  exists q'. eexists. split; [|exact S]. cbn [run step hstep bind]. eapply eq_trans; [|reflexivity]. unfold step. cbn [hstep bind]. rewrite Q. reflexivity.
Qed.
Print Assumptions C30_error_hidden.

(** C31. The log file: after its name was set, the file holds exactly the messages logged
    while logging was on, in order, and no other file changes.  Before any name is
    set no file changes. *)
Theorem C31_log_contents : forall writable n, writable n = true -> n <> "/dev/null"%string -> n <> ""%string ->
  forall h0 h s, Forall keeps_file h ->
  snd (hrun writable (h0 ++ HLogFile n :: h) s) n = Some (logged true h) /\
  forall m, m <> n -> snd (hrun writable (h0 ++ HLogFile n :: h) s) m = snd (hrun writable h0 s) m.
Proof. intros writable n Hw Hn He h0 h s. apply log_contents; assumption. Qed.
Print Assumptions C31_log_contents.
Theorem C31_no_log : forall writable h fs, Forall keeps_file h -> snd (hrun writable h (eh_new, fs)) = fs.
Proof. intros writable h fs F. apply log_none; [exact F | reflexivity | reflexivity]. Qed.
Print Assumptions C31_no_log.

(** C32. If the projection library fails for the location, the query reads a payload that
    was never written. *)
Theorem C32_projection_failure : forall DB (E : env DB) q fs olds lon lat elev d r,
  q_db q = Some d -> resolution_of q r -> m_project (q_geom q) lon lat = None ->
  List.length olds = List.length (q_vals q) ->
  query E q fs (Some olds) lon lat elev = UB "uninitialised payload read"%string.
Proof. intros DB E q fs olds lon lat elev d r H1 H2 H3 H4. apply (query_projection E q fs olds lon lat elev d r H1 H2 H3 H4). Qed.
Print Assumptions C32_projection_failure.

(** C47. No exception escapes a query. *)
Theorem C47_no_exception : forall DB (E : env DB) q fs vals lon lat elev m, query E q fs vals lon lat elev <> Throw m.
Proof. intros DB. exact query_no_throw. Qed.
Print Assumptions C47_no_exception.

(** ** The hypotheses are met *)
Definition hist : list (call contents) :=
  [Filename "detailed"; FilenameExt "extended"; CacheSize 0; CacheSize 64; QueryRes f_zero; QueryRes (i2f64 25);
   QueryType 7; QueryType 1; QueryVals (Some ["VS"; "zone"]%string); QueryVals (Some []);
   Handler (fun _ => true) (HLogFile "log"); Open toy_env; Open toy_env;
   Query toy_env (Some [f_zero; f_zero]) toy_x toy_y elev_a; Squash true f_zero;
   Query toy_env (Some [f_zero; f_zero]) toy_x toy_y (i2f64 5000); Close toy_env].
(** What is seen of the object and of the file "log" after a history. *)
Definition seen (o : outcome (qstate contents * files)) :=
  match o with
  | Val (q, fs) => Some (q_cache q, q_type q, q_res q, q_vals q, q_squash q, eh_status (q_err q), eh_msg (q_err q),
      q_db q, q_dbExt q, fs "log"%string)
  | _ => None
  end.
Example C26_example : seen (run hist (q_new toy, no_files)) =
  Some (64, FIXEDRES, i2f64 25, [Some 1; Some 7], true, WARNING, no_data_message toy_env toy_x toy_y (i2f64 5000),
    None, None, Some ("#, #, #, No data" ++ newline)%string).
Proof. vm_compute. reflexivity. Qed.
Example C25_example : Exists (fun s => forall n, ~ names_value s n) ["Vs"; "porosity"]%string.
Proof. right. left. intros n H. unfold names_value in H. destruct n; vm_compute in H; discriminate H. Qed.
Example C25_example_poisoned :
  match run [QueryVals (Some ["Vs"; "porosity"]%string); Filename "detailed"; Open toy_env; Handler (fun _ => true) HReset]
      (q_new toy, no_files) with
  | Val (q, fs) => outcome_values (query toy_env q fs (Some [f_zero; f_zero]) toy_x toy_y elev_a)
  | _ => Abort
  end = UB "uninitialised selector read"%string.
Proof. vm_compute. reflexivity. Qed.
Example C27_example : seen (run [Filename "missing"; FilenameExt "extended"; Open toy_env] (q_new toy, no_files)) =
  Some (128, MAXRES, f_zero, q_vals (@q_new contents toy), false, ERROR,
    "Could not open the etree database 'missing' for querying."%string, None, Some ext_db, None).
Proof. vm_compute. reflexivity. Qed.
Example C30_example : let h := [HWarning "a"; HError "b"; HLog "x"; HWarning "c"]%string in
  let e := fst (hrun (fun _ => true) h (eh_new, no_files)) in eh_status e = WARNING /\ eh_msg e = "c"%string.
Proof. split; reflexivity. Qed.
Example C31_example : snd (hrun (fun _ => true)
    ([HLogFile "a"; HLog "0"] ++ HLogFile "b" :: [HLog "1"; HLogging false; HLog "2"; HLogging true; HLog "3"])%list
    (eh_new, no_files)) "b"%string = Some "13"%string.
Proof. reflexivity. Qed.
Example C32_example : m_project toy (i2f64 (2 ^ 40)) toy_y = None.
Proof. vm_compute. reflexivity. Qed.
Example C32_example_query :
  outcome_values (query toy_env (toy_q MAXRES f_zero toy_db None false all_names) no_files (Some four) (i2f64 (2 ^ 40)) toy_y elev_a) =
  UB "uninitialised payload read"%string.
Proof.
  rewrite (C32_projection_failure _ toy_env (toy_q MAXRES f_zero toy_db None false all_names) no_files four
    (i2f64 (2 ^ 40)) toy_y elev_a toy_db Finest eq_refl eq_refl C32_example eq_refl). reflexivity.
Qed.
