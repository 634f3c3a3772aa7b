(** Histories of calls on an error handler and on a query object, and what a user
    expects of them. *)
From Coq Require Import ZArith Bool String Ascii List.
From Verif Require Import Outcome Float Payload Addr Geom ErrorHandler VMQuery.
Import ListNotations.
Open Scope Z_scope.

(** ** Error handler *)
Inductive hcall :=
| HError (m : string) | HWarning (m : string) | HReset
| HLogFile (n : string) | HLogging (on : bool) | HLog (m : string).
Definition hstep (writable : string -> bool) (s : errh * files) (c : hcall) : errh * files :=
  let '(e, fs) := s in
  match c with
  | HError m => (eh_error m e, fs)
  | HWarning m => (eh_warning m e, fs)
  | HReset => (eh_reset e, fs)
  | HLogFile n => eh_logFilename writable n e fs
  | HLogging b => eh_loggingOn writable b e fs
  | HLog m => (e, eh_log m e fs)
  end.
Definition hrun writable (h : list hcall) (s : errh * files) : errh * files := fold_left (hstep writable) h s.

(** Status and message a single call reports, if it reports any. *)
Definition report (c : hcall) : option (status * string) :=
  match c with
  | HError m => Some (ERROR, m) | HWarning m => Some (WARNING, m) | HReset => Some (OK, ""%string)
  | _ => None
  end.
(** The last value given by the calls of a history. *)
Definition last_given {C A} (f : C -> option A) (h : list C) (start : A) : A :=
  match flat_map (fun c => match f c with Some a => [a] | None => [] end) (rev h) with
  | a :: _ => a
  | [] => start
  end.

(** Messages that go to the log, for a history without a change of log file. *)
Fixpoint logged (on : bool) (h : list hcall) : string :=
  match h with
  | [] => ""
  | HLogging b :: h => logged b h
  | HLog m :: h => if on then (m ++ logged on h)%string else logged on h
  | _ :: h => logged on h
  end.
Definition keeps_file (c : hcall) : Prop := match c with HLogFile _ => False | _ => True end.

(** ** Query object *)
Inductive call (DB : Type) :=
| Open (E : env DB) | Close (E : env DB)
| Filename (n : string) | FilenameExt (n : string)
| CacheSize (s : Z) | CacheSizeExt (s : Z)
| QueryRes (r : f64) | QueryType (n : Z) | QueryVals (names : option (list string))
| Squash (on : bool) (limit : f64)
| Geometry (g : option libm)
| Handler (writable : string -> bool) (c : hcall)
| Query (E : env DB) (vals : option (list f64)) (lon lat elev : f64).
Arguments Open {DB}. Arguments Close {DB}. Arguments Filename {DB}. Arguments FilenameExt {DB}.
Arguments CacheSize {DB}. Arguments CacheSizeExt {DB}. Arguments QueryRes {DB}. Arguments QueryType {DB}.
Arguments QueryVals {DB}. Arguments Squash {DB}. Arguments Geometry {DB}. Arguments Handler {DB}. Arguments Query {DB}.

Section Calls.
Context {DB : Type}.
Notation state := (qstate DB * files)%type.

Definition step (s : state) (c : call DB) : outcome state :=
  let '(q, fs) := s in
  match c with
  | Open E => let* q' := open E q in Val (q', fs)
  | Close E => Val (close E q, fs)
  | Filename n => Val (set_filename n q, fs)
  | FilenameExt n => Val (set_filenameExt n q, fs)
  | CacheSize n => Val (set_cacheSize n q, fs)
  | CacheSizeExt n => Val (set_cacheSizeExt n q, fs)
  | QueryRes r => Val (set_queryRes r q, fs)
  | QueryType n => Val (set_queryType n q, fs)
  | QueryVals names => let* q' := set_queryVals names q in Val (q', fs)
  | Squash on l => Val (set_squash on l q, fs)
  | Geometry g => let* q' := geometry g q in Val (q', fs)
  | Handler w h => let '(e, fs') := hstep w (q_err q, fs) h in Val (with_err q e, fs')
  | Query E vals lon lat elev => let* (q', fs', _) := query E q fs vals lon lat elev in Val (q', fs')
  end.
Fixpoint run (h : list (call DB)) (s : state) : outcome state :=
  match h with
  | [] => Val s
  | c :: h => let* s' := step s c in run h s'
  end.

(** The settings a call asks for, when they are valid. *)
Definition sets_cache (c : call DB) := match c with CacheSize s => if 0 <? s then Some s else None | _ => None end.
Definition sets_cacheExt (c : call DB) := match c with CacheSizeExt s => if 0 <? s then Some s else None | _ => None end.
Definition sets_res (c : call DB) := match c with QueryRes r => if flt f_zero r then Some r else None | _ => None end.
Definition sets_type (c : call DB) :=
  match c with
  | QueryType 0 => Some MAXRES | QueryType 1 => Some FIXEDRES | QueryType 2 => Some WAVERES
  | _ => None
  end.
Definition sets_name (c : call DB) := match c with Filename n => Some n | _ => None end.
Definition sets_nameExt (c : call DB) := match c with FilenameExt n => Some n | _ => None end.
Definition sets_squash (c : call DB) := match c with Squash on l => Some (on, l) | _ => None end.
Definition sets_names (c : call DB) :=
  match c with QueryVals (Some (n :: ns)) => Some (n :: ns) | _ => None end.
Definition sets_geometry (c : call DB) := match c with Geometry (Some g) => Some g | _ => None end.
End Calls.
