(** The calls of the C interface, and the call of the C++ classes each stands for. *)
From Coq Require Import ZArith Bool String List.
From Verif Require Import Outcome Float Payload Addr Geom ErrorHandler VMQuery SpecHist CApi.
Import ListNotations.
Open Scope Z_scope.

Inductive ccall (DB : Type) :=
| COpen (E : env DB) | CClose (E : env DB)
| CType (n : Z) | CRes (r : f64) | CVals (names : option (list string))
| CName (n : string) | CCache (s : Z) | CNameExt (n : string) | CCacheExt (s : Z)
| CSquash (flag : Z) (limit : f64)
| CLogFile (writable : string -> bool) (n : string)
| CLogging (writable : string -> bool) (on : Z)
| CReset.
Arguments COpen {DB}. Arguments CClose {DB}. Arguments CType {DB}. Arguments CRes {DB}.
Arguments CVals {DB}. Arguments CName {DB}. Arguments CCache {DB}. Arguments CNameExt {DB}.
Arguments CCacheExt {DB}. Arguments CSquash {DB}. Arguments CLogFile {DB}. Arguments CLogging {DB}.
Arguments CReset {DB}.

Section Calls.
Context {DB : Type}.

(** The C function; [hq] is the handle of the query object and [hh] that of its
    error handler. *)
Definition c_call (c : ccall DB) (hq hh : ptr) : world DB -> outcome (world DB * Z) :=
  match c with
  | COpen E => cencalvm_open E hq
  | CClose E => cencalvm_close E hq
  | CType n => cencalvm_queryType n hq
  | CRes r => cencalvm_queryRes r hq
  | CVals names => cencalvm_queryVals names hq
  | CName n => cencalvm_filename n hq
  | CCache s => cencalvm_cacheSize s hq
  | CNameExt n => cencalvm_filenameExt n hq
  | CCacheExt s => cencalvm_cacheSizeExt s hq
  | CSquash f l => cencalvm_squash f l hq
  | CLogFile wr n => cencalvm_error_logFilename wr n hh
  | CLogging wr on => cencalvm_error_loggingOn wr on hh
  | CReset => cencalvm_error_resetStatus hh
  end.

(** The C++ call. *)
Definition method (c : ccall DB) : call DB :=
  match c with
  | COpen E => Open E | CClose E => Close E
  | CType n => QueryType n | CRes r => QueryRes r | CVals names => QueryVals names
  | CName n => Filename n | CCache s => CacheSize s
  | CNameExt n => FilenameExt n | CCacheExt s => CacheSizeExt s
  | CSquash f l => Squash (negb (f =? 0)) l
  | CLogFile wr n => Handler wr (HLogFile n)
  | CLogging wr on => Handler wr (HLogging (negb (on =? 0)))
  | CReset => Handler (fun _ => true) HReset
  end.
(** Calls on the error handler return 0, or 1 for a null handle; the others the
    status after the call, or 2. *)
Definition on_errors (c : ccall DB) : bool :=
  match c with CLogFile _ _ | CLogging _ _ | CReset => true | _ => false end.
Definition code (c : ccall DB) (q : qstate DB) : Z :=
  if on_errors c then 0
  else match eh_status (q_err q) with OK => 0 | WARNING => 1 | ERROR => 2 end.

(** The function a null handle is reported for: itself, but the names of the two
    functions for the extended database lack their ending. *)
Definition called (c : ccall DB) : string :=
  match c with
  | COpen _ => "open" | CClose _ => "close" | CType _ => "queryType" | CRes _ => "queryRes"
  | CVals _ => "queryVals" | CName _ | CNameExt _ => "filename" | CCache _ | CCacheExt _ => "cacheSize"
  | CSquash _ _ => "squash" | CLogFile _ _ => "logFilename" | CLogging _ _ => "loggingOn"
  | CReset => "resetStatus"
  end.

(** Object [n] has become [q] and the log files [fs]; nothing else has changed. *)
Definition only_changed (w w' : world DB) (n : nat) (q : qstate DB) (fs : files) : Prop :=
  w_objs w' n = Some q /\ (forall m, m <> n -> w_objs w' m = w_objs w m) /\
  w_next w' = w_next w /\ w_files w' = fs /\ w_cerr w' = w_cerr w.
(** Only a line was printed. *)
Definition only_printed (w w' : world DB) (line : string) : Prop :=
  (forall m, w_objs w' m = w_objs w m) /\ w_next w' = w_next w /\ w_files w' = w_files w /\
  w_cerr w' = (w_cerr w ++ [line])%list.

(** A program: calls on several objects (and queries), and their results. *)
Inductive pcall :=
| PCall (c : ccall DB)
| PQuery (E : env DB) (vals : option (list f64)) (lon lat elev : f64)
| PStatus | PMessage.
Inductive result := Code (z : Z) | Values (z : Z) (vs : option (list f64)) | Text (s : option string).
Definition p_call (c : pcall) (n : nat) (w : world DB) : outcome (world DB * result) :=
  match c with
  | PCall c => let* (w', z) := c_call c (QueryPtr n) (HandlerPtr n) w in Val (w', Code z)
  | PQuery E vals lon lat elev =>
      let* (w', z, vs) := cencalvm_query E vals lon lat elev (QueryPtr n) w in Val (w', Values z vs)
  | PStatus => let* (w', z) := cencalvm_error_status (HandlerPtr n) w in Val (w', Code z)
  | PMessage => let* (w', s) := cencalvm_error_message (HandlerPtr n) w in Val (w', Text s)
  end.
Fixpoint p_run (p : list (nat * pcall)) (w : world DB) : outcome (world DB * list (nat * result)) :=
  match p with
  | [] => Val (w, [])
  | (n, c) :: p =>
      let* (w1, r) := p_call c n w in
      let* (w2, rs) := p_run p w1 in
      Val (w2, (n, r) :: rs)
  end.
Definition of_object {A} (n : nat) (l : list (nat * A)) : list (nat * A) :=
  filter (fun x => Nat.eqb (fst x) n) l.
End Calls.
