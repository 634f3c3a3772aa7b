(** Model of libsrc/cencalvm/storage/ErrorHandler.{h,icc,cc}.

    Log files are a map from names to contents.  Simplifications: the content of
    a stream counts as written at once (the buffer of std::ofstream is not
    modelled: contents are those seen after the stream is closed or flushed);
    nobody else writes to the file; writes to an open file do not fail;
    /dev/null can always be opened and discards what is written. *)
From Coq Require Import ZArith Bool List String.
From Verif Require Import Outcome.
Open Scope string_scope.

(** ErrorHandler.h: enum StatusEnum { OK=0, WARNING=1, ERROR=2 } *)
Inductive status := OK | WARNING | ERROR.
Definition status_code (s : status) : Z :=
  match s with OK => 0 | WARNING => 1 | ERROR => 2 end%Z.

Definition files := string -> option string.
Definition fset (fs : files) (n : string) (c : string) : files :=
  fun m => if String.eqb m n then Some c else fs m.
Definition content (fs : files) (n : string) : string :=
  match fs n with Some c => c | None => "" end.

(** ErrorHandler.cc:20 _NULLFILE *)
Definition NULLFILE : string := "/dev/null".

(** The data members; [eh_stream] is the file the log stream is open on, [None]
    when opening failed (the stream then has failbit set and drops output). *)
Record errh := mkErrh {
  eh_status : status; eh_msg : string; eh_logname : string; eh_stream : option string }.

(** ErrorHandler.cc:23-29 constructor *)
Definition eh_new : errh := mkErrh OK "" NULLFILE (Some NULLFILE).

Section Open.
Variable writable : string -> bool.   (* can the file be opened for writing? *)

(** std::ofstream::open(name, out|trunc) *)
Definition open_trunc (n : string) (fs : files) : option string * files :=
  if String.eqb n NULLFILE then (Some n, fs)
  else if writable n then (Some n, fset fs n "") else (None, fs).
(** std::ofstream::open(name, out|app) *)
Definition open_app (n : string) (fs : files) : option string * files :=
  if String.eqb n NULLFILE then (Some n, fs)
  else if writable n then (Some n, fset fs n (content fs n)) else (None, fs).

(** ErrorHandler.cc:39-50 logFilename *)
Definition eh_logFilename (name : string) (e : errh) (fs : files) : errh * files :=
  let '(s, fs') := open_trunc name fs in
  (mkErrh (eh_status e) (eh_msg e) name s, fs').

(** ErrorHandler.cc:54-65 loggingOn *)
Definition eh_loggingOn (turnOn : bool) (e : errh) (fs : files) : errh * files :=
  let '(s, fs') :=
    if turnOn && negb (String.eqb (eh_logname e) "") then open_app (eh_logname e) fs
    else open_trunc NULLFILE fs in
  (mkErrh (eh_status e) (eh_msg e) (eh_logname e) s, fs').
End Open.

(** ErrorHandler.cc:69-74 log *)
Definition eh_log (m : string) (e : errh) (fs : files) : files :=
  match eh_stream e with
  | Some n => if String.eqb n NULLFILE then fs else fset fs n (content fs n ++ m)
  | None => fs
  end.

(** ErrorHandler.icc:17-22 resetStatus *)
Definition eh_reset (e : errh) : errh := mkErrh OK "" (eh_logname e) (eh_stream e).
(** ErrorHandler.icc:36-41 error *)
Definition eh_error (m : string) (e : errh) : errh := mkErrh ERROR m (eh_logname e) (eh_stream e).
(** ErrorHandler.icc:43-48 warning *)
Definition eh_warning (m : string) (e : errh) : errh := mkErrh WARNING m (eh_logname e) (eh_stream e).
