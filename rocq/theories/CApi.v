(** Model of the C interface: libsrc/cencalvm/query/cvmquery.cc and cvmerror.cc.

    A handle is a pointer: null, to a query object, or to the error handler inside
    a query object.  Using a pointer of the wrong kind, or one whose object has
    been destroyed, is undefined.  Simplifications: file names are strings (not
    null); creating an object does not fail; the conversion of an int that is not
    0, 1 or 2 to QueryEnum gives a value that is none of the enumerators. *)
From Coq Require Import ZArith Bool String List.
From Verif Require Import Outcome Float Payload Addr Geom ErrorHandler VMQuery.
Import ListNotations.
Open Scope Z_scope.

Inductive ptr := Null | QueryPtr (n : nat) | HandlerPtr (n : nat).

Record world (DB : Type) := mkWorld {
  w_objs : nat -> option (qstate DB);   (* live query objects *)
  w_next : nat;                         (* where the next one goes *)
  w_files : files;                      (* log files *)
  w_cerr : list string }.               (* lines written to standard error *)
Arguments mkWorld {DB}. Arguments w_objs {DB}. Arguments w_next {DB}.
Arguments w_files {DB}. Arguments w_cerr {DB}.

Section CApi.
Context {DB : Type}.
Notation st := (qstate DB).
Notation world := (world DB).

Definition upd (o : nat -> option st) (n : nat) (x : option st) : nat -> option st :=
  fun m => if Nat.eqb m n then x else o m.
Definition complain (m : string) (w : world) : world :=
  mkWorld (w_objs w) (w_next w) (w_files w) (w_cerr w ++ [m]).
Definition replace (w : world) (n : nat) (q : st) (fs : files) : world :=
  mkWorld (upd (w_objs w) n (Some q)) (w_next w) fs (w_cerr w).

(** cvmquery.cc:25-30 createQuery; [g]: the functions used by the geometry *)
Definition cencalvm_createQuery (g : libm) (w : world) : world * ptr :=
  (mkWorld (upd (w_objs w) (w_next w) (Some (q_new g))) (S (w_next w)) (w_files w) (w_cerr w),
   QueryPtr (w_next w)).

(** cvmquery.cc:34-42 destroyQuery; deleting a null pointer does nothing. *)
Definition cencalvm_destroyQuery (E : env DB) (h : ptr) (w : world) : outcome (world * Z) :=
  match h with
  | Null => Val (w, 0)
  | QueryPtr n =>
      match w_objs w n with
      | Some q => let* _ := destroy E q in
                  Val (mkWorld (upd (w_objs w) n None) (w_next w) (w_files w) (w_cerr w), 0)
      | None => UB "dangling handle"%string
      end
  | HandlerPtr _ => UB "wrong kind of handle"%string
  end.

(** The pattern of the functions below: message and ERROR for a null handle, else
    the method and the status after it. *)
Definition on_query (what : string) (method : st -> files -> outcome (st * files)) (h : ptr) (w : world)
  : outcome (world * Z) :=
  match h with
  | Null => Val (complain ("Null handle for query manager in call to " ++ what ++ "().") w, status_code ERROR)
  | QueryPtr n =>
      match w_objs w n with
      | Some q => let* (q', fs') := method q (w_files w) in
                  Val (replace w n q' fs', status_code (eh_status (q_err q')))
      | None => UB "dangling handle"%string
      end
  | HandlerPtr _ => UB "wrong kind of handle"%string
  end.
Definition quietly (f : st -> st) (q : st) (fs : files) : outcome (st * files) := Val (f q, fs).
Definition may_fail (f : st -> outcome st) (q : st) (fs : files) : outcome (st * files) :=
  let* q' := f q in Val (q', fs).

(** cvmquery.cc:46-60 *)
Definition cencalvm_open (E : env DB) := on_query "open" (may_fail (open E)).
(** cvmquery.cc:64-78 *)
Definition cencalvm_close (E : env DB) := on_query "close" (quietly (close E)).
(** cvmquery.cc:82-99 *)
Definition cencalvm_queryType (n : Z) := on_query "queryType" (quietly (set_queryType n)).
(** cvmquery.cc:103-118 *)
Definition cencalvm_queryRes (r : f64) := on_query "queryRes" (quietly (set_queryRes r)).
(** cvmquery.cc:122-138 *)
Definition cencalvm_queryVals (names : option (list string)) :=
  on_query "queryVals" (may_fail (set_queryVals names)).
(** cvmquery.cc:142-157 *)
Definition cencalvm_filename (n : string) := on_query "filename" (quietly (set_filename n)).
(** cvmquery.cc:161-176 *)
Definition cencalvm_cacheSize (s : Z) := on_query "cacheSize" (quietly (set_cacheSize s)).
(** cvmquery.cc:180-195; the message names filename() *)
Definition cencalvm_filenameExt (n : string) := on_query "filename" (quietly (set_filenameExt n)).
(** cvmquery.cc:199-214; the message names cacheSize() *)
Definition cencalvm_cacheSizeExt (s : Z) := on_query "cacheSize" (quietly (set_cacheSizeExt s)).
(** cvmquery.cc:219-235; the int becomes a bool *)
Definition cencalvm_squash (flag : Z) (limit : f64) :=
  on_query "squash" (quietly (set_squash (negb (flag =? 0)) limit)).

(** cvmquery.cc:239-258; the result includes the caller's array *)
Definition cencalvm_query (E : env DB) (vals : option (list f64)) (lon lat elev : f64) (h : ptr) (w : world)
  : outcome (world * Z * option (list f64)) :=
  match h with
  | Null => Val (complain "Null handle for query manager in call to query()." w, status_code ERROR, vals)
  | QueryPtr n =>
      match w_objs w n with
      | Some q => let* (q', fs', vs) := query E q (w_files w) vals lon lat elev in
                  Val (replace w n q' fs', status_code (eh_status (q_err q')), Some vs)
      | None => UB "dangling handle"%string
      end
  | HandlerPtr _ => UB "wrong kind of handle"%string
  end.

(** cvmquery.cc:262-273 *)
Definition cencalvm_errorHandler (h : ptr) (w : world) : outcome (world * ptr) :=
  match h with
  | Null => Val (complain "Null handle for query manager in call to errorHandler()." w, Null)
  | QueryPtr n => match w_objs w n with
                  | Some _ => Val (w, HandlerPtr n)
                  | None => UB "dangling handle"%string
                  end
  | HandlerPtr _ => UB "wrong kind of handle"%string
  end.

(** cvmerror.cc:23-24 *)
Definition VMERR_OK : Z := 0.
Definition VMERR_ERROR : Z := 1.

(** The pattern of the first three functions of cvmerror.cc *)
Definition on_handler (what : string) (method : errh -> files -> errh * files) (h : ptr) (w : world)
  : outcome (world * Z) :=
  match h with
  | Null => Val (complain ("Null handle for error handler in call to " ++ what ++ "().") w, VMERR_ERROR)
  | HandlerPtr n =>
      match w_objs w n with
      | Some q => let (e, fs) := method (q_err q) (w_files w) in
                  Val (replace w n (with_err q e) fs, VMERR_OK)
      | None => UB "dangling handle"%string
      end
  | QueryPtr _ => UB "wrong kind of handle"%string
  end.
(** cvmerror.cc:29-44 *)
Definition cencalvm_error_logFilename (writable : string -> bool) (n : string) :=
  on_handler "logFilename" (eh_logFilename writable n).
(** cvmerror.cc:48-63; the int becomes a bool *)
Definition cencalvm_error_loggingOn (writable : string -> bool) (on : Z) :=
  on_handler "loggingOn" (eh_loggingOn writable (negb (on =? 0))).
(** cvmerror.cc:67-81 *)
Definition cencalvm_error_resetStatus := on_handler "resetStatus" (fun e fs => (eh_reset e, fs)).
(** cvmerror.cc:85-97 *)
Definition cencalvm_error_status (h : ptr) (w : world) : outcome (world * Z) :=
  match h with
  | Null => Val (complain "Null handle for error handler in call to status()." w, status_code ERROR)
  | HandlerPtr n => match w_objs w n with
                    | Some q => Val (w, status_code (eh_status (q_err q)))
                    | None => UB "dangling handle"%string
                    end
  | QueryPtr _ => UB "wrong kind of handle"%string
  end.
(** cvmerror.cc:101-113; [None] is a null pointer *)
Definition cencalvm_error_message (h : ptr) (w : world) : outcome (world * option string) :=
  match h with
  | Null => Val (complain "Null handle for error handler in call to message()." w, None)
  | HandlerPtr n => match w_objs w n with
                    | Some q => Val (w, Some (eh_msg (q_err q)))
                    | None => UB "dangling handle"%string
                    end
  | QueryPtr _ => UB "wrong kind of handle"%string
  end.
End CApi.
