(** Model of the Fortran interface: libsrc/cencalvm/query/f77vmquery.cc and
    f77vmerror.cc.

    The handle argument holds a handle of the C interface.  [err] tells whether
    the pointer to the error code is not null; the other pointers to numbers are
    valid.  A character argument is the memory from its address on, as far as it
    can be read, as a list of characters; reading beyond is undefined.  There is
    no Fortran function for queryVals. *)
From Coq Require Import ZArith Bool Ascii String List.
From Verif Require Import Outcome Float Payload Addr Geom ErrorHandler VMQuery Stream CApi.
Import ListNotations.
Open Scope Z_scope.

(** Characters before the first NUL; [None] when there is none. *)
Fixpoint c_string (mem : list ascii) : option string :=
  match mem with
  | [] => None
  | c :: r => if Nat.eqb (nat_of_ascii c) 0 then Some EmptyString
              else match c_string r with Some s => Some (String c s) | None => None end
  end.
(** std::istringstream sin(mem); std::string w; sin >> w; w.c_str() *)
Definition first_word (mem : list ascii) : outcome string :=
  match c_string mem with
  | None => UB "unterminated string"%string
  | Some s => match getWord (openText s) with
              | (_, Some w) => Val w
              | (_, None) => Val ""%string
              end
  end.
(** strncpy(buffer, s, len): exactly len characters, padded with NUL *)
Fixpoint strncpy (s : string) (len : nat) : list ascii :=
  match len, s with
  | O, _ => []
  | S k, EmptyString => ascii_of_nat 0 :: strncpy EmptyString k
  | S k, String c r => c :: strncpy r k
  end.

Section Fortran.
Context {DB : Type}.
Notation world := (world DB).

(** f77vmquery.cc:29-34 *)
Definition createquery_f (g : libm) (w : world) : outcome (world * ptr) :=
  Val (cencalvm_createQuery g w).
(** f77vmquery.cc:39-45 *)
Definition destroyquery_f (err : bool) (E : env DB) (h : ptr) (w : world) : outcome (world * Z) :=
  let* _ := assert_ err in cencalvm_destroyQuery E h w.
(** f77vmquery.cc:50-56 *)
Definition open_f (err : bool) (E : env DB) (h : ptr) (w : world) :=
  let* _ := assert_ err in cencalvm_open E h w.
(** f77vmquery.cc:61-67 *)
Definition close_f (err : bool) (E : env DB) (h : ptr) (w : world) :=
  let* _ := assert_ err in cencalvm_close E h w.
(** f77vmquery.cc:72-79 *)
Definition querytype_f (err : bool) (n : Z) (h : ptr) (w : world) :=
  let* _ := assert_ err in cencalvm_queryType n h w.
(** f77vmquery.cc:84-91 *)
Definition queryres_f (err : bool) (r : f64) (h : ptr) (w : world) :=
  let* _ := assert_ err in cencalvm_queryRes r h w.
(** f77vmquery.cc:96-109 *)
Definition filename_f (err : bool) (mem : list ascii) (len : Z) (h : ptr) (w : world) :=
  let* _ := assert_ err in
  let* _ := assert_ (0 <? len) in
  let* n := first_word mem in cencalvm_filename n h w.
(** f77vmquery.cc:114-121 *)
Definition cachesize_f (err : bool) (s : Z) (h : ptr) (w : world) :=
  let* _ := assert_ err in cencalvm_cacheSize s h w.
(** f77vmquery.cc:126-139 *)
Definition filenameext_f (err : bool) (mem : list ascii) (len : Z) (h : ptr) (w : world) :=
  let* _ := assert_ err in
  let* _ := assert_ (0 <? len) in
  let* n := first_word mem in cencalvm_filenameExt n h w.
(** f77vmquery.cc:144-151 *)
Definition cachesizeext_f (err : bool) (s : Z) (h : ptr) (w : world) :=
  let* _ := assert_ err in cencalvm_cacheSizeExt s h w.
(** f77vmquery.cc:157-165 *)
Definition squash_f (err : bool) (flag : Z) (limit : f64) (h : ptr) (w : world) :=
  let* _ := assert_ err in cencalvm_squash flag limit h w.
(** f77vmquery.cc:170-182; the array is passed by address, so it is never null *)
Definition query_f (err : bool) (E : env DB) (vals : list f64) (lon lat elev : f64) (h : ptr) (w : world) :=
  let* _ := assert_ err in cencalvm_query E (Some vals) lon lat elev h w.
(** f77vmquery.cc:187-193 *)
Definition errorhandler_f (err : bool) (h : ptr) (w : world) :=
  let* _ := assert_ err in cencalvm_errorHandler h w.

(** f77vmerror.cc:29-41 (no test of the length) *)
Definition error_logfilename_f (err : bool) (writable : string -> bool) (mem : list ascii) (len : Z)
    (h : ptr) (w : world) :=
  let* _ := assert_ err in
  let* n := first_word mem in cencalvm_error_logFilename writable n h w.
(** f77vmerror.cc:46-53 *)
Definition error_loggingon_f (err : bool) (writable : string -> bool) (on : Z) (h : ptr) (w : world) :=
  let* _ := assert_ err in cencalvm_error_loggingOn writable on h w.
(** f77vmerror.cc:58-64 *)
Definition error_resetstatus_f (err : bool) (h : ptr) (w : world) :=
  let* _ := assert_ err in cencalvm_error_resetStatus h w.
(** f77vmerror.cc:69-75 *)
Definition error_status_f (err : bool) (h : ptr) (w : world) :=
  let* _ := assert_ err in cencalvm_error_status h w.
(** f77vmerror.cc:81-98; [msg]: the buffer pointer is not null.  The results are
    the buffer and the error code. *)
Definition error_message_f (err msg : bool) (len : Z) (h : ptr) (w : world)
  : outcome (world * list ascii * Z) :=
  let* _ := assert_ err in
  let* _ := assert_ msg in
  let* _ := assert_ (0 <? len) in
  let* (w', m) := cencalvm_error_message h w in
  match m with
  | Some s => Val (w', strncpy s (Z.to_nat len), 0)
  | None => UB "strncpy from a null pointer"%string
  end.
End Fortran.
