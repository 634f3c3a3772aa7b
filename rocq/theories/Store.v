(** Database files and the etree calls that create, read and write them.

    A database file is its records in cursor (etree) order together with the
    schema, the application metadata and the payload size of its header.  Whether
    an etree call succeeds is decided by arbitrary functions (record [etree]), so
    a statement about a routine covers a failure at any of its calls.
    Simplification: what is written through a handle is in the file at once;
    only files that were abandoned by an exception, or whose handle could not be
    closed, have unspecified contents. *)
From Coq Require Import ZArith Bool String List.
From Verif Require Import Outcome Payload Addr AvgEngine.
Import ListNotations.
Open Scope Z_scope.

Record dbfile := mkDb {
  d_recs : list (addr * payload);
  d_schema : option string;
  d_meta : option string;
  d_size : Z }.

(** The files of the machine, by name. *)
Definition disk := string -> option dbfile.
Definition put (d : disk) (n : string) (f : option dbfile) : disk :=
  fun m => if String.eqb m n then f else d m.

(** The etree library and the operating system. *)
Record etree := mkEtree {
  et_open : disk -> string -> bool;            (* etree_open(O_RDONLY) of an existing file *)
  et_create : disk -> string -> bool;          (* etree_open(O_CREAT|O_TRUNC|O_RDWR) *)
  et_wreck : option dbfile -> option dbfile;   (* what a failed creation leaves of the file *)
  et_regschema : string -> bool;               (* etree_registerschema *)
  et_setmeta : string -> string -> bool;       (* etree_setappmeta *)
  et_cursor : string -> bool;                  (* etree_initcursor, not empty *)
  et_get : string -> addr -> bool;             (* etree_getcursor *)
  et_adv : string -> addr -> bool;             (* etree_advcursor from a record; the code
                                                  does not tell a failure from the end *)
  et_store : storage;                          (* the appending calls, as in AvgEngine.v *)
  et_insert : list (addr * payload) -> addr -> bool;  (* etree_insert *)
  et_before : addr -> addr -> bool;            (* the order of the records in a file *)
  et_close : string -> bool;                   (* etree_close *)
  et_flush : string -> bool;                   (* etree_close of a written file where the
                                                  code ignores the result *)
  et_stale : list (addr * payload);            (* what a reading handle delivers after its
                                                  file was truncated through another one *)
  et_partial : list (addr * payload);          (* what such a file contains *)
  et_error : string;                           (* etree_strerror *)
  et_now : string;                             (* ctime(time(0)) *)
  et_host : string }.                          (* gethostname *)

(** A freshly created file. *)
Definition created : dbfile := mkDb [] None None PAYLOADSIZE.
Definition set_schema (f : dbfile) (s : string) : dbfile :=
  mkDb (d_recs f) (Some s) (d_meta f) (d_size f).
Definition set_meta (f : dbfile) (s : string) : dbfile :=
  mkDb (d_recs f) (d_schema f) (Some s) (d_size f).
Definition set_recs (f : dbfile) (l : list (addr * payload)) : dbfile :=
  mkDb l (d_schema f) (d_meta f) (d_size f).

(** Computations that change the files. *)
Definition io (A : Type) := disk -> disk * outcome A.
Definition ret {A} (a : A) : io A := fun d => (d, Val a).
Definition throw {A} (m : string) : io A := fun d => (d, Throw m).
Definition lift {A} (o : outcome A) : io A := fun d => (d, o).
Definition andThen {A B} (m : io A) (k : A -> io B) : io B := fun d =>
  match m d with
  | (d', Val a) => k a d'
  | (d', Throw s) => (d', Throw s)
  | (d', Abort) => (d', Abort)
  | (d', UB s) => (d', UB s)
  end.
Notation "'do*' x ':=' m 'in' k" := (andThen m (fun x => k))
  (at level 200, x pattern, m at level 100, k at level 200, right associativity).

(** Opening for reading: the file must exist. *)
Definition openRead (E : etree) (n : string) (msg : string) : io dbfile := fun d =>
  match d n with
  | Some f => if et_open E d n then (d, Val f) else (d, Throw msg)
  | None => (d, Throw msg)
  end.
(** Creating or truncating. *)
Definition openNew (E : etree) (n : string) (msg : string) : io unit := fun d =>
  if et_create E d n then (put d n (Some created), Val tt)
  else (put d n (et_wreck E (d n)), Throw msg).
(** Changing the file behind an open handle. *)
Definition write (n : string) (g : dbfile -> dbfile) : io unit := fun d =>
  (put d n (option_map g (d n)), Val tt).
(** etree_registerschema and etree_setappmeta, with the code's reaction. *)
Definition registerSchema (E : etree) (n : string) : io unit :=
  if et_regschema E n then write n (fun f => set_schema f SCHEMA) else throw (et_error E).
Definition setAppMeta (E : etree) (n m : string) : io unit :=
  if et_setmeta E n m then write n (fun f => set_meta f m) else throw (et_error E).

(** etree_insert puts a record at its place in the order of the file. *)
Fixpoint sorted_in (before : addr -> addr -> bool) (l : list (addr * payload)) (r : addr * payload)
  : list (addr * payload) :=
  match l with
  | [] => [r]
  | x :: t => if before (fst r) (fst x) then r :: x :: t else x :: sorted_in before t r
  end.
