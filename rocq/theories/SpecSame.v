(** Two storage environments that cannot be told apart, and scripts of calls on a query
    object that can be played in either. *)
From Coq Require Import ZArith Bool String List.
From Verif Require Import Outcome Float Payload Addr Geom ErrorHandler VMQuery SpecQuery SpecHist Store.
Import ListNotations.
Open Scope Z_scope.

(** The same octants with the same values, in whatever order. *)
Definition same_records (m1 m2 : contents) : Prop := forall a p, In (a, p) m1 <-> In (a, p) m2.

(** An open database holds [db] and the storage library finds what is in it. *)
Definition has_records {DB} (E : env DB) (d : DB) (db : contents) : Prop :=
  searches (e_search E d) db /\ db_ok db.

(** Two open databases hold the same records; closing them fails in both cases or in none. *)
Definition same_database {DB1 DB2} (E1 : env DB1) (E2 : env DB2) (d1 : DB1) (d2 : DB2) : Prop :=
  e_close E1 d1 = e_close E2 d2 /\
  exists m1 m2, has_records E1 d1 m1 /\ has_records E2 d2 m2 /\ same_records m1 m2.

(** Numbers and octants are written in the same way, and log files can be opened or not. *)
Definition same_texts {DB1 DB2} (E1 : env DB1) (E2 : env DB2) : Prop :=
  (forall n, e_writable E1 n = e_writable E2 n) /\ (forall x, e_sci E1 x = e_sci E2 x) /\
  (forall x, e_gen E1 x = e_gen E2 x) /\ (forall a, e_straddr E1 a = e_straddr E2 a).

(** Files of the same name open or not in the same way and then hold the same records. *)
Definition same_world {DB1 DB2} (E1 : env DB1) (E2 : env DB2) : Prop :=
  same_texts E1 E2 /\
  forall n c, match e_open E1 n c, e_open E2 n c with
  | Some d1, Some d2 => same_database E1 E2 d1 d2
  | None, None => True
  | _, _ => False
  end.

(** What a user can do with a query object. *)
Inductive action :=
| AOpen | AClose | AFilename (n : string) | AFilenameExt (n : string)
| ACacheSize (s : Z) | ACacheSizeExt (s : Z)
| AQueryRes (r : f64) | AQueryType (n : Z) | AQueryVals (names : option (list string))
| ASquash (on : bool) (limit : f64) | AGeometry (g : option libm)
| AHandler (c : hcall)
| AQuery (vals : option (list f64)) (lon lat elev : f64).
Definition done_in {DB} (E : env DB) (a : action) : call DB :=
  match a with
  | AOpen => Open E | AClose => Close E | AFilename n => Filename n | AFilenameExt n => FilenameExt n
  | ACacheSize s => CacheSize s | ACacheSizeExt s => CacheSizeExt s
  | AQueryRes r => QueryRes r | AQueryType n => QueryType n | AQueryVals names => QueryVals names
  | ASquash on l => Squash on l | AGeometry g => Geometry g
  | AHandler c => Handler (e_writable E) c
  | AQuery vals lon lat elev => Query E vals lon lat elev
  end.

(** A new query object, a script of calls, and then a query: the values, the state of the
    error handler and the log files, if nothing goes wrong; else what goes wrong. *)
Definition session {DB} (E : env DB) (g : libm) (fs : files) (script : list action)
  (vals : option (list f64)) (lon lat elev : f64) : outcome (list f64 * errh * files) :=
  match run (map (done_in E) script) (q_new g, fs) with
  | Val (q, fs1) =>
      match query E q fs1 vals lon lat elev with
      | Val (q', fs2, vs) => Val (vs, q_err q', fs2)
      | Throw m => Throw m | Abort => Abort | UB why => UB why
      end
  | Throw m => Throw m | Abort => Abort | UB why => UB why
  end.

(** The databases that can be opened are those on the disk. *)
Definition of_disk {DB} (E : env DB) (dk : disk) : Prop :=
  forall n c d, e_open E n c = Some d -> exists f, dk n = Some f /\ has_records E d (d_recs f).
(** Opening and closing fail for the same files. *)
Definition same_failures {DB1 DB2} (E1 : env DB1) (E2 : env DB2) : Prop :=
  forall n c, match e_open E1 n c, e_open E2 n c with
  | Some d1, Some d2 => e_close E1 d1 = e_close E2 d2
  | None, None => True
  | _, _ => False
  end.
(** The disk with file [n] replaced by file [m] of another disk. *)
Definition put_in_place (dk : disk) (n : string) (dk' : disk) (m : string) : disk :=
  fun k => if String.eqb k n then dk' m else dk k.
