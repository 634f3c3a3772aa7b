(** Specification vocabulary for operations on database files. *)
From Coq Require Import ZArith Bool String List.
From Verif Require Import Payload Addr SpecOct AvgEngine SpecAvg Store.
Import ListNotations.
Open Scope Z_scope.

(** All files except [n] are as before. *)
Definition others_untouched (n : string) (d d' : disk) : Prop :=
  forall m, m <> n -> d' m = d m.

(** A file that the averager can use: it opens and has the expected layout. *)
Definition usable (E : etree) (d : disk) (n : string) (f : dbfile) : Prop :=
  d n = Some f /\ et_open E d n = true /\ d_size f = 28 /\ d_schema f = Some SCHEMA.

(** Why a file cannot be used. *)
Inductive unusable (E : etree) (d : disk) (n : string) : Prop :=
| missing_file : d n = None -> unusable E d n
| cannot_open : et_open E d n = false -> unusable E d n
| wrong_size : forall f, d n = Some f -> d_size f <> 28 -> unusable E d n
| wrong_schema : forall f s, d n = Some f -> d_schema f = Some s -> s <> SCHEMA -> unusable E d n.

(** Creating the file [n] works, with all its header information. *)
Definition can_create (E : etree) (d : disk) (n : string) : Prop :=
  et_create E d n = true /\ et_regschema E n = true /\ (forall m, et_setmeta E n m = true).

(** A cursor on the file [n] gets from each record to the next one. *)
Definition reads_on (E : etree) (n : string) : Prop := forall a, et_adv E n a = true.
(** Reading all records through a cursor works. *)
Definition can_read (E : etree) (n : string) : Prop :=
  et_cursor E n = true /\ (forall a, et_get E n a = true) /\ reads_on E n.

(** The records that a cursor delivers: up to the first one from which it cannot
    move on. *)
Fixpoint delivered (adv : addr -> bool) (recs : list (addr * payload)) : list (addr * payload) :=
  match recs with
  | [] => []
  | r :: rest => if adv (fst r) then r :: delivered adv rest else [r]
  end.

(** Records as the averager's specification sees them. *)
Definition stored (db : list orec) (recs : list (addr * payload)) : Prop :=
  map (fun r => mkOrec (fst r) (Some (snd r))) recs = db.
