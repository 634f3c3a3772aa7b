(** Model of libsrc/cencalvm/create/VMCreator.cc.  The open database of a creator
    is represented by the name of its file ([None]: no open database). *)
From Coq Require Import ZArith Bool String List.
From Verif Require Import Outcome Float Payload Addr AvgEngine Geom Store Averager.
Import ListNotations.
Open Scope Z_scope.

(** VMCreator.cc:76-86 *)
Definition createdMeta (E : etree) (desc : string) : string :=
  (desc ++ nl ++ "created on: " ++ et_now E ++ "host: " ++ et_host E)%string.

(** VMCreator.cc:52-94 openDB.  A null name or description fails an assertion;
    the model has strings only. *)
Definition openDB (E : etree) (name desc : string) : io unit :=
  do* _ := openNew E name "Could not create etree database." in
  do* _ := registerSchema E name in
  setAppMeta E name (createdMeta E desc).

(** VMCreator.cc:98-107 closeDB: the result of etree_close is ignored. *)
Definition closeDB (E : etree) (name : string) : io unit :=
  if et_flush E name then ret tt else write name (fun g => set_recs g (et_partial E)).

Definition as_orecs (l : list (addr * payload)) : list orec :=
  map (fun r => mkOrec (fst r) (Some (snd r))) l.

(** VMCreator.cc:154-162: the copying loop; [done] are the records appended so
    far.  It ends when the cursor does not advance. *)
Fixpoint copyRecs (E : etree) (from : string) (done todo : list (addr * payload))
  : outcome (list (addr * payload)) :=
  match todo with
  | [] => Val done
  | (a, p) :: rest =>
      if negb (et_get E from a) then Throw (et_error E)
      else if negb (st_append_ok (et_store E) (as_orecs done) a) then Throw (et_error E)
      else if et_adv E from a then copyRecs E from (done ++ [(a, p)]) rest
      else Val (done ++ [(a, p)])
  end.

(** VMCreator.cc:111-175 packDB.  An empty database has no first record, so
    etree_initcursor fails on it.  The payload size and the schema of the unpacked
    database are not checked; reading records of another size into the local
    PayloadStruct (155-158) overruns it or leaves members unset.
    After an exception both handles stay open. *)
Definition packDB (E : etree) (packed unpacked : string) : io unit :=
  do* f := openRead E unpacked "Could not open unpacked etree database." in
  do* _ := openNew E packed "Could not open packed etree database." in
  do* _ := registerSchema E packed in
  do* _ := match d_meta f with
           | Some m => setAppMeta E packed m
           | None => ret tt
           end in
  let recs := if String.eqb unpacked packed then et_stale E else d_recs f in
  if (match recs with [] => true | _ => false end) || negb (et_cursor E unpacked)
  then throw (et_error E)
  else if negb (st_begin_ok (et_store E)) then throw (et_error E)
  else if negb (d_size f =? PAYLOADSIZE) then lift (UB "payload of another size")
  else match copyRecs E unpacked [] recs with
       | Val l =>
           if negb (st_end_ok (et_store E)) then
             do* _ := write packed (fun g => set_recs g (et_partial E)) in throw (et_error E)
           else if negb (et_close E unpacked) then
             do* _ := write packed (fun g => set_recs g (et_partial E)) in throw (et_error E)
           else if negb (et_close E packed) then
             do* _ := write packed (fun g => set_recs g (et_partial E)) in throw (et_error E)
           else write packed (fun g => set_recs g l)
       | Throw m => do* _ := write packed (fun g => set_recs g (et_partial E)) in throw m
       | Abort => lift Abort
       | UB w => lift (UB w)
       end.

(** VMCreator.cc:179-197 insert, with the geometry of Geom.v.  The code returned
    by lonLatElevToAddr is ignored. *)
Definition insert (E : etree) (L : libm) (db : option string) (p : payload)
    (lon lat elev resHoriz : f64) : io unit :=
  match db with
  | None => lift Abort
  | Some name =>
      do* lev := lift (level L resHoriz) in
      do* r := lift (lonLatElevToAddr L (mkAddr 0 0 0 0 lev Leaf) lon lat elev) in
      let a := snd r in
      fun d =>
        match d name with
        | Some f =>
            if et_insert E (d_recs f) a
            then write name (fun g => set_recs g (sorted_in (et_before E) (d_recs g) (a, p))) d
            else throw (et_error E) d
        | None => throw (et_error E) d
        end
  end.
