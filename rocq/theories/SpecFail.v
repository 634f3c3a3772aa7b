(** Specification vocabulary for storage calls that fail. *)
From Coq Require Import ZArith Bool String List.
From Verif Require Import Payload Addr SpecOct AvgEngine SpecAvg Store SpecStore.
Import ListNotations.
Open Scope Z_scope.

(** Storage of which no call fails. *)
Definition never_fails : storage := mkStorage true (fun _ _ => true) (fun _ _ => true) true.

(** What averaging says when a call fails. *)
Definition complaint (m : string) : Prop := In m
  [ "Error occurred while initializing etree cursor.";
    "Error occurred while trying to initiate appending of etree.";
    "Error occurred while trying to get payload at current cursor position.";
    "Error occurred while trying to append octant to etree.";
    "Error occurred while appending new octant to etree.";
    "Could not update octant in etree database.";
    "Error occurred while trying to terminate appending of etree." ]%string.

(** In a run that stores the records [db] for the input [inp] some call fails: of
    the calls that read, of those that start and end appending, when a record is
    appended behind the ones before it (whatever values these have by then), or
    when a record that is not in the input is given its values. *)
Inductive some_failure (R : reading) (st : storage) (inp : list (addr * payload)) (db : list orec) : Prop :=
| no_cursor : rd_init R = false -> some_failure R st inp db
| not_read a : In a (map fst inp) -> rd_get R a = false -> some_failure R st inp db
| not_begun : st_begin_ok st = false -> some_failure R st inp db
| not_ended : st_end_ok st = false -> some_failure R st inp db
| not_appended before r after : db = (before ++ r :: after)%list ->
    (forall db', map o_addr db' = map o_addr before -> st_append_ok st db' (o_addr r) = false) ->
    some_failure R st inp db
| not_updated r : In r (interior_records inp db) ->
    (forall db' a, same_octant (o_addr r) a -> st_update_ok st db' a = false) ->
    some_failure R st inp db.
