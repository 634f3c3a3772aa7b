(** Specification vocabulary for the Fortran example program. *)
From Coq Require Import ZArith Bool String Ascii List.
From Verif Require Import Outcome Float Payload Addr Geom ErrorHandler VMQuery QueryApp SpecText SpecApp FExample.
Import ListNotations.
Open Scope Z_scope.

(** A name that a character*n constant can hold: no white space, no null character, and
    at least one blank after it. *)
Definition plain_name (n : nat) (s : string) : Prop :=
  word s /\ (forall c, In c (list_ascii_of_string s) -> nat_of_ascii c <> 0%nat) /\ (String.length s < n)%nat.
(** There is a null character in memory behind the constant. *)
Definition terminated (mem : list ascii) : Prop :=
  exists m rest, mem = (m ++ ascii_of_nat 0 :: rest)%list /\ forall c, In c m -> nat_of_ascii c <> 0%nat.
Definition names_ok (c : config) : Prop :=
  plain_name 64 (c_db c) /\ (c_dbExt c = ""%string \/ plain_name 64 (c_dbExt c)) /\ plain_name 64 (c_log c).
Definition f_asks (c : config) (k : qtype) : Prop :=
  exists rest, c_type c = (kind_name k ++ rest)%string.

(** A message in a buffer of 256 characters. *)
Definition buffer (m : string) : printed :=
  Buffer (firstn 256 (list_ascii_of_string m) ++ repeat (ascii_of_nat 0) (256 - String.length m)).
(** One for each answer that is not OK. *)
Definition f_warned (ys : list reply) : list printed :=
  flat_map (fun y => match y_status y with OK => [] | _ => [buffer (y_msg y)] end) ys.

(** The line of a location. *)
Definition f_line_for (F : fsys) (l : location) (y : reply) (s : string) : Prop :=
  let '(lon, lat, elev) := l in
  exists block zone, short block /\ short zone /\
    value_of (y_vals y) 6 = i2f64 block /\ value_of (y_vals y) 7 = i2f64 zone /\
    s = (f_F F 9 4 lon ++ f_F F 8 4 lat ++ f_F F 9 1 elev ++
         f_F F 8 1 (value_of (y_vals y) 0) ++ f_F F 8 1 (value_of (y_vals y) 1) ++ f_F F 8 1 (value_of (y_vals y) 2) ++
         f_F F 9 1 (value_of (y_vals y) 3) ++ f_F F 9 1 (value_of (y_vals y) 4) ++ f_F F 9 1 (value_of (y_vals y) 5) ++
         f_I F 5 block ++ f_I F 5 zone ++ f_F F 9 1 (value_of (y_vals y) 8))%string.
Inductive f_lines_for (F : fsys) : list location -> list reply -> list string -> Prop :=
| f_lines_nil : f_lines_for F [] [] []
| f_lines_cons : forall l y s ls ys ss, f_line_for F l y s -> f_lines_for F ls ys ss ->
    f_lines_for F (l :: ls) (y :: ys) (s :: ss).

(** Why a run may end before the first location: how it ends and what it prints. *)
Inductive f_refuses {DB} (E : env DB) (F : fsys) (c : config) : stopping -> list printed -> Prop :=
| f_no_database : e_open E (c_db c) (cache_of c) = None ->
    (c_dbExt c = ""%string \/ e_open E (c_dbExt c) (cache_of c) <> None) ->
    f_refuses E F c End
      [buffer ("Could not open the etree database '" ++ c_db c ++ "' for querying."); Printed "ERROR"]
| f_no_extended : c_dbExt c <> ""%string -> e_open E (c_dbExt c) (cache_of c) = None ->
    f_refuses E F c End
      [buffer ("Could not open the etree (regional) database '" ++ c_dbExt c ++ "' for querying."); Printed "ERROR"]
| f_bad_resolution : forall d x, opens E c d x -> ~ f_asks c MAXRES -> flt (c_res c) f_zero = true ->
    f_refuses E F c End [Printed "Query resolution must be a positive value."; Printed "ERROR"]
| f_bad_kind : forall d x, opens E c d x -> (forall k, ~ f_asks c k) -> flt (c_res c) f_zero = false ->
    f_refuses E F c End [Printed "Could not parse query resolution string."; Printed "ERROR"]
| f_no_input : forall d x k, opens E c d x -> f_asks c k -> (k <> MAXRES -> flt (c_res c) f_zero = false) ->
    f_read F (c_in c) = None -> f_refuses E F c RuntimeError []
| f_no_output : forall d x k r, opens E c d x -> f_asks c k -> (k <> MAXRES -> flt (c_res c) f_zero = false) ->
    f_read F (c_in c) = Some r -> f_new F (c_out c) = false -> f_refuses E F c RuntimeError [].
