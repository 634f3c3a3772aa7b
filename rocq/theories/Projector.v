(** Model of libsrc/cencalvm/storage/Projector.{h,cc} with the error number of the PROJ
    library as state.

    Geom.v takes the projection for a function of the location.  Here a program has any
    number of Projector objects, and proj_errno is asked after every transformation, as in
    the code, so that an error number left by an earlier transformation shows.  What the
    library does with it is not in /repo; two fields say it: [pj_keeps], whether a
    transformation that works leaves the error number of an earlier one alone (or clears
    it), and [pj_shared], whether all objects share one error number (the code creates
    them all in the library's default context, Projector.cc:45) or each has its own. *)
From Coq Require Import ZArith Bool List String Ascii.
From Verif Require Import Outcome Float.
Import ListNotations.
Local Open Scope string_scope.
Open Scope Z_scope.

Inductive direction := Forward | Inverse.
Record pj := mkPj {
  pj_create : string -> bool;                          (* proj_create does not return null *)
  pj_torad : f64 -> f64;                               (* proj_torad *)
  pj_todeg : f64 -> f64;                               (* proj_todeg *)
  pj_trans : direction -> f64 -> f64 -> f64 * f64 * Z; (* proj_trans: coordinates, its own error number (0: none) *)
  pj_keeps : bool;
  pj_shared : bool;
  pj_text : Z -> string;                               (* proj_errno_string *)
  pj_gen : f64 -> string }.                            (* a double in the default format of a stream *)

(** proj_errno of every object *)
Definition pstate := nat -> Z.
(** Before any call there is no error. *)
Definition clean : pstate := fun _ => 0.

Definition NL : string := String (ascii_of_nat 10) EmptyString.

Section Projector.
Variable P : pj.

(** Projector.cc:24-29 constants, 36-43 the text given to proj_create *)
Definition MERIDIAN : f64 := i2f64 (-123).
Definition LAT : f64 := i2f64 35.
Definition SCALE : f64 := dec64 9996 4.
Definition args : string :=
  "+proj=" ++ "tmerc" ++ " +lon_0=" ++ pj_gen P MERIDIAN ++ " +lat_0=" ++ pj_gen P LAT ++
  " +k=" ++ pj_gen P SCALE ++ " +datum=" ++ "NAD83" ++ " +units=" ++ "m".

(** Projector.cc:32-54 constructor.  [e] is proj_errno of a null pointer. *)
Definition create (e : Z) : outcome unit :=
  if pj_create P args then Val tt
  else Throw ("Error while initializing projection:" ++ NL ++ "  " ++ pj_text P e ++ NL ++
    "Projection parameters:" ++ NL ++ "  " ++ args).

(** proj_trans on object [i]: the error number afterwards *)
Definition trans (d : direction) (a b : f64) (i : nat) (st : pstate) : f64 * f64 * pstate :=
  let '(u, v, e) := pj_trans P d a b in
  let n := if e =? 0 then (if pj_keeps P then st i else 0) else e in
  (u, v, fun j => if pj_shared P || Nat.eqb j i then n else st j).

(** Projector.cc:64-86 project *)
Definition project (i : nat) (lon lat : f64) (st : pstate) : pstate * outcome (f64 * f64) :=
  let '(u, v, st') := trans Forward (pj_torad P lon) (pj_torad P lat) i st in
  if st' i =? 0 then (st', Val (u, v))
  else (st', Throw ("Error while projecting location." ++ NL ++ "  " ++ pj_text P (st' i) ++ NL ++
    "  longitude: " ++ pj_gen P lon ++ NL ++ "  latitude: " ++ pj_gen P lat ++ NL)).

(** Projector.cc:90-111 invProject *)
Definition invProject (i : nat) (x y : f64) (st : pstate) : pstate * outcome (f64 * f64) :=
  let '(u, v, st') := trans Inverse x y i st in
  if st' i =? 0 then (st', Val (pj_todeg P u, pj_todeg P v))
  else (st', Throw ("Error while inverse projecting location." ++ NL ++ "  " ++ pj_text P (st' i) ++ NL ++
    "  x: " ++ pj_gen P x ++ NL ++ "  y: " ++ pj_gen P y ++ NL)).
End Projector.
