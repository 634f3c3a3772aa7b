(** A concrete instance of the external functions, used only in examples: the
    true cosine and sine of the azimuth, the identity as map projection (so that
    "longitude" and "latitude" are projected metres), and a logarithm that is
    right on powers of two.  The projection fails for points far away, as the
    PROJ library's does. *)
From Coq Require Import ZArith Bool List.
From Verif Require Import Outcome Float Geom.
Open Scope Z_scope.

Definition toy_ln2 : f64 := S754_finite false 6243314768165359 (-53).
Definition toy_log (x : f64) : f64 :=
  match x with
  | S754_finite false m e => mul64 (i2f64 (Z.log2 (Zpos m) + e)) toy_ln2
  | S754_infinity false => x
  | _ => S754_nan
  end.
Definition toy_project (a b : f64) : option (f64 * f64) :=
  if flt (SFabs a) (i2f64 100000000) && flt (SFabs b) (i2f64 100000000) then Some (a, b) else None.
Definition toy : libm :=
  mkLibm (fun _ => S754_finite false 5340232702778215 (-53))
         (fun _ => S754_finite false 7253382183146340 (-53))
         toy_log toy_project toy_project.
(** The point of the map with model coordinates about (500000, 600000). *)
Definition toy_x : f64 := dec64 2969084784 4.
Definition toy_y : f64 := dec64 5416962864 4.
