(** IEEE-754 arithmetic used by the model: C++ `float` is binary32 and
    `double` is binary64, represented by the standard library's
    [spec_float] (Coq.Floats.SpecFloat), rounding to nearest even.

    Simplifications: all NaN bit patterns are one value; every expression is
    evaluated in its declared type (FLT_EVAL_METHOD = 0, no fused
    multiply-add), as on the SSE2 targets the package is built for. *)
From Coq Require Import ZArith Bool.
From Coq Require Export SpecFloat.
Open Scope Z_scope.

Definition f32 := spec_float.
Definition f64 := spec_float.

(** ** binary64 *)
Definition prec64 := 53.
Definition emax64 := 1024.
Definition add64 : f64 -> f64 -> f64 := SFadd prec64 emax64.
Definition sub64 : f64 -> f64 -> f64 := SFsub prec64 emax64.
Definition mul64 : f64 -> f64 -> f64 := SFmul prec64 emax64.
Definition div64 : f64 -> f64 -> f64 := SFdiv prec64 emax64.
(** int -> double (also uint32_t -> double): round to nearest even. *)
Definition i2f64 (z : Z) : f64 := binary_normalize prec64 emax64 z 0 false.

(** ** binary32 *)
Definition prec32 := 24.
Definition emax32 := 128.
Definition add32 : f32 -> f32 -> f32 := SFadd prec32 emax32.
Definition sub32 : f32 -> f32 -> f32 := SFsub prec32 emax32.
Definition div32 : f32 -> f32 -> f32 := SFdiv prec32 emax32.
Definition i2f32 (z : Z) : f32 := binary_normalize prec32 emax32 z 0 false.

(** ** Conversions between the two formats *)
Definition convert (prec emax : Z) (x : spec_float) : spec_float :=
  match x with
  | S754_finite s m e =>
      binary_normalize prec emax (if s then Zneg m else Zpos m) e s
  | _ => x
  end.
(** float -> double (exact) *)
Definition widen (x : f32) : f64 := convert prec64 emax64 x.
(** double -> float (rounds; overflow gives infinity) *)
Definition narrow (x : f64) : f32 := convert prec32 emax32 x.

(** ** Comparisons (the same for both formats) *)
Definition feq (x y : spec_float) : bool := SFeqb x y.
Definition flt (x y : spec_float) : bool := SFltb x y.
Definition fle (x y : spec_float) : bool := SFleb x y.
Definition fgt (x y : spec_float) : bool := SFltb y x.
Definition fne (x y : spec_float) : bool := negb (SFeqb x y).

Definition is_nan (x : spec_float) : bool :=
  match x with S754_nan => true | _ => false end.
Definition is_fin (x : spec_float) : bool :=
  match x with S754_nan | S754_infinity _ => false | _ => true end.

(** ** Truncation toward zero, for float-to-integer conversions.
    [None] for NaN and infinities (the conversion is undefined behaviour);
    the caller checks the range of the target type. *)
Definition ftrunc (x : spec_float) : option Z :=
  match x with
  | S754_zero _ => Some 0
  | S754_infinity _ | S754_nan => None
  | S754_finite s m e =>
      let a := if 0 <=? e then Zpos m * 2 ^ e else Zpos m / 2 ^ (- e) in
      Some (if s then - a else a)
  end.

(** ** Constants *)
Definition f_zero : spec_float := S754_zero false.
(** -999.0f  (libsrc/cencalvm/storage/Payload.cc:26 NODATAVAL) *)
Definition nodataval32 : f32 := i2f32 (-999).
(** NODATAVAL after promotion to double *)
Definition nodataval64 : f64 := i2f64 (-999).
Definition half64 : f64 := div64 (i2f64 1) (i2f64 2).

(** A decimal literal m / 10^k as the nearest double: quotient of two exactly
    representable integers, hence correctly rounded. *)
Definition dec64 (m : Z) (k : Z) : f64 := div64 (i2f64 m) (i2f64 (10 ^ k)).

(** Non-vacuity / sanity checks of the arithmetic. *)
Example widen_999 : widen nodataval32 = nodataval64.
Proof. vm_compute. reflexivity. Qed.
Example add32_ex : add32 (i2f32 3) (i2f32 4) = i2f32 7.
Proof. vm_compute. reflexivity. Qed.
Example div32_ex : div32 (i2f32 1) (i2f32 3) = S754_finite false 11184811 (-25).
Proof. vm_compute. reflexivity. Qed.
Example trunc_ex : ftrunc (div64 (i2f64 (-7)) (i2f64 2)) = Some (-3).
Proof. vm_compute. reflexivity. Qed.
