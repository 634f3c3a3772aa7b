(** Specification vocabulary for output in columns. *)
From Coq Require Import ZArith Bool Reals String Ascii List.
From Verif Require Import Outcome Float SpecGeom QueryApp SpecText SpecApp SpecInfo.
Import ListNotations.
Open Scope Z_scope.

(** ** Numerals *)
(** [s] is the numeral, with [p] digits after the point, of n / 10^p; no needless zeros in
    front. *)
Definition with_point (p : nat) (n : Z) (s : string) : Prop :=
  exists a b, s = (a ++ "." ++ b)%string /\ spells (a ++ b) n /\ String.length b = p /\ a <> ""%string /\
    (String.length a = 1%nat \/ String.get 0 a <> Some "0"%char).
Definition plain (n : Z) (s : string) : Prop :=
  spells s n /\ (String.length s = 1%nat \/ String.get 0 s <> Some "0"%char).
(** The same with a sign; minus zero is possible. *)
Definition signed (P : Z -> string -> Prop) (n : Z) (s : string) : Prop :=
  (0 <= n /\ P n s) \/ (n <= 0 /\ exists t, s = String "-" t /\ P (- n) t).

(** The word shows the number, rounded to [p] digits after the point. *)
Definition shows (p : nat) (x : f64) (w : string) : Prop :=
  exists n, signed (with_point p) n w /\ (Rabs (value x * 10 ^ p - IZR n) <= 1 / 2)%R.
Definition shows_int (x : f64) (w : string) : Prop := exists n, short n /\ x = i2f64 n /\ signed plain n w.

(** ** The C++ library *)
Fixpoint spaces (n : nat) : string := match n with O => "" | S n => String " " (spaces n) end.
Definition aligned (width : Z) (s : string) : string := (spaces (Z.to_nat width - String.length s) ++ s)%string.
(** Formatted output: fixed notation rounds to the nearest, numbers are aligned to the
    right, and a number that is too long is written in full. *)
Definition prints (T : texts) : Prop :=
  (forall p width x, 0 < p -> finite_double x -> exists s, shows (Z.to_nat p) x s /\ t_fixed T p width x = aligned width s) /\
  (forall width n, exists s, signed plain n s /\ t_int T width n = aligned width s).

(** ** The output of cencalvmquery *)
(** The twelve words of a location. *)
Definition columns (l : location) (y : reply) (ws : list string) : Prop :=
  let '(lon, lat, elev) := l in
  let v := value_of (y_vals y) in
  Forall2 (fun (shown : string -> Prop) w => shown w)
    [shows 5 lon; shows 5 lat; shows 1 elev; shows 1 (v 0%nat); shows 1 (v 1%nat); shows 1 (v 2%nat);
     shows 1 (v 3%nat); shows 1 (v 4%nat); shows 1 (v 5%nat); shows_int (v 6%nat); shows_int (v 7%nat); shows 1 (v 8%nat)] ws.
(** lo / 10^p <= x <= hi / 10^p *)
Definition from_to (p : nat) (lo hi : Z) (x : f64) : Prop :=
  finite_double x /\ (IZR lo <= value x * 10 ^ p <= IZR hi)%R.
(** Numbers that leave a blank in their columns: latitudes -9.99999 to 99.99999, elevations
    -99999.9 to 999999.9, speeds and densities -9999.9 to 99999.9, quality factors and depths
    as elevations, fault blocks and zones -999 to 9999. *)
Definition fits_columns (l : location) (y : reply) : Prop :=
  let '(lon, lat, elev) := l in
  let v := value_of (y_vals y) in
  finite_double lon /\ from_to 5 (-999999) 9999999 lat /\ from_to 1 (-999999) 9999999 elev /\
  (forall i, (i < 3)%nat -> from_to 1 (-99999) 999999 (v i)) /\
  (forall i, (i < 6)%nat -> (3 <= i)%nat -> from_to 1 (-999999) 9999999 (v i)) /\
  (forall i n, (i = 6 \/ i = 7)%nat -> short n -> v i = i2f64 n -> -999 <= n <= 9999) /\
  from_to 1 (-999999) 9999999 (v 8%nat).
