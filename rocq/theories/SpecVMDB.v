(** What a user expects of the spatial database wrapper. *)
From Coq Require Import ZArith Bool String List.
From Verif Require Import Outcome Float Payload Addr Geom ErrorHandler VMQuery VMDB.
Import ListNotations.
Open Scope Z_scope.

(** Elevation of the i-th attempt: the location's own (but not below -44950 m) and
    then 25, 50, 100, ... 3200 m below it. *)
Definition start_at (z : f64) : f64 := if flt z (i2f64 (-44950)) then i2f64 (-44950) else z.
Definition attempt_at (z : f64) (i : nat) : f64 :=
  match i with O => start_at z | S k => sub64 (start_at z) (i2f64 (25 * 2 ^ Z.of_nat k)) end.

Section Attempts.
Context {DB : Type}.
Definition status_of (q : qstate DB) : status := eh_status (q_err q).
Definition forgiven (q : qstate DB) : qstate DB := with_err q (eh_reset (q_err q)).

(** Object, log files and array after attempt [i]; every attempt after the first
    starts from a clean status. *)
Inductive tried (E : Z -> env DB) (x y z : f64) (q : qstate DB) (fs : files) (olds : list f64)
  : nat -> qstate DB * files * list f64 -> Prop :=
| tried_first r : query (E 0) q fs (Some olds) x y (attempt_at z 0) = Val r -> tried E x y z q fs olds O r
| tried_next i q1 fs1 v1 r : tried E x y z q fs olds i (q1, fs1, v1) ->
    query (E (Z.of_nat (S i))) (forgiven q1) fs1 (Some v1) x y (attempt_at z (S i)) = Val r ->
    tried E x y z q fs olds (S i) r.

(** The shear speed of an attempt is negative. *)
Definition void (d : vmdb DB) (v : list f64) : Prop :=
  exists s, nth_error v (Z.to_nat (d_vs d)) = Some s /\ flt s f_zero = true.
(** Downward projection is on and the shear speed is among the values. *)
Definition projects (d : vmdb DB) : bool := (0 <=? d_vs d) && d_down d.

(** Attempt [k] is the one whose values are used. *)
Definition used (d : vmdb DB) (E : Z -> env DB) (x y z : f64) fs olds (k : nat) (r : qstate DB * files * list f64) : Prop :=
  tried E x y z (d_q d) fs olds k r /\
  (if projects d then
     (k <= 8)%nat /\
     (forall i q1 fs1 v1, (i < k)%nat -> tried E x y z (d_q d) fs olds i (q1, fs1, v1) -> void d v1) /\
     ((k < 8)%nat -> ~ void d (snd r))
   else k = O).

(** Values between [low] and [high] become [high]. *)
Definition at_least (low high v : f64) : f64 := if flt low v && flt v high then high else v.
(** The value returned at position [i]. *)
Definition clip (d : vmdb DB) (i : nat) (v : f64) : f64 :=
  let here j := (0 <=? j) && (Z.of_nat i =? j) in
  let v := if here (d_vs d) && d_down d then at_least f_zero (d_minVs d) v else v in
  let v := if here (d_vp d)
           then at_least f_zero (add64 (i2f64 1360) (mul64 (dec64 116 2) (d_minVs d))) v else v in
  if here (d_density d) then at_least (i2f64 1000) (i2f64 2000) v else v.
Definition clipped (d : vmdb DB) (v v' : list f64) : Prop :=
  length v' = length v /\
  forall i s, nth_error v i = Some s -> nth_error v' i = Some (clip d i s).

(** The positions remembered for the three clipped values are positions of an array
    of [n] values. *)
Definition positions_ok (d : vmdb DB) (n : nat) : Prop :=
  forall j, j = d_vs d \/ j = d_vp d \/ j = d_density d -> j < Z.of_nat n.

(** ** Histories *)
Inductive dcall :=
| DOpen (E : env DB) | DClose (E : env DB) | DType (n : Z) | DRes (r : f64)
| DVals (names : option (list string)) | DName (n : string) | DCache (s : Z)
| DNameExt (n : string) | DCacheExt (s : Z) | DSquash (f : bool) (l : f64)
| DMinVs (v : f64) | DDown (b : bool)
| DQuery (E : Z -> env DB) (convert : f64 * f64 * f64 -> result (f64 * f64 * f64))
    (coords vals : list f64).
Definition ended {A} (r : result A) : option string :=
  match r with Throws m => Some m | Returns _ => None end.
(** State after a call, and the exception it threw. *)
Definition dstep (s : vmdb DB * files) (c : dcall) : outcome (vmdb DB * files * option string) :=
  let '(d, fs) := s in
  let plain (o : outcome (vmdb DB * result unit)) := let* (d, r) := o in Val (d, fs, ended r) in
  match c with
  | DOpen E => plain (vd_open E d)
  | DClose E => plain (vd_close E d)
  | DType n => plain (vd_queryType n d)
  | DVals names => plain (vd_queryVals names d)
  | DRes r => Val (vd_queryRes r d, fs, None)
  | DName n => Val (vd_filename n d, fs, None)
  | DCache s => Val (vd_cacheSize s d, fs, None)
  | DNameExt n => Val (vd_filenameExt n d, fs, None)
  | DCacheExt s => Val (vd_cacheSizeExt s d, fs, None)
  | DSquash f l => Val (vd_squash f l d, fs, None)
  | DMinVs v => Val (vd_minVs v d, fs, None)
  | DDown b => Val (vd_projectDownward b d, fs, None)
  | DQuery E cv coords vals =>
      let* (d, fs, _, r) := vd_query E cv coords d fs vals in Val (d, fs, ended r)
  end.
Fixpoint drun (h : list dcall) (s : vmdb DB * files) : outcome (vmdb DB * files * list (option string)) :=
  match h with
  | [] => Val (s, [])
  | c :: h => let* (d, fs, x) := dstep s c in let* (s', xs) := drun h (d, fs) in Val (s', x :: xs)
  end.

(** Position of the last of the names that is [what] up to case; -1 if none. *)
Definition last_position (what : string) (names : list string) (j : Z) : Prop :=
  (j = -1 /\ forall i n, nth_error names i = Some n -> casecmp n what = false) \/
  (0 <= j /\ (exists n, nth_error names (Z.to_nat j) = Some n /\ casecmp n what = true) /\
   forall i n, nth_error names i = Some n -> j < Z.of_nat i -> casecmp n what = false).
End Attempts.
Arguments dcall DB : clear implicits.
