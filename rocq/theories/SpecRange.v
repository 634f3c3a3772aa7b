(** What C78 says about an averaged octant, in terms of the input octants inside it. *)
From Coq Require Import ZArith Bool Reals List.
From Flocq Require Import Core BinarySingleNaN.
From Verif Require Import Float Payload Addr SpecOct SpecAvg SpecQuery SpecE2E.
Import ListNotations.
Open Scope Z_scope.

Section Range.
Variable inp : list (addr * payload).

(** Values of an input octant that is (or lies in) octant [b]. *)
Definition inside (b : addr) (q : payload) : Prop := exists a, In (a, q) inp /\ covers b a.

(** Rock: a positive shear speed.  Water: no positive shear speed, but a positive
    compressional speed.  Other octants have no data. *)
Definition rock_in (b : addr) : Prop := exists q, inside b q /\ solid q = true.
Definition water_in (b : addr) : Prop := exists q, inside b q /\ solid q = false /\ water q = true.

(** The input that counts for octant [b]: the rock in it; if there is none, the water. *)
Definition counts (b : addr) (q : payload) : Prop :=
  inside b q /\ (solid q = true \/ (~ rock_in b /\ solid q = false /\ water q = true)).

(** Values far below the largest single-precision number where there is rock or water. *)
Definition real_of (x : f32) : R := SF2R radix2 x.
Definition tame (q : payload) : Prop :=
  solid q = true \/ water q = true ->
  forall f, is_fin (get6 f q) = true /\ (Rabs (real_of (get6 f q)) <= bpow radix2 120)%R.

(** [v] is what an octant [b] of the averaged tree should hold: it is rock, water or
    without data as the input inside is, and each value lies between the values that
    count, up to a slack that depends on the largest magnitude. *)
Definition summarises_within (slack : R -> R) (b : addr) (v : payload) : Prop :=
  (solid v = true <-> rock_in b) /\
  (~ rock_in b -> (water v = true <-> water_in b)) /\
  (forall f lo hi M, rock_in b \/ water_in b ->
     (0 <= M <= bpow radix2 120)%R -> (- M <= lo)%R -> (hi <= M)%R ->
     (forall q, counts b q -> (lo <= real_of (get6 f q) <= hi)%R) ->
     is_fin (get6 f v) = true /\ (lo - slack M <= real_of (get6 f v) <= hi + slack M)%R) /\
  (above_input inp b -> ~ rock_in b -> ~ water_in b -> forall f, get6 f v = i2f32 (-999)).
(** For stored octants the slack is a fraction 2^-15 of the largest magnitude (and 2^-144). *)
Definition summarises : addr -> payload -> Prop :=
  summarises_within (fun M => M * bpow radix2 (-15) + bpow radix2 (-144))%R.
(** For the values half way between two octants it is twice that. *)
Definition summarises_roughly : addr -> payload -> Prop :=
  summarises_within (fun M => M * bpow radix2 (-14) + bpow radix2 (-143))%R.
End Range.
