(** Specification vocabulary for limiting gradients. *)
From Coq Require Import ZArith Bool Reals List.
From Flocq Require Import Core.
From Verif Require Import Outcome Float Payload Addr SpecOct SpecGeom VsGrader.
Import ListNotations.
Open Scope R_scope.

(** Neighbouring entries of a profile differ by at most [d]. *)
Definition limited (d : R) (l : list R) : Prop :=
  forall i x y, nth_error l i = Some x -> nth_error l (S i) = Some y -> Rabs (x - y) <= d.
(** Entry by entry at most. *)
Definition below (l m : list R) : Prop := Forall2 Rle l m.
(** The largest profile below [v] that respects the limit. *)
Definition largest_limited (d : R) (v b : list R) : Prop :=
  limited d b /\ below b v /\ forall w, limited d w -> below w v -> below w b.

(** ** Grids of [nl] by [nw] by [nh] points *)
Definition in_grid (nl nw nh : Z) (l w h : Z) : Prop :=
  (0 <= l < nl /\ 0 <= w < nw /\ 0 <= h < nh)%Z.
Section Grid.
Variables nl nw nh : Z.
Let inside := in_grid nl nw nh.
Definition limited_vert (d : R) (v : Z -> Z -> Z -> R) : Prop :=
  forall l w h, inside l w h -> inside l w (h + 1) -> Rabs (v l w h - v l w (h + 1)%Z) <= d.
Definition limited_len (d : R) (v : Z -> Z -> Z -> R) : Prop :=
  forall l w h, inside l w h -> inside (l + 1) w h -> Rabs (v l w h - v (l + 1)%Z w h) <= d.
Definition limited_width (d : R) (v : Z -> Z -> Z -> R) : Prop :=
  forall l w h, inside l w h -> inside l (w + 1) h -> Rabs (v l w h - v l (w + 1)%Z h) <= d.
Definition limited3 (dv dh : R) (v : Z -> Z -> Z -> R) : Prop :=
  limited_vert dv v /\ limited_len dh v /\ limited_width dh v.
Definition below3 (u v : Z -> Z -> Z -> R) : Prop := forall l w h, inside l w h -> u l w h <= v l w h.
Definition largest_limited3 (dv dh : R) (v b : Z -> Z -> Z -> R) : Prop :=
  limited3 dv dh b /\ below3 b v /\ forall u, limited3 dv dh u -> below3 u v -> below3 u b.
End Grid.


(** ** Rounding *)
(** How far one comparison and one addition can be off for speeds up to [M]: the stored
    speeds have 24 bits. *)
Definition slack (M : R) : R := M * bpow radix2 (-23) + bpow radix2 (-149).
Definition finite_float (x : f32) : Prop := valid_binary prec32 emax32 x = true /\ is_fin x = true.
(** The shear speed of an octant is a number between 0 and [M]. *)
Definition speed_upto (M : R) (p : payload) : Prop := finite_float (p_vs p) /\ 0 <= value (p_vs p) <= M.
(** The six numbers are single precision numbers as the machine has them. *)
Definition singles (p : payload) : Prop :=
  Forall (fun x => valid_binary prec32 emax32 x = true) [p_vp p; p_vs p; p_density p; p_qp p; p_qs p; p_dfs p].
(** The shear speed is between 2^-20 and 2^40 m/s. *)
Definition speed_ordinary (p : payload) : Prop :=
  finite_float (p_vs p) /\ bpow radix2 (-20) <= value (p_vs p) <= bpow radix2 40.
(** A value is zero or has a magnitude between 2^-30 and 2^40. *)
Definition ordinary (x : f32) : Prop :=
  finite_float x /\ (value x = 0 \/ bpow radix2 (-30) <= Rabs (value x) <= bpow radix2 40).
(** [x] is to the speed of [p'] what [x0] was to the speed of [p], with a relative error of at most [r]. *)
Definition scaled_within (r : R) (p p' : payload) (x0 x : f32) : Prop :=
  ordinary x0 -> finite_float x /\ exists e, Rabs e <= r /\
    value x * value (p_vs p) = value x0 * value (p_vs p') * (1 + e).
Definition scaled_with (p p' : payload) (x0 x : f32) : Prop := scaled_within (bpow radix2 (-21)) p p' x0 x.
(** Vp, density, Qp and Qs of [p'] go with its Vs as those of [p] did with that of [p]. *)
Definition ratios_kept (r : R) (p p' : payload) : Prop :=
  scaled_within r p p' (p_vp p) (p_vp p') /\ scaled_within r p p' (p_density p) (p_density p') /\
  scaled_within r p p' (p_qp p) (p_qp p') /\ scaled_within r p p' (p_qs p) (p_qs p').
(** The same without any error. *)
Definition exact_ratios (p p' : rpay) : Prop :=
  r_vp p' * r_vs p = r_vp p * r_vs p' /\ r_density p' * r_vs p = r_density p * r_vs p' /\
  r_qp p' * r_vs p = r_qp p * r_vs p' /\ r_qs p' * r_vs p = r_qs p * r_vs p'.

(** ** Databases *)
(** The records of a database: octants and values. *)
Definition records (P : Type) := list (addr * P).
(** Stored octants are well formed and stored once. *)
Definition records_ok {P} (l : records P) : Prop :=
  (forall h p, In (h, p) l -> octant_ok h) /\
  (forall h p h' p', In (h, p) l -> In (h', p') l -> same_octant h h' -> (h, p) = (h', p')).
(** Contract of the storage library: a search gives the values of the finest stored octant
    that contains the address; an update of a stored octant succeeds, sets its values and
    touches nothing else. *)
Definition stores {DB P} (G : gstore DB P) (rec : DB -> records P) : Prop :=
  (forall db a, match gs_search G db a with
     | Some p => exists h, In (h, p) (rec db) /\ covers h a /\
         forall h' p', In (h', p') (rec db) -> covers h' a -> (a_level h' <= a_level h)%Z
     | None => forall h p, In (h, p) (rec db) -> ~ covers h a
     end) /\
  (forall db a p, (exists h q, In (h, q) (rec db) /\ same_octant h a) ->
     exists db', gs_update G db a p = Some db' /\
       Forall2 (fun r r' => fst r' = fst r /\ (same_octant (fst r) a -> snd r' = p) /\
                            (~ same_octant (fst r) a -> snd r' = snd r)) (rec db) (rec db')).
(** The grid points lie in the distinct leaf octants [cell l w h]. *)
Definition grid_points {LL} (lonlat : Z -> Z -> outcome LL) (locate : LL -> Z -> outcome addr)
    (nl nw nh : Z) (cell : Z -> Z -> Z -> addr) : Prop :=
  (forall l w, (0 <= l < nl)%Z -> (0 <= w < nw)%Z -> exists ll, lonlat l w = Val ll /\
     forall h, (0 <= h < nh)%Z -> locate ll h = Val (cell l w h)) /\
  (forall l w h, in_grid nl nw nh l w h -> octant_ok (cell l w h) /\ a_type (cell l w h) = Leaf) /\
  (forall l w h l' w' h', in_grid nl nw nh l w h -> in_grid nl nw nh l' w' h' ->
     cell l w h = cell l' w' h' -> l = l' /\ w = w' /\ h = h').
(** The database holds the values [v] at the grid points. *)
Definition holds_grid {P} (l : records P) (nl nw nh : Z) (cell : Z -> Z -> Z -> addr) (v : Z -> Z -> Z -> P) : Prop :=
  forall i j k, in_grid nl nw nh i j k -> exists h, same_octant h (cell i j k) /\ In (h, v i j k) l.
(** The same octants in the same order, and the same values off the grid. *)
Definition same_elsewhere {P} (l l' : records P) (nl nw nh : Z) (cell : Z -> Z -> Z -> addr) : Prop :=
  Forall2 (fun r r' => fst r' = fst r /\
     ((forall i j k, in_grid nl nw nh i j k -> ~ same_octant (fst r) (cell i j k)) -> snd r' = snd r)) l l'.
