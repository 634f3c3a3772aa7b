(** Specification vocabulary for averaging a database, independent of the
    algorithm: what a well-formed input is, what the storage layer must accept,
    which octants are children of an octant, and the mean rule. *)
From Coq Require Import ZArith Bool Sorting.Sorted List.
From Verif Require Import Float Payload Addr SpecOct AvgEngine.
Import ListNotations.
Open Scope Z_scope.

(** An input database that was generated by the package: octants inside the root,
    below the root, in etree order, none containing another. *)
Record wf_input (inp : list (addr * payload)) : Prop := {
  wf_nonempty : inp <> [];
  wf_octants : forall a, In a (map fst inp) -> octant_ok a /\ 1 <= a_level a;
  wf_order : StronglySorted etree_lt (map fst inp);
  wf_disjoint : forall a b, In a (map fst inp) -> In b (map fst inp) -> ~ ancestor_of a b }.

(** Storage that accepts appends in etree order and updates of stored octants. *)
Definition accepts (st : storage) : Prop :=
  st_begin_ok st = true /\ st_end_ok st = true /\
  (forall db a, (forall r, In r db -> etree_lt (o_addr r) a) -> st_append_ok st db a = true) /\
  (forall db a, (exists r, In r db /\ same_octant (o_addr r) a) -> st_update_ok st db a = true).

(** Storage that refuses to append an octant that is already stored. *)
Definition refuses_duplicates (st : storage) : Prop :=
  forall db a, (exists r, In r db /\ same_octant (o_addr r) a) -> st_append_ok st db a = false.

(** The records of [db] at the octants that are one level finer than [a] and
    inside it, in the order of [db]. *)
Definition coversb (a b : addr) : bool :=
  (a_x a <=? a_x b) && (a_x b + side (a_level b) <=? a_x a + side (a_level a)) &&
  (a_y a <=? a_y b) && (a_y b + side (a_level b) <=? a_y a + side (a_level a)) &&
  (a_z a <=? a_z b) && (a_z b + side (a_level b) <=? a_z a + side (a_level a)).
Definition childb (a b : addr) : bool :=
  (a_level b =? a_level a + 1) && coversb a b.
Definition children (db : list orec) (a : addr) : list orec :=
  filter (fun r => childb a (o_addr r)) db.

(** Which of the eight positions inside its parent an octant occupies. *)
Definition child_number (a : addr) : Z := digit a (a_level a).
Definition child_numbers (db : list orec) (a : addr) : list Z :=
  map (fun r => child_number (o_addr r)) (children db a).

(** A record of the output that is an octant of the input. *)
Definition is_input (inp : list (addr * payload)) (r : orec) : bool :=
  existsb (fun x => same_key (fst x) (o_addr r)) inp.
Definition interior_records (inp : list (addr * payload)) (db : list orec) : list orec :=
  filter (fun r => negb (is_input inp r)) db.

(** Solid material has a positive shear speed; water a positive P speed. *)
Definition solid (p : payload) : bool := flt f_zero (p_vs p).
Definition water (p : payload) : bool := flt f_zero (p_vp p).

(** The children that count in the mean. *)
Definition contributors (cs : list payload) : list payload :=
  match filter solid cs with [] => filter water cs | s => s end.

(** Single-precision sums, in order.  The sum over solid values starts from the
    first value; the sum over water values starts from zero. *)
Definition sum_solid (xs : list f32) : f32 :=
  match xs with [] => f_zero | x :: r => fold_left add32 r x end.
Definition sum_water (xs : list f32) : f32 := fold_left add32 xs f_zero.

(** The mean of one property over the children: over the solid ones; if there is
    none, over the water ones; if there is none, the no-data value. *)
Definition mean_prop (g : payload -> f32) (cs : list payload) : f32 :=
  let s := filter solid cs in
  let w := filter water cs in
  match s, w with
  | _ :: _, _ => div32 (sum_solid (map g s)) (i2f32 (Z.of_nat (length s)))
  | [], _ :: _ => div32 (sum_water (map g w)) (i2f32 (Z.of_nat (length w)))
  | [], [] => i2f32 (-999)
  end.

(** What an octant with the children [cs] must hold. *)
Definition mean_payload (cs : list payload) (p : payload) : Prop :=
  (forall f : prop6, get6 f p = mean_prop (get6 f) cs) /\
  p_block p = -999 /\ p_zone p = -999.

(** The values stored in a list of records. *)
Definition values (rs : list orec) : list payload :=
  flat_map (fun r => match o_pay r with Some p => [p] | None => [] end) rs.

(** Single-precision values as the machine has them (canonical representation),
    and no NaN shear speed. *)
Definition proper_values (p : payload) : Prop :=
  (forall f, valid_binary prec32 emax32 (get6 f p) = true) /\ is_nan (p_vs p) = false.

(** The number of interior octants whose children occupy exactly the given
    positions. *)
Definition count_with (inp : list (addr * payload)) (db : list orec) (cs : list Z) : Z :=
  Z.of_nat (length (filter
    (fun r => if list_eq_dec Z.eq_dec (child_numbers db (o_addr r)) cs then true else false)
    (interior_records inp db))).
(** The positions 0..7 have x in bit 0, y in bit 1, z in bit 2. *)
Definition all_children := [0; 1; 2; 3; 4; 5; 6; 7].
Definition missing_x := [0; 2; 4; 6].
Definition missing_y := [0; 1; 4; 5].
Definition missing_z := [0; 1; 2; 3].
Definition missing_xy := [0; 4].
Definition missing_yz := [0; 1].
Definition missing_xz := [0; 2].
Definition missing_xyz := [0].
Definition regular_classes :=
  [all_children; missing_x; missing_y; missing_z; missing_xy; missing_yz; missing_xz; missing_xyz].
Definition count_irregular (inp : list (addr * payload)) (db : list orec) : Z :=
  Z.of_nat (length (filter
    (fun r => if in_dec (list_eq_dec Z.eq_dec) (child_numbers db (o_addr r)) regular_classes
              then false else true)
    (interior_records inp db))).
