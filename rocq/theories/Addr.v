(** Octant addresses and ancestor computation.
    Models etree_addr_t as used in /repo (libsrc/cencalvm/storage/etreefwd.h and
    the external etree.h) and libsrc/cencalvm/storage/Geometry.cc. *)
From Coq Require Import ZArith Bool List String.
From Verif Require Import Outcome.
Open Scope Z_scope.

(** etree_type_t of the external etree.h *)
Inductive otype := Leaf | Interior.

Definition otype_eqb (a b : otype) : bool :=
  match a, b with Leaf, Leaf | Interior, Interior => true | _, _ => false end.

(** etree_addr_t: four unsigned 32-bit ticks, a level and a type. *)
Record addr := mkAddr {
  a_x : Z; a_y : Z; a_z : Z; a_t : Z; a_level : Z; a_type : otype }.

(** ETREE_MAXLEVEL of the external etree.h *)
Definition MAXLEVEL : Z := 31.

(** conversion to etree_tick_t = uint32_t (etreefwd.h) *)
Definition u32 (z : Z) : Z := z mod 2 ^ 32.

(** Geometry.cc:22-23 _LEFTMOSTONE = ~(~0u >> 1) *)
Definition LEFTMOSTONE : Z :=
  let ones := u32 (Z.lnot 0) in u32 (Z.lnot (Z.shiftr ones 1)).

(** Conversion uint32_t -> signed int (two's complement). *)
Definition s32 (z : Z) : Z := if z <? 2 ^ 31 then z else z - 2 ^ 32.

(** Geometry.cc:45: etree_tick_t mask = ((signed) _LEFTMOSTONE) >> ancestorLevel
    (arithmetic shift of a negative int, then conversion to unsigned). *)
Definition ancestor_mask (lvl : Z) : Z := u32 (Z.shiftr (s32 LEFTMOSTONE) lvl).

(** Geometry.cc:36-52 Geometry::findAncestor.  Shifting by more than 31 is
    undefined; that needs a child level above 32, which the address formats
    exclude, but it is kept as an outcome. *)
Definition findAncestor (child : addr) (lvl : Z) : outcome addr :=
  let* _ := assert_ ((0 <=? lvl) && (lvl <? a_level child)) in
  if 32 <=? lvl then UB "shift by at least the width of int"%string
  else
    let mask := ancestor_mask lvl in
    Val (mkAddr (Z.land (a_x child) mask) (Z.land (a_y child) mask)
                (Z.land (a_z child) mask) 0 lvl Interior).

(** The etree key: position and level (the type is not part of the key). *)
Definition same_key (a b : addr) : bool :=
  (a_x a =? a_x b) && (a_y a =? a_y b) && (a_z a =? a_z b) && (a_level a =? a_level b).
