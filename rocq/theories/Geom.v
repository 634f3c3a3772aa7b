(** Geometry of the model: libsrc/cencalvm/storage/GeomCenCA.{h,icc,cc} and
    Projector.cc.

    External functions are fields of the record [libm]: the C library's cos, sin
    and log, and the PROJ library's forward and inverse transformations
    (longitude and latitude in degrees; [None] when proj_errno reports an error).
    Simplification: the text of the exceptions thrown by Projector contains only
    the first line. *)
From Coq Require Import ZArith Bool List String.
From Verif Require Import Outcome Float Addr.
Import ListNotations.
Open Scope Z_scope.

Record libm := mkLibm {
  m_cos : f64 -> f64;
  m_sin : f64 -> f64;
  m_log : f64 -> f64;
  m_project : f64 -> f64 -> option (f64 * f64);
  m_invproject : f64 -> f64 -> option (f64 * f64) }.

(** GeomCenCA.cc:31-38 constants *)
Definition ROOTLEN : f64 := i2f64 1638400.
Definition AZ : f64 := dec64 53638 3.
Definition VERTEXAG : f64 := i2f64 4.
Definition PROJXNW : f64 := dec64 (-74937817) 3.
Definition PROJYNW : f64 := dec64 380186124 3.
Definition BUFFERNW : f64 := i2f64 409600.
Definition BUFFERSW : f64 := i2f64 204800.
Definition MAXELEV : f64 := i2f64 12800.
(** M_PI of math.h: 3.14159265358979323846 as a double *)
Definition M_PI64 : f64 := S754_finite false 7074237752028440 (-51).
(** _AZ * M_PI / 180.0 (GeomCenCA.cc:45-49, 86, 132) *)
Definition azR : f64 := div64 (mul64 AZ M_PI64) (i2f64 180).

(** Conversion double -> uint32_t (etree_tick_t): truncation; undefined when the
    truncated value does not fit. *)
Definition f2tick (x : f64) : outcome Z :=
  match ftrunc x with
  | Some k => if (0 <=? k) && (k <? 2 ^ 32) then Val k
              else UB "double to unsigned conversion out of range"%string
  | None => UB "double to unsigned conversion of NaN or infinity"%string
  end.

(** Conversion double -> int *)
Definition f2int (x : f64) : outcome Z :=
  match ftrunc x with
  | Some k => if (- 2 ^ 31 <=? k) && (k <? 2 ^ 31) then Val k
              else UB "double to int conversion out of range"%string
  | None => UB "double to int conversion of NaN or infinity"%string
  end.

(** GeomCenCA.icc:18-22 edgeLen: _ROOTLEN / ((etree_tick_t) 1 << level); shifting
    by 32 or more is undefined.  The parameter is unsigned, so a negative level
    wraps to a large one. *)
Definition edgeLen (level : Z) : outcome f64 :=
  if (0 <=? level) && (level <? 32) then Val (div64 ROOTLEN (i2f64 (2 ^ level)))
  else UB "shift out of range"%string.

Section WithLibm.
Variable L : libm.

(** GeomCenCA.cc:43-52 constructor *)
Definition projXNWRoot : f64 :=
  sub64 (sub64 PROJXNW (mul64 BUFFERNW (m_cos L azR))) (mul64 BUFFERSW (m_sin L azR)).
Definition projYNWRoot : f64 :=
  sub64 (add64 PROJYNW (mul64 BUFFERNW (m_sin L azR))) (mul64 BUFFERSW (m_cos L azR)).

(** GeomCenCA.cc:87-90: rotation of projected coordinates into the root octant *)
Definition rot_p (x y : f64) : f64 :=
  sub64 (mul64 (sub64 x projXNWRoot) (m_cos L azR)) (mul64 (sub64 y projYNWRoot) (m_sin L azR)).
Definition rot_q (x y : f64) : f64 :=
  add64 (mul64 (sub64 x projXNWRoot) (m_sin L azR)) (mul64 (sub64 y projYNWRoot) (m_cos L azR)).
(** GeomCenCA.cc:91 *)
Definition vert_r (elev : f64) : f64 :=
  add64 (mul64 (sub64 elev MAXELEV) VERTEXAG) ROOTLEN.

(** GeomCenCA.cc:93-95 *)
Definition out_of_root (c : f64) : bool := flt c f_zero || fgt c ROOTLEN.

(** GeomCenCA.cc:93-111: from rotated coordinates to the address; the result is
    the return code and the address.  [a] is the address on entry: its level and
    type are kept. *)
Definition pqr_to_addr (a : addr) (p q r : f64) : outcome (Z * addr) :=
  if out_of_root p || out_of_root q || out_of_root r then
    Val (1, mkAddr (u32 (-1)) (u32 (-1)) (u32 (-1)) 0 (a_level a) (a_type a))
  else
    let res := div64 ROOTLEN (i2f64 (2 ^ a_level a)) in
    let tickLen := Z.shiftr 2147483648 (a_level a) in
    let* i := f2tick (div64 p res) in
    let* j := f2tick (div64 q res) in
    let* k := f2tick (div64 r res) in
    Val (0, mkAddr (u32 (tickLen * i)) (u32 (tickLen * j)) (u32 (tickLen * k)) 0
                   (a_level a) (a_type a)).

(** Projector.cc:64-86 project *)
Definition project (lon lat : f64) : outcome (f64 * f64) :=
  match m_project L lon lat with
  | Some xy => Val xy
  | None => Throw "Error while projecting location."%string
  end.
(** Projector.cc:90-111 invProject *)
Definition invProject (x y : f64) : outcome (f64 * f64) :=
  match m_invproject L x y with
  | Some ll => Val ll
  | None => Throw "Error while inverse projecting location."%string
  end.

(** GeomCenCA.cc:70-112 lonLatElevToAddr *)
Definition lonLatElevToAddr (a : addr) (lon lat elev : f64) : outcome (Z * addr) :=
  let* _ := assert_ ((0 <=? a_level a) && (a_level a <? 32)) in
  let* (x, y) := project lon lat in
  pqr_to_addr a (rot_p x y) (rot_q x y) (vert_r elev).

(** GeomCenCA.cc:128-130: centre of the octant along one axis *)
Definition centre (level tick : Z) : f64 :=
  mul64 (add64 (div64 (i2f64 tick) (i2f64 (Z.shiftr 2147483648 level))) half64)
        (div64 ROOTLEN (i2f64 (2 ^ level))).

(** GeomCenCA.cc:116-141 addrToLonLatElev: longitude, latitude, elevation *)
Definition addrToLonLatElev (a : addr) : outcome (f64 * f64 * f64) :=
  let* _ := assert_ ((0 <=? a_level a) && (a_level a <? 32)) in
  let p := centre (a_level a) (a_x a) in
  let q := centre (a_level a) (a_y a) in
  let r := centre (a_level a) (a_z a) in
  let x := add64 (add64 projXNWRoot (mul64 p (m_cos L azR))) (mul64 q (m_sin L azR)) in
  let y := add64 (sub64 projYNWRoot (mul64 p (m_sin L azR))) (mul64 q (m_cos L azR)) in
  let elev := add64 (div64 (sub64 r ROOTLEN) VERTEXAG) MAXELEV in
  let* (lon, lat) := invProject x y in
  Val (lon, lat, elev).

(** GeomCenCA.icc:26-30 level: int(0.5 + log(_ROOTLEN / res) / log(2.0)) *)
Definition level (res : f64) : outcome Z :=
  f2int (add64 half64 (div64 (m_log L (div64 ROOTLEN res)) (m_log L (i2f64 2)))).

End WithLibm.

(** Sanity check: with a projection that puts the location at model coordinates
    p = 100000.5, level 5 gives x tick 2^26 * floor(p / 51200). *)
Example pqr_ex :
  pqr_to_addr (mkAddr 0 0 0 0 5 Leaf) (dec64 1000005 1) (i2f64 0) (i2f64 1638399) =
  Val (0, mkAddr (2 ^ 26 * 1) 0 (2 ^ 26 * 31) 0 5 Leaf).
Proof. vm_compute. reflexivity. Qed.
