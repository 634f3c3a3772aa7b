(** Model of the averaging engine, libsrc/cencalvm/average/AvgEngine.{h,cc}.

    The engine walks the leaf octants of the input database in etree order and
    appends leaves and interior octants to the output database, filling the
    interior ones with averages.  The table of pending octants, its cursor and
    the counters are modelled literally.  The output database is the list of
    records in the order in which they were appended; a record whose payload is
    [None] was appended with the uninitialised payload of _createOctant and not
    yet updated.

    The external etree calls are parameters of the model (record [storage]):
    whether an append or an update succeeds is decided by an arbitrary function
    of the output database and the address. *)
From Coq Require Import ZArith Bool List String.
From Verif Require Import Outcome Float Payload Addr.
Import ListNotations.
Open Scope Z_scope.

(** A record of the output database. *)
Record orec := mkOrec { o_addr : addr; o_pay : option payload }.

(** Success of the external etree_append / etree_update / etree_beginappend /
    etree_endappend calls. *)
Record storage := mkStorage {
  st_begin_ok : bool;
  st_append_ok : list orec -> addr -> bool;
  st_update_ok : list orec -> addr -> bool;
  st_end_ok : bool }.

(** AvgEngine.h:70-85 OctantPendingStruct (with PendingDataStruct inlined).
    [s_sum = None]: the PayloadStruct allocated in the constructor has not been
    written yet. *)
Record slot := mkSlot {
  s_sum : option payload; s_n : Z; s_addr : addr; s_bits : Z; s_valid : bool }.

(** AvgEngine.h:86-98 CounterStruct.  Simplification: the uint64_t counters do not
    overflow (fewer than 2^64 octants). *)
Record counters := mkCnt {
  c_input : Z; c_output : Z; c_interior : Z;
  c_x : Z; c_y : Z; c_z : Z; c_xy : Z; c_yz : Z; c_xz : Z; c_xyz : Z;
  c_invalid : Z }.

Record est := mkEst {
  e_tab : list slot; e_cur : Z; e_cnt : counters; e_db : list orec }.

(** AvgEngine.cc:41 pendingSize *)
Definition pendingSize : nat := 32.   (* ETREE_MAXLEVEL + 1 *)

(** AvgEngine.cc:33-68 constructor.  (The type member of the addresses is left
    uninitialised by the code; it is never read before _createOctant.) *)
Definition slot0 : slot := mkSlot None 0 (mkAddr 0 0 0 0 0 Leaf) 0 false.
Definition cnt0 : counters := mkCnt 0 0 0 0 0 0 0 0 0 0 0.
Definition engine0 : est := mkEst (repeat slot0 pendingSize) (-1) cnt0 [].

(** Table access: outside the allocated array it is undefined behaviour. *)
Definition tab_get (s : est) (i : nat) : outcome slot :=
  match nth_error (e_tab s) i with
  | Some x => Val x
  | None => UB "pending table index out of bounds"%string
  end.

Fixpoint list_set {A} (l : list A) (i : nat) (x : A) : list A :=
  match l, i with
  | [], _ => []
  | _ :: r, O => x :: r
  | y :: r, S j => y :: list_set r j x
  end.

Definition tab_set (s : est) (i : nat) (x : slot) : est :=
  mkEst (list_set (e_tab s) i x) (e_cur s) (e_cnt s) (e_db s).

(** Success of the calls that read the input through a cursor: etree_initcursor,
    etree_getcursor and etree_advcursor at the record with a given address
    (etree_advcursor has the same result at the end of the data and after an
    error). *)
Record reading := mkReading { rd_init : bool; rd_get : addr -> bool; rd_adv : addr -> bool }.

Section Engine.
Variable st : storage.

(** AvgEngine.cc:486-497 _childOctantBit.  Shifting a 32-bit value by 32 or more
    (or by a negative amount) is undefined. *)
Definition childOctantBit (a : addr) : outcome Z :=
  if (a_level a <? 0) || (32 <=? a_level a) then UB "shift out of range"%string
  else
    let mask := Z.shiftr LEFTMOSTONE (a_level a) in
    let sh := (if negb (Z.land mask (a_z a) =? 0) then 4 else 0)
            + (if negb (Z.land mask (a_y a) =? 0) then 2 else 0)
            + (if negb (Z.land mask (a_x a) =? 0) then 1 else 0) in
    Val (Z.shiftl 1 sh).

(** AvgEngine.cc:501-513 _sameAddr *)
Definition sameAddr (a b : addr) : bool :=
  (a_x a =? a_x b) && (a_y a =? a_y b) && (a_z a =? a_z b) &&
  (a_t a =? a_t b) && (a_level a =? a_level b).

(** Componentwise += of the six float members (AvgEngine.cc:228-233, 249-254);
    fault block and zone of the sum are untouched. *)
Definition pay_add (s c : payload) : payload :=
  mkPayload (add32 (p_vp s) (p_vp c)) (add32 (p_vs s) (p_vs c))
            (add32 (p_density s) (p_density c)) (add32 (p_qp s) (p_qp c))
            (add32 (p_qs s) (p_qs c)) (add32 (p_dfs s) (p_dfs c))
            (p_block s) (p_zone s).
(** Componentwise = (AvgEngine.cc:237-242) *)
Definition pay_replace (s c : payload) : payload :=
  mkPayload (p_vp c) (p_vs c) (p_density c) (p_qp c) (p_qs c) (p_dfs c)
            (p_block s) (p_zone s).

(** AvgEngine.cc:223-256: the data part of _addToParent. *)
Definition accumulate (n : Z) (sum child : payload) : Z * payload :=
  if fgt (p_vs child) f_zero then
    if fgt (p_vs sum) f_zero then (n + 1, pay_add sum child)
    else (1, pay_replace sum child)
  else if fgt (p_vp child) f_zero then
    if fle (p_vs sum) f_zero then (n + 1, pay_add sum child) else (n, sum)
  else (n, sum).

(** AvgEngine.cc:190-257 _addToParent, on the slot at index [pi]. *)
Definition addToParent (s : est) (pi : nat) (child : addr) (cp : payload)
  : outcome est :=
  let* par := tab_get s pi in
  let* _ := assert_ (a_level child - 1 =? a_level (s_addr par)) in
  let* bit := childOctantBit child in
  if negb (Z.land (s_bits par) bit =? 0) then
    Throw "Consistency check for parent/child failed"%string
  else
    match s_sum par with
    | None => UB "read of uninitialised sum"%string
    | Some sum =>
        let (n', sum') := accumulate (s_n par) sum cp in
        Val (tab_set s pi (mkSlot (Some sum') n' (s_addr par)
                                  (Z.lor (s_bits par) bit) (s_valid par)))
    end.

(** etree_append through the parameter (AvgEngine.cc:167-170, 460-462). *)
Definition append (s : est) (a : addr) (p : option payload) (msg : string)
  : outcome est :=
  if st_append_ok st (e_db s) a
  then Val (mkEst (e_tab s) (e_cur s) (e_cnt s) (e_db s ++ [mkOrec a p]))
  else Throw msg.

(** AvgEngine.cc:261-271 _updateOctant: etree_update fails if the octant is not
    in the database (or if the storage says so). *)
Definition updateOctant (s : est) (a : addr) (p : payload) : outcome est :=
  if existsb (fun r => same_key (o_addr r) a) (e_db s) && st_update_ok st (e_db s) a
  then Val (mkEst (e_tab s) (e_cur s) (e_cnt s)
              (map (fun r => if same_key (o_addr r) a
                             then mkOrec (o_addr r) (Some p) else r) (e_db s)))
  else Throw "Could not update octant in etree database."%string.

(** AvgEngine.cc:280-295: child sets of incomplete octants. *)
Definition X0_Y0_Z0 := 1. Definition X1_Y0_Z0 := 2. Definition X0_Y1_Z0 := 4.
Definition X1_Y1_Z0 := 8. Definition X0_Y0_Z1 := 16. Definition X1_Y0_Z1 := 32.
Definition X0_Y1_Z1 := 64.
Definition INC_FULL := 255.
Definition INC_X := Z.lor (Z.lor (Z.lor X0_Y0_Z0 X0_Y1_Z0) X0_Y0_Z1) X0_Y1_Z1.
Definition INC_Y := Z.lor (Z.lor (Z.lor X0_Y0_Z0 X1_Y0_Z0) X0_Y0_Z1) X1_Y0_Z1.
Definition INC_Z := Z.lor (Z.lor (Z.lor X0_Y0_Z0 X1_Y0_Z0) X0_Y1_Z0) X1_Y1_Z0.
Definition INC_XY := Z.lor X0_Y0_Z0 X0_Y0_Z1.
Definition INC_YZ := Z.lor X0_Y0_Z0 X1_Y0_Z0.
Definition INC_XZ := Z.lor X0_Y0_Z0 X0_Y1_Z0.
Definition INC_XYZ := X0_Y0_Z0.

(** AvgEngine.cc:301-328: the switch over processedChildren. *)
Definition classify (b : Z) (c : counters) : counters :=
  let '(mkCnt i o t x y z xy yz xz xyz inv) := c in
  if b =? INC_FULL then c
  else if b =? INC_X then mkCnt i o t (x+1) y z xy yz xz xyz inv
  else if b =? INC_Y then mkCnt i o t x (y+1) z xy yz xz xyz inv
  else if b =? INC_Z then mkCnt i o t x y (z+1) xy yz xz xyz inv
  else if b =? INC_XY then mkCnt i o t x y z (xy+1) yz xz xyz inv
  else if b =? INC_YZ then mkCnt i o t x y z xy (yz+1) xz xyz inv
  else if b =? INC_XZ then mkCnt i o t x y z xy yz (xz+1) xyz inv
  else if b =? INC_XYZ then mkCnt i o t x y z xy yz xz (xyz+1) inv
  else mkCnt i o t x y z xy yz xz xyz (inv+1).

(** AvgEngine.cc:330-352: payload of a finished octant. *)
Definition finish_payload (n : Z) (sum : payload) : payload :=
  if 0 <? n then
    mkPayload (div32 (p_vp sum) (i2f32 n)) (div32 (p_vs sum) (i2f32 n))
              (div32 (p_density sum) (i2f32 n)) (div32 (p_qp sum) (i2f32 n))
              (div32 (p_qs sum) (i2f32 n)) (div32 (p_dfs sum) (i2f32 n))
              INTERIORBLOCK INTERIORZONE
  else mkPayload NODATAVAL NODATAVAL NODATAVAL NODATAVAL NODATAVAL NODATAVAL
                 INTERIORBLOCK INTERIORZONE.

Definition set_cnt (s : est) (c : counters) : est :=
  mkEst (e_tab s) (e_cur s) c (e_db s).
Definition set_cur (s : est) (c : Z) : est :=
  mkEst (e_tab s) c (e_cnt s) (e_db s).

(** AvgEngine.cc:275-366 _processOctant.  The sum is read only if a child
    contributed. *)
Definition processOctant (s : est) (l : nat) : outcome est :=
  let* _ := assert_ (Nat.ltb l pendingSize) in
  let* sl := tab_get s l in
  let* _ := assert_ (s_valid sl) in
  let s := set_cnt s (classify (s_bits sl) (e_cnt s)) in
  let* pay := (if 0 <? s_n sl then
                 match s_sum sl with
                 | Some sum => Val (finish_payload (s_n sl) sum)
                 | None => UB "read of uninitialised sum"%string
                 end
               else Val (finish_payload 0 (mkPayload f_zero f_zero f_zero f_zero
                                             f_zero f_zero 0 0))) in
  let* s := updateOctant s (s_addr sl) pay in
  let* s := (match l with
             | O => Val s
             | S k =>
                 let* par := tab_get s k in
                 let* _ := assert_ (a_level (s_addr par) =? a_level (s_addr sl) - 1) in
                 addToParent s k (s_addr sl) pay
             end) in
  let* sl' := tab_get s l in
  let s := tab_set s l (mkSlot (s_sum sl') (s_n sl') (s_addr sl') (s_bits sl') false) in
  let* _ := assert_ (Z.of_nat l =? e_cur s) in
  Val (set_cur s (Z.of_nat l - 1)).

(** AvgEngine.cc:447-482 _createOctant *)
Definition createOctant (s : est) (a : addr) : outcome est :=
  if a_level a <? 0 then UB "pending table index out of bounds"%string else
  let l := Z.to_nat (a_level a) in
  let* sl := tab_get s l in
  let* _ := assert_ (negb (s_valid sl)) in
  let* _ := assert_ (Z.of_nat l =? e_cur s + 1) in
  let* s := append s a None "Error occurred while appending new octant to etree."%string in
  let s := tab_set s l
    (mkSlot (Some (mkPayload f_zero f_zero f_zero f_zero f_zero f_zero
                             INTERIORBLOCK INTERIORZONE)) 0 a 0 true) in
  let s := set_cur s (Z.of_nat l) in
  let '(mkCnt i o t x y z xy yz xz xyz inv) := e_cnt s in
  Val (set_cnt s (mkCnt i (o+1) (t+1) x y z xy yz xz xyz inv)).

(** AvgEngine.cc:390-394: for (pendingLevel = _pendingCursor; pendingLevel >=
    levelCur; --pendingLevel) _processOctant(pendingLevel).  [n] is the number
    of iterations left; the level processed is lo + n - 1. *)
Fixpoint process_down (s : est) (lo : nat) (n : nat) : outcome est :=
  match n with
  | O => Val s
  | S k => let* s := processOctant s (lo + k) in process_down s lo k
  end.

(** AvgEngine.cc:397-399: lowest level of a valid pending octant.  [n] is
    pendingLevel + 1; the result is the new pendingLevel + 1. *)
Fixpoint find_valid (s : est) (n : nat) : outcome nat :=
  match n with
  | O => Val O
  | S k => let* sl := tab_get s k in
           if s_valid sl then Val (S k) else find_valid s k
  end.

(** AvgEngine.cc:402-417: process pending octants that are not ancestors of the
    current octant or are complete.  [n] is pendingLevel + 1. *)
Fixpoint close_stale (s : est) (a : addr) (n : nat) : outcome (est * nat) :=
  match n with
  | O => Val (s, O)
  | S k =>
      let* sl := tab_get s k in
      if s_valid sl then
        let* anc := findAncestor a (Z.of_nat k) in
        if negb (sameAddr anc (s_addr sl)) || (s_bits sl =? INC_FULL) then
          let* _ := assert_ (Z.of_nat k =? e_cur s) in
          let* s := processOctant s k in
          close_stale s a k
        else Val (s, S k)
      else Val (s, S k)
  end.

(** AvgEngine.cc:420-424: create pending ancestors at levels [from] ..
    level - 1.  [n] is the number of levels left. *)
Fixpoint create_up (s : est) (a : addr) (from n : nat) : outcome est :=
  match n with
  | O => Val s
  | S k => let* anc := findAncestor a (Z.of_nat from) in
           let* s := createOctant s anc in
           create_up s a (S from) k
  end.

(** AvgEngine.cc:370-427 _findParent, for level > 0 (level 0 returns -1 at line
    379-380 and is not reached from _averageOctant).  Returns the level of the
    parent, level - 1. *)
Definition findParent (s : est) (a : addr) : outcome (est * nat) :=
  let* _ := assert_ (0 <=? a_level a) in
  let* _ := assert_ (a_level a <=? Z.of_nat pendingSize) in
  let lev := Z.to_nat (a_level a) in
  let* s := process_down s lev (Z.to_nat (e_cur s - a_level a + 1)) in
  let* n := find_valid s lev in
  let* (s, n) := close_stale s a n in
  let* s := create_up s a n (lev - n) in
  Val (s, (lev - 1)%nat).

(** AvgEngine.cc:178-184: while the pending octant is complete, process it and
    go up.  [n] is pendingLevel + 1. *)
Fixpoint close_full (s : est) (n : nat) : outcome (est * nat) :=
  match n with
  | O => Val (s, O)
  | S k =>
      let* sl := tab_get s k in
      if s_bits sl =? INC_FULL then
        let* _ := assert_ (s_valid sl) in
        let* _ := assert_ (Z.of_nat k =? e_cur s) in
        let* s := processOctant s k in
        close_full s k
      else Val (s, S k)
  end.

(** AvgEngine.cc:150-187 _averageOctant *)
Definition averageOctant (s : est) (a : addr) (p : payload) : outcome est :=
  if a_level a <=? 0 then Val s
  else
    let* (s, pl) := findParent s a in
    let* _ := assert_ (Z.of_nat pl =? a_level a - 1) in
    let* _ := assert_ (Z.of_nat pl <=? e_cur s) in
    let* s := append s a (Some p)
        "Error occurred while trying to append octant to etree."%string in
    let '(mkCnt i o t x y z xy yz xz xyz inv) := e_cnt s in
    let s := set_cnt s (mkCnt (i+1) (o+1) t x y z xy yz xz xyz inv) in
    let* s := addToParent s pl a p in
    let* (s, n) := close_full s (S pl) in
    let* _ := assert_ (Z.of_nat n - 1 <=? e_cur s) in
    Val s.

(** AvgEngine.cc:431-444 _finishProcessing.  [n] is pendingLevel + 1. *)
Fixpoint finishProcessing (s : est) (n : nat) : outcome est :=
  match n with
  | O => Val s
  | S k =>
      let* sl := tab_get s k in
      if s_valid sl then
        let* _ := assert_ (Z.of_nat k =? e_cur s) in
        let* s := processOctant s k in
        finishProcessing s k
      else finishProcessing s k
  end.

(** AvgEngine.cc:108-115: the loop over the input cursor. *)
Fixpoint averageAll (s : est) (inp : list (addr * payload)) : outcome est :=
  match inp with
  | [] => Val s
  | (a, p) :: r => let* s := averageOctant s a p in averageAll s r
  end.

(** AvgEngine.cc:83-123 fillOctants, when the calls that read the input work.  The
    input database is the list of its octants in cursor order; etree_initcursor
    fails on an empty database (external behaviour: there is no octant to
    position on). *)
Definition fillOctants (inp : list (addr * payload)) : outcome est :=
  match inp with
  | [] => Throw "Error occurred while initializing etree cursor."%string
  | _ =>
      if st_begin_ok st then
        let* s := averageAll engine0 inp in
        let* s := finishProcessing s pendingSize in
        if st_end_ok st then Val s
        else Throw "Error occurred while trying to terminate appending of etree."%string
      else Throw "Error occurred while trying to initiate appending of etree."%string
  end.

(** AvgEngine.cc:107-115: the loop when the calls that read the input can fail. *)
Fixpoint averageFrom (R : reading) (s : est) (inp : list (addr * payload)) : outcome est :=
  match inp with
  | [] => Val s
  | (a, p) :: r =>
      if rd_get R a then
        let* s := averageOctant s a p in
        if rd_adv R a then averageFrom R s r else Val s
      else Throw "Error occurred while trying to get payload at current cursor position."%string
  end.
(** AvgEngine.cc:83-123 fillOctants, with any result of the reading calls. *)
Definition fillFrom (R : reading) (inp : list (addr * payload)) : outcome est :=
  if (match inp with [] => true | _ => false end) || negb (rd_init R)
  then Throw "Error occurred while initializing etree cursor."%string
  else if negb (st_begin_ok st)
  then Throw "Error occurred while trying to initiate appending of etree."%string
  else
    let* s := averageFrom R engine0 inp in
    let* s := finishProcessing s pendingSize in
    if st_end_ok st then Val s
    else Throw "Error occurred while trying to terminate appending of etree."%string.

End Engine.
