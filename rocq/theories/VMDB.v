(** Model of extensions/libsrc/cencalvmdb/CenCalVMDB.{h,icc,cc} and of the
    configuration in extensions/cencalvm/CenCalVMDB.py.

    Simplifications: the conversion of coordinates by the spatialdata library is a
    parameter; arrays passed by the caller are not null; an exception is a result
    of its own so that the state after it can be described. *)
From Coq Require Import ZArith Bool String List.
From Verif Require Import Outcome Float Payload Addr Geom ErrorHandler VMQuery.
Import ListNotations.
Open Scope Z_scope.

(** How a call ends: it returns, or throws std::runtime_error. *)
Inductive result (A : Type) := Returns (a : A) | Throws (m : string).
Arguments Returns {A}. Arguments Throws {A}.

(** CenCalVMDB.h:174-181 members *)
Record vmdb (DB : Type) := mkD {
  d_minVs : f64; d_vs : Z; d_vp : Z; d_density : Z; d_down : bool; d_q : qstate DB }.
Arguments mkD {DB}. Arguments d_minVs {DB}. Arguments d_vs {DB}. Arguments d_vp {DB}.
Arguments d_density {DB}. Arguments d_down {DB}. Arguments d_q {DB}.

Section VMDB.
Context {DB : Type}.
Notation db := (vmdb DB).

(** CenCalVMDB.cc:32-42 constructor *)
Definition vd_new (g : libm) : db := mkD f_zero (-1) (-1) (-1) false (q_new g).

Definition vd_set (d : db) (q : qstate DB) : db :=
  mkD (d_minVs d) (d_vs d) (d_vp d) (d_density d) (d_down d) q.

(** The test of the status after a call, e.g. CenCalVMDB.cc:60-61 *)
Definition checked {A} (q : qstate DB) (a : A) : result A :=
  match eh_status (q_err q) with ERROR => Throws (eh_msg (q_err q)) | _ => Returns a end.

(** CenCalVMDB.cc:54-62 open *)
Definition vd_open (E : env DB) (d : db) : outcome (db * result unit) :=
  let* q := open E (d_q d) in Val (vd_set d q, checked q tt).
(** CenCalVMDB.cc:66-74 close *)
Definition vd_close (E : env DB) (d : db) : outcome (db * result unit) :=
  let q := close E (d_q d) in Val (vd_set d q, checked q tt).
(** CenCalVMDB.cc:78-100 queryType; other numbers trip the assertion *)
Definition vd_queryType (n : Z) (d : db) : outcome (db * result unit) :=
  let* _ := assert_ ((n =? 0) || (n =? 1) || (n =? 2)) in
  let q := set_queryType n (d_q d) in Val (vd_set d q, checked q tt).

(** CenCalVMDB.cc:114-124: index of the last of the names equal to [what] up to
    case, [acc] if there is none *)
Fixpoint vd_index (what : string) (names : list string) (i acc : Z) : Z :=
  match names with
  | [] => acc
  | n :: names => vd_index what names (i + 1) (if casecmp n what then i else acc)
  end.
(** CenCalVMDB.cc:104-125 queryVals *)
Definition vd_queryVals (names : option (list string)) (d : db) : outcome (db * result unit) :=
  let* q := set_queryVals names (d_q d) in
  match checked q tt with
  | Throws m => Val (vd_set d q, Throws m)
  | Returns _ =>
      let names := match names with Some l => l | None => [] end in
      Val (mkD (d_minVs d) (vd_index "Vs" names 0 (-1)) (vd_index "Vp" names 0 (-1))
             (vd_index "density" names 0 (-1)) (d_down d) q, Returns tt)
  end.

(** CenCalVMDB.icc:18-69 *)
Definition vd_queryRes (r : f64) (d : db) : db := vd_set d (set_queryRes r (d_q d)).
Definition vd_minVs (v : f64) (d : db) : db :=
  mkD v (d_vs d) (d_vp d) (d_density d) (d_down d) (d_q d).
Definition vd_projectDownward (b : bool) (d : db) : db :=
  mkD (d_minVs d) (d_vs d) (d_vp d) (d_density d) b (d_q d).
Definition vd_filename (n : string) (d : db) : db := vd_set d (set_filename n (d_q d)).
Definition vd_cacheSize (s : Z) (d : db) : db := vd_set d (set_cacheSize s (d_q d)).
Definition vd_filenameExt (n : string) (d : db) : db := vd_set d (set_filenameExt n (d_q d)).
Definition vd_cacheSizeExt (s : Z) (d : db) : db := vd_set d (set_cacheSizeExt s (d_q d)).
Definition vd_squash (f : bool) (l : f64) (d : db) : db := vd_set d (set_squash f l (d_q d)).

(** pVals[i] *)
Definition elem (vals : list f64) (i : Z) : outcome f64 :=
  match nth_error vals (Z.to_nat i) with
  | Some v => Val v
  | None => UB "index out of range"%string
  end.
(** pVals[i] = v *)
Fixpoint store (vals : list f64) (i : nat) (v : f64) : list f64 :=
  match vals, i with
  | [], _ => []
  | _ :: l, O => v :: l
  | x :: l, S i => x :: store l i v
  end.

(** CenCalVMDB.cc:159-171 the loop; pow(2,iter-1) is exact.  [E i] is the world the
    i-th query meets. *)
Definition lowered (z : f64) (iter : Z) : f64 := sub64 z (mul64 (i2f64 (2 ^ (iter - 1))) (i2f64 25)).
Fixpoint project (fuel : nat) (E : Z -> env DB) (vs : Z) (x y z : f64) (iter : Z)
  (q : qstate DB) (fs : files) (vals : list f64) : outcome (qstate DB * files * list f64) :=
  let* v := elem vals vs in
  if flt v f_zero then
    let* (q', fs', vals') :=
      query (E iter) (with_err q (eh_reset (q_err q))) fs (Some vals) x y (lowered z iter) in
    if iter <? 8 then
      match fuel with
      | S fuel => project fuel E vs x y z (iter + 1) q' fs' vals'
      | O => UB "loop bound exceeded"%string
      end
    else Val (q', fs', vals')
  else Val (q, fs, vals).

(** CenCalVMDB.cc:172-173, 175-181, 182-188: replace element [i] by [floor] if it lies
    strictly between [above] and [floor] *)
Definition raise_to (i : Z) (above floor : f64) (vals : list f64) : outcome (list f64) :=
  let* v := elem vals i in
  Val (if flt above v && flt v floor then store vals (Z.to_nat i) floor else vals).

(** CenCalVMDB.cc:129-198 query.  The result [vals] is the caller's array
    afterwards. *)
Definition vd_query (E : Z -> env DB) (convert : f64 * f64 * f64 -> result (f64 * f64 * f64))
  (coords : list f64) (d : db) (fs : files) (vals : list f64)
  : outcome (db * files * list f64 * result Z) :=
  match coords with
  | [cx; cy; cz] =>
      match convert (cx, cy, cz) with
      | Throws m => Val (d, fs, vals, Throws m)
      | Returns (x, y, z) =>
          let z := if flt z (i2f64 (-44950)) then i2f64 (-44950) else z in
          let* (q, fs, vals) := query (E 0) (d_q d) fs (Some vals) x y z in
          match eh_status (q_err q) with
          | ERROR => Val (vd_set d q, fs, vals, Throws (eh_msg (q_err q)))
          | _ =>
              let* (q, fs, vals) :=
                if (0 <=? d_vs d) && d_down d then
                  let* (q, fs, vals) := project 8 E (d_vs d) x y z 1 q fs vals in
                  let* vals := raise_to (d_vs d) f_zero (d_minVs d) vals in
                  Val (q, fs, vals)
                else Val (q, fs, vals) in
              let minVp := add64 (i2f64 1360) (mul64 (dec64 116 2) (d_minVs d)) in
              let* vals := if 0 <=? d_vp d then raise_to (d_vp d) f_zero minVp vals else Val vals in
              let* vals := if 0 <=? d_density d
                           then raise_to (d_density d) (i2f64 1000) (i2f64 2000) vals else Val vals in
              match eh_status (q_err q) with
              | WARNING => Val (vd_set d (with_err q (eh_reset (q_err q))), fs, vals, Returns 1)
              | _ => Val (vd_set d q, fs, vals, Returns 0)
              end
          end
      end
  | _ => Abort
  end.

(** CenCalVMDB.py:56-88 the inventory.  [None]s and units are resolved by pyre: the
    fields are the values in SI units.  Both cache sizes are declared under the
    name "cache_size"; what the user's value is given to is left to the caller. *)
Record inventory := mkInv {
  i_type : string; i_res : f64; i_name : string; i_cache : Z; i_nameExt : string; i_cacheExt : Z;
  i_squash : bool; i_limit : f64; i_minVs : f64; i_down : bool }.
(** CenCalVMDB.py:103-126 _configure *)
Definition configure (i : inventory) (d : db) : outcome (db * result unit) :=
  let* (d, r) :=
    if String.eqb (i_type i) "maxres" then vd_queryType 0 d
    else if String.eqb (i_type i) "fixedres" then vd_queryType 0 d
    else if String.eqb (i_type i) "waveres" then vd_queryType 2 d
    else Val (d, Throws ("Unknown queryType '" ++ i_type i ++ "'.")%string) in
  match r with
  | Throws m => Val (d, Throws m)
  | Returns _ =>
      Val (vd_projectDownward (i_down i) (vd_minVs (i_minVs i) (vd_squash (i_squash i) (i_limit i)
        (vd_cacheSizeExt (i_cacheExt i) (vd_filenameExt (i_nameExt i) (vd_cacheSize (i_cache i)
        (vd_filename (i_name i) (vd_queryRes (i_res i) d))))))), Returns tt)
  end.
End VMDB.
