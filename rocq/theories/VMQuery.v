(** Model of libsrc/cencalvm/query/VMQuery.{h,icc,cc}.

    The etree library and number formatting are fields of the record [env]; a
    theorem about a history of calls may use a different [env] at each call.
    A database handle has an abstract type.  etree_search leaves the payload and
    the hit address alone when it fails. *)
From Coq Require Import ZArith Bool List String Ascii.
From Verif Require Import Outcome Float Payload Addr Geom ErrorHandler.
Import ListNotations.
Open Scope Z_scope.

Record env (DB : Type) := mkEnv {
  e_open : string -> Z -> option DB;                 (* etree_open(name, O_RDONLY, cache, 0, 0) *)
  e_close : DB -> bool;                              (* etree_close returns 0 *)
  e_search : DB -> addr -> option (addr * payload);  (* etree_search(db, addr, &hit, "*", &payload) *)
  e_writable : string -> bool;                       (* a log file can be opened *)
  e_sci : f64 -> string;                             (* scientific, 6 digits *)
  e_gen : f64 -> string;                             (* default formatting of a double *)
  e_straddr : addr -> string }.                      (* etree_straddr *)
Arguments mkEnv {DB}.
Arguments e_open {DB}. Arguments e_close {DB}. Arguments e_search {DB}.
Arguments e_writable {DB}. Arguments e_sci {DB}. Arguments e_gen {DB}. Arguments e_straddr {DB}.

(** VMQuery.h:71-75 enum QueryEnum *)
Inductive qtype := MAXRES | FIXEDRES | WAVERES.
Definition qtype_of (n : Z) : option qtype :=
  if n =? 0 then Some MAXRES else if n =? 1 then Some FIXEDRES
  else if n =? 2 then Some WAVERES else None.

(** VMQuery.h:305-328 data members.  [q_vals] is the array _pQueryVals of
    _querySize selectors; [None] is an element that was never written.  The
    geometry object is identified with the external functions it uses. *)
Record qstate (DB : Type) := mkQ {
  q_res : f64; q_limit : f64; q_db : option DB; q_dbExt : option DB;
  q_vals : list (option Z); q_geom : libm; q_err : errh;
  q_name : string; q_nameExt : string; q_type : qtype;
  q_cache : Z; q_cacheExt : Z; q_squash : bool }.
Arguments mkQ {DB}.
Arguments q_res {DB}. Arguments q_limit {DB}. Arguments q_db {DB}. Arguments q_dbExt {DB}.
Arguments q_vals {DB}. Arguments q_geom {DB}. Arguments q_err {DB}. Arguments q_name {DB}.
Arguments q_nameExt {DB}. Arguments q_type {DB}. Arguments q_cache {DB}. Arguments q_cacheExt {DB}.
Arguments q_squash {DB}.

Definition NL : string := String (ascii_of_nat 10) EmptyString.
Definition nodata64 : f64 := nodataval64.

Section VMQuery.
Context {DB : Type}.
Notation st := (qstate DB).

Definition with_err (q : st) (e : errh) : st :=
  mkQ (q_res q) (q_limit q) (q_db q) (q_dbExt q) (q_vals q) (q_geom q) e
      (q_name q) (q_nameExt q) (q_type q) (q_cache q) (q_cacheExt q) (q_squash q).

(** VMQuery.cc:32-53 constructor *)
Definition q_new (g : libm) : st :=
  mkQ f_zero (i2f64 (-2000)) None None (map (fun i => Some (Z.of_nat i)) (seq 0 9)) g eh_new
      "" "" MAXRES 128 128 false.

(** VMQuery.cc:67-72 geometry: the old pointer is tested after it was deleted; it
    is never null here, so the argument is dereferenced. *)
Definition geometry (g : option libm) (q : st) : outcome st :=
  match g with
  | Some g => Val (mkQ (q_res q) (q_limit q) (q_db q) (q_dbExt q) (q_vals q) g (q_err q)
      (q_name q) (q_nameExt q) (q_type q) (q_cache q) (q_cacheExt q) (q_squash q))
  | None => UB "null geometry dereferenced"%string
  end.

Definition set_db (q : st) (d x : option DB) (e : errh) : st :=
  mkQ (q_res q) (q_limit q) d x (q_vals q) (q_geom q) e
      (q_name q) (q_nameExt q) (q_type q) (q_cache q) (q_cacheExt q) (q_squash q).

(** VMQuery.cc:76-100 open *)
Definition open_msg (n : string) : string :=
  ("Could not open the etree database '" ++ n ++ "' for querying.")%string.
Definition open_ext_msg (n : string) : string :=
  ("Could not open the etree (regional) database '" ++ n ++ "' for querying.")%string.
Definition open (E : env DB) (q : st) : outcome st :=
  let* (d, e1) :=
    match q_db q with
    | Some d => Val (Some d, q_err q)
    | None =>
        let* _ := assert_ (0 <? q_cache q) in
        match e_open E (q_name q) (q_cache q) with
        | Some d => Val (Some d, q_err q)
        | None => Val (None, eh_error (open_msg (q_name q)) (q_err q))
        end
    end in
  let* (x, e2) :=
    if String.eqb (q_nameExt q) "" then Val (q_dbExt q, e1) else
    match q_dbExt q with
    | Some x => Val (Some x, e1)
    | None =>
        let* _ := assert_ (0 <? q_cacheExt q) in
        match e_open E (q_nameExt q) (q_cacheExt q) with
        | Some x => Val (Some x, e1)
        | None => Val (None, eh_error (open_ext_msg (q_nameExt q)) e1)
        end
    end in
  Val (set_db q d x e2).

(** VMQuery.cc:104-120 close (both messages name the detailed database) *)
Definition close_msg (n : string) : string :=
  ("Could not close the etree database '" ++ n ++ "'.")%string.
Definition close1 (E : env DB) (n : string) (d : option DB) (e : errh) : errh :=
  match d with
  | Some d => if e_close E d then e else eh_error (close_msg n) e
  | None => e
  end.
Definition close (E : env DB) (q : st) : st :=
  set_db q None None (close1 E (q_name q) (q_dbExt q) (close1 E (q_name q) (q_db q) (q_err q))).

(** VMQuery.cc:57-63 destructor: the error handler is deleted before close(). *)
Definition destroy (E : env DB) (q : st) : outcome unit :=
  let ok d := match d with Some d => e_close E d | None => true end in
  if ok (q_db q) && ok (q_dbExt q) then Val tt
  else UB "error handler used after it was deleted"%string.

(** VMQuery.icc:17-50, 59-67 setters *)
Definition set_filename (n : string) (q : st) : st :=
  mkQ (q_res q) (q_limit q) (q_db q) (q_dbExt q) (q_vals q) (q_geom q) (q_err q)
      n (q_nameExt q) (q_type q) (q_cache q) (q_cacheExt q) (q_squash q).
Definition set_filenameExt (n : string) (q : st) : st :=
  mkQ (q_res q) (q_limit q) (q_db q) (q_dbExt q) (q_vals q) (q_geom q) (q_err q)
      (q_name q) n (q_type q) (q_cache q) (q_cacheExt q) (q_squash q).
Definition set_cacheSize (s : Z) (q : st) : st :=
  if 0 <? s then
    mkQ (q_res q) (q_limit q) (q_db q) (q_dbExt q) (q_vals q) (q_geom q) (q_err q)
      (q_name q) (q_nameExt q) (q_type q) s (q_cacheExt q) (q_squash q)
  else q.
Definition set_cacheSizeExt (s : Z) (q : st) : st :=
  if 0 <? s then
    mkQ (q_res q) (q_limit q) (q_db q) (q_dbExt q) (q_vals q) (q_geom q) (q_err q)
      (q_name q) (q_nameExt q) (q_type q) (q_cache q) s (q_squash q)
  else q.
Definition set_queryRes (r : f64) (q : st) : st :=
  if fgt r f_zero then
    mkQ r (q_limit q) (q_db q) (q_dbExt q) (q_vals q) (q_geom q) (q_err q)
      (q_name q) (q_nameExt q) (q_type q) (q_cache q) (q_cacheExt q) (q_squash q)
  else q.
Definition set_squash (f : bool) (l : f64) (q : st) : st :=
  mkQ (q_res q) l (q_db q) (q_dbExt q) (q_vals q) (q_geom q) (q_err q)
      (q_name q) (q_nameExt q) (q_type q) (q_cache q) (q_cacheExt q) f.

(** VMQuery.cc:124-142 queryType *)
Definition set_queryType (n : Z) (q : st) : st :=
  match qtype_of n with
  | Some t => mkQ (q_res q) (q_limit q) (q_db q) (q_dbExt q) (q_vals q) (q_geom q) (q_err q)
      (q_name q) (q_nameExt q) t (q_cache q) (q_cacheExt q) (q_squash q)
  | None => with_err q (eh_error "Could not find query function for requested query type." (q_err q))
  end.

(** strcasecmp(a, b) == 0 in the C locale *)
Definition lower (c : ascii) : ascii :=
  let n := nat_of_ascii c in
  if (Nat.leb 65 n && Nat.leb n 90)%bool then ascii_of_nat (n + 32) else c.
Fixpoint casecmp (a b : string) : bool :=
  match a, b with
  | EmptyString, EmptyString => true
  | String c a', String d b' => Ascii.eqb (lower c) (lower d) && casecmp a' b'
  | _, _ => false
  end.

(** VMQuery.cc:157-174 *)
Definition selector (n : string) : option Z :=
  if casecmp "Vp" n then Some 0
  else if casecmp "Vs" n then Some 1
  else if casecmp "Density" n then Some 2
  else if casecmp "Qp" n then Some 3
  else if casecmp "Qs" n then Some 4
  else if casecmp "DepthFreeSurf" n then Some 5
  else if casecmp "FaultBlock" n then Some 6
  else if casecmp "Zone" n then Some 7
  else if casecmp "elevation" n then Some 8
  else None.

(** VMQuery.cc:176-182 *)
Definition name_msg (n : string) : string :=
  ("Value name '" ++ n ++ "' does not match any of the values in the velocity database." ++ NL ++
   "Values in database are:" ++ NL ++
   "  Vp, Vs, Density, Qp, Qs, DepthFreeSurf, FaultBlock, Zone, elevation.")%string.

(** VMQuery.cc:146-186 queryVals; the array is freshly allocated and an unknown
    name leaves its element unwritten.  numVals = length names.  [None] is a null
    array of names. *)
Definition set_queryVals (names : option (list string)) (q : st) : outcome st :=
  match names with
  | None => Abort
  | Some [] => Val q
  | Some names =>
      let e := fold_left (fun e n => match selector n with
                 | Some _ => e | None => eh_error (name_msg n) e end) names (q_err q) in
      Val (mkQ (q_res q) (q_limit q) (q_db q) (q_dbExt q) (map selector names) (q_geom q) e
        (q_name q) (q_nameExt q) (q_type q) (q_cache q) (q_cacheExt q) (q_squash q))
  end.

(** VMQuery.cc:504-516 _setNoData *)
Definition noData : payload :=
  mkPayload NODATAVAL NODATAVAL NODATAVAL NODATAVAL NODATAVAL NODATAVAL NODATABLOCK NODATAZONE.

Section Query.
Variable E : env DB.

(** The part common to the three query functions (VMQuery.cc:307-315, 343-352,
    381-389): the address to search for, or [None] when the location is outside
    the model ([_setNoData] and return).  [lvl] is the level for a fresh address. *)
Definition query_addr (g : libm) (lvl : Z) (lon lat elev : f64) (use : option addr)
  : outcome (addr * bool) :=
  match use with
  | Some a => Val (a, true)
  | None =>
      let* (err, a) := lonLatElevToAddr g (mkAddr 0 0 0 0 lvl Leaf) lon lat elev in
      Val (a, err =? 0)
  end.

(** assert(0 != pDB) *)
Definition need_db (d : option DB) : outcome DB :=
  match d with Some d => Val d | None => Abort end.

(** VMQuery.cc:295-325 _queryMax.  Results: error handler, payload, address. *)
Definition queryMax (q : st) (e : errh) (d : option DB) (lon lat elev : f64) (use : option addr)
  : outcome (errh * payload * addr) :=
  let* d := need_db d in
  let* (a, inside) := query_addr (q_geom q) MAXLEVEL lon lat elev use in
  if negb inside then Val (e, noData, a) else
  match e_search E d a with
  | None => Val (e, noData, a)
  | Some (hit, p) =>
      Val (e, if otype_eqb (a_type hit) Interior then noData else p, a)
  end.

(** VMQuery.cc:330-362 _queryFixed *)
Definition queryFixed (q : st) (e : errh) (d : option DB) (lon lat elev : f64) (use : option addr)
  : outcome (errh * payload * addr) :=
  let* d := need_db d in
  let* lvl := match use with
    | Some _ => Val 0
    | None => level (q_geom q) (mul64 VERTEXAG (q_res q)) end in
  let* (a, inside) := query_addr (q_geom q) lvl lon lat elev use in
  if negb inside then Val (e, noData, a) else
  match e_search E d a with
  | None => Val (e, noData, a)
  | Some (hit, p) =>
      Val (e, if otype_eqb (a_type hit) Interior && (a_level hit <? a_level a) then noData else p, a)
  end.

(** VMQuery.cc:431-437: 0.5 * (float + float), stored as float *)
Definition mid (x y : f32) : f32 := narrow (mul64 half64 (widen (add32 x y))).
Definition mid_payload (child p : payload) : payload :=
  mkPayload (mid (p_vp child) (p_vp p)) (mid (p_vs child) (p_vs p)) (mid (p_density child) (p_density p))
    (mid (p_qp child) (p_qp p)) (mid (p_qs child) (p_qs p)) (mid (p_dfs child) (p_dfs p))
    (p_block p) (p_zone p).

(** VMQuery.cc:414-421.  Both calls of etree_straddr write to the same buffer; the
    operands of << are evaluated from left to right here, as C++17 demands.  A
    compiler for an older standard may make both calls first and then name one
    of the two octants twice. *)
Definition parent_msg (parent child : addr) (lon lat elev : f64) : string :=
  ("Could not find parent octant " ++ e_straddr E parent ++ NL ++ "of child octant " ++
   e_straddr E child ++ NL ++ "for location " ++ e_gen E lon ++ ", " ++ e_gen E lat ++ ", " ++
   e_gen E elev ++ "." ++ NL ++ "Using values from child octant.")%string.

(** VMQuery.cc:406-437: the loop and the final average.  [fuel] bounds the number
    of iterations; running out of it (never reached when the search returns an
    octant that is not finer than the address searched for) is reported as UB. *)
Fixpoint climb (fuel : nat) (q : st) (e : errh) (d : DB) (a : addr) (lon lat elev minPeriod : f64)
  (child p : payload) (res : addr) : outcome (errh * payload) :=
  let* again :=
    if fgt (widen (p_vs p)) f_zero then
      let* len := edgeLen (a_level res) in
      Val (flt (div64 len (widen (p_vs p))) minPeriod && (0 <? a_level res))
    else Val false in
  if negb again then Val (e, mid_payload child p)
  else match fuel with
  | O => UB "loop bound exceeded"%string
  | S fuel =>
      let* parent := findAncestor res (a_level res - 1) in
      match e_search E d parent with
      | Some (res', p') => climb fuel q e d a lon lat elev minPeriod p p' res'
      | None =>
          let e' := eh_warning (parent_msg parent res lon lat elev) e in
          match e_search E d a with
          | Some (_, p') => Val (e', p')
          | None => Val (e', p)
          end
      end
  end.

(** VMQuery.cc:368-438 _queryWave *)
Definition queryWave (q : st) (e : errh) (d : option DB) (lon lat elev : f64) (use : option addr)
  : outcome (errh * payload * addr) :=
  let* d := need_db d in
  let* (a, inside) := query_addr (q_geom q) MAXLEVEL lon lat elev use in
  if negb inside then Val (e, noData, a) else
  match e_search E d a with
  | None => Val (e, noData, a)
  | Some (hit, p) =>
      let minPeriod := mul64 VERTEXAG (q_res q) in
      let* coarse :=
        if otype_eqb (a_type hit) Interior then
          let* len := edgeLen (a_level hit) in
          Val (fgt (div64 len (widen (p_vs p))) minPeriod)
        else Val false in
      if coarse then Val (e, noData, a)
      else
        let* (e', p') := climb (Z.to_nat (a_level hit)) q e d a lon lat elev minPeriod p p hit in
        Val (e', p', a)
  end.

(** (this->*_queryFn)(...) *)
Definition queryFn (q : st) := 
  match q_type q with MAXRES => queryMax q | FIXEDRES => queryFixed q | WAVERES => queryWave q end.

(** VMQuery.cc:444-500 _queryElev.  [_db] is not checked: searching a null
    database is undefined. *)
Definition queryElev (q : st) (lon lat elev : f64) (allow : bool) : outcome f64 :=
  let g := q_geom q in
  let* (_, a) := lonLatElevToAddr g (mkAddr 0 0 0 0 MAXLEVEL Leaf) lon lat elev in
  let* d := match q_db q with Some d => Val d | None => UB "search in a null database"%string end in
  let first := match e_search E d a with
    | Some (hit, p) => if otype_eqb (a_type hit) Interior then None else Some (hit, p)
    | None => None end in
  let found := match first with
    | Some hp => Some (d, hp)
    | None => match q_dbExt q with
        | None => None
        | Some x => match e_search E x a with Some hp => Some (x, hp) | None => None end
        end
    end in
  match found with
  | None => Val nodata64
  | Some (dbElev, (hit, p)) =>
      let depth := widen (p_dfs p) in
      let* (_, _, elevO) := addrToLonLatElev g hit in
      let elevRef := add64 elevO depth in
      let* (_, a2) := lonLatElevToAddr g (mkAddr 0 0 0 0 MAXLEVEL Leaf) lon lat elevRef in
      let above := match e_search E dbElev a2 with
        | None => true
        | Some (hit2, p2) => otype_eqb (a_type hit2) Interior || feq (p_vs p2) NODATAVAL
        end in
      if above && allow then
        let tickLen := Z.shiftr 2147483648 (a_level hit) in
        let hit' := mkAddr (a_x hit) (a_y hit) (u32 (a_z hit - tickLen)) (a_t hit) (a_level hit) (a_type hit) in
        let* (_, _, elevO') := addrToLonLatElev g hit' in
        Val (add64 elevO' depth)
      else Val elevRef
  end.

(** VMQuery.cc:206-227: the try block; [None] is the payload nobody wrote. *)
Definition query_body (q : st) (lon lat elev : f64) : outcome (errh * option payload * f64) :=
  let body :=
    let* elevRef :=
      if q_squash q && fgt elev (q_limit q) then queryElev q lon lat elev true else Val f_zero in
    let elevQuery :=
      if q_squash q && fgt elev (q_limit q) && fne (widen NODATAVAL) elevRef
      then add64 elev elevRef else elev in
    let* (e1, p1, a) := queryFn q (q_err q) (q_db q) lon lat elevQuery None in
    let* (e2, p2) :=
      match q_dbExt q with
      | Some x =>
          if p_block p1 =? NODATABLOCK then
            let* (e2, p2, _) := queryFn q e1 (Some x) lon lat elevQuery (Some a) in Val (e2, p2)
          else Val (e1, p1)
      | None => Val (e1, p1)
      end in
    Val (e2, Some p2, elevRef) in
  match body with
  | Throw m => Val (eh_error m (q_err q), None, f_zero)
  | o => o
  end.

(** VMQuery.cc:232-237, 239-245 *)
Definition nodata_line (lon lat elev : f64) : string :=
  (e_sci E lon ++ ", " ++ e_sci E lat ++ ", " ++ e_sci E elev ++ ", No data" ++ NL)%string.
Definition nodata_msg (lon lat elev : f64) : string :=
  ("WARNING: No data for " ++ e_sci E lon ++ ", " ++ e_sci E lat ++ ", " ++ e_sci E elev ++ "." ++ NL)%string.

(** VMQuery.cc:249-289: one element of the result; [old] is what the caller's array
    holds. *)
Definition copy1 (q : st) (lon lat elev : f64) (p : payload) (s : option Z) (old : f64)
  (e : errh) (elevRef : f64) : outcome (f64 * errh * f64) :=
  match s with
  | None => UB "uninitialised selector read"%string
  | Some s =>
      if s =? 0 then Val (widen (p_vp p), e, elevRef)
      else if s =? 1 then Val (widen (p_vs p), e, elevRef)
      else if s =? 2 then Val (widen (p_density p), e, elevRef)
      else if s =? 3 then Val (widen (p_qp p), e, elevRef)
      else if s =? 4 then Val (widen (p_qs p), e, elevRef)
      else if s =? 5 then Val (widen (p_dfs p), e, elevRef)
      else if s =? 6 then Val (i2f64 (p_block p), e, elevRef)
      else if s =? 7 then Val (i2f64 (p_zone p), e, elevRef)
      else if s =? 8 then
        match queryElev q lon lat elev false with
        | Val r => Val (r, e, r)
        | Throw m => Val (elevRef, eh_error m e, elevRef)
        | Abort => Abort
        | UB w => UB w
        end
      else Val (old, eh_error "Could not parse requested query value." e, elevRef)
  end.
Fixpoint copy (q : st) (lon lat elev : f64) (p : payload) (ss : list (option Z)) (olds : list f64)
  (e : errh) (elevRef : f64) : outcome (list f64 * errh) :=
  match ss, olds with
  | s :: ss', old :: olds' =>
      let* (v, e', r') := copy1 q lon lat elev p s old e elevRef in
      let* (vs, e'') := copy q lon lat elev p ss' olds' e' r' in
      Val (v :: vs, e'')
  | _, _ => Val ([], e)
  end.

(** VMQuery.cc:190-290 query.  [vals] is the caller's array, of numVals elements;
    [None] a null pointer to it. *)
Definition query (q : st) (fs : files) (vals : option (list f64)) (lon lat elev : f64)
  : outcome (st * files * list f64) :=
  match vals with
  | None => Abort
  | Some olds =>
      let* _ := assert_ (Nat.eqb (List.length olds) (List.length (q_vals q))) in
      let* (e, p, elevRef) := query_body q lon lat elev in
      match p with
      | None => UB "uninitialised payload read"%string
      | Some p =>
          let '(e', fs') :=
            if p_block p =? NODATABLOCK
            then (eh_warning (nodata_msg lon lat elev) e, eh_log (nodata_line lon lat elev) e fs)
            else (e, fs) in
          let* (vs, e'') := copy q lon lat elev p (q_vals q) olds e' elevRef in
          Val (with_err q e'', fs', vs)
      end
  end.
End Query.
End VMQuery.
