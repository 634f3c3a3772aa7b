(** Limiting the gradient of the shear wave speed:
    extensions/applications/vsgrader/VsGrader.{h,icc,cc}.

    The loops are parameterised by the arithmetic so that they can be studied with
    machine numbers ([machine], what the program computes) and with real numbers
    ([exact], what it is meant to approximate).

    The database opened for reading and writing is abstract ([gstore]): etree_search
    and etree_update for an address give the values or fail.  Simplification: the
    progress messages are left out. *)
From Coq Require Import ZArith Bool Reals String List.
From Verif Require Import Outcome Float Payload Addr Geom.
Import ListNotations.
Open Scope Z_scope.

(** [P] are the values of an octant, [S] is the type of a stored value (float), [D]
    the type of intermediate results (double). *)
Record arith (P S D : Type) := mkArith {
  ar_vs : P -> S;             (* payload.Vs *)
  ar_sub : S -> S -> S;       (* float - float *)
  ar_gt : S -> D -> bool;     (* float > double *)
  ar_add : S -> D -> D;       (* float + double *)
  ar_set : P -> D -> P }.     (* VsGrader.cc:567-572 *)
Arguments mkArith {P S D}. Arguments ar_vs {P S D}. Arguments ar_sub {P S D}. Arguments ar_gt {P S D}.
Arguments ar_add {P S D}. Arguments ar_set {P S D}.

(** VsGrader.cc:567-572 (and 579-584) in machine arithmetic: scale = vs / Vs, then
    "*=" of a float by a double is a double product stored in single precision. *)
Definition scaled (p : payload) (vs : f64) : payload :=
  let scale := div64 vs (widen (p_vs p)) in
  let times (x : f32) : f32 := narrow (mul64 (widen x) scale) in
  mkPayload (times (p_vp p)) (narrow vs) (times (p_density p)) (times (p_qp p)) (times (p_qs p))
    (p_dfs p) (p_block p) (p_zone p).
Definition machine : arith payload f32 f64 :=
  mkArith p_vs sub32 (fun x d => fgt (widen x) d) (fun x d => add64 (widen x) d) scaled.

(** The same with real numbers. *)
Record rpay := mkRpay { r_vp : R; r_vs : R; r_density : R; r_qp : R; r_qs : R; r_dfs : R; r_block : Z; r_zone : Z }.
Definition rscaled (p : rpay) (vs : R) : rpay :=
  let scale := (vs / r_vs p)%R in
  mkRpay (r_vp p * scale)%R vs (r_density p * scale)%R (r_qp p * scale)%R (r_qs p * scale)%R
    (r_dfs p) (r_block p) (r_zone p).
Definition exact : arith rpay R R :=
  mkArith r_vs Rminus (fun x d => if Rlt_dec d x then true else false) Rplus rscaled.

Section Limit.
Context {P S D : Type}.
Variable A : arith P S D.
Variable maxdiff : D.

(** VsGrader.cc:564-574, one step: neighbour [n], entry [q]. *)
Definition limit1 (n q : P) : P * bool :=
  if ar_gt A (ar_sub A (ar_vs A q) (ar_vs A n)) maxdiff
  then (ar_set A q (ar_add A (ar_vs A n) maxdiff), true)
  else (q, false).
(** VsGrader.cc:563-574: for i = 1 .. dataLen-1, the entry before is already limited. *)
Fixpoint forward (n : P) (l : list P) : list (P * bool) :=
  match l with
  | [] => []
  | q :: l => let '(q', c) := limit1 n q in (q', c) :: forward q' l
  end.
(** VsGrader.cc:575-586: for i = dataLen-2 .. 0, the entry after is already limited. *)
Fixpoint backward (l : list (P * bool)) : list (P * bool) :=
  match l with
  | [] => []
  | (q, c) :: l =>
      let l' := backward l in
      match l' with
      | [] => [(q, c)]
      | (n, _) :: _ => let '(q', c') := limit1 n q in (q', c || c') :: l'
      end
  end.
(** VsGrader.cc:551-587 _limitDiff: the data and the flags. *)
Definition limitDiff (l : list P) : list (P * bool) :=
  match l with
  | [] => []
  | q :: l => backward ((q, false) :: forward q l)
  end.
End Limit.

(** ** Grading a database *)
Record gstore (DB P : Type) := mkGstore {
  gs_search : DB -> addr -> option P;          (* etree_search(db, addr, &hit, "*", &payload) *)
  gs_update : DB -> addr -> P -> option DB }.  (* etree_update(db, addr, &payload) *)
Arguments mkGstore {DB P}. Arguments gs_search {DB P}. Arguments gs_update {DB P}.

(** for (int i=0; i < n; ++i) *)
Definition range (n : Z) : list Z := map Z.of_nat (seq 0 (Z.to_nat n)).
Fixpoint mapM {X Y} (f : X -> outcome Y) (l : list X) : outcome (list Y) :=
  match l with
  | [] => Val []
  | x :: l => let* y := f x in let* r := mapM f l in Val (y :: r)
  end.
Fixpoint foldM {X Y} (f : Y -> X -> outcome Y) (l : list X) (y : Y) : outcome Y :=
  match l with
  | [] => Val y
  | x :: l => let* y' := f y x in foldM f l y'
  end.

Section Grade.
Context {P S D DB LL : Type}.
Variable A : arith P S D.
Variable G : gstore DB P.
Variable lonlat : Z -> Z -> outcome LL.         (* _indexToLonLat *)
Variable locate : LL -> Z -> outcome addr.      (* the address that _pullData and _pushData compute *)
Variables numLen numWidth numHt : Z.
Variables maxVert maxHoriz : D.

(** VsGrader.cc:500-523 _pullData *)
Definition pullData (db : DB) (a : outcome addr) : outcome P :=
  let* a := a in
  match gs_search G db a with
  | Some p => Val p
  | None => Throw "Could not find octant in database."%string
  end.
(** VsGrader.cc:527-547 _pushData *)
Definition pushData (db : DB) (a : outcome addr) (p : P) : outcome DB :=
  let* a := a in
  match gs_update G db a p with
  | Some db' => Val db'
  | None => Throw "Could not update octant in database."%string
  end.
(** VsGrader.cc:392-404, 422-434, 453-465: pull one line of the grid, limit it, push
    the entries that changed. *)
Definition gradeLine (d : D) (at_ : list (outcome addr)) (db : DB) : outcome DB :=
  let* data := mapM (pullData db) at_ in
  foldM (fun db (x : outcome addr * (P * bool)) =>
           let '(a, (p, c)) := x in if c then pushData db a p else Val db)
        (combine at_ (limitDiff A d data)) db.
(** VsGrader.cc:385-405 *)
Definition gradeVert (db : DB) : outcome DB :=
  foldM (fun db iLen =>
    foldM (fun db iWidth =>
      let* ll := lonlat iLen iWidth in
      gradeLine maxVert (map (locate ll) (range numHt)) db) (range numWidth) db) (range numLen) db.
(** VsGrader.cc:416-436 *)
Definition gradeLen (db : DB) : outcome DB :=
  foldM (fun db iHt =>
    foldM (fun db iWidth =>
      gradeLine maxHoriz (map (fun iLen => let* ll := lonlat iLen iWidth in locate ll iHt) (range numLen)) db)
      (range numWidth) db) (range numHt) db.
(** VsGrader.cc:447-467 *)
Definition gradeWidth (db : DB) : outcome DB :=
  foldM (fun db iHt =>
    foldM (fun db iLen =>
      gradeLine maxHoriz (map (fun iWidth => let* ll := lonlat iLen iWidth in locate ll iHt) (range numWidth)) db)
      (range numLen) db) (range numHt) db.
(** VsGrader.cc:381-470: the three passes. *)
Definition gradeDirs (db : DB) : outcome DB :=
  let* db := gradeVert db in
  let* db := gradeLen db in
  gradeWidth db.
End Grade.

(** ** The program *)
(** VsGrader.h data members set by the parameter file and by _initialize. *)
Record gparams := mkGparams {
  gp_gradient : f64; gp_minVs : f64; gp_lon : f64; gp_lat : f64; gp_elev : f64;
  gp_len : f64; gp_width : f64; gp_ht : f64; gp_res : f64; gp_x : f64; gp_y : f64 }.

Section Program.
Variable L : libm.
Variable g : gparams.

(** VsGrader.cc:34 _AZIMUTHLEN = -36.3620 * M_PI/180.0 *)
Definition azimuthLen : f64 := div64 (mul64 (dec64 (-363620) 4) M_PI64) (i2f64 180).
(** VsGrader.cc:375, 487, 514, 539: resHoriz = _resVert * vertExag() *)
Definition resHoriz : f64 := mul64 (gp_res g) VERTEXAG.
(** VsGrader.cc:376-378: int(1 + length / res) *)
Definition count (len res : f64) : outcome Z := f2int (add64 (i2f64 1) (div64 len res)).
(** VsGrader.icc:60-64 _indexToElev *)
Definition indexToElev (i : Z) : f64 := sub64 (gp_elev g) (mul64 (i2f64 i) (gp_res g)).
(** VsGrader.cc:478-496 _indexToLonLat *)
Definition indexToLonLat (iL iW : Z) : outcome (f64 * f64) :=
  let l := mul64 (i2f64 iL) resHoriz in
  let w := mul64 (i2f64 iW) resHoriz in
  let x := add64 (add64 (gp_x g) (mul64 l (m_sin L azimuthLen))) (mul64 w (m_cos L azimuthLen)) in
  let y := sub64 (add64 (gp_y g) (mul64 l (m_cos L azimuthLen))) (mul64 w (m_sin L azimuthLen)) in
  invProject L x y.
(** VsGrader.cc:511-517, 536-542: the address of a grid point.  The return code of
    lonLatElevToAddr is ignored.  addr.level is an int; lonLatElevToAddr asserts that
    it is in range. *)
Definition gridAddr (ll : f64 * f64) (iH : Z) : outcome addr :=
  let* l := level L resHoriz in
  let* (_, a) := lonLatElevToAddr L (mkAddr 0 0 0 0 l Leaf) (fst ll) (snd ll) (indexToElev iH) in
  Val a.

(** VsGrader.cc:356-474 _grade, for the open database [db]; [closes]: etree_close
    returns 0, else the exception carries the library's message. *)
Definition grade {DB} (G : gstore DB payload) (closes : bool) (msg : string) (db : DB) : outcome DB :=
  let* numLen := count (gp_len g) resHoriz in
  let* numWidth := count (gp_width g) resHoriz in
  let* numHt := count (gp_ht g) (gp_res g) in
  let* db := gradeDirs machine G indexToLonLat gridAddr numLen numWidth numHt
               (mul64 (gp_gradient g) (gp_res g)) (mul64 (gp_gradient g) resHoriz) db in
  if closes then Val db else Throw msg.
End Program.
