(** The whole program that limits the gradient of the shear wave speed:
    extensions/applications/vsgrader/VsGrader.{h,icc,cc} without the loops of
    _grade, which are in VsGrader.v.

    Simplifications: progress messages are left out; text files do not change during
    the run; the query object reads its database through the functions of [env],
    whatever happens to other files. *)
From Coq Require Import ZArith Bool Ascii String List.
From Verif Require Import Outcome Float Payload Addr AvgEngine Geom Store Averager VMCreator Stream GridIngester
  ErrorHandler VMQuery VsGrader.
Import ListNotations.
Open Scope Z_scope.

(** ** Input stream *)
(** istream::ignore(n, delim): characters are taken until [n] were taken, the end of
    the file is reached (eofbit) or the delimiter was taken.  On a stream that is not
    good nothing is taken and failbit is set. *)
Fixpoint skipTo (n : nat) (delim : ascii) (l : list ascii) : list ascii * bool :=
  match n with
  | O => (l, false)
  | S n => match l with
           | [] => ([], true)
           | c :: r => if Ascii.eqb c delim then (r, false) else skipTo n delim r
           end
  end.
Definition ignore (n : nat) (delim : ascii) (s : istream) : istream :=
  if good s then let (r, ended) := skipTo n delim (i_rest s) in mkIn r ended false
  else mkIn (i_rest s) (i_eof s) true.

(** ** Members *)
(** VsGrader.h data members.  The geometry is the one of Geom.v. *)
Record vsgrader := mkVsg {
  vg_in : string; vg_out : string; vg_tmp : string; vg_params : string;
  vg_cache : Z; vg_res : f64; vg_type : qtype; vg_g : gparams }.

(** VsGrader.cc:41-62 constructor *)
Definition vg_new : vsgrader :=
  mkVsg "" "" "" "" 128 f_zero MAXRES
    (mkGparams f_zero f_zero f_zero f_zero f_zero f_zero f_zero f_zero (i2f64 1) f_zero f_zero).

(** The parameters of type double *)
Inductive dparam := DLon | DLat | DElev | DLen | DWidth | DHt | DRes | DGradient | DMinVs.
Definition dget (p : dparam) (g : gparams) : f64 :=
  match p with
  | DLon => gp_lon g | DLat => gp_lat g | DElev => gp_elev g | DLen => gp_len g | DWidth => gp_width g
  | DHt => gp_ht g | DRes => gp_res g | DGradient => gp_gradient g | DMinVs => gp_minVs g
  end.
Definition dset (p : dparam) (v : f64) (g : gparams) : gparams :=
  let '(mkGparams gr mv lon lat el len wi ht res x y) := g in
  match p with
  | DLon => mkGparams gr mv v lat el len wi ht res x y
  | DLat => mkGparams gr mv lon v el len wi ht res x y
  | DElev => mkGparams gr mv lon lat v len wi ht res x y
  | DLen => mkGparams gr mv lon lat el v wi ht res x y
  | DWidth => mkGparams gr mv lon lat el len v ht res x y
  | DHt => mkGparams gr mv lon lat el len wi v res x y
  | DRes => mkGparams gr mv lon lat el len wi ht v x y
  | DGradient => mkGparams v mv lon lat el len wi ht res x y
  | DMinVs => mkGparams gr v lon lat el len wi ht res x y
  end.
Definition set_g (v : vsgrader) (g : gparams) : vsgrader :=
  mkVsg (vg_in v) (vg_out v) (vg_tmp v) (vg_params v) (vg_cache v) (vg_res v) (vg_type v) g.
Definition set_cache (v : vsgrader) (c : Z) : vsgrader :=
  mkVsg (vg_in v) (vg_out v) (vg_tmp v) (vg_params v) c (vg_res v) (vg_type v) (vg_g v).
Definition set_res (v : vsgrader) (r : f64) : vsgrader :=
  mkVsg (vg_in v) (vg_out v) (vg_tmp v) (vg_params v) (vg_cache v) r (vg_type v) (vg_g v).
Definition set_type (v : vsgrader) (t : qtype) : vsgrader :=
  mkVsg (vg_in v) (vg_out v) (vg_tmp v) (vg_params v) (vg_cache v) (vg_res v) t (vg_g v).

(** ** Parameter file *)
(** VsGrader.cc:128-154: the tokens that name a parameter of type double *)
Definition dtoken (t : string) : option dparam :=
  if casecmp t "swcorner-lon" then Some DLon
  else if casecmp t "swcorner-lat" then Some DLat
  else if casecmp t "swcorner-elev" then Some DElev
  else if casecmp t "domain-length" then Some DLen
  else if casecmp t "domain-width" then Some DWidth
  else if casecmp t "domain-height" then Some DHt
  else if casecmp t "resolution-vert" then Some DRes
  else if casecmp t "vs-gradient-max" then Some DGradient
  else if casecmp t "vs-min" then Some DMinVs
  else None.

(** Extraction into a local variable that was never set: when the extraction does
    not get as far as the conversion, the program reads the variable unset. *)
Definition getFresh {A} (conv : string -> A * bool) (s : istream) : outcome (istream * A) :=
  match getWord s with
  | (s', Some w) => let (v, ok) := conv w in Val (mkIn (i_rest s') (i_eof s') (negb ok), v)
  | (_, None) => UB "uninitialised number read"%string
  end.

(** VsGrader.cc:124 maxIgnore *)
Definition maxIgnore : nat := 128.

(** VsGrader.cc:128-191: one iteration, after the token was read *)
Definition setting (F : numfmt) (t : string) (s : istream) (v : vsgrader) : outcome (istream * vsgrader) :=
  let s1 := ignore maxIgnore "=" s in
  match dtoken t with
  | Some p =>
      let (s2, x) := getNum (n_f64 F) (dget p (vg_g v)) s1 in
      Val (s2, set_g v (dset p x (vg_g v)))
  | None =>
      if casecmp t "cache-size" then
        let* (s2, n) := getFresh (n_int F) s1 in
        Val (s2, if 0 <? n then set_cache v n else v)
      else if casecmp t "query-resolution" then
        let* (s2, x) := getFresh (n_f64 F) s1 in
        Val (s2, if fle f_zero x then set_res v x else v)
      else if casecmp t "query-type" then
        let (s2, w) := getWord s1 in
        let w := match w with Some w => w | None => ""%string end in
        if casecmp "maxres" w then Val (s2, set_type v MAXRES)
        else if casecmp "fixedres" w then Val (s2, set_type v FIXEDRES)
        else if casecmp "waveres" w then Val (s2, set_type v WAVERES)
        else Throw ("Could not parse query type '" ++ w ++ "' into a known type of query.")%string
      else Throw ("Could not parse '" ++ t ++ "' into a parameter setting.")%string
  end.

(** VsGrader.cc:126-194: [s] is the stream after reading the token [t].  [fuel] bounds the
    number of iterations; each reads at least one character. *)
Fixpoint settings (F : numfmt) (fuel : nat) (t : string) (s : istream) (v : vsgrader) : outcome (istream * vsgrader) :=
  match fuel with
  | O => UB "loop bound exceeded"%string
  | S fuel =>
      if good s && negb (String.eqb t "}") then
        let* (s1, v1) := setting F t s v in
        let (s2, w) := getWord s1 in
        settings F fuel (match w with Some w => w | None => t end) s2 v1
      else Val (s, v)
  end.

(** VsGrader.cc:198-241 *)
Definition zero (x : f64) : bool := feq f_zero x.
Definition complaints (v : vsgrader) : list string :=
  let g := vg_g v in
  let line (m : string) := (m ++ NL)%string in
  let need (b : bool) (m : string) := if b then [m] else [] in
  (need (zero (gp_gradient g)) (line "Parameter file must specify 'vs-gradient-max'.") ++
   need (zero (gp_minVs g)) (line "Parameter file must specify 'vs-min'.") ++
   need (zero (gp_lon g)) (line "Parameter file must specify 'swcorner-lon'.") ++
   need (zero (gp_lat g)) (line "Parameter file must specify 'swcorner-lat'.") ++
   need (zero (gp_elev g)) (line "Parameter file must specify 'swcorner-elev'.") ++
   need (zero (gp_len g)) (line "Parameter file must specify 'domain-len'.") ++
   need (zero (gp_width g)) (line "Parameter file must specify 'domain-width'.") ++
   need (zero (gp_ht g)) "Parameter file must specify 'domain-height'." ++
   need (zero (gp_res g)) "Parameter file must specify 'resolution-vert'." ++
   need (match vg_type v with MAXRES => false | _ => fle (vg_res v) f_zero end)
     "Parameter file must specify 'query-res' when 'query-type' is not 'maxres'.")%list.

(** VsGrader.cc:98-106 *)
Definition reset_params (g : gparams) : gparams :=
  mkGparams f_zero f_zero f_zero f_zero f_zero f_zero f_zero f_zero f_zero (gp_x g) (gp_y g).

(** VsGrader.cc:94-250 _readParams *)
Definition readParams (F : numfmt) (T : texts) (v : vsgrader) : outcome vsgrader :=
  let v := set_g v (reset_params (vg_g v)) in
  match T (vg_params v) with
  | None => Throw ("Could not open file '" ++ vg_params v ++ "' to read VsGrader parameters.")%string
  | Some text =>
      let (s, name) := getWord (openText text) in
      let name := match name with Some n => n | None => ""%string end in
      if casecmp name "VsGrader" then
        let s := ignore maxIgnore "{" s in
        let (s, t) := getWord s in
        let* (s, v) := settings F (S (String.length text)) (match t with Some t => t | None => ""%string end) s v in
        if negb (good s) then Throw "I/O error while parsing settings."%string
        else match complaints v with
             | [] => Val v
             | l => Throw (String.concat "" l)
             end
      else Throw ("Could not parse '" ++ name ++ "' into 'VsGrader'.")%string
  end.

(** VsGrader.cc:253-265 _initialize *)
Definition set_xy (g : gparams) (x y : f64) : gparams :=
  mkGparams (gp_gradient g) (gp_minVs g) (gp_lon g) (gp_lat g) (gp_elev g) (gp_len g) (gp_width g) (gp_ht g) (gp_res g) x y.
Definition initialize (L : libm) (v : vsgrader) : outcome vsgrader :=
  let* (x, y) := project L (gp_lon (vg_g v)) (gp_lat (vg_g v)) in
  Val (set_g v (set_xy (vg_g v) x y)).

(** ** Extraction *)
(** int16_t(double) *)
Definition f2short (x : f64) : outcome Z :=
  let* z := f2int x in
  if (-32768 <=? z) && (z <=? 32767) then Val z else UB "double out of the range of int16_t"%string.

(** VsGrader.cc:35-37 *)
Definition GRADENODATA : f64 := i2f64 10000000000.
Definition GRADENOBLOCK : Z := 999.
Definition GRADENOZONE : Z := 999.

(** VsGrader.cc:309-327: from the values of the query to the values stored *)
Definition takeVals (minVs : f64) (vals : list f64) : outcome payload :=
  let at_ n := nth n vals S754_nan in
  let* block := f2short (at_ 6%nat) in
  let* zone := f2short (at_ 7%nat) in
  let p := mkPayload (narrow (at_ 0%nat)) (narrow (at_ 1%nat)) (narrow (at_ 2%nat)) (narrow (at_ 3%nat)) (narrow (at_ 4%nat))
             (narrow (at_ 5%nat)) block zone in
  if flt (p_vs p) f_zero then
    let n := narrow GRADENODATA in
    Val (mkPayload n n n n n n GRADENOBLOCK GRADENOZONE)
  else if flt (widen (p_vs p)) minVs then
    Val (mkPayload (p_vp p) (narrow minVs) (p_density p) (p_qp p) (p_qs p) (p_dfs p) (p_block p) (p_zone p))
  else Val p.

(** GeomCenCA.cc:39-40 *)
Definition METADATA : string := "Central CA velocity model".

Fixpoint foldIO {X Y} (f : Y -> X -> io Y) (l : list X) (y : Y) : io Y :=
  match l with
  | [] => ret y
  | x :: l => do* y' := f y x in foldIO f l y'
  end.

Section Run.
Context {DB : Type}.
Variables (EQ : env DB) (E : etree) (F : numfmt) (T : texts) (L : libm).

(** VsGrader.cc:304-329: one point.  The state is the query object, the log files and the
    array pVals. *)
Definition extractPoint (v : vsgrader) (lon lat : f64) (st : qstate DB * files * list f64) (iHt : Z)
  : io (qstate DB * files * list f64) :=
  let '(q, fs, vals) := st in
  let elev := indexToElev (vg_g v) iHt in
  do* r := lift (query EQ q fs (Some vals) lon lat elev) in
  do* p := lift (takeVals (gp_minVs (vg_g v)) (snd r)) in
  do* _ := insert E L (Some (vg_tmp v)) p lon lat elev (resHoriz (vg_g v)) in
  ret r.

(** An exception leaves the function: the query object is destroyed. *)
Definition unwinding {A} (q : qstate DB) (m : io A) : io A := fun d =>
  match m d with
  | (d', Throw s) => match destroy EQ q with Val _ => (d', Throw s) | Throw s' => (d', Throw s') | Abort => (d', Abort) | UB w => (d', UB w) end
  | r => r
  end.

(** VsGrader.cc:293-295 *)
Definition valNames : list string := ["Vp"; "Vs"; "Density"; "Qp"; "Qs"; "DepthFreeSurf"; "FaultBlock"; "Zone"]%string.
Definition qcode (t : qtype) : Z := match t with MAXRES => 0 | FIXEDRES => 1 | WAVERES => 2 end.
(** VsGrader.cc:277-281 *)
Definition origQuery (v : vsgrader) : qstate DB :=
  set_filename (vg_in v) (set_cacheSize (vg_cache v) (set_queryRes (vg_res v) (set_queryType (qcode (vg_type v)) (q_new L)))).
(** VsGrader.cc:284-286 *)
Definition description (v : vsgrader) : string :=
  (METADATA ++ NL ++ "Gradient in Vs limited to " ++ n_show F (gp_gradient (vg_g v)) ++ ".")%string.

(** VsGrader.cc:269-342 _extract.  The status of the query object is never looked at. *)
Definition extract (v : vsgrader) (fs : files) : io unit :=
  let g := vg_g v in
  do* q := lift (open EQ (origQuery v)) in
  unwinding q (
    do* _ := openDB E (vg_tmp v) (description v) in
    do* numLen := lift (count (gp_len g) (resHoriz g)) in
    do* numWidth := lift (count (gp_width g) (resHoriz g)) in
    do* numHt := lift (count (gp_ht g) (gp_res g)) in
    do* q := lift (set_queryVals (Some valNames) q) in
    do* st := foldIO (fun st iLen =>
        foldIO (fun st iWidth =>
          do* ll := lift (indexToLonLat L g iLen iWidth) in
          foldIO (extractPoint v (fst ll) (snd ll)) (range numHt) st)
          (range numWidth) st)
        (range numLen) (q, fs, repeat f_zero 8) in
    do* _ := closeDB E (vg_tmp v) in
    lift (destroy EQ (close EQ (fst (fst st))))).

(** VsGrader.cc:356-474 _grade on the output file: [opens] is etree_open(O_RDWR), [G]
    searches and updates an open file. *)
Variable opens : disk -> string -> bool.
Variable G : gstore (list (addr * payload)) payload.
Definition gradeFile (g : gparams) (name : string) : io unit := fun d =>
  match d name with
  | None => (d, Throw "Could not open etree database."%string)
  | Some f =>
      if opens d name then
        match grade L g G (et_close E name) (et_error E) (d_recs f) with
        | Val l => write name (fun f => set_recs f l) d
        | Throw m => (do* _ := write name (fun f => set_recs f (et_partial E)) in throw m) d
        | Abort => (d, Abort)
        | UB w => (d, UB w)
        end
      else (d, Throw "Could not open etree database."%string)
  end.

(** VsGrader.cc:82-90 run; _pack is 346-352 *)
Definition run (v : vsgrader) (fs : files) : io unit :=
  do* v := lift (readParams F T v) in
  do* v := lift (initialize L v) in
  do* _ := extract v fs in
  do* _ := packDB E (vg_out v) (vg_tmp v) in
  gradeFile (vg_g v) (vg_out v).
End Run.
