(** Model of libsrc/cencalvm/create/GridIngester.{h,icc,cc}: building a database
    from text files with gridded values.

    Simplifications: progress messages on standard output and the text written on
    standard error are left out here, except the numbers of points added and ignored
    (they are in Report.v); text files do not change during the run. *)
From Coq Require Import ZArith Bool Ascii String List.
From Verif Require Import Outcome Float Payload Addr AvgEngine Geom Store Averager
  VMCreator Stream.
Import ListNotations.
Open Scope Z_scope.

(** Text files by name; [None]: cannot be opened for reading. *)
Definition texts := string -> option string.

(** GridIngester.h:119-128 members (the cache size and the quiet flag are left out) *)
Record ingester := mkIngester {
  gi_params : string; gi_out : string; gi_tmp : string; gi_desc : string;
  gi_geom : bool }.       (* a geometry has been set *)

(** GridIngester.cc:108-120: names are kept while the stream is good after the
    extraction.  [fuel] bounds the iterations; one more than the number of
    characters is enough (see readNames_fuel). *)
Fixpoint readNames (fuel : nat) (s : istream) : list string :=
  match fuel with
  | O => []
  | S k =>
      if good s then
        match getWord s with
        | (s', Some w) => if good s' then w :: readNames k s' else []
        | (s', None) => []
        end
      else []
  end.

(** GridIngester.cc:92-133 _readParams *)
Definition readParams (T : texts) (g : ingester) : outcome (list string) :=
  match T (gi_params g) with
  | None => Throw ("Could not open parameter file '" ++ gi_params g ++ "' for reading.")%string
  | Some t => Val (readNames (S (String.length t)) (openText t))
  end.

(** GridIngester.cc:199-215: one line of a grid file *)
Record gridline := mkLine {
  l_lon : f64; l_lat : f64; l_elev : f64; l_pay : payload; l_vol : Z }.
(** Extraction of the twelve values of a line.  Values of members that are not
    read are unspecified; they are not used, because the stream is not good then. *)
Definition getLine (F : numfmt) (s : istream) : istream * gridline :=
  let (s, lon) := getNum (n_f64 F) f_zero s in
  let (s, lat) := getNum (n_f64 F) f_zero s in
  let (s, elev) := getNum (n_f64 F) f_zero s in
  let (s, vp) := getNum (n_f32 F) f_zero s in
  let (s, vs) := getNum (n_f32 F) f_zero s in
  let (s, den) := getNum (n_f32 F) f_zero s in
  let (s, qp) := getNum (n_f32 F) f_zero s in
  let (s, qs) := getNum (n_f32 F) f_zero s in
  let (s, dfs) := getNum (n_f32 F) f_zero s in
  let (s, block) := getNum (n_short F) 0 s in
  let (s, zone) := getNum (n_short F) 0 s in
  let (s, vol) := getNum (n_int F) 0 s in
  (s, mkLine lon lat elev (mkPayload vp vs den qp qs dfs block zone) vol).

(** GridIngester.cc:220-236: x *= 1.0e+3 unless x is the no-data value.  For a
    float member the product is computed in double and rounded to float. *)
Definition km2m (x : f64) : f64 :=
  if fne x (widen NODATAVAL) then mul64 x (i2f64 1000) else x.
Definition km2m32 (x : f32) : f32 :=
  if fne x NODATAVAL then narrow (mul64 (widen x) (i2f64 1000)) else x.
Definition toSI (p : payload) : payload :=
  mkPayload (km2m32 (p_vp p)) (km2m32 (p_vs p)) (km2m32 (p_density p)) (p_qp p) (p_qs p)
            (km2m32 (p_dfs p)) (p_block p) (p_zone p).

(** GridIngester.cc:194-262: the loop over the points.  The result is the disk,
    the numbers of points added and ignored, and the outcome. *)
Fixpoint addPoints (E : etree) (F : numfmt) (L : libm) (db : string) (resHoriz : f64)
    (n : nat) (s : istream) (added ignored : Z) (d : disk)
  : disk * (Z * Z) * outcome unit :=
  match n with
  | O => (d, (added, ignored), Val tt)
  | S k =>
      let (s', l) := getLine F s in
      if negb (good s') then (d, (added, ignored), Throw "Couldn't parse line."%string)
      else
      let p := l_pay l in
      if negb (p_block p =? NODATABLOCK) && negb (p_zone p =? NODATAZONE) then
        match insert E L (Some db) (toSI p) (l_lon l) (l_lat l) (km2m (l_elev l)) resHoriz d with
        | (d', Val _) => addPoints E F L db resHoriz k s' (added + 1) ignored d'
        | (d', o) => (d', (added, ignored), o)
        end
      else addPoints E F L db resHoriz k s' added (ignored + 1) d
  end.

(** GridIngester.cc:175 *)
Definition TOLERANCE : f64 := dec64 1 6.
(** fabs(1.0 - a/b) > tolerance *)
Definition differs (a b : f64) : bool :=
  fgt (SFabs (sub64 (i2f64 1) (div64 a b))) TOLERANCE.

(** GridIngester.cc:137-282 _addGrid.  The test for zero resolutions (167-173)
    constructs an exception without throwing it, so it has no effect. *)
Definition addGrid (E : etree) (F : numfmt) (T : texts) (L : libm) (g : ingester)
    (db file : string) (d : disk) : disk * (Z * Z) * outcome unit :=
  if negb (gi_geom g) then (d, (0, 0), Abort)
  else
  match T file with
  | None => (d, (0, 0), Throw ("Could not open grid file '" ++ file ++ "' for reading."))
  | Some t =>
      let s := openText t in
      let (s, rh) := getNum (n_f64 F) f_zero s in
      let (s, rv) := getNum (n_f64 F) f_zero s in
      let (s, numX) := getNum (n_int F) 0 s in
      let (s, numY) := getNum (n_int F) 0 s in
      let (s, numZ) := getNum (n_int F) 0 s in
      let (s, numTotal) := getNum (n_int F) 0 s in
      let resHoriz := mul64 rh (i2f64 1000) in
      let resVert := mul64 rv (i2f64 1000) in
      let vertExag := div64 resHoriz resVert in
      if differs vertExag VERTEXAG then
        (d, (0, 0), Throw ("Vertical exaggeration of " ++ n_show F vertExag ++ " in '" ++ file ++
          "' does not match velocity model vertical exaggeration of " ++
          n_show F VERTEXAG ++ "."))
      else
      match level L resHoriz with
      | Val lev =>
          match edgeLen lev with
          | Val len =>
              if differs resHoriz len then
                (d, (0, 0), Throw ("Horizontal resolution of " ++ n_show F resHoriz ++ " in '" ++
                  file ++ "' does not fit resolution of nearest level in database of " ++
                  n_show F len ++ "."))
              else addPoints E F L db resHoriz (Z.to_nat numTotal) s 0 0 d
          | Throw m => (d, (0, 0), Throw m)
          | Abort => (d, (0, 0), Abort)
          | UB w => (d, (0, 0), UB w)
          end
      | Throw m => (d, (0, 0), Throw m)
      | Abort => (d, (0, 0), Abort)
      | UB w => (d, (0, 0), UB w)
      end
  end%string.

(** GridIngester.cc:80-81: the loop over the grid files; the list of counts has
    one entry per file, the last one for a file that failed. *)
Fixpoint addGrids (E : etree) (F : numfmt) (T : texts) (L : libm) (g : ingester)
    (db : string) (files : list string) (d : disk) : disk * list (Z * Z) * outcome unit :=
  match files with
  | [] => (d, [], Val tt)
  | f :: r =>
      match addGrid E F T L g db f d with
      | (d1, c, Val _) =>
          let '(d2, cs, o) := addGrids E F T L g db r d1 in (d2, c :: cs, o)
      | (d1, c, o) => (d1, [c], o)
      end
  end.

(** GridIngester.cc:63-88 run *)
Definition run (E : etree) (F : numfmt) (T : texts) (L : libm) (g : ingester) (d : disk)
  : disk * list (Z * Z) * outcome unit :=
  if String.eqb (gi_params g) "" || String.eqb (gi_tmp g) "" || String.eqb (gi_out g) ""
  then (d, [], Abort)
  else
  match readParams T g with
  | Val files =>
      match openDB E (gi_tmp g) (gi_desc g) d with
      | (d1, Val _) =>
          match addGrids E F T L g (gi_tmp g) files d1 with
          | (d2, cs, Val _) =>
              let (d3, o) := (do* _ := closeDB E (gi_tmp g) in packDB E (gi_out g) (gi_tmp g)) d2 in
              (d3, cs, o)
          | r => r
          end
      | (d1, o) => (d1, [], o)
      end
  | Throw m => (d, [], Throw m)
  | Abort => (d, [], Abort)
  | UB w => (d, [], UB w)
  end.
