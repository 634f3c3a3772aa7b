(** What the library and the programs around it print while they make a database: the report
    of averaging, the progress messages of packing, and the messages about grid files.
    Each function here is the one of the same name in Averager.v, VMCreator.v, GridIngester.v
    and SmallApps.v with the text it writes; ReportFacts.v shows that nothing else differs.

    Simplifications: the order of text on standard output relative to text on standard error
    is left out; writing always succeeds.  The text of usage() is the token of SmallApps.v. *)
From Coq Require Import ZArith Bool String List.
From Verif Require Import Outcome Float Payload Addr AvgEngine Geom Store Averager VMCreator Stream GridIngester
  GetOpt QueryApp.
From Verif Require SmallApps.
Import ListNotations.
Open Scope Z_scope.

(** Text on standard output and on standard error *)
Record printed := mkPrinted { on_out : string; on_err : string }.
Definition silent : printed := mkPrinted "" "".
Definition also (a b : printed) : printed :=
  mkPrinted (on_out a ++ on_out b) (on_err a ++ on_err b).
Infix "+++" := also (at level 60, right associativity).
(** if (!_quiet) std::cout << ... << std::endl *)
Definition tell (quiet : bool) (line : string) : printed :=
  if quiet then silent else mkPrinted (line ++ nl) "".
(** if (!_quiet) std::cerr << ... << "\n" *)
Definition warn (quiet : bool) (line : string) : printed :=
  if quiet then silent else mkPrinted "" (line ++ nl).

(** AvgEngine.cc:127-147 printOctantInfo; the counters are uint64_t. *)
Definition printOctantInfo (c : counters) : string :=
  "Summary of etree averaging" ++ nl ++
  "Number of octants" ++ nl ++
  "  IN: " ++ showZ (c_input c) ++ nl ++
  "  OUT total: " ++ showZ (c_output c) ++ ", interior: " ++ showZ (c_interior c) ++ nl ++
  "Incomplete octants" ++ nl ++
  "  x: " ++ showZ (c_x c) ++ nl ++
  "  y: " ++ showZ (c_y c) ++ nl ++
  "  z: " ++ showZ (c_z c) ++ nl ++
  "  xy: " ++ showZ (c_xy c) ++ nl ++
  "  yz: " ++ showZ (c_yz c) ++ nl ++
  "  xz: " ++ showZ (c_xz c) ++ nl ++
  "  xyz: " ++ showZ (c_xyz c) ++ nl ++
  "  invalid: " ++ showZ (c_invalid c) ++ nl ++ nl.

(** Averager.cc:128-134: the report comes after fillOctants has returned; an exception
    before leaves nothing printed. *)
Definition averageP (quiet : bool) (E : etree) (fin fout : string) (d : disk) : disk * printed * outcome unit :=
  match average E fin fout d with
  | (d', Val c) => (d', (if quiet then silent else mkPrinted (printOctantInfo c) ""), Val tt)
  | (d', Throw m) => (d', silent, Throw m)
  | (d', Abort) => (d', silent, Abort)
  | (d', UB w) => (d', silent, UB w)
  end.

(** VMCreator.cc:60-62 and 92-93 in openDB *)
Definition openDBP (quiet : bool) (E : etree) (name desc : string) (d : disk) : disk * printed * outcome unit :=
  let begun := tell quiet ("Opening new etree database '" ++ name ++ "'.") in
  match openDB E name desc d with
  | (d', Val x) => (d', begun +++ tell quiet "Finished preparing database.", Val x)
  | (d', o) => (d', begun, o)
  end.
(** VMCreator.cc:101-102 in closeDB, with the name kept by openDB (90) *)
Definition closeDBP (quiet : bool) (E : etree) (name : string) (d : disk) : disk * printed * outcome unit :=
  let (d', o) := closeDB E name d in
  (d', tell quiet ("Closing database '" ++ name ++ "'."), o).
(** VMCreator.cc:116-120 and 173-174 in packDB *)
Definition packDBP (quiet : bool) (E : etree) (packed unpacked : string) (d : disk) : disk * printed * outcome unit :=
  let begun := tell quiet ("Creating packed etree database '" ++ packed ++
    "' from unpacked etree database '" ++ unpacked ++ "'.") in
  match packDB E packed unpacked d with
  | (d', Val x) => (d', begun +++ tell quiet "Done packing etree database.", Val x)
  | (d', o) => (d', begun, o)
  end.

Section Ingest.
Variables (quiet : bool) (E : etree) (F : numfmt) (T : GridIngester.texts) (L : libm).
(** std::cerr with scientific notation and precision 6 (GridIngester.cc:249-251) *)
Variable sci : f64 -> string.

(** GridIngester.cc:239-262: the line for a point that is not added *)
Definition ignoring (l : gridline) : printed :=
  let place := (sci (l_lon l) ++ ", " ++ sci (l_lat l) ++ ", " ++ sci (km2m (l_elev l)))%string in
  if negb (p_block (l_pay l) =? NODATABLOCK)
  then warn quiet (place ++ ", No fault block")
  else warn quiet (place ++ ", Ignoring").

(** GridIngester.cc:194-264: the loop over the points *)
Fixpoint addPointsP (db : string) (resHoriz : f64) (n : nat) (s : istream) (added ignored : Z) (pr : printed) (d : disk)
  : disk * (Z * Z) * printed * outcome unit :=
  match n with
  | O => (d, (added, ignored), pr, Val tt)
  | S k =>
      let (s', l) := getLine F s in
      if negb (good s') then (d, (added, ignored), pr, Throw "Couldn't parse line."%string)
      else
      let p := l_pay l in
      if negb (p_block p =? NODATABLOCK) && negb (p_zone p =? NODATAZONE) then
        match insert E L (Some db) (toSI p) (l_lon l) (l_lat l) (km2m (l_elev l)) resHoriz d with
        | (d', Val _) => addPointsP db resHoriz k s' (added + 1) ignored pr d'
        | (d', o) => (d', (added, ignored), pr, o)
        end
      else addPointsP db resHoriz k s' added (ignored + 1) (pr +++ ignoring l) d
  end.

(** GridIngester.cc:158-266: the body of the try block, after the file has been opened *)
Definition readGridP (g : ingester) (db file t : string) (d : disk) : disk * (Z * Z) * printed * outcome unit :=
  let s := openText t in
  let (s, rh) := getNum (n_f64 F) f_zero s in
  let (s, rv) := getNum (n_f64 F) f_zero s in
  let (s, numX) := getNum (n_int F) 0 s in
  let (s, numY) := getNum (n_int F) 0 s in
  let (s, numZ) := getNum (n_int F) 0 s in
  let (s, numTotal) := getNum (n_int F) 0 s in
  let resHoriz := mul64 rh (i2f64 1000) in
  let resVert := mul64 rv (i2f64 1000) in
  let vertExag := div64 resHoriz resVert in
  if differs vertExag VERTEXAG then
    (d, (0, 0), silent, Throw ("Vertical exaggeration of " ++ n_show F vertExag ++ " in '" ++ file ++
      "' does not match velocity model vertical exaggeration of " ++
      n_show F VERTEXAG ++ "."))
  else
  match level L resHoriz with
  | Val lev =>
      match edgeLen lev with
      | Val len =>
          if differs resHoriz len then
            (d, (0, 0), silent, Throw ("Horizontal resolution of " ++ n_show F resHoriz ++ " in '" ++
              file ++ "' does not fit resolution of nearest level in database of " ++
              n_show F len ++ "."))
          else addPointsP db resHoriz (Z.to_nat numTotal) s 0 0 silent d
      | Throw m => (d, (0, 0), silent, Throw m)
      | Abort => (d, (0, 0), silent, Abort)
      | UB w => (d, (0, 0), silent, UB w)
      end
  | Throw m => (d, (0, 0), silent, Throw m)
  | Abort => (d, (0, 0), silent, Abort)
  | UB w => (d, (0, 0), silent, UB w)
  end%string.

(** GridIngester.cc:137-282 _addGrid.  The message of the catch clause (267-274) is printed
    even if quiet, and ends without a line break. *)
Definition addGridP (g : ingester) (db file : string) (d : disk) : disk * (Z * Z) * printed * outcome unit :=
  if negb (gi_geom g) then (d, (0, 0), silent, Abort)
  else
  match T file with
  | None => (d, (0, 0), silent, Throw ("Could not open grid file '" ++ file ++ "' for reading."))
  | Some t =>
      let begun := tell quiet ("Beginning processing of '" ++ file ++ "'...") in
      match readGridP g db file t d with
      | (d', (added, ignored), pr, Val x) =>
          (d', (added, ignored), begun +++ pr +++
             tell quiet ("Done procesing '" ++ file ++ "'." ++ "  # points added: " ++ showZ added ++
                         ",  # points ignored: " ++ showZ ignored), Val x)
      | (d', (added, ignored), pr, Throw m) =>
          (d', (added, ignored), begun +++ pr +++
             mkPrinted "" ("Caught error while reading grid from '" ++ file ++ "'." ++ nl ++
               "Successfully added " ++ showZ added ++ " points and ignored " ++ showZ ignored ++ " others." ++ nl ++
               "Error message: " ++ m), Throw m)
      | (d', c, pr, o) => (d', c, begun +++ pr, o)
      end
  end%string.

(** GridIngester.cc:80-81 *)
Fixpoint addGridsP (g : ingester) (db : string) (files : list string) (d : disk) : disk * list (Z * Z) * printed * outcome unit :=
  match files with
  | [] => (d, [], silent, Val tt)
  | f :: r =>
      match addGridP g db f d with
      | (d1, c, pr, Val _) =>
          let '(d2, cs, pr2, o) := addGridsP g db r d1 in (d2, c :: cs, pr +++ pr2, o)
      | (d1, c, pr, o) => (d1, [c], pr, o)
      end
  end.

(** GridIngester.cc:63-88 run, with the message of _readParams (125-127) *)
Definition runP (g : ingester) (d : disk) : disk * list (Z * Z) * printed * outcome unit :=
  if String.eqb (gi_params g) "" || String.eqb (gi_tmp g) "" || String.eqb (gi_out g) ""
  then (d, [], silent, Abort)
  else
  match readParams T g with
  | Val files =>
      let p0 := tell quiet ("Starting processing of " ++ showZ (Z.of_nat (List.length files)) ++ " grid files.") in
      match openDBP quiet E (gi_tmp g) (gi_desc g) d with
      | (d1, p1, Val _) =>
          match addGridsP g (gi_tmp g) files d1 with
          | (d2, cs, p2, Val _) =>
              match closeDBP quiet E (gi_tmp g) d2 with
              | (d3, p3, Val _) =>
                  let '(d4, p4, o) := packDBP quiet E (gi_out g) (gi_tmp g) d3 in
                  (d4, cs, p0 +++ p1 +++ p2 +++ p3 +++ p4, o)
              | (d3, p3, o) => (d3, cs, p0 +++ p1 +++ p2 +++ p3, o)
              end
          | (d2, cs, p2, o) => (d2, cs, p0 +++ p1 +++ p2, o)
          end
      | (d1, p1, o) => (d1, [], p0 +++ p1, o)
      end
  | Throw m => (d, [], silent, Throw m)
  | Abort => (d, [], silent, Abort)
  | UB w => (d, [], silent, UB w)
  end%string.
End Ingest.

(** The programs: exit code and what main() prints as in SmallApps.v, after what the library
    printed.  None of them makes the library quiet. *)
Definition endedP {A} (r : disk * printed * outcome A) : disk * printed * outcome (Z * list said) :=
  let '(d, pr, o) := r in
  let (d', o') := SmallApps.ended (d, o) in (d', pr, o').
Definition usageP (d : disk) : disk * printed * outcome (Z * list said) :=
  let (d', o) := SmallApps.usageExit d in (d', silent, o).
(** cencalvmavg.cc:82-105 main *)
Definition avgMainP (E : etree) (args : list string) (d : disk) : disk * printed * outcome (Z * list said) :=
  match SmallApps.avgArgs args with
  | None => usageP d
  | Some c => endedP (averageP false E (SmallApps.f_in c) (SmallApps.f_out c) d)
  end.
(** cencalvmpack.cc:85-107 main *)
Definition packMainP (E : etree) (X : QueryApp.texts) (args : list string) (d : disk) : disk * printed * outcome (Z * list said) :=
  match SmallApps.packArgs X args with
  | None => usageP d
  | Some c => endedP (packDBP false E (SmallApps.f_out c) (SmallApps.f_in c) d)
  end.
(** cencalvmgen.cc:98-135 main *)
Definition genMainP (E : etree) (F : numfmt) (X : QueryApp.texts) (L : libm) (sci : f64 -> string) (files : GridIngester.texts)
    (args : list string) (d : disk) : disk * printed * outcome (Z * list said) :=
  match SmallApps.genArgs X args with
  | None => usageP d
  | Some c =>
      let '(d', _, pr, o) := runP false E F files L sci
        (mkIngester (SmallApps.f_params c) (SmallApps.f_out c) (SmallApps.f_tmp c) SmallApps.genDescription true) d in
      endedP (d', pr, o)
  end.
