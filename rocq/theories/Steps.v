(** The programs that write databases once more, as sequences of calls that touch files, so
    that one can say what is left when the process is killed between two calls, and what
    happens when several processes run at the same time.  StepFacts.v shows that a program
    that runs to its end without other processes does what Averager.v, VMCreator.v,
    GridIngester.v, VsRun.v and SmallApps.v say.

    Simplifications: the records that averaging and packing write are one change of the
    output file (CChange), and the records that they read are fetched by one call
    (CFetch).  Nothing is lost by this where it is used: the contents of a file that is
    open for writing are unspecified when the process is killed, and processes do not
    touch the files of others. *)
From Coq Require Import ZArith Bool String List.
From Verif Require Import Outcome Float Payload Addr AvgEngine Geom Store Averager VMCreator Stream GridIngester
  ErrorHandler VMQuery VsGrader GetOpt QueryApp SmallApps.
From Verif Require VsRun.
Import ListNotations.
Open Scope Z_scope.

(** ** Calls *)
Inductive call : Type -> Type :=
| COpen (n : string) : call (option dbfile)            (* etree_open(O_RDONLY) and its header *)
| CNew (n : string) : call bool                        (* etree_open(O_CREAT|O_TRUNC|O_RDWR) *)
| CEdit (n : string) : call (option dbfile)            (* etree_open(O_RDWR) *)
| CFetch (n : string) : call (option dbfile)           (* reading through an open handle *)
| CChange (n : string) (g : dbfile -> dbfile) : call unit  (* writing through an open handle *)
| CInsert (n : string) (a : addr) (p : payload) : call bool (* etree_insert *)
| CClose (n : string) : call unit.                     (* etree_close that succeeds *)

(** What a call does to the files and what it returns; [opens] is the result of
    etree_open(O_RDWR), as in VsRun.v. *)
Definition perform (E : etree) (opens : disk -> string -> bool) {R} (c : call R) (d : disk) : disk * R :=
  match c in call R return disk * R with
  | COpen n => (d, match d n with Some f => if et_open E d n then Some f else None | None => None end)
  | CNew n => if et_create E d n then (put d n (Some created), true) else (put d n (et_wreck E (d n)), false)
  | CEdit n => (d, match d n with Some f => if opens d n then Some f else None | None => None end)
  | CFetch n => (d, d n)
  | CChange n g => (put d n (option_map g (d n)), tt)
  | CInsert n a p =>
      match d n with
      | Some f => if et_insert E (d_recs f) a
                  then (put d n (Some (set_recs f (sorted_in (et_before E) (d_recs f) (a, p)))), true)
                  else (d, false)
      | None => (d, false)
      end
  | CClose n => (d, tt)
  end.

(** ** Programs *)
Inductive prog (A : Type) : Type :=
| Done (o : outcome A)
| Step {R : Type} (c : call R) (k : R -> prog A).
Arguments Done {A}. Arguments Step {A R}.
(** The program alone on the machine, to its end *)
Fixpoint alone (E : etree) (opens : disk -> string -> bool) {A} (p : prog A) (d : disk) : disk * outcome A :=
  match p with
  | Done o => (d, o)
  | Step c k => let (d', r) := perform E opens c d in alone E opens (k r) d'
  end.
Fixpoint thenS {A B} (p : prog A) (k : A -> prog B) : prog B :=
  match p with
  | Done (Val a) => k a
  | Done (Throw m) => Done (Throw m)
  | Done Abort => Done Abort
  | Done (UB w) => Done (UB w)
  | Step c q => Step c (fun r => thenS (q r) k)
  end.
Notation "'go*' x ':=' m 'in' k" := (thenS m (fun x => k))
  (at level 200, x pattern, m at level 100, k at level 200, right associativity).
Definition okS : prog unit := Done (Val tt).
Definition throwS {A} (m : string) : prog A := Done (Throw m).
Definition changeS (n : string) (g : dbfile -> dbfile) : prog unit := Step (CChange n g) (fun _ => okS).
Definition closeS (n : string) : prog unit := Step (CClose n) (fun _ => okS).
(** Store.v: openRead, openNew, registerSchema, setAppMeta *)
Definition openReadS (n msg : string) : prog dbfile :=
  Step (COpen n) (fun r => match r with Some f => Done (Val f) | None => throwS msg end).
Definition openNewS (n msg : string) : prog unit :=
  Step (CNew n) (fun ok => if ok then okS else throwS msg).
Definition registerSchemaS (E : etree) (n : string) : prog unit :=
  if et_regschema E n then changeS n (fun f => set_schema f SCHEMA) else throwS (et_error E).
Definition setAppMetaS (E : etree) (n m : string) : prog unit :=
  if et_setmeta E n m then changeS n (fun f => set_meta f m) else throwS (et_error E).
Definition copyMetaS (E : etree) (n : string) (m : option string) : prog unit :=
  match m with Some m => setAppMetaS E n m | None => okS end.
(** The records of [n] while [other] has been truncated *)
Definition recordsS (E : etree) (n other : string) : prog (list (addr * payload)) :=
  if String.eqb n other then Done (Val (et_stale E))
  else Step (CFetch n) (fun r => Done (Val (match r with Some f => d_recs f | None => et_stale E end))).

(** Averager.cc:57-135 average *)
Definition averageS (E : etree) (fin fout : string) : prog unit :=
  go* f := openReadS fin ("Could not open etree database '" ++ fin ++ "' for averaging.") in
  if negb (d_size f =? PAYLOADSIZE) then
    throwS ("Payload size of input etree database '" ++ fin ++
      "' doesn't match the expected payload size." ++ nl ++
      "Expected payload size is " ++ showZ PAYLOADSIZE ++
      ", and database payload size is " ++ showZ (d_size f) ++ ".")
  else
  match d_schema f with
  | None => Done (UB "strcmp of a null schema")
  | Some s =>
    if negb (String.eqb s SCHEMA) then
      throwS ("Schema of input etree database '" ++ fin ++
        "' doesn't match the expected schema." ++ nl ++
        "Expected schema is" ++ nl ++ "'" ++ SCHEMA ++
        "'" ++ nl ++ "and database schema is" ++ nl ++ "'" ++ s ++ "'")
    else
    go* _ := openNewS fout ("Could not open etree database '" ++ fout ++
                            "' for output of averaged etree database .") in
    go* _ := registerSchemaS E fout in
    go* _ := copyMetaS E fout (option_map (averagedMeta E) (d_meta f)) in
    go* recs := recordsS E fin fout in
    match fillFrom (et_store E) (mkReading (et_cursor E fin) (et_get E fin) (et_adv E fin)) recs with
    | Val s =>
        if et_flush E fout
        then go* _ := changeS fout (fun g => set_recs g (file_recs junk0 (e_db s))) in closeS fout
        else changeS fout (fun g => set_recs g (et_partial E))
    | Throw m => go* _ := changeS fout (fun g => set_recs g (et_partial E)) in throwS m
    | Abort => Done Abort
    | UB w => Done (UB w)
    end
  end%string.

(** VMCreator.cc:52-94 openDB *)
Definition openDBS (E : etree) (name desc : string) : prog unit :=
  go* _ := openNewS name "Could not create etree database." in
  go* _ := registerSchemaS E name in
  setAppMetaS E name (createdMeta E desc).
(** VMCreator.cc:98-107 closeDB *)
Definition closeDBS (E : etree) (name : string) : prog unit :=
  if et_flush E name then closeS name else changeS name (fun g => set_recs g (et_partial E)).
(** VMCreator.cc:111-175 packDB *)
Definition packS (E : etree) (packed unpacked : string) : prog unit :=
  let failed m := go* _ := changeS packed (fun g => set_recs g (et_partial E)) in throwS m in
  go* f := openReadS unpacked "Could not open unpacked etree database." in
  go* _ := openNewS packed "Could not open packed etree database." in
  go* _ := registerSchemaS E packed in
  go* _ := copyMetaS E packed (d_meta f) in
  go* recs := recordsS E unpacked packed in
  if (match recs with [] => true | _ => false end) || negb (et_cursor E unpacked)
  then throwS (et_error E)
  else if negb (st_begin_ok (et_store E)) then throwS (et_error E)
  else if negb (d_size f =? PAYLOADSIZE) then Done (UB "payload of another size")
  else match copyRecs E unpacked [] recs with
       | Val l =>
           if negb (st_end_ok (et_store E)) then failed (et_error E)
           else if negb (et_close E unpacked) then failed (et_error E)
           else if negb (et_close E packed) then failed (et_error E)
           else go* _ := changeS packed (fun g => set_recs g l) in closeS packed
       | Throw m => failed m
       | Abort => Done Abort
       | UB w => Done (UB w)
       end.
(** VMCreator.cc:179-197 insert *)
Definition insertS (E : etree) (L : libm) (name : string) (p : payload) (lon lat elev resHoriz : f64) : prog unit :=
  match level L resHoriz with
  | Val lev =>
      match lonLatElevToAddr L (mkAddr 0 0 0 0 lev Leaf) lon lat elev with
      | Val r => Step (CInsert name (snd r) p) (fun ok => if ok then okS else throwS (et_error E))
      | Throw m => throwS m
      | Abort => Done Abort
      | UB w => Done (UB w)
      end
  | Throw m => throwS m
  | Abort => Done Abort
  | UB w => Done (UB w)
  end.

(** GridIngester.cc:194-262: the loop over the points *)
Fixpoint addPointsS (E : etree) (F : numfmt) (L : libm) (db : string) (resHoriz : f64) (n : nat) (s : istream) : prog unit :=
  match n with
  | O => okS
  | S k =>
      let (s', l) := getLine F s in
      if negb (good s') then throwS "Couldn't parse line."%string
      else
      let p := l_pay l in
      if negb (p_block p =? NODATABLOCK) && negb (p_zone p =? NODATAZONE) then
        go* _ := insertS E L db (toSI p) (l_lon l) (l_lat l) (km2m (l_elev l)) resHoriz in
        addPointsS E F L db resHoriz k s'
      else addPointsS E F L db resHoriz k s'
  end.
(** GridIngester.cc:137-282 _addGrid *)
Definition addGridS (E : etree) (F : numfmt) (T : GridIngester.texts) (L : libm) (db file : string) : prog unit :=
  match T file with
  | None => throwS ("Could not open grid file '" ++ file ++ "' for reading.")
  | Some t =>
      let s := openText t in
      let (s, rh) := getNum (n_f64 F) f_zero s in
      let (s, rv) := getNum (n_f64 F) f_zero s in
      let (s, numX) := getNum (n_int F) 0 s in
      let (s, numY) := getNum (n_int F) 0 s in
      let (s, numZ) := getNum (n_int F) 0 s in
      let (s, numTotal) := getNum (n_int F) 0 s in
      let resHoriz := mul64 rh (i2f64 1000) in
      let resVert := mul64 rv (i2f64 1000) in
      let vertExag := div64 resHoriz resVert in
      if differs vertExag VERTEXAG then
        throwS ("Vertical exaggeration of " ++ n_show F vertExag ++ " in '" ++ file ++
          "' does not match velocity model vertical exaggeration of " ++ n_show F VERTEXAG ++ ".")
      else
      match level L resHoriz with
      | Val lev =>
          match edgeLen lev with
          | Val len =>
              if differs resHoriz len then
                throwS ("Horizontal resolution of " ++ n_show F resHoriz ++ " in '" ++
                  file ++ "' does not fit resolution of nearest level in database of " ++ n_show F len ++ ".")
              else addPointsS E F L db resHoriz (Z.to_nat numTotal) s
          | Throw m => throwS m
          | Abort => Done Abort
          | UB w => Done (UB w)
          end
      | Throw m => throwS m
      | Abort => Done Abort
      | UB w => Done (UB w)
      end
  end%string.
(** GridIngester.cc:80-81 *)
Fixpoint addGridsS (E : etree) (F : numfmt) (T : GridIngester.texts) (L : libm) (db : string) (files : list string) : prog unit :=
  match files with
  | [] => okS
  | f :: r => go* _ := addGridS E F T L db f in addGridsS E F T L db r
  end.
(** GridIngester.cc:63-88 run, for an object with a geometry *)
Definition ingestS (E : etree) (F : numfmt) (T : GridIngester.texts) (L : libm) (params out tmp desc : string) : prog unit :=
  if String.eqb params "" || String.eqb tmp "" || String.eqb out "" then Done Abort
  else
  match readParams T (mkIngester params out tmp desc true) with
  | Val files =>
      go* _ := openDBS E tmp desc in
      go* _ := addGridsS E F T L tmp files in
      go* _ := closeDBS E tmp in
      packS E out tmp
  | Throw m => throwS m
  | Abort => Done Abort
  | UB w => Done (UB w)
  end.

(** VsGrader.cc: extraction, packing and grading, as in VsRun.v *)
Section Grade.
Context {DB : Type}.
Variables (EQ : env DB) (E : etree) (F : numfmt) (T : GridIngester.texts) (L : libm).
Fixpoint foldS {X Y} (f : Y -> X -> prog Y) (l : list X) (y : Y) : prog Y :=
  match l with
  | [] => Done (Val y)
  | x :: l => go* y' := f y x in foldS f l y'
  end.
(** VsGrader.cc:304-329 *)
Definition extractPointS (v : VsRun.vsgrader) (lon lat : f64) (st : qstate DB * files * list f64) (iHt : Z)
  : prog (qstate DB * files * list f64) :=
  let '(q, fs, vals) := st in
  let elev := indexToElev (VsRun.vg_g v) iHt in
  go* r := Done (query EQ q fs (Some vals) lon lat elev) in
  go* p := Done (VsRun.takeVals (gp_minVs (VsRun.vg_g v)) (snd r)) in
  go* _ := insertS E L (VsRun.vg_tmp v) p lon lat elev (resHoriz (VsRun.vg_g v)) in
  Done (Val r).
Fixpoint unwindingS {A} (q : qstate DB) (p : prog A) : prog A :=
  match p with
  | Done (Throw s) => Done (match destroy EQ q with Val _ => Throw s | Throw s' => Throw s' | Abort => Abort | UB w => UB w end)
  | Done o => Done o
  | Step c k => Step c (fun r => unwindingS q (k r))
  end.
(** VsGrader.cc:269-342 _extract *)
Definition extractS (v : VsRun.vsgrader) (fs : files) : prog unit :=
  let g := VsRun.vg_g v in
  go* q := Done (open EQ (VsRun.origQuery L v)) in
  unwindingS q (
    go* _ := openDBS E (VsRun.vg_tmp v) (VsRun.description F v) in
    go* numLen := Done (count (gp_len g) (resHoriz g)) in
    go* numWidth := Done (count (gp_width g) (resHoriz g)) in
    go* numHt := Done (count (gp_ht g) (gp_res g)) in
    go* q := Done (set_queryVals (Some VsRun.valNames) q) in
    go* st := foldS (fun st iLen =>
        foldS (fun st iWidth =>
          go* ll := Done (indexToLonLat L g iLen iWidth) in
          foldS (extractPointS v (fst ll) (snd ll)) (range numHt) st)
          (range numWidth) st)
        (range numLen) (q, fs, repeat f_zero 8) in
    go* _ := closeDBS E (VsRun.vg_tmp v) in
    Done (destroy EQ (close EQ (fst (fst st))))).
(** VsGrader.cc:356-474 _grade *)
Variable G : gstore (list (addr * payload)) payload.
Definition gradeFileS (g : gparams) (name : string) : prog unit :=
  Step (CEdit name) (fun r => match r with
  | None => throwS "Could not open etree database."%string
  | Some f =>
      match grade L g G (et_close E name) (et_error E) (d_recs f) with
      | Val l => go* _ := changeS name (fun f => set_recs f l) in closeS name
      | Throw m => go* _ := changeS name (fun f => set_recs f (et_partial E)) in throwS m
      | Abort => Done Abort
      | UB w => Done (UB w)
      end
  end).
(** VsGrader.cc:82-90 run *)
Definition gradientS (v : VsRun.vsgrader) (fs : files) : prog unit :=
  go* v := Done (VsRun.readParams F T v) in
  go* v := Done (VsRun.initialize L v) in
  go* _ := extractS v fs in
  go* _ := packS E (VsRun.vg_out v) (VsRun.vg_tmp v) in
  gradeFileS (VsRun.vg_g v) (VsRun.vg_out v).
End Grade.

(** ** The programs *)
(** e.g. cencalvmavg.cc:97-99 *)
Fixpoint endedS {A} (p : prog A) : prog (Z * list said) :=
  match p with
  | Done (Val _) => Done (Val (0, []))
  | Done (Throw m) => Done (Val (1, [Said m]))
  | Done Abort => Done Abort
  | Done (UB w) => Done (UB w)
  | Step c k => Step c (fun r => endedS (k r))
  end.
(** cencalvmavg.cc:82-105 main *)
Definition avgMainS (E : etree) (args : list string) : prog (Z * list said) :=
  match avgArgs args with
  | None => Done (Val (1, [Usage]))
  | Some c => endedS (averageS E (f_in c) (f_out c))
  end.
(** cencalvmpack.cc:85-107 main *)
Definition packMainS (E : etree) (T : QueryApp.texts) (args : list string) : prog (Z * list said) :=
  match packArgs T args with
  | None => Done (Val (1, [Usage]))
  | Some c => endedS (packS E (f_out c) (f_in c))
  end.
(** cencalvmgen.cc:98-135 main *)
Definition genMainS (E : etree) (F : numfmt) (T : QueryApp.texts) (L : libm) (files : GridIngester.texts) (args : list string)
  : prog (Z * list said) :=
  match genArgs T args with
  | None => Done (Val (1, [Usage]))
  | Some c => endedS (ingestS E F files L (f_params c) (f_out c) (f_tmp c) genDescription)
  end.
(** gradecencalvm.cc:107-138 main.  The input is read by the query object of VMQuery.v,
    whose database is not one of the files here: it does not change while the program runs. *)
Definition gradeMainS {DB} (EQ : env DB) (E : etree) (F : numfmt) (T : QueryApp.texts) (L : libm) (texts : GridIngester.texts)
    (G : gstore (list (addr * payload)) payload) (args : list string) (fs : files) : prog (Z * list said) :=
  match gradeArgs T args with
  | None => Done (Val (1, [Usage]))
  | Some c => endedS (gradientS EQ E F texts L G (gradeObject c) fs)
  end.
