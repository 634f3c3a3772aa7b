(** Model of examples/query/f77/cencalvmf77query.f, the example program for the Fortran
    interface.

    The functions of the Fortran interface are those of Fortran.v.  The parameters of the
    program (lines 22-47, 67-110) are the fields of a [config]; [c_dbExt] empty and
    [c_squash] = 10^6 stand for the calls that are commented out (lines 139-146, 148-153).
    Input and output of the Fortran system are oracles.  Simplifications: the numbers of a
    record are read as a whole; what is written is in the file at once; a failing close
    statement is not noticed. *)
From Coq Require Import ZArith Bool String Ascii List.
From Verif Require Import Outcome Float Payload Addr Geom ErrorHandler VMQuery CApi Fortran Stream GetOpt QueryApp.
Import ListNotations.
Open Scope Z_scope.

(** The Fortran system: [f_read n] are the locations that the read statement gives for an
    existing file, and whether it then meets the end of the file (else a record that it
    cannot read); [f_new n]: there is no such file and it can be created; [f_write ls]: the
    last of these lines can be written; edit descriptors Fw.d and Iw. *)
Record fsys := mkFsys {
  f_read : string -> option (list (f64 * f64 * f64) * bool);
  f_new : string -> bool;
  f_write : list string -> bool;
  f_F : nat -> nat -> f64 -> string;
  f_I : nat -> Z -> string }.

(** character*n constants are cut, or padded with blanks; trailing blanks of a file name
    in an open statement do not count. *)
Definition blankc : ascii := ascii_of_nat 32.
Fixpoint character (n : nat) (s : string) : list ascii :=
  match n, s with
  | O, _ => []
  | S k, EmptyString => blankc :: character k EmptyString
  | S k, String c r => c :: character k r
  end.
(** Whether the first [n] characters of a character*64 constant are [s] *)
Definition starts (s name : string) : bool :=
  String.eqb (string_of_list_ascii (firstn (String.length name) (character 64 s))) name.
Fixpoint trim (l : list ascii) : string :=
  match l with
  | [] => ""%string
  | c :: r => match trim r with
              | EmptyString => if Ascii.eqb c blankc then ""%string else String c ""
              | t => String c t
              end
  end.

(** How a run ends: at the end statement, or stopped by the Fortran system. *)
Inductive stopping := End | RuntimeError.
(** Standard output: a message buffer, the word ERROR, or one of the other texts. *)
Inductive printed := Buffer (b : list ascii) | Printed (s : string).
Record fresult := mkFresult {
  fr_stop : stopping;
  fr_printed : list printed;
  fr_lines : option (list string);      (* output file, if it was created *)
  fr_files : files }.                   (* log files *)

Section Main.
Context {DB : Type}.
Variables (E : env DB) (F : fsys).
(** [mem]: what follows a character argument in memory *)
Variable mem : list ascii.
Notation world := (world DB).

(** cencalvmf77query.f:233-234 label 999 *)
Definition at_999 (p : list printed) (lines : option (list string)) (w : world) : outcome fresult :=
  Val (mkFresult End (p ++ [Printed "ERROR"]) lines (w_files w)).
(** cencalvmf77query.f:230-232 label 998; errorMsg has 256 characters *)
Definition at_998 (hh : ptr) (p : list printed) (lines : option (list string)) (w : world) : outcome fresult :=
  let* (w, b, ok) := error_message_f true true 256 hh w in
  at_999 (p ++ [Buffer b]) lines w.
(** call ...; if (ok.ne.0) goto 998 *)
Definition or_998 (hh : ptr) (p : list printed) (lines : option (list string)) (call : world -> outcome (world * Z))
    (next : world -> outcome fresult) (w : world) : outcome fresult :=
  let* (w, ok) := call w in
  if negb (ok =? 0) then at_998 hh p lines w else next w.

(** cencalvmf77query.f:212-223 label 30 *)
Definition fFinish (hq hh : ptr) (p : list printed) (lines : list string) (w : world) : outcome fresult :=
  or_998 hh p (Some lines) (close_f true E hq)
    (fun w => let* (w, ok) := destroyquery_f true E hq w in
              if negb (ok =? 0) then at_999 p (Some lines) w
              else Val (mkFresult End p (Some lines) (w_files w))) w.

(** cencalvmf77query.f:205-207 *)
Definition fLine (lon lat elev : f64) (v : list f64) : outcome string :=
  let* b := toInt (nth 6 v S754_nan) in
  let* z := toInt (nth 7 v S754_nan) in
  Val (f_F F 9 4 lon ++ f_F F 8 4 lat ++ f_F F 9 1 elev ++
       f_F F 8 1 (nth 0 v S754_nan) ++ f_F F 8 1 (nth 1 v S754_nan) ++ f_F F 8 1 (nth 2 v S754_nan) ++
       f_F F 9 1 (nth 3 v S754_nan) ++ f_F F 9 1 (nth 4 v S754_nan) ++ f_F F 9 1 (nth 5 v S754_nan) ++
       f_I F 5 b ++ f_I F 5 z ++ f_F F 9 1 (nth 8 v S754_nan))%string.

(** cencalvmf77query.f:190-209 the loop, over the locations that the file gives; the code
    that line 199 looks at is the one of the call before it. *)
Fixpoint fLoop (hq hh : ptr) (at_end : bool) (w : world) (p : list printed) (lines : list string)
    (vals : list f64) (ls : list (f64 * f64 * f64)) : outcome fresult :=
  match ls with
  | [] => if at_end then fFinish hq hh p lines w
          else Val (mkFresult RuntimeError p (Some lines) (w_files w))
  | (lon, lat, elev) :: ls' =>
      let* (w1, ok, vals1) := query_f true E vals lon lat elev hq w in
      let line w p :=
        match vals1 with
        | None => UB "null array read"%string
        | Some v =>
            let* s := fLine lon lat elev v in
            if f_write F (lines ++ [s]) then fLoop hq hh at_end w p (lines ++ [s]) v ls'
            else Val (mkFresult RuntimeError p (Some lines) (w_files w))
        end in
      if negb (ok =? 0) then
        let* (w2, b, ok) := error_message_f true true 256 hh w1 in
        let p2 := (p ++ [Buffer b])%list in
        if ok =? 2 then at_999 p2 (Some lines) w2
        else
          let* (w3, ok) := error_resetstatus_f true hh w2 in
          if negb (ok =? 0) then at_998 hh p2 (Some lines) w3 else line w3 p2
      else line w1 p
  end.

(** cencalvmf77query.f:183-187; [junk] is what the array holds *)
Definition fLocations (c : config) (junk : list f64) (hq hh : ptr) (p : list printed) (w : world) : outcome fresult :=
  match f_read F (trim (character 128 (c_in c))) with
  | None => Val (mkFresult RuntimeError p None (w_files w))
  | Some (ls, at_end) =>
      if negb (f_new F (trim (character 64 (c_out c)))) then Val (mkFresult RuntimeError p None (w_files w))
      else fLoop hq hh at_end w p [] junk ls
  end.

(** cencalvmf77query.f:159-181 *)
Definition fType (c : config) (junk : list f64) (hq hh : ptr) (w : world) : outcome fresult :=
  let go := fLocations c junk hq hh [] in
  if starts (c_type c) "maxres" then or_998 hh [] None (querytype_f true 0 hq) go w
  else if flt (c_res c) f_zero then at_999 [Printed "Query resolution must be a positive value."] None w
  else
    or_998 hh [] None (queryres_f true (c_res c) hq)
      (fun w =>
         if starts (c_type c) "fixedres" then or_998 hh [] None (querytype_f true 1 hq) go w
         else if starts (c_type c) "waveres" then let* (w, _) := querytype_f true 2 hq w in go w
         else at_999 [Printed "Could not parse query resolution string."] None w) w.

(** cencalvmf77query.f:132-157 settings and open(); a character*64 argument *)
Definition fname (s : string) : list ascii := (character 64 s ++ mem)%list.
Definition fSettings (c : config) (junk : list f64) (hq hh : ptr) : world -> outcome fresult :=
  let opened := or_998 hh [] None (open_f true E hq) (fType c junk hq hh) in
  let squashed := if fne (c_squash c) squashDefault
                  then or_998 hh [] None (squash_f true 1 (c_squash c) hq) opened else opened in
  let extended := if negb (String.eqb (c_dbExt c) "")
                  then or_998 hh [] None (filenameext_f true (fname (c_dbExt c)) 64 hq)
                         (or_998 hh [] None (cachesizeext_f true (c_cache c) hq) squashed)
                  else squashed in
  or_998 hh [] None (filename_f true (fname (c_db c)) 64 hq)
    (or_998 hh [] None (cachesize_f true (c_cache c) hq) extended).

(** cencalvmf77query.f:118-130 the start *)
Definition fMain (g : libm) (junk : list f64) (c : config) (fs : files) : outcome fresult :=
  let* (w, hq) := createquery_f g (mkWorld (fun _ => None) 0%nat fs []) in
  match hq with
  | Null => at_999 [] None w
  | _ =>
      let* (w, hh) := errorhandler_f true hq w in
      match hh with
      | Null => at_999 [] None w
      | _ =>
          let* (w, ok) := error_logfilename_f true (e_writable E) (fname (c_log c)) 64 hh w in
          if negb (ok =? 0) then at_999 [] None w else fSettings c junk hq hh w
      end
  end.
End Main.
