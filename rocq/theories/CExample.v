(** Model of examples/query/c/cencalvmcquery.c, the example program for the C
    interface.

    The functions of the C interface are those of CApi.v; the operating system,
    number conversions and formatting are those of QueryApp.v (printf with %w.pf and
    %wd writes what the C++ program writes with fixed, setprecision(p) and setw(w)).
    Simplifications: as in QueryApp.v; malloc() does not fail; a program that ends
    does not touch the databases any more. *)
From Coq Require Import ZArith Bool String Ascii List.
From Verif Require Import Outcome Float Payload Addr Geom ErrorHandler VMQuery CApi Stream GetOpt QueryApp.
Import ListNotations.
Open Scope Z_scope.

(** cencalvmcquery.c:145-150: six arrays of 256 characters, filled with strcpy(); the
    terminating null character needs one of them. *)
Definition strcpy (v : string) : outcome string :=
  if (String.length v <? 256)%nat then Val v else UB "strcpy() beyond the end of the array"%string.

(** cencalvmcquery.c:82-129: one iteration of the loop over the options; [inl] is the
    exit code. *)
Definition cOption1 (T : texts) (n : Z) (c : config) (w : list said) (o : optev)
  : outcome (Z * list said + Z * config * list said) :=
  let '(mkConfig i o' d e l t r z s) := c in
  match o with
  | Arg k v =>
      if Ascii.eqb k "c" then Val (inr (n + 2, mkConfig i o' d e l t r (t_atoi T v) s, w))
      else if Ascii.eqb k "d" then let* v := strcpy v in Val (inr (n + 2, mkConfig i o' v e l t r z s, w))
      else if Ascii.eqb k "e" then let* v := strcpy v in Val (inr (n + 2, mkConfig i o' d v l t r z s, w))
      else if Ascii.eqb k "i" then let* v := strcpy v in Val (inr (n + 2, mkConfig v o' d e l t r z s, w))
      else if Ascii.eqb k "l" then let* v := strcpy v in Val (inr (n + 2, mkConfig i o' d e v t r z s, w))
      else if Ascii.eqb k "o" then let* v := strcpy v in Val (inr (n + 2, mkConfig i v d e l t r z s, w))
      else if Ascii.eqb k "t" then let* v := strcpy v in Val (inr (n + 2, mkConfig i o' d e l v r z s, w))
      else if Ascii.eqb k "r" then Val (inr (n + 2, mkConfig i o' d e l t (t_atof T v) z s, w))
      else if Ascii.eqb k "s" then Val (inr (n + 2, mkConfig i o' d e l t r z (t_atof T v), w))
      else Val (inr (n, c, (w ++ [Usage])%list))
  | Flag k =>
      if Ascii.eqb k "h" then Val (inl (0, (w ++ [Usage])%list))
      else Val (inr (n, c, (w ++ [Usage])%list))
  | Unknown => Val (inr (n, c, (w ++ [Usage])%list))
  end%char.
Fixpoint cOptionLoop (T : texts) (n : Z) (c : config) (w : list said) (l : list optev)
  : outcome (Z * list said + Z * config * list said) :=
  match l with
  | [] => Val (inr (n, c, w))
  | o :: l' => let* x := cOption1 T n c w o in
               match x with
               | inl x => Val (inl x)
               | inr (n', c', w') => cOptionLoop T n' c' w' l'
               end
  end.

(** cencalvmcquery.c:152-161 the variables before the options are looked at *)
Definition cSquashDefault : f64 := i2f64 1000000.
Definition cConfig0 : config := mkConfig "" "" "" "" "" "maxres" f_zero 128 cSquashDefault.

(** cencalvmcquery.c:55-137 parseArgs; [args] are the words after the program name. *)
Definition cParseArgs (T : texts) (args : list string) : outcome (Z * list said + config * list said) :=
  let* x := cOptionLoop T 1 cConfig0 [] (getopts (options "c:d:e:hi:l:o:r:s:t:") None args) in
  Val match x with
      | inl x => inl x
      | inr (n, c, w) =>
          if negb (n =? 1 + Z.of_nat (List.length args)) || (String.length (c_in c) =? 0)%nat ||
             (String.length (c_out c) =? 0)%nat || (String.length (c_db c) =? 0)%nat
          then inl (1, (w ++ [Usage])%list)
          else inr (c, w)
      end.

(** A text file open for reading: what is left of it and feof().  fscanf() with the
    directive %lf skips white space and takes the characters up to the next white space
    as a number.  A number that ends at the end of the file, and white space up to the
    end of the file, make feof() true.  A word that is not a number is left where it is;
    feof() becomes true only if the word ends the file and fscanf() had to look at all of
    it, which [to_end] tells.
    Simplification: the C library leaves only the characters from the first one that does
    not fit; the next call fails at that one. *)
Record instream := mkInput { in_rest : list ascii; in_feof : bool }.
Definition none (l : list ascii) : bool := match l with [] => true | _ => false end.
Definition scanNum (F : numfmt) (to_end : string -> bool) (s : instream) : instream * option f64 :=
  match skipws (in_rest s) with
  | [] => (mkInput [] true, None)
  | r => let (w, t) := takeword r in
         match n_f64 F (string_of_list_ascii w) with
         | (v, true) => (mkInput t (in_feof s || none t), Some v)
         | (_, false) => (mkInput r (in_feof s || (none t && to_end (string_of_list_ascii w))), None)
         end
  end.
(** fscanf(fileIn, "%lf %lf %lf", &lon, &lat, &elev): stops at the first directive that
    fails; the white space in the format is white space that %lf skips anyway. *)
Definition scan3 (F : numfmt) (to_end : string -> bool) (old : f64 * f64 * f64) (s : instream)
  : instream * (f64 * f64 * f64) :=
  let '(lon, lat, elev) := old in
  match scanNum F to_end s with
  | (s1, None) => (s1, (lon, lat, elev))
  | (s1, Some lon) =>
      match scanNum F to_end s1 with
      | (s2, None) => (s2, (lon, lat, elev))
      | (s2, Some lat) =>
          match scanNum F to_end s2 with
          | (s3, None) => (s3, (lon, lat, elev))
          | (s3, Some elev) => (s3, (lon, lat, elev))
          end
      end
  end.

(** How far a run has come: it has ended, or goes on; [Goes lines w]: what it has written
    to the output file and on standard error so far. *)
Inductive progress := Ended (r : result) | Goes (lines : list string) (w : list said).

Section Main.
Context {DB : Type}.
Variables (E : env DB) (T : texts) (S : os) (to_end : string -> bool).
Notation world := (world DB).

Definition ends (code : Z) (w : world) (e : list said) (lines : option (list string)) : outcome progress :=
  Val (Ended (mkResult code e lines (w_files w))).
(** fprintf(stderr, "%s", cencalvm_error_message(errHandler)); a null pointer must not be
    printed.  [after] is what the format has after %s. *)
Definition message (after : string) (hh : ptr) (w : world) (e : list said) : outcome (world * list said) :=
  let* (w, m) := cencalvm_error_message hh w in
  match m with
  | Some m => Val (w, (e ++ [Said (m ++ after)])%list)
  | None => UB "null pointer printed"%string
  end.
(** if (0 != call) \{ message with new line; return 1; \} *)
Definition or_quit (hh : ptr) (e : list said) (call : world -> outcome (world * Z))
    (next : world -> outcome progress) (w : world) : outcome progress :=
  let* (w, z) := call w in
  if negb (z =? 0) then let* (w, e) := message NL hh w e in ends 1 w e None
  else next w.

(** cencalvmcquery.c:308-324: after the loop *)
Definition cFinish (hq hh : ptr) (w : world) (e : list said) (lines : list string) : outcome progress :=
  let* (w, _) := cencalvm_close E hq w in
  let* (w, z) := cencalvm_error_status hh w in
  if negb (z =? 0) then let* (w, e) := message NL hh w e in ends 1 w e (Some lines)
  else let* (w, _) := cencalvm_destroyQuery E hq w in ends 0 w e (Some lines).

(** cencalvmcquery.c:294-302 one line of output; the new line is left out. *)
Definition cLine (lon lat elev : f64) (v : list f64) : outcome string :=
  let* b := toInt (nth 6 v S754_nan) in
  let* z := toInt (nth 7 v S754_nan) in
  Val (t_fixed T 5 10 lon ++ t_fixed T 5 9 lat ++ t_fixed T 1 9 elev ++
       t_fixed T 1 8 (nth 0 v S754_nan) ++ t_fixed T 1 8 (nth 1 v S754_nan) ++ t_fixed T 1 8 (nth 2 v S754_nan) ++
       t_fixed T 1 9 (nth 3 v S754_nan) ++ t_fixed T 1 9 (nth 4 v S754_nan) ++ t_fixed T 1 9 (nth 5 v S754_nan) ++
       t_int T 5 b ++ t_int T 5 z ++ t_fixed T 1 9 (nth 8 v S754_nan))%string.

(** cencalvmcquery.c:283-306 the loop, for [fuel] iterations.  A line that cannot be
    written is lost; the program does not notice. *)
Fixpoint cLoop (fuel : nat) (hq hh : ptr) (w : world) (e : list said) (lines : list string)
    (vals : option (list f64)) (loc : f64 * f64 * f64) (s : instream) : outcome progress :=
  if in_feof s then cFinish hq hh w e lines
  else
    match fuel with
    | O => Val (Goes lines e)
    | Datatypes.S fuel =>
        let '(lon, lat, elev) := loc in
        let* (w1, z, vals1) := cencalvm_query E vals lon lat elev hq w in
        let* (w2, e2, stop) :=
          if negb (z =? 0) then
            let* (w2, e2) := message "" hh w1 e in
            let* (w3, z3) := cencalvm_error_status hh w2 in
            if z3 =? 2 then Val (w3, e2, true)
            else let* (w4, _) := cencalvm_error_resetStatus hh w3 in Val (w4, e2, false)
          else Val (w1, e, false) in
        if (stop : bool) then ends 1 w2 e2 (Some lines)
        else
          match vals1 with
          | None => UB "null array read"%string
          | Some v =>
              let* line := cLine lon lat elev v in
              let lines1 := if o_write S (lines ++ [line])%list then (lines ++ [line])%list else lines in
              let (s1, loc1) := scan3 (t_num T) to_end loc s in
              cLoop fuel hq hh w2 e2 lines1 vals1 loc1 s1
          end
    end.

(** cencalvmcquery.c:258-282; [junk] is what the new array holds.  The message about the
    output file has the name of the input file in it. *)
Definition cLocations (fuel : nat) (c : config) (junk : list f64) (hq hh : ptr) (e : list said) (w : world)
  : outcome progress :=
  match o_read S (c_in c) with
  | None => ends 1 w (e ++ [Said ("Could not open file '" ++ c_in c ++ "' to read query locations." ++ NL)])%list None
  | Some text =>
      if negb (o_create S (c_out c)) then
        ends 1 w (e ++ [Said ("Could not open file '" ++ c_in c ++ "' to write query data." ++ NL)])%list None
      else
        let (s, loc) := scan3 (t_num T) to_end (f_zero, f_zero, f_zero)
                          (mkInput (list_ascii_of_string text) false) in
        cLoop fuel hq hh w e [] (Some junk) loc s
  end.

(** cencalvmcquery.c:236-256 query type and resolution, and the rest *)
Definition cType (fuel : nat) (c : config) (junk : list f64) (hq hh : ptr) (e : list said) (w : world)
  : outcome progress :=
  let go := cLocations fuel c junk hq hh e in
  if casecmp (c_type c) "maxres" then let* (w, _) := cencalvm_queryType 0 hq w in go w
  else if flt (c_res c) f_zero then
    ends 1 w (e ++ [Said "Query resolution must be a positive value."; Usage])%list None
  else
    let* (w, _) := cencalvm_queryRes (c_res c) hq w in
    if casecmp (c_type c) "fixedres" then let* (w, _) := cencalvm_queryType 1 hq w in go w
    else if casecmp (c_type c) "waveres" then let* (w, _) := cencalvm_queryType 2 hq w in go w
    else ends 1 w (e ++ [Said ("Could not parse query string '" ++ c_type c ++ "'  into a known type of query.");
                         Usage])%list None.

(** cencalvmcquery.c:186-234: settings and open() *)
Definition cSettings (fuel : nat) (c : config) (junk : list f64) (hq hh : ptr) (e : list said)
  : world -> outcome progress :=
  let opened := or_quit hh e (cencalvm_open E hq) (cType fuel c junk hq hh e) in
  let squashed := if fne (c_squash c) cSquashDefault
                  then or_quit hh e (cencalvm_squash 1 (c_squash c) hq) opened else opened in
  let extended := if negb (String.eqb "" (c_dbExt c))
                  then or_quit hh e (cencalvm_filenameExt (c_dbExt c) hq)
                         (or_quit hh e (cencalvm_cacheSizeExt (c_cache c) hq) squashed)
                  else squashed in
  or_quit hh e (cencalvm_filename (c_db c) hq)
    (or_quit hh e (cencalvm_cacheSize (c_cache c) hq) extended).

(** cencalvmcquery.c:141-325 main; [fuel] is how many iterations of the loop we wait for. *)
Definition cMain (fuel : nat) (g : libm) (junk : list f64) (args : list string) (fs : files) : outcome progress :=
  let* x := cParseArgs T args in
  match x with
  | inl (code, e) => Val (Ended (mkResult code e None fs))
  | inr (c, e) =>
      let (w, hq) := cencalvm_createQuery g (mkWorld (fun _ => None) 0%nat fs []) in
      match hq with
      | Null => ends 1 w (e ++ [Said ("Could not create query." ++ NL)])%list None
      | _ =>
          let* (w, hh) := cencalvm_errorHandler hq w in
          match hh with
          | Null => ends 1 w (e ++ [Said ("Could not get handle to error handler." ++ NL)])%list None
          | _ =>
              let* (w, _) := if (0 <? String.length (c_log c))%nat
                             then cencalvm_error_logFilename (e_writable E) (c_log c) hh w else Val (w, 0) in
              cSettings fuel c junk hq hh e w
          end
      end
  end.
End Main.
