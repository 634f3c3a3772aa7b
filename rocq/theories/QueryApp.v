(** Model of applications/query/cencalvmquery.cc.

    The operating system, number conversions and formatting are records of
    arbitrary functions.  Standard error is a list of what is written on it.
    Simplifications: the files read and written by the application are different
    files; a line that could not be written leaves nothing in the output file;
    a line counts as written at once (the stream buffer is not modelled). *)
From Coq Require Import ZArith Bool String Ascii List.
From Verif Require Import Outcome Float Payload Addr Geom ErrorHandler VMQuery Stream GetOpt.
Import ListNotations.
Open Scope Z_scope.

(** atoi, atof, and formatted output: [f_fixed prec width], [f_int width] stand for
    << fixed << setprecision(prec) << setw(width) << double and << setw(width) << int. *)
Record texts := mkTexts {
  t_num : numfmt;
  t_atoi : string -> Z;
  t_atof : string -> f64;
  t_fixed : Z -> Z -> f64 -> string;
  t_int : Z -> Z -> string }.

(** Files other than databases and logs: [o_read n] is the text of a file that can be
    opened, [o_create n] tells whether it can be opened for writing, [o_write l] whether
    the output stream is good after line [l], the last of the list, was written. *)
Record os := mkOs {
  o_read : string -> option string;
  o_create : string -> bool;
  o_write : list string -> bool }.

(** What is written on standard error. *)
Inductive said := Usage | Said (s : string).

(** How a run ends: exit code, standard error, the lines of the output file ([None] if
    it was not created), the log files. *)
Record result := mkResult {
  r_code : Z; r_said : list said; r_lines : option (list string); r_files : files }.

(** cencalvmquery.cc:173-182: the variables set by parseArgs *)
Record config := mkConfig {
  c_in : string; c_out : string; c_db : string; c_dbExt : string; c_log : string;
  c_type : string; c_res : f64; c_cache : Z; c_squash : f64 }.
Definition squashDefault : f64 := i2f64 1000000.
Definition config0 : config := mkConfig "" "" "" "" "" "maxres" f_zero 128 squashDefault.

(** cencalvmquery.cc:110-156: one iteration of the loop over the options; [inl] is the
    exit code. *)
Definition query_options : string := "c:d:e:hi:l:o:r:s:t:".
Definition option1 (T : texts) (n : Z) (c : config) (w : list said) (o : optev)
  : Z * list said + Z * config * list said :=
  let '(mkConfig i o' d e l t r z s) := c in
  match o with
  | Arg k v =>
      if Ascii.eqb k "c" then inr (n + 2, mkConfig i o' d e l t r (t_atoi T v) s, w)
      else if Ascii.eqb k "d" then inr (n + 2, mkConfig i o' v e l t r z s, w)
      else if Ascii.eqb k "e" then inr (n + 2, mkConfig i o' d v l t r z s, w)
      else if Ascii.eqb k "i" then inr (n + 2, mkConfig v o' d e l t r z s, w)
      else if Ascii.eqb k "l" then inr (n + 2, mkConfig i o' d e v t r z s, w)
      else if Ascii.eqb k "o" then inr (n + 2, mkConfig i v d e l t r z s, w)
      else if Ascii.eqb k "t" then inr (n + 2, mkConfig i o' d e l v r z s, w)
      else if Ascii.eqb k "r" then inr (n + 2, mkConfig i o' d e l t (t_atof T v) z s, w)
      else if Ascii.eqb k "s" then inr (n + 2, mkConfig i o' d e l t r z (t_atof T v), w)
      else inr (n, c, (w ++ [Usage])%list)
  | Flag k =>
      if Ascii.eqb k "h" then inl (0, (w ++ [Usage])%list)
      else inr (n, c, (w ++ [Usage])%list)
  | Unknown => inr (n, c, (w ++ [Usage])%list)
  end%char.
Fixpoint optionLoop (T : texts) (n : Z) (c : config) (w : list said) (l : list optev)
  : Z * list said + Z * config * list said :=
  match l with
  | [] => inr (n, c, w)
  | o :: l' => match option1 T n c w o with
               | inl x => inl x
               | inr (n', c', w') => optionLoop T n' c' w' l'
               end
  end.

(** cencalvmquery.cc:77-165 parseArgs; [args] are the words after the program name. *)
Definition parseArgs (T : texts) (args : list string) : Z * list said + config * list said :=
  match optionLoop T 1 config0 [] (getopts (options query_options) None args) with
  | inl x => inl x
  | inr (n, c, w) =>
      if negb (n =? 1 + Z.of_nat (List.length args)) || String.eqb (c_in c) "" ||
         String.eqb (c_out c) "" || String.eqb (c_db c) ""
      then inl (1, (w ++ [Usage])%list)
      else inr (c, w)
  end.

(** int(double) *)
Definition toInt (x : f64) : outcome Z :=
  match ftrunc x with
  | Some z => if (-2147483648 <=? z) && (z <=? 2147483647) then Val z
              else UB "double out of the range of int"%string
  | None => UB "double out of the range of int"%string
  end.

(** cencalvmquery.cc:314-330 one line of output; the new line is left out. *)
Definition nth64 (l : list f64) (n : nat) : f64 := nth n l S754_nan.
Definition outLine (T : texts) (lon lat elev : f64) (v : list f64) : outcome string :=
  let* b := toInt (nth64 v 6) in
  let* z := toInt (nth64 v 7) in
  Val (t_fixed T 5 10 lon ++ t_fixed T 5 9 lat ++ t_fixed T 1 9 elev ++
       t_fixed T 1 8 (nth64 v 0) ++ t_fixed T 1 8 (nth64 v 1) ++ t_fixed T 1 8 (nth64 v 2) ++
       t_fixed T 1 9 (nth64 v 3) ++ t_fixed T 1 9 (nth64 v 4) ++ t_fixed T 1 9 (nth64 v 5) ++
       t_int T 5 b ++ t_int T 5 z ++ t_fixed T 1 9 (nth64 v 8))%string.

Section Main.
Context {DB : Type}.
Variables (E : env DB) (T : texts) (S : os).

(** return code: the destructor of the query object runs. *)
Definition leave (code : Z) (q : qstate DB) (w : list said) (lines : option (list string)) (fs : files)
  : outcome result :=
  let* _ := destroy E q in Val (mkResult code w lines fs).

Definition bad (q : qstate DB) : bool :=
  match eh_status (q_err q) with OK => false | _ => true end.
Definition is_error (q : qstate DB) : bool :=
  match eh_status (q_err q) with ERROR => true | _ => false end.
Definition tell (q : qstate DB) (w : list said) : list said := (w ++ [Said (eh_msg (q_err q))])%list.

(** fileIn >> lon >> lat >> elev *)
Definition readLocation (old : f64 * f64 * f64) (s : istream) : istream * (f64 * f64 * f64) :=
  let '(lon, lat, elev) := old in
  let (s1, lon) := getNum (n_f64 (t_num T)) lon s in
  let (s2, lat) := getNum (n_f64 (t_num T)) lat s1 in
  let (s3, elev) := getNum (n_f64 (t_num T)) elev s2 in
  (s3, (lon, lat, elev)).

(** cencalvmquery.cc:336-349: after the loop *)
Definition finish (q : qstate DB) (w : list said) (lines : list string) (fs : files) : outcome result :=
  let q' := close E q in
  if bad q' then leave 1 q' (tell q' w) (Some lines) fs
  else leave 0 q' w (Some lines) fs.

(** cencalvmquery.cc:299-334 the loop; [outGood] is fileOut.good().  [fuel] bounds the
    number of iterations; each reads at least one character. *)
Fixpoint locationLoop (fuel : nat) (q : qstate DB) (w : list said) (lines : list string) (fs : files)
    (outGood : bool) (vals : list f64) (loc : f64 * f64 * f64) (s : istream) : outcome result :=
  if negb (i_eof s) && good s && outGood then
    match fuel with
    | O => UB "loop bound exceeded"%string
    | Datatypes.S fuel =>
        let '(lon, lat, elev) := loc in
        let* (q1, fs1, vals1) := query E q fs (Some vals) lon lat elev in
        if bad q1 && is_error q1 then leave 1 q1 (tell q1 w) (Some lines) fs1
        else
          let w1 := if bad q1 then tell q1 w else w in
          let q2 := if bad q1 then with_err q1 (eh_reset (q_err q1)) else q1 in
          let* line := outLine T lon lat elev vals1 in
          let ok := o_write S (lines ++ [line])%list in
          let lines1 := if ok then (lines ++ [line])%list else lines in
          let (s1, loc1) := readLocation loc s in
          locationLoop fuel q2 w1 lines1 fs1 ok vals1 loc1 s1
    end
  else finish q w lines fs.

(** cencalvmquery.cc:274-297 and the loop; [junk] is what the new array holds. *)
Definition locations (c : config) (junk : list f64) (q : qstate DB) (w : list said) (fs : files) : outcome result :=
  match o_read S (c_in c) with
  | None => leave 1 q (w ++ [Said ("Could not open file '" ++ c_in c ++ "' to read query locations." ++ NL)])%list None fs
  | Some text =>
      if negb (o_create S (c_out c)) then
        leave 1 q (w ++ [Said ("Could not open file '" ++ c_out c ++ "' to receive query data." ++ NL)])%list None fs
      else
        let (s, loc) := readLocation (f_zero, f_zero, f_zero) (openText text) in
        locationLoop (String.length text) q w [] fs true junk loc s
  end.

(** cencalvmquery.cc:253-272 query type and resolution; [None]: returned. *)
Definition setType (c : config) (q : qstate DB) : qstate DB + list said :=
  if casecmp (c_type c) "maxres" then inl (set_queryType 0 q)
  else if flt (c_res c) f_zero then
    inr [Said "Query resolution must be a positive value."; Usage]
  else
    let q := set_queryRes (c_res c) q in
    if casecmp (c_type c) "fixedres" then inl (set_queryType 1 q)
    else if casecmp (c_type c) "waveres" then inl (set_queryType 2 q)
    else inr [Said ("Could not parse query string '" ++ c_type c ++ "' into a known type of query."); Usage].

(** cencalvmquery.cc:201-242: the settings, before open().  None of these calls changes
    the status, which is OK, so the tests after them are left out. *)
Definition configure (c : config) (q : qstate DB) (fs : files) : qstate DB * files :=
  let (e, fs1) := if String.eqb (c_log c) "" then (q_err q, fs)
                  else eh_logFilename (e_writable E) (c_log c) (q_err q) fs in
  let q := with_err q e in
  let q := set_filename (c_db c) q in
  let q := set_cacheSize (c_cache c) q in
  let q := if String.eqb (c_dbExt c) "" then q
           else set_cacheSizeExt (c_cache c) (set_filenameExt (c_dbExt c) q) in
  let q := if fne (c_squash c) squashDefault then set_squash true (c_squash c) q else q in
  (q, fs1).

(** cencalvmquery.cc:169-351 main *)
Definition main (g : libm) (junk : list f64) (args : list string) (fs : files) : outcome result :=
  match parseArgs T args with
  | inl (code, w) => Val (mkResult code w None fs)
  | inr (c, w) =>
      let (q, fs1) := configure c (q_new g) fs in
      let* q1 := open E q in
      if bad q1 then leave 1 q1 (tell q1 w) None fs1
      else match setType c q1 with
           | inr m => leave 1 q1 (w ++ m)%list None fs1
           | inl q2 => locations c junk q2 w fs1
           end
  end.
End Main.
