(** Model of applications/query/cencalvmisosurface.cc.

    The operating system, number conversions and formatting are those of QueryApp.v,
    with the same simplifications.  exit(1) inside the search ends the program
    without running destructors: what std::ofstream still holds in its buffer is
    lost, so the lines of such a run are those handed to the stream.  An exception
    that leaves main() ends the program through std::terminate: [Abort]. *)
From Coq Require Import ZArith Bool String Ascii List.
From Verif Require Import Outcome Float Payload Addr Geom ErrorHandler VMQuery Stream GetOpt QueryApp.
Import ListNotations.
Open Scope Z_scope.

(** cencalvmisosurface.cc:331-340: the variables set by parseArgs *)
Record isoconf := mkIso {
  i_vs : f64; i_in : string; i_out : string; i_db : string; i_dbExt : string;
  i_cache : Z; i_squash : f64; i_elevMin : f64 }.
Definition iso0 : isoconf := mkIso f_zero "" "" "" "" 128 squashDefault (i2f64 (-45000)).

(** cencalvmisosurface.cc:82-127: one iteration of the loop over the options; [inl] is
    the exit code (usage() has been written). *)
Definition iso_options : string := "c:d:e:hi:o:s:v:z:".
Definition isoOption (T : texts) (n : Z) (c : isoconf) (o : optev) : Z + Z * isoconf :=
  let '(mkIso vs i o' d e k s z) := c in
  match o with
  | Arg x v =>
      if Ascii.eqb x "c" then inr (n + 2, mkIso vs i o' d e (t_atoi T v) s z)
      else if Ascii.eqb x "d" then inr (n + 2, mkIso vs i o' v e k s z)
      else if Ascii.eqb x "e" then inr (n + 2, mkIso vs i o' d v k s z)
      else if Ascii.eqb x "i" then inr (n + 2, mkIso vs v o' d e k s z)
      else if Ascii.eqb x "o" then inr (n + 2, mkIso vs i v d e k s z)
      else if Ascii.eqb x "s" then inr (n + 2, mkIso vs i o' d e k (t_atof T v) z)
      else if Ascii.eqb x "v" then inr (n + 2, mkIso (t_atof T v) i o' d e k s z)
      else if Ascii.eqb x "z" then inr (n + 2, mkIso vs i o' d e k s (t_atof T v))
      else inl 1
  | Flag x => if Ascii.eqb x "h" then inl 0 else inl 1
  | Unknown => inl 1
  end%char.
Fixpoint isoOptions (T : texts) (n : Z) (c : isoconf) (l : list optev) : Z + Z * isoconf :=
  match l with
  | [] => inr (n, c)
  | o :: l' => match isoOption T n c o with
               | inl x => inl x
               | inr (n', c') => isoOptions T n' c' l'
               end
  end.

(** cencalvmisosurface.cc:53-137 parseArgs; [args] are the words after the program
    name. *)
Definition isoArgs (T : texts) (args : list string) : Z + isoconf :=
  match isoOptions T 1 iso0 (getopts (options iso_options) None args) with
  | inl x => inl x
  | inr (n, c) =>
      if negb (n =? 1 + Z.of_nat (List.length args)) || feq f_zero (i_vs c) ||
         String.eqb (i_in c) "" || String.eqb (i_out c) "" || String.eqb (i_db c) ""
      then inl 1
      else inr c
  end.

(** ceil(); the sign of a zero is not kept. *)
Definition fceil (x : f64) : f64 :=
  match ftrunc x with
  | Some k => if flt (i2f64 k) x then i2f64 (k + 1) else i2f64 k
  | None => x
  end.

Section Iso.
Context {DB : Type}.
Variables (E : env DB) (T : texts) (S : os).

(** cencalvmisosurface.cc:140-206 initialize.  The test "" != filenameDBExt compares
    addresses and always holds.  Settings do not change the status, which is OK, so
    the tests after them are left out.  Results: the object and what was written. *)
Definition isoInit (c : isoconf) (g : libm) : outcome (qstate DB * list said) :=
  let q := set_filename (i_db c) (q_new g) in
  let q := set_cacheSize (i_cache c) q in
  let q := set_filenameExt (i_dbExt c) q in
  let q := set_cacheSizeExt (i_cache c) q in
  let q := if fne (i_squash c) squashDefault then set_squash true (i_squash c) q else q in
  let* q := open E q in
  if bad q then Val (q, [Said (eh_msg (q_err q))])
  else Val (set_queryType 0 q, []).

(** query->query(&vals, 1, lon, lat, elev) and vals[0]; [old] is what the array holds. *)
Definition ask (q : qstate DB) (fs : files) (lon lat : f64) (old elev : f64)
  : outcome (qstate DB * files * f64) :=
  let* (q', fs', v) := query E q fs (Some [old]) lon lat elev in
  Val (q', fs', nth64 v 0).

(** cencalvmisosurface.cc:244-252: the loop; [k] iterations are left, [iter] is the
    variable of the same name. *)
Definition elevStep : f64 := dec64 (-125) 1.
Fixpoint stepDown (k : nat) (iter : Z) (q : qstate DB) (fs : files) (lon lat old elev : f64)
  : outcome (qstate DB * files * f64) :=
  match k with
  | O => Val (q, fs, elev)
  | Datatypes.S k =>
      let elevQ := add64 elev (mul64 (i2f64 iter) elevStep) in
      let* (q1, fs1, vs) := ask q fs lon lat old elevQ in
      if fgt vs f_zero then Val (q1, fs1, elevQ)
      else stepDown k (iter + 1) q1 fs1 lon lat vs elev
  end.

(** cencalvmisosurface.cc:208-257 queryElev; [junk] is what the new array holds.  The
    exception is not caught by main(). *)
Definition isoElev (q : qstate DB) (fs : files) (junk lon lat : f64) : outcome (qstate DB * files * f64) :=
  let* q1 := set_queryVals (Some ["Elevation"]%string) q in
  if bad q1 then Abort
  else
    let* (q2, fs2, elev) := ask q1 fs lon lat junk (i2f64 (-5000)) in
    let* q3 := set_queryVals (Some ["Vs"]%string) q2 in
    stepDown 10 0 q3 fs2 lon lat elev elev.

(** cencalvmisosurface.cc:270-271 *)
Definition searchIters (g : libm) (upper lower : f64) : outcome Z :=
  toInt (add64 (i2f64 1)
    (fceil (div64 (m_log g (div64 (sub64 upper lower) (i2f64 25))) (m_log g (i2f64 2))))).

(** cencalvmisosurface.cc:309-316 *)
Definition rangeMsg (t lon lat upper vsU lower vsL middle vsM : f64) : string :=
  ("Invalid search range!" ++ NL ++
   "Target vs: " ++ e_gen E t ++ NL ++
   "Location: (" ++ e_gen E lon ++ ", " ++ e_gen E lat ++ ")" ++ NL ++
   "Upper Vs(z=" ++ e_gen E upper ++ "): " ++ e_gen E vsU ++ NL ++
   "Lower Vs(z=" ++ e_gen E lower ++ "): " ++ e_gen E vsL ++ NL ++
   "Middle Vs(z=" ++ e_gen E middle ++ "): " ++ e_gen E vsM ++ NL)%string.

(** cencalvmisosurface.cc:285-319: the loop; [inr] is the message before exit(1). *)
Definition noSurface : f64 := i2f64 1000000.
Fixpoint bisect (k : nat) (q : qstate DB) (fs : files) (t lon lat old upper lower found : f64)
  : outcome (qstate DB * files * (f64 + string)) :=
  match k with
  | O => Val (q, fs, inl found)
  | Datatypes.S k =>
      let* (q1, fs1, vsU) := ask q fs lon lat old upper in
      let* (q2, fs2, vsL) := ask q1 fs1 lon lat vsU lower in
      let middle := mul64 half64 (add64 upper lower) in
      let* (q3, fs3, vsM) := ask q2 fs2 lon lat vsL middle in
      if fgt t vsU && fle t vsM then bisect k q3 fs3 t lon lat vsM upper middle middle
      else if fgt t vsM && fle t vsL then bisect k q3 fs3 t lon lat vsM middle lower lower
      else if fle t vsU then Val (q3, fs3, inl upper)
      else if flt vsL f_zero then Val (q3, fs3, inl noSurface)
      else Val (q3, fs3, inr (rangeMsg t lon lat upper vsU lower vsL middle vsM))
  end.

(** cencalvmisosurface.cc:260-322 searchVs; [junk] is what the new array holds. *)
Definition searchVs (g : libm) (q : qstate DB) (fs : files) (junk t lon lat upper lower : f64)
  : outcome (qstate DB * files * (f64 + string)) :=
  let* n := searchIters g upper lower in
  let* q1 := set_queryVals (Some ["Vs"]%string) q in
  bisect (Z.to_nat n) q1 fs t lon lat junk upper lower lower.

(** fileIn >> lon >> lat *)
Definition readLonLat (old : f64 * f64) (s : istream) : istream * (f64 * f64) :=
  let '(lon, lat) := old in
  let (s1, lon) := getNum (n_f64 (t_num T)) lon s in
  let (s2, lat) := getNum (n_f64 (t_num T)) lat s1 in
  (s2, (lon, lat)).

(** cencalvmisosurface.cc:404-414 *)
Definition isoLine (lon lat topo elevVs : f64) : string :=
  let dist := if fne elevVs noSurface then sub64 topo elevVs else i2f64 (-999) in
  (t_fixed T 5 10 lon ++ t_fixed T 5 9 lat ++ t_fixed T 1 9 dist)%string.

(** cencalvmisosurface.cc:388-418: the body of the loop up to the end of the write.
    [inl]: the program ends, with a result that still lacks the lines. *)
Definition isoLocation (c : isoconf) (g : libm) (q : qstate DB) (fs : files) (junk lon lat : f64)
  : outcome (qstate DB * files * list said * (Z + string) * bool) :=
  let squashOn := fne (i_squash c) squashDefault in
  let* (q1, fs1, topo) := isoElev q fs junk lon lat in
  let upper := if squashOn then f_zero else topo in
  let lower := if squashOn then add64 (SFopp topo) (i_elevMin c) else i_elevMin c in
  let* (q2, fs2, r) := searchVs g q1 fs1 junk (i_vs c) lon lat upper lower in
  match r with
  | inr m => Val (q2, fs2, [Said m], inl 1, false)
  | inl elevVs =>
      if bad q2 && is_error q2 then Val (q2, fs2, [Said (eh_msg (q_err q2))], inl 1, true)
      else
        let w := if bad q2 then [Said (eh_msg (q_err q2))] else [] in
        let q3 := if bad q2 then with_err q2 (eh_reset (q_err q2)) else q2 in
        Val (q3, fs2, w, inr (isoLine lon lat topo elevVs), true)
  end.

(** cencalvmisosurface.cc:386-431: the loop and what follows.  [fuel] bounds the number of
    iterations; each reads at least one character. *)
Fixpoint isoLoop (fuel : nat) (c : isoconf) (g : libm) (junk : f64) (q : qstate DB) (w : list said)
    (lines : list string) (fs : files) (outGood : bool) (loc : f64 * f64) (s : istream) : outcome result :=
  if negb (i_eof s) && good s && outGood then
    match fuel with
    | O => UB "loop bound exceeded"%string
    | Datatypes.S fuel =>
        let '(lon, lat) := loc in
        let* (q1, fs1, w1, r, unwinds) := isoLocation c g q fs junk lon lat in
        match r with
        | inl code =>
            if unwinds then leave E code q1 (w ++ w1)%list (Some lines) fs1
            else Val (mkResult code (w ++ w1)%list (Some lines) fs1)
        | inr line =>
            let ok := o_write S (lines ++ [line])%list in
            let lines1 := if ok then (lines ++ [line])%list else lines in
            let (s1, loc1) := readLonLat loc s in
            isoLoop fuel c g junk q1 (w ++ w1)%list lines1 fs1 ok loc1 s1
        end
    end
  else finish E q w lines fs.

(** cencalvmisosurface.cc:326-434 main; [junk] is what new arrays hold. *)
Definition isoMain (g : libm) (junk : f64) (args : list string) (fs : files) : outcome result :=
  match isoArgs T args with
  | inl code => Val (mkResult code [Usage] None fs)
  | inr c =>
      let* (q, w) := isoInit c g in
      match o_read S (i_in c) with
      | None => leave E 1 q (w ++ [Said ("Could not open file '" ++ i_in c ++ "' to read query locations." ++ NL)])%list None fs
      | Some text =>
          if negb (o_create S (i_out c)) then
            leave E 1 q (w ++ [Said ("Could not open file '" ++ i_out c ++ "' to receive query data." ++ NL)])%list None fs
          else
            let (s, loc) := readLonLat (f_zero, f_zero) (openText text) in
            isoLoop (String.length text) c g junk q w [] fs true loc s
      end
  end.
End Iso.
