(** What cencalvmisosurface has written at each point of a run: the functions of IsoApp.v
    again, with the list of what the files hold between two writes instead of the result,
    and whether the output file was closed at the end.  A run that ends in undefined
    behaviour is followed up to there. *)
From Coq Require Import ZArith Bool String Ascii List.
From Verif Require Import Outcome Float Payload Addr Geom ErrorHandler VMQuery Stream GetOpt QueryApp QueryStages IsoApp.
Import ListNotations.
Open Scope Z_scope.

Section Stages.
Context {DB : Type}.
Variables (E : env DB) (T : texts) (S : os).

(** The stages of the rest of a run after this one. *)
Definition after_stage (g : stage) (r : list stage * bool) : list stage * bool := (g :: fst r, snd r).

(** cencalvmisosurface.cc:386-431.  exit() in searchVs (line 317), and an exception that is
    not caught, do not run the destructor of fileOut, so its buffer is not written;
    return does (line 400), and close() (line 425). *)
Fixpoint isoLoopStages (fuel : nat) (c : isoconf) (g : libm) (junk : f64) (q : qstate DB)
    (lines : list string) (fs : files) (outGood : bool) (loc : f64 * f64) (s : istream) : list stage * bool :=
  after_stage (stage_of q fs (Some lines))
  (if negb (i_eof s) && good s && outGood then
    match fuel with
    | O => ([], false)
    | Datatypes.S fuel =>
        let '(lon, lat) := loc in
        match isoLocation E T c g q fs junk lon lat with
        | Val (q1, fs1, _, r, unwinds) =>
            after_stage (stage_of q1 fs1 (Some lines))
            match r with
            | inl _ => ([], unwinds)
            | inr line =>
                let ok := o_write S (lines ++ [line])%list in
                let lines1 := if ok then (lines ++ [line])%list else lines in
                let (s1, loc1) := readLonLat T loc s in
                isoLoopStages fuel c g junk q1 lines1 fs1 ok loc1 s1
            end
        | _ => ([], false)
        end
    end
  else ([], true)).

(** cencalvmisosurface.cc:326-434 main *)
Definition isoMainStages (g : libm) (junk : f64) (args : list string) (fs : files) : list stage * bool :=
  after_stage (mkStage None fs None)
  match isoArgs T args with
  | inl _ => ([], true)
  | inr c =>
      match isoInit E c g with
      | Val (q, _) =>
          match o_read S (i_in c) with
          | None => ([], true)
          | Some text =>
              if negb (o_create S (i_out c)) then ([], true)
              else
                let (s, loc) := readLonLat T (f_zero, f_zero) (openText text) in
                isoLoopStages (String.length text) c g junk q [] fs true loc s
          end
      | _ => ([], false)
      end
  end.
End Stages.
