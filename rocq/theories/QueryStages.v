(** What cencalvmquery has written at each point of a run: the functions of QueryApp.v
    again, with the list of what the files hold between two writes instead of the result.
    A run that ends in undefined behaviour is followed up to there. *)
From Coq Require Import ZArith Bool String Ascii List.
From Verif Require Import Outcome Float Payload Addr Geom ErrorHandler VMQuery Stream GetOpt QueryApp.
Import ListNotations.
Open Scope Z_scope.

(** The file the log stream is open on, if any; the log files; the lines written to the
    output file ([None]: not opened yet). *)
Record stage := mkStage { g_log : option string; g_files : files; g_lines : option (list string) }.

Section Stages.
Context {DB : Type}.
Variables (E : env DB) (T : texts) (S : os).

Definition stage_of (q : qstate DB) (fs : files) (lines : option (list string)) : stage :=
  mkStage (eh_stream (q_err q)) fs lines.

(** cencalvmquery.cc:299-334 *)
Fixpoint loopStages (fuel : nat) (q : qstate DB) (lines : list string) (fs : files)
    (outGood : bool) (vals : list f64) (loc : f64 * f64 * f64) (s : istream) : list stage :=
  stage_of q fs (Some lines) ::
  if negb (i_eof s) && good s && outGood then
    match fuel with
    | O => []
    | Datatypes.S fuel =>
        let '(lon, lat, elev) := loc in
        match query E q fs (Some vals) lon lat elev with
        | Val (q1, fs1, vals1) =>
            stage_of q1 fs1 (Some lines) ::
            if bad q1 && is_error q1 then []
            else
              let q2 := if bad q1 then with_err q1 (eh_reset (q_err q1)) else q1 in
              match outLine T lon lat elev vals1 with
              | Val line =>
                  let ok := o_write S (lines ++ [line])%list in
                  let lines1 := if ok then (lines ++ [line])%list else lines in
                  let (s1, loc1) := readLocation T loc s in
                  loopStages fuel q2 lines1 fs1 ok vals1 loc1 s1
              | _ => []
              end
        | _ => []
        end
    end
  else [].

(** cencalvmquery.cc:169-297 *)
Definition mainStages (g : libm) (junk : list f64) (args : list string) (fs : files) : list stage :=
  mkStage None fs None ::
  match parseArgs T args with
  | inl _ => []
  | inr (c, _) =>
      let (q, fs1) := configure E c (q_new g) fs in
      stage_of q fs1 None ::
      match open E q with
      | Val q1 =>
          if bad q1 then []
          else match setType c q1 with
               | inr _ => []
               | inl q2 =>
                   match o_read S (c_in c) with
                   | None => []
                   | Some text =>
                       if negb (o_create S (c_out c)) then []
                       else
                         let (s, loc) := readLocation T (f_zero, f_zero, f_zero) (openText text) in
                         loopStages (String.length text) q2 [] fs1 true junk loc s
                   end
               end
      | _ => []
      end
  end.
End Stages.
