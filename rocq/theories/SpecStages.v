(** Specification vocabulary for cencalvmquery when it is killed. *)
From Coq Require Import ZArith Bool String Ascii List.
From Verif Require Import Outcome Float Payload Addr Geom ErrorHandler VMQuery QueryApp QueryStages SpecReport.
Import ListNotations.
Open Scope Z_scope.

(** [t] is an initial part of [s]. *)
Definition initial (t s : string) : Prop := exists r, s = (t ++ r)%string.

(** The files after a kill: the log files, and the output file if it was opened. *)
Record remains := mkRemains { k_files : files; k_out : option string }.
(** What may remain of a stage: streams are buffered, so of what was written to the open
    log file and to the output file an initial part is there. *)
Definition may_remain (g : stage) (k : remains) : Prop :=
  (forall n, match g_log g with
     | Some l => if String.eqb n l && negb (String.eqb l "/dev/null")
                 then match g_files g n with
                      | Some s => exists t, k_files k n = Some t /\ initial t s
                      | None => k_files k n = None
                      end
                 else k_files k n = g_files g n
     | None => k_files k n = g_files g n
     end) /\
  match g_lines g with
  | None => k_out k = None
  | Some ls => exists t, k_out k = Some t /\ initial t (as_lines ls)
  end.

(** The file a run with these settings opens its log on. *)
Definition log_opened {DB} (E : env DB) (c : config) (n : string) : Prop :=
  n = c_log c /\ n <> ""%string /\ n <> "/dev/null"%string /\ e_writable E n = true.

(** Two runs end in the same way. *)
Definition same_result (o o' : outcome result) : Prop :=
  match o, o' with
  | Val r, Val r' => r_code r = r_code r' /\ r_said r = r_said r' /\ r_lines r = r_lines r' /\
      forall n, r_files r n = r_files r' n
  | _, _ => o = o'
  end.

(** What a run leaves that was not killed, from its stages and whether it closed its output
    file at the end: everything, or else what may remain of the last stage. *)
Definition whole (g : stage) (k : remains) : Prop :=
  (forall n, k_files k n = g_files g n) /\
  match g_lines g with
  | None => k_out k = None
  | Some ls => k_out k = Some (as_lines ls)
  end.
Definition left_after (r : list stage * bool) (k : remains) : Prop :=
  exists before f, fst r = (before ++ [f])%list /\ if snd r then whole f k else may_remain f k.

(** The isosurface program gave up inside its search. *)
Definition ended_in_search (code : Z) (m : list said) : Prop :=
  code = 1 /\ exists w m', m = (w ++ [Said ("Invalid search range!" ++ m')])%list.
