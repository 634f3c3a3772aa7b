(** Specification vocabulary for runs of the query application over parts of a file. *)
From Coq Require Import Bool String List.
From Verif Require Import Outcome Float ErrorHandler VMQuery QueryApp.

(** Two command lines ask for the same model and for the same kind of answers; the names of
    the files that are read and written may differ. *)
Definition same_settings (c c' : config) : Prop :=
  c_db c = c_db c' /\ c_dbExt c = c_dbExt c' /\ c_type c = c_type c' /\ c_res c = c_res c' /\ c_cache c = c_cache c' /\ c_squash c = c_squash c'.
(** The log is kept in a file. *)
Definition keeps_log {DB} (E : env DB) (c : config) : Prop :=
  c_log c <> ""%string /\ c_log c <> "/dev/null"%string /\ e_writable E (c_log c) = true.
