(** C37: a list of grid files that cannot be read. *)
From Coq Require Import ZArith Bool String List.
From Verif Require Import Outcome Float Payload Addr Geom Store Averager VMCreator Stream GridIngester ToyLib ToyGrid.
From Verif Require PropGrid.
Import ListNotations.
Open Scope Z_scope. Open Scope string_scope.

(** Without the list nothing is made or changed, and the message names the file. *)
Theorem C37_no_list : forall E F T L g d, gi_params g <> "" -> gi_tmp g <> "" -> gi_out g <> "" -> T (gi_params g) = None ->
  run E F T L g d = (d, [], Throw ("Could not open parameter file '" ++ gi_params g ++ "' for reading.")).
Proof.
  intros E F T L g d A B C H. unfold run, readParams. apply String.eqb_neq in A, B, C. rewrite A, B, C, H. reflexivity.
Qed.
Print Assumptions C37_no_list.
(** Without a name for one of the files the program stops at an assertion, before it reads
    or writes anything. *)
Theorem C37_no_name : forall E F T L g d, gi_params g = "" \/ gi_tmp g = "" \/ gi_out g = "" ->
  run E F T L g d = (d, [], Abort).
Proof.
  intros E F T L g d H. unfold run. destruct H as [->|[->| ->]]; rewrite ?orb_true_r; reflexivity.
Qed.
Print Assumptions C37_no_name.

Example C37_no_list_example : let T := fun n => if String.eqb n (gi_params PropGrid.toy_ingester) then None else Some "a.txt " in
  run toy_etree toy_fmt T toy PropGrid.toy_ingester PropGrid.one_db =
  (PropGrid.one_db, [], Throw ("Could not open parameter file '" ++ gi_params PropGrid.toy_ingester ++ "' for reading.")).
Proof.
  cbv zeta. apply C37_no_list; try discriminate. rewrite String.eqb_refl. reflexivity.
Qed.
Example C37_no_name_example : run toy_etree toy_fmt (fun _ => Some "a.txt ") toy
  (mkIngester "list.txt" "model.etree" "" "toy model" true) PropGrid.one_db = (PropGrid.one_db, [], Abort).
Proof. apply C37_no_name. right. left. reflexivity. Qed.
