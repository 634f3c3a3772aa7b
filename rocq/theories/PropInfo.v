(** C60: the program cencalvminfo. *)
From Coq Require Import ZArith Bool Lia String Ascii Decimal DecimalFacts DecimalZ DecimalString Sorting.Permutation List.
From Verif Require Import Outcome Float Payload Addr SpecOct Geom Store Averager SpecStore Stream QueryApp SpecText SpecGrid SpecAvg
  SmallApps SpecSmall SpecPipe SpecInfo PropStore PropSmall PropPipe.
Import ListNotations.
Open Scope Z_scope.

(** ** Numerals *)
Lemma number_acc u : forall p, number (Zpos p) (NilEmpty.string_of_uint u) = Some (Zpos (Pos.of_uint_acc u p)).
Proof.
  induction u; intros p; cbn [NilEmpty.string_of_uint number Pos.of_uint_acc]; [reflexivity|..];
    match goal with |- context[digit_value ?c] => let r := eval vm_compute in (digit_value c) in change (digit_value c) with r end; cbv iota;
    rewrite <- IHu; f_equal; lia.
Qed.
Lemma number_uint u : number 0 (NilEmpty.string_of_uint u) = Some (Z.of_uint u).
Proof.
  unfold Z.of_uint. induction u; cbn [NilEmpty.string_of_uint number Pos.of_uint]; [reflexivity|..];
    match goal with |- context[digit_value ?c] => let r := eval vm_compute in (digit_value c) in change (digit_value c) with r end; cbv iota;
    [exact IHu|..]; cbn [Z.mul Z.add Z.of_N]; apply number_acc.
Qed.
Lemma showZ_spells n : 0 <= n -> spells (showZ n) n.
Proof.
  intros H. unfold showZ. assert (U : exists u, Z.to_int n = Pos u).
  { destruct n; [exists (Decimal.D0 Decimal.Nil) | eexists | lia]; reflexivity. }
  destruct U as [u U]. pose proof (DecimalZ.of_to n) as Q. rewrite U in *. cbn [Z.of_int] in Q. unfold NilZero.string_of_int, NilZero.string_of_uint.
  destruct u as [|u|u|u|u|u|u|u|u|u|u]; [cbn in Q; subst n; split; [discriminate | reflexivity]|..];
    (split; [discriminate|]; rewrite <- Q; apply number_uint).
Qed.

(** C60.  The database in the named file is described on standard output: its metadata, its
    schema and its number of octants in decimal; exit code 0 and nothing on standard error. *)
Theorem C60_described : forall E name d f m s, d name = Some f -> et_open E d name = true -> et_close E name = true ->
  d_meta f = Some m -> d_schema f = Some s ->
  exists count, spells count (Z.of_nat (List.length (d_recs f))) /\
    infoMain E [name] d = (0, [], report m s count).
Proof.
  intros E name d f m s D O C M S. exists (showZ (Z.of_nat (List.length (d_recs f)))). split; [apply showZ_spells; lia|].
  unfold infoMain, openRead. rewrite D, O, M, S, C. unfold report. f_equal. change newline with nl.
  assert (A : forall x y z : string, ((x ++ y) ++ z = x ++ y ++ z)%string).
  { induction x as [|ch x IH]; intros y z; [reflexivity|]. cbn. rewrite IH. reflexivity. }
  cbv zeta. rewrite !A. reflexivity.
Qed.
Print Assumptions C60_described.

(** Exit code 0 tells that all this was there. *)
Theorem C60_exit_0 : forall E args d err out, infoMain E args d = (0, err, out) ->
  exists name f m s count, args = [name] /\ d name = Some f /\ et_open E d name = true /\ et_close E name = true /\
    d_meta f = Some m /\ d_schema f = Some s /\ spells count (Z.of_nat (List.length (d_recs f))) /\
    err = [] /\ out = report m s count.
Proof.
  intros E args d err out H. unfold infoMain in H. destruct args as [|name [|? ?]]; try discriminate.
  unfold openRead in H. destruct (d name) as [f|] eqn:D; [|discriminate]. destruct (et_open E d name) eqn:O; [|discriminate].
  destruct (d_meta f) as [m|] eqn:M; [|discriminate]. destruct (d_schema f) as [s|] eqn:S; [|discriminate].
  destruct (et_close E name) eqn:C; [|discriminate].
  destruct (C60_described E name d f m s D O C M S) as (count & SP & Q).
  exists name, f, m, s, count. do 7 (split; [reflexivity || assumption|]). unfold infoMain, openRead in Q. rewrite D, O, M, S, C in Q.
  rewrite Q in H. injection H as <- <-. split; reflexivity.
Qed.
Print Assumptions C60_exit_0.

(** Otherwise: the wrong number of words gives the usage and code 1; a file that cannot be
    opened, missing metadata, a missing schema and a failing close give code -1 with a
    message, the last three after what was found before. *)
Theorem C60_not_described : forall E args d code err out, infoMain E args d = (code, err, out) -> code <> 0 ->
  (code = 1 /\ err = [Usage] /\ out = ""%string /\ List.length args <> 1%nat) \/
  (code = -1 /\ exists name, args = [name] /\
     ((err = [Said ("Could not open etree database '" ++ name ++ "'.")%string] /\ out = ""%string /\ (d name = None \/ et_open E d name = false)) \/
      exists f, d name = Some f /\ et_open E d name = true /\
        ((err = [Said "Could not retrieve database metadata."%string] /\ out = ""%string /\ d_meta f = None) \/
         (err = [Said "Could not retrieve database schema."%string] /\ d_schema f = None /\
            exists m, d_meta f = Some m /\ out = ("Database metadata:" ++ newline ++ m ++ newline ++ newline)%string) \/
         (err = [Said (et_error E)] /\ et_close E name = false /\
            exists m s count, d_meta f = Some m /\ d_schema f = Some s /\ spells count (Z.of_nat (List.length (d_recs f))) /\ out = report m s count)))).
Proof.
  intros E args d code err out H N. unfold infoMain in H. destruct args as [|name [|? ?]].
  - injection H as <- <- <-. left. auto.
  - right. unfold openRead in H. destruct (d name) as [f|] eqn:D.
    2:{ injection H as <- <- <-. split; [reflexivity|]. exists name. split; [reflexivity|]. left. auto. }
    destruct (et_open E d name) eqn:O.
    2:{ injection H as <- <- <-. split; [reflexivity|]. exists name. split; [reflexivity|]. left. auto. }
    destruct (d_meta f) as [m|] eqn:M.
    2:{ injection H as <- <- <-. split; [reflexivity|]. exists name. split; [reflexivity|]. right. exists f. auto 6. }
    destruct (d_schema f) as [s|] eqn:S.
    2:{ injection H as <- <- <-. split; [reflexivity|]. exists name. split; [reflexivity|]. right. exists f. do 2 (split; [assumption || reflexivity|]).
        right; left. do 2 (split; [reflexivity || assumption|]). exists m. auto. }
    destruct (et_close E name) eqn:C; [injection H as <- <- <-; destruct (N eq_refl)|].
    injection H as <- <- <-. split; [reflexivity|]. exists name. split; [reflexivity|]. right. exists f. do 2 (split; [assumption || reflexivity|]).
    right; right. do 2 (split; [reflexivity || assumption|]). exists m, s, (showZ (Z.of_nat (List.length (d_recs f)))).
    do 2 (split; [reflexivity || assumption|]). split; [apply showZ_spells; lia|]. unfold report. change newline with nl.
    assert (A : forall x y z : string, ((x ++ y) ++ z = x ++ y ++ z)%string).
    { induction x as [|ch x IH]; intros y z; [reflexivity|]. cbn. rewrite IH. reflexivity. }
    cbv zeta. rewrite !A. reflexivity.
  - injection H as <- <- <-. left. repeat split; try reflexivity. discriminate.
Qed.
Print Assumptions C60_not_described.

(** A database that cencalvmgen has built (exit code 0), its temporary file having been
    written and read to the end, is described by its authors, the standard schema and the number of points with data in the grid files. *)
Theorem C60_after_build : forall E F T L files args d d' s,
  genMain E F T L files args d = (d', Val (0, s)) -> (forall n, et_open E d' n = true) -> (forall n, et_close E n = true) ->
  exists kvs fp fout ft, command gen_letters args kvs /\ named "i" kvs fp /\ named "o" kvs fout /\ named "t" kvs ft /\
    (ft <> fout -> et_flush E ft = true -> reads_on E ft -> exists text tail listed recss count,
       files fp = Some (text ++ tail)%string /\ laid_out listed text /\ unterminated tail /\
       Forall2 (all_or_nothing F L files) listed recss /\
       spells count (Z.of_nat (List.length (concat recss))) /\
       infoMain E [fout] d' = (0, [],
         report (authors ++ newline ++ "created on: " ++ et_now E ++ "host: " ++ et_host E) SCHEMA count)).
Proof.
  intros E F T L files args d d' s H O C. destruct (C58_gen_exit_0 E F T L files args d d' s H) as (kvs & fp & fout & ft & K & N1 & N2 & N3 & _ & _ & X).
  exists kvs, fp, fout, ft. do 4 (split; [assumption|]). intros Hn HF HR. destruct (X Hn HF HR) as (text & tail & listed & recss & out & A1 & A2 & A3 & A4 & A5 & A6 & A7).
  destruct (C60_described E fout d' _ _ _ A7 (O _) (C _) eq_refl eq_refl) as (count & SP & Q).
  exists text, tail, listed, recss, count. do 4 (split; [assumption|]). split; [|exact Q].
  cbn [d_recs] in SP. rewrite (Permutation_length A5) in SP. exact SP.
Qed.
Print Assumptions C60_after_build.

(** ** Examples *)
From Verif Require Import ToyLib ToyGrid PropApp.
From Verif Require PropGrid.
Example C60_example :
  let d := fst (genMain toy_etree toy_fmt app_texts toy PropGrid.toy_texts gen_args (fun _ => None)) in
  infoMain toy_etree ["raw.etree"%string] d =
    (0, [], report (authors ++ newline ++ "created on: Mon Jan  1 00:00:00 2007host: host") SCHEMA "2") /\
  infoMain toy_etree ["other"%string] d = (-1, [Said "Could not open etree database 'other'."%string], ""%string) /\
  infoMain toy_etree [] d = (1, [Usage], ""%string).
Proof. vm_compute. auto. Qed.
Example C60_example_numbers : spells (showZ 1234567890123) 1234567890123.
Proof. apply showZ_spells. lia. Qed.
