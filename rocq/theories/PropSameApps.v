(** C84 for whole programs: the query application and the isosurface application write the
    same bytes whatever form their databases have. *)
From Coq Require Import ZArith Bool Lia String List.
From Verif Require Import Outcome Float Payload Addr SpecOct SpecGeom Geom ErrorHandler VMQuery SpecQuery SpecHist
  Store VMCreator SpecStore Stream GetOpt QueryApp IsoApp SpecSame PropSame.
Import ListNotations.
Open Scope Z_scope.

Section Two.
Context {DB1 DB2 : Type} (E1 : env DB1) (E2 : env DB2).
Hypothesis W : same_world E1 E2.
Let TX : same_texts E1 E2 := proj1 W.
Variables (T : texts) (S : os).
Notation twin := (twin E1 E2).
Notation outR := (outR).

Lemma bad_same q1 q2 : twin q1 q2 -> bad q1 = bad q2 /\ is_error q1 = is_error q2 /\ forall w, tell q1 w = tell q2 w.
Proof. intros TW. unfold bad, is_error, tell. rewrite (tw_err _ _ _ _ TW). auto. Qed.
Lemma leave_same code q1 q2 w lines fs : twin q1 q2 -> leave E1 code q1 w lines fs = leave E2 code q2 w lines fs.
Proof.
  intros TW. unfold leave, destroy. pose proof (tw_db _ _ _ _ TW) as D. pose proof (tw_ext _ _ _ _ TW) as X.
  destruct (q_db q1) as [d1|], (q_db q2) as [d2|]; cbn [optR] in D; try contradiction;
  destruct (q_dbExt q1) as [x1|], (q_dbExt q2) as [x2|]; cbn [optR] in X; try contradiction;
  rewrite ?(proj1 D), ?(proj1 X); reflexivity.
Qed.
Lemma finish_same q1 q2 w lines fs : twin q1 q2 -> finish E1 q1 w lines fs = finish E2 q2 w lines fs.
Proof.
  intros TW. unfold finish. pose proof (close_same E1 E2 q1 q2 TW) as C. destruct (bad_same _ _ C) as (-> & _ & Ht). rewrite Ht.
  destruct (bad (close E2 q2)); apply leave_same, C.
Qed.
Lemma reset_same q1 q2 : twin q1 q2 -> twin (if bad q1 then with_err q1 (eh_reset (q_err q1)) else q1) (if bad q2 then with_err q2 (eh_reset (q_err q2)) else q2).
Proof.
  intros TW. destruct (bad_same _ _ TW) as (-> & _). rewrite (tw_err _ _ _ _ TW). destruct (bad q2); [apply twin_err, TW|exact TW].
Qed.

Lemma loop_same fuel : forall q1 q2 w lines fs og vals loc s, twin q1 q2 ->
  locationLoop E1 T S fuel q1 w lines fs og vals loc s = locationLoop E2 T S fuel q2 w lines fs og vals loc s.
Proof.
  induction fuel as [|fuel IH]; intros q1 q2 w lines fs og vals [[lon lat] elev] s TW; cbn [locationLoop].
  - destruct (negb (i_eof s) && good s && og); [reflexivity|apply finish_same, TW].
  - destruct (negb (i_eof s) && good s && og); [|apply finish_same, TW].
    pose proof (query_same E1 E2 TX q1 q2 fs (Some vals) lon lat elev TW) as Q.
    destruct (query E1 q1 fs (Some vals) lon lat elev) as [[[a1 f1] v1]| | |], (query E2 q2 fs (Some vals) lon lat elev) as [[[a2 f2] v2]| | |];
      cbn [outR PropSame.outR resR bind] in Q |- *; try contradiction; try congruence.
    destruct Q as (TW' & -> & ->). pose proof (reset_same _ _ TW') as TR. destruct (bad_same _ _ TW') as (B & R & Ht). rewrite B, R, !Ht in *.
    destruct (bad a2 && is_error a2); [apply leave_same, TW'|].
    destruct (outLine T lon lat elev v2) as [line| | |]; cbn [bind]; try reflexivity.
    destruct (readLocation T (lon, lat, elev) s) as [s1 loc1]. apply IH. exact TR.
Qed.
Lemma locations_same c junk q1 q2 w fs : twin q1 q2 -> locations E1 T S c junk q1 w fs = locations E2 T S c junk q2 w fs.
Proof.
  intros TW. unfold locations. destruct (o_read S (c_in c)) as [text|]; [|apply leave_same, TW].
  destruct (negb (o_create S (c_out c))); [apply leave_same, TW|].
  destruct (readLocation T _ _) as [s loc]. apply loop_same, TW.
Qed.
Lemma opens q1 q2 : twin q1 q2 -> PropSame.outR twin (open E1 q1) (open E2 q2).
Proof. apply open_same. exact (proj2 W). Qed.
Lemma set_same a q1 q2 : twin q1 q2 -> match a with AOpen | AClose | AQueryVals _ | AGeometry _ | AHandler _ | AQuery _ _ _ _ => True | _ =>
  forall fs, match step (q1, fs) (done_in E1 a), step (q2, fs) (done_in E2 a) with Val (x, _), Val (y, _) => twin x y | _, _ => False end end.
Proof.
  intros TW. pose proof (fun fs => step_same E1 E2 TX (proj2 W) a q1 q2 fs TW) as H.
  destruct a; try exact I; intros fs; specialize (H fs); cbn [done_in step] in *; exact (proj1 H).
Qed.

Lemma main_same g junk args fs : main E1 T S g junk args fs = main E2 T S g junk args fs.
Proof.
  unfold main. destruct (parseArgs T args) as [[code w]|[c w]]; [reflexivity|].
  assert (CF : twin (fst (configure E1 c (q_new g) fs)) (fst (configure E2 c (q_new g) fs)) /\
    snd (configure E1 c (q_new g) fs) = snd (configure E2 c (q_new g) fs)).
  { unfold configure.
    assert (LG : (if String.eqb (c_log c) "" then (q_err (@q_new DB1 g), fs) else eh_logFilename (e_writable E1) (c_log c) (q_err (@q_new DB1 g)) fs) =
      (if String.eqb (c_log c) "" then (q_err (@q_new DB2 g), fs) else eh_logFilename (e_writable E2) (c_log c) (q_err (@q_new DB2 g)) fs)).
    { destruct (String.eqb (c_log c) ""); [reflexivity|]. unfold eh_logFilename, open_trunc. rewrite (proj1 TX). reflexivity. }
    rewrite LG. clear LG.
    destruct (if String.eqb (c_log c) "" then (q_err (@q_new DB2 g), fs) else eh_logFilename (e_writable E2) (c_log c) (q_err (@q_new DB2 g)) fs) as [e fs1].
    cbn [fst snd]. split; [|reflexivity].
    unfold set_cacheSizeExt, set_cacheSize. destruct (0 <? c_cache c), (String.eqb (c_dbExt c) ""), (fne (c_squash c) squashDefault); constructor; cbn; auto. }
  destruct (configure E1 c (q_new g) fs) as [q1 f1], (configure E2 c (q_new g) fs) as [q2 f2]. cbn [fst snd] in CF. destruct CF as [TW ->].
  pose proof (opens q1 q2 TW) as O. destruct (open E1 q1) as [a1| | |], (open E2 q2) as [a2| | |]; cbn [PropSame.outR bind] in O |- *; try contradiction; try congruence.
  destruct (bad_same _ _ O) as (-> & _ & Ht). rewrite Ht. destruct (bad a2); [apply leave_same, O|].
  unfold setType. pose proof (set_same (AQueryRes (c_res c)) a1 a2 O fs) as OR. cbn [done_in step] in OR.
  destruct (casecmp (c_type c) "maxres").
  - apply locations_same. exact (set_same (AQueryType 0) a1 a2 O fs).
  - destruct (flt (c_res c) f_zero); [apply leave_same, O|].
    destruct (casecmp (c_type c) "fixedres"); [apply locations_same; exact (set_same (AQueryType 1) _ _ OR fs)|].
    destruct (casecmp (c_type c) "waveres"); [apply locations_same; exact (set_same (AQueryType 2) _ _ OR fs)|].
    apply leave_same, O.
Qed.

(** ** Isosurfaces *)
Definition askR (a : qstate DB1 * files * f64) (b : qstate DB2 * files * f64) : Prop :=
  let '(q1, f1, v1) := a in let '(q2, f2, v2) := b in twin q1 q2 /\ f1 = f2 /\ v1 = v2.
Lemma ask_same q1 q2 fs lon lat old elev : twin q1 q2 -> PropSame.outR askR (ask E1 q1 fs lon lat old elev) (ask E2 q2 fs lon lat old elev).
Proof.
  intros TW. unfold ask. pose proof (query_same E1 E2 TX q1 q2 fs (Some [old]) lon lat elev TW) as Q.
  destruct (query E1 q1 fs (Some [old]) lon lat elev) as [[[a1 f1] v1]| | |], (query E2 q2 fs (Some [old]) lon lat elev) as [[[a2 f2] v2]| | |];
    cbn [PropSame.outR resR bind askR] in Q |- *; try contradiction; auto. destruct Q as (T' & -> & ->). auto.
Qed.
Ltac done3 := split; [assumption|]; split; reflexivity.
Ltac asks q1 q2 TW :=
  match goal with |- context [ask E1 q1 ?fs ?lon ?lat ?old ?elev] =>
    let Q := fresh "Q" in pose proof (ask_same q1 q2 fs lon lat old elev TW) as Q;
    destruct (ask E1 q1 fs lon lat old elev) as [[[? ?] ?]| | |], (ask E2 q2 fs lon lat old elev) as [[[? ?] ?]| | |];
    cbn [PropSame.outR askR bind] in Q |- *; try contradiction; try congruence; auto;
    destruct Q as (? & -> & ->) end.
Lemma down_same k : forall iter q1 q2 fs lon lat old elev, twin q1 q2 ->
  PropSame.outR askR (stepDown E1 k iter q1 fs lon lat old elev) (stepDown E2 k iter q2 fs lon lat old elev).
Proof.
  induction k as [|k IH]; intros iter q1 q2 fs lon lat old elev TW; cbn [stepDown]; [done3|].
  cbv zeta. asks q1 q2 TW. match goal with |- PropSame.outR _ (if ?b then _ else _) _ => destruct b end; [done3|apply IH; assumption].
Qed.
Lemma vals_same names q1 q2 : twin q1 q2 -> PropSame.outR twin (set_queryVals names q1) (set_queryVals names q2).
Proof.
  intros TW. pose proof (step_same E1 E2 TX (proj2 W) (AQueryVals names) q1 q2 (fun _ => None) TW) as H. cbn [done_in step] in H.
  destruct (set_queryVals names q1), (set_queryVals names q2); cbn [bind PropSame.outR] in *; try contradiction; auto. exact (proj1 H).
Qed.
Lemma isoElev_same q1 q2 fs junk lon lat : twin q1 q2 -> PropSame.outR askR (isoElev E1 q1 fs junk lon lat) (isoElev E2 q2 fs junk lon lat).
Proof.
  intros TW. unfold isoElev. pose proof (vals_same (Some ["Elevation"]%string) q1 q2 TW) as V.
  destruct (set_queryVals (Some ["Elevation"]%string) q1) as [a1| | |], (set_queryVals (Some ["Elevation"]%string) q2) as [a2| | |];
    cbn [bind PropSame.outR] in V |- *; try contradiction; auto.
  destruct (bad_same _ _ V) as (-> & _). destruct (bad a2); [exact I|].
  asks a1 a2 V. pose proof (vals_same (Some ["Vs"]%string) _ _ H) as V'.
  destruct (set_queryVals (Some ["Vs"]%string) q) as [b1| | |], (set_queryVals (Some ["Vs"]%string) q0) as [b2| | |];
    cbn [bind PropSame.outR] in V' |- *; try contradiction; auto.
  apply down_same, V'.
Qed.
Definition findR (a : qstate DB1 * files * (f64 + string)) (b : qstate DB2 * files * (f64 + string)) : Prop :=
  let '(q1, f1, v1) := a in let '(q2, f2, v2) := b in twin q1 q2 /\ f1 = f2 /\ v1 = v2.
Lemma range_same t lon lat u a l b m c : rangeMsg E1 t lon lat u a l b m c = rangeMsg E2 t lon lat u a l b m c.
Proof. unfold rangeMsg. destruct TX as (_ & _ & G & _). rewrite !G. reflexivity. Qed.
Lemma bisect_same k : forall q1 q2 fs t lon lat old upper lower found, twin q1 q2 ->
  PropSame.outR findR (bisect E1 k q1 fs t lon lat old upper lower found) (bisect E2 k q2 fs t lon lat old upper lower found).
Proof.
  induction k as [|k IH]; intros q1 q2 fs t lon lat old upper lower found TW; cbn [bisect]; [done3|].
  asks q1 q2 TW. asks q q0 H. cbv zeta. asks q3 q4 H0. rewrite range_same.
  repeat match goal with |- PropSame.outR _ (if ?b then _ else _) _ => destruct b end; try (apply IH; assumption); done3.
Qed.
Lemma searchVs_same g q1 q2 fs junk t lon lat upper lower : twin q1 q2 ->
  PropSame.outR findR (searchVs E1 g q1 fs junk t lon lat upper lower) (searchVs E2 g q2 fs junk t lon lat upper lower).
Proof.
  intros TW. unfold searchVs. destruct (searchIters g upper lower) as [n| | |]; cbn [bind PropSame.outR]; try reflexivity; try exact I.
  pose proof (vals_same (Some ["Vs"]%string) q1 q2 TW) as V.
  destruct (set_queryVals (Some ["Vs"]%string) q1) as [a1| | |], (set_queryVals (Some ["Vs"]%string) q2) as [a2| | |];
    cbn [bind PropSame.outR] in V |- *; try contradiction; auto. apply bisect_same, V.
Qed.
Definition locR (a : qstate DB1 * files * list said * (Z + string) * bool) (b : qstate DB2 * files * list said * (Z + string) * bool) : Prop :=
  let '(q1, f1, w1, r1, u1) := a in let '(q2, f2, w2, r2, u2) := b in twin q1 q2 /\ f1 = f2 /\ w1 = w2 /\ r1 = r2 /\ u1 = u2.
Lemma loc_same c g q1 q2 fs junk lon lat : twin q1 q2 ->
  PropSame.outR locR (isoLocation E1 T c g q1 fs junk lon lat) (isoLocation E2 T c g q2 fs junk lon lat).
Proof.
  intros TW. unfold isoLocation. cbv zeta. pose proof (isoElev_same q1 q2 fs junk lon lat TW) as Q.
  destruct (isoElev E1 q1 fs junk lon lat) as [[[a1 f1] t1]| | |], (isoElev E2 q2 fs junk lon lat) as [[[a2 f2] t2]| | |];
    cbn [PropSame.outR askR bind] in Q |- *; try contradiction; try congruence. destruct Q as (TA & -> & ->).
  set (up := if fne (i_squash c) squashDefault then f_zero else t2). set (lo := if fne (i_squash c) squashDefault then _ else _).
  clearbody up lo. pose proof (searchVs_same g a1 a2 f2 junk (i_vs c) lon lat up lo TA) as Q.
  destruct (searchVs E1 g a1 f2 junk (i_vs c) lon lat up lo) as [[[b1 h1] r1]| | |], (searchVs E2 g a2 f2 junk (i_vs c) lon lat up lo) as [[[b2 h2] r2]| | |];
    cbn [PropSame.outR findR bind] in Q |- *; try contradiction; try congruence. destruct Q as (TB & -> & ->).
  destruct r2 as [z|m]; [|cbn [PropSame.outR locR]; repeat (split; [assumption || reflexivity|]); reflexivity].
  pose proof (reset_same _ _ TB) as TR. destruct (bad_same _ _ TB) as (B & R & _). rewrite B, R, (tw_err _ _ _ _ TB) in *.
  destruct (bad b2 && is_error b2); cbn [PropSame.outR locR]; repeat (split; [assumption || reflexivity|]); reflexivity.
Qed.
Lemma isoLoop_same c g junk fuel : forall q1 q2 w lines fs og loc s, twin q1 q2 ->
  isoLoop E1 T S fuel c g junk q1 w lines fs og loc s = isoLoop E2 T S fuel c g junk q2 w lines fs og loc s.
Proof.
  induction fuel as [|fuel IH]; intros q1 q2 w lines fs og [lon lat] s TW; cbn [isoLoop].
  - destruct (negb (i_eof s) && good s && og); [reflexivity|apply finish_same, TW].
  - destruct (negb (i_eof s) && good s && og); [|apply finish_same, TW].
    pose proof (loc_same c g q1 q2 fs junk lon lat TW) as Q.
    destruct (isoLocation E1 T c g q1 fs junk lon lat) as [[[[[a1 f1] w1] r1] u1]| | |], (isoLocation E2 T c g q2 fs junk lon lat) as [[[[[a2 f2] w2] r2] u2]| | |];
      cbn [PropSame.outR locR bind] in Q |- *; try contradiction; try congruence.
    destruct Q as (TA & -> & -> & -> & ->). destruct r2 as [code|line].
    + destruct u2; [apply leave_same, TA|reflexivity].
    + destruct (readLonLat T (lon, lat) s) as [s1 loc1]. apply IH, TA.
Qed.
Lemma isoMain_same g junk args fs : isoMain E1 T S g junk args fs = isoMain E2 T S g junk args fs.
Proof.
  unfold isoMain. destruct (isoArgs T args) as [code|c]; [reflexivity|].
  assert (IN : PropSame.outR (fun a b => twin (fst a) (fst b) /\ snd a = snd b) (isoInit E1 c g) (isoInit E2 c g)).
  { unfold isoInit. cbv zeta.
    match goal with |- PropSame.outR _ (let* qa := open E1 ?x in _) (let* qb := open E2 ?y in _) => assert (TW : twin x y) end.
    { unfold set_cacheSizeExt, set_cacheSize. destruct (0 <? i_cache c), (fne (i_squash c) squashDefault); constructor; cbn; auto. }
    match goal with |- PropSame.outR _ (let* qa := open E1 ?x in _) (let* qb := open E2 ?y in _) => set (q1 := x) in *; set (q2 := y) in *; clearbody q1 q2 end.
    pose proof (opens q1 q2 TW) as O. destruct (open E1 q1) as [a1| | |], (open E2 q2) as [a2| | |]; cbn [PropSame.outR bind] in O |- *; try contradiction; auto.
    destruct (bad_same _ _ O) as (-> & _). rewrite (tw_err _ _ _ _ O). destruct (bad a2); cbn [PropSame.outR fst snd]; split; try reflexivity; [exact O|].
    exact (set_same (AQueryType 0) a1 a2 O fs). }
  destruct (isoInit E1 c g) as [[q1 w1]| | |], (isoInit E2 c g) as [[q2 w2]| | |]; cbn [PropSame.outR bind fst snd] in IN |- *; try contradiction; try congruence.
  destruct IN as [TW ->]. destruct (o_read S (i_in c)) as [text|]; [|apply leave_same, TW].
  destruct (negb (o_create S (i_out c))); [apply leave_same, TW|].
  destruct (readLonLat T _ _) as [s loc]. apply isoLoop_same, TW.
Qed.
End Two.

(** C84: when the files that can be opened hold the same records, a run of cencalvmquery
    with any arguments and input text, on any operating system, writes the same lines,
    messages and log files and exits with the same code; so does cencalvmisosurface. *)
Theorem C84_programs : forall DB1 (E1 : env DB1) DB2 (E2 : env DB2) T S g args fs,
  same_world E1 E2 ->
  (forall junk, main E1 T S g junk args fs = main E2 T S g junk args fs) /\
  (forall junk, isoMain E1 T S g junk args fs = isoMain E2 T S g junk args fs).
Proof. intros. split; intros; [apply main_same|apply isoMain_same]; assumption. Qed.
Print Assumptions C84_programs.

(** C84: the packed form of a database in its place changes nothing. *)
Theorem C84_packed_programs : forall E packed unpacked d d' DB1 (E1 : env DB1) DB2 (E2 : env DB2) T S g args fs,
  packed <> unpacked -> reads_on E unpacked -> packDB E packed unpacked d = (d', Val tt) ->
  of_disk E1 d -> of_disk E2 (put_in_place d unpacked d' packed) -> same_failures E1 E2 -> same_texts E1 E2 ->
  (forall junk, main E1 T S g junk args fs = main E2 T S g junk args fs) /\
  (forall junk, isoMain E1 T S g junk args fs = isoMain E2 T S g junk args fs).
Proof.
  intros E p u d d' DB1 E1 DB2 E2 T S g args fs N R P D1 D2 SF TX. apply C84_programs.
  exact (packed_world E p u d d' _ E1 _ E2 N R P D1 D2 SF TX).
Qed.
Print Assumptions C84_packed_programs.

(** ** Example: the shop of PropSame.v, asked by cencalvmquery for the locations of PropApp.v. *)
From Verif Require Import ToyLib ToyDb PropStore PropApp.
Open Scope string_scope.
Definition shop_args : list string := ["-i"; "in"; "-o"; "out"; "-d"; "model"; "-t"; "maxres"].
Example C84_programs_example :
  main (forth shop) app_texts (app_os true) toy junk9 shop_args (fun _ => None) =
  main (back (put_in_place shop "model" packed_shop "packed")) app_texts (app_os true) toy junk9 shop_args (fun _ => None).
Proof.
  exact (proj1 (C84_packed_programs works "packed" "model" shop packed_shop _ (forth shop) _ (back (put_in_place shop "model" packed_shop "packed"))
    app_texts (app_os true) toy shop_args (fun _ => None) ltac:(discriminate) (fun _ => eq_refl) shop_packed shop_disk packed_disk shop_failures
    ltac:(repeat split)) junk9).
Qed.
(** It writes a line for each location and exits with code 0. *)
Example C84_programs_run :
  match main (forth shop) app_texts (app_os true) toy junk9 shop_args (fun _ => None) with
  | Val r => r_code r = 0%Z /\ match r_lines r with Some l => List.length l = List.length app_locations | None => False end
  | _ => False
  end.
Proof. vm_compute. repeat split. Qed.
