(** C84 for the spatial database object: it cannot tell a packed database from the one it
    was made of. *)
From Coq Require Import ZArith Bool Lia String List.
From Verif Require Import Outcome Float Payload Addr Geom ErrorHandler VMQuery SpecQuery SpecHist
  Store VMCreator SpecStore VMDB SpecSame PropStore PropSame.
Import ListNotations.
Open Scope Z_scope.

(** ** Programs *)
(** What a user of the spatial database can do. *)
Inductive d_does :=
| VOpen | VClose | VType (n : Z) | VVals (names : option (list string)) | VRes (r : f64) | VMinVs (v : f64) | VDown (b : bool)
| VName (n : string) | VCache (s : Z) | VNameExt (n : string) | VCacheExt (s : Z) | VSquash (on : bool) (limit : f64)
| VConfigure (i : inventory) | VQuery (coords vals : list f64).
(** What they see: a call returns or throws; a query leaves numbers in the array. *)
Inductive d_sees := Ended (r : result unit) | Answered (vals : list f64) (r : result Z).

Section Play.
Variable convert : f64 * f64 * f64 -> result (f64 * f64 * f64).
Definition d_play {DB} (E : env DB) (a : d_does) (d : vmdb DB) (fs : files) : outcome (vmdb DB * files * d_sees) :=
  let ended (o : outcome (vmdb DB * result unit)) := let* (d, r) := o in Val (d, fs, Ended r) in
  let done (d : vmdb DB) := Val (d, fs, Ended (Returns tt)) in
  match a with
  | VOpen => ended (vd_open E d) | VClose => ended (vd_close E d)
  | VType n => ended (vd_queryType n d) | VVals names => ended (vd_queryVals names d)
  | VRes r => done (vd_queryRes r d) | VMinVs v => done (vd_minVs v d) | VDown b => done (vd_projectDownward b d)
  | VName n => done (vd_filename n d) | VCache s => done (vd_cacheSize s d)
  | VNameExt n => done (vd_filenameExt n d) | VCacheExt s => done (vd_cacheSizeExt s d)
  | VSquash on l => done (vd_squash on l d)
  | VConfigure i => ended (configure i d)
  | VQuery coords vals => let* (d, fs, vals, r) := vd_query (fun _ => E) convert coords d fs vals in Val (d, fs, Answered vals r)
  end.
Fixpoint d_plays {DB} (E : env DB) (l : list d_does) (d : vmdb DB) (fs : files) : outcome (files * list d_sees) :=
  match l with
  | [] => Val (fs, [])
  | a :: l => let* (d, fs, s) := d_play E a d fs in
              let* (fs, ss) := d_plays E l d fs in Val (fs, s :: ss)
  end.
(** A new object and any calls, exceptions caught: everything that is seen and the log
    files, if nothing goes wrong; else what goes wrong. *)
Definition d_session {DB} (E : env DB) (g : libm) (fs : files) (l : list d_does) : outcome (files * list d_sees) :=
  d_plays E l (vd_new g) fs.

(** ** Equivalent objects *)
Section Two.
Context {DB1 DB2 : Type} (E1 : env DB1) (E2 : env DB2).
Hypothesis TX : same_texts E1 E2.
Hypothesis OP : forall n c, match e_open E1 n c, e_open E2 n c with
  | Some d1, Some d2 => same_database E1 E2 d1 d2 | None, None => True | _, _ => False end.

Record both (d1 : vmdb DB1) (d2 : vmdb DB2) : Prop := mkBoth {
  b_minVs : d_minVs d1 = d_minVs d2; b_vs : d_vs d1 = d_vs d2; b_vp : d_vp d1 = d_vp d2;
  b_density : d_density d1 = d_density d2; b_down : d_down d1 = d_down d2; b_q : twin E1 E2 (d_q d1) (d_q d2) }.
Definition endR {A} (x : vmdb DB1 * A) (y : vmdb DB2 * A) : Prop := both (fst x) (fst y) /\ snd x = snd y.

Lemma bind_same {A B C D} (R : A -> B -> Prop) (S : C -> D -> Prop) o1 o2 f g :
  outR R o1 o2 -> (forall x y, R x y -> outR S (f x) (g y)) -> outR S (bind o1 f) (bind o2 g).
Proof. destruct o1, o2; cbn [outR bind]; try contradiction; auto. Qed.
Lemma set_same d1 d2 q1 q2 : both d1 d2 -> twin E1 E2 q1 q2 -> both (vd_set d1 q1) (vd_set d2 q2).
Proof. intros [] T. constructor; cbn; assumption. Qed.
Lemma checked_same {A} q1 q2 (a : A) : twin E1 E2 q1 q2 -> checked q1 a = checked q2 a.
Proof. intros T. unfold checked. rewrite (tw_err _ _ _ _ T). reflexivity. Qed.

(** A call on the query object that cannot fail, by way of C84's steps. *)
Lemma set_by (a : action) (f1 : qstate DB1 -> qstate DB1) (f2 : qstate DB2 -> qstate DB2) :
  (forall q fs, step (q, fs) (done_in E1 a) = Val (f1 q, fs)) -> (forall q fs, step (q, fs) (done_in E2 a) = Val (f2 q, fs)) ->
  forall q1 q2, twin E1 E2 q1 q2 -> twin E1 E2 (f1 q1) (f2 q2).
Proof.
  intros H1 H2 q1 q2 T. pose proof (step_same E1 E2 TX OP a q1 q2 (fun _ : string => None) T) as S.
  rewrite H1, H2 in S. exact (proj1 S).
Qed.

Lemma type_same n d1 d2 : both d1 d2 -> outR endR (vd_queryType n d1) (vd_queryType n d2).
Proof.
  intros B. unfold vd_queryType, assert_. destruct ((n =? 0) || (n =? 1) || (n =? 2)); cbn [bind outR]; [|exact I].
  assert (T : twin E1 E2 (set_queryType n (d_q d1)) (set_queryType n (d_q d2))).
  { apply (set_by (AQueryType n) (set_queryType n) (set_queryType n)); [reflexivity|reflexivity|apply B]. }
  split; [apply set_same; assumption|apply checked_same, T].
Qed.
Lemma vals_same names d1 d2 : both d1 d2 -> outR endR (vd_queryVals names d1) (vd_queryVals names d2).
Proof.
  intros B. unfold vd_queryVals.
  pose proof (step_same E1 E2 TX OP (AQueryVals names) (d_q d1) (d_q d2) (fun _ : string => None) (b_q _ _ B)) as S.
  cbn [done_in step] in S.
  destruct (set_queryVals names (d_q d1)) as [q1| | |], (set_queryVals names (d_q d2)) as [q2| | |]; cbn [bind outR] in S |- *; try contradiction; auto.
  destruct S as [T _]. cbn [fst] in T. rewrite (checked_same q1 q2 tt T). destruct (checked q2 tt) as [u|m].
  - split; [|reflexivity]. destruct B. constructor; cbn; auto.
  - split; [apply set_same; assumption|reflexivity].
Qed.
Lemma setters_same a d1 d2 fs : both d1 d2 ->
  match a with VRes _ | VMinVs _ | VDown _ | VName _ | VCache _ | VNameExt _ | VCacheExt _ | VSquash _ _ => True | _ => False end ->
  outR (fun x y => both (fst (fst x)) (fst (fst y)) /\ snd (fst x) = snd (fst y) /\ snd x = snd y) (d_play E1 a d1 fs) (d_play E2 a d2 fs).
Proof.
  intros B. pose proof (b_q _ _ B) as T. destruct a; intros A; try destruct A; cbn [d_play outR fst snd]; (split; [|auto]).
  - apply set_same; [exact B|]. apply (set_by (AQueryRes r) (set_queryRes r) (set_queryRes r)); [reflexivity|reflexivity|exact T].
  - destruct B. constructor; cbn; auto.
  - destruct B. constructor; cbn; auto.
  - apply set_same; [exact B|]. apply (set_by (AFilename n) (set_filename n) (set_filename n)); [reflexivity|reflexivity|exact T].
  - apply set_same; [exact B|]. apply (set_by (ACacheSize s) (set_cacheSize s) (set_cacheSize s)); [reflexivity|reflexivity|exact T].
  - apply set_same; [exact B|]. apply (set_by (AFilenameExt n) (set_filenameExt n) (set_filenameExt n)); [reflexivity|reflexivity|exact T].
  - apply set_same; [exact B|]. apply (set_by (ACacheSizeExt s) (set_cacheSizeExt s) (set_cacheSizeExt s)); [reflexivity|reflexivity|exact T].
  - apply set_same; [exact B|]. apply (set_by (ASquash on limit) (set_squash on limit) (set_squash on limit)); [reflexivity|reflexivity|exact T].
Qed.
Lemma configure_same i d1 d2 : both d1 d2 -> outR endR (configure i d1) (configure i d2).
Proof.
  intros B. unfold configure.
  apply (bind_same endR).
  { destruct (String.eqb _ _); [apply type_same, B|]. destruct (String.eqb _ _); [apply type_same, B|]. destruct (String.eqb _ _); [apply type_same, B|].
    split; [exact B|reflexivity]. }
  intros [x r] [y s] [C Q]. cbn [fst snd] in C, Q. subst s. destruct r as [u|m]; [|split; [exact C|reflexivity]].
  assert (K : forall a x y, both x y ->
    match a with VRes _ | VMinVs _ | VDown _ | VName _ | VCache _ | VNameExt _ | VCacheExt _ | VSquash _ _ => True | _ => False end ->
    forall x' y' s t, d_play E1 a x (fun _ : string => None) = Val (x', s, t) -> forall s' t', d_play E2 a y (fun _ : string => None) = Val (y', s', t') -> both x' y').
  { intros a x0 y0 B0 A x' y' s t X s' t' Y. pose proof (setters_same a x0 y0 (fun _ : string => None) B0 A) as S. rewrite X, Y in S. exact (proj1 S). }
  split; [|reflexivity]. cbn [fst].
  eapply (K (VDown (i_down i))); [|exact I|reflexivity|reflexivity].
  eapply (K (VMinVs (i_minVs i))); [|exact I|reflexivity|reflexivity].
  eapply (K (VSquash (i_squash i) (i_limit i))); [|exact I|reflexivity|reflexivity].
  eapply (K (VCacheExt (i_cacheExt i))); [|exact I|reflexivity|reflexivity].
  eapply (K (VNameExt (i_nameExt i))); [|exact I|reflexivity|reflexivity].
  eapply (K (VCache (i_cache i))); [|exact I|reflexivity|reflexivity].
  eapply (K (VName (i_name i))); [|exact I|reflexivity|reflexivity].
  eapply (K (VRes (i_res i))); [exact C|exact I|reflexivity|reflexivity].
Qed.
Lemma project_same vs x y z : forall fuel iter q1 q2 fs vals, twin E1 E2 q1 q2 ->
  outR (resR E1 E2) (VMDB.project fuel (fun _ => E1) vs x y z iter q1 fs vals) (VMDB.project fuel (fun _ => E2) vs x y z iter q2 fs vals).
Proof.
  induction fuel as [|fuel IH]; intros iter q1 q2 fs vals T; cbn [VMDB.project].
  all: destruct (elem vals vs) as [v| | |]; cbn [bind outR]; try reflexivity; try exact I.
  all: destruct (flt v f_zero); [|exact (conj T (conj eq_refl eq_refl))].
  all: rewrite (tw_err _ _ _ _ T).
  all: apply (bind_same (resR E1 E2)); [apply query_same; [exact TX|]; rewrite <- (tw_err _ _ _ _ T); apply twin_err, T|].
  all: intros [[a1 f1] v1] [[a2 f2] v2] (Ta & <- & <-); destruct (iter <? 8); [|exact (conj Ta (conj eq_refl eq_refl))].
  - reflexivity.
  - apply IH, Ta.
Qed.
Definition ansR (x : vmdb DB1 * files * list f64 * result Z) (y : vmdb DB2 * files * list f64 * result Z) : Prop :=
  both (fst (fst (fst x))) (fst (fst (fst y))) /\ snd (fst (fst x)) = snd (fst (fst y)) /\ snd (fst x) = snd (fst y) /\ snd x = snd y.
Lemma ask_same coords d1 d2 fs vals : both d1 d2 ->
  outR ansR (vd_query (fun _ => E1) convert coords d1 fs vals) (vd_query (fun _ => E2) convert coords d2 fs vals).
Proof.
  intros B. unfold vd_query. destruct coords as [|cx [|cy [|cz [|? ?]]]]; try exact I.
  destruct (convert (cx, cy, cz)) as [[[x y] z]|m]; [|exact (conj B (conj eq_refl (conj eq_refl eq_refl)))].
  cbv zeta. set (z' := if flt z _ then _ else _). clearbody z'.
  apply (bind_same (resR E1 E2)); [apply query_same; [exact TX|apply B]|].
  intros [[a1 f1] v1] [[a2 f2] v2] (Ta & <- & <-). pose proof (tw_err _ _ _ _ Ta) as Ea. rewrite Ea.
  assert (REST : outR ansR
    (let* (q, fs, vals) :=
       if (0 <=? d_vs d1) && d_down d1 then
         let* (q, fs, vals) := VMDB.project 8 (fun _ => E1) (d_vs d1) x y z' 1 a1 f1 v1 in
         let* vals := raise_to (d_vs d1) f_zero (d_minVs d1) vals in Val (q, fs, vals)
       else Val (a1, f1, v1) in
     let* vals := if 0 <=? d_vp d1 then raise_to (d_vp d1) f_zero (add64 (i2f64 1360) (mul64 (dec64 116 2) (d_minVs d1))) vals else Val vals in
     let* vals := if 0 <=? d_density d1 then raise_to (d_density d1) (i2f64 1000) (i2f64 2000) vals else Val vals in
     match eh_status (q_err q) with
     | WARNING => Val (vd_set d1 (with_err q (eh_reset (q_err q))), fs, vals, Returns 1)
     | _ => Val (vd_set d1 q, fs, vals, Returns 0)
     end)
    (let* (q, fs, vals) :=
       if (0 <=? d_vs d2) && d_down d2 then
         let* (q, fs, vals) := VMDB.project 8 (fun _ => E2) (d_vs d2) x y z' 1 a2 f1 v1 in
         let* vals := raise_to (d_vs d2) f_zero (d_minVs d2) vals in Val (q, fs, vals)
       else Val (a2, f1, v1) in
     let* vals := if 0 <=? d_vp d2 then raise_to (d_vp d2) f_zero (add64 (i2f64 1360) (mul64 (dec64 116 2) (d_minVs d2))) vals else Val vals in
     let* vals := if 0 <=? d_density d2 then raise_to (d_density d2) (i2f64 1000) (i2f64 2000) vals else Val vals in
     match eh_status (q_err q) with
     | WARNING => Val (vd_set d2 (with_err q (eh_reset (q_err q))), fs, vals, Returns 1)
     | _ => Val (vd_set d2 q, fs, vals, Returns 0)
     end)).
  { rewrite (b_minVs _ _ B), (b_vs _ _ B), (b_vp _ _ B), (b_density _ _ B), (b_down _ _ B).
    apply (bind_same (resR E1 E2)).
    - destruct ((0 <=? d_vs d2) && d_down d2); [|exact (conj Ta (conj eq_refl eq_refl))].
      apply (bind_same (resR E1 E2)); [apply project_same, Ta|].
      intros [[b1 g1] u1] [[b2 g2] u2] (Tb & <- & <-). destruct (raise_to _ _ _ u1); cbn [bind outR]; try reflexivity; try exact I. exact (conj Tb (conj eq_refl eq_refl)).
    - intros [[b1 g1] u1] [[b2 g2] u2] (Tb & <- & <-).
      destruct (if 0 <=? d_vp d2 then _ else _) as [w| | |]; cbn [bind outR]; try reflexivity; try exact I.
      destruct (if 0 <=? d_density d2 then _ else _) as [w'| | |]; cbn [bind outR]; try reflexivity; try exact I.
      rewrite (tw_err _ _ _ _ Tb). destruct (eh_status (q_err b2)); cbn [outR];
        (split; [|repeat split]); cbn [fst]; (apply set_same; [exact B|]); try exact Tb.
      rewrite <- (tw_err _ _ _ _ Tb). apply twin_err, Tb. }
  destruct (eh_status (q_err a2)); try exact REST.
  split; [|repeat split]. cbn [fst]. apply set_same; [exact B|exact Ta].
Qed.
Definition playR (x : vmdb DB1 * files * d_sees) (y : vmdb DB2 * files * d_sees) : Prop :=
  both (fst (fst x)) (fst (fst y)) /\ snd (fst x) = snd (fst y) /\ snd x = snd y.
Lemma play_same a d1 d2 fs : both d1 d2 -> outR playR (d_play E1 a d1 fs) (d_play E2 a d2 fs).
Proof.
  intros B.
  assert (EN : forall o1 o2, outR endR o1 o2 ->
    outR playR (let* (d, r) := o1 in Val (d, fs, Ended r)) (let* (d, r) := o2 in Val (d, fs, Ended r))).
  { intros o1 o2 H. apply (bind_same endR _ _ _ _ _ H). intros [x r] [y s] [C Q]. cbn [fst snd] in *. subst s. exact (conj C (conj eq_refl eq_refl)). }
  pose proof (setters_same a d1 d2 fs B) as ST. destruct a; try exact (ST I); clear ST.
  - apply EN. unfold vd_open. apply (bind_same (twin E1 E2)); [apply open_same; [exact OP|apply B]|].
    intros q1 q2 T. split; [apply set_same; assumption|apply checked_same, T].
  - apply EN. unfold vd_close. pose proof (close_same E1 E2 _ _ (b_q _ _ B)) as T. split; [apply set_same; assumption|apply checked_same, T].
  - apply EN, type_same, B.
  - apply EN, vals_same, B.
  - apply EN, configure_same, B.
  - cbn [d_play]. apply (bind_same ansR); [apply ask_same, B|]. intros [[[x f] v] r] [[[y g] w] s] (C & P & Q & R). cbn [fst snd] in *. subst.
    exact (conj C (conj eq_refl eq_refl)).
Qed.
Lemma plays_same l : forall d1 d2 fs, both d1 d2 -> outR eq (d_plays E1 l d1 fs) (d_plays E2 l d2 fs).
Proof.
  induction l as [|a l IH]; intros d1 d2 fs B; [reflexivity|]. cbn [d_plays].
  apply (bind_same playR); [apply play_same, B|]. intros [[x f] s] [[y g] t] (C & P & Q). cbn [fst snd] in *. subst.
  apply (bind_same eq); [apply IH, C|]. intros [f ss] ? <-. reflexivity.
Qed.
End Two.
End Play.

(** C84. Two storage environments in which files of the same name hold the same records
    cannot be told apart with the spatial database object, whatever is called: the same
    answers, exceptions and log files. *)
Theorem C84_spatial : forall convert DB1 (E1 : env DB1) DB2 (E2 : env DB2) g fs program, same_world E1 E2 ->
  d_session convert E1 g fs program = d_session convert E2 g fs program.
Proof.
  intros convert DB1 E1 DB2 E2 g fs l [TX OP]. unfold d_session.
  assert (B : both E1 E2 (vd_new g) (vd_new g)) by (constructor; cbn; auto; constructor; cbn; auto).
  pose proof (plays_same convert E1 E2 TX OP l _ _ fs B) as P.
  destruct (d_plays convert E1 l _ fs), (d_plays convert E2 l _ fs); cbn [outR] in P; try contradiction; congruence.
Qed.
Print Assumptions C84_spatial.

(** In particular a packed database can be put in the place of the unpacked one. *)
Theorem C84_packed_spatial : forall convert E packed unpacked d d' DB1 (E1 : env DB1) DB2 (E2 : env DB2) g fs program,
  packed <> unpacked -> reads_on E unpacked -> packDB E packed unpacked d = (d', Val tt) ->
  of_disk E1 d -> of_disk E2 (put_in_place d unpacked d' packed) -> same_failures E1 E2 -> same_texts E1 E2 ->
  d_session convert E1 g fs program = d_session convert E2 g fs program.
Proof.
  intros convert E p u d d' DB1 E1 DB2 E2 g fs l N R P D1 D2 SF TX.
  apply C84_spatial. exact (packed_world E p u d d' _ E1 _ E2 N R P D1 D2 SF TX).
Qed.
Print Assumptions C84_packed_spatial.

(** ** Example: the packed and the unpacked database of C84_example *)
From Verif Require PropQuery.
From Verif Require Import ToyLib ToyDb.
Open Scope string_scope. Open Scope Z_scope.
Definition as_given (c : f64 * f64 * f64) : result (f64 * f64 * f64) := Returns c.
Definition d_visit : list d_does :=
  [VConfigure (mkInv "waveres" (i2f64 1) "none" 64 "" 64 false f_zero (i2f64 3000) true);
   VName "model"; VOpen; VVals (Some ["density"; "Vs"; "Vp"]); VType 0;
   VQuery [toy_x; toy_y; elev_a] [f_zero; f_zero; f_zero]; VClose; VConfigure (mkInv "best" (i2f64 1) "none" 64 "" 64 false f_zero f_zero false);
   VName "none"; VOpen; VName "model"; VOpen].
Example C84_spatial_example : d_session as_given (forth shop) toy PropQuery.no_files d_visit =
  d_session as_given (back (put_in_place shop "model" packed_shop "packed")) toy PropQuery.no_files d_visit.
Proof.
  apply (C84_packed_spatial as_given works "packed" "model" shop packed_shop);
    [discriminate|intros ?; reflexivity|exact shop_packed|exact shop_disk|exact packed_disk|exact shop_failures|repeat split].
Qed.
(** What is seen: three of the calls throw, the query returns values that were raised. *)
Definition heard (s : d_sees) : option string := match s with Ended (Throws m) | Answered _ (Throws m) => Some m | _ => None end.
Definition shown (s : d_sees) : list f64 := match s with Answered v _ => v | _ => [] end.
Example C84_spatial_seen : match d_session as_given (forth shop) toy PropQuery.no_files d_visit with
  | Val (_, ss) => (map heard ss, map shown ss) =
      ([None; None; None; None; None; None; None; Some "Unknown queryType 'best'."; None;
        Some "Could not open the etree database 'none' for querying."; None;
        Some "Could not open the etree database 'none' for querying."],
       [[]; []; []; []; []; [i2f64 2700; i2f64 3000; i2f64 5000]; []; []; []; []; []; []])
  | _ => False
  end.
Proof. vm_compute. reflexivity. Qed.
