(** C53: reports of the query object during a run of the isosurface application. *)
From Coq Require Import ZArith Bool Reals Lra Lia String Ascii List.
From Verif Require Import Outcome Float Payload Addr SpecOct SpecGeom FloatFacts Geom GeomFacts GeomLevel ErrorHandler VMQuery SpecQuery SpecHist
  QueryFacts QueryProof QueryHist QueryIndep Stream GetOpt QueryApp IsoApp SpecText StreamFacts SpecApp AppFacts AppMain SpecIso IsoNum IsoFacts IsoMain IsoRun
  Averager ToyLib ToyDb PropGeom ToyIso PropIso.
Import ListNotations.
Open Scope Z_scope.

(** ** Hypotheses *)
(** Asked for the elevation of the surface, the query object reports an error. *)
Definition elevation_fails {DB} (E : env DB) (q : qstate DB) (lon lat : f64) (m : string) : Prop :=
  exists q1 fs old q' fs' v, set_queryVals (Some ["Elevation"]%string) q = Val q1 /\
    query E q1 fs (Some [old]) lon lat (i2f64 (-5000)) = Val (q', fs', v) /\
    eh_status (q_err q') = ERROR /\ eh_msg (q_err q') = m.
(** Asked for the shear wave speed between two elevations, it reports nothing. *)
Definition no_reports {DB} (E : env DB) (q : qstate DB) (lon lat L U : f64) : Prop :=
  forall z q1 fs old q' fs' v, between L U z -> set_queryVals (Some ["Vs"]%string) q = Val q1 ->
    query E q1 fs (Some [old]) lon lat z = Val (q', fs', v) -> eh_status (q_err q') = OK.

(** ** A report stays until the next one *)
Definition over (e x : errh) : errh :=
  match eh_status x with OK => e | _ => mkErrh (eh_status x) (eh_msg x) (eh_logname e) (eh_stream e) end.
Lemma over_error e m x : over e (eh_error m x) = eh_error m (over e x).
Proof. unfold over. cbn [eh_error eh_status]. destruct (eh_status x); reflexivity. Qed.
Lemma over_warning e m x : over e (eh_warning m x) = eh_warning m (over e x).
Proof. unfold over. cbn [eh_warning eh_status]. destruct (eh_status x); reflexivity. Qed.

Section Silent.
Context {DB : Type}.
Variables (E : env DB) (q : qstate DB) (lon lat : f64).
Hypothesis CL : clean (q_err q).

Lemma query_over k e fs fs2 old old2 z : 0 <= k <= 8 ->
  match query E (only k q) fs (Some [old]) lon lat z, query E (with_err (only k q) e) fs2 (Some [old2]) lon lat z with
  | Val (q1, _, v1), Val (q2, _, v2) => v2 = v1 /\ q_err q2 = over e (q_err q1)
  | Throw m1, Throw m2 => m1 = m2
  | Abort, Abort => True
  | UB w1, UB w2 => w1 = w2
  | _, _ => False
  end.
Proof.
  intros K. unfold query. cbn [with_err only q_vals List.length Nat.eqb assert_ bind].
  assert (O : over e (q_err (only k q)) = e).
  { destruct CL as [C _]. unfold over. change (q_err (only k q)) with (q_err q). rewrite C. reflexivity. }
  pose proof (body_shift E (over e) (over_error e) (over_warning e) (only k q) lon lat z) as B. rewrite O in B.
  rewrite B. clear B.
  destruct (query_body E (only k q) lon lat z) as [[[e1 [p|]] r]| | |]; cbn [omap bind fst snd]; try exact I; try reflexivity.
  pose proof (queryElev_indep E (only k q) (with_err (only k q) e) lon lat z false (conj eq_refl eq_refl) eq_refl) as QE.
  assert (G : forall e2, 
    match copy E (only k q) lon lat z p [Some k] [old] e2 r, copy E (with_err (only k q) e) lon lat z p [Some k] [old2] (over e e2) r with
    | Val (v1, x1), Val (v2, x2) => v2 = v1 /\ x2 = over e x1
    | Throw m1, Throw m2 => m1 = m2
    | Abort, Abort => True
    | UB w1, UB w2 => w1 = w2
    | _, _ => False
    end).
  { intros e2. cbn [copy]. unfold copy1.
    assert (D : k = 0 \/ k = 1 \/ k = 2 \/ k = 3 \/ k = 4 \/ k = 5 \/ k = 6 \/ k = 7 \/ k = 8) by lia.
    destruct D as [->|[->|[->|[->|[->|[->|[->|[->| ->]]]]]]]]; cbn [Z.eqb Pos.eqb bind]; try (split; reflexivity).
    rewrite <- QE. destruct (queryElev E (only 8 q) lon lat z false); cbn [bind]; try reflexivity; try exact I; [split; reflexivity|].
    split; [reflexivity | symmetry; apply over_error]. }
  destruct (p_block p =? NODATABLOCK); cbv beta iota; [rewrite <- over_warning; specialize (G (eh_warning (nodata_msg E lon lat z) e1)) | specialize (G e1)];
    destruct (copy E (only k q) _ _ _ _ _ _ _ _) as [[v1 x1]| | |], (copy E (with_err (only k q) e) _ _ _ _ _ _ _ _) as [[v2 x2]| | |];
    cbn [bind]; try contradiction; try exact I; try exact G; destruct G as [-> ->]; split; reflexivity.
Qed.

Variable L0 : f64.
Hypothesis HR : search_range L0 f_zero.
Hypothesis HD : (value L0 <= -113)%R.
Hypothesis NR : no_reports E q lon lat L0 f_zero.
Lemma ask_silent e fs old z q' fs' v : between L0 f_zero z -> ask E (with_err (only 1 q) e) fs lon lat old z = Val (q', fs', v) -> q' = with_err (only 1 q) e.
Proof.
  intros B H. pose proof (ask_effects E _ _ _ _ _ _ _ _ _ H) as (A & _ & _). unfold ask in H.
  apply bind_val in H. destruct H as ([[q2 fs2] v2] & H2 & H). injection H as <- <- <-.
  pose proof (query_over 1 e fs fs old old z ltac:(lia)) as G. rewrite H2 in G.
  destruct (query E (only 1 q) fs (Some [old]) lon lat z) as [[[q1 fs1] v1]| | |] eqn:H1; try contradiction.
  destruct G as [_ G]. pose proof (NR z (only 1 q) fs old q1 fs1 v1 B (set_vs q) H1) as O.
  unfold over in G. rewrite O in G. rewrite A, G, err_err. reflexivity.
Qed.
Lemma down_in k : 0 <= k <= 9 -> between L0 f_zero (down f_zero k).
Proof.
  intros K.
  assert (D : k = 0 \/ k = 1 \/ k = 2 \/ k = 3 \/ k = 4 \/ k = 5 \/ k = 6 \/ k = 7 \/ k = 8 \/ k = 9) by lia.
  assert (G : finiteb (down f_zero k) && (finiteb (i2f64 (-113)) && finiteb (down f_zero k) && fle (i2f64 (-113)) (down f_zero k)) &&
    (finiteb (down f_zero k) && finiteb f_zero && fle (down f_zero k) f_zero) = true).
  { destruct D as [->|[->|[->|[->|[->|[->|[->|[->|[->| ->]]]]]]]]]; vm_compute; reflexivity. }
  apply andb_true_iff in G. destruct G as [G G3]. apply andb_true_iff in G. destruct G as [G1 G2].
  apply finiteb_ok in G1. apply le_check in G2. apply le_check in G3. split; [exact G1|].
  rewrite (proj2 (int_val (-113) ltac:(lia))) in G2. split; [|exact G3].
  apply Rle_trans with (IZR (-113)); [exact HD | exact G2].
Qed.
Lemma zero_in : between L0 f_zero f_zero.
Proof. exact (down_in 0 ltac:(lia)). Qed.
Lemma low_in : between L0 f_zero L0.
Proof. destruct HR as (F & _). split; [exact F|]. change (value f_zero) with 0%R. split; [apply Rle_refl | lra]. Qed.
Lemma stepDown_silent e k : forall iter fs old q' fs' v, 0 <= iter -> iter + Z.of_nat k <= 10 ->
  stepDown E k iter (with_err (only 1 q) e) fs lon lat old f_zero = Val (q', fs', v) ->
  q' = with_err (only 1 q) e /\ exists j, 0 <= j <= 9 /\ v = down f_zero j.
Proof.
  induction k as [|k IH]; intros iter fs old q' fs' v I0 I1 H; cbn [stepDown] in H.
  - injection H as <- _ <-. split; [reflexivity|]. exists 0. split; [lia | vm_compute; reflexivity].
  - apply bind_val in H. destruct H as ([[q1 fs1] v1] & Q & H).
    change (add64 f_zero (mul64 (i2f64 iter) elevStep)) with (down f_zero iter) in Q, H.
    apply ask_silent in Q; [|apply down_in; lia]. subst q1.
    destruct (fgt v1 f_zero); [injection H as <- _ <-; split; [reflexivity | exists iter; split; [lia | reflexivity]]|].
    eapply IH; [| |exact H]; lia.
Qed.
Lemma bisect_silent e k : forall fs t old U L r0 q' fs' r, between L0 f_zero L -> between L0 f_zero U -> (value L <= value U)%R ->
  bisect E k (with_err (only 1 q) e) fs t lon lat old U L r0 = Val (q', fs', r) -> q' = with_err (only 1 q) e.
Proof.
  induction k as [|k IH]; intros fs t old U L r0 q' fs' r BL BU LU H; cbn [bisect] in H.
  - injection H as <- _ _. reflexivity.
  - destruct (middle_in L0 f_zero HR L U BL BU LU) as (BM & [M1 M2] & _).
    change (mul64 half64 (add64 U L)) with (middle L U) in H.
    apply bind_val in H. destruct H as ([[q1 fs1] v1] & Q1 & H). apply ask_silent in Q1; [|exact BU]. subst q1.
    apply bind_val in H. destruct H as ([[q2 fs2] v2] & Q2 & H). apply ask_silent in Q2; [|exact BL]. subst q2.
    apply bind_val in H. destruct H as ([[q3 fs3] v3] & Q3 & H). apply ask_silent in Q3; [|exact BM]. subst q3.
    destruct (fgt t v1 && fle t v3); [eapply IH; [exact BM | exact BU | exact M2 | exact H]|].
    destruct (fgt t v3 && fle t v2); [eapply IH; [exact BL | exact BM | exact M1 | exact H]|].
    destruct (fle t v1); [injection H as <- _ _; reflexivity|].
    destruct (flt v2 f_zero); injection H as <- _ _; reflexivity.
Qed.
Lemma bisect_range k : forall (q0 : qstate DB) fs t old U L r0 q' fs' m,
  bisect E k q0 fs t lon lat old U L r0 = Val (q', fs', inr m) -> exists m', m = ("Invalid search range!" ++ m')%string.
Proof.
  induction k as [|k IH]; intros q0 fs t old U L r0 q' fs' m H; cbn [bisect] in H; [discriminate|].
  apply bind_val in H. destruct H as ([[q1 fs1] v1] & Q1 & H).
  apply bind_val in H. destruct H as ([[q2 fs2] v2] & Q2 & H).
  apply bind_val in H. destruct H as ([[q3 fs3] v3] & Q3 & H).
  destruct (fgt t v1 && fle t v3); [eapply IH, H|].
  destruct (fgt t v3 && fle t v2); [eapply IH, H|].
  destruct (fle t v1); [discriminate|].
  destruct (flt v2 f_zero); [discriminate|]. injection H as _ _ <-. eexists. reflexivity.
Qed.

(** Without squashing, an elevation that cannot be found is given as zero. *)
Lemma failed_zero fs old z q' fs' v : q_squash q = false -> query E (only 8 q) fs (Some [old]) lon lat z = Val (q', fs', v) ->
  eh_status (q_err q') = ERROR -> v = [f_zero].
Proof.
  intros SQ H ST. unfold query in H. cbn [only q_vals List.length Nat.eqb assert_ bind] in H.
  destruct (query_body E (only 8 q) lon lat z) as [[[e [p|]] r]| | |] eqn:B; cbn [bind] in H; try discriminate.
  assert (NE : eh_status e <> ERROR).
  { apply (body_ne E (only 8 q) lon lat z e p r B). change (q_err (only 8 q)) with (q_err q). destruct CL as [-> _]. discriminate. }
  assert (R : r = f_zero).
  { destruct (body_cases E (only 8 q) lon lat z) as [[_ B']|[S' _]]; [|change (q_squash (only 8 q)) with (q_squash q) in S'; rewrite SQ in S'; discriminate].
    rewrite B' in B. destruct (body_at E (only 8 q) (q_err (only 8 q)) lon lat z) as [[e1 p1]| | |]; cbn [wrap] in B; congruence. }
  assert (G : forall e2 q2 (fs2 fs3 : files) v2, eh_status e2 <> ERROR ->
    (let* (vs, e'') := copy E (only 8 q) lon lat z p [Some 8] [old] e2 r in Val (with_err (only 8 q) e'', fs2, vs)) = Val (q2, fs3, v2) ->
    eh_status (q_err q2) = ERROR -> v2 = [f_zero]).
  { intros e2 q2 fs2 fs3 v2 N2 K S2. cbn [copy copy1 Z.eqb Pos.eqb] in K.
    destruct (queryElev E (only 8 q) lon lat z false); cbn [bind] in K; try discriminate.
    - injection K as <- _ _. cbn [with_err q_err] in S2. contradiction.
    - injection K as _ _ <-. rewrite R. reflexivity. }
  destruct (p_block p =? NODATABLOCK); cbv beta iota in H.
  - eapply G; [|exact H|exact ST]. discriminate.
  - eapply G; [|exact H|exact ST]. exact NE.
Qed.
Lemma location_fails T c g fs junk m : iso_squashes c = false -> q_squash q = false -> i_elevMin c = L0 -> null_log (q_err q) -> elevation_fails E q lon lat m ->
  forall q1 fs1 w r u, isoLocation E T c g q fs junk lon lat = Val (q1, fs1, w, r, u) ->
  (exists e', q1 = with_err (only 1 q) e') /\ fs1 = fs /\ r = inl 1 /\
  (w = [Said m] /\ u = true \/ (exists m', w = [Said ("Invalid search range!" ++ m')]) /\ u = false).
Proof.
  intros SC SQ EM NU (qe & fse & olde & qe' & fse' & ve & SE & QE & ST & MS) q1 fs1 w r u H.
  pose proof (isoLocation_effects E T c g q fs junk lon lat q1 fs1 w r u H CL NU) as (F & EX & _).
  split; [exact EX|]. split; [exact F|].
  rewrite set_elevation in SE. injection SE as <-.
  unfold isoLocation in H. apply bind_val in H. destruct H as ([[q2 fs2] topo] & Q2 & H).
  assert (X : exists e2, q2 = with_err (only 1 q) e2 /\ eh_status e2 = ERROR /\ eh_msg e2 = m /\ exists j, 0 <= j <= 9 /\ topo = down f_zero j).
  { unfold isoElev in Q2. rewrite set_elevation in Q2. cbn [bind] in Q2.
    replace (bad (only 8 q)) with false in Q2 by (unfold bad; change (q_err (only 8 q)) with (q_err q); destruct CL as [-> _]; reflexivity).
    apply bind_val in Q2. destruct Q2 as ([[qa fsa] el] & QA & Q2).
    pose proof (ask_effects E _ _ _ _ _ _ _ _ _ QA) as (A & _ & _).
    unfold ask in QA. apply bind_val in QA. destruct QA as ([[qb fsb] vb] & QB & QA). injection QA as <- <- EL.
    assert (KB : eh_status (q_err qb) = ERROR /\ eh_msg (q_err qb) = m).
    { pose proof (query_over 8 (q_err q) fse fs olde junk (i2f64 (-5000)) ltac:(lia)) as G. rewrite QE in G.
      change (q_err q) with (q_err (only 8 q)) in G at 1. rewrite err_same, QB in G. destruct G as [_ G].
      unfold over in G. rewrite ST in G. rewrite G. split; [reflexivity | exact MS]. }
    destruct KB as [KB1 KB2]. rewrite (failed_zero _ _ _ _ _ _ SQ QB KB1) in EL. cbn [nth64 nth] in EL. subst el.
    rewrite A, set_vs, only_err, only_only in Q2. cbn [bind] in Q2. apply stepDown_silent in Q2; [|lia|cbn; lia]. destruct Q2 as [Q2 J].
    exists (q_err qb). auto. }
  destruct X as (e2 & -> & ST2 & MS2 & j & J & ->).
  replace (fne (i_squash c) squashDefault) with false in H by (symmetry; exact SC). rewrite EM in H.
  apply bind_val in H. destruct H as ([[q3 fs3] r3] & Q3 & H).
  assert (X : q3 = with_err (only 1 q) e2 /\ forall m', r3 = inr m' -> exists m'', m' = ("Invalid search range!" ++ m'')%string).
  { unfold searchVs in Q3. apply bind_val in Q3. destruct Q3 as (n & _ & Q3). rewrite set_vs, only_err, only_only in Q3. cbn [bind] in Q3.
    split; [eapply bisect_silent; [exact low_in | apply down_in, J | exact (proj1 (proj2 (down_in j J))) | exact Q3]|]. intros m' ->. eapply bisect_range, Q3. }
  destruct X as [-> X]. destruct r3 as [z|m'].
  - replace (bad (with_err (only 1 q) e2) && is_error (with_err (only 1 q) e2)) with true in H
      by (unfold bad, is_error; cbn [with_err q_err]; rewrite ST2; reflexivity).
    cbn [with_err q_err] in H. rewrite MS2 in H. injection H as _ _ <- <- <-. split; [reflexivity|]. left. split; reflexivity.
  - destruct (X m' eq_refl) as [m'' ->]. injection H as _ _ <- <- <-. split; [reflexivity|]. right. split; [exists m''; reflexivity | reflexivity].
Qed.
End Silent.

(** ** C53: a point whose surface is not known *)
(** If the elevation of the surface cannot be found and the search itself reports nothing,
    no line is written for the point: the program ends with exit code 1 and one message,
    that of the error or that of the search.  A database that cannot be closed either
    leaves the second. *)
Theorem C53_failed_elevation : forall DB (E : env DB) T S g args c d x lon lat m junk fs,
  let q := iso_object c g (Some d) x in
  iso_squashes c = false -> iso_running T S args c [(lon, lat)] -> iso_opens E c d x ->
  search_range (i_elevMin c) f_zero -> (value (i_elevMin c) <= -113)%R ->
  elevation_fails E q lon lat m -> no_reports E q lon lat (i_elevMin c) f_zero ->
  forall r, isoMain E T S g junk args fs = Val r ->
  exists s, r = mkResult 1 [Said s] (Some []) fs /\
    ((s = m /\ closes E d x) \/ exists m', s = ("Invalid search range!" ++ m')%string).
Proof.
  intros DB E T S g args c d x lon lat m junk fs q NS (HA & (text & HT & HP) & HC & HW) HO RA LO HE HN r HR.
  rewrite (run_one E T S HW g args fs c HA junk text (lon, lat) q) in HR; try assumption; [|exists d, x; auto].
  unfold first_point in HR. cbn [fst snd] in HR. apply bind_val in HR. destruct HR as ([[[[q1 fs1] w] r1] u] & Q & HR).
  destruct (location_fails E q lon lat (conj eq_refl eq_refl) (i_elevMin c) RA LO HN T c g fs junk m NS NS eq_refl eq_refl HE q1 fs1 w r1 u Q) as ([e' ->] & -> & -> & [[-> ->]|[[m' ->] ->]]).
  - unfold leave in HR. apply bind_val in HR. destruct HR as (v & D & HR). injection HR as <-. exists m. split; [reflexivity|]. left. split; [reflexivity|].
    unfold destroy, q in D. cbn [with_err only iso_object q_db q_dbExt] in D.
    destruct (e_close E d) eqn:C1; [|discriminate]. destruct x as [x|]; [destruct (e_close E x) eqn:C2; [|discriminate]|]; split; try assumption.
    + intros x' K. injection K as <-. exact C2.
    + intros x' K. discriminate.
  - injection HR as <-. exists ("Invalid search range!" ++ m')%string. split; [reflexivity|]. right. exists m'. reflexivity.
Qed.
Print Assumptions C53_failed_elevation.

(** ** Examples *)
(** A projection that cannot be inverted. *)
Definition one_way : libm := mkLibm (m_cos toy) (m_sin toy) (m_log toy) (m_project toy) (fun _ _ => None).
Definition fails_check {DB} (E : env DB) (q : qstate DB) : option string :=
  match set_queryVals (Some ["Elevation"]%string) q with
  | Val q1 => match query E q1 (fun _ => None) (Some [f_zero]) toy_x toy_y (i2f64 (-5000)) with
              | Val (q', _, _) => match eh_status (q_err q') with ERROR => Some (eh_msg (q_err q')) | _ => None end
              | _ => None
              end
  | _ => None
  end.
Lemma fails_ok {DB} (E : env DB) q m : fails_check E q = Some m -> elevation_fails E q toy_x toy_y m.
Proof.
  unfold fails_check. destruct (set_queryVals (Some ["Elevation"]%string) q) as [q1| | |] eqn:Q1; try discriminate.
  destruct (query E q1 (fun _ => None) (Some [f_zero]) toy_x toy_y (i2f64 (-5000))) as [[[q' fs'] v]| | |] eqn:Q2; try discriminate.
  destruct (eh_status (q_err q')) eqn:ST; try discriminate. intros K. injection K as <-.
  exists q1, (fun _ => None), f_zero, q', fs', v. auto.
Qed.
Lemma halves_silent f c : iso_squashes c = false ->
  no_reports (halves f 192000) (iso_object c one_way (Some tt) None) toy_x toy_y (i2f64 (-1600)) f_zero.
Proof.
  intros NS z q1 fs old q' fs' v [Fz B] SV H. rewrite set_vs in SV. injection SV as <-.
  rewrite (proj2 (int_val (-1600) ltac:(lia))) in B. change (value f_zero) with 0%R in B.
  destruct (at_elev_ok z Fz ltac:(lra)) as [A _].
  unfold query in H. cbn [only q_vals List.length Nat.eqb assert_ bind] in H.
  unfold query_body in H. cbn [only iso_object q_squash q_limit q_err q_db q_dbExt q_vals q_geom q_type] in H.
  rewrite NS in H.
  cbn [andb bind] in H. unfold queryFn in H. cbn [only iso_object q_type q_geom] in H.
  unfold queryMax in H. cbn [need_db bind] in H. unfold query_addr, MAXLEVEL in H. cbn [only iso_object q_geom] in H.
  match type of H with context [lonLatElevToAddr ?g ?a toy_x toy_y z] => replace (lonLatElevToAddr g a toy_x toy_y z) with (Val (0, at_elev z)) in H by (symmetry; exact A) end. cbn [bind Z.eqb negb halves e_search otype_eqb a_type] in H.
  change (p_block _ =? NODATABLOCK) with false in H. cbv beta iota in H.
  apply bind_val in H. destruct H as ([vs e2] & C & H). cbn [copy copy1 Z.eqb Pos.eqb bind] in C. 
  pose proof (f_equal (fun o => match o with Val (_, x) => eh_status x | _ => OK end) C) as C'. cbv beta iota in C'.
  pose proof (f_equal (fun o => match o with Val (x, _, _) => eh_status (q_err x) | _ => OK end) H) as H'. cbv beta iota in H'. cbn [with_err q_err] in H'.
  clear C H. rewrite <- H', <- C'. reflexivity.
Qed.
Example C53_failed_elevation_example : let c := iso_config "halves" (i2f64 (-1600)) in
  let E := halves (two (-500)) 192000 in let q := iso_object c one_way (Some tt) None in
  let m := "Error while inverse projecting location."%string in
  iso_squashes c = false /\ iso_running (iso_texts iso_show) (iso_os "x y ") (iso_args "halves" "-1600") c [(toy_x, toy_y)] /\
  iso_opens E c tt None /\ search_range (i_elevMin c) f_zero /\ (value (i_elevMin c) <= -113)%R /\
  elevation_fails E q toy_x toy_y m /\ no_reports E q toy_x toy_y (i_elevMin c) f_zero /\
  iso_seen (isoMain E (iso_texts iso_show) (iso_os "x y ") one_way S754_nan (iso_args "halves" "-1600") (fun _ => None)) =
  Some (1, [Said m], Some []).
Proof.
  cbv zeta. change (i_elevMin (iso_config "halves" (i2f64 (-1600)))) with (i2f64 (-1600)).
  destruct (int_val (-1600) ltac:(lia)) as [A B].
  split; [vm_compute; reflexivity|]. split; [apply iso_runs; vm_compute; reflexivity|]. split; [split; reflexivity|].
  split; [split; [exact A|]; split; [split; reflexivity|]; rewrite B; change (value f_zero) with 0%R; rewrite Rabs_R0; split; [apply Rabs_def1; lra | lra]|].
  split; [rewrite B; lra|]. split; [apply fails_ok; vm_compute; reflexivity|]. split; [apply halves_silent; vm_compute; reflexivity | vm_compute; reflexivity].
Qed.

(** ** What does not hold *)
(** A failed search for the surface does not always end the run: a warning of a later
    query replaces the error, and a line is written, as if the surface were at zero. *)
Theorem C53_failed_elevation_refuted : ~ (forall DB (E : env DB) T S g args c d x lon lat m junk fs r,
  iso_squashes c = false -> iso_running T S args c [(lon, lat)] -> iso_opens E c d x -> closes E d x ->
  elevation_fails E (iso_object c g (Some d) x) lon lat m ->
  isoMain E T S g junk args fs = Val r -> r_code r = 1 /\ r_lines r = Some []).
Proof.
  intros H.
  remember (isoMain column_env (iso_texts iso_show) (iso_os "x y ") one_way S754_nan (iso_args "column" "-1612.5") (fun _ => None)) as R eqn:QR.
  assert (K : iso_seen R = Some (0, [Said ("WARNING: No data for #, #, #." ++ NL)], Some [" 296908 541696 200"]%string)) by (rewrite QR; vm_compute; reflexivity).
  destruct R as [r| | |]; try discriminate K.
  destruct (H _ column_env (iso_texts iso_show) (iso_os "x y ") one_way (iso_args "column" "-1612.5") column_config column None toy_x toy_y
    "Error while inverse projecting location."%string S754_nan (fun _ => None) r) as [C _].
  - vm_compute; reflexivity.
  - apply iso_runs; vm_compute; reflexivity.
  - split; reflexivity.
  - split; [reflexivity | discriminate].
  - apply fails_ok. vm_compute. reflexivity.
  - symmetry. exact QR.
  - cbn [iso_seen] in K. rewrite C in K. discriminate K.
Qed.
Print Assumptions C53_failed_elevation_refuted.
