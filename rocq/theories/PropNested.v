(** C88: isosurfaces of higher speeds, and of slower models, are deeper. *)
From Coq Require Import ZArith Bool Reals Lra Lia String Ascii List.
From Flocq Require Import Core BinarySingleNaN.
From Verif Require Import Outcome Float Payload Addr SpecOct SpecGeom FloatFacts Geom GeomFacts GeomLevel ErrorHandler VMQuery SpecQuery SpecHist
  QueryFacts QueryProof QueryHist QueryIndep Stream GetOpt QueryApp IsoApp SpecText StreamFacts SpecApp AppFacts AppMain SpecIso IsoNum IsoFacts IsoMain IsoRun
  SpecColumns PropIso.
From Verif Require PropDepths.
Import ListNotations.
Open Scope Z_scope.

(** ** The search as a function *)
Fixpoint ends_at (k : nat) (t : f64) (vs : f64 -> f64) (U L : f64) : f64 :=
  match k with
  | O => L
  | Datatypes.S k => let M := middle L U in
      if fle t (vs M) then (if fgt t (vs U) then ends_at k t vs U M else U) else ends_at k t vs M L
  end.
Section Search.
Context {DB : Type}.
Variables (E : env DB) (q : qstate DB) (lon lat t L0 U0 : f64) (vs : f64 -> f64).
Hypothesis HP : profile E q lon lat L0 U0 vs.
Hypothesis Ht : finite_double t.
Hypothesis HR : search_range L0 U0.
Lemma bisect_ends k : forall e fs old L U, between L0 U0 L -> between L0 U0 U -> (value L <= value U)%R -> (value t <= value (vs L))%R ->
  exists e' fs', quiet e e' /\ (eh_stream e = Some "/dev/null"%string -> fs' = fs) /\
    bisect E k (with_err (only 1 q) e) fs t lon lat old U L L = Val (with_err (only 1 q) e', fs', inl (ends_at k t vs U L)).
Proof.
  induction k as [|k IH]; intros e fs old L U HL HU H Hb.
  - exists e, fs. split; [apply quiet_refl|]. split; reflexivity.
  - destruct (bisect_step E q lon lat t L0 U0 vs HP HR k e fs old L U L HL HU H) as (e1 & fs1 & A1 & S1 & Q). rewrite Q. clear Q.
    destruct (middle_in L0 U0 HR L U HL HU H) as (HM & BM & _). cbn [ends_at]. cbv zeta. set (M := middle L U) in *.
    destruct (HP U HU) as [FvU _]. destruct (HP L HL) as [FvL _]. destruct (HP M HM) as [FvM _].
    assert (CL : fle t (vs L) = true) by (apply (fle_val t Ht); [exact FvL | lra]).
    rewrite CL. rewrite (fgt_le t Ht _ FvM), (fgt_le t Ht _ FvU).
    assert (G : forall L' U', between L0 U0 L' -> between L0 U0 U' -> (value L' <= value U')%R -> (value t <= value (vs L'))%R ->
      exists e' fs', quiet e e' /\ (eh_stream e = Some "/dev/null"%string -> fs' = fs) /\
        bisect E k (with_err (only 1 q) e1) fs1 t lon lat (vs M) U' L' L' = Val (with_err (only 1 q) e', fs', inl (ends_at k t vs U' L'))).
    { intros L' U' HL' HU' H' Hb'. destruct (IH e1 fs1 (vs M) L' U' HL' HU' H' Hb') as (e2 & fs2 & A2 & S2 & Q).
      exists e2, fs2. split; [exact (quiet_trans _ _ _ A1 A2)|]. split; [|exact Q].
      intros St. rewrite S2, S1; try congruence. rewrite (proj1 (quiet_log _ _ A1)). exact St. }
    destruct (fle t (vs M)) eqn:CM; cbn [negb andb].
    + apply (fle_val t Ht _ FvM) in CM. destruct (fle t (vs U)); cbn [negb andb].
      * exists e1, fs1. split; [exact A1|]. split; [exact S1 | reflexivity].
      * apply G; try assumption; lra.
    + rewrite andb_false_r. apply G; try assumption; lra.
Qed.
Lemma ends_in k : forall L U, between L0 U0 L -> between L0 U0 U -> (value L <= value U)%R ->
  between L0 U0 (ends_at k t vs U L) /\ (value L <= value (ends_at k t vs U L) <= value U)%R.
Proof.
  induction k as [|k IH]; intros L U HL HU H; [split; [exact HL|cbn [ends_at]; lra]|].
  destruct (middle_in L0 U0 HR L U HL HU H) as (HM & BM & _). cbn [ends_at]. cbv zeta. set (M := middle L U) in *.
  destruct (fle t (vs M)).
  - destruct (fgt t (vs U)); [|split; [exact HU | lra]]. destruct (IH M U HM HU ltac:(lra)) as [A B]. split; [exact A|lra].
  - destruct (IH L M HL HM ltac:(lra)) as [A B]. split; [exact A|lra].
Qed.
End Search.

(** Two searches of the same range, where the second is satisfied only by what satisfies
    the first. *)
Lemma ends_nested L0 U0 t1 t2 vs1 vs2 : search_range L0 U0 ->
  (forall z, between L0 U0 z -> fgt t1 (vs1 z) = negb (fle t1 (vs1 z))) -> (forall z, between L0 U0 z -> fgt t2 (vs2 z) = negb (fle t2 (vs2 z))) ->
  (forall z, between L0 U0 z -> fle t2 (vs2 z) = true -> fle t1 (vs1 z) = true) ->
  forall k L U, between L0 U0 L -> between L0 U0 U -> (value L <= value U)%R ->
  (value (ends_at k t2 vs2 U L) <= value (ends_at k t1 vs1 U L))%R.
Proof.
  intros HR N1 N2 HI. induction k as [|k IH]; intros L U HL HU H; [apply Rle_refl|].
  destruct (middle_in L0 U0 HR L U HL HU H) as (HM & BM & _). cbn [ends_at]. cbv zeta. set (M := middle L U) in *.
  pose proof (ends_in t1 L0 U0 vs1 HR k M U HM HU ltac:(lra)) as [_ A1]. pose proof (ends_in t2 L0 U0 vs2 HR k M U HM HU ltac:(lra)) as [_ A2].
  pose proof (ends_in t2 L0 U0 vs2 HR k L M HL HM ltac:(lra)) as [_ B]. rewrite (N1 U HU), (N2 U HU).
  destruct (fle t2 (vs2 M)) eqn:C2.
  - rewrite (HI M HM C2). destruct (fle t1 (vs1 U)) eqn:D1; cbn [negb].
    + destruct (fle t2 (vs2 U)); cbn [negb]; lra.
    + destruct (fle t2 (vs2 U)) eqn:D2; cbn [negb]; [rewrite (HI U HU D2) in D1; discriminate D1|]. apply IH; try assumption. lra.
  - destruct (fle t1 (vs1 M)).
    + destruct (fle t1 (vs1 U)); cbn [negb]; lra.
    + apply IH; try assumption. lra.
Qed.

(** ** The program *)
Section Ends.
Context {DB : Type}.
Variables (E : env DB) (T : texts) (S : os) (g : libm) (args : list string) (c : isoconf) (d : DB) (x : option DB)
    (lon lat topo L U : f64) (vs : f64 -> f64) (eps : R).
Hypothesis H : searching E T S g args c d x lon lat topo L U vs eps.
Hypothesis HU : U = if iso_squashes c then f_zero else topo.
Hypothesis HL : L = if iso_squashes c then add64 (SFopp topo) (i_elevMin c) else i_elevMin c.
Lemma ends_run n junk fs : searchIters g U L = Val n -> (value (i_vs c) <= value (vs L))%R ->
  exists w, brief w /\ isoMain E T S g junk args fs =
    Val (mkResult 0 w (Some [iso_text T lon lat (sub64 topo (ends_at (Z.to_nat n) (i_vs c) vs U L))]) fs).
Proof.
  intros N B. pose proof H as (RUN & HO & CL & HS & HP & Ht & HR & HG).
  destruct (range_in L U HR) as (IL & IU & LU).
  destruct (location_from E T c g (iso_object c g (Some d) x) fs (conj eq_refl eq_refl) eq_refl lon lat topo U L HU HL HS
    (fun r => r = inl (ends_at (Z.to_nat n) (i_vs c) vs U L)) junk) as (r & -> & w & W & Q).
  - intros e. unfold searchVs. rewrite N, set_vs. cbn [bind]. rewrite only_err.
    destruct (bisect_ends E _ lon lat (i_vs c) _ _ vs HP Ht HR (Z.to_nat n) e fs junk _ _ IL IU LU B) as (e' & fs' & A & S1 & Q).
    exists e', fs', (inl (ends_at (Z.to_nat n) (i_vs c) vs U L)). auto.
  - exists w. split; [exact W|].
    rewrite (isoLine_depth T lon lat topo U L HR) in Q by (apply (ends_in (i_vs c) L U vs HR); assumption).
    exact (ends_line E T S g args c d x lon lat topo L U vs eps H junk fs w _ Q).
Qed.
End Ends.

Lemma sub_mono topo z1 z2 : finite_double topo -> finite_double z1 -> finite_double z2 ->
  (Rabs (value topo) <= 1000000)%R -> (Rabs (value z1) <= 1000000)%R -> (Rabs (value z2) <= 1000000)%R -> (value z2 <= value z1)%R ->
  finite_double (sub64 topo z1) /\ finite_double (sub64 topo z2) /\ (value (sub64 topo z1) <= value (sub64 topo z2))%R.
Proof.
  intros [VT FT] [V1 F1] [V2 F2] BT B1 B2 LE.
  assert (K : forall z, (Rabs (value z) <= 1000000)%R -> (Rabs (value topo - value z) < 1000000000000)%R).
  { intros z B. unfold Rminus. eapply Rle_lt_trans; [apply Rabs_triang|]. rewrite Rabs_Ropp. lra. }
  destruct (sub_approx topo z1 VT V1 FT F1 (K z1 B1)) as (VA & FA & QA).
  destruct (sub_approx topo z2 VT V2 FT F2 (K z2 B2)) as (VB & FB & QB).
  split; [split; assumption|]. split; [split; assumption|].
  change (value (sub64 topo z1)) with (fval (sub64 topo z1)). change (value (sub64 topo z2)) with (fval (sub64 topo z2)). rewrite QA, QB.
  apply round_le; [apply FLT_exp_valid; reflexivity|apply valid_rnd_N|]. change (value topo - value z1 <= value topo - value z2)%R. lra.
Qed.

(** ** C88 *)
Lemma nonzero_same x y : finite_double x -> finite_double y -> value x = value y -> value x <> 0%R -> x = y.
Proof.
  intros [Vx Fx] [Vy Fy] E N. unfold value in *. destruct (valid_ex prec64 emax64 x Vx) as [bx ->]. destruct (valid_ex prec64 emax64 y Vy) as [b_y ->].
  f_equal. rewrite !SF2R_B2SF in *. apply B2R_inj; [..|exact E].
  - destruct bx; try discriminate Fx; [exfalso; apply N; reflexivity | reflexivity].
  - destruct b_y; try discriminate Fy; [exfalso; apply N; rewrite E; reflexivity | reflexivity].
Qed.
(** The column of a depth shows [n] tenths of a metre. *)
Definition tenths (T : texts) (depth : f64) (n : Z) : Prop := exists s, signed (with_point 1) n s /\ t_fixed T 1 9 depth = aligned 9 s.
Lemma tenths_mono T a b : prints T -> finite_double a -> finite_double b -> (value a <= value b)%R ->
  exists m n, tenths T a m /\ tenths T b n /\ m <= n.
Proof.
  intros [P _] Fa Fb H.
  destruct (P 1 9 a ltac:(lia) Fa) as (s & (m & SM & RM) & QM). destruct (P 1 9 b ltac:(lia) Fb) as (s' & (n & SN & RN) & QN).
  change (10 ^ Z.to_nat 1)%R with (10 ^ 1)%R in RM, RN. rewrite pow_1 in RM, RN. apply Rabs_le_inv in RM, RN.
  destruct (Z_le_gt_dec m n) as [L|G]; [exists m, n; split; [exists s; auto|split; [exists s'; auto|exact L]]|].
  assert (IZR n + 1 <= IZR m)%R by (rewrite <- plus_IZR; apply IZR_le; lia).
  assert (V : value a = value b) by lra.
  destruct (Req_dec (value a) 0) as [Z0|NZ].
  { exfalso. rewrite V in *. rewrite Z0 in *.
    assert (m < 1) by (apply lt_IZR; lra). assert (-1 < n) by (apply lt_IZR; lra). lia. }
  assert (EQ : a = b) by (apply nonzero_same; assumption). subst b. exists m, m. split; [exists s; auto|]. split; [exists s; auto|lia].
Qed.

Lemma nested_runs : forall DB1 (E1 : env DB1) DB2 (E2 : env DB2) T S1 S2 g args1 args2 c1 c2 d1 x1 d2 x2 lon lat topo L U vs1 vs2 eps junk1 junk2 fs1 fs2,
  (U = if iso_squashes c1 then f_zero else topo) -> (U = if iso_squashes c2 then f_zero else topo) ->
  (L = if iso_squashes c1 then add64 (SFopp topo) (i_elevMin c1) else i_elevMin c1) -> (L = if iso_squashes c2 then add64 (SFopp topo) (i_elevMin c2) else i_elevMin c2) ->
  finite_double topo -> (Rabs (value topo) <= 1000000)%R ->
  searching E1 T S1 g args1 c1 d1 x1 lon lat topo L U vs1 eps -> searching E2 T S2 g args2 c2 d2 x2 lon lat topo L U vs2 eps ->
  (value (i_vs c1) <= value (vs1 L))%R -> (value (i_vs c2) <= value (vs2 L))%R ->
  (forall z, between L U z -> value (i_vs c2) <= value (vs2 z) -> value (i_vs c1) <= value (vs1 z))%R ->
  exists w1 w2 depth1 depth2,
    isoMain E1 T S1 g junk1 args1 fs1 = Val (mkResult 0 w1 (Some [iso_text T lon lat depth1]) fs1) /\
    isoMain E2 T S2 g junk2 args2 fs2 = Val (mkResult 0 w2 (Some [iso_text T lon lat depth2]) fs2) /\
    brief w1 /\ brief w2 /\ (value depth1 <= value depth2)%R /\
    (prints T -> exists n1 n2, tenths T depth1 n1 /\ tenths T depth2 n2 /\ n1 <= n2).
Proof.
  intros DB1 E1 DB2 E2 T S1 S2 g args1 args2 c1 c2 d1 x1 d2 x2 lon lat topo L U vs1 vs2 eps junk1 junk2 fs1 fs2 U1 U2 L1 L2 FT BT H1 H2 B1 B2 IMP.
  pose proof H1 as (_ & _ & _ & _ & HP1 & Ht1 & HR & HG). pose proof H2 as (_ & _ & _ & _ & HP2 & Ht2 & _).
  destruct (searchIters_spec eps g L U HR HG) as (n & Qn & _).
  destruct (range_in L U HR) as (IL & IU & LU).
  destruct (ends_run E1 T S1 g args1 c1 d1 x1 lon lat topo L U vs1 eps H1 U1 L1 n junk1 fs1 Qn B1) as (w1 & W1 & Q1).
  destruct (ends_run E2 T S2 g args2 c2 d2 x2 lon lat topo L U vs2 eps H2 U2 L2 n junk2 fs2 Qn B2) as (w2 & W2 & Q2).
  exists w1, w2. do 2 eexists. split; [exact Q1|]. split; [exact Q2|]. split; [exact W1|]. split; [exact W2|].
  destruct (ends_in (i_vs c1) L U vs1 HR (Z.to_nat n) L U IL IU LU) as [I1 _].
  destruct (ends_in (i_vs c2) L U vs2 HR (Z.to_nat n) L U IL IU LU) as [I2 _].
  assert (NE : (value (ends_at (Z.to_nat n) (i_vs c2) vs2 U L) <= value (ends_at (Z.to_nat n) (i_vs c1) vs1 U L))%R).
  { apply (ends_nested L U); try assumption; [intros z Z; apply fgt_le; [assumption | apply (HP1 z Z)] | intros z Z; apply fgt_le; [assumption | apply (HP2 z Z)]|]. intros z Z K.
    destruct (HP1 z Z) as [F1 _]. destruct (HP2 z Z) as [F2 _]. apply (fle_val _ Ht1 _ F1). apply IMP; [exact Z|]. apply (fle_val _ Ht2 _ F2), K. }
  destruct (sub_mono topo _ _ FT (proj1 I1) (proj1 I2) BT (small L U HR _ I1) (small L U HR _ I2) NE) as (FA & FB & LE).
  split; [exact LE|]. intros P. exact (tenths_mono T _ _ P FA FB LE).
Qed.

(** Two runs at one point, where the target is reached at the lowest elevation: whatever
    reaches the second target in the second model reaches the first one in the first model.
    Then the first program writes no larger depth. *)
Theorem C88_nested : forall DB1 (E1 : env DB1) DB2 (E2 : env DB2) T S1 S2 g args1 args2 c1 c2 d1 x1 d2 x2 lon lat topo vs1 vs2 eps junk1 junk2 fs1 fs2,
  let L := i_elevMin c1 in
  iso_squashes c1 = false -> iso_squashes c2 = false -> i_elevMin c2 = L ->
  searching E1 T S1 g args1 c1 d1 x1 lon lat topo L topo vs1 eps -> searching E2 T S2 g args2 c2 d2 x2 lon lat topo L topo vs2 eps ->
  (value (i_vs c2) <= value (vs2 L))%R ->
  (forall z, between L topo z -> value (i_vs c2) <= value (vs2 z) -> value (i_vs c1) <= value (vs1 z))%R ->
  exists w1 w2 depth1 depth2,
    isoMain E1 T S1 g junk1 args1 fs1 = Val (mkResult 0 w1 (Some [iso_text T lon lat depth1]) fs1) /\
    isoMain E2 T S2 g junk2 args2 fs2 = Val (mkResult 0 w2 (Some [iso_text T lon lat depth2]) fs2) /\
    brief w1 /\ brief w2 /\ (value depth1 <= value depth2)%R /\
    (prints T -> exists n1 n2, tenths T depth1 n1 /\ tenths T depth2 n2 /\ n1 <= n2).
Proof.
  intros DB1 E1 DB2 E2 T S1 S2 g args1 args2 c1 c2 d1 x1 d2 x2 lon lat topo vs1 vs2 eps junk1 junk2 fs1 fs2 L NS1 NS2 EL H1 H2 B2 IMP.
  pose proof H1 as (_ & _ & _ & _ & _ & _ & HR & _). destruct (range_in L topo HR) as (IL & IU & LU).
  assert (B1 : (value (i_vs c1) <= value (vs1 L))%R) by (apply IMP; assumption).
  apply (nested_runs _ E1 _ E2 T S1 S2 g args1 args2 c1 c2 d1 x1 d2 x2 lon lat topo L topo vs1 vs2 eps); try assumption; try (rewrite ?NS1, ?NS2; reflexivity).
  - rewrite NS2. symmetry. exact EL.
  - exact (proj1 IU).
  - exact (small L topo HR _ IU).
Qed.
Print Assumptions C88_nested.

(** With squashing the depths are off by the elevation of the surface
    (C52_squashed_depth_refuted), but they are nested all the same. *)
Theorem C88_squashed : forall DB1 (E1 : env DB1) DB2 (E2 : env DB2) T S1 S2 g args1 args2 c1 c2 d1 x1 d2 x2 lon lat topo vs1 vs2 eps junk1 junk2 fs1 fs2,
  let L := add64 (SFopp topo) (i_elevMin c1) in
  iso_squashes c1 = true -> iso_squashes c2 = true -> i_elevMin c2 = i_elevMin c1 -> finite_double topo -> (Rabs (value topo) <= 1000000)%R ->
  searching E1 T S1 g args1 c1 d1 x1 lon lat topo L f_zero vs1 eps -> searching E2 T S2 g args2 c2 d2 x2 lon lat topo L f_zero vs2 eps ->
  (value (i_vs c2) <= value (vs2 L))%R ->
  (forall z, between L f_zero z -> value (i_vs c2) <= value (vs2 z) -> value (i_vs c1) <= value (vs1 z))%R ->
  exists w1 w2 depth1 depth2,
    isoMain E1 T S1 g junk1 args1 fs1 = Val (mkResult 0 w1 (Some [iso_text T lon lat depth1]) fs1) /\
    isoMain E2 T S2 g junk2 args2 fs2 = Val (mkResult 0 w2 (Some [iso_text T lon lat depth2]) fs2) /\
    brief w1 /\ brief w2 /\ (value depth1 <= value depth2)%R /\
    (prints T -> exists n1 n2, tenths T depth1 n1 /\ tenths T depth2 n2 /\ n1 <= n2).
Proof.
  intros DB1 E1 DB2 E2 T S1 S2 g args1 args2 c1 c2 d1 x1 d2 x2 lon lat topo vs1 vs2 eps junk1 junk2 fs1 fs2 L NS1 NS2 EL FT BT H1 H2 B2 IMP.
  pose proof H1 as (_ & _ & _ & _ & _ & _ & HR & _). destruct (range_in L f_zero HR) as (IL & IU & LU).
  assert (B1 : (value (i_vs c1) <= value (vs1 L))%R) by (apply IMP; assumption).
  apply (nested_runs _ E1 _ E2 T S1 S2 g args1 args2 c1 c2 d1 x1 d2 x2 lon lat topo L f_zero vs1 vs2 eps); try assumption; try (rewrite ?NS1, ?NS2, ?EL; reflexivity).
Qed.
Print Assumptions C88_squashed.

(** C88. In one model, asking for a higher speed never gives a smaller depth. *)
Theorem C88_targets : forall DB (E : env DB) T S1 S2 g args1 args2 c1 c2 d1 x1 d2 x2 lon lat topo vs eps junk1 junk2 fs1 fs2,
  let L := i_elevMin c1 in
  iso_squashes c1 = false -> iso_squashes c2 = false -> i_elevMin c2 = L ->
  searching E T S1 g args1 c1 d1 x1 lon lat topo L topo vs eps -> searching E T S2 g args2 c2 d2 x2 lon lat topo L topo vs eps ->
  (value (i_vs c1) <= value (i_vs c2))%R -> (value (i_vs c2) <= value (vs L))%R ->
  exists w1 w2 depth1 depth2,
    isoMain E T S1 g junk1 args1 fs1 = Val (mkResult 0 w1 (Some [iso_text T lon lat depth1]) fs1) /\
    isoMain E T S2 g junk2 args2 fs2 = Val (mkResult 0 w2 (Some [iso_text T lon lat depth2]) fs2) /\
    brief w1 /\ brief w2 /\ (value depth1 <= value depth2)%R /\
    (prints T -> exists n1 n2, tenths T depth1 n1 /\ tenths T depth2 n2 /\ n1 <= n2).
Proof.
  intros DB E T S1 S2 g args1 args2 c1 c2 d1 x1 d2 x2 lon lat topo vs eps junk1 junk2 fs1 fs2 L NS1 NS2 EL H1 H2 B1 B2.
  apply (C88_nested _ E _ E T S1 S2 g args1 args2 c1 c2 d1 x1 d2 x2 lon lat topo vs vs eps); try assumption; try (fold L; lra).
  intros z Z K. lra.
Qed.
Print Assumptions C88_targets.

(** C88. A model that is nowhere slower, between the surface and the lowest elevation,
    never gives a larger depth. *)
Theorem C88_models : forall DB1 (E1 : env DB1) DB2 (E2 : env DB2) T S1 S2 g args1 args2 c1 c2 d1 x1 d2 x2 lon lat topo vs1 vs2 eps junk1 junk2 fs1 fs2,
  let L := i_elevMin c1 in
  iso_squashes c1 = false -> iso_squashes c2 = false -> i_elevMin c2 = L -> i_vs c2 = i_vs c1 ->
  searching E1 T S1 g args1 c1 d1 x1 lon lat topo L topo vs1 eps -> searching E2 T S2 g args2 c2 d2 x2 lon lat topo L topo vs2 eps ->
  (value (i_vs c1) <= value (vs2 L))%R -> (forall z, between L topo z -> value (vs2 z) <= value (vs1 z))%R ->
  exists w1 w2 depth1 depth2,
    isoMain E1 T S1 g junk1 args1 fs1 = Val (mkResult 0 w1 (Some [iso_text T lon lat depth1]) fs1) /\
    isoMain E2 T S2 g junk2 args2 fs2 = Val (mkResult 0 w2 (Some [iso_text T lon lat depth2]) fs2) /\
    brief w1 /\ brief w2 /\ (value depth1 <= value depth2)%R /\
    (prints T -> exists n1 n2, tenths T depth1 n1 /\ tenths T depth2 n2 /\ n1 <= n2).
Proof.
  intros DB1 E1 DB2 E2 T S1 S2 g args1 args2 c1 c2 d1 x1 d2 x2 lon lat topo vs1 vs2 eps junk1 junk2 fs1 fs2 L NS1 NS2 EL EV H1 H2 B LE.
  pose proof H1 as (_ & _ & _ & _ & _ & _ & HR & _). destruct (range_in L topo HR) as (IL & IU & _).
  pose proof (LE _ IL). pose proof (LE _ IU).
  apply (C88_nested _ E1 _ E2 T S1 S2 g args1 args2 c1 c2 d1 x1 d2 x2 lon lat topo vs1 vs2 eps); rewrite ?EV; try assumption; try (fold L; lra).
  intros z Z K. pose proof (LE z Z). lra.
Qed.
Print Assumptions C88_models.

(** At a point the surface is at [topo], the targets are reached at the lowest elevation,
    and whatever reaches the second target in the second model
    reaches the first one in the first model. *)
Definition nested_at {DB1 DB2} (E1 : env DB1) (E2 : env DB2) (g : libm) (c1 c2 : isoconf) (q1 : qstate DB1) (q2 : qstate DB2) (eps : R)
    (l : point) (topo : f64) (vs1 vs2 : f64 -> f64) : Prop :=
  let '(lon, lat) := l in let L := i_elevMin c1 in
  surface E1 q1 lon lat topo /\ surface E2 q2 lon lat topo /\ profile E1 q1 lon lat L topo vs1 /\ profile E2 q2 lon lat L topo vs2 /\
  search_range L topo /\ good_log eps g L topo /\
  (value (i_vs c2) <= value (vs2 L))%R /\
  (forall z, between L topo z -> value (i_vs c2) <= value (vs2 z) -> value (i_vs c1) <= value (vs1 z))%R.
(** The lines for the points and depths. *)
Definition depth_lines (T : texts) (ls : list point) (depths : list f64) : list string :=
  map (fun p => let '((lon, lat), depth) := p in iso_text T lon lat depth) (combine ls depths).

(** C88 for whole files: the surfaces written for the same points do not cross anywhere. *)
Theorem C88_files : forall DB1 (E1 : env DB1) DB2 (E2 : env DB2) T S1 S2 g args1 args2 c1 c2 d1 x1 d2 x2 eps ls tops junk1 junk2 fs1 fs2,
  iso_running T S1 args1 c1 ls -> iso_running T S2 args2 c2 ls -> ls <> [] ->
  iso_squashes c1 = false -> iso_squashes c2 = false -> i_elevMin c2 = i_elevMin c1 ->
  iso_opens E1 c1 d1 x1 -> closes E1 d1 x1 -> iso_opens E2 c2 d2 x2 -> closes E2 d2 x2 -> finite_double (i_vs c1) -> finite_double (i_vs c2) ->
  Forall2 (fun l p => let '(topo, vs1, vs2) := p in nested_at E1 E2 g c1 c2 (iso_object c1 g (Some d1) x1) (iso_object c2 g (Some d2) x2) eps l topo vs1 vs2) ls tops ->
  exists said1 said2 depths1 depths2,
    isoMain E1 T S1 g junk1 args1 fs1 = Val (mkResult 0 said1 (Some (depth_lines T ls depths1)) fs1) /\
    isoMain E2 T S2 g junk2 args2 fs2 = Val (mkResult 0 said2 (Some (depth_lines T ls depths2)) fs2) /\
    List.length depths1 = List.length ls /\
    Forall2 (fun depth1 depth2 => (value depth1 <= value depth2)%R /\
      (prints T -> exists n1 n2, tenths T depth1 n1 /\ tenths T depth2 n2 /\ n1 <= n2)) depths1 depths2.
Proof.
  intros DB1 E1 DB2 E2 T S1 S2 g args1 args2 c1 c2 d1 x1 d2 x2 eps ls tops junk1 junk2 fs1 fs2 R1 R2 NE NS1 NS2 EL O1 CL1 O2 CL2 F1 F2 H.
  assert (K : exists ys1 ys2 depths1 depths2,
    Forall2 (fun l y => ends_alone E1 T S1 g args1 fs1 c1 l (Val (mkResult 0 (fst y) (Some [snd y]) fs1))) ls ys1 /\
    Forall2 (fun l y => ends_alone E2 T S2 g args2 fs2 c2 l (Val (mkResult 0 (fst y) (Some [snd y]) fs2))) ls ys2 /\
    map snd ys1 = depth_lines T ls depths1 /\ map snd ys2 = depth_lines T ls depths2 /\ List.length depths1 = List.length ls /\
    Forall2 (fun depth1 depth2 => (value depth1 <= value depth2)%R /\
      (prints T -> exists n1 n2, tenths T depth1 n1 /\ tenths T depth2 n2 /\ n1 <= n2)) depths1 depths2).
  { destruct R1 as (HA1 & (t1 & HR1 & HL) & HC1 & HW1). destruct R2 as (HA2 & _ & HC2 & HW2). clear NE.
    assert (AL : forall l, In l ls -> exists text', lists_points (t_num T) text' [l]) by (intros l I; exact (PropDepths.point_alone _ _ _ _ HL I)). clear HL HR1 t1.
    induction H as [|[lon lat] [[topo vs1] vs2] ls tops LY LS IH].
    - exists [], [], [], []. repeat split; constructor.
    - destruct IH as (ys1 & ys2 & ds1 & ds2 & Y1 & Y2 & M1 & M2 & LN & DS); [intros l I; apply AL; right; exact I|].
      destruct (AL (lon, lat)) as [text' L1]; [left; reflexivity|].
      destruct LY as (SU1 & SU2 & PR1 & PR2 & SR & GL & B2 & IMP).
      destruct (C88_nested DB1 E1 DB2 E2 T (with_input S1 (i_in c1) text') (with_input S2 (i_in c2) text') g args1 args2 c1 c2 d1 x1 d2 x2 lon lat topo vs1 vs2 eps
        junk1 junk2 fs1 fs2 NS1 NS2 EL) as (w1 & w2 & e1 & e2 & Q1 & Q2 & _ & _ & LE); [| |exact B2|exact IMP|].
      + split; [|repeat (split; [assumption|]); assumption]. split; [exact HA1|]. split; [|split; assumption].
        exists text'. split; [cbn [with_input o_read]; rewrite String.eqb_refl; reflexivity | exact L1].
      + split; [|repeat (split; [assumption|]); assumption]. split; [exact HA2|]. split; [|split; assumption].
        exists text'. split; [cbn [with_input o_read]; rewrite String.eqb_refl; reflexivity | exact L1].
      + exists ((w1, iso_text T lon lat e1) :: ys1), ((w2, iso_text T lon lat e2) :: ys2), (e1 :: ds1), (e2 :: ds2).
        split; [apply Forall2_cons; [exists text', junk1; auto | exact Y1]|]. split; [apply Forall2_cons; [exists text', junk2; auto | exact Y2]|].
        split; [cbn [map snd]; rewrite M1; reflexivity|]. split; [cbn [map snd]; rewrite M2; reflexivity|].
        split; [cbn [List.length]; rewrite LN; reflexivity|]. apply Forall2_cons; assumption. }
  destruct K as (ys1 & ys2 & ds1 & ds2 & Y1 & Y2 & M1 & M2 & LN & DS).
  exists (concat (map fst ys1)), (concat (map fst ys2)), ds1, ds2.
  split; [rewrite <- M1; exact (C53_all_lines DB1 E1 T S1 g args1 c1 fs1 junk1 ls ys1 R1 NE Y1)|].
  split; [rewrite <- M2; exact (C53_all_lines DB2 E2 T S2 g args2 c2 fs2 junk2 ls ys2 R2 NE Y2)|]. split; assumption.
Qed.
Print Assumptions C88_files.

(** ** Examples *)
From Verif Require Import Averager ToyLib ToyDb PropGeom ToyIso.
Open Scope string_scope. Open Scope Z_scope.
(** The halfspaces of C52_layered_example, with the fast one from 300 m and from 500 m
    below the surface. *)
Lemma two_faster z : (value (speed_of (two (-500)) z) <= value (speed_of (two (-300)) z))%R.
Proof.
  unfold speed_of, two. assert (tick_of (-500) <= tick_of (-300)) by (vm_compute; discriminate).
  destruct (Z.ltb_spec (a_z (at_elev z)) (tick_of (-500))), (Z.ltb_spec (a_z (at_elev z)) (tick_of (-300))); try lia; try apply Rle_refl.
  apply le_check. vm_compute. reflexivity.
Qed.
Example C88_example : let L := i2f64 (-1600) in let run e := isoMain (halves (two e) 192000) (iso_texts iso_show) (iso_os "x y ") toy S754_nan (iso_args "halves" "-1600") (fun _ => None) in
  exists w1 w2 depth1 depth2, run (-300) = Val (mkResult 0 w1 (Some [iso_text (iso_texts iso_show) toy_x toy_y depth1]) (fun _ => None)) /\
    run (-500) = Val (mkResult 0 w2 (Some [iso_text (iso_texts iso_show) toy_x toy_y depth2]) (fun _ => None)) /\ (value depth1 <= value depth2)%R.
Proof.
  cbv zeta.
  destruct (C88_models _ (halves (two (-300)) 192000) _ (halves (two (-500)) 192000) (iso_texts iso_show) (iso_os "x y ") (iso_os "x y ") toy
    (iso_args "halves" "-1600") (iso_args "halves" "-1600") (iso_config "halves" (i2f64 (-1600))) (iso_config "halves" (i2f64 (-1600))) tt None tt None toy_x toy_y f_zero
    (speed_of (two (-300))) (speed_of (two (-500))) (/ 256) S754_nan S754_nan (fun _ => None) (fun _ => None)) as (w1 & w2 & e1 & e2 & Q1 & Q2 & _ & _ & LE & _).
  - vm_compute. reflexivity.
  - vm_compute. reflexivity.
  - reflexivity.
  - reflexivity.
  - apply halves_searching; [apply two_in | vm_compute; reflexivity].
  - apply halves_searching; [apply two_in | vm_compute; reflexivity].
  - apply le_check; vm_compute; reflexivity.
  - intros z _. apply two_faster.
  - exists w1, w2, e1, e2. auto.
Qed.
(** One model, 500 m/s at the surface, 1500 m/s below 100 m, 2000 m/s below 900 m, and the
    targets 1000 m/s and 1800 m/s. *)
Definition bands (t : Z) : Z := if t <? tick_of (-900) then 2000 else if t <? tick_of (-100) then 1500 else 500.
Lemma bands_in t : In (bands t) [2000; 1500; 500].
Proof. unfold bands. destruct (t <? tick_of (-900)); [left; reflexivity|]. destruct (t <? tick_of (-100)); [right; left | right; right; left]; reflexivity. Qed.
Definition band_texts : texts := let T := iso_texts iso_show in
  mkTexts (t_num T) (t_atoi T) (fun s => if String.eqb s "1800" then i2f64 1800 else t_atof T s) (t_fixed T) (t_int T).
Definition band_args (v : string) : list string := ["-i"; "in"; "-v"; v; "-d"; "halves"; "-z"; "-1600"; "-o"; "out"].
Definition band_config (v : Z) : isoconf := mkIso (i2f64 v) "in" "out" "halves" "" 128 (i2f64 1000000) (i2f64 (-1600)).
Lemma bands_searching v w : isoArgs band_texts (band_args w) = inr (band_config v) -> finite_double (i2f64 v) ->
  searching (halves bands 192000) band_texts (iso_os "x y ") toy (band_args w) (band_config v) tt None
    toy_x toy_y f_zero (i2f64 (-1600)) f_zero (speed_of bands) (/ 256).
Proof.
  intros A F. destruct (halves_searching bands bands_in ltac:(vm_compute; reflexivity)) as ((_ & R & C & W) & OP & CL & SU & PR & _ & SR & GL).
  split; [split; [exact A|]; split; [exact R|]; split; assumption|]. split; [exact OP|]. split; [exact CL|]. split; [exact SU|]. split; [exact PR|].
  split; [exact F|]. split; assumption.
Qed.
Example C88_targets_example : let run w := isoMain (halves bands 192000) band_texts (iso_os "x y ") toy S754_nan (band_args w) (fun _ => None) in
  exists w1 w2 depth1 depth2, run "1000" = Val (mkResult 0 w1 (Some [iso_text band_texts toy_x toy_y depth1]) (fun _ => None)) /\
    run "1800" = Val (mkResult 0 w2 (Some [iso_text band_texts toy_x toy_y depth2]) (fun _ => None)) /\ (value depth1 <= value depth2)%R.
Proof.
  cbv zeta.
  destruct (C88_targets _ (halves bands 192000) band_texts (iso_os "x y ") (iso_os "x y ") toy
    (band_args "1000") (band_args "1800") (band_config 1000) (band_config 1800) tt None tt None toy_x toy_y f_zero
    (speed_of bands) (/ 256) S754_nan S754_nan (fun _ => None) (fun _ => None)) as (w1 & w2 & e1 & e2 & Q1 & Q2 & _ & _ & LE & _).
  - vm_compute. reflexivity.
  - vm_compute. reflexivity.
  - reflexivity.
  - apply bands_searching; [vm_compute; reflexivity | exact (proj1 (int_val 1000 ltac:(lia)))].
  - apply bands_searching; [vm_compute; reflexivity | exact (proj1 (int_val 1800 ltac:(lia)))].
  - apply le_check; vm_compute; reflexivity.
  - apply le_check; vm_compute; reflexivity.
  - exists w1, w2, e1, e2. auto.
Qed.
Example C88_runs :
  (iso_seen (isoMain (halves (two (-300)) 192000) (iso_texts iso_show) (iso_os "x y ") toy S754_nan (iso_args "halves" "-1600") (fun _ => None)),
   iso_seen (isoMain (halves bands 192000) band_texts (iso_os "x y ") toy S754_nan (band_args "1000") (fun _ => None)),
   iso_seen (isoMain (halves bands 192000) band_texts (iso_os "x y ") toy S754_nan (band_args "1800") (fun _ => None))) =
  (Some (0, [], Some [" 296908 541696 312"]), Some (0, [], Some [" 296908 541696 112"]), Some (0, [], Some [" 296908 541696 912"])).
Proof. vm_compute. reflexivity. Qed.
(** A file that lists the point twice, for both targets. *)
Lemma bands_running v w : isoArgs band_texts (band_args w) = inr (band_config v) ->
  iso_running band_texts (iso_os "x y x y ") (band_args w) (band_config v) [px; px].
Proof.
  intros A. split; [exact A|].
  exact (proj2 (many_running iso_show (iso_args "halves" "-1600") (iso_config "halves" (i2f64 (-1600))) ["x"; "y"; "x"; "y"] [px; px]
    ltac:(vm_compute; reflexivity) eq_refl eq_refl eq_refl ltac:(points_tac))).
Qed.
Lemma bands_nested : nested_at (halves bands 192000) (halves bands 192000) toy (band_config 1000) (band_config 1800)
  (iso_object (band_config 1000) toy (Some tt) None) (iso_object (band_config 1800) toy (Some tt) None) (/ 256) px f_zero (speed_of bands) (speed_of bands).
Proof.
  destruct (bands_searching 1000 "1000" eq_refl (proj1 (int_val 1000 ltac:(lia)))) as (_ & _ & _ & SU1 & PR1 & _ & SR & GL).
  destruct (bands_searching 1800 "1800" eq_refl (proj1 (int_val 1800 ltac:(lia)))) as (_ & _ & _ & SU2 & PR2 & _).
  cbv beta iota zeta delta [nested_at px]. split; [exact SU1|]. split; [exact SU2|]. split; [exact PR1|]. split; [exact PR2|]. split; [exact SR|]. split; [exact GL|].
  split; [apply le_check; vm_compute; reflexivity|].
  intros z _ K. refine (Rle_trans _ _ _ _ K). apply le_check. vm_compute. reflexivity.
Qed.
Example C88_files_example : let run w := isoMain (halves bands 192000) band_texts (iso_os "x y x y ") toy S754_nan (band_args w) (fun _ => None) in
  exists said1 said2 a1 b1 a2 b2, run "1000" = Val (mkResult 0 said1 (Some (depth_lines band_texts [px; px] [a1; b1])) (fun _ => None)) /\
    run "1800" = Val (mkResult 0 said2 (Some (depth_lines band_texts [px; px] [a2; b2])) (fun _ => None)) /\
    (value a1 <= value a2)%R /\ (value b1 <= value b2)%R.
Proof.
  cbv zeta.
  destruct (C88_files _ (halves bands 192000) _ (halves bands 192000) band_texts (iso_os "x y x y ") (iso_os "x y x y ") toy
    (band_args "1000") (band_args "1800") (band_config 1000) (band_config 1800) tt None tt None (/ 256) [px; px]
    [(f_zero, speed_of bands, speed_of bands); (f_zero, speed_of bands, speed_of bands)] S754_nan S754_nan (fun _ => None) (fun _ => None))
    as (w1 & w2 & ds1 & ds2 & Q1 & Q2 & LN & DS).
  - apply bands_running. vm_compute. reflexivity.
  - apply bands_running. vm_compute. reflexivity.
  - discriminate.
  - vm_compute. reflexivity.
  - vm_compute. reflexivity.
  - reflexivity.
  - split; reflexivity.
  - split; [reflexivity | discriminate].
  - split; reflexivity.
  - split; [reflexivity | discriminate].
  - exact (proj1 (int_val 1000 ltac:(lia))).
  - exact (proj1 (int_val 1800 ltac:(lia))).
  - repeat (apply Forall2_cons; [exact bands_nested|]). apply Forall2_nil.
  - destruct DS as [|a1 a2 ds1 ds2 [A _] DS]; [discriminate LN|]. destruct DS as [|b1 b2 ds1 ds2 [B _] DS]; [discriminate LN|].
    destruct DS; [|discriminate LN]. exists w1, w2, a1, b1, a2, b2. auto.
Qed.
(** With squashing, in the model of C52_squashed_example, for both targets. *)
Definition low_args (v : string) : list string := ["-s"; "-100000"; "-i"; "in"; "-v"; v; "-d"; "halves"; "-z"; "-2300"; "-o"; "out"].
Definition low_config (v : Z) : isoconf := mkIso (i2f64 v) "in" "out" "halves" "" 128 (i2f64 (-100000)) (i2f64 (-2300)).
Definition low_speed (z : f64) : f64 := speed_of (two (-800)) (add64 z (i2f64 (-700))).
Lemma low_searching v w : isoArgs band_texts (low_args w) = inr (low_config v) -> finite_double (i2f64 v) ->
  searching (halves (two (-800)) 191300) band_texts (iso_os "x y ") toy (low_args w) (low_config v) tt None
    toy_x toy_y (i2f64 (-700)) (i2f64 (-1600)) f_zero low_speed (/ 256).
Proof.
  intros A F. destruct (squash_searching iso_show) as ((_ & R & C & W) & OP & CL & SU & PR & _ & SR & GL).
  split; [split; [exact A|]; split; [exact R|]; split; assumption|]. split; [exact OP|]. split; [exact CL|]. split; [exact SU|]. split; [exact PR|].
  split; [exact F|]. split; assumption.
Qed.
Example C88_squashed_example :
  let run w := isoMain (halves (two (-800)) 191300) band_texts (iso_os "x y ") toy S754_nan (low_args w) (fun _ => None) in
  exists w1 w2 depth1 depth2, run "1000" = Val (mkResult 0 w1 (Some [iso_text band_texts toy_x toy_y depth1]) (fun _ => None)) /\
    run "1800" = Val (mkResult 0 w2 (Some [iso_text band_texts toy_x toy_y depth2]) (fun _ => None)) /\ (value depth1 <= value depth2)%R.
Proof.
  cbv zeta. assert (QL : add64 (SFopp (i2f64 (-700))) (i_elevMin (low_config 1000)) = i2f64 (-1600)) by (vm_compute; reflexivity).
  destruct (int_val (-700) ltac:(lia)) as [A B].
  destruct (C88_squashed _ (halves (two (-800)) 191300) _ (halves (two (-800)) 191300) band_texts (iso_os "x y ") (iso_os "x y ") toy
    (low_args "1000") (low_args "1800") (low_config 1000) (low_config 1800) tt None tt None toy_x toy_y (i2f64 (-700)) low_speed low_speed (/ 256)
    S754_nan S754_nan (fun _ => None) (fun _ => None)) as (w1 & w2 & e1 & e2 & Q1 & Q2 & _ & _ & LE & _).
  - vm_compute. reflexivity.
  - vm_compute. reflexivity.
  - reflexivity.
  - exact A.
  - rewrite B. apply Rabs_le. lra.
  - rewrite QL. apply low_searching; [vm_compute; reflexivity | exact (proj1 (int_val 1000 ltac:(lia)))].
  - rewrite QL. apply low_searching; [vm_compute; reflexivity | exact (proj1 (int_val 1800 ltac:(lia)))].
  - rewrite QL. apply le_check; vm_compute; reflexivity.
  - intros z _ K. refine (Rle_trans _ _ _ _ K). apply le_check. vm_compute. reflexivity.
  - exists w1, w2, e1, e2. auto.
Qed.

(** ** What does not hold *)
(** Where the model ends above the lowest elevation, a speed that is reached nowhere gets
    -999, which is not larger than the depth of a lower speed. *)
Definition plain (x : f64) : string := match x with S754_finite s _ _ => if s then "-" else "+" | _ => "?" end.
Definition end_num (w : string) : f64 * bool :=
  if String.eqb w "-6412.5" then (dec64 (-64125) 1, true) else if String.eqb w "5000" then (i2f64 5000, true) else iso_num w.
Definition end_texts : texts :=
  mkTexts (mkFmt iso_num iso_num (fun _ => (0, false)) (fun _ => (0, false)) plain)
    (fun s => if String.eqb s "64" then 64 else 0) (fun s => fst (end_num s)) (fun _ _ x => " " ++ plain x) (fun _ z => " " ++ showZ z).
Definition end_args (v : string) : list string := ["-i"; "in"; "-v"; v; "-d"; "column"; "-z"; "-6412.5"; "-o"; "out"].
Definition end_config (v : Z) : isoconf := mkIso (i2f64 v) "in" "out" "column" "" 128 (i2f64 1000000) (dec64 (-64125) 1).
Lemma end_searching v w : isoArgs end_texts (end_args w) = inr (end_config v) -> finite_double (i2f64 v) ->
  searching column_env end_texts (iso_os "x y ") toy (end_args w) (end_config v) column None
    toy_x toy_y (dec64 (-125) 1) (dec64 (-64125) 1) (dec64 (-125) 1) column_speed (/ 256).
Proof.
  intros A F. destruct column_range as (_ & B & _ & D).
  destruct (neg_value (dec64 (-64125) 1) 7050618313113600 (-40) ltac:(vm_compute; reflexivity) ltac:(vm_compute; reflexivity) ltac:(lia)) as [A' C].
  change (2 ^ (- -40)) with 1099511627776 in C.
  destruct (iso_runs plain (iso_args "column" "-1612.5") column_config ltac:(vm_compute; reflexivity) eq_refl eq_refl) as (_ & R & CW & W).
  split; [split; [exact A|]; split; [exact R|]; split; assumption|]. split; [split; reflexivity|]. split; [split; [reflexivity | discriminate]|].
  split.
  { exists (i2f64 0). split; [apply probe_ok; vm_compute; reflexivity|]. left. exists 1, (widen (i2f32 400)).
    split; [lia|]. split; [vm_compute; reflexivity|]. split; [eapply probe_reads; vm_compute; reflexivity|]. split; [vm_compute; reflexivity|].
    intros j Hj. replace j with 0 by lia. eexists. split; [eapply probe_reads; vm_compute; reflexivity | vm_compute; discriminate]. }
  split.
  { exact (profile_at column_env (end_config v) column (dec64 (-64125) 1) (dec64 (-125) 1) eq_refl ltac:(lra) ltac:(lra) column_finite). }
  split; [exact F|]. split.
  { split; [exact A'|]. split; [exact B|]. rewrite C, D. split; [apply Rabs_def1; lra|]. split; [apply Rabs_def1; lra | lra]. }
  assert (Q : div64 (sub64 (dec64 (-125) 1) (dec64 (-64125) 1)) (i2f64 25) = i2f64 256) by (vm_compute; reflexivity).
  unfold good_log. rewrite Q. split; [lra|]. split.
  - apply (toy_log_pow 8 6243314768165359 (-50)); [lia | vm_compute; reflexivity.. | lia |].
    change (2 ^ (- -50)) with 1125899906842624. pose proof ln2_bounds. apply Rabs_le. lra.
  - apply (toy_log_pow 1 6243314768165359 (-53)); [lia | vm_compute; reflexivity.. | lia |].
    change (2 ^ (- -53)) with 9007199254740992. pose proof ln2_bounds. apply Rabs_le. lra.
Qed.
Lemma plain_text depth s : iso_text end_texts toy_x toy_y depth = " + + " ++ s -> plain depth = s.
Proof.
  unfold iso_text. cbn [end_texts t_fixed]. replace (plain toy_x) with "+" by (vm_compute; reflexivity). replace (plain toy_y) with "+" by (vm_compute; reflexivity).
  cbn [append]. intros H. injection H as H. exact H.
Qed.
Lemma plain_signs a b : plain a = "+" -> plain b = "-" -> (value b < value a)%R.
Proof.
  destruct a as [?|?| |[|] m e]; try discriminate. destruct b as [?|?| |[|] m' e']; try discriminate. intros _ _.
  unfold value, BinarySingleNaN.SF2R. apply (Rlt_trans _ 0); [apply Float_prop.F2R_lt_0 | apply Float_prop.F2R_gt_0]; reflexivity.
Qed.
Theorem C88_reached_nowhere_refuted : ~ (forall DB (E : env DB) T S1 S2 g args1 args2 c1 c2 d1 x1 d2 x2 lon lat topo vs eps junk1 junk2 fs1 fs2 code w1 w2 line1 line2 fs1' fs2',
  let L := i_elevMin c1 in
  iso_squashes c1 = false -> iso_squashes c2 = false -> i_elevMin c2 = L ->
  searching E T S1 g args1 c1 d1 x1 lon lat topo L topo vs eps -> searching E T S2 g args2 c2 d2 x2 lon lat topo L topo vs eps ->
  (value (i_vs c1) <= value (i_vs c2))%R ->
  isoMain E T S1 g junk1 args1 fs1 = Val (mkResult code w1 (Some [line1]) fs1') -> isoMain E T S2 g junk2 args2 fs2 = Val (mkResult code w2 (Some [line2]) fs2') ->
  exists depth1 depth2, line1 = iso_text T lon lat depth1 /\ line2 = iso_text T lon lat depth2 /\ (value depth1 <= value depth2)%R).
Proof.
  intros H. set (m := [Said ("WARNING: No data for #, #, #." ++ NL)]).
  assert (R1 : iso_seen (isoMain column_env end_texts (iso_os "x y ") toy S754_nan (end_args "1000") (fun _ => None)) = Some (0, m, Some [" + + +"]))
    by (vm_compute; reflexivity).
  assert (R2 : iso_seen (isoMain column_env end_texts (iso_os "x y ") toy S754_nan (end_args "5000") (fun _ => None)) = Some (0, m, Some [" + + -"]))
    by (vm_compute; reflexivity).
  assert (G : forall R w line, iso_seen R = Some (0, w, Some [line]) -> exists fs', R = Val (mkResult 0 w (Some [line]) fs')).
  { intros [[a b e f]|?| |?] w line K; cbn [iso_seen r_code r_said r_lines] in K; try discriminate K. injection K as -> -> ->. eauto. }
  apply G in R1. destruct R1 as [fs1' R1]. apply G in R2. destruct R2 as [fs2' R2]. clear G.
  destruct (H _ column_env end_texts (iso_os "x y ") (iso_os "x y ") toy (end_args "1000") (end_args "5000") (end_config 1000) (end_config 5000) column None column None
      toy_x toy_y (dec64 (-125) 1) column_speed (/ 256)%R S754_nan S754_nan (fun _ => None) (fun _ => None) 0 m m " + + +" " + + -" fs1' fs2') as (a & b & A & B & LE).
  - vm_compute. reflexivity.
  - vm_compute. reflexivity.
  - reflexivity.
  - apply end_searching; [vm_compute; reflexivity | exact (proj1 (int_val 1000 ltac:(lia)))].
  - apply end_searching; [vm_compute; reflexivity | exact (proj1 (int_val 5000 ltac:(lia)))].
  - apply le_check. vm_compute. reflexivity.
  - exact R1.
  - exact R2.
  - symmetry in A, B. apply (plain_text a "+") in A. apply (plain_text b "-") in B. pose proof (plain_signs a b A B). lra.
Qed.
Print Assumptions C88_reached_nowhere_refuted.
