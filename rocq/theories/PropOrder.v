(** C79: a coarser request is never answered from a finer octant. *)
From Coq Require Import ZArith Bool Reals Lra Lia String List.
From Flocq Require Import Core BinarySingleNaN.
From Verif Require Import Outcome Float Payload Addr SpecOct SpecGeom Geom Store SpecStore ErrorHandler VMQuery SpecQuery SpecAvg AvgEngine
  FloatFacts GeomFacts QueryFacts QueryProof QueryMain SpecE2E E2EFacts AvgProof SpecOrder OrderFacts ToyLib ToyDb PropAvg PropStore PropQuery PropE2E.
Import ListNotations.
Open Scope Z_scope.

(** C79. Fixed resolution.  The larger of two resolutions never gets the finer level;
    both queries are answered as described by [fixed_result]; the octant behind the
    coarser answer contains the one behind the finer answer; and in a complete database
    the coarser request finds data wherever the finer one does. *)
Theorem C79_fixedres : forall DB (E : env DB) q1 q2 fs1 fs2 lon lat elev w names olds db l1 l2,
  setup E q1 db None -> setup E q2 db None -> q_type q1 = FIXEDRES -> q_type q2 = FIXEDRES ->
  q_geom q1 = q_geom q2 -> log_ordered (m_log (q_geom q1)) ->
  moderate (q_res q1) -> moderate (q_res q2) -> (value (q_res q1) <= value (q_res q2))%R ->
  level (q_geom q1) (mul64 (i2f64 4) (q_res q1)) = Val l1 -> 0 <= l1 <= 31 ->
  level (q_geom q2) (mul64 (i2f64 4) (q_res q2)) = Val l2 -> 0 <= l2 <= 31 ->
  plain q1 lon lat elev w names olds -> plain q2 lon lat elev w names olds ->
  place_inside w -> Forall material names ->
  l2 <= l1 /\
  (exists ans, fixed_result db l1 w ans /\
     exists q' fs', query E q1 fs1 (Some olds) lon lat elev = Val (q', fs', QueryMain.values ans f_zero names)) /\
  (exists ans, fixed_result db l2 w ans /\
     exists q' fs', query E q2 fs2 (Some olds) lon lat elev = Val (q', fs', QueryMain.values ans f_zero names)) /\
  (forall h1 v1 h2 v2, fixed_octant db l1 w h1 v1 -> fixed_octant db l2 w h2 v2 -> covers h2 h1) /\
  (complete db -> forall h1 v1, fixed_octant db l1 w h1 v1 -> exists h2 v2, fixed_octant db l2 w h2 v2).
Proof.
  intros DB E q1 q2 fs1 fs2 lon lat elev w names olds db l1 l2 S1 S2 T1 T2 EG LO M1 M2 R L1 B1 L2 B2 P1 P2 I M.
  assert (O : db_ok db) by (destruct S1 as [(d & _ & _ & O) _]; exact O).
  assert (L : l2 <= l1).
  { destruct (four_times (q_res q1) M1) as [F1 E1]. destruct (four_times (q_res q2) M2) as [F2 E2].
    destruct M1 as [_ M1]. destruct M2 as [_ M2]. rewrite <- EG in L2.
    apply (level_monotone (q_geom q1) (mul64 (i2f64 4) (q_res q1)) (mul64 (i2f64 4) (q_res q2)) l1 l2 LO F1 F2); try assumption.
    - rewrite E1. pose proof (bpow_gt_0 radix2 (-60)). lra.
    - rewrite E1, E2. lra.
    - rewrite E2. change 62 with (2 + 60). rewrite bpow_plus. change (bpow radix2 2) with 4%R. lra. }
  split; [exact L|]. split; [|split; [|split]].
  - destruct (C19_fixedres DB E q1 fs1 lon lat elev w names olds db l1 S1 T1 L1 B1 P1 I M) as (ans & A & Q).
    exists ans. split; [exact (fixed_answer_result db l1 w ans O A)|exact Q].
  - destruct (C19_fixedres DB E q2 fs2 lon lat elev w names olds db l2 S2 T2 L2 B2 P2 I M) as (ans & A & Q).
    exists ans. split; [exact (fixed_answer_result db l2 w ans O A)|exact Q].
  - intros h1 v1 h2 v2. exact (fixed_order db w l1 l2 h1 v1 h2 v2 O L).
  - intros C h1 v1. apply (fixed_there db w l1 l2 h1 v1 O C). lia.
Qed.
Print Assumptions C79_fixedres.

(** C79. The same for shortest periods, in complete databases. *)
Theorem C79_waveres : forall DB (E : env DB) q1 q2 fs1 fs2 lon lat elev w names olds db,
  setup E q1 db None -> setup E q2 db None -> q_type q1 = WAVERES -> q_type q2 = WAVERES ->
  complete db -> singles db ->
  moderate (q_res q1) -> moderate (q_res q2) -> (value (q_res q1) <= value (q_res q2))%R ->
  plain q1 lon lat elev w names olds -> plain q2 lon lat elev w names olds ->
  place_inside w -> Forall material names ->
  let t1 := mul64 (i2f64 4) (q_res q1) in let t2 := mul64 (i2f64 4) (q_res q2) in
  (exists ans, wave_result db t1 w ans /\
     exists q' fs', query E q1 fs1 (Some olds) lon lat elev = Val (q', fs', QueryMain.values ans f_zero names)) /\
  (exists ans, wave_result db t2 w ans /\
     exists q' fs', query E q2 fs2 (Some olds) lon lat elev = Val (q', fs', QueryMain.values ans f_zero names)) /\
  (forall last1 b1 u1 last2 b2 u2, wave_octant db t1 w last1 b1 u1 -> wave_octant db t2 w last2 b2 u2 -> covers b2 b1) /\
  (forall last1 b1 u1, wave_octant db t1 w last1 b1 u1 -> exists last2 b2 u2, wave_octant db t2 w last2 b2 u2).
Proof.
  intros DB E q1 q2 fs1 fs2 lon lat elev w names olds db S1 S2 T1 T2 C V M1 M2 R P1 P2 I M t1 t2.
  assert (O : db_ok db) by (destruct S1 as [(d & _ & _ & O) _]; exact O).
  destruct (four_times (q_res q1) M1) as [F1 E1]. destruct (four_times (q_res q2) M2) as [F2 E2].
  fold t1 in F1, E1. fold t2 in F2, E2. assert (L : (value t1 <= value t2)%R) by (rewrite E1, E2; lra).
  destruct (C20_waveres DB E q2 fs2 lon lat elev w names olds db S2 T2 P2 I M) as (ans2 & o2 & A2 & q2' & fs2' & Q2 & _).
  pose proof (wave_answer_result db t2 w ans2 o2 O C A2) as W2.
  split; [|split; [|split]].
  - destruct (C20_waveres DB E q1 fs1 lon lat elev w names olds db S1 T1 P1 I M) as (ans & o & A & q' & fs' & Q & _).
    exists ans. split; [exact (wave_answer_result db t1 w ans o O C A)|]. exists q', fs'. exact Q.
  - exists ans2. split; [exact W2|]. exists q2', fs2'. exact Q2.
  - intros last1 b1 u1 last2 b2 u2. apply wave_order; assumption.
  - intros last1 b1 u1 (h & v & K & NC & _). destruct K as (Ih & Hh & K1 & K2).
    destruct A2 as [(h' & v' & F' & A2)|(N & _)]; [|exfalso; specialize (N h v Ih Hh); lia].
    assert (NC2 : ~ too_coarse t2 h v) by (intros TC; exact (NC (coarse_shorter db t1 t2 V F1 F2 L h v Ih TC))).
    assert (Q : (h, v) = (h', v')) by (apply (QuerySurface.finest_unique db 31 w h v h' v' O); [repeat split; assumption|exact F']).
    pose proof (f_equal fst Q) as Qh. pose proof (f_equal snd Q) as Qv. cbn [fst snd] in Qh, Qv. subst h' v'.
    destruct A2 as [(TC & _)|(_ & [(last & here & Kc & _)|(x & Kc & _)])].
    + contradiction.
    + destruct (settles_climbs db t2 w v h v last here Kc) as (b & St). exists last, b, here. exists h, v. auto.
    + exfalso. destruct (climbs_complete db t2 w v h v _ O C Ih Hh Kc) as (x1 & x2 & X). discriminate X.
Qed.
Print Assumptions C79_waveres.

(** C79. Where the smallest octant around a location is not an average, all three kinds
    of query agree, if the fixed resolution is fine enough and the octant is not too fine
    for the period. *)
Theorem C79_agree : forall DB (E : env DB) qm qf qw fs lon lat elev w names olds db l h v,
  setup E qm db None -> setup E qf db None -> setup E qw db None ->
  q_type qm = MAXRES -> q_type qf = FIXEDRES -> q_type qw = WAVERES ->
  level (q_geom qf) (mul64 (i2f64 4) (q_res qf)) = Val l -> 0 <= l <= 31 ->
  plain qm lon lat elev w names olds -> plain qf lon lat elev w names olds -> plain qw lon lat elev w names olds ->
  place_inside w -> Forall material names ->
  finest db 31 w h v -> a_type h = Leaf -> a_level h <= l ->
  ~ too_fine (mul64 (i2f64 4) (q_res qw)) h v -> singles db -> below_half_max v ->
  forall q, q = qm \/ q = qf \/ q = qw ->
  exists q' fs', query E q fs (Some olds) lon lat elev = Val (q', fs', QueryMain.values v f_zero names).
Proof.
  intros DB E qm qf qw fs lon lat elev w names olds db l h v Sm Sf Sw Tm Tf Tw Lf Bl Pm Pf Pw I M F T Ll NF V B q Hq.
  assert (O : db_ok db) by (destruct Sm as [(d & _ & _ & O) _]; exact O).
  assert (U : forall h' v', finest db 31 w h' v' -> h' = h /\ v' = v).
  { intros h' v' F'. pose proof (QuerySurface.finest_unique db 31 w h' v' h v O F' F) as Q.
    split; [exact (f_equal fst Q)|exact (f_equal snd Q)]. }
  pose proof F as (Ih & Hh & L31 & Mh).
  destruct Hq as [->|[->| ->]].
  - destruct (C18_maxres DB E qm fs lon lat elev w names olds db Sm Tm Pm I M) as (ans & A & Q).
    destruct A as [(h' & v' & F' & ->)|(N & _)]; [|exfalso; specialize (N h v Ih Hh); lia].
    destruct (U h' v' F') as [-> ->]. rewrite T in Q. exact Q.
  - destruct (C19_fixedres DB E qf fs lon lat elev w names olds db l Sf Tf Lf Bl Pf I M) as (ans & A & Q).
    destruct A as [(h' & v' & (I' & H' & L' & M') & ->)|(N & _)]; [|exfalso; specialize (N h v Ih Hh); lia].
    assert (F' : finest db 31 w h' v').
    { split; [exact I'|]. split; [exact H'|]. split; [lia|]. intros h2 v2 I2 H2 _. 
      apply Z.le_trans with (a_level h); [apply (Mh h2 v2 I2 H2)|apply (M' h v Ih Hh Ll)]. apply (proj1 O _ _ I2). }
    destruct (U h' v' F') as [-> ->]. rewrite T in Q. exact Q.
  - destruct (C20_waveres DB E qw fs lon lat elev w names olds db Sw Tw Pw I M) as (ans & o & A & q' & fs' & Q & _).
    exists q', fs'. rewrite Q. do 2 f_equal.
    destruct A as [(h' & v' & F' & A)|(N & _)]; [|exfalso; specialize (N h v Ih Hh); lia].
    destruct (U h' v' F') as [-> ->].
    destruct A as [((TC & _) & _)|(_ & [(last & here & K & -> & _)|(x & K & -> & _)])].
    + congruence.
    + assert (X : last = v /\ here = v) by (inversion K; subst; [auto|contradiction]). destruct X as [-> ->].
      rewrite (halfway_same v); [reflexivity|intros f; apply (V h v Ih f)|exact B].
    + reflexivity.
Qed.
Print Assumptions C79_agree.

(** C79. Databases made by averaging are complete and hold single precision numbers. *)
Theorem C79_averaged : forall E d d' inp recs, averaged_into E d d' inp recs -> complete recs /\ singles recs.
Proof.
  intros E d d' inp recs A. split.
  - destruct (averaged_run _ _ _ _ _ A) as (A1 & W & V & L & s & F & St).
    intros h v I Lh. exact (parent_there _ _ _ _ A1 W F St V L h v I Lh).
  - intros h v I. destruct (averaged_run _ _ _ _ _ A) as (_ & _ & V & _).
    exact (averaged_valid inp h v V (C44_stored_means E d d' inp recs A h v I)).
Qed.
Print Assumptions C79_averaged.

(** C79. But where the smallest octant around a location is an average with a negative
    Vs (as over water), a query for a period returns that average however short the
    period is: the test for too coarse octants compares a negative number. *)
Theorem C79_water : forall DB (E : env DB) q fs lon lat elev w names olds db h v,
  setup E q db None -> q_type q = WAVERES -> plain q lon lat elev w names olds ->
  place_inside w -> Forall material names -> singles db ->
  finest db 31 w h v -> a_type h = Interior -> (value (p_vs v) < 0)%R -> below_half_max v ->
  finite_double (mul64 (i2f64 4) (q_res q)) -> (0 <= value (mul64 (i2f64 4) (q_res q)))%R ->
  exists q' fs', query E q fs (Some olds) lon lat elev = Val (q', fs', QueryMain.values v f_zero names).
Proof.
  intros DB E q fs lon lat elev w names olds db h v S T P I M V F TI NV B FT PT.
  assert (O : db_ok db) by (destruct S as [(d & _ & _ & O) _]; exact O).
  pose proof F as (Ih & Hh & L31 & Mh).
  destruct (C20_waveres DB E q fs lon lat elev w names olds db S T P I M) as (ans & o & A & q' & fs' & Q & _).
  exists q', fs'. rewrite Q. do 2 f_equal. set (t := mul64 (i2f64 4) (q_res q)) in *.
  destruct (negative_not_rock h v t (proj1 O h v Ih) (V h v Ih PVs) (proj1 (B PVs)) NV FT PT) as [NF NC].
  destruct A as [(h' & v' & F' & A)|(N & _)]; [|exfalso; specialize (N h v Ih Hh); lia].
  pose proof (QuerySurface.finest_unique db 31 w h' v' h v O F' F) as X.
  pose proof (f_equal fst X) as X1. pose proof (f_equal snd X) as X2. cbn [fst snd] in X1, X2. subst h' v'.
  destruct A as [(TC & _)|(_ & [(last & here & K & -> & _)|(x & K & -> & _)])].
  - contradiction.
  - assert (Y : last = v /\ here = v) by (inversion K; subst; [auto|contradiction]). destruct Y as [-> ->].
    rewrite (halfway_same v); [reflexivity|intros f; apply (V h v Ih f)|exact B].
  - reflexivity.
Qed.
Print Assumptions C79_water.

(** ** The hypotheses are met *)
(** The logarithm of the examples (see ToyLib.v) never decreases. *)
Lemma toy_log_value x : finite_double x -> (0 < value x)%R ->
  exists k, -1100 <= k <= 1100 /\ toy_log x = mul64 (i2f64 k) toy_ln2 /\ k = mag radix2 (value x) - 1.
Proof.
  intros [V F] P. destruct x as [s|s| |s m e]; try discriminate F.
  - unfold value in P. cbn [SF2R] in P. lra.
  - destruct s; [unfold value in P; assert (SF2R radix2 (S754_finite true m e) < 0)%R by (apply F2R_lt_0; reflexivity); lra|].
    exists (Z.log2 (Zpos m) + e).
    assert (M : mag radix2 (value (S754_finite false m e)) = Zdigits radix2 (Zpos m) + e :> Z).
    { unfold value, SF2R. cbn [cond_Zopp]. apply mag_F2R_Zdigits. discriminate. }
    assert (D : Zdigits radix2 (Zpos m) = Z.log2 (Zpos m) + 1).
    { apply Zdigits_unique. rewrite Z.add_simpl_r. pose proof (Z.log2_spec (Zpos m) ltac:(lia)) as S.
      rewrite Z.abs_eq by lia. cbn [radix_val radix2]. replace (Z.log2 (Zpos m) + 1) with (Z.succ (Z.log2 (Zpos m))) by lia. exact S. }
    split; [|split; [reflexivity|rewrite M, D; lia]].
    unfold double, valid_binary, bounded, canonical_mantissa in V.
    pose proof (Z.log2_nonneg (Zpos m)).
    apply andb_true_iff in V. destruct V as [V1 V2]. apply Z.leb_le in V2.
    apply Zeq_bool_eq in V1. unfold SpecFloat.fexp, SpecFloat.emin, emax64, prec64 in *.
    change (SpecFloat.digits2_pos m) with (Digits.digits2_pos m) in V1. 
    assert (DD : Zpos (Digits.digits2_pos m) = Zdigits radix2 (Zpos m)) by (rewrite Zpos_digits2_pos; reflexivity).
    rewrite DD, D in V1. lia.
Qed.

Lemma toy_log_ordered : log_ordered toy_log.
Proof.
  assert (R : repr toy_ln2 (6243314768165359 * bpow radix2 (-53))) by (repeat split).
  destruct R as (V2 & F2 & E2).
  assert (P2 : (0 < fval toy_ln2 <= 1)%R).
  { rewrite E2. change (bpow radix2 (-53)) with (/ 9007199254740992)%R. lra. }
  assert (K : forall k, -1100 <= k <= 1100 -> finite_double (mul64 (i2f64 k) toy_ln2) /\
    value (mul64 (i2f64 k) toy_ln2) = round radix2 (SpecFloat.fexp prec64 emax64) (round_mode mode_NE) (IZR k * fval toy_ln2)).
  { intros k Bk. destruct (repr_int k ltac:(lia)) as (Vk & Fk & Ek).
    pose proof (mul_round prec64 emax64 Hp64 Hm64 (i2f64 k) toy_ln2 Vk V2 Fk F2) as M. cbv zeta in M. rewrite Ek in M.
    rewrite Rlt_bool_true in M.
    - destruct M as [M1 M2]. split; [split; [apply (mul_valid prec64 emax64 Hp64 Hm64); assumption|exact M2]|exact M1].
    - apply GeomLevel.rnd_bound. rewrite Rabs_mult, (Rabs_right (fval toy_ln2)) by lra.
      assert (Rabs (IZR k) <= 1100)%R by (rewrite <- abs_IZR; apply IZR_le; lia).
      pose proof (Rabs_pos (IZR k)). nra. }
  split; [|split].
  - change (toy_log (i2f64 2)) with (mul64 (i2f64 1) toy_ln2). rewrite (proj2 (K 1 ltac:(lia))), Rmult_1_l.
    rewrite round_generic; [apply P2|apply valid_rnd_N|]. 
    destruct (valid_ex prec64 emax64 toy_ln2 V2) as [b ->]. rewrite SF2R_B2SF. apply generic_format_B2R.
  - split; vm_compute; reflexivity.
  - intros x y Fx Fy [Px L].
    destruct (toy_log_value x Fx Px) as (k & Bk & -> & Ek). destruct (toy_log_value y Fy ltac:(lra)) as (k' & Bk' & -> & Ek').
    destruct (K k Bk) as [G1 G2]. destruct (K k' Bk') as [G1' G2']. split; [exact G1|]. split; [exact G1'|].
    rewrite G2, G2'. apply round_le; [apply (fexp_correct prec64 emax64 Hp64)|apply valid_rnd_N|].
    apply Rmult_le_compat_r; [lra|]. apply IZR_le.
    assert (mag radix2 (value x) <= mag radix2 (value y)) by (apply mag_le; lra). lia.
Qed.

Definition moderateb (x : f64) : bool :=
  valid_binary prec64 emax64 x &&
  match x with S754_finite false m e => (2 ^ 52 <=? Zpos m) && (Zpos m <=? 2 ^ 53) && (-112 <=? e) && (e <=? 7) | _ => false end.
Lemma moderateb_ok x : moderateb x = true -> moderate x.
Proof.
  unfold moderateb. rewrite andb_true_iff. intros [V H]. destruct x as [| | |[|] m e]; try discriminate H.
  rewrite !andb_true_iff, !Z.leb_le in H. destruct H as (((H1 & H2) & H3) & H4).
  split; [split; [exact V|reflexivity]|]. unfold value, SF2R, F2R. cbn [cond_Zopp Fnum Fexp].
  pose proof (bpow_gt_0 radix2 e) as P.
  assert (A : (bpow radix2 52 <= IZR (Zpos m) <= bpow radix2 53)%R).
  { change (bpow radix2 52) with (IZR (2 ^ 52)). change (bpow radix2 53) with (IZR (2 ^ 53)). split; apply IZR_le; assumption. }
  split.
  - change (-60) with (52 + -112). rewrite bpow_plus. apply Rmult_le_compat; try apply bpow_ge_0; [apply A|apply bpow_le, H3].
  - change 60 with (53 + 7). rewrite bpow_plus. apply Rmult_le_compat; [apply IZR_le; lia|apply bpow_ge_0|apply A|apply bpow_le, H4].
Qed.
Lemma ordered x y : moderate x -> moderate y -> fle x y = true -> (value x <= value y)%R.
Proof.
  intros [[V F] _] [[V' F'] _] H. rewrite (fle_R prec64 emax64 x y V V' F F') in H.
  destruct (Rle_bool_spec (SF2R radix2 x) (SF2R radix2 y)) as [Q|Q]; [exact Q|discriminate H].
Qed.

(** The averaged leaves of C44: 12.5 m is level 15, 25 m level 14. *)
Example C79_example_fixedres : exists ans1 ans2 h1 h2,
  fixed_octant leaves_recs 15 (toy_place elev_a) h1 ans1 /\ fixed_octant leaves_recs 14 (toy_place elev_a) h2 ans2 /\ covers h2 h1 /\
  (exists q' fs', query toy_env (toy_q FIXEDRES (dec64 125 1) leaves_recs None false all_names) no_files (Some four) toy_x toy_y elev_a =
     Val (q', fs', QueryMain.values ans1 f_zero all_names)) /\
  (exists q' fs', query toy_env (toy_q FIXEDRES (i2f64 25) leaves_recs None false all_names) no_files (Some four) toy_x toy_y elev_a =
     Val (q', fs', QueryMain.values ans2 f_zero all_names)).
Proof.
  destruct leaves_averaged as (d' & A).
  assert (M1 : moderate (dec64 125 1)) by (apply moderateb_ok; vm_compute; reflexivity).
  assert (M2 : moderate (i2f64 25)) by (apply moderateb_ok; vm_compute; reflexivity).
  destruct (C79_fixedres _ toy_env (toy_q FIXEDRES (dec64 125 1) leaves_recs None false all_names)
    (toy_q FIXEDRES (i2f64 25) leaves_recs None false all_names) no_files no_files toy_x toy_y elev_a (toy_place elev_a) all_names four leaves_recs 15 14
    (served _ _ _ _ _ _ _ A (leaves_served _ _)) (served _ _ _ _ _ _ _ A (leaves_served _ _)) eq_refl eq_refl eq_refl toy_log_ordered M1 M2
    (ordered _ _ M1 M2 ltac:(vm_compute; reflexivity)) ltac:(vm_compute; reflexivity) ltac:(lia) ltac:(vm_compute; reflexivity) ltac:(lia)
    (toy_plain4 _ _ _ _ _) (toy_plain4 _ _ _ _ _) toy_inside_a names_material) as (_ & (a1 & R1 & q1 & f1 & Q1) & (a2 & R2 & q2 & f2 & Q2) & C & _).
  destruct R1 as [(h1 & O1)|(_ & ->)].
  2:{ exfalso. pose proof (f_equal outcome_values Q1) as Q'. vm_compute in Q'. discriminate. }
  destruct R2 as [(h2 & O2)|(_ & ->)].
  2:{ exfalso. pose proof (f_equal outcome_values Q2) as Q'. vm_compute in Q'. discriminate. }
  exists a1, a2, h1, h2. split; [exact O1|]. split; [exact O2|]. split; [exact (C h1 a1 h2 a2 O1 O2)|]. eauto 6.
Qed.
(** Periods of 1 and 6 thousandths. *)
Example C79_example_waveres : exists last1 b1 u1 last2 b2 u2,
  wave_octant leaves_recs (mul64 (i2f64 4) (dec64 1 3)) (toy_place elev_a) last1 b1 u1 /\
  wave_octant leaves_recs (mul64 (i2f64 4) (dec64 6 3)) (toy_place elev_a) last2 b2 u2 /\ covers b2 b1.
Proof.
  destruct leaves_averaged as (d' & A). destruct (C79_averaged _ _ _ _ _ A) as [Co Si].
  assert (M1 : moderate (dec64 1 3)) by (apply moderateb_ok; vm_compute; reflexivity).
  assert (M2 : moderate (dec64 6 3)) by (apply moderateb_ok; vm_compute; reflexivity).
  destruct (C79_waveres _ toy_env (toy_q WAVERES (dec64 1 3) leaves_recs None false all_names)
    (toy_q WAVERES (dec64 6 3) leaves_recs None false all_names) no_files no_files toy_x toy_y elev_a (toy_place elev_a) all_names four leaves_recs
    (served _ _ _ _ _ _ _ A (leaves_served _ _)) (served _ _ _ _ _ _ _ A (leaves_served _ _)) eq_refl eq_refl Co Si M1 M2
    (ordered _ _ M1 M2 ltac:(vm_compute; reflexivity))
    (toy_plain4 _ _ _ _ _) (toy_plain4 _ _ _ _ _) toy_inside_a names_material) as ((a1 & R1 & q1 & f1 & Q1) & _ & C & X).
  destruct R1 as [(last1 & b1 & u1 & O1 & _)|(_ & ->)].
  2:{ exfalso. pose proof (f_equal outcome_values Q1) as Q'. vm_compute in Q'. discriminate. }
  destruct (X last1 b1 u1 O1) as (last2 & b2 & u2 & O2). exists last1, b1, u1, last2, b2, u2.
  split; [exact O1|]. split; [exact O2|]. exact (C _ _ _ _ _ _ O1 O2).
Qed.
(** The three kinds of query agree at the first leaf of the example database. *)
Definition halfb (v : payload) : bool :=
  forallb (fun f => match get6 f v with S754_zero _ => true | S754_finite _ m e => (Zpos m <? 2 ^ 24) && (e <=? 100) | _ => false end)
    [PVp; PVs; PDensity; PQp; PQs; PDfs].
Lemma halfb_ok v : halfb v = true -> below_half_max v.
Proof.
  unfold halfb. rewrite forallb_forall. intros H f. assert (I : In f [PVp; PVs; PDensity; PQp; PQs; PDfs]) by (destruct f; cbn; auto 7).
  specialize (H f I). cbv beta in H. destruct (get6 f v) as [s| | |s m e]; try discriminate H.
  - split; [reflexivity|]. cbn [SF2R]. rewrite Rabs_R0. apply bpow_gt_0.
  - rewrite andb_true_iff, Z.ltb_lt, Z.leb_le in H. destruct H as [Hm He]. split; [reflexivity|]. cbn [SF2R].
    rewrite <- F2R_Zabs. replace (Z.abs _) with (Zpos m) by (destruct s; reflexivity). unfold F2R. cbn [Fnum Fexp].
    apply Rle_lt_trans with (bpow radix2 24 * bpow radix2 100)%R.
    + apply Rmult_le_compat; [apply IZR_le; lia|apply bpow_ge_0| |apply bpow_le, He].
      change (bpow radix2 24) with (IZR (2 ^ 24)). apply IZR_le. lia.
    + rewrite <- bpow_plus. apply bpow_lt. reflexivity.
Qed.
Definition singlesb (db : contents) : bool :=
  forallb (fun x => forallb (fun f => valid_binary prec32 emax32 (get6 f (snd x))) [PVp; PVs; PDensity; PQp; PQs; PDfs]) db.
Lemma singlesb_ok db : singlesb db = true -> singles db.
Proof.
  unfold singlesb. rewrite forallb_forall. intros H h v I f. specialize (H (h, v) I). cbn [snd] in H. rewrite forallb_forall in H.
  apply H. destruct f; cbn; auto 7.
Qed.
Lemma toy_finest : finest toy_db 31 (toy_place elev_a) toy_leaf v_leaf.
Proof.
  split; [left; reflexivity|]. split; [exact toy_leaf_holds|]. split; [vm_compute; discriminate|].
  intros h v I _ _. assert (G : forallb (fun x => a_level (fst x) <=? a_level toy_leaf) toy_db = true) by (vm_compute; reflexivity).
  rewrite forallb_forall in G. apply Z.leb_le. exact (G _ I).
Qed.
Example C79_example_agree : forall q,
  q = toy_q MAXRES f_zero toy_db None false all_names \/ q = toy_q FIXEDRES (dec64 125 1) toy_db None false all_names \/
  q = toy_q WAVERES (dec64 1 3) toy_db None false all_names ->
  exists q' fs', query toy_env q no_files (Some four) toy_x toy_y elev_a = Val (q', fs', QueryMain.values v_leaf f_zero all_names).
Proof.
  apply (C79_agree _ toy_env (toy_q MAXRES f_zero toy_db None false all_names) (toy_q FIXEDRES (dec64 125 1) toy_db None false all_names)
    (toy_q WAVERES (dec64 1 3) toy_db None false all_names) no_files toy_x toy_y elev_a (toy_place elev_a) all_names four toy_db 15 toy_leaf v_leaf).
  1-3: apply toy_setup. 1-3: reflexivity. 1: vm_compute; reflexivity. 1: lia. 1-3: apply toy_plain4.
  - exact toy_inside_a.
  - exact names_material.
  - exact toy_finest.
  - vm_compute. reflexivity.
  - vm_compute. discriminate.
  - intros (_ & H & _). vm_compute in H. discriminate.
  - apply singlesb_ok. vm_compute. reflexivity.
  - apply halfb_ok. vm_compute. reflexivity.
Qed.
(** Next to a leaf with water, the average of the water is returned for a period that
    needs octants smaller than a millimetre; other queries give no data. *)
Definition v_bay : payload := ToyDb.pay 1500 (-999) 1030 (i2f32 (-5)) (-999) (-999).
Definition bay : contents := [(low_leaf, v_bay); (toy_parent, v_bay)].
Lemma bay_ok : db_ok bay.
Proof. apply db_okb_ok. vm_compute. reflexivity. Qed.
Lemma bay_finest : finest bay 31 (toy_place elev_a) toy_parent v_bay.
Proof.
  assert (OL : octant_ok toy_leaf) by (apply (proj1 toy_db_ok toy_leaf v_leaf); left; reflexivity).
  split; [right; left; reflexivity|]. split; [apply (holds_cover toy_parent toy_leaf); [exact toy_leaf_holds|apply coversb_iff; vm_compute; reflexivity]|].
  split; [vm_compute; discriminate|].
  intros h v [Q|[Q|[]]] H _; pose proof (f_equal fst Q) as Q1; cbn [fst] in Q1; subst h; [|lia].
  exfalso. assert (C : covers low_leaf toy_leaf).
  { apply (cover_holds low_leaf toy_leaf (toy_place elev_a)); [apply (proj1 bay_ok low_leaf v_bay); left; reflexivity|exact OL|vm_compute; discriminate|exact H|exact toy_leaf_holds]. }
  apply coversb_iff in C. vm_compute in C. discriminate.
Qed.
Example C79_example_water :
  (exists q' fs', query toy_env (toy_q WAVERES (dec64 1 9) bay None false all_names) no_files (Some four) toy_x toy_y elev_a =
     Val (q', fs', QueryMain.values v_bay f_zero all_names)) /\
  outcome_values (query toy_env (toy_q MAXRES f_zero bay None false all_names) no_files (Some four) toy_x toy_y elev_a) =
    Val (QueryMain.values no_data f_zero all_names).
Proof.
  split; [|vm_compute; reflexivity].
  apply (C79_water _ toy_env (toy_q WAVERES (dec64 1 9) bay None false all_names) no_files toy_x toy_y elev_a (toy_place elev_a) all_names four bay toy_parent v_bay).
  - split; [exists bay; split; [reflexivity | split; [apply lsearch_ok | exact bay_ok]] | reflexivity].
  - reflexivity.
  - apply toy_plain4.
  - exact toy_inside_a.
  - exact names_material.
  - apply singlesb_ok. vm_compute. reflexivity.
  - exact bay_finest.
  - vm_compute. reflexivity.
  - apply F2R_lt_0. reflexivity.
  - apply halfb_ok. vm_compute. reflexivity.
  - split; vm_compute; reflexivity.
  - apply Rlt_le, F2R_gt_0. reflexivity.
Qed.
