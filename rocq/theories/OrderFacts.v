(** Proofs for C79. *)
From Coq Require Import ZArith Bool Reals Lra Lia List.
From Flocq Require Import Core BinarySingleNaN.
From Verif Require Import Outcome Float Payload Addr SpecOct SpecGeom Geom SpecAvg SpecQuery SpecE2E SpecOrder FloatFacts AddrFacts AvgProof E2EFacts GeomFacts GeomProof GeomLevel
  QueryFacts QuerySurface GradeMach ExtractFacts RangeWave.
Import ListNotations.
Open Scope Z_scope.

Local Notation fexp64 := (SpecFloat.fexp prec64 emax64).
Local Notation rnd64 := (round radix2 fexp64 (round_mode mode_NE)).
#[local] Instance v64' : Valid_exp fexp64 := fexp_correct prec64 emax64 Hp64.
#[local] Instance vr' : Valid_rnd (round_mode mode_NE) := valid_rnd_N _.

(** ** Levels *)
Lemma pow60 : bpow radix2 60 = 1152921504606846976%R. Proof. reflexivity. Qed.

Lemma four_times x : moderate x -> finite_double (mul64 (i2f64 4) x) /\ value (mul64 (i2f64 4) x) = (4 * value x)%R.
Proof.
  intros [[V F] [B1 B2]]. destruct (repr_int 4 ltac:(lia)) as (V4 & F4 & E4).
  assert (P : (0 < bpow radix2 (-60))%R) by apply bpow_gt_0.
  destruct (mul_exact prec64 emax64 Hp64 Hm64 (i2f64 4) x V4 V F4 F) as [M1 M2].
  - rewrite E4. destruct (valid_ex prec64 emax64 x V) as [bx ->]. rewrite SF2R_B2SF.
    assert (G : generic_format radix2 fexp64 (B2R bx)) by apply generic_format_B2R.
    assert (P53 : Prec_gt_0 53) by reflexivity.
    destruct (FLT_format_generic radix2 (-1074) 53 _ G) as [f Hf Hm He].
    apply (generic_format_FLT radix2 (-1074) 53). exists (Float radix2 (Fnum f) (Fexp f + 2)).
    + rewrite Hf. unfold F2R. cbn [Fnum Fexp]. rewrite bpow_plus. change (bpow radix2 2) with 4%R. ring.
    + exact Hm.
    + cbn [Fexp]. lia.
  - rewrite E4. rewrite Rabs_right by (fold (value x); lra). fold (value x).
    apply Rle_lt_trans with (bpow radix2 62).
    + change 62 with (2 + 60). rewrite bpow_plus. change (bpow radix2 2) with 4%R. lra.
    + apply bpow_lt. reflexivity.
  - split; [split; [apply (mul_valid prec64 emax64 Hp64 Hm64); assumption|exact M2]|].
    unfold value, mul64. rewrite M1, E4. reflexivity.
Qed.

Lemma root_over x : finite_double x -> (bpow radix2 (-60) <= value x <= bpow radix2 62)%R ->
  finite_double (div64 ROOTLEN x) /\ value (div64 ROOTLEN x) = rnd64 (root / value x) /\ (0 < value (div64 ROOTLEN x))%R.
Proof.
  intros [V F] B. destruct root_repr as (Vo & Fo & Eo).
  assert (P : (0 < bpow radix2 (-60))%R) by apply bpow_gt_0.
  assert (N : fval x <> 0%R) by (fold (value x); lra).
  assert (R1 : (bpow radix2 (-62) <= root / value x <= bpow radix2 90)%R).
  { unfold root. split.
    - apply (Rmult_le_reg_r (value x)); [lra|]. unfold Rdiv. rewrite Rmult_assoc, Rinv_l, Rmult_1_r by lra.
      apply Rle_trans with (bpow radix2 (-62) * bpow radix2 62)%R; [apply Rmult_le_compat_l; [apply bpow_ge_0|lra]|].
      rewrite <- bpow_plus. change (bpow radix2 (-62 + 62)) with 1%R. lra.
    - apply (Rmult_le_reg_r (value x)); [lra|]. unfold Rdiv. rewrite Rmult_assoc, Rinv_l, Rmult_1_r by lra.
      apply Rle_trans with (bpow radix2 90 * bpow radix2 (-60))%R; [|apply Rmult_le_compat_l; [apply bpow_ge_0|lra]].
      rewrite <- bpow_plus. change (bpow radix2 (90 + -60)) with 1073741824%R. lra. }
  assert (R2 : (bpow radix2 (-62) <= rnd64 (root / value x) <= bpow radix2 90)%R).
  { split; [apply round_ge_generic|apply round_le_generic]; try typeclasses eauto; try apply R1; apply generic_format_bpow; vm_compute; discriminate. }
  pose proof (div_round prec64 emax64 Hp64 Hm64 ROOTLEN x Vo V Fo N) as D. cbv zeta in D. rewrite Eo in D. fold (value x) in D.
  assert (P2 : (0 < bpow radix2 (-62))%R) by apply bpow_gt_0.
  rewrite Rlt_bool_true in D.
  2:{ rewrite Rabs_right by lra. apply Rle_lt_trans with (bpow radix2 90); [apply R2|apply bpow_lt; reflexivity]. }
  destruct D as [D1 D2]. split; [split; [apply (div_valid prec64 emax64 Hp64 Hm64); assumption|exact D2]|].
  unfold value at 1 3. unfold div64. rewrite D1. split; [reflexivity|lra].
Qed.

Lemma level_monotone L r r' l l' : log_ordered (m_log L) -> finite_double r -> finite_double r' ->
  (bpow radix2 (-60) <= value r)%R -> (value r <= value r')%R -> (value r' <= bpow radix2 62)%R ->
  level L r = Val l -> level L r' = Val l' -> l' <= l.
Proof.
  intros (Pb & [Vb Fb] & HL) Fr Fr' B1 B2 B3 E E'.
  assert (P : (0 < bpow radix2 (-60))%R) by apply bpow_gt_0.
  destruct (root_over r Fr ltac:(lra)) as (Fq & Eq & Pq). destruct (root_over r' Fr' ltac:(lra)) as (Fq' & Eq' & Pq').
  set (q := div64 ROOTLEN r) in *. set (q' := div64 ROOTLEN r') in *.
  assert (LQ : (value q' <= value q)%R).
  { rewrite Eq, Eq'. apply round_le; [typeclasses eauto..|]. unfold Rdiv, root. apply Rmult_le_compat_l; [lra|].
    apply Rinv_le; lra. }
  destruct (HL q' q Fq' Fq (conj Pq' LQ)) as ([Va' Fa'] & [Va Fa] & LA). clear HL.
  unfold level in E, E'. fold q in E. fold q' in E'.
  set (a := m_log L q) in *. set (a' := m_log L q') in *. set (b := m_log L (i2f64 2)) in *.
  assert (Nb : fval b <> 0%R) by (fold (value b); lra).
  assert (Hh : repr half64 (/ 2)) by exact half_repr. destruct Hh as (Vh & Fh & Eh).
  assert (G : forall x y, double x -> is_fin x = true -> f2int (add64 half64 (div64 x b)) = Val y ->
    y = Ztrunc (rnd64 (/ 2 + rnd64 (value x / value b)))).
  { intros x y Vx Fx H. pose proof (div_round prec64 emax64 Hp64 Hm64 x b Vx Vb Fx Nb) as D. cbv zeta in D.
    assert (Vd : double (div64 x b)) by (apply (div_valid prec64 emax64 Hp64 Hm64); assumption).
    fold (value x) (value b) in D. fold (div64 x b) in D.
    destruct (Rlt_bool (Rabs (rnd64 (value x / value b))) (bpow radix2 emax64)).
    - destruct D as [D1 D2]. pose proof (add_round prec64 emax64 Hp64 Hm64 half64 (div64 x b) Vh Vd Fh D2) as A. cbv zeta in A.
      rewrite Eh, D1 in A. fold (add64 half64 (div64 x b)) in A.
      destruct (Rlt_bool (Rabs (rnd64 (/ 2 + rnd64 (value x / value b)))) (bpow radix2 emax64)).
      + destruct A as [A1 A2]. unfold f2int in H. rewrite (ftrunc_R _ A2), A1 in H. destruct (_ && _) in H; [|discriminate H].
        injection H as <-. reflexivity.
      + destruct A as [A _]. rewrite A in H. discriminate H.
    - rewrite D in H. destruct (xorb _ _); discriminate H. }
  rewrite (G a l Va Fa E), (G a' l' Va' Fa' E').
  apply Ztrunc_le, round_le; [typeclasses eauto..|]. apply Rplus_le_compat_l, round_le; [typeclasses eauto..|].
  unfold Rdiv. apply Rmult_le_compat_r; [apply Rlt_le, Rinv_0_lt_compat, Pb|exact LA].
Qed.

(** ** Periods *)
Lemma flt_left c t t' : double c -> finite_double t -> finite_double t' -> (value t <= value t')%R -> flt c t = true -> flt c t' = true.
Proof.
  intros Vc [Vt Ft] [Vt' Ft'] L H. destruct (is_fin c) eqn:Fc.
  - rewrite (flt_R prec64 emax64 c t Vc Vt Fc Ft) in H. rewrite (flt_R prec64 emax64 c t' Vc Vt' Fc Ft').
    destruct (Rlt_bool_spec (SF2R radix2 c) (SF2R radix2 t)) as [Q|Q]; [|discriminate H]. apply Rlt_bool_true. unfold value in L. lra.
  - destruct c as [|s| |]; try discriminate Fc; [|discriminate H]. destruct s.
    + destruct t'; try discriminate Ft'; reflexivity.
    + destruct t; try discriminate Ft; discriminate H.
Qed.
Lemma flt_right c t t' : double c -> finite_double t -> finite_double t' -> (value t <= value t')%R -> flt t' c = true -> flt t c = true.
Proof.
  intros Vc [Vt Ft] [Vt' Ft'] L H. destruct (is_fin c) eqn:Fc.
  - rewrite (flt_R prec64 emax64 t' c Vt' Vc Ft' Fc) in H. rewrite (flt_R prec64 emax64 t c Vt Vc Ft Fc).
    destruct (Rlt_bool_spec (SF2R radix2 t') (SF2R radix2 c)) as [Q|Q]; [|discriminate H]. apply Rlt_bool_true. unfold value in L. lra.
  - destruct c as [|s| |]; try discriminate Fc; [|destruct t'; discriminate H]. destruct s.
    + destruct t'; try discriminate Ft'; discriminate H.
    + destruct t; try discriminate Ft; reflexivity.
Qed.

Lemma crossing_double h v : valid32 (p_vs v) -> double (crossing_time h v).
Proof.
  intros V. unfold crossing_time. apply (div_valid prec64 emax64 Hp64 Hm64).
  - unfold edge_length. apply (div_valid prec64 emax64 Hp64 Hm64); apply (normalize_valid prec64 emax64 Hp64 Hm64).
  - apply (convert_valid prec64 emax64 Hp64 Hm64).
Qed.

Section Wave.
Variables (db : contents) (w : place) (t t' : f64).
Hypothesis Hok : db_ok db.
Hypothesis Hs : singles db.
Hypothesis Ft : finite_double t.
Hypothesis Ft' : finite_double t'.
Hypothesis Hle : (value t <= value t')%R.

Lemma fine_longer h v : In (h, v) db -> too_fine t h v -> too_fine t' h v.
Proof.
  intros I (A & B & C). split; [exact A|]. split; [|exact C].
  exact (flt_left _ t t' (crossing_double h v (Hs h v I PVs)) Ft Ft' Hle B).
Qed.
Lemma coarse_shorter h v : In (h, v) db -> too_coarse t' h v -> too_coarse t h v.
Proof.
  intros I (A & B). split; [exact A|]. exact (flt_right _ t t' (crossing_double h v (Hs h v I PVs)) Ft Ft' Hle B).
Qed.

Lemma cover_refl h : covers h h. Proof. unfold covers. lia. Qed.
Lemma settles_above p prev h v last b u : settles db p w prev h v last b u -> In (h, v) db -> holds h w ->
  In (b, u) db /\ holds b w /\ covers b h.
Proof.
  induction 1 as [prev h v N|prev h v h' v' last b u T F S IH]; intros I H.
  - split; [exact I|]. split; [exact H|apply cover_refl].
  - destruct F as (I' & H' & L' & _). destruct (IH I' H') as (Ib & Hb & C). split; [exact Ib|]. split; [exact Hb|].
    apply covers_trans with h'; [exact C|].
    apply (cover_holds h' h w); [exact (proj1 Hok _ _ I')|exact (proj1 Hok _ _ I)|lia|exact H'|exact H].
Qed.

Lemma settles_order prev h v last b u last' b' u' : settles db t w prev h v last b u -> settles db t' w prev h v last' b' u' ->
  In (h, v) db -> holds h w -> covers b' b.
Proof.
  intros S. revert last' b' u'. induction S as [prev h v N|prev h v h1 v1 last b u T F S IH]; intros last' b' u' S' I H.
  - exact (proj2 (proj2 (settles_above t' prev h v last' b' u' S' I H))).
  - inversion S' as [? ? ? N'|? ? ? h2 v2 ? ? ? T' F' S2]; subst.
    + exfalso. exact (N' (fine_longer _ _ I T)).
    + pose proof (finest_unique db _ w h1 v1 h2 v2 Hok F F') as Q. pose proof (f_equal fst Q) as Q1. pose proof (f_equal snd Q) as Q2.
      cbn [fst snd] in Q1, Q2. subst h2 v2. destruct F as (I1 & H1 & _). exact (IH _ _ _ S2 I1 H1).
Qed.
End Wave.

Lemma settles_climbs db p w prev h v last here : climbs db p w prev h v (Stopped last here) -> exists b, settles db p w prev h v last b here.
Proof.
  intros C. remember (Stopped last here) as r eqn:E. revert E. induction C as [prev h v N|prev h v h' v' r T F C IH|prev h v T N]; intros E.
  - pose proof (f_equal (fun c => match c with Stopped x _ => x | _ => prev end) E) as E1.
    pose proof (f_equal (fun c => match c with Stopped _ x => x | _ => v end) E) as E2. cbn in E1, E2. subst last here.
    exists h. constructor. exact N.
  - destruct (IH E) as (b & S). exists b. exact (settles_up db p w prev h v h' v' last b here T F S).
  - discriminate E.
Qed.

(** In a complete database no parent is missing. *)
Lemma finest_below db l w h v : db_ok db -> complete db -> In (h, v) db -> holds h w -> 0 <= l <= a_level h ->
  exists h' v', finest db l w h' v' /\ a_level h' = l.
Proof.
  intros O C I H B. remember (Z.to_nat (a_level h - l)) as n eqn:En. revert h v I H B En.
  induction n as [|n IH]; intros h v I H B En.
  - exists h, v. split; [|lia]. split; [exact I|]. split; [exact H|]. split; [lia|]. intros. lia.
  - destruct (C h v I ltac:(lia)) as (h' & v' & I' & L' & C').
    apply (IH h' v' I'); [exact (holds_cover h' h w H C')|lia|lia].
Qed.
Lemma climbs_complete db p w prev h v r : db_ok db -> complete db -> In (h, v) db -> holds h w ->
  climbs db p w prev h v r -> exists last here, r = Stopped last here.
Proof.
  intros O C I H K. induction K as [prev h v N|prev h v h' v' r T F K IH|prev h v T N].
  - eauto.
  - destruct F as (I' & H' & _). exact (IH I' H').
  - exfalso. destruct T as (_ & _ & T). destruct (C h v I T) as (h' & v' & I' & L' & C').
    specialize (N h' v' I' (holds_cover h' h w H C')). lia.
Qed.

(** ** Halving the double *)
Local Notation fexp32 := (SpecFloat.fexp prec32 emax32).
Local Notation rnd32 := (round radix2 fexp32 (round_mode mode_NE)).
#[local] Instance v32' : Valid_exp fexp32 := fexp_correct prec32 emax32 Hp32.
Lemma half_same x : valid32 x -> is_fin x = true -> (Rabs (SF2R radix2 x) < bpow radix2 127)%R -> half_sum x x = x.
Proof.
  intros V F B. destruct x as [s|s| |s m e]; try discriminate F; [destruct s; reflexivity|].
  set (x := S754_finite s m e) in *.
  assert (NZ : SF2R radix2 x <> 0%R).
  { unfold x. cbn. destruct s; cbn; [apply Rlt_not_eq, F2R_lt_0 | apply Rgt_not_eq, F2R_gt_0]; reflexivity. }
  assert (G : generic_format radix2 fexp32 (value x)).
  { destruct (valid_ex prec32 emax32 x V) as [bx Ex]. unfold value. rewrite Ex, SF2R_B2SF. apply generic_format_B2R. }
  assert (G2 : generic_format radix2 fexp32 (value x + value x)).
  { assert (P : Prec_gt_0 24) by reflexivity.
    destruct (FLT_format_generic radix2 (-149) 24 _ G) as [f Hf Hm He].
    apply (generic_format_FLT radix2 (-149) 24). exists (Float radix2 (Fnum f) (Fexp f + 1)).
    - rewrite Hf. unfold F2R. cbn [Fnum Fexp]. rewrite bpow_plus. change (bpow radix2 1) with 2%R. ring.
    - exact Hm.
    - cbn [Fexp]. lia. }
  assert (R1 : rnd32 (value x + value x) = (value x + value x)%R) by (apply round_generic; [typeclasses eauto|exact G2]).
  destruct (half_sum_val x x (conj V F) (conj V F)) as [[Vh Fh] E].
  - rewrite R1. replace (value x + value x)%R with (2 * value x)%R by ring. rewrite Rabs_mult, (Rabs_right 2) by lra.
    change 128 with (1 + 127). rewrite bpow_plus. change (bpow radix2 1) with 2%R. unfold value. lra.
  - symmetry. apply value_unique; try assumption. rewrite R1 in E.
    replace (/ 2 * (value x + value x))%R with (value x) in E by lra.
    rewrite round_generic in E by (try typeclasses eauto; exact G). unfold value in E. symmetry. exact E.
Qed.
Lemma halfway_same v : (forall f, valid32 (get6 f v)) -> below_half_max v -> halfway v v = v.
Proof.
  intros V B. assert (H : forall f, half_sum (get6 f v) (get6 f v) = get6 f v) by (intros f; apply half_same; [apply V|apply B..]).
  unfold halfway. change (p_vp v) with (get6 PVp v). change (p_vs v) with (get6 PVs v). change (p_density v) with (get6 PDensity v).
  change (p_qp v) with (get6 PQp v). change (p_qs v) with (get6 PQs v). change (p_dfs v) with (get6 PDfs v).
  rewrite !H. destruct v. reflexivity.
Qed.

(** ** From the answers of C19 and C20 *)
Lemma fixed_answer_result db l w ans : db_ok db -> fixed_answer db l w ans -> fixed_result db l w ans.
Proof.
  intros O [(h & v & F & E)|(N & ->)].
  - destruct (a_type h) eqn:T.
    + subst ans. left. exists h. split; [exact F|left; exact T].
    + destruct (Z.eqb_spec (a_level h) l) as [Q|Q]; subst ans.
      * left. exists h. split; [exact F|right; exact Q].
      * right. split; [|reflexivity]. intros h' v' [F' D].
        pose proof (f_equal fst (finest_unique db l w h v h' v' O F F')) as E. cbn [fst] in E. subst h'.
        destruct D as [T'|L']; congruence.
  - right. split; [|reflexivity]. intros h v [(I & H & L & _) _]. specialize (N h v I H). lia.
Qed.
Lemma wave_answer_result db p w ans o : db_ok db -> complete db -> wave_answer db p w ans o -> wave_result db p w ans.
Proof.
  intros O C [(h & v & F & [(TC & -> & _)|(NC & [(last & here & K & -> & _)|(x & K & _)])])|(N & -> & _)].
  - right. split; [|reflexivity]. intros last b u (h' & v' & F' & NC & _).
    pose proof (finest_unique db 31 w h v h' v' O F F') as E. pose proof (f_equal fst E) as E1. pose proof (f_equal snd E) as E2.
    cbn [fst snd] in E1, E2. subst h' v'. exact (NC TC).
  - left. destruct (settles_climbs db p w v h v last here K) as (b & S). exists last, b, here. split; [|reflexivity].
    exists h, v. auto.
  - exfalso. destruct F as (I & H & _). destruct (climbs_complete db p w v h v _ O C I H K) as (l1 & h1 & Q). discriminate Q.
  - right. split; [|reflexivity]. intros last b u (h' & v' & (I & H & L & _) & _). specialize (N h' v' I H). lia.
Qed.

(** ** Order *)
Lemma fixed_order db w l1 l2 h1 v1 h2 v2 : db_ok db -> l2 <= l1 -> fixed_octant db l1 w h1 v1 -> fixed_octant db l2 w h2 v2 -> covers h2 h1.
Proof.
  intros O L [(I1 & H1 & L1 & M1) _] [(I2 & H2 & L2 & M2) _].
  apply (cover_holds h2 h1 w); [exact (proj1 O _ _ I2)|exact (proj1 O _ _ I1)| |exact H2|exact H1].
  apply (M1 h2 v2 I2 H2). lia.
Qed.
Lemma fixed_there db w l1 l2 h1 v1 : db_ok db -> complete db -> 0 <= l2 <= l1 -> fixed_octant db l1 w h1 v1 ->
  exists h2 v2, fixed_octant db l2 w h2 v2.
Proof.
  intros O C L [(I1 & H1 & L1 & M1) T]. destruct (Z_le_gt_dec l2 (a_level h1)) as [B|B].
  - destruct (finest_below db l2 w h1 v1 O C I1 H1 ltac:(lia)) as (h2 & v2 & F & E). exists h2, v2. split; [exact F|right; exact E].
  - exists h1, v1. split; [|left; destruct T as [T|T]; [exact T|lia]]. split; [exact I1|]. split; [exact H1|]. split; [lia|].
    intros h' v' I' H' L'. apply (M1 h' v' I' H'). lia.
Qed.
Lemma wave_order db w t t' last b u last' b' u' : db_ok db -> singles db -> finite_double t -> finite_double t' -> (value t <= value t')%R ->
  wave_octant db t w last b u -> wave_octant db t' w last' b' u' -> covers b' b.
Proof.
  intros O S F F' L (h & v & K & _ & Q) (h' & v' & K' & _ & Q').
  pose proof (finest_unique db 31 w h v h' v' O K K') as E. pose proof (f_equal fst E) as E1. pose proof (f_equal snd E) as E2.
  cbn [fst snd] in E1, E2. subst h' v'. destruct K as (I & H & _).
  exact (settles_order db w t t' O S F F' L v h v last b u last' b' u' Q Q' I H).
Qed.

(** ** Negative speeds *)
Lemma negative_not_rock h v t : octant_ok h -> valid32 (p_vs v) -> is_fin (p_vs v) = true -> (value (p_vs v) < 0)%R ->
  finite_double t -> (0 <= value t)%R -> ~ too_fine t h v /\ ~ too_coarse t h v.
Proof.
  intros Oh V F N [Vt Ft] Pt. destruct (widen_repr (p_vs v) (conj V F)) as (V1 & F1 & E1).
  split.
  - intros (H & _). rewrite (flt_R prec64 emax64 f_zero _ eq_refl V1 eq_refl F1) in H.
    destruct (Rlt_bool_spec (SF2R radix2 f_zero) (SF2R radix2 (widen (p_vs v)))) as [P|P]; [|discriminate H].
    rewrite E1 in P. change (SF2R radix2 f_zero) with 0%R in P. lra.
  - intros (_ & H). unfold crossing_time in H. set (e := edge_length (a_level h)) in H.
    assert (Re : finite_double e /\ (0 < value e)%R /\ sign_SF e = false).
    { assert (G : forallb (fun l => let x := edge_length l in valid_binary prec64 emax64 x && match x with S754_finite false _ _ => true | _ => false end)
        (map Z.of_nat (seq 0 32)) = true) by (vm_compute; reflexivity).
      rewrite forallb_forall in G. specialize (G (a_level h)). 
      assert (J : In (a_level h) (map Z.of_nat (seq 0 32))).
      { apply in_map_iff. exists (Z.to_nat (a_level h)). destruct Oh as ((L1 & L2) & _). split; [lia|]. apply in_seq. lia. }
      specialize (G J). cbv zeta in G. fold e in G. apply andb_true_iff in G. destruct G as [G1 G2].
      destruct e as [| | |[|] m x]; try discriminate G2. split; [split; [exact G1|reflexivity]|]. split; [|reflexivity].
      apply F2R_gt_0. reflexivity. }
    destruct Re as ([Ve Fe] & Pe & Se).
    assert (Nz : fval (widen (p_vs v)) <> 0%R) by (rewrite E1; lra).
    pose proof (div_round prec64 emax64 Hp64 Hm64 e (widen (p_vs v)) Ve V1 Fe Nz) as D. cbv zeta in D. rewrite E1 in D. fold (value e) in D.
    assert (Vd : double (div64 e (widen (p_vs v)))) by (apply (div_valid prec64 emax64 Hp64 Hm64); assumption).
    fold (div64 e (widen (p_vs v))) in D.
    destruct (Rlt_bool (Rabs (rnd64 (value e / value (p_vs v)))) (bpow radix2 emax64)).
    + destruct D as [D1 D2]. rewrite (flt_R prec64 emax64 t _ Vt Vd Ft D2) in H. rewrite D1 in H. fold (value t) in H.
      destruct (Rlt_bool_spec (value t) (rnd64 (value e / value (p_vs v)))) as [P|P]; [|discriminate H].
      assert (R0 : (rnd64 (value e / value (p_vs v)) <= 0)%R).
      { apply round_le_generic; [typeclasses eauto..|apply generic_format_0|].
        unfold Rdiv. assert (/ value (p_vs v) < 0)%R by (apply Rinv_lt_0_compat, N). nra. }
      lra.
    + rewrite D in H. assert (Sw : sign_SF (widen (p_vs v)) = true).
      { destruct (widen (p_vs v)) as [s| | |s m x] eqn:W; try discriminate F1.
        - exfalso. apply Nz. reflexivity.
        - destruct s; [reflexivity|]. exfalso. assert (0 < SF2R radix2 (S754_finite false m x))%R by (apply F2R_gt_0; reflexivity). lra. }
      rewrite Sw, Se in H. cbn [xorb] in H. destruct t; try discriminate Ft; discriminate H.
Qed.

(** ** Averages are single precision numbers *)
Lemma fold_valid xs : forall x, valid32 x -> (forall y, In y xs -> valid32 y) -> valid32 (fold_left add32 xs x).
Proof.
  induction xs as [|y xs IH]; intros x Vx H; [exact Vx|]. cbn [fold_left].
  apply IH; [apply add32_valid; [exact Vx|apply H; left; reflexivity]|intros z Hz; apply H; right; exact Hz].
Qed.
Lemma averaged_valid inp b p : (forall a q, In (a, q) inp -> proper_values q) -> averaged inp b p -> forall f, valid32 (get6 f p).
Proof.
  intros V A. induction A as [a p I|b p kids Ob Ab ST EK KA IH [M _]]; intros f; [apply (V a p I)|].
  rewrite M.
  assert (K : forall v, In v (map snd kids) -> valid32 (get6 f v)).
  { intros v Iv. apply in_map_iff in Iv. destruct Iv as ([k v'] & Q & Ik). cbn [snd] in Q. subst v'. exact (IH k v Ik f). }
  assert (KF : forall t y, In y (map (get6 f) (filter t (map snd kids))) -> valid32 y).
  { intros t y Iy. apply in_map_iff in Iy. destruct Iy as (v & <- & Iv). apply filter_In in Iv. apply K, Iv. }
  unfold mean_prop. pose proof (KF solid) as K1. pose proof (KF water) as K2.
  destruct (filter solid (map snd kids)) as [|s0 ss]; [destruct (filter water (map snd kids)) as [|w0 ws]|].
  - apply i2f32_valid.
  - apply div32_valid; [|apply i2f32_valid]. apply fold_valid; [reflexivity|exact K2].
  - apply div32_valid; [|apply i2f32_valid]. cbn [map sum_solid]. apply fold_valid; [apply K1; left; reflexivity|intros y Hy; apply K1; right; exact Hy].
Qed.
