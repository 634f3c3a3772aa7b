(** C85: limiting gradients is stable, monotonic and local. *)
From Coq Require Import ZArith Bool Lia Lra Reals String Ascii Sorting.Sorted List.
From Flocq Require Import Core BinarySingleNaN.
From Verif Require Import Outcome Float FloatFacts Payload Addr SpecOct SpecGeom Geom ErrorHandler VMQuery Store VMCreator SpecStore
  Stream GetOpt QueryApp SpecHist SpecApp SpecText SpecGrid SpecQuery QuerySurface SmallApps SpecSmall SpecPipe PropStore PropSmall PropPipe.
From Verif Require Import VsGrader SpecGrade GradeMach GradeRatio PropGrade SpecExtract SpecGradePipe PropVsRun PropGradePipe PropGradeAgain SpecGradeNear.
From Verif Require GridIngester VsRun.
Import ListNotations.
Open Scope R_scope.

(** ** Paths *)
Lemma line_up f n d : (forall h, (0 <= h < n)%Z -> (0 <= h + 1 < n)%Z -> Rabs (f h - f (h + 1)%Z) <= d) ->
  forall m a, (0 <= a)%Z -> (a + Z.of_nat m < n)%Z -> Rabs (f a - f (a + Z.of_nat m)%Z) <= d * IZR (Z.of_nat m).
Proof.
  intros H. induction m as [|m IH]; intros a A B.
  - replace (a + Z.of_nat 0)%Z with a by lia. replace (f a - f a) with 0 by ring. rewrite Rabs_R0. cbn. lra.
  - specialize (IH a A ltac:(lia)). pose proof (H (a + Z.of_nat m)%Z ltac:(lia) ltac:(lia)) as S.
    replace (a + Z.of_nat (Datatypes.S m))%Z with (a + Z.of_nat m + 1)%Z by lia. rewrite Nat2Z.inj_succ, succ_IZR.
    apply Rabs_le. apply Rabs_le_inv in IH, S. lra.
Qed.
Lemma line f n d : (forall h, (0 <= h < n)%Z -> (0 <= h + 1 < n)%Z -> Rabs (f h - f (h + 1)%Z) <= d) ->
  forall a b, (0 <= a < n)%Z -> (0 <= b < n)%Z -> Rabs (f a - f b) <= d * IZR (Z.abs (a - b)).
Proof.
  intros H a b A B. destruct (Z_le_gt_dec a b) as [C|C].
  - pose proof (line_up f n d H (Z.to_nat (b - a)) a ltac:(lia) ltac:(lia)) as P. rewrite Z2Nat.id in P by lia.
    replace (a + (b - a))%Z with b in P by lia. replace (Z.abs (a - b)) with (b - a)%Z by lia. exact P.
  - pose proof (line_up f n d H (Z.to_nat (a - b)) b ltac:(lia) ltac:(lia)) as P. rewrite Z2Nat.id in P by lia.
    replace (b + (a - b))%Z with a in P by lia. replace (Z.abs (a - b)) with (a - b)%Z by lia. rewrite Rabs_minus_sym. exact P.
Qed.
Lemma limited_reach nl nw nh dv dh b l w h l' w' h' : limited3 nl nw nh dv dh b -> in_grid nl nw nh l w h -> in_grid nl nw nh l' w' h' ->
  Rabs (b l w h - b l' w' h') <= reach dv dh l w h l' w' h'.
Proof.
  intros (V & Le & Wi) (I1 & I2 & I3) (J1 & J2 & J3). unfold reach. rewrite plus_IZR.
  pose proof (line (fun k => b l w k) nh dv (fun k X Y => V l w k (conj I1 (conj I2 X)) (conj I1 (conj I2 Y))) h h' I3 J3) as P1.
  pose proof (line (fun j => b l j h') nw dh (fun j X Y => Wi l j h' (conj I1 (conj X J3)) (conj I1 (conj Y J3))) w w' I2 J2) as P2.
  pose proof (line (fun i => b i w' h') nl dh (fun i X Y => Le i w' h' (conj X (conj J2 J3)) (conj Y (conj J2 J3))) l l' I1 J1) as P3.
  cbn beta in P1, P2, P3. apply Rabs_le. apply Rabs_le_inv in P1, P2, P3. lra.
Qed.
(** What falls off from one point with the largest slopes respects the limits. *)
Lemma cone_limited nl nw nh dv dh c l w h : 0 <= dv -> 0 <= dh -> limited3 nl nw nh dv dh (fun l' w' h' => c - reach dv dh l w h l' w' h').
Proof.
  intros Hv Hh.
  assert (Z1 : forall x y, Rabs (IZR (Z.abs (x - (y + 1))) - IZR (Z.abs (x - y))) <= 1).
  { intros x y. rewrite <- minus_IZR, <- abs_IZR. apply IZR_le. lia. }
  assert (D : forall d x y, 0 <= d -> Rabs (d * (IZR (Z.abs (x - (y + 1))) - IZR (Z.abs (x - y)))) <= d).
  { intros d x y Hd. rewrite Rabs_mult, (Rabs_pos_eq d) by exact Hd. specialize (Z1 x y). rewrite <- (Rmult_1_r d) at 2. apply Rmult_le_compat_l; assumption. }
  split; [|split]; intros l' w' h' _ _; unfold reach; rewrite !plus_IZR.
  - specialize (D dv h h' Hv). eapply Rle_trans; [|exact D]. right. f_equal. ring.
  - specialize (D dh l l' Hh). eapply Rle_trans; [|exact D]. right. f_equal. ring.
  - specialize (D dh w w' Hh). eapply Rle_trans; [|exact D]. right. f_equal. ring.
Qed.
Lemma reach_self dv dh l w h : reach dv dh l w h l w h = 0.
Proof. unfold reach. rewrite !Z.sub_diag. cbn. ring. Qed.

(** Limited speeds at a point depend on what is within reach only, and no more than it
    changes. *)
Lemma largest_near nl nw nh dv dh M e v v' b b' l w h : 0 <= dv -> 0 <= dh -> 0 <= e ->
  largest_limited3 nl nw nh dv dh v b -> largest_limited3 nl nw nh dv dh v' b' ->
  (forall i j k, in_grid nl nw nh i j k -> v i j k <= M /\ 0 <= v' i j k) -> in_grid nl nw nh l w h ->
  (forall i j k, in_grid nl nw nh i j k -> reach dv dh l w h i j k < M -> v i j k <= v' i j k + e) ->
  b l w h <= b' l w h + e.
Proof.
  intros Hv Hh He (L1 & L2 & _) (_ & _ & Mx) B I H.
  assert (Low : below3 nl nw nh (fun i j k => (b l w h - e) - reach dv dh l w h i j k) b').
  { apply Mx; [apply cone_limited; assumption|]. intros i j k J. destruct (B i j k J) as [_ B2].
    destruct (Rlt_le_dec (reach dv dh l w h i j k) M) as [N|N].
    - specialize (H i j k J N). pose proof (limited_reach _ _ _ _ _ b l w h i j k L1 I J) as R. apply Rabs_le_inv in R. specialize (L2 i j k J). lra.
    - specialize (L2 l w h I). destruct (B l w h I) as [B1 _]. lra. }
  specialize (Low l w h I). cbn beta in Low. rewrite reach_self in Low. lra.
Qed.

(** ** C85 *)
(** Two models of the same grid are limited.  If near a point, as far as the limits can
    reach, the first model is nowhere faster than the second one by more than [e], then the
    same holds of the limited models at this point, up to twice the tolerance of C42. *)
Theorem C85_near : forall DB (G : gstore DB payload) rec L g msg nl nw nh cell db v db' v' M,
  let dv := mul64 (gp_gradient g) (gp_res g) in
  let dh := mul64 (gp_gradient g) (mul64 (gp_res g) VERTEXAG) in
  let tol := 2 * IZR (nl + nw + nh) * slack M in
  count (gp_len g) (mul64 (gp_res g) VERTEXAG) = Val nl -> count (gp_width g) (mul64 (gp_res g) VERTEXAG) = Val nw ->
  count (gp_ht g) (gp_res g) = Val nh -> (0 <= nl)%Z -> (0 <= nw)%Z -> (0 <= nh)%Z -> 0 <= M ->
  finite_double dv -> 0 <= value dv -> finite_double dh -> 0 <= value dh ->
  stores G rec -> records_ok (rec db) -> records_ok (rec db') ->
  grid_points (indexToLonLat L g) (gridAddr L g) nl nw nh cell -> holds_grid (rec db) nl nw nh cell v -> holds_grid (rec db') nl nw nh cell v' ->
  (forall i j k, in_grid nl nw nh i j k -> speed_upto M (v i j k) /\ speed_upto M (v' i j k)) ->
  exists out after out' after', grade L g G true msg db = Val out /\ holds_grid (rec out) nl nw nh cell after /\
    grade L g G true msg db' = Val out' /\ holds_grid (rec out') nl nw nh cell after' /\
    forall l w h e, in_grid nl nw nh l w h -> 0 <= e ->
      (forall i j k, in_grid nl nw nh i j k -> reach (value dv) (value dh) l w h i j k < M ->
         value (p_vs (v i j k)) <= value (p_vs (v' i j k)) + e) ->
      value (p_vs (after l w h)) <= value (p_vs (after' l w h)) + e + 2 * tol.
Proof.
  intros DB G rec L g msg nl nw nh cell db v db' v' M dv dh tol C1 C2 C3 Nl Nw Nh HM Fv Hv Fh Hh HS Ok Ok' GP HG HG' Sp.
  destruct (C42_program DB G rec L g msg nl nw nh cell db v M C1 C2 C3 Nl Nw Nh HM Fv Hv Fh Hh HS Ok GP HG (fun i j k I => proj1 (Sp i j k I)))
    as (o & a & R1 & _ & H1 & _ & _ & (b & B & D) & _).
  destruct (C42_program DB G rec L g msg nl nw nh cell db' v' M C1 C2 C3 Nl Nw Nh HM Fv Hv Fh Hh HS Ok' GP HG' (fun i j k I => proj2 (Sp i j k I)))
    as (o' & a' & R2 & _ & H2 & _ & _ & (b' & B' & D') & _).
  fold tol in D, D'. fold dv in B, B'. fold dh in B, B'.
  exists o, a, o', a'. split; [exact R1|]. split; [exact H1|]. split; [exact R2|]. split; [exact H2|].
  intros l w h e I He N.
  pose proof (largest_near nl nw nh (value dv) (value dh) M e _ _ b b' l w h Hv Hh He B B'
    (fun i j k J => conj (proj2 (proj2 (proj1 (Sp i j k J)))) (proj1 (proj2 (proj2 (Sp i j k J))))) I N) as Q.
  specialize (D l w h I). specialize (D' l w h I). apply Rabs_le_inv in D, D'. lra.
Qed.
Print Assumptions C85_near.

(** ** The whole program *)
(** Raising to the smallest speed does not drive answers apart. *)
Lemma prepared_above e m a a' : 0 <= e -> least_speed m -> above_by e a a' ->
  value (p_vs (prepared m a)) <= value (p_vs (prepared m a')) + e.
Proof.
  intros He Hm [[N N']|(F & P & F' & P' & D)].
  - unfold prepared. rewrite N, N'. lra.
  - pose proof (prepared_number (value (p_vs a)) m a Hm (conj F (conj P (Rle_refl _)))) as X.
    assert (S' : speed_upto (Rmax (value (p_vs a')) (value (narrow m))) a') by (split; [exact F'|]; split; [exact P' | apply Rmax_l]).
    pose proof (prepared_number _ m a' Hm S') as X'.
    assert (Y' : value (narrow m) <= value (p_vs (prepared m a'))).
    { apply (prepared_least (Rmax (value (p_vs a')) (value (narrow m))) m a' Hm). destruct X' as [->|[E _]]; [exact S'|].
      destruct (least_narrow m Hm) as (Q1 & _ & Q2). unfold speed_upto. rewrite E. split; [exact Q1|]. split; [apply Q2 | apply Rmax_r]. }
    destruct X as [->|[-> _]]; [|lra]. destruct X' as [->|[-> G]]; lra.
Qed.

(** C85, program.  The same command is given for two versions of the input file. *)
Theorem C85_runs : forall DB (EQ : env DB) DB' (EQ' : env DB') E F T L files opens G args k1 fp fin ft fo fs d fs' d' v x y inp inp' r nl nw nh cell dv dh M,
  storage_works E -> (forall d1 n, opens d1 n = true) -> stores G (fun l => l) ->
  command grade_letters args k1 -> named "p" k1 fp -> named "i" k1 fin -> named "o" k1 fo -> named "t" k1 ft -> ft <> fo ->
  VsRun.readParams F files (limiter fp fin fo ft (given_as (t_atoi T) "c" k1 128%Z)) = Val v ->
  m_project L (gp_lon (VsRun.vg_g v)) (gp_lat (VsRun.vg_g v)) = Some (x, y) ->
  let g := VsRun.set_xy (VsRun.vg_g v) x y in
  let tol := 2 * IZR (nl + nw + nh) * slack M in
  grid_settings EQ L v g inp r nl nw nh cell M -> grid_settings EQ' L v g inp' r nl nw nh cell M -> limits g dv dh -> least_speed (gp_minVs g) ->
  exists d1 f1 after d2 f2 after',
    gradeMain EQ E F T L files opens G args fs d = (d1, Val (0%Z, [])) /\ d1 fo = Some f1 /\ exactly_grid (d_recs f1) nl nw nh cell after /\
    gradeMain EQ' E F T L files opens G args fs' d' = (d2, Val (0%Z, [])) /\ d2 fo = Some f2 /\ exactly_grid (d_recs f2) nl nw nh cell after' /\
    forall l w h e, in_grid nl nw nh l w h -> 0 <= e ->
      (forall i j k p ans o ans' o', in_grid nl nw nh i j k -> reach (value dv) (value dh) l w h i j k < M -> point_place L g i j k p ->
         answer r inp p ans o -> answer r inp' p ans' o' -> above_by e ans ans') ->
      value (p_vs (after l w h)) <= value (p_vs (after' l w h)) + e + 2 * tol.
Proof.
  intros DB EQ DB' EQ' E F T L files opens G args k1 fp fin ft fo fs d fs' d' v x y inp inp' r nl nw nh cell dv dh M
    SW HOp HSt K N1 N2 N3 N4 Hn RP PJ g tol GS GS' LM Hmin.
  assert (RUN : forall DB (EQ : env DB) inp fs d, grid_settings EQ L v g inp r nl nw nh cell M ->
    exists d1 f1 before after b, gradeMain EQ E F T L files opens G args fs d = (d1, Val (0%Z, [])) /\ d1 fo = Some f1 /\ exactly_grid (d_recs f1) nl nw nh cell after /\
      (forall i j k, in_grid nl nw nh i j k -> exists p ans o, point_place L g i j k p /\ answer r inp p ans o /\ before i j k = prepared (gp_minVs g) ans /\
         speed_upto M (before i j k)) /\
      largest_limited3 nl nw nh (value dv) (value dh) (fun i j k => value (p_vs (before i j k))) b /\
      forall i j k, in_grid nl nw nh i j k -> Rabs (value (p_vs (after i j k)) - b i j k) <= tol).
  { clear DB EQ DB' EQ' inp inp' fs d fs' d' GS GS'. intros DB EQ inp fs d GS.
    destruct SW as (S1 & S2 & S3 & S4 & S5 & S6 & S7 & S8).
    destruct GS as (A1 & (dq & A2 & A3) & A4 & A5 & A6 & C1 & C2 & C3 & (P1 & P2 & P3) & GP & LV & HD & SP & HM). destruct LM as (-> & -> & Fv & Hv & Fh & Hh).
    pose proof (readParams_names _ _ _ _ RP) as Nm. unfold names in Nm. pose proof (f_equal (fun q => snd (fst (fst q))) Nm) as Eo. pose proof (f_equal (fun q => snd (fst q)) Nm) as Et.
    cbn [fst snd VsRun.vg_out VsRun.vg_tmp limiter] in Eo, Et.
    destruct (C56_run DB EQ E F files L opens G _ v x y dq inp r fs d nl nw nh cell M RP PJ A1 A2 A3 A4 A5 A6 C1 C2 C3 P1 P2 P3 GP HD SP HM Fv Hv Fh Hh)
      as (d1 & recs & before & after & R & O & X & _ & B & _ & (b & Lb & Q2) & _ & _ & _ & _); try assumption.
    { rewrite Eo, Et. exact Hn. } { intros d0. split; [apply S4|]. split; [apply S4 | apply S5]. } { apply S6. } { apply S8. } { apply S7. } { apply S7. } { intros d0. apply HOp. }
    rewrite Eo in O. fold g in B, Lb. fold tol in Q2. eexists d1, _, before, after, b.
    split; [|split; [exact O|]; split; [exact X|]; split; [|split; [exact Lb | exact Q2]]].
    - pose proof (proj1 (C57_grade DB EQ E F T L files opens G args fs d) k1 fp fin fo ft K N1 N2 N3 N4) as Y. rewrite R in Y. cbn [fst snd] in Y.
      destruct Y as [Y1 Y2]. destruct (gradeMain EQ E F T L files opens G args fs d) as [d1' o]. cbn [fst snd] in *. subst d1'. inversion Y2; subst. reflexivity.
    - intros i j k I. destruct (B i j k I) as (p & ans & o & W1 & _ & W3 & W4). exists p, ans, o. split; [exact W1|]. split; [exact W3|]. split; [exact W4|].
      rewrite W4. exact (SP i j k p ans o I W1 W3). }
  destruct (RUN DB EQ inp fs d GS) as (d1 & f1 & before & after & b & X1 & X2 & X3 & X4 & X5 & X6).
  destruct (RUN DB' EQ' inp' fs' d' GS') as (d2 & f2 & before' & after' & b' & Y1 & Y2 & Y3 & Y4 & Y5 & Y6).
  exists d1, f1, after, d2, f2, after'. split; [exact X1|]. split; [exact X2|]. split; [exact X3|]. split; [exact Y1|]. split; [exact Y2|]. split; [exact Y3|].
  intros l w h e I He N. destruct LM as (_ & _ & _ & Hv & _ & Hh).
  assert (Q : b l w h <= b' l w h + e).
  { apply (largest_near nl nw nh (value dv) (value dh) M e _ _ b b' l w h Hv Hh He X5 Y5); [|exact I|].
    - intros i j k J. destruct (X4 i j k J) as (_ & _ & _ & _ & _ & _ & [_ U]). destruct (Y4 i j k J) as (_ & _ & _ & _ & _ & _ & [_ U']). lra.
    - intros i j k J Rc. destruct (X4 i j k J) as (p & ans & o & W1 & W2 & -> & _). destruct (Y4 i j k J) as (p' & ans' & o' & W1' & W2' & -> & _).
      rewrite (place_unique _ _ _ _ _ _ _ W1' W1) in W2'. apply (prepared_above e _ _ _ He Hmin). exact (N i j k p ans o ans' o' J Rc W1 W2 W2'). }
  specialize (X6 l w h I). specialize (Y6 l w h I). apply Rabs_le_inv in X6, Y6. lra.
Qed.
Print Assumptions C85_runs.

(** ** Example: two models of 2 by 3 by 2 points that differ in one corner, by 2300 m/s *)
From Verif Require Import ToyDb ToyLib ToyGrade PropGradeFixed.
Local Open Scope R_scope.
Definition corner_speed (c l w h : Z) : Z := (if (l =? 1) && (w =? 2) && (h =? 1) then c else 500 + 100 * l + 900 * w)%Z.
Definition corner_values (c l w h : Z) : payload :=
  mkPayload (i2f32 (2 * corner_speed c l w h)) (i2f32 (corner_speed c l w h)) (i2f32 2500) (i2f32 200) (i2f32 100) (i2f32 0) 1 2.
Definition corner_records (c : Z) : records payload :=
  map (fun p => let '(l, w, h) := p in (toy_cell l w h, corner_values c l w h)) points.
Lemma corner_ok c : records_ok (corner_records c).
Proof.
  split.
  - intros h p I. apply in_map_iff in I. destruct I as ([[l w] k] & E & I). apply (f_equal fst) in E. cbn [fst] in E. subst h. apply toy_points.
    apply in_prod_iff in I. destruct I as [I K]. apply in_prod_iff in I. destruct I as [I J]. vm_compute in I, J, K. unfold in_grid. lia.
  - intros h p h' p' I I' S. apply in_map_iff in I, I'. destruct I as ([[l w] k] & E & _), I' as ([[l' w'] k'] & E' & _).
    rewrite <- E, <- E' in *. pose proof (f_equal fst E) as Eh. pose proof (f_equal fst E') as Eh'. cbn [fst] in Eh, Eh'. subst h h'.
    destruct S as (X & Y & Z & _). cbn [toy_cell a_x a_y a_z] in X, Y, Z.
    assert (Q : l = l' /\ w = w' /\ k = k') by lia. destruct Q as (-> & -> & ->). reflexivity.
Qed.
Lemma corner_holds c : holds_grid (corner_records c) 2 3 2 toy_cell (corner_values c).
Proof.
  intros l w h B. exists (toy_cell l w h). split; [repeat split; reflexivity|]. apply in_map_iff. exists (l, w, h).
  split; [reflexivity | apply points_in, B].
Qed.
Lemma corner_value c l w h : c = 100%Z \/ c = 2400%Z -> in_grid 2 3 2 l w h ->
  finite_float (p_vs (corner_values c l w h)) /\ value (p_vs (corner_values c l w h)) = IZR (corner_speed c l w h).
Proof.
  intros H (A & B & C). assert (Ci : (l = 0 \/ l = 1)%Z) by lia. assert (Cj : (w = 0 \/ w = 1 \/ w = 2)%Z) by lia. assert (Ck : (h = 0 \/ h = 1)%Z) by lia.
  destruct H as [->| ->], Ci as [->| ->], Cj as [->|[->| ->]], Ck as [->| ->]; (split; [split; vm_compute; reflexivity|]);
    match goal with |- value ?x = IZR ?z => let y := eval vm_compute in x in replace x with y by (vm_compute; reflexivity); let n := eval vm_compute in z in change z with n end;
    unfold value, SF2R, F2R; cbn; lra.
Qed.
Lemma corner_upto c l w h : c = 100%Z \/ c = 2400%Z -> in_grid 2 3 2 l w h -> speed_upto 2400 (corner_values c l w h).
Proof.
  intros H I. destruct (corner_value c l w h H I) as [F V]. split; [exact F|]. rewrite V. destruct I as (A & B & C).
  split; apply IZR_le; unfold corner_speed; destruct (_ && _); lia.
Qed.
(** The change is noticed everywhere by at most 2300 m/s, and at the opposite corner not at
    all, up to rounding. *)
Example C85_example : exists o1 v1 o2 v2,
  grade toy2 toy_grid lstore true ""%string (corner_records 2400) = Val o1 /\ holds_grid o1 2 3 2 toy_cell v1 /\
  grade toy2 toy_grid lstore true ""%string (corner_records 100) = Val o2 /\ holds_grid o2 2 3 2 toy_cell v2 /\
  (forall l w h, in_grid 2 3 2 l w h -> value (p_vs (v1 l w h)) <= value (p_vs (v2 l w h)) + 2300 + 2 * (2 * 7 * slack 2400)) /\
  value (p_vs (v1 0 0 0)%Z) <= value (p_vs (v2 0 0 0)%Z) + 0 + 2 * (2 * 7 * slack 2400).
Proof.
  destruct limit_values as (E1 & E2 & _).
  destruct (C85_near _ lstore (fun l => l) toy2 toy_grid ""%string 2 3 2 toy_cell (corner_records 2400) (corner_values 2400) (corner_records 100) (corner_values 100) 2400)
    as (o1 & v1 & o2 & v2 & X1 & X2 & X3 & X4 & X5).
  - apply toy_counts.
  - apply toy_counts.
  - apply toy_counts.
  - lia.
  - lia.
  - lia.
  - lra.
  - split; vm_compute; reflexivity.
  - rewrite E1. lra.
  - split; vm_compute; reflexivity.
  - rewrite E2. lra.
  - exact lstore_ok.
  - apply corner_ok.
  - apply corner_ok.
  - exact toy_points.
  - apply corner_holds.
  - apply corner_holds.
  - intros i j k I. split; apply corner_upto; auto.
  - rewrite E1, E2 in X5. cbn [Z.add Pos.add Pos.succ] in X5. exists o1, v1, o2, v2. split; [exact X1|]. split; [exact X2|]. split; [exact X3|]. split; [exact X4|]. split.
    + intros l w h I. apply X5; [exact I | lra|]. intros i j k J _. rewrite (proj2 (corner_value 2400 _ _ _ ltac:(auto) J)), (proj2 (corner_value 100 _ _ _ ltac:(auto) J)), <- plus_IZR. apply IZR_le.
      unfold corner_speed. destruct (_ && _); lia.
    + apply X5; [unfold in_grid; lia | lra|]. intros i j k J N. rewrite (proj2 (corner_value 2400 _ _ _ ltac:(auto) J)), (proj2 (corner_value 100 _ _ _ ltac:(auto) J)), <- plus_IZR. apply IZR_le.
      unfold corner_speed. destruct ((i =? 1) && (j =? 2) && (k =? 1))%Z eqn:Q; [exfalso|lia].
      apply andb_true_iff in Q. destruct Q as [Q Q3%Z.eqb_eq]. apply andb_true_iff in Q. destruct Q as [Q1%Z.eqb_eq Q2%Z.eqb_eq]. subst.
      unfold reach in N. cbn in N. lra.
Qed.
(** The limited speeds at four points in the two models. *)
Example C85_example_values :
  let speeds c := match grade toy2 toy_grid lstore true ""%string (corner_records c) with
    | Val db => map (fun p => let '(l, w, h) := p in option_map p_vs (gs_search lstore db (toy_cell l w h))) [(0, 0, 0); (1, 0, 1); (1, 1, 1); (1, 2, 1)]%Z | _ => [] end in
  speeds 2400%Z = map (fun z => Some (i2f32 z)) [500; 600; 1400; 2200]%Z /\ speeds 100%Z = map (fun z => Some (i2f32 z)) [500; 600; 900; 100]%Z.
Proof. split; vm_compute; reflexivity. Qed.

(** ** The same two models as input files of the program *)
From Verif Require Import ToyGrid PropApp PropParams QueryMain PropQuery.
Local Open Scope Z_scope.
Lemma corner_storable c : c = 100 \/ c = 2400 -> forall a p, In (a, p) (corner_records c) -> storable p.
Proof.
  intros H a p I. apply in_map_iff in I. destruct I as ([[l w] h] & E & I). apply (f_equal snd) in E. cbn [snd] in E. subst p.
  apply in_prod_iff in I. destruct I as [I K]. apply in_prod_iff in I. destruct I as [I J]. vm_compute in I, J, K.
  split; [|split; cbn; lia].
  destruct H as [->| ->], I as [<-|[<-|[]]], J as [<-|[<-|[<-|[]]]], K as [<-|[<-|[]]]; repeat constructor.
Qed.
Lemma corner_answer c i j k w ans o : c = 100 \/ c = 2400 -> in_grid 2 3 2 i j k -> point_place toy2 run_placed i j k w ->
  answer Finest (corner_records c) w ans o -> ans = corner_values c i j k.
Proof.
  intros Hc I PP A. destruct (copy_facts (corner_records c) (corner_ok c) (corner_storable c Hc)) as (vs & _ & X).
  destruct (X i j k I) as (w' & _ & _ & W1 & W2 & _). rewrite (place_unique _ _ _ _ _ _ _ W1 PP) in W2. clear X.
  assert (B : answer Finest (corner_records c) w (corner_values c i j k) None).
  { split; [|reflexivity]. left. exists (toy_cell i j k), (corner_values c i j k). split; [|reflexivity].
    split; [apply in_map_iff; exists (i, j, k); split; [reflexivity | apply points_in, I]|]. split; [exact W2|]. split; [cbn; lia|].
    intros h' v' J _ _. apply in_map_iff in J. destruct J as ([[l' w''] k'] & E & _). apply (f_equal fst) in E. cbn [fst] in E. subst h'. cbn. lia. }
  exact (proj1 (answer_unique _ _ _ _ _ _ _ (corner_ok c) A B)).
Qed.
Lemma corner_prepared c i j k : c = 100 \/ c = 2400 -> in_grid 2 3 2 i j k -> prepared (gp_minVs run_placed) (corner_values c i j k) = corner_values c i j k.
Proof.
  intros H (A & B & C). assert (Ci : i = 0 \/ i = 1) by lia. assert (Cj : j = 0 \/ j = 1 \/ j = 2) by lia. assert (Ck : k = 0 \/ k = 1) by lia.
  destruct H as [->| ->], Ci as [->| ->], Cj as [->|[->| ->]], Ck as [->| ->]; vm_compute; reflexivity.
Qed.
Lemma corner_settings c : c = 100 \/ c = 2400 ->
  grid_settings (source (corner_records c)) toy2 run_read run_placed (corner_records c) Finest 2 3 2 toy_cell 2400%R.
Proof.
  intros H. destruct full_settings as (E1 & _ & _ & _ & E5 & E6 & E7 & E8 & E9 & E10 & E11 & E12 & _).
  split; [exact E1|]. split; [exists (corner_records c); split; [reflexivity | apply lsearch_ok]|]. split; [apply corner_ok|]. split; [exact (corner_storable c H)|].
  split; [exact E5|]. split; [exact E6|]. split; [exact E7|]. split; [exact E8|]. split; [exact E9|]. split; [exact E10|]. split; [exact E11|]. split; [exact E12|].
  split; [|lra]. intros i j k w ans o I PP A. rewrite (corner_answer c i j k w ans o H I PP A), (corner_prepared c i j k H I). apply corner_upto; assumption.
Qed.
Definition corner_run (c : Z) : disk * outcome (Z * list said) :=
  gradeMain (source (corner_records c)) toy_etree toy_fmt app_texts toy2 (sample_file grade_text) (fun _ _ => true) lstore limit_args PropQuery.no_files (fun _ => None).
Example C85_runs_example : exists d1 f1 v1 d2 f2 v2,
  corner_run 2400 = (d1, Val (0, [])) /\ d1 "out.etree"%string = Some f1 /\ exactly_grid (d_recs f1) 2 3 2 toy_cell v1 /\
  corner_run 100 = (d2, Val (0, [])) /\ d2 "out.etree"%string = Some f2 /\ exactly_grid (d_recs f2) 2 3 2 toy_cell v2 /\
  forall l w h, in_grid 2 3 2 l w h -> (value (p_vs (v1 l w h)) <= value (p_vs (v2 l w h)) + 2300 + 2 * (2 * 7 * slack 2400))%R.
Proof.
  destruct (C85_runs contents (source (corner_records 2400)) contents (source (corner_records 100)) toy_etree toy_fmt app_texts toy2 (sample_file grade_text) (fun _ _ => true) lstore
    limit_args limit_named "grade.par" "in.etree" "tmp.etree" "out.etree" PropQuery.no_files (fun _ => None) PropQuery.no_files (fun _ => None) run_read (gp_lon run_grid) (gp_lat run_grid)
    (corner_records 2400) (corner_records 100) Finest 2 3 2 toy_cell
    (mul64 (gp_gradient run_placed) (gp_res run_placed)) (mul64 (gp_gradient run_placed) (resHoriz run_placed)) 2400%R)
    as (d1 & f1 & v1 & d2 & f2 & v2 & X1 & X2 & X3 & X4 & X5 & X6 & X7).
  - exact toy_storage.
  - reflexivity.
  - exact lstore_ok.
  - apply (C57_separate_words grade_letters limit_named). repeat constructor; cbn; tauto.
  - split; [reflexivity | discriminate].
  - split; [reflexivity | discriminate].
  - split; [reflexivity | discriminate].
  - split; [reflexivity | discriminate].
  - discriminate.
  - vm_compute. reflexivity.
  - vm_compute. reflexivity.
  - apply corner_settings. auto.
  - apply corner_settings. auto.
  - exact full_limits.
  - exact run_least.
  - exists d1, f1, v1, d2, f2, v2. split; [exact X1|]. split; [exact X2|]. split; [exact X3|]. split; [exact X4|]. split; [exact X5|]. split; [exact X6|].
    clear X1 X2 X4 X5. intros l w h I. apply X7; [exact I | lra|]. intros i j k p ans o ans' o' J _ PP A A'.
    rewrite (corner_answer 2400 i j k p ans o ltac:(auto) J PP A), (corner_answer 100 i j k p ans' o' ltac:(auto) J PP A'). right.
    destruct (corner_value 2400 i j k ltac:(auto) J) as [F V]. destruct (corner_value 100 i j k ltac:(auto) J) as [F' V'].
    rewrite V, V'. split; [exact F|]. split; [apply IZR_le; destruct J; unfold corner_speed; destruct (_ && _); lia|]. split; [exact F'|].
    split; [apply IZR_le; destruct J; unfold corner_speed; destruct (_ && _); lia|]. rewrite <- plus_IZR. apply IZR_le. unfold corner_speed. destruct (_ && _); lia.
Qed.
