(** C83: limiting gradients leaves alone what respects the limits. *)
From Coq Require Import ZArith Bool Reals Lra Lia List String.
From Flocq Require Import Core BinarySingleNaN.
From Verif Require Import Outcome Float Payload Addr SpecOct SpecGeom Geom FloatFacts GeomFacts QuerySurface VsGrader SpecGrade
  GradeFacts GradeGrid GradeFloat GradeMach GradeMain PropGrade.
Import ListNotations.
Open Scope R_scope.

Local Notation fexp32 := (SpecFloat.fexp prec32 emax32).
Local Notation fexp64 := (SpecFloat.fexp prec64 emax64).
Local Notation rnd32 := (round radix2 fexp32 (round_mode mode_NE)).
Local Notation rnd64 := (round radix2 fexp64 (round_mode mode_NE)).
#[local] Instance v32 : Valid_exp fexp32 := fexp_correct prec32 emax32 Hp32.
#[local] Instance v64 : Valid_exp fexp64 := fexp_correct prec64 emax64 Hp64.
#[local] Instance vr : Valid_rnd (round_mode mode_NE) := valid_rnd_N _.

Local Notation speed p := (value (p_vs p)).

(** ** One step *)
(** A difference up to the limit: the speed stays. *)
Lemma step_same M d n q : good M n -> good M q -> finite_double d -> 0 <= value d -> speed q - speed n <= value d ->
  good M (fst (limit1 machine d n q)) /\ speed (fst (limit1 machine d n q)) = speed q.
Proof.
  intros Gn Gq Fd Hd H. destruct (step_good M d n q Gn Gq Fd Hd) as (G1 & (Hle & _) & C). split; [exact G1|].
  destruct (snd (limit1 machine d n q)) eqn:S.
  - destruct (C eq_refl) as [E _]. apply Rle_antisym; [apply Hle|]. rewrite E.
    assert (F32 : generic_format radix2 fexp32 (speed q)) by (apply (val_format prec32 emax32); apply Gq).
    assert (F64 : generic_format radix2 fexp64 (speed q)).
    { destruct (widen_repr _ (proj1 Gq)) as (V & _ & W). rewrite <- W. apply (val_format prec64 emax64), V. }
    apply round_ge_generic; [typeclasses eauto.. | exact F32|]. apply round_ge_generic; [typeclasses eauto.. | exact F64 | lra].
  - clear C. unfold limit1 in *. destruct (ar_gt machine _ d); [discriminate S | reflexivity].
Qed.
(** A difference up to a single precision number that is at most the limit: no change at all. *)
Lemma step_none M d x n q : good M n -> good M q -> finite_double d -> 0 <= value d -> finite_float x -> value x <= value d ->
  speed q - speed n <= value x -> limit1 machine d n q = (q, false).
Proof.
  intros Gn Gq Fd Hd [Vx Fx] Hx H. destruct (step_good M d n q Gn Gq Fd Hd) as (_ & _ & C).
  destruct (snd (limit1 machine d n q)) eqn:S.
  - exfalso. destruct (C eq_refl) as [_ Lt].
    assert (K : rnd32 (speed q - speed n) <= value x).
    { apply round_le_generic; [typeclasses eauto.. | apply (val_format prec32 emax32 x Vx) | exact H]. }
    lra.
  - clear C. unfold limit1 in *. destruct (ar_gt machine _ d); [discriminate S | reflexivity].
Qed.

(** ** Profiles *)
Section Profile.
Variables (M : R) (d : f64).
Hypothesis Fd : finite_double d.
Hypothesis Hd : 0 <= value d.
Lemma forward_same : forall l n, good M n -> Forall (good M) l -> ups (value d) (speed n) (map (fun p => speed p) l) ->
  Forall (fun r => good M (fst r)) (forward machine d n l) /\ map (fun r => speed (fst r)) (forward machine d n l) = map (fun p => speed p) l.
Proof.
  assert (U : forall l a b, a = b -> ups (value d) a l -> ups (value d) b l) by (intros; subst; assumption).
  induction l as [|q l IH]; intros n Gn F Hu; [split; [constructor | reflexivity]|]. inversion F as [|? ? Gq F']; subst. destruct Hu as [U1 U2].
  cbn [forward]. destruct (step_same M d n q Gn Gq Fd Hd U1) as [G1 E1]. destruct (limit1 machine d n q) as [q' c]. cbn [fst] in *.
  destruct (IH q' G1 F') as [F2 E2]; [exact (U _ _ _ (eq_sym E1) U2)|]. split; [constructor; assumption|]. cbn [map fst]. rewrite E1, E2. reflexivity.
Qed.
Lemma backward_same : forall l q c, Forall (fun r => good M (fst r)) ((q, c) :: l) -> downs (value d) (speed q) (map (fun r => speed (fst r)) l) ->
  exists q' c' l', backward machine d ((q, c) :: l) = (q', c') :: l' /\ good M q' /\ speed q' = speed q /\
    map (fun r => speed (fst r)) l' = map (fun r => speed (fst r)) l.
Proof.
  induction l as [|[n b] l IH]; intros q c F Hu.
  - exists q, c, []. inversion F; subst. auto.
  - inversion F as [|? ? Gq F']; subst. destruct Hu as [U1 U2]. destruct (IH n b F' U2) as (n' & b' & l' & E & Gn & En & El).
    change (backward machine d ((q, c) :: (n, b) :: l)) with
      (match backward machine d ((n, b) :: l) with
       | [] => [(q, c)]
       | (n0, _) :: _ => let '(q', c') := limit1 machine d n0 q in (q', c || c') :: backward machine d ((n, b) :: l)
       end).
    rewrite E. cbn [fst] in *. assert (U : speed q - speed n' <= value d) by (rewrite En; exact U1).
    destruct (step_same M d n' q Gn Gq Fd Hd U) as [G1 E1]. destruct (limit1 machine d n' q) as [q' c']. cbn [fst] in *.
    exists q', (c || c'), ((n', b') :: l'). split; [reflexivity|]. split; [exact G1|]. split; [exact E1|]. cbn [map fst]. rewrite En, El. reflexivity.
Qed.
Lemma limitDiff_same l : Forall (good M) l -> limited (value d) (map (fun p => speed p) l) ->
  map (fun r => speed (fst r)) (limitDiff machine d l) = map (fun p => speed p) l.
Proof.
  destruct l as [|q l]; [reflexivity|]. intros F L. inversion F as [|? ? Gq F']; subst. cbn [map] in L. apply limited_cons in L. destruct L as [U Dn].
  destruct (forward_same l q Gq F' U) as [F2 E2]. unfold limitDiff.
  destruct (backward_same (forward machine d q l) q false) as (q' & c' & l' & E & _ & E3 & E4).
  - constructor; [exact Gq | exact F2].
  - rewrite E2. exact Dn.
  - rewrite E. cbn [map fst]. rewrite E3, E4, E2. reflexivity.
Qed.
Variable x : f32.
Hypothesis Fx : finite_float x.
Hypothesis Hx : value x <= value d.
Lemma forward_none : forall l n, good M n -> Forall (good M) l -> ups (value x) (speed n) (map (fun p => speed p) l) ->
  forward machine d n l = map (fun p => (p, false)) l.
Proof.
  induction l as [|q l IH]; intros n Gn F Hu; [reflexivity|]. inversion F as [|? ? Gq F']; subst. destruct Hu as [U1 U2].
  cbn [forward map]. rewrite (step_none M d x n q Gn Gq Fd Hd Fx Hx U1). rewrite (IH q Gq F' U2). reflexivity.
Qed.
Lemma backward_none : forall l q, good M q -> Forall (good M) l -> downs (value x) (speed q) (map (fun p => speed p) l) ->
  backward machine d ((q, false) :: map (fun p => (p, false)) l) = (q, false) :: map (fun p => (p, false)) l.
Proof.
  induction l as [|n l IH]; intros q Gq F Hu; [reflexivity|]. inversion F as [|? ? Gn F']; subst. destruct Hu as [U1 U2].
  specialize (IH n Gn F' U2). cbn [map].
  change (backward machine d ((q, false) :: (n, false) :: map (fun p => (p, false)) l)) with
    (match backward machine d ((n, false) :: map (fun p => (p, false)) l) with
     | [] => [(q, false)]
     | (n0, _) :: _ => let '(q', c') := limit1 machine d n0 q in (q', false || c') :: backward machine d ((n, false) :: map (fun p => (p, false)) l)
     end).
  rewrite IH. rewrite (step_none M d x n q Gn Gq Fd Hd Fx Hx U1). reflexivity.
Qed.
Lemma limitDiff_none l : Forall (good M) l -> limited (value x) (map (fun p => speed p) l) -> limitDiff machine d l = map (fun p => (p, false)) l.
Proof.
  destruct l as [|q l]; [reflexivity|]. intros F L. inversion F as [|? ? Gq F']; subst. cbn [map] in L. apply limited_cons in L. destruct L as [U Dn].
  unfold limitDiff. rewrite (forward_none l q Gq F' U). apply backward_none; assumption.
Qed.
End Profile.

(** ** Databases *)
Lemma foldM_same {X Y} (f : Y -> X -> outcome Y) l y : (forall x, In x l -> f y x = Val y) -> foldM f l y = Val y.
Proof.
  induction l as [|x l IH]; intros H; [reflexivity|]. cbn [foldM]. rewrite (H x (or_introl eq_refl)). cbn [bind]. apply IH. intros z I. apply H. right. exact I.
Qed.
Lemma no_push {P DB} (G : gstore DB P) as_ (l : list P) (db : DB) :
  foldM (fun db (x : outcome addr * (P * bool)) => let '(a, (p, c)) := x in if c then pushData G db a p else Val db)
    (combine as_ (map (fun p => (p, false)) l)) db = Val db.
Proof.
  apply foldM_same. intros [a [p c]] I. apply in_combine_r in I. apply in_map_iff in I. destruct I as (z & E & _). injection E as _ <-. reflexivity.
Qed.

Section Untouched.
Context {DB LL : Type}.
Variables (G : gstore DB payload) (rec : DB -> records payload) (lonlat : Z -> Z -> outcome LL) (locate : LL -> Z -> outcome addr).
Variables (nl nw nh : Z) (cell : Z -> Z -> Z -> addr) (dv dh : f64) (db : DB) (v : Z -> Z -> Z -> payload).
Hypothesis HS : stores G rec.
Hypothesis Ok : records_ok (rec db).
Hypothesis GP : grid_points lonlat locate nl nw nh cell.
Hypothesis HG : holds_grid (rec db) nl nw nh cell v.
Lemma pulled i j k : in_grid nl nw nh i j k -> pullData G db (Val (cell i j k)) = Val (v i j k).
Proof using HS Ok GP HG.
  intros B. destruct (HG i j k B) as (h & S & I). destruct GP as (_ & P2 & _). destruct (P2 i j k B) as [O T].
  unfold pullData. cbn [bind]. rewrite (search_stored G rec HS db (cell i j k) h (v i j k)); [reflexivity|..]; assumption.
Qed.
Lemma pulls (as_ : list (outcome addr)) (u : Z -> payload) (at_ : Z -> outcome addr) l : as_ = map at_ l ->
  (forall i, In i l -> pullData G db (at_ i) = Val (u i)) -> mapM (pullData G db) as_ = Val (map u l).
Proof using.
  intros ->. induction l as [|i l IH]; intros H; [reflexivity|]. cbn [map mapM]. rewrite (H i (or_introl eq_refl)). cbn [bind].
  rewrite IH; [reflexivity|]. intros j I. apply H. right. exact I.
Qed.
Lemma line_none d (u : Z -> payload) (at_ : Z -> outcome addr) n :
  (forall i, (0 <= i < n)%Z -> pullData G db (at_ i) = Val (u i)) ->
  limitDiff machine d (map u (range n)) = map (fun p => (p, false)) (map u (range n)) -> gradeLine machine G d (map at_ (range n)) db = Val db.
Proof using.
  intros H E. unfold gradeLine. rewrite (pulls _ u at_ (range n) eq_refl) by (intros i I; apply H, range_in, I). cbn [bind]. rewrite E. apply no_push.
Qed.
Lemma pull_ext a a' : a = a' -> pullData G db a = pullData G db a'.
Proof using. intros ->. reflexivity. Qed.

Variable M : R.
Variables (xv xh : f32).
Hypothesis Sp : forall i j k, in_grid nl nw nh i j k -> speed_upto M (v i j k).
Hypothesis Fv : finite_double dv.
Hypothesis Hv : 0 <= value dv.
Hypothesis Fh : finite_double dh.
Hypothesis Hh : 0 <= value dh.
Hypothesis Xv : finite_float xv.
Hypothesis Bv : value xv <= value dv.
Hypothesis Xh : finite_float xh.
Hypothesis Bh : value xh <= value dh.
Hypothesis Lim : limited3 nl nw nh (value xv) (value xh) (fun i j k => speed (v i j k)).
Lemma range_good (u : Z -> payload) n : (forall i, (0 <= i < n)%Z -> speed_upto M (u i)) -> Forall (good M) (map u (range n)).
Proof using. intros H. apply Forall_forall. intros p I. apply in_map_iff in I. destruct I as (i & <- & I). apply range_in in I. exact (H i I). Qed.
Lemma range_limited (d : R) (u : Z -> payload) n : (forall i, (0 <= i)%Z -> (i + 1 < n)%Z -> Rabs (speed (u i) - speed (u (i + 1)%Z)) <= d) ->
  limited d (map (fun p => speed p) (map u (range n))).
Proof using. intros H. rewrite map_map. apply (limited_range d (fun i => speed (u i)) n). exact H. Qed.
Lemma dirs_untouched : gradeDirs machine G lonlat locate nl nw nh dv dh db = Val db.
Proof using All.
  assert (LL0 : forall i j, (0 <= i < nl)%Z -> (0 <= j < nw)%Z -> exists ll, lonlat i j = Val ll /\ forall k, (0 <= k < nh)%Z -> locate ll k = Val (cell i j k)) by apply GP.
  destruct Lim as (Lv & Ll & Lw).
  assert (V1 : gradeVert machine G lonlat locate nl nw nh dv db = Val db).
  { unfold gradeVert. apply foldM_same. intros i Ii. apply range_in in Ii. apply foldM_same. intros j Ij. apply range_in in Ij.
    destruct (LL0 i j Ii Ij) as (ll & E & A). rewrite E. cbn [bind]. apply (line_none dv (fun k => v i j k)).
    - intros k Ik. rewrite (A k Ik). apply pulled. repeat split; lia.
    - apply (limitDiff_none M dv Fv Hv xv Xv Bv); [apply range_good; intros k Ik; apply Sp; repeat split; lia|].
      apply range_limited. intros k K0 K1. apply Lv; repeat split; lia. }
  assert (V2 : gradeLen machine G lonlat locate nl nw nh dh db = Val db).
  { unfold gradeLen. apply foldM_same. intros k Ik. apply range_in in Ik. apply foldM_same. intros j Ij. apply range_in in Ij.
    apply (line_none dh (fun i => v i j k)).
    - intros i Ii. destruct (LL0 i j Ii Ij) as (ll & E & A). rewrite E. cbn [bind]. rewrite (A k Ik). apply pulled. repeat split; lia.
    - apply (limitDiff_none M dh Fh Hh xh Xh Bh); [apply range_good; intros i Ii; apply Sp; repeat split; lia|].
      apply (range_limited (value xh) (fun i => v i j k)). intros i K0 K1. apply Ll; repeat split; lia. }
  assert (V3 : gradeWidth machine G lonlat locate nl nw nh dh db = Val db).
  { unfold gradeWidth. apply foldM_same. intros k Ik. apply range_in in Ik. apply foldM_same. intros i Ii. apply range_in in Ii.
    apply (line_none dh (fun j => v i j k)).
    - intros j Ij. destruct (LL0 i j Ii Ij) as (ll & E & A). rewrite E. cbn [bind]. rewrite (A k Ik). apply pulled. repeat split; lia.
    - apply (limitDiff_none M dh Fh Hh xh Xh Bh); [apply range_good; intros j Ij; apply Sp; repeat split; lia|].
      apply (range_limited (value xh) (fun j => v i j k)). intros j K0 K1. apply Lw; repeat split; lia. }
  unfold gradeDirs. rewrite V1. cbn [bind]. rewrite V2. exact V3.
Qed.
End Untouched.

(** C83.  A model whose speeds already respect the limits is not touched: no octant is
    updated.  The limits are those of the settings, or any smaller ones, that are single
    precision numbers. *)
Theorem C83_untouched : forall DB (G : gstore DB payload) rec L g msg nl nw nh cell db v M xv xh,
  let dv := mul64 (gp_gradient g) (gp_res g) in
  let dh := mul64 (gp_gradient g) (mul64 (gp_res g) VERTEXAG) in
  count (gp_len g) (mul64 (gp_res g) VERTEXAG) = Val nl -> count (gp_width g) (mul64 (gp_res g) VERTEXAG) = Val nw ->
  count (gp_ht g) (gp_res g) = Val nh ->
  finite_double dv -> 0 <= value dv -> finite_double dh -> 0 <= value dh ->
  stores G rec -> records_ok (rec db) ->
  grid_points (indexToLonLat L g) (gridAddr L g) nl nw nh cell -> holds_grid (rec db) nl nw nh cell v ->
  (forall i j k, in_grid nl nw nh i j k -> speed_upto M (v i j k)) ->
  finite_float xv -> value xv <= value dv -> finite_float xh -> value xh <= value dh ->
  limited3 nl nw nh (value xv) (value xh) (fun i j k => value (p_vs (v i j k))) ->
  grade L g G true msg db = Val db.
Proof.
  intros DB G rec L g msg nl nw nh cell db v M xv xh dv dh C1 C2 C3 Fv Hv Fh Hh HS Ok GP HG Sp Xv Bv Xh Bh Lim.
  unfold grade, resHoriz. rewrite C1. cbn [bind]. rewrite C2. cbn [bind]. rewrite C3. cbn [bind].
  change (gradeDirs machine G (indexToLonLat L g) (gridAddr L g) nl nw nh (mul64 (gp_gradient g) (gp_res g)) (mul64 (gp_gradient g) (mul64 (gp_res g) VERTEXAG)) db)
    with (gradeDirs machine G (indexToLonLat L g) (gridAddr L g) nl nw nh dv dh db).
  rewrite (dirs_untouched G rec (indexToLonLat L g) (gridAddr L g) nl nw nh cell dv dh db v HS Ok GP HG M xv xh Sp Fv Hv Fh Hh Xv Bv Xh Bh Lim). reflexivity.
Qed.
Print Assumptions C83_untouched.

(** Values at a grid point are unique. *)
Lemma grid_unique {P} (l : records P) nl nw nh cell (u v : Z -> Z -> Z -> P) : records_ok l -> holds_grid l nl nw nh cell u -> holds_grid l nl nw nh cell v ->
  forall i j k, in_grid nl nw nh i j k -> u i j k = v i j k.
Proof.
  intros [_ O] H1 H2 i j k B. destruct (H1 i j k B) as (h & S & I). destruct (H2 i j k B) as (h' & S' & I').
  pose proof (O h _ h' _ I I' (same_trans _ _ _ S (same_sym _ _ S'))) as E. exact (f_equal snd E).
Qed.
Lemma line_same M d n (u b : Z -> payload) : finite_double d -> 0 <= value d -> map b (range n) = map fst (limitDiff machine d (map u (range n))) ->
  (forall i, (0 <= i < n)%Z -> speed_upto M (u i)) ->
  (forall i, (0 <= i)%Z -> (i + 1 < n)%Z -> Rabs (speed (u i) - speed (u (i + 1)%Z)) <= value d) ->
  forall i, (0 <= i < n)%Z -> speed_upto M (b i) /\ speed (b i) = speed (u i).
Proof.
  intros Fd Hd E Hs Hl i Hi. pose proof (range_good M u n Hs) as F. destruct (limitDiff_near M d Fd Hd _ F) as [G1 _]. split.
  - pose proof (range_nth b n i Hi) as N. rewrite E in N. apply nth_error_In in N. apply in_map_iff in N. destruct N as (r & <- & I).
    rewrite Forall_forall in G1. exact (G1 r I).
  - pose proof (limitDiff_same M d Fd Hd _ F (range_limited (value d) u n Hl)) as Q.
    rewrite <- (map_map fst (fun p => speed p)), <- E, !map_map in Q.
    pose proof (range_nth (fun z => speed (b z)) n i Hi) as N1. pose proof (range_nth (fun z => speed (u z)) n i Hi) as N2. rewrite Q in N1. congruence.
Qed.

(** C83, any limits: no shear speed changes where the limits of the settings are respected;
    Vp, density, Qp and Qs change at most by rounding (2^-19). *)
Theorem C83_speeds_kept : forall DB (G : gstore DB payload) rec L g msg nl nw nh cell db v M,
  let dv := mul64 (gp_gradient g) (gp_res g) in
  let dh := mul64 (gp_gradient g) (mul64 (gp_res g) VERTEXAG) in
  count (gp_len g) (mul64 (gp_res g) VERTEXAG) = Val nl -> count (gp_width g) (mul64 (gp_res g) VERTEXAG) = Val nw ->
  count (gp_ht g) (gp_res g) = Val nh -> (0 <= nl)%Z -> (0 <= nw)%Z -> (0 <= nh)%Z -> 0 <= M ->
  finite_double dv -> 0 <= value dv -> finite_double dh -> 0 <= value dh ->
  stores G rec -> records_ok (rec db) ->
  grid_points (indexToLonLat L g) (gridAddr L g) nl nw nh cell -> holds_grid (rec db) nl nw nh cell v ->
  (forall i j k, in_grid nl nw nh i j k -> speed_upto M (v i j k)) ->
  limited3 nl nw nh (value dv) (value dh) (fun i j k => value (p_vs (v i j k))) ->
  exists db' v', grade L g G true msg db = Val db' /\
    records_ok (rec db') /\ holds_grid (rec db') nl nw nh cell v' /\ same_elsewhere (rec db) (rec db') nl nw nh cell /\
    (forall i j k, in_grid nl nw nh i j k -> value (p_vs (v' i j k)) = value (p_vs (v i j k))) /\
    ((forall i j k, in_grid nl nw nh i j k -> speed_ordinary (v i j k)) ->
     forall i j k, in_grid nl nw nh i j k -> ratios_kept (bpow radix2 (-19)) (v i j k) (v' i j k)).
Proof.
  intros DB G rec L g msg nl nw nh cell db v M dv dh C1 C2 C3 Nl Nw Nh HM Fv Hv Fh Hh HS Ok GP HG Sp (Lv & Ll & Lw).
  destruct (C42_program DB G rec L g msg nl nw nh cell db v M C1 C2 C3 Nl Nw Nh HM Fv Hv Fh Hh HS Ok GP HG Sp)
    as (db' & v' & E & Ok' & H' & O & _ & _ & _ & Rt & _).
  exists db', v'. do 4 (split; [assumption|]). split; [|exact Rt].
  destruct (dirs_db machine G rec (indexToLonLat L g) (gridAddr L g) nl nw nh cell dv dh db v HS Ok GP HG) as (db1 & v1 & v2 & v3 & E1 & _ & H3 & _ & M1 & M2 & M3).
  assert (Q : db1 = db').
  { unfold grade, resHoriz in E. rewrite C1 in E. cbn [bind] in E. rewrite C2 in E. cbn [bind] in E. rewrite C3 in E. cbn [bind] in E.
    change (gradeDirs machine G (indexToLonLat L g) (gridAddr L g) nl nw nh (mul64 (gp_gradient g) (gp_res g)) (mul64 (gp_gradient g) (mul64 (gp_res g) VERTEXAG)) db)
    with (gradeDirs machine G (indexToLonLat L g) (gridAddr L g) nl nw nh dv dh db) in E. rewrite E1 in E. cbn [bind] in E. injection E. auto. }
  subst db1. intros i j k B. rewrite (grid_unique _ _ _ _ _ _ _ Ok' H' H3 i j k B). revert i j k B.
  assert (S1 : forall i j k, in_grid nl nw nh i j k -> speed_upto M (v1 i j k) /\ speed (v1 i j k) = speed (v i j k)).
  { intros i j k (B1 & B2 & B3). apply (line_same M dv nh (v i j) (v1 i j) Fv Hv (M1 i j B1 B2)); [| |exact B3].
    - intros z Z. apply Sp. repeat split; lia.
    - intros z Z0 Z1. apply Lv; repeat split; lia. }
  assert (S2 : forall i j k, in_grid nl nw nh i j k -> speed_upto M (v2 i j k) /\ speed (v2 i j k) = speed (v i j k)).
  { intros i j k B. pose proof B as (B1 & B2 & B3).
    destruct (line_same M dh nl (fun l => v1 l j k) (fun l => v2 l j k) Fh Hh (M2 j k B2 B3)) with (i := i) as [X1 X2]; [| |exact B1|].
    - intros z Z. apply S1. repeat split; lia.
    - intros z Z0 Z1. rewrite (proj2 (S1 z j k ltac:(repeat split; lia))), (proj2 (S1 (z + 1)%Z j k ltac:(repeat split; lia))). apply Ll; repeat split; lia.
    - split; [exact X1|]. rewrite X2. apply S1, B. }
  intros i j k B. pose proof B as (B1 & B2 & B3).
  destruct (line_same M dh nw (fun w => v2 i w k) (fun w => v3 i w k) Fh Hh (M3 i k B1 B3)) with (i := j) as [X1 X2]; [| |exact B2|].
  - intros z Z. apply S2. repeat split; lia.
  - intros z Z0 Z1. rewrite (proj2 (S2 i z k ltac:(repeat split; lia))), (proj2 (S2 i (z + 1)%Z k ltac:(repeat split; lia))). apply Lw; repeat split; lia.
  - rewrite X2. apply S2, B.
Qed.
Print Assumptions C83_speeds_kept.

(** C83, twice: limiting what was limited before lowers no speed by more than three times the
    tolerance of C42, and raises none. *)
Theorem C83_twice : forall DB (G : gstore DB payload) rec L g msg nl nw nh cell db v M,
  let dv := mul64 (gp_gradient g) (gp_res g) in
  let dh := mul64 (gp_gradient g) (mul64 (gp_res g) VERTEXAG) in
  let tol := 2 * IZR (nl + nw + nh) * slack M in
  count (gp_len g) (mul64 (gp_res g) VERTEXAG) = Val nl -> count (gp_width g) (mul64 (gp_res g) VERTEXAG) = Val nw ->
  count (gp_ht g) (gp_res g) = Val nh -> (0 <= nl)%Z -> (0 <= nw)%Z -> (0 <= nh)%Z -> 0 <= M ->
  finite_double dv -> 0 <= value dv -> finite_double dh -> 0 <= value dh ->
  stores G rec -> records_ok (rec db) ->
  grid_points (indexToLonLat L g) (gridAddr L g) nl nw nh cell -> holds_grid (rec db) nl nw nh cell v ->
  (forall i j k, in_grid nl nw nh i j k -> speed_upto M (v i j k)) ->
  exists db1 v1 db2 v2, grade L g G true msg db = Val db1 /\ holds_grid (rec db1) nl nw nh cell v1 /\
    grade L g G true msg db1 = Val db2 /\ holds_grid (rec db2) nl nw nh cell v2 /\ same_elsewhere (rec db1) (rec db2) nl nw nh cell /\
    forall i j k, in_grid nl nw nh i j k -> value (p_vs (v1 i j k)) - 3 * tol <= value (p_vs (v2 i j k)) <= value (p_vs (v1 i j k)).
Proof.
  intros DB G rec L g msg nl nw nh cell db v M dv dh tol C1 C2 C3 Nl Nw Nh HM Fv Hv Fh Hh HS Ok GP HG Sp.
  destruct (C42_program DB G rec L g msg nl nw nh cell db v M C1 C2 C3 Nl Nw Nh HM Fv Hv Fh Hh HS Ok GP HG Sp)
    as (db1 & v1 & E1 & Ok1 & H1 & _ & _ & (b1 & (L1 & _) & D1) & _ & _ & K1).
  destruct (C42_program DB G rec L g msg nl nw nh cell db1 v1 M C1 C2 C3 Nl Nw Nh HM Fv Hv Fh Hh HS Ok1 GP H1 (fun i j k B => proj1 (K1 i j k B)))
    as (db2 & v2 & E2 & Ok2 & H2 & O2 & B2 & (b2 & (_ & _ & Mx) & D2) & _).
  fold tol in D1, D2. fold dv in L1, Mx. fold dh in L1, Mx.
  exists db1, v1, db2, v2. do 5 (split; [assumption|]). intros i j k B. split; [|exact (B2 i j k B)].
  assert (Low : below3 nl nw nh (fun l w h => b1 l w h - tol) b2).
  { apply Mx.
    - destruct L1 as (Lv & Ll & Lw). split; [|split]; intros l w h I1 I2.
      + replace (b1 l w h - tol - (b1 l w (h + 1)%Z - tol)) with (b1 l w h - b1 l w (h + 1)%Z) by ring. apply Lv; assumption.
      + replace (b1 l w h - tol - (b1 (l + 1)%Z w h - tol)) with (b1 l w h - b1 (l + 1)%Z w h) by ring. apply Ll; assumption.
      + replace (b1 l w h - tol - (b1 l (w + 1)%Z h - tol)) with (b1 l w h - b1 l (w + 1)%Z h) by ring. apply Lw; assumption.
    - intros l w h I. specialize (D1 l w h I). apply Rabs_le_iff in D1. lra. }
  specialize (Low i j k B). specialize (D1 i j k B). specialize (D2 i j k B). apply Rabs_le_iff in D1, D2. lra.
Qed.
Print Assumptions C83_twice.

(** ** A grid of 2 by 3 by 2 points that respects the limits of 200 and 800 m/s *)
From Verif Require Import ToyDb ToyLib ToyGrade.
Local Open Scope R_scope.
Definition calm_speed (l w h : Z) : Z := (500 + 700 * l + 800 * w - 150 * h)%Z.
Definition calm_values (l w h : Z) : payload :=
  mkPayload (i2f32 (2 * calm_speed l w h)) (i2f32 (calm_speed l w h)) (i2f32 2500) (i2f32 200) (i2f32 100) (i2f32 0) 1 2.
Definition calm_records : records payload :=
  (mkAddr 0 0 0 0 3 Leaf, toy_values 9 9 9) :: map (fun p => let '(l, w, h) := p in (toy_cell l w h, calm_values l w h)) points.
Lemma calm_ok : records_ok calm_records.
Proof. apply db_okb_ok. vm_compute. reflexivity. Qed.
Lemma calm_holds : holds_grid calm_records 2 3 2 toy_cell calm_values.
Proof.
  intros l w h B. exists (toy_cell l w h). split; [repeat split; reflexivity|]. right. apply in_map_iff. exists (l, w, h).
  split; [reflexivity | apply points_in, B].
Qed.
Lemma calm_value l w h : in_grid 2 3 2 l w h -> finite_float (p_vs (calm_values l w h)) /\ value (p_vs (calm_values l w h)) = IZR (calm_speed l w h).
Proof.
  intros (A & B & C). assert (Ci : (l = 0 \/ l = 1)%Z) by lia. assert (Cj : (w = 0 \/ w = 1 \/ w = 2)%Z) by lia. assert (Ck : (h = 0 \/ h = 1)%Z) by lia.
  destruct Ci as [->| ->], Cj as [->|[->| ->]], Ck as [->| ->]; (split; [split; vm_compute; reflexivity|]);
    match goal with |- value ?x = IZR ?z => let y := eval vm_compute in x in replace x with y by (vm_compute; reflexivity); let n := eval vm_compute in z in change z with n end;
    unfold value, SF2R, F2R; cbn; lra.
Qed.
Lemma limit_values : value (mul64 (gp_gradient toy_grid) (gp_res toy_grid)) = 200 /\ value (mul64 (gp_gradient toy_grid) (mul64 (gp_res toy_grid) VERTEXAG)) = 800 /\
  value (i2f32 200) = 200 /\ value (i2f32 800) = 800.
Proof.
  repeat split; match goal with |- value ?x = _ => let y := eval vm_compute in x in replace x with y by (vm_compute; reflexivity) end; unfold value, SF2R, F2R; cbn; lra.
Qed.
Lemma calm_limited : limited3 2 3 2 200%R 800%R (fun i j k => value (p_vs (calm_values i j k))).
Proof.
  split; [|split]; intros l w h B B'; rewrite (proj2 (calm_value _ _ _ B)), (proj2 (calm_value _ _ _ B')), <- minus_IZR, <- abs_IZR; apply IZR_le; unfold calm_speed; lia.
Qed.
Example C83_example : grade toy2 toy_grid lstore true ""%string calm_records = Val calm_records.
Proof.
  destruct limit_values as (E1 & E2 & E3 & E4).
  apply (C83_untouched _ lstore (fun l => l) toy2 toy_grid ""%string 2 3 2 toy_cell calm_records calm_values 4096 (i2f32 200) (i2f32 800)).
  - apply toy_counts.
  - apply toy_counts.
  - apply toy_counts.
  - split; vm_compute; reflexivity.
  - rewrite E1. lra.
  - split; vm_compute; reflexivity.
  - rewrite E2. lra.
  - exact lstore_ok.
  - exact calm_ok.
  - exact toy_points.
  - exact calm_holds.
  - intros i j k B. destruct (calm_value i j k B) as [F V]. split; [exact F|]. rewrite V. destruct B as (B1 & B2 & B3). split; apply IZR_le; unfold calm_speed; lia.
  - split; vm_compute; reflexivity.
  - rewrite E1, E3. lra.
  - split; vm_compute; reflexivity.
  - rewrite E2, E4. lra.
  - rewrite E3, E4. exact calm_limited.
Qed.
