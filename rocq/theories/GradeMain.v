(** Main lemmas about limiting gradients: entries, and databases. *)
From Coq Require Import ZArith Bool Reals Lra Lia List.
From Flocq Require Import Core.
From Verif Require Import Outcome Float Payload Addr SpecOct SpecGeom QuerySurface VsGrader SpecGrade GradeFacts GradeGrid GradeFloat GradeMach GradeRatio.
Import ListNotations.
Open Scope R_scope.

(** ** Exact arithmetic *)
Definition exact_entry (p : rpay) (r : rpay * bool) : Prop :=
  let (p', changed) := r in
  (changed = true <-> r_vs p' < r_vs p) /\ (changed = false -> p' = p) /\
  r_vp p' * r_vs p = r_vp p * r_vs p' /\ r_density p' * r_vs p = r_density p * r_vs p' /\
  r_qp p' * r_vs p = r_qp p * r_vs p' /\ r_qs p' * r_vs p = r_qs p * r_vs p' /\
  r_dfs p' = r_dfs p /\ r_block p' = r_block p /\ r_zone p' = r_zone p.
Lemma exact_entries d l : 0 <= d -> Forall (fun p => 0 <= r_vs p) l -> Forall2 exact_entry l (limitDiff exact d l).
Proof.
  intros Hd F.
  set (Rel := fun p r => exact_entry p r /\ r_vs (fst r) <= r_vs p).
  assert (H : Forall2 (fun q0 r => Rel q0 r /\ 0 <= r_vs (fst r)) l (limitDiff exact d l)).
  { apply (limitDiff_inv exact d (fun p => 0 <= r_vs p)) with (Rel := Rel); [| | | exact F].
    - intros n q Hn Hq. rewrite step_vs. apply Rmin_glb; lra.
    - intros q _. split; [|cbn; lra]. cbn. repeat split; try reflexivity; try discriminate; lra.
    - intros q0 q c n Hn Hq [(E1 & E2 & E3 & E4 & E5 & E6 & E7 & E8 & E9) Le] G.
      cbn [exact ar_gt ar_sub ar_vs ar_set ar_add fst] in *. destruct (Rlt_dec d (r_vs q - r_vs n)) as [Lt|]; [|discriminate G].
      unfold Rel, exact_entry. cbn [fst rscaled r_vs r_vp r_density r_qp r_qs r_dfs r_block r_zone].
      assert (N0 : r_vs q <> 0) by lra.
      assert (Sc : forall x x0, x * r_vs q0 = x0 * r_vs q -> x * ((r_vs n + d) / r_vs q) * r_vs q0 = x0 * (r_vs n + d)).
      { intros x x0 Hx. replace (x * ((r_vs n + d) / r_vs q) * r_vs q0) with (x * r_vs q0 * ((r_vs n + d) / r_vs q)) by ring. rewrite Hx. field. exact N0. }
      repeat split; auto; try lra; discriminate. }
  clear F. induction H as [|p r l rs [[H _] _] _ IH]; constructor; assumption.
Qed.
Lemma exact_again d l : 0 <= d -> limitDiff exact d (map fst (limitDiff exact d l)) = map (fun p => (p, false)) (map fst (limitDiff exact d l)).
Proof.
  intros Hd. apply limitDiff_fixed. rewrite map_map, limitDiff_vs. apply rlimit_largest, Hd.
Qed.

(** ** Machine arithmetic *)
Definition machine_entry (p : payload) (r : payload * bool) : Prop :=
  let (p', changed) := r in
  (changed = false -> p' = p) /\ p_dfs p' = p_dfs p /\ p_block p' = p_block p /\ p_zone p' = p_zone p.
Lemma machine_entries d l : Forall2 machine_entry l (limitDiff machine d l).
Proof.
  apply limitDiff_rel.
  - intros q. cbn. auto.
  - intros q0 q c n (_ & A & B & C) _. cbn. repeat split; auto. discriminate.
Qed.
Lemma machine_profile M d l : 0 <= M -> finite_double d -> 0 <= value d -> Forall (speed_upto M) l ->
  let out := map (fun r => value (p_vs (fst r))) (limitDiff machine d l) in
  let inp := map (fun p => value (p_vs p)) l in
  Forall (fun r => speed_upto M (fst r)) (limitDiff machine d l) /\ below out inp /\ limited (value d + slack M) out /\
  exists b, largest_limited (value d) inp b /\ Forall2 (fun x y => Rabs (x - y) <= 2 * INR (length l) * slack M) out b.
Proof.
  intros HM Fd Hd F out inp. destruct (limitDiff_near M d Fd Hd l F) as [G A]. fold inp out in A. pose proof (slack_pos M HM) as S0.
  split; [exact G|]. split; [exact (alimit_below _ _ _ _ A)|]. split; [exact (alimit_limited (slack M) (value d) S0 inp out Hd A)|].
  exists (rlimit (value d) inp). split; [apply rlimit_largest, Hd|].
  pose proof (alimit_within _ _ S0 _ _ A) as W. unfold inp in W at 1. rewrite map_length in W. exact W.
Qed.
Lemma machine_ratios d l : finite_double d -> 0 <= value d -> Forall speed_ordinary l ->
  Forall2 (fun p r => let p' := fst r in speed_ordinary p' /\
    scaled_with p p' (p_vp p) (p_vp p') /\ scaled_with p p' (p_density p) (p_density p') /\
    scaled_with p p' (p_qp p) (p_qp p') /\ scaled_with p p' (p_qs p) (p_qs p')) l (limitDiff machine d l).
Proof.
  intros Fd Hd F. pose proof (limitDiff_ratio d Fd Hd l F) as H. clear F.
  assert (C : forall x0 v0 x v, same_ratio 6 x0 v0 x v -> ordinary x0 -> finite_float x /\ exists e, Rabs e <= bpow radix2 (-21) /\ value x * value v0 = value x0 * value v * (1 + e)).
  { intros x0 v0 x v S O. destruct (S O) as (A & e & T & E). split; [exact A|]. exists e. split; [|exact E]. unfold tiny in T.
    replace (bpow radix2 (-21)) with (8 * bpow radix2 (-24)) by (cbn; lra). pose proof (bpow_gt_0 radix2 (-24)). lra. }
  induction H as [|p r l rs (_ & S & R1 & R2 & R3 & R4) _ IH]; constructor; [|exact IH]. cbv zeta.
  split; [exact S|]. split; [|split; [|split]]; intros O; apply C; assumption.
Qed.

(** ** The storage contract implies what the passes need *)
Lemma covers_same a b : covers a b -> a_level a = a_level b -> same_octant a b.
Proof.
  intros (X1 & X2 & Y1 & Y2 & Z1 & Z2) L. rewrite L in *. repeat split; lia.
Qed.
Lemma covers_level a b : octant_ok a -> octant_ok b -> covers a b -> (a_level a <= a_level b)%Z.
Proof.
  intros (La & _ & _) (Lb & _ & _) (X1 & X2 & _). destruct (Z.le_gt_cases (a_level a) (a_level b)) as [|G]; [assumption|].
  exfalso. unfold side in *. assert (2 ^ (31 - a_level a) < 2 ^ (31 - a_level b))%Z by (apply Z.pow_lt_mono_r; lia). lia.
Qed.
Lemma same_covers a b : same_octant a b -> covers a b.
Proof. intros (X & Y & Z & L). unfold covers. rewrite X, Y, Z, L. lia. Qed.
Lemma same_trans a b c : same_octant a b -> same_octant b c -> same_octant a c.
Proof. intros (A & B & C & D) (A' & B' & C' & D'). repeat split; congruence. Qed.
Lemma same_sym a b : same_octant a b -> same_octant b a.
Proof. intros (A & B & C & D). repeat split; congruence. Qed.
Lemma same_eq a b : same_octant a b -> octant_ok a -> octant_ok b -> a_type a = a_type b -> a = b.
Proof. intros (A & B & C & D) (_ & T & _) (_ & T' & _) E. destruct a, b. cbn in *. subst. reflexivity. Qed.
Lemma same_ok a b : same_octant a b -> a_t b = 0%Z -> octant_ok a -> octant_ok b.
Proof. intros (A & B & C & D) T (O1 & _ & O3). unfold octant_ok. rewrite <- A, <- B, <- C, <- D. auto. Qed.
Lemma same_dec a b : {same_octant a b} + {~ same_octant a b}.
Proof.
  unfold same_octant. destruct (Z.eq_dec (a_x a) (a_x b)), (Z.eq_dec (a_y a) (a_y b)), (Z.eq_dec (a_z a) (a_z b)), (Z.eq_dec (a_level a) (a_level b)); (left; tauto) || (right; tauto).
Qed.

Section Contract.
Context {DB P : Type} (G : gstore DB P) (rec : DB -> records P).
Hypothesis HS : stores G rec.
Lemma search_stored db a h q : records_ok (rec db) -> octant_ok a -> In (h, q) (rec db) -> same_octant h a -> gs_search G db a = Some q.
Proof.
  intros [O1 O2] Oa I S. pose proof (proj1 HS db a) as H. destruct (gs_search G db a) as [p|].
  - destruct H as (h' & I' & C & F). specialize (F h q I (same_covers _ _ S)). pose proof (O1 _ _ I') as Oh'.
    pose proof (covers_level h' a Oh' Oa C) as Le. assert (a_level h' = a_level a) by (destruct S as (_ & _ & _ & S); lia).
    assert (S' : same_octant h' a) by (apply covers_same; assumption).
    assert ((h, q) = (h', p)) as E by (apply (O2 _ _ _ _ I I'), (same_trans _ a); [exact S | apply same_sym, S']). congruence.
  - exfalso. exact (H h q I (same_covers _ _ S)).
Qed.
Definition upd (a : addr) (p : P) (r r' : addr * P) : Prop :=
  fst r' = fst r /\ (same_octant (fst r) a -> snd r' = p) /\ (~ same_octant (fst r) a -> snd r' = snd r).
Lemma upd_keys a p l l' : Forall2 (upd a p) l l' -> map fst l' = map fst l.
Proof. induction 1 as [|r r' l l' H _ IH]; [reflexivity|]. cbn [map]. rewrite IH. f_equal. apply H. Qed.
Lemma upd_in_back a p l l' h q : Forall2 (upd a p) l l' -> In (h, q) l' -> exists q0, In (h, q0) l /\ upd a p (h, q0) (h, q).
Proof.
  induction 1 as [|[h0 q0] [h1 q1] l l' H _ IH]; intros J0; [destruct J0|]; destruct J0 as [E|I].
  - injection E as -> ->. pose proof (proj1 H) as K. cbn in K. subst h0. exists q0. split; [left; reflexivity | exact H].
  - destruct (IH I) as (x & J & U). exists x. split; [right; exact J | exact U].
Qed.
Lemma upd_in a p l l' h q : Forall2 (upd a p) l l' -> In (h, q) l -> exists q', In (h, q') l' /\ upd a p (h, q) (h, q').
Proof.
  induction 1 as [|[h0 q0] [h1 q1] l l' H _ IH]; intros J0; [destruct J0|]; destruct J0 as [E|I].
  - injection E as -> ->. pose proof (proj1 H) as K. cbn in K. subst h1. exists q1. split; [left; reflexivity | exact H].
  - destruct (IH I) as (x & J & U). exists x. split; [right; exact J | exact U].
Qed.
Lemma upd_ok a p l l' : Forall2 (upd a p) l l' -> records_ok l -> records_ok l'.
Proof.
  intros U [O1 O2]. split.
  - intros h q I. destruct (upd_in_back _ _ _ _ _ _ U I) as (q0 & I0 & _). exact (O1 _ _ I0).
  - intros h q h' q' I I' S. destruct (upd_in_back _ _ _ _ _ _ U I) as (q0 & I0 & _ & A & B). destruct (upd_in_back _ _ _ _ _ _ U I') as (q0' & I0' & _ & A' & B').
    cbn [fst snd] in *. pose proof (O2 _ _ _ _ I0 I0' S) as E. injection E as <- <-. destruct (same_dec h a) as [K|K].
    + rewrite (A K), (A' K). reflexivity.
    + rewrite (B K), (B' K). reflexivity.
Qed.
Variable db0 : DB.
Definition stored_cells (a : addr) : Prop := octant_ok a /\ a_type a = Leaf /\ exists h, In h (map fst (rec db0)) /\ same_octant h a.
Definition db_good (db : DB) : Prop := map fst (rec db) = map fst (rec db0) /\ records_ok (rec db).
Lemma stored_in db a : db_good db -> stored_cells a -> exists h q, In (h, q) (rec db) /\ same_octant h a.
Proof.
  intros [K _] (_ & _ & h & I & S). rewrite <- K in I. apply in_map_iff in I. destruct I as ([h' q] & E & I). cbn in E. subst h'. eauto.
Qed.
Lemma contract_grid : grid_store G stored_cells db_good.
Proof.
  split.
  - intros db a Hd Hc. destruct (stored_in db a Hd Hc) as (h & q & I & S). exists q. apply (search_stored db a h q); [apply Hd | apply Hc | exact I | exact S].
  - intros db a p Hd Hc. destruct (stored_in db a Hd Hc) as (h & q & I & S).
    destruct (proj2 HS db a p) as (db' & U & F); [eauto|]. change (Forall2 (upd a p) (rec db) (rec db')) in F.
    assert (Hd' : db_good db') by (split; [rewrite (upd_keys _ _ _ _ F); apply Hd | apply (upd_ok _ _ _ _ F), Hd]).
    exists db'. split; [exact U|]. split; [exact Hd'|]. split.
    + destruct (upd_in _ _ _ _ _ _ F I) as (q' & I' & _ & A & _). cbn [fst snd] in A. rewrite (A S) in I'.
      apply (search_stored db' a h p); [apply Hd' | apply Hc | exact I' | exact S].
    + intros a' Hc' Ne. destruct (stored_in db a' Hd Hc') as (h' & q0 & I0 & S').
      rewrite (search_stored db a' h' q0) by (apply Hd || apply Hc' || assumption).
      destruct (upd_in _ _ _ _ _ _ F I0) as (q' & I' & _ & _ & B). cbn [fst snd] in B. rewrite B in I'.
      * apply (search_stored db' a' h' q0); [apply Hd' | apply Hc' | exact I' | exact S'].
      * intros K. apply Ne. apply same_eq; [apply (same_trans _ h'); [apply same_sym, S' | exact K] | apply Hc' | apply Hc |].
        destruct Hc' as (_ & -> & _), Hc as (_ & -> & _). reflexivity.
Qed.
(** What a database shows, as records. *)
Definition value_at (db : DB) (d : P) (a : addr) : P := match gs_search G db a with Some q => q | None => d end.
Lemma shows_value db d : db_good db -> shows G stored_cells db_good db (value_at db d).
Proof.
  intros H. split; [exact H|]. intros a Hc. destruct (proj1 contract_grid db a H Hc) as (q & E). unfold value_at. rewrite E. reflexivity.
Qed.
Lemma shows_in db p h a : shows G stored_cells db_good db p -> stored_cells a -> same_octant h a ->
  forall q, In (h, q) (rec db) -> q = p a.
Proof.
  intros [Hd Hs] Hc S q I. pose proof (search_stored db a h q (proj2 Hd) (proj1 Hc) I S) as E. rewrite (Hs a Hc) in E. congruence.
Qed.
Lemma shows_holds db p nl nw nh cell : shows G stored_cells db_good db p ->
  (forall i j k, in_grid nl nw nh i j k -> stored_cells (cell i j k)) ->
  holds_grid (rec db) nl nw nh cell (fun i j k => p (cell i j k)).
Proof.
  intros Sh Hc i j k Hi. destruct (stored_in db _ (proj1 Sh) (Hc i j k Hi)) as (h & q & I & S). exists h. split; [exact S|].
  rewrite <- (shows_in db p h _ Sh (Hc i j k Hi) S q I). exact I.
Qed.
Lemma shows_elsewhere db p db' p' nl nw nh cell : shows G stored_cells db_good db p -> shows G stored_cells db_good db' p' ->
  (forall i j k, in_grid nl nw nh i j k -> octant_ok (cell i j k) /\ a_type (cell i j k) = Leaf) ->
  (forall a, stored_cells a -> (forall l w h, in_grid nl nw nh l w h -> a <> cell l w h) -> p' a = p a) ->
  same_elsewhere (rec db) (rec db') nl nw nh cell.
Proof.
  intros Sh Sh' Hc H. unfold same_elsewhere.
  assert (K : map fst (rec db') = map fst (rec db)) by (rewrite (proj1 (proj1 Sh')), (proj1 (proj1 Sh)); reflexivity).
  assert (Gen : forall l l', map fst l' = map fst l -> (forall r, In r l -> In r (rec db)) -> (forall r, In r l' -> In r (rec db')) ->
    Forall2 (fun r r' => fst r' = fst r /\ ((forall i j k, in_grid nl nw nh i j k -> ~ same_octant (fst r) (cell i j k)) -> snd r' = snd r)) l l');
    [|apply Gen; auto]. clear K.
  induction l as [|[h q] l IH]; intros [|[h' q'] l'] K I1 I2; try discriminate K; [constructor|].
  injection K as E K. cbn in E. subst h'. constructor; [|apply IH; [exact K | intros; apply I1; right; assumption | intros; apply I2; right; assumption]].
  cbn [fst snd]. split; [reflexivity|]. intros Off.
  pose proof (I1 _ (or_introl eq_refl)) as J. pose proof (I2 _ (or_introl eq_refl)) as J'.
  set (a := mkAddr (a_x h) (a_y h) (a_z h) 0 (a_level h) Leaf).
  assert (S : same_octant h a) by (repeat split; reflexivity).
  pose proof (proj1 (proj2 (proj1 Sh)) _ _ J) as Oh.
  assert (Ca : stored_cells a).
  { split; [exact (same_ok h a S eq_refl Oh)|]. split; [reflexivity|]. exists h. split; [|exact S].
    rewrite <- (proj1 (proj1 Sh)). apply in_map_iff. exists (h, q). split; [reflexivity | exact J]. }
  rewrite (shows_in db p h a Sh Ca S q J), (shows_in db' p' h a Sh' Ca S q' J'). apply H; [exact Ca|].
  intros i j k Hi Q. apply (Off i j k Hi). rewrite <- Q. exact S.
Qed.
End Contract.

Lemma line_fields {X P S D} (A : arith P S D) (d : D) (K : P -> X) : (forall p v, K (ar_set A p v) = K p) ->
  forall n (u b : Z -> P), map b (range n) = map fst (limitDiff A d (map u (range n))) -> forall i, (0 <= i < n)%Z -> K (b i) = K (u i).
Proof.
  intros HK n u b E i Hi.
  assert (H : Forall2 (fun q r => K (fst r) = K q) (map u (range n)) (limitDiff A d (map u (range n)))).
  { apply limitDiff_rel; [reflexivity|]. intros q0 q c m H _. cbn [fst] in *. rewrite HK. exact H. }
  apply forall2_nth in H. destruct H as [_ H]. pose proof (range_nth u n i Hi) as N1. pose proof (range_nth b n i Hi) as N2. rewrite E, nth_error_map in N2.
  destruct (nth_error (limitDiff A d (map u (range n))) (Z.to_nat i)) as [r|] eqn:Er; [|discriminate N2]. cbn in N2. injection N2 as <-. exact (H _ _ _ N1 Er).
Qed.

(** The three passes on a database, for every arithmetic: the lines of the passes, and what is kept. *)
Lemma dirs_db {P S D DB LL} (A : arith P S D) (G : gstore DB P) rec (lonlat : Z -> Z -> outcome LL) locate nl nw nh cell dv dh db v :
  stores G rec -> records_ok (rec db) -> grid_points lonlat locate nl nw nh cell -> holds_grid (rec db) nl nw nh cell v ->
  exists db' v1 v2 v', gradeDirs A G lonlat locate nl nw nh dv dh db = Val db' /\
    records_ok (rec db') /\ holds_grid (rec db') nl nw nh cell v' /\ same_elsewhere (rec db) (rec db') nl nw nh cell /\
    (forall l w, (0 <= l < nl)%Z -> (0 <= w < nw)%Z -> map (fun h => v1 l w h) (range nh) = map fst (limitDiff A dv (map (fun h => v l w h) (range nh)))) /\
    (forall w h, (0 <= w < nw)%Z -> (0 <= h < nh)%Z -> map (fun l => v2 l w h) (range nl) = map fst (limitDiff A dh (map (fun l => v1 l w h) (range nl)))) /\
    (forall l h, (0 <= l < nl)%Z -> (0 <= h < nh)%Z -> map (fun w => v' l w h) (range nw) = map fst (limitDiff A dh (map (fun w => v2 l w h) (range nw)))).
Proof.
  intros HS Ok (Hl & Hc & Hi) Hv.
  assert (Hd : db_good rec db db) by (split; [reflexivity | exact Ok]).
  assert (Cells : forall i j k, in_grid nl nw nh i j k -> stored_cells rec db (cell i j k)).
  { intros i j k B. destruct (Hc i j k B) as [O T]. split; [exact O|]. split; [exact T|]. destruct (Hv i j k B) as (h & Sh0 & I). exists h. split; [|exact Sh0].
    apply in_map_iff. exists (h, v i j k). split; [reflexivity | exact I]. }
  pose proof (shows_value G rec HS db db (v 0 0 0)%Z Hd) as Sh. set (p := value_at G db (v 0 0 0)%Z) in *.
  assert (GC : grid_cells (stored_cells rec db) lonlat locate nl nw nh cell) by (split; [exact Hl | split; assumption]).
  destruct (dirs_ok A G (stored_cells rec db) (db_good rec db) (contract_grid G rec HS db) lonlat locate nl nw nh cell GC dv dh db p Sh)
    as (db' & p1 & p2 & p' & E & Sh' & M1 & M2 & M3 & O).
  exists db', (fun i j k => p1 (cell i j k)), (fun i j k => p2 (cell i j k)), (fun i j k => p' (cell i j k)).
  split; [exact E|]. split; [apply (proj1 Sh')|]. split; [apply (shows_holds G rec HS db); assumption|].
  split; [apply (shows_elsewhere G rec HS db db p db' p'); assumption|]. split; [|split; assumption].
  intros l w Bl Bw. rewrite (M1 l w Bl Bw). do 2 f_equal. apply map_ext_on. intros h Ih. apply range_in in Ih.
  assert (B : in_grid nl nw nh l w h) by (repeat split; lia). destruct (Hv l w h B) as (x & Sx & I). symmetry.
  exact (shows_in G rec HS db db p x _ Sh (Cells _ _ _ B) Sx _ I).
Qed.

Lemma dirs_fields {X P S D} (A : arith P S D) (K : P -> X) nl nw nh dv dh (v v1 v2 v' : Z -> Z -> Z -> P) :
  (forall p x, K (ar_set A p x) = K p) ->
  (forall l w, (0 <= l < nl)%Z -> (0 <= w < nw)%Z -> map (fun h => v1 l w h) (range nh) = map fst (limitDiff A dv (map (fun h => v l w h) (range nh)))) ->
  (forall w h, (0 <= w < nw)%Z -> (0 <= h < nh)%Z -> map (fun l => v2 l w h) (range nl) = map fst (limitDiff A dh (map (fun l => v1 l w h) (range nl)))) ->
  (forall l h, (0 <= l < nl)%Z -> (0 <= h < nh)%Z -> map (fun w => v' l w h) (range nw) = map fst (limitDiff A dh (map (fun w => v2 l w h) (range nw)))) ->
  forall l w h, in_grid nl nw nh l w h -> K (v' l w h) = K (v l w h).
Proof.
  intros HK M1 M2 M3 l w h (B1 & B2 & B3).
  rewrite (line_fields A dh K HK nw _ _ (M3 l h B1 B3) w B2).
  rewrite (line_fields A dh K HK nl _ _ (M2 w h B2 B3) l B1).
  exact (line_fields A dv K HK nh _ _ (M1 l w B1 B2) h B3).
Qed.

(** A relation between the original and the present values, carried through the three passes. *)
Lemma line_rel {P S D} (A : arith P S D) (d : D) (Q Q' : P -> P -> Prop) :
  (forall l0 l, Forall2 Q l0 l -> Forall2 (fun p r => Q' p (fst r)) l0 (limitDiff A d l)) ->
  forall n (o u b : Z -> P), map b (range n) = map fst (limitDiff A d (map u (range n))) ->
  (forall i, (0 <= i < n)%Z -> Q (o i) (u i)) -> forall i, (0 <= i < n)%Z -> Q' (o i) (b i).
Proof.
  intros HQ n o u b E H i Hi. specialize (HQ (map o (range n)) (map u (range n))).
  assert (F : Forall2 Q (map o (range n)) (map u (range n))).
  { apply forall2_nth. split; [rewrite !map_length; reflexivity|]. intros m x y Hx Hy. apply range_nth_inv in Hx, Hy. destruct Hx as [B ->], Hy as [_ ->]. apply H. lia. }
  specialize (HQ F). apply forall2_nth in HQ. destruct HQ as [_ HQ].
  pose proof (range_nth o n i Hi) as N1. pose proof (range_nth b n i Hi) as N2. rewrite E, nth_error_map in N2.
  destruct (nth_error (limitDiff A d (map u (range n))) (Z.to_nat i)) as [r|] eqn:Er; [|discriminate N2]. cbn in N2. injection N2 as <-. exact (HQ _ _ _ N1 Er).
Qed.
Lemma dirs_rel {P S D} (A : arith P S D) (Q0 Q1 Q2 Q3 : P -> P -> Prop) nl nw nh dv dh (v v1 v2 v' : Z -> Z -> Z -> P) :
  (forall l0 l, Forall2 Q0 l0 l -> Forall2 (fun p r => Q1 p (fst r)) l0 (limitDiff A dv l)) ->
  (forall l0 l, Forall2 Q1 l0 l -> Forall2 (fun p r => Q2 p (fst r)) l0 (limitDiff A dh l)) ->
  (forall l0 l, Forall2 Q2 l0 l -> Forall2 (fun p r => Q3 p (fst r)) l0 (limitDiff A dh l)) ->
  (forall l w, (0 <= l < nl)%Z -> (0 <= w < nw)%Z -> map (fun h => v1 l w h) (range nh) = map fst (limitDiff A dv (map (fun h => v l w h) (range nh)))) ->
  (forall w h, (0 <= w < nw)%Z -> (0 <= h < nh)%Z -> map (fun l => v2 l w h) (range nl) = map fst (limitDiff A dh (map (fun l => v1 l w h) (range nl)))) ->
  (forall l h, (0 <= l < nl)%Z -> (0 <= h < nh)%Z -> map (fun w => v' l w h) (range nw) = map fst (limitDiff A dh (map (fun w => v2 l w h) (range nw)))) ->
  (forall l w h, in_grid nl nw nh l w h -> Q0 (v l w h) (v l w h)) ->
  forall l w h, in_grid nl nw nh l w h -> Q3 (v l w h) (v' l w h).
Proof.
  intros H1 H2 H3 M1 M2 M3 H0.
  assert (I1 : forall l w h, in_grid nl nw nh l w h -> Q1 (v l w h) (v1 l w h)).
  { intros l w h (B1 & B2 & B3). apply (line_rel A dv Q0 Q1 H1 nh (v l w) (v l w) (v1 l w) (M1 l w B1 B2)); [|exact B3]. intros i Hi. apply H0. split; [exact B1 | split; assumption]. }
  assert (I2 : forall l w h, in_grid nl nw nh l w h -> Q2 (v l w h) (v2 l w h)).
  { intros l w h (B1 & B2 & B3). apply (line_rel A dh Q1 Q2 H2 nl (fun l => v l w h) (fun l => v1 l w h) (fun l => v2 l w h) (M2 w h B2 B3)); [|exact B1]. intros i Hi. apply I1. split; [exact Hi | split; assumption]. }
  intros l w h (B1 & B2 & B3). apply (line_rel A dh Q2 Q3 H3 nw (fun w => v l w h) (fun w => v2 l w h) (fun w => v' l w h) (M3 l h B1 B3)); [|exact B2]. intros i Hi. apply I2. split; [exact B1 | split; assumption].
Qed.
Definition exact_keeps (p q : rpay) : Prop := 0 < r_vs p /\ 0 < r_vs q /\ exact_ratios p q.
Lemma exact_line d : 0 <= d -> forall l0 l, Forall2 exact_keeps l0 l -> Forall2 (fun p r => exact_keeps p (fst r)) l0 (limitDiff exact d l).
Proof.
  intros Hd l0 l H.
  assert (F : Forall (fun p => 0 < r_vs p) l) by (induction H as [|p q l0 l (_ & A & _) _ IH]; constructor; assumption).
  assert (F0 : Forall (fun p => 0 <= r_vs p) l) by (eapply Forall_impl; [|exact F]; cbn beta; intros; lra).
  pose proof (exact_entries d l Hd F0) as X. clear F0.
  assert (Y : Forall2 (fun (_ : rpay) r => True /\ 0 < r_vs (fst r)) l (limitDiff exact d l)).
  { apply (limitDiff_inv exact d (fun p => 0 < r_vs p)) with (Rel := fun _ _ => True); auto.
    intros n q Hn Hq. rewrite step_vs. apply Rmin_glb_lt; lra. }
  clear F. revert X Y. generalize (limitDiff exact d l). induction H as [|p q l0 l (P0 & P1 & R1 & R2 & R3 & R4) H IH]; intros rs X Y.
  - inversion X; subst. constructor.
  - inversion X as [|? [r c] ? rs' (_ & _ & E1 & E2 & E3 & E4 & _) X']; subst. inversion Y as [|? ? ? ? [_ Hr] Y']; subst. cbn [fst] in *.
    constructor; [|apply IH; assumption]. cbn [fst]. split; [exact P0|]. split; [exact Hr|].
    assert (T : forall a b c', b * r_vs p = a * r_vs q -> c' * r_vs q = b * r_vs r -> c' * r_vs p = a * r_vs r).
    { intros a b c' U W. apply (Rmult_eq_reg_r (r_vs q)); [|lra]. replace (c' * r_vs p * r_vs q) with (c' * r_vs q * r_vs p) by ring. rewrite W.
      replace (b * r_vs r * r_vs p) with (b * r_vs p * r_vs r) by ring. rewrite U. ring. }
    split; [exact (T _ _ _ R1 E1)|]. split; [exact (T _ _ _ R2 E2)|]. split; [exact (T _ _ _ R3 E3) | exact (T _ _ _ R4 E4)].
Qed.
Lemma machine_kept p q : keeps 18 p q -> ratios_kept (bpow radix2 (-19)) p q.
Proof.
  intros (_ & _ & R1 & R2 & R3 & R4).
  assert (C : forall x0 x, same_ratio 18 x0 (p_vs p) x (p_vs q) -> scaled_within (bpow radix2 (-19)) p q x0 x).
  { intros x0 x S O. destruct (S O) as (A & e & T & E). split; [exact A|]. exists e. split; [|exact E]. unfold tiny in T.
    replace (bpow radix2 (-19)) with (32 * bpow radix2 (-24)) by (cbn; lra). pose proof (bpow_gt_0 radix2 (-24)). lra. }
  split; [|split; [|split]]; apply C; assumption.
Qed.

Lemma dirs_exact {DB LL} (G : gstore DB rpay) rec (lonlat : Z -> Z -> outcome LL) locate nl nw nh cell dv dh db v :
  0 <= dv -> 0 <= dh ->
  stores G rec -> records_ok (rec db) -> grid_points lonlat locate nl nw nh cell -> holds_grid (rec db) nl nw nh cell v ->
  exists db' v', gradeDirs exact G lonlat locate nl nw nh dv dh db = Val db' /\
    records_ok (rec db') /\ holds_grid (rec db') nl nw nh cell v' /\ same_elsewhere (rec db) (rec db') nl nw nh cell /\
    largest_limited3 nl nw nh dv dh (fun i j k => r_vs (v i j k)) (fun i j k => r_vs (v' i j k)) /\
    ((forall i j k, in_grid nl nw nh i j k -> 0 < r_vs (v i j k)) -> forall i j k, in_grid nl nw nh i j k -> exact_ratios (v i j k) (v' i j k)) /\
    forall i j k, in_grid nl nw nh i j k -> r_dfs (v' i j k) = r_dfs (v i j k) /\ r_block (v' i j k) = r_block (v i j k) /\ r_zone (v' i j k) = r_zone (v i j k).
Proof.
  intros Hv Hh HS Ok GP HG. destruct (dirs_db exact G rec lonlat locate nl nw nh cell dv dh db v HS Ok GP HG) as (db' & v1 & v2 & v' & E & Ok' & H' & O & M1 & M2 & M3).
  exists db', v'. split; [exact E|]. split; [exact Ok'|]. split; [exact H'|]. split; [exact O|]. 
  assert (Ln : forall n d (u b : Z -> rpay), 0 <= d -> map b (range n) = map fst (limitDiff exact d (map u (range n))) ->
    line_largest n d (fun i => r_vs (u i)) (fun i => r_vs (b i))).
  { intros n d u b Hd Q. apply line_largest_of; [exact Hd|]. rewrite <- (map_map b r_vs), Q, <- (map_map u r_vs), <- limitDiff_vs, map_map. reflexivity. }
  split.
  - apply (three_passes nl nw nh dv dh _ (fun i j k => r_vs (v1 i j k)) (fun i j k => r_vs (v2 i j k))).
    + intros l w B1 B2. exact (Ln nh dv (v l w) (v1 l w) Hv (M1 l w B1 B2)).
    + intros w h B2 B3. exact (Ln nl dh (fun l => v1 l w h) (fun l => v2 l w h) Hh (M2 w h B2 B3)).
    + intros l h B1 B3. exact (Ln nw dh (fun w => v2 l w h) (fun w => v' l w h) Hh (M3 l h B1 B3)).
  - split.
    { intros Pos. assert (K : forall i j k, in_grid nl nw nh i j k -> exact_keeps (v i j k) (v' i j k)).
      { apply (dirs_rel exact exact_keeps exact_keeps exact_keeps exact_keeps nl nw nh dv dh v v1 v2 v'); try assumption; try (apply exact_line; assumption).
        intros l w h B. specialize (Pos l w h B). repeat split; auto. }
      intros i j k B. apply (K i j k B). }
    intros i j k B. split; [|split].
    + exact (dirs_fields exact r_dfs nl nw nh dv dh v v1 v2 v' (fun _ _ => eq_refl) M1 M2 M3 i j k B).
    + exact (dirs_fields exact r_block nl nw nh dv dh v v1 v2 v' (fun _ _ => eq_refl) M1 M2 M3 i j k B).
    + exact (dirs_fields exact r_zone nl nw nh dv dh v v1 v2 v' (fun _ _ => eq_refl) M1 M2 M3 i j k B).
Qed.

Lemma scaled_singles p x : singles p -> singles (scaled p x).
Proof.
  unfold singles, scaled. cbn [p_vp p_vs p_density p_qp p_qs p_dfs]. intros F.
  do 5 (apply Forall_cons; [apply (FloatFacts.convert_valid prec32 emax32 FloatFacts.Hp32 FloatFacts.Hm32)|]). do 5 apply Forall_inv_tail in F. exact F.
Qed.
Lemma limitDiff_singles d l0 l : Forall2 (fun p q => singles p -> singles q) l0 l ->
  Forall2 (fun p (r : payload * bool) => singles p -> singles (fst r)) l0 (limitDiff machine d l).
Proof.
  assert (H : Forall2 (fun q (r : payload * bool) => singles q -> singles (fst r)) l (limitDiff machine d l)).
  { apply limitDiff_rel; [intros q F; exact F|]. intros q0 q c m H _ F. cbn [fst] in *. apply scaled_singles, H, F. }
  revert H. generalize (limitDiff machine d l). intros m H F. revert m H.
  induction F as [|p q l0 l R _ IH]; intros m H; inversion H; subst; constructor; auto.
Qed.

Lemma dirs_machine {DB LL} (G : gstore DB payload) rec (lonlat : Z -> Z -> outcome LL) locate nl nw nh cell dv dh db v M :
  (0 <= nl)%Z -> (0 <= nw)%Z -> (0 <= nh)%Z -> 0 <= M ->
  finite_double dv -> 0 <= value dv -> finite_double dh -> 0 <= value dh ->
  stores G rec -> records_ok (rec db) -> grid_points lonlat locate nl nw nh cell -> holds_grid (rec db) nl nw nh cell v ->
  (forall i j k, in_grid nl nw nh i j k -> speed_upto M (v i j k)) ->
  exists db' v', gradeDirs machine G lonlat locate nl nw nh dv dh db = Val db' /\
    records_ok (rec db') /\ holds_grid (rec db') nl nw nh cell v' /\ same_elsewhere (rec db) (rec db') nl nw nh cell /\
    below3 nl nw nh (fun i j k => value (p_vs (v' i j k))) (fun i j k => value (p_vs (v i j k))) /\
    (exists b, largest_limited3 nl nw nh (value dv) (value dh) (fun i j k => value (p_vs (v i j k))) b /\
    forall i j k, in_grid nl nw nh i j k -> Rabs (value (p_vs (v' i j k)) - b i j k) <= 2 * IZR (nl + nw + nh) * slack M) /\
    ((forall i j k, in_grid nl nw nh i j k -> speed_ordinary (v i j k)) ->
     forall i j k, in_grid nl nw nh i j k -> ratios_kept (bpow radix2 (-19)) (v i j k) (v' i j k)) /\
    forall i j k, in_grid nl nw nh i j k -> speed_upto M (v' i j k) /\ (singles (v i j k) -> singles (v' i j k)) /\
    p_dfs (v' i j k) = p_dfs (v i j k) /\ p_block (v' i j k) = p_block (v i j k) /\ p_zone (v' i j k) = p_zone (v i j k).
Proof.
  intros Nl Nw Nh HM Fv Hv Fh Hh HS Ok GP HG Sp. destruct (dirs_db machine G rec lonlat locate nl nw nh cell dv dh db v HS Ok GP HG) as (db' & v1 & v2 & v' & E & Ok' & H' & O & M1 & M2 & M3).
  exists db', v'. split; [exact E|]. split; [exact Ok'|]. split; [exact H'|]. split; [exact O|].
  assert (Ln : forall n d (u b : Z -> payload), (0 <= n)%Z -> finite_double d -> 0 <= value d -> map b (range n) = map fst (limitDiff machine d (map u (range n))) ->
    (forall i, (0 <= i < n)%Z -> speed_upto M (u i)) ->
    (forall i, (0 <= i < n)%Z -> speed_upto M (b i)) /\ line_near n (value d) (2 * IZR n * slack M) (fun i => value (p_vs (u i))) (fun i => value (p_vs (b i)))).
  { intros n d u b Hn Fd Hd Q Hu. assert (F : Forall (good M) (map u (range n))).
    { apply Forall_forall. intros x I. apply in_map_iff in I. destruct I as (i & <- & I). apply range_in in I. exact (Hu i I). }
    destruct (limitDiff_near M d Fd Hd _ F) as [G1 A]. split.
    - intros i Hi. pose proof (range_nth b n i Hi) as N. rewrite Q in N. apply nth_error_In in N. apply in_map_iff in N. destruct N as (r & <- & I).
      rewrite Forall_forall in G1. exact (G1 r I).
    - apply line_near_of; [exact Hd | apply slack_pos, HM | exact Hn|].
      rewrite map_map in A. rewrite <- (map_map b (fun p => value (p_vs p))), Q, map_map. exact A. }
  assert (S1 : forall i j k, in_grid nl nw nh i j k -> speed_upto M (v1 i j k)).
  { intros i j k (B1 & B2 & B3). apply (Ln nh dv (v i j) (v1 i j) Nh Fv Hv (M1 i j B1 B2)); [|exact B3]. intros x Bx. apply Sp. repeat split; lia. }
  assert (S2 : forall i j k, in_grid nl nw nh i j k -> speed_upto M (v2 i j k)).
  { intros i j k (B1 & B2 & B3). apply (Ln nl dh (fun l => v1 l j k) (fun l => v2 l j k) Nl Fh Hh (M2 j k B2 B3)); [|exact B1]. intros x Bx. apply S1. repeat split; lia. }
  destruct (three_near nl nw nh (value dv) (value dh) (2 * IZR nh * slack M) (2 * IZR nl * slack M) (2 * IZR nw * slack M)
    (fun i j k => value (p_vs (v i j k))) (fun i j k => value (p_vs (v1 i j k))) (fun i j k => value (p_vs (v2 i j k))) (fun i j k => value (p_vs (v' i j k))) Hv Hh) as [Bl (b & Lb & Db)].
  - intros l w B1 B2. apply (Ln nh dv (v l w) (v1 l w) Nh Fv Hv (M1 l w B1 B2)). intros x Bx. apply Sp. repeat split; lia.
  - intros w h B2 B3. apply (Ln nl dh (fun l => v1 l w h) (fun l => v2 l w h) Nl Fh Hh (M2 w h B2 B3)). intros x Bx. apply S1. repeat split; lia.
  - intros l h B1 B3. apply (Ln nw dh (fun w => v2 l w h) (fun w => v' l w h) Nw Fh Hh (M3 l h B1 B3)). intros x Bx. apply S2. repeat split; lia.
  - split; [exact Bl|]. split.
    + exists b. split; [exact Lb|]. intros i j k B. specialize (Db i j k B). rewrite !plus_IZR. lra.
    + split.
      { intros Or i j k B. apply machine_kept. revert i j k B.
        apply (dirs_rel machine (keeps 0) (keeps 6) (keeps 12) (keeps 18) nl nw nh dv dh v v1 v2 v'); try assumption.
        - intros l0 l F. replace 6 with (0 + 6) by ring. apply limitDiff_ratio_from; try assumption. lra.
        - intros l0 l F. replace 12 with (6 + 6) by ring. apply limitDiff_ratio_from; try assumption. lra.
        - intros l0 l F. replace 18 with (12 + 6) by ring. apply limitDiff_ratio_from; try assumption. lra.
        - intros l w h B. split; [apply Or, B|]. split; [apply Or, B | apply ratios_refl]. }
      intros i j k B. split; [|split; [|split; [|split]]].
      * destruct B as (B1 & B2 & B3). apply (Ln nw dh (fun w => v2 i w k) (fun w => v' i w k) Nw Fh Hh (M3 i k B1 B3)); [|exact B2]. intros x Bx. apply S2. repeat split; lia.
      * revert i j k B. apply (dirs_rel machine (fun p q => singles p -> singles q) (fun p q => singles p -> singles q) (fun p q => singles p -> singles q) (fun p q => singles p -> singles q)
          nl nw nh dv dh v v1 v2 v'); try assumption; try (intros l0 l; apply limitDiff_singles). auto.
      * exact (dirs_fields machine p_dfs nl nw nh dv dh v v1 v2 v' (fun _ _ => eq_refl) M1 M2 M3 i j k B).
      * exact (dirs_fields machine p_block nl nw nh dv dh v v1 v2 v' (fun _ _ => eq_refl) M1 M2 M3 i j k B).
      * exact (dirs_fields machine p_zone nl nw nh dv dh v v1 v2 v' (fun _ _ => eq_refl) M1 M2 M3 i j k B).
Qed.
