(** Proofs about grading a grid stored in a database. *)
From Coq Require Import ZArith Bool Reals Lra Lia FinFun List.
From Verif Require Import Outcome Float Payload Addr VsGrader SpecGrade GradeFacts.
Import ListNotations.
Open Scope Z_scope.

(** ** Lists *)
Lemma range_in n i : In i (range n) <-> 0 <= i < n.
Proof.
  unfold range. rewrite in_map_iff. split.
  - intros (k & <- & I). apply in_seq in I. lia.
  - intros H. exists (Z.to_nat i). split; [lia|]. apply in_seq. lia.
Qed.
Lemma range_nodup n : NoDup (range n).
Proof. unfold range. apply FinFun.Injective_map_NoDup; [intros a b H; lia | apply seq_NoDup]. Qed.
Lemma nodup_app {X} (a b : list X) : NoDup a -> NoDup b -> (forall x, In x a -> ~ In x b) -> NoDup (a ++ b).
Proof.
  intros Ha Hb D. induction Ha as [|x a N Ha IH]; [exact Hb|]. cbn [app]. constructor.
  - rewrite in_app_iff. intros [I|I]; [exact (N I) | exact (D x (or_introl eq_refl) I)].
  - apply IH. intros y I. apply D. right. exact I.
Qed.
Lemma nodup_prod {X Y} (a : list X) (b : list Y) : NoDup a -> NoDup b -> NoDup (list_prod a b).
Proof.
  intros Ha Hb. induction Ha as [|x a N Ha IH]; [constructor|]. cbn [list_prod]. apply nodup_app.
  - apply FinFun.Injective_map_NoDup; [|exact Hb]. intros u v H. injection H as ->. reflexivity.
  - exact IH.
  - intros p I J. apply in_map_iff in I. destruct I as (y & <- & _). apply in_prod_iff in J. apply N, J.
Qed.
Lemma nodup_map_on {X Y} (f : X -> Y) l : (forall a b, In a l -> In b l -> f a = f b -> a = b) -> NoDup l -> NoDup (map f l).
Proof.
  intros Inj H. induction H as [|x l N H IH]; [constructor|]. cbn [map]. constructor.
  - intros I. apply in_map_iff in I. destruct I as (y & Q & I). apply N. rewrite (Inj x y); auto using in_eq, in_cons.
  - apply IH. intros a b A B. apply Inj; right; assumption.
Qed.

Lemma foldM_app {X Y} (f : Y -> X -> outcome Y) a b y : foldM f (a ++ b) y = (let* y' := foldM f a y in foldM f b y')%outcome.
Proof. revert y. induction a as [|x a IH]; intros y; [reflexivity|]. cbn [app foldM]. destruct (f y x); cbn; auto. Qed.
Lemma foldM_map {X X' Y} (f : Y -> X -> outcome Y) (g : X' -> X) l y : foldM f (map g l) y = foldM (fun y x => f y (g x)) l y.
Proof. revert y. induction l as [|x l IH]; intros y; [reflexivity|]. cbn [map foldM]. destruct (f y (g x)); cbn; auto. Qed.
Lemma foldM_prod {X X' Y} (f : Y -> X -> X' -> outcome Y) a b y :
  foldM (fun y x => foldM (fun y x' => f y x x') b y) a y = foldM (fun y p => f y (fst p) (snd p)) (list_prod a b) y.
Proof.
  revert y. induction a as [|x a IH]; intros y; [reflexivity|]. cbn [list_prod foldM]. rewrite foldM_app, foldM_map. cbn [fst snd].
  destruct (foldM _ b y); cbn [bind]; auto.
Qed.
Lemma foldM_ext {X Y} (f g : Y -> X -> outcome Y) l : (forall y x, In x l -> f y x = g y x) -> forall y, foldM f l y = foldM g l y.
Proof.
  induction l as [|x l IH]; intros H y; [reflexivity|]. cbn [foldM]. rewrite (H y x) by (left; reflexivity).
  destruct (g y x); cbn; auto. apply IH. intros y' x' I. apply H. right. exact I.
Qed.
Lemma map_ext_on {X Y} (f g : X -> Y) l : (forall x, In x l -> f x = g x) -> map f l = map g l.
Proof. apply map_ext_in. Qed.

Section Store.
Context {P S D DB : Type}.
Variable A : arith P S D.
Variable G : gstore DB P.
(** Contract of the storage library on the octants [cells], while [ok] holds of the
    database: they are found, they can be updated, and an update changes nothing else. *)
Definition grid_store (cells : addr -> Prop) (ok : DB -> Prop) : Prop :=
  (forall db a, ok db -> cells a -> exists q, gs_search G db a = Some q) /\
  (forall db a p, ok db -> cells a -> exists db', gs_update G db a p = Some db' /\ ok db' /\
     gs_search G db' a = Some p /\ forall a', cells a' -> a' <> a -> gs_search G db' a' = gs_search G db a').
Variable cells : addr -> Prop.
Variable ok : DB -> Prop.
Hypothesis HG : grid_store cells ok.

(** The database holds the values [p]. *)
Definition shows (db : DB) (p : addr -> P) : Prop := ok db /\ forall a, cells a -> gs_search G db a = Some (p a).

Lemma pull_all db p as_ : shows db p -> Forall cells as_ -> mapM (pullData G db) (map Val as_) = Val (map p as_).
Proof.
  intros [_ H] F. induction F as [|a l Ha F IH]; [reflexivity|]. cbn [map mapM]. unfold pullData at 1. cbn [bind].
  rewrite (H a Ha). cbn [bind]. rewrite IH. reflexivity.
Qed.
Definition push (db : DB) (x : outcome addr * (P * bool)) : outcome DB :=
  let '(a, (p, c)) := x in if c then pushData G db a p else Val db.
Lemma push_all : forall as_ rs db p, shows db p -> Forall cells as_ -> NoDup as_ ->
  Forall2 (fun a r => snd r = false -> fst r = p a) as_ rs ->
  exists db' p', foldM push (combine (map Val as_) rs) db = Val db' /\ shows db' p' /\
    map p' as_ = map fst rs /\ forall a, cells a -> ~ In a as_ -> p' a = p a.
Proof.
  induction as_ as [|a as_ IH]; intros rs db p Sh F N R; inversion R as [|? [q c] ? rs' Hr R']; subst.
  - exists db, p. split; [reflexivity|]. split; [exact Sh|]. split; [reflexivity | auto].
  - inversion F as [|? ? Ha F']; subst. inversion N as [|? ? Na N']; subst. cbn [map combine foldM push].
    assert (exists db1 p1, (if c then pushData G db (Val a) q else Val db) = Val db1 /\ shows db1 p1 /\ p1 a = q /\
      forall b, cells b -> b <> a -> p1 b = p b) as (db1 & p1 & E & Sh1 & Q & O).
    { destruct c.
      - destruct Sh as [Ok Hp]. destruct (proj2 HG db a q Ok Ha) as (db1 & U & Ok1 & S1 & O).
        exists db1, (fun b => match gs_search G db1 b with Some r => r | None => q end).
        unfold pushData. cbn [bind]. rewrite U. split; [reflexivity|]. split; [split; [exact Ok1|]|split].
        + intros b Hb. destruct (proj1 HG db1 b Ok1 Hb) as (r & Hr'). rewrite Hr'. reflexivity.
        + rewrite S1. reflexivity.
        + intros b Hb Nb. rewrite (O b Hb Nb), (Hp b Hb). reflexivity.
      - exists db, p. split; [reflexivity|]. split; [exact Sh|]. split; [symmetry; apply Hr; reflexivity | auto]. }
    rewrite E. cbn [bind].
    destruct (IH rs' db1 p1 Sh1 F' N') as (db' & p' & E' & Sh' & M & O').
    { rewrite Forall_forall in F'. clear -R' O Na F'. induction R' as [|b r as_ rs H R IH]; constructor.
      - intros K. rewrite (H K). symmetry. apply O; [apply F'; left; reflexivity | intros ->; apply Na; left; reflexivity].
      - apply IH; [intros x I; apply F'; right; exact I | intros I; apply Na; right; exact I]. }
    exists db', p'. split; [exact E'|]. split; [exact Sh'|]. split.
    + cbn [map fst]. rewrite M, (O' a Ha Na), Q. reflexivity.
    + intros b Hb Nb. rewrite (O' b Hb), (O b Hb); [reflexivity | intros ->; apply Nb; left; reflexivity | intros I; apply Nb; right; exact I].
Qed.

Lemma gradeLine_ok d as_ db p : shows db p -> Forall cells as_ -> NoDup as_ ->
  exists db' p', gradeLine A G d (map Val as_) db = Val db' /\ shows db' p' /\
    map p' as_ = map fst (limitDiff A d (map p as_)) /\ forall a, cells a -> ~ In a as_ -> p' a = p a.
Proof.
  intros Sh F N. unfold gradeLine. rewrite (pull_all db p as_ Sh F). cbn [bind]. change (foldM _ _ db) with (foldM push (combine (map Val as_) (limitDiff A d (map p as_))) db).
  apply push_all; [exact Sh | exact F | exact N|].
  assert (R : Forall2 (fun q r => snd r = false -> fst r = q) (map p as_) (limitDiff A d (map p as_))).
  { apply (limitDiff_rel A d (fun q r => snd r = false -> fst r = q)); [reflexivity|]. intros q0 q c n _ _ H. discriminate H. }
  clear -R. remember (map p as_) as m eqn:Em. revert as_ Em. induction R as [|q r m rs H R IH]; intros [|a as_] Em; try discriminate Em; constructor.
  - injection Em as -> _. exact H.
  - apply IH. injection Em as _ ->. reflexivity.
Qed.

(** Several lines without common octants. *)
Lemma lines_ok {K} d (line : K -> list addr) : forall ks db p, shows db p -> NoDup ks ->
  (forall k, In k ks -> Forall cells (line k) /\ NoDup (line k)) ->
  (forall k k' a, In k ks -> In k' ks -> In a (line k) -> In a (line k') -> k = k') ->
  exists db' p', foldM (fun db k => gradeLine A G d (map Val (line k)) db) ks db = Val db' /\ shows db' p' /\
    (forall k, In k ks -> map p' (line k) = map fst (limitDiff A d (map p (line k)))) /\
    forall a, cells a -> (forall k, In k ks -> ~ In a (line k)) -> p' a = p a.
Proof.
  induction ks as [|k ks IH]; intros db p Sh N F Dj.
  - exists db, p. split; [reflexivity|]. split; [exact Sh|]. split; [intros k [] | auto].
  - inversion N as [|? ? Nk N']; subst. destruct (F k (or_introl eq_refl)) as [Fk Nl].
    destruct (gradeLine_ok d (line k) db p Sh Fk Nl) as (db1 & p1 & E1 & Sh1 & M1 & O1).
    destruct (IH db1 p1 Sh1 N') as (db' & p' & E' & Sh' & M' & O').
    { intros k' I. apply F. right. exact I. }
    { intros k1 k2 a I1 I2. apply Dj; right; assumption. }
    exists db', p'. cbn [foldM]. rewrite E1. cbn [bind]. split; [exact E'|]. split; [exact Sh'|].
    assert (Off : forall k', In k' ks -> forall a, In a (line k') -> p1 a = p a).
    { intros k' I a Ia. apply O1; [|intros J; apply Nk; rewrite (Dj k k' a); auto using in_eq, in_cons].
      destruct (F k' (or_intror I)) as [Fk' _]. rewrite Forall_forall in Fk'. exact (Fk' a Ia). }
    split.
    + intros k' [<-|I].
      * rewrite <- M1. apply map_ext_on. intros a Ia. apply O'.
        -- rewrite Forall_forall in Fk. exact (Fk a Ia).
        -- intros k' I J. apply Nk. rewrite (Dj k k' a); auto using in_eq, in_cons.
      * rewrite (M' k' I). rewrite (map_ext_on p1 p (line k') (Off k' I)). reflexivity.
    + intros a Ha Na. rewrite (O' a Ha), (O1 a Ha); [reflexivity | apply Na; left; reflexivity | intros k' I; apply Na; right; exact I].
Qed.

(** ** The three passes *)
Context {LL : Type}.
Variable lonlat : Z -> Z -> outcome LL.
Variable locate : LL -> Z -> outcome addr.
Variables nl nw nh : Z.
Variable cell : Z -> Z -> Z -> addr.
(** The grid points have distinct octants, all among [cells]. *)
Definition grid_cells : Prop :=
  (forall l w, 0 <= l < nl -> 0 <= w < nw -> exists ll, lonlat l w = Val ll /\
     forall h, 0 <= h < nh -> locate ll h = Val (cell l w h)) /\
  (forall l w h, in_grid nl nw nh l w h -> cells (cell l w h)) /\
  (forall l w h l' w' h', in_grid nl nw nh l w h -> in_grid nl nw nh l' w' h' ->
     cell l w h = cell l' w' h' -> l = l' /\ w = w' /\ h = h').
Hypothesis HC : grid_cells.
Variables dv dh : D.

Ltac in_grids := repeat match goal with
  | H : In _ (range _) |- _ => apply range_in in H
  | H : In (_, _) (list_prod _ _) |- _ => apply in_prod_iff in H; destruct H
  end.

Lemma vert_ok db p : shows db p -> exists db' p', gradeVert A G lonlat locate nl nw nh dv db = Val db' /\ shows db' p' /\
  (forall l w, 0 <= l < nl -> 0 <= w < nw ->
     map (fun h => p' (cell l w h)) (range nh) = map fst (limitDiff A dv (map (fun h => p (cell l w h)) (range nh)))) /\
  forall a, cells a -> (forall l w h, in_grid nl nw nh l w h -> a <> cell l w h) -> p' a = p a.
Proof.
  intros Sh. destruct HC as (Hl & Hc & Hi).
  set (line := fun k : Z * Z => map (cell (fst k) (snd k)) (range nh)).
  destruct (lines_ok dv line (list_prod (range nl) (range nw)) db p Sh) as (db' & p' & E & Sh' & M & O).
  - apply nodup_prod; apply range_nodup.
  - intros [l w] I. in_grids. unfold line. cbn [fst snd]. split.
    + apply Forall_forall. intros a Ia. apply in_map_iff in Ia. destruct Ia as (h & <- & Ih). in_grids. apply Hc. repeat split; lia.
    + apply nodup_map_on; [|apply range_nodup]. intros a b Ia Ib Q. in_grids. apply (Hi l w a l w b); repeat split; lia || exact Q.
  - intros [l w] [l' w'] a I I' Ia Ia'. unfold line in *. cbn [fst snd] in *. in_grids.
    apply in_map_iff in Ia. destruct Ia as (h & Q & Ih). apply in_map_iff in Ia'. destruct Ia' as (h' & Q' & Ih'). in_grids.
    destruct (Hi l w h l' w' h') as (-> & -> & _); [repeat split; lia.. | congruence |]. reflexivity.
  - exists db', p'. split; [|split; [exact Sh'|split]].
    + unfold gradeVert. rewrite foldM_prod. rewrite <- E. apply foldM_ext. intros y [l w] I. in_grids. cbn [fst snd].
      destruct (Hl l w ltac:(lia) ltac:(lia)) as (ll & El & Ell). rewrite El. cbn [bind]. f_equal. unfold line. cbn [fst snd]. rewrite map_map.
      apply map_ext_on. intros h Ih. in_grids. apply Ell. lia.
    + intros l w H1 H2. specialize (M (l, w)). unfold line in M. cbn [fst snd] in M. rewrite !map_map in M. apply M.
      apply in_prod_iff. rewrite !range_in. lia.
    + intros a Ha Na. apply O; [exact Ha|]. intros [l w] I J. unfold line in J. cbn [fst snd] in J. in_grids. apply in_map_iff in J. destruct J as (h & Q & Ih). in_grids.
      apply (Na l w h); [repeat split; lia | congruence].
Qed.
Lemma len_ok db p : shows db p -> exists db' p', gradeLen A G lonlat locate nl nw nh dh db = Val db' /\ shows db' p' /\
  (forall w h, 0 <= w < nw -> 0 <= h < nh ->
     map (fun l => p' (cell l w h)) (range nl) = map fst (limitDiff A dh (map (fun l => p (cell l w h)) (range nl)))) /\
  forall a, cells a -> (forall l w h, in_grid nl nw nh l w h -> a <> cell l w h) -> p' a = p a.
Proof.
  intros Sh. destruct HC as (Hl & Hc & Hi).
  set (line := fun k : Z * Z => map (fun l => cell l (snd k) (fst k)) (range nl)).
  destruct (lines_ok dh line (list_prod (range nh) (range nw)) db p Sh) as (db' & p' & E & Sh' & M & O).
  - apply nodup_prod; apply range_nodup.
  - intros [h w] I. in_grids. unfold line. cbn [fst snd]. split.
    + apply Forall_forall. intros a Ia. apply in_map_iff in Ia. destruct Ia as (l & <- & Il). in_grids. apply Hc. repeat split; lia.
    + apply nodup_map_on; [|apply range_nodup]. intros a b Ia Ib Q. in_grids. apply (Hi a w h b w h); repeat split; lia || exact Q.
  - intros [h w] [h' w'] a I I' Ia Ia'. unfold line in *. cbn [fst snd] in *. in_grids.
    apply in_map_iff in Ia. destruct Ia as (l & Q & Il). apply in_map_iff in Ia'. destruct Ia' as (l' & Q' & Il'). in_grids.
    destruct (Hi l w h l' w' h') as (_ & -> & ->); [repeat split; lia.. | congruence |]. reflexivity.
  - exists db', p'. split; [|split; [exact Sh'|split]].
    + unfold gradeLen. rewrite foldM_prod. rewrite <- E. apply foldM_ext. intros y [h w] I. in_grids. cbn [fst snd].
      f_equal. unfold line. cbn [fst snd]. rewrite map_map.
      apply map_ext_on. intros l Il. in_grids. destruct (Hl l w ltac:(lia) ltac:(lia)) as (ll & El & Ell). rewrite El. cbn [bind]. apply Ell. lia.
    + intros w h H1 H2. specialize (M (h, w)). unfold line in M. cbn [fst snd] in M. rewrite !map_map in M. apply M.
      apply in_prod_iff. rewrite !range_in. lia.
    + intros a Ha Na. apply O; [exact Ha|]. intros [h w] I J. unfold line in J. cbn [fst snd] in J. in_grids. apply in_map_iff in J. destruct J as (l & Q & Il). in_grids.
      apply (Na l w h); [repeat split; lia | congruence].
Qed.
Lemma width_ok db p : shows db p -> exists db' p', gradeWidth A G lonlat locate nl nw nh dh db = Val db' /\ shows db' p' /\
  (forall l h, 0 <= l < nl -> 0 <= h < nh ->
     map (fun w => p' (cell l w h)) (range nw) = map fst (limitDiff A dh (map (fun w => p (cell l w h)) (range nw)))) /\
  forall a, cells a -> (forall l w h, in_grid nl nw nh l w h -> a <> cell l w h) -> p' a = p a.
Proof.
  intros Sh. destruct HC as (Hl & Hc & Hi).
  set (line := fun k : Z * Z => map (fun w => cell (snd k) w (fst k)) (range nw)).
  destruct (lines_ok dh line (list_prod (range nh) (range nl)) db p Sh) as (db' & p' & E & Sh' & M & O).
  - apply nodup_prod; apply range_nodup.
  - intros [h l] I. in_grids. unfold line. cbn [fst snd]. split.
    + apply Forall_forall. intros a Ia. apply in_map_iff in Ia. destruct Ia as (w & <- & Iw). in_grids. apply Hc. repeat split; lia.
    + apply nodup_map_on; [|apply range_nodup]. intros a b Ia Ib Q. in_grids. apply (Hi l a h l b h); repeat split; lia || exact Q.
  - intros [h l] [h' l'] a I I' Ia Ia'. unfold line in *. cbn [fst snd] in *. in_grids.
    apply in_map_iff in Ia. destruct Ia as (w & Q & Iw). apply in_map_iff in Ia'. destruct Ia' as (w' & Q' & Iw'). in_grids.
    destruct (Hi l w h l' w' h') as (-> & _ & ->); [repeat split; lia.. | congruence |]. reflexivity.
  - exists db', p'. split; [|split; [exact Sh'|split]].
    + unfold gradeWidth. rewrite foldM_prod. rewrite <- E. apply foldM_ext. intros y [h l] I. in_grids. cbn [fst snd].
      f_equal. unfold line. cbn [fst snd]. rewrite map_map.
      apply map_ext_on. intros w Iw. in_grids. destruct (Hl l w ltac:(lia) ltac:(lia)) as (ll & El & Ell). rewrite El. cbn [bind]. apply Ell. lia.
    + intros l h H1 H2. specialize (M (h, l)). unfold line in M. cbn [fst snd] in M. rewrite !map_map in M. apply M.
      apply in_prod_iff. rewrite !range_in. lia.
    + intros a Ha Na. apply O; [exact Ha|]. intros [h l] I J. unfold line in J. cbn [fst snd] in J. in_grids. apply in_map_iff in J. destruct J as (w & Q & Iw). in_grids.
      apply (Na l w h); [repeat split; lia | congruence].
Qed.

(** The three passes one after the other. *)
Lemma dirs_ok db p : shows db p -> exists db' p1 p2 p', gradeDirs A G lonlat locate nl nw nh dv dh db = Val db' /\ shows db' p' /\
  (forall l w, 0 <= l < nl -> 0 <= w < nw ->
     map (fun h => p1 (cell l w h)) (range nh) = map fst (limitDiff A dv (map (fun h => p (cell l w h)) (range nh)))) /\
  (forall w h, 0 <= w < nw -> 0 <= h < nh ->
     map (fun l => p2 (cell l w h)) (range nl) = map fst (limitDiff A dh (map (fun l => p1 (cell l w h)) (range nl)))) /\
  (forall l h, 0 <= l < nl -> 0 <= h < nh ->
     map (fun w => p' (cell l w h)) (range nw) = map fst (limitDiff A dh (map (fun w => p2 (cell l w h)) (range nw)))) /\
  forall a, cells a -> (forall l w h, in_grid nl nw nh l w h -> a <> cell l w h) -> p' a = p a.
Proof.
  intros Sh. destruct (vert_ok db p Sh) as (db1 & p1 & E1 & Sh1 & M1 & O1).
  destruct (len_ok db1 p1 Sh1) as (db2 & p2 & E2 & Sh2 & M2 & O2).
  destruct (width_ok db2 p2 Sh2) as (db3 & p3 & E3 & Sh3 & M3 & O3).
  exists db3, p1, p2, p3. unfold gradeDirs. rewrite E1. cbn [bind]. rewrite E2. cbn [bind]. split; [exact E3|]. split; [exact Sh3|].
  split; [exact M1|]. split; [exact M2|]. split; [exact M3|]. intros a Ha Na. rewrite O3, O2, O1; auto.
Qed.
End Store.

(** ** Exact arithmetic: the passes together *)
Open Scope R_scope.
Lemma range_nth {X} (u : Z -> X) n i : (0 <= i < n)%Z -> nth_error (map u (range n)) (Z.to_nat i) = Some (u i).
Proof.
  intros H. unfold range. rewrite map_map.
  rewrite nth_error_map. rewrite (nth_error_nth' _ 0%nat) by (rewrite seq_length; lia). rewrite seq_nth by lia. cbn. f_equal. f_equal. lia.
Qed.
Lemma range_nth_inv {X} (u : Z -> X) n i x : nth_error (map u (range n)) i = Some x -> (Z.of_nat i < n)%Z /\ x = u (Z.of_nat i).
Proof.
  intros H. assert (B : (i < length (map u (range n)))%nat) by (apply nth_error_Some; congruence).
  unfold range in B. rewrite !map_length, seq_length in B. split; [lia|].
  pose proof (range_nth u n (Z.of_nat i) ltac:(lia)) as Q. rewrite Nat2Z.id in Q. congruence.
Qed.
Lemma limited_range d u n : limited d (map u (range n)) <-> forall i, (0 <= i)%Z -> (i + 1 < n)%Z -> Rabs (u i - u (i + 1)%Z) <= d.
Proof.
  split.
  - intros H i H0 H1. apply (H (Z.to_nat i)); [apply range_nth; lia|]. replace (S (Z.to_nat i)) with (Z.to_nat (i + 1)) by lia. apply range_nth. lia.
  - intros H i x y Hx Hy. apply range_nth_inv in Hx, Hy. destruct Hx as [B ->], Hy as [B' ->].
    replace (Z.of_nat (S i)) with (Z.of_nat i + 1)%Z by lia. apply H; lia.
Qed.
Lemma forall2_nth {X Y} (Q : X -> Y -> Prop) l m : Forall2 Q l m <->
  length l = length m /\ forall i x y, nth_error l i = Some x -> nth_error m i = Some y -> Q x y.
Proof.
  revert m. induction l as [|a l IH]; intros [|b m].
  - split; [intros _; split; [reflexivity | intros [|i] x y H; discriminate H] | constructor].
  - split; [intros H; inversion H | intros [H _]; discriminate H].
  - split; [intros H; inversion H | intros [H _]; discriminate H].
  - split.
    + intros H. inversion H; subst. apply IH in H5. destruct H5 as [Le H5]. split; [cbn; congruence|].
      intros [|i] x y Hx Hy; [injection Hx as <-; injection Hy as <-; assumption | exact (H5 i x y Hx Hy)].
    + intros [Le H]. constructor; [apply (H 0%nat); reflexivity|]. apply IH. split; [cbn in Le; congruence|].
      intros i x y Hx Hy. exact (H (S i) x y Hx Hy).
Qed.
Lemma below_range u v n : below (map u (range n)) (map v (range n)) <-> forall i, (0 <= i < n)%Z -> u i <= v i.
Proof.
  unfold below. rewrite forall2_nth, !map_length. split.
  - intros [_ H] i B. exact (H _ _ _ (range_nth u n i B) (range_nth v n i B)).
  - intros H. split; [reflexivity|]. intros i x y Hx Hy. apply range_nth_inv in Hx, Hy. destruct Hx as [B ->], Hy as [B' ->]. apply H. lia.
Qed.
(** A line of the grid, as a function. *)
Definition line_largest (n : Z) (d : R) (u b : Z -> R) : Prop :=
  (forall i, (0 <= i)%Z -> (i + 1 < n)%Z -> Rabs (b i - b (i + 1)%Z) <= d) /\
  (forall i, (0 <= i < n)%Z -> b i <= u i) /\
  (forall w, (forall i, (0 <= i)%Z -> (i + 1 < n)%Z -> Rabs (w i - w (i + 1)%Z) <= d) ->
     (forall i, (0 <= i < n)%Z -> w i <= u i) -> forall i, (0 <= i < n)%Z -> w i <= b i).
Lemma line_largest_of n d u b : 0 <= d -> map b (range n) = rlimit d (map u (range n)) -> line_largest n d u b.
Proof.
  intros Hd E. pose proof (rlimit_largest d (map u (range n)) Hd) as (L & B & M). rewrite <- E in *.
  split; [apply limited_range, L|]. split; [apply below_range, B|]. intros w Lw Bw. apply below_range. apply M; [apply limited_range, Lw | apply below_range, Bw].
Qed.
(** Lines that differ by at most [c] still do after limiting. *)
Lemma line_stable1 n d u u' b b' c : line_largest n d u b -> line_largest n d u' b' ->
  (forall i, (0 <= i < n)%Z -> u i <= u' i + c) -> forall i, (0 <= i < n)%Z -> b i <= b' i + c.
Proof.
  intros (L & B & M) (L' & B' & M') H i Hi. assert (b i - c <= b' i); [|lra].
  apply (M' (fun i => b i - c)); [| |exact Hi].
  - intros j J0 J1. replace (b j - c - (b (j + 1)%Z - c)) with (b j - b (j + 1)%Z) by lra. apply L; assumption.
  - intros j Hj. specialize (B j Hj). specialize (H j Hj). lra.
Qed.
Lemma line_stable n d u u' b b' c : line_largest n d u b -> line_largest n d u' b' ->
  (forall i, (0 <= i < n)%Z -> Rabs (u i - u' i) <= c) -> forall i, (0 <= i < n)%Z -> Rabs (b i - b' i) <= c.
Proof.
  intros L L' H i Hi. apply Rabs_le_iff. 
  assert (b i <= b' i + c) by (apply (line_stable1 n d u u' b b' c L L'); [intros j Hj; specialize (H j Hj); apply Rabs_le_iff in H; lra | exact Hi]).
  assert (b' i <= b i + c) by (apply (line_stable1 n d u' u b' b c L' L); [intros j Hj; specialize (H j Hj); apply Rabs_le_iff in H; lra | exact Hi]).
  lra.
Qed.

Lemma three_passes nl nw nh dv dh v0 v1 v2 v3 :
  (forall l w, (0 <= l < nl)%Z -> (0 <= w < nw)%Z -> line_largest nh dv (v0 l w) (v1 l w)) ->
  (forall w h, (0 <= w < nw)%Z -> (0 <= h < nh)%Z -> line_largest nl dh (fun l => v1 l w h) (fun l => v2 l w h)) ->
  (forall l h, (0 <= l < nl)%Z -> (0 <= h < nh)%Z -> line_largest nw dh (fun w => v2 l w h) (fun w => v3 l w h)) ->
  largest_limited3 nl nw nh dv dh v0 v3.
Proof.
  intros P1 P2 P3.
  assert (V1 : limited_vert nl nw nh dv v1).
  { intros l w h (A & B & C) (_ & _ & C'). apply (P1 l w A B); lia. }
  assert (L2 : limited_len nl nw nh dh v2).
  { intros l w h (A & B & C) (A' & _ & _). apply (proj1 (P2 w h B C)); lia. }
  assert (V2 : limited_vert nl nw nh dv v2).
  { intros l w h (A & B & C) (_ & _ & C').
    apply (line_stable nl dh (fun l => v1 l w h) (fun l => v1 l w (h + 1)%Z) (fun l => v2 l w h) (fun l => v2 l w (h + 1)%Z) dv);
      [apply P2; assumption.. | | exact A]. intros i Hi. apply V1; repeat split; lia. }
  assert (V3 : limited_vert nl nw nh dv v3).
  { intros l w h (A & B & C) (_ & _ & C').
    apply (line_stable nw dh (fun w => v2 l w h) (fun w => v2 l w (h + 1)%Z) (fun w => v3 l w h) (fun w => v3 l w (h + 1)%Z) dv);
      [apply P3; assumption.. | | exact B]. intros i Hi. apply V2; repeat split; lia. }
  assert (L3 : limited_len nl nw nh dh v3).
  { intros l w h (A & B & C) (A' & _ & _).
    apply (line_stable nw dh (fun w => v2 l w h) (fun w => v2 (l + 1)%Z w h) (fun w => v3 l w h) (fun w => v3 (l + 1)%Z w h) dh);
      [apply P3; assumption.. | | exact B]. intros i Hi. apply L2; repeat split; lia. }
  assert (W3 : limited_width nl nw nh dh v3).
  { intros l w h (A & B & C) (_ & B' & _). apply (proj1 (P3 l h A C)); lia. }
  split; [split; [exact V3 | split; assumption]|]. split.
  - intros l w h (A & B & C). pose proof (proj1 (proj2 (P3 l h A C)) w B) as H3. pose proof (proj1 (proj2 (P2 w h B C)) l A) as H2.
    pose proof (proj1 (proj2 (P1 l w A B)) h C) as H1. cbn beta in *. lra.
  - intros u (UV & UL & UW) U0.
    assert (U1 : below3 nl nw nh u v1).
    { intros l w h (A & B & C). apply (proj2 (proj2 (P1 l w A B))); [| |exact C].
      - intros i I0 I1. apply UV; repeat split; lia.
      - intros i Hi. apply U0. repeat split; lia. }
    assert (U2 : below3 nl nw nh u v2).
    { intros l w h (A & B & C). apply (proj2 (proj2 (P2 w h B C)) (fun l => u l w h)); [| |exact A].
      - intros i I0 I1. apply UL; repeat split; lia.
      - intros i Hi. apply U1. repeat split; lia. }
    intros l w h (A & B & C). apply (proj2 (proj2 (P3 l h A C)) (fun w => u l w h)); [| |exact B].
    + intros i I0 I1. apply UW; repeat split; lia.
    + intros i Hi. apply U2. repeat split; lia.
Qed.
