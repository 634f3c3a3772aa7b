(** Proofs about single-database queries. *)
From Coq Require Import ZArith Bool Reals Lra Lia Psatz List String.
From Verif Require Import Outcome Float Payload Addr SpecOct SpecGeom AddrFacts FloatFacts Geom GeomFacts
  GeomProof GeomRot ErrorHandler VMQuery SpecQuery.
Import ListNotations.
Open Scope Z_scope.

Lemma tick_pos : (0 < tick)%R.
Proof. unfold tick, root. apply Rmult_lt_0_compat; [lra|]. apply Rinv_0_lt_compat, pow_lt. lra. Qed.
Lemma tick_le a b : (IZR a * tick <= IZR b * tick)%R <-> a <= b.
Proof.
  pose proof tick_pos as T. split; intros H.
  - apply le_IZR. apply Rmult_le_reg_r in H; assumption.
  - apply Rmult_le_compat_r; [lra | apply IZR_le, H].
Qed.
Lemma tick_lt a b : (IZR a * tick < IZR b * tick)%R <-> a < b.
Proof.
  pose proof tick_pos as T. split; intros H.
  - apply lt_IZR. apply Rmult_lt_reg_r in H; assumption.
  - apply Rmult_lt_compat_r; [lra | apply IZR_lt, H].
Qed.

Lemma side_pos l : 0 <= l <= 31 -> 0 < side l.
Proof. intros H. apply Z.pow_pos_nonneg; lia. Qed.
Lemma side_divide l k : 0 <= l <= k -> k <= 31 -> (side k | side l).
Proof.
  intros H1 H2. exists (2 ^ (k - l)). unfold side. rewrite <- Z.pow_add_r by lia. f_equal. lia.
Qed.
Lemma side_mono l k : 0 <= l -> k <= 31 -> side k <= side l -> l <= k.
Proof.
  intros H1 H2 H. destruct (Z.le_gt_cases l k) as [G|G]; [exact G|].
  exfalso. assert (side l < side k); [|lia]. unfold side. apply Z.pow_lt_mono_r; lia.
Qed.

Lemma spans_cover t l t' l' c : spans t' l' c -> t <= t' -> t' + side l' <= t + side l -> spans t l c.
Proof.
  intros [H1 H2] A B. split.
  - eapply Rle_trans; [|exact H1]. apply tick_le, A.
  - eapply Rlt_le_trans; [exact H2|]. apply tick_le, B.
Qed.
Lemma cover_spans t l t' l' c : 0 <= l <= l' -> l' <= 31 -> (side l | t) -> (side l' | t') ->
  spans t l c -> spans t' l' c -> t <= t' /\ t' + side l' <= t + side l.
Proof.
  intros Hl Hl' [m Hm] [n Hn] [A1 A2] [B1 B2].
  destruct (side_divide l l' Hl Hl') as [d Hd]. pose proof (side_pos l' ltac:(lia)) as S'.
  assert (C1 : t < t' + side l') by (apply tick_lt; eapply Rle_lt_trans; eassumption).
  assert (C2 : t' < t + side l) by (apply tick_lt; eapply Rle_lt_trans; eassumption).
  rewrite Hd in Hm, C2 |- *. rewrite Hm, Hn in C1, C2 |- *. clear - C1 C2 S'.
  assert (D1 : m * d < n + 1) by nia. assert (D2 : n < m * d + d) by nia. split; nia.
Qed.

Lemma holds_cover h b w : holds b w -> covers h b -> holds h w.
Proof.
  destruct w as [[p q] r]. intros (H1 & H2 & H3) (A1 & A2 & B1 & B2 & C1 & C2).
  split; [|split]; eapply spans_cover; eassumption.
Qed.
Lemma cover_holds h b w : octant_ok h -> octant_ok b -> a_level h <= a_level b ->
  holds h w -> holds b w -> covers h b.
Proof.
  destruct w as [[p q] r]. intros (L1 & _ & O1) (L2 & _ & O2) Hl (H1 & H2 & H3) (K1 & K2 & K3).
  assert (G : forall t t' c, In t [a_x h; a_y h; a_z h] -> In t' [a_x b; a_y b; a_z b] ->
    spans t (a_level h) c -> spans t' (a_level b) c -> t <= t' /\ t' + side (a_level b) <= t + side (a_level h)).
  { intros t t' c I1 I2 S1 S2. eapply cover_spans; try eassumption; try lia; [apply O1 | apply O2]; assumption. }
  destruct (G (a_x h) (a_x b) p) as [X1 X2]; try assumption; try (cbn; tauto).
  destruct (G (a_y h) (a_y b) q) as [Y1 Y2]; try assumption; try (cbn; tauto).
  destruct (G (a_z h) (a_z b) r) as [Z1 Z2]; try assumption; try (cbn; tauto).
  split; [exact X1|]. split; [exact X2|]. split; [exact Y1|]. split; [exact Y2|]. split; assumption.
Qed.
Lemma cover_level h b : octant_ok h -> octant_ok b -> covers h b -> a_level h <= a_level b.
Proof.
  intros (L1 & _ & O1) (L2 & _ & O2) (A1 & A2 & _). apply side_mono; lia.
Qed.

Lemma finest_search S db b w : searches S db -> db_ok db -> octant_ok b -> holds b w ->
  match S b with
  | Some (h, p) => finest db (a_level b) w h p
  | None => nothing db (a_level b) w
  end.
Proof.
  intros HS [HO _] Ob Hb. specialize (HS b). destruct (S b) as [[h p]|].
  - destruct HS as (I & C & F). split; [exact I|]. split; [eapply holds_cover; eassumption|].
    split; [eapply cover_level; eauto|].
    intros h' p' I' H' L'. apply (F h' p' I'). eapply cover_holds; eauto.
  - intros h p I H. apply Z.nle_gt. intros L. apply (HS h p I). eapply cover_holds; eauto.
Qed.

(** An address with a tick at or above 2^31 is covered by no stored octant. *)
Lemma search_beyond S db b : searches S db -> db_ok db -> 0 <= a_level b <= 31 ->
  (exists t, In t [a_x b; a_y b; a_z b] /\ 2 ^ 31 <= t) -> S b = None.
Proof.
  intros HS [HO _] Hl (t & I & Ht). specialize (HS b). destruct (S b) as [[h p]|]; [|reflexivity].
  exfalso. destruct HS as (Ih & (A1 & A2 & B1 & B2 & C1 & C2) & _).
  destruct (HO h p Ih) as (L & _ & O). pose proof (side_pos _ Hl) as Sb.
  pose proof (side_pow _ L) as SP. pose proof (side_pos _ L) as Sh.
  assert (G : forall c, In c [a_x h; a_y h; a_z h] -> c + side (a_level h) <= 2 ^ 31).
  { intros c Ic. destruct (O c Ic) as [[O1 O2] [k Hk]].
    assert (k + 1 <= 2 ^ a_level h) by nia. nia. }
  pose proof (G (a_x h) ltac:(cbn; tauto)). pose proof (G (a_y h) ltac:(cbn; tauto)).
  pose proof (G (a_z h) ltac:(cbn; tauto)).
  destruct I as [<-|[<-|[<-|[]]]]; lia.
Qed.

Section Single.
Context {DB : Type}.
Variable E : env DB.
Variable q : qstate DB.
Notation L := (q_geom q).

(** Address supplied or to be computed for the place [w] at level [l]. *)
Definition aimed (l : Z) (lon lat elev : f64) (w : place) (use : option addr) : Prop :=
  place_inside w /\
  match use with
  | None => let '(p, q, r) := w in coords L lon lat elev p q r
  | Some a => octant_ok a /\ holds a w /\ a_level a = l
  end.

Lemma query_addr_ok l lon lat elev w use : 0 <= l <= 31 -> aimed l lon lat elev w use ->
  exists a, query_addr L l lon lat elev use = Val (a, true) /\ octant_ok a /\ holds a w /\ a_level a = l.
Proof.
  intros Hl [Hi Hu]. destruct w as [[p r] s]. destruct Hi as (I1 & I2 & I3). destruct use as [a|].
  - exists a. split; [reflexivity | exact Hu].
  - destruct (geom_contains L (mkAddr 0 0 0 0 l Leaf) lon lat elev p r s Hl Hu I1 I2 I3)
      as (b & Eb & Lb & _ & Ob & S1 & S2 & S3).
    unfold query_addr. rewrite Eb. cbn [bind]. exists b. split; [reflexivity|]. split; [exact Ob|].
    split; [split; [exact S1 | split; [exact S2 | exact S3]] | exact Lb].
Qed.

Variable d : DB.
Variable db : contents.
Hypothesis HS : searches (e_search E d) db.
Hypothesis HO : db_ok db.

Lemma queryMax_spec e lon lat elev w use : aimed 31 lon lat elev w use ->
  exists ans a, queryMax E q e (Some d) lon lat elev use = Val (e, ans, a) /\
    max_answer db w ans /\ octant_ok a /\ holds a w /\ a_level a = 31.
Proof.
  intros Ha. destruct (query_addr_ok 31 lon lat elev w use ltac:(lia) Ha) as (a & Ea & Oa & Wa & La).
  unfold queryMax. cbn [need_db bind]. unfold MAXLEVEL. rewrite Ea. cbn [bind negb].
  pose proof (finest_search _ db a w HS HO Oa Wa) as F. rewrite La in F.
  destruct (e_search E d a) as [[h p]|].
  - eexists. exists a. split; [reflexivity|]. split; [|auto]. left. exists h, p. split; [exact F|].
    destruct (a_type h); reflexivity.
  - eexists. exists a. split; [reflexivity|]. split; [|auto]. right. split; [exact F | reflexivity].
Qed.

Lemma queryFixed_spec e lon lat elev w use l : 0 <= l <= 31 ->
  (use = None -> level L (mul64 VERTEXAG (q_res q)) = Val l) -> aimed l lon lat elev w use ->
  exists ans a, queryFixed E q e (Some d) lon lat elev use = Val (e, ans, a) /\
    fixed_answer db l w ans /\ octant_ok a /\ holds a w /\ a_level a = l.
Proof.
  intros Hl Hlev Ha. destruct (query_addr_ok l lon lat elev w use Hl Ha) as (a & Ea & Oa & Wa & La).
  unfold queryFixed. cbn [need_db bind].
  assert (E1 : (let* lvl := match use with Some _ => Val 0 | None => level L (mul64 VERTEXAG (q_res q)) end in
            query_addr L lvl lon lat elev use) = Val (a, true)).
  { destruct use as [u|]; [exact Ea|]. rewrite Hlev by reflexivity. exact Ea. }
  pose proof (finest_search _ db a w HS HO Oa Wa) as F. rewrite La in F.
  assert (E2 : forall (k : addr * bool -> outcome (errh * payload * addr)),
    (let* lvl := match use with Some _ => Val 0 | None => level L (mul64 VERTEXAG (q_res q)) end in
     let* x := query_addr L lvl lon lat elev use in k x) = k (a, true)).
  { intros k. destruct use as [u|]; cbn [bind].
    - cbn [bind] in E1. rewrite E1. reflexivity.
    - rewrite Hlev in * by reflexivity. cbn [bind] in *. rewrite E1. reflexivity. }
  cbv beta in E2. rewrite E2. cbn [negb].
  destruct (e_search E d a) as [[h p]|].
  - eexists. exists a. split; [reflexivity|]. split; [|auto]. left. exists h, p. split; [exact F|].
    destruct F as (_ & _ & Lh & _). rewrite La.
    destruct (a_type h); cbn [otype_eqb andb]; [reflexivity|].
    destruct (Z.eqb_spec (a_level h) l); destruct (Z.ltb_spec (a_level h) l); try lia; reflexivity.
  - eexists. exists a. split; [reflexivity|]. split; [|auto]. right. split; [exact F | reflexivity].
Qed.

Lemma edgeLen_ok l : 0 <= l <= 31 -> edgeLen l = Val (edge_length l).
Proof.
  intros H. unfold edgeLen.
  replace ((0 <=? l) && (l <? 32)) with true by (symmetry; apply andb_true_iff; split; [apply Z.leb_le | apply Z.ltb_lt]; lia).
  reflexivity.
Qed.

Definition orphan_warning (o : option addr) (lon lat elev : f64) (e e' : errh) : Prop :=
  match o with
  | None => e' = e
  | Some c => exists parent, octant_ok parent /\ covers parent c /\ a_level parent = a_level c - 1 /\
      e' = eh_warning (parent_msg E parent c lon lat elev) e
  end.

Lemma climb_spec e a w lon lat elev period h0 v0 :
  octant_ok a -> holds a w -> e_search E d a = Some (h0, v0) ->
  forall fuel prev v h, octant_ok h -> holds h w -> (Z.to_nat (a_level h) <= fuel)%nat ->
  exists r, climbs db period w prev h v r /\
    exists ans o e', climb E fuel q e d a lon lat elev period prev v h = Val (e', ans) /\
      orphan_warning o lon lat elev e e' /\
      match r with
      | Stopped prev' here => ans = halfway prev' here /\ o = None
      | Orphan c => ans = v0 /\ o = Some c
      end.
Proof.
  intros Oa Wa E0. induction fuel as [|fuel IH]; intros prev v h Oh Wh Hf.
  - pose proof Oh as (Lh & _). assert (L0 : a_level h = 0) by lia.
    exists (Stopped prev v). split.
    + apply climbs_stop. intros (_ & _ & F). lia.
    + exists (halfway prev v), None, e. split; [|split; [reflexivity | auto]].
      cbn [climb]. rewrite edgeLen_ok by exact Lh.
      destruct (fgt (widen (p_vs v)) f_zero); cbn [bind]; [|reflexivity].
      rewrite L0, andb_false_r. reflexivity.
  - pose proof Oh as (Lh & _).
    destruct (fgt (widen (p_vs v)) f_zero && (flt (crossing_time h v) period && (0 <? a_level h))) eqn:C.
    + apply andb_true_iff in C. destruct C as [C1 C]. apply andb_true_iff in C. destruct C as [C2 C3].
      pose proof (proj1 (Z.ltb_lt _ _) C3) as C3'.
      assert (TF : too_fine period h v) by (split; [exact C1 | split; [exact C2 | exact C3']]).
      destruct (findAncestor_spec h (a_level h - 1) Oh ltac:(lia)) as (par & Ep & Op & Lp & _ & Cp & _).
      assert (Wp : holds par w) by (eapply holds_cover; eassumption).
      pose proof (finest_search _ db par w HS HO Op Wp) as F. rewrite Lp in F.
      assert (K : climb E (S fuel) q e d a lon lat elev period prev v h =
        match e_search E d par with
        | Some (res', p') => climb E fuel q e d a lon lat elev period v p' res'
        | None => match e_search E d a with
                  | Some (_, p') => Val (eh_warning (parent_msg E par h lon lat elev) e, p')
                  | None => Val (eh_warning (parent_msg E par h lon lat elev) e, v)
                  end
        end).
      { cbn [climb]. rewrite C1, edgeLen_ok by exact Lh. cbn [bind].
        change (div64 (edge_length (a_level h)) (widen (p_vs v))) with (crossing_time h v).
        rewrite C2, C3. cbn [andb negb]. rewrite Ep. reflexivity. }
      destruct (e_search E d par) as [[h' v']|].
      * assert (Oh' : octant_ok h') by (apply (proj1 HO h' v'), F).
        assert (Wh' : holds h' w) by apply F.
        assert (Lh' : a_level h' <= a_level h - 1) by apply F.
        destruct (IH v v' h' Oh' Wh') as (r & Cl & ans & o & e' & Ec & W & R).
        { pose proof Oh' as (B & _). lia. }
        exists r. split; [eapply climbs_up; eassumption|].
        exists ans, o, e'. split; [rewrite K; exact Ec|]. split; assumption.
      * exists (Orphan h). split; [apply climbs_orphan; assumption|].
        exists v0, (Some h). eexists. split; [rewrite K, E0; reflexivity|]. split; [|auto].
        exists par. auto.
    + exists (Stopped prev v). split.
      * apply climbs_stop. intros (F1 & F2 & F3). apply Z.ltb_lt in F3.
        change (flt f_zero (widen (p_vs v))) with (fgt (widen (p_vs v)) f_zero) in F1.
        rewrite F1, F2, F3 in C. discriminate.
      * exists (halfway prev v), None, e. split; [|split; [reflexivity | auto]].
        cbn [climb]. rewrite edgeLen_ok by exact Lh.
        destruct (fgt (widen (p_vs v)) f_zero); cbn [bind andb] in *; [|reflexivity].
        unfold crossing_time in C. rewrite C. reflexivity.
Qed.

Lemma queryWave_spec e lon lat elev w use : aimed 31 lon lat elev w use ->
  exists ans a o e', queryWave E q e (Some d) lon lat elev use = Val (e', ans, a) /\
    wave_answer db (mul64 (i2f64 4) (q_res q)) w ans o /\ orphan_warning o lon lat elev e e' /\
    octant_ok a /\ holds a w /\ a_level a = 31.
Proof.
  intros Ha. destruct (query_addr_ok 31 lon lat elev w use ltac:(lia) Ha) as (a & Ea & Oa & Wa & La).
  unfold queryWave. cbn [need_db bind]. unfold MAXLEVEL. rewrite Ea. cbn [bind negb].
  pose proof (finest_search _ db a w HS HO Oa Wa) as F. rewrite La in F.
  set (period := mul64 (i2f64 4) (q_res q)).
  change (mul64 VERTEXAG (q_res q)) with period.
  destruct (e_search E d a) as [[h v]|] eqn:E0.
  - assert (Oh : octant_ok h) by (apply (proj1 HO h v), F). pose proof Oh as (Lh & _).
    assert (Wh : holds h w) by apply F.
    assert (K : (if otype_eqb (a_type h) Interior
       then let* len := edgeLen (a_level h) in Val (fgt (div64 len (widen (p_vs v))) period)
       else Val false) = Val (otype_eqb (a_type h) Interior && flt period (crossing_time h v))).
    { destruct (a_type h); cbn [otype_eqb andb]; [reflexivity|]. rewrite edgeLen_ok by exact Lh. reflexivity. }
    rewrite K. cbn [bind].
    destruct (otype_eqb (a_type h) Interior && flt period (crossing_time h v)) eqn:C.
    + apply andb_true_iff in C. destruct C as [C1 C2].
      exists no_data, a, None, e. split; [reflexivity|]. split; [|split; [reflexivity | auto]].
      left. exists h, v. split; [exact F|]. left. split; [|auto].
      split; [destruct (a_type h); [discriminate | reflexivity] | exact C2].
    + destruct (climb_spec e a w lon lat elev period h v Oa Wa E0 (Z.to_nat (a_level h)) v v h Oh Wh ltac:(lia))
        as (r & Cl & ans & o & e' & Ec & W & R).
      rewrite Ec. cbn [bind]. exists ans, a, o, e'. split; [reflexivity|].
      split; [|split; [exact W | auto]].
      left. exists h, v. split; [exact F|]. right. split.
      * intros [T1 T2]. rewrite T1, T2 in C. discriminate.
      * destruct r as [prev here | c].
        -- left. exists prev, here. destruct R. auto.
        -- right. exists c. destruct R. auto.
  - exists no_data, a, None, e. split; [reflexivity|]. split; [|split; [reflexivity | auto]].
    right. split; [exact F | auto].
Qed.
End Single.
