(** Overlapping input: the engine throws. *)
From Coq Require Import ZArith Bool String Lia Sorting.Sorted List.
From Verif Require Import Outcome Float Payload Addr SpecOct AddrFacts SpecAvg AvgEngine PathFacts AvgInv.
Import ListNotations.
Open Scope Z_scope.

Section Overlap.
Variable st : storage.
Hypothesis Hst : accepts st.
(** The storage refuses to append an octant that is already stored. *)
Hypothesis Hdup : forall db a, (exists r, In r db /\ same_octant (o_addr r) a) ->
  st_append_ok st db a = false.

Lemma close_stale_any n : forall all N C w val l s ty,
  Inv all N C w val [] s -> depth w = n -> (n <= List.length l)%nat -> path_ok l ->
  exists s' C' w' val', close_stale st s (addr_of l ty) n = Val (s', depth w') /\
    Inv all N C' w' val' [] s' /\ (forall v, w' = Some v -> prefix v l).
Proof.
  induction n as [|n IH]; intros all N C w val l s ty I Hd Hn Hlok.
  - exists s, C, w, val. destruct w; [discriminate|]. cbn [close_stale].
    split; [reflexivity|]. split; [exact I | intros v; discriminate].
  - cbn [close_stale]. destruct (depth_S w n Hd) as (v & -> & Lv).
    assert (HvP : In v (map fst N)).
    { apply in_map_iff. exists (v, None). split; [reflexivity|].
      eapply i_open; [exact I | reflexivity | apply prefix_refl]. }
    rewrite <- Lv. rewrite (top_slot _ _ _ _ _ _ _ I). cbn [bind].
    cbn [slot_for s_valid s_addr s_bits].
    rewrite findAncestor_firstn by (try assumption; lia). cbn [bind].
    set (f := firstn (List.length v) l).
    assert (Hfok : path_ok f).
    { unfold f. rewrite <- (firstn_skipn (List.length v) l) in Hlok. eapply path_ok_app; exact Hlok. }
    destruct (negb (sameAddr (addr_of f Interior) (addr_of v Interior))
              || (bits (kids (map fst N) v) =? INC_FULL)) eqn:Eb.
    + replace (Z.of_nat (List.length v) =? e_cur s) with true.
      2:{ symmetry. apply Z.eqb_eq. rewrite (i_cur _ _ _ _ _ _ _ I). cbn [depth]. lia. }
      cbn [assert_ bind].
      destruct (pop_ok st Hst _ _ _ _ _ _ _ I) as (s1 & E1 & I1); [intros r []|].
      rewrite E1. cbn [bind].
      destruct (IH _ _ _ _ _ l _ ty I1) as (s' & C' & w' & val' & E & I' & Hp).
      * rewrite depth_parentw. exact Lv.
      * lia.
      * exact Hlok.
      * exists s', C', w', val'. rewrite Lv, E. auto.
    + exists s, C, (Some v), val. split; [reflexivity|]. split; [exact I|].
      intros v' [= <-]. apply firstn_prefix_eq. fold f.
      apply orb_false_iff in Eb. destruct Eb as [Eb _]. apply negb_false_iff in Eb.
      apply (sameAddr_path f v Interior Interior); try assumption.
      exact (i_ok _ _ _ _ _ _ _ I v HvP).
Qed.

Lemma overlap_step all N C w val s l ty p a ta :
  Inv all N C w val [] s -> path_ok l ->
  In (a, Some ta) N -> prefix a l -> a <> l -> a <> [] ->
  exists msg, averageOctant st s (addr_of l ty) p = Throw msg.
Proof.
  intros I Hlok HaN Hal Hne Ha0.
  assert (La : (1 <= List.length a)%nat) by (destruct a; [congruence | cbn; lia]).
  assert (Ll : (List.length a < List.length l)%nat).
  { pose proof (prefix_length _ _ Hal). destruct (Nat.eq_dec (List.length a) (List.length l));
      [exfalso; apply Hne, prefix_eq; assumption | lia]. }
  assert (HaP : In a (map fst N)) by (apply in_map_iff; exists (a, Some ta); auto).
  unfold averageOctant. rewrite addr_of_level.
  replace (Z.of_nat (List.length l) <=? 0) with false by (symmetry; apply Z.leb_gt; lia).
  unfold findParent. rewrite addr_of_level, Nat2Z.id.
  replace (0 <=? Z.of_nat (List.length l)) with true by (symmetry; apply Z.leb_le; lia).
  cbn [assert_ bind].
  replace (Z.of_nat (List.length l) <=? Z.of_nat pendingSize) with true
    by (symmetry; apply Z.leb_le; destruct Hlok; unfold pendingSize; lia).
  cbn [assert_ bind].
  assert (HD : exists s1 C1 w1 val1,
     process_down st s (List.length l) (Z.to_nat (e_cur s - Z.of_nat (List.length l) + 1)) = Val s1 /\
     Inv all N C1 w1 val1 [] s1 /\ (depth w1 <= List.length l)%nat).
  { rewrite (i_cur _ _ _ _ _ _ _ I).
    destruct (Nat.le_gt_cases (depth w) (List.length l)) as [Hle|Hgt].
    - replace (Z.to_nat (Z.of_nat (depth w) - 1 - Z.of_nat (List.length l) + 1)) with O by lia.
      exists s, C, w, val. cbn [process_down]. auto.
    - destruct (process_down_ok st Hst (depth w - List.length l) all N C w val [] s (List.length l) I)
        as (s1 & C1 & w1 & val1 & E & I1 & D & A); [lia | intros q r _ _ [] |].
      exists s1, C1, w1, val1.
      replace (Z.to_nat (Z.of_nat (depth w) - 1 - Z.of_nat (List.length l) + 1))
        with (depth w - List.length l)%nat by lia.
      split; [exact E|]. split; [exact I1 | lia]. }
  destruct HD as (s1 & C1 & w1 & val1 & E1 & I1 & D1). rewrite E1. cbn [bind].
  rewrite (find_valid_ok _ _ _ _ _ _ _ _ I1) by (destruct Hlok; lia). cbn [bind].
  destruct (close_stale_any (depth w1) all N C1 w1 val1 l s1 ty I1 eq_refl D1 Hlok)
    as (s2 & C2 & w2 & val2 & E2 & I2 & Hw2).
  rewrite E2. cbn [bind].
  (* the next octant to be created is an ancestor of [a], or [a]: already stored *)
  assert (Hdep : (depth w2 <= List.length a)%nat).
  { destruct w2 as [v|]; cbn [depth]; [|lia].
    destruct (Nat.le_gt_cases (List.length a) (List.length v)) as [Hle|Hgt]; [|lia]. exfalso.
    assert (Hav : prefix a v) by (eapply prefix_total; [exact Hal | apply Hw2; reflexivity | exact Hle]).
    assert (HaI : In (a, None) N) by (eapply i_open; [exact I2 | reflexivity | exact Hav]).
    pose proof (node_unique N a _ _ (SSorted_NoDup _ (i_sorted _ _ _ _ _ _ _ I2)) HaN HaI).
    discriminate. }
  set (k := depth w2) in *.
  destruct (List.length l - k)%nat as [|n] eqn:En; [lia|].
  cbn [create_up].
  rewrite findAncestor_firstn by (try assumption; lia). cbn [bind].
  set (q := firstn k l).
  assert (Lq : List.length q = k) by (unfold q; rewrite firstn_length; lia).
  assert (Hqa : prefix q a) by (eapply prefix_total; [apply prefix_firstn | exact Hal | lia]).
  assert (HqP : In q (map fst N)).
  { exact (Inv_prefix_closed _ _ _ _ _ _ _ a q I2 HaP Hqa). }
  unfold createOctant. rewrite addr_of_level.
  replace (Z.of_nat (List.length q) <? 0) with false by (symmetry; apply Z.ltb_ge; lia).
  rewrite Nat2Z.id.
  assert (Lk : (k < 32)%nat) by (destruct Hlok; lia).
  destruct (i_invalid _ _ _ _ _ _ _ I2 (List.length q) ltac:(unfold k in *; lia) ltac:(lia))
    as (sl & Hsl & Hv).
  rewrite (tab_get_some _ _ _ Hsl). cbn [bind]. rewrite Hv. cbn [negb assert_ bind].
  rewrite (i_cur _ _ _ _ _ _ _ I2). fold k.
  replace (Z.of_nat (List.length q) =? Z.of_nat k - 1 + 1) with true
    by (symmetry; apply Z.eqb_eq; lia). cbn [assert_ bind].
  unfold append. rewrite Hdup; [eexists; reflexivity|].
  rewrite (i_db _ _ _ _ _ _ _ I2).
  apply in_map_iff in HqP. destruct HqP as ([q' kd] & Eq & Hq). cbn in Eq. subst q'.
  exists (recd w2 val2 (q, kd)). split; [apply in_map, Hq|].
  unfold recd; cbn [fst snd]. destruct kd; repeat split.
Qed.

Lemma averageAll_app s x y :
  averageAll st s (x ++ y) = bind (averageAll st s x) (fun s' => averageAll st s' y).
Proof.
  revert s; induction x as [|[a p] x IH]; intros s; [reflexivity|].
  cbn [app averageAll]. destruct (averageOctant st s a p); cbn [bind]; try reflexivity. apply IH.
Qed.

(** The first octant that lies under an earlier one. *)
Lemma first_overlap (inp : list (path * otype * payload)) :
  StronglySorted path_lt (map in_path inp) ->
  StronglySorted (fun p q => path_lt p q /\ ~ prefix p q) (map in_path inp) \/
  exists x a l y, inp = x ++ l :: y /\ In a x /\
    StronglySorted (fun p q => path_lt p q /\ ~ prefix p q) (map in_path x) /\
    prefix (in_path a) (in_path l) /\ in_path a <> in_path l.
Proof.
  pattern inp; apply rev_ind; clear inp.
  - intros _. left. constructor.
  - intros l x IH HS.
    assert (HSx : StronglySorted path_lt (map in_path x) /\
                  forall a, In a x -> path_lt (in_path a) (in_path l)).
    { clear IH. rewrite map_app in HS. cbn [map] in HS.
      induction x as [|b x IHx]; cbn in *.
      - split; [constructor | intros a []].
      - inversion HS as [|? ? HS' Hb]; subst. destruct (IHx HS') as [A B].
        apply Forall_app in Hb. destruct Hb as [Hb1 Hb2].
        split; [constructor; assumption|]. intros a [<-|Ha]; [|apply B, Ha].
        inversion Hb2; assumption. }
    destruct HSx as [HSx Hlt].
    destruct (IH HSx) as [HG|(x1 & a & l1 & y1 & -> & Ha & Hs & Hp & Hn)].
    + assert (D : (exists a, In a x /\ prefix (in_path a) (in_path l)) \/
                  (forall a, In a x -> ~ prefix (in_path a) (in_path l))).
      { clear. induction x as [|b x IHx].
        - right. intros a [].
        - destruct IHx as [(a & H1 & H2)|H].
          + left. exists a. split; [right|]; assumption.
          + destruct (prefixb (in_path b) (in_path l)) eqn:E.
            * apply prefixb_iff in E. left. exists b. split; [left; reflexivity | exact E].
            * apply prefixb_false in E. right. intros a [<-|Ha]; [exact E | apply H, Ha]. }
      destruct D as [(a & Ha & Hp)|D].
      * right. exists x, a, l, []. repeat split; try assumption.
        apply path_lt_neq, Hlt, Ha.
      * left. rewrite map_app. cbn [map]. clear -HG D Hlt.
        induction x as [|b x IHx]; cbn [app map] in *.
        -- constructor; constructor.
        -- inversion HG as [|? ? HG' Hb]; subst. constructor.
           ++ apply IHx; [| exact HG' |]; intros; [apply Hlt | apply D]; right; assumption.
           ++ apply Forall_app. split; [exact Hb|]. constructor; [|constructor].
              split; [apply Hlt | apply D]; left; reflexivity.
    + right. exists x1, a, l1, (y1 ++ [l]). rewrite <- app_assoc. auto.
Qed.

Theorem overlap_throws inp :
  (forall x, In x inp -> path_ok (in_path x) /\ in_path x <> []) ->
  StronglySorted path_lt (map in_path inp) ->
  (exists a l, In a inp /\ In l inp /\ prefix (in_path a) (in_path l) /\ in_path a <> in_path l) ->
  exists msg, fillOctants st (map in_rec inp) = Throw msg.
Proof.
  intros Hok HS (a0 & l0 & Ha0 & Hl0 & Hp0 & Hn0).
  destruct (first_overlap inp HS) as [HG|(x & a & l & y & E & Ha & Hs & Hp & Hn)].
  - exfalso. apply (in_map in_path) in Ha0. apply (in_map in_path) in Hl0.
    clear Hok HS. revert Ha0 Hl0. induction HG as [|b L HG IH Hb]; intros H1 H2; [destruct H1|].
    rewrite Forall_forall in Hb.
    destruct H1 as [H1|H1]; destruct H2 as [H2|H2].
    + congruence.
    + rewrite H1 in Hb. destruct (Hb _ H2) as [_ F]. exact (F Hp0).
    + rewrite H2 in Hb. destruct (Hb _ H1) as [F _]. exact (prefix_not_lt _ _ Hp0 F).
    + exact (IH H1 H2).
  - subst inp. rewrite map_app. cbn [map].
    unfold fillOctants.
    destruct (map in_rec x ++ in_rec l :: map in_rec y) as [|z zs] eqn:Ez.
    { destruct (map in_rec x); discriminate. }
    rewrite <- Ez. clear Ez z zs.
    destruct Hst as (Hb & _). rewrite Hb.
    destruct (averageAll_ok st Hst x (map in_path x) [] [] None (fun _ => zero_pay) engine0
      (Inv_start _ _)) as (s1 & N1 & C1 & w1 & val1 & E1 & I1 & L1).
    + intros z Hz. split; [apply in_map, Hz|]. apply Hok, in_or_app. left; exact Hz.
    + exact Hs.
    + rewrite averageAll_app, E1. cbn [bind averageAll].
      assert (HaN : In (in_path a, Some (snd (fst a))) N1).
      { cbn [leaves flat_map app] in L1. rewrite <- L1 in Ha. unfold leaves in Ha.
        apply in_flat_map in Ha. destruct Ha as ([q [t|]] & Hin & Hz); cbn in Hz; [|destruct Hz].
        destruct Hz as [<-|[]]. exact Hin. }
      assert (Hal : In a (x ++ l :: y)) by (apply in_or_app; left; exact Ha).
      assert (Hll : In l (x ++ l :: y)) by (apply in_or_app; right; left; reflexivity).
      destruct l as [[lp lt] lpay]. cbn [in_rec in_path fst snd] in *.
      destruct (overlap_step _ _ _ _ _ _ lp lt lpay (in_path a) (snd (fst a)) I1) as [msg Em];
        try assumption; try apply Hok; try assumption.
      { apply (Hok (lp, lt, lpay)). exact Hll. }
      cbn [fst snd] in Em. rewrite Em. cbn [bind]. eexists; reflexivity.
Qed.
End Overlap.
