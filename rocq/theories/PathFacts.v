(** Prefixes, lexicographic order and child sets of paths. *)
From Coq Require Import ZArith Bool List Lia Sorting.Sorted.
From Verif Require Import Outcome Addr SpecOct AddrFacts AvgEngine.
Import ListNotations.
Open Scope Z_scope.

Notation path := (list Z).

Lemma prefix_refl (p : path) : prefix p p.
Proof. exists []; symmetry; apply app_nil_r. Qed.
Lemma prefix_nil (p : path) : prefix [] p.
Proof. exists p; reflexivity. Qed.
Lemma prefix_app (p q : path) : prefix p (p ++ q).
Proof. exists q; reflexivity. Qed.
Lemma prefix_trans (p q r : path) : prefix p q -> prefix q r -> prefix p r.
Proof. intros [a ->] [b ->]. exists (a ++ b). symmetry; apply app_assoc. Qed.
Lemma prefix_length (p q : path) : prefix p q -> (length p <= length q)%nat.
Proof. intros [r ->]. rewrite app_length; lia. Qed.
Lemma prefix_firstn_iff (p q : path) : prefix p q <-> firstn (length p) q = p.
Proof.
  split.
  - intros [r ->]. rewrite firstn_app, Nat.sub_diag, firstn_all. cbn. apply app_nil_r.
  - intros E. rewrite <- E. exists (skipn (length p) q). symmetry; apply firstn_skipn.
Qed.
Lemma prefix_firstn n (q : path) : prefix (firstn n q) q.
Proof. exists (skipn n q). symmetry; apply firstn_skipn. Qed.
Lemma prefix_eq (p q : path) : prefix p q -> length p = length q -> p = q.
Proof.
  intros H E. apply prefix_firstn_iff in H. rewrite <- H, E. apply firstn_all.
Qed.
Lemma prefix_total (p q r : path) :
  prefix p r -> prefix q r -> (length p <= length q)%nat -> prefix p q.
Proof.
  intros H1 H2 L. apply prefix_firstn_iff in H1. apply prefix_firstn_iff in H2.
  apply prefix_firstn_iff. rewrite <- H2, firstn_firstn, Nat.min_l by lia. exact H1.
Qed.
Lemma prefix_snoc (p q : path) d : prefix p (q ++ [d]) <-> prefix p q \/ p = q ++ [d].
Proof.
  split.
  - intros H. pose proof (prefix_length _ _ H) as L. rewrite app_length in L; cbn in L.
    destruct (Nat.eq_dec (length p) (length q + 1)).
    + right. apply prefix_eq; [exact H|]. rewrite app_length; cbn; lia.
    + left. eapply prefix_total; [exact H | apply prefix_app | lia].
  - intros [H| ->]; [eapply prefix_trans; [exact H | apply prefix_app] | apply prefix_refl].
Qed.
Lemma prefix_step (p q : path) :
  prefix p q -> p <> q -> exists d, prefix (p ++ [d]) q.
Proof.
  intros [r ->] H. destruct r as [|d r]; [rewrite app_nil_r in H; congruence|].
  exists d, r. rewrite <- app_assoc. reflexivity.
Qed.

Definition prefixb (p q : path) : bool :=
  if list_eq_dec Z.eq_dec (firstn (length p) q) p then true else false.
Lemma prefixb_iff p q : prefixb p q = true <-> prefix p q.
Proof.
  rewrite prefix_firstn_iff. unfold prefixb.
  destruct (list_eq_dec Z.eq_dec (firstn (length p) q) p); split; congruence.
Qed.
Lemma prefixb_false p q : prefixb p q = false <-> ~ prefix p q.
Proof. rewrite <- prefixb_iff. destruct (prefixb p q); split; congruence. Qed.

Definition memb (p : path) (P : list path) : bool :=
  if in_dec (list_eq_dec Z.eq_dec) p P then true else false.
Lemma memb_iff p P : memb p P = true <-> In p P.
Proof. unfold memb. destruct (in_dec _ p P); split; congruence || tauto. Qed.
Lemma memb_false p P : memb p P = false <-> ~ In p P.
Proof. rewrite <- memb_iff. destruct (memb p P); split; congruence. Qed.

(** Everything between a path and one of its extensions extends it too. *)
Lemma prefix_between p q r : path_lt p q -> path_lt q r -> prefix p r -> prefix p q.
Proof.
  revert q r; induction p as [|a p IH]; intros q r H1 H2 H3; [apply prefix_nil|].
  destruct H3 as [t ->]. destruct q as [|b q]; [destruct H1|].
  cbn in H1, H2. destruct H1 as [H1|[<- H1]]; destruct H2 as [H2|[E H2]]; try lia.
  destruct (IH q (p ++ t) H1 H2 (prefix_app p t)) as [u ->].
  exists u; reflexivity.
Qed.

Lemma path_lt_asym p q : path_lt p q -> ~ path_lt q p.
Proof. intros H1 H2. exact (path_lt_irrefl p (path_lt_trans _ _ _ H1 H2)). Qed.

Lemma path_lt_neq p q : path_lt p q -> p <> q.
Proof. intros H ->. exact (path_lt_irrefl q H). Qed.

Lemma prefix_not_lt p q : prefix p q -> ~ path_lt q p.
Proof.
  intros [r ->] H. rewrite <- (app_nil_r p) in H at 2.
  apply (path_lt_app_l p r []) in H. destruct r; exact H.
Qed.

(** ** Child sets *)
Definition digits : list Z := [0; 1; 2; 3; 4; 5; 6; 7].
Lemma digits_iff d : In d digits <-> 0 <= d < 8.
Proof. unfold digits; cbn; lia. Qed.

Definition openb (w : option path) (q : path) : bool :=
  match w with None => false | Some w => prefixb q w end.

(** Children of [q] in the node set [P]; those that are not pending. *)
Definition kids (P : list path) (q : path) : list Z :=
  filter (fun d => memb (q ++ [d]) P) digits.
Definition ckids (P : list path) (w : option path) (q : path) : list Z :=
  filter (fun d => memb (q ++ [d]) P && negb (openb w (q ++ [d]))) digits.

Lemma filter_add_last (f g : Z -> bool) d :
  In d digits -> (forall x, In x digits -> g x = f x || (x =? d)) ->
  (forall x, In x digits -> f x = true -> x < d) ->
  filter g digits = filter f digits ++ [d].
Proof.
  intros Hd Hg Hf.
  assert (G : forall l, StronglySorted Z.lt l -> incl l digits -> In d l ->
     filter g l = filter f l ++ [d]).
  { clear Hd. intros l. induction l as [|a l IH]; intros Hs Hi Hd; [destruct Hd|].
    inversion Hs as [|? ? Hs' Ha]; subst. rewrite Forall_forall in Ha.
    assert (Hal : In a digits) by (apply Hi; left; reflexivity).
    assert (Hil : incl l digits) by (intros x Hx; apply Hi; right; exact Hx).
    cbn [filter]. rewrite (Hg a Hal).
    destruct (Z.eqb_spec a d) as [->|Hne].
    - rewrite orb_true_r.
      assert (f d = false) as ->.
      { destruct (f d) eqn:E; [|reflexivity]. specialize (Hf d Hal E). lia. }
      assert (Z1 : forall h, (forall x, In x l -> h x = false) -> filter h l = []).
      { intros h Hh. clear -Hh. induction l as [|b l IHl]; cbn; [reflexivity|].
        rewrite Hh by (left; reflexivity). apply IHl. intros; apply Hh; right; assumption. }
      assert (Z2 : forall x, In x l -> f x = false).
      { intros x Hx. destruct (f x) eqn:E; [|reflexivity].
        specialize (Hf x (Hil x Hx) E). specialize (Ha x Hx). lia. }
      rewrite (Z1 f Z2). rewrite (Z1 g); [reflexivity|].
      intros x Hx. rewrite Hg by (apply Hil, Hx). rewrite (Z2 x Hx).
      specialize (Ha x Hx). cbn. apply Z.eqb_neq. lia.
    - rewrite orb_false_r.
      destruct Hd as [Hd|Hd]; [congruence|].
      rewrite (IH Hs' Hil Hd). destruct (f a); reflexivity. }
  apply G; [|apply incl_refl|exact Hd].
  unfold digits. repeat (constructor; [|repeat (constructor; [lia|]); constructor]). constructor.
Qed.

Lemma kids_In P q d : In d (kids P q) <-> 0 <= d < 8 /\ In (q ++ [d]) P.
Proof. unfold kids. rewrite filter_In, digits_iff, memb_iff. tauto. Qed.

Lemma ckids_In P w q d :
  In d (ckids P w q) <-> 0 <= d < 8 /\ In (q ++ [d]) P /\ openb w (q ++ [d]) = false.
Proof.
  unfold ckids. rewrite filter_In, digits_iff, andb_true_iff, memb_iff, negb_true_iff. tauto.
Qed.

Lemma ckids_top P w : ckids P (Some w) w = kids P w.
Proof.
  unfold ckids, kids. apply filter_ext. intros d. cbn [openb].
  replace (prefixb (w ++ [d]) w) with false; [apply andb_true_r|].
  symmetry. apply prefixb_false. intros H. apply prefix_length in H.
  rewrite app_length in H; cbn in H; lia.
Qed.

(** The bit set of processed children. *)
Definition bits (K : list Z) : Z := fold_left (fun b d => Z.lor b (Z.shiftl 1 d)) K 0.

Lemma bits_snoc K d : bits (K ++ [d]) = Z.lor (bits K) (Z.shiftl 1 d).
Proof. unfold bits. rewrite fold_left_app. reflexivity. Qed.

Lemma testbit_shift1 d i : 0 <= d -> 0 <= i -> Z.testbit (Z.shiftl 1 d) i = (i =? d).
Proof.
  intros. rewrite Z.shiftl_mul_pow2, Z.mul_1_l, Z.pow2_bits_eqb by lia. apply Z.eqb_sym.
Qed.

Lemma testbit_bits K i :
  (forall d, In d K -> 0 <= d) -> 0 <= i ->
  Z.testbit (bits K) i = true <-> In i K.
Proof.
  revert i. pattern K. apply rev_ind; clear K.
  - intros i _ Hi. cbn. rewrite Z.bits_0. split; [discriminate | tauto].
  - intros d K IH i HK Hi. rewrite bits_snoc, Z.lor_spec, orb_true_iff.
    rewrite testbit_shift1 by (try lia; apply HK, in_or_app; right; left; reflexivity).
    rewrite IH by (try assumption; intros x Hx; apply HK, in_or_app; left; exact Hx).
    rewrite in_app_iff, Z.eqb_eq. cbn. split; intros [H|H]; auto.
    destruct H as [H|[]]; auto.
Qed.

Lemma bits_land K d :
  (forall x, In x K -> 0 <= x) -> 0 <= d ->
  (Z.land (bits K) (Z.shiftl 1 d) =? 0) = true <-> ~ In d K.
Proof.
  intros HK Hd. rewrite Z.eqb_eq, <- (testbit_bits K d HK Hd). split.
  - intros E H. apply (f_equal (fun z => Z.testbit z d)) in E.
    rewrite Z.land_spec, H, testbit_shift1, Z.eqb_refl, Z.bits_0 in E by lia. discriminate.
  - intros H. apply Z.bits_inj'. intros i Hi.
    rewrite Z.land_spec, testbit_shift1, Z.bits_0 by lia.
    destruct (Z.eqb_spec i d) as [->|]; [|apply andb_false_r].
    rewrite andb_true_r. destruct (Z.testbit (bits K) d); congruence.
Qed.

Lemma bits_full K d : (forall x, In x K -> 0 <= x) -> bits K = INC_FULL -> 0 <= d < 8 -> In d K.
Proof.
  intros HK E Hd. apply (testbit_bits K d HK ltac:(lia)). rewrite E.
  unfold INC_FULL. assert (forallb (Z.testbit 255) digits = true) as F by reflexivity.
  rewrite forallb_forall in F. apply F, digits_iff, Hd.
Qed.

(** The code's child bit. *)
Lemma childOctantBit_path p d ty :
  path_ok (p ++ [d]) -> childOctantBit (addr_of (p ++ [d]) ty) = Val (Z.shiftl 1 d).
Proof.
  intros [H1 H2]. unfold childOctantBit. rewrite addr_of_level.
  set (n := Z.of_nat (length (p ++ [d]))).
  assert (Hn : 1 <= n <= 31) by (unfold n; rewrite app_length in *; cbn in *; lia).
  replace ((n <? 0) || (32 <=? n)) with false by (symmetry; apply orb_false_iff; split;
    [apply Z.ltb_ge | apply Z.leb_gt]; lia).
  do 2 f_equal.
  assert (M : Z.shiftr LEFTMOSTONE n = 2 ^ (31 - n)).
  { rewrite LEFTMOSTONE_val, Z.shiftr_div_pow2 by lia.
    rewrite <- Z.pow_sub_r by lia. reflexivity. }
  rewrite M.
  assert (B : forall c, negb (Z.land (2 ^ (31 - n)) c =? 0) = Z.testbit c (31 - n)).
  { intros c. destruct (Z.testbit c (31 - n)) eqn:E.
    - apply negb_true_iff, Z.eqb_neq. intros F.
      apply (f_equal (fun z => Z.testbit z (31 - n))) in F.
      rewrite Z.land_spec, Z.pow2_bits_true, E, Z.bits_0 in F by lia. discriminate.
    - apply negb_false_iff, Z.eqb_eq, Z.bits_inj'. intros i Hi.
      rewrite Z.land_spec, Z.pow2_bits_eqb, Z.bits_0 by lia.
      destruct (Z.eqb_spec (31 - n) i) as [<-|]; [rewrite E|]; reflexivity. }
  rewrite !B. cbn [addr_of a_x a_y a_z].
  unfold n. rewrite !testbit_ticks by exact H1.
  apply Forall_app in H2. destruct H2 as [_ H2]. inversion H2 as [|? ? Hd _]; subst.
  rewrite <- (digit_recompose d Hd) at 4.
  destruct (Z.testbit d 2), (Z.testbit d 1), (Z.testbit d 0); reflexivity.
Qed.

Lemma sameAddr_path p q t1 t2 :
  path_ok p -> path_ok q -> sameAddr (addr_of p t1) (addr_of q t2) = true <-> p = q.
Proof.
  intros Hp Hq. rewrite <- (same_key_path p q t1 t2 Hp Hq).
  unfold sameAddr, same_key. cbn [addr_of a_t]. rewrite Z.eqb_refl, andb_true_r. tauto.
Qed.

Lemma path_ok_snoc_digit p d : path_ok (p ++ [d]) -> 0 <= d < 8.
Proof.
  intros [_ H]. apply Forall_app in H. destruct H as [_ H]. inversion H; assumption.
Qed.
