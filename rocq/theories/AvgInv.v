(** Invariant of the averaging engine and its preservation. *)
From Coq Require Import ZArith Bool String Lia Sorting.Sorted List.
From Verif Require Import Outcome Float Payload Addr SpecOct SpecAvg AddrFacts AvgEngine PathFacts.
Import ListNotations.
Open Scope Z_scope.

(** A node of the output tree: its path, and its type if it is an input octant. *)
Notation node := (list Z * option otype)%type.

Definition zero_pay : payload :=
  mkPayload f_zero f_zero f_zero f_zero f_zero f_zero INTERIORBLOCK INTERIORZONE.
Definition accs (ps : list payload) : Z * payload :=
  fold_left (fun ns c => accumulate (fst ns) (snd ns) c) ps (0, zero_pay).
Definition code_mean (ps : list payload) : payload :=
  finish_payload (fst (accs ps)) (snd (accs ps)).

Definition depth (w : option path) : nat :=
  match w with None => 0 | Some w => S (length w) end.

Definition pays (val : path -> payload) (q : path) (K : list Z) : list payload :=
  map (fun d => val (q ++ [d])) K.

Definition slot_for (val : path -> payload) (q : path) (K : list Z) : slot :=
  mkSlot (Some (snd (accs (pays val q K)))) (fst (accs (pays val q K)))
         (addr_of q Interior) (bits K) true.

Definition recd (w : option path) (val : path -> payload) (n : node) : orec :=
  match snd n with
  | Some ty => mkOrec (addr_of (fst n) ty) (Some (val (fst n)))
  | None => mkOrec (addr_of (fst n) Interior)
                   (if openb w (fst n) then None else Some (val (fst n)))
  end.

Definition leaf_of (n : node) : bool := match snd n with Some _ => true | None => false end.

Definition zlen {A} (l : list A) : Z := Z.of_nat (List.length l).

Definition classcount (P : list path) (C : list path) (b : Z) : Z :=
  zlen (filter (fun q => bits (kids P q) =? b) C).
Definition known_class (b : Z) : bool :=
  existsb (Z.eqb b) [INC_FULL; INC_X; INC_Y; INC_Z; INC_XY; INC_YZ; INC_XZ; INC_XYZ].

Definition cnt_for (N : list node) (C : list path) : counters :=
  let P := map fst N in
  mkCnt (zlen (filter leaf_of N)) (zlen N) (zlen (filter (fun n => negb (leaf_of n)) N))
    (classcount P C INC_X) (classcount P C INC_Y) (classcount P C INC_Z)
    (classcount P C INC_XY) (classcount P C INC_YZ) (classcount P C INC_XZ)
    (classcount P C INC_XYZ)
    (zlen (filter (fun q => negb (known_class (bits (kids P q)))) C)).

(** The pending octant is the last one appended among its siblings: any later
    sibling in the output would follow it. *)
Definition top_last (P : list path) (w : option path) : Prop :=
  forall v u d x, w = Some v -> prefix (u ++ [d]) v -> In (u ++ [x]) P -> x <> d -> x < d.

Record Inv (all : list path) (N : list node) (C : list path) (w : option path)
           (val : path -> payload) (rest : list path) (s : est) : Prop := {
  i_len : List.length (e_tab s) = 32%nat;
  i_slots : forall v k, w = Some v -> (k <= List.length v)%nat ->
     nth_error (e_tab s) k =
       Some (slot_for val (firstn k v) (ckids (map fst N) w (firstn k v)));
  i_invalid : forall k, (depth w <= k)%nat -> (k < 32)%nat ->
     exists sl, nth_error (e_tab s) k = Some sl /\ s_valid sl = false;
  i_cur : e_cur s = Z.of_nat (depth w) - 1;
  i_db : e_db s = map (recd w val) N;
  i_cnt : e_cnt s = cnt_for N C;
  i_sorted : StronglySorted path_lt (map fst N);
  i_ok : forall q, In q (map fst N) -> path_ok q;
  i_parent : forall q d, In (q ++ [d]) (map fst N) -> In (q, None) N;
  i_open : forall v q, w = Some v -> prefix q v -> In (q, None) N;
  i_deep : forall v, w = Some v -> (List.length v <= 30)%nat;
  i_before : forall q r, In q (map fst N) -> In r rest -> path_lt q r;
  i_closed : forall q r, In q (map fst N) -> openb w q = false -> In r rest -> ~ prefix q r;
  i_fresh : forall q r, In q (map fst N) -> In r rest -> ~ prefix r q;
  i_C : forall q, In q C <-> In (q, None) N /\ openb w q = false;
  i_CND : NoDup C;
  i_mean : forall q, In q C -> val q = code_mean (pays val q (kids (map fst N) q));
  i_top : top_last (map fst N) w;
  i_anc : forall q, In (q, None) N -> exists l, In l all /\ prefix q l /\ q <> l }.

(** ** Lists *)
Lemma list_set_length {A} (l : list A) i x : List.length (list_set l i x) = List.length l.
Proof. revert i; induction l; intros [|i]; cbn; congruence. Qed.

Lemma nth_list_set_eq {A} (l : list A) i x :
  (i < List.length l)%nat -> nth_error (list_set l i x) i = Some x.
Proof. revert i; induction l; intros [|i]; cbn; intros; try lia; [reflexivity|]. apply IHl; lia. Qed.

Lemma nth_list_set_neq {A} (l : list A) i j x :
  i <> j -> nth_error (list_set l i x) j = nth_error l j.
Proof. revert i j; induction l; intros [|i] [|j] H; cbn; try congruence; try reflexivity. apply IHl; lia. Qed.

Lemma SSorted_NoDup (P : list path) : StronglySorted path_lt P -> NoDup P.
Proof.
  induction 1 as [|a l H IH Ha]; [apply NoDup_nil|]. apply NoDup_cons; [|exact IH].
  intros F. rewrite Forall_forall in Ha. exact (path_lt_irrefl _ (Ha a F)).
Qed.

Lemma node_unique (N : list node) q k1 k2 :
  NoDup (map fst N) -> In (q, k1) N -> In (q, k2) N -> k1 = k2.
Proof.
  intros H H1 H2. induction N as [|[p k] N IH]; [destruct H1|].
  cbn in H. inversion H as [|? ? Hn Hd]; subst.
  destruct H1 as [H1|H1]; destruct H2 as [H2|H2]; try congruence.
  - injection H1 as -> ->. exfalso; apply Hn. apply in_map_iff. exists (q, k2); auto.
  - injection H2 as -> ->. exfalso; apply Hn. apply in_map_iff. exists (q, k1); auto.
  - apply IH; assumption.
Qed.

Lemma openb_true w q : openb w q = true <-> exists v, w = Some v /\ prefix q v.
Proof.
  destruct w as [v|]; cbn; [rewrite prefixb_iff|].
  - split; [intros; exists v; auto | intros (? & [= ->] & ?); assumption].
  - split; [discriminate | intros (? & [=] & _)].
Qed.
Lemma openb_some v q : openb (Some v) q = true <-> prefix q v.
Proof. apply prefixb_iff. Qed.
Lemma openb_some_false v q : openb (Some v) q = false <-> ~ prefix q v.
Proof. apply prefixb_false. Qed.

(** ** Counters *)
Lemma classify_cnt N C w :
  classify (bits (kids (map fst N) w)) (cnt_for N C) = cnt_for N (C ++ [w]).
Proof.
  unfold cnt_for, classcount.
  set (b := bits (kids (map fst N) w)).
  assert (F : forall f : path -> bool, zlen (filter f (C ++ [w])) =
            zlen (filter f C) + (if f w then 1 else 0)).
  { intros f. rewrite filter_app. unfold zlen. rewrite app_length. cbn [filter].
    destruct (f w); cbn; lia. }
  rewrite !F. fold b. unfold classify, known_class. cbn [existsb].
  destruct (Z.eqb_spec b INC_FULL) as [->|E0]; [cbn; rewrite !Z.add_0_r; reflexivity|].
  destruct (Z.eqb_spec b INC_X) as [->|E1]; [cbn; rewrite !Z.add_0_r; reflexivity|].
  destruct (Z.eqb_spec b INC_Y) as [->|E2]; [cbn; rewrite !Z.add_0_r; reflexivity|].
  destruct (Z.eqb_spec b INC_Z) as [->|E3]; [cbn; rewrite !Z.add_0_r; reflexivity|].
  destruct (Z.eqb_spec b INC_XY) as [->|E4]; [cbn; rewrite !Z.add_0_r; reflexivity|].
  destruct (Z.eqb_spec b INC_YZ) as [->|E5]; [cbn; rewrite !Z.add_0_r; reflexivity|].
  destruct (Z.eqb_spec b INC_XZ) as [->|E6]; [cbn; rewrite !Z.add_0_r; reflexivity|].
  destruct (Z.eqb_spec b INC_XYZ) as [->|E7]; [cbn; rewrite !Z.add_0_r; reflexivity|].
  cbn [orb negb]. rewrite !Z.add_0_r. reflexivity.
Qed.

(** ** Accumulation *)
Lemma accs_snoc ps p :
  accs (ps ++ [p]) = accumulate (fst (accs ps)) (snd (accs ps)) p.
Proof. unfold accs. rewrite fold_left_app. reflexivity. Qed.

Section Storage.
Variable st : storage.
Hypothesis Hst : accepts st.

Definition upd (val : path -> payload) (w : path) (p : payload) : path -> payload :=
  fun q => if list_eq_dec Z.eq_dec q w then p else val q.
Lemma upd_eq val w p : upd val w p w = p.
Proof. unfold upd. destruct (list_eq_dec Z.eq_dec w w); congruence. Qed.
Lemma upd_neq val w p q : q <> w -> upd val w p q = val q.
Proof. unfold upd. destruct (list_eq_dec Z.eq_dec q w); congruence. Qed.

Definition parentw (w : path) : option path :=
  match w with [] => None | _ => Some (removelast w) end.
Lemma parentw_snoc u d : parentw (u ++ [d]) = Some u.
Proof.
  unfold parentw. destruct (u ++ [d]) eqn:E; [destruct u; discriminate|].
  rewrite <- E, removelast_last. reflexivity.
Qed.

Lemma snoc_cases (w : path) : w = [] \/ exists u d, w = u ++ [d].
Proof.
  destruct (rev w) as [|d r] eqn:E.
  - left. rewrite <- (rev_involutive w), E. reflexivity.
  - right. exists (rev r), d. rewrite <- (rev_involutive w), E. reflexivity.
Qed.

Lemma openb_parent w q :
  openb (parentw w) q = (openb (Some w) q) && negb (if list_eq_dec Z.eq_dec q w then true else false).
Proof.
  destruct (list_eq_dec Z.eq_dec q w) as [->|Hne]; cbn [negb].
  - rewrite andb_false_r. destruct (snoc_cases w) as [->|(u & d & ->)]; [reflexivity|].
    rewrite parentw_snoc. apply openb_some_false. intros H. apply prefix_length in H.
    rewrite app_length in H; cbn in H; lia.
  - rewrite andb_true_r. destruct (snoc_cases w) as [->|(u & d & ->)].
    + cbn [parentw openb]. symmetry. apply prefixb_false. intros H.
      apply Hne. apply prefix_eq; [exact H|]. apply prefix_length in H. cbn in H |- *. lia.
    + rewrite parentw_snoc. apply eq_true_iff_eq. rewrite !openb_some, prefix_snoc. tauto.
Qed.

(** Updating the octant [w] in the output. *)
Lemma update_db N w val p :
  NoDup (map fst N) -> (forall q, In q (map fst N) -> path_ok q) -> In (w, None) N ->
  map (fun r => if same_key (o_addr r) (addr_of w Interior)
                then mkOrec (o_addr r) (Some p) else r) (map (recd (Some w) val) N) =
  map (recd (parentw w) (upd val w p)) N.
Proof.
  intros HN Hok Hw. rewrite map_map. apply map_ext_in. intros [q k] Hin.
  assert (Hq : path_ok q) by (apply Hok, in_map_iff; exists (q, k); auto).
  assert (Hwok : path_ok w) by (apply Hok, in_map_iff; exists (w, None); auto).
  assert (SK : forall t, same_key (addr_of q t) (addr_of w Interior) =
                         if list_eq_dec Z.eq_dec q w then true else false).
  { intros t. apply eq_true_iff_eq. rewrite (same_key_path q w t Interior Hq Hwok).
    destruct (list_eq_dec Z.eq_dec q w); split; congruence. }
  unfold recd; cbn [fst snd]. destruct k as [ty|]; cbn [o_addr o_pay]; rewrite SK.
  - destruct (list_eq_dec Z.eq_dec q w) as [->|Hne].
    + pose proof (node_unique N w _ _ HN Hin Hw). discriminate.
    + rewrite upd_neq by exact Hne. reflexivity.
  - rewrite openb_parent.
    destruct (list_eq_dec Z.eq_dec q w) as [->|Hne].
    + cbn [negb]. rewrite andb_false_r, upd_eq. reflexivity.
    + cbn [negb]. rewrite andb_true_r, upd_neq by exact Hne. reflexivity.
Qed.

Lemma updateOctant_ok N w val p (s : est) :
  NoDup (map fst N) -> (forall q, In q (map fst N) -> path_ok q) -> In (w, None) N ->
  e_db s = map (recd (Some w) val) N ->
  updateOctant st s (addr_of w Interior) p =
    Val (mkEst (e_tab s) (e_cur s) (e_cnt s) (map (recd (parentw w) (upd val w p)) N)).
Proof.
  intros HN Hok Hw Hdb. unfold updateOctant. rewrite Hdb.
  assert (Hwr : In (recd (Some w) val (w, None)) (map (recd (Some w) val) N))
    by (apply in_map, Hw).
  assert (E1 : existsb (fun r => same_key (o_addr r) (addr_of w Interior))
                 (map (recd (Some w) val) N) = true).
  { apply existsb_exists. eexists; split; [exact Hwr|].
    apply same_key_iff. repeat split. }
  rewrite E1. destruct Hst as (_ & _ & _ & Hu).
  rewrite (Hu (map (recd (Some w) val) N)).
  2:{ eexists; split; [exact Hwr|]. repeat split. }
  cbn [andb]. rewrite update_db by assumption. reflexivity.
Qed.

(** ** Closing the innermost pending octant *)
Lemma pays_ext val val' q K :
  (forall d, In d K -> val' (q ++ [d]) = val (q ++ [d])) -> pays val' q K = pays val q K.
Proof. intros H. unfold pays. apply map_ext_in. exact H. Qed.

Lemma snoc_neq (u : path) d : u <> u ++ [d].
Proof. intros H. apply (f_equal (@List.length Z)) in H. rewrite app_length in H; cbn in H; lia. Qed.

Lemma tab_get_some s k sl : nth_error (e_tab s) k = Some sl -> tab_get s k = Val sl.
Proof. intros H. unfold tab_get. rewrite H. reflexivity. Qed.

Lemma finish_n n sum : finish_payload n sum =
  if 0 <? n then finish_payload n sum
  else finish_payload 0 (mkPayload f_zero f_zero f_zero f_zero f_zero f_zero 0 0).
Proof. unfold finish_payload at 1 2. destruct (0 <? n); reflexivity. Qed.

Lemma firstn_snoc_le k (u : path) d : (k <= List.length u)%nat -> firstn k (u ++ [d]) = firstn k u.
Proof.
  intros H. rewrite firstn_app. replace (k - List.length u)%nat with O by lia.
  cbn. apply app_nil_r.
Qed.

(** How the finished children of the pending octants change when the innermost
    one, u ++ [d], is closed. *)
Lemma ckids_pop_below P u d k :
  (k < List.length u)%nat ->
  ckids P (Some u) (firstn k u) = ckids P (Some (u ++ [d])) (firstn k u).
Proof.
  intros Hk. unfold ckids. apply filter_ext. intros x. f_equal. f_equal. cbn [openb].
  apply eq_true_iff_eq. rewrite !prefixb_iff, prefix_snoc.
  split; [tauto|]. intros [H|H]; [exact H|].
  apply (f_equal (@List.length Z)) in H. rewrite !app_length, firstn_length in H; cbn in H; lia.
Qed.

Lemma ckids_pop_top P u d :
  StronglySorted path_lt P -> In (u ++ [d]) P -> 0 <= d < 8 ->
  (forall x, In (u ++ [x]) P -> 0 <= x < 8 -> x <> d -> x < d) ->
  ckids P (Some u) u = ckids P (Some (u ++ [d])) u ++ [d].
Proof.
  intros HS Hin Hd Hlt. unfold ckids. apply filter_add_last.
  - apply digits_iff, Hd.
  - intros x Hx. cbn [openb].
    replace (prefixb (u ++ [x]) u) with false.
    2:{ symmetry. apply prefixb_false. intros H. apply prefix_length in H.
        rewrite app_length in H; cbn in H; lia. }
    cbn [negb]. rewrite andb_true_r.
    destruct (Z.eqb_spec x d) as [->|Hne].
    + rewrite orb_true_r. apply memb_iff, Hin.
    + rewrite orb_false_r. replace (prefixb (u ++ [x]) (u ++ [d])) with false; [symmetry; apply andb_true_r|].
      symmetry. apply prefixb_false. intros H. apply prefix_snoc in H. destruct H as [H|H].
      * apply prefix_length in H. rewrite app_length in H; cbn in H; lia.
      * apply app_inj_tail in H. destruct H; congruence.
  - intros x Hx H. apply andb_true_iff in H. destruct H as [H1 H2].
    apply memb_iff in H1. apply digits_iff in Hx. apply Hlt; try assumption.
    intros ->. apply negb_true_iff, openb_some_false in H2. apply H2, prefix_refl.
Qed.

(** Adding a finished child to the parent's slot. *)
Lemma addToParent_ok (s : est) val u K d ty p :
  nth_error (e_tab s) (List.length u) = Some (slot_for val u K) ->
  path_ok (u ++ [d]) -> ~ In d K -> (forall x, In x K -> 0 <= x) -> val (u ++ [d]) = p ->
  addToParent s (List.length u) (addr_of (u ++ [d]) ty) p =
    Val (tab_set s (List.length u) (slot_for val u (K ++ [d]))).
Proof.
  intros Hs Hok Hd HK Hp. unfold addToParent. rewrite (tab_get_some _ _ _ Hs). cbn [bind].
  cbn [slot_for s_addr]. rewrite !addr_of_level, app_length. cbn [List.length].
  replace (Z.of_nat (List.length u + 1) - 1 =? Z.of_nat (List.length u)) with true
    by (symmetry; apply Z.eqb_eq; lia).
  cbn [assert_ bind]. rewrite childOctantBit_path by exact Hok. cbn [bind s_bits slot_for].
  rewrite (proj2 (bits_land K d HK ltac:(apply path_ok_snoc_digit in Hok; lia)) Hd).
  cbn [negb s_sum s_n s_valid slot_for].
  rewrite (surjective_pairing (accumulate _ _ _)).
  unfold slot_for. rewrite bits_snoc. unfold pays. rewrite map_app. cbn [map].
  rewrite accs_snoc, Hp. reflexivity.
Qed.

Lemma pop_ok all N C w val rest s :
  Inv all N C (Some w) val rest s ->
  (forall r, In r rest -> ~ prefix w r) ->
  exists s', processOctant st s (List.length w) = Val s' /\
    Inv all N (C ++ [w]) (parentw w)
        (upd val w (code_mean (pays val w (kids (map fst N) w)))) rest s'.
Proof.
  intros I Hclos.
  pose proof (i_top _ _ _ _ _ _ _ I) as Htop.
  set (P := map fst N) in *.
  set (m := code_mean (pays val w (kids P w))).
  set (val' := upd val w m).
  pose proof (i_slots _ _ _ _ _ _ _ I w (List.length w) eq_refl (le_n _)) as Hsl.
  rewrite firstn_all in Hsl. fold P in Hsl. rewrite ckids_top in Hsl.
  pose proof (i_deep _ _ _ _ _ _ _ I w eq_refl) as Hdeep.
  pose proof (SSorted_NoDup _ (i_sorted _ _ _ _ _ _ _ I)) as HND.
  assert (HwN : In (w, None) N) by (eapply i_open; [exact I | reflexivity | apply prefix_refl]).
  assert (HwP : In w P) by (apply in_map_iff; exists (w, None); auto).
  assert (HwC : ~ In w C).
  { intros H. apply (i_C _ _ _ _ _ _ _ I) in H. destruct H as [_ H].
    apply openb_some_false in H. apply H, prefix_refl. }
  assert (Hval : forall q, q <> w -> val' q = val q) by (intros; apply upd_neq; assumption).
  (* what holds of the pure part of the invariant whatever the parent is *)
  assert (Pure : forall s',
     e_db s' = map (recd (parentw w) val') N -> e_cnt s' = cnt_for N (C ++ [w]) ->
     e_cur s' = Z.of_nat (depth (parentw w)) - 1 ->
     List.length (e_tab s') = 32%nat ->
     (forall v k, parentw w = Some v -> (k <= List.length v)%nat ->
        nth_error (e_tab s') k =
          Some (slot_for val' (firstn k v) (ckids P (parentw w) (firstn k v)))) ->
     (forall k, (depth (parentw w) <= k)%nat -> (k < 32)%nat ->
        exists sl, nth_error (e_tab s') k = Some sl /\ s_valid sl = false) ->
     Inv all N (C ++ [w]) (parentw w) val' rest s').
  { intros s' H1 H2 H3 H4 H5 H6.
    assert (Hpar : forall v, parentw w = Some v -> exists d, w = v ++ [d]).
    { intros v Hv. destruct (snoc_cases w) as [->|(u & d & ->)]; [discriminate|].
      rewrite parentw_snoc in Hv. injection Hv as ->. eauto. }
    constructor; try assumption.
    - exact (i_sorted _ _ _ _ _ _ _ I).
    - exact (i_ok _ _ _ _ _ _ _ I).
    - exact (i_parent _ _ _ _ _ _ _ I).
    - intros v q Hv Hq. destruct (Hpar v Hv) as [d ->].
      eapply i_open; [exact I | reflexivity |]. eapply prefix_trans; [exact Hq | apply prefix_app].
    - intros v Hv. destruct (Hpar v Hv) as [d ->]. rewrite app_length in Hdeep. lia.
    - exact (i_before _ _ _ _ _ _ _ I).
    - intros q r Hq Ho Hr. rewrite openb_parent in Ho.
      destruct (list_eq_dec Z.eq_dec q w) as [->|Hne]; [apply Hclos, Hr|].
      cbn [negb] in Ho. rewrite andb_true_r in Ho. exact (i_closed _ _ _ _ _ _ _ I q r Hq Ho Hr).
    - exact (i_fresh _ _ _ _ _ _ _ I).
    - intros q. rewrite in_app_iff, (i_C _ _ _ _ _ _ _ I q), openb_parent.
      destruct (list_eq_dec Z.eq_dec q w) as [->|Hne]; cbn [negb].
      + rewrite andb_false_r. cbn. split; [tauto|]. intros _. right; left; reflexivity.
      + rewrite andb_true_r. cbn. split; [intros [H|[H|[]]]; [exact H | congruence] | tauto].
    - assert (G : forall l : list path, NoDup l -> ~ In w l -> NoDup (l ++ [w])).
      { clear. induction l as [|a l IH]; cbn; intros H1 H2.
        - apply NoDup_cons; [tauto | apply NoDup_nil].
        - inversion H1 as [|? ? H3 H4]; subst. apply NoDup_cons.
          + rewrite in_app_iff. cbn. intros [H|[H|[]]]; [tauto | subst; tauto].
          + apply IH; tauto. }
      apply G; [exact (i_CND _ _ _ _ _ _ _ I) | exact HwC].
    - intros q Hq. fold P. apply in_app_or in Hq. destruct Hq as [Hq|[<-|[]]].
      + assert (q <> w) by congruence.
        rewrite Hval by assumption. rewrite (i_mean _ _ _ _ _ _ _ I q Hq). f_equal. symmetry.
        apply pays_ext. intros d Hd. apply Hval. intros E.
        (* w is a child of a closed octant: impossible, its parent is pending *)
        apply (i_C _ _ _ _ _ _ _ I) in Hq. destruct Hq as [_ Hq].
        apply openb_some_false in Hq. apply Hq. rewrite <- E. apply prefix_app.
      + unfold val' at 1. rewrite upd_eq. unfold m. f_equal. symmetry. apply pays_ext.
        intros d _. apply Hval. intros E. symmetry in E. exact (snoc_neq _ _ E).
    - intros v u0 d0 x Hv Hpre Hx Hne. destruct (Hpar v Hv) as [d ->].
      eapply Htop; [reflexivity | | exact Hx | exact Hne].
      eapply prefix_trans; [exact Hpre | apply prefix_app].
    - exact (i_anc _ _ _ _ _ _ _ I). }
  unfold processOctant.
  replace (Nat.ltb (List.length w) pendingSize) with true
    by (symmetry; apply Nat.ltb_lt; unfold pendingSize; lia).
  cbn [assert_ bind]. rewrite (tab_get_some _ _ _ Hsl). cbn [bind slot_for s_valid assert_ s_bits s_n s_sum s_addr].
  assert (Ecl : classify (bits (kids P w)) (e_cnt s) = cnt_for N (C ++ [w]))
    by (rewrite (i_cnt _ _ _ _ _ _ _ I); apply classify_cnt).
  rewrite Ecl.
  assert (Em : (if 0 <? fst (accs (pays val w (kids P w)))
     then Val (finish_payload (fst (accs (pays val w (kids P w)))) (snd (accs (pays val w (kids P w)))))
     else Val (finish_payload 0 (mkPayload f_zero f_zero f_zero f_zero f_zero f_zero 0 0))) = Val m).
  { unfold m, code_mean. rewrite finish_n.
    destruct (0 <? fst (accs (pays val w (kids P w)))); reflexivity. }
  rewrite Em. cbn [bind].
  rewrite (updateOctant_ok N w val m) by
    (try exact HND; try exact HwN; try exact (i_ok _ _ _ _ _ _ _ I);
     cbn [set_cnt e_db]; exact (i_db _ _ _ _ _ _ _ I)).
  fold val'. cbn [bind set_cnt e_tab e_cur e_cnt].
  pose proof (i_len _ _ _ _ _ _ _ I) as Hlen.
  pose proof (i_cur _ _ _ _ _ _ _ I) as Hcur. cbn [depth] in Hcur.
  destruct (snoc_cases w) as [Ew|(u & d & Ew)].
  - (* root *)
    subst w. cbn [List.length]. cbn [List.length] in Hsl.
    cbn [bind]. unfold tab_get at 1. cbn [e_tab]. rewrite Hsl. cbn [bind].
    cbn [tab_set e_tab e_cur set_cur]. rewrite Hcur. cbn [List.length].
    replace (Z.of_nat 0 =? Z.of_nat 1 - 1) with true by reflexivity. cbn [assert_ bind].
    eexists; split; [reflexivity|]. apply Pure; try reflexivity.
    + cbn [tab_set set_cur e_tab]. rewrite list_set_length. exact Hlen.
    + intros v k Hv; discriminate.
    + intros k _ Hk. cbn [tab_set set_cur e_tab].
      destruct k as [|k].
      * rewrite nth_list_set_eq by lia. eexists; split; reflexivity.
      * rewrite nth_list_set_neq by lia.
        apply (i_invalid _ _ _ _ _ _ _ I (S k)); cbn [depth List.length]; lia.
  - (* w = u ++ [d] *)
    assert (Lw : List.length w = S (List.length u)) by (rewrite Ew, app_length; cbn; lia).
    rewrite Lw.
    assert (Hwok : path_ok w) by exact (i_ok _ _ _ _ _ _ _ I w HwP).
    assert (Hd8 : 0 <= d < 8) by (rewrite Ew in Hwok; eapply path_ok_snoc_digit; exact Hwok).
    pose proof (i_slots _ _ _ _ _ _ _ I w (List.length u) eq_refl ltac:(lia)) as Hpar.
    assert (Efu : firstn (List.length u) w = u)
      by (rewrite Ew, firstn_snoc_le by lia; apply firstn_all).
    rewrite Efu in Hpar.
    fold P in Hpar.
    assert (Hk1 : ~ In d (ckids P (Some w) u)).
    { intros H. apply ckids_In in H. destruct H as (_ & _ & H).
      apply openb_some_false in H. apply H. rewrite Ew. apply prefix_refl. }
    assert (Hk0 : forall x, In x (ckids P (Some w) u) -> 0 <= x)
      by (intros x H; apply ckids_In in H; lia).
    assert (Hpar' : nth_error (e_tab s) (List.length u) = Some (slot_for val' u (ckids P (Some w) u))).
    { rewrite Hpar. unfold slot_for. rewrite (pays_ext val val'); [reflexivity|].
      intros x Hx. apply Hval. rewrite Ew. intros E. apply app_inj_tail in E.
      destruct E as [_ ->]. exact (Hk1 Hx). }
    unfold tab_get at 1. cbn [e_tab]. rewrite Hpar'. cbn [bind].
    cbn [slot_for s_addr]. rewrite !addr_of_level.
    replace (Z.of_nat (List.length u) =? Z.of_nat (List.length w) - 1) with true
      by (symmetry; apply Z.eqb_eq; lia). cbn [assert_ bind].
    assert (Eadd : forall s0, e_tab s0 = e_tab s ->
      addToParent s0 (List.length u) (addr_of w Interior) m =
      Val (tab_set s0 (List.length u) (slot_for val' u (ckids P (Some u) u)))).
    { intros s0 H0.
      rewrite (ckids_pop_top P u d).
      - rewrite <- Ew. rewrite Ew at 1.
        apply addToParent_ok.
        + rewrite H0. exact Hpar'.
        + rewrite <- Ew; exact Hwok.
        + exact Hk1.
        + exact Hk0.
        + rewrite <- Ew. unfold val'. apply upd_eq.
      - exact (i_sorted _ _ _ _ _ _ _ I).
      - rewrite <- Ew; exact HwP.
      - exact Hd8.
      - intros x Hx _ Hne. apply (Htop w u d x eq_refl); try assumption.
        rewrite Ew. apply prefix_refl. }
    rewrite Eadd by reflexivity. cbn [bind].
    set (T := list_set (e_tab s) (List.length u) (slot_for val' u (ckids P (Some u) u))).
    assert (HT : nth_error T (S (List.length u)) = nth_error (e_tab s) (List.length w)).
    { unfold T. rewrite nth_list_set_neq by lia. rewrite Lw. reflexivity. }
    unfold tab_get at 1. cbn [tab_set e_tab]. fold T. rewrite HT, Hsl. cbn [bind].
    cbn [tab_set e_cur set_cur e_tab e_cnt e_db]. rewrite Hcur, Lw.
    replace (Z.of_nat (S (List.length u)) =? Z.of_nat (S (S (List.length u))) - 1) with true
      by (symmetry; apply Z.eqb_eq; lia). cbn [assert_ bind].
    eexists; split; [reflexivity|].
    assert (Epw : parentw w = Some u) by (rewrite Ew; apply parentw_snoc).
    apply Pure; try reflexivity.
    + cbn [set_cur e_cur]. rewrite Epw. cbn [depth]. lia.
    + cbn [set_cur tab_set e_tab].  rewrite !list_set_length. exact Hlen.
    + intros v k Hv Hk. rewrite Epw in Hv |- *. injection Hv as <-.
      cbn [set_cur tab_set e_tab]. fold T. rewrite nth_list_set_neq by lia. unfold T.
      destruct (Nat.eq_dec k (List.length u)) as [->|Hne].
      * rewrite nth_list_set_eq by lia. rewrite firstn_all. reflexivity.
      * rewrite nth_list_set_neq by lia.
        rewrite (i_slots _ _ _ _ _ _ _ I w k eq_refl ltac:(lia)). fold P.
        rewrite Ew. rewrite firstn_snoc_le by lia.
        rewrite <- (ckids_pop_below P u d k) by lia.
        f_equal. unfold slot_for. rewrite (pays_ext val val'); [reflexivity|].
        intros x Hx. apply Hval. rewrite Ew. intros E.
        apply (f_equal (@List.length Z)) in E. rewrite !app_length, firstn_length in E.
        cbn in E. lia.
    + intros k Hk1' Hk2. rewrite Epw in Hk1'. cbn [depth] in Hk1'.
      cbn [set_cur tab_set e_tab]. fold T.
      destruct (Nat.eq_dec k (S (List.length u))) as [->|Hne].
      * rewrite nth_list_set_eq by (unfold T; rewrite list_set_length; lia).
        eexists; split; reflexivity.
      * rewrite nth_list_set_neq by lia. unfold T. rewrite nth_list_set_neq by lia.
        apply (i_invalid _ _ _ _ _ _ _ I k); cbn [depth]; lia.
Qed.

(** ** Appending a new octant *)
Lemma Inv_prefix_closed all N C w val rest s p q :
  Inv all N C w val rest s -> In p (map fst N) -> prefix q p -> In q (map fst N).
Proof.
  intros I Hp [r ->]. revert Hp. pattern r; apply rev_ind; clear r.
  - rewrite app_nil_r. tauto.
  - intros d r IH H. rewrite app_assoc in H. apply (i_parent _ _ _ _ _ _ _ I) in H.
    apply IH. apply in_map_iff. exists (q ++ r, None); auto.
Qed.

Section New.
Variables (all : list path) (N : list node) (C : list path) (w : option path)
          (val : path -> payload) (l : path) (rest : list path) (s : est).
Hypothesis I : Inv all N C w val (l :: rest) s.
Let P := map fst N.

Lemma P_prefix_closed p q : In p P -> prefix q p -> In q P.
Proof. exact (Inv_prefix_closed _ _ _ _ _ _ _ p q I). Qed.

Lemma new_last q : prefix q l -> ~ In q P -> forall p, In p P -> path_lt p q.
Proof.
  intros Hq Hn p Hp.
  pose proof (i_before _ _ _ _ _ _ _ I p l Hp (or_introl eq_refl)) as Hlt.
  destruct (path_lt_total p q) as [[H|H]|H]; [exact H | congruence |].
  exfalso. apply Hn. eapply P_prefix_closed; [exact Hp|].
  eapply prefix_between; [exact H | exact Hlt | exact Hq].
Qed.

Lemma new_sorted q k : prefix q l -> ~ In q P -> StronglySorted path_lt (map fst (N ++ [(q, k)])).
Proof.
  intros Hq Hn. rewrite map_app. cbn [map fst].
  pose proof (new_last q Hq Hn) as Hl. pose proof (i_sorted _ _ _ _ _ _ _ I) as HS.
  fold P in HS |- *. clear -Hl HS. revert Hl. induction HS as [|a L HS IH Ha]; intros Hl; cbn.
  - constructor; constructor.
  - constructor; [apply IH; intros; apply Hl; right; assumption|].
    apply Forall_app. split; [exact Ha|]. constructor; [apply Hl; left; reflexivity | constructor].
Qed.


Lemma new_append q t k msg :
  prefix q l -> path_ok l -> ~ In q P ->
  append st s (addr_of q t) k msg = Val (mkEst (e_tab s) (e_cur s) (e_cnt s)
      (map (recd w val) N ++ [mkOrec (addr_of q t) k])).
Proof.
  intros Hq Hl Hn. unfold append. rewrite (i_db _ _ _ _ _ _ _ I).
  destruct Hst as (_ & _ & Ha & _). rewrite Ha; [reflexivity|].
  intros r Hr. apply in_map_iff in Hr. destruct Hr as ([p k'] & <- & Hin).
  assert (Hp : In p P) by (apply in_map_iff; exists (p, k'); auto).
  assert (Ea : exists t', o_addr (recd w val (p, k')) = addr_of p t').
  { unfold recd; cbn [fst snd]. destruct k'; eexists; reflexivity. }
  destruct Ea as [t' ->]. unfold etree_lt.
  rewrite !path_of_addr_of.
  - apply new_last; assumption.
  - destruct Hq as [u Hu]. rewrite Hu in Hl. eapply path_ok_app, Hl.
  - exact (i_ok _ _ _ _ _ _ _ I p Hp).
Qed.

Lemma kids_app q p : (forall d, q <> p ++ [d]) -> kids (P ++ [q]) p = kids P p.
Proof.
  intros H. unfold kids. apply filter_ext. intros d. apply eq_true_iff_eq.
  rewrite !memb_iff, in_app_iff. cbn. split; [|tauto].
  intros [E|[E|[]]]; [exact E | destruct (H d E)].
Qed.

Lemma classcount_ext P1 P2 b :
  (forall p, In p C -> kids P1 p = kids P2 p) -> classcount P1 C b = classcount P2 C b.
Proof.
  intros H. unfold classcount. f_equal. apply filter_ext_in. intros p Hp. rewrite H by exact Hp. reflexivity.
Qed.

Lemma cnt_app q k : (forall p d, In p C -> q <> p ++ [d]) ->
  cnt_for (N ++ [(q, k)]) C =
  match cnt_for N C with
  | mkCnt i o t x y z xy yz xz xyz inv =>
      if leaf_of (q, k) then mkCnt (i+1) (o+1) t x y z xy yz xz xyz inv
      else mkCnt i (o+1) (t+1) x y z xy yz xz xyz inv
  end.
Proof.
  intros H. unfold cnt_for. rewrite map_app. cbn [map fst].
  assert (HK : forall p, In p C -> kids (P ++ [q]) p = kids P p)
    by (intros p Hp; apply kids_app; intros d; apply H, Hp).
  fold P.
  rewrite !(classcount_ext (P ++ [q]) P) by exact HK.
  assert (EI : filter (fun p => negb (known_class (bits (kids (P ++ [q]) p)))) C =
               filter (fun p => negb (known_class (bits (kids P p)))) C)
    by (apply filter_ext_in; intros p Hp; rewrite HK by exact Hp; reflexivity).
  rewrite EI, !filter_app. cbn [filter]. unfold zlen. rewrite !app_length.
  destruct (leaf_of (q, k)); cbn [negb List.length]; f_equal; lia.
Qed.

End New.

Lemma push_ok all N C w val l rest s q :
  Inv all N C w val (l :: rest) s ->
  In l all -> path_ok l -> prefix q l -> (List.length q < List.length l)%nat ->
  (forall r, In r rest -> path_lt l r /\ ~ prefix r l) ->
  ~ In q (map fst N) ->
  (w = None /\ q = []) \/ (exists v d, w = Some v /\ q = v ++ [d]) ->
  exists s', createOctant st s (addr_of q Interior) = Val s' /\
             Inv all (N ++ [(q, None)]) C (Some q) val (l :: rest) s'.
Proof.
  intros I Hlall Hlok Hql Hlen Hrest Hnew Hpar.
  set (P := map fst N) in *.
  assert (Hqok : path_ok q) by (destruct Hql as [u ->]; eapply path_ok_app; exact Hlok).
  assert (Hq30 : (List.length q <= 30)%nat) by (destruct Hlok; lia).
  assert (Hdep : depth w = List.length q).
  { destruct Hpar as [[-> ->]|(v & d & -> & ->)]; [reflexivity|].
    rewrite app_length; cbn; lia. }
  assert (HopenP : forall p, In p P -> openb (Some q) p = openb w p).
  { intros p Hp. apply eq_true_iff_eq. rewrite openb_some.
    destruct Hpar as [[-> ->]|(v & d & -> & ->)].
    - cbn. split; [|discriminate]. intros H.
      assert (p = []) by (apply prefix_eq; [exact H | apply prefix_length in H; cbn in *; lia]).
      subst; tauto.
    - rewrite openb_some, prefix_snoc. split; [intros [H|H]; [exact H|]|tauto].
      subst; tauto. }
  assert (Hcl : forall p, openb w p = false -> forall d', q <> p ++ [d']).
  { intros p Hp d' E. destruct Hpar as [[-> ->]|(v & d & -> & ->)].
    - destruct p; discriminate.
    - apply app_inj_tail in E. destruct E as [<- _].
      apply openb_some_false in Hp. apply Hp, prefix_refl. }
  assert (Hnokid : forall x, ~ In (q ++ [x]) P).
  { intros x H. apply Hnew. apply (i_parent _ _ _ _ _ _ _ I) in H.
    apply in_map_iff. exists (q, None); auto. }
  unfold createOctant. rewrite addr_of_level.
  replace (Z.of_nat (List.length q) <? 0) with false by (symmetry; apply Z.ltb_ge; lia).
  rewrite Nat2Z.id.
  destruct (i_invalid _ _ _ _ _ _ _ I (List.length q) ltac:(lia) ltac:(lia)) as (sl & Hsl & Hv).
  rewrite (tab_get_some _ _ _ Hsl). cbn [bind]. rewrite Hv. cbn [negb assert_ bind].
  rewrite (i_cur _ _ _ _ _ _ _ I), Hdep.
  replace (Z.of_nat (List.length q) =? Z.of_nat (List.length q) - 1 + 1) with true
    by (symmetry; apply Z.eqb_eq; lia). cbn [assert_ bind].
  rewrite (new_append _ _ _ _ _ _ _ _ I q Interior None _ Hql Hlok Hnew). cbn [bind].
  cbn [tab_set set_cur e_tab e_cur e_cnt e_db].
  rewrite (i_cnt _ _ _ _ _ _ _ I).
  destruct (cnt_for N C) as [ci co ct cx cy cz cxy cyz cxz cxyz cinv] eqn:Ecnt.
  eexists; split; [reflexivity|].
  constructor; cbn [set_cnt set_cur tab_set e_tab e_cur e_cnt e_db].
  - rewrite list_set_length. exact (i_len _ _ _ _ _ _ _ I).
  - intros v k Hv' Hk. injection Hv' as <-. rewrite map_app. cbn [map fst]. fold P.
    destruct (Nat.eq_dec k (List.length q)) as [->|Hne].
    + rewrite nth_list_set_eq by (rewrite (i_len _ _ _ _ _ _ _ I); lia).
      rewrite firstn_all, ckids_top.
      replace (kids (P ++ [q]) q) with (@nil Z); [reflexivity|].
      symmetry. unfold kids. rewrite <- (filter_ext (fun _ => false)).
      * induction digits; [reflexivity | assumption].
      * intros d. symmetry. apply memb_false. rewrite in_app_iff. cbn.
        intros [H|[H|[]]]; [exact (Hnokid d H) | exact (snoc_neq _ _ H)].
    + rewrite nth_list_set_neq by lia.
      destruct Hpar as [[-> ->]|(v & d & -> & ->)]; [cbn in *; lia|].
      rewrite app_length in Hk, Hne. cbn in Hk, Hne.
      rewrite (i_slots _ _ _ _ _ _ _ I v k eq_refl) by lia. fold P.
      rewrite firstn_snoc_le by lia. do 2 f_equal.
      unfold ckids. apply filter_ext. intros x.
      apply eq_true_iff_eq. rewrite !andb_true_iff, !negb_true_iff, !memb_iff, in_app_iff,
        !openb_some_false, prefix_snoc. cbn.
      split.
      * intros [H1 H2]. split; [left; exact H1|]. intros [H|H]; [exact (H2 H)|].
        rewrite H in H1. exact (Hnew H1).
      * intros [[H1|[H1|[]]] H2].
        -- split; [exact H1 | tauto].
        -- exfalso. apply H2. right; symmetry; exact H1.
  - intros k Hk1 Hk2. cbn [depth] in Hk1. rewrite nth_list_set_neq by lia.
    apply (i_invalid _ _ _ _ _ _ _ I k); lia.
  - cbn [depth]. lia.
  - rewrite map_app. cbn [map]. f_equal.
    + apply map_ext_in. intros [p k] Hin. unfold recd; cbn [fst snd].
      destruct k; [reflexivity|]. rewrite HopenP; [reflexivity|].
      apply in_map_iff. exists (p, None); auto.
    + unfold recd; cbn [fst snd].
      replace (openb (Some q) q) with true; [reflexivity|].
      symmetry. apply openb_some, prefix_refl.
  - rewrite cnt_app, Ecnt; [reflexivity|].
    intros p d Hp. apply (i_C _ _ _ _ _ _ _ I) in Hp. apply Hcl. tauto.
  - eapply new_sorted; [exact I | exact Hql | exact Hnew].
  - intros p Hp. rewrite map_app, in_app_iff in Hp. destruct Hp as [Hp|[<-|[]]];
      [exact (i_ok _ _ _ _ _ _ _ I p Hp) | exact Hqok].
  - intros p d Hp. rewrite map_app, in_app_iff in Hp. rewrite in_app_iff.
    destruct Hp as [Hp|[Hp|[]]]; [left; exact (i_parent _ _ _ _ _ _ _ I p d Hp)|].
    cbn in Hp. left. destruct Hpar as [[-> ->]|(v & d' & -> & ->)]; [destruct p; discriminate|].
    apply app_inj_tail in Hp. destruct Hp as [<- _].
    eapply i_open; [exact I | reflexivity | apply prefix_refl].
  - intros v p Hv' Hp. injection Hv' as <-. rewrite in_app_iff.
    destruct Hpar as [[-> ->]|(v & d' & -> & ->)].
    + right; left. f_equal. symmetry. apply prefix_eq; [exact Hp|].
      apply prefix_length in Hp. cbn in *; lia.
    + apply prefix_snoc in Hp. destruct Hp as [Hp| ->]; [|right; left; reflexivity].
      left. eapply i_open; [exact I | reflexivity | exact Hp].
  - intros v Hv'. injection Hv' as <-. exact Hq30.
  - intros p r Hp Hr. rewrite map_app, in_app_iff in Hp.
    destruct Hp as [Hp|[<-|[]]]; [exact (i_before _ _ _ _ _ _ _ I p r Hp Hr)|]. cbn [fst].
    assert (path_lt q l) by (apply prefix_lt; [exact Hql | intros ->; lia]).
    destruct Hr as [<-|Hr]; [assumption|].
    eapply path_lt_trans; [eassumption | apply Hrest, Hr].
  - intros p r Hp Ho Hr. rewrite map_app, in_app_iff in Hp.
    destruct Hp as [Hp|[<-|[]]].
    + rewrite HopenP in Ho by exact Hp. exact (i_closed _ _ _ _ _ _ _ I p r Hp Ho Hr).
    + apply openb_some_false in Ho. destruct Ho. apply prefix_refl.
  - intros p r Hp Hr. rewrite map_app, in_app_iff in Hp.
    destruct Hp as [Hp|[<-|[]]]; [exact (i_fresh _ _ _ _ _ _ _ I p r Hp Hr)|]. cbn [fst].
    intros H. destruct Hr as [<-|Hr].
    + apply prefix_length in H. lia.
    + destruct (Hrest r Hr) as [_ Hno]. apply Hno. eapply prefix_trans; eassumption.
  - intros p. rewrite in_app_iff, (i_C _ _ _ _ _ _ _ I p). split.
    + intros [H1 H2]. split; [left; exact H1|]. rewrite HopenP; [exact H2|].
      apply in_map_iff. exists (p, None); auto.
    + intros [[H1|[H1|[]]] H2].
      * split; [exact H1|]. rewrite HopenP in H2; [exact H2|].
        apply in_map_iff. exists (p, None); auto.
      * injection H1 as <-. apply openb_some_false in H2. destruct H2. apply prefix_refl.
  - exact (i_CND _ _ _ _ _ _ _ I).
  - intros p Hp. rewrite (i_mean _ _ _ _ _ _ _ I p Hp). rewrite map_app. cbn [map fst].
    rewrite kids_app; [reflexivity|]. apply Hcl.
    apply (i_C _ _ _ _ _ _ _ I) in Hp. tauto.
  - intros v u d x Hv' Hpre Hx Hne. injection Hv' as <-.
    rewrite map_app, in_app_iff in Hx. cbn in Hx.
    destruct Hx as [Hx|[Hx|[]]].
    + destruct (list_eq_dec Z.eq_dec (u ++ [d]) q) as [E|E].
      * pose proof (new_last _ _ _ _ _ _ _ _ I q Hql Hnew (u ++ [x]) Hx) as Hlt.
        rewrite <- E in Hlt. apply path_lt_app_l in Hlt. cbn in Hlt.
        destruct Hlt as [Hlt|[_ []]]. exact Hlt.
      * destruct Hpar as [[-> ->]|(v & d' & -> & ->)].
        -- exfalso. apply E, prefix_eq; [exact Hpre|]. apply prefix_length in Hpre. cbn in Hpre |- *. lia.
        -- apply prefix_snoc in Hpre. destruct Hpre as [Hpre|Hpre]; [|congruence].
           exact (i_top _ _ _ _ _ _ _ I v u d x eq_refl Hpre Hx Hne).
    + (* q = u ++ [x] and u ++ [d] prefix of q *)
      exfalso. rewrite Hx in Hpre. apply prefix_eq in Hpre; [|rewrite !app_length; reflexivity].
      apply app_inj_tail in Hpre. destruct Hpre; congruence.
  - intros p Hp. apply in_app_or in Hp. destruct Hp as [Hp|[Hp|[]]].
    + exact (i_anc _ _ _ _ _ _ _ I p Hp).
    + injection Hp as <-. exists l. split; [exact Hlall|]. split; [exact Hql|]. intros ->; lia.
Qed.

Lemma leaf_ok all N C u d val rest s ty p msg :
  Inv all N C (Some u) val ((u ++ [d]) :: rest) s ->
  path_ok (u ++ [d]) ->
  (forall r, In r rest -> path_lt (u ++ [d]) r /\ ~ prefix r (u ++ [d]) /\ ~ prefix (u ++ [d]) r) ->
  exists s1 s', append st s (addr_of (u ++ [d]) ty) (Some p) msg = Val s1 /\
    addToParent
      (let '(mkCnt i o t x y z xy yz xz xyz inv) := e_cnt s1 in
       set_cnt s1 (mkCnt (i+1) (o+1) t x y z xy yz xz xyz inv))
      (List.length u) (addr_of (u ++ [d]) ty) p = Val s' /\
    e_cur s1 = e_cur s /\
    Inv all (N ++ [(u ++ [d], Some ty)]) C (Some u) (upd val (u ++ [d]) p) rest s'.
Proof.
  intros I Hlok Hrest. set (l := u ++ [d]) in *. set (P := map fst N) in *.
  assert (Hnew : ~ In l P).
  { intros H. exact (i_fresh _ _ _ _ _ _ _ I l l H (or_introl eq_refl) (prefix_refl l)). }
  assert (HuN : In (u, None) N) by (eapply i_open; [exact I | reflexivity | apply prefix_refl]).
  assert (Hd8 : 0 <= d < 8) by (eapply path_ok_snoc_digit; exact Hlok).
  assert (Hlopen : openb (Some u) l = false).
  { apply openb_some_false. intros H. apply prefix_length in H. unfold l in H.
    rewrite app_length in H. cbn in H; lia. }
  assert (Hcl : forall q, openb (Some u) q = false -> forall d', l <> q ++ [d']).
  { intros q Hq d' E. unfold l in E. apply app_inj_tail in E. destruct E as [<- _].
    apply openb_some_false in Hq. apply Hq, prefix_refl. }
  rewrite (new_append _ _ _ _ _ _ _ _ I l ty (Some p) msg (prefix_refl l) Hlok Hnew).
  rewrite (i_cnt _ _ _ _ _ _ _ I).
  destruct (cnt_for N C) as [ci co ct cx cy cz cxy cyz cxz cxyz cinv] eqn:Ecnt.
  set (val' := upd val l p).
  assert (Hval : forall q, q <> l -> val' q = val q) by (intros; apply upd_neq; assumption).
  assert (HvalP : forall q, In q P -> val' q = val q)
    by (intros q Hq; apply Hval; intros ->; exact (Hnew Hq)).
  pose proof (i_slots _ _ _ _ _ _ _ I u (List.length u) eq_refl (le_n _)) as Hsl.
  rewrite firstn_all in Hsl. fold P in Hsl.
  set (K := ckids P (Some u) u) in *.
  assert (HKP : forall x, In x K -> In (u ++ [x]) P) by (intros x H; apply ckids_In in H; tauto).
  assert (Hsl' : nth_error (e_tab s) (List.length u) = Some (slot_for val' u K)).
  { rewrite Hsl. unfold slot_for. rewrite (pays_ext val val'); [reflexivity|].
    intros x Hx. apply HvalP, HKP, Hx. }
  eexists. eexists. split; [reflexivity|]. split; [|split; [reflexivity|]].
  { apply (addToParent_ok _ val' u K d ty p).
    - cbn [set_cnt e_tab]. exact Hsl'.
    - exact Hlok.
    - intros H. exact (Hnew (HKP d H)).
    - intros x H. apply ckids_In in H. lia.
    - unfold val'. apply upd_eq. }
  assert (HKd : ckids (P ++ [l]) (Some u) u = K ++ [d]).
  { unfold K, ckids. apply filter_add_last.
    - apply digits_iff, Hd8.
    - intros x Hx. assert (openb (Some u) (u ++ [x]) = false) as ->.
      { apply openb_some_false. intros H. apply prefix_length in H.
        rewrite app_length in H. cbn in H; lia. }
      cbn [negb]. rewrite !andb_true_r. apply eq_true_iff_eq.
      rewrite orb_true_iff, !memb_iff, in_app_iff, Z.eqb_eq. cbn. unfold l.
      split; [intros [H|[H|[]]]; [tauto | right; apply app_inj_tail in H; destruct H; congruence]|].
      intros [H| ->]; tauto.
    - intros x Hx H. apply andb_true_iff in H. destruct H as [H _]. apply memb_iff in H.
      pose proof (new_last _ _ _ _ _ _ _ _ I l (prefix_refl l) Hnew (u ++ [x]) H) as Hlt.
      unfold l in Hlt. apply path_lt_app_l in Hlt. cbn in Hlt. destruct Hlt as [Hlt|[_ []]]. exact Hlt. }
  constructor; cbn [tab_set set_cnt set_cur e_tab e_cur e_cnt e_db].
  - rewrite list_set_length. exact (i_len _ _ _ _ _ _ _ I).
  - intros v k Hv Hk. injection Hv as <-. rewrite map_app. cbn [map fst]. fold P.
    destruct (Nat.eq_dec k (List.length u)) as [->|Hne].
    + rewrite nth_list_set_eq by (pose proof (i_len _ _ _ _ _ _ _ I);
        pose proof (i_deep _ _ _ _ _ _ _ I u eq_refl); lia).
      rewrite firstn_all, HKd. reflexivity.
    + rewrite nth_list_set_neq by lia.
      rewrite (i_slots _ _ _ _ _ _ _ I u k eq_refl Hk). fold P. f_equal.
      assert (EK : ckids (P ++ [l]) (Some u) (firstn k u) = ckids P (Some u) (firstn k u)).
      { unfold ckids. apply filter_ext. intros x. f_equal. apply eq_true_iff_eq.
        rewrite !memb_iff, in_app_iff. cbn. split; [|tauto]. intros [H|[H|[]]]; [exact H|].
        unfold l in H. apply (f_equal (@List.length Z)) in H.
        rewrite !app_length, firstn_length in H. cbn in H; lia. }
      rewrite EK. unfold slot_for. rewrite (pays_ext val val'); [reflexivity|].
      intros x Hx. apply HvalP. apply ckids_In in Hx. tauto.
  - intros k Hk1 Hk2. cbn [depth] in Hk1. rewrite nth_list_set_neq by lia.
    apply (i_invalid _ _ _ _ _ _ _ I k); cbn [depth]; lia.
  - exact (i_cur _ _ _ _ _ _ _ I).
  - rewrite map_app. cbn [map]. f_equal.
    + apply map_ext_in. intros [q k] Hin. unfold recd; cbn [fst snd].
      rewrite HvalP; [reflexivity|]. apply in_map_iff. exists (q, k); auto.
    + unfold recd; cbn [fst snd]. unfold val'. rewrite upd_eq. reflexivity.
  - rewrite cnt_app, Ecnt; [reflexivity|].
    intros q d' Hq. apply (i_C _ _ _ _ _ _ _ I) in Hq. apply Hcl. tauto.
  - eapply new_sorted; [exact I | apply prefix_refl | exact Hnew].
  - intros q Hq. rewrite map_app, in_app_iff in Hq. destruct Hq as [Hq|[<-|[]]];
      [exact (i_ok _ _ _ _ _ _ _ I q Hq) | exact Hlok].
  - intros q d' Hq. rewrite map_app, in_app_iff in Hq. rewrite in_app_iff. left.
    destruct Hq as [Hq|[Hq|[]]]; [exact (i_parent _ _ _ _ _ _ _ I q d' Hq)|].
    cbn in Hq. unfold l in Hq. apply app_inj_tail in Hq. destruct Hq as [<- _]. exact HuN.
  - intros v q Hv Hq. injection Hv as <-. rewrite in_app_iff. left.
    eapply i_open; [exact I | reflexivity | exact Hq].
  - intros v Hv. exact (i_deep _ _ _ _ _ _ _ I v Hv).
  - intros q r Hq Hr. rewrite map_app, in_app_iff in Hq.
    destruct Hq as [Hq|[<-|[]]].
    + exact (i_before _ _ _ _ _ _ _ I q r Hq (or_intror Hr)).
    + apply Hrest, Hr.
  - intros q r Hq Ho Hr. rewrite map_app, in_app_iff in Hq.
    destruct Hq as [Hq|[<-|[]]].
    + exact (i_closed _ _ _ _ _ _ _ I q r Hq Ho (or_intror Hr)).
    + apply Hrest, Hr.
  - intros q r Hq Hr. rewrite map_app, in_app_iff in Hq.
    destruct Hq as [Hq|[<-|[]]].
    + exact (i_fresh _ _ _ _ _ _ _ I q r Hq (or_intror Hr)).
    + apply Hrest, Hr.
  - intros q. rewrite in_app_iff, (i_C _ _ _ _ _ _ _ I q). split.
    + intros [H1 H2]; split; [left|]; assumption.
    + intros [[H1|[H1|[]]] H2]; [split; assumption | discriminate].
  - exact (i_CND _ _ _ _ _ _ _ I).
  - intros q Hq. pose proof Hq as Hq'. apply (i_C _ _ _ _ _ _ _ I) in Hq'.
    destruct Hq' as [Hq1 Hq2].
    rewrite HvalP by (apply in_map_iff; exists (q, None); auto).
    rewrite (i_mean _ _ _ _ _ _ _ I q Hq). rewrite map_app. cbn [map fst].
    rewrite kids_app by (apply Hcl; exact Hq2). fold P. f_equal. symmetry. apply pays_ext.
    intros x Hx. apply HvalP. apply kids_In in Hx. tauto.
  - intros v u0 d0 x Hv Hpre Hx Hne. injection Hv as <-.
    rewrite map_app, in_app_iff in Hx. cbn in Hx. destruct Hx as [Hx|[Hx|[]]].
    + exact (i_top _ _ _ _ _ _ _ I u u0 d0 x eq_refl Hpre Hx Hne).
    + exfalso. unfold l in Hx. apply app_inj_tail in Hx. destruct Hx as [<- _].
      apply prefix_length in Hpre. rewrite app_length in Hpre. cbn in Hpre; lia.
  - intros q Hq. apply in_app_or in Hq. destruct Hq as [Hq|[Hq|[]]]; [|discriminate].
    exact (i_anc _ _ _ _ _ _ _ I q Hq).
Qed.

(** ** Loops *)
Definition agree (N : list node) (val val' : path -> payload) : Prop :=
  forall q ty, In (q, Some ty) N -> val' q = val q.
Lemma agree_refl N val : agree N val val.
Proof. intros q ty _; reflexivity. Qed.
Lemma agree_trans N v1 v2 v3 : agree N v1 v2 -> agree N v2 v3 -> agree N v1 v3.
Proof. intros H1 H2 q ty H. rewrite (H2 q ty H). exact (H1 q ty H). Qed.

Lemma pop_agree all N C w val rest s p :
  Inv all N C (Some w) val rest s -> agree N val (upd val w p).
Proof.
  intros I q ty H. apply upd_neq. intros ->.
  assert (H' : In (w, None) N) by (eapply i_open; [exact I | reflexivity | apply prefix_refl]).
  pose proof (node_unique N w _ _ (SSorted_NoDup _ (i_sorted _ _ _ _ _ _ _ I)) H H').
  discriminate.
Qed.

Lemma depth_parentw w : depth (parentw w) = List.length w.
Proof.
  destruct (snoc_cases w) as [->|(u & d & ->)]; [reflexivity|].
  rewrite parentw_snoc, app_length. cbn. lia.
Qed.

Lemma depth_S w k : depth w = S k -> exists v, w = Some v /\ List.length v = k.
Proof. destruct w as [v|]; cbn; [intros [= E]; eauto | discriminate]. Qed.

Lemma slot_valid all N C w val rest s k :
  Inv all N C w val rest s -> (k < depth w)%nat ->
  exists v, w = Some v /\ tab_get s k =
     Val (slot_for val (firstn k v) (ckids (map fst N) w (firstn k v))).
Proof.
  intros I Hk. destruct w as [v|]; cbn [depth] in Hk; [|lia].
  exists v; split; [reflexivity|]. apply tab_get_some.
  apply (i_slots _ _ _ _ _ _ _ I v k eq_refl). lia.
Qed.

Lemma top_slot all N C v val rest s :
  Inv all N C (Some v) val rest s ->
  tab_get s (List.length v) = Val (slot_for val v (kids (map fst N) v)).
Proof.
  intros I. destruct (slot_valid _ _ _ _ _ _ _ (List.length v) I) as (v' & [= <-] & H);
    [cbn [depth]; lia|].
  rewrite firstn_all, ckids_top in H. exact H.
Qed.

Lemma process_down_ok n : forall all N C w val rest s lo,
  Inv all N C w val rest s -> depth w = (lo + n)%nat ->
  (forall q r, openb w q = true -> (lo <= List.length q)%nat -> In r rest -> ~ prefix q r) ->
  exists s' C' w' val', process_down st s lo n = Val s' /\
    Inv all N C' w' val' rest s' /\ depth w' = lo /\ agree N val val'.
Proof.
  induction n as [|n IH]; intros all N C w val rest s lo I Hd Hc.
  - exists s, C, w, val. cbn [process_down]. rewrite Nat.add_0_r in Hd.
    auto using agree_refl.
  - cbn [process_down].
    destruct (depth_S w (lo + n)) as (v & -> & Lv); [lia|].
    destruct (pop_ok _ _ _ _ _ _ _ I) as (s1 & E1 & I1).
    { intros r Hr. apply Hc; [apply openb_some, prefix_refl | lia | exact Hr]. }
    rewrite <- Lv, E1. cbn [bind].
    destruct (IH _ _ _ _ _ _ _ lo I1) as (s' & C' & w' & val' & E & I' & D & A).
    + rewrite depth_parentw. exact Lv.
    + intros q r Hq Hl Hr. apply Hc; try assumption. rewrite openb_parent in Hq.
      apply andb_true_iff in Hq. tauto.
    + exists s', C', w', val'. split; [exact E|]. split; [exact I'|]. split; [exact D|].
      eapply agree_trans; [eapply pop_agree; exact I | exact A].
Qed.

Lemma find_valid_ok n : forall all N C w val rest s,
  Inv all N C w val rest s -> (depth w <= n <= 32)%nat -> find_valid s n = Val (depth w).
Proof.
  induction n as [|n IH]; intros all N C w val rest s I Hn; cbn [find_valid].
  - replace (depth w) with O by lia. reflexivity.
  - destruct (Nat.eq_dec (depth w) (S n)) as [E|E].
    + destruct (slot_valid _ _ _ _ _ _ _ n I) as (v & Ev & ->); [lia|].
      cbn [bind slot_for s_valid]. rewrite E. reflexivity.
    + destruct (i_invalid _ _ _ _ _ _ _ I n) as (sl & Hsl & Hv); [lia | lia|].
      rewrite (tab_get_some _ _ _ Hsl). cbn [bind]. rewrite Hv.
      eapply IH; [exact I | lia].
Qed.

(** A complete octant has no further input below it. *)
Lemma full_closable all N C v val rest s :
  Inv all N C (Some v) val rest s -> (forall r, In r rest -> path_ok r) ->
  bits (kids (map fst N) v) = INC_FULL -> forall r, In r rest -> ~ prefix v r.
Proof.
  intros I Hok Hfull r Hr Hpre.
  assert (HvP : In v (map fst N)).
  { apply in_map_iff. exists (v, None). split; [reflexivity|].
    eapply i_open; [exact I | reflexivity | apply prefix_refl]. }
  destruct (list_eq_dec Z.eq_dec v r) as [->|Hne].
  { exact (i_fresh _ _ _ _ _ _ _ I r r HvP Hr (prefix_refl r)). }
  destruct (prefix_step v r Hpre Hne) as [d Hd].
  assert (H8 : 0 <= d < 8).
  { destruct Hd as [t ->]. specialize (Hok _ Hr). apply path_ok_app in Hok.
    eapply path_ok_snoc_digit; exact Hok. }
  assert (Hk : In d (kids (map fst N) v)).
  { apply bits_full; [|exact Hfull | exact H8]. intros x Hx. apply kids_In in Hx. lia. }
  rewrite <- ckids_top in Hk. apply ckids_In in Hk. destruct Hk as (_ & Hin & Ho).
  exact (i_closed _ _ _ _ _ _ _ I _ r Hin Ho Hr Hd).
Qed.

Lemma firstn_prefix_eq (l v : path) : firstn (List.length v) l = v <-> prefix v l.
Proof. symmetry. apply prefix_firstn_iff. Qed.

Lemma findAncestor_firstn l k ty :
  path_ok l -> (k < List.length l)%nat ->
  findAncestor (addr_of l ty) (Z.of_nat k) = Val (addr_of (firstn k l) Interior).
Proof.
  intros Hok Hk.
  pose proof (findAncestor_path (firstn k l) (skipn k l) ty) as H.
  rewrite firstn_skipn, firstn_length in H. rewrite Nat.min_l in H by lia.
  apply H; [exact Hok|]. intros E. apply (f_equal (@List.length Z)) in E.
  rewrite skipn_length in E. cbn in E. lia.
Qed.

Lemma close_stale_ok n : forall all N C w val l rest s ty,
  Inv all N C w val (l :: rest) s -> depth w = n -> (n <= List.length l)%nat ->
  (forall r, In r (l :: rest) -> path_ok r) ->
  (forall r, In r rest -> path_lt l r) ->
  exists s' C' w' val', close_stale st s (addr_of l ty) n = Val (s', depth w') /\
    Inv all N C' w' val' (l :: rest) s' /\ (forall v, w' = Some v -> prefix v l) /\
    agree N val val' /\ (depth w' <= List.length l)%nat.
Proof.
  induction n as [|n IH]; intros all N C w val l rest s ty I Hd Hn Hok Hlt.
  - exists s, C, w, val. destruct w; [discriminate|]. cbn [close_stale].
    split; [reflexivity|]. split; [exact I|]. split; [intros v; discriminate|].
    split; [apply agree_refl|]. cbn; lia.
  - cbn [close_stale]. destruct (depth_S w n Hd) as (v & -> & Lv).
    assert (HvP : In v (map fst N)).
    { apply in_map_iff. exists (v, None). split; [reflexivity|].
      eapply i_open; [exact I | reflexivity | apply prefix_refl]. }
    rewrite <- Lv. rewrite (top_slot _ _ _ _ _ _ _ I). cbn [bind].
    cbn [slot_for s_valid s_addr s_bits].
    set (f := firstn (List.length v) l).
    assert (El : l = f ++ skipn (List.length v) l) by (symmetry; apply firstn_skipn).
    assert (Lf : List.length f = List.length v) by (unfold f; rewrite firstn_length; lia).
    assert (Hlok : path_ok l) by (apply Hok; left; reflexivity).
    assert (Hfok : path_ok f) by (rewrite El in Hlok; eapply path_ok_app; exact Hlok).
    assert (Efa : findAncestor (addr_of l ty) (Z.of_nat (List.length v)) = Val (addr_of f Interior)).
    { apply findAncestor_firstn; [exact Hlok | lia]. }
    rewrite Efa. cbn [bind].
    destruct (negb (sameAddr (addr_of f Interior) (addr_of v Interior))
              || (bits (kids (map fst N) v) =? INC_FULL)) eqn:Eb.
    + replace (Z.of_nat (List.length v) =? e_cur s) with true.
      2:{ symmetry. apply Z.eqb_eq. rewrite (i_cur _ _ _ _ _ _ _ I). cbn [depth]. lia. }
      cbn [assert_ bind].
      destruct (pop_ok _ _ _ _ _ _ _ I) as (s1 & E1 & I1).
      { apply orb_true_iff in Eb. destruct Eb as [Eb|Eb].
        - apply negb_true_iff in Eb.
          assert (Hnp : ~ prefix v l).
          { intros Hp. apply firstn_prefix_eq in Hp. fold f in Hp.
            rewrite (proj2 (sameAddr_path f v Interior Interior Hfok
              (i_ok _ _ _ _ _ _ _ I v HvP)) Hp) in Eb. discriminate. }
          intros r [<-|Hr]; [exact Hnp|]. intros Hp. apply Hnp.
          eapply prefix_between; [|apply Hlt, Hr | exact Hp].
          exact (i_before _ _ _ _ _ _ _ I v l HvP (or_introl eq_refl)).
        - apply Z.eqb_eq in Eb. eapply full_closable; [exact I | exact Hok | exact Eb]. }
      rewrite E1. cbn [bind].
      destruct (IH _ _ _ _ _ _ _ _ ty I1) as (s' & C' & w' & val' & E & I' & Hp & A & D).
      * rewrite depth_parentw. exact Lv.
      * lia.
      * exact Hok.
      * exact Hlt.
      * exists s', C', w', val'. rewrite Lv, E.
        split; [reflexivity|]. split; [exact I'|]. split; [exact Hp|]. split; [|exact D].
        eapply agree_trans; [eapply pop_agree; exact I | exact A].
    + exists s, C, (Some v), val. split; [reflexivity|]. split; [exact I|].
      split; [|split; [apply agree_refl | cbn [depth]; lia]].
      intros v' [= <-]. apply firstn_prefix_eq. fold f.
      apply orb_false_iff in Eb. destruct Eb as [Eb _]. apply negb_false_iff in Eb.
      apply (sameAddr_path f v Interior Interior); try assumption.
      exact (i_ok _ _ _ _ _ _ _ I v HvP).
Qed.

Definition ints (L : list path) : list node := map (fun q => (q, None)) L.

Lemma create_up_ok n : forall all N C w val l rest s ty,
  Inv all N C w val (l :: rest) s -> In l all -> path_ok l ->
  (depth w + n = List.length l)%nat -> (forall v, w = Some v -> prefix v l) ->
  (forall r, In r rest -> path_lt l r /\ ~ prefix r l) -> (1 <= List.length l)%nat ->
  exists s' u d L, create_up st s (addr_of l ty) (depth w) n = Val s' /\
    Inv all (N ++ ints L) C (Some u) val (l :: rest) s' /\ l = u ++ [d].
Proof.
  induction n as [|n IH]; intros all N C w val l rest s ty I Hall Hlok Hd Hw Hrest H1.
  - cbn [create_up]. destruct (depth_S w (List.length l - 1)) as (v & -> & Lv); [lia|].
    destruct (Hw v eq_refl) as [t Et].
    destruct t as [|d [|d' t]].
    + exfalso. rewrite app_nil_r in Et. subst; lia.
    + exists s, v, d, []. cbn [ints map]. rewrite app_nil_r. auto.
    + exfalso. apply (f_equal (@List.length Z)) in Et. rewrite app_length in Et. cbn in Et. lia.
  - cbn [create_up].
    set (k := depth w) in *. set (q := firstn k l).
    assert (El : l = q ++ skipn k l) by (symmetry; apply firstn_skipn).
    assert (Lq : List.length q = k) by (unfold q; rewrite firstn_length; lia).
    assert (Hql : prefix q l) by apply prefix_firstn.
    assert (Efa : findAncestor (addr_of l ty) (Z.of_nat k) = Val (addr_of q Interior)).
    { apply findAncestor_firstn; [exact Hlok | lia]. }
    rewrite Efa. cbn [bind].
    destruct (push_ok all N C w val l rest s q I Hall Hlok Hql ltac:(lia) Hrest) as (s1 & E1 & I1).
    { intros Hin. refine (i_closed _ _ _ _ _ _ _ I q l Hin _ (or_introl eq_refl) Hql).
      destruct w as [v|]; [|reflexivity]. apply openb_some_false. intros H.
      apply prefix_length in H. cbn [depth] in k. lia. }
    { destruct w as [v|].
      - right. destruct (Hw v eq_refl) as [t Et]. cbn [depth] in k.
        destruct t as [|d t].
        + exfalso. rewrite app_nil_r in Et. subst v. lia.
        + exists v, d. split; [reflexivity|]. unfold q, k. rewrite Et.
          rewrite firstn_app. replace (S (List.length v) - List.length v)%nat with 1%nat by lia.
          rewrite firstn_all2 by lia. reflexivity.
      - left. split; [reflexivity|]. reflexivity. }
    rewrite E1. cbn [bind].
    destruct (IH _ _ _ _ _ _ _ _ ty I1 Hall Hlok) as (s' & u & d & L & E & I' & Eu).
    + cbn [depth]. lia.
    + intros v [= <-]. exact Hql.
    + exact Hrest.
    + exact H1.
    + exists s', u, d, (q :: L). cbn [depth] in E. rewrite Lq in E.
      split; [exact E|]. split; [|exact Eu].
      cbn [ints map]. rewrite <- app_assoc in I'. exact I'.
Qed.

Lemma close_full_ok n : forall all N C w val rest s,
  Inv all N C w val rest s -> depth w = n -> (forall r, In r rest -> path_ok r) ->
  exists s' C' w' val', close_full st s n = Val (s', depth w') /\
    Inv all N C' w' val' rest s' /\ agree N val val'.
Proof.
  induction n as [|n IH]; intros all N C w val rest s I Hd Hok.
  - exists s, C, w, val. cbn [close_full]. rewrite Hd. auto using agree_refl.
  - cbn [close_full]. destruct (depth_S w n Hd) as (v & -> & Lv).
    rewrite <- Lv, (top_slot _ _ _ _ _ _ _ I). cbn [bind slot_for s_bits s_valid].
    destruct (Z.eqb_spec (bits (kids (map fst N) v)) INC_FULL) as [E|E].
    + cbn [assert_ bind].
      replace (Z.of_nat (List.length v) =? e_cur s) with true.
      2:{ symmetry. apply Z.eqb_eq. rewrite (i_cur _ _ _ _ _ _ _ I). cbn [depth]. lia. }
      cbn [assert_ bind].
      destruct (pop_ok _ _ _ _ _ _ _ I) as (s1 & E1 & I1).
      { eapply full_closable; [exact I | exact Hok | exact E]. }
      rewrite E1. cbn [bind].
      destruct (IH _ _ _ _ _ _ _ I1) as (s' & C' & w' & val' & E2 & I' & A).
      * rewrite depth_parentw; exact Lv.
      * exact Hok.
      * exists s', C', w', val'. rewrite Lv. split; [exact E2|]. split; [exact I'|].
        eapply agree_trans; [eapply pop_agree; exact I | exact A].
    + exists s, C, (Some v), val. cbn [depth]. auto using agree_refl.
Qed.

Lemma finish_ok n : forall all N C w val s,
  Inv all N C w val [] s -> (depth w <= n <= 32)%nat ->
  exists s' C' val', finishProcessing st s n = Val s' /\
    Inv all N C' None val' [] s' /\ agree N val val'.
Proof.
  induction n as [|n IH]; intros all N C w val s I Hn.
  - exists s, C, val. destruct w; [cbn in Hn; lia|]. cbn [finishProcessing].
    auto using agree_refl.
  - cbn [finishProcessing]. destruct (Nat.eq_dec (depth w) (S n)) as [E|E].
    + destruct (depth_S w n E) as (v & -> & Lv).
      rewrite <- Lv, (top_slot _ _ _ _ _ _ _ I). cbn [bind slot_for s_valid].
      replace (Z.of_nat (List.length v) =? e_cur s) with true.
      2:{ symmetry. apply Z.eqb_eq. rewrite (i_cur _ _ _ _ _ _ _ I). cbn [depth]. lia. }
      cbn [assert_ bind].
      destruct (pop_ok _ _ _ _ _ _ _ I) as (s1 & E1 & I1); [intros r []|].
      rewrite E1. cbn [bind].
      destruct (IH _ _ _ _ _ _ I1) as (s' & C' & val' & E2 & I' & A).
      * rewrite depth_parentw. lia.
      * exists s', C', val'. rewrite Lv. split; [exact E2|]. split; [exact I'|].
        eapply agree_trans; [eapply pop_agree; exact I | exact A].
    + destruct (i_invalid _ _ _ _ _ _ _ I n) as (sl & Hsl & Hv); [lia | lia|].
      rewrite (tab_get_some _ _ _ Hsl). cbn [bind]. rewrite Hv.
      destruct (IH _ _ _ _ _ _ I) as (s' & C' & val' & E2 & I' & A); [lia|].
      exists s', C', val'. auto.
Qed.

(** ** One input octant *)
Definition leaves (val : path -> payload) (N : list node) : list (path * otype * payload) :=
  flat_map (fun n => match snd n with
                     | Some ty => [(fst n, ty, val (fst n))]
                     | None => []
                     end) N.

Lemma leaves_agree N val val' : agree N val val' -> leaves val' N = leaves val N.
Proof.
  intros H. unfold leaves.
  assert (G : forall L, incl L N ->
    flat_map (fun n : node => match snd n with
                     | Some ty => [(fst n, ty, val' (fst n))] | None => [] end) L =
    flat_map (fun n : node => match snd n with
                     | Some ty => [(fst n, ty, val (fst n))] | None => [] end) L).
  { induction L as [|[q [ty|]] L IH]; intros Hi; cbn [flat_map fst snd]; [reflexivity| |].
    - rewrite IH by (intros x Hx; apply Hi; right; exact Hx).
      rewrite (H q ty) by (apply Hi; left; reflexivity). reflexivity.
    - rewrite IH by (intros x Hx; apply Hi; right; exact Hx). reflexivity. }
  apply G, incl_refl.
Qed.

Lemma leaves_ints val L : leaves val (ints L) = [].
Proof. induction L as [|q L IH]; [reflexivity | exact IH]. Qed.

Lemma leaves_app val N1 N2 : leaves val (N1 ++ N2) = leaves val N1 ++ leaves val N2.
Proof. unfold leaves. apply flat_map_app. Qed.

Lemma step_ok all N C w val l rest s ty p :
  Inv all N C w val (l :: rest) s -> In l all ->
  (forall r, In r (l :: rest) -> path_ok r) -> (1 <= List.length l)%nat ->
  (forall r, In r rest -> path_lt l r /\ ~ prefix l r) ->
  exists s' N' C' w' val', averageOctant st s (addr_of l ty) p = Val s' /\
    Inv all N' C' w' val' rest s' /\
    leaves val' N' = leaves val N ++ [(l, ty, p)].
Proof.
  intros I Hall Hok H1 Hrest.
  assert (Hlok : path_ok l) by (apply Hok; left; reflexivity).
  assert (Hrest3 : forall r, In r rest -> path_lt l r /\ ~ prefix r l /\ ~ prefix l r).
  { intros r Hr. destruct (Hrest r Hr) as [A B]. repeat split; try assumption.
    intros F. exact (prefix_not_lt _ _ F A). }
  unfold averageOctant. rewrite addr_of_level.
  replace (Z.of_nat (List.length l) <=? 0) with false by (symmetry; apply Z.leb_gt; lia).
  unfold findParent. rewrite addr_of_level, Nat2Z.id.
  replace (0 <=? Z.of_nat (List.length l)) with true by (symmetry; apply Z.leb_le; lia).
  cbn [assert_ bind].
  replace (Z.of_nat (List.length l) <=? Z.of_nat pendingSize) with true
    by (symmetry; apply Z.leb_le; destruct Hlok; unfold pendingSize; lia).
  cbn [assert_ bind].
  (* close deeper pending octants *)
  assert (HD : exists s1 C1 w1 val1,
     process_down st s (List.length l) (Z.to_nat (e_cur s - Z.of_nat (List.length l) + 1)) = Val s1 /\
     Inv all N C1 w1 val1 (l :: rest) s1 /\ (depth w1 <= List.length l)%nat /\ agree N val val1).
  { rewrite (i_cur _ _ _ _ _ _ _ I).
    destruct (Nat.le_gt_cases (depth w) (List.length l)) as [Hle|Hgt].
    - replace (Z.to_nat (Z.of_nat (depth w) - 1 - Z.of_nat (List.length l) + 1)) with O by lia.
      exists s, C, w, val. cbn [process_down]. auto using agree_refl.
    - destruct (process_down_ok (depth w - List.length l) all N C w val (l :: rest) s (List.length l) I)
        as (s1 & C1 & w1 & val1 & E & I1 & D & A).
      + lia.
      + intros q r Ho Hq Hr Hpre.
        assert (HqP : In q (map fst N)).
        { apply openb_true in Ho. destruct Ho as (v & -> & Hv). apply in_map_iff.
          exists (q, None). split; [reflexivity|]. eapply i_open; [exact I | reflexivity | exact Hv]. }
        assert (Hnp : ~ prefix q l).
        { intros Hp. assert (q = l) by (apply prefix_eq; [exact Hp | apply prefix_length in Hp; lia]).
          subst q. exact (i_fresh _ _ _ _ _ _ _ I l l HqP (or_introl eq_refl) (prefix_refl l)). }
        destruct Hr as [<-|Hr]; [exact (Hnp Hpre)|].
        apply Hnp. eapply prefix_between; [|apply Hrest, Hr | exact Hpre].
        exact (i_before _ _ _ _ _ _ _ I q l HqP (or_introl eq_refl)).
      + exists s1, C1, w1, val1.
        replace (Z.to_nat (Z.of_nat (depth w) - 1 - Z.of_nat (List.length l) + 1))
          with (depth w - List.length l)%nat by lia.
        split; [exact E|]. split; [exact I1|]. split; [lia | exact A]. }
  destruct HD as (s1 & C1 & w1 & val1 & E1 & I1 & D1 & A1). rewrite E1. cbn [bind].
  rewrite (find_valid_ok _ _ _ _ _ _ _ _ I1) by (destruct Hlok; lia). cbn [bind].
  destruct (close_stale_ok (depth w1) all N C1 w1 val1 l rest s1 ty I1 eq_refl D1 Hok)
    as (s2 & C2 & w2 & val2 & E2 & I2 & Hw2 & A2 & D2); [intros r Hr; apply Hrest, Hr|].
  rewrite E2. cbn [bind].
  destruct (create_up_ok (List.length l - depth w2) all N C2 w2 val2 l rest s2 ty I2 Hall Hlok)
    as (s3 & u & d & L & E3 & I3 & El).
  { lia. } { exact Hw2. } { intros r Hr; destruct (Hrest3 r Hr) as (a & b & c); auto. } { exact H1. }
  rewrite E3. cbn [bind].
  assert (Lu : (List.length l - 1)%nat = List.length u) by (rewrite El, app_length; cbn; lia).
  rewrite Lu.
  replace (Z.of_nat (List.length u) =? Z.of_nat (List.length l) - 1) with true
    by (symmetry; apply Z.eqb_eq; lia).
  cbn [assert_ bind].
  replace (Z.of_nat (List.length u) <=? e_cur s3) with true.
  2:{ symmetry. apply Z.leb_le. rewrite (i_cur _ _ _ _ _ _ _ I3). cbn [depth]. lia. }
  cbn [assert_ bind].
  subst l.
  destruct (leaf_ok all (N ++ ints L) C2 u d val2 rest s3 ty p
     "Error occurred while trying to append octant to etree."%string I3 Hlok Hrest3)
    as (s4 & s5 & E4 & E5 & Ec & I5).
  rewrite E4. cbn [bind].
  destruct (e_cnt s4) as [ci co ct cx cy cz cxy cyz cxz cxyz cinv] eqn:Ecnt.
  rewrite E5. cbn [bind].
  destruct (close_full_ok (S (List.length u)) _ _ _ _ _ _ _ I5 eq_refl)
    as (s6 & C6 & w6 & val6 & E6 & I6 & A6); [intros r Hr; apply Hok; right; exact Hr|].
  rewrite E6. cbn [bind].
  replace (Z.of_nat (depth w6) - 1 <=? e_cur s6) with true.
  2:{ symmetry. apply Z.leb_le. rewrite (i_cur _ _ _ _ _ _ _ I6). lia. }
  cbn [assert_ bind].
  exists s6, ((N ++ ints L) ++ [(u ++ [d], Some ty)]), C6, w6, val6.
  split; [reflexivity|]. split; [exact I6|].
  rewrite (leaves_agree _ _ _ A6), leaves_app, leaves_app, leaves_ints, app_nil_r.
  cbn [leaves flat_map fst snd app]. rewrite upd_eq.
  f_equal.
  assert (A7 : agree N val (upd val2 (u ++ [d]) p)).
  { intros q t Hq. rewrite upd_neq; [exact (agree_trans _ _ _ _ A1 A2 q t Hq)|].
    intros ->.
    refine (i_fresh _ _ _ _ _ _ _ I (u ++ [d]) (u ++ [d]) _ (or_introl eq_refl) (prefix_refl _)).
    apply in_map_iff. exists (u ++ [d], Some t); auto. }
  exact (leaves_agree _ _ _ A7).
Qed.

(** ** The whole input *)
Notation inoct := (path * otype * payload)%type.
Definition in_path (x : inoct) : path := fst (fst x).
Definition in_rec (x : inoct) : addr * payload := (addr_of (in_path x) (snd (fst x)), snd x).

Lemma averageAll_ok : forall inp all N C w val s,
  Inv all N C w val (map in_path inp) s ->
  (forall x, In x inp -> In (in_path x) all /\ path_ok (in_path x) /\ in_path x <> []) ->
  StronglySorted (fun p q => path_lt p q /\ ~ prefix p q) (map in_path inp) ->
  exists s' N' C' w' val', averageAll st s (map in_rec inp) = Val s' /\
    Inv all N' C' w' val' [] s' /\ leaves val' N' = leaves val N ++ inp.
Proof.
  induction inp as [|[[l ty] p] inp IH]; intros all N C w val s I Hok HS.
  - exists s, N, C, w, val. cbn. rewrite app_nil_r. auto.
  - cbn [map in_rec in_path fst snd averageAll] in *.
    inversion HS as [|? ? HS' Hl]; subst. rewrite Forall_forall in Hl.
    destruct (Hok _ (or_introl eq_refl)) as (Ha & Hp & Hne). cbn [in_path fst] in Ha, Hp, Hne.
    destruct (step_ok all N C w val l (map in_path inp) s ty p I Ha)
      as (s1 & N1 & C1 & w1 & val1 & E1 & I1 & L1).
    + intros r [<-|Hr]; [exact Hp|]. apply in_map_iff in Hr. destruct Hr as (x & <- & Hx).
      apply (Hok x). right; exact Hx.
    + destruct l; [congruence | cbn; lia].
    + exact Hl.
    + rewrite E1. cbn [bind].
      destruct (IH all N1 C1 w1 val1 s1 I1) as (s2 & N2 & C2 & w2 & val2 & E2 & I2 & L2).
      * intros x Hx. apply Hok. right; exact Hx.
      * exact HS'.
      * exists s2, N2, C2, w2, val2. split; [exact E2|]. split; [exact I2|].
        rewrite L2, L1, <- app_assoc. reflexivity.
Qed.

Lemma Inv_start all rest : Inv all [] [] None (fun _ => zero_pay) rest engine0.
Proof.
  constructor; cbn [engine0 e_tab e_cur e_cnt e_db map depth].
  - apply repeat_length.
  - discriminate.
  - intros k _ Hk. exists slot0. split; [|reflexivity].
    apply nth_error_repeat. exact Hk.
  - reflexivity.
  - reflexivity.
  - reflexivity.
  - constructor.
  - intros q [].
  - intros q d [].
  - discriminate.
  - discriminate.
  - intros q r [].
  - intros q r [].
  - intros q r [].
  - intros q. cbn. tauto.
  - apply NoDup_nil.
  - intros q [].
  - intros v u d x; discriminate.
  - intros q [].
Qed.

Theorem fillOctants_ok inp :
  inp <> [] ->
  (forall x, In x inp -> path_ok (in_path x) /\ in_path x <> []) ->
  StronglySorted (fun p q => path_lt p q /\ ~ prefix p q) (map in_path inp) ->
  exists s N C val, fillOctants st (map in_rec inp) = Val s /\
    Inv (map in_path inp) N C None val [] s /\ leaves val N = inp.
Proof.
  intros Hne Hok HS.
  destruct (averageAll_ok inp (map in_path inp) [] [] None (fun _ => zero_pay) engine0
    (Inv_start _ _)) as (s1 & N1 & C1 & w1 & val1 & E1 & I1 & L1).
  - intros x Hx. split; [apply in_map, Hx | apply Hok, Hx].
  - exact HS.
  - unfold fillOctants. destruct (map in_rec inp) as [|y ys] eqn:Em.
    { destruct inp; [congruence | discriminate]. }
    destruct Hst as (Hb & He & _). rewrite Hb, E1. cbn [bind].
    destruct (finish_ok pendingSize _ _ _ _ _ _ I1) as (s2 & C2 & val2 & E2 & I2 & A2).
    { unfold pendingSize. split; [|lia]. destruct w1 as [v|]; cbn [depth]; [|lia].
      pose proof (i_deep _ _ _ _ _ _ _ I1 v eq_refl). lia. }
    rewrite E2. cbn [bind]. rewrite He.
    exists s2, N1, C2, val2. split; [reflexivity|]. split; [exact I2|].
    rewrite (leaves_agree _ _ _ A2), L1. reflexivity.
Qed.

End Storage.
