(** From the engine invariant to the specification of averaging. *)
From Coq Require Import ZArith Bool String Lia Sorting.Sorted Sorting.Permutation List.
From Flocq Require Import Core.Zaux IEEE754.BinarySingleNaN.
From Verif Require Import Outcome Float Payload Addr SpecOct SpecAvg AddrFacts AvgEngine PathFacts
  AvgInv AvgOverlap FloatFacts.
Import ListNotations.
Open Scope Z_scope.

(** ** Inputs as paths *)
Definition conv (x : addr * payload) : list Z * otype * payload :=
  (path_of (fst x), a_type (fst x), snd x).

Lemma in_rec_conv x : octant_ok (fst x) -> in_rec (conv x) = x.
Proof.
  intros H. destruct x as [a p]. unfold in_rec, conv, in_path; cbn [fst snd] in *.
  rewrite addr_of_path_of by exact H. reflexivity.
Qed.

Lemma map_in_rec_conv inp :
  (forall a, In a (map fst inp) -> octant_ok a) -> map in_rec (map conv inp) = inp.
Proof.
  intros H. rewrite map_map. rewrite <- (map_id inp) at 2. apply map_ext_in.
  intros x Hx. apply in_rec_conv, H, in_map, Hx.
Qed.

Lemma map_in_path_conv inp : map in_path (map conv inp) = map path_of (map fst inp).
Proof. rewrite !map_map. reflexivity. Qed.

Lemma covers_path a b : octant_ok a -> octant_ok b ->
  (covers a b <-> prefix (path_of a) (path_of b)).
Proof.
  intros Ha Hb. rewrite <- (addr_of_path_of a Ha) at 1. rewrite <- (addr_of_path_of b Hb) at 1.
  apply covers_prefix; apply path_of_ok; assumption.
Qed.

Lemma ancestor_path a b : octant_ok a -> octant_ok b ->
  (ancestor_of a b <-> prefix (path_of a) (path_of b) /\ path_of a <> path_of b).
Proof.
  intros Ha Hb. unfold ancestor_of. rewrite covers_path by assumption.
  assert (La := path_of_length a (proj1 (proj1 Ha))).
  assert (Lb := path_of_length b (proj1 (proj1 Hb))).
  split; intros [H1 H2]; split; try assumption.
  - intros E. rewrite E in La. lia.
  - pose proof (prefix_length _ _ H1). destruct (Z.eq_dec (a_level a) (a_level b)); [|lia].
    exfalso. apply H2. apply prefix_eq; [exact H1 | lia].
Qed.

Lemma sorted_map {A} (R : list Z -> list Z -> Prop) (f : A -> list Z) (l : list A) :
  StronglySorted (fun a b => R (f a) (f b)) l -> StronglySorted R (map f l).
Proof.
  induction 1 as [|a l H IH Ha]; cbn; constructor; [exact IH|].
  rewrite Forall_map. exact Ha.
Qed.
Lemma sorted_unmap {A} (R : list Z -> list Z -> Prop) (f : A -> list Z) (l : list A) :
  StronglySorted R (map f l) -> StronglySorted (fun a b => R (f a) (f b)) l.
Proof.
  induction l as [|a l IH]; cbn; intros H; [constructor|].
  inversion H as [|? ? H1 H2]; subst. constructor; [apply IH, H1|].
  rewrite Forall_map in H2. exact H2.
Qed.

Lemma wf_paths inp : wf_input inp ->
  map conv inp <> [] /\
  (forall x, In x (map conv inp) -> path_ok (in_path x) /\ in_path x <> []) /\
  StronglySorted (fun p q => path_lt p q /\ ~ prefix p q) (map in_path (map conv inp)).
Proof.
  intros [Hne Hok Hord Hdis]. split; [|split].
  - destruct inp; [congruence | discriminate].
  - intros x Hx. apply in_map_iff in Hx. destruct Hx as ([a p] & <- & Hin).
    apply (in_map fst) in Hin. destruct (Hok _ Hin) as [H1 H2]. cbn [fst] in *.
    unfold in_path, conv; cbn [fst]. split; [apply path_of_ok, H1|].
    intros E. pose proof (path_of_length a (proj1 (proj1 H1))) as L. rewrite E in L. cbn in L. lia.
  - rewrite map_in_path_conv. apply sorted_map.
    assert (G : forall l, (forall a, In a l -> In a (map fst inp)) -> StronglySorted etree_lt l ->
      StronglySorted (fun a b => path_lt (path_of a) (path_of b) /\ ~ prefix (path_of a) (path_of b)) l).
    { induction l as [|a l IH]; intros Hsub HS; [constructor|].
      inversion HS as [|? ? HS' Ha]; subst. constructor.
      - apply IH; [intros b Hb; apply Hsub; right; exact Hb | exact HS'].
      - rewrite Forall_forall in *. intros b Hb. split; [exact (Ha b Hb)|].
        intros HP. apply (Hdis a b); [apply Hsub; left; reflexivity | apply Hsub; right; exact Hb|].
        apply ancestor_path; [apply Hok, Hsub; left; reflexivity | apply Hok, Hsub; right; exact Hb|].
        split; [exact HP|]. apply path_lt_neq, Ha, Hb. }
    apply G; [auto | exact Hord].
Qed.

(** ** Lists *)
Lemma sorted_ext (l1 l2 : list path) :
  StronglySorted path_lt l1 -> StronglySorted path_lt l2 ->
  (forall q, In q l1 <-> In q l2) -> l1 = l2.
Proof.
  intros H1. revert l2. induction H1 as [|a l H1 IH Ha]; intros l2 H2 HI.
  - destruct l2 as [|b l2]; [reflexivity|]. destruct (proj2 (HI b) (or_introl eq_refl)).
  - inversion H2 as [|b l2' H2' Hb]; subst.
    + destruct (proj1 (HI a) (or_introl eq_refl)).
    + rewrite Forall_forall in *.
      assert (E : a = b).
      { destruct (proj1 (HI a) (or_introl eq_refl)) as [E|E]; [auto|].
        destruct (proj2 (HI b) (or_introl eq_refl)) as [F|F]; [auto|].
        exfalso. exact (path_lt_asym _ _ (Ha b F) (Hb a E)). }
      subst b. f_equal. apply IH; [exact H2'|].
      intros q. split; intros Hq.
      * destruct (proj1 (HI q) (or_intror Hq)) as [<-|E]; [|exact E].
        exfalso. exact (path_lt_irrefl _ (Ha _ Hq)).
      * destruct (proj2 (HI q) (or_intror Hq)) as [<-|E]; [|exact E].
        exfalso. exact (path_lt_irrefl _ (Hb _ Hq)).
Qed.

Lemma sorted_filter (f : path -> bool) (l : list path) :
  StronglySorted path_lt l -> StronglySorted path_lt (filter f l).
Proof.
  induction 1 as [|a l H IH Ha]; cbn; [constructor|].
  destruct (f a); [|exact IH]. constructor; [exact IH|].
  rewrite Forall_forall in *. intros x Hx. apply filter_In in Hx. apply Ha, Hx.
Qed.

Lemma digits_sorted : StronglySorted Z.lt digits.
Proof. repeat constructor. Qed.

Lemma sub_sorted (f : Z -> bool) (l : list Z) : StronglySorted Z.lt l -> StronglySorted Z.lt (filter f l).
Proof.
  induction 1 as [|a l H IH Ha]; cbn; [constructor|].
  destruct (f a); [|exact IH]. constructor; [exact IH|].
  rewrite Forall_forall in *. intros x Hx. apply filter_In in Hx. apply Ha, Hx.
Qed.

Lemma kids_sorted P q : StronglySorted path_lt (map (fun d => q ++ [d]) (kids P q)).
Proof.
  apply sorted_map. unfold kids.
  assert (H : StronglySorted Z.lt (filter (fun d => memb (q ++ [d]) P) digits))
    by (apply sub_sorted, digits_sorted).
  induction H as [|a l H IH Ha]; constructor; [exact IH|].
  eapply Forall_impl; [|exact Ha]. intros b Hb. cbn beta.
  apply path_lt_app_l. left. exact Hb.
Qed.

(** ** Child sets *)
Definition ischild (q p : path) : bool :=
  Nat.eqb (List.length p) (S (List.length q)) && prefixb q p.
Lemma ischild_iff q p : ischild q p = true <-> exists d, p = q ++ [d].
Proof.
  unfold ischild. rewrite andb_true_iff, Nat.eqb_eq, prefixb_iff. split.
  - intros [H1 [r ->]]. rewrite app_length in H1. destruct r as [|d [|? ?]]; cbn in H1; try lia.
    exists d; reflexivity.
  - intros [d ->]. split; [rewrite app_length; cbn; lia | apply prefix_app].
Qed.

Lemma filter_kids P q :
  StronglySorted path_lt P -> (forall p, In p P -> path_ok p) ->
  filter (ischild q) P = map (fun d => q ++ [d]) (kids P q).
Proof.
  intros HS Hok. apply sorted_ext; [apply sorted_filter, HS | apply kids_sorted|].
  intros p. rewrite filter_In, ischild_iff, in_map_iff. split.
  - intros [Hin [d ->]]. exists d. split; [reflexivity|]. apply kids_In.
    split; [|exact Hin]. apply (path_ok_snoc_digit q), Hok, Hin.
  - intros (d & <- & Hd). apply kids_In in Hd. split; [apply Hd | exists d; reflexivity].
Qed.

Lemma coversb_iff a b : coversb a b = true <-> covers a b.
Proof. unfold coversb, covers. rewrite !andb_true_iff, !Z.leb_le. tauto. Qed.

Lemma childb_path q p t1 t2 : path_ok q -> path_ok p ->
  childb (addr_of q t1) (addr_of p t2) = ischild q p.
Proof.
  intros Hq Hp. unfold childb, ischild. rewrite !addr_of_level. f_equal.
  - apply eq_true_iff_eq. rewrite Z.eqb_eq, Nat.eqb_eq. lia.
  - apply eq_true_iff_eq. rewrite coversb_iff, prefixb_iff. apply covers_prefix; assumption.
Qed.

Lemma child_number_path q d ty : path_ok (q ++ [d]) -> child_number (addr_of (q ++ [d]) ty) = d.
Proof.
  intros H. pose proof (path_of_addr_of _ ty H) as E. unfold child_number.
  unfold path_of in E. rewrite addr_of_level in E |- *.
  rewrite app_length in *. cbn [List.length] in *.
  replace (Z.to_nat (Z.of_nat (List.length q + 1))) with (List.length q + 1)%nat in E by lia.
  rewrite seq_app, map_app in E. cbn [seq map] in E.
  apply app_inj_tail in E. destruct E as [_ E].
  replace (Z.of_nat (1 + List.length q)) with (Z.of_nat (List.length q + 1)) in E by lia.
  exact E.
Qed.

(** ** Sets of children and their bit masks *)
Lemma bits_filter_inj (f g : Z -> bool) :
  bits (filter f digits) = bits (filter g digits) -> filter f digits = filter g digits.
Proof.
  intros E. apply filter_ext_in. intros d Hd.
  assert (D : 0 <= d < 8) by (apply digits_iff, Hd).
  assert (H : forall h, (forall x, In x (filter h digits) -> 0 <= x)).
  { intros h x Hx. apply filter_In in Hx. destruct Hx as [Hx _]. apply digits_iff in Hx; lia. }
  assert (T : forall h, Z.testbit (bits (filter h digits)) d = true <-> h d = true).
  { intros h. rewrite testbit_bits by (try apply H; lia). rewrite filter_In. tauto. }
  apply eq_true_iff_eq. rewrite <- (T f), <- (T g), E. tauto.
Qed.

Definition inb (L : list Z) (d : Z) : bool := existsb (Z.eqb d) L.
Lemma kids_bits P q (L : list Z) :
  filter (inb L) digits = L -> (bits (kids P q) = bits L <-> kids P q = L).
Proof.
  intros HL. split; [|intros ->; reflexivity]. intros E. unfold kids in *.
  rewrite <- HL in E |- *. apply bits_filter_inj, E.
Qed.

(** ** The mean rule *)
Definition vals_ok (p : payload) : Prop := forall f, valid32 (get6 f p).

Lemma i2f32_valid n : valid32 (i2f32 n).
Proof. apply (normalize_valid prec32 emax32 Hp32 Hm32). Qed.
Lemma add32_valid x y : valid32 x -> valid32 y -> valid32 (add32 x y).
Proof. apply (add_valid prec32 emax32 Hp32 Hm32). Qed.
Lemma div32_valid x y : valid32 x -> valid32 y -> valid32 (div32 x y).
Proof. apply (div_valid prec32 emax32 Hp32 Hm32). Qed.

Definition acc_ok (ps : list payload) (ns : Z * payload) : Prop :=
  vals_ok (snd ns) /\
  match filter solid ps with
  | [] => fst ns = zlen (filter water ps) /\
          (forall f, get6 f (snd ns) = sum_water (map (get6 f) (filter water ps))) /\
          fle (p_vs (snd ns)) f_zero = true
  | s => fst ns = zlen s /\
         (forall f, get6 f (snd ns) = sum_solid (map (get6 f) s)) /\
         flt f_zero (p_vs (snd ns)) = true
  end.

Lemma sum_solid_snoc xs y : xs <> [] -> sum_solid (xs ++ [y]) = add32 (sum_solid xs) y.
Proof. destruct xs as [|x xs]; [congruence|]. intros _. cbn. rewrite fold_left_app. reflexivity. Qed.
Lemma sum_water_snoc xs y : sum_water (xs ++ [y]) = add32 (sum_water xs) y.
Proof. unfold sum_water. rewrite fold_left_app. reflexivity. Qed.

Lemma zlen_snoc {A} (l : list A) x : zlen (l ++ [x]) = zlen l + 1.
Proof. unfold zlen. rewrite app_length. cbn. lia. Qed.

Lemma get6_add f s c : get6 f (pay_add s c) = add32 (get6 f s) (get6 f c).
Proof. destruct f; reflexivity. Qed.
Lemma get6_replace f s c : get6 f (pay_replace s c) = get6 f c.
Proof. destruct f; reflexivity. Qed.

Lemma accs_ok ps : Forall proper_values ps -> acc_ok ps (accs ps).
Proof.
  pattern ps. apply rev_ind; clear ps.
  - intros _. unfold acc_ok. cbn. split; [intros []; reflexivity|].
    split; [reflexivity|]. split; [intros []; reflexivity | reflexivity].
  - intros c ps IH HF. apply Forall_app in HF. destruct HF as [HF Hc].
    inversion Hc as [|? ? [Vc Nc] _]; subst. clear Hc.
    specialize (IH HF). rewrite accs_snoc.
    destruct (accs ps) as [n sum]. unfold acc_ok in IH |- *. cbn [fst snd] in *.
    destruct IH as [Vs IH].
    rewrite !filter_app. cbn [filter].
    assert (Hsol : solid c = fgt (p_vs c) f_zero) by reflexivity.
    assert (Hwat : water c = fgt (p_vp c) f_zero) by reflexivity.
    unfold accumulate. rewrite <- Hsol, <- Hwat.
    assert (Fs : fgt (p_vs sum) f_zero = flt f_zero (p_vs sum)) by reflexivity.
    assert (Vadd : vals_ok (pay_add sum c)).
    { intros f. rewrite get6_add. apply add32_valid; [apply Vs | apply Vc]. }
    assert (Vrep : vals_ok (pay_replace sum c)).
    { intros f. rewrite get6_replace. apply Vc. }
    destruct (filter solid ps) as [|s0 ss] eqn:ES.
    + destruct IH as (IHn & IHs & IHv).
      destruct (solid c) eqn:Ec; cbn [app].
      * (* first solid child *)
        rewrite Fs, (fle_flt_excl _ IHv). cbn [fst snd].
        split; [exact Vrep|]. split; [reflexivity|].
        split; [intros f; rewrite get6_replace; reflexivity|]. exact Ec.
      * destruct (water c) eqn:Ew; cbn [app].
        -- rewrite IHv. cbn [fst snd]. split; [exact Vadd|].
           split; [rewrite zlen_snoc; lia|]. split.
           ++ intros f. rewrite get6_add, map_app, IHs. cbn [map]. rewrite sum_water_snoc. reflexivity.
           ++ apply (add_nonpos prec32 emax32 Hp32 Hm32); [apply (Vs PVs) | apply (Vc PVs) | exact IHv|].
              destruct (not_nan_cases _ Nc) as [F|F]; [|exact F].
              unfold solid in Ec. rewrite F in Ec. discriminate.
        -- cbn [fst snd]. rewrite app_nil_r. auto.
    + destruct IH as (IHn & IHs & IHv).
      destruct (solid c) eqn:Ec; cbn [app].
      * rewrite Fs, IHv. cbn [fst snd]. split; [exact Vadd|].
        change (s0 :: ss ++ [c]) with ((s0 :: ss) ++ [c]).
        split; [rewrite zlen_snoc; lia|]. split.
        -- intros f. rewrite get6_add, map_app, IHs. cbn [map].
           rewrite <- sum_solid_snoc by discriminate. reflexivity.
        -- apply (add_pos prec32 emax32 Hp32 Hm32); [apply (Vs PVs) | apply (Vc PVs) | exact IHv | exact Ec].
      * rewrite !app_nil_r. destruct (water c); cbn [fst snd].
        -- rewrite (flt_fle_excl _ IHv). cbn [fst snd]. auto.
        -- auto.
Qed.

Lemma code_mean_spec ps : Forall proper_values ps -> mean_payload ps (code_mean ps).
Proof.
  intros HF. destruct (accs_ok ps HF) as [_ H]. unfold code_mean, mean_payload, mean_prop.
  destruct (accs ps) as [n sum]. cbn [fst snd] in *.
  destruct (filter solid ps) as [|s ss] eqn:ES.
  - destruct H as (Hn & Hs & _). destruct (filter water ps) as [|w ws] eqn:EW.
    + rewrite Hn. split; [|split; reflexivity]. intros []; reflexivity.
    + assert (Hn' : 0 < n) by (rewrite Hn; unfold zlen; cbn [List.length]; lia).
      unfold finish_payload. rewrite (proj2 (Z.ltb_lt 0 n) Hn'). rewrite Hn.
      split; [|split; reflexivity].
      intros f. rewrite <- Hs. destruct f; reflexivity.
  - destruct H as (Hn & Hs & _).
    assert (Hn' : 0 < n) by (rewrite Hn; unfold zlen; cbn [List.length]; lia).
    unfold finish_payload. rewrite (proj2 (Z.ltb_lt 0 n) Hn'). rewrite Hn.
    split; [|split; reflexivity].
    intros f. rewrite <- Hs. destruct f; reflexivity.
Qed.

Lemma small_pos n : 1 <= n <= 8 -> exists m e, i2f32 n = S754_finite false m e.
Proof.
  intros H. assert (C : n = 1 \/ n = 2 \/ n = 3 \/ n = 4 \/ n = 5 \/ n = 6 \/ n = 7 \/ n = 8) by lia.
  decompose [or] C; subst n; vm_compute; eauto.
Qed.

Lemma filter_len {A} (f : A -> bool) l : (List.length (filter f l) <= List.length l)%nat.
Proof. induction l as [|a l IH]; cbn; [lia|]. destruct (f a); cbn; lia. Qed.

Lemma code_mean_proper ps : Forall proper_values ps -> (List.length ps <= 8)%nat ->
  proper_values (code_mean ps).
Proof.
  intros HF HL. destruct (accs_ok ps HF) as [V H]. unfold code_mean, proper_values.
  destruct (accs ps) as [n sum]. cbn [fst snd] in *.
  assert (Nn : is_nan (p_vs sum) = false /\ 0 <= n <= 8).
  { pose proof (filter_len solid ps). pose proof (filter_len water ps).
    destruct (filter solid ps) as [|s ss] eqn:ES; destruct H as (Hn & Hs & Hv); unfold zlen in Hn.
    - split; [apply fle_not_nan, Hv | lia].
    - split; [apply flt_not_nan, Hv | lia]. }
  destruct Nn as [Nn Hn]. unfold finish_payload. destruct (0 <? n) eqn:En.
  - apply Z.ltb_lt in En. split.
    + intros f. assert (G := div32_valid _ _ (V f) (i2f32_valid n)). destruct f; exact G.
    + cbn [p_vs]. destruct (small_pos n ltac:(lia)) as (m & e & Em).
      unfold div32. rewrite Em. apply (div_not_nan prec32 emax32 Hp32 Hm32);
        [exact (V PVs) | rewrite <- Em; apply i2f32_valid | exact Nn].
  - split; [intros []; reflexivity | reflexivity].
Qed.

(** ** The result of a run *)
Section Run.
Variable st : storage.
Hypothesis Hst : accepts st.
Variable inp : list (addr * payload).
Hypothesis Hwf : wf_input inp.

Record run_ok (s : est) (N : list node) (C : list path) (val : path -> payload) : Prop := {
  r_run : fillOctants st inp = Val s;
  r_inv : Inv (map path_of (map fst inp)) N C None val [] s;
  r_leaves : leaves val N = map conv inp }.

Lemma run_exists : exists s N C val, run_ok s N C val.
Proof.
  destruct (wf_paths inp Hwf) as (H1 & H2 & H3).
  destruct (fillOctants_ok st Hst (map conv inp) H1 H2 H3) as (s & N & C & val & E & I & L).
  rewrite map_in_rec_conv in E by (intros a Ha; apply (wf_octants _ Hwf), Ha).
  rewrite map_in_path_conv in I.
  exists s, N, C, val. constructor; assumption.
Qed.

Variables (s : est) (N : list node) (C : list path) (val : path -> payload).
Hypothesis R : run_ok s N C val.

Definition ty_of (n : node) : otype := match snd n with Some t => t | None => Interior end.
Definition rec_of (n : node) : orec := mkOrec (addr_of (fst n) (ty_of n)) (Some (val (fst n))).

Lemma db_eq : e_db s = map rec_of N.
Proof.
  rewrite (i_db _ _ _ _ _ _ _ (r_inv _ _ _ _ R)). apply map_ext. intros [q [t|]]; reflexivity.
Qed.

Lemma N_ok n : In n N -> path_ok (fst n).
Proof. intros H. apply (i_ok _ _ _ _ _ _ _ (r_inv _ _ _ _ R)), in_map, H. Qed.
Lemma P_ok q : In q (map fst N) -> path_ok q.
Proof. apply (i_ok _ _ _ _ _ _ _ (r_inv _ _ _ _ R)). Qed.
Lemma P_sorted : StronglySorted path_lt (map fst N).
Proof. apply (i_sorted _ _ _ _ _ _ _ (r_inv _ _ _ _ R)). Qed.
Lemma P_nodup : NoDup (map fst N).
Proof. apply SSorted_NoDup, P_sorted. Qed.
Lemma C_iff q : In q C <-> In (q, None) N.
Proof.
  rewrite (i_C _ _ _ _ _ _ _ (r_inv _ _ _ _ R)). cbn [openb]. tauto.
Qed.

(** The input leaves among the nodes. *)
Lemma leaf_in a p : In (a, p) inp -> In (path_of a, Some (a_type a)) N /\ val (path_of a) = p.
Proof.
  intros H. apply (in_map conv) in H. rewrite <- (r_leaves _ _ _ _ R) in H.
  unfold leaves in H. apply in_flat_map in H. destruct H as ([q [t|]] & Hin & Hz); cbn in Hz; [|destruct Hz].
  destruct Hz as [Hz|[]]. unfold conv in Hz; cbn [fst snd] in Hz. injection Hz as <- <- <-. auto.
Qed.
Lemma leaf_out q t : In (q, Some t) N -> exists a, In (a, val q) inp /\ path_of a = q /\ a_type a = t /\ octant_ok a.
Proof.
  intros H. assert (Hl : In (q, t, val q) (leaves val N)).
  { unfold leaves. apply in_flat_map. exists (q, Some t). split; [exact H | left; reflexivity]. }
  rewrite (r_leaves _ _ _ _ R) in Hl. apply in_map_iff in Hl. destruct Hl as ([a p] & E & Hin).
  unfold conv in E; cbn [fst snd] in E. injection E as <- <- <-. exists a. split; [exact Hin|]. split; [reflexivity|]. split; [reflexivity|].
  apply (in_map fst) in Hin. apply (wf_octants _ Hwf) in Hin. apply Hin.
Qed.

Lemma rec_in r : In r (e_db s) <-> exists n, In n N /\ r = rec_of n.
Proof. rewrite db_eq, in_map_iff. split; intros (n & H1 & H2); exists n; auto. Qed.

Lemma leaf_addr q t : In (q, Some t) N -> exists a, In (a, val q) inp /\ rec_of (q, Some t) = mkOrec a (Some (val q)).
Proof.
  intros H. destruct (leaf_out q t H) as (a & H1 & H2 & H3 & H4). exists a. split; [exact H1|].
  unfold rec_of, ty_of; cbn [fst snd]. rewrite <- H2, <- H3, addr_of_path_of by exact H4. reflexivity.
Qed.

Lemma is_input_leaf n : In n N -> is_input inp (rec_of n) = leaf_of n.
Proof.
  intros H. destruct n as [q k]. unfold is_input, rec_of, leaf_of; cbn [o_addr fst snd].
  pose proof (N_ok _ H) as Hq; cbn [fst] in Hq.
  apply eq_true_iff_eq. rewrite existsb_exists. split.
  - intros ([a p] & Hin & E). cbn [fst] in E.
    pose proof (in_map fst _ _ Hin) as Ha. apply (wf_octants _ Hwf) in Ha. cbn [fst] in Ha.
    destruct Ha as [Ha _].
    rewrite <- (addr_of_path_of a Ha) in E. apply same_key_path in E; [|apply path_of_ok, Ha | exact Hq].
    subst q. destruct (leaf_in a p Hin) as [H1 _].
    rewrite (node_unique N _ _ _ P_nodup H H1). reflexivity.
  - destruct k as [t|]; [|discriminate]. intros _.
    destruct (leaf_addr q t H) as (a & Hin & E). exists (a, val q). split; [exact Hin|].
    cbn [fst]. apply (f_equal o_addr) in E. cbn [rec_of o_addr fst] in E. rewrite E.
    apply same_key_iff. repeat split.
Qed.

(** ** C08, C09, C12, C13 *)
Lemma out_keeps a p : In (a, p) inp ->
  filter (fun r => same_key (o_addr r) a) (e_db s) = [mkOrec a (Some p)].
Proof.
  intros H. destruct (leaf_in a p H) as [H1 H2].
  pose proof (in_map fst _ _ H) as Ha. apply (wf_octants _ Hwf) in Ha. cbn [fst] in Ha. destruct Ha as [Ha _].
  rewrite db_eq.
  assert (G : forall M : list node, NoDup (map fst M) -> (forall n, In n M -> path_ok (fst n)) ->
     In (path_of a, Some (a_type a)) M ->
     filter (fun r => same_key (o_addr r) a) (map rec_of M) = [mkOrec a (Some p)]).
  { induction M as [|[q k] M IH]; intros ND OK HI; [destruct HI|].
    cbn [map] in ND. inversion ND as [|? ? N1 N2]; subst. cbn [fst] in N1.
    cbn [map filter].
    assert (Hq : path_ok q) by (apply (OK (q, k)); left; reflexivity).
    assert (SK : same_key (o_addr (rec_of (q, k))) a = true <-> q = path_of a).
    { unfold rec_of; cbn [o_addr fst]. rewrite <- (addr_of_path_of a Ha) at 1.
      apply same_key_path; [exact Hq | apply path_of_ok, Ha]. }
    destruct HI as [HI|HI].
    - injection HI as -> ->. rewrite (proj2 SK eq_refl).
      unfold rec_of at 1, ty_of; cbn [fst snd]. rewrite addr_of_path_of by exact Ha. f_equal.
      clear -N1 OK Ha. assert (OK' : forall n, In n M -> path_ok (fst n)) by (intros; apply OK; right; assumption).
      clear OK. induction M as [|[q k] M IH]; [reflexivity|]. cbn [map filter].
      assert (E : same_key (o_addr (rec_of (q, k))) a = false).
      { apply not_true_is_false. intros E. unfold rec_of in E; cbn [o_addr fst] in E.
        rewrite <- (addr_of_path_of a Ha) in E. apply same_key_path in E;
          [|apply (OK' (q, k)); left; reflexivity | apply path_of_ok, Ha].
        apply N1. left. exact E. }
      rewrite E. apply IH; [intros F; apply N1; right; exact F | intros; apply OK'; right; assumption].
    - assert (E : same_key (o_addr (rec_of (q, k))) a = false).
      { apply not_true_is_false. intros E. apply SK in E. subst q. apply N1.
        apply in_map_iff. eexists; split; [|exact HI]. reflexivity. }
      rewrite E. apply IH; [exact N2 | intros; apply OK; right; assumption | exact HI]. }
  apply G; [apply P_nodup | apply N_ok | exact H1].
Qed.

Lemma prefix_in_P q l : In l (map path_of (map fst inp)) -> prefix q l -> In q (map fst N).
Proof.
  intros Hl Hp. apply in_map_iff in Hl. destruct Hl as (a & <- & Ha).
  apply in_map_iff in Ha. destruct Ha as ([a' p] & <- & Hin). cbn [fst] in *.
  destruct (leaf_in a' p Hin) as [H1 _].
  eapply Inv_prefix_closed; [exact (r_inv _ _ _ _ R) | | exact Hp].
  apply in_map_iff. eexists; split; [|exact H1]. reflexivity.
Qed.

Lemma out_all a l : octant_ok a -> In l (map fst inp) -> ancestor_of a l ->
  exists p, filter (fun r => same_key (o_addr r) a) (e_db s) =
            [mkOrec (mkAddr (a_x a) (a_y a) (a_z a) 0 (a_level a) Interior) (Some p)].
Proof.
  intros Ha Hl Hanc. apply ancestor_path in Hanc; [|exact Ha | apply (wf_octants _ Hwf), Hl].
  destruct Hanc as [Hp Hne].
  assert (HP : In (path_of a) (map fst N)) by (eapply prefix_in_P; [apply in_map, Hl | exact Hp]).
  assert (HN : In (path_of a, None) N).
  { apply in_map_iff in HP. destruct HP as ([q [t|]] & E & Hin); cbn [fst] in E; subst q; [|exact Hin].
    exfalso. destruct (leaf_out _ t Hin) as (b & H1 & H2 & H3 & H4).
    apply (wf_disjoint _ Hwf b l); [apply (in_map fst) in H1; exact H1 | exact Hl|].
    apply ancestor_path; [exact H4 | apply (wf_octants _ Hwf), Hl|]. rewrite H2. auto. }
  exists (val (path_of a)). rewrite db_eq.
  assert (G : forall M : list node, NoDup (map fst M) -> (forall n, In n M -> path_ok (fst n)) ->
     In (path_of a, None) M ->
     filter (fun r => same_key (o_addr r) a) (map rec_of M) = [rec_of (path_of a, None)]).
  { induction M as [|[q k] M IH]; intros ND OK HI; [destruct HI|].
    cbn [map] in ND. inversion ND as [|? ? N1 N2]; subst. cbn [fst] in N1.
    cbn [map filter].
    assert (Hq : path_ok q) by (apply (OK (q, k)); left; reflexivity).
    assert (SK : forall q k, path_ok q -> same_key (o_addr (rec_of (q, k))) a = true <-> q = path_of a).
    { intros q' k' Hq'. unfold rec_of; cbn [o_addr fst]. rewrite <- (addr_of_path_of a Ha) at 1.
      apply same_key_path; [exact Hq' | apply path_of_ok, Ha]. }
    destruct HI as [HI|HI].
    - injection HI as -> ->. rewrite (proj2 (SK _ _ Hq) eq_refl). f_equal.
      assert (OK' : forall n, In n M -> path_ok (fst n)) by (intros; apply OK; right; assumption).
      clear -N1 OK' Ha SK. induction M as [|[q k] M IH]; [reflexivity|]. cbn [map filter].
      assert (E : same_key (o_addr (rec_of (q, k))) a = false).
      { apply not_true_is_false. intros E. apply SK in E; [|apply (OK' (q, k)); left; reflexivity].
        apply N1. left. exact E. }
      rewrite E. apply IH; [intros F; apply N1; right; exact F | intros; apply OK'; right; assumption].
    - assert (E : same_key (o_addr (rec_of (q, k))) a = false).
      { apply not_true_is_false. intros E. apply SK in E; [|exact Hq]. subst q. apply N1.
        apply in_map_iff. eexists; split; [|exact HI]. reflexivity. }
      rewrite E. apply IH; [exact N2 | intros; apply OK; right; assumption | exact HI]. }
  rewrite G; [|apply P_nodup | apply N_ok | exact HN].
  unfold rec_of, ty_of; cbn [fst snd]. f_equal. f_equal.
  pose proof (addr_of_path_of a Ha) as E. rewrite <- E at 2 3 4 5. reflexivity.
Qed.

Lemma out_record r : In r (e_db s) ->
  exists p, o_pay r = Some p /\
   (In (o_addr r, p) inp \/
    (is_input inp r = false /\ a_type (o_addr r) = Interior /\ octant_ok (o_addr r) /\
     exists l, In l (map fst inp) /\ ancestor_of (o_addr r) l)).
Proof.
  intros Hr. apply rec_in in Hr. destruct Hr as ([q k] & Hn & ->).
  exists (val q). split; [reflexivity|]. destruct k as [t|].
  - left. destruct (leaf_addr q t Hn) as (a & Hin & E). rewrite E. exact Hin.
  - right. split; [rewrite (is_input_leaf _ Hn); reflexivity|]. split; [reflexivity|].
    pose proof (N_ok _ Hn) as Hq. cbn [fst] in Hq.
    split; [apply addr_of_ok, Hq|].
    destruct (i_anc _ _ _ _ _ _ _ (r_inv _ _ _ _ R) q Hn) as (l & Hl & Hp & Hne).
    apply in_map_iff in Hl. destruct Hl as (b & <- & Hb). exists b. split; [exact Hb|].
    apply ancestor_path; [apply addr_of_ok, Hq | apply (wf_octants _ Hwf), Hb|].
    cbn [rec_of o_addr fst]. rewrite path_of_addr_of by exact Hq. auto.
Qed.

Lemma out_sorted : StronglySorted etree_lt (map o_addr (e_db s)).
Proof.
  apply (sorted_unmap path_lt path_of).
  rewrite db_eq, !map_map.
  replace (map (fun x => path_of (o_addr (rec_of x))) N) with (map fst N); [apply P_sorted|].
  apply map_ext_in. intros n Hn. cbn [rec_of o_addr]. symmetry. apply path_of_addr_of, N_ok, Hn.
Qed.

Lemma out_filled r : In r (e_db s) -> exists p, o_pay r = Some p.
Proof. intros H. destruct (out_record r H) as (p & Hp & _). exists p; exact Hp. Qed.

(** ** C10 *)
Lemma children_eq n : In n N ->
  children (e_db s) (o_addr (rec_of n)) = map rec_of (filter (fun m => ischild (fst n) (fst m)) N).
Proof.
  intros Hn. unfold children. rewrite db_eq.
  assert (G : forall M : list node, (forall m, In m M -> In m N) ->
    filter (fun r => childb (o_addr (rec_of n)) (o_addr r)) (map rec_of M) =
    map rec_of (filter (fun m => ischild (fst n) (fst m)) M)).
  { induction M as [|m M IH]; intros Hs; [reflexivity|]. cbn [map filter].
    assert (EC : childb (o_addr (rec_of n)) (o_addr (rec_of m)) = ischild (fst n) (fst m))
      by (apply childb_path; apply N_ok; try exact Hn; apply Hs; left; reflexivity).
    rewrite EC. clear EC.
    rewrite IH by (intros; apply Hs; right; assumption).
    destruct (ischild (fst n) (fst m)); reflexivity. }
  apply G; auto.
Qed.

Lemma map_fst_filter (f : path -> bool) (M : list node) :
  map fst (filter (fun m => f (fst m)) M) = filter f (map fst M).
Proof. induction M as [|m M IH]; [reflexivity|]. cbn. destruct (f (fst m)); cbn; congruence. Qed.

Lemma values_children n : In n N ->
  values (children (e_db s) (o_addr (rec_of n))) = pays val (fst n) (kids (map fst N) (fst n)).
Proof.
  intros Hn. rewrite children_eq by exact Hn.
  assert (E : forall M, values (map rec_of M) = map val (map fst M)).
  { induction M as [|m M IH]; [reflexivity|]. cbn. rewrite <- IH. reflexivity. }
  rewrite E, map_fst_filter, filter_kids by (apply P_sorted || apply P_ok).
  rewrite map_map. reflexivity.
Qed.

Lemma numbers_children n : In n N ->
  child_numbers (e_db s) (o_addr (rec_of n)) = kids (map fst N) (fst n).
Proof.
  intros Hn. unfold child_numbers. rewrite children_eq by exact Hn.
  rewrite map_map.
  assert (E : map (fun m => child_number (o_addr (rec_of m))) (filter (fun m => ischild (fst n) (fst m)) N) =
              map (fun p => last p 0) (map fst (filter (fun m => ischild (fst n) (fst m)) N))).
  { rewrite map_map. apply map_ext_in. intros m Hm. apply filter_In in Hm. destruct Hm as [Hm Hc].
    apply ischild_iff in Hc. destruct Hc as [d Hd]. cbn [rec_of o_addr].
    pose proof (N_ok _ Hm) as Hok. rewrite Hd in Hok |- *. rewrite child_number_path by exact Hok.
    rewrite last_last. reflexivity. }
  rewrite E, map_fst_filter, filter_kids by (apply P_sorted || apply P_ok).
  rewrite map_map. rewrite <- (map_id (kids _ _)) at 2. apply map_ext. intros d. apply last_last.
Qed.

Lemma kids_len P q : (List.length (kids P q) <= 8)%nat.
Proof. unfold kids. exact (filter_len _ digits). Qed.

Section Proper.
Hypothesis Hval : forall a p, In (a, p) inp -> proper_values p.

Lemma val_proper q : In q (map fst N) -> proper_values (val q).
Proof.
  assert (G : forall n q, (31 - List.length q < n)%nat -> In q (map fst N) -> proper_values (val q)).
  { induction n as [|n IH]; intros q' Hn Hq; [lia|].
    apply in_map_iff in Hq. destruct Hq as ([q0 [t|]] & E & Hin); cbn [fst] in E; subst q0.
    - destruct (leaf_out q' t Hin) as (a & H1 & _). exact (Hval _ _ H1).
    - pose proof (proj2 (C_iff q') Hin) as HC.
      rewrite (i_mean _ _ _ _ _ _ _ (r_inv _ _ _ _ R) q' HC).
      apply code_mean_proper; [|unfold pays; rewrite map_length; apply kids_len].
      unfold pays. rewrite Forall_map, Forall_forall. intros d Hd. apply kids_In in Hd.
      destruct Hd as [_ Hd]. pose proof (P_ok _ Hd) as [HL _]. rewrite app_length in HL; cbn [List.length] in HL.
      apply IH; [rewrite app_length; cbn [List.length]; lia | exact Hd]. }
  intros Hq. apply (G (32 - List.length q)%nat q); [|exact Hq].
  destruct (P_ok _ Hq) as [HL _]. lia.
Qed.

Lemma out_mean r p : In r (e_db s) -> is_input inp r = false -> o_pay r = Some p ->
  mean_payload (values (children (e_db s) (o_addr r))) p.
Proof.
  intros Hr Hi Hp. apply rec_in in Hr. destruct Hr as ([q k] & Hn & ->).
  rewrite (is_input_leaf _ Hn) in Hi. destruct k as [t|]; [discriminate|].
  cbn [rec_of o_pay fst] in Hp. injection Hp as <-.
  rewrite values_children by exact Hn. cbn [fst].
  rewrite (i_mean _ _ _ _ _ _ _ (r_inv _ _ _ _ R) q (proj2 (C_iff q) Hn)).
  apply code_mean_spec. unfold pays. rewrite Forall_map, Forall_forall. intros d Hd.
  apply kids_In in Hd. apply val_proper, Hd.
Qed.

Lemma out_proper r p : In r (e_db s) -> o_pay r = Some p -> proper_values p.
Proof.
  intros Hr Hp. apply rec_in in Hr. destruct Hr as (n & Hn & ->). injection Hp as <-.
  apply val_proper, in_map, Hn.
Qed.
End Proper.

(** ** C11 *)
Lemma interior_eq : interior_records inp (e_db s) = map rec_of (filter (fun n => negb (leaf_of n)) N).
Proof.
  unfold interior_records. rewrite db_eq.
  assert (G : forall M : list node, (forall m, In m M -> In m N) ->
    filter (fun r => negb (is_input inp r)) (map rec_of M) =
    map rec_of (filter (fun n => negb (leaf_of n)) M)).
  { induction M as [|m M IH]; intros Hs; [reflexivity|]. cbn [map filter].
    rewrite (is_input_leaf m) by (apply Hs; left; reflexivity).
    rewrite IH by (intros; apply Hs; right; assumption).
    destruct (leaf_of m); reflexivity. }
  apply G; auto.
Qed.

Lemma C_perm : Permutation C (map fst (filter (fun n => negb (leaf_of n)) N)).
Proof.
  apply NoDup_Permutation.
  - apply (i_CND _ _ _ _ _ _ _ (r_inv _ _ _ _ R)).
  - pose proof P_nodup as ND. clear R. induction N as [|m M IH]; [constructor|].
    cbn [map] in ND. inversion ND as [|? ? H1 H2]; subst. cbn [filter].
    destruct (negb (leaf_of m)); cbn [map]; [|apply IH; exact H2].
    constructor; [|apply IH; exact H2].
    intros F. apply H1. apply in_map_iff in F. destruct F as (x & E & Hx). apply filter_In in Hx.
    apply in_map_iff. exists x. tauto.
  - intros q. rewrite C_iff, in_map_iff. split.
    + intros H. exists (q, None). split; [reflexivity|]. apply filter_In. auto.
    + intros ([q' [t|]] & E & H); apply filter_In in H; destruct H as [H F]; [discriminate|].
      cbn in E; subst q'. exact H.
Qed.

Lemma count_C (f : path -> bool) :
  zlen (filter f C) = zlen (filter (fun r => f (path_of (o_addr r))) (interior_records inp (e_db s))).
Proof.
  rewrite interior_eq. unfold zlen. f_equal.
  assert (PL : forall l1 l2 : list path, Permutation l1 l2 ->
     List.length (filter f l1) = List.length (filter f l2)).
  { induction 1 as [|x l1 l2 HP IH|x y l|l1 l2 l3 H1 IH1 H2 IH2]; cbn; try reflexivity.
    - destruct (f x); cbn; congruence.
    - destruct (f x); destruct (f y); reflexivity.
    - congruence. }
  rewrite (PL _ _ C_perm).
  assert (G : forall M : list node, (forall m, In m M -> In m N) ->
    List.length (filter f (map fst M)) = List.length (filter (fun r => f (path_of (o_addr r))) (map rec_of M))).
  { induction M as [|m M IH]; intros Hs; [reflexivity|]. cbn [map filter].
    cbn [rec_of o_addr]. rewrite path_of_addr_of by (apply N_ok, Hs; left; reflexivity).
    destruct (f (fst m)); cbn [List.length]; rewrite IH by (intros; apply Hs; right; assumption); reflexivity. }
  apply G. intros m Hm. apply filter_In in Hm. apply Hm.
Qed.

Lemma filter_interior_ext (f g : orec -> bool) :
  (forall n, In n N -> f (rec_of n) = g (rec_of n)) ->
  filter f (interior_records inp (e_db s)) = filter g (interior_records inp (e_db s)).
Proof.
  intros H. apply filter_ext_in. intros r Hr. rewrite interior_eq in Hr.
  apply in_map_iff in Hr. destruct Hr as (n & <- & Hn). apply filter_In in Hn. apply H, Hn.
Qed.

Lemma class_eq L b : filter (inb L) digits = L -> b = bits L ->
  classcount (map fst N) C b = count_with inp (e_db s) L.
Proof.
  intros HL Hb. unfold classcount, count_with. rewrite count_C. unfold zlen. f_equal. f_equal.
  apply filter_interior_ext. intros n Hn. rewrite numbers_children by exact Hn.
  cbn [rec_of o_addr]. rewrite path_of_addr_of by (apply N_ok, Hn).
  apply eq_true_iff_eq. rewrite Z.eqb_eq, Hb, kids_bits by exact HL.
  destruct (list_eq_dec Z.eq_dec (kids (map fst N) (fst n)) L); split; congruence.
Qed.

Lemma irregular_eq :
  zlen (filter (fun q => negb (known_class (bits (kids (map fst N) q)))) C) =
  count_irregular inp (e_db s).
Proof.
  unfold count_irregular. rewrite count_C. unfold zlen. f_equal. f_equal.
  apply filter_interior_ext. intros n Hn. rewrite numbers_children by exact Hn.
  cbn [rec_of o_addr]. rewrite path_of_addr_of by (apply N_ok, Hn).
  assert (E : known_class (bits (kids (map fst N) (fst n))) = true <->
              In (kids (map fst N) (fst n)) regular_classes).
  { unfold known_class. rewrite existsb_exists.
    set (K := kids (map fst N) (fst n)).
    assert (KB : forall L, filter (inb L) digits = L -> (bits K = bits L <-> K = L))
      by (intros L; apply kids_bits).
    assert (RC : forall L, In L regular_classes -> filter (inb L) digits = L).
    { intros L HL. unfold regular_classes in HL. cbn [In] in HL.
      decompose [or] HL; subst; try reflexivity. contradiction. }
    change [INC_FULL; INC_X; INC_Y; INC_Z; INC_XY; INC_YZ; INC_XZ; INC_XYZ]
      with (map bits regular_classes).
    split.
    - intros (b & Hb & Eb). apply Z.eqb_eq in Eb. apply in_map_iff in Hb.
      destruct Hb as (L & EL & HL). subst b.
      apply (KB L (RC L HL)) in Eb. rewrite Eb. exact HL.
    - intros H. exists (bits K). split; [|apply Z.eqb_refl]. apply in_map, H. }
  destruct (in_dec (list_eq_dec Z.eq_dec) (kids (map fst N) (fst n)) regular_classes) as [Hi|Hi].
  - rewrite (proj2 E Hi). reflexivity.
  - destruct (known_class _); [|reflexivity]. exfalso. apply Hi, E. reflexivity.
Qed.

Lemma leaves_length : zlen (filter leaf_of N) = zlen inp.
Proof.
  unfold zlen. f_equal. pose proof (f_equal (@List.length _) (r_leaves _ _ _ _ R)) as H.
  rewrite map_length in H. rewrite <- H. clear.
  unfold leaves. induction N as [|[q [t|]] M IH]; cbn; [reflexivity | rewrite IH; reflexivity | exact IH].
Qed.

Lemma out_counters :
  e_cnt s = mkCnt (Z.of_nat (List.length inp)) (Z.of_nat (List.length (e_db s)))
    (Z.of_nat (List.length (interior_records inp (e_db s))))
    (count_with inp (e_db s) missing_x) (count_with inp (e_db s) missing_y)
    (count_with inp (e_db s) missing_z) (count_with inp (e_db s) missing_xy)
    (count_with inp (e_db s) missing_yz) (count_with inp (e_db s) missing_xz)
    (count_with inp (e_db s) missing_xyz) (count_irregular inp (e_db s)).
Proof.
  rewrite (i_cnt _ _ _ _ _ _ _ (r_inv _ _ _ _ R)). unfold cnt_for.
  rewrite irregular_eq, leaves_length.
  rewrite (class_eq missing_x), (class_eq missing_y), (class_eq missing_z), (class_eq missing_xy),
    (class_eq missing_yz), (class_eq missing_xz), (class_eq missing_xyz) by reflexivity.
  assert (E1 : List.length (e_db s) = List.length N) by (rewrite db_eq; apply map_length).
  assert (E2 : List.length (interior_records inp (e_db s)) =
               List.length (filter (fun n => negb (leaf_of n)) N))
    by (rewrite interior_eq; apply map_length).
  rewrite E1, E2. reflexivity.
Qed.

Lemma out_total :
  Z.of_nat (List.length (e_db s)) =
  Z.of_nat (List.length inp) + Z.of_nat (List.length (interior_records inp (e_db s))).
Proof.
  rewrite interior_eq, map_length. rewrite db_eq, map_length.
  pose proof leaves_length as H. unfold zlen in H. rewrite <- H. clear.
  induction N as [|m M IH]; [reflexivity|]. cbn [filter].
  destruct (leaf_of m); cbn [negb List.length]; lia.
Qed.
End Run.
