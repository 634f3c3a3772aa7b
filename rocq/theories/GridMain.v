(** Main lemmas about grid ingestion. *)
From Coq Require Import ZArith Bool Lia Ascii String Sorting.Permutation Sorting.Sorted List.
From Verif Require Import Outcome Float Payload Addr SpecOct AddrFacts AvgEngine SpecAvg Geom Store Averager
  VMCreator Stream GridIngester SpecText SpecStore SpecGrid StreamFacts StoreFacts GridFacts.
Import ListNotations.
Open Scope Z_scope.

Lemma edgeLen_ok lev : 0 <= lev < 32 ->
  edgeLen lev = Val (div64 (i2f64 1638400) (i2f64 (2 ^ lev))).
Proof.
  intros H. unfold edgeLen.
  replace ((0 <=? lev) && (lev <? 32)) with true; [reflexivity|].
  symmetry. apply andb_true_intro. split; [apply Z.leb_le | apply Z.ltb_lt]; lia.
Qed.
Lemma differs_not a b : differs a b = negb (about_one a b).
Proof. unfold differs, about_one. rewrite negb_involutive. reflexivity. Qed.

Lemma addGrid_header E F T L g db file d t e hw ws rh rv n lev :
  gi_geom g = true -> T file = Some (t ++ e)%string -> laid_out (hw ++ ws) t ->
  header F hw rh rv n -> grid_fits L rh rv lev ->
  exists t', laid_out ws t' /\
    addGrid E F T L g db file d =
    addPoints E F L db (x1000 rh) (Z.to_nat n) (fresh (t' ++ e)) 0 0 d.
Proof.
  intros HG HT Ht (w1 & w2 & w3 & w4 & w5 & w6 & nx & ny & nz & -> & H1 & H2 & H3 & H4 & H5 & H6)
    (L1 & L2 & L3 & L4).
  unfold addGrid. rewrite HG, HT. cbn [negb]. change (openText (t ++ e)) with (fresh (t ++ e)).
  cbn [app] in Ht.
  step Ht H1. step Ht H2. step Ht H3. step Ht H4. step Ht H5. step Ht H6.
  eexists. split; [exact Ht|].
  fold (x1000 rh). fold (x1000 rv). rewrite !differs_not. change VERTEXAG with (i2f64 4). rewrite L3.
  cbn [negb]. rewrite L1. rewrite (edgeLen_ok lev L2). rewrite differs_not, L4. reflexivity.
Qed.

(** Records at different octants are all taken. *)
Lemma pairs_app {A} (P : A -> A -> Prop) l1 x l2 :
  ForallOrdPairs P (l1 ++ x :: l2) -> forall y, In y l1 -> P y x.
Proof.
  induction l1 as [|z l1 IH]; [intros _ y []|]. cbn [app]. intros H y Hy.
  inversion H as [|? ? HF HR]; subst. destruct Hy as [<-|Hy].
  - rewrite Forall_forall in HF. apply HF. apply in_or_app. right; left; reflexivity.
  - apply IH; assumption.
Qed.
Lemma all_taken E old recs : takes_new E -> all_different (old ++ recs) ->
  forall done r rest, recs = (done ++ r :: rest)%list ->
  et_insert E (add_all E done old) (fst r) = true.
Proof.
  intros HT HD done r rest ->. apply HT. intros x Hx.
  apply (Permutation_in _ (add_all_perm E done old)) in Hx.
  rewrite app_assoc in HD. apply (pairs_app _ _ _ _ HD x Hx).
Qed.

Lemma grid_added E F T L g db file d f text lev pts recs :
  gi_geom g = true -> T file = Some text -> grid_file F L text lev pts ->
  d db = Some f -> grid_recs L lev pts recs -> takes_new E -> all_different (d_recs f ++ recs) ->
  exists d', addGrid E F T L g db file d =
      (d', (count (filter has_data pts), count (no_data_points pts)), Val tt) /\
    d' db = Some (set_recs f (add_all E recs (d_recs f))) /\ others_untouched db d d'.
Proof.
  intros HG HT (t & e & hw & lines & rh & rv & -> & Ht & HH & HR & HF) Hd HP HN HD.
  destruct (addGrid_header E F T L g db file d t e hw (concat lines) rh rv _ lev HG HT Ht HH HF)
    as (t' & Ht' & ->).
  rewrite Nat2Z.id. rewrite <- (app_nil_r (concat lines)) in Ht'.
  destruct (addPoints_prefix E F L db (x1000 rh) lev e 0 (proj1 HF) pts lines t' [] recs 0 0 d f
    HR Ht' Hd HP (all_taken E _ _ HN HD)) as (t2 & d' & _ & K2 & K3 & K4).
  rewrite Nat.add_0_r in K4. exists d'. rewrite K4. cbn [addPoints]. rewrite !Z.add_0_l.
  split; [reflexivity|]. split; [exact K2 | exact K3].
Qed.

(** The first line that cannot be read stops the run. *)
Lemma grid_unreadable E F T L g db file d f t e hw lines ws n rh rv lev pts recs :
  gi_geom g = true -> T file = Some (t ++ e)%string -> unterminated e ->
  laid_out (hw ++ concat lines ++ ws) t -> header F hw rh rv n -> grid_fits L rh rv lev ->
  Forall2 (reads F) lines pts -> Z.of_nat (List.length pts) < n -> unreadable F ws ->
  d db = Some f -> grid_recs L lev pts recs -> takes_new E -> all_different (d_recs f ++ recs) ->
  exists d', addGrid E F T L g db file d =
      (d', (count (filter has_data pts), count (no_data_points pts)),
       Throw "Couldn't parse line."%string) /\
    d' db = Some (set_recs f (add_all E recs (d_recs f))) /\ others_untouched db d d'.
Proof.
  intros HG HT He Ht HH HF HR Hn HU Hd HP HN HD.
  destruct (addGrid_header E F T L g db file d t e hw (concat lines ++ ws) rh rv _ lev HG HT Ht HH HF)
    as (t' & Ht' & ->).
  replace (Z.to_nat n) with (List.length pts + S (Z.to_nat n - List.length pts - 1))%nat by lia.
  destruct (addPoints_prefix E F L db (x1000 rh) lev e (S (Z.to_nat n - List.length pts - 1)) (proj1 HF)
    pts lines t' ws recs 0 0 d f
    HR Ht' Hd HP (all_taken E _ _ HN HD)) as (t2 & d' & K1 & K2 & K3 & K4).
  exists d'. rewrite K4. cbn [addPoints].
  pose proof (getLine_unreadable F ws t2 e K1 He HU) as G.
  destruct (getLine F (fresh (t2 ++ e))) as [s' l']. cbn [fst] in G. rewrite G. cbn [negb].
  rewrite !Z.add_0_l. split; [reflexivity|]. split; [exact K2 | exact K3].
Qed.

(** The first point that cannot be stored stops the run. *)
Lemma grid_refused E F T L g db file d f t e hw lines line rest n rh rv lev pts l a v recs :
  gi_geom g = true -> T file = Some (t ++ e)%string ->
  laid_out (hw ++ concat lines ++ line ++ rest) t -> header F hw rh rv n -> grid_fits L rh rv lev ->
  Forall2 (reads F) lines pts -> reads F line l -> has_data l = true ->
  Z.of_nat (List.length pts) < n ->
  d db = Some f -> grid_recs L lev pts recs -> point_rec L lev l (a, v) ->
  takes_new E -> refuses_stored E -> all_different (d_recs f ++ recs) ->
  (exists x, In x (d_recs f ++ recs) /\ same_octant (fst x) a) ->
  exists d', addGrid E F T L g db file d =
      (d', (count (filter has_data pts), count (no_data_points pts)), Throw (et_error E)) /\
    d' db = Some (set_recs f (add_all E recs (d_recs f))) /\ others_untouched db d d'.
Proof.
  intros HG HT Ht HH HF HR Hl Hdat Hn Hd HP [[code Hc] Hv] HN HX HD (x & Hx1 & Hx2).
  destruct (addGrid_header E F T L g db file d t e hw (concat lines ++ line ++ rest) rh rv _ lev HG HT Ht HH HF)
    as (t' & Ht' & ->).
  replace (Z.to_nat n) with (List.length pts + S (Z.to_nat n - List.length pts - 1))%nat by lia.
  destruct (addPoints_prefix E F L db (x1000 rh) lev e (S (Z.to_nat n - List.length pts - 1)) (proj1 HF)
    pts lines t' (line ++ rest) recs 0 0 d f
    HR Ht' Hd HP (all_taken E _ _ HN HD)) as (t2 & d' & K1 & K2 & K3 & K4).
  exists d'. rewrite K4. cbn [addPoints].
  destruct (getLine_good F line rest t2 e l Hl K1) as (t3 & G & _). rewrite G. cbv beta iota.
  rewrite good_fresh. cbn [negb]. rewrite has_data_test. fold (has_data l). rewrite Hdat.
  rewrite km2m_si. cbn [fst] in Hc.
  rewrite (insert_refused E L db (toSI (l_pay l)) _ _ _ (x1000 rh) lev code a d'
             (set_recs f (add_all E recs (d_recs f))) (proj1 HF) Hc K2).
  - rewrite !Z.add_0_l. split; [reflexivity|]. split; [exact K2 | exact K3].
  - apply HX. exists x. split; [|exact Hx2]. cbn [set_recs d_recs].
    apply (Permutation_in _ (Permutation_sym (add_all_perm E recs (d_recs f)))). exact Hx1.
Qed.

(** ** Order *)
Lemma octant_path_inj a b : octant_ok a -> octant_ok b -> path_of a = path_of b -> same_octant a b.
Proof.
  intros Ha Hb H. pose proof (addr_of_path_of a Ha) as E1. pose proof (addr_of_path_of b Hb) as E2.
  rewrite H in E1.
  assert (G : forall p q t1 t2, p = q -> same_octant (addr_of p t1) (addr_of q t2))
    by (intros p q t1 t2 ->; repeat split; reflexivity).
  specialize (G (path_of b) (path_of b) (a_type a) (a_type b) eq_refl).
  rewrite E1 in G. rewrite E2 in G. exact G.
Qed.
Lemma etree_lt_total a b : octant_ok a -> octant_ok b -> ~ same_octant a b ->
  etree_lt a b \/ etree_lt b a.
Proof.
  intros Ha Hb H. unfold etree_lt.
  destruct (path_lt_total (path_of a) (path_of b)) as [[K|K]|K]; [left; exact K| |right; exact K].
  exfalso. apply H. apply octant_path_inj; assumption.
Qed.

Lemma sorted_in_sorted E l r : in_order E ->
  (forall x, In x l -> octant_ok (fst x) /\ ~ same_octant (fst x) (fst r)) -> octant_ok (fst r) ->
  StronglySorted etree_lt (map fst l) ->
  StronglySorted etree_lt (map fst (sorted_in (et_before E) l r)).
Proof.
  intros HE. induction l as [|x l IH]; intros Hl Hr HS; cbn [sorted_in].
  - constructor; [constructor | constructor].
  - cbn [map] in HS. inversion HS as [|? ? HS' HF]; subst.
    destruct (Hl x (or_introl eq_refl)) as [Hx1 Hx2].
    destruct (et_before E (fst r) (fst x)) eqn:EB.
    + apply (HE _ _ Hr Hx1) in EB. cbn [map]. constructor; [exact HS|].
      constructor; [exact EB|]. rewrite Forall_forall in *. intros y Hy.
      exact (path_lt_trans _ _ _ EB (HF y Hy)).
    + assert (LT : etree_lt (fst x) (fst r)).
      { destruct (etree_lt_total (fst x) (fst r) Hx1 Hr Hx2) as [K|K]; [exact K|].
        apply (HE _ _ Hr Hx1) in K. congruence. }
      cbn [map]. constructor.
      * apply IH; [intros y Hy; apply Hl; right; exact Hy | exact Hr | exact HS'].
      * rewrite Forall_forall in *. intros y Hy. apply in_map_iff in Hy. destruct Hy as (z & <- & Hz).
        apply (Permutation_in _ (sorted_in_perm _ _ _)) in Hz. apply in_app_or in Hz.
        destruct Hz as [Hz|[<-|[]]]; [apply HF; apply in_map; exact Hz | exact LT].
Qed.
Lemma add_all_sorted E recs : in_order E -> forall old,
  (forall x, In x (old ++ recs) -> octant_ok (fst x)) -> all_different (old ++ recs) ->
  StronglySorted etree_lt (map fst old) ->
  StronglySorted etree_lt (map fst (add_all E recs old)).
Proof.
  intros HE. induction recs as [|r recs IH]; intros old HO HD HS; [exact HS|].
  change (add_all E (r :: recs) old) with (add_all E recs (sorted_in (et_before E) old r)).
  assert (PM : Permutation (sorted_in (et_before E) old r ++ recs) (old ++ r :: recs)).
  { rewrite sorted_in_perm, <- app_assoc. reflexivity. }
  apply IH.
  - intros x Hx. apply HO. apply (Permutation_in _ PM Hx).
  - revert HD. unfold all_different. clear -PM.
    assert (SY : forall l l' : list (addr * payload), Permutation l l' ->
      ForallOrdPairs (fun x y => ~ same_octant (fst x) (fst y)) l ->
      ForallOrdPairs (fun x y => ~ same_octant (fst x) (fst y)) l').
    { induction 1; intros HD.
      - exact HD.
      - inversion HD; subst. constructor; [|apply IHPermutation; assumption].
        rewrite Forall_forall in *. intros y Hy. apply H2.
        apply (Permutation_in _ (Permutation_sym H)). exact Hy.
      - inversion HD as [|? ? F1 R1]; subst. inversion R1 as [|? ? F2 R2]; subst.
        inversion F1 as [|? ? N1 F1']; subst. constructor.
        + constructor; [|exact F2]. intros (Q1 & Q2 & Q3 & Q4). apply N1. repeat split; congruence.
        + constructor; [exact F1' | exact R2].
      - auto. }
    apply SY. symmetry. exact PM.
  - apply sorted_in_sorted; try assumption.
    + intros x Hx. split; [apply HO; apply in_or_app; left; exact Hx|].
      apply (pairs_app _ _ _ _ HD x Hx).
    + apply HO. apply in_or_app. right; left; reflexivity.
Qed.

(** ** Several grids, and the whole run *)
Lemma add_all_app E a b old : add_all E (a ++ b) old = add_all E b (add_all E a old).
Proof. apply fold_left_app. Qed.
Lemma all_different_perm l l' : Permutation l l' -> all_different l -> all_different l'.
Proof.
  unfold all_different. induction 1; intros HD.
  - exact HD.
  - inversion HD; subst. constructor; [|apply IHPermutation; assumption].
    rewrite Forall_forall in *. intros y Hy. apply H2.
    apply (Permutation_in _ (Permutation_sym H)). exact Hy.
  - inversion HD as [|? ? F1 R1]; subst. inversion R1 as [|? ? F2 R2]; subst.
    inversion F1 as [|? ? N1 F1']; subst. constructor.
    + constructor; [|exact F2]. intros (Q1 & Q2 & Q3 & Q4). apply N1. repeat split; congruence.
    + constructor; [exact F1' | exact R2].
  - auto.
Qed.
Lemma all_different_app_l l l' : all_different (l ++ l') -> all_different l.
Proof.
  unfold all_different. induction l as [|x l IH]; intros H; [constructor|].
  cbn [app] in H. inversion H as [|? ? F R]; subst. constructor; [|apply IH; exact R].
  rewrite Forall_forall in *. intros y Hy. apply F. apply in_or_app; left; exact Hy.
Qed.

Lemma addGrids_ok E F T L g db : gi_geom g = true -> takes_new E ->
  forall names grids recss d f, grids_read F L T names grids -> grids_recs L grids recss ->
  d db = Some f -> all_different (d_recs f ++ concat recss) ->
  exists d', addGrids E F T L g db names d =
      (d', map (fun gr => (count (filter has_data (snd gr)), count (no_data_points (snd gr)))) grids,
       Val tt) /\
    d' db = Some (set_recs f (add_all E (concat recss) (d_recs f))) /\ others_untouched db d d'.
Proof.
  intros HG HN. induction names as [|n names IH]; intros grids recss d f HR HC Hd HD.
  - inversion HR; subst. inversion HC; subst. exists d. cbn.
    split; [reflexivity|]. split; [destruct f; exact Hd | apply others_refl].
  - inversion HR as [|? gr ? grids' (text & HT & HF) HR']; subst.
    inversion HC as [|? rs ? recss' Hrs HC']; subst. cbn [concat] in *.
    assert (HD1 : all_different (d_recs f ++ rs)).
    { rewrite app_assoc in HD. apply all_different_app_l in HD. exact HD. }
    destruct (grid_added E F T L g db n d f text (fst gr) (snd gr) rs HG HT HF Hd Hrs HN HD1)
      as (d1 & K1 & K2 & K3).
    cbn [addGrids]. rewrite K1.
    destruct (IH grids' recss' d1 _ HR' HC' K2) as (d2 & M1 & M2 & M3).
    + cbn [set_recs d_recs]. apply (all_different_perm (d_recs f ++ rs ++ concat recss')); [|exact HD].
      rewrite add_all_perm, <- app_assoc. reflexivity.
    + rewrite M1. exists d2. cbn [map]. split; [reflexivity|]. split.
      * rewrite M2. cbn [set_recs d_recs d_schema d_meta d_size]. rewrite add_all_app. reflexivity.
      * eapply others_trans; eassumption.
Qed.

Lemma openDB_ok E n desc d : can_create E d n ->
  exists d', openDB E n desc d = (d', Val tt) /\
    d' n = Some (mkDb [] (Some SCHEMA) (Some (createdMeta E desc)) 28) /\ others_untouched n d d'.
Proof.
  intros (C1 & C2 & C3). pose proof (openDB_confined E n desc d) as G.
  unfold openDB, andThen, openNew in *. rewrite C1 in *. unfold registerSchema in *. rewrite C2 in *.
  unfold write at 1 in G. unfold write at 1. cbv beta iota in *. unfold setAppMeta in *. rewrite C3 in *.
  unfold write in *. rewrite !put_same in *. eexists. split; [reflexivity|].
  split; [rewrite put_same; reflexivity | exact G].
Qed.

Lemma run_builds E F T L g d text tail names grids recss :
  gi_geom g = true -> gi_params g <> ""%string -> gi_tmp g <> ""%string -> gi_out g <> ""%string ->
  gi_tmp g <> gi_out g ->
  T (gi_params g) = Some (text ++ tail)%string -> laid_out names text -> unterminated tail ->
  grids_read F L T names grids -> grids_recs L grids recss ->
  takes_new E -> in_order E -> accepts (et_store E) ->
  (forall d1, can_create E d1 (gi_tmp g) /\ can_create E d1 (gi_out g) /\ et_open E d1 (gi_tmp g) = true) ->
  can_read E (gi_tmp g) -> et_flush E (gi_tmp g) = true -> et_close E (gi_tmp g) = true -> et_close E (gi_out g) = true ->
  all_different (concat recss) -> (forall r, In r (concat recss) -> octant_ok (fst r)) ->
  concat recss <> [] ->
  exists d' out, run E F T L g d =
      (d', map (fun gr => (count (filter has_data (snd gr)), count (no_data_points (snd gr)))) grids,
       Val tt) /\
    d' (gi_out g) = Some (mkDb out (Some SCHEMA) (Some (createdMeta E (gi_desc g))) 28) /\
    Permutation out (concat recss) /\ StronglySorted etree_lt (map fst out) /\
    (forall n, n <> gi_out g -> n <> gi_tmp g -> d' n = d n).
Proof.
  intros HG H1 H2 H3 Hne HT Hws Htl HR HC HN HO HA HCr (R1 & R2 & R3) K0 K1 K2 HD HK Hnn.
  unfold run. apply String.eqb_neq in H1, H2, H3. rewrite H1, H2, H3. cbn [orb].
  unfold readParams. rewrite HT. cbv beta iota.
  change (openText (text ++ tail)) with (fresh (text ++ tail)).
  rewrite (readNames_spec text _ names tail Hws Htl) by (rewrite length_app_s; lia).
  destruct (openDB_ok E (gi_tmp g) (gi_desc g) d (proj1 (HCr d))) as (d1 & M1 & M2 & M3).
  rewrite M1.
  destruct (addGrids_ok E F T L g (gi_tmp g) HG HN names grids recss d1 _ HR HC M2 HD) as (d2 & P1 & P2 & P3).
  rewrite P1, (closeDB_ok E _ K0). unfold andThen, ret. cbv beta iota.
  set (out := add_all E (concat recss) []).
  assert (PO : Permutation out (concat recss)) by (apply (add_all_perm E (concat recss) [])).
  assert (SO : StronglySorted etree_lt (map fst out)).
  { apply add_all_sorted; [exact HO | exact HK | exact HD | constructor]. }
  assert (PW : exists d3, packDB E (gi_out g) (gi_tmp g) d2 = (d3, Val tt)).
  { match type of P2 with _ = Some ?ff => apply (pack_works E (gi_out g) (gi_tmp g) d2 ff) end; try assumption.
    - congruence.
    - split; [exact P2|]. split; [apply HCr|]. split; reflexivity.
    - cbn [set_recs d_recs]. fold out. intros C. rewrite C in PO. apply Permutation_nil in PO. congruence.
    - apply HCr. }
  destruct PW as (d3 & PW). rewrite PW. exists d3, out. split; [reflexivity|].
  destruct (pack_returns E _ _ _ _ (not_eq_sym Hne) R3 PW) as (f & Q1 & Q2 & Q3).
  rewrite P2 in Q1. injection Q1 as <-.
  split; [exact Q3|]. split; [exact PO|]. split; [exact SO|].
  intros n N1 N2. pose proof (packDB_confined E (gi_out g) (gi_tmp g) d2) as G. rewrite PW in G.
  cbn [fst] in G. rewrite (G n N1). rewrite (P3 n N2). apply (M3 n N2).
Qed.
