(** Facts about copying a grid of points into a database. *)
From Coq Require Import ZArith Bool Reals Lra Lia String List Permutation Sorted.
From Flocq Require Import Core BinarySingleNaN.
From Verif Require Import Outcome Float Payload Addr SpecOct SpecGeom FloatFacts Geom GeomFacts GeomProof ErrorHandler VMQuery SpecQuery
  QueryFacts QueryProof QuerySurface QueryHist QueryMain Store SpecStore StoreFacts Averager VMCreator Stream GridIngester SpecGrid GridFacts GridMain VsGrader SpecGrade VsRun SpecExtract.
Import ListNotations.
Open Scope Z_scope.

(** ** Numbers *)
Lemma value_unique x y : valid32 x -> valid32 y -> is_fin x = true -> is_fin y = true ->
  (SF2R radix2 x <> 0)%R -> SF2R radix2 x = SF2R radix2 y -> x = y.
Proof.
  intros Vx Vy Fx Fy N E. destruct (valid_ex prec32 emax32 x Vx) as [bx ->]. destruct (valid_ex prec32 emax32 y Vy) as [b_y ->].
  f_equal. rewrite !SF2R_B2SF in *. apply B2R_inj; [..|exact E].
  - destruct bx; try discriminate Fx; [exfalso; apply N; reflexivity | reflexivity].
  - destruct b_y; try discriminate Fy; [exfalso; apply N; rewrite E; reflexivity | reflexivity].
Qed.
Lemma narrow_widen x : valid32 x -> narrow (widen x) = x.
Proof.
  intros V. destruct x as [s|s| |s m e]; try reflexivity.
  assert (NZ : (SF2R radix2 (S754_finite s m e) <> 0)%R).
  { cbn. destruct s; cbn; [apply Rlt_not_eq, F2R_lt_0 | apply Rgt_not_eq, F2R_gt_0]; reflexivity. }
  destruct (widen_repr (S754_finite s m e)) as (V1 & F1 & E1); [split; [exact V | reflexivity]|].
  destruct (widen (S754_finite s m e)) as [s1|s1| |s1 m1 e1] eqn:W; try discriminate F1.
  { exfalso. apply NZ. exact (eq_sym E1). }
  unfold narrow. cbn [convert].
  pose proof (normalize_exact prec32 emax32 Hp32 Hm32 (if s1 then Z.neg m1 else Z.pos m1) e1 s1) as N. cbv zeta in N.
  assert (Q : F2R (Float radix2 (if s1 then Z.neg m1 else Z.pos m1) e1) = SF2R radix2 (S754_finite s m e)).
  { change (value (S754_finite s m e)) with (SF2R radix2 (S754_finite s m e)) in E1. rewrite <- E1. cbn. destruct s1; reflexivity. }
  rewrite Q in N. destruct N as [N1 N2].
  { apply (val_format prec32 emax32), V. }
  { apply (val_lt_emax prec32 emax32), V. }
  symmetry. apply value_unique; [exact V | apply normalize_valid; exact _ | reflexivity | exact N2 | exact NZ | symmetry; exact N1].
Qed.
Lemma short_back z : -32768 <= z <= 32767 -> f2short (i2f64 z) = Val z.
Proof.
  intros H. destruct (repr_int z ltac:(lia)) as (V & F & E). unfold f2short, f2int. rewrite ftrunc_R by exact F. rewrite E, Ztrunc_IZR.
  rewrite (proj2 (Z.leb_le _ _)) by lia. rewrite (proj2 (Z.ltb_lt _ _)) by lia. cbn [andb bind].
  rewrite (proj2 (Z.leb_le _ _)) by lia. rewrite (proj2 (Z.leb_le _ _)) by lia. reflexivity.
Qed.
Lemma void_eq : mkPayload (narrow GRADENODATA) (narrow GRADENODATA) (narrow GRADENODATA) (narrow GRADENODATA) (narrow GRADENODATA)
  (narrow GRADENODATA) GRADENOBLOCK GRADENOZONE = void.
Proof. vm_compute. reflexivity. Qed.

Definition eight : list vname := [NVp; NVs; NDensity; NQp; NQs; NDepthFreeSurf; NFaultBlock; NZone].
Lemma take_values minVs ans s : storable ans -> takeVals minVs (QueryMain.values ans s eight) = Val (prepared minVs ans).
Proof.
  intros (HF & HB & HZ). unfold takeVals, QueryMain.values, eight. cbn [map nth stored_value].
  rewrite !short_back by assumption. cbn [bind].
  inversion HF as [|x0 l0 V0 HF0]; subst. inversion HF0 as [|x1 l1 V1 HF1]; subst. inversion HF1 as [|x2 l2 V2 HF2]; subst.
  inversion HF2 as [|x3 l3 V3 HF3]; subst. inversion HF3 as [|x4 l4 V4 HF4]; subst. inversion HF4 as [|x5 l5 V5 HF5]; subst.
  rewrite !narrow_widen by assumption. cbn [p_vs p_vp p_density p_qp p_qs p_dfs p_block p_zone].
  unfold prepared, with_vs. destruct ans as [a0 a1 a2 a3 a4 a5 a6 a7]. cbn [p_vs p_vp p_density p_qp p_qs p_dfs p_block p_zone].
  destruct (flt a1 f_zero); [rewrite void_eq; reflexivity|]. destruct (flt (widen a1) minVs); reflexivity.
Qed.

Lemma storable_no_data : storable no_data.
Proof. split; [repeat constructor | cbn; lia]. Qed.
Lemma prepared_storable minVs ans : storable ans -> storable (prepared minVs ans).
Proof.
  intros [F B]. unfold prepared. destruct (flt _ _).
  - split; [repeat (constructor; [vm_compute; reflexivity|]); constructor | cbn; lia].
  - destruct (flt _ _); [|split; assumption]. split; [|exact B].
    inversion F as [|? ? F1 F']; subst. inversion F' as [|? ? _ F'']; subst.
    constructor; [exact F1|]. constructor; [apply (convert_valid prec32 emax32 Hp32 Hm32) | exact F''].
Qed.
Lemma storable_halfway a b : storable b -> storable (halfway a b).
Proof.
  intros (_ & HB). split; [|exact HB]. unfold halfway, half_sum. cbn [p_vs p_vp p_density p_qp p_qs p_dfs].
  repeat (apply Forall_cons; [apply (convert_valid prec32 emax32 Hp32 Hm32)|]). apply Forall_nil.
Qed.
Definition all_storable (db : contents) : Prop := forall h p, In (h, p) db -> storable p.
Lemma climbs_storable db t w prev h v r : all_storable db -> climbs db t w prev h v r -> storable v ->
  match r with Stopped a b => storable b | Orphan _ => True end.
Proof.
  intros HA H. induction H as [prev h v N|prev h v h' v' r T F C IH|prev h v T N]; intros Hv; [exact Hv | | exact I].
  apply IH. destruct F as (I & _). exact (HA _ _ I).
Qed.
Lemma answer_storable r db w ans o : all_storable db -> answer r db w ans o -> storable ans.
Proof.
  intros HA. destruct r as [|l|t]; cbn [answer].
  - intros [[(h & v & F & ->)|[_ ->]] _]; [|exact storable_no_data]. destruct (a_type h); [exact (HA _ _ (proj1 F)) | exact storable_no_data].
  - intros [[(h & v & F & ->)|[_ ->]] _]; [|exact storable_no_data].
    destruct (a_type h); [exact (HA _ _ (proj1 F))|]. destruct (a_level h =? l); [exact (HA _ _ (proj1 F)) | exact storable_no_data].
  - intros [(h & v & F & [(_ & -> & _)|(_ & [(a & b & C & -> & _)|(c & C & -> & _)])])|(_ & -> & _)];
      [exact storable_no_data | | exact (HA _ _ (proj1 F)) | exact storable_no_data].
    apply storable_halfway. exact (climbs_storable _ _ _ _ _ _ _ HA C (HA _ _ (proj1 F))).
Qed.

(** ** Loops *)
Definition recs := list (addr * payload).
Lemma different_front l r : all_different (l ++ r) -> all_different l.
Proof. intros H. induction l as [|x l IH]; [constructor|]. inversion H as [|? ? HF HO]; subst. constructor; [|apply IH, HO]. apply Forall_app in HF. apply HF. Qed.
Lemma fold_records {X Y} (f : Y -> X -> io Y) (of : X -> recs) (I : recs -> Y -> disk -> Prop) l :
  (forall x done y d, In x l -> all_different (done ++ of x) -> I done y d ->
     exists d' y', f y x d = (d', Val y') /\ I (done ++ of x)%list y' d') ->
  forall done y d, all_different (done ++ flat_map of l) -> I done y d ->
  exists d' y', foldIO f l y d = (d', Val y') /\ I (done ++ flat_map of l)%list y' d'.
Proof.
  induction l as [|x l IH]; intros H done y d HD HI.
  - exists d, y. rewrite app_nil_r. split; [reflexivity | exact HI].
  - cbn [flat_map] in *. rewrite app_assoc in *.
    destruct (H x done y d (or_introl eq_refl) (different_front _ _ HD) HI) as (d1 & y1 & E1 & I1).
    destruct (IH (fun x done y d Hx => H x done y d (or_intror Hx)) _ y1 d1 HD I1) as (d2 & y2 & E2 & I2).
    exists d2, y2. split; [|exact I2]. cbn [foldIO]. unfold andThen. rewrite E1. exact E2.
Qed.
Lemma in_range n x : In x (range n) <-> 0 <= x < n.
Proof.
  unfold range. rewrite in_map_iff. split.
  - intros (k & <- & H). apply in_seq in H. lia.
  - intros H. exists (Z.to_nat x). split; [lia|]. apply in_seq. lia.
Qed.
Lemma range_nodup n : NoDup (range n).
Proof. unfold range. apply FinFun.Injective_map_NoDup; [intros a b; lia | apply seq_NoDup]. Qed.
Definition grid_records (nl nw nh : Z) (cell : Z -> Z -> Z -> addr) (v : Z -> Z -> Z -> payload) : recs :=
  flat_map (fun l => flat_map (fun w => flat_map (fun h => [(cell l w h, v l w h)]) (range nh)) (range nw)) (range nl).
Lemma in_grid_records nl nw nh cell v a p : In (a, p) (grid_records nl nw nh cell v) <->
  exists i j k, in_grid nl nw nh i j k /\ a = cell i j k /\ p = v i j k.
Proof.
  unfold grid_records, in_grid. rewrite in_flat_map. split.
  - intros (i & Hi & H). apply in_flat_map in H. destruct H as (j & Hj & H). apply in_flat_map in H. destruct H as (k & Hk & [H|[]]).
    injection H as <- <-. apply in_range in Hi, Hj, Hk. exists i, j, k. auto.
  - intros (i & j & k & (Hi & Hj & Hk) & -> & ->). exists i. split; [apply in_range, Hi|]. apply in_flat_map. exists j.
    split; [apply in_range, Hj|]. apply in_flat_map. exists k. split; [apply in_range, Hk | left; reflexivity].
Qed.
Lemma same_leaf a b : octant_ok a -> octant_ok b -> a_type a = a_type b -> same_octant a b -> a = b.
Proof.
  intros (_ & T & _) (_ & T' & _) TY (X & Y & Z & LV). destruct a, b; cbn in *. congruence.
Qed.
Lemma flat_different {X} (of : X -> recs) l : NoDup l -> (forall x, In x l -> all_different (of x)) ->
  (forall x y a b, In x l -> In y l -> x <> y -> In a (of x) -> In b (of y) -> ~ same_octant (fst a) (fst b)) ->
  all_different (flat_map of l).
Proof.
  intros N H D. induction l as [|x l IH]; [constructor|]. inversion N as [|? ? NI N']; subst. cbn [flat_map].
  assert (IHl : all_different (flat_map of l)).
  { apply IH; [exact N' | intros y Hy; apply H; right; exact Hy|]. intros y z a b Hy Hz. apply D; right; assumption. }
  assert (Hx : all_different (of x)) by (apply H; left; reflexivity).
  assert (C : forall a b, In a (of x) -> In b (flat_map of l) -> ~ same_octant (fst a) (fst b)).
  { intros a b Ha Hb. apply in_flat_map in Hb. destruct Hb as (y & Hy & Hb). apply (D x y); [left; reflexivity | right; exact Hy | | exact Ha | exact Hb].
    intros ->. contradiction. }
  clear -Hx IHl C. induction (of x) as [|a m IHm]; [exact IHl|]. inversion Hx as [|? ? HF HO]; subst. cbn [app]. constructor.
  - apply Forall_app. split; [exact HF|]. apply Forall_forall. intros b Hb. apply C; [left; reflexivity | exact Hb].
  - apply IHm; [exact HO|]. intros a' b Ha Hb. apply C; [right; exact Ha | exact Hb].
Qed.
Lemma grid_different {LL} (lonlat : Z -> Z -> outcome LL) locate nl nw nh cell v :
  grid_points lonlat locate nl nw nh cell -> all_different (grid_records nl nw nh cell v).
Proof.
  intros (_ & HO & HI).
  assert (K : forall i j k i' j' k', in_grid nl nw nh i j k -> in_grid nl nw nh i' j' k' -> same_octant (cell i j k) (cell i' j' k') -> i = i' /\ j = j' /\ k = k').
  { intros i j k i' j' k' G G' S. apply HI; [exact G | exact G' |]. destruct (HO _ _ _ G) as [O T]. destruct (HO _ _ _ G') as [O' T'].
    apply same_leaf; [exact O | exact O' | congruence | exact S]. }
  unfold grid_records. apply flat_different; [apply range_nodup| |].
  - intros i Hi. apply in_range in Hi. apply flat_different; [apply range_nodup| |].
    + intros j Hj. apply in_range in Hj. apply flat_different; [apply range_nodup| |].
      * intros k _. constructor; [constructor | constructor].
      * intros k k' a b Hk Hk' NE [<-|[]] [<-|[]] S. apply in_range in Hk, Hk'. cbn [fst] in S.
        destruct (K i j k i j k') as (_ & _ & E); unfold in_grid; auto.
    + intros j j' a b Hj Hj' NE Ha Hb S. apply in_flat_map in Ha, Hb. destruct Ha as (k & Hk & [<-|[]]), Hb as (k' & Hk' & [<-|[]]).
      apply in_range in Hj, Hj', Hk, Hk'. destruct (K i j k i j' k') as (_ & E & _); unfold in_grid; auto.
  - intros i i' a b Hi Hi' NE Ha Hb S. apply in_flat_map in Ha, Hb. destruct Ha as (j & Hj & Ha), Hb as (j' & Hj' & Hb).
    apply in_flat_map in Ha, Hb. destruct Ha as (k & Hk & [<-|[]]), Hb as (k' & Hk' & [<-|[]]).
    apply in_range in Hi, Hi', Hj, Hj', Hk, Hk'. destruct (K i j k i' j' k') as (E & _ & _); unfold in_grid; auto.
Qed.

(** ** The query object *)
Section Extract.
Context {DB : Type}.
Variables (EQ : env DB) (E : etree) (F : numfmt) (L : libm).
Variable v : vsgrader.
Let g := vg_g v.
Variables (dq : DB) (inp : contents) (r : resolution).
Hypothesis Cache : 0 < vg_cache v.
Hypothesis Opens : e_open EQ (vg_in v) (vg_cache v) = Some dq.
Hypothesis Search : searches (e_search EQ dq) inp.
Hypothesis Ok : db_ok inp.
Hypothesis Stor : all_storable inp.
Hypothesis Res : asked L v r.

Definition orig : qstate DB := origQuery L v.
Definition opened : qstate DB := set_db orig (Some dq) None (q_err orig).
Definition asking : qstate DB :=
  mkQ (q_res opened) (q_limit opened) (q_db opened) (q_dbExt opened) (map (fun n => Some (code n)) eight) (q_geom opened) (q_err opened)
    (q_name opened) (q_nameExt opened) (q_type opened) (q_cache opened) (q_cacheExt opened) (q_squash opened).

Lemma orig_fields : q_name orig = vg_in v /\ q_cache orig = vg_cache v /\
  q_type orig = vg_type v /\ q_nameExt orig = ""%string /\
  q_db orig = None /\ q_dbExt orig = None /\ q_squash orig = false /\
  q_geom orig = L /\ (flt f_zero (vg_res v) = true -> q_res orig = vg_res v).
Proof using Cache.
  unfold orig, origQuery. set (q0 := q_new L). set (q1 := set_queryType (qcode (vg_type v)) q0).
  assert (A : q_type q1 = vg_type v /\ q_nameExt q1 = q_nameExt q0 /\ q_db q1 = q_db q0 /\ q_dbExt q1 = q_dbExt q0 /\ q_squash q1 = q_squash q0 /\ q_geom q1 = q_geom q0)
    by (unfold q1; destruct (vg_type v); auto 7).
  destruct A as (A1 & A2 & A3 & A4 & A5 & A6). clearbody q1.
  set (q2 := set_queryRes (vg_res v) q1).
  assert (B : q_type q2 = q_type q1 /\ q_nameExt q2 = q_nameExt q1 /\ q_db q2 = q_db q1 /\ q_dbExt q2 = q_dbExt q1 /\ q_squash q2 = q_squash q1 /\ q_geom q2 = q_geom q1 /\
    (flt f_zero (vg_res v) = true -> q_res q2 = vg_res v)).
  { unfold q2, set_queryRes, fgt, flt. destruct (SFltb f_zero (vg_res v)); (do 6 (split; [reflexivity|])); intros Q; first [discriminate Q | reflexivity]. }
  destruct B as (B1 & B2 & B3 & B4 & B5 & B6 & B7). clearbody q2.
  unfold set_cacheSize. rewrite (proj2 (Z.ltb_lt _ _) Cache). unfold set_filename. cbn [q_name q_cache q_type q_nameExt q_db q_dbExt q_squash q_geom q_res].
  rewrite B1, B2, B3, B4, B5, B6, A1, A2, A3, A4, A5, A6. do 8 (split; [reflexivity|]). exact B7.
Qed.
Lemma open_ok : open EQ orig = Val opened.
Proof using Cache Opens.
  destruct orig_fields as (N & C & _ & X & D & DX & _). unfold open. rewrite D, X, DX, C, N.
  rewrite (proj2 (Z.ltb_lt _ _) Cache). cbn [assert_ bind]. rewrite Opens. reflexivity.
Qed.
Lemma vals_ok : set_queryVals (Some valNames) opened = Val asking.
Proof. reflexivity. Qed.
Lemma asking_setup e : setup EQ (with_err asking e) inp None.
Proof using Search Ok. split; [exists dq; split; [reflexivity|]; split; [exact Search | exact Ok] | reflexivity]. Qed.
Lemma asking_resolution e : resolution_of (with_err asking e) r.
Proof using Cache Res.
  destruct orig_fields as (_ & _ & T & _ & _ & _ & _ & G & R). unfold resolution_of. cbn [with_err asking opened set_db q_type q_geom q_res].
  rewrite T, G. unfold asked in Res. destruct (vg_type v).
  - exact Res.
  - destruct Res as [P H]. rewrite (R P). exact H.
  - destruct Res as [P H]. rewrite (R P). exact H.
Qed.
Definition spot (i j k : Z) (lon lat : f64) (w : place) : Prop :=
  indexToLonLat L g i j = Val (lon, lat) /\ (let '(p, q, s) := w in coords L lon lat (indexToElev g k) p q s).
Lemma asking_plain e lon lat elev (w : place) olds : (let '(p, q, s) := w in coords L lon lat elev p q s) -> List.length olds = 8%nat ->
  plain (with_err asking e) lon lat elev w eight olds.
Proof using Cache.
  intros HC HL. destruct orig_fields as (_ & _ & _ & _ & _ & _ & S & G & _).
  split; [left; exact S|]. split; [|split; [reflexivity | exact HL]].
  unfold at_place. cbn [with_err asking opened set_db q_geom]. rewrite G. exact HC.
Qed.

(** Asking for the values at one point. *)
Lemma ask e fs lon lat elev w olds : (let '(p, q, s) := w in coords L lon lat elev p q s) -> place_inside w -> List.length olds = 8%nat ->
  exists ans o e' fs', query EQ (with_err asking e) fs (Some olds) lon lat elev = Val (with_err asking e', fs', QueryMain.values ans f_zero eight) /\
    answer r inp w ans o.
Proof using Cache Search Ok Res.
  intros HC HI HL.
  destruct (query_inside EQ (with_err asking e) fs lon lat elev w eight olds inp None r f_zero (asking_setup e) (asking_resolution e)
     (asking_plain e lon lat elev w olds HC HL) HI) as (ans & o1 & o2 & e1 & e2 & e' & fs' & Q & C & _).
  { intros K. exfalso. cbn in K. decompose [or] K; try discriminate; assumption. }
  destruct C as (first & A & -> & ->). exists first, o1, e', fs'. split; [exact Q | exact A].
Qed.

Definition value_at (fs : files) (i j k : Z) : payload :=
  match (let* ll := indexToLonLat L g i j in
         let* q := query EQ asking fs (Some (repeat f_zero 8 : list f64)) (fst ll) (snd ll) (indexToElev g k) in
         takeVals (gp_minVs g) (snd q)) with
  | Val p => p
  | _ => no_data
  end.
Lemma value_at_eq fs i j k lon lat w ans o : spot i j k lon lat w -> place_inside w -> answer r inp w ans o ->
  value_at fs i j k = prepared (gp_minVs g) ans.
Proof using Cache Search Ok Stor Res.
  intros (E1 & C) HI A. unfold value_at. rewrite E1. cbn [bind fst snd].
  destruct (ask (q_err asking) fs lon lat (indexToElev g k) w (repeat f_zero 8) C HI eq_refl) as (ans' & o' & e' & fs' & Q & A').
  change (with_err asking (q_err asking)) with asking in Q. rewrite Q. cbn [bind snd].
  destruct (answer_unique _ _ _ _ _ _ _ Ok A A') as [<- _].
  rewrite take_values by exact (answer_storable _ _ _ _ _ Stor A). reflexivity.
Qed.

(** ** One point *)
Variables (fs0 : files) (f0 : dbfile) (d0 : disk).
Definition inv (done : recs) (st : qstate DB * files * list f64) (d : disk) : Prop :=
  (exists e, fst (fst st) = with_err asking e) /\ List.length (snd st) = 8%nat /\
  d (vg_tmp v) = Some (set_recs f0 (add_all E done [])) /\ others_untouched (vg_tmp v) d0 d.
Hypothesis Takes : takes_new E.

Lemma point_step i j k lon lat w c done st d : spot i j k lon lat w -> place_inside w -> gridAddr L g (lon, lat) k = Val c ->
  all_different (done ++ [(c, value_at fs0 i j k)]) -> inv done st d ->
  exists d' st', extractPoint EQ E L v lon lat st k d = (d', Val st') /\ inv (done ++ [(c, value_at fs0 i j k)])%list st' d'.
Proof using Cache Search Ok Stor Res Takes.
  intros HS HI HG HD ((e & Eq) & HL & Hf & HU). destruct st as [[q fs] vals]. cbn [fst snd] in Eq, HL. subst q.
  destruct HS as (E1 & C).
  destruct (ask e fs lon lat (indexToElev g k) w vals C HI HL) as (ans & o & e' & fs' & Q & A).
  pose proof (value_at_eq fs0 i j k lon lat w ans o (conj E1 C) HI A) as V.
  unfold gridAddr in HG. destruct (level L (resHoriz g)) as [lev| | |] eqn:EL; try discriminate. cbn [bind fst snd] in HG.
  destruct (lonLatElevToAddr L (mkAddr 0 0 0 0 lev Leaf) lon lat (indexToElev g k)) as [[cd a]| | |] eqn:EA; try discriminate.
  cbn [bind] in HG. injection HG as ->.
  set (p := value_at fs0 i j k) in *.
  assert (T : et_insert E (d_recs (set_recs f0 (add_all E done []))) c = true).
  { cbn [set_recs d_recs]. exact (all_taken E [] (done ++ [(c, p)]) Takes HD done (c, p) [] eq_refl). }
  pose proof (insert_ok E L (vg_tmp v) p lon lat (indexToElev g k) (resHoriz g) lev cd c d _ EL EA Hf T) as I.
  exists (put d (vg_tmp v) (Some (set_recs f0 (add_all E (done ++ [(c, p)]) [])))), (with_err asking e', fs', QueryMain.values ans f_zero eight).
  split.
  - unfold extractPoint. fold g. unfold andThen, lift. rewrite Q. cbn [snd].
    rewrite take_values by exact (answer_storable _ _ _ _ _ Stor A). rewrite <- V. fold p. rewrite I. unfold ret. f_equal. f_equal.
    unfold add_all. rewrite fold_left_app. reflexivity.
  - split; [exists e'; reflexivity|]. split; [reflexivity|]. split; [apply put_same|].
    intros m Hm. rewrite put_other by exact Hm. apply HU, Hm.
Qed.

(** ** The whole grid *)
Lemma all_points nl nw nh cell st d :
  grid_points (indexToLonLat L g) (gridAddr L g) nl nw nh cell ->
  (forall i j k, in_grid nl nw nh i j k -> exists w, point_place L g i j k w /\ place_inside w) ->
  inv [] st d ->
  exists d' st', foldIO (fun st iLen => foldIO (fun st iWidth =>
          do* ll := lift (indexToLonLat L g iLen iWidth) in
          foldIO (extractPoint EQ E L v (fst ll) (snd ll)) (range nh) st) (range nw) st) (range nl) st d = (d', Val st') /\
    inv (grid_records nl nw nh cell (value_at fs0)) st' d'.
Proof using Cache Search Ok Stor Res Takes.
  intros GP HP HI. pose proof (grid_different _ _ nl nw nh cell (value_at fs0) GP) as HD. destruct GP as (HG & _).
  unfold grid_records in *.
  refine (fold_records _ (fun l => flat_map (fun w => flat_map (fun h => [(cell l w h, value_at fs0 l w h)]) (range nh)) (range nw)) inv (range nl) _ [] st d HD HI).
  intros i done y d1 Hi D1 I1. apply in_range in Hi.
  refine (fold_records _ (fun w => flat_map (fun h => [(cell i w h, value_at fs0 i w h)]) (range nh)) inv (range nw) _ done y d1 D1 I1).
  intros j done2 y2 d2 Hj D2 I2. apply in_range in Hj.
  destruct (HG i j Hi Hj) as ([lon lat] & EL & EG). unfold andThen at 1, lift at 1. rewrite EL. cbv beta iota. cbn [fst snd].
  refine (fold_records _ (fun h => [(cell i j h, value_at fs0 i j h)]) inv (range nh) _ done2 y2 d2 D2 I2).
  intros k done3 y3 d3 Hk D3 I3. apply in_range in Hk.
  destruct (HP i j k) as ([[p q] s] & (lon' & lat' & EL' & C) & W); [unfold in_grid; auto|].
  rewrite EL in EL'. injection EL' as <- <-.
  apply (point_step i j k lon lat (p, q, s)); [split; [exact EL | exact C] | exact W | apply EG, Hk | exact D3 | exact I3].
Qed.
End Extract.

Lemma extract_ok {DB} (EQ : env DB) E F L v dq inp r fs d nl nw nh cell :
  0 < vg_cache v -> e_open EQ (vg_in v) (vg_cache v) = Some dq -> searches (e_search EQ dq) inp -> db_ok inp -> all_storable inp -> asked L v r ->
  count (gp_len (vg_g v)) (resHoriz (vg_g v)) = Val nl -> count (gp_width (vg_g v)) (resHoriz (vg_g v)) = Val nw -> count (gp_ht (vg_g v)) (gp_res (vg_g v)) = Val nh ->
  grid_points (indexToLonLat L (vg_g v)) (gridAddr L (vg_g v)) nl nw nh cell ->
  (forall i j k, in_grid nl nw nh i j k -> exists w, point_place L (vg_g v) i j k w /\ place_inside w) ->
  takes_new E -> can_create E d (vg_tmp v) -> et_flush E (vg_tmp v) = true ->
  exists d' vals, extract EQ E F L v fs d = (d', Val tt) /\
    d' (vg_tmp v) = Some (mkDb (add_all E (grid_records nl nw nh cell vals) []) (Some SCHEMA) (Some (createdMeta E (description F v))) 28) /\
    others_untouched (vg_tmp v) d d' /\
    forall i j k w ans o, in_grid nl nw nh i j k -> point_place L (vg_g v) i j k w -> answer r inp w ans o -> place_inside w ->
      vals i j k = prepared (gp_minVs (vg_g v)) ans.
Proof.
  intros HC HO HS HK HA HR N1 N2 N3 GP HP HT CC CF.
  destruct (openDB_ok E (vg_tmp v) (description F v) d CC) as (d1 & O1 & O2 & O3).
  set (q := asking L v dq).
  set (f0 := mkDb [] (Some SCHEMA) (Some (createdMeta E (description F v))) 28) in *.
  destruct (all_points EQ E L v dq inp r HC HS HK HA HR fs f0 d HT nl nw nh cell (q, fs, repeat f_zero 8) d1 GP HP) as (d2 & st & E2 & ((e & Eq) & HL & Hf & HU)).
  { split; [exists (q_err q); reflexivity|]. split; [reflexivity|]. split; [exact O2 | exact O3]. }
  exists d2, (value_at EQ L v dq fs). split; [|split; [exact Hf|split; [exact HU|]]].
  - unfold extract. unfold andThen at 1, lift at 1. change (origQuery L v) with (orig (DB := DB) L v). rewrite (open_ok EQ L v dq HC HO). cbv beta iota.
    unfold unwinding. unfold andThen at 1. rewrite O1. cbv beta iota.
    unfold andThen at 1, lift at 1. rewrite N1. cbv beta iota. unfold andThen at 1, lift at 1. rewrite N2. cbv beta iota.
    unfold andThen at 1, lift at 1. rewrite N3. cbv beta iota. unfold andThen at 1, lift at 1. rewrite (vals_ok L v dq). cbv beta iota.
    unfold andThen at 1. fold q. rewrite E2. cbv beta iota. rewrite (closeDB_ok E _ CF). unfold andThen, ret. cbv beta iota. rewrite Eq. reflexivity.
  - intros i j k [[p qq] s] ans o G (lon & lat & EL & C) A W. 
    exact (value_at_eq EQ L v dq inp r HC HS HK HA HR fs i j k lon lat (p, qq, s) ans o (conj EL C) W A).
Qed.

(** ** The places of the points *)
Lemma not_out_cases c : double c -> out_of_root c = false -> c = S754_nan \/ inside c \/ on_upper_face c.
Proof.
  intros D O. assert (N : ~ outside c) by (intros H; apply (out_of_root_iff c D) in H; congruence).
  destruct (is_fin c) eqn:F.
  - right. assert (K : (0 <= value c <= root)%R).
    { destruct (Rlt_dec (value c) 0); [exfalso; apply N; split; [exact D|]; right; right; split; [exact F | left; assumption]|].
      destruct (Rlt_dec root (value c)); [exfalso; apply N; split; [exact D|]; right; right; split; [exact F | right; assumption]|]. lra. }
    destruct (Req_dec (value c) root); [right | left]; (split; [split; [exact D | exact F]|]); [assumption | lra].
  - destruct c as [s|[]| |s m e]; try discriminate F; [| |left; reflexivity]; exfalso; apply N; split; auto.
Qed.

Lemma address_place L a lon lat elev cd c : (0 <= a_level a <= 31) -> lonLatElevToAddr L a lon lat elev = Val (cd, c) -> octant_ok c ->
  (forall p q r, coords L lon lat elev p q r -> double p /\ double q /\ double r) ->
  exists p q r, coords L lon lat elev p q r /\ place_inside (p, q, r) /\ holds c (p, q, r).
Proof.
  intros Hl E O HD. assert (C : exists x y, m_project L lon lat = Some (x, y)).
  { unfold lonLatElevToAddr in E. destruct (assert_ _); try discriminate. cbn [bind] in E. unfold project in E.
    destruct (m_project L lon lat) as [[x y]|]; [exists x, y; reflexivity | discriminate]. }
  destruct C as (x & y & Ep). set (p := rot_p L x y). set (q := rot_q L x y). set (r := vert_r elev).
  assert (C : coords L lon lat elev p q r) by (exists x, y; auto).
  exists p, q, r. split; [exact C|].
  destruct (HD p q r C) as (Dp & Dq & Dr).
  pose proof (toAddr_eq L a _ _ _ _ _ _ Hl C) as T. rewrite E in T. unfold pqr_to_addr in T.
  destruct O as (_ & _ & OT). 
  destruct (out_of_root p || out_of_root q || out_of_root r) eqn:Q.
  { injection T as _ ->. cbn in OT. destruct (OT _ (or_introl eq_refl)). exfalso. lia. }
  apply orb_false_iff in Q. destruct Q as [Q Qr]. apply orb_false_iff in Q. destruct Q as [Qp Qq]. clear T.
  pose proof (not_out_cases p Dp Qp) as Cp. pose proof (not_out_cases q Dq Qq) as Cq. pose proof (not_out_cases r Dr Qr) as Cr.
  assert (ALL : forall z, In z [p; q; r] -> z = S754_nan \/ inside z \/ on_upper_face z) by (intros z [<-|[<-|[<-|[]]]]; assumption).
  assert (NN : forall z, In z [p; q; r] -> inside z \/ on_upper_face z).
  { intros z Hz. destruct (ALL z Hz) as [N|H]; [|exact H]. exfalso.
    destruct (geom_nan L a lon lat elev p q r Hl C ALL (ex_intro _ z (conj Hz N))) as [why W]. congruence. }
  destruct (geom_upper_face L a lon lat elev p q r Hl C NN) as (b & Eb & Lb & HB). rewrite E in Eb. injection Eb as _ <-.
  assert (K : forall z t, In (z, t) [(p, a_x c); (q, a_y c); (r, a_z c)] -> In z [p; q; r] -> In t [a_x c; a_y c; a_z c] -> inside z /\ spans t (a_level c) z).
  { intros z t I1 I2 I3. destruct (HB z t I1) as [F1 F2]. destruct (NN z I2) as [I|Fa].
    - split; [exact I | apply F2, I].
    - exfalso. pose proof (F1 Fa). destruct (OT t I3). lia. }
  destruct (K p (a_x c)) as [? ?]; [cbn; tauto..|]. destruct (K q (a_y c)) as [? ?]; [cbn; tauto..|]. destruct (K r (a_z c)) as [? ?]; [cbn; tauto..|].
  cbn. tauto.
Qed.

Lemma cell_place L g i j k c lon lat : indexToLonLat L g i j = Val (lon, lat) -> gridAddr L g (lon, lat) k = Val c -> octant_ok c ->
  (forall p q r, point_place L g i j k (p, q, r) -> double p /\ double q /\ double r) ->
  exists w, point_place L g i j k w /\ place_inside w /\ holds c w.
Proof.
  intros EI EG O HD. unfold gridAddr in EG. destruct (level L (resHoriz g)) as [lev| | |]; try discriminate. cbn [bind fst snd] in EG.
  destruct (lonLatElevToAddr L (mkAddr 0 0 0 0 lev Leaf) lon lat (indexToElev g k)) as [[cd a]| | |] eqn:EA; try discriminate.
  cbn [bind] in EG. injection EG as ->.
  assert (Hl : 0 <= lev <= 31).
  { unfold lonLatElevToAddr in EA. cbn [a_level] in EA. destruct ((0 <=? lev) && (lev <? 32)) eqn:B; [|discriminate].
    apply andb_true_iff in B. lia. }
  destruct (address_place L (mkAddr 0 0 0 0 lev Leaf) lon lat _ cd c Hl EA O) as (p & q & r & C & I & H).
  - intros p q r C. apply HD. exists lon, lat. auto.
  - exists (p, q, r). split; [exists lon, lat; auto | auto].
Qed.
Lemma exactly_records E nl nw nh (lonlat : Z -> Z -> outcome (f64 * f64)) locate cell vals : grid_points lonlat locate nl nw nh cell ->
  exactly_grid (add_all E (grid_records nl nw nh cell vals) []) nl nw nh cell vals.
Proof.
  intros GP. pose proof (add_all_perm E (grid_records nl nw nh cell vals) []) as P. cbn [app] in P. split.
  - apply (all_different_perm _ _ (Permutation_sym P)). exact (grid_different _ _ nl nw nh cell vals GP).
  - intros a p. rewrite <- in_grid_records. split; apply Permutation_in; [exact P | apply Permutation_sym, P].
Qed.
Lemma records_sorted E nl nw nh (lonlat : Z -> Z -> outcome (f64 * f64)) locate cell vals : grid_points lonlat locate nl nw nh cell -> in_order E ->
  StronglySorted etree_lt (map fst (add_all E (grid_records nl nw nh cell vals) [])).
Proof.
  intros GP HO. apply add_all_sorted; [exact HO | | | constructor].
  - intros [a p] H. apply in_grid_records in H. destruct H as (i & j & k & G & -> & _). apply GP, G.
  - exact (grid_different _ _ nl nw nh cell vals GP).
Qed.

Lemma string_app_assoc : forall a b c : string, ((a ++ b) ++ c = a ++ (b ++ c))%string.
Proof. induction a as [|x a IH]; intros b c; [reflexivity | cbn [append]; rewrite IH; reflexivity]. Qed.
Lemma described : forall E F v,
  createdMeta E (description F v) = graded_metadata (n_show F) (gp_gradient (vg_g v)) (et_now E) (et_host E).
Proof.
  intros E F v. unfold createdMeta, description, graded_metadata, METADATA. rewrite !string_app_assoc. reflexivity.
Qed.
