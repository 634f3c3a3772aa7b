(** C84: a database is its records; packing it cannot be noticed. *)
From Coq Require Import ZArith Bool Lia String List.
From Verif Require Import Outcome Float Payload Addr SpecOct AddrFacts SpecGeom Geom ErrorHandler VMQuery SpecQuery SpecHist
  Store VMCreator SpecStore StoreFacts QueryProof SpecE2E E2EFacts SpecLocal SpecSame PropStore PropE2E PropLocal.
Import ListNotations.
Open Scope Z_scope.

(** ** A search has one result *)
Lemma cube_unique l c t s s' : 0 < s -> (s' | c) -> (s' | t) -> 0 < s' ->
  c <= l -> l + s <= c + s' -> t <= l -> l + s <= t + s' -> c = t.
Proof. intros S (a & ->) (b & ->) S' H1 H2 H3 H4. assert (a = b) by nia. congruence. Qed.
Lemma side_pos l : l <= 31 -> 0 < side l.
Proof. intros H. unfold side. apply pow2_pos. lia. Qed.
Lemma cover_unique h h' a : octant_ok h -> octant_ok h' -> a_level a <= 31 -> a_level h = a_level h' ->
  covers h a -> covers h' a -> same_octant h h'.
Proof.
  intros (L & _ & C) (_ & _ & C') La Q (X1 & X2 & Y1 & Y2 & Z1 & Z2) (X1' & X2' & Y1' & Y2' & Z1' & Z2').
  rewrite <- Q in *. pose proof (side_pos _ La) as P. pose proof (side_pos (a_level h) ltac:(lia)) as P'.
  repeat split; [..|exact Q].
  - apply (cube_unique (a_x a) _ _ (side (a_level a)) (side (a_level h))); try assumption; [apply C|apply C']; simpl; auto.
  - apply (cube_unique (a_y a) _ _ (side (a_level a)) (side (a_level h))); try assumption; [apply C|apply C']; simpl; auto.
  - apply (cube_unique (a_z a) _ _ (side (a_level a)) (side (a_level h))); try assumption; [apply C|apply C']; simpl; auto.
Qed.
Lemma search_same S1 S2 m1 m2 a : searches S1 m1 -> searches S2 m2 -> db_ok m1 -> same_records m1 m2 -> a_level a <= 31 -> S1 a = S2 a.
Proof.
  intros H1 H2 (O & U) SR La. specialize (H1 a). specialize (H2 a).
  destruct (S1 a) as [[h p]|], (S2 a) as [[h' p']|]; [| | |reflexivity].
  - destruct H1 as (I & C & M), H2 as (I' & C' & M'). apply SR in I'. f_equal. apply U; [exact I|exact I'|].
    apply (cover_unique h h' a); [exact (O _ _ I)|exact (O _ _ I')|exact La| |exact C|exact C'].
    apply Z.le_antisymm; [apply (M' h p); [apply SR, I|exact C]|exact (M h' p' I' C')].
  - destruct H1 as (I & C & _). exfalso. exact (H2 h p (proj1 (SR h p) I) C).
  - destruct H2 as (I & C & _). exfalso. exact (H1 h' p' (proj2 (SR h' p') I) C).
Qed.

(** ** Queries *)
Section Two.
Context {DB1 DB2 : Type} (E1 : env DB1) (E2 : env DB2).
Hypothesis TX : same_texts E1 E2.

Definition finds (d1 : DB1) (d2 : DB2) : Prop :=
  (forall a, a_level a <= 31 -> e_search E1 d1 a = e_search E2 d2 a) /\
  (forall a h p, e_search E2 d2 a = Some (h, p) -> a_level h <= 31).
Lemma same_finds d1 d2 : same_database E1 E2 d1 d2 -> finds d1 d2.
Proof.
  intros (_ & m1 & m2 & (S1 & O1) & (S2 & O2) & R). split.
  - intros a La. exact (search_same _ _ _ _ a S1 S2 O1 R La).
  - intros a h p H. specialize (S2 a). rewrite H in S2. destruct S2 as (I & _). apply (proj1 O2 h p I).
Qed.
Definition optR (o1 : option DB1) (o2 : option DB2) : Prop :=
  match o1, o2 with Some d1, Some d2 => same_database E1 E2 d1 d2 | None, None => True | _, _ => False end.

(** The same settings, the same state of the error handler, equivalent open databases. *)
Record twin (q1 : qstate DB1) (q2 : qstate DB2) : Prop := mkTwin {
  tw_res : q_res q1 = q_res q2; tw_limit : q_limit q1 = q_limit q2; tw_db : optR (q_db q1) (q_db q2);
  tw_ext : optR (q_dbExt q1) (q_dbExt q2); tw_vals : q_vals q1 = q_vals q2; tw_geom : q_geom q1 = q_geom q2;
  tw_err : q_err q1 = q_err q2; tw_name : q_name q1 = q_name q2; tw_nameExt : q_nameExt q1 = q_nameExt q2;
  tw_type : q_type q1 = q_type q2; tw_cache : q_cache q1 = q_cache q2; tw_cacheExt : q_cacheExt q1 = q_cacheExt q2;
  tw_squash : q_squash q1 = q_squash q2 }.

Lemma toAddr_level g l lon lat elev e a : lonLatElevToAddr g (mkAddr 0 0 0 0 l Leaf) lon lat elev = Val (e, a) -> a_level a <= 31.
Proof.
  unfold lonLatElevToAddr. cbn [a_level]. unfold assert_. destruct ((0 <=? l) && (l <? 32)) eqn:B; [|discriminate].
  apply andb_true_iff in B. destruct B as [_ B%Z.ltb_lt]. cbn [bind].
  destruct (project g lon lat) as [[x y]| | |]; cbn [bind]; try discriminate. unfold pqr_to_addr.
  destruct (out_of_root _ || out_of_root _ || out_of_root _).
  - intros H. apply (f_equal (fun o => match o with Val (_, a) => a_level a | _ => l end)) in H. cbn [a_level] in H. lia.
  - destruct (f2tick _) as [i| | |]; cbn [bind]; try discriminate.
    destruct (f2tick _) as [j| | |]; cbn [bind]; try discriminate.
    destruct (f2tick _) as [k| | |]; cbn [bind]; try discriminate.
    intros H. apply (f_equal (fun o => match o with Val (_, a) => a_level a | _ => l end)) in H. cbn [a_level] in H. lia.
Qed.
Lemma query_addr_level g l lon lat elev use a i : match use with Some u => a_level u <= 31 | None => True end ->
  query_addr g l lon lat elev use = Val (a, i) -> a_level a <= 31.
Proof.
  intros U. unfold query_addr. destruct use as [u|].
  - intros H. apply (f_equal (fun o => match o with Val (a, _) => a_level a | _ => 0 end)) in H. cbn in H. lia.
  - destruct (lonLatElevToAddr _ _ _ _ _) as [[e b]| | |] eqn:A; cbn [bind]; try discriminate.
    intros H. apply (f_equal (fun o => match o with Val (a, _) => a_level a | _ => 0 end)) in H. cbn in H.
    apply toAddr_level in A. lia.
Qed.
Lemma findAncestor_level c l a : findAncestor c l = Val a -> a_level a <= 31.
Proof.
  unfold findAncestor, assert_. destruct ((0 <=? l) && (l <? a_level c)); [|discriminate]. cbn [bind].
  destruct (32 <=? l) eqn:B; [discriminate|]. apply Z.leb_gt in B. intros H.
  apply (f_equal (fun o => match o with Val a => a_level a | _ => 0 end)) in H. cbn [a_level] in H. lia.
Qed.

Section Q.
Variables (q1 : qstate DB1) (q2 : qstate DB2).
Hypothesis TW : twin q1 q2.

Lemma msg_same p c lon lat elev : parent_msg E1 p c lon lat elev = parent_msg E2 p c lon lat elev.
Proof. destruct TX as (_ & _ & G & S). unfold parent_msg. rewrite !G, !S. reflexivity. Qed.

Lemma climb_same d1 d2 a lon lat elev t : finds d1 d2 -> a_level a <= 31 -> forall fuel e child p res,
  climb E1 fuel q1 e d1 a lon lat elev t child p res = climb E2 fuel q2 e d2 a lon lat elev t child p res.
Proof.
  intros (F & _) La. induction fuel as [|fuel IH]; intros e child p res.
  - reflexivity.
  - cbn [climb]. destruct (if fgt _ _ then _ else _) as [again| | |]; cbn [bind]; try reflexivity.
    destruct (negb again); [reflexivity|].
    destruct (findAncestor res (a_level res - 1)) as [par| | |] eqn:FA; cbn [bind]; try reflexivity.
    rewrite (F par (findAncestor_level _ _ _ FA)), (F a La), msg_same.
    destruct (e_search E2 d2 par) as [[res' p']|]; [apply IH|reflexivity].
Qed.

Lemma fn_same e d1 d2 lon lat elev use : match use with Some u => a_level u <= 31 | None => True end ->
  optR d1 d2 -> queryFn E1 q1 e d1 lon lat elev use = queryFn E2 q2 e d2 lon lat elev use.
Proof.
  intros U R. unfold queryFn. rewrite (tw_type _ _ TW). pose proof (tw_geom _ _ TW) as G. pose proof (tw_res _ _ TW) as RS.
  destruct d1 as [d1|], d2 as [d2|]; cbn [optR] in R; try contradiction.
  2: { destruct (q_type q2); reflexivity. }
  pose proof (same_finds _ _ R) as FD. pose proof FD as (F & _).
  destruct (q_type q2).
  - unfold queryMax. cbn [need_db bind]. rewrite G.
    destruct (query_addr _ _ _ _ _ _) as [[a i]| | |] eqn:A; cbn [bind]; try reflexivity.
    rewrite (F a (query_addr_level _ _ _ _ _ _ _ _ U A)). reflexivity.
  - unfold queryFixed. cbn [need_db bind]. rewrite G, RS.
    destruct (match use with Some _ => Val 0 | None => _ end) as [l| | |]; cbn [bind]; try reflexivity.
    destruct (query_addr _ _ _ _ _ _) as [[a i]| | |] eqn:A; cbn [bind]; try reflexivity.
    rewrite (F a (query_addr_level _ _ _ _ _ _ _ _ U A)). reflexivity.
  - unfold queryWave. cbn [need_db bind]. rewrite G, RS.
    destruct (query_addr _ _ _ _ _ _) as [[a i]| | |] eqn:A; cbn [bind]; try reflexivity.
    pose proof (query_addr_level _ _ _ _ _ _ _ _ U A) as La.
    rewrite (F a La). destruct (negb i); [reflexivity|]. destruct (e_search E2 d2 a) as [[h p]|]; [|reflexivity].
    cbv zeta. destruct (if otype_eqb _ _ then _ else _) as [c| | |]; cbn [bind]; try reflexivity.
    destruct c; [reflexivity|]. rewrite (climb_same d1 d2 a lon lat elev _ FD La). reflexivity.
Qed.
Lemma fn_level e d lon lat elev use e' p a : match use with Some u => a_level u <= 31 | None => True end ->
  queryFn E2 q2 e d lon lat elev use = Val (e', p, a) -> a_level a <= 31.
Proof.
  intros U. assert (K : forall o : outcome (errh * payload * addr), o = Val (e', p, a) -> match o with Val (_, _, b) => b = a | _ => False end)
    by (intros o ->; reflexivity).
  unfold queryFn. destruct d as [d|]; [|destruct (q_type q2); discriminate].
  destruct (q_type q2).
  - unfold queryMax. cbn [need_db bind]. destruct (query_addr _ _ _ _ _ _) as [[b i]| | |] eqn:A; cbn [bind]; try discriminate.
    pose proof (query_addr_level _ _ _ _ _ _ _ _ U A) as Lb. intros H. apply K in H.
    destruct (negb i); [congruence|]. destruct (e_search E2 d b) as [[h v]|]; congruence.
  - unfold queryFixed. cbn [need_db bind].
    destruct (match use with Some _ => Val 0 | None => _ end) as [l| | |]; cbn [bind]; try discriminate.
    destruct (query_addr _ _ _ _ _ _) as [[b i]| | |] eqn:A; cbn [bind]; try discriminate.
    pose proof (query_addr_level _ _ _ _ _ _ _ _ U A) as Lb. intros H. apply K in H.
    destruct (negb i); [congruence|]. destruct (e_search E2 d b) as [[h v]|]; congruence.
  - unfold queryWave. cbn [need_db bind]. destruct (query_addr _ _ _ _ _ _) as [[b i]| | |] eqn:A; cbn [bind]; try discriminate.
    pose proof (query_addr_level _ _ _ _ _ _ _ _ U A) as Lb. destruct (negb i); [intros H; apply K in H; congruence|].
    destruct (e_search E2 d b) as [[h v]|]; [|intros H; apply K in H; congruence].
    cbv zeta. destruct (if otype_eqb _ _ then _ else _) as [c| | |]; cbn [bind]; try discriminate.
    destruct c; [intros H; apply K in H; congruence|].
    destruct (climb _ _ _ _ _ _ _ _ _ _ _ _ _) as [[x y]| | |]; cbn [bind]; try discriminate. intros H. apply K in H. congruence.
Qed.

Lemma elev_same lon lat elev allow : queryElev E1 q1 lon lat elev allow = queryElev E2 q2 lon lat elev allow.
Proof.
  unfold queryElev. cbv zeta. rewrite (tw_geom _ _ TW).
  destruct (lonLatElevToAddr _ _ _ _ _) as [[e a]| | |] eqn:A; cbn [bind]; try reflexivity.
  pose proof (toAddr_level _ _ _ _ _ _ _ A) as La.
  pose proof (tw_db _ _ TW) as RD. pose proof (tw_ext _ _ TW) as RX.
  destruct (q_db q1) as [d1|], (q_db q2) as [d2|]; cbn [optR] in RD; try contradiction; [|reflexivity]. cbn [bind].
  pose proof (same_finds _ _ RD) as (F & _). rewrite (F a La).
  assert (G : forall D1 D2 hit p, finds D1 D2 ->
    (let* (_, _, elevO) := addrToLonLatElev (q_geom q2) hit in
     let* (_, a2) := lonLatElevToAddr (q_geom q2) (mkAddr 0 0 0 0 MAXLEVEL Leaf) lon lat (add64 elevO (widen (p_dfs p))) in
     if match e_search E1 D1 a2 with
        | None => true | Some (hit2, p2) => otype_eqb (a_type hit2) Interior || feq (p_vs p2) NODATAVAL end && allow
     then let* (_, _, elevO') := addrToLonLatElev (q_geom q2)
            (mkAddr (a_x hit) (a_y hit) (u32 (a_z hit - Z.shiftr 2147483648 (a_level hit))) (a_t hit) (a_level hit) (a_type hit)) in
          Val (add64 elevO' (widen (p_dfs p)))
     else Val (add64 elevO (widen (p_dfs p)))) =
    (let* (_, _, elevO) := addrToLonLatElev (q_geom q2) hit in
     let* (_, a2) := lonLatElevToAddr (q_geom q2) (mkAddr 0 0 0 0 MAXLEVEL Leaf) lon lat (add64 elevO (widen (p_dfs p))) in
     if match e_search E2 D2 a2 with
        | None => true | Some (hit2, p2) => otype_eqb (a_type hit2) Interior || feq (p_vs p2) NODATAVAL end && allow
     then let* (_, _, elevO') := addrToLonLatElev (q_geom q2)
            (mkAddr (a_x hit) (a_y hit) (u32 (a_z hit - Z.shiftr 2147483648 (a_level hit))) (a_t hit) (a_level hit) (a_type hit)) in
          Val (add64 elevO' (widen (p_dfs p)))
     else Val (add64 elevO (widen (p_dfs p))))).
  { intros D1 D2 hit p (FD & _). destruct (addrToLonLatElev (q_geom q2) hit) as [[[x y] z]| | |]; cbn [bind]; try reflexivity.
    destruct (lonLatElevToAddr (q_geom q2) (mkAddr 0 0 0 0 MAXLEVEL Leaf) lon lat (add64 z (widen (p_dfs p)))) as [[u b]| | |] eqn:B; cbn [bind]; try reflexivity.
    rewrite (FD b (toAddr_level _ _ _ _ _ _ _ B)). reflexivity. }
  destruct (match e_search E2 d2 a with Some (hit, p) => if otype_eqb (a_type hit) Interior then None else Some (hit, p) | None => None end) as [[hit p]|].
  - apply G. exact (same_finds _ _ RD).
  - destruct (q_dbExt q1) as [x1|], (q_dbExt q2) as [x2|]; cbn [optR] in RX; try contradiction; [|reflexivity].
    pose proof (same_finds _ _ RX) as FX. rewrite (proj1 FX a La).
    destruct (e_search E2 x2 a) as [[hit p]|]; [|reflexivity]. apply G. exact FX.
Qed.

Lemma body_same lon lat elev : query_body E1 q1 lon lat elev = query_body E2 q2 lon lat elev.
Proof.
  unfold query_body. rewrite (tw_squash _ _ TW), (tw_limit _ _ TW), (tw_err _ _ TW), (elev_same lon lat elev true).
  match goal with |- match ?X with _ => _ end = match ?Y with _ => _ end => assert (XY : X = Y); [|rewrite XY; reflexivity] end.
  destruct (if q_squash q2 && fgt elev (q_limit q2) then _ else _) as [s| | |]; cbn [bind]; try reflexivity.
  set (z := if _ && fne _ _ then _ else _). clearbody z.
  rewrite (fn_same (q_err q2) (q_db q1) (q_db q2) lon lat z None I (tw_db _ _ TW)).
  destruct (queryFn E2 q2 (q_err q2) (q_db q2) lon lat z None) as [[[e1 p1] a]| | |] eqn:Q; cbn [bind]; try reflexivity.
  pose proof (fn_level _ (q_db q2) _ _ _ None _ _ _ I Q) as La.
  pose proof (tw_ext _ _ TW) as RX.
  destruct (q_dbExt q1) as [x1|], (q_dbExt q2) as [x2|]; cbn [optR] in RX; try contradiction; [|reflexivity].
  destruct (p_block p1 =? NODATABLOCK); [|reflexivity].
  rewrite (fn_same e1 (Some x1) (Some x2) lon lat z (Some a) La RX). reflexivity.
Qed.
Lemma copy_same lon lat elev p ss : forall olds e r,
  copy E1 q1 lon lat elev p ss olds e r = copy E2 q2 lon lat elev p ss olds e r.
Proof.
  assert (C1 : forall s old e r, copy1 E1 q1 lon lat elev p s old e r = copy1 E2 q2 lon lat elev p s old e r).
  { intros s old e r. unfold copy1. rewrite (elev_same lon lat elev false). reflexivity. }
  induction ss as [|s ss IH]; intros [|old olds] e r; cbn [copy]; try reflexivity. rewrite C1.
  destruct (copy1 E2 q2 lon lat elev p s old e r) as [[[v e'] r']| | |]; cbn [bind]; try reflexivity. rewrite IH. reflexivity.
Qed.
End Q.

Definition outR {A B} (R : A -> B -> Prop) (o1 : outcome A) (o2 : outcome B) : Prop :=
  match o1, o2 with
  | Val a, Val b => R a b | Throw m, Throw m' => m = m' | Abort, Abort => True | UB w, UB w' => w = w' | _, _ => False
  end.
Lemma twin_err q1 q2 e : twin q1 q2 -> twin (with_err q1 e) (with_err q2 e).
Proof. intros []. constructor; cbn; auto. Qed.

Definition resR (a : qstate DB1 * files * list f64) (b : qstate DB2 * files * list f64) : Prop :=
  let '(q1, f1, v1) := a in let '(q2, f2, v2) := b in twin q1 q2 /\ f1 = f2 /\ v1 = v2.
Lemma query_same q1 q2 fs vals lon lat elev : twin q1 q2 ->
  outR resR (query E1 q1 fs vals lon lat elev) (query E2 q2 fs vals lon lat elev).
Proof.
  intros TW. unfold query. destruct vals as [olds|]; [|exact I]. rewrite (tw_vals _ _ TW).
  unfold assert_. destruct (Nat.eqb _ _); cbn [bind]; [|exact I]. rewrite (body_same q1 q2 TW).
  destruct (query_body E2 q2 lon lat elev) as [[[e p] s]| | |]; cbn [bind outR]; try reflexivity; try exact I.
  destruct p as [p|]; [|reflexivity].
  assert (ML : nodata_msg E1 lon lat elev = nodata_msg E2 lon lat elev) by (unfold nodata_msg; destruct TX as (_ & S & _); rewrite !S; reflexivity).
  assert (NLq : nodata_line E1 lon lat elev = nodata_line E2 lon lat elev) by (unfold nodata_line; destruct TX as (_ & S & _); rewrite !S; reflexivity).
  rewrite ML, NLq. destruct (if p_block p =? NODATABLOCK then _ else _) as [e' fs'].
  rewrite (copy_same q1 q2 TW). destruct (copy E2 q2 lon lat elev p (q_vals q2) olds e' s) as [[vs e'']| | |]; cbn [bind outR resR]; try reflexivity; try exact I.
  split; [apply twin_err, TW|]. split; reflexivity.
Qed.

(** ** Scripts *)
Hypothesis OP : forall n c, match e_open E1 n c, e_open E2 n c with
  | Some d1, Some d2 => same_database E1 E2 d1 d2 | None, None => True | _, _ => False end.
Definition stR (a : qstate DB1 * files) (b : qstate DB2 * files) : Prop := twin (fst a) (fst b) /\ snd a = snd b.

Lemma open_same q1 q2 : twin q1 q2 -> outR twin (open E1 q1) (open E2 q2).
Proof.
  intros TW. pose proof TW as []. unfold open. rewrite tw_err0, tw_name0, tw_nameExt0, tw_cache0, tw_cacheExt0.
  assert (FIN : forall d1 d2 e, optR d1 d2 ->
    outR twin
      (let* (x, e2) := if String.eqb (q_nameExt q2) "" then Val (q_dbExt q1, e) else
         match q_dbExt q1 with
         | Some x => Val (Some x, e)
         | None => let* _ := assert_ (0 <? q_cacheExt q2) in
             match e_open E1 (q_nameExt q2) (q_cacheExt q2) with
             | Some x => Val (Some x, e) | None => Val (None, eh_error (open_ext_msg (q_nameExt q2)) e) end
         end in Val (set_db q1 d1 x e2))
      (let* (x, e2) := if String.eqb (q_nameExt q2) "" then Val (q_dbExt q2, e) else
         match q_dbExt q2 with
         | Some x => Val (Some x, e)
         | None => let* _ := assert_ (0 <? q_cacheExt q2) in
             match e_open E2 (q_nameExt q2) (q_cacheExt q2) with
             | Some x => Val (Some x, e) | None => Val (None, eh_error (open_ext_msg (q_nameExt q2)) e) end
         end in Val (set_db q2 d2 x e2))).
  { intros d1 d2 e RD.
    assert (ST : forall x1 x2 e2, optR x1 x2 -> twin (set_db q1 d1 x1 e2) (set_db q2 d2 x2 e2)) by (intros; constructor; cbn; auto).
    destruct (String.eqb (q_nameExt q2) ""); cbn [bind outR]; [apply ST; assumption|].
    destruct (q_dbExt q1) as [x1|], (q_dbExt q2) as [x2|]; cbn [optR] in tw_ext0; try contradiction; cbn [bind outR]; [apply ST; assumption|].
    unfold assert_. destruct (0 <? q_cacheExt q2); cbn [bind outR]; [|exact I].
    specialize (OP (q_nameExt q2) (q_cacheExt q2)).
    destruct (e_open E1 _ _) as [x1|], (e_open E2 _ _) as [x2|]; try contradiction; cbn [bind outR]; apply ST; [exact OP|exact I]. }
  destruct (q_db q1) as [d1|], (q_db q2) as [d2|]; cbn [optR] in tw_db0; try contradiction; cbn [bind].
  - apply FIN. exact tw_db0.
  - unfold assert_. destruct (0 <? q_cache q2); cbn [bind]; [|exact I].
    pose proof (OP (q_name q2) (q_cache q2)) as OP'.
    destruct (e_open E1 (q_name q2) _) as [x1|], (e_open E2 (q_name q2) _) as [x2|]; try contradiction; cbn [bind]; apply FIN; [exact OP'|exact I].
Qed.
Lemma close_same q1 q2 : twin q1 q2 -> twin (close E1 q1) (close E2 q2).
Proof.
  intros TW. pose proof TW as []. unfold close.
  assert (C : forall n o1 o2 e, optR o1 o2 -> close1 E1 n o1 e = close1 E2 n o2 e).
  { intros n [d1|] [d2|] e R; cbn [optR] in R; try contradiction; [|reflexivity]. cbn [close1]. destruct R as [-> _]. reflexivity. }
  rewrite tw_name0, tw_err0, (C _ _ _ _ tw_ext0), (C _ _ _ _ tw_db0). constructor; cbn; auto.
Qed.
Lemma step_same a q1 q2 fs : twin q1 q2 -> outR stR (step (q1, fs) (done_in E1 a)) (step (q2, fs) (done_in E2 a)).
Proof.
  intros TW. pose proof TW as []. destruct a; cbn [done_in step].
  - pose proof (open_same q1 q2 TW) as O. destruct (open E1 q1), (open E2 q2); cbn [outR bind] in *; try contradiction; auto. split; auto.
  - split; [apply close_same, TW|reflexivity].
  - split; [|reflexivity]. constructor; cbn; auto.
  - split; [|reflexivity]. constructor; cbn; auto.
  - split; [|reflexivity]. unfold set_cacheSize. destruct (0 <? s); [|exact TW]. constructor; cbn; auto.
  - split; [|reflexivity]. unfold set_cacheSizeExt. destruct (0 <? s); [|exact TW]. constructor; cbn; auto.
  - split; [|reflexivity]. unfold set_queryRes. destruct (fgt r f_zero); [|exact TW]. constructor; cbn; auto.
  - split; [|reflexivity]. unfold set_queryType. destruct (qtype_of n); [constructor; cbn; auto|]. cbn [fst]. rewrite tw_err0. apply twin_err, TW.
  - unfold set_queryVals. destruct names as [[|n l]|]; cbn [bind outR]; [split; [exact TW|reflexivity]| |exact I].
    split; [|reflexivity]. cbn [fst]. rewrite tw_err0. constructor; cbn; auto.
  - split; [|reflexivity]. constructor; cbn; auto.
  - destruct g as [g|]; cbn [geometry bind outR]; [|reflexivity]. split; [|reflexivity]. constructor; cbn; auto.
  - rewrite tw_err0.
    assert (W : hstep (e_writable E1) (q_err q2, fs) c = hstep (e_writable E2) (q_err q2, fs) c).
    { destruct TX as (W & _). destruct c; cbn [hstep]; try reflexivity; unfold eh_logFilename, eh_loggingOn, open_trunc, open_app; rewrite ?W; reflexivity. }
    rewrite W. destruct (hstep (e_writable E2) (q_err q2, fs) c) as [e fs']. split; [apply twin_err, TW|reflexivity].
  - pose proof (query_same q1 q2 fs vals lon lat elev TW) as Q.
    destruct (query E1 q1 fs vals lon lat elev) as [[[q1' f1] v1]| | |], (query E2 q2 fs vals lon lat elev) as [[[q2' f2] v2]| | |];
      cbn [outR bind resR] in *; try contradiction; auto. destruct Q as (T & -> & _). split; [exact T|reflexivity].
Qed.
Lemma run_same script : forall q1 q2 fs, twin q1 q2 ->
  outR stR (run (map (done_in E1) script) (q1, fs)) (run (map (done_in E2) script) (q2, fs)).
Proof.
  induction script as [|a script IH]; intros q1 q2 fs TW; [split; [exact TW|reflexivity]|].
  cbn [map run]. pose proof (step_same a q1 q2 fs TW) as S.
  destruct (step (q1, fs) (done_in E1 a)) as [[q1' f1]| | |], (step (q2, fs) (done_in E2 a)) as [[q2' f2]| | |];
    cbn [outR bind] in *; try contradiction; auto. destruct S as [T F]. cbn [fst snd] in *. subst f2. apply IH, T.
Qed.
End Two.

(** C84: a user who has the same files, or other files with the same records in whatever
    order, gets the same values, status, messages and log files from every script of calls
    on a query object; if something goes wrong, the same thing goes wrong. *)
Theorem C84_same_records : forall DB1 (E1 : env DB1) DB2 (E2 : env DB2) g fs script vals lon lat elev,
  same_world E1 E2 ->
  session E1 g fs script vals lon lat elev = session E2 g fs script vals lon lat elev.
Proof.
  intros DB1 E1 DB2 E2 g fs script vals lon lat elev [TX OP]. unfold session.
  assert (T0 : twin E1 E2 (q_new g) (q_new g)) by (constructor; cbn; auto).
  pose proof (run_same E1 E2 TX OP script (q_new g) (q_new g) fs T0) as R.
  destruct (run (map (done_in E1) script) (q_new g, fs)) as [[q1 f1]| | |], (run (map (done_in E2) script) (q_new g, fs)) as [[q2 f2]| | |];
    cbn [outR] in R; try contradiction; [|congruence..].
  destruct R as [T F]. cbn [fst snd] in T, F. subst f2. pose proof (query_same E1 E2 TX q1 q2 f1 vals lon lat elev T) as Q.
  destruct (query E1 q1 f1 vals lon lat elev) as [[[q1' g1] v1]| | |], (query E2 q2 f1 vals lon lat elev) as [[[q2' g2] v2]| | |];
    cbn [outR resR] in Q; try contradiction; [|congruence..].
  destruct Q as (T' & -> & ->). rewrite (tw_err _ _ _ _ T'). reflexivity.
Qed.
Print Assumptions C84_same_records.

(** One query, with databases that are open already. *)
Theorem C84_one_query : forall DB1 (E1 : env DB1) q1 DB2 (E2 : env DB2) d1 d2 x1 x2 fs vals lon lat elev,
  q_db q1 = Some d1 -> q_dbExt q1 = x1 -> same_texts E1 E2 -> same_database E1 E2 d1 d2 ->
  match x1, x2 with Some e1, Some e2 => same_database E1 E2 e1 e2 | None, None => True | _, _ => False end ->
  let q2 := mkQ (q_res q1) (q_limit q1) (Some d2) x2 (q_vals q1) (q_geom q1) (q_err q1) (q_name q1) (q_nameExt q1)
    (q_type q1) (q_cache q1) (q_cacheExt q1) (q_squash q1) in
  match query E1 q1 fs vals lon lat elev, query E2 q2 fs vals lon lat elev with
  | Val (q1', fs1, v1), Val (q2', fs2, v2) => v1 = v2 /\ q_err q1' = q_err q2' /\ fs1 = fs2
  | Throw m1, Throw m2 => m1 = m2
  | Abort, Abort => True
  | UB _, UB _ => True
  | _, _ => False
  end.
Proof.
  intros DB1 E1 q1 DB2 E2 d1 d2 x1 x2 fs vals lon lat elev D X TX RD RX q2.
  assert (T : twin E1 E2 q1 q2).
  { constructor; try reflexivity; cbn [q2 q_db q_dbExt]; [rewrite D; exact RD|rewrite X; exact RX]. }
  pose proof (query_same E1 E2 TX q1 q2 fs vals lon lat elev T) as Q.
  destruct (query E1 q1 fs vals lon lat elev) as [[[q1' f1] v1]| | |], (query E2 q2 fs vals lon lat elev) as [[[q2' f2] v2]| | |];
    cbn [outR resR] in Q; try contradiction; auto.
  destruct Q as (T' & -> & ->). rewrite (tw_err _ _ _ _ T'). auto.
Qed.
Print Assumptions C84_one_query.

Lemma packed_world E p u d d' DB1 (E1 : env DB1) DB2 (E2 : env DB2) : p <> u -> reads_on E u -> packDB E p u d = (d', Val tt) ->
  of_disk E1 d -> of_disk E2 (put_in_place d u d' p) -> same_failures E1 E2 -> same_texts E1 E2 -> same_world E1 E2.
Proof.
  intros N R P D1 D2 SF TX.
  destruct (C35_pack_exact E p u d d' N R P) as [(f & Fu & _ & Fp) _].
  split; [exact TX|]. intros n c. specialize (SF n c). specialize (D1 n c). specialize (D2 n c).
  destruct (e_open E1 n c) as [d1|], (e_open E2 n c) as [d2|]; try contradiction; [|exact I].
  destruct (D1 d1 eq_refl) as (f1 & Q1 & H1), (D2 d2 eq_refl) as (f2 & Q2 & H2).
  split; [exact SF|]. exists (d_recs f1), (d_recs f2). split; [exact H1|]. split; [exact H2|].
  unfold put_in_place in Q2. destruct (String.eqb n u) eqn:K.
  - apply String.eqb_eq in K. subst n. rewrite Fu in Q1. rewrite Fp in Q2. injection Q1 as <-. injection Q2 as <-. intros a v. reflexivity.
  - rewrite Q1 in Q2. injection Q2 as <-. intros a v. reflexivity.
Qed.
(** C84: when packing a database has returned without an exception, the packed file can be
    put in the place of the unpacked one: no script of calls tells the difference. *)
Theorem C84_packed : forall E packed unpacked d d' DB1 (E1 : env DB1) DB2 (E2 : env DB2) g fs script vals lon lat elev,
  packed <> unpacked -> reads_on E unpacked -> packDB E packed unpacked d = (d', Val tt) ->
  of_disk E1 d -> of_disk E2 (put_in_place d unpacked d' packed) -> same_failures E1 E2 -> same_texts E1 E2 ->
  session E1 g fs script vals lon lat elev = session E2 g fs script vals lon lat elev.
Proof.
  intros E p u d d' DB1 E1 DB2 E2 g fs script vals lon lat elev N R P D1 D2 SF TX.
  apply C84_same_records. exact (packed_world E p u d d' _ E1 _ E2 N R P D1 D2 SF TX).
Qed.
Print Assumptions C84_packed.

(** C84: packing before averaging or after it, or not at all, gives the same records. *)
Theorem C84_pack_and_average : forall E packed unpacked d d' f g Ea da da' ra Eb db db' rb,
  packed <> unpacked -> reads_on E unpacked -> packDB E packed unpacked d = (d', Val tt) ->
  d unpacked = Some f -> d' packed = Some g ->
  averaged_into Ea da da' (d_recs f) ra -> averaged_into Eb db db' (d_recs g) rb ->
  same_records ra rb /\
  forall E' packed' out d1 d1' h k, packed' <> out -> reads_on E' out -> packDB E' packed' out d1 = (d1', Val tt) ->
    d1 out = Some h -> d_recs h = ra -> d1' packed' = Some k -> same_records (d_recs k) rb.
Proof.
  intros E p u d d' f g Ea da da' ra Eb db db' rb N R P Fu Gp A B.
  destruct (C35_pack_exact E p u d d' N R P) as [(f0 & Fu' & _ & Fp) _].
  rewrite Fu in Fu'. injection Fu' as <-. rewrite Gp in Fp. injection Fp as ->. cbn [d_recs] in B.
  set (root := mkAddr 0 0 0 0 0 Interior).
  assert (Cr : forall a, octant_ok a -> covers root a).
  { intros a (L & _ & C). pose proof (side_pos (a_level a) ltac:(lia)) as Ps.
    assert (M : forall c, 0 <= c < 2 ^ 31 -> (side (a_level a) | c) -> c + side (a_level a) <= 2 ^ 31).
    { intros c Bc (k & ->). assert (Q : 2 ^ 31 = 2 ^ a_level a * side (a_level a)) by (unfold side; rewrite <- Z.pow_add_r by lia; f_equal; lia).
      rewrite Q in *. assert (k < 2 ^ a_level a) by nia. nia. }
    unfold covers, root. cbn [a_x a_y a_z a_level]. change (side 0) with (2 ^ 31).
    destruct (C (a_x a)) as [Bx Dx]; [simpl; auto|]. destruct (C (a_y a)) as [By Dy]; [simpl; auto|]. destruct (C (a_z a)) as [Bz Dz]; [simpl; auto|].
    pose proof (M _ Bx Dx). pose proof (M _ By Dy). pose proof (M _ Bz Dz). lia. }
  assert (S : same_records ra rb).
  { pose proof (C80_stored _ _ _ _ _ _ _ _ _ _ root A B (fun a v _ => conj (fun x => x) (fun x => x))) as G.
    assert (O : forall Ex dx dx' rx, averaged_into Ex dx dx' (d_recs f) rx -> forall a v, In (a, v) rx -> octant_ok a).
    { intros Ex dx dx' rx X a v I. destruct (averaged_run _ _ _ _ _ X) as (_ & W & _). exact (averaged_ok _ W _ _ (C44_stored_means _ _ _ _ _ X a v I)). }
    intros a v. split; intros I.
    - apply (G a v); [|exact I]. apply Cr. exact (O _ _ _ _ A a v I).
    - apply (G a v); [|exact I]. apply Cr. exact (O _ _ _ _ B a v I). }
  split; [exact S|].
  intros E' p' out d1 d1' h k N' R' P' Hh Qh Hk.
  destruct (C35_pack_exact E' p' out d1 d1' N' R' P') as [(h0 & Fh & _ & Fk) _].
  rewrite Hh in Fh. injection Fh as <-. rewrite Hk in Fk. injection Fk as ->. cbn [d_recs]. rewrite Qh. exact S.
Qed.
Print Assumptions C84_pack_and_average.

(** ** Example: the database of ToyDb.v is packed; the second environment
    searches in the other direction. *)
From Verif Require PropQuery.
From Verif Require Import ToyLib ToyDb.
Open Scope string_scope. Open Scope Z_scope.
Definition forth (dk : disk) : env contents :=
  mkEnv (fun n _ => option_map d_recs (dk n)) (fun _ => true) lsearch (fun n => negb (String.eqb n ""))
    (fun _ => "#") (fun _ => "#") (fun _ => "octant").
Definition back (dk : disk) : env contents :=
  mkEnv (fun n _ => option_map d_recs (dk n)) (fun _ => true) (fun d => lsearch (rev d)) (fun n => negb (String.eqb n ""))
    (fun _ => "#") (fun _ => "#") (fun _ => "octant").
Definition shop : disk := fun n =>
  if String.eqb n "model" then Some (mkDb (rev toy_db) (Some SCHEMA) None 28) else None.
Definition packed_shop : disk := fst (packDB works "packed" "model" shop).
Lemma rev_ok : db_ok (rev toy_db).
Proof. apply db_okb_ok. vm_compute. reflexivity. Qed.
Lemma shop_packed : packDB works "packed" "model" shop = (packed_shop, Val tt).
Proof.
  assert (Q : snd (packDB works "packed" "model" shop) = Val tt) by (vm_compute; reflexivity).
  unfold packed_shop. rewrite <- Q. destruct (packDB works "packed" "model" shop). reflexivity.
Qed.
Lemma searches_rev m : searches (lsearch (rev m)) m.
Proof.
  intros a. pose proof (lsearch_ok (rev m) a) as H. destruct (lsearch (rev m) a) as [[h p]|].
  - destruct H as (I & C & M). split; [apply in_rev, I|]. split; [exact C|]. intros h' p' I'. apply (M h' p'). apply in_rev. rewrite rev_involutive. exact I'.
  - intros h p I. apply (H h p). apply in_rev. rewrite rev_involutive. exact I.
Qed.
Definition visit : list action :=
  [AFilename "model"; AOpen; AQueryType 2; AQueryRes (i2f64 1); AQueryVals (Some ["Vs"; "Vp"; "elevation"]); AHandler (HLogFile "log")].
Lemma shop_disk : of_disk (forth shop) shop.
Proof.
  intros n c d H. cbn [forth e_open] in H. destruct (shop n) as [f|] eqn:F; [|discriminate]. injection H as <-. exists f. split; [reflexivity|].
  split; [apply lsearch_ok|]. unfold shop in F. destruct (String.eqb n "model"); [|discriminate]. injection F as <-. exact rev_ok.
Qed.
Lemma packed_disk : of_disk (back (put_in_place shop "model" packed_shop "packed")) (put_in_place shop "model" packed_shop "packed").
Proof.
  intros n c d H. cbn [back e_open] in H. destruct (put_in_place shop "model" packed_shop "packed" n) as [f|] eqn:F; [|discriminate].
  injection H as <-. exists f. split; [reflexivity|]. split; [apply searches_rev|].
  unfold put_in_place in F. destruct (String.eqb n "model") eqn:K.
  - destruct (C35_pack_exact works "packed" "model" shop packed_shop ltac:(discriminate) ltac:(intros ?; reflexivity) shop_packed) as [(f0 & F0 & _ & Fp) _].
    rewrite F in Fp. injection Fp as ->. cbn [d_recs]. unfold shop in F0. cbn [String.eqb] in F0. injection F0 as <-. exact rev_ok.
  - unfold shop in F. rewrite K in F. discriminate.
Qed.
Lemma shop_failures : same_failures (forth shop) (back (put_in_place shop "model" packed_shop "packed")).
Proof.
  intros n c. cbn [forth back e_open e_close]. unfold put_in_place. destruct (String.eqb n "model") eqn:K.
  - apply String.eqb_eq in K. subst n.
    destruct (C35_pack_exact works "packed" "model" shop packed_shop ltac:(discriminate) ltac:(intros ?; reflexivity) shop_packed) as [(f0 & F0 & _ & Fp) _].
    rewrite F0, Fp. reflexivity.
  - destruct (shop n); reflexivity.
Qed.
Example C84_example :
  session (forth shop) toy PropQuery.no_files visit (Some (repeat f_zero 3)) toy_x toy_y elev_a =
  session (back (put_in_place shop "model" packed_shop "packed")) toy PropQuery.no_files visit (Some (repeat f_zero 3)) toy_x toy_y elev_a.
Proof.
  apply (C84_packed works "packed" "model" shop packed_shop);
    [discriminate|intros ?; reflexivity|exact shop_packed|exact shop_disk|exact packed_disk|exact shop_failures|repeat split].
Qed.
(** The answer is that of the finest octant, with a warning about a missing parent. *)
Example C84_example_values :
  match session (forth shop) toy PropQuery.no_files visit (Some (repeat f_zero 3)) toy_x toy_y elev_a with
  | Val (vs, e, _) => eh_status e = WARNING /\ vs = [widen (p_vs v_leaf); widen (p_vp v_leaf); dec64 1875 2]
  | _ => False
  end.
Proof. vm_compute. repeat split. Qed.
