(** What a successful ingestion of grid files tells about the files. *)
From Coq Require Import ZArith Bool Lia Ascii String Sorting.Permutation List.
From Verif Require Import Outcome Float Payload Addr SpecOct AddrFacts AvgEngine SpecAvg Geom Store Averager
  VMCreator Stream GridIngester SpecText SpecStore SpecGrid StreamFacts StoreFacts GridFacts GridMain.
Import ListNotations.
Open Scope Z_scope.

Lemma reads_fun F line l l' : reads F line l -> reads F line l' -> l = l'.
Proof.
  intros (w1 & w2 & w3 & w4 & w5 & w6 & w7 & w8 & w9 & w10 & w11 & w12 & -> & A1 & A2 & A3 & A4 & A5 & A6 & A7 & A8 & A9 & A10 & A11 & A12)
    (v1 & v2 & v3 & v4 & v5 & v6 & v7 & v8 & v9 & v10 & v11 & v12 & Q & B1 & B2 & B3 & B4 & B5 & B6 & B7 & B8 & B9 & B10 & B11 & B12).
  injection Q as <- <- <- <- <- <- <- <- <- <- <- <-. destruct l as [? ? ? [] ?], l' as [? ? ? [] ?]. cbn in *. congruence.
Qed.

Lemma insert_inv E L db p lon lat elev res lev d d' f : level L res = Val lev -> d db = Some f ->
  insert E L (Some db) p lon lat elev res d = (d', Val tt) ->
  exists code a, lonLatElevToAddr L (mkAddr 0 0 0 0 lev Leaf) lon lat elev = Val (code, a) /\
    et_insert E (d_recs f) a = true /\
    d' = put d db (Some (set_recs f (sorted_in (et_before E) (d_recs f) (a, p)))).
Proof.
  intros HL Hd H. unfold insert, andThen, lift in H. rewrite HL in H. cbv beta iota in H.
  destruct (lonLatElevToAddr L _ lon lat elev) as [[code a]| | |] eqn:Q; try discriminate. cbn [snd] in H. rewrite Hd in H.
  destruct (et_insert E (d_recs f) a) eqn:I; [|discriminate]. unfold write in H. rewrite Hd in H. cbn [option_map] in H. injection H as <-.
  exists code, a. auto.
Qed.

Lemma addPoints_inv E F L db res lev e : level L res = Val lev -> unterminated e ->
  forall n t ws added ignored d d' f c, laid_out ws t -> d db = Some f ->
  addPoints E F L db res n (fresh (t ++ e)) added ignored d = (d', c, Val tt) ->
  exists lines pts recs ws', ws = (concat lines ++ ws')%list /\ Forall2 (reads F) lines pts /\ List.length pts = n /\
    grid_recs L lev pts recs /\ d' db = Some (set_recs f (add_all E recs (d_recs f))) /\ others_untouched db d d' /\
    c = (added + count (filter has_data pts), ignored + count (no_data_points pts)).
Proof.
  intros HL He. induction n as [|n IH]; intros t ws added ignored d d' f c Ht Hd H.
  - cbn [addPoints] in H. injection H as <- <-. exists [], [], [], ws. split; [reflexivity|]. split; [constructor|]. split; [reflexivity|].
    split; [constructor|]. split; [destruct f; exact Hd|]. split; [apply others_refl|].
    change (count (filter has_data [])) with 0. change (count (no_data_points [])) with 0. rewrite !Z.add_0_r. reflexivity.
  - cbn [addPoints] in H. destruct (getLine F (fresh (t ++ e))) as [s' l] eqn:G.
    destruct (good s') eqn:Gs; [|discriminate]. cbn [negb] in H.
    assert (GG : good (chain (line_oks F) (fresh (t ++ e))) = true) by (rewrite <- getLine_stream, G; exact Gs).
    destruct (chain_good _ _ _ _ Ht He GG) as (l1 & l2 & -> & HF). destruct (line_oks_reads F l1 HF) as [l' Hl].
    destruct (getLine_good F l1 l2 t e l' Hl Ht) as (t1 & G1 & Ht1). rewrite G in G1. injection G1 as -> ->.
    rewrite has_data_test in H. fold (has_data l') in H. destruct (has_data l') eqn:Eh.
    + rewrite km2m_si, toSI_si in H.
      destruct (insert E L (Some db) (si_values (l_pay l')) (l_lon l') (l_lat l') (si64 (l_elev l')) res d) as [d1 o] eqn:I.
      destruct o as [[]| | |]; try discriminate.
      destruct (insert_inv _ _ _ _ _ _ _ _ _ _ _ _ HL Hd I) as (code & a & Q & _ & ->).
      destruct (IH t1 l2 _ _ _ _ _ _ Ht1 (put_same _ _ _) H) as (lines & pts & recs & ws' & E1 & E2 & E3 & E4 & E5 & E6 & E7).
      exists (l1 :: lines), (l' :: pts), ((a, si_values (l_pay l')) :: recs), ws'.
      split; [cbn [concat]; rewrite <- app_assoc; congruence|]. split; [constructor; assumption|]. split; [cbn; congruence|].
      split; [unfold grid_recs; cbn [filter]; rewrite Eh; constructor; [split; [exists code; exact Q | reflexivity] | exact E4]|].
      split; [exact E5|]. split; [eapply others_trans; [apply others_put | exact E6]|].
      rewrite E7. unfold no_data_points, count. cbn [filter]. rewrite Eh. cbn [negb]. cbn [List.length]. f_equal; lia.
    + destruct (IH t1 l2 _ _ _ _ _ _ Ht1 Hd H) as (lines & pts & recs & ws' & E1 & E2 & E3 & E4 & E5 & E6 & E7).
      exists (l1 :: lines), (l' :: pts), recs, ws'.
      split; [cbn [concat]; rewrite <- app_assoc; congruence|]. split; [constructor; assumption|]. split; [cbn; congruence|].
      split; [unfold grid_recs; cbn [filter]; rewrite Eh; exact E4|].
      split; [exact E5|]. split; [exact E6|].
      rewrite E7. unfold no_data_points, count. cbn [filter]. rewrite Eh. cbn [negb]. cbn [List.length]. f_equal; lia.
Qed.
Lemma getLine_bad F s : good s = false -> good (fst (getLine F s)) = false.
Proof. intros H. rewrite getLine_stream. apply chain_bad, H. Qed.
Lemma addPoints_bad E F L db res n s added ignored d d' c : good s = false ->
  addPoints E F L db res n s added ignored d = (d', c, Val tt) -> d' = d /\ c = (added, ignored).
Proof.
  intros B H. destruct n as [|n]; cbn [addPoints] in H; [injection H as <- <-; auto|].
  pose proof (getLine_bad F s B) as G. destruct (getLine F s) as [s' l]. cbn [fst] in G. rewrite G in H. discriminate.
Qed.

Definition header_oks (F : numfmt) : list (string -> bool) :=
  let a w := snd (n_f64 F w) in let b w := snd (n_int F w) in [a; a; b; b; b; b].

Lemma header_oks_header F hw : Forall2 (fun (ok : string -> bool) w => ok w = true) (header_oks F) hw ->
  exists rh rv n, header F hw rh rv n.
Proof.
  unfold header_oks. cbv zeta. intros H.
  repeat match goal with H : Forall2 _ (_ :: _) _ |- _ => inversion H; clear H; subst end.
  match goal with H : Forall2 _ [] _ |- _ => inversion H; clear H; subst end.
  do 3 eexists. do 9 eexists. split; [reflexivity|]. repeat split; apply ok_val; assumption.
Qed.
Lemma laid_split a : forall b t, laid_out (a ++ b) t -> exists t1 t2, t = (t1 ++ t2)%string /\ laid_out a t1 /\ laid_out b t2.
Proof.
  induction a as [|w a IH]; intros b t H.
  - exists ""%string, t. split; [reflexivity|]. split; [apply laid_blank; intros c [] | exact H].
  - cbn [app] in H. inversion H as [|s w0 c rest ws Hs Hw Hc Hr]; subst. destruct (IH _ _ Hr) as (t1 & t2 & -> & A & B).
    exists (s ++ w ++ String c t1)%string, t2. split; [rewrite !app_assoc_s; reflexivity|]. split; [apply laid_word; assumption | exact B].
Qed.

Ltac stepH Ht H G0 :=
  let t' := fresh "t" in let G := fresh "G" in
  match type of Ht with laid_out (?w :: ?ws) ?t =>
    match type of H with ?c ?w0 = (?v, true) =>
      match type of G0 with context[getNum c ?old (fresh (t ++ ?e))] =>
        destruct (getNum_laid c old w ws t e v true Ht H) as (t' & G & Hn);
        change (mkIn (chars (t' ++ e)) false (negb true)) with (fresh (t' ++ e)) in G;
        rewrite G in G0; clear G Ht; rename Hn into Ht
      end end end.

Lemma header_runs F text s2 s3 s4 s5 s6 s7 rh rv nx ny nz n : has_header F text ->
  getNum (n_f64 F) f_zero (openText text) = (s2, rh) -> getNum (n_f64 F) f_zero s2 = (s3, rv) -> getNum (n_int F) 0 s3 = (s4, nx) ->
  getNum (n_int F) 0 s4 = (s5, ny) -> getNum (n_int F) 0 s5 = (s6, nz) -> getNum (n_int F) 0 s6 = (s7, n) ->
  good s7 = true /\ 0 <= n.
Proof.
  intros (t & e & hw & ws & RH & RV & N & -> & Ht & HH & HN) G1 G2 G3 G4 G5 G6.
  destruct HH as (w1 & w2 & w3 & w4 & w5 & w6 & mx & my & mz & -> & H1 & H2 & H3 & H4 & H5 & H6). cbn [app] in Ht.
  change (openText (t ++ e)) with (fresh (t ++ e)) in G1.
  stepH Ht H1 G1. injection G1 as <- <-. stepH Ht H2 G2. injection G2 as <- <-. stepH Ht H3 G3. injection G3 as <- <-.
  stepH Ht H4 G4. injection G4 as <- <-. stepH Ht H5 G5. injection G5 as <- <-. stepH Ht H6 G6. injection G6 as <- <-.
  split; [reflexivity | exact HN].
Qed.

Lemma edgeLen_inv lev x : edgeLen lev = Val x -> 0 <= lev < 32 /\ x = div64 (i2f64 1638400) (i2f64 (2 ^ lev)).
Proof.
  unfold edgeLen. destruct (Z.leb_spec 0 lev); [|discriminate]. destruct (Z.ltb_spec lev 32); [|discriminate]. cbn [andb].
  intros Q. injection Q as <-. split; [lia | reflexivity].
Qed.

Lemma addGrid_inv E F T L g db file d d' f c : gi_geom g = true -> d db = Some f ->
  addGrid E F T L g db file d = (d', c, Val tt) ->
  exists recs, all_or_nothing F L T file recs /\ d' db = Some (set_recs f (add_all E recs (d_recs f))) /\ others_untouched db d d'.
Proof.
  intros HG Hd H. unfold addGrid in H. rewrite HG in H. cbn [negb] in H. destruct (T file) as [text|] eqn:HT; [|discriminate].
  destruct (text_form text) as (ws & t & e & -> & Ht & He).
  set (s0 := openText (t ++ e)) in *.
  destruct (getNum (n_f64 F) f_zero s0) as [s1 rh] eqn:G1. destruct (getNum (n_f64 F) f_zero s1) as [s2 rv] eqn:G2.
  destruct (getNum (n_int F) 0 s2) as [s3 nx0] eqn:G3. destruct (getNum (n_int F) 0 s3) as [s4 ny0] eqn:G4.
  destruct (getNum (n_int F) 0 s4) as [s5 nz0] eqn:G5. destruct (getNum (n_int F) 0 s5) as [s6 nt] eqn:G6.
  assert (CH : s6 = chain (header_oks F) s0).
  { change s6 with (fst (s6, nt)). rewrite <- G6. change s5 with (fst (s5, nz0)). rewrite <- G5. change s4 with (fst (s4, ny0)). rewrite <- G4.
    change s3 with (fst (s3, nx0)). rewrite <- G3. change s2 with (fst (s2, rv)). rewrite <- G2. change s1 with (fst (s1, rh)). rewrite <- G1.
    rewrite !after_eq. reflexivity. }
  pose proof (fun h => header_runs F _ _ _ _ _ _ _ _ _ _ _ _ _ h G1 G2 G3 G4 G5 G6) as NH. rewrite CH in NH.
  destruct (good (chain (header_oks F) s0)) eqn:GD.
  - destruct (chain_good _ _ _ _ Ht He GD) as (hw & ws' & -> & HF).
    destruct (header_oks_header F hw HF) as (RH & RV & N & HH). pose proof Ht as Ht0. pose proof HH as HH0.
    destruct HH as (w1 & w2 & w3 & w4 & w5 & w6 & nx & ny & nz & -> & H1 & H2 & H3 & H4 & H5 & H6).
    cbn [app] in Ht. clear CH. subst s0. change (openText (t ++ e)) with (fresh (t ++ e)) in G1.
    stepH Ht H1 G1. injection G1 as <- <-. stepH Ht H2 G2. injection G2 as <- <-. stepH Ht H3 G3. injection G3 as <- <-.
    stepH Ht H4 G4. injection G4 as <- <-. stepH Ht H5 G5. injection G5 as <- <-. stepH Ht H6 G6. injection G6 as <- <-.
    fold (x1000 RH) in H. fold (x1000 RV) in H. rewrite !differs_not in H. change VERTEXAG with (i2f64 4) in H.
    destruct (about_one (div64 (x1000 RH) (x1000 RV)) (i2f64 4)) eqn:A1; [|discriminate]. cbn [negb] in H.
    destruct (level L (x1000 RH)) as [lev| | |] eqn:LV; [|exfalso; apply (f_equal snd) in H; discriminate H..].
    destruct (edgeLen lev) as [len| | |] eqn:EL; [|exfalso; apply (f_equal snd) in H; discriminate H..]. apply edgeLen_inv in EL. destruct EL as [LR ->].
    rewrite differs_not in H. destruct (about_one (x1000 RH) _) eqn:A2; [|discriminate]. cbn [negb] in H.
    destruct (addPoints_inv E F L db (x1000 RH) lev e LV He _ _ _ _ _ _ _ _ _ Ht Hd H) as (lines & pts & recs & ws2 & E1 & E2 & E3 & E4 & E5 & E6 & E7).
    destruct (Z.leb_spec 0 N) as [HN|HN].
    + exists recs. split; [|split; [exact E5 | exact E6]]. exists (t ++ e)%string. split; [exact HT|]. left. exists lev, pts.
      split; [|exact E4].
      rewrite E1, app_assoc in Ht0. destruct (laid_split _ _ _ Ht0) as (ta & tb & -> & LA & LB).
      exists ta, (tb ++ e)%string, [w1; w2; w3; w4; w5; w6], lines, RH, RV. split; [apply app_assoc_s|]. split; [exact LA|].
      split; [rewrite E3, Z2Nat.id by exact HN; exact HH0|]. split; [exact E2|]. repeat split; try assumption; apply LR.
    + exists []. split; [exists (t ++ e)%string; split; [exact HT | right; split; [intros h; destruct (NH h) as [_ X]; clear -X HN; lia | reflexivity]]|].
      assert (NP : pts = []) by (destruct pts; [reflexivity|]; exfalso; clear -E3 HN; cbn [List.length] in E3; lia).
      subst pts. inversion E4; subst. split; [exact E5 | exact E6].
  - exists []. split; [exists (t ++ e)%string; split; [exact HT | right; split; [intros h; destruct (NH h) as [X _]; congruence | reflexivity]]|].
    cbn [add_all fold_left]. subst s6.
    destruct (differs _ VERTEXAG); [discriminate|].
    destruct (level L _) as [lev| | |]; [|exfalso; apply (f_equal snd) in H; discriminate H..].
    destruct (edgeLen lev) as [len| | |]; [|exfalso; apply (f_equal snd) in H; discriminate H..].
    destruct (differs _ len); [discriminate|]. destruct (addPoints_bad _ _ _ _ _ _ _ _ _ _ _ _ GD H) as [-> _].
    split; [destruct f; exact Hd | apply others_refl].
Qed.

Lemma addGrids_inv E F T L g db : gi_geom g = true -> forall names d d' f cs, d db = Some f ->
  addGrids E F T L g db names d = (d', cs, Val tt) ->
  exists recss, Forall2 (all_or_nothing F L T) names recss /\
    d' db = Some (set_recs f (add_all E (concat recss) (d_recs f))) /\ others_untouched db d d'.
Proof.
  intros HG. induction names as [|n names IH]; intros d d' f cs Hd H; cbn [addGrids] in H.
  - injection H as <- <-. exists []. split; [constructor|]. split; [destruct f; exact Hd | apply others_refl].
  - destruct (addGrid E F T L g db n d) as [[d1 c] o] eqn:Q. destruct o as [[]| | |]; [|exfalso; apply (f_equal snd) in H; discriminate H..].
    destruct (addGrid_inv _ _ _ _ _ _ _ _ _ _ _ HG Hd Q) as (recs & A & D1 & O1).
    destruct (addGrids E F T L g db names d1) as [[d2 cs2] o2] eqn:Q2. injection H as -> <- ->.
    destruct (IH _ _ _ _ D1 Q2) as (recss & B & D2 & O2). exists (recs :: recss). split; [constructor; assumption|]. split.
    + rewrite D2. cbn [concat set_recs d_recs d_schema d_meta d_size]. rewrite add_all_app. reflexivity.
    + eapply others_trans; eassumption.
Qed.
Lemma openDB_inv E n desc d d' : openDB E n desc d = (d', Val tt) ->
  d' n = Some (mkDb [] (Some SCHEMA) (Some (createdMeta E desc)) 28).
Proof.
  intros H. unfold openDB, andThen, openNew in H. destruct (et_create E d n); [|discriminate].
  unfold registerSchema in H. destruct (et_regschema E n); [|discriminate]. unfold write at 1 in H. cbv beta iota in H.
  unfold setAppMeta in H. destruct (et_setmeta E n _); [|discriminate]. unfold write in H. rewrite !put_same in H. injection H as <-.
  rewrite put_same. reflexivity.
Qed.

Lemma run_inv E F T L g d d' cs : gi_geom g = true -> gi_tmp g <> gi_out g ->
  et_flush E (gi_tmp g) = true -> reads_on E (gi_tmp g) -> run E F T L g d = (d', cs, Val tt) ->
  exists text tail names recss out, T (gi_params g) = Some (text ++ tail)%string /\ laid_out names text /\ unterminated tail /\
    Forall2 (all_or_nothing F L T) names recss /\
    d' (gi_out g) = Some (mkDb out (Some SCHEMA) (Some (createdMeta E (gi_desc g))) 28) /\
    Permutation out (concat recss) /\ out <> [].
Proof.
  intros HG Hne HF HRd H. unfold run in H. destruct (String.eqb (gi_params g) "" || String.eqb (gi_tmp g) "" || String.eqb (gi_out g) ""); [discriminate|].
  unfold readParams in H. destruct (T (gi_params g)) as [text0|] eqn:HT; [|discriminate].
  destruct (text_form text0) as (names & text & tail & -> & Ht & He).
  change (openText (text ++ tail)) with (fresh (text ++ tail)) in H.
  rewrite (readNames_spec text _ names tail Ht He) in H by (rewrite length_app_s; lia).
  destruct (openDB E (gi_tmp g) (gi_desc g) d) as [d1 o1] eqn:Q1. destruct o1 as [[]| | |]; try discriminate.
  apply openDB_inv in Q1.
  destruct (addGrids E F T L g (gi_tmp g) names d1) as [[d2 cs2] o2] eqn:Q2. destruct o2 as [[]| | |]; [|exfalso; apply (f_equal snd) in H; discriminate H..].
  destruct (addGrids_inv _ _ _ _ _ _ HG _ _ _ _ _ Q1 Q2) as (recss & A & D2 & O2).
  rewrite (closeDB_ok E _ HF) in H. unfold andThen, ret in H. cbv beta iota in H.
  destruct (packDB E (gi_out g) (gi_tmp g) d2) as [d3 o3] eqn:Q3. injection H as -> -> ->.
  destruct (pack_returns E _ _ _ _ (not_eq_sym Hne) HRd Q3) as (f & P1 & P2 & P3). rewrite D2 in P1. injection P1 as <-.
  cbn [set_recs d_recs d_meta] in P2, P3.
  exists text, tail, names, recss, (add_all E (concat recss) []). split; [reflexivity|]. split; [exact Ht|]. split; [exact He|].
  split; [exact A|]. split; [exact P3|]. split; [apply (add_all_perm E (concat recss) []) | exact P2].
Qed.

(** Only the output and the temporary file change. *)
Lemma addPoints_confined E F L db res n : forall s added ignored d, others_untouched db d (fst (fst (addPoints E F L db res n s added ignored d))).
Proof.
  induction n as [|n IH]; intros s added ignored d; cbn [addPoints]; [apply others_refl|].
  destruct (getLine F s) as [s' l]. destruct (negb (good s')); [apply others_refl|].
  destruct (negb (p_block (l_pay l) =? NODATABLOCK) && negb (p_zone (l_pay l) =? NODATAZONE)); [|apply IH].
  pose proof (insert_confined E L db (toSI (l_pay l)) (l_lon l) (l_lat l) (km2m (l_elev l)) res d) as G.
  destruct (insert E L (Some db) _ _ _ _ res d) as [d1 [u| | |]]; cbn [fst] in *; [eapply others_trans; [exact G | apply IH]|exact G..].
Qed.
Lemma addGrid_confined E F T L g db file d : others_untouched db d (fst (fst (addGrid E F T L g db file d))).
Proof.
  unfold addGrid. destruct (negb (gi_geom g)); [apply others_refl|]. destruct (T file) as [t|]; [|apply others_refl].
  repeat match goal with |- context[getNum ?c ?o ?x] => destruct (getNum c o x) end.
  destruct (differs _ VERTEXAG); [apply others_refl|]. destruct (level L _) as [lev| | |]; [|apply others_refl..].
  destruct (edgeLen lev) as [len| | |]; [|apply others_refl..]. destruct (differs _ len); [apply others_refl|]. apply addPoints_confined.
Qed.
Lemma addGrids_confined E F T L g db names : forall d, others_untouched db d (fst (fst (addGrids E F T L g db names d))).
Proof.
  induction names as [|n names IH]; intros d; cbn [addGrids]; [apply others_refl|].
  pose proof (addGrid_confined E F T L g db n d) as G. destruct (addGrid E F T L g db n d) as [[d1 c] [u| | |]]; cbn [fst] in *; [|exact G..].
  specialize (IH d1). destruct (addGrids E F T L g db names d1) as [[d2 cs] o]. cbn [fst] in *. eapply others_trans; eassumption.
Qed.
Lemma run_confined E F T L g d n : n <> gi_out g -> n <> gi_tmp g -> fst (fst (run E F T L g d)) n = d n.
Proof.
  intros N1 N2. unfold run. destruct (_ || _); [reflexivity|]. destruct (readParams T g) as [names| | |]; try reflexivity.
  pose proof (openDB_confined E (gi_tmp g) (gi_desc g) d n N2) as G1.
  destruct (openDB E (gi_tmp g) (gi_desc g) d) as [d1 [u| | |]]; cbn [fst] in *; [|exact G1..].
  pose proof (addGrids_confined E F T L g (gi_tmp g) names d1 n N2) as G2.
  destruct (addGrids E F T L g (gi_tmp g) names d1) as [[d2 cs] [u2| | |]]; cbn [fst] in *; [|congruence..].
  unfold andThen. pose proof (closeDB_confined E (gi_tmp g) d2 n N2) as G4.
  destruct (closeDB E (gi_tmp g) d2) as [d4 [u4| | |]]; cbn [fst] in *; [|congruence..].
  pose proof (packDB_confined E (gi_out g) (gi_tmp g) d4 n N1) as G3.
  destruct (packDB E (gi_out g) (gi_tmp g) d4) as [d3 o]. cbn [fst] in *. congruence.
Qed.
