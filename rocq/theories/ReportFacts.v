(** Facts about Report.v. *)
From Coq Require Import ZArith Bool Lia Ascii String Sorting.Permutation List.
From Verif Require Import Outcome Float Payload Addr SpecOct AddrFacts AvgEngine SpecAvg Geom Store Averager
  VMCreator Stream GridIngester SpecText SpecStore SpecGrid StreamFacts StoreFacts GridFacts GridMain GridInv SpecInfo SpecReport Report.
From Verif Require SmallApps PropInfo.
Import ListNotations.
Open Scope Z_scope.

(** ** Without the text the functions are those of the other files *)
Definition drop {A B} (r : A * printed * B) : A * B := let '(a, _, b) := r in (a, b).

Lemma openDBP_drop quiet E n desc d : drop (openDBP quiet E n desc d) = openDB E n desc d.
Proof. unfold openDBP. destruct (openDB E n desc d) as [d' [[]| | |]]; reflexivity. Qed.
Lemma closeDBP_drop quiet E n d : drop (closeDBP quiet E n d) = closeDB E n d.
Proof. unfold closeDBP. destruct (closeDB E n d); reflexivity. Qed.
Lemma packDBP_drop quiet E p u d : drop (packDBP quiet E p u d) = packDB E p u d.
Proof. unfold packDBP. destruct (packDB E p u d) as [d' [[]| | |]]; reflexivity. Qed.
Definition outcome_unit {A} (o : outcome A) : outcome unit :=
  match o with Val _ => Val tt | Throw m => Throw m | Abort => Abort | UB w => UB w end.
Lemma averageP_drop quiet E fin fout d : drop (averageP quiet E fin fout d) =
  (fst (average E fin fout d), outcome_unit (snd (average E fin fout d))).
Proof. unfold averageP. destruct (average E fin fout d) as [d' [c| | |]]; reflexivity. Qed.

Section Ingest.
Variables (quiet : bool) (E : etree) (F : numfmt) (T : GridIngester.texts) (L : libm) (sci : f64 -> string).

Lemma addPointsP_drop db res n : forall s added ignored pr d,
  drop (addPointsP quiet E F L sci db res n s added ignored pr d) = addPoints E F L db res n s added ignored d.
Proof.
  induction n as [|n IH]; intros s added ignored pr d; cbn [addPointsP addPoints]; [reflexivity|].
  destruct (getLine F s) as [s' l]. destruct (negb (good s')); [reflexivity|]. destruct (_ && _); [|apply IH].
  destruct (insert E L (Some db) _ _ _ _ res d) as [d1 [u| | |]]; [apply IH | reflexivity..].
Qed.
Lemma addGridP_drop g db file d : drop (addGridP quiet E F T L sci g db file d) = addGrid E F T L g db file d.
Proof.
  unfold addGridP, addGrid, readGridP. destruct (negb (gi_geom g)); [reflexivity|]. destruct (T file) as [t|]; [|reflexivity].
  repeat match goal with |- context[getNum ?c ?o ?x] => destruct (getNum c o x) end.
  destruct (differs _ VERTEXAG); [reflexivity|]. destruct (level L _) as [lev| | |]; [|reflexivity..].
  destruct (edgeLen lev) as [len| | |]; [|reflexivity..]. destruct (differs _ len); [reflexivity|].
  rewrite <- (addPointsP_drop db _ _ _ 0 0 silent d).
  destruct (addPointsP quiet E F L sci db _ _ _ 0 0 silent d) as [[[d' [na ni]] pr] [u| | |]]; reflexivity.
Qed.
Lemma addGridsP_drop g db names : forall d, drop (addGridsP quiet E F T L sci g db names d) = addGrids E F T L g db names d.
Proof.
  induction names as [|n names IH]; intros d; cbn [addGridsP addGrids]; [reflexivity|].
  rewrite <- addGridP_drop. destruct (addGridP quiet E F T L sci g db n d) as [[[d1 c] pr] [u| | |]]; cbn [drop]; [|reflexivity..].
  rewrite <- IH. destruct (addGridsP quiet E F T L sci g db names d1) as [[[d2 cs] pr2] o]. reflexivity.
Qed.
Lemma runP_drop g d : drop (runP quiet E F T L sci g d) = run E F T L g d.
Proof.
  unfold runP, run. destruct (_ || _); [reflexivity|]. destruct (readParams T g) as [names| | |]; [|reflexivity..].
  rewrite <- (openDBP_drop quiet). destruct (openDBP quiet E (gi_tmp g) (gi_desc g) d) as [[d1 p1] [u| | |]]; cbn [drop]; [|reflexivity..].
  rewrite <- addGridsP_drop. destruct (addGridsP quiet E F T L sci g (gi_tmp g) names d1) as [[[d2 cs] p2] [u2| | |]]; cbn [drop]; [|reflexivity..].
  unfold andThen. rewrite <- (closeDBP_drop quiet). destruct (closeDBP quiet E (gi_tmp g) d2) as [[d3 p3] [u3| | |]]; cbn [drop]; [|reflexivity..].
  rewrite <- (packDBP_drop quiet). destruct (packDBP quiet E (gi_out g) (gi_tmp g) d3) as [[d4 p4] o4]. reflexivity.
Qed.
End Ingest.

Lemma endedP_drop {A} (d : disk) pr (o : outcome A) : endedP (d, pr, o) = (fst (SmallApps.ended (d, o)), pr, snd (SmallApps.ended (d, o))).
Proof. unfold endedP. destruct (SmallApps.ended (d, o)). reflexivity. Qed.
Lemma avgMainP_drop E args d : drop (avgMainP E args d) = SmallApps.avgMain E args d.
Proof.
  unfold avgMainP, SmallApps.avgMain. destruct (SmallApps.avgArgs args) as [c|]; [|reflexivity].
  unfold averageP. destruct (average E _ _ d) as [d' [x| | |]]; reflexivity.
Qed.
Lemma packMainP_drop E X args d : drop (packMainP E X args d) = SmallApps.packMain E X args d.
Proof.
  unfold packMainP, SmallApps.packMain. destruct (SmallApps.packArgs X args) as [c|]; [|reflexivity].
  unfold packDBP. destruct (packDB E _ _ d) as [d' [x| | |]]; reflexivity.
Qed.
Lemma genMainP_drop E F X L sci files args d : drop (genMainP E F X L sci files args d) = SmallApps.genMain E F X L files args d.
Proof.
  unfold genMainP, SmallApps.genMain. destruct (SmallApps.genArgs X args) as [c|]; [|reflexivity].
  rewrite <- (runP_drop false E F files L sci). destruct (runP false E F files L sci _ d) as [[[d' cs] pr] o]. cbn [drop].
  rewrite endedP_drop. destruct (SmallApps.ended (d', o)). reflexivity.
Qed.

(** ** Texts *)
Lemma as_lines_app a b : as_lines (a ++ b) = (as_lines a ++ as_lines b)%string.
Proof. induction a as [|x a IH]; [reflexivity|]. cbn [as_lines app]. rewrite IH, !app_assoc_s. reflexivity. Qed.
Lemma app_nil_r_s a : (a ++ "")%string = a.
Proof. induction a as [|c a IH]; [reflexivity|]. cbn. rewrite IH. reflexivity. Qed.
Lemma also_silent_r p : (p +++ silent) = p.
Proof. destruct p. unfold also, silent. cbn. rewrite !app_nil_r_s. reflexivity. Qed.
Lemma also_silent_l p : (silent +++ p) = p.
Proof. destruct p. reflexivity. Qed.
Lemma also_assoc a b c : ((a +++ b) +++ c) = (a +++ b +++ c).
Proof. unfold also. cbn. rewrite !app_assoc_s. reflexivity. Qed.

(** ** Points *)
Section Says.
Variables (quiet : bool) (E : etree) (F : numfmt) (T : GridIngester.texts) (L : libm) (sci : f64 -> string).
Definition warned (pts : list gridline) : printed := if quiet then silent else mkPrinted "" (left_out_lines sci pts).
Lemma warned_nil : warned [] = silent.
Proof. unfold warned. destruct quiet; reflexivity. Qed.
Lemma warned_data l pts : has_data l = true -> warned (l :: pts) = warned pts.
Proof. intros H. unfold warned, left_out_lines, no_data_points. cbn [filter]. rewrite H. reflexivity. Qed.
Lemma warned_none l pts : has_data l = false -> warned (l :: pts) = (ignoring quiet sci l +++ warned pts).
Proof.
  intros H. unfold warned, left_out_lines, no_data_points, ignoring, warn, left_out, place_of. cbn [filter]. rewrite H. cbn [negb map as_lines].
  rewrite km2m_si. change NODATABLOCK with 0. destruct quiet; [destruct (negb _); reflexivity|]. change newline with nl.
  destruct (p_block (l_pay l) =? 0); cbn [negb]; unfold also; cbn [on_out on_err append]; rewrite !app_assoc_s; reflexivity.
Qed.
Lemma counts_data l pts : has_data l = true ->
  count (filter has_data (l :: pts)) = 1 + count (filter has_data pts) /\ count (no_data_points (l :: pts)) = count (no_data_points pts).
Proof. intros H. unfold count, no_data_points. cbn [filter]. rewrite H. cbn [negb]. cbn [List.length]. lia. Qed.
Lemma counts_none l pts : has_data l = false ->
  count (filter has_data (l :: pts)) = count (filter has_data pts) /\ count (no_data_points (l :: pts)) = 1 + count (no_data_points pts).
Proof. intros H. unfold count, no_data_points. cbn [filter]. rewrite H. cbn [negb]. cbn [List.length]. lia. Qed.

Lemma insert_fails db p lon lat elev res lev d d' f o : level L res = Val lev -> d db = Some f ->
  insert E L (Some db) p lon lat elev res d = (d', o) -> o <> Val tt -> d' = d.
Proof.
  intros HL Hd H N. unfold insert, andThen, lift in H. rewrite HL in H. cbv beta iota in H.
  destruct (lonLatElevToAddr L _ lon lat elev) as [[code a]| | |] eqn:Q; try (injection H as <- <-; reflexivity). cbn [snd] in H. rewrite Hd in H.
  destruct (et_insert E (d_recs f) a) eqn:I; [|injection H as <- <-; reflexivity]. unfold write in H. rewrite Hd in H. cbn [option_map] in H.
  injection H as <- <-. destruct (N eq_refl).
Qed.

Lemma addPointsP_says db res lev e : level L res = Val lev -> unterminated e ->
  forall n t ws added ignored pr d d' f c pr' o, laid_out ws t -> d db = Some f ->
  addPointsP quiet E F L sci db res n (fresh (t ++ e)) added ignored pr d = (d', c, pr', o) ->
  exists lines pts recs ws', ws = (concat lines ++ ws')%list /\ Forall2 (reads F) lines pts /\
    grid_recs L lev pts recs /\ d' db = Some (set_recs f (add_all E recs (d_recs f))) /\
    c = (added + count (filter has_data pts), ignored + count (no_data_points pts)) /\ pr' = (pr +++ warned pts) /\
    (o = Val tt -> List.length pts = n).
Proof.
  intros HL He. induction n as [|n IH]; intros t ws added ignored pr d d' f c pr' o Ht Hd H.
  - cbn [addPointsP] in H. injection H as <- <- <- <-. exists [], [], [], ws. split; [reflexivity|]. split; [constructor|].
    split; [constructor|]. split; [destruct f; exact Hd|]. rewrite warned_nil, also_silent_r.
    change (count (filter has_data [])) with 0. change (count (no_data_points [])) with 0. rewrite !Z.add_0_r. auto.
  - cbn [addPointsP] in H. destruct (getLine F (fresh (t ++ e))) as [s' l] eqn:G.
    assert (STOP : forall d1 c1 o1, d1 = d -> c1 = (added, ignored) -> o1 <> Val tt -> (d1, c1, pr, o1) = (d', c, pr', o) ->
      exists lines pts recs ws', ws = (concat lines ++ ws')%list /\ Forall2 (reads F) lines pts /\
        grid_recs L lev pts recs /\ d' db = Some (set_recs f (add_all E recs (d_recs f))) /\
        c = (added + count (filter has_data pts), ignored + count (no_data_points pts)) /\ pr' = (pr +++ warned pts) /\
        (o = Val tt -> List.length pts = Datatypes.S n)).
    { intros d1 c1 o1 -> -> NV X. injection X as <- <- <- <-. exists [], [], [], ws. split; [reflexivity|]. split; [constructor|].
      split; [constructor|]. split; [destruct f; exact Hd|]. rewrite warned_nil, also_silent_r.
      change (count (filter has_data [])) with 0. change (count (no_data_points [])) with 0. rewrite !Z.add_0_r. do 2 (split; [reflexivity|]).
      intros Q. destruct (NV Q). }
    destruct (good s') eqn:Gs; cbn [negb] in H; [|eapply STOP; [reflexivity..| |exact H]; discriminate].
    assert (GG : good (chain (line_oks F) (fresh (t ++ e))) = true) by (rewrite <- getLine_stream, G; exact Gs).
    destruct (chain_good _ _ _ _ Ht He GG) as (l1 & l2 & -> & HF). destruct (line_oks_reads F l1 HF) as [l' Hl].
    destruct (getLine_good F l1 l2 t e l' Hl Ht) as (t1 & G1 & Ht1). rewrite G in G1. injection G1 as -> ->.
    rewrite has_data_test in H. fold (has_data l') in H. destruct (has_data l') eqn:Eh.
    + rewrite km2m_si, toSI_si in H.
      destruct (insert E L (Some db) (si_values (l_pay l')) (l_lon l') (l_lat l') (si64 (l_elev l')) res d) as [d1 o1] eqn:I.
      destruct o1 as [[]| | |].
      2-4: apply (insert_fails _ _ _ _ _ _ _ _ _ _ _ HL Hd) in I; [|discriminate]; eapply STOP; [exact I | reflexivity | | exact H]; discriminate.
      destruct (insert_inv _ _ _ _ _ _ _ _ _ _ _ _ HL Hd I) as (code & a & Q & _ & ->).
      destruct (IH t1 l2 _ _ _ _ _ _ _ _ _ Ht1 (put_same _ _ _) H) as (lines & pts & recs & ws' & E1 & E2 & E4 & E5 & E6 & E7 & E8).
      exists (l1 :: lines), (l' :: pts), ((a, si_values (l_pay l')) :: recs), ws'.
      split; [cbn [concat]; rewrite <- app_assoc; congruence|]. split; [constructor; assumption|].
      split; [unfold grid_recs; cbn [filter]; rewrite Eh; constructor; [split; [exists code; exact Q | reflexivity] | exact E4]|].
      split; [exact E5|]. destruct (counts_data l' pts Eh) as [-> ->]. rewrite (warned_data l' pts Eh).
      split; [rewrite E6; f_equal; lia|]. split; [exact E7|]. intros X. cbn [List.length]. rewrite (E8 X). reflexivity.
    + destruct (IH t1 l2 _ _ _ _ _ _ _ _ _ Ht1 Hd H) as (lines & pts & recs & ws' & E1 & E2 & E4 & E5 & E6 & E7 & E8).
      exists (l1 :: lines), (l' :: pts), recs, ws'.
      split; [cbn [concat]; rewrite <- app_assoc; congruence|]. split; [constructor; assumption|].
      split; [unfold grid_recs; cbn [filter]; rewrite Eh; exact E4|].
      split; [exact E5|]. destruct (counts_none l' pts Eh) as [-> ->]. rewrite (warned_none l' pts Eh).
      split; [rewrite E6; f_equal; lia|]. split; [rewrite E7, also_assoc; reflexivity|]. intros X. cbn [List.length]. rewrite (E8 X). reflexivity.
Qed.

Lemma addPointsP_bad db res n s added ignored pr d d' c pr' o : good s = false ->
  addPointsP quiet E F L sci db res n s added ignored pr d = (d', c, pr', o) -> d' = d /\ c = (added, ignored) /\ pr' = pr.
Proof.
  intros B H. destruct n as [|n]; cbn [addPointsP] in H; [injection H as <- <- <- <-; auto|].
  pose proof (getLine_bad F s B) as G. destruct (getLine F s) as [s' l]. cbn [fst] in G. rewrite G in H. cbn [negb] in H. injection H as <- <- <- <-. auto.
Qed.

Lemma readGridP_says g db file text d d' f c pr o : d db = Some f ->
  readGridP quiet E F L sci g db file text d = (d', c, pr, o) ->
  exists lev pts recs, points_read F text pts /\ grid_recs L lev pts recs /\ d' db = Some (set_recs f (add_all E recs (d_recs f))) /\
    c = (count (filter has_data pts), count (no_data_points pts)) /\ pr = warned pts /\
    (o = Val tt -> all_points F L text lev pts).
Proof.
  intros Hd H. unfold readGridP in H.
  destruct (text_form text) as (ws & t & e & -> & Ht & He).
  set (s0 := openText (t ++ e)) in *.
  destruct (getNum (n_f64 F) f_zero s0) as [s1 rh] eqn:G1. destruct (getNum (n_f64 F) f_zero s1) as [s2 rv] eqn:G2.
  destruct (getNum (n_int F) 0 s2) as [s3 nx0] eqn:G3. destruct (getNum (n_int F) 0 s3) as [s4 ny0] eqn:G4.
  destruct (getNum (n_int F) 0 s4) as [s5 nz0] eqn:G5. destruct (getNum (n_int F) 0 s5) as [s6 nt] eqn:G6.
  assert (CH : s6 = chain (header_oks F) s0).
  { change s6 with (fst (s6, nt)). rewrite <- G6. change s5 with (fst (s5, nz0)). rewrite <- G5. change s4 with (fst (s4, ny0)). rewrite <- G4.
    change s3 with (fst (s3, nx0)). rewrite <- G3. change s2 with (fst (s2, rv)). rewrite <- G2. change s1 with (fst (s1, rh)). rewrite <- G1.
    rewrite !after_eq. reflexivity. }
  pose proof (fun h => header_runs F _ _ _ _ _ _ _ _ _ _ _ _ _ h G1 G2 G3 G4 G5 G6) as NH. rewrite CH in NH.
  assert (NONE : forall o1, o1 <> Val tt -> (d, (0, 0), silent, o1) = (d', c, pr, o) ->
    exists lev pts recs, points_read F (t ++ e) pts /\ grid_recs L lev pts recs /\ d' db = Some (set_recs f (add_all E recs (d_recs f))) /\
    c = (count (filter has_data pts), count (no_data_points pts)) /\ pr = warned pts /\ (o = Val tt -> all_points F L (t ++ e) lev pts)).
  { intros o1 N X. injection X as <- <- <- <-. exists 0, [], []. split; [left; reflexivity|]. split; [constructor|]. split; [destruct f; exact Hd|].
    split; [reflexivity|]. split; [symmetry; apply warned_nil|]. intros Q. destruct (N Q). }
  destruct (good (chain (header_oks F) s0)) eqn:GD.
  - destruct (chain_good _ _ _ _ Ht He GD) as (hw & ws' & -> & HF).
    destruct (header_oks_header F hw HF) as (RH & RV & N & HH). pose proof Ht as Ht0. pose proof HH as HH0.
    destruct HH as (w1 & w2 & w3 & w4 & w5 & w6 & nx & ny & nz & -> & H1 & H2 & H3 & H4 & H5 & H6).
    cbn [app] in Ht. clear CH. subst s0. change (openText (t ++ e)) with (fresh (t ++ e)) in G1.
    stepH Ht H1 G1. injection G1 as <- <-. stepH Ht H2 G2. injection G2 as <- <-. stepH Ht H3 G3. injection G3 as <- <-.
    stepH Ht H4 G4. injection G4 as <- <-. stepH Ht H5 G5. injection G5 as <- <-. stepH Ht H6 G6. injection G6 as <- <-.
    fold (x1000 RH) in H. fold (x1000 RV) in H. rewrite !differs_not in H. change VERTEXAG with (i2f64 4) in H.
    destruct (about_one (div64 (x1000 RH) (x1000 RV)) (i2f64 4)) eqn:A1; cbn [negb] in H; [|eapply NONE; [|exact H]; discriminate].
    destruct (level L (x1000 RH)) as [lev| | |] eqn:LV; [|eapply NONE; [|exact H]; discriminate..].
    destruct (edgeLen lev) as [len| | |] eqn:EL; [|eapply NONE; [|exact H]; discriminate..]. apply edgeLen_inv in EL. destruct EL as [LR ->].
    rewrite differs_not in H. destruct (about_one (x1000 RH) _) eqn:A2; cbn [negb] in H; [|eapply NONE; [|exact H]; discriminate].
    destruct (addPointsP_says db (x1000 RH) lev e LV He _ _ _ _ _ _ _ _ _ _ _ _ Ht Hd H) as (lines & pts & recs & ws2 & E1 & E2 & E4 & E5 & E6 & E7 & E8).
    exists lev, pts, recs. split; [|split; [exact E4|]; split; [exact E5|]; split; [exact E6|]; split; [rewrite E7; apply also_silent_l|]].
    + right. exists t, e, [w1; w2; w3; w4; w5; w6], lines, ws2, RH, RV, N. split; [reflexivity|]. split; [rewrite <- E1; exact Ht0|]. split; [exact HH0 | exact E2].
    + intros V. specialize (E8 V). destruct (Z.leb_spec 0 N) as [HN|HN].
      * left. rewrite E1, app_assoc in Ht0. destruct (laid_split _ _ _ Ht0) as (ta & tb & -> & LA & LB).
        exists ta, (tb ++ e)%string, [w1; w2; w3; w4; w5; w6], lines, RH, RV. split; [apply app_assoc_s|]. split; [exact LA|].
        split; [rewrite E8, Z2Nat.id by exact HN; exact HH0|]. split; [exact E2|]. repeat split; try assumption; apply LR.
      * right. split; [intros h; destruct (NH h) as [_ X]; clear -X HN; lia|].
        destruct pts; [reflexivity|]. exfalso. clear -E8 HN. cbn [List.length] in E8. lia.
  - subst s6.
    destruct (differs _ VERTEXAG); [eapply NONE; [|exact H]; discriminate|].
    destruct (level L _) as [lev| | |]; [|eapply NONE; [|exact H]; discriminate..].
    destruct (edgeLen lev) as [len| | |]; [|eapply NONE; [|exact H]; discriminate..].
    destruct (differs _ len); [eapply NONE; [|exact H]; discriminate|]. destruct (addPointsP_bad _ _ _ _ _ _ _ _ _ _ _ _ GD H) as (-> & -> & ->).
    exists 0, [], []. split; [left; reflexivity|]. split; [constructor|]. split; [destruct f; exact Hd|].
    split; [reflexivity|]. split; [symmetry; apply warned_nil|]. intros _. right. split; [intros h; destruct (NH h) as [X _]; congruence | reflexivity].
Qed.
End Says.

(** ** Files *)
Lemma left_out_app sci a b : left_out_lines sci (a ++ b) = (left_out_lines sci a ++ left_out_lines sci b)%string.
Proof. unfold left_out_lines, no_data_points. rewrite filter_app, map_app. apply as_lines_app. Qed.
Lemma count_pos l : 0 <= count l.
Proof. unfold count. lia. Qed.
Lemma file_lines_nil : file_lines [] [] [].
Proof. exists []. split; [constructor|]. split; reflexivity. Qed.
Lemma file_lines_cons file pts dn files ptss lines : done_line file pts dn -> file_lines files ptss lines ->
  file_lines (file :: files) (pts :: ptss) (begin_line file :: dn :: lines).
Proof.
  intros D (dones & A & B & ->). exists (dn :: dones). split; [constructor; assumption|]. split; [cbn; congruence | reflexivity].
Qed.

Section Files.
Variables (quiet : bool) (E : etree) (F : numfmt) (T : GridIngester.texts) (L : libm) (sci : f64 -> string).
Definition shown (lines : list string) (err : string) : printed := if quiet then silent else mkPrinted (as_lines lines) err.

Lemma shown_also l1 e1 l2 e2 : (shown l1 e1 +++ shown l2 e2) = shown (l1 ++ l2) (e1 ++ e2).
Proof. unfold shown. destruct quiet; [reflexivity|]. unfold also. cbn [on_out on_err]. rewrite as_lines_app. reflexivity. Qed.
Lemma tell_shown x : tell quiet x = shown [x] "".
Proof. unfold tell, shown. destruct quiet; [reflexivity|]. cbn [as_lines]. rewrite app_nil_r_s. reflexivity. Qed.
Lemma warned_shown pts : warned quiet sci pts = shown [] (left_out_lines sci pts).
Proof. reflexivity. Qed.

Lemma addGridP_says g db file text d d' f c pr o : gi_geom g = true -> T file = Some text -> d db = Some f ->
  addGridP quiet E F T L sci g db file d = (d', c, pr, o) ->
  exists lev pts recs, points_read F text pts /\ grid_recs L lev pts recs /\ d' db = Some (set_recs f (add_all E recs (d_recs f))) /\
    c = (count (filter has_data pts), count (no_data_points pts)) /\
    match o with
    | Val _ => all_points F L text lev pts /\ exists dn, done_line file pts dn /\ pr = shown [begin_line file; dn] (left_out_lines sci pts)
    | Throw m => exists ct, caught_text file pts m ct /\ pr = (shown [begin_line file] (left_out_lines sci pts) +++ mkPrinted "" ct)
    | _ => pr = shown [begin_line file] (left_out_lines sci pts)
    end.
Proof.
  intros HG HT Hd H. unfold addGridP in H. rewrite HG, HT in H. cbn [negb] in H.
  destruct (readGridP quiet E F L sci g db file text d) as [[[d1 [na ni]] pr1] o1] eqn:R.
  destruct (readGridP_says quiet E F L sci g db file text d d1 f (na, ni) pr1 o1 Hd R) as (lev & pts & recs & P1 & P2 & P3 & P4 & P5 & P6).
  injection P4 as -> ->. exists lev, pts, recs. fold (begin_line file) in H.
  destruct o1 as [u|m| |w]; injection H as <- <- <- <-; do 4 (split; [assumption || reflexivity|]).
  - destruct u. split; [exact (P6 eq_refl)|].
    exists ("Done procesing '" ++ file ++ "'.  # points added: " ++ showZ (count (filter has_data pts)) ++ ",  # points ignored: " ++ showZ (count (no_data_points pts)))%string.
    split; [do 2 eexists; split; [apply PropInfo.showZ_spells, count_pos|]; split; [apply PropInfo.showZ_spells, count_pos | reflexivity]|].
    rewrite P5, warned_shown, !tell_shown, !shown_also. cbn [app append]. rewrite !app_nil_r_s. reflexivity.
  - eexists. split; [do 2 eexists; split; [apply PropInfo.showZ_spells, count_pos|]; split; [apply PropInfo.showZ_spells, count_pos | reflexivity]|].
    rewrite P5, warned_shown, tell_shown, <- also_assoc, shown_also. reflexivity.
  - rewrite P5, warned_shown, tell_shown, shown_also. reflexivity.
  - rewrite P5, warned_shown, tell_shown, shown_also. reflexivity.
Qed.

Lemma addGridsP_says g db : gi_geom g = true -> forall files d d' f cs pr o, d db = Some f ->
  addGridsP quiet E F T L sci g db files d = (d', cs, pr, o) ->
  match o with
  | Val _ => exists ptss lines, files_read F L T files ptss /\ file_lines files ptss lines /\
      pr = shown lines (left_out_lines sci (concat ptss))
  | Throw m => (quiet = false -> exists lines err, stopped_at F L T sci files lines err m /\ pr = mkPrinted (as_lines lines) err)
  | _ => True
  end.
Proof.
  intros HG. induction files as [|file files IH]; intros d d' f cs pr o Hd H; cbn [addGridsP] in H.
  - injection H as <- <- <- <-. exists [], []. split; [constructor|]. split; [apply file_lines_nil|]. unfold shown. destruct quiet; reflexivity.
  - destruct (T file) as [text|] eqn:HT.
    2:{ unfold addGridP in H. rewrite HG, HT in H. cbn [negb] in H. injection H as <- <- <- <-. intros ->.
        exists [], ""%string. split; [|reflexivity]. exists [], file, files, [], []. split; [reflexivity|]. split; [constructor|].
        split; [apply file_lines_nil|]. left. repeat split; assumption. }
    destruct (addGridP quiet E F T L sci g db file d) as [[[d1 c] pr1] o1] eqn:Q.
    destruct (addGridP_says g db file text d d1 f c pr1 o1 HG HT Hd Q) as (lev & pts & recs & P1 & P2 & P3 & P4 & P5).
    destruct o1 as [u|m| |w].
    + destruct P5 as (AP & dn & DN & ->). destruct (addGridsP quiet E F T L sci g db files d1) as [[[d2 cs2] pr2] o2] eqn:Q2.
      injection H as <- <- <- <-. specialize (IH _ _ _ _ _ _ P3 Q2). destruct o2 as [u2|m| |w]; [| |exact I..].
      * destruct IH as (ptss & lines & A & B & ->). exists (pts :: ptss), (begin_line file :: dn :: lines).
        split; [constructor; [exists text, lev; split; assumption | exact A]|]. split; [apply file_lines_cons; assumption|].
        rewrite shown_also. cbn [app concat]. rewrite left_out_app. reflexivity.
      * intros NQ. destruct (IH NQ) as (lines & err & (before & file2 & after & ptss & lines' & S1 & S2 & S3 & S4) & ->).
        exists (begin_line file :: dn :: lines), (left_out_lines sci pts ++ err)%string. split.
        -- exists (file :: before), file2, after, (pts :: ptss), (begin_line file :: dn :: lines').
           split; [rewrite S1; reflexivity|]. split; [constructor; [exists text, lev; split; assumption | exact S2]|].
           split; [apply file_lines_cons; assumption|]. cbn [concat]. rewrite !left_out_app.
           destruct S4 as [(N & M & -> & ->)|(text2 & pts2 & ct & N1 & N2 & N3 & -> & ->)].
           ++ left. repeat split; assumption.
           ++ right. exists text2, pts2, ct. do 3 (split; [assumption|]). split; [reflexivity|]. rewrite !app_assoc_s. reflexivity.
        -- unfold shown. rewrite NQ. reflexivity || (unfold also; cbn [on_out on_err as_lines]; rewrite !app_assoc_s; reflexivity).
    + injection H as <- <- <- <-. intros NQ. destruct P5 as (ct & CT & ->).
      exists [begin_line file], (left_out_lines sci pts ++ ct)%string. split.
      * exists [], file, files, [], []. split; [reflexivity|]. split; [constructor|]. split; [apply file_lines_nil|]. right. exists text, pts, ct.
        repeat split; try assumption.
      * unfold shown. rewrite NQ. unfold also. cbn [on_out on_err as_lines]. rewrite app_nil_r_s. reflexivity.
    + injection H as <- <- <- <-. exact I.
    + injection H as <- <- <- <-. exact I.
Qed.
End Files.
