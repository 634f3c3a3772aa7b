(** Proofs about building a database from grid files. *)
From Coq Require Import ZArith Bool Lia Ascii String Sorting.Permutation Sorting.Sorted List.
From Verif Require Import Outcome Float Payload Addr SpecOct AddrFacts AvgEngine Geom Store Averager VMCreator
  Stream GridIngester SpecText SpecStore SpecGrid StreamFacts StoreFacts.
Import ListNotations.
Open Scope Z_scope.

(** ** The list of grid files *)
Lemma readNames_spec t : forall fuel ws e, laid_out ws t -> unterminated e ->
  (String.length t < fuel)%nat -> readNames fuel (fresh (t ++ e)) = ws.
Proof.
  intros fuel. revert t. induction fuel as [|k IH]; intros t ws e Ht He Hf; [lia|].
  cbn [readNames]. rewrite good_fresh. destruct ws as [|w ws].
  - inversion Ht as [s Hs|]; subst. pose proof (getWord_end t e Hs He) as G.
    destruct (getWord (fresh (t ++ e))) as [s' [w|]]; [|reflexivity].
    cbn [fst] in G. rewrite G. reflexivity.
  - destruct (getWord_laid w ws t e Ht) as (t' & H1 & H2 & H3). rewrite H1, good_fresh.
    f_equal. apply IH; [exact H2|exact He|lia].
Qed.

(** ** One line *)
Lemma getLine_good F line ws t e l : reads F line l -> laid_out (line ++ ws) t ->
  exists t', getLine F (fresh (t ++ e)) = (fresh (t' ++ e), l) /\ laid_out ws t'.
Proof.
  intros (w1 & w2 & w3 & w4 & w5 & w6 & w7 & w8 & w9 & w10 & w11 & w12 & -> &
          H1 & H2 & H3 & H4 & H5 & H6 & H7 & H8 & H9 & H10 & H11 & H12) Ht.
  cbn [app] in Ht. unfold getLine.
  Ltac step Ht H :=
    let t' := fresh "t" in let G := fresh "G" in
    match type of Ht with laid_out (?w :: ?ws) ?t =>
      match type of H with ?c ?w0 = (?v, true) =>
        match goal with |- context[getNum c ?old (fresh (t ++ ?e))] =>
          destruct (getNum_laid c old w ws t e v true Ht H) as (t' & G & Hn);
          change (mkIn (chars (t' ++ e)) false (negb true)) with (fresh (t' ++ e)) in G;
          rewrite G; clear G Ht; rename Hn into Ht
        end end end.
  step Ht H1. step Ht H2. step Ht H3. step Ht H4. step Ht H5. step Ht H6.
  step Ht H7. step Ht H8. step Ht H9. step Ht H10. step Ht H11. step Ht H12.
  eexists. split; [|exact Ht]. f_equal. destruct l as [? ? ? [] ?]. reflexivity.
Qed.

(** The stream after a sequence of extractions, ignoring the values. *)
Definition after (ok : string -> bool) (s : istream) : istream :=
  fst (getNum (fun w => (tt, ok w)) tt s).
Lemma after_eq {A} (conv : string -> A * bool) old s :
  fst (getNum conv old s) = after (fun w => snd (conv w)) s.
Proof.
  unfold after, getNum. destruct (getWord s) as [s' [w|]]; [|reflexivity].
  destruct (conv w) as [v b]. reflexivity.
Qed.
Definition chain (oks : list (string -> bool)) (s : istream) : istream :=
  fold_left (fun s ok => after ok s) oks s.
Lemma chain_bad oks : forall s, good s = false -> good (chain oks s) = false.
Proof.
  induction oks as [|ok oks IH]; intros s H; [exact H|]. cbn [chain fold_left]. apply IH.
  apply getNum_bad. exact H.
Qed.
Lemma chain_good oks : forall ws t e, laid_out ws t -> unterminated e ->
  good (chain oks (fresh (t ++ e))) = true ->
  exists l1 l2, ws = (l1 ++ l2)%list /\ Forall2 (fun (ok : string -> bool) w => ok w = true) oks l1.
Proof.
  induction oks as [|ok oks IH]; intros ws t e Ht He HG.
  - exists [], ws. split; [reflexivity | constructor].
  - change (good (chain oks (after ok (fresh (t ++ e)))) = true) in HG. destruct ws as [|w ws].
    + exfalso. inversion Ht as [s Hs|]; subst.
      pose proof (getNum_end (fun w => (tt, ok w)) tt t e Hs He) as G.
      apply (chain_bad oks) in G. unfold after in HG. congruence.
    + destruct (ok w) eqn:Ew.
      * destruct (getNum_laid (fun w => (tt, ok w)) tt w ws t e tt true Ht) as (t' & H1 & H2);
          [rewrite Ew; reflexivity|].
        unfold after in HG. rewrite H1 in HG. cbn [fst negb] in HG.
        change (mkIn (chars (t' ++ e)) false false) with (fresh (t' ++ e)) in HG.
        destruct (IH ws t' e H2 He HG) as (l1 & l2 & -> & HF).
        exists (w :: l1), l2. split; [reflexivity | constructor; assumption].
      * exfalso. destruct (getNum_laid (fun w => (tt, ok w)) tt w ws t e tt false Ht) as (t' & H1 & H2);
          [rewrite Ew; reflexivity|].
        unfold after in HG. rewrite H1 in HG. cbn [fst negb] in HG.
        rewrite chain_bad in HG; [discriminate|]. reflexivity.
Qed.

Definition line_oks (F : numfmt) : list (string -> bool) :=
  let a w := snd (n_f64 F w) in let b w := snd (n_f32 F w) in let c w := snd (n_short F w) in
  [a; a; a; b; b; b; b; b; b; c; c; fun w => snd (n_int F w)].
Lemma getLine_stream F s : fst (getLine F s) = chain (line_oks F) s.
Proof.
  unfold getLine.
  repeat match goal with |- context[getNum ?c ?o ?x] =>
    let s' := fresh "s" in let v := fresh "v" in let Ei := fresh "Ei" in
    destruct (getNum c o x) as [s' v] eqn:Ei; apply (f_equal fst) in Ei;
    rewrite after_eq in Ei; cbn [fst] in Ei; subst s'
  end.
  cbn [fst]. unfold chain, line_oks. cbv zeta. cbn [fold_left]. reflexivity.
Qed.
Lemma ok_val {A} (f : string -> A * bool) w : snd (f w) = true -> f w = (fst (f w), true).
Proof. destruct (f w); cbn; congruence. Qed.
Lemma line_oks_reads F line : Forall2 (fun (ok : string -> bool) w => ok w = true) (line_oks F) line ->
  exists l, reads F line l.
Proof.
  unfold line_oks. cbv zeta. intros H.
  repeat match goal with H : Forall2 _ (_ :: _) _ |- _ => inversion H; clear H; subst end.
  match goal with H : Forall2 _ [] _ |- _ => inversion H; clear H; subst end.
  eexists (mkLine _ _ _ (mkPayload _ _ _ _ _ _ _ _) _). unfold reads.
  do 12 eexists. split; [reflexivity|]. cbn.
  repeat split; apply ok_val; assumption.
Qed.
Lemma getLine_unreadable F ws t e : laid_out ws t -> unterminated e -> unreadable F ws ->
  good (fst (getLine F (fresh (t ++ e)))) = false.
Proof.
  intros Ht He HU. destruct (good (fst (getLine F (fresh (t ++ e))))) eqn:EG; [|reflexivity].
  exfalso. rewrite getLine_stream in EG.
  destruct (chain_good _ _ _ _ Ht He EG) as (l1 & l2 & -> & HF).
  destruct (line_oks_reads F l1 HF) as [l Hl]. apply HU. exists l1, l2, l. split; [reflexivity | exact Hl].
Qed.

(** ** The points *)
Lemma km2m_si x : km2m x = si64 x.
Proof.
  unfold km2m, si64, fne, feq. change (widen NODATAVAL) with (i2f64 (-999)).
  destruct (SFeqb x (i2f64 (-999))); reflexivity.
Qed.
Lemma km2m32_si x : km2m32 x = si32 x.
Proof.
  unfold km2m32, si32, fne, feq. change NODATAVAL with (i2f32 (-999)).
  destruct (SFeqb x (i2f32 (-999))); reflexivity.
Qed.
Lemma toSI_si p : toSI p = si_values p.
Proof. unfold toSI, si_values. rewrite !km2m32_si. reflexivity. Qed.

Definition add_all (E : etree) (recs old : list (addr * payload)) : list (addr * payload) :=
  fold_left (sorted_in (et_before E)) recs old.

Lemma sorted_in_perm b l r : Permutation (sorted_in b l r) (l ++ [r])%list.
Proof.
  induction l as [|x l IH]; cbn; [reflexivity|]. destruct (b (fst r) (fst x)).
  - rewrite (Permutation_app_comm (x :: l) [r]). reflexivity.
  - constructor. exact IH.
Qed.
Lemma add_all_perm E recs : forall old, Permutation (add_all E recs old) (old ++ recs)%list.
Proof.
  induction recs as [|r recs IH]; intros old; [cbn; rewrite app_nil_r; reflexivity|].
  change (add_all E (r :: recs) old) with (add_all E recs (sorted_in (et_before E) old r)).
  rewrite IH, sorted_in_perm, <- app_assoc. reflexivity.
Qed.

(** Inserting one record. *)
Lemma insert_ok E L db p lon lat elev res lev code a d f :
  level L res = Val lev ->
  lonLatElevToAddr L (mkAddr 0 0 0 0 lev Leaf) lon lat elev = Val (code, a) ->
  d db = Some f -> et_insert E (d_recs f) a = true ->
  insert E L (Some db) p lon lat elev res d =
    (put d db (Some (set_recs f (sorted_in (et_before E) (d_recs f) (a, p)))), Val tt).
Proof.
  intros H1 H2 H3 H4. unfold insert, andThen, lift. rewrite H1. cbv beta iota. rewrite H2.
  cbn [snd]. rewrite H3, H4. unfold write. rewrite H3. reflexivity.
Qed.
Lemma insert_refused E L db p lon lat elev res lev code a d f :
  level L res = Val lev ->
  lonLatElevToAddr L (mkAddr 0 0 0 0 lev Leaf) lon lat elev = Val (code, a) ->
  d db = Some f -> et_insert E (d_recs f) a = false ->
  insert E L (Some db) p lon lat elev res d = (d, Throw (et_error E)).
Proof.
  intros H1 H2 H3 H4. unfold insert, andThen, lift. rewrite H1. cbv beta iota. rewrite H2.
  cbn [snd]. rewrite H3, H4. reflexivity.
Qed.

Lemma has_data_test p : negb (p_block p =? NODATABLOCK) && negb (p_zone p =? NODATAZONE) =
  negb (p_block p =? 0) && negb (p_zone p =? 0).
Proof. reflexivity. Qed.

(** Points that can be read and stored are processed; the loop goes on with the
    rest. *)
Lemma addPoints_prefix E F L db res lev e k : level L res = Val lev ->
  forall pts lines t ws recs added ignored d f,
  Forall2 (reads F) lines pts -> laid_out (concat lines ++ ws) t -> d db = Some f ->
  grid_recs L lev pts recs ->
  (forall done r rest, recs = (done ++ r :: rest)%list ->
     et_insert E (add_all E done (d_recs f)) (fst r) = true) ->
  exists t' d', laid_out ws t' /\
    d' db = Some (set_recs f (add_all E recs (d_recs f))) /\ others_untouched db d d' /\
    addPoints E F L db res (List.length pts + k) (fresh (t ++ e)) added ignored d =
    addPoints E F L db res k (fresh (t' ++ e)) (added + count (filter has_data pts))
      (ignored + count (no_data_points pts)) d'.
Proof.
  intros HL. induction pts as [|l pts IH]; intros lines t ws recs added ignored d f HR Ht Hd HG HI.
  - inversion HR; subst. inversion HG; subst. exists t, d. split; [exact Ht|].
    split; [destruct f; exact Hd|]. split; [apply others_refl|].
    cbn [List.length Nat.add]. change (count (filter has_data [])) with 0.
    change (count (no_data_points [])) with 0. rewrite !Z.add_0_r. reflexivity.
  - inversion HR as [|line l0 lines' pts' Hl HR']; subst. cbn [concat] in Ht. rewrite <- app_assoc in Ht.
    destruct (getLine_good F line _ t e l Hl Ht) as (t1 & G1 & Ht1).
    cbn [List.length Nat.add addPoints]. rewrite G1. cbv beta iota. rewrite good_fresh. cbn [negb].
    rewrite has_data_test. fold (has_data l). unfold grid_recs in HG. cbn [filter] in HG.
    unfold no_data_points. cbn [filter].
    destruct (has_data l) eqn:Eh; cbn [negb].
    + inversion HG as [|x r pts1 recs1 Hr HG']; subst.
      destruct Hr as [[code Hc] Hv].
      assert (HI0 : et_insert E (d_recs f) (fst r) = true) by (apply (HI [] r recs1); reflexivity).
      rewrite km2m_si, toSI_si.
      rewrite (insert_ok E L db (si_values (l_pay l)) _ _ _ res lev code (fst r) d f HL Hc Hd HI0).
      cbv beta iota.
      set (f1 := set_recs f (sorted_in (et_before E) (d_recs f) (fst r, si_values (l_pay l)))).
      set (d1 := put d db (Some f1)).
      assert (Hrr : (fst r, si_values (l_pay l)) = r) by (rewrite <- Hv; destruct r; reflexivity).
      destruct (IH lines' t1 ws recs1 (added + 1) ignored d1 f1 HR' Ht1 (put_same _ _ _) HG')
        as (t' & d' & K1 & K2 & K3 & K4).
      * intros done r' rest Hrec. unfold f1. cbn [set_recs d_recs]. rewrite Hrr.
        apply (HI (r :: done) r' rest). rewrite Hrec. reflexivity.
      * exists t', d'. split; [exact K1|]. split.
        -- rewrite K2. unfold f1. cbn [set_recs d_recs d_schema d_meta d_size]. rewrite Hrr. reflexivity.
        -- split; [eapply others_trans; [apply others_put | exact K3]|].
           rewrite K4. f_equal. unfold count. cbn [List.length]. lia.
    + destruct (IH lines' t1 ws recs added (ignored + 1) d f HR' Ht1 Hd HG HI)
        as (t' & d' & K1 & K2 & K3 & K4).
      exists t', d'. split; [exact K1|]. split; [exact K2|]. split; [exact K3|].
      rewrite K4. f_equal. unfold count, no_data_points. cbn [List.length]. lia.
Qed.
