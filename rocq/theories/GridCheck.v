(** Grid files that are rejected, and other special inputs of grid ingestion. *)
From Coq Require Import ZArith Bool Reals Lra Lia Psatz Ascii String List.
From Flocq Require Import Core BinarySingleNaN.
From Verif Require Import Outcome Float Payload Addr SpecOct SpecGeom FloatFacts Geom GeomFacts GeomProof GeomLevel
  Store SpecStore VMCreator SpecText Stream StreamFacts GridIngester SpecGrid GridFacts GridMain GridRes.
Import ListNotations.
Open Scope Z_scope.

Ltac rest_of_header :=
  match goal with |- context [getNum ?c 0 ?s] => destruct (getNum c 0 s) as [? ?] end.

Lemma bad_exaggeration E F T L g db file d text rh rv :
  gi_geom g = true -> T file = Some text -> resolutions F text rh rv ->
  about_one (div64 (x1000 rh) (x1000 rv)) (i2f64 4) = false ->
  addGrid E F T L g db file d = (d, (0, 0),
    Throw ("Vertical exaggeration of " ++ n_show F (div64 (x1000 rh) (x1000 rv)) ++ " in '" ++ file ++
      "' does not match velocity model vertical exaggeration of " ++ n_show F (i2f64 4) ++ ".")%string).
Proof.
  intros HG HT (t & e & w1 & w2 & ws & -> & Ht & H1 & H2) HN.
  unfold addGrid. rewrite HG, HT. cbn [negb]. change (openText (t ++ e)) with (fresh (t ++ e)).
  step Ht H1. step Ht H2. do 4 rest_of_header. cbv zeta.
  change (mul64 rh (i2f64 1000)) with (x1000 rh). change (mul64 rv (i2f64 1000)) with (x1000 rv).
  rewrite differs_not. change VERTEXAG with (i2f64 4). rewrite HN. reflexivity.
Qed.

Lemma bad_resolution E F T L g db file d text rh rv lev :
  gi_geom g = true -> T file = Some text -> resolutions F text rh rv ->
  about_one (div64 (x1000 rh) (x1000 rv)) (i2f64 4) = true ->
  level L (x1000 rh) = Val lev -> 0 <= lev < 32 ->
  about_one (x1000 rh) (div64 (i2f64 1638400) (i2f64 (2 ^ lev))) = false ->
  addGrid E F T L g db file d = (d, (0, 0),
    Throw ("Horizontal resolution of " ++ n_show F (x1000 rh) ++ " in '" ++ file ++
      "' does not fit resolution of nearest level in database of " ++
      n_show F (div64 (i2f64 1638400) (i2f64 (2 ^ lev))) ++ ".")%string).
Proof.
  intros HG HT (t & e & w1 & w2 & ws & -> & Ht & H1 & H2) HN HL HB HE.
  unfold addGrid. rewrite HG, HT. cbn [negb]. change (openText (t ++ e)) with (fresh (t ++ e)).
  step Ht H1. step Ht H2. do 4 rest_of_header. cbv zeta.
  change (mul64 rh (i2f64 1000)) with (x1000 rh). change (mul64 rv (i2f64 1000)) with (x1000 rv).
  rewrite differs_not. change VERTEXAG with (i2f64 4). rewrite HN. cbn [negb].
  rewrite HL, (edgeLen_ok lev HB), differs_not, HE. reflexivity.
Qed.

(** Levels out of range: the resolution is finer than the finest or much coarser
    than the coarsest octants. *)
Lemma level_out_of_range E F T L g db file d text rh rv lev :
  gi_geom g = true -> T file = Some text -> resolutions F text rh rv ->
  about_one (div64 (x1000 rh) (x1000 rv)) (i2f64 4) = true ->
  level L (x1000 rh) = Val lev -> ~ (0 <= lev < 32) ->
  exists why, addGrid E F T L g db file d = (d, (0, 0), UB why).
Proof.
  intros HG HT (t & e & w1 & w2 & ws & -> & Ht & H1 & H2) HN HL HB.
  unfold addGrid. rewrite HG, HT. cbn [negb]. change (openText (t ++ e)) with (fresh (t ++ e)).
  step Ht H1. step Ht H2. do 4 rest_of_header. cbv zeta.
  change (mul64 rh (i2f64 1000)) with (x1000 rh). change (mul64 rv (i2f64 1000)) with (x1000 rv).
  rewrite differs_not. change VERTEXAG with (i2f64 4). rewrite HN. cbn [negb]. rewrite HL.
  unfold edgeLen. destruct ((0 <=? lev) && (lev <? 32)) eqn:B.
  - apply andb_true_iff in B. rewrite Z.leb_le, Z.ltb_lt in B. lia.
  - eexists. reflexivity.
Qed.

Lemma zero_zero s1 s2 : about_one (div64 (x1000 (S754_zero s1)) (x1000 (S754_zero s2))) (i2f64 4) = true.
Proof. destruct s1, s2; reflexivity. Qed.

Lemma both_zero E F T L g db file d text s1 s2 :
  gi_geom g = true -> T file = Some text -> resolutions F text (S754_zero s1) (S754_zero s2) ->
  (forall s, m_log L (S754_infinity s) = S754_infinity false \/ m_log L (S754_infinity s) = S754_nan) ->
  finite_double (m_log L (i2f64 2)) ->
  exists why, addGrid E F T L g db file d = (d, (0, 0), UB why).
Proof.
  intros HG HT (t & e & w1 & w2 & ws & -> & Ht & H1 & H2) HL [V2 F2].
  unfold addGrid. rewrite HG, HT. cbn [negb]. change (openText (t ++ e)) with (fresh (t ++ e)).
  step Ht H1. step Ht H2. do 4 rest_of_header. cbv zeta.
  rewrite differs_not. change VERTEXAG with (i2f64 4).
  change (mul64 ?a (i2f64 1000)) with (x1000 a). rewrite zero_zero. cbn [negb].
  assert (X : x1000 (S754_zero s1) = S754_zero s1) by (destruct s1; reflexivity). rewrite X.
  unfold level. assert (Y : div64 ROOTLEN (S754_zero s1) = S754_infinity s1) by (destruct s1; reflexivity).
  rewrite Y.
  destruct (HL s1) as [-> | ->]; [|eexists; reflexivity].
  destruct (m_log L (i2f64 2)) as [s|s| |s m x]; try discriminate; destruct s; eexists; reflexivity.
Qed.

(** Times 1000 does not make a number zero or NaN. *)
Lemma x1000_nonzero x : finite_double x -> value x <> 0%R ->
  match x1000 x with S754_finite _ _ _ | S754_infinity _ => True | _ => False end.
Proof.
  intros [V F] N. unfold x1000.
  pose proof (mul_round prec64 emax64 Hp64 Hm64 x (i2f64 1000) V eq_refl F eq_refl) as M. cbv zeta in M.
  destruct (Rlt_bool _ _); [|unfold mul64; rewrite M; exact I].
  destruct M as [M1 M2].
  fold (mul64 x (i2f64 1000)) in M1, M2.
  destruct (mul64 x (i2f64 1000)) as [s| | |] eqn:EM; try exact I; try discriminate.
  exfalso. change (fval (S754_zero s)) with 0%R in M1. symmetry in M1.
  assert (VK : fval (i2f64 1000) = 1000%R).
  { unfold fval. vm_compute. lra. }
  rewrite VK in M1.
  assert (G : generic_format radix2 (SpecFloat.fexp prec64 emax64) (fval x)).
  { destruct x as [s0|s0| |s0 m e0]; try discriminate F; [apply generic_format_0|].
    exact (generic_format_B2R prec64 emax64 (B754_finite s0 m e0 V)). }
  assert (VX : @round_mode mode_NE = ZnearestE) by reflexivity.
  destruct (Rtotal_order (fval x) 0) as [C|[C|C]]; [|exact (N C)|].
  - assert (R1 : (round radix2 (SpecFloat.fexp prec64 emax64) (round_mode mode_NE) (fval x * 1000) <= fval x)%R).
    { apply round_le_generic; [apply fexp_correct; reflexivity | apply valid_rnd_N | exact G | lra]. }
    lra.
  - assert (R1 : (fval x <= round radix2 (SpecFloat.fexp prec64 emax64) (round_mode mode_NE) (fval x * 1000))%R).
    { apply round_ge_generic; [apply fexp_correct; reflexivity | apply valid_rnd_N | exact G | lra]. }
    lra.
Qed.
Lemma one_zero rh rv s :
  (rh = S754_zero s /\ finite_double rv /\ value rv <> 0%R) \/
  (rv = S754_zero s /\ finite_double rh /\ value rh <> 0%R) ->
  about_one (div64 (x1000 rh) (x1000 rv)) (i2f64 4) = false.
Proof.
  intros [(-> & H & N)|(-> & H & N)]; pose proof (x1000_nonzero _ H N) as K;
    (assert (X : x1000 (S754_zero s) = S754_zero s) by (destruct s; reflexivity)); rewrite X.
  - destruct (x1000 rv) as [| b | | b m e]; try contradiction; destruct s, b; reflexivity.
  - destruct (x1000 rh) as [| b | | b m e]; try contradiction; destruct s, b; reflexivity.
Qed.

Lemma unreadable_text s : blanks s -> forall A (conv : string -> A * bool) old,
  getNum conv old (openText s) = (mkIn [] true true, old).
Proof.
  intros H A conv old. unfold getNum. change (openText s) with (fresh s).
  rewrite getWord_none by exact H. reflexivity.
Qed.
Lemma getNum_dead {A} (conv : string -> A * bool) old :
  getNum conv old (mkIn [] true true) = (mkIn [] true true, old).
Proof. reflexivity. Qed.
Lemma empty_grid E F T L g db file d text :
  gi_geom g = true -> T file = Some text -> blanks text ->
  m_log L (S754_infinity false) = S754_infinity false -> finite_double (m_log L (i2f64 2)) ->
  exists why, addGrid E F T L g db file d = (d, (0, 0), UB why).
Proof.
  intros HG HT HB H1 H2. unfold addGrid. rewrite HG, HT. cbn [negb].
  rewrite (unreadable_text text HB), !getNum_dead. cbv zeta. rewrite differs_not.
  change (about_one _ _) with true. cbn [negb].
  change (mul64 f_zero (i2f64 1000)) with f_zero.
  destruct (level_zero L H1 H2) as (why & ->). exists why. reflexivity.
Qed.

(** A file that ends after the resolutions: no points, no error. *)
Lemma short_header E F T L g db file d t e w1 w2 rh rv lev :
  gi_geom g = true -> T file = Some (t ++ e)%string -> laid_out [w1; w2] t -> unterminated e ->
  n_f64 F w1 = (rh, true) -> n_f64 F w2 = (rv, true) -> grid_fits L rh rv lev ->
  addGrid E F T L g db file d = (d, (0, 0), Val tt).
Proof.
  intros HG HT Ht He H1 H2 (L1 & L2 & L3 & L4).
  unfold addGrid. rewrite HG, HT. cbn [negb]. change (openText (t ++ e)) with (fresh (t ++ e)).
  step Ht H1. step Ht H2.
  assert (B : blanks t1) by (inversion Ht; assumption).
  pose proof (getNum_end (n_int F) 0 t1 e B He) as G.
  destruct (getNum (n_int F) 0 (fresh (t1 ++ e))) as [s3 v3]. cbn [fst] in G.
  assert (D : forall s v, good s = false -> getNum (n_int F) v s = (mkIn (i_rest s) (i_eof s) true, v)).
  { intros s v Hs. unfold getNum. rewrite getWord_bad2 by exact Hs. reflexivity. }
  assert (G2 : forall r b, good (mkIn r b true) = false) by (intros r b; unfold good; apply andb_false_r).
  rewrite (D _ _ G). rewrite !(D _ _ (G2 _ _)). cbv zeta.
  change (mul64 rh (i2f64 1000)) with (x1000 rh). change (mul64 rv (i2f64 1000)) with (x1000 rv).
  rewrite differs_not. change VERTEXAG with (i2f64 4). rewrite L3. cbn [negb].
  rewrite L1, (edgeLen_ok lev L2), differs_not, L4. reflexivity.
Qed.

(** ** Lines cut short *)
Lemma eleven_unreadable F ws : List.length ws = 11%nat -> unreadable F ws.
Proof.
  intros H (line & rest & l & -> & (w1 & w2 & w3 & w4 & w5 & w6 & w7 & w8 & w9 & w10 & w11 & w12 & -> & _)).
  rewrite app_length in H. cbn in H. lia.
Qed.

(** ** Names of grid files *)
Lemma laid_app ws t w c : laid_out ws t -> word w -> blank c ->
  laid_out (ws ++ [w]) (t ++ w ++ String c "").
Proof.
  intros H Hw Hc. induction H as [s Hs|s w0 c0 rest ws Hs Hw0 Hc0 Hr IH].
  - apply laid_word; try assumption. apply laid_blank. intros x [].
  - rewrite app_assoc_s. replace ((w0 ++ String c0 rest) ++ w ++ String c "")%string
      with (w0 ++ String c0 (rest ++ w ++ String c ""))%string by (rewrite app_assoc_s; reflexivity).
    cbn [app]. apply laid_word; assumption.
Qed.
Lemma list_read T g text tail names :
  T (gi_params g) = Some (text ++ tail)%string -> laid_out names text -> unterminated tail ->
  readParams T g = Val names.
Proof.
  intros HT H1 H2. unfold readParams. rewrite HT.
  change (openText (text ++ tail)) with (fresh (text ++ tail)).
  rewrite (readNames_spec text _ names tail H1 H2) by (rewrite length_app_s; lia). reflexivity.
Qed.
Lemma app_nil_s s : (s ++ "")%string = s.
Proof. induction s as [|c s IH]; [reflexivity|]. cbn. rewrite IH. reflexivity. Qed.

(** ** Points outside the domain *)
Lemma bogus_far lev ty b : 0 <= lev <= 31 -> octant_ok b ->
  ~ covers (mkAddr (2 ^ 32 - 1) (2 ^ 32 - 1) (2 ^ 32 - 1) 0 lev ty) b /\
  ~ covers b (mkAddr (2 ^ 32 - 1) (2 ^ 32 - 1) (2 ^ 32 - 1) 0 lev ty).
Proof.
  intros Hl (B1 & _ & B3). pose proof (B3 (a_x b) (or_introl eq_refl)) as [BX [k Hk]].
  assert (S1 : 0 < side lev) by (apply Z.pow_pos_nonneg; lia).
  assert (S2 : 0 < side (a_level b)) by (apply Z.pow_pos_nonneg; lia).
  assert (S3 : a_x b + side (a_level b) <= 2 ^ 31).
  { assert (D : 2 ^ 31 = side (a_level b) * 2 ^ a_level b).
    { unfold side. rewrite <- Z.pow_add_r by lia. f_equal; lia. }
    rewrite Hk, D in BX. rewrite (Z.mul_comm (side _)) in BX.
    pose proof (proj2 (Z.mul_lt_mono_pos_r _ _ _ S2) (proj2 BX)) as KK.
    rewrite Hk, D, (Z.mul_comm (side _) (2 ^ _)).
    apply Z.le_trans with ((k + 1) * side (a_level b)); [lia|]. apply Z.mul_le_mono_nonneg_r; lia. }
  unfold covers; cbn [a_x a_y a_z a_level]. split; intros H; lia.
Qed.
