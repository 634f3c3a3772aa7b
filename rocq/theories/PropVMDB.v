(** C43, C49: the spatial database wrapper and its configuration. *)
From Coq Require Import ZArith Bool String List Lia.
From Verif Require Import Outcome Float Payload Addr Geom ErrorHandler VMQuery SpecHist QueryHist QueryIndep
  VMDB SpecVMDB VMDBFacts SpecQuery ToyLib ToyDb.
Import ListNotations.
Open Scope Z_scope.

(** C43: a query returns exactly when the conversion of coordinates succeeds and the
    first attempt leaves no error; the array then holds the values of the attempt
    used, clipped; the code is 1 if that attempt ended with a warning, which is
    reset. *)
Theorem C43_query_returns : forall DB (E : Z -> env DB) convert coords d fs vals d' fs' vals' c,
  positions_ok d (length vals) ->
  vd_query E convert coords d fs vals = Val (d', fs', vals', Returns c) <->
  exists p x y z, coords = [fst (fst p); snd (fst p); snd p] /\ convert p = Returns (x, y, z) /\
    (exists q0 fs0 v0, tried E x y z (d_q d) fs vals 0 (q0, fs0, v0) /\ status_of q0 <> ERROR) /\
    exists k q v, used d E x y z fs vals k (q, fs', v) /\ clipped d v vals' /\
      c = (match status_of q with WARNING => 1 | _ => 0 end) /\
      d' = vd_set d (match status_of q with WARNING => forgiven q | _ => q end).
Proof.
  intros DB E convert coords d fs vals d' fs' vals' c PO. split; intros H.
  - destruct (vd_query_sound _ _ _ _ _ _ _ _ _ _ H) as (p & x & y & z & A & B & C & k & q & v & U & R).
    exists p, x, y, z. split; [exact A|]. split; [exact B|]. split.
    + destruct (tried_below _ _ _ _ _ _ _ _ _ O (proj1 U) ltac:(lia)) as ([[q0 fs0] v0] & T).
      exists q0, fs0, v0. split; [exact T | exact (C _ _ _ T)].
    + exists k, q, v. split; [exact U | exact R].
  - destruct H as (p & x & y & z & -> & B & (q0 & fs0 & v0 & T & N) & k & q & v & U & R & -> & ->).
    eapply vd_query_complete; eassumption.
Qed.
Print Assumptions C43_query_returns.

(** It throws exactly when the conversion does, leaving everything as it was, or when
    the first attempt ends in an error, whose message is passed on. *)
Theorem C43_query_throws : forall DB (E : Z -> env DB) convert coords d fs vals d' fs' vals' m,
  vd_query E convert coords d fs vals = Val (d', fs', vals', Throws m) <->
  exists p, coords = [fst (fst p); snd (fst p); snd p] /\
  ((convert p = Throws m /\ d' = d /\ fs' = fs /\ vals' = vals) \/
   exists x y z q, convert p = Returns (x, y, z) /\ tried E x y z (d_q d) fs vals 0 (q, fs', vals') /\
     status_of q = ERROR /\ m = eh_msg (q_err q) /\ d' = vd_set d q).
Proof.
  intros DB E convert coords d fs vals d' fs' vals' m. split; [apply vd_query_throws|].
  intros (p & -> & H). unfold vd_query. destruct p as [[cx cy] cz]. cbn [fst snd].
  destruct H as [(-> & -> & -> & ->)|(x & y & z & q & -> & T & S & -> & ->)]; [reflexivity|]. cbv zeta.
  change (if flt z (i2f64 (-44950)) then i2f64 (-44950) else z) with (attempt_at z 0).
  rewrite (tried_inv _ _ _ _ _ _ _ _ _ T). cbn [bind]. unfold status_of in S. rewrite S. reflexivity.
Qed.
Print Assumptions C43_query_throws.

(** Coordinates of any other number of dimensions trip an assertion. *)
Theorem C43_three_dimensions : forall DB (E : Z -> env DB) convert coords d fs vals,
  length coords <> 3%nat -> vd_query E convert coords d fs vals = Abort.
Proof.
  intros DB E convert coords d fs vals H. destruct coords as [|a [|b [|c [|e l]]]]; try reflexivity.
  exfalso. apply H. reflexivity.
Qed.
Print Assumptions C43_three_dimensions.

(** For an object with any history, the values of attempt [k] are those of a plain
    query at its elevation: earlier attempts make no difference. *)
Theorem C43_attempt_values : forall DB g fs0 h d fs1 xs (E : Z -> env DB) x y z fs olds k q v fs' fs2 olds2,
  drun h (vd_new g, fs0) = Val (d, fs1, xs) -> length olds2 = length olds ->
  tried E x y z (d_q d) fs olds k (q, fs', v) ->
  exists q2 fs3, query (E (Z.of_nat k)) (d_q d) fs2 (Some olds2) x y (attempt_at z k) = Val (q2, fs3, v).
Proof.
  intros DB g fs0 h d fs1 xs E x y z fs olds k q v fs' fs2 olds2 R L T.
  destruct (drun_settled h _ _ _ _ _ (new_settled g) R) as [_ K].
  pose proof (tried_values E x y z (d_q d) fs olds k q fs' v fs2 olds2 K L T) as V.
  destruct (query (E (Z.of_nat k)) (d_q d) fs2 (Some olds2) x y (attempt_at z k)) as [[[q2 fs3] v2]| | |]; try discriminate V.
  injection V as ->. exists q2, fs3. reflexivity.
Qed.
Print Assumptions C43_attempt_values.

(** The minimums: a positive shear speed (with projection), a positive Vp and a
    density over 1000 end up at or over their minimum, and nothing else changes. *)
Theorem C43_minimums : forall DB (d : vmdb DB) v v' i s s', clipped d v v' ->
  nth_error v i = Some s -> nth_error v' i = Some s' ->
  (Z.of_nat i = d_vs d -> d_vs d <> d_vp d -> d_vs d <> d_density d -> d_down d = true -> flt f_zero s = true ->
     flt s' (d_minVs d) = false) /\
  (Z.of_nat i = d_vp d -> d_vs d <> d_vp d -> d_vp d <> d_density d -> flt f_zero s = true ->
     flt s' (add64 (i2f64 1360) (mul64 (dec64 116 2) (d_minVs d))) = false) /\
  (Z.of_nat i = d_density d -> d_vs d <> d_density d -> d_vp d <> d_density d -> flt (i2f64 1000) s = true ->
     flt s' (i2f64 2000) = false) /\
  (s' <> s -> (Z.of_nat i = d_vs d /\ d_down d = true) \/ Z.of_nat i = d_vp d \/ Z.of_nat i = d_density d).
Proof.
  intros DB d v v' i s s' [_ C] Hs Hs'. rewrite (C i s Hs) in Hs'. injection Hs' as <-. clear C Hs v v'.
  assert (IR : forall a : f64, flt a a = false).
  { intros [b|b| |b m e]; try (destruct b; reflexivity); [reflexivity|].
    destruct b; unfold flt, SFltb, SFcompare; rewrite Z.compare_refl, Pcompare_refl; reflexivity. }
  assert (AL : forall lo hi, flt lo s = true -> flt (at_least lo hi s) hi = false).
  { intros lo hi H. unfold at_least. rewrite H. cbn [andb]. destruct (flt s hi) eqn:F; [apply IR | exact F]. }
  unfold clip. cbv zeta.
  split; [|split; [|split]].
  - intros Q N1 N2 D P. rewrite D, <- Q.
    rewrite (proj2 (Z.leb_le 0 (Z.of_nat i))), Z.eqb_refl by lia. cbn [andb].
    rewrite (proj2 (Z.eqb_neq (Z.of_nat i) (d_vp d))), (proj2 (Z.eqb_neq (Z.of_nat i) (d_density d))) by congruence.
    rewrite !andb_false_r. apply AL, P.
  - intros Q N1 N2 P. rewrite <- Q.
    rewrite (proj2 (Z.leb_le 0 (Z.of_nat i))), Z.eqb_refl by lia. cbn [andb].
    rewrite (proj2 (Z.eqb_neq (Z.of_nat i) (d_vs d))), (proj2 (Z.eqb_neq (Z.of_nat i) (d_density d))) by congruence.
    rewrite !andb_false_r. cbn [andb]. apply AL, P.
  - intros Q N1 N2 P. rewrite <- Q.
    rewrite (proj2 (Z.leb_le 0 (Z.of_nat i))), Z.eqb_refl by lia. cbn [andb].
    rewrite (proj2 (Z.eqb_neq (Z.of_nat i) (d_vs d))), (proj2 (Z.eqb_neq (Z.of_nat i) (d_vp d))) by congruence.
    rewrite !andb_false_r. cbn [andb]. apply AL, P.
  - intros N.
    destruct (Z.eqb_spec (Z.of_nat i) (d_vp d)); [right; left; assumption|].
    destruct (Z.eqb_spec (Z.of_nat i) (d_density d)); [right; right; assumption|].
    destruct (Z.eqb_spec (Z.of_nat i) (d_vs d)) as [Q|]; rewrite ?andb_false_r in N; cbn [andb] in N; [|congruence].
    destruct (d_down d); [left; split; [exact Q | reflexivity] | rewrite andb_false_r in N; congruence].
Qed.
Print Assumptions C43_minimums.

(** The positions are those of the last matching names of the last successful
    choice of values. *)
Theorem C43_positions : forall DB (d : vmdb DB) fs names d1 fs1 h d2 fs2 xs,
  dstep (d, fs) (DVals (Some names)) = Val (d1, fs1, None) ->
  Forall (fun c => match c with DVals _ => False | _ => True end) h -> drun h (d1, fs1) = Val (d2, fs2, xs) ->
  last_position "Vs" names (d_vs d2) /\ last_position "Vp" names (d_vp d2) /\
  last_position "density" names (d_density d2) /\
  (names <> [] -> length (q_vals (d_q d2)) = length names) /\ positions_ok d2 (length names).
Proof.
  intros DB d fs names d1 fs1 h d2 fs2 xs S F R.
  destruct (drun_positions _ _ _ _ _ _ R F) as (P1 & P2 & P3 & P4). rewrite P1, P2, P3, P4.
  cbn [dstep] in S. apply bind_val in S. destruct S as ([d0 r] & S & S'). injection S' as <- <- S'.
  apply bind_val in S. destruct S as (q1 & Q & S). unfold checked in S.
  destruct (eh_status (q_err q1)); injection S as <- <-; try discriminate S';
    (split; [apply vd_index_last|]); (split; [apply vd_index_last|]); (split; [apply vd_index_last|]);
    (split; [intros NE; destruct names as [|n names]; [congruence|]; injection Q as <-; cbn; rewrite map_length; reflexivity|]);
    intros j J; rewrite P1, P2, P3 in J; destruct J as [-> | [-> | ->]]; apply vd_index_last.
Qed.
Print Assumptions C43_positions.

(** The floor and the switch for projecting downward are those of the last calls that
    set them; nothing else changes them. *)
Definition last_floor {DB} (h : list (dcall DB)) (v : f64) : f64 :=
  fold_left (fun v c => match c with DMinVs v' => v' | _ => v end) h v.
Definition last_switch {DB} (h : list (dcall DB)) (b : bool) : bool :=
  fold_left (fun b c => match c with DDown b' => b' | _ => b end) h b.
Theorem C43_floor : forall DB (h : list (dcall DB)) d fs d' fs' xs, drun h (d, fs) = Val (d', fs', xs) ->
  d_minVs d' = last_floor h (d_minVs d) /\ d_down d' = last_switch h (d_down d).
Proof.
  intros DB h. induction h as [|c h IH]; intros d fs d' fs' xs R; cbn [drun] in R.
  - injection R as <- _ _. split; reflexivity.
  - apply bind_val in R. destruct R as ([[d1 fs1] x] & R1 & R). apply bind_val in R. destruct R as ([[d2 fs2] xs2] & R2 & R).
    injection R as <- <- <-. destruct (IH _ _ _ _ _ R2) as [A B]. rewrite A, B. unfold last_floor, last_switch. cbn [fold_left].
    assert (K : d_minVs d1 = match c with DMinVs v' => v' | _ => d_minVs d end /\ d_down d1 = match c with DDown b' => b' | _ => d_down d end);
      [|destruct K as [-> ->]; split; reflexivity].
    clear IH A B R2. destruct c; cbn [dstep] in R1; try (injection R1 as <- _ _; split; reflexivity).
    + apply bind_val in R1. destruct R1 as ([d0 r] & R0 & R1). injection R1 as <- _ _.
      apply bind_val in R0. destruct R0 as (q1 & _ & R0). injection R0 as <- _. split; reflexivity.
    + apply bind_val in R1. destruct R1 as ([d0 r] & R0 & R1). injection R1 as <- _ _.
      apply bind_val in R0. destruct R0 as (q1 & _ & R0). injection R0 as <- _. split; reflexivity.
    + apply bind_val in R1. destruct R1 as ([d0 r] & R0 & R1). injection R1 as <- _ _.
      apply bind_val in R0. destruct R0 as (q1 & _ & R0). unfold checked in R0.
      destruct (eh_status (q_err q1)); injection R0 as <- _; split; reflexivity.
    + apply bind_val in R1. destruct R1 as ([[[d0 f0] v0] r] & R0 & R1). injection R1 as <- _ _. destruct r as [z|m].
      * destruct (vd_query_sound _ _ _ _ _ _ _ _ _ _ R0) as (p & x0 & y0 & z0 & _ & _ & _ & k & q & v & _ & _ & _ & ->). split; reflexivity.
      * apply C43_query_throws in R0. destruct R0 as (p & _ & [(_ & -> & _)|(x0 & y0 & z0 & q & _ & _ & _ & _ & ->)]); split; reflexivity.
Qed.
Print Assumptions C43_floor.
Example C43_example_floor : forall DB (E : env DB) g fs d fs' xs,
  drun [DMinVs (i2f64 500); DDown true; DName "a"; DMinVs (i2f64 700); DOpen E; DSquash true f_zero] (vd_new g, fs) = Val (d, fs', xs) ->
  d_minVs d = i2f64 700 /\ d_down d = true.
Proof. intros DB E g fs d fs' xs R. exact (C43_floor DB _ _ _ _ _ _ R). Qed.

(** Between calls no warning is pending. *)
Theorem C43_no_warning_left : forall DB g fs0 (h : list (dcall DB)) d fs xs,
  drun h (vd_new g, fs0) = Val (d, fs, xs) -> status_of (d_q d) <> WARNING.
Proof. intros DB g fs0 h d fs xs R. exact (proj1 (drun_settled h _ _ _ _ _ (new_settled g) R)). Qed.
Print Assumptions C43_no_warning_left.

(** An error is for ever: without a query, every later call that checks the status
    throws, even if it does what was asked. *)
Theorem C43_error_sticks : forall DB (h : list (dcall DB)) d fs d' fs' xs, status_of (d_q d) = ERROR ->
  Forall (fun c => match c with DQuery _ _ _ _ => False | _ => True end) h -> drun h (d, fs) = Val (d', fs', xs) ->
  status_of (d_q d') = ERROR /\ fs' = fs /\
  Forall2 (fun c x => match c with
    | DOpen _ | DClose _ | DType _ | DVals _ => exists m, x = Some m
    | _ => x = None end) h xs.
Proof.
  intros DB h. induction h as [|c h IH]; intros d fs d' fs' xs S F R; cbn [drun] in R.
  - injection R as <- <- <-. split; [exact S|]. split; [reflexivity | constructor].
  - apply bind_val in R. destruct R as ([[d1 fs1] x] & R1 & R). apply bind_val in R. destruct R as ([[d2 fs2] xs2] & R2 & R).
    injection R as <- <- <-. inversion F as [|? ? F1 F2]; subst.
    destruct (dstep_status _ _ _ _ _ _ R1 F1) as (A & _ & ->).
    assert (S1 : status_of (d_q d1) = ERROR) by (destruct A as [A|A]; congruence).
    destruct (IH _ _ _ _ _ S1 F2 R2) as (B & B1 & B2). split; [exact B|]. split; [exact B1|].
    constructor; [|exact B2]. clear IH B B1 B2 R2 F A.
    destruct c; cbn [dstep] in R1; try contradiction F1; try (injection R1 as <- <-; reflexivity).
    + apply bind_val in R1. destruct R1 as ([d0 r] & R0 & R1). injection R1 as <- <-.
      apply bind_val in R0. destruct R0 as (q1 & _ & R0). injection R0 as <- <-.
      unfold status_of in S1. cbn [d_q vd_set] in S1. unfold checked. rewrite S1. eexists. reflexivity.
    + injection R1 as <- <-. unfold status_of in S1. cbn [d_q vd_set] in S1. unfold checked. rewrite S1. eexists. reflexivity.
    + apply bind_val in R1. destruct R1 as ([d0 r] & R0 & R1). injection R1 as <- <-.
      apply bind_val in R0. destruct R0 as (q1 & _ & R0). injection R0 as <- <-.
      unfold status_of in S1. cbn [d_q vd_set] in S1. unfold checked. rewrite S1. eexists. reflexivity.
    + apply bind_val in R1. destruct R1 as ([d0 r] & R0 & R1). injection R1 as <- <-.
      apply bind_val in R0. destruct R0 as (q1 & Q & R0). unfold checked in R0.
      destruct (eh_status (q_err q1)) eqn:S2; injection R0 as <- <-; [| |eexists; reflexivity];
        unfold status_of in S1; cbn [d_q] in S1; congruence.
Qed.
Print Assumptions C43_error_sticks.

(** ** C49: configuration *)
(** An unknown kind of query throws and changes nothing. *)
Theorem C49_unknown_type : forall DB i (d : vmdb DB),
  i_type i <> "maxres"%string -> i_type i <> "fixedres"%string -> i_type i <> "waveres"%string ->
  configure i d = Val (d, Throws ("Unknown queryType '" ++ i_type i ++ "'.")%string).
Proof.
  intros DB i d H1 H2 H3. unfold configure. apply String.eqb_neq in H1, H2, H3. rewrite H1, H2, H3. reflexivity.
Qed.
Print Assumptions C49_unknown_type.
(** The kinds of queries are 0, 1 and 2, in this order; nothing else is changed, and an
    error that was there before is thrown.  Any other number aborts the program. *)
Theorem C49_types : forall DB n (d : vmdb DB),
  (forall t, (n = 0 /\ t = MAXRES) \/ (n = 1 /\ t = FIXEDRES) \/ (n = 2 /\ t = WAVERES) ->
     let q := d_q d in
     vd_queryType n d = Val (mkD (d_minVs d) (d_vs d) (d_vp d) (d_density d) (d_down d)
         (mkQ (q_res q) (q_limit q) (q_db q) (q_dbExt q) (q_vals q) (q_geom q) (q_err q) (q_name q) (q_nameExt q) t (q_cache q) (q_cacheExt q) (q_squash q)),
       match eh_status (q_err q) with ERROR => Throws (eh_msg (q_err q)) | _ => Returns tt end)) /\
  (n <> 0 -> n <> 1 -> n <> 2 -> vd_queryType n d = Abort).
Proof.
  intros DB n d. split.
  - intros t H q. destruct H as [[-> ->] | [[-> ->] | [-> ->]]]; reflexivity.
  - intros H0 H1 H2. unfold vd_queryType. apply Z.eqb_neq in H0, H1, H2. rewrite H0, H1, H2. reflexivity.
Qed.
Print Assumptions C49_types.
Example C49_types_example : forall DB g, vd_queryType 1 (vd_new g : vmdb DB) <> vd_queryType 2 (vd_new g) /\ vd_queryType (-1) (vd_new g : vmdb DB) = Abort.
Proof.
  intros DB g. split; [|reflexivity]. intros H.
  pose proof (f_equal (fun o => match o with Val (d, _) => q_type (d_q d) | _ => MAXRES end) H) as Q. discriminate Q.
Qed.
Lemma set_queryRes_eq {DB} r (q : qstate DB) : set_queryRes r q =
  mkQ (if flt f_zero r then r else q_res q) (q_limit q) (q_db q) (q_dbExt q) (q_vals q) (q_geom q) (q_err q)
      (q_name q) (q_nameExt q) (q_type q) (q_cache q) (q_cacheExt q) (q_squash q).
Proof. unfold set_queryRes, fgt, flt. destruct (SFltb f_zero r); destruct q; reflexivity. Qed.
Lemma set_cacheSize_eq {DB} s (q : qstate DB) : set_cacheSize s q =
  mkQ (q_res q) (q_limit q) (q_db q) (q_dbExt q) (q_vals q) (q_geom q) (q_err q)
      (q_name q) (q_nameExt q) (q_type q) (if 0 <? s then s else q_cache q) (q_cacheExt q) (q_squash q).
Proof. unfold set_cacheSize. destruct (0 <? s); destruct q; reflexivity. Qed.
Lemma set_cacheSizeExt_eq {DB} s (q : qstate DB) : set_cacheSizeExt s q =
  mkQ (q_res q) (q_limit q) (q_db q) (q_dbExt q) (q_vals q) (q_geom q) (q_err q)
      (q_name q) (q_nameExt q) (q_type q) (q_cache q) (if 0 <? s then s else q_cacheExt q) (q_squash q).
Proof. unfold set_cacheSizeExt. destruct (0 <? s); destruct q; reflexivity. Qed.
(** Otherwise all settings are those of the inventory: sizes and resolutions that are
    not positive are ignored, and the kind "fixedres" sets MAXRES. *)
Theorem C49_configured : forall DB i (d : vmdb DB) t, status_of (d_q d) <> ERROR ->
  (i_type i = "maxres"%string /\ t = MAXRES) \/ (i_type i = "fixedres"%string /\ t = MAXRES) \/
  (i_type i = "waveres"%string /\ t = WAVERES) ->
  exists d', configure i d = Val (d', Returns tt) /\
    let q := d_q d' in
    q_type q = t /\ q_res q = (if flt f_zero (i_res i) then i_res i else q_res (d_q d)) /\
    q_name q = i_name i /\ q_nameExt q = i_nameExt i /\
    q_cache q = (if 0 <? i_cache i then i_cache i else q_cache (d_q d)) /\
    q_cacheExt q = (if 0 <? i_cacheExt i then i_cacheExt i else q_cacheExt (d_q d)) /\
    q_squash q = i_squash i /\ q_limit q = i_limit i /\ d_minVs d' = i_minVs i /\ d_down d' = i_down i /\
    d_vs d' = d_vs d /\ d_vp d' = d_vp d /\ d_density d' = d_density d /\
    q_vals q = q_vals (d_q d) /\ q_db q = q_db (d_q d) /\ q_dbExt q = q_dbExt (d_q d) /\ q_err q = q_err (d_q d) /\
    q_geom q = q_geom (d_q d).
Proof.
  intros DB i d t S H. unfold configure.
  assert (G : forall n, (n = 0 /\ t = MAXRES) \/ (n = 2 /\ t = WAVERES) ->
    exists d1, vd_queryType n d = Val (d1, Returns tt) /\ q_type (d_q d1) = t /\ d1 = vd_set d (d_q d1) /\
      q_res (d_q d1) = q_res (d_q d) /\ q_cache (d_q d1) = q_cache (d_q d) /\ q_cacheExt (d_q d1) = q_cacheExt (d_q d) /\
      q_vals (d_q d1) = q_vals (d_q d) /\ q_db (d_q d1) = q_db (d_q d) /\ q_dbExt (d_q d1) = q_dbExt (d_q d) /\
      q_err (d_q d1) = q_err (d_q d) /\ q_geom (d_q d1) = q_geom (d_q d)).
  { unfold status_of in S.
    intros n [[-> ->] | [-> ->]]; (eexists; split; [unfold vd_queryType, checked; cbn;
      destruct (eh_status (q_err (d_q d))) eqn:St; [reflexivity | reflexivity | congruence] |]); repeat split. }
  assert (G' : exists d1, (if String.eqb (i_type i) "maxres" then vd_queryType 0 d
    else if String.eqb (i_type i) "fixedres" then vd_queryType 0 d
    else if String.eqb (i_type i) "waveres" then vd_queryType 2 d
    else Val (d, Throws ("Unknown queryType '" ++ i_type i ++ "'.")%string)) = Val (d1, Returns tt) /\
      q_type (d_q d1) = t /\ d1 = vd_set d (d_q d1) /\
      q_res (d_q d1) = q_res (d_q d) /\ q_cache (d_q d1) = q_cache (d_q d) /\ q_cacheExt (d_q d1) = q_cacheExt (d_q d) /\
      q_vals (d_q d1) = q_vals (d_q d) /\ q_db (d_q d1) = q_db (d_q d) /\ q_dbExt (d_q d1) = q_dbExt (d_q d) /\
      q_err (d_q d1) = q_err (d_q d) /\ q_geom (d_q d1) = q_geom (d_q d)).
  { destruct H as [[-> ->] | [[-> ->] | [-> ->]]]; cbn [String.eqb Ascii.eqb eqb]; apply G; tauto. }
  destruct G' as (d1 & -> & A1 & A2 & A3 & A4 & A5 & A6 & A7 & A8 & A9 & A10). cbn [bind]. eexists. split; [reflexivity|].
  unfold vd_queryRes. rewrite set_queryRes_eq. destruct d1 as [m1 v1 p1 r1 b1 q1]. cbn [d_q] in *.
  injection A2 as -> -> -> -> ->.
  cbn [vd_projectDownward vd_minVs vd_squash vd_cacheSizeExt vd_filenameExt vd_cacheSize vd_filename vd_set d_q set_filename
    d_minVs d_vs d_vp d_density d_down q_res q_limit q_db q_dbExt q_vals q_geom q_err q_name q_nameExt q_type q_cache q_cacheExt q_squash].
  rewrite set_cacheSize_eq.
  cbn [set_filenameExt q_res q_limit q_db q_dbExt q_vals q_geom q_err q_name q_nameExt q_type q_cache q_cacheExt q_squash].
  rewrite set_cacheSizeExt_eq.
  cbn [set_squash q_res q_limit q_db q_dbExt q_vals q_geom q_err q_name q_nameExt q_type q_cache q_cacheExt q_squash].
  rewrite A3, A4, A5. repeat split; assumption.
Qed.
Print Assumptions C49_configured.
(** So a user who asks for a fixed resolution does not get it. *)
Theorem C49_fixedres_refuted : ~ (forall DB i (d : vmdb DB) d',
  i_type i = "fixedres"%string -> configure i d = Val (d', Returns tt) -> q_type (d_q d') = FIXEDRES).
Proof.
  intros H.
  set (i := mkInv "fixedres" (i2f64 100) "detailed" 128 "" 128 false (i2f64 (-2000)) f_zero false).
  destruct (C49_configured contents i (vd_new toy) MAXRES) as (d' & Q & T & _); [discriminate | right; left; split; reflexivity |].
  pose proof (H contents i (vd_new toy) d' eq_refl Q) as F. rewrite T in F. discriminate F.
Qed.
Print Assumptions C49_fixedres_refuted.

(** ** The hypotheses are met *)
(** An object that has opened the toy database, asks for the values named, and
    projects downward. *)
Definition same (p : f64 * f64 * f64) : result (f64 * f64 * f64) := Returns p.
Definition setup_calls (names : list string) (down : bool) (minVs : f64) : list (dcall contents) :=
  [DName "detailed"; DOpen toy_env; DVals (Some names); DDown down; DMinVs minVs].
Definition ready (g : libm) (names : list string) (down : bool) (minVs : f64) : vmdb contents :=
  match drun (setup_calls names down minVs) (vd_new g, fun _ => None) with
  | Val (d, _, _) => d
  | _ => vd_new g
  end.
Definition answer (o : outcome (vmdb contents * files * list f64 * result Z)) :=
  match o with Val (d, _, v, r) => Some (v, r, status_of (d_q d)) | _ => None end.
Definition ask (d : vmdb contents) (z : f64) : option (list f64 * result Z * status) :=
  answer (vd_query (fun _ => toy_env) same [toy_x; toy_y; z] d (fun _ => None) (repeat f_zero (length (q_vals (d_q d))))).
Definition four := ["Vp"; "Vs"; "vs"; "Density"]%string.

(** 100 m above the data: found at the fourth attempt, 200 m lower; the speeds and the
    density are clipped (the second of the two shear speeds only). *)
Example C43_example_found : ask (ready toy four true (i2f64 500)) (i2f64 190) =
  Some ([i2f64 1940; i2f64 400; i2f64 500; i2f64 2000], Returns 0, OK).
Proof. vm_compute. reflexivity. Qed.
(** Without projection: no data, code 1, warning reset. *)
Example C43_example_warning : ask (ready toy four false (i2f64 500)) (i2f64 190) =
  Some ([i2f64 (-999); i2f64 (-999); i2f64 (-999); i2f64 (-999)], Returns 1, OK).
Proof. vm_compute. reflexivity. Qed.
(** Without projection the minimum shear speed is not enforced. *)
Example C43_example_not_clipped : ask (ready toy four false (i2f64 500)) (i2f64 (-10)) =
  Some ([i2f64 1940; i2f64 400; i2f64 400; i2f64 2000], Returns 0, OK).
Proof. vm_compute. reflexivity. Qed.
(** Nothing below either: nine queries, code 1. *)
Example C43_example_nothing : ask (ready toy four true (i2f64 500)) (i2f64 (-30000)) =
  Some ([i2f64 (-999); i2f64 (-999); i2f64 (-999); i2f64 (-999)], Returns 1, OK).
Proof. vm_compute. reflexivity. Qed.
Example C43_example_positions : let d := ready toy four true (i2f64 500) in
  (d_vs d, d_vp d, d_density d) = (2, 0, 3) /\ positions_ok d 4.
Proof.
  cbv zeta. assert (A : d_vs (ready toy four true (i2f64 500)) = 2) by (vm_compute; reflexivity).
  assert (B : d_vp (ready toy four true (i2f64 500)) = 0) by (vm_compute; reflexivity).
  assert (C : d_density (ready toy four true (i2f64 500)) = 3) by (vm_compute; reflexivity).
  unfold positions_ok. rewrite A, B, C. split; [reflexivity | lia].
Qed.
(** An error in a later attempt is not reported: the inverse projection fails for the
    octant found, the code is 0 although the status is ERROR. *)
Definition no_inverse : libm := mkLibm (m_cos toy) (m_sin toy) (m_log toy) (m_project toy) (fun _ _ => None).
Example C43_example_error_lost : option_map (fun x => (snd (fst x), snd x))
    (ask (ready no_inverse ["Vs"; "elevation"]%string true f_zero) (i2f64 190)) = Some (Returns 0, ERROR).
Proof. vm_compute. reflexivity. Qed.
(** Opening a missing file throws, and so does opening an existing one afterwards. *)
Example C43_example_sticks :
  match drun [DName "missing"; DOpen toy_env; DName "detailed"; DOpen toy_env] (vd_new toy, fun _ => None) with
  | Val (d, _, xs) => Some (q_db (d_q d), xs)
  | _ => None
  end = let m := "Could not open the etree database 'missing' for querying."%string in
        Some (Some toy_db, [None; Some m; None; Some m]).
Proof. vm_compute. reflexivity. Qed.
Example C49_example :
  match configure (mkInv "waveres" (i2f64 100) "detailed" 128 "" 0 true f_zero (i2f64 500) true) (@vd_new contents toy) with
  | Val (d, Returns _) => Some (q_type (d_q d), q_cacheExt (d_q d), d_down d)
  | _ => None
  end = Some (WAVERES, 128, true).
Proof. vm_compute. reflexivity. Qed.
