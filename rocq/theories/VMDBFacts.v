(** Proofs about the spatial database wrapper. *)
From Coq Require Import ZArith Bool String List Lia.
From Verif Require Import Outcome Float Payload Addr Geom ErrorHandler VMQuery SpecHist QueryHist QueryIndep VMDB SpecVMDB.
Import ListNotations.
Open Scope Z_scope.

Lemma lowered_eq z i : (1 <= i <= 8)%nat -> lowered (start_at z) (Z.of_nat i) = attempt_at z i.
Proof.
  intros H. unfold lowered. destruct i as [|k]; [lia|]. unfold attempt_at. f_equal.
  do 8 (destruct k as [|k]; [vm_compute; reflexivity|]). lia.
Qed.

Section Facts.
Context {DB : Type}.
Implicit Types (d : vmdb DB) (q : qstate DB) (E : Z -> env DB).

Lemma tried_inv E x y z q fs olds i r : tried E x y z q fs olds i r ->
  match i with
  | O => query (E 0) q fs (Some olds) x y (attempt_at z 0) = Val r
  | S i => exists q1 fs1 v1, tried E x y z q fs olds i (q1, fs1, v1) /\
      query (E (Z.of_nat (S i))) (forgiven q1) fs1 (Some v1) x y (attempt_at z (S i)) = Val r
  end.
Proof. intros [r' H | i' q1 fs1 v1 r' H H']; [exact H | exists q1, fs1, v1; split; assumption]. Qed.
Lemma tried_fun E x y z q fs olds i r1 r2 : tried E x y z q fs olds i r1 -> tried E x y z q fs olds i r2 -> r1 = r2.
Proof.
  revert r1 r2. induction i as [|i IH]; intros r1 r2 H1 H2; apply tried_inv in H1, H2.
  - congruence.
  - destruct H1 as (q1 & fs1 & v1 & T1 & Q1), H2 as (q2 & fs2 & v2 & T2 & Q2).
    pose proof (IH _ _ T1 T2) as R. injection R as <- <- <-. congruence.
Qed.
Lemma tried_below E x y z q fs olds k r j : tried E x y z q fs olds k r -> (j <= k)%nat ->
  exists r', tried E x y z q fs olds j r'.
Proof.
  intros H. revert j. induction H as [r H | i q1 fs1 v1 r H IH H']; intros j Hj.
  - assert (j = O) as -> by lia. exists r. constructor. exact H.
  - destruct (Nat.eq_dec j (S i)) as [->|]; [exists r; econstructor; eassumption | apply IH; lia].
Qed.

(** ** Length of the array *)
Lemma copy_length (E : env DB) q lon lat elev p ss olds e r vs e' : length ss = length olds ->
  copy E q lon lat elev p ss olds e r = Val (vs, e') -> length vs = length olds.
Proof.
  revert olds e r vs e'. induction ss as [|s ss IH]; intros [|o olds] e r vs e' L H; try discriminate L.
  - injection H as <- <-. reflexivity.
  - cbn [copy] in H. apply bind_val in H. destruct H as ([[v e1] r1] & _ & H).
    apply bind_val in H. destruct H as ([vs1 e2] & H1 & H). injection H as <- <-.
    cbn [length] in L |- *. f_equal. apply (IH olds e1 r1 vs1 e2); [congruence | exact H1].
Qed.
Lemma query_length (E : env DB) q fs olds lon lat elev q' fs' vs :
  query E q fs (Some olds) lon lat elev = Val (q', fs', vs) -> length vs = length olds.
Proof.
  unfold query. intros H. apply bind_val in H. destruct H as (u & A & H).
  assert (L : length (q_vals q) = length olds).
  { destruct (Nat.eqb (length olds) (length (q_vals q))) eqn:B; [|discriminate A]. apply Nat.eqb_eq in B. congruence. }
  apply bind_val in H. destruct H as ([[e [p|]] r] & _ & H); [|discriminate H].
  destruct (p_block p =? NODATABLOCK); apply bind_val in H; destruct H as ([vs1 e1] & C & H); injection H as _ _ <-;
    exact (copy_length _ _ _ _ _ _ _ _ _ _ _ _ L C).
Qed.
Lemma tried_length E x y z q fs olds k q' fs' v : tried E x y z q fs olds k (q', fs', v) -> length v = length olds.
Proof.
  intros H. remember (q', fs', v) as r eqn:Q. revert q' fs' v Q.
  induction H as [r H | i q1 fs1 v1 r H IH H']; intros q' fs' v ->.
  - eapply query_length; eassumption.
  - rewrite <- (IH _ _ _ eq_refl). eapply query_length; eassumption.
Qed.

(** ** The loop *)
Lemma elem_val vals i v : elem vals i = Val v <-> nth_error vals (Z.to_nat i) = Some v.
Proof. unfold elem. destruct (nth_error vals (Z.to_nat i)); split; intros H; try discriminate H; congruence. Qed.

Lemma project_sound d E x y z fs olds : forall fuel i q1 fs1 v1 r,
  (i < 8)%nat -> tried E x y z (d_q d) fs olds i (q1, fs1, v1) ->
  (forall j q2 fs2 v2, (j < i)%nat -> tried E x y z (d_q d) fs olds j (q2, fs2, v2) -> void d v2) ->
  project fuel E (d_vs d) x y (start_at z) (Z.of_nat (S i)) q1 fs1 v1 = Val r ->
  exists k, tried E x y z (d_q d) fs olds k r /\ (k <= 8)%nat /\
    (forall j q2 fs2 v2, (j < k)%nat -> tried E x y z (d_q d) fs olds j (q2, fs2, v2) -> void d v2) /\
    ((k < 8)%nat -> ~ void d (snd r)).
Proof.
  induction fuel as [|fuel IH]; intros i q1 fs1 v1 r Hi T V P; cbn [project] in P;
    apply bind_val in P; destruct P as (s & Es & P); apply elem_val in Es;
    (destruct (flt s f_zero) eqn:Fs;
      [| injection P as <-; exists i; split; [exact T|]; split; [lia|]; split; [exact V|];
         intros _ (s' & Es' & Fs'); cbn [snd] in Es'; rewrite Es in Es'; injection Es' as <-; rewrite Fs in Fs'; discriminate Fs']);
    apply bind_val in P; destruct P as ([[q2 fs2] v2] & Q & P);
    rewrite lowered_eq in Q by lia;
    assert (T2 : tried E x y z (d_q d) fs olds (S i) (q2, fs2, v2)) by (econstructor; [exact T | exact Q]);
    assert (V2 : forall j q3 fs3 v3, (j < S i)%nat -> tried E x y z (d_q d) fs olds j (q3, fs3, v3) -> void d v3)
      by (intros j q3 fs3 v3 Hj Tj; destruct (Nat.eq_dec j i) as [->|];
          [pose proof (tried_fun _ _ _ _ _ _ _ _ _ _ T Tj) as R; injection R as <- <- <-; exists s; split; assumption
          | apply (V j q3 fs3 v3); [lia | exact Tj]]);
    destruct (Z.of_nat (S i) <? 8) eqn:L.
  - discriminate P.
  - injection P as <-. exists (S i). apply Z.ltb_ge in L. split; [exact T2|]. split; [lia|]. split; [exact V2 | lia].
  - apply Z.ltb_lt in L. replace (Z.of_nat (S i) + 1) with (Z.of_nat (S (S i))) in P by lia.
    apply (IH (S i) q2 fs2 v2 r); [lia | exact T2 | exact V2 | exact P].
  - injection P as <-. exists (S i). apply Z.ltb_ge in L. split; [exact T2|]. split; [lia|]. split; [exact V2 | lia].
Qed.

Lemma project_complete d E x y z fs olds k r : tried E x y z (d_q d) fs olds k r -> (k <= 8)%nat ->
  0 <= d_vs d < Z.of_nat (length olds) ->
  (forall j q2 fs2 v2, (j < k)%nat -> tried E x y z (d_q d) fs olds j (q2, fs2, v2) -> void d v2) ->
  ((k < 8)%nat -> ~ void d (snd r)) ->
  forall n fuel i q1 fs1 v1, n = (k - i)%nat -> (i <= k)%nat -> (i < 8)%nat -> (8 <= fuel + i)%nat ->
  tried E x y z (d_q d) fs olds i (q1, fs1, v1) ->
  project fuel E (d_vs d) x y (start_at z) (Z.of_nat (S i)) q1 fs1 v1 = Val r.
Proof.
  intros T Hk Hp V N. induction n as [|n IH]; intros fuel i q1 fs1 v1 Hn Hik Hi8 Hf Ti.
  - assert (i = k) as -> by lia. pose proof (tried_fun _ _ _ _ _ _ _ _ _ _ T Ti) as R. subst r.
    assert (Hs : exists s, nth_error v1 (Z.to_nat (d_vs d)) = Some s).
    { destruct (nth_error v1 (Z.to_nat (d_vs d))) eqn:Es; [eexists; reflexivity|].
      apply nth_error_None in Es. rewrite (tried_length _ _ _ _ _ _ _ _ _ _ _ Ti) in Es. lia. }
    destruct Hs as (s & Es).
    assert (Fs : flt s f_zero = false).
    { destruct (flt s f_zero) eqn:Fs; [|reflexivity]. exfalso. apply N; [exact Hi8|]. exists s. split; assumption. }
    destruct fuel; cbn [project]; rewrite (proj2 (elem_val _ _ _) Es); cbn [bind]; rewrite Fs; reflexivity.
  - destruct (V i q1 fs1 v1 ltac:(lia) Ti) as (s & Es & Fs).
    destruct (tried_below _ _ _ _ _ _ _ _ _ (S i) T ltac:(lia)) as ([[q2 fs2] v2] & T2).
    assert (Q : query (E (Z.of_nat (S i))) (forgiven q1) fs1 (Some v1) x y (attempt_at z (S i)) = Val (q2, fs2, v2)).
    { apply tried_inv in T2. destruct T2 as (q3 & fs3 & v3 & T3 & Q3).
      pose proof (tried_fun _ _ _ _ _ _ _ _ _ _ Ti T3) as R. injection R as <- <- <-. exact Q3. }
    destruct fuel as [|fuel]; [lia|]. cbn [project]. rewrite (proj2 (elem_val _ _ _) Es). cbn [bind]. rewrite Fs.
    rewrite lowered_eq by lia. unfold forgiven in Q. rewrite Q. cbn [bind].
    destruct (Z.of_nat (S i) <? 8) eqn:L.
    + apply Z.ltb_lt in L. replace (Z.of_nat (S i) + 1) with (Z.of_nat (S (S i))) by lia.
      apply (IH fuel (S i) q2 fs2 v2); [lia | lia | lia | lia | exact T2].
    + apply Z.ltb_ge in L. assert (k = S i) as -> by lia. f_equal. exact (tried_fun _ _ _ _ _ _ _ _ _ _ T2 T).
Qed.

(** ** Clipping *)
Lemma store_length vals i v : length (store vals i v) = length vals.
Proof. revert i. induction vals as [|x l IH]; intros [|i]; cbn [store length]; [reflexivity | reflexivity | reflexivity | f_equal; apply IH]. Qed.
Lemma store_nth vals i v j : nth_error (store vals i v) j =
  if (j =? i)%nat then match nth_error vals j with Some _ => Some v | None => None end else nth_error vals j.
Proof.
  revert i j. induction vals as [|x l IH]; intros [|i] [|j]; cbn [store nth_error]; try reflexivity.
  - destruct (S j =? S i)%nat; reflexivity.
  - exact (IH i j).
Qed.

Lemma nth_ext (l1 l2 : list f64) : (forall i, nth_error l1 i = nth_error l2 i) -> l1 = l2.
Proof.
  revert l2. induction l1 as [|a l1 IH]; intros [|b l2] H; [reflexivity | discriminate (H O) | discriminate (H O) |].
  f_equal; [injection (H O) as ->; reflexivity | apply IH; intros i; exact (H (S i))].
Qed.
Definition pointwise (f : nat -> f64 -> f64) (v v' : list f64) : Prop :=
  length v' = length v /\ forall i s, nth_error v i = Some s -> nth_error v' i = Some (f i s).
Lemma pointwise_fun f v v1 v2 : pointwise f v v1 -> pointwise f v v2 -> v1 = v2.
Proof.
  intros [L1 H1] [L2 H2]. apply nth_ext. intros i. destruct (nth_error v i) eqn:Q.
  - rewrite (H1 _ _ Q), (H2 _ _ Q). reflexivity.
  - apply nth_error_None in Q. rewrite !(proj2 (nth_error_None _ _)) by lia. reflexivity.
Qed.
Lemma pointwise_comp f g v v1 v2 : pointwise f v v1 -> pointwise g v1 v2 -> pointwise (fun i s => g i (f i s)) v v2.
Proof. intros [L1 H1] [L2 H2]. split; [congruence|]. intros i s Q. apply H2, H1, Q. Qed.
Definition stage (b : bool) (j : Z) (lo hi : f64) (i : nat) (s : f64) : f64 :=
  if b && ((0 <=? j) && (Z.of_nat i =? j)) then at_least lo hi s else s.
Lemma raise_to_pointwise j lo hi v v' : 0 <= j -> raise_to j lo hi v = Val v' -> pointwise (stage true j lo hi) v v'.
Proof.
  intros Hj H. unfold raise_to in H. apply bind_val in H. destruct H as (s & Es & H). apply elem_val in Es. injection H as <-.
  split; [destruct (_ && _); [apply store_length | reflexivity]|].
  intros i t Et. unfold stage, at_least. rewrite (proj2 (Z.leb_le 0 j) Hj). cbn [andb].
  destruct (Z.eqb_spec (Z.of_nat i) j) as [<-|Ne].
  - rewrite Nat2Z.id in *. rewrite Et in Es. injection Es as <-. destruct (_ && _); [|exact Et].
    rewrite store_nth, Nat.eqb_refl, Et. reflexivity.
  - destruct (_ && _); [|exact Et]. rewrite store_nth. destruct (Nat.eqb_spec i (Z.to_nat j)) as [->|]; [lia | exact Et].
Qed.
Lemma raise_to_total j lo hi v : 0 <= j < Z.of_nat (length v) -> exists v', raise_to j lo hi v = Val v'.
Proof.
  intros H. unfold raise_to, elem. destruct (nth_error v (Z.to_nat j)) eqn:Q; [eexists; reflexivity|].
  apply nth_error_None in Q. lia.
Qed.
Lemma stage_off b j lo hi v : b && (0 <=? j) = false -> pointwise (stage b j lo hi) v v.
Proof.
  intros H. split; [reflexivity|]. intros i s Q. rewrite Q. unfold stage. rewrite andb_assoc, H. reflexivity.
Qed.
Lemma optional_raise b j lo hi v v' : (if b && (0 <=? j) then raise_to j lo hi v else Val v) = Val v' ->
  pointwise (stage b j lo hi) v v'.
Proof.
  destruct b; cbn [andb].
  - destruct (Z.leb_spec 0 j) as [Hj|Hj]; intros H; [exact (raise_to_pointwise _ _ _ _ _ Hj H)|].
    injection H as <-. apply stage_off. apply Z.leb_gt in Hj. rewrite Hj. reflexivity.
  - intros H. injection H as <-. apply stage_off. reflexivity.
Qed.
Lemma optional_total b j lo hi v : j < Z.of_nat (length v) ->
  exists v', (if b && (0 <=? j) then raise_to j lo hi v else Val v) = Val v'.
Proof.
  intros H. destruct b; cbn [andb]; [|eexists; reflexivity].
  destruct (Z.leb_spec 0 j); [apply raise_to_total; lia | eexists; reflexivity].
Qed.

(** ** The whole query *)
Definition clip_stages d (i : nat) (s : f64) : f64 :=
  stage true (d_density d) (i2f64 1000) (i2f64 2000) i
    (stage true (d_vp d) f_zero (add64 (i2f64 1360) (mul64 (dec64 116 2) (d_minVs d))) i
      (stage (d_down d) (d_vs d) f_zero (d_minVs d) i s)).
Lemma clip_stages_eq d i s : clip_stages d i s = clip d i s.
Proof.
  unfold clip_stages, clip, stage. cbv zeta. cbn [andb]. rewrite (andb_comm (d_down d)). reflexivity.
Qed.
Lemma clipped_eq d v v' : clipped d v v' <-> pointwise (clip_stages d) v v'.
Proof.
  split; intros [L H]; (split; [exact L|]); intros i s Q; [rewrite clip_stages_eq | rewrite <- clip_stages_eq]; apply H, Q.
Qed.

Lemma vd_query_sound E convert coords d fs vals d' fs' vals' c :
  vd_query E convert coords d fs vals = Val (d', fs', vals', Returns c) ->
  exists p x y z, coords = [fst (fst p); snd (fst p); snd p] /\ convert p = Returns (x, y, z) /\
  (forall q0 fs0 v0, tried E x y z (d_q d) fs vals 0 (q0, fs0, v0) -> status_of q0 <> ERROR) /\
  exists k q v, used d E x y z fs vals k (q, fs', v) /\ clipped d v vals' /\
    c = (match status_of q with WARNING => 1 | _ => 0 end) /\
    d' = vd_set d (match status_of q with WARNING => forgiven q | _ => q end).
Proof.
  unfold vd_query. destruct coords as [|cx [|cy [|cz [|? ?]]]]; intros H; try discriminate H.
  destruct (convert (cx, cy, cz)) as [[[x y] z]|m] eqn:CV; [|discriminate H].
  exists (cx, cy, cz), x, y, z. split; [reflexivity|]. split; [exact CV|].
  cbv zeta in H. change (if flt z (i2f64 (-44950)) then i2f64 (-44950) else z) with (attempt_at z 0) in H.
  apply bind_val in H. destruct H as ([[q0 fs0] v0] & Q0 & H).
  assert (T0 : tried E x y z (d_q d) fs vals 0 (q0, fs0, v0)) by (constructor; exact Q0).
  change (eh_status (q_err q0)) with (status_of q0) in H.
  assert (NE : status_of q0 <> ERROR) by (intros A; rewrite A in H; discriminate H).
  split. { intros q1 fs1 v1 T1. pose proof (tried_fun _ _ _ _ _ _ _ _ _ _ T0 T1) as R. injection R as <- _ _. exact NE. }
  assert (H' : (let* (q, fs, vals) :=
      if (0 <=? d_vs d) && d_down d then
        let* (q, fs, vals) := project 8 E (d_vs d) x y (attempt_at z 0) 1 q0 fs0 v0 in
        let* vals := raise_to (d_vs d) f_zero (d_minVs d) vals in Val (q, fs, vals)
      else Val (q0, fs0, v0) in
      let* vals := if 0 <=? d_vp d then raise_to (d_vp d) f_zero (add64 (i2f64 1360) (mul64 (dec64 116 2) (d_minVs d))) vals else Val vals in
      let* vals := if 0 <=? d_density d then raise_to (d_density d) (i2f64 1000) (i2f64 2000) vals else Val vals in
      match eh_status (q_err q) with
      | WARNING => Val (vd_set d (with_err q (eh_reset (q_err q))), fs, vals, Returns 1)
      | _ => Val (vd_set d q, fs, vals, Returns 0)
      end) = Val (d', fs', vals', Returns c)) by (destruct (status_of q0); [exact H | exact H | congruence]).
  clear H. apply bind_val in H'. destruct H' as ([[q fs1] v1] & P & H).
  apply bind_val in H. destruct H as (v2 & R2 & H). apply bind_val in H. destruct H as (v3 & R3 & H).
  assert (K : exists k v, used d E x y z fs vals k (q, fs1, v) /\ pointwise (stage (d_down d) (d_vs d) f_zero (d_minVs d)) v v1).
  { unfold used, projects. destruct ((0 <=? d_vs d) && d_down d) eqn:PJ.
    - apply bind_val in P. destruct P as ([[q' fs2] v] & P & P2). apply bind_val in P2. destruct P2 as (v1' & R1 & P2).
      injection P2 as <- <- <-.
      destruct (project_sound d E x y z fs vals 8 0 q0 fs0 v0 (q', fs2, v) ltac:(lia) T0 ltac:(intros; lia) P) as (k & T & A).
      exists k, v. split; [split; [exact T | exact A]|].
      apply andb_true_iff in PJ. destruct PJ as [PJ ->]. apply Z.leb_le in PJ. exact (raise_to_pointwise _ _ _ _ _ PJ R1).
    - injection P as <- <- <-. exists O, v0. split; [split; [exact T0 | reflexivity]|].
      apply stage_off. rewrite andb_comm. exact PJ. }
  destruct K as (k & v & U & S1).
  pose proof (optional_raise true _ _ _ _ _ R2) as S2. pose proof (optional_raise true _ _ _ _ _ R3) as S3.
  exists k, q, v. change (eh_status (q_err q)) with (status_of q) in H.
  assert (C : clipped d v v3) by (apply clipped_eq; exact (pointwise_comp _ _ _ _ _ (pointwise_comp _ _ _ _ _ S1 S2) S3)).
  destruct (status_of q) eqn:SQ; injection H as <- <- <- <-; (split; [exact U|]); (split; [exact C|]); split; reflexivity.
Qed.

Lemma vd_query_complete E convert d fs vals p x y z q0 fs0 v0 k q fs' v vals' :
  positions_ok d (length vals) -> convert p = Returns (x, y, z) ->
  tried E x y z (d_q d) fs vals 0 (q0, fs0, v0) -> status_of q0 <> ERROR ->
  used d E x y z fs vals k (q, fs', v) -> clipped d v vals' ->
  vd_query E convert [fst (fst p); snd (fst p); snd p] d fs vals =
    Val (vd_set d (match status_of q with WARNING => forgiven q | _ => q end), fs', vals',
         Returns (match status_of q with WARNING => 1 | _ => 0 end)).
Proof.
  intros PO CV T0 NE [T U] C. unfold vd_query. destruct p as [[cx cy] cz]. cbn [fst snd]. rewrite CV. cbv zeta.
  change (if flt z (i2f64 (-44950)) then i2f64 (-44950) else z) with (attempt_at z 0).
  rewrite (tried_inv _ _ _ _ _ _ _ _ _ T0). cbn [bind]. fold (status_of q0).
  assert (LV : length v = length vals) by exact (tried_length _ _ _ _ _ _ _ _ _ _ _ T).
  assert (K : exists v1, (if (0 <=? d_vs d) && d_down d then
        let* (q, fs, vals) := project 8 E (d_vs d) x y (attempt_at z 0) 1 q0 fs0 v0 in
        let* vals := raise_to (d_vs d) f_zero (d_minVs d) vals in Val (q, fs, vals)
      else Val (q0, fs0, v0)) = Val (q, fs', v1) /\ pointwise (stage (d_down d) (d_vs d) f_zero (d_minVs d)) v v1).
  { unfold projects in U. destruct ((0 <=? d_vs d) && d_down d) eqn:PJ.
    - destruct U as (K8 & V & N). apply andb_true_iff in PJ. destruct PJ as [PJ ->]. apply Z.leb_le in PJ.
      assert (B : d_vs d < Z.of_nat (length vals)) by (apply PO; left; reflexivity).
      pose proof (project_complete d E x y z fs vals k (q, fs', v) T K8 (conj PJ B) V N (k - 0)%nat 8%nat 0%nat q0 fs0 v0
        eq_refl ltac:(lia) ltac:(lia) ltac:(lia) T0) as P.
      change (start_at z) with (attempt_at z 0) in P. change (Z.of_nat 1) with 1 in P. rewrite P. cbn [bind].
      destruct (raise_to_total (d_vs d) f_zero (d_minVs d) v) as (v1 & R1); [rewrite LV; lia|].
      rewrite R1. cbn [bind]. exists v1. split; [reflexivity | exact (raise_to_pointwise _ _ _ _ _ PJ R1)].
    - subst k. pose proof (tried_fun _ _ _ _ _ _ _ _ _ _ T0 T) as R. injection R as -> -> ->.
      exists v. split; [reflexivity|]. apply stage_off. rewrite andb_comm. exact PJ. }
  destruct K as (v1 & P & S1).
  destruct (optional_total true (d_vp d) f_zero (add64 (i2f64 1360) (mul64 (dec64 116 2) (d_minVs d))) v1) as (v2 & R2).
  { rewrite (proj1 S1), LV. apply PO. right. left. reflexivity. }
  pose proof (optional_raise true _ _ _ _ _ R2) as S2.
  destruct (optional_total true (d_density d) (i2f64 1000) (i2f64 2000) v2) as (v3 & R3).
  { rewrite (proj1 S2), (proj1 S1), LV. apply PO. right. right. reflexivity. }
  pose proof (optional_raise true _ _ _ _ _ R3) as S3. cbn [andb] in R2, R3.
  assert (vals' = v3) as ->.
  { apply (pointwise_fun (clip_stages d) v); [apply clipped_eq, C|].
    exact (pointwise_comp _ _ _ _ _ (pointwise_comp _ _ _ _ _ S1 S2) S3). }
  destruct (status_of q0); [| |congruence]; rewrite P; cbn [bind]; rewrite R2; cbn [bind]; rewrite R3; cbn [bind];
    fold (status_of q); unfold forgiven; destruct (status_of q); reflexivity.
Qed.

Lemma vd_query_throws E convert coords d fs vals d' fs' vals' m :
  vd_query E convert coords d fs vals = Val (d', fs', vals', Throws m) ->
  exists p, coords = [fst (fst p); snd (fst p); snd p] /\
  ((convert p = Throws m /\ d' = d /\ fs' = fs /\ vals' = vals) \/
   exists x y z q, convert p = Returns (x, y, z) /\ tried E x y z (d_q d) fs vals 0 (q, fs', vals') /\
     status_of q = ERROR /\ m = eh_msg (q_err q) /\ d' = vd_set d q).
Proof.
  unfold vd_query. destruct coords as [|cx [|cy [|cz [|? ?]]]]; intros H; try discriminate H.
  exists (cx, cy, cz). split; [reflexivity|].
  destruct (convert (cx, cy, cz)) as [[[x y] z]|m'] eqn:CV.
  2:{ left. injection H as <- <- <- <-. repeat split. }
  right. exists x, y, z. cbv zeta in H. change (if flt z (i2f64 (-44950)) then i2f64 (-44950) else z) with (attempt_at z 0) in H.
  apply bind_val in H. destruct H as ([[q0 fs0] v0] & Q0 & H).
  destruct (eh_status (q_err q0)) eqn:S0.
  3:{ injection H as <- <- <- <-. exists q0. split; [reflexivity|]. split; [constructor; exact Q0|]. repeat split. exact S0. }
  all: exfalso; apply bind_val in H; destruct H as ([[q fs1] v1] & P & H);
    apply bind_val in H; destruct H as (v2 & R2 & H); apply bind_val in H; destruct H as (v3 & R3 & H);
    destruct (eh_status (q_err q)); discriminate H.
Qed.

(** ** Histories *)
Lemma selector_codes names : known_codes (map selector names).
Proof. intros k I. apply in_map_iff in I. destruct I as (n & Q & _). exact (selector_range n k Q). Qed.
Lemma tried_settings E x y z q fs olds k q' fs' v : tried E x y z q fs olds k (q', fs', v) -> q' = with_err q (q_err q').
Proof.
  intros T. remember (q', fs', v) as r eqn:R. revert q' fs' v R.
  induction T as [r H | i q1 fs1 v1 r T IH H]; intros q' fs' v ->.
  - exact (proj1 (query_effects _ _ _ _ _ _ _ _ _ _ H)).
  - pose proof (proj1 (query_effects _ _ _ _ _ _ _ _ _ _ H)) as A. rewrite A at 1. rewrite (IH _ _ _ eq_refl). reflexivity.
Qed.
Lemma tried_values E x y z q fs olds k q' fs' v fs2 olds2 : known_codes (q_vals q) -> length olds2 = length olds ->
  tried E x y z q fs olds k (q', fs', v) ->
  omap snd (query (E (Z.of_nat k)) q fs2 (Some olds2) x y (attempt_at z k)) = Val v.
Proof.
  intros K L T. destruct k as [|k]; pose proof (tried_inv _ _ _ _ _ _ _ _ _ T) as I; cbv beta iota in I.
  - change (Z.of_nat 0) with 0.
    rewrite (query_indep (E 0) q (q_err q) fs2 fs olds2 olds x y _ K L). replace (with_err q (q_err q)) with q by (destruct q; reflexivity).
    rewrite I. reflexivity.
  - destruct I as (q1 & fs1 & v1 & T1 & Q).
    rewrite (query_indep (E (Z.of_nat (S k))) q (eh_reset (q_err q1)) fs2 fs1 olds2 v1 x y _ K).
    + pose proof (tried_settings _ _ _ _ _ _ _ _ _ _ _ T1) as A. unfold forgiven in Q.
      replace (with_err q (eh_reset (q_err q1))) with (with_err q1 (eh_reset (q_err q1))) by (rewrite A; reflexivity).
      rewrite Q. reflexivity.
    + rewrite L. symmetry. exact (tried_length _ _ _ _ _ _ _ _ _ _ _ T1).
Qed.

Definition settled d : Prop := status_of (d_q d) <> WARNING /\ known_codes (q_vals (d_q d)).
Lemma query_result E convert coords d fs vals d' fs' vals' r :
  vd_query E convert coords d fs vals = Val (d', fs', vals', r) ->
  exists e, d' = vd_set d (with_err (d_q d) e) /\ (r = Returns 0 -> eh_status e <> WARNING) /\
    (r <> Returns 0 -> d' = d \/ eh_status e <> WARNING).
Proof.
  intros H. assert (D0 : d = vd_set d (with_err (d_q d) (q_err (d_q d)))) by (destruct d as [? ? ? ? ? []]; reflexivity).
  destruct r as [c|m].
  - apply vd_query_sound in H. destruct H as (p & x & y & z & _ & _ & _ & k & q & v & (T & _) & _ & -> & ->).
    pose proof (tried_settings _ _ _ _ _ _ _ _ _ _ _ T) as A. unfold status_of, forgiven.
    destruct (eh_status (q_err q)) eqn:S.
    + exists (q_err q). rewrite A at 1. split; [reflexivity|]. rewrite S. split; intros; [|right]; discriminate.
    + exists (eh_reset (q_err q)). rewrite A at 1. split; [reflexivity|]. split; intros; [|right]; discriminate.
    + exists (q_err q). rewrite A at 1. split; [reflexivity|]. rewrite S. split; intros; [|right]; discriminate.
  - apply vd_query_throws in H. destruct H as (p & _ & [(_ & -> & _)|(x & y & z & q & _ & T & S & _ & ->)]).
    + exists (q_err (d_q d)). split; [exact D0|]. split; [discriminate | left; reflexivity].
    + exists (q_err q). rewrite (tried_settings _ _ _ _ _ _ _ _ _ _ _ T) at 1. split; [reflexivity|].
      split; [discriminate|]. intros _. right. unfold status_of in S. rewrite S. discriminate.
Qed.
Lemma fold_errors names e : eh_status (fold_left (fun e n => match selector n with
                 | Some _ => e | None => eh_error (name_msg n) e end) names e) = eh_status e \/
  eh_status (fold_left (fun e n => match selector n with
                 | Some _ => e | None => eh_error (name_msg n) e end) names e) = ERROR.
Proof.
  revert e. induction names as [|n names IH]; intros e; [left; reflexivity|]. cbn [fold_left].
  destruct (selector n); [apply IH|]. destruct (IH (eh_error (name_msg n) e)) as [->| ->]; right; reflexivity.
Qed.
Lemma open_status (E : env DB) q q' : open E q = Val q' ->
  (status_of q' = status_of q \/ status_of q' = ERROR) /\ q_vals q' = q_vals q.
Proof.
  unfold open, status_of. intros H. apply bind_val in H. destruct H as ([dd e1] & H1 & H).
  apply bind_val in H. destruct H as ([xx e2] & H2 & H). injection H as <-. cbn. split; [|reflexivity].
  assert (A : eh_status e1 = eh_status (q_err q) \/ eh_status e1 = ERROR).
  { destruct (q_db q); [injection H1 as <- <-; left; reflexivity|].
    apply bind_val in H1. destruct H1 as (u & _ & H1).
    destruct (e_open E (q_name q) (q_cache q)); injection H1 as <- <-; [left | right]; reflexivity. }
  assert (B : eh_status e2 = eh_status e1 \/ eh_status e2 = ERROR).
  { destruct (String.eqb (q_nameExt q) ""); [injection H2 as <- <-; left; reflexivity|].
    destruct (q_dbExt q); [injection H2 as <- <-; left; reflexivity|].
    apply bind_val in H2. destruct H2 as (u & _ & H2).
    destruct (e_open E (q_nameExt q) (q_cacheExt q)); injection H2 as <- <-; [left | right]; reflexivity. }
  destruct B as [->|B]; [exact A | right; exact B].
Qed.
Lemma close_status (E : env DB) q : status_of (close E q) = status_of q \/ status_of (close E q) = ERROR.
Proof.
  unfold close, status_of, close1. cbn. destruct (q_db q) as [a|], (q_dbExt q) as [b|]; try (left; reflexivity);
    try destruct (e_close E a); try destruct (e_close E b); try (left; reflexivity); right; reflexivity.
Qed.
Lemma vals_status names q q' : set_queryVals names q = Val q' ->
  (status_of q' = status_of q \/ status_of q' = ERROR) /\ (known_codes (q_vals q) -> known_codes (q_vals q')).
Proof.
  unfold set_queryVals, status_of. destruct names as [[|n names]|]; [| |discriminate]; intros H; injection H as <-.
  - split; [left; reflexivity | auto].
  - split; [apply (fold_errors (n :: names)) | intros _; apply (selector_codes (n :: names))].
Qed.
Lemma type_status n q : (status_of (set_queryType n q) = status_of q \/ status_of (set_queryType n q) = ERROR) /\
  q_vals (set_queryType n q) = q_vals q.
Proof. unfold set_queryType, status_of. destruct (qtype_of n); (split; [|reflexivity]); [left | right]; reflexivity. Qed.

(** Every call but a query keeps the status or makes it ERROR. *)
Lemma dstep_status d fs c d' fs' x : dstep (d, fs) c = Val (d', fs', x) ->
  match c with DQuery _ _ _ _ => False | _ => True end ->
  (status_of (d_q d') = status_of (d_q d) \/ status_of (d_q d') = ERROR) /\
  (known_codes (q_vals (d_q d)) -> known_codes (q_vals (d_q d'))) /\ fs' = fs.
Proof.
  intros H NQ. destruct c; cbn [dstep] in H; try contradiction NQ; clear NQ;
    try (injection H as <- <- <-; split; [left; reflexivity | split; [auto | reflexivity]]).
  - apply bind_val in H. destruct H as ([d1 r] & H1 & H). injection H as <- <- <-.
    apply bind_val in H1. destruct H1 as (q1 & H1 & H2). injection H2 as <- <-. apply open_status in H1.
    destruct H1 as [A B]. split; [exact A|]. cbn. rewrite B. auto.
  - injection H as <- <- <-. split; [apply close_status | split; [auto | reflexivity]].
  - apply bind_val in H. destruct H as ([d1 r] & H1 & H). injection H as <- <- <-.
    apply bind_val in H1. destruct H1 as (u & _ & H1). injection H1 as <- <-. destruct (type_status n (d_q d)) as [A B].
    split; [exact A|]. cbn [d_q vd_set]. rewrite B. auto.
  - injection H as <- <- <-. split; [left|]; unfold vd_queryRes, set_queryRes; cbn; destruct (fgt r f_zero); cbn; auto.
  - apply bind_val in H. destruct H as ([d1 r] & H1 & H). injection H as <- <- <-.
    apply bind_val in H1. destruct H1 as (q1 & H1 & H2). apply vals_status in H1.
    destruct (checked q1 tt); injection H2 as <- <-; destruct H1; auto.
  - injection H as <- <- <-. split; [left|]; unfold vd_cacheSize, set_cacheSize; cbn; destruct (0 <? s); cbn; auto.
  - injection H as <- <- <-. split; [left|]; unfold vd_cacheSizeExt, set_cacheSizeExt; cbn; destruct (0 <? s); cbn; auto.
Qed.
Lemma dstep_settled d fs c d' fs' x : settled d -> dstep (d, fs) c = Val (d', fs', x) -> settled d'.
Proof.
  intros [S K] H.
  assert (G : match c with DQuery _ _ _ _ => False | _ => True end -> settled d').
  { intros NQ. destruct (dstep_status _ _ _ _ _ _ H NQ) as (A & B & _). split; [|exact (B K)].
    destruct A as [A|A]; rewrite A; [exact S | discriminate]. }
  destruct c; try (apply G; exact I). clear G.
  cbn [dstep] in H. apply bind_val in H. destruct H as ([[[d1 fs1] v1] r] & H1 & H). injection H as <- <- <-.
  destruct (query_result _ _ _ _ _ _ _ _ _ _ H1) as (e & Q & R0 & R1). split; [|rewrite Q; exact K].
  assert (D : r = Returns 0 \/ r <> Returns 0) by (destruct r as [[|p|p]|m]; [left; reflexivity | right; discriminate ..]).
  destruct D as [D|D]; [rewrite Q; exact (R0 D)|]. destruct (R1 D) as [-> | N]; [exact S | rewrite Q; exact N].
Qed.
Lemma drun_settled h d fs d' fs' xs : settled d -> drun h (d, fs) = Val (d', fs', xs) -> settled d'.
Proof.
  revert d fs d' fs' xs. induction h as [|c h IH]; intros d fs d' fs' xs S H; cbn [drun] in H.
  - injection H as <- _ _. exact S.
  - apply bind_val in H. destruct H as ([[d1 fs1] x] & H1 & H). apply bind_val in H. destruct H as ([[d2 fs2] xs2] & H2 & H).
    injection H as <- <- <-. eapply IH; [|exact H2]. eapply dstep_settled; eassumption.
Qed.
Lemma new_settled g : settled (vd_new g).
Proof.
  split; [discriminate|]. intros k I. cbn [vd_new d_q q_new q_vals] in I. apply in_map_iff in I. destruct I as (i & Q & I).
  injection Q as <-. apply in_seq in I. lia.
Qed.

(** ** Positions *)
Lemma vd_index_spec what names i acc : 0 <= i ->
  let j := vd_index what names i acc in
  (j = acc /\ forall k n, nth_error names k = Some n -> casecmp n what = false) \/
  (i <= j < i + Z.of_nat (length names) /\ (exists n, nth_error names (Z.to_nat (j - i)) = Some n /\ casecmp n what = true) /\
   forall k n, nth_error names k = Some n -> j < i + Z.of_nat k -> casecmp n what = false).
Proof.
  revert i acc. induction names as [|n names IH]; intros i acc Hi; cbn [vd_index].
  - left. split; [reflexivity|]. intros k n Q. destruct k; discriminate Q.
  - destruct (IH (i + 1) (if casecmp n what then i else acc) ltac:(lia)) as [[J N] | (J & (m & Q & C) & N)].
    + rewrite J. destruct (casecmp n what) eqn:C.
      * right. split; [cbn [length]; lia|]. split.
        -- exists n. rewrite Z.sub_diag. split; [reflexivity | exact C].
        -- intros [|k] m Q L; [lia | exact (N k m Q)].
      * left. split; [reflexivity|]. intros [|k] m Q; [injection Q as <-; exact C | exact (N k m Q)].
    + right. set (j := vd_index _ _ _ _) in *. split; [cbn [length]; lia|]. split.
      * exists m. split; [|exact C]. replace (Z.to_nat (j - i)) with (S (Z.to_nat (j - (i + 1)))) by lia. exact Q.
      * intros [|k] m' Q' L; [lia | apply (N k m' Q'); lia].
Qed.
Lemma vd_index_last what names : last_position what names (vd_index what names 0 (-1)) /\
  vd_index what names 0 (-1) < Z.of_nat (length names).
Proof.
  unfold last_position. destruct (vd_index_spec what names 0 (-1) ltac:(lia)) as [[J N] | (J & (m & Q & C) & N)].
  - rewrite J. split; [left; split; [reflexivity | exact N] | lia].
  - set (j := vd_index _ _ _ _) in *. split; [right | lia]. split; [lia|]. rewrite Z.sub_0_r in Q. split; [exists m; split; assumption|].
    intros k n Qn L. apply (N k n Qn). lia.
Qed.
Definition same_positions d d' : Prop :=
  d_vs d' = d_vs d /\ d_vp d' = d_vp d /\ d_density d' = d_density d /\ q_vals (d_q d') = q_vals (d_q d).
Lemma dstep_positions d fs c d' fs' x : dstep (d, fs) c = Val (d', fs', x) ->
  match c with DVals _ => False | _ => True end -> same_positions d d'.
Proof.
  intros H NV. destruct c; cbn [dstep] in H; try contradiction NV; clear NV;
    try (injection H as <- <- <-; repeat split; fail).
  - apply bind_val in H. destruct H as ([d1 r] & H1 & H). injection H as <- <- <-.
    apply bind_val in H1. destruct H1 as (q1 & H1 & H2). injection H2 as <- <-. apply open_status in H1. repeat split. apply H1.
  - apply bind_val in H. destruct H as ([d1 r] & H1 & H). injection H as <- <- <-.
    apply bind_val in H1. destruct H1 as (u & _ & H1). injection H1 as <- <-. repeat split. apply type_status.
  - injection H as <- <- <-. unfold vd_queryRes, set_queryRes. destruct (fgt r f_zero); repeat split.
  - injection H as <- <- <-. unfold vd_cacheSize, set_cacheSize. destruct (0 <? s); repeat split.
  - injection H as <- <- <-. unfold vd_cacheSizeExt, set_cacheSizeExt. destruct (0 <? s); repeat split.
  - apply bind_val in H. destruct H as ([[[d1 fs1] v1] r] & H1 & H). injection H as <- <- <-.
    destruct (query_result _ _ _ _ _ _ _ _ _ _ H1) as (e & -> & _). repeat split.
Qed.
Lemma drun_positions h d fs d' fs' xs : drun h (d, fs) = Val (d', fs', xs) ->
  Forall (fun c => match c with DVals _ => False | _ => True end) h -> same_positions d d'.
Proof.
  revert d fs d' fs' xs. induction h as [|c h IH]; intros d fs d' fs' xs H F; cbn [drun] in H.
  - injection H as <- _ _. repeat split.
  - apply bind_val in H. destruct H as ([[d1 fs1] x] & H1 & H). apply bind_val in H. destruct H as ([[d2 fs2] xs2] & H2 & H).
    injection H as <- <- <-. inversion F as [|? ? F1 F2]; subst.
    destruct (dstep_positions _ _ _ _ _ _ H1 F1) as (A1 & A2 & A3 & A4). destruct (IH _ _ _ _ _ H2 F2) as (B1 & B2 & B3 & B4).
    repeat split; congruence.
Qed.
End Facts.
