(** Proofs about limiting gradients in exact arithmetic. *)
From Coq Require Import ZArith Bool Reals Lra Lia List.
From Verif Require Import Outcome Float Payload Addr VsGrader SpecGrade.
Import ListNotations.
Open Scope R_scope.

Lemma Rabs_le_iff x d : Rabs x <= d <-> - d <= x <= d.
Proof. split; [intros H; unfold Rabs in H; destruct (Rcase_abs x); lra | intros H; apply Rabs_le; exact H]. Qed.

(** ** Profiles of real numbers *)
Section Profile.
Variable d : R.
Fixpoint rfwd (n : R) (l : list R) : list R :=
  match l with [] => [] | q :: l => Rmin q (n + d) :: rfwd (Rmin q (n + d)) l end.
Fixpoint rbwd (l : list R) : list R :=
  match l with
  | [] => []
  | q :: l => match rbwd l with [] => [q] | n :: r => Rmin q (n + d) :: n :: r end
  end.
Definition rlimit (l : list R) : list R := match l with [] => [] | q :: l => rbwd (q :: rfwd q l) end.

Fixpoint ups (x : R) (l : list R) : Prop := match l with [] => True | y :: l => y - x <= d /\ ups y l end.
Fixpoint downs (x : R) (l : list R) : Prop := match l with [] => True | y :: l => x - y <= d /\ downs y l end.

Lemma limited_cons x l : limited d (x :: l) <-> ups x l /\ downs x l.
Proof.
  revert x. induction l as [|y l IH]; intros x.
  - split; [intros _; split; exact I|]. intros _ [|i] a b H1 H2; [discriminate H2 | destruct i; discriminate H2].
  - cbn [ups downs]. split.
    + intros H. pose proof (H 0%nat x y eq_refl eq_refl) as H0. apply (proj1 (Rabs_le_iff _ _)) in H0.
      assert (H' : limited d (y :: l)) by (intros i a b A B; exact (H (S i) a b A B)). apply IH in H'. lra || (split; split; try lra; apply H').
    + intros [[A U] [B D]]. assert (H' : limited d (y :: l)) by (apply IH; split; assumption).
      intros [|i] a b Ha Hb; [injection Ha as <-; injection Hb as <-; apply Rabs_le; lra | exact (H' i a b Ha Hb)].
Qed.

Lemma rfwd_below n l : below (rfwd n l) l.
Proof. revert n. induction l as [|q l IH]; intros n; [constructor|]. constructor; [apply Rmin_l | apply IH]. Qed.
Lemma rfwd_ups n l : ups n (rfwd n l).
Proof. revert n. induction l as [|q l IH]; intros n; [exact I|]. split; [pose proof (Rmin_r q (n + d)); lra | apply IH]. Qed.
Lemma rfwd_largest w l : forall n x, x <= n -> ups x w -> below w l -> below w (rfwd n l).
Proof.
  revert l. induction w as [|y w IH]; intros l n x H U B; inversion B; subst; [constructor|]. destruct U as [U1 U2]. cbn [rfwd].
  assert (y <= Rmin y0 (n + d)) by (apply Rmin_glb; lra). constructor; [assumption|]. eapply IH; eauto.
Qed.
Lemma rbwd_nonempty q l : exists x r, rbwd (q :: l) = x :: r.
Proof. cbn [rbwd]. destruct (rbwd l); eauto. Qed.
Lemma rbwd_length l : length (rbwd l) = length l.
Proof. induction l as [|q l IH]; [reflexivity|]. cbn [rbwd length]. rewrite <- IH. destruct (rbwd l); reflexivity. Qed.
Lemma rbwd_below l : below (rbwd l) l.
Proof.
  induction l as [|q l IH]; [constructor|]. cbn [rbwd]. destruct (rbwd l) as [|n r] eqn:Q.
  - pose proof (rbwd_length l) as Le. rewrite Q in Le. destruct l; [repeat constructor; lra | discriminate Le].
  - constructor; [apply Rmin_l | exact IH].
Qed.
Lemma rbwd_downs l x r : rbwd l = x :: r -> downs x r.
Proof.
  revert x r. induction l as [|q l IH]; intros x r Q; [discriminate Q|]. cbn [rbwd] in Q. destruct (rbwd l) as [|n r0] eqn:E.
  - injection Q as <- <-. exact I.
  - injection Q as <- <-. split; [pose proof (Rmin_r q (n + d)); lra | exact (IH _ _ eq_refl)].
Qed.
Lemma rbwd_ups : 0 <= d -> forall l q, ups q l -> forall x r, rbwd (q :: l) = x :: r -> ups x r.
Proof.
  intros Hd. induction l as [|y l IH]; intros q U x r Q.
  - cbn in Q. injection Q as <- <-. exact I.
  - destruct U as [U1 U2]. destruct (rbwd_nonempty y l) as (n & r0 & E). cbn [rbwd] in Q, E. rewrite E in Q. injection Q as <- <-.
    split; [|exact (IH y U2 n r0 E)].
    pose proof (rbwd_below (y :: l)) as B. cbn [rbwd] in B. rewrite E in B. inversion B; subst.
    unfold Rmin. destruct (Rle_dec q (n + d)); lra.
Qed.
Lemma rbwd_largest w l : w = [] \/ downs (hd 0 w) (tl w) -> below w l -> below w (rbwd l).
Proof.
  revert l. induction w as [|y w IH]; intros l DW B; inversion B; subst; [constructor|].
  destruct DW as [DW|DW]; [discriminate DW|]. cbn [hd tl] in DW. cbn [rbwd].
  assert (B' : below w (rbwd l')).
  { apply (IH l'); [|assumption]. destruct w as [|z w]; [left; reflexivity|]. right. cbn [hd tl]. apply DW. }
  destruct (rbwd l') as [|n r] eqn:Q.
  - inversion B'; subst. constructor; [assumption | constructor].
  - inversion B' as [|z ? w' ? Hz Hw]; subst. destruct DW as [D1 D2]. constructor; [apply Rmin_glb; lra|]. constructor; assumption.
Qed.

Lemma below_trans a b c : below a b -> below b c -> below a c.
Proof.
  intros H. revert c. induction H as [|x y l m Hx H IH]; intros c H2; inversion H2; subst; constructor; [lra | apply IH; assumption].
Qed.
Theorem rlimit_largest l : 0 <= d -> largest_limited d l (rlimit l).
Proof.
  intros Hd. destruct l as [|q l].
  - split; [intros [|i] x y H; discriminate H|]. split; [constructor|]. intros w _ B. inversion B; subst. constructor.
  - unfold rlimit. split; [|split].
    + destruct (rbwd_nonempty q (rfwd q l)) as (x & r & E). rewrite E. apply limited_cons. split.
      * exact (rbwd_ups Hd _ _ (rfwd_ups q l) _ _ E).
      * exact (rbwd_downs _ _ _ E).
    + apply (below_trans _ (q :: rfwd q l)); [apply rbwd_below|]. constructor; [lra | apply rfwd_below].
    + intros w Lw B. inversion B as [|x ? w' ? Hx Hw]; subst. apply limited_cons in Lw. destruct Lw as [U W].
      apply rbwd_largest; [right; exact W |]. constructor; [lra | exact (rfwd_largest w' l q x Hx U Hw)].
Qed.
Lemma below_antisym a b : below a b -> below b a -> a = b.
Proof. intros H. induction H as [|x y l m Hx H IH]; intros H2; [reflexivity|]. inversion H2; subst. f_equal; [lra | apply IH; assumption]. Qed.
Lemma below_refl a : below a a.
Proof. induction a; constructor; [lra | assumption]. Qed.
Lemma largest_unique v b b' : largest_limited d v b -> largest_limited d v b' -> b = b'.
Proof. intros (L & B & M) (L' & B' & M'). apply below_antisym; [apply M' | apply M]; assumption. Qed.
Lemma limited_fixed l : 0 <= d -> limited d l -> rlimit l = l.
Proof.
  intros Hd L. apply (largest_unique l); [apply rlimit_largest, Hd|]. split; [exact L|]. split; [apply below_refl|]. auto.
Qed.
End Profile.

(** ** The loops in exact arithmetic *)
Section Loops.
Variable d : R.
Notation step := (limit1 exact d).
Lemma step_vs n q : r_vs (fst (step n q)) = Rmin (r_vs q) (r_vs n + d).
Proof.
  unfold limit1, exact. cbn [ar_gt ar_sub ar_vs ar_set ar_add]. destruct (Rlt_dec d (r_vs q - r_vs n)); cbn [fst r_vs rscaled].
  - rewrite Rmin_right by lra. reflexivity.
  - rewrite Rmin_left by lra. reflexivity.
Qed.
Lemma step_flag n q : snd (step n q) = true <-> r_vs (fst (step n q)) < r_vs q.
Proof.
  unfold limit1, exact. cbn [ar_gt ar_sub ar_vs ar_set ar_add]. destruct (Rlt_dec d (r_vs q - r_vs n)); cbn [fst snd r_vs rscaled].
  - split; [intros _; lra | reflexivity].
  - split; [discriminate | lra].
Qed.
Lemma forward_vs : forall l n, map (fun x => r_vs (fst x)) (forward exact d n l) = rfwd d (r_vs n) (map r_vs l).
Proof.
  induction l as [|q l IH]; intros n; [reflexivity|]. cbn [forward map rfwd]. pose proof (step_vs n q) as S.
  destruct (step n q) as [q' c]. cbn [fst] in S. cbn [map fst]. rewrite IH, S. reflexivity.
Qed.
Lemma backward_vs : forall l, map (fun x => r_vs (fst x)) (backward exact d l) = rbwd d (map (fun x => r_vs (fst x)) l).
Proof.
  induction l as [|[q c] l IH]; [reflexivity|]. cbn [backward map rbwd fst]. destruct (backward exact d l) as [|[n b] r].
  - cbn [map] in IH. rewrite <- IH. reflexivity.
  - cbn [map fst] in IH. rewrite <- IH. pose proof (step_vs n q) as S. destruct (step n q) as [q' c']. cbn [fst] in S. cbn [map fst]. rewrite S. reflexivity.
Qed.
Lemma limitDiff_vs l : map (fun x => r_vs (fst x)) (limitDiff exact d l) = rlimit d (map r_vs l).
Proof.
  destruct l as [|q l]; [reflexivity|]. unfold limitDiff. rewrite backward_vs. cbn [map fst]. rewrite forward_vs. reflexivity.
Qed.
End Loops.

(** Lengths, for every arithmetic. *)
Section Len.
Context {P S D : Type} (A : arith P S D) (d : D).
Lemma forward_length : forall l n, length (forward A d n l) = length l.
Proof. induction l as [|q l IH]; intros n; [reflexivity|]. cbn [forward length]. destruct (limit1 A d n q). cbn [length]. rewrite IH. reflexivity. Qed.
Lemma backward_length : forall l, length (backward A d l) = length l.
Proof.
  induction l as [|[q c] l IH]; [reflexivity|]. cbn [backward length]. destruct (backward A d l) as [|[n b] r].
  - cbn [length] in *. lia.
  - destruct (limit1 A d n q). cbn [length] in *. lia.
Qed.
Lemma limitDiff_length l : length (limitDiff A d l) = length l.
Proof. destruct l as [|q l]; [reflexivity|]. unfold limitDiff. rewrite backward_length. cbn [length]. rewrite forward_length. reflexivity. Qed.

(** A relation between entries before and after that holds for untouched entries and
    is preserved by a step holds for the whole procedure. *)
Variable Rel : P -> P * bool -> Prop.
Hypothesis R0 : forall q, Rel q (q, false).
Hypothesis R1 : forall q0 q c n, Rel q0 (q, c) ->
  ar_gt A (ar_sub A (ar_vs A q) (ar_vs A n)) d = true -> Rel q0 (ar_set A q (ar_add A (ar_vs A n) d), true).
Lemma step_rel q0 q c n : Rel q0 (q, c) -> Rel q0 (fst (limit1 A d n q), c || snd (limit1 A d n q)).
Proof.
  intros H. unfold limit1. destruct (ar_gt A _ d) eqn:E; cbn [fst snd].
  - rewrite orb_true_r. exact (R1 _ _ _ _ H E).
  - rewrite orb_false_r. exact H.
Qed.
Lemma forward_rel : forall l n, Forall2 Rel l (forward A d n l).
Proof.
  induction l as [|q l IH]; intros n; [constructor|]. cbn [forward]. pose proof (step_rel q q false n (R0 q)) as H.
  destruct (limit1 A d n q) as [q' c]. cbn [fst snd orb] in H. constructor; [exact H | apply IH].
Qed.
Lemma backward_rel : forall l0 l, Forall2 Rel l0 l -> Forall2 Rel l0 (backward A d l).
Proof.
  intros l0 l H. induction H as [|q0 [q c] l0 l Hq H IH]; [constructor|]. cbn [backward].
  destruct (backward A d l) as [|[n b] r] eqn:E.
  - inversion IH; subst. constructor; [exact Hq | constructor].
  - pose proof (step_rel q0 q c n Hq) as Hs. destruct (limit1 A d n q) as [q' c']. constructor; [exact Hs | exact IH].
Qed.
Lemma limitDiff_rel l : Forall2 Rel l (limitDiff A d l).
Proof. destruct l as [|q l]; [constructor|]. unfold limitDiff. apply backward_rel. constructor; [apply R0 | apply forward_rel]. Qed.
End Len.

(** The same with an invariant of the entries. *)
Section Inv.
Context {P S D : Type} (A : arith P S D) (d : D).
Variable Q : P -> Prop.
Hypothesis Q1 : forall n q, Q n -> Q q -> Q (fst (limit1 A d n q)).
Variable Rel : P -> P * bool -> Prop.
Hypothesis R0 : forall q, Q q -> Rel q (q, false).
Hypothesis R1 : forall q0 q c n, Q n -> Q q -> Rel q0 (q, c) ->
  ar_gt A (ar_sub A (ar_vs A q) (ar_vs A n)) d = true -> Rel q0 (ar_set A q (ar_add A (ar_vs A n) d), true).
Let Rq (q0 : P) (r : P * bool) : Prop := Rel q0 r /\ Q (fst r).
Lemma step_inv q0 q c n : Q n -> Rq q0 (q, c) -> Rq q0 (fst (limit1 A d n q), c || snd (limit1 A d n q)).
Proof.
  intros Hn [H Hq]. split; [|apply Q1; assumption]. unfold limit1. destruct (ar_gt A _ d) eqn:E; cbn [fst snd].
  - rewrite orb_true_r. exact (R1 _ _ _ _ Hn Hq H E).
  - rewrite orb_false_r. exact H.
Qed.
Lemma forward_inv : forall l n, Q n -> Forall Q l -> Forall2 Rq l (forward A d n l).
Proof.
  induction l as [|q l IH]; intros n Hn F; [constructor|]. inversion F as [|? ? Hq F']; subst. cbn [forward].
  pose proof (step_inv q q false n Hn (conj (R0 q Hq) Hq)) as H.
  destruct (limit1 A d n q) as [q' c]. cbn [fst snd orb] in H. constructor; [exact H | apply IH; [apply H | exact F']].
Qed.
Lemma backward_inv : forall l0 l, Forall2 Rq l0 l -> Forall2 Rq l0 (backward A d l).
Proof.
  intros l0 l H. induction H as [|q0 [q c] l0 l Hq H IH]; [constructor|]. cbn [backward].
  destruct (backward A d l) as [|[n b] r] eqn:E.
  - inversion IH; subst. constructor; [exact Hq | constructor].
  - inversion IH as [|? ? ? ? [_ Hn] IH']; subst. pose proof (step_inv q0 q c n Hn Hq) as Hs.
    destruct (limit1 A d n q) as [q' c']. constructor; [exact Hs | exact IH].
Qed.
Lemma limitDiff_inv l : Forall Q l -> Forall2 (fun q0 r => Rel q0 r /\ Q (fst r)) l (limitDiff A d l).
Proof.
  destruct l as [|q l]; [constructor|]. intros F. inversion F as [|? ? Hq F']; subst. unfold limitDiff. apply backward_inv.
  constructor; [split; [apply R0, Hq | exact Hq] | apply forward_inv; assumption].
Qed.
End Inv.

(** Limited profiles are left alone. *)
Section Fixed.
Variable d : R.
Lemma forward_fixed : forall l n, ups d (r_vs n) (map r_vs l) -> forward exact d n l = map (fun p => (p, false)) l.
Proof.
  induction l as [|q l IH]; intros n U; [reflexivity|]. destruct U as [U1 U2]. cbn [forward map]. unfold limit1, exact. cbn [ar_gt ar_sub ar_vs].
  destruct (Rlt_dec d (r_vs q - r_vs n)); [lra|]. f_equal. apply IH, U2.
Qed.
Lemma backward_fixed : forall l n, downs d (r_vs n) (map r_vs l) -> backward exact d ((n, false) :: map (fun p => (p, false)) l) = (n, false) :: map (fun p => (p, false)) l.
Proof.
  induction l as [|q l IH]; intros n U; [reflexivity|]. destruct U as [U1 U2]. specialize (IH q U2). cbn [map] in *.
  change (backward exact d ((n, false) :: (q, false) :: map (fun p => (p, false)) l)) with
    (match backward exact d ((q, false) :: map (fun p => (p, false)) l) with
     | [] => [(n, false)]
     | (n', _) :: _ => let '(q', c') := limit1 exact d n' n in (q', false || c') :: backward exact d ((q, false) :: map (fun p => (p, false)) l)
     end).
  rewrite IH. unfold limit1, exact. cbn [ar_gt ar_sub ar_vs]. destruct (Rlt_dec d (r_vs n - r_vs q)); [lra | reflexivity].
Qed.
Lemma limitDiff_fixed l : limited d (map r_vs l) -> limitDiff exact d l = map (fun p => (p, false)) l.
Proof.
  destruct l as [|q l]; [reflexivity|]. intros L. cbn [map] in L. apply limited_cons in L. destruct L as [U Dn]. unfold limitDiff.
  rewrite (forward_fixed l q U). apply backward_fixed, Dn.
Qed.
End Fixed.
