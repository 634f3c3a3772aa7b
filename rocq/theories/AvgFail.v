(** Averaging with storage that fails: every run either ends like a run without
    failures or throws one of the messages of SpecFail.v. *)
From Coq Require Import ZArith Bool String Lia Sorting.Sorted List.
From Verif Require Import Outcome Float Payload Addr SpecOct AvgEngine SpecAvg AvgFinal Store Averager SpecStore StoreFacts SpecFail.
Import ListNotations.
Open Scope Z_scope.

Definition sub {A} (o1 o2 : outcome A) : Prop := o1 = o2 \/ exists m, complaint m /\ o1 = Throw m.
Lemma sub_refl {A} (o : outcome A) : sub o o.
Proof. left; reflexivity. Qed.
Lemma sub_bind {A B} (m1 m2 : outcome A) (k1 k2 : A -> outcome B) :
  sub m1 m2 -> (forall a, sub (k1 a) (k2 a)) -> sub (bind m1 k1) (bind m2 k2).
Proof.
  intros [->|(m & C & ->)] H.
  - destruct m2; cbn [bind]; [apply H | left; reflexivity..].
  - right. exists m. split; [exact C | reflexivity].
Qed.
Lemma sub_throw {A} m (o : outcome A) : complaint m -> sub (Throw m) o.
Proof. intros C. right. exists m. split; [exact C | reflexivity]. Qed.

Ltac said := unfold complaint; cbn [In]; tauto.
Ltac follow := repeat first
  [ match goal with |- sub ?x ?x => apply sub_refl end
  | match goal with |- sub (bind _ _) (bind _ _) => apply sub_bind; [|intros ?] end
  | match goal with |- sub (if ?b then _ else _) (if ?b then _ else _) => destruct b end
  | match goal with |- sub (match ?x with _ => _ end) (match ?x with _ => _ end) => destruct x end ].

Section Sub.
Variable st : storage.
Notation ok := never_fails.

Lemma append_sub s a p m : complaint m -> sub (append st s a p m) (append ok s a p m).
Proof.
  intros C. unfold append. cbn [never_fails st_append_ok].
  destruct (st_append_ok st (e_db s) a); [apply sub_refl | apply sub_throw, C].
Qed.
Lemma update_sub s a p : sub (updateOctant st s a p) (updateOctant ok s a p).
Proof.
  unfold updateOctant. cbn [never_fails st_update_ok]. rewrite andb_true_r.
  destruct (existsb _ (e_db s)); [|apply sub_refl]. cbn [andb].
  destruct (st_update_ok st (e_db s) a); [apply sub_refl | apply sub_throw; said].
Qed.
Lemma process_sub s l : sub (processOctant st s l) (processOctant ok s l).
Proof. unfold processOctant. cbv zeta. follow. apply update_sub. Qed.
Lemma create_sub s a : sub (createOctant st s a) (createOctant ok s a).
Proof.
  unfold createOctant. cbv zeta. follow. apply append_sub. said.
Qed.
Lemma process_down_sub lo n : forall s, sub (process_down st s lo n) (process_down ok s lo n).
Proof.
  induction n as [|n IH]; intros s; cbn [process_down]; [apply sub_refl|].
  apply sub_bind; [apply process_sub | exact IH].
Qed.
Lemma close_stale_sub a n : forall s, sub (close_stale st s a n) (close_stale ok s a n).
Proof.
  induction n as [|n IH]; intros s; cbn [close_stale]; [apply sub_refl|].
  follow; [apply process_sub | apply IH].
Qed.
Lemma create_up_sub a n : forall s from, sub (create_up st s a from n) (create_up ok s a from n).
Proof.
  induction n as [|n IH]; intros s from; cbn [create_up]; [apply sub_refl|].
  follow; [apply create_sub | apply IH].
Qed.
Lemma findParent_sub s a : sub (findParent st s a) (findParent ok s a).
Proof.
  unfold findParent. cbv zeta. follow; [apply process_down_sub | apply close_stale_sub | apply create_up_sub].
Qed.
Lemma close_full_sub n : forall s, sub (close_full st s n) (close_full ok s n).
Proof.
  induction n as [|n IH]; intros s; cbn [close_full]; [apply sub_refl|].
  follow; [apply process_sub | apply IH].
Qed.
Lemma averageOctant_sub s a p : sub (averageOctant st s a p) (averageOctant ok s a p).
Proof.
  unfold averageOctant. cbv zeta. follow; [apply findParent_sub | apply append_sub; said | apply close_full_sub].
Qed.
Lemma finish_sub n : forall s, sub (finishProcessing st s n) (finishProcessing ok s n).
Proof.
  induction n as [|n IH]; intros s; cbn [finishProcessing]; [apply sub_refl|].
  follow; [apply process_sub | apply IH..].
Qed.
Lemma averageFrom_sub R inp : forall s,
  sub (averageFrom st R s inp) (averageAll ok s (delivered (rd_adv R) inp)).
Proof.
  induction inp as [|[a p] r IH]; intros s; cbn [averageFrom delivered fst]; [apply sub_refl|].
  destruct (rd_get R a); [|apply sub_throw; said].
  destruct (rd_adv R a); cbn [averageAll].
  - apply sub_bind; [apply averageOctant_sub | exact IH].
  - apply sub_bind; [apply averageOctant_sub | intros; apply sub_refl].
Qed.
Lemma fill_sub R inp : inp <> [] -> sub (fillFrom st R inp) (fillOctants ok (delivered (rd_adv R) inp)).
Proof.
  intros N. assert (NE : (match inp with [] => true | _ => false end) = false) by (destruct inp; congruence).
  unfold fillFrom. rewrite NE. cbn [orb].
  destruct (negb (rd_init R)); [apply sub_throw; said|].
  destruct (st_begin_ok st); cbn [negb]; [|apply sub_throw; said].
  replace (fillOctants ok (delivered (rd_adv R) inp)) with
    (bind (averageAll ok engine0 (delivered (rd_adv R) inp)) (fun s => bind (finishProcessing ok s pendingSize) Val)).
  - apply sub_bind; [apply averageFrom_sub|]. intros s. apply sub_bind; [apply finish_sub|]. intros s'.
    destruct (st_end_ok st); [apply sub_refl | apply sub_throw; said].
  - destruct inp as [|[a p] r]; [congruence|]. cbn [delivered fst]. destruct (rd_adv R a); reflexivity.
Qed.
End Sub.

(** ** What a run that returns has done *)
Section Done.
Variable st : storage.
Variable inp : list (addr * payload).

Definition done (s : est) : Prop :=
  (forall before r after, e_db s = (before ++ r :: after)%list ->
     exists db, map o_addr db = map o_addr before /\ st_append_ok st db (o_addr r) = true) /\
  (forall r, In r (e_db s) -> o_pay r = None \/ In (o_addr r) (map fst inp) \/
     exists db a, same_octant (o_addr r) a /\ st_update_ok st db a = true).

Lemma done_db s s' : done s -> e_db s' = e_db s -> done s'.
Proof. intros [H1 H2] E. split; rewrite E; assumption. Qed.
Lemma bind_val {A B} (m : outcome A) (k : A -> outcome B) b : bind m k = Val b ->
  exists a, m = Val a /\ k a = Val b.
Proof. destruct m; try discriminate. cbn [bind]. eauto. Qed.

Lemma append_done s a p m s' : done s -> append st s a p m = Val s' ->
  p = None \/ In a (map fst inp) -> done s'.
Proof.
  intros [H1 H2] H P. unfold append in H. destruct (st_append_ok st (e_db s) a) eqn:Ea; [|discriminate].
  injection H as <-. split; cbn [e_db].
  - intros before r after E. destruct (exists_last (l := r :: after)) as (l & x & El); [discriminate|].
    rewrite El in E. rewrite app_assoc in E. apply app_inj_tail in E. destruct E as [E Ex].
    destruct l as [|y l].
    + injection El as -> _. subst x. cbn [o_addr]. exists (e_db s). split; [|exact Ea]. rewrite E, app_nil_r. reflexivity.
    + injection El as -> _. exact (H1 before y l E).
  - intros r Hr. apply in_app_or in Hr. destruct Hr as [Hr|[<-|[]]]; [exact (H2 r Hr)|]. cbn [o_pay o_addr].
    destruct P as [->|P]; [left; reflexivity | right; left; exact P].
Qed.
Lemma same_key_same a b : same_key a b = true -> same_octant a b.
Proof. unfold same_key, same_octant. rewrite !andb_true_iff, !Z.eqb_eq. tauto. Qed.
Lemma update_done s a p s' : done s -> updateOctant st s a p = Val s' -> done s'.
Proof.
  intros [H1 H2] H. unfold updateOctant in H. destruct (existsb _ _); [|discriminate]. cbn [andb] in H.
  destruct (st_update_ok st (e_db s) a) eqn:Eu; [|discriminate]. injection H as <-. split; cbn [e_db].
  - intros before r after E. apply map_eq_app in E. destruct E as (l1 & l2 & E & E1 & E2).
    destruct l2 as [|y l2]; [discriminate|]. cbn [map] in E2. injection E2 as E2 _.
    destruct (H1 l1 y l2 E) as (db & D1 & D2). exists db. split.
    + rewrite D1, <- E1, map_map. apply map_ext. intros z. destruct (same_key (o_addr z) a); reflexivity.
    + rewrite <- E2. destruct (same_key (o_addr y) a); exact D2.
  - intros r Hr. apply in_map_iff in Hr. destruct Hr as (y & <- & Hy).
    destruct (same_key (o_addr y) a) eqn:Ek; [|exact (H2 y Hy)]. cbn [o_pay o_addr]. right. right.
    exists (e_db s), a. split; [apply same_key_same, Ek | exact Eu].
Qed.
Lemma addToParent_db s pi a p s' : addToParent s pi a p = Val s' -> e_db s' = e_db s.
Proof.
  unfold addToParent. intros H. apply bind_val in H. destruct H as (par & _ & H).
  apply bind_val in H. destruct H as (? & _ & H). apply bind_val in H. destruct H as (bit & _ & H).
  destruct (negb _); [discriminate|]. destruct (s_sum par); [|discriminate].
  destruct (accumulate _ _ _). injection H as <-. reflexivity.
Qed.
Ltac step H := let x := fresh "x" in let K := fresh "K" in
  apply bind_val in H; destruct H as (x & K & H); cbv beta in H.
Lemma process_done s l s' : done s -> processOctant st s l = Val s' -> done s'.
Proof.
  intros D H. unfold processOctant in H. cbv zeta in H. step H. step H. step H. step H. step H. step H. step H. step H.
  injection H as <-. assert (D1 : done x3) by (eapply update_done; [|exact K3]; eapply done_db; [exact D | reflexivity]).
  destruct l as [|k].
  - injection K4 as <-. eapply done_db; [exact D1 | reflexivity].
  - step K4. step K4. apply addToParent_db in K4. eapply done_db; [exact D1|]. exact K4.
Qed.
Lemma create_done s a s' : done s -> createOctant st s a = Val s' -> done s'.
Proof.
  intros D H. unfold createOctant in H. cbv zeta in H. destruct (a_level a <? 0); [discriminate|]. step H. step H. step H. step H.
  apply (append_done _ _ _ _ _ D) in K2; [|left; reflexivity].
  destruct (e_cnt _). injection H as <-. eapply done_db; [exact K2 | reflexivity].
Qed.
Lemma process_down_done lo n : forall s s', done s -> process_down st s lo n = Val s' -> done s'.
Proof.
  induction n as [|n IH]; intros s s' D H; cbn [process_down] in H; [injection H as <-; exact D|].
  step H. exact (IH _ _ (process_done _ _ _ D K) H).
Qed.
Lemma close_stale_done a n : forall s r, done s -> close_stale st s a n = Val r -> done (fst r).
Proof.
  induction n as [|n IH]; intros s r D H; cbn [close_stale] in H; [injection H as <-; exact D|].
  step H. destruct (s_valid x); [|injection H as <-; exact D]. step H.
  destruct (_ || _); [|injection H as <-; exact D]. step H. step H. exact (IH _ _ (process_done _ _ _ D K2) H).
Qed.
Lemma create_up_done a n : forall s from s', done s -> create_up st s a from n = Val s' -> done s'.
Proof.
  induction n as [|n IH]; intros s from s' D H; cbn [create_up] in H; [injection H as <-; exact D|].
  step H. step H. exact (IH _ _ _ (create_done _ _ _ D K0) H).
Qed.
Lemma findParent_done s a r : done s -> findParent st s a = Val r -> done (fst r).
Proof.
  intros D H. unfold findParent in H. cbv zeta in H. step H. step H. step H. step H. step H. destruct x3 as [s3 n3]. step H.
  injection H as <-. cbn [fst]. apply (create_up_done _ _ _ _ _ (close_stale_done _ _ _ _ (process_down_done _ _ _ _ D K1) K3) K4).
Qed.
Lemma close_full_done n : forall s r, done s -> close_full st s n = Val r -> done (fst r).
Proof.
  induction n as [|n IH]; intros s r D H; cbn [close_full] in H; [injection H as <-; exact D|].
  step H. destruct (s_bits x =? INC_FULL); [|injection H as <-; exact D]. step H. step H. step H.
  exact (IH _ _ (process_done _ _ _ D K2) H).
Qed.
Lemma averageOctant_done s a p s' : done s -> In a (map fst inp) -> averageOctant st s a p = Val s' -> done s'.
Proof.
  intros D I H. unfold averageOctant in H. cbv zeta in H. destruct (a_level a <=? 0); [injection H as <-; exact D|].
  step H. destruct x as [s1 pl]. apply (findParent_done _ _ _ D) in K. step H. step H. step H.
  apply (append_done _ _ _ _ _ K) in K2; [|right; exact I].
  destruct (e_cnt x1). step H. apply addToParent_db in K3. step H. destruct x3 as [s3 n3]. step H. injection H as <-.
  apply (close_full_done _ _ _ (done_db _ _ K2 K3) K4).
Qed.
Lemma finish_done n : forall s s', done s -> finishProcessing st s n = Val s' -> done s'.
Proof.
  induction n as [|n IH]; intros s s' D H; cbn [finishProcessing] in H; [injection H as <-; exact D|].
  step H. destruct (s_valid x); [|exact (IH _ _ D H)]. step H. step H. exact (IH _ _ (process_done _ _ _ D K1) H).
Qed.
Lemma averageAll_done l : forall s s', incl (map fst l) (map fst inp) -> done s -> averageAll st s l = Val s' -> done s'.
Proof.
  induction l as [|[a p] r IH]; intros s s' I D H; cbn [averageAll] in H; [injection H as <-; exact D|].
  step H. apply IH in H; [exact H | intros b Hb; apply I; right; exact Hb|].
  apply (averageOctant_done _ _ _ _ D) in K; [exact K | apply I; left; reflexivity].
Qed.
Lemma engine0_done : done engine0.
Proof. split; [intros before r after E; destruct before; discriminate | intros r []]. Qed.
Lemma fill_done s : fillOctants st inp = Val s -> done s /\ st_begin_ok st = true /\ st_end_ok st = true.
Proof.
  intros H. assert (K : st_begin_ok st = true /\ bind (averageAll st engine0 inp) (fun s => bind (finishProcessing st s pendingSize)
    (fun s => if st_end_ok st then Val s else Throw "Error occurred while trying to terminate appending of etree."%string)) = Val s).
  { unfold fillOctants in H. destruct inp; [discriminate|]. destruct (st_begin_ok st); [|discriminate]. split; [reflexivity | exact H]. }
  destruct K as [B K]. step K. step K. destruct (st_end_ok st); [|discriminate]. injection K as <-.
  split; [|split; [exact B | reflexivity]].
  exact (finish_done _ _ _ (averageAll_done _ _ _ (incl_refl _) engine0_done K0) K1).
Qed.
End Done.

Lemma delivered_incl adv inp : incl (delivered adv inp) inp.
Proof.
  induction inp as [|r t IH]; [intros x []|]. cbn [delivered]. destruct (adv (fst r)).
  - intros x [<-|H]; [left; reflexivity | right; apply IH, H].
  - intros x [<-|[]]. left; reflexivity.
Qed.
Lemma delivered_wf adv inp : wf_input inp -> wf_input (delivered adv inp).
Proof.
  intros [W1 W2 W3 W4].
  assert (I : incl (map fst (delivered adv inp)) (map fst inp)) by (intros a H; apply in_map_iff in H; destruct H as (x & <- & H); apply in_map, (delivered_incl adv inp), H).
  constructor.
  - destruct inp as [|r t]; [congruence|]. cbn [delivered]. destruct (adv (fst r)); discriminate.
  - intros a H. apply W2, I, H.
  - clear - W3. induction inp as [|r t IH]; [constructor|]. cbn [delivered map] in *. inversion W3 as [|? ? S F]; subst.
    destruct (adv (fst r)); cbn [map]; constructor; try (constructor; fail).
    + exact (IH S).
    + rewrite Forall_forall in *. intros a H. apply F. apply in_map_iff in H. destruct H as (x & <- & H). apply in_map, (delivered_incl adv t), H.
  - intros a b Ha Hb. apply W4; apply I; assumption.
Qed.

Lemma never_fails_accepts : accepts never_fails.
Proof. repeat split. Qed.

(** A run in which some call fails does not return. *)
Lemma failure_stops R st inp s : wf_input (delivered (rd_adv R) inp) ->
  fillOctants never_fails (delivered (rd_adv R) inp) = Val s ->
  some_failure R st (delivered (rd_adv R) inp) (e_db s) -> forall s', fillFrom st R inp <> Val s'.
Proof.
  intros W F SF s' H.
  assert (NE : inp <> []) by (intros ->; exact (wf_nonempty _ W eq_refl)).
  destruct (fill_sub st R inp NE) as [E|(m & _ & E)]; [|congruence].
  assert (s' = s) by congruence. subst s'. clear E.
  apply fillFrom_val in H. destruct H as (G1 & G2 & G3).
  destruct (fill_done st _ s G3) as ([D1 D2] & D3 & D4).
  destruct SF as [X|a X Y|X|X|before r after X Y|r X Y]; try congruence.
  - rewrite (G2 a X) in Y. discriminate.
  - destruct (D1 _ _ _ X) as (db & B1 & B2). rewrite (Y db B1) in B2. discriminate.
  - unfold interior_records in X. apply filter_In in X. destruct X as [X1 X2].
    destruct (final_succeeds never_fails never_fails_accepts _ W) as (s2 & F2 & P). rewrite F in F2. injection F2 as <-.
    destruct (D2 r X1) as [N|[I|(db & a & I & U)]].
    + destruct (P r X1) as (p & Hp). congruence.
    + apply in_map_iff in I. destruct I as (y & Ey & Iy). unfold is_input in X2. apply negb_true_iff in X2.
      assert (K : existsb (fun x => same_key (fst x) (o_addr r)) (delivered (rd_adv R) inp) = true).
      { apply existsb_exists. exists y. split; [exact Iy|]. rewrite Ey. unfold same_key. rewrite !Z.eqb_refl. reflexivity. }
      congruence.
    + rewrite (Y db a I) in U. discriminate.
Qed.
