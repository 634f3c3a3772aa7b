(** Proofs about averaging and packing files. *)
From Coq Require Import ZArith Bool String Sorting.Sorted List.
From Verif Require Import Outcome Float Payload Addr SpecOct AvgEngine SpecAvg AvgFinal
  Store Averager VMCreator SpecStore.
Import ListNotations.
Open Scope Z_scope.

Lemma put_same d n f : put d n f n = f.
Proof. unfold put. rewrite String.eqb_refl. reflexivity. Qed.
Lemma put_other d n f m : m <> n -> put d n f m = d m.
Proof. intros H. unfold put. destruct (String.eqb_spec m n); [contradiction|reflexivity]. Qed.

(** ** Only the named file changes *)
Definition confined {A} (n : string) (m : io A) : Prop :=
  forall d, others_untouched n d (fst (m d)).

Lemma others_refl n d : others_untouched n d d.
Proof. intros m H; reflexivity. Qed.
Lemma others_trans n a b c :
  others_untouched n a b -> others_untouched n b c -> others_untouched n a c.
Proof. intros H1 H2 m Hm. rewrite (H2 m Hm). exact (H1 m Hm). Qed.
Lemma others_put n d f : others_untouched n d (put d n f).
Proof. intros m H. apply put_other; exact H. Qed.

Lemma confined_lift {A} n (o : outcome A) : confined n (lift o).
Proof. intros d. apply others_refl. Qed.
Lemma confined_ret {A} n (a : A) : confined n (ret a).
Proof. intros d. apply others_refl. Qed.
Lemma confined_throw {A} n m : confined n (@throw A m).
Proof. intros d. apply others_refl. Qed.
Lemma confined_openRead n E k m : confined n (openRead E k m).
Proof.
  intros d. unfold openRead. destruct (d k); [destruct (et_open E d k)|]; apply others_refl.
Qed.
Lemma confined_openNew n E m : confined n (openNew E n m).
Proof. intros d. unfold openNew. destruct (et_create E d n); apply others_put. Qed.
Lemma confined_write n g : confined n (write n g).
Proof. intros d. apply others_put. Qed.
Lemma confined_then {A B} n (m : io A) (k : A -> io B) :
  confined n m -> (forall a, confined n (k a)) -> confined n (andThen m k).
Proof.
  intros H1 H2 d. unfold andThen. specialize (H1 d). destruct (m d) as [d' o]. cbn [fst] in *.
  destruct o; try exact H1. eapply others_trans; [exact H1 | apply H2].
Qed.
Lemma confined_schema n E : confined n (registerSchema E n).
Proof.
  unfold registerSchema. destruct (et_regschema E n); [apply confined_write | apply confined_throw].
Qed.
Lemma confined_meta n E m : confined n (setAppMeta E n m).
Proof.
  unfold setAppMeta. destruct (et_setmeta E n m); [apply confined_write | apply confined_throw].
Qed.

Ltac confine :=
  repeat (first [ apply confined_then; [|intros ?] | apply confined_lift | apply confined_ret
                | apply confined_throw | apply confined_openRead | apply confined_openNew
                | apply confined_write | apply confined_schema | apply confined_meta
                | match goal with |- confined _ (if ?b then _ else _) => destruct b end
                | match goal with |- confined _ (match ?b with _ => _ end) => destruct b end ]).

Lemma average_confined E fin fout : confined fout (average E fin fout).
Proof. unfold average. cbv zeta. confine. Qed.
Lemma packDB_confined E p u : confined p (packDB E p u).
Proof. unfold packDB. cbv zeta. confine. Qed.
Lemma closeDB_confined E n : confined n (closeDB E n).
Proof. unfold closeDB. confine. Qed.
Lemma closeDB_ok E n : et_flush E n = true -> closeDB E n = ret tt.
Proof. unfold closeDB. intros ->. reflexivity. Qed.
Lemma openDB_confined E n s : confined n (openDB E n s).
Proof. unfold openDB. confine. Qed.
Lemma insert_confined E L n p lon lat elev res : confined n (insert E L (Some n) p lon lat elev res).
Proof.
  unfold insert. cbv zeta. confine.
  intros d. cbv beta. destruct (d n) as [f|]; [|apply others_refl].
  destruct (et_insert E (d_recs f) (snd a0)); [apply others_put | apply others_refl].
Qed.

(** ** Averaging *)
Lemma average_unusable E fin fout d : unusable E d fin ->
  (forall f, d fin = Some f -> et_open E d fin = true -> d_size f = 28 -> d_schema f <> None) ->
  exists m, average E fin fout d = (d, Throw m).
Proof.
  intros H HN. unfold average, andThen, openRead.
  destruct (d fin) as [f|] eqn:Ef; [|eexists; reflexivity].
  destruct (et_open E d fin) eqn:Eo; [|eexists; reflexivity].
  destruct (Z.eqb_spec (d_size f) PAYLOADSIZE) as [Es|Es]; cbn [negb]; [|eexists; reflexivity].
  destruct (d_schema f) as [s|] eqn:Ec.
  - destruct (String.eqb_spec s SCHEMA) as [Eq|Eq]; cbn [negb]; [|eexists; reflexivity].
    exfalso. inversion H.
    + congruence.
    + congruence.
    + apply H1. replace f0 with f by congruence. exact Es.
    + apply H2. congruence.
  - exfalso. exact (HN f eq_refl eq_refl Es Ec).
Qed.

Lemma stored_values db junk :
  (forall r, In r db -> exists p, o_pay r = Some p) -> stored db (file_recs junk db).
Proof.
  unfold stored, file_recs. intros H.
  induction db as [|r db IH]; [reflexivity|]. cbn [map].
  rewrite IH by (intros; apply H; right; assumption). f_equal. cbn [fst snd].
  destruct (H r (or_introl eq_refl)) as [p Hp]. destruct r as [a o]. cbn in *. subst. reflexivity.
Qed.

(** The reading calls of the averager. *)
Definition reading_of (E : etree) (fin : string) : reading :=
  mkReading (et_cursor E fin) (et_get E fin) (et_adv E fin).

Lemma averageFrom_delivered st R inp : forall s,
  (forall a, In a (map fst (delivered (rd_adv R) inp)) -> rd_get R a = true) ->
  averageFrom st R s inp = averageAll st s (delivered (rd_adv R) inp).
Proof.
  induction inp as [|[a p] r IH]; intros s HG; [reflexivity|]. cbn [averageFrom delivered fst] in *.
  rewrite HG by (destruct (rd_adv R a); left; reflexivity).
  destruct (rd_adv R a); cbn [averageAll].
  - destruct (averageOctant st s a p); try reflexivity. cbn [bind]. apply IH.
    intros b Hb. apply HG. right. exact Hb.
  - reflexivity.
Qed.
Lemma fillFrom_delivered st R inp : rd_init R = true ->
  (forall a, In a (map fst (delivered (rd_adv R) inp)) -> rd_get R a = true) ->
  fillFrom st R inp = fillOctants st (delivered (rd_adv R) inp).
Proof.
  intros HI HG. unfold fillFrom, fillOctants. rewrite HI, orb_false_r, (averageFrom_delivered st R inp engine0 HG).
  destruct inp as [|[a p] r]; [reflexivity|]. cbn [delivered fst].
  destruct (rd_adv R a); destruct (st_begin_ok st); reflexivity.
Qed.
Lemma averageFrom_get st R inp : forall s s', averageFrom st R s inp = Val s' ->
  forall a, In a (map fst (delivered (rd_adv R) inp)) -> rd_get R a = true.
Proof.
  induction inp as [|[b p] r IH]; intros s s'; cbn [averageFrom delivered fst]; [intros _ a []|].
  destruct (rd_get R b) eqn:Eg; [|discriminate].
  destruct (averageOctant st s b p) as [s1| | |]; try discriminate. cbn [bind].
  destruct (rd_adv R b).
  - intros H a [<-|Ha]; [exact Eg | exact (IH _ _ H a Ha)].
  - intros _ a [<-|[]]; exact Eg.
Qed.
Lemma fillFrom_val st R inp s : fillFrom st R inp = Val s ->
  rd_init R = true /\ (forall a, In a (map fst (delivered (rd_adv R) inp)) -> rd_get R a = true) /\
  fillOctants st (delivered (rd_adv R) inp) = Val s.
Proof.
  intros H. assert (K : rd_init R = true /\ (forall a, In a (map fst (delivered (rd_adv R) inp)) -> rd_get R a = true)).
  { unfold fillFrom in H. destruct (rd_init R); [|rewrite orb_true_r in H; discriminate]. split; [reflexivity|].
    destruct inp as [|x r]; [intros a []|]. cbn [orb negb] in H. destruct (st_begin_ok st); [|discriminate]. cbn [negb] in H.
    destruct (averageFrom st R engine0 (x :: r)) as [s1| | |] eqn:E1; try discriminate.
    exact (averageFrom_get _ _ _ _ _ E1). }
  destruct K as [K1 K2]. split; [exact K1|]. split; [exact K2|].
  rewrite <- (fillFrom_delivered st R inp K1 K2). exact H.
Qed.
Lemma delivered_all adv inp : (forall a, adv a = true) -> delivered adv inp = inp.
Proof.
  intros H. induction inp as [|r t IH]; [reflexivity|]. cbn [delivered]. rewrite H, IH. reflexivity.
Qed.
Lemma fillFrom_good st R inp : rd_init R = true -> (forall a, rd_get R a = true) ->
  (forall a, rd_adv R a = true) -> fillFrom st R inp = fillOctants st inp.
Proof.
  intros H1 H2 H3. rewrite (fillFrom_delivered st R inp H1) by (intros; apply H2).
  rewrite (delivered_all _ _ H3). reflexivity.
Qed.

Lemma average_ends E fin fout d f recs s :
  usable E d fin f -> can_create E d fout ->
  recs = (if String.eqb fin fout then et_stale E else d_recs f) ->
  fillFrom (et_store E) (reading_of E fin) recs = Val s ->
  exists d', average E fin fout d = (d', Val (e_cnt s)) /\
    d' fout = Some (mkDb (if et_flush E fout then file_recs junk0 (e_db s) else et_partial E) (Some SCHEMA)
                      (option_map (averagedMeta E) (d_meta f)) 28) /\
    others_untouched fout d d'.
Proof.
  intros (U1 & U2 & U3 & U4) (C1 & C2 & C3) Hr Hs.
  assert (G : others_untouched fout d (fst (average E fin fout d))) by apply average_confined.
  unfold average, andThen, openRead in *. fold (reading_of E fin) in *.
  rewrite U1, U2 in *. rewrite U3, U4 in *.
  change (28 =? PAYLOADSIZE) with true in *. cbn [negb] in *.
  rewrite String.eqb_refl in *. cbn [negb] in *.
  unfold openNew in *. rewrite C1 in *. cbv beta iota in *.
  unfold registerSchema in *. rewrite C2 in *. unfold write at 1 in G. unfold write at 1.
  cbv beta iota in *. rewrite put_same in *. cbn [option_map] in *.
  destruct (d_meta f) as [m|]; cbv beta iota in *.
  - unfold setAppMeta in *. rewrite C3 in *. unfold write at 1 in G. unfold write at 1.
    cbv beta iota zeta in *. rewrite <- Hr in *. rewrite Hs in *. unfold write, ret in *.
    cbv beta iota in *. rewrite !put_same in *. eexists. split; [reflexivity|]. split.
    + rewrite put_same. reflexivity.
    + exact G.
  - unfold ret at 1 in G. unfold ret at 1. cbv beta iota zeta in *. rewrite <- Hr in *.
    rewrite Hs in *. unfold write, ret in *.
    cbv beta iota in *. rewrite !put_same in *. eexists. split; [reflexivity|]. split.
    + rewrite put_same. reflexivity.
    + exact G.
Qed.

Lemma average_runs E fin fout d f recs s :
  usable E d fin f -> can_create E d fout -> can_read E fin -> et_flush E fout = true ->
  recs = (if String.eqb fin fout then et_stale E else d_recs f) ->
  fillOctants (et_store E) recs = Val s ->
  exists d', average E fin fout d = (d', Val (e_cnt s)) /\
    d' fout = Some (mkDb (file_recs junk0 (e_db s)) (Some SCHEMA)
                      (option_map (averagedMeta E) (d_meta f)) 28) /\
    others_untouched fout d d'.
Proof.
  intros HU HC (R1 & R2 & R3) HF Hr Hs.
  destruct (average_ends E fin fout d f recs s HU HC Hr) as (d' & H1 & H2 & H3).
  - rewrite fillFrom_good; [exact Hs | exact R1 | exact R2 | exact R3].
  - exists d'. rewrite HF in H2. auto.
Qed.

(** Averaging a file onto itself: the final disk and the outcome do not depend on
    the records that were in it. *)
Lemma average_self E n d1 d2 f1 f2 :
  usable E d1 n f1 -> usable E d2 n f2 -> d_meta f1 = d_meta f2 ->
  others_untouched n d1 d2 -> et_create E d1 n = true -> et_create E d2 n = true ->
  snd (average E n n d1) = snd (average E n n d2) /\
  fst (average E n n d1) n = fst (average E n n d2) n.
Proof.
  intros (U1 & U2 & U3 & U4) (V1 & V2 & V3 & V4) Hm Ho C1 C2.
  unfold average, andThen, openRead. rewrite U1, U2, V1, V2. rewrite U3, U4, V3, V4.
  change (28 =? PAYLOADSIZE) with true. cbn [negb].
  rewrite String.eqb_refl. cbn [negb].
  unfold openNew. rewrite C1, C2. cbv beta iota.
  unfold registerSchema. destruct (et_regschema E n); [|unfold throw; cbv beta iota; cbn [fst snd]; rewrite ?put_same; split; reflexivity].
  unfold write. cbv beta iota. rewrite !put_same. cbn [option_map].
  rewrite Hm. destruct (d_meta f2) as [m|]; cbv beta iota.
  - unfold setAppMeta. destruct (et_setmeta E n (averagedMeta E m)); [|unfold throw; cbv beta iota; cbn [fst snd]; rewrite ?put_same; split; reflexivity].
    unfold write. cbv beta iota zeta. rewrite !put_same. cbn [option_map].
    rewrite String.eqb_refl.
    destruct (fillFrom (et_store E) _ (et_stale E)); unfold ret, throw, lift;
      cbv beta iota; cbn [fst snd]; rewrite ?put_same; split; reflexivity.
  - unfold ret. cbv beta iota zeta. rewrite ?put_same.
    rewrite String.eqb_refl.
    destruct (fillFrom (et_store E) _ (et_stale E)); unfold throw, lift;
      cbv beta iota; cbn [fst snd]; rewrite ?put_same; split; reflexivity.
Qed.

(** ** Packing *)
Lemma copyRecs_val E u todo : forall done l,
  copyRecs E u done todo = Val l -> l = (done ++ delivered (et_adv E u) todo)%list.
Proof.
  induction todo as [|[a p] r IH]; intros done l; cbn [copyRecs delivered fst].
  - intros H; injection H as <-. rewrite app_nil_r. reflexivity.
  - destruct (negb (et_get E u a)); [discriminate|].
    destruct (negb (st_append_ok (et_store E) (as_orecs done) a)); [discriminate|].
    destruct (et_adv E u a).
    + intros H. rewrite (IH _ _ H), <- app_assoc. reflexivity.
    + intros H; injection H as <-. reflexivity.
Qed.
Lemma copyRecs_kind E u todo : forall done,
  (exists l, copyRecs E u done todo = Val l) \/ copyRecs E u done todo = Throw (et_error E).
Proof.
  induction todo as [|[a p] r IH]; intros done; cbn [copyRecs]; [left; eexists; reflexivity|].
  destruct (negb (et_get E u a)); [right; reflexivity|].
  destruct (negb (st_append_ok (et_store E) (as_orecs done) a)); [right; reflexivity|].
  destruct (et_adv E u a); [apply IH | left; eexists; reflexivity].
Qed.
Lemma copyRecs_ok E u todo : accepts (et_store E) -> (forall a, et_get E u a = true) ->
  forall done, StronglySorted etree_lt (map fst (done ++ todo)) ->
  copyRecs E u done todo = Val (done ++ delivered (et_adv E u) todo)%list.
Proof.
  intros (_ & _ & HA & _) HG. induction todo as [|[a p] r IH]; intros done HS; cbn [copyRecs delivered fst].
  - rewrite app_nil_r. reflexivity.
  - rewrite HG. cbn [negb]. rewrite HA.
    + cbn [negb]. destruct (et_adv E u a); [|reflexivity].
      rewrite IH; rewrite <- app_assoc; [reflexivity | exact HS].
    + intros x Hx. unfold as_orecs in Hx. apply in_map_iff in Hx. destruct Hx as (y & <- & Hy).
      cbn [o_addr]. clear -HS Hy. induction done as [|z done IHd]; [destruct Hy|].
      cbn [app map] in HS. inversion HS as [|? ? HS' HF]; subst. destruct Hy as [->|Hy].
      * rewrite Forall_forall in HF. apply HF. rewrite map_app. apply in_or_app. right. left. reflexivity.
      * apply IHd; assumption.
Qed.

Lemma pack_ends E p u d d' : p <> u -> packDB E p u d = (d', Val tt) ->
  exists f, d u = Some f /\ d_recs f <> [] /\
    d' p = Some (mkDb (delivered (et_adv E u) (d_recs f)) (Some SCHEMA) (d_meta f) 28).
Proof.
  intros Hn H. unfold packDB, andThen, openRead in H.
  destruct (d u) as [f|] eqn:Eu; [|discriminate].
  destruct (et_open E d u); [|discriminate].
  unfold openNew in H. destruct (et_create E d p); [|discriminate].
  unfold registerSchema in H. destruct (et_regschema E p); [|discriminate].
  unfold write at 1 in H. cbv beta iota in H. rewrite put_same in H. cbn [option_map] in H.
  exists f. split; [reflexivity|].
  assert (Ens : String.eqb u p = false) by (apply String.eqb_neq; congruence).
  rewrite Ens in H.
  destruct (d_meta f) as [m|].
  - unfold setAppMeta in H. destruct (et_setmeta E p m); [|discriminate].
    unfold write at 1 in H. cbv beta iota zeta in H. rewrite put_same in H. cbn [option_map] in H.
    destruct (d_recs f) as [|x0 r0] eqn:Er; [discriminate|].
    destruct (et_cursor E u); [|discriminate]. cbn [orb negb] in H.
    destruct (st_begin_ok (et_store E)); [|discriminate]. cbn [negb] in H.
    destruct (d_size f =? PAYLOADSIZE); [|discriminate]. cbn [negb] in H.
    destruct (copyRecs E u [] (x0 :: r0)) as [l| | |] eqn:Ec; try discriminate.
    apply copyRecs_val in Ec. rewrite app_nil_l in Ec. subst l.
    destruct (st_end_ok (et_store E)); [|discriminate]. cbn [negb] in H.
    destruct (et_close E u); [|discriminate]. cbn [negb] in H.
    destruct (et_close E p); [|discriminate]. cbn [negb] in H.
    unfold write in H. rewrite put_same in H. injection H as <-.
    split; [discriminate|]. rewrite put_same. reflexivity.
  - unfold ret in H. cbv beta iota zeta in H.
    destruct (d_recs f) as [|x0 r0] eqn:Er; [discriminate|].
    destruct (et_cursor E u); [|discriminate]. cbn [orb negb] in H.
    destruct (st_begin_ok (et_store E)); [|discriminate]. cbn [negb] in H.
    destruct (d_size f =? PAYLOADSIZE); [|discriminate]. cbn [negb] in H.
    destruct (copyRecs E u [] (x0 :: r0)) as [l| | |] eqn:Ec; try discriminate.
    apply copyRecs_val in Ec. rewrite app_nil_l in Ec. subst l.
    destruct (st_end_ok (et_store E)); [|discriminate]. cbn [negb] in H.
    destruct (et_close E u); [|discriminate]. cbn [negb] in H.
    destruct (et_close E p); [|discriminate]. cbn [negb] in H.
    unfold write in H. rewrite put_same in H. injection H as <-.
    split; [discriminate|]. rewrite put_same. reflexivity.
Qed.

Lemma pack_returns E p u d d' : p <> u -> reads_on E u -> packDB E p u d = (d', Val tt) ->
  exists f, d u = Some f /\ d_recs f <> [] /\
    d' p = Some (mkDb (d_recs f) (Some SCHEMA) (d_meta f) 28).
Proof.
  intros Hn HR H. destruct (pack_ends E p u d d' Hn H) as (f & H1 & H2 & H3).
  rewrite (delivered_all _ _ HR) in H3. exists f. auto.
Qed.

Lemma pack_works E p u d f : p <> u -> usable E d u f -> d_recs f <> [] ->
  StronglySorted etree_lt (map fst (d_recs f)) ->
  can_create E d p -> et_cursor E u = true -> (forall a, et_get E u a = true) -> accepts (et_store E) ->
  et_close E u = true -> et_close E p = true ->
  exists d', packDB E p u d = (d', Val tt).
Proof.
  intros Hn (U1 & U2 & U3 & U4) Hne HS (C1 & C2 & C3) R1 R2 HA K1 K2.
  pose proof HA as (B1 & B2 & _ & _).
  unfold packDB, andThen, openRead. rewrite U1, U2. unfold openNew. rewrite C1. cbv beta iota.
  unfold registerSchema. rewrite C2. unfold write at 1. cbv beta iota.
  assert (Ens : String.eqb u p = false) by (apply String.eqb_neq; congruence).
  rewrite Ens.
  assert (G : forall d1, exists d', (let recs := d_recs f in
    if (match recs with [] => true | _ => false end) || negb (et_cursor E u)
    then throw (et_error E)
    else if negb (st_begin_ok (et_store E)) then throw (et_error E)
    else if negb (d_size f =? PAYLOADSIZE) then lift (UB "payload of another size")
    else match copyRecs E u [] recs with
       | Val l =>
           if negb (st_end_ok (et_store E)) then
             do* _ := write p (fun g => set_recs g (et_partial E)) in throw (et_error E)
           else if negb (et_close E u) then
             do* _ := write p (fun g => set_recs g (et_partial E)) in throw (et_error E)
           else if negb (et_close E p) then
             do* _ := write p (fun g => set_recs g (et_partial E)) in throw (et_error E)
           else write p (fun g => set_recs g l)
       | Throw m => do* _ := write p (fun g => set_recs g (et_partial E)) in throw m
       | Abort => lift Abort
       | UB w => lift (UB w)
       end) d1 = (d', Val tt)).
  { intros d1. cbv zeta. rewrite R1, B1, B2, U3, K1, K2, (copyRecs_ok E u (d_recs f) HA R2 []) by exact HS.
    destruct (d_recs f); [congruence|]. cbn. eexists. reflexivity. }
  destruct (d_meta f) as [m|].
  - unfold setAppMeta. rewrite C3. unfold write at 1. cbv beta iota. apply G.
  - unfold ret at 1. cbv beta iota. apply G.
Qed.

Lemma pack_outcome E p u d : forall f, d u = Some f -> d_size f = 28 -> p <> u ->
  exists d', packDB E p u d = (d', Val tt) \/ exists m, packDB E p u d = (d', Throw m).
Proof.
  intros f Hf Hs Hn. unfold packDB, andThen, openRead. rewrite Hf.
  destruct (et_open E d u); [|eexists; right; eexists; reflexivity].
  unfold openNew. destruct (et_create E d p); [|eexists; right; eexists; reflexivity].
  unfold registerSchema. destruct (et_regschema E p); [|eexists; right; eexists; reflexivity].
  unfold write at 1. cbv beta iota.
  assert (Ens : String.eqb u p = false) by (apply String.eqb_neq; congruence).
  rewrite Ens, Hs.
  destruct (d_meta f) as [m|]; [unfold setAppMeta; destruct (et_setmeta E p m); [|eexists; right; eexists; reflexivity]|];
  unfold write at 1, ret; cbv beta iota zeta;
  (destruct ((match d_recs f with [] => true | _ => false end) || negb (et_cursor E u));
    [eexists; right; eexists; reflexivity|]);
  (destruct (negb (st_begin_ok (et_store E))); [eexists; right; eexists; reflexivity|]);
  change (28 =? PAYLOADSIZE) with true; cbn [negb];
  (destruct (copyRecs_kind E u (d_recs f) []) as [[l ->]| ->];
    [|eexists; right; eexists; reflexivity]);
  destruct (negb (st_end_ok (et_store E))), (negb (et_close E u)), (negb (et_close E p));
  solve [eexists; right; eexists; reflexivity | eexists; left; reflexivity].
Qed.

Lemma pack_nothing_wrong E p u d f d' : p <> u -> d u = Some f ->
  packDB E p u d = (d', Val tt) ->
  d_recs f <> [] /\ et_open E d u = true /\ et_create E d p = true /\
  et_regschema E p = true /\ (forall m, d_meta f = Some m -> et_setmeta E p m = true) /\
  et_cursor E u = true /\ st_begin_ok (et_store E) = true /\
  (exists l, copyRecs E u [] (d_recs f) = Val l) /\
  st_end_ok (et_store E) = true /\ et_close E u = true /\ et_close E p = true.
Proof.
  intros Hn Eu H. unfold packDB, andThen, openRead in H. rewrite Eu in H.
  destruct (et_open E d u); [|discriminate].
  unfold openNew in H. destruct (et_create E d p); [|discriminate].
  unfold registerSchema in H. destruct (et_regschema E p); [|discriminate].
  unfold write at 1 in H. cbv beta iota in H. rewrite put_same in H. cbn [option_map] in H.
  assert (Ens : String.eqb u p = false) by (apply String.eqb_neq; congruence).
  rewrite Ens in H.
  destruct (d_meta f) as [m|];
  [unfold setAppMeta in H; destruct (et_setmeta E p m) eqn:Em; [|discriminate];
   unfold write at 1 in H; cbv beta iota zeta in H; rewrite put_same in H; cbn [option_map] in H
  |unfold ret in H; cbv beta iota zeta in H];
  (destruct (d_recs f) as [|x0 r0] eqn:Er; [discriminate|]);
  (destruct (et_cursor E u); [|discriminate]); cbn [orb negb] in H;
  (destruct (st_begin_ok (et_store E)); [|discriminate]); cbn [negb] in H;
  (destruct (d_size f =? PAYLOADSIZE); [|discriminate]); cbn [negb] in H;
  (destruct (copyRecs E u [] (x0 :: r0)) as [l| | |] eqn:Ec; try discriminate);
  (destruct (st_end_ok (et_store E)); [|discriminate]); cbn [negb] in H;
  (destruct (et_close E u); [|discriminate]); cbn [negb] in H;
  (destruct (et_close E p); [|discriminate]);
  repeat split; try reflexivity; try discriminate; try (eexists; reflexivity).
  intros m' I; injection I as <-. exact Em.
Qed.

Lemma copyRecs_get E u todo : forall done l, copyRecs E u done todo = Val l ->
  forall a, In a (map fst (delivered (et_adv E u) todo)) -> et_get E u a = true.
Proof.
  induction todo as [|[b p] r IH]; intros done l; cbn [copyRecs delivered fst]; [intros _ a []|].
  destruct (et_get E u b) eqn:Eg; cbn [negb]; [|discriminate].
  destruct (negb (st_append_ok (et_store E) (as_orecs done) b)); [discriminate|].
  destruct (et_adv E u b).
  - intros H a [<-|Ha]; [exact Eg | exact (IH _ _ H a Ha)].
  - intros _ a [<-|[]]; exact Eg.
Qed.
Lemma copyRecs_append E u todo : forall pre done r rest l,
  copyRecs E u done todo = Val l -> delivered (et_adv E u) todo = (pre ++ r :: rest)%list ->
  st_append_ok (et_store E) (as_orecs (done ++ pre)) (fst r) = true.
Proof.
  induction todo as [|[b p] q IH]; intros pre done r rest l; cbn [copyRecs delivered fst].
  - intros _ H. destruct pre; discriminate.
  - destruct (negb (et_get E u b)); [discriminate|].
    destruct (st_append_ok (et_store E) (as_orecs done) b) eqn:Ea; [|discriminate]. cbn [negb].
    destruct pre as [|x pre].
    + intros _ H. rewrite app_nil_r. destruct (et_adv E u b); injection H as <- _; exact Ea.
    + destruct (et_adv E u b).
      * intros H K. injection K as <- K. specialize (IH _ _ _ _ _ H K). rewrite <- app_assoc in IH. exact IH.
      * intros _ K. injection K as _ K. destruct pre; discriminate.
Qed.

Lemma pack_reports E p u d f : p <> u -> d u = Some f -> d_size f = 28 ->
  (d_recs f = [] \/ et_open E d u = false \/ et_create E d p = false \/
   et_regschema E p = false \/
   (exists m, d_meta f = Some m /\ et_setmeta E p m = false) \/
   et_cursor E u = false \/ st_begin_ok (et_store E) = false \/
   (exists a, In a (map fst (delivered (et_adv E u) (d_recs f))) /\ et_get E u a = false) \/
   (exists done r rest, delivered (et_adv E u) (d_recs f) = done ++ r :: rest /\
      st_append_ok (et_store E) (map (fun r => mkOrec (fst r) (Some (snd r))) done) (fst r) = false) \/
   st_end_ok (et_store E) = false \/ et_close E u = false \/ et_close E p = false)%list ->
  exists d' m, packDB E p u d = (d', Throw m) /\ others_untouched p d d'.
Proof.
  intros Hn Hf Hs HH.
  destruct (pack_outcome E p u d f Hf Hs Hn) as (d' & [H|[m H]]).
  - exfalso. destruct (pack_nothing_wrong E p u d f d' Hn Hf H)
      as (G1 & G2 & G3 & G4 & G5 & G6 & G7 & (l & G8) & G9 & G10 & G11).
    destruct HH as [K|[K|[K|[K|[K|[K|[K|[K|[K|[K|[K|K]]]]]]]]]]]; try congruence.
    + destruct K as (m & K1 & K2). rewrite (G5 m K1) in K2. discriminate.
    + destruct K as (a & K1 & K2). rewrite (copyRecs_get _ _ _ _ _ G8 a K1) in K2. discriminate.
    + destruct K as (dn & r & rest & K1 & K2).
      apply (copyRecs_append _ _ _ _ _ _ _ _ G8) in K1. cbn [app] in K1. unfold as_orecs in K1. congruence.
  - exists d', m. split; [exact H|].
    pose proof (packDB_confined E p u d) as G. rewrite H in G. exact G.
Qed.

Lemma pack_self E n d1 d2 f1 f2 :
  usable E d1 n f1 -> usable E d2 n f2 -> d_meta f1 = d_meta f2 ->
  et_create E d1 n = true -> et_create E d2 n = true ->
  snd (packDB E n n d1) = snd (packDB E n n d2) /\
  fst (packDB E n n d1) n = fst (packDB E n n d2) n.
Proof.
  intros (U1 & U2 & U3 & U4) (V1 & V2 & V3 & V4) Hm C1 C2.
  unfold packDB, andThen, openRead. rewrite U1, U2, V1, V2.
  unfold openNew. rewrite C1, C2. cbv beta iota.
  unfold registerSchema. destruct (et_regschema E n); [|unfold throw; cbv beta iota; cbn [fst snd]; rewrite ?put_same; split; reflexivity].
  unfold write. cbv beta iota. rewrite !put_same. cbn [option_map].
  rewrite Hm, U3, V3, String.eqb_refl. change (28 =? PAYLOADSIZE) with true. cbn [negb].
  destruct (d_meta f2) as [m|]; cbv beta iota.
  - unfold setAppMeta. destruct (et_setmeta E n m); [|unfold throw; cbv beta iota; cbn [fst snd]; rewrite ?put_same; split; reflexivity].
    unfold write. cbv beta iota zeta. rewrite !put_same. cbn [option_map].
    destruct ((match et_stale E with [] => true | _ => false end) || negb (et_cursor E n));
      [unfold throw; cbn [fst snd]; rewrite ?put_same; split; reflexivity|].
    destruct (negb (st_begin_ok (et_store E)));
      [unfold throw; cbn [fst snd]; rewrite ?put_same; split; reflexivity|].
    destruct (copyRecs E n [] (et_stale E)); [destruct (negb (st_end_ok (et_store E))), (negb (et_close E n))|..];
      unfold throw, lift; cbv beta iota; cbn [fst snd]; rewrite ?put_same; split; reflexivity.
  - unfold ret. cbv beta iota zeta. rewrite ?put_same.
    destruct ((match et_stale E with [] => true | _ => false end) || negb (et_cursor E n));
      [unfold throw; cbn [fst snd]; rewrite ?put_same; split; reflexivity|].
    destruct (negb (st_begin_ok (et_store E)));
      [unfold throw; cbn [fst snd]; rewrite ?put_same; split; reflexivity|].
    destruct (copyRecs E n [] (et_stale E)); [destruct (negb (st_end_ok (et_store E))), (negb (et_close E n))|..];
      unfold throw, lift; cbv beta iota; cbn [fst snd]; rewrite ?put_same; split; reflexivity.
Qed.
