(** Proofs about the isosurface application. *)
From Coq Require Import ZArith Bool Reals Lra Lia String Ascii List.
From Verif Require Import Outcome Float Payload Addr SpecOct SpecGeom FloatFacts Geom GeomFacts ErrorHandler VMQuery SpecQuery SpecHist
  QueryFacts QueryProof QueryHist QueryIndep Stream GetOpt QueryApp IsoApp SpecText StreamFacts SpecApp AppFacts AppMain SpecIso IsoNum IsoFacts.
Import ListNotations.
Open Scope Z_scope.

(** ** Effects on the object and on the files *)
Section Effects.
Context {DB : Type}.
Variable E : env DB.

(** Along a run the object changes in its error handler only, and no log is written. *)
Definition kept (q : qstate DB) (fs : files) (q' : qstate DB) (fs' : files) : Prop :=
  exists e', q' = with_err q e' /\ after_reports (q_err q) e' /\
    (eh_stream (q_err q) = Some "/dev/null"%string -> fs' = fs).
Lemma kept_refl q fs : kept q fs q fs.
Proof. exists (q_err q). split; [symmetry; apply err_same|]. split; [apply after_refl | reflexivity]. Qed.
Lemma kept_trans q1 fs1 q2 fs2 q3 fs3 : kept q1 fs1 q2 fs2 -> kept q2 fs2 q3 fs3 -> kept q1 fs1 q3 fs3.
Proof.
  intros (e1 & -> & A1 & S1) (e2 & -> & A2 & S2). cbn [with_err q_err] in A2, S2. exists e2. rewrite err_err.
  split; [reflexivity|]. split; [eapply after_trans; eassumption|]. intros St. rewrite S2, S1; try assumption; [reflexivity|].
  rewrite (proj1 (after_log _ _ A1)). exact St.
Qed.
Lemma ask_kept q fs lon lat old z q' fs' v : ask E q fs lon lat old z = Val (q', fs', v) -> kept q fs q' fs'.
Proof. intros H. destruct (ask_effects E _ _ _ _ _ _ _ _ _ H) as (A & B & C). exists (q_err q'). auto. Qed.
Lemma stepDown_kept k : forall iter q fs lon lat old elev q' fs' v,
  stepDown E k iter q fs lon lat old elev = Val (q', fs', v) -> kept q fs q' fs'.
Proof.
  induction k as [|k IH]; intros iter q fs lon lat old elev q' fs' v H; cbn [stepDown] in H.
  - injection H as <- <- _. apply kept_refl.
  - apply bind_val in H. destruct H as ([[q1 fs1] v1] & Q & H). apply ask_kept in Q.
    destruct (fgt v1 f_zero); [injection H as <- <- _; exact Q|]. eapply kept_trans; [exact Q | eapply IH, H].
Qed.
Lemma bisect_kept k : forall q fs t lon lat old U L r0 q' fs' r,
  bisect E k q fs t lon lat old U L r0 = Val (q', fs', r) -> kept q fs q' fs'.
Proof.
  induction k as [|k IH]; intros q fs t lon lat old U L r0 q' fs' r H; cbn [bisect] in H.
  - injection H as <- <- _. apply kept_refl.
  - apply bind_val in H. destruct H as ([[q1 fs1] v1] & Q1 & H). apply ask_kept in Q1.
    apply bind_val in H. destruct H as ([[q2 fs2] v2] & Q2 & H). apply ask_kept in Q2.
    apply bind_val in H. destruct H as ([[q3 fs3] v3] & Q3 & H). apply ask_kept in Q3.
    assert (K : kept q fs q3 fs3) by (eapply kept_trans; [eapply kept_trans; eassumption | exact Q3]).
    destruct (fgt t v1 && fle t v3); [eapply kept_trans; [exact K | eapply IH, H]|].
    destruct (fgt t v3 && fle t v2); [eapply kept_trans; [exact K | eapply IH, H]|].
    destruct (fle t v1); [injection H as <- <- _; exact K|].
    destruct (flt v2 f_zero); injection H as <- <- _; exact K.
Qed.

Definition null_log (e : errh) : Prop := eh_stream e = Some "/dev/null"%string.
Lemma kept_only k (q : qstate DB) fs q' fs' : kept (only k q) fs q' fs' ->
  exists e', q' = with_err (only k q) e' /\ after_reports (q_err q) e' /\ (null_log (q_err q) -> fs' = fs).
Proof. intros (e' & -> & A & S1). exists e'. auto. Qed.

Lemma isoElev_effects q fs junk lon lat q' fs' v : isoElev E q fs junk lon lat = Val (q', fs', v) ->
  exists e', q' = with_err (only 1 q) e' /\ after_reports (q_err q) e' /\ (null_log (q_err q) -> fs' = fs).
Proof.
  unfold isoElev. rewrite set_elevation. cbn [bind]. destruct (bad (only 8 q)); [discriminate|]. intros H.
  apply bind_val in H. destruct H as ([[q2 fs2] el] & Q & H). apply ask_kept, kept_only in Q. destruct Q as (e2 & -> & A2 & S2).
  rewrite set_vs, only_err, only_only in H. cbn [bind] in H.
  apply stepDown_kept in H. destruct H as (e3 & -> & A3 & S3). rewrite err_err. exists e3. cbn [with_err q_err] in A3, S3.
  split; [reflexivity|]. split; [eapply after_trans; eassumption|]. intros St.
  rewrite S3, (S2 St); [reflexivity|]. rewrite (proj1 (after_log _ _ A2)). exact St.
Qed.
Lemma searchVs_effects g q fs junk t lon lat U L q' fs' r : searchVs E g q fs junk t lon lat U L = Val (q', fs', r) ->
  exists e', q' = with_err (only 1 q) e' /\ after_reports (q_err q) e' /\ (null_log (q_err q) -> fs' = fs).
Proof.
  unfold searchVs. intros H. apply bind_val in H. destruct H as (n & _ & H). rewrite set_vs in H. cbn [bind] in H.
  apply bisect_kept, kept_only in H. exact H.
Qed.

(** Reports leave a mark. *)
Lemma after_ok e e' : after_reports e e' -> eh_status e' = OK -> e' = e.
Proof.
  intros (h & R & ->). generalize (fun _ : string => @None string). intros fs.
  assert (G : forall e, h <> [] -> eh_status (fst (hrun (fun _ => true) h (e, fs))) <> OK).
  { clear e. revert fs. induction R as [|c h Hc Hh IH]; intros fs e N; [congruence|].
    cbn [hrun fold_left]. destruct h as [|c2 h2].
    - destruct c; try contradiction; discriminate.
    - destruct c; try contradiction; cbn [hstep]; apply IH; discriminate. }
  destruct h as [|c h]; [reflexivity|]. intros H. exfalso. exact (G e ltac:(discriminate) H).
Qed.
Lemma after_reset e e' : after_reports e e' -> clean e -> eh_reset e' = e.
Proof.
  intros A [C1 C2]. destruct (after_log _ _ A) as [L1 L2]. destruct e as [s m l st]. unfold eh_reset.
  cbn in *. subst. reflexivity.
Qed.

Variable T : texts.
Lemma isoLocation_effects c g q fs junk lon lat q1 fs1 w r u :
  isoLocation E T c g q fs junk lon lat = Val (q1, fs1, w, r, u) -> clean (q_err q) -> null_log (q_err q) ->
  fs1 = fs /\ (exists e', q1 = with_err (only 1 q) e') /\ (forall line, r = inr line -> q1 = only 1 q /\ u = true).
Proof.
  unfold isoLocation. intros H C N. apply bind_val in H. destruct H as ([[q2 fs2] topo] & Q2 & H).
  apply isoElev_effects in Q2. destruct Q2 as (e2 & -> & A2 & S2).
  apply bind_val in H. destruct H as ([[q3 fs3] r3] & Q3 & H).
  apply searchVs_effects in Q3. destruct Q3 as (e3 & -> & A3 & S3). cbn [with_err q_err] in A3, S3.
  rewrite only_err, only_only in *. rewrite err_err in H.
  assert (A : after_reports (q_err q) e3) by (eapply after_trans; eassumption).
  assert (F : fs3 = fs).
  { rewrite S3, (S2 N); [reflexivity|]. unfold null_log. rewrite (proj1 (after_log _ _ A2)). exact N. }
  subst fs3. destruct r3 as [z|m].
  - destruct (bad (with_err (only 1 q) e3) && is_error (with_err (only 1 q) e3)).
    + injection H as <- <- _ <- <-. split; [reflexivity|]. split; [eauto|]. discriminate.
    + destruct (bad (with_err (only 1 q) e3)) eqn:B; injection H as <- <- _ <- <-; (split; [reflexivity|]).
      * cbn [with_err q_err]. rewrite (after_reset _ _ A C). split; [eexists; apply err_err|]. intros line _.
        rewrite err_err. change (q_err q) with (q_err (only 1 q)). rewrite err_same. split; reflexivity.
      * assert (O : eh_status e3 = OK) by (unfold bad in B; cbn [with_err q_err] in B; destruct (eh_status e3); try discriminate; reflexivity).
        split; [eauto|]. intros line _. rewrite (after_ok _ _ A O).
        change (q_err q) with (q_err (only 1 q)). rewrite err_same. split; reflexivity.
  - injection H as <- <- _ <- <-. split; [reflexivity|]. split; [eauto|]. discriminate.
Qed.

(** ** What a location does not depend on *)
Lemma bisect_old k : forall q fs t lon lat old old' U L r, q_vals q = [Some 1] ->
  bisect E k q fs t lon lat old U L r = bisect E k q fs t lon lat old' U L r.
Proof.
  destruct k; intros q fs t lon lat old old' U L r V; [reflexivity|]. cbn [bisect].
  rewrite (ask_old E 1 q fs old old') by (assumption || lia). reflexivity.
Qed.
Lemma isoElev_only k q fs junk lon lat : isoElev E (only k q) fs junk lon lat = isoElev E q fs junk lon lat.
Proof. unfold isoElev. rewrite !set_elevation, only_only. reflexivity. Qed.
Lemma isoElev_junk q fs junk junk' lon lat : isoElev E q fs junk lon lat = isoElev E q fs junk' lon lat.
Proof.
  unfold isoElev. rewrite !set_elevation. cbn [bind].
  rewrite (ask_old E 8 (only 8 q) fs junk junk') by (reflexivity || lia). reflexivity.
Qed.
Lemma searchVs_junk g q fs junk junk' t lon lat U L :
  searchVs E g q fs junk t lon lat U L = searchVs E g q fs junk' t lon lat U L.
Proof.
  unfold searchVs. destruct (searchIters g U L); cbn [bind]; try reflexivity. rewrite set_vs. cbn [bind].
  apply bisect_old. reflexivity.
Qed.
Lemma isoLocation_only c g k q fs junk junk' lon lat :
  isoLocation E T c g (only k q) fs junk lon lat = isoLocation E T c g q fs junk' lon lat.
Proof.
  unfold isoLocation. rewrite isoElev_only, (isoElev_junk q fs junk junk').
  destruct (isoElev E q fs junk' lon lat) as [[[q1 fs1] topo]| | |]; cbn [bind]; try reflexivity.
  rewrite (searchVs_junk g q1 fs1 junk junk'). reflexivity.
Qed.
Lemma isoLocation_junk c g q fs junk junk' lon lat :
  isoLocation E T c g q fs junk lon lat = isoLocation E T c g q fs junk' lon lat.
Proof.
  rewrite <- (isoLocation_only c g 1 q fs junk junk). apply isoLocation_only.
Qed.

Lemma finish_only k q w lines fs : finish E (only k q) w lines fs = finish E q w lines fs.
Proof.
  unfold finish, close, bad, leave, destroy, tell. cbn [only set_db q_err q_db q_dbExt q_name eh_status]. reflexivity.
Qed.

(** ** The surface *)
Lemma stepDown_spec q lon lat e0 : forall k iter topo, 0 <= iter ->
  ((exists j v, iter <= j < iter + Z.of_nat k /\ topo = down e0 j /\ reads E q "Vs" lon lat topo v /\ positive v /\
      forall i, iter <= i < j -> exists v', reads E q "Vs" lon lat (down e0 i) v' /\ ~ positive v') \/
   (topo = e0 /\ forall i, iter <= i < iter + Z.of_nat k -> exists v', reads E q "Vs" lon lat (down e0 i) v' /\ ~ positive v')) ->
  forall e fs old, exists e' fs', quiet e e' /\ (null_log e -> fs' = fs) /\
    stepDown E k iter (with_err (only 1 q) e) fs lon lat old e0 = Val (with_err (only 1 q) e', fs', topo).
Proof.
  induction k as [|k IH]; intros iter topo Hi H e fs old; cbn [stepDown].
  - destruct H as [(j & v & J & _)|[-> _]]; [lia|]. exists e, fs. split; [apply quiet_refl|]. split; reflexivity.
  - change (add64 e0 (mul64 (i2f64 iter) elevStep)) with (down e0 iter).
    assert (D : (exists v, reads E q "Vs" lon lat (down e0 iter) v /\ positive v /\ topo = down e0 iter) \/
                (exists v, reads E q "Vs" lon lat (down e0 iter) v /\ ~ positive v)).
    { destruct H as [(j & v & J & Ht & R & P & B)|[_ B]].
      - destruct (Z.eq_dec j iter) as [->|Nj].
        + left. exists v. rewrite <- Ht. auto.
        + right. destruct (B iter ltac:(lia)) as (v' & R' & N'). eauto.
      - right. destruct (B iter ltac:(lia)) as (v' & R' & N'). eauto. }
    destruct D as [(v & R & P & ->)|(v & R & P)].
    + destruct (ask_reads E q lon lat _ v R e fs old) as (e1 & fs1 & -> & A1 & S1). cbn [bind].
      change (fgt v f_zero) with (flt f_zero v). rewrite P. exists e1, fs1. split; [exact A1|]. split; [exact S1 | reflexivity].
    + destruct (ask_reads E q lon lat _ v R e fs old) as (e1 & fs1 & -> & A1 & S1). cbn [bind].
      change (fgt v f_zero) with (flt f_zero v). unfold positive in P. apply not_true_is_false in P. rewrite P.
      destruct (IH (iter + 1) topo ltac:(lia)) with (e := e1) (fs := fs1) (old := v) as (e2 & fs2 & A2 & S2 & ->).
      { destruct H as [(j & v2 & J & Ht & R2 & P2 & B)|[Ht B]].
        - left. exists j, v2. split; [|split; [exact Ht|split; [exact R2|split; [exact P2|intros i Ii; apply B; lia]]]].
          assert (j <> iter); [|lia]. intros ->. rewrite Ht in R2.
          destruct (ask_reads E q lon lat _ v R e fs old) as (? & ? & K1 & _).
          destruct (ask_reads E q lon lat _ v2 R2 e fs old) as (? & ? & K2 & _).
          rewrite K1 in K2. injection K2 as _ _ K2. unfold positive in P2. congruence.
        - right. split; [exact Ht|]. intros i Ii. apply B. lia. }
      exists e2, fs2. split; [eapply quiet_trans; eassumption|]. split; [|reflexivity]. intros St.
      rewrite S2, S1; try assumption; [reflexivity|]. unfold null_log. rewrite (proj1 (quiet_log _ _ A1)). exact St.
Qed.

Lemma isoElev_surface q lon lat topo : surface E q lon lat topo -> clean (q_err q) ->
  forall fs junk, exists e' fs', after_reports (q_err q) e' /\ eh_status e' <> ERROR /\ (null_log (q_err q) -> fs' = fs) /\
    isoElev E q fs junk lon lat = Val (with_err (only 1 q) e', fs', topo).
Proof.
  intros (e0 & (q1 & fs0 & old0 & q0' & fs0' & V & Q & N) & H) C fs junk. rewrite set_elevation in V. injection V as <-.
  unfold isoElev. rewrite set_elevation. cbn [bind].
  replace (bad (only 8 q)) with false by (unfold bad; cbn [only q_err]; rewrite (proj1 C); reflexivity).
  assert (K : known_codes (q_vals (only 8 q))) by (intros j [J|[]]; injection J as <-; lia).
  assert (A : exists e1 fs1, ask E (only 8 q) fs lon lat junk (i2f64 (-5000)) = Val (with_err (only 8 q) e1, fs1, e0) /\
     after_reports (q_err q) e1 /\ eh_status e1 <> ERROR /\ (null_log (q_err q) -> fs1 = fs)).
  { rewrite (ask_old E 8 _ fs junk old0) by (reflexivity || lia).
    assert (B : forall f1 f2, omap (fun x => (fst (fst x), snd x)) (query E (only 8 q) f1 (Some [old0]) lon lat (i2f64 (-5000))) =
       omap (fun x => (fst (fst x), snd x)) (query E (only 8 q) f2 (Some [old0]) lon lat (i2f64 (-5000)))).
    { intros f1 f2. unfold query. rewrite ?omap_bind.
      destruct (assert_ _); cbn [bind]; try reflexivity. rewrite ?omap_bind.
      destruct (query_body E (only 8 q) lon lat (i2f64 (-5000))) as [[[e [p|]] r]| | |]; cbn [bind]; try reflexivity.
      destruct (p_block p =? NODATABLOCK); cbv beta iota; rewrite ?omap_bind;
        destruct (copy _ _ _ _ _ _ _ _ _ _) as [[vs e2]| | |]; reflexivity. }
    specialize (B fs0 fs). rewrite Q in B. cbn [omap fst snd] in B.
    unfold ask. destruct (query E (only 8 q) fs (Some [old0]) lon lat (i2f64 (-5000))) as [[[q2 fs2] vs2]| | |] eqn:Q2;
      cbn [omap fst snd] in B; try discriminate. injection B as -> <-. cbn [bind nth64 nth].
    destruct (query_effects E _ _ _ _ _ _ _ _ _ Q2) as (E1 & E2 & E3 & _).
    exists (q_err q2), fs2. rewrite E1 at 1. split; [reflexivity|]. split; [exact E2|]. split; [exact N|].
    intros St. destruct E3 as [->| ->]; [reflexivity|]. unfold log_line. cbn [only q_err]. rewrite St. reflexivity. }
  destruct A as (e1 & fs1 & -> & A1 & N1 & S1). cbn [bind]. rewrite set_vs, only_err, only_only. cbn [bind].
  destruct (stepDown_spec q lon lat e0 10 0 topo ltac:(lia)) with (e := e1) (fs := fs1) (old := e0) as (e2 & fs2 & [A2 N2] & S2 & ->).
  { destruct H as [(k & v & Hk & Ht & R & P & B)|[Ht B]].
    - left. exists k, v. split; [lia|]. auto.
    - right. split; [exact Ht|]. intros i Hi. apply B. lia. }
  exists e2, fs2. split; [eapply after_trans; eassumption|]. split; [auto|]. split; [|reflexivity].
  intros St. rewrite S2, S1; try assumption; [reflexivity|]. unfold null_log. rewrite (proj1 (after_log _ _ A1)). exact St.
Qed.
End Effects.
