(** C70: the values are constant in every stored octant; nothing is interpolated. *)
From Coq Require Import ZArith Bool Reals Lra Lia Classical String List.
From Verif Require Import Outcome Float Payload Addr SpecOct SpecGeom Geom GeomFacts GeomProof ErrorHandler VMQuery SpecQuery SpecHist
  SpecAvg QueryFacts QueryProof QuerySurface QueryHist QueryIndep QueryMain SpecE2E E2EFacts ToyLib ToyDb PropGeom PropQuery PropE2E.
Import ListNotations.
Open Scope Z_scope.

(** Two places that no stored octant tells apart. *)
Definition same_cells (db : contents) (w w' : place) : Prop :=
  forall h v, In (h, v) db -> (holds h w <-> holds h w').
(** Both places lie in the same smallest octant, or in none. *)
Definition share_finest (db : contents) (w w' : place) : Prop :=
  (exists h v, finest db 31 w h v /\ finest db 31 w' h v) \/ (nothing db 31 w /\ nothing db 31 w').

Lemma same_cells_sym db w w' : same_cells db w w' -> same_cells db w' w.
Proof. intros H h v I. specialize (H h v I). tauto. Qed.

(** The smallest octant decides about all others. *)
Lemma share_same db w w' : db_ok db -> share_finest db w w' -> same_cells db w w'.
Proof.
  intros [HO _] [(h & v & (I & H & L & F) & (_ & H' & _ & F'))|[N N']] k u Ik.
  - pose proof (HO _ _ I) as Oh. pose proof (HO _ _ Ik) as Ok. pose proof Ok as ((_ & Lk) & _).
    split; intros K.
    + eapply holds_cover; [exact H'|]. eapply cover_holds; [exact Ok|exact Oh|exact (F k u Ik K Lk)|exact K|exact H].
    + eapply holds_cover; [exact H|]. eapply cover_holds; [exact Ok|exact Oh|exact (F' k u Ik K Lk)|exact K|exact H'].
  - pose proof (HO _ _ Ik) as ((_ & Lk) & _). split; intros K; [specialize (N k u Ik K)|specialize (N' k u Ik K)]; lia.
Qed.

Lemma finest_same db l w w' h v : same_cells db w w' -> finest db l w h v -> finest db l w' h v.
Proof.
  intros S (I & H & L & F). split; [exact I|]. split; [apply (S h v I), H|]. split; [exact L|].
  intros k u Ik K. apply (F k u Ik). apply (S k u Ik), K.
Qed.
Lemma nothing_same db l w w' : same_cells db w w' -> nothing db l w -> nothing db l w'.
Proof. intros S N h v I H. apply (N h v I). apply (S h v I), H. Qed.
Lemma climbs_same db t w w' p h v r : same_cells db w w' -> climbs db t w p h v r -> climbs db t w' p h v r.
Proof.
  intros S C. induction C.
  - apply climbs_stop; assumption.
  - eapply climbs_up; [assumption| |exact IHC]. eapply finest_same; eassumption.
  - apply climbs_orphan; [assumption|]. eapply nothing_same; eassumption.
Qed.
Lemma answer_same r db w w' a o : same_cells db w w' -> answer r db w a o -> answer r db w' a o.
Proof.
  intros S. destruct r as [|l|t]; cbn [answer].
  - intros [[(h & v & F & A)|[N A]] O]; (split; [|exact O]); [left|right].
    + exists h, v. split; [eapply finest_same; eassumption|exact A].
    + split; [eapply nothing_same; eassumption|exact A].
  - intros [[(h & v & F & A)|[N A]] O]; (split; [|exact O]); [left|right].
    + exists h, v. split; [eapply finest_same; eassumption|exact A].
    + split; [eapply nothing_same; eassumption|exact A].
  - intros [(h & v & F & A)|(N & A)].
    + left. exists h, v. split; [eapply finest_same; eassumption|].
      destruct A as [A|(NC & [(p & x & C & A)|(x & C & A)])]; [left; exact A|right..]; (split; [exact NC|]).
      * left. exists p, x. split; [eapply climbs_same; eassumption|exact A].
      * right. exists x. split; [eapply climbs_same; eassumption|exact A].
    + right. split; [eapply nothing_same; eassumption|exact A].
Qed.
Lemma combined_same r db ext w w' a o1 o2 : same_cells db w w' ->
  (forall dbx, ext = Some dbx -> same_cells dbx w w') ->
  combined r db ext w a o1 o2 -> combined r db ext w' a o1 o2.
Proof.
  intros S X (first & A & B). exists first. split; [eapply answer_same; eassumption|].
  destruct ext as [dbx|]; [|exact B]. destruct B as [B1 B2]. split; [|exact B2].
  intros Z. eapply answer_same; [exact (X dbx eq_refl)|exact (B1 Z)].
Qed.

Section Elev.
Context {DB : Type} (E : env DB) (q : qstate DB) (db : contents) (ext : option contents).
Hypothesis HS : setup E q db ext.

Lemma found_same lon lat elev w lon' lat' elev' w' a a' e e' : at_place q lon lat elev w -> at_place q lon' lat' elev' w' ->
  place_inside w -> place_inside w' ->
  lonLatElevToAddr (q_geom q) (mkAddr 0 0 0 0 MAXLEVEL Leaf) lon lat elev = Val (e, a) ->
  lonLatElevToAddr (q_geom q) (mkAddr 0 0 0 0 MAXLEVEL Leaf) lon' lat' elev' = Val (e', a') ->
  forall S d, searches S d -> db_ok d -> same_cells d w w' -> S a = S a'.
Proof.
  intros P P' I I' A A' S d HSd HO SC.
  destruct (addr31 q lon lat elev w P (or_introl I)) as (e0 & a0 & E0 & L0 & N0 & _). rewrite A in E0. injection E0 as <- <-.
  destruct (addr31 q lon' lat' elev' w' P' (or_introl I')) as (e1 & a1 & E1 & L1 & N1 & _). rewrite A' in E1. injection E1 as <- <-.
  destruct (N0 I) as [O0 W0], (N1 I') as [O1 W1].
  pose proof (finest_search S d a w HSd HO O0 W0) as F. pose proof (finest_search S d a' w' HSd HO O1 W1) as F'.
  rewrite L0 in F. rewrite L1 in F'.
  destruct (S a) as [[h v]|], (S a') as [[h' v']|]; [| | |reflexivity].
  - f_equal. eapply finest_unique; [exact HO| |exact F']. eapply finest_same; eassumption.
  - destruct F as (Ih & H & L & _). pose proof (F' h v Ih (proj1 (SC h v Ih) H)). lia.
  - destruct F' as (Ih & H & L & _). pose proof (F h' v' Ih (proj2 (SC h' v' Ih) H)). lia.
Qed.

Lemma elev_same lon lat elev w lon' lat' elev' w' s s' : at_place q lon lat elev w -> at_place q lon' lat' elev' w' ->
  place_inside w -> place_inside w' -> same_cells db w w' -> (forall dbx, ext = Some dbx -> same_cells dbx w w') ->
  queryElev E q lon lat elev false = Val s -> queryElev E q lon' lat' elev' false = Val s' -> s = s'.
Proof.
  intros P P' I I' SC SX Q Q'.
  destruct (addr31 q lon lat elev w P (or_introl I)) as (e0 & a0 & E0 & _).
  destruct (addr31 q lon' lat' elev' w' P' (or_introl I')) as (e1 & a1 & E1 & _).
  pose proof (found_same _ _ _ _ _ _ _ _ _ _ _ _ P P' I I' E0 E1) as FS.
  pose proof HS as [(d & Ed & HSd & HO) HX].
  unfold queryElev in Q, Q'. rewrite E0 in Q. rewrite E1 in Q'. cbn [bind] in Q, Q'. rewrite Ed in Q, Q'. cbn [bind] in Q, Q'.
  rewrite (FS _ _ HSd HO SC) in Q.
  assert (FX : match q_dbExt q with
        | None => None
        | Some x => match e_search E x a0 with Some hp => Some (x, hp) | None => None end
        end = match q_dbExt q with
        | None => None
        | Some x => match e_search E x a1 with Some hp => Some (x, hp) | None => None end
        end).
  { destruct ext as [dbx|].
    - destruct HX as (x & -> & HSx & HOx). rewrite (FS _ _ HSx HOx (SX dbx eq_refl)). reflexivity.
    - rewrite HX. reflexivity. }
  rewrite FX in Q. clear FX.
  match type of Q' with match ?X with _ => _ end = _ => destruct X as [[dE [hit p]]|] end.
  - destruct (addrToLonLatElev (q_geom q) hit) as [[[x y] z]| | |]; cbn [bind] in Q, Q'; try discriminate.
    destruct (lonLatElevToAddr (q_geom q) (mkAddr 0 0 0 0 MAXLEVEL Leaf) lon lat (add64 z (widen (p_dfs p)))) as [[u b]| | |]; cbn [bind] in Q; try discriminate.
    destruct (lonLatElevToAddr (q_geom q) (mkAddr 0 0 0 0 MAXLEVEL Leaf) lon' lat' (add64 z (widen (p_dfs p)))) as [[u' b']| | |]; cbn [bind] in Q'; try discriminate.
    rewrite andb_false_r in Q, Q'. congruence.
  - congruence.
Qed.
End Elev.

(** Any kind of query, any values: two locations inside the model that share the smallest
    octant in every open database get the same values and the same status. *)
Theorem C70_constant : forall DB (E : env DB) q fs lon lat elev w fs' lon' lat' elev' w' names olds olds' db ext r,
  setup E q db ext -> resolution_of q r -> (In NElevation names -> depths_ok q db ext) ->
  plain q lon lat elev w names olds -> place_inside w ->
  plain q lon' lat' elev' w' names olds' -> place_inside w' ->
  share_finest db w w' -> (forall dbx, ext = Some dbx -> share_finest dbx w w') ->
  exists vals q1 fs1 q2 fs2, query E q fs (Some olds) lon lat elev = Val (q1, fs1, vals) /\
    query E q fs' (Some olds') lon' lat' elev' = Val (q2, fs2, vals) /\
    eh_status (q_err q1) = eh_status (q_err q2).
Proof.
  intros DB E q fs lon lat elev w fs' lon' lat' elev' w' names olds olds' db ext r HS HR HD P I P' I' SF SX.
  assert (DO : db_ok db) by (destruct HS as ((d & _ & _ & DO) & _); exact DO).
  assert (DX : forall dbx, ext = Some dbx -> db_ok dbx).
  { intros dbx ->. destruct HS as (_ & x & _ & _ & O). exact O. }
  assert (SC : same_cells db w w') by (apply share_same; assumption).
  assert (XC : forall dbx, ext = Some dbx -> same_cells dbx w w') by (intros dbx Q; apply share_same; [exact (DX dbx Q)|exact (SX dbx Q)]).
  assert (EL : exists s, (In NElevation names -> queryElev E q lon lat elev false = Val s) /\
                         (In NElevation names -> queryElev E q lon' lat' elev' false = Val s)).
  { destruct (in_dec (fun a b : vname => ltac:(decide equality)) NElevation names) as [N|N].
    - destruct (queryElev_spec E q db ext HS (HD N) lon lat elev w false (proj1 (proj2 P)) I) as (s & Q & _).
      destruct (queryElev_spec E q db ext HS (HD N) lon' lat' elev' w' false (proj1 (proj2 P')) I') as (s' & Q' & _).
      exists s. split; intros _; [exact Q|].
      rewrite (elev_same E q db ext HS _ _ _ _ _ _ _ _ s s' (proj1 (proj2 P)) (proj1 (proj2 P')) I I' SC XC Q Q'). exact Q'.
    - exists f_zero. split; intros K; contradiction. }
  destruct EL as (s & E1 & E2).
  destruct (query_inside E q fs lon lat elev w names olds db ext r s HS HR P I E1)
    as (ans & o1 & o2 & e1 & e2 & e3 & f3 & Q & C & W1 & W2 & K).
  destruct (query_inside E q fs' lon' lat' elev' w' names olds' db ext r s HS HR P' I' E2)
    as (ans' & o1' & o2' & e1' & e2' & e3' & f3' & Q' & C' & W1' & W2' & K').
  destruct (combined_unique _ _ _ _ _ _ _ _ _ _ DO DX (combined_same _ _ _ _ _ _ _ _ SC XC C) C') as (<- & <- & <-).
  exists (values ans s names). do 4 eexists. split; [exact Q|]. split; [exact Q'|].
  cbn [q_err with_err].
  assert (G : eh_status e2 = eh_status e2').
  { assert (G1 : eh_status e1 = eh_status e1').
    { destruct o1; cbn [orphan_reported] in W1, W1'; [|congruence].
      destruct W1 as (? & _ & _ & _ & -> & _), W1' as (? & _ & _ & _ & -> & _). reflexivity. }
    destruct o2; cbn [orphan_reported] in W2, W2'; [|congruence].
    destruct W2 as (? & _ & _ & _ & -> & _), W2' as (? & _ & _ & _ & -> & _). reflexivity. }
  destruct K as [(B & -> & _)|(B & -> & _)], K' as [(B' & -> & _)|(B' & -> & _)]; try contradiction; [exact G|reflexivity].
Qed.
Print Assumptions C70_constant.

(** After averaging: within an octant of the database that was averaged all answers are the
    same, whatever the kind of query and the resolution. *)
Theorem C70_constant_averaged : forall E d d' inp recs DB (EQ : env DB) q r fs lon lat elev w fs' lon' lat' elev' w' names olds olds' a p,
  averaged_into E d d' inp recs -> serves EQ q recs -> resolution_of q r -> (In NElevation names -> depths_ok q inp None) ->
  plain q lon lat elev w names olds -> place_inside w ->
  plain q lon' lat' elev' w' names olds' -> place_inside w' ->
  In (a, p) inp -> holds a w -> holds a w' ->
  exists vals q1 fs1 q2 fs2, query EQ q fs (Some olds) lon lat elev = Val (q1, fs1, vals) /\
    query EQ q fs' (Some olds') lon' lat' elev' = Val (q2, fs2, vals) /\
    eh_status (q_err q1) = eh_status (q_err q2).
Proof.
  intros E d d' inp recs DB EQ q r fs lon lat elev w fs' lon' lat' elev' w' names olds olds' a p A S HR HD P I P' I' Ia H H'.
  pose proof (served _ _ _ _ _ _ _ A S) as HS.
  destruct (averaged_run _ _ _ _ _ A) as (A1 & W & V & L & s & F & St).
  assert (FN : forall u, holds a u -> finest recs 31 u a p).
  { intros u Hu. split; [exact (out_input _ _ _ _ A1 W F St a p Ia)|]. split; [exact Hu|].
    pose proof (input_ok _ W a p Ia) as Oa. split; [apply Oa|].
    intros h v Ih Hh _. destruct (out_cases _ _ _ _ A1 W F St h v Ih) as [J|(_ & Oh & Ah)].
    - destruct (Z.le_gt_cases (a_level h) (a_level a)) as [LE|GT]; [exact LE|]. exfalso.
      assert (C : covers a h) by (apply (cover_holds a h u); [exact Oa|exact (input_ok _ W h v J)|lia|exact Hu|exact Hh]).
      apply (wf_disjoint _ W a h); [apply in_map_iff; exists (a, p); auto|apply in_map_iff; exists (h, v); auto|]. split; [lia|exact C].
    - pose proof (above_coarser _ W V L a p h u Ia Oh Ah Hu Hh). lia. }
  assert (HD' : In NElevation names -> depths_ok q recs None).
  { intros N h v [[Ih T]|(dbx & Q & _)]; [|discriminate Q]. apply (HD N). left. split; [|exact T].
    destruct (out_cases _ _ _ _ A1 W F St h v Ih) as [J|(T' & _)]; [exact J | congruence]. }
  apply (C70_constant DB EQ q fs lon lat elev w fs' lon' lat' elev' w' names olds olds' recs None r HS HR HD' P I P' I').
  - left. exists a, p. split; apply FN; assumption.
  - intros dbx Q. discriminate.
Qed.
Print Assumptions C70_constant_averaged.

(** ** Example *)
(** Two places in the same octant of level 15 *)
Lemma share_by_search (d : contents) (q : qstate contents) lon lat elev w lon' lat' elev' w' e a e' a' :
  db_ok d -> at_place q lon lat elev w -> at_place q lon' lat' elev' w' -> place_inside w -> place_inside w' ->
  lonLatElevToAddr (q_geom q) (mkAddr 0 0 0 0 MAXLEVEL Leaf) lon lat elev = Val (e, a) ->
  lonLatElevToAddr (q_geom q) (mkAddr 0 0 0 0 MAXLEVEL Leaf) lon' lat' elev' = Val (e', a') ->
  e_search toy_env d a = e_search toy_env d a' -> share_finest d w w'.
Proof.
  intros HO P P' I I' A A' S.
  destruct (addr31 q lon lat elev w P (or_introl I)) as (e0 & a0 & E0 & L0 & N0 & _). rewrite A in E0. injection E0 as <- <-.
  destruct (addr31 q lon' lat' elev' w' P' (or_introl I')) as (e1 & a1 & E1 & L1 & N1 & _). rewrite A' in E1. injection E1 as <- <-.
  destruct (N0 I) as [O0 W0], (N1 I') as [O1 W1].
  pose proof (finest_search _ d a w (lsearch_ok d) HO O0 W0) as F. pose proof (finest_search _ d a' w' (lsearch_ok d) HO O1 W1) as F'.
  rewrite L0 in F. rewrite L1 in F'. change (e_search toy_env d) with (lsearch d) in S. rewrite S in F.
  destruct (lsearch d a') as [[h v]|]; [left; exists h, v; auto|right; auto].
Qed.
(** 3 m to the south and 3 m higher *)
Definition near_y : f64 := sub64 toy_y (i2f64 3).
Definition near_elev : f64 := dec64 (-12315) 1.
Definition near : place := (rot_p toy toy_x near_y, rot_q toy toy_x near_y, vert_r near_elev).
Lemma near_inside : place_inside near.
Proof. split; [|split]; inside_tac. Qed.
Lemma near_at (q : qstate contents) : q_geom q = toy -> at_place q toy_x near_y near_elev near.
Proof. intros Q. exists toy_x, near_y. unfold near. rewrite Q. split; [reflexivity | auto]. Qed.
Lemma near_shares : share_finest toy_db (toy_place elev_a) near.
Proof.
  destruct (lonLatElevToAddr toy (mkAddr 0 0 0 0 MAXLEVEL Leaf) toy_x toy_y elev_a) as [[e a]| | |] eqn:A; try (vm_compute in A; discriminate A).
  destruct (lonLatElevToAddr toy (mkAddr 0 0 0 0 MAXLEVEL Leaf) toy_x near_y near_elev) as [[e' a']| | |] eqn:A'; try (vm_compute in A'; discriminate A').
  apply (share_by_search toy_db (toy_q MAXRES f_zero toy_db None false all_names) toy_x toy_y elev_a _ toy_x near_y near_elev _ e a e' a'
    toy_db_ok (toy_at _ _ _ _ _ _ _) (near_at (toy_q MAXRES f_zero toy_db None false all_names) eq_refl) toy_inside_a near_inside A A').
  vm_compute in A. injection A as _ <-. vm_compute in A'. injection A' as _ <-. vm_compute. reflexivity.
Qed.
Definition five := [NVs; NVp; NElevation; NZone; NDepthFreeSurf].
Example C70_example : exists vals q1 fs1 q2 fs2,
  query toy_env (toy_q WAVERES (i2f64 1) toy_db None false five) no_files (Some (repeat f_zero 5)) toy_x toy_y elev_a = Val (q1, fs1, vals) /\
  query toy_env (toy_q WAVERES (i2f64 1) toy_db None false five) no_files (Some (repeat f_zero 5)) toy_x near_y near_elev = Val (q2, fs2, vals) /\
  eh_status (q_err q1) = eh_status (q_err q2).
Proof.
  refine (C70_constant _ toy_env (toy_q WAVERES (i2f64 1) toy_db None false five) no_files toy_x toy_y elev_a (toy_place elev_a)
    no_files toy_x near_y near_elev near five (repeat f_zero 5) (repeat f_zero 5) toy_db None (ForPeriod _) (toy_setup _ _ _ _) _
    (fun _ => toy_depths _ _ _ _ _ _ (or_introl eq_refl) (or_introl eq_refl)) (toy_plain _ _ _ _ five _ (repeat f_zero 5) eq_refl) toy_inside_a
    _ near_inside near_shares _).
  - reflexivity.
  - split; [left; reflexivity|]. split; [apply near_at; reflexivity|]. split; reflexivity.
  - intros ? Q. discriminate.
Qed.
Example C70_example_places : near <> toy_place elev_a.
Proof. intros Q. apply (f_equal snd) in Q. vm_compute in Q. discriminate. Qed.
From Verif Require Import PropStore.
Open Scope Z_scope.
Lemma leaf_holds w q lon lat elev e a : at_place q lon lat elev w -> place_inside w -> @q_geom contents q = toy ->
  lonLatElevToAddr toy (mkAddr 0 0 0 0 MAXLEVEL Leaf) lon lat elev = Val (e, a) -> coversb toy_leaf a = true -> holds toy_leaf w.
Proof.
  intros P I Q A C. destruct (addr31 q lon lat elev w P (or_introl I)) as (e0 & a0 & E0 & _ & N0 & _).
  rewrite Q, A in E0. injection E0 as <- <-. destruct (N0 I) as [_ W]. eapply holds_cover; [exact W|]. apply coversb_iff. exact C.
Qed.
Example C70_averaged_example : exists vals q1 fs1 q2 fs2,
  query toy_env (toy_q FIXEDRES (i2f64 25) leaves_recs None false all_names) no_files (Some four) toy_x toy_y elev_a = Val (q1, fs1, vals) /\
  query toy_env (toy_q FIXEDRES (i2f64 25) leaves_recs None false all_names) no_files (Some four) toy_x near_y near_elev = Val (q2, fs2, vals) /\
  eh_status (q_err q1) = eh_status (q_err q2).
Proof.
  destruct leaves_averaged as (d' & A).
  refine (C70_constant_averaged works leaves_disk d' leaves leaves_recs _ toy_env (toy_q FIXEDRES (i2f64 25) leaves_recs None false all_names) (AtLevel 14)
    no_files toy_x toy_y elev_a (toy_place elev_a) no_files toy_x near_y near_elev near all_names four four toy_leaf v_leaf
    A (leaves_served _ _) _ _ (toy_plain4 _ _ _ _ _) toy_inside_a _ near_inside _ _ _).
  - exists 14. split; [vm_compute; reflexivity|]. split; [lia | reflexivity].
  - intros K. exfalso. pose proof names_material as M. rewrite Forall_forall in M. exact (M _ K eq_refl).
  - split; [left; reflexivity|]. split; [apply near_at; reflexivity|]. split; reflexivity.
  - right. left. reflexivity.
  - destruct (lonLatElevToAddr toy (mkAddr 0 0 0 0 MAXLEVEL Leaf) toy_x toy_y elev_a) as [[e a]| | |] eqn:B; try (vm_compute in B; discriminate B).
    apply (leaf_holds _ (toy_q MAXRES f_zero toy_db None false all_names) _ _ _ e a (toy_at _ _ _ _ _ _ _) toy_inside_a eq_refl B).
    vm_compute in B. injection B as _ <-. vm_compute. reflexivity.
  - destruct (lonLatElevToAddr toy (mkAddr 0 0 0 0 MAXLEVEL Leaf) toy_x near_y near_elev) as [[e a]| | |] eqn:B; try (vm_compute in B; discriminate B).
    apply (leaf_holds _ (toy_q MAXRES f_zero toy_db None false all_names) _ _ _ e a (near_at (toy_q MAXRES f_zero toy_db None false all_names) eq_refl) near_inside eq_refl B).
    vm_compute in B. injection B as _ <-. vm_compute. reflexivity.
Qed.
