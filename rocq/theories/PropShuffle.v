(** C81: the order in which grid files and points are given does not matter. *)
From Coq Require Import ZArith Bool Lia String Ascii Sorting.Sorted Sorting.Permutation List.
From Verif Require Import Outcome Float Payload Addr SpecOct AvgEngine SpecAvg AvgFinal SpecGeom Geom GeomProof ErrorHandler VMQuery Store Averager VMCreator SpecStore StoreFacts
  Stream GetOpt QueryApp SpecHist SpecApp SpecText SpecGrid SpecQuery QueryFacts QueryProof QueryMain SpecE2E E2EFacts
  SmallApps SpecSmall SmallFacts SpecPipe SpecLocal AddrFacts LocalFacts PropAvg PropStore PropSmall PropE2E PropQuery PropPipe PropLocal.
From Verif Require GridIngester PropGrid.
Import ListNotations.
Open Scope Z_scope.

(** The points with data of some grids, each with the level of its grid. *)
Definition points_with_data (grids : list (Z * list GridIngester.gridline)) : list (Z * GridIngester.gridline) :=
  flat_map (fun g => map (pair (fst g)) (filter has_data (snd g))) grids.

Lemma point_rec_det L lev l r r' : point_rec L lev l r -> point_rec L lev l r' -> r = r'.
Proof.
  intros [(c & H) S] [(c' & H') S']. rewrite H in H'. injection H' as _ Q. destruct r, r'. cbn [fst snd] in *. congruence.
Qed.
Lemma all_recs L grids recss : grids_recs L grids recss ->
  Forall2 (fun p r => point_rec L (fst p) (snd p) r) (points_with_data grids) (concat recss).
Proof.
  induction 1 as [|[lev pts] recs grids recss H _ IH]; [constructor|]. cbn [points_with_data flat_map concat fst snd] in *.
  apply Forall2_app; [|exact IH]. unfold grid_recs in H. clear -H. induction H; constructor; auto.
Qed.
Lemma all_recs_perm L g1 r1 g2 r2 : grids_recs L g1 r1 -> grids_recs L g2 r2 ->
  Permutation (points_with_data g1) (points_with_data g2) -> Permutation (concat r1) (concat r2).
Proof.
  intros H1 H2 P. destruct (Permutation_Forall2 P (all_recs _ _ _ H1)) as (r & P' & H).
  replace (concat r2) with r; [exact P'|]. pose proof (all_recs _ _ _ H2) as H'. clear -H H'.
  revert H'. generalize (concat r2). induction H as [|p x ps r A _ IH]; intros l H'; inversion H' as [|p' y ps' l' B H'']; subst; [reflexivity|].
  f_equal; [exact (point_rec_det _ _ _ _ _ A B)|apply IH; assumption].
Qed.
Lemma pairs_perm {A} (R : A -> A -> Prop) l l' : (forall x y, R x y -> R y x) -> Permutation l l' -> ForallOrdPairs R l -> ForallOrdPairs R l'.
Proof.
  intros S. induction 1 as [|x l l' P IH|x y l|l l' l'' _ IH1 _ IH2]; intros H; auto.
  - inversion H; subst. constructor; [|auto]. eapply Permutation_Forall; eassumption.
  - inversion H as [|? ? F H']; subst. inversion H' as [|? ? F' H'']; subst. inversion F; subst.
    constructor; [constructor; auto|]. constructor; assumption.
Qed.
Lemma good_perm r1 r2 : Permutation r1 r2 -> good_model r1 -> good_model r2.
Proof.
  intros P (N & O & D). split; [|split].
  - intros ->. apply N. apply Permutation_sym, Permutation_nil in P. exact P.
  - intros a v I. apply O. exact (Permutation_in _ (Permutation_sym P) I).
  - apply (pairs_perm _ r1); [tauto|exact P|exact D].
Qed.
Lemma records_same l1 l2 : StronglySorted etree_lt (map fst l1) -> StronglySorted etree_lt (map fst l2) ->
  (forall x : addr * payload, In x l1 <-> In x l2) -> l1 = l2.
Proof.
  intros S1 S2 H. apply (sorted_same (fun x y => etree_lt (fst x) (fst y))); [| |clear - S1|clear - S2|exact H].
  - intros x. apply etree_lt_irrefl. repeat split.
  - intros x y A B. assert (C : etree_lt (fst x) (fst x)).
    { unfold etree_lt in *. eapply path_lt_trans; eassumption. }
    revert C. apply etree_lt_irrefl. repeat split.
  - induction l1 as [|x l IH]; [constructor|]. cbn [map] in S1. inversion S1 as [|? ? S F]; subst. constructor; [auto|].
    apply (proj1 (Forall_map _ _ _)) in F. exact F.
  - induction l2 as [|x l IH]; [constructor|]. cbn [map] in S2. inversion S2 as [|? ? S F]; subst. constructor; [auto|].
    apply (proj1 (Forall_map _ _ _)) in F. exact F.
Qed.

Lemma generated E F T L files gargs gk fp ft fm d grids recss :
  storage_works E -> model_files F L files fp grids recss -> good_model (concat recss) ->
  command gen_letters gargs gk -> named "i" gk fp -> named "t" gk ft -> named "o" gk fm -> ft <> fm ->
  exists d1 f, genMain E F T L files gargs d = (d1, Val (0, [])) /\ d1 fm = Some f /\
    Permutation (d_recs f) (concat recss) /\ StronglySorted etree_lt (map fst (d_recs f)).
Proof.
  intros (S1 & S2 & S3 & S4 & S5 & S6 & S7 & S8) (text & tail & listed & M1 & M2 & M3 & M4 & M5) GM K N1 N2 N3 Hn.
  set (g := GridIngester.mkIngester fp fm ft authors true).
  destruct (PropGrid.C36_database_built E F files L g d text tail listed grids recss) as (d1 & out & R & D1 & PM & SR & C1); try assumption.
  { reflexivity. } { apply N1. } { apply N2. } { apply N3. }
  { intros d0. split; [apply S4|]. split; [apply S4 | apply S5]. }
  { apply S6. } { apply S8. } { apply S7. } { apply S7. } { apply good_different, GM. }
  { intros [a v] I. exact (proj1 (proj1 (proj2 GM) a v I)). } { apply GM. }
  exists d1. eexists. split; [|split; [exact D1|split; [exact PM|exact SR]]].
  pose proof (proj1 (C57_gen E F T L files gargs d) gk fp fm ft K N1 N3 N2) as X. unfold ingest in X. fold g in X. rewrite R in X. cbn [fst snd] in X.
  destruct X as [X1 X2]. destruct (genMain E F T L files gargs d) as [d1' o]. cbn [fst snd] in *. subst d1'. inversion X2; subst. reflexivity.
Qed.
Lemma averages_sorted E d d' inp recs : averaged_into E d d' inp recs -> StronglySorted etree_lt (map fst recs).
Proof.
  intros A. destruct (averaged_run _ _ _ _ _ A) as (A1 & W & V & L & s & F & St). exact (out_sorted _ _ _ _ A1 W F St).
Qed.
Lemma averages_ok E d d' inp recs a p : averaged_into E d d' inp recs -> In (a, p) recs -> octant_ok a.
Proof.
  intros A I. destruct (averaged_run _ _ _ _ _ A) as (A1 & W & V & L & s & F & St). exact (out_ok _ _ _ _ A1 W F St a p I).
Qed.

(** C81.  Two sets of files that hold the same points with data, however these are spread over
    the files and in whatever order: cencalvmgen makes databases with the same records, and
    cencalvmavg averages them to databases with the same records. *)
Theorem C81_same_model : forall L E1 F1 T1 files1 gargs1 gk1 aargs1 ak1 fp1 ft1 fm1 fo1 d1 grids1 recss1
    E2 F2 T2 files2 gargs2 gk2 aargs2 ak2 fp2 ft2 fm2 fo2 d2 grids2 recss2,
  storage_works E1 -> storage_works E2 ->
  model_files F1 L files1 fp1 grids1 recss1 -> model_files F2 L files2 fp2 grids2 recss2 ->
  Permutation (points_with_data grids1) (points_with_data grids2) -> good_model (concat recss1) ->
  command gen_letters gargs1 gk1 -> named "i" gk1 fp1 -> named "t" gk1 ft1 -> named "o" gk1 fm1 -> ft1 <> fm1 ->
  command avg_letters aargs1 ak1 -> named "i" ak1 fm1 -> named "o" ak1 fo1 -> fm1 <> fo1 ->
  command gen_letters gargs2 gk2 -> named "i" gk2 fp2 -> named "t" gk2 ft2 -> named "o" gk2 fm2 -> ft2 <> fm2 ->
  command avg_letters aargs2 ak2 -> named "i" ak2 fm2 -> named "o" ak2 fo2 -> fm2 <> fo2 ->
  exists d1' d1'' d2' d2'' m1 m2 o1 o2,
    genMain E1 F1 T1 L files1 gargs1 d1 = (d1', Val (0, [])) /\ avgMain E1 aargs1 d1' = (d1'', Val (0, [])) /\
    genMain E2 F2 T2 L files2 gargs2 d2 = (d2', Val (0, [])) /\ avgMain E2 aargs2 d2' = (d2'', Val (0, [])) /\
    d1' fm1 = Some m1 /\ d2' fm2 = Some m2 /\ d_recs m1 = d_recs m2 /\
    d1'' fo1 = Some o1 /\ d2'' fo2 = Some o2 /\ d_recs o1 = d_recs o2.
Proof.
  intros L E1 F1 T1 files1 gargs1 gk1 aargs1 ak1 fp1 ft1 fm1 fo1 d1 grids1 recss1 E2 F2 T2 files2 gargs2 gk2 aargs2 ak2 fp2 ft2 fm2 fo2 d2 grids2 recss2
    W1 W2 M1 M2 P G1 A1 A2 A3 A4 A5 A6 A7 A8 A9 B1 B2 B3 B4 B5 B6 B7 B8 B9.
  assert (PR : Permutation (concat recss1) (concat recss2)).
  { destruct M1 as (_ & _ & _ & _ & _ & _ & _ & R1), M2 as (_ & _ & _ & _ & _ & _ & _ & R2). exact (all_recs_perm L _ _ _ _ R1 R2 P). }
  pose proof (good_perm _ _ PR G1) as G2.
  destruct (generated E1 F1 T1 L files1 gargs1 gk1 fp1 ft1 fm1 d1 grids1 recss1 W1 M1 G1 A1 A2 A3 A4 A5) as (d1' & m1 & R1 & D1 & P1 & S1).
  destruct (generated E2 F2 T2 L files2 gargs2 gk2 fp2 ft2 fm2 d2 grids2 recss2 W2 M2 G2 B1 B2 B3 B4 B5) as (d2' & m2 & R2 & D2 & P2 & S2).
  destruct (C59_built E1 F1 T1 L files1 gargs1 gk1 aargs1 ak1 fp1 ft1 fm1 fo1 d1 grids1 recss1 W1 M1 G1 A1 A2 A3 A4 A5 A6 A7 A8 A9)
    as (e1 & d1'' & inp1 & o1 & Q1 & V1 & I1 & AV1 & (U1 & _) & _).
  destruct (C59_built E2 F2 T2 L files2 gargs2 gk2 aargs2 ak2 fp2 ft2 fm2 fo2 d2 grids2 recss2 W2 M2 G2 B1 B2 B3 B4 B5 B6 B7 B8 B9)
    as (e2 & d2'' & inp2 & o2 & Q2 & V2 & I2 & AV2 & (U2 & _) & _).
  pose proof (f_equal fst Q1) as X1. rewrite R1 in X1. cbn [fst] in X1. subst e1.
  pose proof (f_equal fst Q2) as X2. rewrite R2 in X2. cbn [fst] in X2. subst e2.
  exists d1', d1'', d2', d2'', m1, m2, o1, o2.
  split; [exact R1|]. split; [exact V1|]. split; [exact R2|]. split; [exact V2|]. split; [exact D1|]. split; [exact D2|].
  assert (SM : forall l1 l2 : list (addr * payload), Permutation l1 (concat recss1) -> Permutation l2 (concat recss2) -> forall x, In x l1 <-> In x l2).
  { intros l1 l2 X Y x. split; intros I.
    - apply (Permutation_in _ (Permutation_sym Y)), (Permutation_in _ PR), (Permutation_in _ X), I.
    - apply (Permutation_in _ (Permutation_sym X)), (Permutation_in _ (Permutation_sym PR)), (Permutation_in _ Y), I. }
  split; [exact (records_same _ _ S1 S2 (SM _ _ P1 P2))|]. split; [exact U1|]. split; [exact U2|].
  assert (AG : agree_inside inp1 inp2 root_addr) by (intros a p _; exact (SM _ _ I1 I2 (a, p))).
  pose proof (C80_stored _ _ _ _ _ _ _ _ _ _ _ AV1 AV2 AG) as AR.
  apply records_same; [exact (averages_sorted _ _ _ _ _ AV1)|exact (averages_sorted _ _ _ _ _ AV2)|].
  intros [a p]. split; intros I; (apply (AR a p); [apply root_covers; first [exact (averages_ok _ _ _ _ _ a p AV1 I)|exact (averages_ok _ _ _ _ _ a p AV2 I)]|exact I]).
Qed.
Print Assumptions C81_same_model.

(** ** Example: the grid of ToyGrid.v, and its two points with data in two files, the last first *)
From Verif Require Import ToyLib ToyDb ToyGrid PropApp.
Definition one_head : list string := ["51.2"; "12.8"; "1"; "1"; "1"; "1"]%string.
Definition line_at (k : nat) : list string := nth k toy_lines [].
Definition pt_at (k : nat) : GridIngester.gridline := nth k toy_pts (parse_line []).
Definition one_text (k : nat) : string := lay (one_head ++ concat [line_at k])%list.
Definition two_texts : GridIngester.texts := fun n =>
  if String.eqb n "two.txt" then Some "b.txt a.txt "%string
  else if String.eqb n "a.txt" then Some (one_text 0) else if String.eqb n "b.txt" then Some (one_text 2) else None.
Lemma one_file k : k = 0%nat \/ k = 2%nat -> grid_file toy_fmt toy (one_text k) 5 [pt_at k].
Proof.
  intros K. exists (one_text k), ""%string, one_head, [line_at k], toy_rh, toy_rv.
  split; [symmetry; generalize (one_text k); induction s as [|c s IH]; [reflexivity|]; cbn; rewrite IH; reflexivity|].
  split; [apply lay_laid; destruct K as [-> | ->]; vm_compute; reflexivity|].
  split; [do 9 eexists; split; [reflexivity|]; repeat split; vm_compute; reflexivity|].
  split; [|exact toy_fits]. constructor; [|constructor].
  destruct K as [-> | ->]; do 12 eexists; (split; [reflexivity|]); repeat split; vm_compute; reflexivity.
Qed.
Definition rec_at (k : nat) : addr * payload := (addr_at (pt_at k), si_values (GridIngester.l_pay (pt_at k))).
Lemma one_recs k : k = 0%nat \/ k = 2%nat -> grid_recs toy 5 [pt_at k] [rec_at k].
Proof.
  intros K. unfold grid_recs. replace (filter has_data [pt_at k]) with [pt_at k] by (destruct K as [-> | ->]; vm_compute; reflexivity).
  constructor; [|constructor]. split; [exists 0; destruct K as [-> | ->]; vm_compute; reflexivity|reflexivity].
Qed.
Lemma two_files : model_files toy_fmt toy two_texts "two.txt" [(5, [pt_at 2]); (5, [pt_at 0])] [[rec_at 2]; [rec_at 0]].
Proof.
  exists "b.txt a.txt "%string, ""%string, ["b.txt"; "a.txt"]%string. split; [reflexivity|]. split; [apply (lay_laid ["b.txt"; "a.txt"]%string); reflexivity|].
  split; [left; reflexivity|]. split.
  - constructor; [exists (one_text 2); split; [reflexivity|apply one_file; auto]|].
    constructor; [exists (one_text 0); split; [reflexivity|apply one_file; auto]|constructor].
  - constructor; [apply one_recs; auto|]. constructor; [apply one_recs; auto|constructor].
Qed.
Definition two_args : list string := ["-i"; "two.txt"; "-t"; "tmp.etree"; "-o"; "raw.etree"]%string.
Definition two_named : list (ascii * string) := [("i"%char, "two.txt"); ("t"%char, "tmp.etree"); ("o"%char, "raw.etree")]%string.
Lemma two_command : command gen_letters two_args two_named.
Proof. apply (C57_separate_words gen_letters two_named). repeat constructor; cbn; tauto. Qed.
Example C81_example : exists d1' d1'' d2' d2'' m1 m2 o1 o2,
  genMain toy_etree toy_fmt app_texts toy PropGrid.toy_texts gen_args (fun _ => None) = (d1', Val (0, [])) /\ avgMain toy_etree avg_args d1' = (d1'', Val (0, [])) /\
  genMain toy_etree toy_fmt app_texts toy two_texts two_args (fun _ => None) = (d2', Val (0, [])) /\ avgMain toy_etree avg_args d2' = (d2'', Val (0, [])) /\
  d1' "raw.etree"%string = Some m1 /\ d2' "raw.etree"%string = Some m2 /\ d_recs m1 = d_recs m2 /\
  d1'' "model.etree"%string = Some o1 /\ d2'' "model.etree"%string = Some o2 /\ d_recs o1 = d_recs o2.
Proof.
  apply (C81_same_model toy toy_etree toy_fmt app_texts PropGrid.toy_texts gen_args gen_named avg_args avg_named
    "list.txt" "tmp.etree" "raw.etree" "model.etree" (fun _ => None) [(5, toy_pts)] [toy_recs]
    toy_etree toy_fmt app_texts two_texts two_args two_named avg_args avg_named
    "two.txt" "tmp.etree" "raw.etree" "model.etree" (fun _ => None) [(5, [pt_at 2]); (5, [pt_at 0])] [[rec_at 2]; [rec_at 0]]
    toy_storage toy_storage toy_files two_files).
  1: { replace (points_with_data [(5, toy_pts)]) with [(5, pt_at 0); (5, pt_at 2)] by (vm_compute; reflexivity).
       replace (points_with_data [(5, [pt_at 2]); (5, [pt_at 0])]) with [(5, pt_at 2); (5, pt_at 0)] by (vm_compute; reflexivity). apply perm_swap. }
  all: first [exact toy_good|exact gen_command|exact avg_command|exact two_command|discriminate|split; [reflexivity|discriminate]].
Qed.
