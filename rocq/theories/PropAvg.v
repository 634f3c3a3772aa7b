(** C08-C16: averaging a database. *)
From Coq Require Import ZArith Bool String Reals Lra Sorting.Sorted List.
From Flocq Require Import Core BinarySingleNaN.
From Verif Require Import Outcome Float Payload Addr SpecOct SpecAvg AvgEngine AvgFinal.
Import ListNotations.
Open Scope Z_scope.

(** C12: on a well-formed input and working storage the run ends normally and
    every record of the output has been given its values. *)
Theorem C12_averaging_succeeds : forall st inp, accepts st -> wf_input inp ->
  exists s, fillOctants st inp = Val s /\
            (forall r, In r (e_db s) -> exists p, o_pay r = Some p).
Proof. intros st inp H1 H2. exact (final_succeeds st H1 inp H2). Qed.
Print Assumptions C12_averaging_succeeds.

(** C08: each input octant is in the output exactly once, with its address, its
    flag and its values unchanged. *)
Theorem C08_input_kept : forall st inp s, accepts st -> wf_input inp ->
  fillOctants st inp = Val s -> forall a p, In (a, p) inp ->
  filter (fun r => same_key (o_addr r) a) (e_db s) = [mkOrec a (Some p)].
Proof. intros st inp s H1 H2. exact (final_keeps st H1 inp H2 s). Qed.
Print Assumptions C08_input_kept.

(** C09: every record of the output is an input octant or an interior octant that
    is a proper ancestor of an input octant; and every proper ancestor of an
    input octant is there exactly once. *)
Theorem C09_exactly_the_ancestors : forall st inp s, accepts st -> wf_input inp ->
  fillOctants st inp = Val s ->
  (forall r, In r (e_db s) ->
     exists p, o_pay r = Some p /\
     (In (o_addr r, p) inp \/
      (a_type (o_addr r) = Interior /\ octant_ok (o_addr r) /\
       exists l, In l (map fst inp) /\ ancestor_of (o_addr r) l))) /\
  (forall a l, octant_ok a -> In l (map fst inp) -> ancestor_of a l ->
     exists p, filter (fun r => same_key (o_addr r) a) (e_db s) =
       [mkOrec (mkAddr (a_x a) (a_y a) (a_z a) 0 (a_level a) Interior) (Some p)]).
Proof. intros st inp s H1 H2. exact (final_adds st H1 inp H2 s). Qed.
Print Assumptions C09_exactly_the_ancestors.

(** C10: an interior octant holds the mean of the values stored at its children. *)
Theorem C10_mean_of_children : forall st inp s, accepts st -> wf_input inp ->
  (forall a p, In (a, p) inp -> proper_values p) ->
  fillOctants st inp = Val s ->
  forall r p, In r (interior_records inp (e_db s)) -> o_pay r = Some p ->
  mean_payload (values (children (e_db s) (o_addr r))) p.
Proof. intros st inp s H1 H2. exact (final_mean st H1 inp H2 s). Qed.
Print Assumptions C10_mean_of_children.

(** C11: the counters. *)
Theorem C11_counts : forall st inp s, accepts st -> wf_input inp ->
  fillOctants st inp = Val s ->
  e_cnt s = mkCnt (Z.of_nat (List.length inp)) (Z.of_nat (List.length (e_db s)))
    (Z.of_nat (List.length (interior_records inp (e_db s))))
    (count_with inp (e_db s) missing_x) (count_with inp (e_db s) missing_y)
    (count_with inp (e_db s) missing_z) (count_with inp (e_db s) missing_xy)
    (count_with inp (e_db s) missing_yz) (count_with inp (e_db s) missing_xz)
    (count_with inp (e_db s) missing_xyz) (count_irregular inp (e_db s)) /\
  List.length (e_db s) = (List.length inp + List.length (interior_records inp (e_db s)))%nat.
Proof. intros st inp s H1 H2. exact (final_counters st H1 inp H2 s). Qed.
Print Assumptions C11_counts.

(** C13: octants are appended in strictly increasing etree order. *)
Theorem C13_append_order : forall st inp s, accepts st -> wf_input inp ->
  fillOctants st inp = Val s -> StronglySorted etree_lt (map o_addr (e_db s)).
Proof. intros st inp s H1 H2. exact (final_order st H1 inp H2 s). Qed.
Print Assumptions C13_append_order.

(** C14: input in which an octant below the root contains another one is rejected. *)
Theorem C14_overlap_rejected : forall st inp, accepts st -> refuses_duplicates st ->
  (forall a, In a (map fst inp) -> octant_ok a) ->
  StronglySorted etree_lt (map fst inp) ->
  (exists a b, In a (map fst inp) /\ In b (map fst inp) /\ 1 <= a_level a /\ ancestor_of a b) ->
  exists msg, fillOctants st inp = Throw msg.
Proof. exact final_overlap0. Qed.
Print Assumptions C14_overlap_rejected.

(** C14: a database that was already averaged is rejected when it is averaged again,
    if it holds an octant of level 2 or finer ... *)
Theorem C14_averaged_rejected : forall st inp s recs, accepts st -> refuses_duplicates st -> wf_input inp ->
  fillOctants st inp = Val s -> map (fun x => mkOrec (fst x) (Some (snd x))) recs = e_db s ->
  (exists a, In a (map fst inp) /\ 2 <= a_level a) ->
  exists msg, fillOctants st recs = Throw msg.
Proof. intros st inp s recs H1 H2 H3 H4 H5 H6. exact (final_twice st H1 inp H3 s H4 recs H5 H2 H6). Qed.
Print Assumptions C14_averaged_rejected.
(** ... and otherwise averaging it again gives the same database and counts. *)
Theorem C14_one_level_unchanged : forall st inp s recs, accepts st -> wf_input inp ->
  fillOctants st inp = Val s -> map (fun x => mkOrec (fst x) (Some (snd x))) recs = e_db s ->
  (forall a, In a (map fst inp) -> a_level a = 1) ->
  fillOctants st recs = Val s.
Proof. intros st inp s recs H1 H3 H4 H5 H6. exact (final_twice_flat st H1 inp H3 s H4 recs H5 H6). Qed.
Print Assumptions C14_one_level_unchanged.

(** C15: a root octant is dropped: alone it gives an empty output; before other
    octants it makes no difference. *)
Theorem C15_root_alone : forall st a p, a_level a <= 0 ->
  st_begin_ok st = true -> st_end_ok st = true ->
  exists s, fillOctants st [(a, p)] = Val s /\ e_db s = [] /\
            e_cnt s = mkCnt 0 0 0 0 0 0 0 0 0 0 0.
Proof. exact final_root_alone. Qed.
Print Assumptions C15_root_alone.

Theorem C15_root_dropped : forall st a p rest, a_level a <= 0 -> rest <> [] ->
  fillOctants st ((a, p) :: rest) = fillOctants st rest.
Proof. exact final_root_dropped. Qed.
Print Assumptions C15_root_dropped.

(** C16: with at most eight values x, none above M in magnitude (M at most
    2^124), the stored mean is finite and differs from the exact mean by at most
    M * ((1 + 2^-24)^(n+1) - 1) + 2^-150. *)
Theorem C16_mean_error : forall st inp s, accepts st -> wf_input inp ->
  (forall a p, In (a, p) inp -> proper_values p) ->
  fillOctants st inp = Val s ->
  forall r p f M, In r (interior_records inp (e_db s)) -> o_pay r = Some p ->
  let xs := map (get6 f) (contributors (values (children (e_db s) (o_addr r)))) in
  let n := List.length xs in
  let exact_mean := (fold_right Rplus 0 (map (SF2R radix2) xs) / INR n)%R in
  xs <> [] -> (0 <= M <= bpow radix2 124)%R ->
  (forall x, In x xs -> is_fin x = true /\ (Rabs (SF2R radix2 x) <= M)%R) ->
  is_fin (get6 f p) = true /\
  (Rabs (SF2R radix2 (get6 f p) - exact_mean) <=
    M * ((1 + bpow radix2 (-24)) ^ S n - 1) + bpow radix2 (-150))%R.
Proof. intros st inp s H1 H2. exact (final_error st H1 inp H2 s). Qed.
Print Assumptions C16_mean_error.

(** ** A concrete input (the tree of TestAverager) *)
Definition oct (l x y z : Z) : addr :=
  mkAddr (2 ^ (31 - l) * x) (2 ^ (31 - l) * y) (2 ^ (31 - l) * z) 0 l Leaf.
Definition pay (v10 : Z) : payload :=
  let v := narrow (dec64 v10 1) in mkPayload v v v v v v 1 1.
Definition tree : list (addr * payload) :=
  [ (oct 3 0 0 0, pay 79); (oct 3 1 0 0, pay 78); (oct 3 0 1 0, pay 88); (oct 3 1 1 0, pay 48);
    (oct 3 0 0 1, pay 43); (oct 3 1 0 1, pay 63); (oct 3 0 1 1, pay 38); (oct 3 1 1 1, pay 99);
    (oct 3 2 0 0, pay 89); (oct 3 2 1 0, pay 74); (oct 3 1 2 1, pay 49); (oct 2 0 0 1, pay 37)].

Example tree_wf : wf_input tree.
Proof. apply wf_inputb_sound. vm_compute. reflexivity. Qed.
Example tree_proper : forall a p, In (a, p) tree -> proper_values p.
Proof.
  intros a p H. assert (G : In p (map snd tree)) by (apply (in_map snd) in H; exact H).
  clear H. cbn [map snd tree] in G.
  repeat (destruct G as [<-|G]; [split; [intros []|]; vm_compute; reflexivity|]). destruct G.
Qed.
(** 12 octants in, 17 out, 5 interior; one interior octant has only the children
    with x = 0 and z = 0; the interior octant at level 2 with eight children holds the
    mean 6.7 of their values. *)
Example tree_run : exists s, fillOctants simple_storage tree = Val s /\
  c_input (e_cnt s) = 12 /\ c_output (e_cnt s) = 17 /\ c_interior (e_cnt s) = 5 /\
  c_xz (e_cnt s) = 1 /\
  (exists r p, In r (interior_records tree (e_db s)) /\ o_pay r = Some p /\
     a_level (o_addr r) = 2 /\ List.length (children (e_db s) (o_addr r)) = 8%nat /\
     p_vs p = narrow (dec64 67 1)).
Proof.
  destruct (fillOctants simple_storage tree) as [s|m| |m] eqn:E;
    vm_compute in E; try discriminate.
  injection E as <-. eexists. split; [reflexivity|].
  do 4 (split; [vm_compute; reflexivity|]).
  eexists. eexists. split; [vm_compute; right; right; left; reflexivity|].
  split; [reflexivity|]. split; [reflexivity|]. split; vm_compute; reflexivity.
Qed.
Example tree_storage : accepts simple_storage /\ refuses_duplicates simple_storage.
Proof. split; [apply simple_accepts | apply simple_refuses]. Qed.
(** An overlapping input: a level-2 octant and one of its children. *)
Example overlap_rejected :
  fillOctants simple_storage [(oct 2 0 0 0, pay 10); (oct 3 1 0 0, pay 20)] =
  Throw "Error occurred while appending new octant to etree."%string.
Proof. vm_compute. reflexivity. Qed.

(** Without rounding the mean would lie between the smallest and the largest
    value.  It does not: three children with the same P speed 16776974 give the
    average 16776973. *)
Definition three : list (addr * payload) :=
  let p := mkPayload (i2f32 16776974) (i2f32 1000) (i2f32 2000) (i2f32 100) (i2f32 50) (i2f32 10) 1 1 in
  [(oct 1 0 0 0, p); (oct 1 1 0 0, p); (oct 1 0 1 0, p)].
Theorem C16_within_range_refuted :
  wf_input three /\ accepts simple_storage /\
  (forall a p, In (a, p) three -> proper_values p /\ p_vp p = i2f32 16776974) /\
  exists s r p, fillOctants simple_storage three = Val s /\
    In r (interior_records three (e_db s)) /\ o_pay r = Some p /\
    children (e_db s) (o_addr r) = map (fun x => mkOrec (fst x) (Some (snd x))) three /\
    p_vp p = i2f32 16776973 /\ flt (p_vp p) (i2f32 16776974) = true.
Proof.
  split; [apply wf_inputb_sound; vm_compute; reflexivity|].
  split; [apply simple_accepts|]. split.
  - intros a p H. assert (G : In p (map snd three)) by (apply (in_map snd) in H; exact H).
    clear H. cbn [map snd three] in G.
    repeat (destruct G as [<-|G]; [split; [split; [intros []; vm_compute; reflexivity | vm_compute; reflexivity] | reflexivity]|]).
    destruct G.
  - destruct (fillOctants simple_storage three) as [s|m| |m] eqn:E; vm_compute in E; try discriminate.
    injection E as <-. eexists. eexists. eexists. split; [reflexivity|].
    split; [vm_compute; left; reflexivity|].
    split; [reflexivity|]. split; [vm_compute; reflexivity|]. split; vm_compute; reflexivity.
Qed.
Print Assumptions C16_within_range_refuted.

(** Averaging twice: the tree has octants of level 3, [three] only of level 1. *)
Definition stored_again (s : est) : list (addr * payload) :=
  map (fun r => (o_addr r, match o_pay r with Some p => p | None => pay 0 end)) (e_db s).
Example C14_twice_example : exists s s1, fillOctants simple_storage tree = Val s /\
  map (fun x => mkOrec (fst x) (Some (snd x))) (stored_again s) = e_db s /\
  fillOctants simple_storage (stored_again s) = Throw "Error occurred while appending new octant to etree."%string /\
  fillOctants simple_storage three = Val s1 /\
  map (fun x => mkOrec (fst x) (Some (snd x))) (stored_again s1) = e_db s1 /\ e_db s1 <> [] /\
  fillOctants simple_storage (stored_again s1) = Val s1.
Proof.
  destruct (fillOctants simple_storage tree) as [s|m| |m] eqn:E; vm_compute in E; try discriminate.
  destruct (fillOctants simple_storage three) as [s1|m| |m] eqn:E1; vm_compute in E1; try discriminate.
  injection E as <-. injection E1 as <-. eexists. eexists. split; [reflexivity|].
  split; [vm_compute; reflexivity|]. split; [vm_compute; reflexivity|]. split; [reflexivity|].
  split; [vm_compute; reflexivity|]. split; [discriminate|]. vm_compute. reflexivity.
Qed.
