(** C70 with squashing on, above its limit. *)
From Coq Require Import ZArith Bool Lia String List.
From Verif Require Import Outcome Float Payload Addr SpecOct Geom SpecGeom ErrorHandler VMQuery SpecQuery SpecHist QueryFacts QueryProof
  QuerySurface QueryMain PropQuery PropConst.
Import ListNotations.
Open Scope Z_scope.

(** The elevation that is looked up for [elev] where the surface is at [s] (-999: not known). *)
Definition looked_up (elev s : f64) : f64 := if feq (i2f64 (-999)) s then elev else add64 elev s.

(** C70. The values depend only on the cell in which the location lies once it has been moved by the
    elevation of its own surface. *)
Theorem C70_squashed : forall DB (E : env DB) q fs lon lat elev w fs' lon' lat' elev' w' names olds olds' db ext r,
  setup E q db ext -> resolution_of q r -> selected q names -> Forall material names -> depths_ok q db ext ->
  List.length olds = List.length names -> List.length olds' = List.length names ->
  q_squash q = true -> flt (q_limit q) elev = true -> flt (q_limit q) elev' = true ->
  at_place q lon lat elev w -> place_inside w -> at_place q lon' lat' elev' w' -> place_inside w' ->
  exists s s', surface_is q db ext lon lat w true s /\ surface_is q db ext lon' lat' w' true s' /\
    forall u u', at_place q lon lat (looked_up elev s) u -> place_inside u ->
      at_place q lon' lat' (looked_up elev' s') u' -> place_inside u' ->
      share_finest db u u' -> (forall dbx, ext = Some dbx -> share_finest dbx u u') ->
      exists vals, outcome_values (query E q fs (Some olds) lon lat elev) = Val vals /\
        outcome_values (query E q fs' (Some olds') lon' lat' elev') = Val vals.
Proof.
  intros DB E q fs lon lat elev w fs' lon' lat' elev' w' names olds olds' db ext r HS HR HN HM HD L L' SQ A A' P I P' I'.
  destruct (C28_squashed DB E q fs lon lat elev w names olds db ext (q_limit q) HS HN HM HD P SQ A) as (s & S1 & _ & S2).
  destruct (C28_squashed DB E q fs' lon' lat' elev' w' names olds' db ext (q_limit q) HS HN HM HD P' SQ A') as (s' & S1' & _ & S2').
  exists s, s'. split; [exact (S1 I)|]. split; [exact (S1' I')|]. intros u u' U V U' V' F FX.
  specialize (S2 (or_introl I)). specialize (S2' (or_introl I')). fold (looked_up elev s) in S2. fold (looked_up elev' s') in S2'.
  destruct (C70_constant DB E (set_squash false (q_limit q) q) fs lon lat (looked_up elev s) u fs' lon' lat' (looked_up elev' s') u'
    names olds olds' db ext r HS HR) as (vals & q1 & fs1 & q2 & fs2 & Q1 & Q2 & _); try assumption.
  - intros K. exfalso. rewrite Forall_forall in HM. exact (HM _ K eq_refl).
  - split; [left; reflexivity|]. split; [exact U|]. split; [exact HN|exact L].
  - split; [left; reflexivity|]. split; [exact U'|]. split; [exact HN|exact L'].
  - exists vals. rewrite S2, S2', Q1, Q2. split; reflexivity.
Qed.
Print Assumptions C70_squashed.

(** ** Example: the two places of C70's example.  Both surfaces are at 6.25 m (C28), and the places
    6.25 m higher are in one octant too. *)
From Verif Require Import ToyLib ToyDb PropGeom.
Definition squashed : qstate contents := toy_q MAXRES f_zero toy_db None true all_names.
Definition moved : f64 := add64 elev_a (dec64 625 2).
Definition near_moved : f64 := add64 near_elev (dec64 625 2).
Definition near_up : place := (rot_p toy toy_x near_y, rot_q toy toy_x near_y, vert_r near_moved).
Example C70_squashed_example : exists s s', surface_is squashed toy_db None toy_x toy_y (toy_place elev_a) true s /\
  surface_is squashed toy_db None toy_x near_y near true s'.
Proof.
  destruct (C70_squashed _ toy_env squashed no_files toy_x toy_y elev_a (toy_place elev_a) no_files toy_x near_y near_elev near
    all_names four four toy_db None Finest (toy_setup _ _ _ _) eq_refl eq_refl names_material
    (toy_depths _ _ _ _ _ _ (or_introl eq_refl) (or_introl eq_refl)) eq_refl eq_refl eq_refl eq_refl eq_refl
    (toy_at _ _ _ _ _ _ _) toy_inside_a (near_at squashed eq_refl) near_inside) as (s & s' & S & S' & _).
  exists s, s'. split; [exact S|exact S'].
Qed.
Lemma moved_inside : place_inside (toy_place moved) /\ place_inside near_up.
Proof. split; (split; [|split]); inside_tac. Qed.
Example C70_squashed_shares : at_place squashed toy_x toy_y (looked_up elev_a (dec64 625 2)) (toy_place moved) /\
  at_place squashed toy_x near_y (looked_up near_elev (dec64 625 2)) near_up /\ share_finest toy_db (toy_place moved) near_up.
Proof.
  assert (A1 : at_place squashed toy_x toy_y moved (toy_place moved)) by (apply toy_at).
  assert (A2 : at_place squashed toy_x near_y near_moved near_up).
  { exists toy_x, near_y. unfold near_up. split; [reflexivity | auto]. }
  split; [exact A1|]. split; [exact A2|].
  destruct (lonLatElevToAddr toy (mkAddr 0 0 0 0 MAXLEVEL Leaf) toy_x toy_y moved) as [[e a]| | |] eqn:A; try (vm_compute in A; discriminate A).
  destruct (lonLatElevToAddr toy (mkAddr 0 0 0 0 MAXLEVEL Leaf) toy_x near_y near_moved) as [[e' a']| | |] eqn:A'; try (vm_compute in A'; discriminate A').
  apply (share_by_search toy_db squashed toy_x toy_y moved _ toy_x near_y near_moved _ e a e' a'
    toy_db_ok A1 A2 (proj1 moved_inside) (proj2 moved_inside) A A').
  vm_compute in A. injection A as _ <-. vm_compute in A'. injection A' as _ <-. vm_compute. reflexivity.
Qed.
Example C70_squashed_values :
  outcome_values (query toy_env squashed no_files (Some four) toy_x toy_y elev_a) =
    Val [i2f64 2900; i2f64 5000; i2f64 11; i2f64 2900] /\
  outcome_values (query toy_env squashed no_files (Some four) toy_x near_y near_elev) =
    Val [i2f64 2900; i2f64 5000; i2f64 11; i2f64 2900].
Proof. split; vm_compute; reflexivity. Qed.
