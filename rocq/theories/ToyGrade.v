(** A concrete storage library and a concrete grid, used only in examples. *)
From Coq Require Import ZArith Bool Lia List String.
From Verif Require Import Outcome Float Payload Addr SpecOct Geom SpecQuery ToyLib ToyDb VsGrader SpecGrade GradeGrid.
Import ListNotations.
Open Scope Z_scope.

(** A database is the list of its records. *)
Definition lstore : gstore (records payload) payload :=
  mkGstore (fun db a => option_map snd (lsearch db a))
    (fun db a p => if existsb (fun r => same_octantb (fst r) a) db
                   then Some (map (fun r => if same_octantb (fst r) a then (fst r, p) else r) db) else None).
Lemma same_octantb_iff a b : same_octantb a b = true <-> same_octant a b.
Proof. unfold same_octantb, same_octant. rewrite !andb_true_iff, !Z.eqb_eq. tauto. Qed.
Lemma lstore_ok : stores lstore (fun db => db).
Proof.
  split.
  - intros db a. cbn [lstore gs_search]. pose proof (lsearch_ok db a) as H. destruct (lsearch db a) as [[h p]|]; cbn [option_map snd].
    + exists h. exact H.
    + exact H.
  - intros db a p (h & q & I & S). cbn [lstore gs_update].
    assert (E : existsb (fun r => same_octantb (fst r) a) db = true).
    { apply existsb_exists. exists (h, q). split; [exact I | apply same_octantb_iff, S]. }
    rewrite E. eexists. split; [reflexivity|]. clear. induction db as [|r db IH]; cbn [map]; constructor; [|exact IH].
    destruct (same_octantb (fst r) a) eqn:Q.
    + split; [reflexivity|]. split; [reflexivity|]. intros N. exfalso. apply N, same_octantb_iff, Q.
    + split; [reflexivity|]. split; [|reflexivity]. intros N. apply same_octantb_iff in N. congruence.
Qed.

(** Cosine and sine of the two directions, and a grid of 2 by 3 by 2 points. *)
Definition toy2 : libm :=
  mkLibm (fun a => if flt a f_zero then S754_finite false 7253382183146340 (-53) else m_cos toy a)
         (fun a => if flt a f_zero then S754_finite true 5340232702778215 (-53) else m_sin toy a)
         toy_log toy_project toy_project.
Definition toy_grid : gparams :=
  mkGparams (dec64 5 1) (i2f64 100) f_zero f_zero (i2f64 (-200)) (i2f64 1600) (i2f64 3200) (i2f64 400) (i2f64 400)
    (add64 toy_x (i2f64 300)) (add64 toy_y (i2f64 300)).
Definition toy_cell (l w h : Z) : addr :=
  mkAddr (654311424 - l * 2097152) (786432000 + w * 2097152) (2078277632 - h * 2097152) 0 10 Leaf.
(** Shear speeds between 500 and 2980 m/s; Vp twice the shear speed. *)
Definition toy_speed (l w h : Z) : Z := 500 + 80 * ((l * 7 + w * 11 + h * 13) mod 32).
Definition toy_values (l w h : Z) : payload :=
  mkPayload (i2f32 (2 * toy_speed l w h)) (i2f32 (toy_speed l w h)) (i2f32 2500) (i2f32 200) (i2f32 100) (i2f32 0) 1 2.
Definition points : list (Z * Z * Z) := list_prod (list_prod (range 2) (range 3)) (range 2).
Definition toy_records : records payload :=
  (mkAddr 0 0 0 0 3 Leaf, toy_values 9 9 9) ::
  map (fun p => let '(l, w, h) := p in (toy_cell l w h, toy_values l w h)) points.

Lemma points_in l w h : in_grid 2 3 2 l w h -> In (l, w, h) points.
Proof. intros (A & B & C). apply in_prod; [apply in_prod|]; apply range_in; assumption. Qed.
Lemma toy_counts : count (gp_len toy_grid) (resHoriz toy_grid) = Val 2 /\ count (gp_width toy_grid) (resHoriz toy_grid) = Val 3 /\
  count (gp_ht toy_grid) (gp_res toy_grid) = Val 2.
Proof. vm_compute. auto. Qed.
Definition toy_lonlat (l w : Z) : f64 * f64 := match indexToLonLat toy2 toy_grid l w with Val ll => ll | _ => (f_zero, f_zero) end.
Lemma toy_points : grid_points (indexToLonLat toy2 toy_grid) (gridAddr toy2 toy_grid) 2 3 2 toy_cell.
Proof.
  split; [|split].
  - intros l w Hl Hw. exists (toy_lonlat l w).
    assert (Cl : l = 0 \/ l = 1) by lia. assert (Cw : w = 0 \/ w = 1 \/ w = 2) by lia.
    split; [destruct Cl as [->| ->], Cw as [->|[->| ->]]; vm_compute; reflexivity|].
    intros h Hh. assert (Ch : h = 0 \/ h = 1) by lia.
    destruct Cl as [->| ->], Cw as [->|[->| ->]], Ch as [->| ->]; vm_compute; reflexivity.
  - intros l w h (A & B & C). split; [|reflexivity]. apply octant_okb_ok.
    assert (Cl : l = 0 \/ l = 1) by lia. assert (Cw : w = 0 \/ w = 1 \/ w = 2) by lia. assert (Ch : h = 0 \/ h = 1) by lia.
    destruct Cl as [->| ->], Cw as [->|[->| ->]], Ch as [->| ->]; vm_compute; reflexivity.
  - intros l w h l' w' h' _ _ E. unfold toy_cell in E.
    assert (X : 654311424 - l * 2097152 = 654311424 - l' * 2097152) by (exact (f_equal a_x E)).
    assert (Y : 786432000 + w * 2097152 = 786432000 + w' * 2097152) by (exact (f_equal a_y E)).
    assert (W : 2078277632 - h * 2097152 = 2078277632 - h' * 2097152) by (exact (f_equal a_z E)). lia.
Qed.
Lemma toy_records_ok : records_ok toy_records.
Proof. apply db_okb_ok. vm_compute. reflexivity. Qed.
Lemma toy_holds : holds_grid toy_records 2 3 2 toy_cell toy_values.
Proof.
  intros l w h B. exists (toy_cell l w h). split; [repeat split; reflexivity|]. right. apply in_map_iff. exists (l, w, h).
  split; [reflexivity | apply points_in, B].
Qed.
