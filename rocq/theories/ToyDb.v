(** A concrete storage library and databases, used only in examples: a database is
    the list of its octants, and searching scans the list. *)
From Coq Require Import ZArith Bool Lia String List.
From Verif Require Import Outcome Float Payload Addr SpecOct Geom ErrorHandler VMQuery SpecQuery ToyLib.
Import ListNotations.
Open Scope Z_scope.

Definition coversb (h a : addr) : bool :=
  (a_x h <=? a_x a) && (a_x a + side (a_level a) <=? a_x h + side (a_level h)) &&
  (a_y h <=? a_y a) && (a_y a + side (a_level a) <=? a_y h + side (a_level h)) &&
  (a_z h <=? a_z a) && (a_z a + side (a_level a) <=? a_z h + side (a_level h)).
Lemma coversb_iff h a : coversb h a = true <-> covers h a.
Proof. unfold coversb, covers. rewrite !andb_true_iff, !Z.leb_le. tauto. Qed.

Fixpoint lsearch (db : contents) (a : addr) : option (addr * payload) :=
  match db with
  | [] => None
  | (h, p) :: db =>
      let r := lsearch db a in
      if coversb h a then
        match r with
        | Some (h', p') => if a_level h' <? a_level h then Some (h, p) else r
        | None => Some (h, p)
        end
      else r
  end.

Lemma lsearch_ok db : searches (lsearch db) db.
Proof.
  intros a. induction db as [|[h p] db IH]; cbn [lsearch].
  - intros h p [].
  - destruct (coversb h a) eqn:C.
    + apply coversb_iff in C. destruct (lsearch db a) as [[h' p']|].
      * destruct IH as (I & C' & F). destruct (Z.ltb_spec (a_level h') (a_level h)) as [L|L].
        -- split; [left; reflexivity|]. split; [exact C|]. intros h2 p2 [Q|I2] C2; [injection Q as <- <-; lia|].
           specialize (F h2 p2 I2 C2). lia.
        -- split; [right; exact I|]. split; [exact C'|]. intros h2 p2 [Q|I2] C2; [injection Q as <- <-; lia|].
           exact (F h2 p2 I2 C2).
      * split; [left; reflexivity|]. split; [exact C|]. intros h2 p2 [Q|I2] C2; [injection Q as <- <-; lia|].
        exfalso. exact (IH h2 p2 I2 C2).
    + assert (NC : ~ covers h a) by (intros K; apply coversb_iff in K; congruence).
      destruct (lsearch db a) as [[h' p']|].
      * destruct IH as (I & C' & F). split; [right; exact I|]. split; [exact C'|].
        intros h2 p2 [Q|I2] C2; [injection Q as <- <-; contradiction | exact (F h2 p2 I2 C2)].
      * intros h2 p2 [Q|I2]; [injection Q as <- <-; exact NC | exact (IH h2 p2 I2)].
Qed.

(** Checking that a list is a well formed database. *)
Definition octant_okb (h : addr) : bool :=
  (0 <=? a_level h) && (a_level h <=? 31) && (a_t h =? 0) &&
  forallb (fun c => (0 <=? c) && (c <? 2 ^ 31) && (c mod side (a_level h) =? 0)) [a_x h; a_y h; a_z h].
Definition same_octantb (h h' : addr) : bool :=
  (a_x h =? a_x h') && (a_y h =? a_y h') && (a_z h =? a_z h') && (a_level h =? a_level h').
Fixpoint db_okb (db : contents) : bool :=
  match db with
  | [] => true
  | (h, _) :: db => octant_okb h && forallb (fun x => negb (same_octantb h (fst x))) db && db_okb db
  end.
Lemma octant_okb_ok h : octant_okb h = true -> octant_ok h.
Proof.
  unfold octant_okb, octant_ok. rewrite !andb_true_iff, !Z.leb_le, Z.eqb_eq. intros (((L1 & L2) & T) & F).
  split; [lia|]. split; [exact T|]. intros c I. rewrite forallb_forall in F. specialize (F c I).
  rewrite !andb_true_iff, Z.leb_le, Z.ltb_lt, Z.eqb_eq in F. destruct F as [[F1 F2] F3].
  split; [lia|]. apply Z.mod_divide; [|exact F3]. apply Z.pow_nonzero; lia.
Qed.
Lemma db_okb_ok db : db_okb db = true -> db_ok db.
Proof.
  induction db as [|[h p] db IH]; intros H; [split; [intros ? ? [] | intros ? ? ? ? []]|].
  cbn [db_okb] in H. rewrite !andb_true_iff in H. destruct H as ((O & N) & D). destruct (IH D) as [IH1 IH2].
  assert (NS : forall h' p', In (h', p') db -> ~ same_octant h h').
  { intros h' p' I (X & Y & Z & L). rewrite forallb_forall in N. specialize (N _ I). cbn [fst] in N.
    unfold same_octantb in N. rewrite X, Y, Z, L, !Z.eqb_refl in N. discriminate. }
  split.
  - intros h' p' [Q|I]; [injection Q as <- <-; apply octant_okb_ok, O | exact (IH1 h' p' I)].
  - intros h1 p1 h2 p2 [Q1|I1] [Q2|I2] S.
    + congruence.
    + injection Q1 as <- <-. exfalso. exact (NS _ _ I2 S).
    + injection Q2 as <- <-. exfalso. apply (NS _ _ I1). destruct S as (X & Y & Z & L). split; [|split; [|split]]; symmetry; assumption.
    + exact (IH2 _ _ _ _ I1 I2 S).
Qed.

(** A detailed database: two leaves of level 15 and 14, averages of levels 14 and 13
    around the first, at the point (toy_x, toy_y) and elevation -1234.5 m. *)
Definition toy_addr (l : Z) (elev : f64) (ty : otype) : addr :=
  match lonLatElevToAddr toy (mkAddr 0 0 0 0 l ty) toy_x toy_y elev with
  | Val (_, a) => a
  | _ => mkAddr 0 0 0 0 0 Leaf
  end.
Definition pay (vp vs rho : Z) (d : f32) (b z : Z) : payload :=
  mkPayload (i2f32 vp) (i2f32 vs) (i2f32 rho) (i2f32 200) (i2f32 100) d b z.
Definition elev_a : f64 := dec64 (-12345) 1.
Definition elev_b : f64 := dec64 (-3) 2.
Definition toy_leaf := toy_addr 15 elev_a Leaf.
Definition toy_parent := toy_addr 14 elev_a Interior.
Definition toy_grand := toy_addr 13 elev_a Interior.
Definition toy_top := toy_addr 15 elev_b Leaf.
Definition v_leaf := pay 5000 2900 2700 (i2f32 1250) 11 3.
Definition v_parent := pay 4800 2800 2650 (i2f32 1250) 11 3.
Definition v_grand := pay 4600 2700 2600 (i2f32 1250) 12 4.
Definition v_top := pay 1500 400 1800 (i2f32 10) 7 2.
Definition toy_db : contents :=
  [(toy_leaf, v_leaf); (toy_parent, v_parent); (toy_grand, v_grand); (toy_top, v_top)].
(** The same without the average of level 14 and 13: the leaf has no parent. *)
Definition orphan_db : contents := [(toy_leaf, v_leaf); (toy_top, v_top)].
(** An extended database: one coarse octant. *)
Definition ext_octant := toy_addr 6 (i2f64 (-20000)) Leaf.
Definition v_ext := pay 6500 3700 2900 (i2f32 20000) 21 9.
Definition ext_db : contents := [(ext_octant, v_ext)].

Lemma toy_db_ok : db_ok toy_db.
Proof. apply db_okb_ok. vm_compute. reflexivity. Qed.
Lemma orphan_db_ok : db_ok orphan_db.
Proof. apply db_okb_ok. vm_compute. reflexivity. Qed.
Lemma ext_db_ok : db_ok ext_db.
Proof. apply db_okb_ok. vm_compute. reflexivity. Qed.

(** The files "detailed", "orphan" and "extended" can be opened. *)
Definition toy_open (n : string) (_ : Z) : option contents :=
  if String.eqb n "detailed" then Some toy_db
  else if String.eqb n "orphan" then Some orphan_db
  else if String.eqb n "extended" then Some ext_db
  else None.
Definition toy_env : env contents :=
  mkEnv toy_open (fun _ => true) lsearch (fun n => negb (String.eqb n ""))
    (fun _ => "#"%string) (fun _ => "#"%string) (fun _ => "octant"%string).
