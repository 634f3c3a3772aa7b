(** A small grid file, a decimal number format and a storage library, used only in
    examples. *)
From Coq Require Import ZArith Bool Ascii String List Lia.
From Verif Require Import Outcome Float Payload Addr SpecOct AddrFacts PathFacts AvgEngine SpecAvg AvgFinal PropAvg Geom
  ToyLib Store SpecStore SpecText Stream StreamFacts GridIngester SpecGrid.
Import ListNotations.
Open Scope Z_scope.

(** ** Decimal numbers: optional minus sign, digits, optional fraction *)
Definition digit_of (c : ascii) : option Z :=
  let n := Z.of_nat (nat_of_ascii c) in
  if (48 <=? n) && (n <=? 57) then Some (n - 48) else None.
(** value of the digits, number of digits after the point ([None]: no point yet) *)
Fixpoint scan (s : string) (m : Z) (k : option Z) : option (Z * Z) :=
  match s with
  | EmptyString => Some (m, match k with Some j => j | None => 0 end)
  | String c r =>
      match digit_of c with
      | Some v => scan r (10 * m + v) (option_map (Z.add 1) k)
      | None => if Ascii.eqb c "." then match k with None => scan r m (Some 0) | Some _ => None end
                else None
      end
  end.
Definition decimal (s : string) : option (Z * Z) :=
  match s with
  | String "-" r => option_map (fun x => (- fst x, snd x)) (scan r 0 None)
  | EmptyString => None
  | _ => scan s 0 None
  end.
Definition toy_double (s : string) : f64 * bool :=
  match decimal s with Some (m, k) => (dec64 m k, true) | None => (f_zero, false) end.
Definition toy_single (s : string) : f32 * bool :=
  match decimal s with Some (m, k) => (narrow (dec64 m k), true) | None => (f_zero, false) end.
Definition toy_integer (s : string) : Z * bool :=
  match decimal s with Some (m, 0) => (m, true) | _ => (0, false) end.
Definition toy_fmt : numfmt := mkFmt toy_double toy_single toy_integer toy_integer (fun _ => "?"%string).

(** ** Texts *)
Fixpoint lay (ws : list string) : string :=
  match ws with [] => ""%string | w :: r => (w ++ String " " (lay r))%string end.
Definition blankb (c : ascii) : bool :=
  existsb (Nat.eqb (nat_of_ascii c)) [9; 10; 11; 12; 13; 32]%nat.
Definition wordb (w : string) : bool :=
  negb (String.eqb w "") && forallb (fun c => negb (blankb c)) (list_ascii_of_string w).
Lemma wordb_word w : wordb w = true -> word w.
Proof.
  unfold wordb. rewrite andb_true_iff, negb_true_iff, forallb_forall. intros [H1 H2].
  split; [apply String.eqb_neq; exact H1|]. intros c Hc. specialize (H2 c Hc).
  apply negb_true_iff in H2. intros B. unfold blank in B. unfold blankb in H2.
  assert (X : existsb (Nat.eqb (nat_of_ascii c)) [9; 10; 11; 12; 13; 32]%nat = true).
  { apply existsb_exists. exists (nat_of_ascii c). split; [exact B | apply Nat.eqb_refl]. }
  congruence.
Qed.
Lemma lay_laid ws : forallb wordb ws = true -> laid_out ws (lay ws).
Proof.
  induction ws as [|w ws IH]; intros H.
  - apply laid_blank. intros c [].
  - cbn [forallb] in H. apply andb_true_iff in H. destruct H as [H1 H2].
    apply (laid_word "" w " " (lay ws) ws).
    + intros c [].
    + apply wordb_word; exact H1.
    + unfold blank. cbn. tauto.
    + apply IH; exact H2.
Qed.

(** ** Storage *)
Fixpoint path_ltb (p q : list Z) : bool :=
  match p, q with
  | [], [] => false
  | [], _ :: _ => true
  | _ :: _, [] => false
  | a :: p', b :: q' => (a <? b) || ((a =? b) && path_ltb p' q')
  end.
Lemma path_ltb_lt p : forall q, path_ltb p q = true <-> path_lt p q.
Proof.
  induction p as [|a p IH]; intros [|b q]; cbn; try (split; congruence || tauto).
  rewrite orb_true_iff, andb_true_iff, Z.ltb_lt, Z.eqb_eq, IH. tauto.
Qed.
Definition same_octantb (a b : addr) : bool :=
  (a_x a =? a_x b) && (a_y a =? a_y b) && (a_z a =? a_z b) && (a_level a =? a_level b).
Lemma same_octantb_same a b : same_octantb a b = true <-> same_octant a b.
Proof. unfold same_octantb, same_octant. rewrite !andb_true_iff, !Z.eqb_eq. tauto. Qed.
Definition toy_etree : etree :=
  mkEtree (fun _ _ => true) (fun _ _ => true) (fun f => f) (fun _ => true) (fun _ _ => true)
    (fun _ => true) (fun _ _ => true) (fun _ _ => true) simple_storage
    (fun l a => negb (existsb (fun r => same_octantb (fst r) a) l))
    (fun a b => path_ltb (path_of a) (path_of b))
    (fun _ => true) (fun _ => true) [] [] "error" "Mon Jan  1 00:00:00 2007" "host".
Lemma toy_takes_new : takes_new toy_etree.
Proof.
  intros l a H. cbn. apply negb_true_iff. apply not_true_is_false. intros E.
  apply existsb_exists in E. destruct E as (x & H1 & H2). apply same_octantb_same in H2.
  exact (H x H1 H2).
Qed.
Lemma toy_refuses : refuses_stored toy_etree.
Proof.
  intros l a (x & H1 & H2). cbn. apply negb_false_iff. apply existsb_exists.
  exists x. split; [exact H1 | apply same_octantb_same; exact H2].
Qed.
Lemma toy_in_order : in_order toy_etree.
Proof. intros a b _ _. apply path_ltb_lt. Qed.

(** ** A grid with resolution 51.2 km (level 5): two points with data, one without *)
Open Scope string_scope.
Definition toy_head : list string := ["51.2"; "12.8"; "3"; "1"; "1"; "3"].
Definition toy_lines : list (list string) :=
  [["296908.4784"; "541696.2864"; "-1.5"; "3.2"; "1.8"; "2.4"; "100"; "50"; "1.5"; "1"; "2"; "1"];
   ["356908.4784"; "541696.2864"; "-1.5"; "-999"; "-999"; "-999"; "-999"; "-999"; "-999"; "0"; "0"; "0"];
   ["416908.4784"; "541696.2864"; "-1.5"; "3.5"; "2.1"; "-999"; "90"; "45"; "-999"; "7"; "3"; "2"]].
Close Scope string_scope.
Definition parse_line (ws : list string) : gridline :=
  match ws with
  | [w1; w2; w3; w4; w5; w6; w7; w8; w9; w10; w11; w12] =>
      mkLine (fst (toy_double w1)) (fst (toy_double w2)) (fst (toy_double w3))
        (mkPayload (fst (toy_single w4)) (fst (toy_single w5)) (fst (toy_single w6))
           (fst (toy_single w7)) (fst (toy_single w8)) (fst (toy_single w9))
           (fst (toy_integer w10)) (fst (toy_integer w11))) (fst (toy_integer w12))
  | _ => mkLine f_zero f_zero f_zero (mkPayload f_zero f_zero f_zero f_zero f_zero f_zero 0 0) 0
  end.
Definition toy_pts : list gridline := Eval vm_compute in map parse_line toy_lines.
Definition toy_text : string := lay (toy_head ++ concat toy_lines).
Definition toy_rh : f64 := Eval vm_compute in fst (toy_double "51.2").
Definition toy_rv : f64 := Eval vm_compute in fst (toy_double "12.8").
Definition addr_at (l : gridline) : addr :=
  match lonLatElevToAddr toy (mkAddr 0 0 0 0 5 Leaf) (l_lon l) (l_lat l) (si64 (l_elev l)) with
  | Val (_, a) => a | _ => mkAddr 0 0 0 0 0 Leaf end.
Definition toy_recs : list (addr * payload) :=
  Eval vm_compute in map (fun l => (addr_at l, si_values (l_pay l))) (filter has_data toy_pts).

Ltac decide_by_vm := vm_compute; reflexivity.
Lemma toy_reads : Forall2 (reads toy_fmt) toy_lines toy_pts.
Proof.
  repeat constructor; do 12 eexists; (split; [reflexivity|]); repeat split; decide_by_vm.
Qed.
Lemma toy_header : header toy_fmt toy_head toy_rh toy_rv 3.
Proof. do 9 eexists. split; [reflexivity|]. repeat split; decide_by_vm. Qed.
Lemma toy_fits : grid_fits toy toy_rh toy_rv 5.
Proof. split; [decide_by_vm|]. split; [lia|]. split; decide_by_vm. Qed.
Example toy_grid_file : grid_file toy_fmt toy toy_text 5 toy_pts.
Proof.
  exists toy_text, ""%string, toy_head, toy_lines, toy_rh, toy_rv.
  split.
  - symmetry. generalize toy_text. induction s as [|c s IH]; [reflexivity|]. cbn. rewrite IH. reflexivity.
  - split; [apply lay_laid; decide_by_vm|]. split; [exact toy_header|].
    split; [exact toy_reads | exact toy_fits].
Qed.
Example toy_grid_recs : grid_recs toy 5 toy_pts toy_recs.
Proof.
  unfold grid_recs. assert (F : filter has_data toy_pts = [nth 0 toy_pts (parse_line []); nth 2 toy_pts (parse_line [])])
    by decide_by_vm.
  rewrite F. apply Forall2_cons; [split; [exists 0; decide_by_vm | decide_by_vm]|].
  apply Forall2_cons; [split; [exists 0; decide_by_vm | decide_by_vm] | apply Forall2_nil].
Qed.
Example toy_recs_differ : all_different ([] ++ toy_recs).
Proof.
  apply FOP_cons; [|apply FOP_cons; [constructor | apply FOP_nil]].
  constructor; [|constructor]. intros H. apply same_octantb_same in H. vm_compute in H. discriminate.
Qed.
Definition octant_okb (a : addr) : bool :=
  (0 <=? a_level a) && (a_level a <=? 31) && (a_t a =? 0) &&
  forallb (fun c => (0 <=? c) && (c <? 2 ^ 31) && (c mod side (a_level a) =? 0)) [a_x a; a_y a; a_z a].
Lemma octant_okb_ok a : octant_okb a = true -> octant_ok a.
Proof.
  unfold octant_okb. rewrite !andb_true_iff, forallb_forall, Z.eqb_eq, !Z.leb_le.
  intros [[H1 H2] H3]. split; [exact H1|]. split; [exact H2|].
  intros c Hc. specialize (H3 c Hc). rewrite !andb_true_iff, Z.leb_le, Z.ltb_lt, Z.eqb_eq in H3.
  destruct H3 as [H3 H4]. split; [exact H3|]. apply Z.mod_divide; [|exact H4].
  unfold side. apply Z.pow_nonzero; lia.
Qed.
Example toy_recs_ok : forall r, In r toy_recs -> octant_ok (fst r).
Proof.
  intros r Hr. apply octant_okb_ok.
  assert (X : forallb (fun r => octant_okb (fst r)) toy_recs = true) by decide_by_vm.
  rewrite forallb_forall in X. exact (X r Hr).
Qed.
