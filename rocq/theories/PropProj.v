(** C77: the projection depends on the location alone until it fails. *)
From Coq Require Import ZArith Bool String List Lia.
From Verif Require Import Outcome Float Addr Geom VMQuery ErrorHandler SpecQuery QueryProof ToyLib ToyDb PropQuery PropHist Projector SpecProj.
Import ListNotations.
Local Open Scope list_scope.
Local Open Scope Z_scope.

(** One call, and a history of calls, each with its result. *)
Definition perform (P : pj) (c : pcall) (st : pstate) : pstate * outcome (f64 * f64) :=
  match c with
  | Project o lon lat => Projector.project P o lon lat st
  | Unproject o x y => Projector.invProject P o x y st
  end.
Fixpoint after (P : pj) (h : list pcall) (st : pstate) : pstate :=
  match h with [] => st | c :: r => after P r (fst (perform P c st)) end.

Section Facts.
Variable P : pj.

Lemma perform_state c st j : fst (perform P c st) j =
  if pj_shared P || Nat.eqb j (object c)
  then (if error_of P c =? 0 then (if pj_keeps P then st (object c) else 0) else error_of P c) else st j.
Proof.
  destruct c as [o a b|o a b]; cbn [perform object error_of]; unfold Projector.project, Projector.invProject, trans;
  destruct (pj_trans P _ _ _) as [[u v] e]; cbn [snd];
  destruct ((if pj_shared P || Nat.eqb o o then _ else _) =? 0); reflexivity.
Qed.

Lemma perform_result c st : exists a b, coordinates P c a b /\
  snd (perform P c st) = (if fst (perform P c st) (object c) =? 0 then Val (a, b)
                          else Throw (complaint P c (fst (perform P c st) (object c)))).
Proof.
  destruct c as [o x y|o x y]; cbn [perform object coordinates complaint]; unfold Projector.project, Projector.invProject, trans.
  - destruct (pj_trans P _ _ _) as [[u v] e]. exists u, v. split; [reflexivity|]. cbn [snd fst].
    destruct ((if pj_shared P || Nat.eqb o o then _ else _) =? 0) eqn:Q; cbn [fst snd]; rewrite Q; reflexivity.
  - destruct (pj_trans P _ _ _) as [[u v] e]. exists (pj_todeg P u), (pj_todeg P v). split; [exists u, v; auto|]. cbn [snd fst].
    destruct ((if pj_shared P || Nat.eqb o o then _ else _) =? 0) eqn:Q; cbn [fst snd]; rewrite Q; reflexivity.
Qed.

Lemma after_snoc h c st : after P (h ++ [c]) st = fst (perform P c (after P h st)).
Proof. revert st. induction h as [|x h IH]; intros st; [reflexivity|]. cbn [app after]. apply IH. Qed.

(** With one error number for all, all objects agree. *)
Lemma shared_same h : pj_shared P = true -> forall i j, after P h clean i = after P h clean j.
Proof.
  intros Sh. pattern h. apply rev_ind; clear h; [reflexivity|]. intros c h IH i j.
  rewrite after_snoc, !perform_state, Sh. reflexivity.
Qed.

Lemma fails_dec c : {fails P c} + {~ fails P c}.
Proof. unfold fails. destruct (Z.eq_dec (error_of P c) 0); [right; auto|left; auto]. Qed.

Lemma commonb o c : pj_shared P || Nat.eqb o (object c) = true <-> common P o c.
Proof. unfold common. rewrite orb_true_iff, Nat.eqb_eq. split; intros [H|H]; auto. Qed.

(** The error number of an object after a history. *)
Lemma state_spec h : pj_keeps P = true -> forall o,
  (after P h clean o = 0 /\ untroubled P o h) \/ (after P h clean o <> 0 /\ left_behind P o h (after P h clean o)).
Proof.
  intros K. pattern h. apply rev_ind; clear h.
  - intros o. left. split; [reflexivity|]. intros c [].
  - intros c h IH o. rewrite after_snoc, perform_state.
    destruct (pj_shared P || Nat.eqb o (object c)) eqn:V.
    + pose proof V as V'. apply commonb in V'. rewrite K. destruct (Z.eqb_spec (error_of P c) 0) as [E|E].
      * assert (S : after P h clean (object c) = after P h clean o).
        { apply orb_true_iff in V. destruct V as [V|V]; [apply shared_same, V|]. apply Nat.eqb_eq in V. now rewrite V. }
        rewrite S. destruct (IH o) as [[Z U]|(Z & b1 & x & b2 & -> & Cx & Fx & Ex & R)].
        -- left. split; [exact Z|]. intros x I Cx. apply in_app_or in I. destruct I as [I|[<-|[]]]; [exact (U x I Cx)|]. intros F. exact (F E).
        -- right. split; [exact Z|]. exists b1, x, (b2 ++ [c]). rewrite <- app_assoc. repeat split; auto.
           intros x' I Cx'. apply in_app_or in I. destruct I as [I|[<-|[]]]; [exact (R x' I Cx')|]. intros F. exact (F E).
      * right. split; [exact E|]. exists h, c, []. repeat split; auto. 
    + destruct (IH o) as [[Z U]|(Z & b1 & x & b2 & -> & Cx & Fx & Ex & R)].
      * left. split; [exact Z|]. intros x I Cx. apply in_app_or in I. destruct I as [I|[<-|[]]]; [exact (U x I Cx)|].
        apply commonb in Cx. congruence.
      * right. split; [exact Z|]. exists b1, x, (b2 ++ [c]). rewrite <- app_assoc. repeat split; auto.
        intros x' I Cx'. apply in_app_or in I. destruct I as [I|[<-|[]]]; [exact (R x' I Cx')|]. apply commonb in Cx'. congruence.
Qed.

Lemma self c : common P (object c) c.
Proof. right. reflexivity. Qed.

Lemma result_after h c : exists a b, coordinates P c a b /\
  snd (perform P c (after P h clean)) =
  (if after P (h ++ [c]) clean (object c) =? 0 then Val (a, b) else Throw (complaint P c (after P (h ++ [c]) clean (object c)))).
Proof. rewrite after_snoc. apply perform_result. Qed.

Lemma unkept h c : pj_keeps P = false -> after P (h ++ [c]) clean (object c) = error_of P c.
Proof.
  intros K. rewrite after_snoc, perform_state, Nat.eqb_refl, orb_true_r, K. destruct (Z.eqb_spec (error_of P c) 0); congruence.
Qed.
End Facts.

(** C77. A location that the library cannot transform is an exception that names it; any
    other location gives its own coordinates, whatever was asked before, as long as no
    transformation has failed. *)
Theorem C77_location_alone : forall P before c,
  (fails P c -> snd (perform P c (after P before clean)) = Throw (complaint P c (error_of P c))) /\
  (~ fails P c -> pj_keeps P = false \/ untroubled P (object c) before ->
   exists a b, coordinates P c a b /\ snd (perform P c (after P before clean)) = Val (a, b)).
Proof.
  intros P h c. destruct (result_after P h c) as (a & b & Co & R).
  split.
  - intros F. rewrite R, after_snoc, perform_state, Nat.eqb_refl, orb_true_r.
    destruct (Z.eqb_spec (error_of P c) 0) as [Z|N]; [contradiction|]. destruct (Z.eqb_spec (error_of P c) 0); [contradiction|reflexivity].
  - intros F H. exists a, b. split; [exact Co|]. rewrite R.
    assert (E0 : error_of P c = 0) by (unfold fails in F; lia).
    destruct H as [K|U]; [rewrite (unkept P h c K), E0; reflexivity|].
    rewrite after_snoc, perform_state, Nat.eqb_refl, orb_true_r, E0. cbn [Z.eqb].
    destruct (pj_keeps P) eqn:K; [|reflexivity].
    destruct (state_spec P h K (object c)) as [[-> _]|(_ & b1 & x & b2 & -> & Cx & Fx & _)]; [reflexivity|].
    exfalso. apply (U x); auto. apply in_or_app. right. left. reflexivity.
Qed.
Print Assumptions C77_location_alone.

(** C77. If the library keeps the error number of a failed transformation, every later call
    of the object is an exception, whatever the location, and the same holds for all
    other objects if they share the number: the message names the location asked for and
    the error of the last one that failed. *)
Theorem C77_poisoned : forall P before c n, pj_keeps P = true -> ~ fails P c ->
  left_behind P (object c) before n ->
  snd (perform P c (after P before clean)) = Throw (complaint P c n).
Proof.
  intros P h c n K F (b1 & x & b2 & E & Cx & Fx & Ex & R).
  destruct (result_after P h c) as (a & b & _ & ->).
  assert (E0 : error_of P c = 0) by (unfold fails in F; lia).
  rewrite after_snoc, perform_state, Nat.eqb_refl, orb_true_r, E0, K. cbn [Z.eqb].
  assert (S : after P h clean (object c) = n).
  { subst h. clear a b F E0. induction b2 as [|y b2 IH] using rev_ind.
    - rewrite after_snoc, perform_state. apply commonb in Cx. rewrite Cx.
      destruct (Z.eqb_spec (error_of P x) 0); [contradiction|exact Ex].
    - rewrite app_comm_cons, app_assoc, after_snoc, perform_state.
      assert (R' : forall c', In c' b2 -> common P (object c) c' -> ~ fails P c') by (intros c' I; apply R, in_or_app; auto).
      specialize (IH R'). destruct (pj_shared P || Nat.eqb (object c) (object y)) eqn:V; [|exact IH].
      assert (Ny : error_of P y = 0).
      { assert (~ fails P y) by (apply R; [apply in_or_app; right; left; reflexivity|apply commonb, V]). unfold fails in *. lia. }
      rewrite Ny, K. cbn [Z.eqb]. rewrite <- IH. apply orb_true_iff in V. destruct V as [V|V]; [apply shared_same, V|].
      apply Nat.eqb_eq in V. now rewrite V. }
  rewrite S. destruct (Z.eqb_spec n 0) as [Z|N]; [|reflexivity]. subst n. contradiction.
Qed.
Print Assumptions C77_poisoned.

(** C77. The object is created with the parameters of the transverse Mercator projection of
    the geologic model, if the three numbers are written the short way. *)
Theorem C77_parameters : forall P e,
  pj_gen P (i2f64 (-123)) = "-123"%string -> pj_gen P (i2f64 35) = "35"%string -> pj_gen P (dec64 9996 4) = "0.9996"%string ->
  (pj_create P "+proj=tmerc +lon_0=-123 +lat_0=35 +k=0.9996 +datum=NAD83 +units=m" = true <-> create P e = Val tt).
Proof.
  intros P e H1 H2 H3. unfold create.
  assert (A : args P = "+proj=tmerc +lon_0=-123 +lat_0=35 +k=0.9996 +datum=NAD83 +units=m"%string).
  { unfold args, MERIDIAN, LAT, SCALE. rewrite H1, H2, H3. reflexivity. }
  rewrite A. destruct (pj_create P _); split; congruence.
Qed.
Print Assumptions C77_parameters.

(** What the geometry of a query object with projector [o] sees in a state of the library
    (Geom.v asks for one location at a time). *)
Definition sees (P : pj) (fcos fsin flog : f64 -> f64) (o : nat) (st : pstate) : libm :=
  let res (r : pstate * outcome (f64 * f64)) := match snd r with Val ab => Some ab | _ => None end in
  mkLibm fcos fsin flog (fun lon lat => res (Projector.project P o lon lat st))
    (fun x y => res (Projector.invProject P o x y st)).

(** C77. So the functions of the location that Geom.v has for the projection are exact as
    long as nothing has failed: after any such history each location gives what it gives
    at the start. *)
Theorem C77_function : forall P fcos fsin flog o before, pj_keeps P = false \/ untroubled P o before ->
  forall a b,
  m_project (sees P fcos fsin flog o (after P before clean)) a b = m_project (sees P fcos fsin flog o clean) a b /\
  m_invproject (sees P fcos fsin flog o (after P before clean)) a b = m_invproject (sees P fcos fsin flog o clean) a b.
Proof.
  intros P fcos fsin flog o h U a b. cbn [sees m_project m_invproject].
  assert (G : forall c, object c = o -> snd (perform P c (after P h clean)) = snd (perform P c clean)).
  { intros c Oc. destruct (C77_location_alone P h c) as [A1 A2]. destruct (C77_location_alone P [] c) as [B1 B2].
    cbn [after] in B1, B2. destruct (fails_dec P c) as [F|F]; [rewrite (A1 F), (B1 F); reflexivity|].
    subst o. destruct (A2 F U) as (x & y & Cx & ->).
    assert (U0 : untroubled P (object c) []) by (intros c' []). destruct (B2 F (or_intror U0)) as (x' & y' & Cx' & ->).
    destruct c; cbn [coordinates] in Cx, Cx'.
    - rewrite Cx in Cx'. injection Cx' as <- <-. reflexivity.
    - destruct Cx as (u & v & E & -> & ->), Cx' as (u' & v' & E' & -> & ->). rewrite E in E'. injection E' as <- <-. reflexivity. }
  pose proof (G (Project o a b) eq_refl) as G1. pose proof (G (Unproject o a b) eq_refl) as G2.
  cbn [perform] in G1, G2. rewrite G1, G2. split; reflexivity.
Qed.
Print Assumptions C77_function.

(** C77. And a query of a location that the library could transform has no defined result
    any more once a transformation failed, if the library keeps error numbers. *)
Theorem C77_query_undefined : forall DB (E : env DB) q fs olds lon lat elev d r P fcos fsin flog o before n,
  pj_keeps P = true -> left_behind P o before n ->
  q_geom q = sees P fcos fsin flog o (after P before clean) ->
  q_db q = Some d -> resolution_of q r -> List.length olds = List.length (q_vals q) ->
  query E q fs (Some olds) lon lat elev = UB "uninitialised payload read"%string.
Proof.
  intros DB E q fs olds lon lat elev d r P fcos fsin flog o h n K L G D R N.
  apply (C32_projection_failure DB E q fs olds lon lat elev d r D R); [|exact N].
  rewrite G. cbn [sees m_project]. destruct (fails_dec P (Project o lon lat)) as [F|F].
  - pose proof (proj1 (C77_location_alone P h (Project o lon lat)) F) as Q. cbn [perform] in Q. rewrite Q. reflexivity.
  - pose proof (C77_poisoned P h (Project o lon lat) n K F L) as Q. cbn [perform] in Q. rewrite Q. reflexivity.
Qed.
Print Assumptions C77_query_undefined.

(** A library whose projection fails above 90 degrees north (angles stay degrees). *)
Definition toy_pj (keeps shared : bool) : pj :=
  mkPj (String.eqb "+proj=tmerc +lon_0=-123 +lat_0=35 +k=0.9996 +datum=NAD83 +units=m") (fun x => x) (fun x => x)
    (fun d a b => match d with
       | Forward => if fgt b (i2f64 90) then (a, b, 2050) else (a, b, 0)
       | Inverse => (a, b, 0) end)
    keeps shared (fun n => if (n =? 2050)%Z then "Point outside of projection domain" else "?")%string
    (fun x => if feq x (i2f64 (-123)) then "-123" else if feq x (i2f64 35) then "35"
              else if feq x (i2f64 91) then "91" else "0.9996")%string.
Definition good_call (o : nat) : pcall := Project o (i2f64 (-123)) (i2f64 35).
Definition bad_call (o : nat) : pcall := Project o (i2f64 (-123)) (i2f64 91).

Example C77_example_bad : forall k s, fails (toy_pj k s) (bad_call 0).
Proof. intros k s H. vm_compute in H. discriminate. Qed.
Example C77_example_good : forall k s, ~ fails (toy_pj k s) (good_call 0) /\
  untroubled (toy_pj k s) 0 [good_call 0; good_call 1] /\
  snd (perform (toy_pj k s) (good_call 0) (after (toy_pj k s) [good_call 0; good_call 1] clean)) = Val (i2f64 (-123), i2f64 35).
Proof.
  intros k s. split; [intros H; apply H; vm_compute; reflexivity|]. split.
  - intros c [<-|[<-|[]]] _ F; apply F; vm_compute; reflexivity.
  - destruct k, s; vm_compute; reflexivity.
Qed.
(** Another object's failure is felt when the number is shared, not otherwise. *)
Example C77_example_left : left_behind (toy_pj true true) 0 [good_call 0; bad_call 1; good_call 1] 2050 /\
  untroubled (toy_pj true false) 0 [good_call 0; bad_call 1; good_call 1].
Proof.
  split.
  - exists [good_call 0], (bad_call 1), [good_call 1]. repeat split; [left; reflexivity|intros H; vm_compute in H; discriminate|].
    intros c' [<-|[]] _ F. apply F. vm_compute. reflexivity.
  - intros c [<-|[<-|[<-|[]]]] C F.
    + apply F. vm_compute. reflexivity.
    + destruct C as [C|C]; discriminate.
    + apply F. vm_compute. reflexivity.
Qed.
Example C77_example_poisoned :
  snd (perform (toy_pj true true) (good_call 0) (after (toy_pj true true) [good_call 0; bad_call 1; good_call 1] clean)) =
    Throw ("Error while projecting location." ++ NL ++ "  Point outside of projection domain" ++ NL ++
      "  longitude: -123" ++ NL ++ "  latitude: 35" ++ NL)%string /\
  snd (perform (toy_pj true false) (good_call 0) (after (toy_pj true false) [good_call 0; bad_call 1; good_call 1] clean)) =
    Val (i2f64 (-123), i2f64 35).
Proof. split; vm_compute; reflexivity. Qed.
Example C77_example_parameters : create (toy_pj true true) 0 = Val tt.
Proof. apply C77_parameters; vm_compute; reflexivity. Qed.
(** A query object with the failed object's number: every query is undefined. *)
Definition poisoned_q : qstate contents :=
  mkQ f_zero (i2f64 (-2000)) (Some toy_db) None (map (fun n => Some (code n)) all_names)
    (sees (toy_pj true true) (m_cos toy) (m_sin toy) (m_log toy) 0 (after (toy_pj true true) [good_call 0; bad_call 1; good_call 1] clean))
    eh_new "detailed" "" MAXRES 128 128 false.
Example C77_example_query :
  query toy_env poisoned_q no_files (Some four) (i2f64 (-123)) (i2f64 35) elev_a = UB "uninitialised payload read"%string.
Proof.
  apply (C77_query_undefined _ toy_env poisoned_q no_files four _ _ _ toy_db Finest (toy_pj true true) (m_cos toy) (m_sin toy) (m_log toy) 0
    [good_call 0; bad_call 1; good_call 1] 2050 eq_refl (proj1 C77_example_left)); reflexivity.
Qed.
