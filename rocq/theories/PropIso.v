(** C52, C53: the isosurface application. *)
From Coq Require Import ZArith Bool Reals Lra Lia String Ascii List.
From Verif Require Import Outcome Float Payload Addr SpecOct SpecGeom FloatFacts Geom GeomFacts GeomLevel ErrorHandler VMQuery SpecQuery SpecHist
  QueryFacts QueryProof QueryHist QueryIndep Stream GetOpt QueryApp IsoApp SpecText StreamFacts SpecApp AppFacts AppMain SpecIso IsoNum IsoFacts IsoMain IsoRun
  Averager ToyLib ToyDb PropGeom ToyIso.
Import ListNotations.
Open Scope Z_scope.

(** ** Hypotheses *)
(** The program is started with configuration [c]; the input file can be read and lists
    the points [ls]; the output file can be written. *)
Definition iso_running (T : texts) (S : os) (args : list string) (c : isoconf) (ls : list point) : Prop :=
  isoArgs T args = inr c /\ (exists text, o_read S (i_in c) = Some text /\ lists_points (t_num T) text ls) /\
  o_create S (i_out c) = true /\ (forall l, o_write S l = true).
(** The file lists one point; the databases open and close; the surface there is at
    [topo]; between the elevations [L] and [U] the speeds are [vs]; the logarithms have a
    relative error of at most [eps]. *)
Definition searching {DB} (E : env DB) (T : texts) (S : os) (g : libm) (args : list string) (c : isoconf) (d : DB) (x : option DB)
    (lon lat topo L U : f64) (vs : f64 -> f64) (eps : R) : Prop :=
  let q := iso_object c g (Some d) x in
  iso_running T S args c [(lon, lat)] /\ iso_opens E c d x /\ closes E d x /\
  surface E q lon lat topo /\ profile E q lon lat L U vs /\ finite_double (i_vs c) /\ search_range L U /\ good_log eps g L U.

Lemma finish_closes {DB} (E : env DB) c g d x w lines fs : closes E d x ->
  finish E (iso_object c g (Some d) x) w lines fs = Val (mkResult 0 w (Some lines) fs).
Proof.
  intros [C1 C2]. unfold finish, close, close1, bad, leave, destroy, tell. cbn [iso_object q_db q_dbExt q_err q_name].
  rewrite C1. destruct x as [x|]; [rewrite (C2 x eq_refl)|]; reflexivity.
Qed.

Section Ends.
Context {DB : Type}.
Variables (E : env DB) (T : texts) (S : os) (g : libm) (args : list string) (c : isoconf) (d : DB) (x : option DB)
    (lon lat topo L U : f64) (vs : f64 -> f64) (eps : R).
Hypothesis H : searching E T S g args c d x lon lat topo L U vs eps.
Hypothesis HU : U = if iso_squashes c then f_zero else topo.
Hypothesis HL : L = if iso_squashes c then add64 (SFopp topo) (i_elevMin c) else i_elevMin c.

Lemma ends_line junk fs w line : isoLocation E T c g (iso_object c g (Some d) x) fs junk lon lat =
    Val (only 1 (iso_object c g (Some d) x), fs, w, inr line, true) ->
  isoMain E T S g junk args fs = Val (mkResult 0 w (Some [line]) fs).
Proof.
  intros Q. destruct H as ((HA & (text & HT & HP) & HC & HW) & HO & CL & _).
  rewrite (run_one E T S HW g args fs c HA junk text (lon, lat) (iso_object c g (Some d) x)); try assumption.
  - unfold first_point. cbn [fst snd]. rewrite Q. cbn [bind]. apply finish_closes, CL.
  - exists d, x. auto.
Qed.
Lemma found_line junk fs : (value (vs U) < value (i_vs c) <= value (vs L))%R ->
  exists z w, crossing (resolution eps) vs (i_vs c) L U z /\ brief w /\
    isoMain E T S g junk args fs = Val (mkResult 0 w (Some [iso_text T lon lat (sub64 topo z)]) fs).
Proof.
  intros B. destruct H as (_ & _ & _ & HS & HP & Ht & HR & HG).
  destruct (location_found E T c g (iso_object c g (Some d) x) fs (conj eq_refl eq_refl) eq_refl lon lat topo U L HU HL HS vs eps HP Ht HR HG junk B)
    as (z & w & C & W & Q). exists z, w. split; [exact C|]. split; [exact W|]. apply ends_line, Q.
Qed.
Lemma other_line junk fs : (value L + 15 <= value U)%R -> ~ halves_bracket vs (i_vs c) L U ->
  ((value (i_vs c) <= value (vs U))%R -> exists w, brief w /\
     isoMain E T S g junk args fs = Val (mkResult 0 w (Some [iso_text T lon lat (sub64 topo U)]) fs)) /\
  ((value (vs U) < value (i_vs c))%R -> (value (vs L) < 0)%R -> exists w, brief w /\
     isoMain E T S g junk args fs = Val (mkResult 0 w (Some [iso_text T lon lat (i2f64 (-999))]) fs)) /\
  ((value (vs U) < value (i_vs c))%R -> (0 <= value (vs L))%R ->
     isoMain E T S g junk args fs = Val (mkResult 1
       [Said (rangeMsg E (i_vs c) lon lat U (vs U) L (vs L) (middle L U) (vs (middle L U)))] (Some []) fs)).
Proof.
  intros B NB. pose proof H as (RUN & HO & _ & HS & HP & Ht & HR & HG).
  destruct (range_in L U HR) as (IL & IU & LU). destruct (HP U IU) as [FU _]. destruct (HP L IL) as [FL _].
  pose proof (fle_val (i_vs c) Ht _ FU) as KU. pose proof (neg_val _ FL) as KL.
  destruct (location_other E T c g (iso_object c g (Some d) x) fs (conj eq_refl eq_refl) eq_refl lon lat topo U L HU HL HS vs eps HP Ht HR HG junk B NB)
    as [(w & W & Q & D)|(e' & Q & D1 & D2)].
  - apply ends_line in Q. split; [|split].
    + intros K. apply KU in K. rewrite K in Q. eauto.
    + intros K1 K2. destruct (fle (i_vs c) (vs U)); [exfalso; assert (X : (value (i_vs c) <= value (vs U))%R) by (apply KU; reflexivity); lra|]. eauto.
    + intros K1 K2. exfalso. destruct D as [D|D]; [apply KU in D | apply KL in D]; lra.
  - split; [|split].
    + intros K. apply KU in K. congruence.
    + intros K1 K2. apply KL in K2. congruence.
    + intros _ _. destruct RUN as (HA & (text & HT & HPt) & HC & HW).
      rewrite (run_one E T S HW g args fs c HA junk text (lon, lat) (iso_object c g (Some d) x)); try assumption; [|exists d, x; auto].
      unfold first_point. cbn [fst snd]. rewrite Q. reflexivity.
Qed.
End Ends.

(** ** C52: the depth at which a speed is reached *)
(** The speed is below the target at the surface and reaches it at the lowest elevation:
    the program writes the distance to a point where the speed is at least the target
    while it is lower at most [resolution eps] metres higher. *)
Theorem C52_depth : forall DB (E : env DB) T S g args c d x lon lat topo vs eps junk fs,
  let L := i_elevMin c in
  iso_squashes c = false -> searching E T S g args c d x lon lat topo L topo vs eps ->
  (value (vs topo) < value (i_vs c) <= value (vs L))%R ->
  exists z w, crossing (resolution eps) vs (i_vs c) L topo z /\ brief w /\
    isoMain E T S g junk args fs = Val (mkResult 0 w (Some [iso_text T lon lat (sub64 topo z)]) fs).
Proof.
  intros DB E T S g args c d x lon lat topo vs eps junk fs L NS H B.
  apply (found_line E T S g args c d x lon lat topo L topo vs eps H); [rewrite NS; reflexivity.. | exact B].
Qed.
Print Assumptions C52_depth.

(** If speeds do not increase with the elevation, all elevations up to the reported one
    reach the target, and none that is [resolution eps] metres higher. *)
Theorem C52_layered : forall DB (E : env DB) T S g args c d x lon lat topo vs eps junk fs,
  let L := i_elevMin c in
  iso_squashes c = false -> searching E T S g args c d x lon lat topo L topo vs eps -> decreasing vs L topo ->
  (value (vs topo) < value (i_vs c) <= value (vs L))%R ->
  exists z w, between L topo z /\ brief w /\
    isoMain E T S g junk args fs = Val (mkResult 0 w (Some [iso_text T lon lat (sub64 topo z)]) fs) /\
    (forall a, between L topo a -> (value a <= value z)%R -> (value (i_vs c) <= value (vs a))%R) /\
    (forall a, between L topo a -> (value z + resolution eps <= value a)%R -> (value (vs a) < value (i_vs c))%R).
Proof.
  intros DB E T S g args c d x lon lat topo vs eps junk fs L NS H D B.
  destruct (C52_depth DB E T S g args c d x lon lat topo vs eps junk fs NS H B) as (z & w & (Z & V & u & Hu & Vu & Zu) & W & Q).
  exists z, w. split; [exact Z|]. split; [exact W|]. split; [exact Q|]. split.
  - intros a Ha La. pose proof (D a z Ha Z La). lra.
  - intros a Ha La. assert (LE : (value u <= value a)%R) by lra. pose proof (D u a Hu Ha LE). lra.
Qed.
Print Assumptions C52_layered.

(** Ranges of 15 m and more, when the speed at the surface already reaches the target and
    the lower half does not rise through it again: distance zero. *)
Theorem C52_surface : forall DB (E : env DB) T S g args c d x lon lat topo vs eps junk fs,
  let L := i_elevMin c in
  iso_squashes c = false -> searching E T S g args c d x lon lat topo L topo vs eps -> (value L + 15 <= value topo)%R ->
  (value (i_vs c) <= value (vs topo))%R ->
  ~ (value (vs (middle L topo)) < value (i_vs c) <= value (vs L))%R ->
  exists w, brief w /\ isoMain E T S g junk args fs = Val (mkResult 0 w (Some [iso_text T lon lat (sub64 topo topo)]) fs).
Proof.
  intros DB E T S g args c d x lon lat topo vs eps junk fs L NS H B V NM.
  apply (other_line E T S g args c d x lon lat topo L topo vs eps H); [rewrite NS; reflexivity.. | exact B | | exact V].
  unfold halves_bracket. cbv zeta. intros [K|K]; [lra | exact (NM K)].
Qed.
Print Assumptions C52_surface.

(** There is no data at the lowest elevation, and the speed at the surface and halfway is
    below the target: -999. *)
Theorem C52_no_data : forall DB (E : env DB) T S g args c d x lon lat topo vs eps junk fs,
  let L := i_elevMin c in
  iso_squashes c = false -> searching E T S g args c d x lon lat topo L topo vs eps -> (value L + 15 <= value topo)%R ->
  (0 <= value (i_vs c))%R -> (value (vs topo) < value (i_vs c))%R -> (value (vs (middle L topo)) < value (i_vs c))%R -> (value (vs L) < 0)%R ->
  exists w, brief w /\ isoMain E T S g junk args fs = Val (mkResult 0 w (Some [iso_text T lon lat (i2f64 (-999))]) fs).
Proof.
  intros DB E T S g args c d x lon lat topo vs eps junk fs L NS H B Pt V VM VL.
  apply (other_line E T S g args c d x lon lat topo L topo vs eps H); [rewrite NS; reflexivity.. | exact B | | exact V | exact VL].
  unfold halves_bracket. cbv zeta. intros [K|K]; lra.
Qed.
Print Assumptions C52_no_data.

(** The target is not reached at the surface, halfway, nor at the lowest elevation, where
    there is data: the program ends with exit code 1 and says so. *)
Theorem C52_refused : forall DB (E : env DB) T S g args c d x lon lat topo vs eps junk fs,
  let L := i_elevMin c in
  iso_squashes c = false -> searching E T S g args c d x lon lat topo L topo vs eps -> (value L + 15 <= value topo)%R ->
  (value (vs topo) < value (i_vs c))%R -> (value (vs (middle L topo)) < value (i_vs c))%R -> (0 <= value (vs L) < value (i_vs c))%R ->
  exists m, isoMain E T S g junk args fs = Val (mkResult 1 [Said ("Invalid search range!" ++ m)] (Some []) fs).
Proof.
  intros DB E T S g args c d x lon lat topo vs eps junk fs L NS H B V VM VL. eexists.
  apply (other_line E T S g args c d x lon lat topo L topo vs eps H); [rewrite NS; reflexivity.. | exact B | | exact V | exact (proj1 VL)].
  unfold halves_bracket. cbv zeta. intros [K|K]; lra.
Qed.
Print Assumptions C52_refused.

(** With squashing, the search is made in elevations that count from the surface, but
    the number written is the elevation of the surface minus the one found. *)
Theorem C52_squashed : forall DB (E : env DB) T S g args c d x lon lat topo vs eps junk fs,
  let L := add64 (SFopp topo) (i_elevMin c) in
  iso_squashes c = true -> searching E T S g args c d x lon lat topo L f_zero vs eps ->
  (value (vs f_zero) < value (i_vs c) <= value (vs L))%R ->
  exists z w, crossing (resolution eps) vs (i_vs c) L f_zero z /\ brief w /\
    isoMain E T S g junk args fs = Val (mkResult 0 w (Some [iso_text T lon lat (sub64 topo z)]) fs).
Proof.
  intros DB E T S g args c d x lon lat topo vs eps junk fs L NS H B.
  apply (found_line E T S g args c d x lon lat topo L f_zero vs eps H); [rewrite NS; reflexivity.. | exact B].
Qed.
Print Assumptions C52_squashed.

(** ** C53: files with many points *)
(** A run for one point that ends with a line, seen from inside. *)
Lemma alone_first {DB} (E : env DB) T S g args c fs l R : isoArgs T args = inr c -> o_create S (i_out c) = true -> (forall l, o_write S l = true) ->
  ends_alone E T S g args fs c l R -> R <> Abort ->
  exists q0 junk, starts E g c q0 /\ R = first_point E T c g fs junk q0 [] [] l (fun w1 line => finish E q0 w1 [line] fs).
Proof.
  intros HA HC HW (text & junk & HL & HR) NA.
  assert (HT : o_read (with_input S (i_in c) text) (i_in c) = Some text) by (cbn [with_input o_read]; rewrite String.eqb_refl; reflexivity).
  destruct (isoInit_cases E g c) as [(q0 & ST & _)|(q & m & _ & _ & NO)].
  - exists q0, junk. split; [exact ST|]. rewrite <- HR.
    apply (run_one E T (with_input S (i_in c) text) HW g args fs c HA junk text); assumption.
  - exfalso. apply NA. rewrite <- HR. apply (run_bad E T (with_input S (i_in c) text) HW g args fs c HA junk text [l]); try assumption. discriminate.
Qed.
Lemma starts_unique {DB} (E : env DB) g c q q' : starts E g c q -> starts E g c q' -> q = q'.
Proof.
  intros (d & x & [O1 O2] & ->) (d' & x' & [O1' O2'] & ->). assert (d' = d) by congruence. subst d'. f_equal.
  destruct (String.eqb (i_dbExt c) ""); [congruence|]. destruct O2 as (y & -> & O2), O2' as (y' & -> & O2'). congruence.
Qed.
Lemma line_gives {DB} (E : env DB) T c g fs junk q0 l code w s fs' : starts E g c q0 ->
  Val (mkResult code w (Some [s]) fs') = first_point E T c g fs junk q0 [] [] l (fun w1 line => finish E q0 w1 [line] fs) ->
  exists w1, gives E T c g q0 fs l (w1, s) /\ Val (mkResult code w (Some [s]) fs') = finish E q0 w1 [s] fs.
Proof.
  intros ST H. destruct (starts_clean E g c q0 ST) as [C N]. unfold first_point in H.
  destruct (isoLocation E T c g q0 fs junk (fst l) (snd l)) as [[[[[q1 fs1] w1] r] u]| | |] eqn:Q; cbn [bind] in H; try discriminate.
  destruct (isoLocation_effects E T c g q0 fs junk (fst l) (snd l) q1 fs1 w1 r u Q C N) as (-> & _ & K).
  destruct r as [k|line].
  - exfalso. destruct u; [|discriminate H].
    unfold leave in H. destruct (destroy E q1) as [q'| | |]; cbn [bind] in H; discriminate H.
  - destruct (K line eq_refl) as [-> ->].
    assert (s = line) by (destruct (finish_cases E q0) as [F|[m F]]; rewrite F in H; congruence). subst line.
    exists w1. split; [exists junk; exact Q | exact H].
Qed.

Section Points.
Context {DB : Type}.
Variables (E : env DB) (T : texts) (S : os) (g : libm) (args : list string) (c : isoconf) (fs : files).
Hypothesis HA : isoArgs T args = inr c.
Hypothesis HC : o_create S (i_out c) = true.
Hypothesis HW : forall l, o_write S l = true.

Lemma all_give code m ls ys :
  Forall2 (fun l y => ends_alone E T S g args fs c l (Val (mkResult code (fst y ++ m)%list (Some [snd y]) fs))) ls ys ->
  (code = 0 /\ m = []) \/ (code = 1 /\ exists m1, m = [m1]) -> ls <> [] ->
  exists q0, starts E g c q0 /\ Forall2 (gives E T c g q0 fs) ls ys /\ forall w lines, finish E q0 w lines fs = Val (mkResult code (w ++ m)%list (Some lines) fs).
Proof.
  intros H HM NE.
  assert (K : forall l y, ends_alone E T S g args fs c l (Val (mkResult code (fst y ++ m)%list (Some [snd y]) fs)) ->
    exists q0, starts E g c q0 /\ gives E T c g q0 fs l y /\ forall w lines, finish E q0 w lines fs = Val (mkResult code (w ++ m)%list (Some lines) fs)).
  { intros l [w s] HL. cbn [fst snd] in HL. destruct (alone_first E T S g args c fs l _ HA HC HW HL ltac:(discriminate)) as (q0 & junk & ST & Q).
    destruct (line_gives E T c g fs junk q0 l _ _ _ _ ST Q) as (w1 & G & F). exists q0. split; [exact ST|].
    destruct (finish_cases E q0) as [X|[mx X]].
    - destruct HM as [[-> ->]|[-> _]]; rewrite X in F; [|discriminate]. rewrite app_nil_r in F. injection F as ->. split; [exact G|].
      intros. rewrite X, app_nil_r. reflexivity.
    - destruct HM as [[-> _]|[-> [m1 ->]]]; rewrite X in F; [discriminate|]. injection F as F. apply app_inj_tail in F. destruct F as [-> ->].
      split; [exact G|]. intros. apply X. }
  destruct H as [|l y ls ys Hl Hls]; [congruence|]. destruct (K l y Hl) as (q0 & ST & G & F). exists q0. split; [exact ST|]. split; [|exact F].
  constructor; [exact G|]. clear - K Hls ST. induction Hls as [|l' y' ls ys H _ IH]; [constructor|]. constructor; [|exact IH].
  destruct (K l' y' H) as (q1 & ST1 & G & _). rewrite (starts_unique E g c _ _ ST ST1). exact G.
Qed.
End Points.

(** If every point, alone in the input file, makes the program write one line and succeed,
    a file with all of them makes it write all the lines, with all the messages, and succeed. *)
Theorem C53_all_lines : forall DB (E : env DB) T S g args c fs junk ls ys,
  iso_running T S args c ls -> ls <> [] ->
  Forall2 (fun l y => ends_alone E T S g args fs c l (Val (mkResult 0 (fst y) (Some [snd y]) fs))) ls ys ->
  isoMain E T S g junk args fs = Val (mkResult 0 (concat (map fst ys)) (Some (map snd ys)) fs).
Proof.
  intros DB E T S g args c fs junk ls ys (HA & (text & HT & HL) & HC & HW) NE H.
  destruct (all_give E T S g args c fs HA HC HW 0 [] ls ys) as (q0 & ST & G & F).
  - clear - H. induction H; constructor; [rewrite app_nil_r|]; assumption.
  - left; auto.
  - exact NE.
  - rewrite (run_all_points E T S HW g args fs c HA junk text ls q0 ys ST HT HC HL G), F, app_nil_r. reflexivity.
Qed.
Print Assumptions C53_all_lines.

(** The same when every run ends with exit code 1 after its line, because of a file that
    could not be closed. *)
Theorem C53_not_closed : forall DB (E : env DB) T S g args c fs junk ls ys m,
  iso_running T S args c ls -> ls <> [] ->
  Forall2 (fun l y => ends_alone E T S g args fs c l (Val (mkResult 1 (fst y ++ [m])%list (Some [snd y]) fs))) ls ys ->
  isoMain E T S g junk args fs = Val (mkResult 1 (concat (map fst ys) ++ [m])%list (Some (map snd ys)) fs).
Proof.
  intros DB E T S g args c fs junk ls ys m (HA & (text & HT & HL) & HC & HW) NE H.
  destruct (all_give E T S g args c fs HA HC HW 1 [m] ls ys H) as (q0 & ST & G & F); [right; eauto | exact NE|].
  rewrite (run_all_points E T S HW g args fs c HA junk text ls q0 ys ST HT HC HL G), F. reflexivity.
Qed.
Print Assumptions C53_not_closed.

(** The first point for which the program, given it alone, ends without writing a line
    decides how a longer run ends.  The lines of the points before it have been written,
    the points after it are ignored. *)
Theorem C53_first_stop : forall DB (E : env DB) T S g args c fs junk before l after ys code w fs',
  iso_running T S args c (before ++ l :: after) ->
  Forall2 (fun l y => ends_alone E T S g args fs c l (Val (mkResult 0 (fst y) (Some [snd y]) fs))) before ys ->
  ends_alone E T S g args fs c l (Val (mkResult code w (Some []) fs')) ->
  isoMain E T S g junk args fs = Val (mkResult code (concat (map fst ys) ++ w)%list (Some (map snd ys)) fs').
Proof.
  intros DB E T S g args c fs junk before l after ys code w fs' (HA & (text & HT & HL) & HC & HW) H HS.
  destruct (alone_first E T S g args c fs l _ HA HC HW HS ltac:(discriminate)) as (q0 & junk' & ST & Q).
  assert (G : Forall2 (gives E T c g q0 fs) before ys).
  { destruct before as [|b before]; [inversion H; constructor|].
    destruct (all_give E T S g args c fs HA HC HW 0 [] (b :: before) ys) as (q1 & ST1 & G & _).
    - clear - H. induction H; constructor; [rewrite app_nil_r|]; assumption.
    - left; auto.
    - discriminate.
    - rewrite (starts_unique E g c _ _ ST ST1). exact G. }
  destruct (run_many E T S HW g args fs c HA junk text before l q0 ys ST HT HC after HL G) as (k & ->).
  unfold first_point in Q |- *. rewrite (same_location E T c g q0 fs q0 junk junk') by (left; reflexivity).
  destruct (isoLocation E T c g q0 fs junk' (fst l) (snd l)) as [[[[[q1 fs1] w1] r] u]| | |]; cbn [bind app] in Q |- *; try discriminate.
  destruct r as [code'|line].
  - destruct u; [|injection Q as -> -> ->; reflexivity].
    unfold leave in Q |- *. destruct (destroy E q1) as [q'| | |]; cbn [bind] in Q |- *; try discriminate. injection Q as -> -> ->. reflexivity.
  - exfalso. destruct (finish_cases E q0) as [F|[m F]]; rewrite F in Q; discriminate Q.
Qed.
Print Assumptions C53_first_stop.

(** The same for a point that, alone, makes the program crash. *)
Theorem C53_first_crash : forall DB (E : env DB) T S g args c fs junk before l after ys R,
  iso_running T S args c (before ++ l :: after) ->
  Forall2 (fun l y => ends_alone E T S g args fs c l (Val (mkResult 0 (fst y) (Some [snd y]) fs))) before ys ->
  ends_alone E T S g args fs c l R -> (forall r, R <> Val r) ->
  isoMain E T S g junk args fs = R.
Proof.
  intros DB E T S g args c fs junk before l after ys R (HA & (text & HT & HL) & HC & HW) H (text' & junk' & HL' & HR) NV.
  assert (HT' : o_read (with_input S (i_in c) text') (i_in c) = Some text') by (cbn [with_input o_read]; rewrite String.eqb_refl; reflexivity).
  destruct (isoInit_cases E g c) as [(q0 & ST & _)|(q & m & _ & _ & NO)].
  - rewrite (run_one E T (with_input S (i_in c) text') HW g args fs c HA junk' text' l q0) in HR by assumption.
    assert (G : Forall2 (gives E T c g q0 fs) before ys).
    { destruct before as [|b before]; [inversion H; constructor|].
      destruct (all_give E T S g args c fs HA HC HW 0 [] (b :: before) ys) as (q1 & ST1 & G & _).
      - clear - H. induction H; constructor; [rewrite app_nil_r|]; assumption.
      - left; auto.
      - discriminate.
      - rewrite (starts_unique E g c _ _ ST ST1). exact G. }
    destruct (run_many E T S HW g args fs c HA junk text before l q0 ys ST HT HC after HL G) as (k & ->).
    rewrite <- HR. unfold first_point in HR |- *. rewrite (same_location E T c g q0 fs q0 junk junk') by (left; reflexivity).
    destruct (isoLocation E T c g q0 fs junk' (fst l) (snd l)) as [[[[[q1 fs1] w1] r] u]| | |]; cbn [bind app] in HR |- *; try reflexivity.
    destruct r as [code'|line].
    + destruct u; [|exfalso; exact (NV _ (eq_sym HR))].
      unfold leave in HR |- *. destruct (destroy E q1); cbn [bind] in HR |- *; try reflexivity. exfalso. exact (NV _ (eq_sym HR)).
    + exfalso. destruct (finish_cases E q0) as [F|[m F]]; rewrite F in HR; exact (NV _ (eq_sym HR)).
  - rewrite <- HR. rewrite (run_bad E T (with_input S (i_in c) text') HW g args fs c HA junk' text' [l]) by (assumption || discriminate).
    apply (run_bad E T S HW g args fs c HA junk text (before ++ l :: after)); try assumption. destruct before; discriminate.
Qed.
Print Assumptions C53_first_crash.

(** A database that cannot be opened does not stop the program before the points: it
    crashes at the first one, by an exception that nothing catches. *)
Theorem C53_failed_open : forall DB (E : env DB) T S g args c fs junk ls,
  iso_running T S args c ls -> ls <> [] -> (forall d x, ~ iso_opens E c d x) ->
  isoMain E T S g junk args fs = Abort.
Proof.
  intros DB E T S g args c fs junk ls (HA & (text & HT & HL) & HC & HW) NE NO.
  apply (run_bad E T S HW g args fs c HA junk text ls); assumption.
Qed.
Print Assumptions C53_failed_open.

(** A file without points makes an empty output file. *)
Theorem C53_no_points : forall DB (E : env DB) T S g args c d x fs junk,
  iso_running T S args c [] -> iso_opens E c d x -> closes E d x ->
  isoMain E T S g junk args fs = Val (mkResult 0 [] (Some []) fs).
Proof.
  intros DB E T S g args c d x fs junk (HA & (text & HT & HL) & HC & HW) HO CL.
  rewrite (run_all_points E T S HW g args fs c HA junk text [] (iso_object c g (Some d) x) []); try assumption.
  - apply finish_closes, CL.
  - exists d, x. auto.
  - constructor.
Qed.
Print Assumptions C53_no_points.

(** Every text lists points. *)
Theorem C53_lists_total : forall T text, exists ls, lists_points (t_num T) text ls.
Proof.
  intros T text. destruct (text_form text) as (ws & t & e & -> & L & U).
  assert (G : forall n ws, (List.length ws <= n)%nat -> exists w1 rest ls, ws = (w1 ++ rest)%list /\ points (t_num T) w1 ls /\ no_point (t_num T) rest).
  { clear. induction n as [|n IH]; intros ws HN.
    - destruct ws; [|cbn in HN; lia]. exists [], [], []. split; [reflexivity|]. split; [constructor|]. intros a b r lo la Q. discriminate.
    - destruct ws as [|a [|b ws]].
      + exists [], [], []. split; [reflexivity|]. split; [constructor|]. intros a b r lo la Q. discriminate.
      + exists [], [a], []. split; [reflexivity|]. split; [constructor|]. intros a' b r lo la Q. discriminate.
      + destruct (n_f64 (t_num T) a) as [lo [|]] eqn:A; [destruct (n_f64 (t_num T) b) as [la [|]] eqn:B|].
        * destruct (IH ws) as (w1 & rest & ls & -> & P & N); [cbn in HN; lia|]. exists (a :: b :: w1), rest, ((lo, la) :: ls).
          split; [reflexivity|]. split; [constructor; assumption | exact N].
        * exists [], (a :: b :: ws), []. split; [reflexivity|]. split; [constructor|].
          intros a' b' r lo' la' Q (_ & K). injection Q as <- <- <-. unfold numeral in K. congruence.
        * exists [], (a :: b :: ws), []. split; [reflexivity|]. split; [constructor|].
          intros a' b' r lo' la' Q (K & _). injection Q as <- <- <-. unfold numeral in K. congruence. }
  destruct (G _ ws (le_n _)) as (w1 & rest & ls & -> & P & N). exists ls, w1, rest, t, e. auto.
Qed.
Print Assumptions C53_lists_total.

(** And only one list. *)
Theorem C53_lists_unique : forall T text ls ls', lists_points (t_num T) text ls -> lists_points (t_num T) text ls' -> ls = ls'.
Proof.
  intros T text ls ls' (ws & rest & t & e & -> & Ht & He & HL & HR) (ws' & rest' & t' & e' & Q & Ht' & He' & HL' & HR').
  pose proof (point_next T rest e HR He (f_zero, f_zero) ws t ls Ht HL) as A.
  pose proof (point_next T rest' e' HR' He' (f_zero, f_zero) ws' t' ls' Ht' HL') as B.
  rewrite <- Q in B. cbv zeta in A, B. revert A B.
  set (r := readLonLat _ _ _). generalize (snd r), (fst r). clear - HR HR' He He'. revert ls'.
  induction ls as [|l ls IH]; intros [|l' ls'] loc s A B; [reflexivity| | |].
  - destruct B as (_ & ws & t & -> & _). discriminate A.
  - destruct A as (_ & ws & t & -> & _). discriminate B.
  - destruct A as (-> & ws & t & -> & Ht & HL), B as (-> & ws' & t' & Q & Ht' & HL'). f_equal.
    pose proof (point_next T rest e HR He l' ws t ls Ht HL) as A.
    pose proof (point_next T rest' e' HR' He' l' ws' t' ls' Ht' HL') as B.
    rewrite <- Q in B. exact (IH _ _ _ A B).
Qed.
Print Assumptions C53_lists_unique.

(** The options: the last value of each counts, in any order.  Without a target speed,
    input file, output file or database the program only says how to use it. *)
Theorem C53_options : forall T kvs, Forall (fun kv => iso_letter (fst kv)) kvs ->
  (iso_complete (iso_asked T kvs) -> isoArgs T (opt_words kvs) = inr (iso_asked T kvs)) /\
  (~ iso_complete (iso_asked T kvs) -> forall DB (E : env DB) S g junk fs,
     isoMain E T S g junk (opt_words kvs) fs = Val (mkResult 1 [Usage] None fs)).
Proof.
  intros T kvs H. pose proof (isoArgs_words T kvs H) as Q. cbv zeta in Q. unfold iso_complete.
  rewrite <- !String.eqb_neq. split.
  - intros (A & B & C & D). rewrite A, B, C, D in Q. exact Q.
  - intros N DB E S g junk fs. unfold isoMain. rewrite Q.
    destruct (feq f_zero (i_vs (iso_asked T kvs))); [reflexivity|].
    destruct (String.eqb (i_in (iso_asked T kvs)) ""); [reflexivity|].
    destruct (String.eqb (i_out (iso_asked T kvs)) ""); [reflexivity|].
    destruct (String.eqb (i_db (iso_asked T kvs)) ""); [reflexivity|]. exfalso. apply N. auto.
Qed.
Print Assumptions C53_options.

Theorem C53_help : forall DB (E : env DB) T S g junk kvs more fs, Forall (fun kv => iso_letter (fst kv)) kvs ->
  isoMain E T S g junk (opt_words kvs ++ "-h"%string :: more) fs = Val (mkResult 0 [Usage] None fs).
Proof. intros. unfold isoMain. rewrite isoArgs_help by assumption. reflexivity. Qed.
Print Assumptions C53_help.

Theorem C53_unknown : forall DB (E : env DB) T S g junk kvs k more fs, Forall (fun kv => iso_letter (fst kv)) kvs ->
  ~ iso_letter k -> k <> "h"%char -> k <> "-"%char ->
  isoMain E T S g junk (opt_words kvs ++ String "-" (String k "") :: more) fs = Val (mkResult 1 [Usage] None fs).
Proof. intros. unfold isoMain. rewrite isoArgs_unknown by assumption. reflexivity. Qed.
Print Assumptions C53_unknown.

(** A file of points that cannot be read, or an output file that cannot be created. *)
Theorem C53_files : forall DB (E : env DB) T S g junk args c d x fs, isoArgs T args = inr c -> iso_opens E c d x -> closes E d x ->
  (o_read S (i_in c) = None ->
     isoMain E T S g junk args fs =
     Val (mkResult 1 [Said ("Could not open file '" ++ i_in c ++ "' to read query locations." ++ NL)] None fs)) /\
  (o_read S (i_in c) <> None -> o_create S (i_out c) = false ->
     isoMain E T S g junk args fs =
     Val (mkResult 1 [Said ("Could not open file '" ++ i_out c ++ "' to receive query data." ++ NL)] None fs)).
Proof.
  intros DB E T S g junk args c d x fs HA HO [C1 C2]. unfold isoMain. rewrite HA, (isoInit_opens E g c d x HO). cbn [bind app].
  assert (D : destroy E (iso_object c g (Some d) x) = Val tt).
  { unfold destroy. cbn [iso_object q_db q_dbExt]. rewrite C1. destruct x as [x|]; [rewrite (C2 x eq_refl)|]; reflexivity. }
  split; intros A.
  - rewrite A. unfold leave. rewrite D. reflexivity.
  - intros B. destruct (o_read S (i_in c)); [|congruence]. rewrite B. unfold leave. cbn [negb]. rewrite D. reflexivity.
Qed.
Print Assumptions C53_files.

(** ** Examples *)
Definition iso_num (w : string) : f64 * bool :=
  if String.eqb w "x" then (toy_x, true) else if String.eqb w "y" then (toy_y, true)
  else if String.eqb w "1000" then (i2f64 1000, true) else if String.eqb w "-1612.5" then (dec64 (-16125) 1, true)
  else if String.eqb w "-1600" then (i2f64 (-1600), true) else if String.eqb w "-2300" then (i2f64 (-2300), true)
  else if String.eqb w "-12812.5" then (dec64 (-128125) 1, true)
  else if String.eqb w "-100000" then (i2f64 (-100000), true)
  else if String.eqb w "far" then (i2f64 (2 ^ 40), true)
  else (f_zero, false).
Definition iso_show (x : f64) : string := match ftrunc x with Some z => showZ z | None => "nan" end.
Definition iso_sign (x : f64) : string := if flt x f_zero then "-" else "+".
Definition iso_texts (show : f64 -> string) : texts :=
  mkTexts (mkFmt iso_num iso_num (fun _ => (0, false)) (fun _ => (0, false)) show)
    (fun s => if String.eqb s "64" then 64 else 0) (fun s => fst (iso_num s))
    (fun _ _ x => (" " ++ show x)%string) (fun _ z => (" " ++ showZ z)%string).
Definition iso_os (text : string) : os :=
  mkOs (fun n => if String.eqb n "in" then Some text else None) (fun n => String.eqb n "out") (fun _ => true).
Definition iso_args (db low : string) : list string := ["-i"; "in"; "-v"; "1000"; "-d"; db; "-z"; low; "-o"; "out"]%string.
Definition iso_config (db : string) (low : f64) : isoconf := mkIso (i2f64 1000) "in" "out" db "" 128 (i2f64 1000000) low.
Definition squash_args : list string := "-s"%string :: "-100000"%string :: iso_args "halves" "-2300".
Definition squash_config : isoconf := mkIso (i2f64 1000) "in" "out" "halves" "" 128 (i2f64 (-100000)) (i2f64 (-2300)).

Lemma word_ok w : negb (String.eqb w "") && forallb (fun c => negb (existsb (Nat.eqb (nat_of_ascii c)) [9; 10; 11; 12; 13; 32]%nat)) (list_ascii_of_string w) = true -> word w.
Proof.
  rewrite andb_true_iff, negb_true_iff, String.eqb_neq. intros [N H]. split; [exact N|].
  intros c I B. rewrite forallb_forall in H. specialize (H c I). rewrite negb_true_iff in H.
  assert (K : existsb (Nat.eqb (nat_of_ascii c)) [9; 10; 11; 12; 13; 32]%nat = true) by (apply existsb_exists; exists (nat_of_ascii c); split; [exact B | apply Nat.eqb_refl]).
  congruence.
Qed.
Lemma iso_lists show : lists_points (t_num (iso_texts show)) "x y " [(toy_x, toy_y)].
Proof.
  exists ["x"; "y"]%string, [], "x y "%string, ""%string. split; [reflexivity|]. split; [|split; [left; reflexivity | split]].
  - apply (laid_word "" "x" " " "y " ["y"]%string); [intros c [] | apply word_ok; reflexivity | cbv; tauto|].
    apply (laid_word "" "y" " " "" []); [intros c [] | apply word_ok; reflexivity | cbv; tauto|]. constructor. intros c [].
  - constructor; [reflexivity | reflexivity | constructor].
  - intros a b r lo la Q. discriminate.
Qed.
Lemma iso_runs show args c : isoArgs (iso_texts show) args = inr c -> i_in c = "in"%string -> i_out c = "out"%string ->
  iso_running (iso_texts show) (iso_os "x y ") args c [(toy_x, toy_y)].
Proof.
  intros A I O. split; [exact A|]. rewrite I, O. split; [exists "x y "%string; split; [reflexivity | apply iso_lists]|]. split; reflexivity.
Qed.

(** Logarithms for a range of 1600 m. *)
Lemma iso_logs L U : div64 (sub64 U L) (i2f64 25) = i2f64 64 -> good_log (/ 256) toy L U.
Proof.
  intros Q. unfold good_log. rewrite Q. split; [lra|]. split.
  - apply (toy_log_pow 6 4682486076124019 (-50)); [lia | vm_compute; reflexivity.. | lia |].
    change (2 ^ (- -50)) with 1125899906842624. pose proof ln2_bounds. apply Rabs_le. lra.
  - apply (toy_log_pow 1 6243314768165359 (-53)); [lia | vm_compute; reflexivity.. | lia |].
    change (2 ^ (- -53)) with 9007199254740992. pose proof ln2_bounds. apply Rabs_le. lra.
Qed.
Lemma lt_check a b : finiteb a && finiteb b && flt a b = true -> (value a < value b)%R.
Proof.
  rewrite !andb_true_iff. intros [[[Va Fa]%finiteb_ok [Vb Fb]%finiteb_ok] H].
  rewrite (flt_R prec64 emax64) in H by assumption. revert H.
  change (BinarySingleNaN.SF2R Zaux.radix2 a) with (value a). change (BinarySingleNaN.SF2R Zaux.radix2 b) with (value b).
  destruct (Raux.Rlt_bool_spec (value a) (value b)); [auto | discriminate].
Qed.
Lemma le_check a b : finiteb a && finiteb b && fle a b = true -> (value a <= value b)%R.
Proof.
  rewrite !andb_true_iff. intros [[[Va Fa]%finiteb_ok [Vb Fb]%finiteb_ok] H].
  rewrite (fle_R prec64 emax64) in H by assumption. revert H.
  change (BinarySingleNaN.SF2R Zaux.radix2 a) with (value a). change (BinarySingleNaN.SF2R Zaux.radix2 b) with (value b).
  destruct (Raux.Rle_bool_spec (value a) (value b)); [auto | discriminate].
Qed.
Lemma int_val z : (Z.abs z < 2 ^ 53)%Z -> finite_double (i2f64 z) /\ value (i2f64 z) = IZR z.
Proof. intros H. destruct (repr_int z H) as (V & F & Q). split; [split; assumption | exact Q]. Qed.
Lemma neg_value (x : f64) m e : x = S754_finite true m e -> SpecFloat.valid_binary prec64 emax64 x = true ->
  (e <= 0)%Z -> finite_double x /\ value x = (- (IZR (Zpos m) / IZR (2 ^ (- e))))%R.
Proof.
  intros -> V He. split; [split; [exact V | reflexivity]|].
  unfold value, BinarySingleNaN.SF2R, Defs.F2R. cbn [Defs.Fnum Defs.Fexp].
  replace e with (- - e)%Z at 1 by lia. rewrite Raux.bpow_opp, bpow_Z by lia. cbn [cond_Zopp]. change (Z.neg m) with (- Z.pos m)%Z.
  rewrite opp_IZR. unfold Rdiv. ring.
Qed.

(** The column: the surface is found 12.5 m below the reported one; the speed reaches 1000
    m/s at -200 m. *)
Lemma column_range : finite_double (dec64 (-16125) 1) /\ finite_double (dec64 (-125) 1) /\
  value (dec64 (-16125) 1) = (-16125 / 10)%R /\ value (dec64 (-125) 1) = (-125 / 10)%R.
Proof.
  destruct (neg_value (dec64 (-16125) 1) 7091849999155200 (-42) ltac:(vm_compute; reflexivity) ltac:(vm_compute; reflexivity) ltac:(lia)) as [A1 A2].
  destruct (neg_value (dec64 (-125) 1) 7036874417766400 (-49) ltac:(vm_compute; reflexivity) ltac:(vm_compute; reflexivity) ltac:(lia)) as [B1 B2].
  split; [exact A1|]. split; [exact B1|]. rewrite A2, B2. change (2 ^ (- -42)) with 4398046511104. change (2 ^ (- -49)) with 562949953421312. lra.
Qed.
Definition column_config := iso_config "column" (dec64 (-16125) 1).
Definition column_object : qstate contents := iso_object column_config toy (Some column) None.
Lemma column_surface : surface column_env column_object toy_x toy_y (dec64 (-125) 1).
Proof.
  exists (i2f64 0). split; [apply probe_ok; vm_compute; reflexivity|]. left. exists 1, (widen (i2f32 400)).
  split; [lia|]. split; [vm_compute; reflexivity|]. split; [eapply probe_reads; vm_compute; reflexivity|]. split; [vm_compute; reflexivity|].
  intros j Hj. replace j with 0 by lia. eexists. split; [eapply probe_reads; vm_compute; reflexivity | vm_compute; discriminate].
Qed.
Example C52_depth_example : let L := dec64 (-16125) 1 in let topo := dec64 (-125) 1 in
  iso_squashes column_config = false /\
  searching column_env (iso_texts iso_show) (iso_os "x y ") toy (iso_args "column" "-1612.5") column_config column None
    toy_x toy_y topo L topo column_speed (/ 256) /\
  (value (column_speed topo) < value (i_vs column_config) <= value (column_speed L))%R.
Proof.
  cbv zeta. destruct column_range as (A & B & C & D).
  split; [reflexivity|]. split.
  - split; [apply iso_runs; vm_compute; reflexivity|]. split; [split; reflexivity|]. split; [split; [reflexivity | discriminate]|].
    split; [exact column_surface|]. split.
    { exact (profile_at column_env column_config column (dec64 (-16125) 1) (dec64 (-125) 1) eq_refl ltac:(lra) ltac:(lra) column_finite). }
    split; [apply finiteb_ok; vm_compute; reflexivity|]. split.
    { split; [exact A|]. split; [exact B|]. rewrite C, D. split; [apply Rabs_def1; lra|]. split; [apply Rabs_def1; lra | lra]. }
    apply iso_logs. vm_compute. reflexivity.
  - split; [apply lt_check; vm_compute; reflexivity | apply le_check; vm_compute; reflexivity].
Qed.
(** The run itself; the message is about the reported surface, where there is no data. *)
Definition iso_seen (R : outcome result) : option (Z * list said * option (list string)) :=
  match R with Val r => Some (r_code r, r_said r, r_lines r) | _ => None end.
Example C52_depth_run :
  iso_seen (isoMain column_env (iso_texts iso_show) (iso_os "x y ") toy S754_nan (iso_args "column" "-1612.5") (fun _ => None)) =
  Some (0, [Said ("WARNING: No data for #, #, #." ++ NL)], Some [" 296908 541696 200"]%string).
Proof. vm_compute. reflexivity. Qed.

(** Halfspaces; the surface is at zero. *)
Lemma halves_searching f : (forall t, In (f t) [2000; 1500; 500]) ->
  probe (halves f 192000) (iso_object (iso_config "halves" (i2f64 (-1600))) toy (Some tt) None) "Elevation" (i2f64 (-5000)) = Some (true, f_zero) ->
  searching (halves f 192000) (iso_texts iso_show) (iso_os "x y ") toy (iso_args "halves" "-1600") (iso_config "halves" (i2f64 (-1600))) tt None
    toy_x toy_y f_zero (i2f64 (-1600)) f_zero (speed_of f) (/ 256).
Proof.
  intros HF HP. destruct (int_val (-1600) ltac:(lia)) as [A B]. assert (C : value f_zero = 0%R) by reflexivity.
  split; [apply iso_runs; vm_compute; reflexivity|]. split; [split; reflexivity|]. split; [split; [reflexivity | discriminate]|].
  split; [|split; [|split; [|split]]].
  - exists f_zero. split; [apply probe_ok, HP|]. left. exists 0, (speed_of f f_zero).
    split; [lia|]. split; [vm_compute; reflexivity|]. split; [|split].
    + apply (reads_at (halves f 192000) (iso_config "halves" (i2f64 (-1600))) tt f_zero); [reflexivity | split; reflexivity | lra].
    + unfold positive, speed_of. destruct (HF (a_z (at_elev f_zero))) as [<-|[<-|[<-|[]]]]; vm_compute; reflexivity.
    + intros j Hj. lia.
  - apply (profile_at (halves f 192000) (iso_config "halves" (i2f64 (-1600))) tt); [reflexivity | lra | lra|]. intros a. apply halves_finite, HF.
  - apply finiteb_ok. vm_compute. reflexivity.
  - split; [exact A|]. split; [split; reflexivity|]. rewrite B, C. rewrite Rabs_R0. split; [apply Rabs_def1; lra | lra].
  - apply iso_logs. vm_compute. reflexivity.
Qed.
Example C52_layered_example : let L := i2f64 (-1600) in let vs := speed_of (two (-500)) in
  searching (halves (two (-500)) 192000) (iso_texts iso_show) (iso_os "x y ") toy (iso_args "halves" "-1600") (iso_config "halves" L) tt None
    toy_x toy_y f_zero L f_zero vs (/ 256) /\ decreasing vs L f_zero /\ (value (vs f_zero) < value (i2f64 1000) <= value (vs L))%R.
Proof.
  cbv zeta. split; [apply halves_searching; [apply two_in | vm_compute; reflexivity]|]. split.
  - apply two_decreasing; [rewrite (proj2 (int_val (-1600) ltac:(lia))); lra | change (value f_zero) with 0%R; lra].
  - split; [apply lt_check; vm_compute; reflexivity | apply le_check; vm_compute; reflexivity].
Qed.
Example C52_layered_run :
  iso_seen (isoMain (halves (two (-500)) 192000) (iso_texts iso_show) (iso_os "x y ") toy S754_nan (iso_args "halves" "-1600") (fun _ => None)) =
  Some (0, [], Some [" 296908 541696 512"]%string).
Proof. vm_compute. reflexivity. Qed.
(** Fast up to the surface. *)
Example C52_surface_example : let L := i2f64 (-1600) in let vs := speed_of (two 100) in
  searching (halves (two 100) 192000) (iso_texts iso_show) (iso_os "x y ") toy (iso_args "halves" "-1600") (iso_config "halves" L) tt None
    toy_x toy_y f_zero L f_zero vs (/ 256) /\ (value L + 15 <= value f_zero)%R /\ (value (i2f64 1000) <= value (vs f_zero))%R /\
  ~ (value (vs (middle L f_zero)) < value (i2f64 1000) <= value (vs L))%R.
Proof.
  cbv zeta. split; [apply halves_searching; [apply two_in | vm_compute; reflexivity]|]. split; [rewrite (proj2 (int_val (-1600) ltac:(lia))); change (value f_zero) with 0%R; lra|].
  split; [apply le_check; vm_compute; reflexivity|]. intros [K _]. revert K. apply Rle_not_lt. apply le_check. vm_compute. reflexivity.
Qed.
(** Slow down to the lowest elevation. *)
Example C52_refused_example : let L := i2f64 (-1600) in let vs := speed_of (two (-5000)) in
  searching (halves (two (-5000)) 192000) (iso_texts iso_show) (iso_os "x y ") toy (iso_args "halves" "-1600") (iso_config "halves" L) tt None
    toy_x toy_y f_zero L f_zero vs (/ 256) /\ (value L + 15 <= value f_zero)%R /\ (value (vs f_zero) < value (i2f64 1000))%R /\
  (value (vs (middle L f_zero)) < value (i2f64 1000))%R /\ (0 <= value (vs L) < value (i2f64 1000))%R.
Proof.
  cbv zeta. split; [apply halves_searching; [apply two_in | vm_compute; reflexivity]|]. split; [rewrite (proj2 (int_val (-1600) ltac:(lia))); change (value f_zero) with 0%R; lra|].
  split; [apply lt_check; vm_compute; reflexivity|]. split; [apply lt_check; vm_compute; reflexivity|].
  split; [change 0%R with (value f_zero); apply le_check; vm_compute; reflexivity | apply lt_check; vm_compute; reflexivity].
Qed.
(** A range that goes below the column, twice as deep: there is no data halfway either. *)
Definition deep_config := iso_config "column" (dec64 (-128125) 1).
Example C52_no_data_example : let L := dec64 (-128125) 1 in let topo := dec64 (-125) 1 in
  searching column_env (iso_texts iso_show) (iso_os "x y ") toy (iso_args "column" "-12812.5") deep_config column None
    toy_x toy_y topo L topo column_speed (/ 256) /\ (value L + 15 <= value topo)%R /\
  (0 <= value (i_vs deep_config))%R /\ (value (column_speed topo) < value (i_vs deep_config))%R /\
  (value (column_speed (middle L topo)) < value (i_vs deep_config))%R /\ (value (column_speed L) < 0)%R.
Proof.
  cbv zeta. destruct column_range as (_ & B & _ & D).
  destruct (neg_value (dec64 (-128125) 1) 7043746365440000 (-39) ltac:(vm_compute; reflexivity) ltac:(vm_compute; reflexivity) ltac:(lia)) as [A C].
  change (2 ^ (- -39)) with 549755813888 in C.
  split; [|split; [rewrite C, D; lra|]].
  - split; [apply iso_runs; vm_compute; reflexivity|]. split; [split; reflexivity|]. split; [split; [reflexivity | discriminate]|].
    split.
    { exists (i2f64 0). split; [apply probe_ok; vm_compute; reflexivity|]. left. exists 1, (widen (i2f32 400)).
      split; [lia|]. split; [vm_compute; reflexivity|]. split; [eapply probe_reads; vm_compute; reflexivity|]. split; [vm_compute; reflexivity|].
      intros j Hj. replace j with 0 by lia. eexists. split; [eapply probe_reads; vm_compute; reflexivity | vm_compute; discriminate]. }
    split.
    { exact (profile_at column_env deep_config column (dec64 (-128125) 1) (dec64 (-125) 1) eq_refl ltac:(lra) ltac:(lra) column_finite). }
    split; [apply finiteb_ok; vm_compute; reflexivity|]. split.
    { split; [exact A|]. split; [exact B|]. rewrite C, D. split; [apply Rabs_def1; lra|]. split; [apply Rabs_def1; lra | lra]. }
    assert (Q : div64 (sub64 (dec64 (-125) 1) (dec64 (-128125) 1)) (i2f64 25) = i2f64 512) by (vm_compute; reflexivity).
    unfold good_log. rewrite Q. split; [lra|]. split.
    + apply (toy_log_pow 9 7023729114186029 (-50)); [lia | vm_compute; reflexivity.. | lia |].
      change (2 ^ (- -50)) with 1125899906842624. pose proof ln2_bounds. apply Rabs_le. lra.
    + apply (toy_log_pow 1 6243314768165359 (-53)); [lia | vm_compute; reflexivity.. | lia |].
      change (2 ^ (- -53)) with 9007199254740992. pose proof ln2_bounds. apply Rabs_le. lra.
  - split; [change 0%R with (value f_zero); apply le_check; vm_compute; reflexivity|].
    split; [apply lt_check; vm_compute; reflexivity|]. split; [apply lt_check; vm_compute; reflexivity|].
    change 0%R with (value f_zero). apply lt_check. vm_compute. reflexivity.
Qed.

(** ** What does not hold *)
Definition iso_only (R : outcome result) : string :=
  match R with Val (mkResult _ _ (Some [s]) _) => s | _ => "" end.
Lemma iso_only_eq R code w s fs : R = Val (mkResult code w (Some [s]) fs) -> iso_only R = s.
Proof. intros ->. reflexivity. Qed.
(** -999 does not mean that the speed is reached nowhere: in the example above it is
    reached 200 m below the surface. *)
Theorem C52_no_data_unreached_refuted : ~ (forall DB (E : env DB) T S g args c d x lon lat topo vs eps junk fs w,
  let L := i_elevMin c in
  iso_squashes c = false -> searching E T S g args c d x lon lat topo L topo vs eps ->
  isoMain E T S g junk args fs = Val (mkResult 0 w (Some [iso_text T lon lat (i2f64 (-999))]) fs) ->
  forall z, between L topo z -> (value (vs z) < value (i_vs c))%R).
Proof.
  intros H. destruct C52_no_data_example as (HS & _).
  specialize (H _ column_env (iso_texts iso_show) (iso_os "x y ") toy (iso_args "column" "-12812.5") deep_config column None
    toy_x toy_y (dec64 (-125) 1) column_speed (/ 256)%R S754_nan (fun _ => None) [Said ("WARNING: No data for #, #, #." ++ NL)] eq_refl HS).
  specialize (H ltac:(vm_compute; reflexivity) (i2f64 (-300))).
  destruct (int_val (-300) ltac:(lia)) as [A B].
  assert (K : between (i_elevMin deep_config) (dec64 (-125) 1) (i2f64 (-300))) by (split; [exact A|]; split; apply le_check; vm_compute; reflexivity).
  apply H in K. revert K. apply Rle_not_lt. apply le_check. vm_compute. reflexivity.
Qed.
Print Assumptions C52_no_data_unreached_refuted.

(** A target that is reached at the surface is not always reported there. *)
Theorem C52_surface_refuted : ~ (forall DB (E : env DB) T S g args c d x lon lat topo vs eps junk fs,
  let L := i_elevMin c in
  iso_squashes c = false -> searching E T S g args c d x lon lat topo L topo vs eps -> (value L + 15 <= value topo)%R ->
  (value (i_vs c) <= value (vs topo))%R ->
  exists w, isoMain E T S g junk args fs = Val (mkResult 0 w (Some [iso_text T lon lat (sub64 topo topo)]) fs)).
Proof.
  intros H. destruct (H _ (halves three 192000) (iso_texts iso_show) (iso_os "x y ") toy (iso_args "halves" "-1600") (iso_config "halves" (i2f64 (-1600)))
    tt None toy_x toy_y f_zero (speed_of three) (/ 256)%R S754_nan (fun _ => None)) as (w & Q).
  - reflexivity.
  - apply halves_searching; [apply three_in | vm_compute; reflexivity].
  - change (i_elevMin _) with (i2f64 (-1600)). rewrite (proj2 (int_val (-1600) ltac:(lia))); change (value f_zero) with 0%R; lra.
  - apply le_check; vm_compute; reflexivity.
  - apply iso_only_eq in Q.
    assert (K : iso_only (isoMain (halves three 192000) (iso_texts iso_show) (iso_os "x y ") toy S754_nan (iso_args "halves" "-1600") (fun _ => None)) =
      " 296908 541696 912"%string) by (vm_compute; reflexivity).
    assert (K' : iso_text (iso_texts iso_show) toy_x toy_y (sub64 f_zero f_zero) = " 296908 541696 0"%string) by (vm_compute; reflexivity).
    rewrite K, K' in Q. discriminate Q.
Qed.
Print Assumptions C52_surface_refuted.

(** With squashing: the surface at -700 m, the speed of 1000 m/s reached 100 m below it. *)
Lemma squash_searching show :
  searching (halves (two (-800)) 191300) (iso_texts show) (iso_os "x y ") toy squash_args squash_config tt None
    toy_x toy_y (i2f64 (-700)) (i2f64 (-1600)) f_zero (fun z => speed_of (two (-800)) (add64 z (i2f64 (-700)))) (/ 256).
Proof.
  destruct (int_val (-1600) ltac:(lia)) as [A B]. destruct (int_val (-700) ltac:(lia)) as [A' B']. assert (C : value f_zero = 0%R) by reflexivity.
  assert (RD : forall z, finite_double z -> (-90000 <= value z <= 5000)%R ->
    reads (halves (two (-800)) 191300) (iso_object squash_config toy (Some tt) None) "Vs" toy_x toy_y z (speed_of (two (-800)) (add64 z (i2f64 (-700))))).
  { intros z Fz Bz. apply reads_squash; try assumption.
    - reflexivity.
    - exact (two_in (-800)).
    - vm_compute. reflexivity.
    - rewrite B'. lra.
    - vm_compute. reflexivity.
    - unfold fgt. destruct (int_val (-100000) ltac:(lia)) as [[V1 F1] B1]. destruct Fz as [V2 F2].
      rewrite (flt_R prec64 emax64) by assumption. apply Raux.Rlt_bool_true.
      change (value (i2f64 (-100000)) < value z)%R. rewrite B1. lra.
    - lra. }
  split; [apply iso_runs; vm_compute; reflexivity|]. split; [split; reflexivity|]. split; [split; [reflexivity | discriminate]|].
  split; [|split; [|split; [|split]]].
  - exists (i2f64 (-700)). split; [apply probe_ok; vm_compute; reflexivity|]. left. eexists 0, _.
    split; [lia|]. split; [vm_compute; reflexivity|]. split; [apply RD; [exact A' | rewrite B'; lra]|]. split.
    + vm_compute. reflexivity.
    + intros j Hj. lia.
  - intros z [Fz Bz]. split; [|apply RD; [exact Fz | lra]]. apply (halves_finite (two (-800)) 191300 (at_elev (add64 z (i2f64 (-700))))), two_in.
  - apply finiteb_ok. vm_compute. reflexivity.
  - split; [exact A|]. split; [split; reflexivity|]. rewrite B, C. rewrite Rabs_R0. split; [apply Rabs_def1; lra | lra].
  - apply iso_logs. vm_compute. reflexivity.
Qed.
Example C52_squashed_example : let vs := fun z => speed_of (two (-800)) (add64 z (i2f64 (-700))) in
  iso_squashes squash_config = true /\ add64 (SFopp (i2f64 (-700))) (i_elevMin squash_config) = i2f64 (-1600) /\
  searching (halves (two (-800)) 191300) (iso_texts iso_show) (iso_os "x y ") toy squash_args squash_config tt None
    toy_x toy_y (i2f64 (-700)) (i2f64 (-1600)) f_zero vs (/ 256) /\
  (value (vs f_zero) < value (i_vs squash_config) <= value (vs (i2f64 (-1600))))%R.
Proof.
  cbv zeta. split; [reflexivity|]. split; [vm_compute; reflexivity|]. split; [apply squash_searching|].
  split; [apply lt_check; vm_compute; reflexivity | apply le_check; vm_compute; reflexivity].
Qed.
(** The number written is not the depth below the surface. *)
Theorem C52_squashed_depth_refuted : ~ (forall DB (E : env DB) T S g args c d x lon lat topo vs eps junk fs,
  let L := add64 (SFopp topo) (i_elevMin c) in
  iso_squashes c = true -> searching E T S g args c d x lon lat topo L f_zero vs eps ->
  (value (vs f_zero) < value (i_vs c) <= value (vs L))%R ->
  exists z w, crossing (resolution eps) vs (i_vs c) L f_zero z /\
    isoMain E T S g junk args fs = Val (mkResult 0 w (Some [iso_text T lon lat (sub64 f_zero z)]) fs)).
Proof.
  intros H. assert (QL : add64 (SFopp (i2f64 (-700))) (i_elevMin squash_config) = i2f64 (-1600)) by (vm_compute; reflexivity).
  destruct (H _ (halves (two (-800)) 191300) (iso_texts iso_sign) (iso_os "x y ") toy squash_args squash_config tt None
    toy_x toy_y (i2f64 (-700)) (fun z => speed_of (two (-800)) (add64 z (i2f64 (-700)))) (/ 256)%R S754_nan (fun _ => None)) as (z & w & (Z & _) & Q).
  - reflexivity.
  - rewrite QL. apply squash_searching.
  - rewrite QL. split; [apply lt_check; vm_compute; reflexivity | apply le_check; vm_compute; reflexivity].
  - apply iso_only_eq in Q.
    assert (K : iso_only (isoMain (halves (two (-800)) 191300) (iso_texts iso_sign) (iso_os "x y ") toy S754_nan squash_args (fun _ => None)) =
      " + + -"%string) by (vm_compute; reflexivity).
    rewrite K in Q.
    assert (P : iso_sign (sub64 f_zero z) = "+"%string).
    { destruct Z as [[V F] [_ Z]]. change (value f_zero) with 0%R in Z. destruct z as [s|s| |[|] m e]; try discriminate F.
      - destruct s; reflexivity.
      - reflexivity.
      - exfalso. revert Z. apply Rlt_not_le. unfold value, BinarySingleNaN.SF2R. apply Float_prop.F2R_gt_0. reflexivity. }
    assert (K' : iso_text (iso_texts iso_sign) toy_x toy_y (sub64 f_zero z) = (" + +" ++ " " ++ iso_sign (sub64 f_zero z))%string).
    { unfold iso_text. cbn [iso_texts t_fixed]. replace (iso_sign toy_x) with "+"%string by (vm_compute; reflexivity).
      replace (iso_sign toy_y) with "+"%string by (vm_compute; reflexivity). reflexivity. }
    rewrite K', P in Q. discriminate Q.
Qed.
Print Assumptions C52_squashed_depth_refuted.

(** ** Examples for C53 *)
(** A library whose speeds depend on the place: they reach 1000 m/s only in the west. *)
Definition mixed : env unit :=
  mkEnv (fun n _ => if String.eqb n "halves" then Some tt else None) (fun _ => true)
    (fun _ a => Some (mkAddr 0 0 0 0 0 Leaf, pay 5000 (if a_x a <? 2 ^ 30 then two (-500) (a_z a) else 500) 2000 (i2f32 192000) 5 2))
    (fun n => negb (String.eqb n "")) (fun _ => "#"%string) (fun _ => "#"%string) (fun _ => "octant"%string).
Lemma many_lists show text ls (ws : list string) : forallb (fun w => negb (String.eqb w "") && forallb (fun c => negb (existsb (Nat.eqb (nat_of_ascii c)) [9; 10; 11; 12; 13; 32]%nat)) (list_ascii_of_string w)) ws = true ->
  text = fold_right (fun w t => (w ++ " " ++ t)%string) ""%string ws -> points (t_num (iso_texts show)) ws ls ->
  lists_points (t_num (iso_texts show)) text ls.
Proof.
  intros HW -> HP. exists ws, [], (fold_right (fun w t => (w ++ " " ++ t)%string) ""%string ws), ""%string.
  split; [rewrite append_nil_r; reflexivity|]. rewrite app_nil_r. split; [|split; [left; reflexivity | split; [exact HP|]]].
  - clear HP. induction ws as [|w ws IH]; [constructor; intros c []|]. cbn [forallb] in HW. apply andb_true_iff in HW. destruct HW as [H1 H2].
    apply (laid_word "" w " " (fold_right (fun w t => (w ++ " " ++ t)%string) ""%string ws) ws); [intros c [] | apply word_ok, H1 | cbv; tauto | apply IH, H2].
  - intros a b r lo la Q. discriminate.
Qed.
Definition px : point := (toy_x, toy_y).
Definition py : point := (toy_y, toy_x).
Lemma many_running show args c (ws : list string) ls : isoArgs (iso_texts show) args = inr c -> i_in c = "in"%string -> i_out c = "out"%string ->
  forallb (fun w => negb (String.eqb w "") && forallb (fun c => negb (existsb (Nat.eqb (nat_of_ascii c)) [9; 10; 11; 12; 13; 32]%nat)) (list_ascii_of_string w)) ws = true ->
  points (t_num (iso_texts show)) ws ls ->
  iso_running (iso_texts show) (iso_os (fold_right (fun w t => (w ++ " " ++ t)%string) ""%string ws)) args c ls.
Proof.
  intros A I O HW HP. split; [exact A|]. rewrite I, O. split; [|split; reflexivity].
  eexists. split; [reflexivity|]. apply (many_lists show _ ls ws HW eq_refl HP).
Qed.
Lemma alone_check {DB} (E : env DB) show S args fs c ws l R : i_in c = "in"%string ->
  forallb (fun w => negb (String.eqb w "") && forallb (fun c => negb (existsb (Nat.eqb (nat_of_ascii c)) [9; 10; 11; 12; 13; 32]%nat)) (list_ascii_of_string w)) ws = true ->
  points (t_num (iso_texts show)) ws [l] ->
  isoMain E (iso_texts show) (with_input S "in" (fold_right (fun w t => (w ++ " " ++ t)%string) ""%string ws)) toy S754_nan args fs = R ->
  ends_alone E (iso_texts show) S toy args fs c l R.
Proof.
  intros I HW HP H. eexists. exists S754_nan. rewrite I. split; [|exact H]. apply (many_lists show _ _ ws HW eq_refl HP).
Qed.
Definition no_data_msg : said := Said ("WARNING: No data for #, #, #." ++ NL).
Ltac points_tac := repeat (apply points_cons; [reflexivity | reflexivity|]); apply points_nil.
(** Two points in the column and one where there is nothing. *)
Definition many_os := iso_os "x y y x x y ".
Example C53_all_lines_example : let ys := [([no_data_msg], " 296908 541696 200"%string); ([no_data_msg], " 541696 296908 -999"%string); ([no_data_msg], " 296908 541696 200"%string)] in
  iso_running (iso_texts iso_show) many_os (iso_args "column" "-1612.5") column_config [px; py; px] /\
  Forall2 (fun l y => ends_alone column_env (iso_texts iso_show) many_os toy (iso_args "column" "-1612.5") (fun _ => None) column_config l
    (Val (mkResult 0 (fst y) (Some [snd y]) (fun _ => None)))) [px; py; px] ys /\
  iso_seen (isoMain column_env (iso_texts iso_show) many_os toy S754_nan (iso_args "column" "-1612.5") (fun _ => None)) =
  Some (0, concat (map fst ys), Some (map snd ys)).
Proof.
  cbv zeta. split; [|split; [|vm_compute; reflexivity]].
  - apply (many_running iso_show _ _ ["x"; "y"; "y"; "x"; "x"; "y"]%string); [vm_compute; reflexivity.. |]. points_tac.
  - assert (X : ends_alone column_env (iso_texts iso_show) many_os toy (iso_args "column" "-1612.5") (fun _ => None) column_config px
      (Val (mkResult 0 [no_data_msg] (Some [" 296908 541696 200"%string]) (fun _ => None)))).
    { apply (alone_check _ _ _ _ _ _ ["x"; "y"]%string); [reflexivity | vm_compute; reflexivity | points_tac | vm_compute; reflexivity]. }
    assert (Y : ends_alone column_env (iso_texts iso_show) many_os toy (iso_args "column" "-1612.5") (fun _ => None) column_config py
      (Val (mkResult 0 [no_data_msg] (Some [" 541696 296908 -999"%string]) (fun _ => None)))).
    { apply (alone_check _ _ _ _ _ _ ["y"; "x"]%string); [reflexivity | vm_compute; reflexivity | points_tac | vm_compute; reflexivity]. }
    repeat (apply Forall2_cons; [assumption|]). apply Forall2_nil.
Qed.
(** The same, when the storage library cannot close the file. *)
Definition stuck_env : env contents :=
  mkEnv (e_open column_env) (fun _ => false) (e_search column_env) (e_writable column_env) (e_sci column_env) (e_gen column_env) (e_straddr column_env).
Definition stuck_msg : said := Said "Could not close the etree database 'column'.".
Example C53_not_closed_example :
  Forall2 (fun l y => ends_alone stuck_env (iso_texts iso_show) many_os toy (iso_args "column" "-1612.5") (fun _ => None) column_config l
    (Val (mkResult 1 (fst y ++ [stuck_msg])%list (Some [snd y]) (fun _ => None)))) [px; py]
    [([no_data_msg], " 296908 541696 200"%string); ([no_data_msg], " 541696 296908 -999"%string)].
Proof.
  apply Forall2_cons; [|apply Forall2_cons; [|apply Forall2_nil]].
  - apply (alone_check _ _ _ _ _ _ ["x"; "y"]%string); [reflexivity | vm_compute; reflexivity | points_tac | vm_compute; reflexivity].
  - apply (alone_check _ _ _ _ _ _ ["y"; "x"]%string); [reflexivity | vm_compute; reflexivity | points_tac | vm_compute; reflexivity].
Qed.
(** The speed is not reached at the second of three points. *)
Definition mixed_config := iso_config "halves" (i2f64 (-1600)).
Definition mixed_msg : said := Said ("Invalid search range!" ++ NL ++ "Target vs: #" ++ NL ++ "Location: (#, #)" ++ NL ++
  "Upper Vs(z=#): #" ++ NL ++ "Lower Vs(z=#): #" ++ NL ++ "Middle Vs(z=#): #" ++ NL).
Example C53_first_stop_example :
  iso_running (iso_texts iso_show) many_os (iso_args "halves" "-1600") mixed_config ([px] ++ py :: [px]) /\
  Forall2 (fun l y => ends_alone mixed (iso_texts iso_show) many_os toy (iso_args "halves" "-1600") (fun _ => None) mixed_config l
    (Val (mkResult 0 (fst y) (Some [snd y]) (fun _ => None)))) [px] [([], " 296908 541696 512"%string)] /\
  ends_alone mixed (iso_texts iso_show) many_os toy (iso_args "halves" "-1600") (fun _ => None) mixed_config py
    (Val (mkResult 1 [mixed_msg] (Some []) (fun _ => None))) /\
  iso_seen (isoMain mixed (iso_texts iso_show) many_os toy S754_nan (iso_args "halves" "-1600") (fun _ => None)) =
  Some (1, [mixed_msg], Some [" 296908 541696 512"%string]).
Proof.
  split; [|split; [|split; [|vm_compute; reflexivity]]].
  - apply (many_running iso_show _ _ ["x"; "y"; "y"; "x"; "x"; "y"]%string); [vm_compute; reflexivity.. |]. cbn [app]. points_tac.
  - apply Forall2_cons; [|apply Forall2_nil].
    apply (alone_check _ _ _ _ _ _ ["x"; "y"]%string); [reflexivity | vm_compute; reflexivity | points_tac | vm_compute; reflexivity].
  - apply (alone_check _ _ _ _ _ _ ["y"; "x"]%string); [reflexivity | vm_compute; reflexivity | points_tac | vm_compute; reflexivity].
Qed.
(** A point outside the range of the projection. *)
Definition far_os := iso_os "x y far y x y ".
Definition pfar : point := (i2f64 (2 ^ 40), toy_y).
Example C53_first_crash_example :
  iso_running (iso_texts iso_show) far_os (iso_args "column" "-1612.5") column_config ([px] ++ pfar :: [px]) /\
  Forall2 (fun l y => ends_alone column_env (iso_texts iso_show) far_os toy (iso_args "column" "-1612.5") (fun _ => None) column_config l
    (Val (mkResult 0 (fst y) (Some [snd y]) (fun _ => None)))) [px] [([no_data_msg], " 296908 541696 200"%string)] /\
  ends_alone column_env (iso_texts iso_show) far_os toy (iso_args "column" "-1612.5") (fun _ => None) column_config pfar (UB "uninitialised payload read").
Proof.
  split; [|split].
  - apply (many_running iso_show _ _ ["x"; "y"; "far"; "y"; "x"; "y"]%string); [vm_compute; reflexivity.. |]. cbn [app]. points_tac.
  - apply Forall2_cons; [|apply Forall2_nil].
    apply (alone_check _ _ _ _ _ _ ["x"; "y"]%string); [reflexivity | vm_compute; reflexivity | points_tac | vm_compute; reflexivity].
  - apply (alone_check _ _ _ _ _ _ ["far"; "y"]%string); [reflexivity | vm_compute; reflexivity | points_tac | vm_compute; reflexivity].
Qed.
Example C53_failed_open_example :
  iso_running (iso_texts iso_show) many_os (iso_args "missing" "-1600") (iso_config "missing" (i2f64 (-1600))) [px; py; px] /\
  (forall d x, ~ iso_opens column_env (iso_config "missing" (i2f64 (-1600))) d x) /\
  isoMain column_env (iso_texts iso_show) many_os toy S754_nan (iso_args "missing" "-1600") (fun _ => None) = Abort.
Proof.
  split; [|split; [|vm_compute; reflexivity]].
  - apply (many_running iso_show _ _ ["x"; "y"; "y"; "x"; "x"; "y"]%string); [vm_compute; reflexivity.. |]. points_tac.
  - intros d x [O _]. discriminate O.
Qed.
Example C53_options_example : let kvs := [("i"%char, "elsewhere"%string); ("o"%char, "out"%string); ("v"%char, "1000"%string); ("s"%char, "-100000"%string); ("d"%char, "halves"%string); ("z"%char, "-2300"%string); ("i"%char, "in"%string)] in
  Forall (fun kv => iso_letter (fst kv)) kvs /\ iso_complete (iso_asked (iso_texts iso_show) kvs) /\ iso_asked (iso_texts iso_show) kvs = squash_config.
Proof.
  cbv zeta. split; [|split; [|vm_compute; reflexivity]].
  - unfold iso_letter. repeat (apply Forall_cons; [cbn [fst In]; repeat (first [left; reflexivity | right])|]). apply Forall_nil.
  - split; [vm_compute; reflexivity|]. split; [vm_compute; discriminate|]. split; vm_compute; discriminate.
Qed.
