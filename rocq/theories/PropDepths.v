(** C75: the depths written by the isosurface application. *)
From Coq Require Import ZArith Bool Reals Lra Lia String Ascii List.
From Verif Require Import Outcome Float Payload Addr SpecOct SpecGeom FloatFacts Geom GeomFacts GeomLevel GeomRot ErrorHandler VMQuery SpecQuery SpecHist
  Stream GetOpt QueryApp IsoApp SpecText StreamFacts SpecApp AppFacts AppMain SpecIso IsoNum IsoFacts PropIso SpecInfo SpecReport SpecColumns PropColumns SpecDepths.
Import ListNotations.
Open Scope Z_scope.

Lemma depth_close topo z : finite_double topo -> finite_double z -> (Rabs (value topo) < 1000000)%R -> (Rabs (value z) < 1000000)%R ->
  finite_double (sub64 topo z) /\ (Rabs (value (sub64 topo z) - (value topo - value z)) <= 1 / 1000000)%R.
Proof.
  intros [VT FT] [VZ FZ] BT BZ. assert (B : (Rabs (value topo - value z) < 2000000)%R).
  { unfold Rminus. eapply Rle_lt_trans; [apply Rabs_triang|]. rewrite Rabs_Ropp. lra. }
  destruct (sub_approx topo z VT VZ FT FZ) as (V & F & Q).
  { change (Rabs (value topo - value z) < 1000000000000)%R. lra. }
  split; [split; assumption|]. change (value (sub64 topo z)) with (fval (sub64 topo z)). rewrite Q.
  pose proof (rnd_err (fval topo - fval z)) as R. change (fval topo) with (value topo) in *. change (fval z) with (value z) in *.
  eapply Rle_trans; [exact R|]. unfold u53, tiny. lra.
Qed.

(** A point of the file can be written in a file of its own. *)
Lemma laid_words ws t : laid_out ws t -> Forall word ws.
Proof. induction 1; constructor; assumption. Qed.
Lemma points_words F ws ls : points F ws ls -> Forall word ws -> forall l, In l ls ->
  exists a b, word a /\ word b /\ numeral F a (fst l) /\ numeral F b (snd l).
Proof.
  induction 1 as [|a b lon lat ws ls A B P IH]; intros W l I; [contradiction|].
  inversion W as [|? ? W1 W']; subst. inversion W' as [|? ? W2 W3]; subst. destruct I as [<-|I].
  - exists a, b. auto.
  - exact (IH W3 l I).
Qed.
Lemma point_alone F text ls l : lists_points F text ls -> In l ls -> exists text', lists_points F text' [l].
Proof.
  intros (ws & rest & t & e & _ & L & _ & P & _) I. apply laid_words in L. apply Forall_app in L. destruct L as [W _].
  destruct (points_words F ws ls P W l I) as (a & b & WA & WB & NA & NB). destruct l as [lon lat]. cbn [fst snd] in *.
  exists ("" ++ a ++ String " " ("" ++ b ++ String " " ""))%string, [a; b], [], ("" ++ a ++ String " " ("" ++ b ++ String " " ""))%string, ""%string.
  split; [symmetry; apply append_nil_r|]. split.
  - assert (BL : blank " "%char) by (unfold blank; cbn; tauto). cbn [List.app].
    apply laid_word; [intros c [] | exact WA | exact BL|]. apply laid_word; [intros c [] | exact WB | exact BL|]. apply laid_blank. intros c [].
  - split; [left; reflexivity|]. split; [apply points_cons; [exact NA | exact NB | apply points_nil]|]. intros x y r lo la Q. discriminate Q.
Qed.

Section Line.
Variable T : texts.
Hypothesis HT : prints T.
Lemma iso_columns lon lat dist : finite_double lon -> from_to 5 (-999999) 9999999 lat -> from_to 1 (-999999) 9999999 dist ->
  exists w1 w2 w3, shows 5 lon w1 /\ shows 5 lat w2 /\ shows 1 dist w3 /\ laid_out [w1; w2; w3] (iso_text T lon lat dist ++ newline).
Proof.
  intros F1 F2 F3. unfold iso_text. rewrite !app_assoc_s.
  assert (A : after_blank [] newline).
  { exists "010"%char, ""%string. split; [reflexivity|]. split; [unfold blank; cbn; tauto|apply laid_blank; intros c []]. }
  destruct (fixed_next T HT 1 9 _ 6 _ _ _ _ ltac:(lia) ltac:(cbn; lia) F3 ltac:(cbn; lia) ltac:(cbn; lia) ltac:(cbn; lia) A) as (w3 & S3 & A3).
  destruct (fixed_next T HT 5 9 _ 6 _ _ _ _ ltac:(lia) ltac:(cbn; lia) F2 ltac:(cbn; lia) ltac:(cbn; lia) ltac:(cbn; lia) A3) as (w2 & S2 & A2).
  destruct (proj1 HT 5 10 lon ltac:(lia) F1) as (w1 & S1 & ->).
  exists w1, w2, w3. split; [exact S1|]. split; [exact S2|]. split; [exact S3|].
  apply column_first; [|exact A2]. destruct S1 as (n & SG & _). exact (signed_word _ _ _ (point_word _) SG).
Qed.
End Line.

(** The file with the locations lists any number of points; the output file tells for each,
    in the same order, the depth at which the target is reached, to within the resolution
    of the search and 0.1 m. *)
Theorem C75_depths : forall DB (E : env DB) T S g args c d x eps ls tops junk fs,
  iso_running T S args c ls -> ls <> [] -> iso_squashes c = false -> iso_opens E c d x -> closes E d x -> finite_double (i_vs c) -> prints T ->
  Forall2 (fun l p => layered E g c (iso_object c g (Some d) x) eps l (fst p) (snd p)) ls tops ->
  exists said lines wss, isoMain E T S g junk args fs = Val (mkResult 0 said (Some lines) fs) /\
    Forall2 (fun lp ws => depth_told c eps (fst lp) (fst (snd lp)) (snd (snd lp)) ws) (combine ls tops) wss /\
    Forall2 (fun ws line => laid_out ws (line ++ newline)) wss lines /\ laid_out (concat wss) (as_lines lines).
Proof.
  intros DB E T S g args c d x eps ls tops junk fs R NE NS OP CL FV PT LA.
  assert (H : exists ys, Forall2 (fun l y => ends_alone E T S g args fs c l (Val (mkResult 0 (fst y) (Some [snd y]) fs))) ls ys /\
    exists wss, Forall2 (fun lp ws => depth_told c eps (fst lp) (fst (snd lp)) (snd (snd lp)) ws) (combine ls tops) wss /\
    Forall2 (fun ws line => laid_out ws (line ++ newline)) wss (map snd ys) /\ laid_out (concat wss) (as_lines (map snd ys))).
  { destruct R as (HA & (text & HR & HL) & HC & HW). clear NE.
    assert (AL : forall l, In l ls -> exists text', lists_points (t_num T) text' [l]) by (intros l I; exact (point_alone _ _ _ _ HL I)). clear HL HR text.
    induction LA as [|[lon lat] [topo vs] ls tops LY LS IH].
    - exists []. split; [constructor|]. exists []. split; [constructor|]. split; [constructor|]. apply laid_blank. intros k [].
    - destruct IH as (ys & Y & wss & W1 & W2 & W3); [intros l I; apply AL; right; exact I|].
      destruct (AL (lon, lat)) as [text' L1]; [left; reflexivity|]. cbn [fst snd] in LY.
      destruct LY as (SU & PR & SR & GL & DE & BR & DP & F1 & F2).
      destruct (C52_layered DB E T (with_input S (i_in c) text') g args c d x lon lat topo vs eps junk fs NS) as (z & w & Z & _ & Q & Q1 & Q2); [|exact DE|exact BR|].
      { split; [|repeat (split; [assumption|]); assumption]. split; [exact HA|]. split; [|split; assumption].
        exists text'. split; [cbn [with_input o_read]; rewrite String.eqb_refl; reflexivity | exact L1]. }
      destruct SR as (FL & FT & BL & BT & SR). destruct Z as [FZ BZ].
      assert (BZ' : (Rabs (value z) < 1000000)%R). { unfold Rabs in *. destruct (Rcase_abs (value z)), (Rcase_abs (value topo)), (Rcase_abs (value (i_elevMin c))); lra. }
      destruct (depth_close topo z FT FZ BT BZ') as [FD CD].
      assert (CD' : (- (1 / 1000000) <= value (sub64 topo z) - (value topo - value z) <= 1 / 1000000)%R) by (unfold Rabs in CD; destruct (Rcase_abs _); lra).
      destruct (iso_columns T PT lon lat (sub64 topo z) F1 F2) as (w1 & w2 & w3 & S1 & S2 & S3 & LO).
      { split; [exact FD|]. cbn [pow]. lra. }
      exists ((w, iso_text T lon lat (sub64 topo z)) :: ys). split.
      + apply Forall2_cons; [|exact Y]. exists text', junk. split; [exact L1 | exact Q].
      + exists ([w1; w2; w3] :: wss). split; [|split].
        * apply Forall2_cons; [|exact W1]. destruct S3 as (n & SG & RN). exists w1, w2, w3, n. split; [reflexivity|]. split; [exact S1|].
          split; [exact S2|]. split; [exact SG|]. cbn [fst snd]. cbn [pow] in RN.
          assert (RN' : (- (1 / 2) <= value (sub64 topo z) * 10 - IZR n <= 1 / 2)%R) by (unfold Rabs in RN; destruct (Rcase_abs _); lra).
          split; intros a Ha D; [apply Q1 | apply Q2]; try exact Ha; lra.
        * apply Forall2_cons; [exact LO | exact W2].
        * cbn [map concat as_lines fst snd]. rewrite <- app_assoc_s. apply laid_append; assumption. }
  destruct H as (ys & Y & wss & W). exists (concat (map fst ys)), (map snd ys), wss.
  split; [exact (C53_all_lines DB E T S g args c fs junk ls ys R NE Y) | exact W].
Qed.
Print Assumptions C75_depths.

(** ** Example *)
(** The halfspaces of PropIso.v, at a point given in degrees; the file lists it twice. *)
From Verif Require Import ToyLib ToyDb ToyIso PropApp.
Open Scope string_scope. Open Scope Z_scope.
Definition depth_num (w : string) : f64 * bool := if String.eqb w "-1600" then (i2f64 (-1600), true) else if String.eqb w "1000" then (i2f64 1000, true) else earth_num w.
Definition depth_texts : texts :=
  column_texts (mkTexts (mkFmt depth_num depth_num (fun _ => (0, false)) (fun _ => (0, false)) app_show)
    (fun s => if String.eqb s "64" then 64 else 0) (fun s => fst (depth_num s)) (t_fixed app_texts) (t_int app_texts)).
Definition depth_text : string := "-122.5 37.75" ++ NL ++ "  -122.5 37.75" ++ NL.
Definition depth_config : isoconf := iso_config "halves" (i2f64 (-1600)).
Definition depth_env := halves (two (-500)) 192000.
Lemma earth_address a z : lonLatElevToAddr earth a earth_lon earth_lat z = lonLatElevToAddr toy a toy_x toy_y z.
Proof.
  unfold lonLatElevToAddr, project. replace (m_project earth earth_lon earth_lat) with (Some (toy_x, toy_y)) by (vm_compute; reflexivity).
  replace (m_project toy toy_x toy_y) with (Some (toy_x, toy_y)) by (vm_compute; reflexivity). reflexivity.
Qed.
Lemma earth_reads z : finite_double z -> (-300000 <= value z <= 12000)%R ->
  reads depth_env (iso_object depth_config earth (Some tt) None) "Vs" earth_lon earth_lat z (speed_of (two (-500)) z).
Proof.
  intros Fz B. destruct (at_elev_ok z Fz B) as [A _]. rewrite <- earth_address in A.
  set (q := only 1 (iso_object depth_config earth (Some tt) None)).
  assert (K : exists q' fs', query depth_env q (fun _ => None) (Some [f_zero]) earth_lon earth_lat z = Val (q', fs', [speed_of (two (-500)) z])).
  { unfold query, q. cbn [only q_vals List.length Nat.eqb assert_ bind].
    unfold query_body. cbn [only iso_object q_squash q_limit q_err q_db q_dbExt q_vals q_geom q_type].
    change (iso_squashes depth_config) with false. cbn [andb bind]. unfold queryFn.
    change (q_type (only 1 (iso_object depth_config earth (Some tt) None))) with MAXRES. cbv iota.
    unfold queryMax. cbn [need_db bind]. unfold query_addr, MAXLEVEL. change (q_geom (only 1 (iso_object depth_config earth (Some tt) None))) with earth.
    rewrite A. cbn [bind Z.eqb negb]. unfold depth_env, halves. cbn [e_search a_type otype_eqb bind]. eexists; eexists; reflexivity. }
  destruct K as (q' & fs' & K). exists q, (fun _ => None), f_zero, q', fs'. split; [apply set_vs | exact K].
Qed.
Lemma depth_layered : layered depth_env earth depth_config (iso_object depth_config earth (Some tt) None) (/ 256) (earth_lon, earth_lat) f_zero (speed_of (two (-500))).
Proof.
  destruct (int_val (-1600) ltac:(lia)) as [A B]. assert (C : value f_zero = 0%R) by reflexivity.
  unfold layered. change (i_elevMin depth_config) with (i2f64 (-1600)). split; [|split; [|split; [|split; [|split; [|split; [|split; [|split]]]]]]].
  - exists f_zero. split.
    + assert (K : match query depth_env (only 8 (iso_object depth_config earth (Some tt) None)) (fun _ => None) (Some [f_zero]) earth_lon earth_lat (i2f64 (-5000)) with
        | Val (q', _, [v]) => SFeqb v f_zero && match v with S754_zero false => true | _ => false end && negb (status_code (eh_status (q_err q')) =? 2) | _ => false end = true)
        by (vm_compute; reflexivity).
      destruct (query depth_env (only 8 (iso_object depth_config earth (Some tt) None)) (fun _ => None) (Some [f_zero]) earth_lon earth_lat (i2f64 (-5000)))
        as [[[q' fs'] [|v [|]]]| | |] eqn:Q; try discriminate K.
      apply andb_prop in K. destruct K as [K1 K2]. apply andb_prop in K1. destruct K1 as [_ K1].
      assert (V : v = f_zero) by (destruct v as [[|]| | |]; try discriminate K1; reflexivity). rewrite V in Q.
      exists (only 8 (iso_object depth_config earth (Some tt) None)), (fun _ => None), f_zero, q', fs'. split; [apply set_elevation|].
      split; [exact Q|]. intros X. rewrite X in K2. discriminate K2.
    + left. exists 0, (speed_of (two (-500)) f_zero). split; [lia|]. split; [vm_compute; reflexivity|]. split; [|split].
      * apply earth_reads; [split; reflexivity | lra].
      * vm_compute. reflexivity.
      * intros j Hj. lia.
  - intros z [Fz Bz]. split; [|apply earth_reads; [exact Fz | lra]].
    apply finiteb_ok. unfold speed_of. destruct (two_in (-500) (a_z (at_elev z))) as [<-|[<-|[<-|[]]]]; vm_compute; reflexivity.
  - split; [exact A|]. split; [split; reflexivity|]. rewrite B, C. rewrite Rabs_R0. split; [apply Rabs_def1; lra | lra].
  - apply iso_logs. vm_compute. reflexivity.
  - apply two_decreasing; lra.
  - split; [apply lt_check; vm_compute; reflexivity | apply le_check; vm_compute; reflexivity].
  - lra.
  - split; vm_compute; reflexivity.
  - apply between_check. vm_compute. reflexivity.
Qed.
Lemma depth_running : iso_running depth_texts (iso_os depth_text) (iso_args "halves" "-1600") depth_config [(earth_lon, earth_lat); (earth_lon, earth_lat)].
Proof.
  split; [vm_compute; reflexivity|]. split; [|split; [reflexivity | intros l; reflexivity]]. exists depth_text. split; [reflexivity|].
  exists (words_of "" depth_text), [], depth_text, "". split; [symmetry; apply append_nil_r|]. split; [rewrite app_nil_r; apply (words_check depth_text ""); [intros c [] | vm_compute; reflexivity]|].
  split; [left; reflexivity|]. split; [|intros a b r lo la Q; discriminate Q].
  change (points (t_num depth_texts) ["-122.5"; "37.75"; "-122.5"; "37.75"] [(earth_lon, earth_lat); (earth_lon, earth_lat)]).
  repeat (apply points_cons; [reflexivity | reflexivity|]). apply points_nil.
Qed.
Example C75_example : exists said lines wss,
  isoMain depth_env depth_texts (iso_os depth_text) earth S754_nan (iso_args "halves" "-1600") (fun _ => None) = Val (mkResult 0 said (Some lines) (fun _ => None)) /\
  Forall2 (fun ws line => laid_out ws (line ++ newline)) wss lines /\
  Forall (depth_told depth_config (/ 256) (earth_lon, earth_lat) f_zero (speed_of (two (-500)))) wss.
Proof.
  destruct (C75_depths unit depth_env depth_texts (iso_os depth_text) earth (iso_args "halves" "-1600") depth_config tt None (/ 256)%R
    [(earth_lon, earth_lat); (earth_lon, earth_lat)] [(f_zero, speed_of (two (-500))); (f_zero, speed_of (two (-500)))] S754_nan (fun _ => None))
    as (said & lines & wss & M & W & L & _).
  - exact depth_running.
  - discriminate.
  - reflexivity.
  - split; reflexivity.
  - split; [reflexivity | discriminate].
  - apply finiteb_ok. vm_compute. reflexivity.
  - apply column_prints.
  - repeat (apply Forall2_cons; [exact depth_layered|]). apply Forall2_nil.
  - exists said, lines, wss. split; [exact M|]. split; [exact L|]. cbn [combine] in W.
    inversion W as [|? w1 ? ws1 W1 W']; subst. inversion W' as [|? w2 ? ws2 W2 W'']; subst. inversion W''; subst.
    repeat (apply Forall_cons; [assumption|]). apply Forall_nil.
Qed.
(** The lines: the speed reaches 1000 m/s at 500 m; the search ends 12.5 m deeper. *)
Example C75_example_lines :
  iso_seen (isoMain depth_env depth_texts (iso_os depth_text) earth S754_nan (iso_args "halves" "-1600") (fun _ => None)) =
  Some (0, [], Some ["-122.50000 37.75000    512.5"; "-122.50000 37.75000    512.5"]).
Proof. vm_compute. reflexivity. Qed.
