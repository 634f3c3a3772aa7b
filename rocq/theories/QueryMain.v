(** The main facts about queries, assembled. *)
From Coq Require Import ZArith Bool Reals Lra Lia String List.
From Verif Require Import Outcome Float Payload Addr SpecOct SpecGeom Geom GeomProof ErrorHandler VMQuery SpecQuery SpecHist
  QueryFacts QueryProof QuerySurface QueryHist QueryIndep.
Import ListNotations.
Open Scope Z_scope.

Definition newline : string := String (Ascii.ascii_of_nat 10) EmptyString.
(** The values returned for a list of names. *)
Definition values (ans : payload) (surface : f64) (names : list vname) : list f64 :=
  map (fun n => stored_value n ans surface) names.

(** ** Answers are unique *)
Lemma finest_or_nothing db l w h v : finest db l w h v -> nothing db l w -> False.
Proof. intros (I & H & L & _) N. specialize (N h v I H). lia. Qed.

Lemma max_unique db w a b : db_ok db -> max_answer db w a -> max_answer db w b -> a = b.
Proof.
  intros HO [(h & v & F & ->)|[N ->]] [(h' & v' & F' & ->)|[N' ->]].
  - pose proof (finest_unique _ _ _ _ _ _ _ HO F F') as Q. injection Q as <- <-. reflexivity.
  - exfalso. eapply finest_or_nothing; eassumption.
  - exfalso. eapply finest_or_nothing; eassumption.
  - reflexivity.
Qed.
Lemma fixed_unique db l w a b : db_ok db -> fixed_answer db l w a -> fixed_answer db l w b -> a = b.
Proof.
  intros HO [(h & v & F & ->)|[N ->]] [(h' & v' & F' & ->)|[N' ->]].
  - pose proof (finest_unique _ _ _ _ _ _ _ HO F F') as Q. injection Q as <- <-. reflexivity.
  - exfalso. eapply finest_or_nothing; eassumption.
  - exfalso. eapply finest_or_nothing; eassumption.
  - reflexivity.
Qed.
Lemma climbs_unique db t w prev h v r : db_ok db -> climbs db t w prev h v r ->
  forall r', climbs db t w prev h v r' -> r = r'.
Proof.
  intros HO H. induction H as [prev h v N|prev h v h' v' r T F C IH|prev h v T N]; intros r' H'; inversion H'; subst; try contradiction; try reflexivity.
  - match goal with G : finest db _ w ?a ?b |- _ => pose proof (finest_unique _ _ _ _ _ _ _ HO F G) as Q end.
    injection Q as <- <-. apply IH. assumption.
  - exfalso. eapply finest_or_nothing; eassumption.
  - exfalso. eapply finest_or_nothing; eassumption.
Qed.
Lemma wave_unique db t w a b o p : db_ok db -> wave_answer db t w a o -> wave_answer db t w b p -> a = b /\ o = p.
Proof.
  intros HO [(h & v & F & A)|(N & -> & ->)] [(h' & v' & F' & B)|(N' & -> & ->)].
  - pose proof (finest_unique _ _ _ _ _ _ _ HO F F') as Q. injection Q as <- <-.
    destruct A as [(T & -> & ->)|(T & A)]; destruct B as [(T' & -> & ->)|(T' & B)]; try contradiction; [auto|].
    destruct A as [(x & y & C & -> & ->)|(c & C & -> & ->)]; destruct B as [(x' & y' & C' & -> & ->)|(c' & C' & -> & ->)];
      pose proof (climbs_unique _ _ _ _ _ _ _ HO C _ C') as Q; try discriminate; injection Q; intros; subst; auto.
  - exfalso. eapply finest_or_nothing; eassumption.
  - exfalso. eapply finest_or_nothing; eassumption.
  - auto.
Qed.
Lemma answer_unique r db w a b o p : db_ok db -> answer r db w a o -> answer r db w b p -> a = b /\ o = p.
Proof.
  intros HO. destruct r; cbn [answer].
  - intros [A ->] [B ->]. split; [eapply max_unique; eassumption | reflexivity].
  - intros [A ->] [B ->]. split; [eapply fixed_unique; eassumption | reflexivity].
  - apply wave_unique, HO.
Qed.
Lemma combined_unique r db ext w a b o1 o2 p1 p2 : db_ok db -> (forall dbx, ext = Some dbx -> db_ok dbx) ->
  combined r db ext w a o1 o2 -> combined r db ext w b p1 p2 -> a = b /\ o1 = p1 /\ o2 = p2.
Proof.
  intros HO HX (f & A & X) (g & B & Y). destruct (answer_unique _ _ _ _ _ _ _ HO A B) as [<- <-].
  destruct ext as [dbx|].
  - destruct X as [X1 X2], Y as [Y1 Y2]. destruct (Z.eq_dec (p_block f) 0) as [Z|Z].
    + destruct (answer_unique _ _ _ _ _ _ _ (HX dbx eq_refl) (X1 Z) (Y1 Z)) as [-> ->]. auto.
    + destruct (X2 Z) as [-> ->]. destruct (Y2 Z) as [-> ->]. auto.
  - destruct X as [-> ->], Y as [-> ->]. auto.
Qed.

(** A database that holds nothing at the location has no data for it. *)
Lemma answer_nothing r db w ans o : (match r with AtLevel l => l <= 31 | _ => True end) ->
  nothing db 31 w -> answer r db w ans o -> ans = no_data /\ o = None.
Proof.
  intros HL N. destruct r as [|l|t]; cbn [answer].
  - intros [[(h & v & F & _)|[_ ->]] ->]; [exfalso; eapply finest_or_nothing; eassumption | auto].
  - intros [[(h & v & F & _)|[_ ->]] ->]; [|auto]. exfalso. destruct F as (I & H & L & _).
    specialize (N h v I H). lia.
  - intros [(h & v & F & _)|(_ & -> & ->)]; [exfalso; eapply finest_or_nothing; eassumption | auto].
Qed.
Lemma combined_nothing r db ext w ans o1 o2 : (match r with AtLevel l => l <= 31 | _ => True end) ->
  nothing db 31 w -> (forall dbx, ext = Some dbx -> nothing dbx 31 w) ->
  combined r db ext w ans o1 o2 -> ans = no_data /\ o1 = None /\ o2 = None.
Proof.
  intros HL N NX (f & A & X). destruct (answer_nothing r db w f o1 HL N A) as [-> ->].
  destruct ext as [dbx|].
  - destruct X as [X _]. destruct (answer_nothing r dbx w ans o2 HL (NX dbx eq_refl) (X eq_refl)) as [-> ->]. auto.
  - destruct X as [-> ->]. auto.
Qed.

Section Main.
Context {DB : Type}.
Variable E : env DB.

(** A query for the values [names], at a location with model coordinates [w], that
    squashing does not affect. *)
Definition plain (q : qstate DB) (lon lat elev : f64) (w : place) (names : list vname) (olds : list f64) : Prop :=
  (q_squash q = false \/ flt (q_limit q) elev = false) /\ at_place q lon lat elev w /\
  selected q names /\ List.length olds = List.length names.

Definition no_data_message (lon lat elev : f64) : string :=
  ("WARNING: No data for " ++ e_sci E lon ++ ", " ++ e_sci E lat ++ ", " ++ e_sci E elev ++ "." ++ newline)%string.
Definition no_data_line (lon lat elev : f64) : string :=
  (e_sci E lon ++ ", " ++ e_sci E lat ++ ", " ++ e_sci E elev ++ ", No data" ++ newline)%string.
Definition orphan_message (parent child : addr) (lon lat elev : f64) : string :=
  ("Could not find parent octant " ++ e_straddr E parent ++ newline ++ "of child octant " ++
   e_straddr E child ++ newline ++ "for location " ++ e_gen E lon ++ ", " ++ e_gen E lat ++ ", " ++
   e_gen E elev ++ "." ++ newline ++ "Using values from child octant.")%string.

(** What is reported about an octant without parent. *)
Definition orphan_reported (o : option addr) (lon lat elev : f64) (e e' : errh) : Prop :=
  match o with
  | None => e' = e
  | Some c => exists parent, octant_ok parent /\ covers parent c /\ a_level parent = a_level c - 1 /\
      eh_status e' = WARNING /\ eh_msg e' = orphan_message parent c lon lat elev /\
      eh_logname e' = eh_logname e /\ eh_stream e' = eh_stream e
  end.
Lemma orphan_reported_ok o lon lat elev e e' : orphan_warning E o lon lat elev e e' -> orphan_reported o lon lat elev e e'.
Proof.
  destruct o as [c|]; [|intros ->; reflexivity]. intros (p & O & C & L & ->). exists p.
  split; [exact O|]. split; [exact C|]. split; [exact L|]. split; [|split; [|split]]; reflexivity.
Qed.

(** What is reported at the end of a query with answer [ans]. *)
Definition concluded (ans : payload) (lon lat elev : f64) (e : errh) (fs : files) (e' : errh) (fs' : files) : Prop :=
  (p_block ans <> 0 /\ e' = e /\ fs' = fs) \/
  (p_block ans = 0 /\ eh_status e' = WARNING /\ eh_msg e' = no_data_message lon lat elev /\
   eh_logname e' = eh_logname e /\ eh_stream e' = eh_stream e /\
   fs' = log_line e (no_data_line lon lat elev) fs).
Lemma finish_concluded q ans lon lat elev e fs :
  concluded ans lon lat elev e fs (fst (finish E lon lat elev q e fs ans)) (snd (finish E lon lat elev q e fs ans)).
Proof.
  unfold finish. destruct (Z.eqb_spec (p_block ans) 0) as [B|B]; cbn [fst snd].
  - right. split; [exact B|]. split; [reflexivity|]. split; [reflexivity|]. split; [reflexivity|]. split; [reflexivity|].
    apply log_line_eq. reflexivity.
  - left. auto.
Qed.

Lemma plain_squash q lon lat elev w names olds : plain q lon lat elev w names olds ->
  q_squash q && fgt elev (q_limit q) = false.
Proof.
  intros ([H|H] & _); [rewrite H; reflexivity|]. change (fgt elev (q_limit q)) with (flt (q_limit q) elev).
  rewrite H. apply andb_false_r.
Qed.

(** The complete description of a query inside the root cube. *)
Lemma query_inside q fs lon lat elev w names olds db ext r s :
  setup E q db ext -> resolution_of q r -> plain q lon lat elev w names olds -> place_inside w ->
  (In NElevation names -> queryElev E q lon lat elev false = Val s) ->
  exists ans o1 o2 e1 e2 e' fs',
    query E q fs (Some olds) lon lat elev = Val (with_err q e', fs', values ans s names) /\
    combined r db ext w ans o1 o2 /\
    orphan_reported o1 lon lat elev (q_err q) e1 /\ orphan_reported o2 lon lat elev e1 e2 /\
    concluded ans lon lat elev e2 fs e' fs'.
Proof.
  intros HS HR HP HI HE. pose proof (plain_squash _ _ _ _ _ _ _ HP) as SQ. destruct HP as (_ & HW & Hsel & Hl).
  destruct (body_inside E q (q_err q) lon lat elev w r db ext HS HR HW HI)
    as (ans & o1 & o2 & e1 & e2 & Eb & C & W1 & W2).
  assert (B : query_body E q lon lat elev = Val (e2, Some ans, f_zero)).
  { rewrite (body_plain E q lon lat elev SQ), Eb. reflexivity. }
  exists ans, o1, o2, e1, e2. eexists. eexists.
  split; [exact (query_eq E q fs olds lon lat elev names e2 ans f_zero s Hsel Hl HE B)|].
  split; [exact C|]. split; [apply orphan_reported_ok, W1|]. split; [apply orphan_reported_ok, W2|].
  apply finish_concluded.
Qed.

(** Outside, or on an upper face. *)
Lemma query_beyond q fs lon lat elev w names olds db ext r s :
  setup E q db ext -> resolution_of q r -> plain q lon lat elev w names olds -> place_beyond w ->
  (In NElevation names -> queryElev E q lon lat elev false = Val s) ->
  exists e' fs', query E q fs (Some olds) lon lat elev = Val (with_err q e', fs', values no_data s names) /\
    concluded no_data lon lat elev (q_err q) fs e' fs'.
Proof.
  intros HS HR HP HI HE. pose proof (plain_squash _ _ _ _ _ _ _ HP) as SQ. destruct HP as (_ & HW & Hsel & Hl).
  pose proof (body_beyond E q (q_err q) lon lat elev w r db ext HS HR HW HI) as Eb.
  assert (B : query_body E q lon lat elev = Val (q_err q, Some no_data, f_zero)).
  { rewrite (body_plain E q lon lat elev SQ), Eb. reflexivity. }
  eexists. eexists.
  split; [exact (query_eq E q fs olds lon lat elev names (q_err q) no_data f_zero s Hsel Hl HE B)|].
  apply finish_concluded.
Qed.

(** Outside, without an extended database: the detailed one is not consulted. *)
Lemma query_outside_untouched q fs lon lat elev p r0 s0 names olds d r :
  q_db q = Some d -> q_dbExt q = None -> resolution_of q r -> plain q lon lat elev (p, r0, s0) names olds ->
  (exists c, In c [p; r0; s0] /\ outside c) -> Forall material names ->
  exists e' fs', query E q fs (Some olds) lon lat elev = Val (with_err q e', fs', values no_data f_zero names) /\
    concluded no_data lon lat elev (q_err q) fs e' fs'.
Proof.
  intros Hd Hx HR HP HO HM. pose proof (plain_squash _ _ _ _ _ _ _ HP) as SQ. destruct HP as (_ & HW & Hsel & Hl).
  assert (B : query_body E q lon lat elev = Val (q_err q, Some no_data, f_zero)).
  { rewrite (body_plain E q lon lat elev SQ). unfold body_at. rewrite Hd, Hx.
    rewrite (queryFn_outside E q (q_err q) d lon lat elev p r0 s0 r HR HW HO). reflexivity. }
  assert (HE : In NElevation names -> queryElev E q lon lat elev false = Val f_zero).
  { intros I. rewrite Forall_forall in HM. exfalso. exact (HM _ I eq_refl). }
  eexists. eexists.
  split; [exact (query_eq E q fs olds lon lat elev names (q_err q) no_data f_zero f_zero Hsel Hl HE B)|].
  apply finish_concluded.
Qed.
End Main.
