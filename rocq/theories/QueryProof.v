(** Proofs about whole queries. *)
From Coq Require Import ZArith Bool Reals Lra Lia Psatz String Ascii List.
From Verif Require Import Outcome Float Payload Addr SpecOct SpecGeom AddrFacts FloatFacts Geom GeomFacts
  GeomProof GeomRot ErrorHandler VMQuery SpecQuery QueryFacts.
Import ListNotations.
Open Scope Z_scope.

(** ** Names and selectors *)
Definition code (n : vname) : Z :=
  match n with NVp => 0 | NVs => 1 | NDensity => 2 | NQp => 3 | NQs => 4
  | NDepthFreeSurf => 5 | NFaultBlock => 6 | NZone => 7 | NElevation => 8 end.

Section Query.
Context {DB : Type}.
Variable E : env DB.

(** The query object is set to return the named values, in this order. *)
Definition selected (q : qstate DB) (names : list vname) : Prop :=
  q_vals q = map (fun n => Some (code n)) names.

(** The open databases of the query object have these contents. *)
Definition setup (q : qstate DB) (db : contents) (ext : option contents) : Prop :=
  (exists d, q_db q = Some d /\ searches (e_search E d) db /\ db_ok db) /\
  match ext with
  | None => q_dbExt q = None
  | Some dbx => exists x, q_dbExt q = Some x /\ searches (e_search E x) dbx /\ db_ok dbx
  end.

(** The kind of query the object is set to. *)
Definition resolution_of (q : qstate DB) (r : resolution) : Prop :=
  match q_type q with
  | MAXRES => r = Finest
  | FIXEDRES => exists l, level (q_geom q) (mul64 (i2f64 4) (q_res q)) = Val l /\ 0 <= l <= 31 /\ r = AtLevel l
  | WAVERES => r = ForPeriod (mul64 (i2f64 4) (q_res q))
  end.
Definition res_level (r : resolution) : Z := match r with AtLevel l => l | _ => 31 end.

Definition at_place (q : qstate DB) (lon lat elev : f64) (w : place) : Prop :=
  let '(p, r, s) := w in coords (q_geom q) lon lat elev p r s.

Lemma res_level_ok q r : resolution_of q r -> 0 <= res_level r <= 31.
Proof.
  unfold resolution_of. destruct (q_type q); [intros ->; cbn; lia | | intros ->; cbn; lia].
  intros (l & _ & H & ->). exact H.
Qed.

Lemma queryFn_spec q e d db lon lat elev w use r :
  searches (e_search E d) db -> db_ok db -> resolution_of q r ->
  aimed q (res_level r) lon lat elev w use ->
  exists ans a o e', queryFn E q e (Some d) lon lat elev use = Val (e', ans, a) /\
    answer r db w ans o /\ orphan_warning E o lon lat elev e e' /\
    octant_ok a /\ holds a w /\ a_level a = res_level r.
Proof.
  intros HS HO HR HA. unfold resolution_of in HR. unfold queryFn. destruct (q_type q).
  - subst r. destruct (queryMax_spec E q d db HS HO e lon lat elev w use HA) as (ans & a & Eq & A & Oa & Wa & La).
    exists ans, a, None, e. split; [exact Eq|]. split; [split; [exact A | reflexivity]|]. split; [reflexivity | auto].
  - destruct HR as (l & Hl & Bl & ->).
    destruct (queryFixed_spec E q d db HS HO e lon lat elev w use l Bl (fun _ => Hl) HA) as (ans & a & Eq & A & Oa & Wa & La).
    exists ans, a, None, e. split; [exact Eq|]. split; [split; [exact A | reflexivity]|]. split; [reflexivity | auto].
  - subst r. destruct (queryWave_spec E q d db HS HO e lon lat elev w use HA) as (ans & a & o & e' & Eq & A & W & R).
    exists ans, a, o, e'. split; [exact Eq|]. split; [exact A|]. split; [exact W | exact R].
Qed.

(** The part of the query that looks up the payload at a given elevation. *)
Definition body_at (q : qstate DB) (e : errh) (lon lat elevQ : f64) : outcome (errh * payload) :=
  let* (e1, p1, a) := queryFn E q e (q_db q) lon lat elevQ None in
  match q_dbExt q with
  | Some x =>
      if p_block p1 =? NODATABLOCK then
        let* (e2, p2, _) := queryFn E q e1 (Some x) lon lat elevQ (Some a) in Val (e2, p2)
      else Val (e1, p1)
  | None => Val (e1, p1)
  end.

(** The elevation used, given the surface elevation. *)
Definition shifted (elev s : f64) : f64 := if fne (widen NODATAVAL) s then add64 elev s else elev.

Definition wrap (o : outcome (errh * payload)) (e : errh) (s : f64) : outcome (errh * option payload * f64) :=
  match o with
  | Val (e', p) => Val (e', Some p, s)
  | Throw m => Val (eh_error m e, None, f_zero)
  | Abort => Abort
  | UB why => UB why
  end.

Lemma body_plain q lon lat elev : q_squash q && fgt elev (q_limit q) = false ->
  query_body E q lon lat elev = wrap (body_at q (q_err q) lon lat elev) (q_err q) f_zero.
Proof.
  intros H. unfold query_body, body_at. rewrite H. cbn [bind andb].
  destruct (queryFn E q (q_err q) (q_db q) lon lat elev None) as [[[e1 p1] a]|m| |w]; cbn [bind]; try reflexivity.
  destruct (q_dbExt q) as [x|]; [|reflexivity].
  destruct (p_block p1 =? NODATABLOCK); [|reflexivity].
  destruct (queryFn E q e1 (Some x) lon lat elev (Some a)) as [[[e2 p2] a2]|m| |w]; reflexivity.
Qed.

Lemma body_squash q lon lat elev s : q_squash q && fgt elev (q_limit q) = true ->
  queryElev E q lon lat elev true = Val s ->
  query_body E q lon lat elev = wrap (body_at q (q_err q) lon lat (shifted elev s)) (q_err q) s.
Proof.
  intros H Hs. unfold query_body, body_at. rewrite H, Hs. cbn [bind andb]. fold (shifted elev s).
  destruct (queryFn E q (q_err q) (q_db q) lon lat (shifted elev s) None) as [[[e1 p1] a]|m| |w]; cbn [bind]; try reflexivity.
  destruct (q_dbExt q) as [x|]; [|reflexivity].
  destruct (p_block p1 =? NODATABLOCK); [|reflexivity].
  destruct (queryFn E q e1 (Some x) lon lat (shifted elev s) (Some a)) as [[[e2 p2] a2]|m| |w]; reflexivity.
Qed.

(** Inside the root cube. *)
Lemma body_inside q e lon lat elev w r db ext :
  setup q db ext -> resolution_of q r -> at_place q lon lat elev w -> place_inside w ->
  exists ans o1 o2 e1 e2, body_at q e lon lat elev = Val (e2, ans) /\
    combined r db ext w ans o1 o2 /\
    orphan_warning E o1 lon lat elev e e1 /\ orphan_warning E o2 lon lat elev e1 e2.
Proof.
  intros ((d & Ed & HS & HO) & Hx) HR HP HI.
  assert (HA : aimed q (res_level r) lon lat elev w None) by (split; assumption).
  destruct (queryFn_spec q e d db lon lat elev w None r HS HO HR HA)
    as (first & a & o1 & e1 & Eq & A & W & Oa & Wa & La).
  unfold body_at. rewrite Ed, Eq. cbn [bind]. unfold NODATABLOCK. destruct ext as [dbx|].
  - destruct Hx as (x & Ex & HSx & HOx). rewrite Ex. destruct (Z.eqb_spec (p_block first) 0) as [B|B].
    + assert (HA2 : aimed q (res_level r) lon lat elev w (Some a)) by (split; auto).
      destruct (queryFn_spec q e1 x dbx lon lat elev w (Some a) r HSx HOx HR HA2)
        as (ans & a2 & o2 & e2 & Eq2 & A2 & W2 & _).
      rewrite Eq2. cbn [bind]. exists ans, o1, o2, e1, e2. split; [reflexivity|]. split; [|auto].
      exists first. split; [exact A|]. split; [auto | intros F; contradiction].
    + exists first, o1, None, e1, e1. split; [reflexivity|]. split; [|split; [exact W | reflexivity]].
      exists first. split; [exact A|]. split; [intros F; contradiction | auto].
  - rewrite Hx. exists first, o1, None, e1, e1. split; [reflexivity|]. split; [|split; [exact W | reflexivity]].
    exists first. auto.
Qed.

(** Searching for an address no stored octant can cover. *)
Lemma queryFn_beyond q e d db lon lat elev a :
  searches (e_search E d) db -> db_ok db -> 0 <= a_level a <= 31 ->
  (exists t, In t [a_x a; a_y a; a_z a] /\ 2 ^ 31 <= t) ->
  queryFn E q e (Some d) lon lat elev (Some a) = Val (e, no_data, a).
Proof.
  intros HS HO Hl Hb. pose proof (search_beyond _ db a HS HO Hl Hb) as N.
  unfold queryFn. destruct (q_type q); [unfold queryMax | unfold queryFixed | unfold queryWave];
    cbn [need_db bind query_addr negb]; rewrite N; reflexivity.
Qed.

(** Fresh address outside the root cube: the database is not consulted. *)
Lemma queryFn_outside q e d lon lat elev p r0 s r :
  resolution_of q r -> coords (q_geom q) lon lat elev p r0 s ->
  (exists c, In c [p; r0; s] /\ outside c) ->
  queryFn E q e (Some d) lon lat elev None =
    Val (e, no_data, mkAddr (2 ^ 32 - 1) (2 ^ 32 - 1) (2 ^ 32 - 1) 0 (res_level r) Leaf).
Proof.
  intros HR HC HO. unfold resolution_of in HR. unfold queryFn. destruct (q_type q).
  - subst r. unfold queryMax. cbn [need_db bind query_addr]. unfold MAXLEVEL.
    rewrite (geom_outside (q_geom q) (mkAddr 0 0 0 0 31 Leaf) lon lat elev p r0 s ltac:(cbn; lia) HC HO). reflexivity.
  - destruct HR as (l & Hl & Bl & ->). unfold queryFixed. cbn [need_db bind].
    change (mul64 VERTEXAG (q_res q)) with (mul64 (i2f64 4) (q_res q)). rewrite Hl. cbn [bind query_addr].
    rewrite (geom_outside (q_geom q) (mkAddr 0 0 0 0 l Leaf) lon lat elev p r0 s Bl HC HO). reflexivity.
  - subst r. unfold queryWave. cbn [need_db bind query_addr]. unfold MAXLEVEL.
    rewrite (geom_outside (q_geom q) (mkAddr 0 0 0 0 31 Leaf) lon lat elev p r0 s ltac:(cbn; lia) HC HO). reflexivity.
Qed.

(** Fresh address with a coordinate on an upper face. *)
Lemma queryFn_face q e d db lon lat elev p r0 s r :
  searches (e_search E d) db -> db_ok db ->
  resolution_of q r -> coords (q_geom q) lon lat elev p r0 s ->
  (forall c, In c [p; r0; s] -> inside c \/ on_upper_face c) ->
  (exists c, In c [p; r0; s] /\ on_upper_face c) ->
  exists a, queryFn E q e (Some d) lon lat elev None = Val (e, no_data, a) /\
    0 <= a_level a <= 31 /\ (exists t, In t [a_x a; a_y a; a_z a] /\ 2 ^ 31 <= t).
Proof.
  intros HS HD HR HC HI HF. pose proof (res_level_ok q r HR) as Bl.
  destruct (geom_upper_face (q_geom q) (mkAddr 0 0 0 0 (res_level r) Leaf) lon lat elev p r0 s Bl HC HI)
    as (b & Eb & Lb & T). cbn [a_level] in Lb.
  assert (X : exists t, In t [a_x b; a_y b; a_z b] /\ 2 ^ 31 <= t).
  { destruct HF as (c & Ic & Fc).
    assert (G : forall t, In (c, t) [(p, a_x b); (r0, a_y b); (s, a_z b)] -> 2 ^ 31 <= t).
    { intros t It. rewrite (proj1 (T c t It) Fc). apply Z.le_refl. }
    destruct Ic as [<-|[<-|[<-|[]]]]; [exists (a_x b) | exists (a_y b) | exists (a_z b)];
      (split; [cbn; tauto | apply G; cbn; tauto]). }
  rewrite <- Lb in Bl. exists b. split; [|auto].
  pose proof (search_beyond _ db b HS HD Bl X) as N.
  unfold resolution_of in HR. unfold queryFn. destruct (q_type q).
  - subst r. unfold queryMax. cbn [need_db bind query_addr]. unfold MAXLEVEL. cbn [res_level] in Eb.
    rewrite Eb. cbn [bind Z.eqb negb]. rewrite N. reflexivity.
  - destruct HR as (l & Hl & Bl' & ->). unfold queryFixed. cbn [need_db bind].
    change (mul64 VERTEXAG (q_res q)) with (mul64 (i2f64 4) (q_res q)). rewrite Hl. cbn [bind query_addr].
    cbn [res_level] in Eb. rewrite Eb. cbn [bind Z.eqb negb]. rewrite N. reflexivity.
  - subst r. unfold queryWave. cbn [need_db bind query_addr]. unfold MAXLEVEL. cbn [res_level] in Eb.
    rewrite Eb. cbn [bind Z.eqb negb]. rewrite N. reflexivity.
Qed.

(** Not inside: some coordinate outside, or all in the closed cube and one on an
    upper face. *)
Definition place_beyond (w : place) : Prop :=
  let '(p, q, r) := w in
  (exists c, In c [p; q; r] /\ outside c) \/
  ((forall c, In c [p; q; r] -> inside c \/ on_upper_face c) /\ exists c, In c [p; q; r] /\ on_upper_face c).

Lemma body_beyond q e lon lat elev w r db ext :
  setup q db ext -> resolution_of q r -> at_place q lon lat elev w -> place_beyond w ->
  body_at q e lon lat elev = Val (e, no_data).
Proof.
  intros ((d & Ed & HS & HO) & Hx) HR HP HB. destruct w as [[p r0] s].
  assert (G : exists a, queryFn E q e (Some d) lon lat elev None = Val (e, no_data, a) /\
    0 <= a_level a <= 31 /\ (exists t, In t [a_x a; a_y a; a_z a] /\ 2 ^ 31 <= t)).
  { destruct HB as [HB|[HB1 HB2]].
    - eexists. split; [apply (queryFn_outside q e d lon lat elev p r0 s r HR HP HB)|].
      split; [exact (res_level_ok q r HR)|]. exists (2 ^ 32 - 1). cbn. split; [tauto | lia].
    - exact (queryFn_face q e d db lon lat elev p r0 s r HS HO HR HP HB1 HB2). }
  destruct G as (a & Eq & La & Ta). unfold body_at. rewrite Ed, Eq. cbn [bind].
  change (p_block no_data =? NODATABLOCK) with true. destruct ext as [dbx|].
  - destruct Hx as (x & Ex & HSx & HOx). rewrite Ex.
    rewrite (queryFn_beyond q e x dbx lon lat elev a HSx HOx La Ta). reflexivity.
  - rewrite Hx. reflexivity.
Qed.

(** ** Copying the values *)
Lemma copy_spec q lon lat elev v s names : forall olds e ref,
  List.length olds = List.length names ->
  (In NElevation names -> queryElev E q lon lat elev false = Val s) ->
  copy E q lon lat elev v (map (fun n => Some (code n)) names) olds e ref =
    Val (map (fun n => stored_value n v s) names, e).
Proof.
  induction names as [|n names IH]; intros olds e ref Hl He; destruct olds as [|old olds]; try discriminate; [reflexivity|].
  injection Hl as Hl. cbn [map copy].
  assert (Hn : exists ref', copy1 E q lon lat elev v (Some (code n)) old e ref = Val (stored_value n v s, e, ref')).
  { unfold copy1. destruct n; cbn [code stored_value Z.eqb Pos.eqb]; try (eexists; reflexivity).
    rewrite He by (left; reflexivity). eexists; reflexivity. }
  destruct Hn as [ref' Hn]. rewrite Hn. cbn [bind]. rewrite IH; [reflexivity | exact Hl |].
  intros H. apply He. right. exact H.
Qed.

(** What a query does once the payload is known. *)
Definition finish (lon lat elev : f64) (q : qstate DB) (e : errh) (fs : files) (v : payload) : errh * files :=
  if p_block v =? 0
  then (eh_warning (nodata_msg E lon lat elev) e, eh_log (nodata_line E lon lat elev) e fs)
  else (e, fs).

Lemma query_eq q fs olds lon lat elev names e v ref s :
  selected q names -> List.length olds = List.length names ->
  (In NElevation names -> queryElev E q lon lat elev false = Val s) ->
  query_body E q lon lat elev = Val (e, Some v, ref) ->
  query E q fs (Some olds) lon lat elev =
    Val (with_err q (fst (finish lon lat elev q e fs v)), snd (finish lon lat elev q e fs v),
         map (fun n => stored_value n v s) names).
Proof.
  intros Hsel Hl He Hb. unfold query. rewrite Hsel. rewrite map_length, Hl, Nat.eqb_refl.
  cbn [assert_ bind]. rewrite Hb. cbn [bind]. unfold finish, NODATABLOCK.
  destruct (p_block v =? 0); cbv beta iota; rewrite Hsel;
    rewrite (copy_spec q lon lat elev v s names olds _ ref Hl He); reflexivity.
Qed.
End Query.
