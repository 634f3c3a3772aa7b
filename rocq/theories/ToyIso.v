(** Concrete storage libraries for the examples of the isosurface application: a column
    of octants, and halfspaces in which the speed depends on the height only. *)
From Coq Require Import ZArith Bool Reals Lra Lia String Ascii List.
From Flocq Require Import Core BinarySingleNaN.
From Verif Require Import Outcome Float Payload Addr SpecOct SpecGeom FloatFacts Geom GeomFacts GeomProof GeomLevel GeomRot ErrorHandler VMQuery
  SpecQuery SpecHist Stream GetOpt QueryApp IsoApp SpecText SpecApp SpecIso IsoFacts ToyLib ToyDb PropGeom.
Import ListNotations.
Open Scope Z_scope.
Local Notation fexp64 := (SpecFloat.fexp prec64 emax64).
Local Notation rnd64 := (round radix2 fexp64 (round_mode mode_NE)).

(** ** Heights *)
Section Vert.
Open Scope R_scope.
Lemma vert_exact e : finite_double e -> Rabs (value e) <= 1000000 ->
  finite_double (vert_r e) /\ value (vert_r e) = rnd64 (rnd64 (rnd64 (value e - 12800) * 4) + root).
Proof.
  intros [Ve Fe] B. apply Rabs_le_inv in B.
  destruct (repr_int 12800 ltac:(lia)) as (Vm & Fm & Em). fold MAXELEV in Vm, Fm, Em.
  destruct (repr_int 4 ltac:(lia)) as (V4 & F4 & E4). fold VERTEXAG in V4, F4, E4.
  destruct root_repr as (Vr & Fr & Er).
  unfold vert_r.
  assert (G : forall v a b, -10000000 <= a -> b <= 10000000 -> a <= v <= b -> a - 1 <= rnd64 v <= b + 1).
  { intros v a b H1 H2 H. pose proof (rnd_err v) as X. assert (Rabs v <= 10000000) by (apply Rabs_le; lra).
    unfold u53, tiny in X. apply Rabs_le_inv in X. assert (0 <= Rabs v) by apply Rabs_pos. lra. }
  assert (K : forall v, -100000000 <= v <= 100000000 -> Rabs (rnd64 v) < bpow radix2 emax64).
  { intros v H. apply rnd_bound. apply Rle_lt_trans with 100000000; [apply Rabs_le; lra | lra]. }
  pose proof (sub_round prec64 emax64 Hp64 Hm64 e MAXELEV Ve Vm Fe Fm) as S.
  change (SF2R radix2 e) with (value e) in S. rewrite Em in S.
  rewrite Rlt_bool_true in S by (apply K; lra). destruct S as [S1 S2].
  fold (sub64 e MAXELEV) in S1, S2.
  assert (VS : valid_binary prec64 emax64 (sub64 e MAXELEV) = true) by (apply (sub_valid prec64 emax64 Hp64 Hm64); assumption).
  destruct (G (value e - 12800) (-1012800) 987200 ltac:(lra) ltac:(lra) ltac:(lra)) as [GS1 GS2].
  pose proof (mul_round prec64 emax64 Hp64 Hm64 _ VERTEXAG VS V4 S2 F4) as M.
  rewrite S1, E4 in M. rewrite Rlt_bool_true in M by (apply K; lra). destruct M as [M1 M2].
  fold (mul64 (sub64 e MAXELEV) VERTEXAG) in M1, M2.
  assert (VM : valid_binary prec64 emax64 (mul64 (sub64 e MAXELEV) VERTEXAG) = true) by (apply (mul_valid prec64 emax64 Hp64 Hm64); assumption).
  destruct (G (rnd64 (value e - 12800) * 4) (-4051204) 3948804 ltac:(lra) ltac:(lra) ltac:(lra)) as [GM1 GM2].
  pose proof (add_round prec64 emax64 Hp64 Hm64 _ ROOTLEN VM Vr M2 Fr) as A.
  rewrite M1, Er in A. rewrite Rlt_bool_true in A by (apply K; unfold root; lra). destruct A as [A1 A2].
  split; [split; [apply (add_valid prec64 emax64 Hp64 Hm64); assumption | exact A2] | exact A1].
Qed.
Lemma vert_mono a b : finite_double a -> finite_double b -> Rabs (value a) <= 1000000 -> Rabs (value b) <= 1000000 ->
  value a <= value b -> value (vert_r a) <= value (vert_r b).
Proof.
  intros Fa Fb Ba Bb H. rewrite (proj2 (vert_exact a Fa Ba)), (proj2 (vert_exact b Fb Bb)).
  apply round_le; [apply (fexp_correct prec64 emax64 Hp64) | apply valid_rnd_N |].
  apply Rplus_le_compat_r. apply round_le; [apply (fexp_correct prec64 emax64 Hp64) | apply valid_rnd_N |].
  apply Rmult_le_compat_r; [lra|]. apply round_le; [apply (fexp_correct prec64 emax64 Hp64) | apply valid_rnd_N |]. lra.
Qed.
End Vert.

(** The address of the point at an elevation. *)
Definition at_elev (z : f64) : addr :=
  match lonLatElevToAddr toy (mkAddr 0 0 0 0 31 Leaf) toy_x toy_y z with Val (_, b) => b | _ => mkAddr 0 0 0 0 0 Leaf end.
Lemma at_elev_ok z : finite_double z -> (-300000 <= value z <= 12000)%R ->
  lonLatElevToAddr toy (mkAddr 0 0 0 0 31 Leaf) toy_x toy_y z = Val (0, at_elev z) /\ spans (a_z (at_elev z)) 31 (vert_r z).
Proof.
  intros Fz B.
  assert (BZ : (Rabs (value z) <= 1000000)%R) by (apply Rabs_le; lra).
  pose proof (vert_ap z Fz BZ) as (V1 & F1 & E1). change (fval (vert_r z)) with (value (vert_r z)) in E1.
  apply Rabs_le_inv in E1. unfold root in E1.
  assert (U0 : (0 <= u <= / 1000)%R) by (unfold u; lra).
  destruct (C02_octant_contains_location toy (mkAddr 0 0 0 0 31 Leaf) toy_x toy_y z (rot_p toy toy_x toy_y) (rot_q toy toy_x toy_y) (vert_r z))
    as (b & Eb & Lv & _ & _ & _ & _ & Z).
  - cbn; lia.
  - exists toy_x, toy_y. split; [vm_compute; reflexivity | auto].
  - inside_tac.
  - inside_tac.
  - split; [split; assumption|]. unfold root. lra.
  - unfold at_elev. rewrite Eb. split; [reflexivity|]. rewrite Lv in Z. exact Z.
Qed.

(** What a query finds at an address. *)
Definition found {DB} (E : env DB) (d : DB) (a : addr) : payload :=
  match e_search E d a with
  | None => noData
  | Some (hit, p) => if otype_eqb (a_type hit) Interior then noData else p
  end.
Lemma reads_at {DB} (E : env DB) c d z : iso_squashes c = false -> finite_double z -> (-300000 <= value z <= 12000)%R ->
  reads E (iso_object c toy (Some d) None) "Vs" toy_x toy_y z (widen (p_vs (found E d (at_elev z)))).
Proof.
  intros NS Fz B. destruct (at_elev_ok z Fz B) as [A _].
  assert (K : exists q' fs', query E (only 1 (iso_object c toy (Some d) None)) (fun _ => None) (Some [f_zero]) toy_x toy_y z =
    Val (q', fs', [widen (p_vs (found E d (at_elev z)))])).
  { unfold query. cbn [only q_vals List.length Nat.eqb assert_ bind].
    unfold query_body. cbn [only iso_object q_squash q_limit q_err q_db q_dbExt q_vals q_geom q_type].
    rewrite NS. cbn [andb bind]. unfold queryFn. change (q_type (only 1 (iso_object c toy (Some d) None))) with MAXRES. cbv iota.
    unfold queryMax. cbn [need_db bind]. unfold query_addr, MAXLEVEL. change (q_geom (only 1 (iso_object c toy (Some d) None))) with toy.
    rewrite A. cbn [bind Z.eqb negb]. unfold found.
    destruct (e_search E d (at_elev z)) as [[hit p]|]; cbn [bind]; [destruct (otype_eqb (a_type hit) Interior); cbn [bind]|].
    - destruct (p_block noData =? NODATABLOCK); eexists; eexists; reflexivity.
    - destruct (p_block p =? NODATABLOCK); eexists; eexists; reflexivity.
    - destruct (p_block noData =? NODATABLOCK); eexists; eexists; reflexivity. }
  destruct K as (q' & fs' & K). exists (only 1 (iso_object c toy (Some d) None)), (fun _ => None), f_zero, q', fs'.
  split; [apply set_vs | exact K].
Qed.
Lemma profile_at {DB} (E : env DB) c d L U : iso_squashes c = false ->
  (-300000 <= value L)%R -> (value U <= 12000)%R ->
  (forall a, finite_double (widen (p_vs (found E d a)))) ->
  profile E (iso_object c toy (Some d) None) toy_x toy_y L U (fun z => widen (p_vs (found E d (at_elev z)))).
Proof.
  intros NS HL HU HF z [Fz B]. split; [apply HF|]. apply reads_at; [exact NS | exact Fz | lra].
Qed.

(** Reading a value by computation. *)
Definition probe {DB} (E : env DB) (q : qstate DB) (name : string) (z : f64) : option (bool * f64) :=
  match set_queryVals (Some [name]) q with
  | Val q1 => match query E q1 (fun _ => None) (Some [f_zero]) toy_x toy_y z with
              | Val (q', _, [v]) => Some (negb (status_code (eh_status (q_err q')) =? 2), v)
              | _ => None
              end
  | _ => None
  end.
Lemma probe_ok {DB} (E : env DB) q name z v : probe E q name z = Some (true, v) -> reads_well E q name toy_x toy_y z v.
Proof.
  unfold probe. destruct (set_queryVals (Some [name]) q) as [q1| | |] eqn:Q1; try discriminate.
  destruct (query E q1 (fun _ => None) (Some [f_zero]) toy_x toy_y z) as [[[q' fs'] [|v' [|]]]| | |] eqn:Q2; try discriminate.
  intros H. injection H as H <-. exists q1, (fun _ => None), f_zero, q', fs'. split; [exact Q1|]. split; [exact Q2|].
  intros K. rewrite K in H. discriminate.
Qed.
Lemma probe_reads {DB} (E : env DB) q name z b v : probe E q name z = Some (b, v) -> reads E q name toy_x toy_y z v.
Proof.
  unfold probe. destruct (set_queryVals (Some [name]) q) as [q1| | |] eqn:Q1; try discriminate.
  destruct (query E q1 (fun _ => None) (Some [f_zero]) toy_x toy_y z) as [[[q' fs'] [|v' [|]]]| | |] eqn:Q2; try discriminate.
  intros H. injection H as H <-. exists q1, (fun _ => None), f_zero, q', fs'. split; [exact Q1 | exact Q2].
Qed.

(** ** A column of nine octants, between the elevations 0 and -6400 m *)
Definition layer (l z vs dfs : Z) : addr * payload := (toy_addr l (i2f64 z) Leaf, pay 5000 vs 2000 (i2f32 dfs) 5 2).
Definition column : contents :=
  [layer 7 (-4000) 3500 4800; layer 8 (-2000) 3000 2400; layer 9 (-1000) 2500 1200; layer 10 (-600) 2000 600;
   layer 11 (-300) 1500 300; layer 12 (-150) 900 150; layer 13 (-75) 700 75; layer 14 (-40) 500 37; layer 14 (-10) 400 12].
Lemma column_ok : db_ok column.
Proof. apply db_okb_ok. vm_compute. reflexivity. Qed.
Definition column_env : env contents :=
  mkEnv (fun n _ => if String.eqb n "column" then Some column else None) (fun _ => true) lsearch (fun n => negb (String.eqb n ""))
    (fun _ => "#"%string) (fun _ => "#"%string) (fun _ => "octant"%string).
Definition finiteb (x : f64) : bool := SpecFloat.valid_binary prec64 emax64 x && is_fin x.
Lemma finiteb_ok x : finiteb x = true -> finite_double x.
Proof. unfold finiteb. rewrite andb_true_iff. auto. Qed.
Lemma column_finite a : finite_double (widen (p_vs (found column_env column a))).
Proof.
  unfold found. cbn [column_env e_search]. pose proof (lsearch_ok column a) as H. destruct (lsearch column a) as [[h p]|].
  - destruct H as [I _]. destruct (otype_eqb (a_type h) Interior); [apply finiteb_ok; vm_compute; reflexivity|].
    assert (F : forallb (fun x => finiteb (widen (p_vs (snd x)))) column = true) by (vm_compute; reflexivity).
    rewrite forallb_forall in F. apply finiteb_ok. exact (F _ I).
  - apply finiteb_ok. vm_compute. reflexivity.
Qed.
Definition column_speed (z : f64) : f64 := widen (p_vs (found column_env column (at_elev z))).

(** ** Halfspaces *)
(** The speed [f] depends on the vertical tick alone; every octant reports the surface at
    the elevation [dfs] - 192000 m. *)
Definition halves (f : Z -> Z) (dfs : Z) : env unit :=
  mkEnv (fun n _ => if String.eqb n "halves" then Some tt else None) (fun _ => true)
    (fun _ a => Some (mkAddr 0 0 0 0 0 Leaf, pay 5000 (f (a_z a)) 2000 (i2f32 dfs) 5 2)) (fun n => negb (String.eqb n ""))
    (fun _ => "#"%string) (fun _ => "#"%string) (fun _ => "octant"%string).
(** Vertical tick of an elevation in metres. *)
Definition tick_of (elev : Z) : Z := ((elev - 12800) * 4 + 1638400) * 2 ^ 31 / 1638400.
Definition speed_of (f : Z -> Z) (z : f64) : f64 := widen (i2f32 (f (a_z (at_elev z)))).
Lemma halves_found f dfs a : widen (p_vs (found (halves f dfs) tt a)) = widen (i2f32 (f (a_z a))).
Proof. reflexivity. Qed.
Lemma halves_finite f dfs a : (forall t, In (f t) [2000; 1500; 500]) -> finite_double (widen (p_vs (found (halves f dfs) tt a))).
Proof.
  intros H. rewrite halves_found. apply finiteb_ok. destruct (H (a_z a)) as [<-|[<-|[<-|[]]]]; vm_compute; reflexivity.
Qed.
Lemma tick_mono a b : finite_double a -> finite_double b -> (-300000 <= value a)%R -> (value b <= 12000)%R -> (value a <= value b)%R ->
  a_z (at_elev a) <= a_z (at_elev b).
Proof.
  intros Fa Fb Ba Bb H.
  destruct (at_elev_ok a Fa ltac:(lra)) as [_ Sa]. destruct (at_elev_ok b Fb ltac:(lra)) as [_ Sb].
  pose proof (vert_mono a b Fa Fb ltac:(apply Rabs_le; lra) ltac:(apply Rabs_le; lra) H) as M.
  unfold spans in Sa, Sb. change (side 31) with 1 in Sa, Sb.
  assert (K : (IZR (a_z (at_elev a)) * tick < IZR (a_z (at_elev b) + 1) * tick)%R) by lra.
  assert (T0 : (0 < tick)%R) by (unfold tick, root; apply Rdiv_lt_0_compat; [lra | apply pow_lt; lra]).
  apply Rmult_lt_reg_r in K; [|exact T0]. apply lt_IZR in K. lia.
Qed.

(** Slow above the elevation [e], fast below it. *)
Definition two (e : Z) (t : Z) : Z := if t <? tick_of e then 2000 else 500.
Lemma two_in e t : In (two e t) [2000; 1500; 500].
Proof. unfold two. destruct (t <? tick_of e); [left | right; right; left]; reflexivity. Qed.
Lemma two_decreasing e L U : (-300000 <= value L)%R -> (value U <= 12000)%R -> decreasing (speed_of (two e)) L U.
Proof.
  intros HL HU a b [Fa Ba] [Fb Bb] H. pose proof (tick_mono a b Fa Fb ltac:(lra) ltac:(lra) H) as M.
  unfold speed_of, two. destruct (Z.ltb_spec (a_z (at_elev a)) (tick_of e)), (Z.ltb_spec (a_z (at_elev b)) (tick_of e)); try lia; try apply Rle_refl.
  destruct (finite_value (widen (i2f32 500)) 8796093022208000 (-44) ltac:(vm_compute; reflexivity) ltac:(vm_compute; reflexivity) ltac:(lia)) as [_ ->].
  destruct (finite_value (widen (i2f32 2000)) 8796093022208000 (-42) ltac:(vm_compute; reflexivity) ltac:(vm_compute; reflexivity) ltac:(lia)) as [_ ->].
  change (2 ^ (- -44)) with 17592186044416. change (2 ^ (- -42)) with 4398046511104. lra.
Qed.
(** Fast above -100 m, slow down to -900 m, fast below. *)
Definition three (t : Z) : Z := if t <? tick_of (-900) then 2000 else if t <? tick_of (-100) then 500 else 1500.
Lemma three_in t : In (three t) [2000; 1500; 500].
Proof.
  unfold three. destruct (t <? tick_of (-900)); [left; reflexivity|].
  destruct (t <? tick_of (-100)); [right; right; left | right; left]; reflexivity.
Qed.

(** With squashing, elevations above the limit count from the surface. *)
Lemma reads_squash f dfs c z topo : iso_squashes c = true -> (forall t, In (f t) [2000; 1500; 500]) ->
  add64 (i2f64 (-192000)) (widen (i2f32 dfs)) = topo -> finite_double topo -> (-100000 <= value topo <= 6000)%R -> fne (widen NODATAVAL) topo = true ->
  fgt z (i_squash c) = true -> finite_double z -> (-100000 <= value z <= 5000)%R ->
  reads (halves f dfs) (iso_object c toy (Some tt) None) "Vs" toy_x toy_y z (speed_of f (add64 z topo)).
Proof.
  intros NS HF HT FT BT NT HL Fz Bz. destruct (at_elev_ok z Fz ltac:(lra)) as [A _].
  destruct (at_elev_ok topo FT ltac:(lra)) as [AT _].
  assert (FA : finite_double (add64 z topo) /\ (-300000 <= value (add64 z topo) <= 12000)%R).
  { destruct (ap_add z topo (value z) (value topo) 0 0 (ap_self _ Fz) (ap_self _ FT)) as (V1 & F1 & E1).
    - assert (Rabs (value z + value topo) <= 1000000)%R by (apply Rabs_le; lra). lra.
    - split; [split; assumption|]. change (fval (add64 z topo)) with (value (add64 z topo)) in E1. apply Rabs_le_inv in E1. unfold u in E1. lra. }
  destruct FA as [FA BA]. destruct (at_elev_ok _ FA BA) as [AA _].
  set (q := only 1 (iso_object c toy (Some tt) None)).
  assert (QE : queryElev (halves f dfs) q toy_x toy_y z true = Val topo).
  { unfold queryElev. change (q_geom q) with toy. unfold MAXLEVEL. rewrite A. cbn [bind]. change (q_db q) with (Some tt). cbn [bind].
    cbn [halves e_search a_type otype_eqb]. 
    replace (addrToLonLatElev toy (mkAddr 0 0 0 0 0 Leaf)) with
      (Val (fst (fst (match addrToLonLatElev toy (mkAddr 0 0 0 0 0 Leaf) with Val x => x | _ => (f_zero, f_zero, f_zero) end)),
            snd (fst (match addrToLonLatElev toy (mkAddr 0 0 0 0 0 Leaf) with Val x => x | _ => (f_zero, f_zero, f_zero) end)), i2f64 (-192000)))
      by (vm_compute; reflexivity).
    cbn [bind pay p_dfs]. rewrite HT, AT. cbn [bind a_type otype_eqb pay p_vs orb].
    replace (feq (i2f32 (f (a_z (at_elev topo)))) NODATAVAL) with false; [reflexivity|].
    destruct (HF (a_z (at_elev topo))) as [<-|[<-|[<-|[]]]]; vm_compute; reflexivity. }
  assert (K : exists q' fs', query (halves f dfs) q (fun _ => None) (Some [f_zero]) toy_x toy_y z = Val (q', fs', [speed_of f (add64 z topo)])).
  { unfold query. change (q_vals q) with [Some 1]. cbn [List.length Nat.eqb assert_ bind].
    unfold query_body. replace (q_squash q && fgt z (q_limit q)) with true.
    2:{ unfold q. cbn [only iso_object q_squash q_limit]. rewrite NS, HL. reflexivity. }
    rewrite QE. cbn [bind andb]. rewrite NT.
    change (q_db q) with (Some tt). change (q_dbExt q) with (@None unit).
    unfold queryFn. change (q_type q) with MAXRES. cbv iota.
    unfold queryMax. cbn [need_db bind]. unfold query_addr, MAXLEVEL. change (q_geom q) with toy.
    rewrite AA. cbn [bind Z.eqb negb halves e_search a_type otype_eqb]. eexists; eexists; reflexivity. }
  destruct K as (q' & fs' & K). exists q, (fun _ => None), f_zero, q', fs'. split; [apply set_vs | exact K].
Qed.
