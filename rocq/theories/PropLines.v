(** C74: from grid files to printed lines.  cencalvmgen makes a database of grid files,
    cencalvmavg averages it, cencalvmquery answers a file of locations. *)
From Coq Require Import ZArith Bool Reals Lra Lia String Ascii Sorting.Sorted Sorting.Permutation List.
From Verif Require Import Outcome Float Payload Addr SpecOct AvgEngine SpecAvg SpecGeom Geom GeomProof ErrorHandler VMQuery Store Averager VMCreator SpecStore StoreFacts
  Stream GetOpt QueryApp SpecHist SpecText SpecGrid SpecQuery QueryFacts QueryProof QueryMain QuerySurface SpecE2E E2EFacts
  SmallApps SpecSmall SmallFacts SpecPipe PropAvg PropStore PropSmall PropE2E PropQuery PropPipe SpecApp AppFacts AppMain PropApp
  SpecInfo SpecReport SpecColumns PropColumns SpecLines.
From Verif Require GridIngester.
Import GridIngester(l_lon, l_lat, l_elev, l_pay).
Import ListNotations.
Open Scope Z_scope.

Definition all_nine : list vname := [NVp; NVs; NDensity; NQp; NQs; NDepthFreeSurf; NFaultBlock; NZone; NElevation].

Section Answer.
Context {DB : Type}.
Variables (E : env DB) (q : qstate DB) (et : etree) (d1 d2 : disk) (inp recs : list (addr * payload)).
Hypothesis AV : averaged_into et d1 d2 inp recs.
Hypothesis SV : serves E q recs.
Hypothesis KIND : q_type q = MAXRES.
Hypothesis VALS : q_vals q = nine.
Hypothesis SQ : q_squash q = false.
Hypothesis ST : eh_status (q_err q) = OK.
Hypothesis DEP : forall a v, In (a, v) inp -> finite_single (p_dfs v) /\ exists r, addrToLonLatElev (q_geom q) a = Val r.

Lemma depths_recs : depths_ok q recs None.
Proof.
  destruct (averaged_run _ _ _ _ _ AV) as (A1 & W & V & L & s & F & S).
  intros h v [[I T]|(dbx & Q & _)]; [|discriminate Q]. apply (DEP h v).
  destruct (out_cases _ _ _ _ A1 W F S h v I) as [J|(T' & _)]; [exact J | congruence].
Qed.

Lemma line_answer lon lat elev w : placed (q_geom q) (lon, lat, elev) w ->
  exists y ans s, replies E q (lon, lat, elev) y /\ y_status y <> ERROR /\ y_vals y = values9 ans s /\
    ((exists a, In (a, ans) inp /\ holds a w /\ surface_elev (a_z a) (a_level a) ans s) \/
     (ans = no_data /\ s = i2f64 (-999) /\ forall a v, In (a, v) inp -> ~ holds a w)).
Proof.
  intros PL. assert (P : QueryMain.plain q lon lat elev w all_nine (repeat f_zero 9) /\ place_inside w).
  { destruct w as [[p0 q0] r0]. destruct PL as [C I]. split; [|exact I]. split; [left; exact SQ|]. split; [exact C|]. split; [exact VALS | reflexivity]. }
  destruct P as [P I]. pose proof (served _ _ _ _ _ _ _ AV SV) as HS.
  assert (HR : resolution_of q Finest) by (unfold resolution_of; rewrite KIND; reflexivity).
  destruct (queryElev_spec E q recs None HS depths_recs lon lat elev w false (proj1 (proj2 P)) I) as (s & Es & SI).
  destruct (query_inside E q (fun _ => None) lon lat elev w all_nine (repeat f_zero 9) recs None Finest s HS HR P I (fun _ => Es))
    as (ans & o1 & o2 & e1 & e2 & e' & fs' & Q & C & W1 & W2 & K).
  destruct C as (first & (MA & O1) & -> & O2). subst o1 o2. cbn [orphan_reported] in W1, W2. subst e1 e2.
  exists (mkReply (eh_status e') (eh_msg e') (values9 first s)), first, s.
  split; [|split; [|split; [reflexivity|]]].
  - exists (fun _ => None), (repeat f_zero 9), (with_err q e'), fs'. split; [exact Q|]. split; reflexivity.
  - cbn [y_status]. destruct K as [(_ & -> & _)|(_ & -> & _)]; congruence.
  - destruct (averaged_run _ _ _ _ _ AV) as (A1 & W & V & L & st & F & S).
    assert (SO : (no_surface recs None w /\ s = i2f64 (-999)) \/
                 (exists src h v, surface_octant recs None w src h v /\ surface_elev (a_z h) (a_level h) v s)).
    { destruct SI as [SI|(src & h & v & s0 & w0 & O & S0 & _ & [(_ & _ & ->)|[(_ & ->)|(N & _)]])]; [left; exact SI|right; eauto|right; eauto|discriminate N]. }
    clear SI. destruct SO as [[[NL _] ->]|(src & h & v & [[-> [FI T]]|(_ & dbx & N & _)] & SE)]; [| |discriminate N].
    + right. assert (NO : forall a v, In (a, v) inp -> ~ holds a w).
      { intros a v Ia Ha. destruct NL as [N|(h & v' & (Ih & Hh & _ & FI) & T)].
        - pose proof (N a v (out_input _ _ _ _ A1 W F S a v Ia) Ha). pose proof (input_ok _ W a v Ia) as ((_ & L31) & _). lia.
        - destruct (out_cases _ _ _ _ A1 W F S h v' Ih) as [J|(_ & Oh & Ah)]; [pose proof (L _ _ J); congruence|].
          pose proof (above_coarser _ W V L a v h w Ia Oh Ah Ha Hh). pose proof (input_ok _ W a v Ia) as ((_ & L31) & _).
          specialize (FI a v (out_input _ _ _ _ A1 W F S a v Ia) Ha L31). lia. }
      split; [|split; [reflexivity | exact NO]].
      destruct (max_out _ _ _ _ A1 W F S V L w first MA) as [(a & Ia & Ha)|[-> _]]; [destruct (NO a first Ia Ha)|reflexivity].
    + left. assert (DO : db_ok recs) by exact (out_db_ok _ _ _ _ A1 W F S).
      assert (QF : first = v).
      { apply (max_unique recs w first v DO MA). left. exists h, v. rewrite T. split; [exact FI | reflexivity]. }
      subst first. exists h. destruct FI as (Ih & Hh & _). split; [|split; [exact Hh | exact SE]].
      destruct (out_cases _ _ _ _ A1 W F S h v Ih) as [J|(T' & _)]; [exact J | congruence].
Qed.
End Answer.

Lemma no_data_fits l : modest_location l -> fits_columns l (mkReply WARNING "" (values9 no_data (i2f64 (-999)))).
Proof.
  destruct l as [[lon lat] elev]. intros (A & B & C). split; [exact A|]. split; [exact B|]. split; [exact C|].
  split; [intros i I; destruct i as [|[|[|i]]]; [apply between_check; vm_compute; reflexivity..|lia]|].
  split; [intros i I J; destruct i as [|[|[|[|[|[|i]]]]]]; [lia..|apply between_check; vm_compute; reflexivity| | |lia]; apply between_check; vm_compute; reflexivity|].
  split; [|apply between_check; vm_compute; reflexivity].
  intros i n I SH Q. assert (Z : i2f64 n = i2f64 0) by (destruct I as [->| ->]; symmetry; exact Q).
  pose proof (toInt_short n SH) as K. rewrite Z, toInt_short in K by (unfold short; lia). injection K as <-. lia.
Qed.
Lemma modest_fits l a v s y : modest_location l -> modest a v -> surface_elev (a_z a) (a_level a) v s -> y_vals y = values9 v s -> fits_columns l y.
Proof.
  destruct l as [[lon lat] elev]. intros (A & B & C) (V0 & V1 & V2 & V3 & V4 & V5 & _ & V6 & V7 & V8) SE Q.
  unfold fits_columns. rewrite Q. split; [exact A|]. split; [exact B|]. split; [exact C|].
  split; [intros i I; destruct i as [|[|[|i]]]; [assumption..|lia]|].
  split; [intros i I J; destruct i as [|[|[|[|[|[|i]]]]]]; try lia; assumption|].
  split; [|exact (V8 s SE)].
  intros i n I SH K. destruct I as [->| ->]; cbn [value_of values9 nth] in K; pose proof (toInt_short n SH) as G; rewrite <- K, toInt_short in G by (unfold short; lia);
    injection G as <-; assumption.
Qed.
Lemma columns_tell l y v s ws : short (p_block v) -> short (p_zone v) -> y_vals y = values9 v s -> columns l y ws -> tells l v s ws.
Proof.
  destruct l as [[lon lat] elev]. intros SB SZ Q. unfold columns, tells. rewrite Q. cbn [value_of values9 nth].
  assert (G : forall n w, short n -> shows_int (i2f64 n) w -> signed plain n w).
  { intros n w SN (m & SM & K & H). pose proof (toInt_short n SN) as X. rewrite K, toInt_short in X by exact SM. injection X as ->. exact H. }
  intros H.
  repeat match goal with H : Forall2 _ (_ :: _) ?w |- _ => let x := fresh "w" in let r := fresh "r" in let P := fresh "P" in let R := fresh "R" in
    inversion H as [|? x ? r P R]; subst; clear H end.
  match goal with H : Forall2 _ [] _ |- _ => inversion H; subst end.
  repeat (apply Forall2_cons; [first [assumption | apply G; assumption]|]). apply Forall2_nil.
Qed.

(** The three programs exit with code 0.  The printed file has twelve words on a line for
    each location; they show the values of the grid point in whose octant the location
    lies, or that there are none. *)
Theorem C74_lines : forall E F T L files gargs gk aargs ak fp ft fm fo d grids recss DB (EQ : disk -> env DB) S qargs c w junk text ls ps fs,
  storage_works E -> model_files F L files fp grids recss -> good_model (concat recss) ->
  command gen_letters gargs gk -> named "i" gk fp -> named "t" gk ft -> named "o" gk fm -> ft <> fm ->
  command avg_letters aargs ak -> named "i" ak fm -> named "o" ak fo -> fm <> fo ->
  opens_files EQ -> prints T ->
  parseArgs T qargs = inr (c, w) -> c_db c = fo -> c_dbExt c = ""%string -> asks_kind c MAXRES -> squashes c = false ->
  List.length junk = 9%nat -> o_read S (c_in c) = Some text -> lists (t_num T) text ls ->
  o_create S (c_out c) = true -> (forall l, o_write S l = true) ->
  Forall2 (placed L) ls ps -> Forall modest_location ls ->
  (forall a v, In (a, v) (concat recss) -> modest a v /\ exists r, addrToLonLatElev L a = Val r) ->
  exists d1 d2 said lines fs' wss,
    genMain E F T L files gargs d = (d1, Val (0, [])) /\ avgMain E aargs d1 = (d2, Val (0, [])) /\
    main (EQ d2) T S L junk qargs fs = Val (mkResult 0 said (Some lines) fs') /\
    Forall2 (fun lp ws => told (concat recss) (fst lp) (snd lp) ws) (combine ls ps) wss /\
    Forall2 (fun ws line => laid_out ws (line ++ newline)) wss lines /\ laid_out (concat wss) (as_lines lines).
Proof.
  intros E F T L files gargs gk aargs ak fp ft fm fo d grids recss DB EQ S qargs c w junk text ls ps fs
    SW MF GM K N1 N2 N3 Hn K' N4 N5 Hn' OF PT PA CD CX AK SQ LJ OR LS OC OW PL ML MD.
  destruct (C59_built E F T L files gargs gk aargs ak fp ft fm fo d grids recss SW MF GM K N1 N2 N3 Hn K' N4 N5 Hn')
    as (d1 & d2 & inp & g & G1 & G2 & PM & AV & U & _).
  destruct (OF d2 fo (cache_of c) g (proj1 U)) as (db & OP & CL & SE).
  destruct (averaged_run _ _ _ _ _ AV) as (A1 & W & V & LF & st & FI & ST).
  assert (DO : db_ok (d_recs g)) by exact (out_db_ok _ _ _ _ A1 W FI ST). specialize (SE DO).
  assert (MI : forall a v, In (a, v) inp -> modest a v /\ exists r, addrToLonLatElev L a = Val r).
  { intros a v I. exact (MD a v (Permutation_in _ PM I)). }
  assert (SH : stores_shorts (EQ d2) (Some db)).
  { intros db' a h p Q SR. injection Q as <-. pose proof (SE a) as X. rewrite SR in X. destruct X as [X _].
    pose proof (out_averaged _ _ _ _ A1 W FI ST V _ h p (Nat.lt_succ_diag_r _) X) as Y. destruct Y as [h p I|h p kids _ _ _ _ _ [_ [B Z]]].
    - destruct (MI h p I) as [(_ & _ & _ & _ & _ & _ & _ & B & Z & _) _]. unfold short. lia.
    - unfold short. lia. }
  set (q := object c MAXRES L (Some db) (@None DB) eh_new).
  assert (AN : forall l p, placed L l p -> exists y ans s, replies (EQ d2) q l y /\ y_status y <> ERROR /\ y_vals y = values9 ans s /\
    ((exists a, In (a, ans) inp /\ holds a p /\ surface_elev (a_z a) (a_level a) ans s) \/
     (ans = no_data /\ s = i2f64 (-999) /\ forall a v, In (a, v) inp -> ~ holds a p))).
  { intros [[lon lat] elev] p P. apply (line_answer (EQ d2) q E d1 d2 inp (d_recs g) AV).
    - split; [reflexivity|]. exists db. split; [reflexivity | exact SE].
    - reflexivity.
    - reflexivity.
    - exact SQ.
    - reflexivity.
    - intros a v I. destruct (MI a v I) as [(_ & _ & _ & _ & _ & _ & FD & _) X]. split; [exact FD | exact X].
    - exact P. }
  assert (YS : exists ys, Forall2 (replies (EQ d2) q) ls ys /\ Forall (fun y => y_status y <> ERROR) ys /\ Forall2 fits_columns ls ys /\
    forall wss, Forall2 (fun ly ws => columns (fst ly) (snd ly) ws) (combine ls ys) wss ->
      Forall2 (fun lp ws => told (concat recss) (fst lp) (snd lp) ws) (combine ls ps) wss).
  { clear OR LS. induction PL as [|l p ls ps P PL IH].
    - exists []. split; [constructor|]. split; [constructor|]. split; [constructor|]. intros wss H. inversion H; subst. constructor.
    - inversion ML as [|? ? ML1 ML2]; subst. destruct (IH ML2) as (ys & Y1 & Y2 & Y3 & Y4).
      destruct (AN l p P) as (y & ans & s & R & NE & VY & CASES). exists (y :: ys).
      split; [apply Forall2_cons; assumption|]. split; [apply Forall_cons; assumption|].
      destruct CASES as [(a & Ia & Ha & SU)|(-> & -> & NO)].
      + destruct (MI a ans Ia) as [M _]. split; [apply Forall2_cons; [exact (modest_fits l a ans s y ML1 M SU VY) | exact Y3]|].
        intros wss H. cbn [combine] in H. inversion H as [|? ws ? wss' H1 H2]; subst. cbn [combine]. apply Forall2_cons; [|exact (Y4 _ H2)].
        left. exists a, ans, s. split; [exact (Permutation_in _ PM Ia)|]. split; [exact Ha|]. split; [exact SU|].
        destruct M as (_ & _ & _ & _ & _ & _ & _ & B & Z & _).
        apply (columns_tell l y ans s ws); [unfold short; lia|unfold short; lia|exact VY|exact H1].
      + split; [apply Forall2_cons; [|exact Y3]|].
        { pose proof (no_data_fits l ML1) as X. destruct l as [[lon lat] elev]. unfold fits_columns in *. rewrite VY. exact X. }
        intros wss H. cbn [combine] in H. inversion H as [|? ws ? wss' H1 H2]; subst. cbn [combine]. apply Forall2_cons; [|exact (Y4 _ H2)].
        right. split; [intros a v I; exact (NO a v (Permutation_in _ (Permutation_sym PM) I))|].
        apply (columns_tell l y no_data (i2f64 (-999)) ws); [unfold short; cbn; lia|unfold short; cbn; lia|exact VY|exact H1]. }
  destruct YS as (ys & Y1 & Y2 & Y3 & Y4).
  destruct (C73_read_back DB (EQ d2) T S L qargs c w MAXRES db None junk ls fs ys) as (lines & fs' & wss & M & CO & LL & LO); try assumption.
  - split; [exact PA|]. split; [split; [rewrite CD; exact OP | rewrite CX; reflexivity]|]. split; [exact AK|]. split; [intros N; contradiction|].
    split; [exact SH|]. split; [intros db' a h p N; discriminate|]. split; [exact LJ|]. split; [exists text; auto|]. split; assumption.
  - split; [exact CL | intros x' N; discriminate].
  - exists d1, d2, (w ++ warned ys)%list, lines, fs', wss. split; [exact G1|]. split; [exact G2|]. split; [exact M|]. split; [exact (Y4 wss CO)|]. split; assumption.
Qed.
Print Assumptions C74_lines.

(** In particular the line of a grid point with data shows its own values, in SI units. *)
Theorem C74_grid_points : forall F L files fp grids recss lev pts l p ws,
  model_files F L files fp grids recss -> good_model (concat recss) ->
  In (lev, pts) grids -> In l pts -> has_data l = true ->
  let here := (l_lon l, l_lat l, si64 (l_elev l)) in
  placed L here p -> told (concat recss) here p ws ->
  exists a s, holds a p /\ a_level a = lev /\ surface_elev (a_z a) lev (si_values (l_pay l)) s /\ tells here (si_values (l_pay l)) s ws.
Proof.
  intros F L files fp grids recss lev pts l p ws MF GM IG IP D here PL TO.
  destruct MF as (text & tail & listed & M1 & M2 & M3 & M4 & M5).
  assert (LV : 0 <= lev <= 31).
  { clear -M4 IG. induction M4 as [|n [lev0 pts0] ns gs H _ IH]; [contradiction|]. destruct IG as [Q|IG]; [|exact (IH IG)].
    injection Q as -> ->. destruct H as (t & _ & (a & b & c & d & e & f & _ & _ & _ & _ & G)). destruct G as (_ & G & _). cbn [fst] in G. lia. }
  destruct (points_recs _ _ _ M5 _ _ _ IG IP D) as ([b v] & IR & (cd & Q) & V). cbn [fst snd] in Q, V. subst v.
  destruct p as [[p r] s]. destruct PL as [C (I1 & I2 & I3)].
  destruct (geom_contains L (mkAddr 0 0 0 0 lev Leaf) (l_lon l) (l_lat l) (si64 (l_elev l)) p r s LV C I1 I2 I3) as (b' & Qb & LB & _ & _ & H1 & H2 & H3).
  rewrite Qb in Q. injection Q as <- <-.
  assert (H : holds b' (p, r, s)) by (split; [exact H1|]; split; [exact H2 | exact H3]).
  destruct TO as [(a & v & g & IA & HA & SU & TE)|[N _]]; [|destruct (N _ _ IR H)].
  assert (X : (a, v) = (b', si_values (l_pay l))).
  { destruct GM as (_ & O & P). destruct (O _ _ IA) as [OA _], (O _ _ IR) as [OB _].
    destruct (pairs_in _ _ (fun x y H => conj (proj2 H) (proj1 H)) P (a, v) (b', si_values (l_pay l)) IA IR) as [X|[X1 X2]]; [exact X|].
    cbn [fst] in X1, X2. exfalso. destruct (Z.le_ge_cases (a_level a) (a_level b')) as [LE|GE].
    - apply X1. apply (cover_holds a b' (p, r, s)); assumption.
    - apply X2. apply (cover_holds b' a (p, r, s)); assumption. }
  injection X as -> ->. exists b', g. cbn [a_level] in LB. rewrite LB in SU. auto.
Qed.
Print Assumptions C74_grid_points.

(** ** Example *)
From Verif Require Import FloatFacts ToyLib ToyDb ToyGrid ExtractFacts.
From Flocq Require Import Core BinarySingleNaN.
Open Scope string_scope. Open Scope Z_scope.
(** The grid of ToyGrid.v with longitudes and latitudes in degrees. *)
Definition deg_lines : list (list string) :=
  [["-122.5"; "37.75"; "-1.5"; "3.2"; "1.8"; "2.4"; "100"; "50"; "1.5"; "1"; "2"; "1"];
   ["-122"; "37.75"; "-1.5"; "-999"; "-999"; "-999"; "-999"; "-999"; "-999"; "0"; "0"; "0"];
   ["-121.5"; "37.75"; "-1.5"; "3.5"; "2.1"; "-999"; "90"; "45"; "-999"; "7"; "3"; "2"]].
Definition deg_north : f64 := dec64 3775 2.
Definition deg_map : list (f64 * f64) :=
  [(dec64 (-1225) 1, toy_x); (dec64 (-122) 0, dec64 3569084784 4); (dec64 (-1215) 1, dec64 4169084784 4)].
Definition deg : libm := mkLibm (m_cos toy) (m_sin toy) (m_log toy)
  (fun a b => if SFeqb b deg_north then option_map (fun x => (snd x, toy_y)) (find (fun x => SFeqb (fst x) a) deg_map) else None)
  (fun _ _ => Some (dec64 (-122) 0, deg_north)).
Definition deg_text : string := lay (toy_head ++ concat deg_lines).
Definition deg_files : GridIngester.texts := fun n =>
  if String.eqb n "list.txt" then Some "grid.txt " else if String.eqb n "grid.txt" then Some deg_text else None.
Definition deg_pts : list GridIngester.gridline := Eval vm_compute in map parse_line deg_lines.
Definition deg_at (l : GridIngester.gridline) : addr :=
  match lonLatElevToAddr deg (mkAddr 0 0 0 0 5 Leaf) (l_lon l) (l_lat l) (si64 (l_elev l)) with
  | Val (_, a) => a | _ => mkAddr 0 0 0 0 0 Leaf end.
Definition deg_recs : list (addr * payload) := Eval vm_compute in map (fun l => (deg_at l, si_values (l_pay l))) (filter has_data deg_pts).
Definition deg_texts : texts := column_texts (mkTexts toy_fmt (t_atoi app_texts) (t_atof app_texts) (t_fixed app_texts) (t_int app_texts)).
Definition deg_env (d : disk) : env contents :=
  mkEnv (fun n _ => option_map d_recs (d n)) (fun _ => true) lsearch (e_writable toy_env) (e_sci toy_env) (e_gen toy_env) (e_straddr toy_env).
Definition deg_args : list string := ["-i"; "where"; "-d"; "model.etree"; "-o"; "answers"].
Definition deg_where : string := "-122.5 37.75 -1500" ++ NL ++ "-121.5 37.75 -1500 -122 37.75 -1500" ++ NL.
Definition deg_os : os := mkOs (fun n => if String.eqb n "where" then Some deg_where else None) (fun n => String.eqb n "answers") (fun _ => true).

Lemma deg_reads : Forall2 (reads toy_fmt) deg_lines deg_pts.
Proof. repeat constructor; do 12 eexists; (split; [reflexivity|]); repeat split; vm_compute; reflexivity. Qed.
Lemma deg_grid : grid_file toy_fmt deg deg_text 5 deg_pts.
Proof.
  exists deg_text, "", toy_head, deg_lines, toy_rh, toy_rv. split; [symmetry; apply append_nil_r|].
  split; [apply lay_laid; vm_compute; reflexivity|]. split; [exact toy_header|]. split; [exact deg_reads|].
  split; [vm_compute; reflexivity|]. split; [lia|]. split; vm_compute; reflexivity.
Qed.
Lemma deg_grid_recs : grid_recs deg 5 deg_pts deg_recs.
Proof.
  unfold grid_recs. assert (F : filter has_data deg_pts = [nth 0 deg_pts (parse_line []); nth 2 deg_pts (parse_line [])]) by (vm_compute; reflexivity).
  rewrite F. apply Forall2_cons; [split; [exists 0; vm_compute; reflexivity | vm_compute; reflexivity]|].
  apply Forall2_cons; [split; [exists 0; vm_compute; reflexivity | vm_compute; reflexivity] | apply Forall2_nil].
Qed.
Lemma deg_model : model_files toy_fmt deg deg_files "list.txt" [(5, deg_pts)] [deg_recs].
Proof.
  exists "grid.txt ", "", ["grid.txt"]. split; [reflexivity|]. split; [apply (lay_laid ["grid.txt"]); reflexivity|].
  split; [left; reflexivity|]. split; [|constructor; [exact deg_grid_recs | constructor]].
  constructor; [exists deg_text; split; [reflexivity | exact deg_grid] | constructor].
Qed.
Lemma deg_octants : forall r, In r deg_recs -> octant_ok (fst r).
Proof.
  intros r Hr. apply octant_okb_ok. assert (X : forallb (fun r => octant_okb (fst r)) deg_recs = true) by (vm_compute; reflexivity).
  rewrite forallb_forall in X. exact (X r Hr).
Qed.
Lemma deg_good : good_model (concat [deg_recs]).
Proof.
  change (concat [deg_recs]) with (deg_recs ++ [])%list. rewrite app_nil_r. split; [discriminate|]. split.
  - assert (X : forallb (fun x => (1 <=? a_level (fst x)) && proper_valuesb (snd x)) deg_recs = true) by (vm_compute; reflexivity).
    intros a v I. split; [exact (deg_octants _ I)|]. rewrite forallb_forall in X. specialize (X _ I). cbn [fst snd] in X.
    apply andb_true_iff in X. destruct X as [X1 X2]. split; [apply Z.leb_le, X1 | apply proper_valuesb_ok, X2].
  - apply FOP_cons; [|apply FOP_cons; [constructor | apply FOP_nil]]. constructor; [|constructor].
    split; intros C; apply ToyDb.coversb_iff in C; vm_compute in C; discriminate.
Qed.
(** A double is known by its value. *)
Lemma double_unique x y : finite_double x -> finite_double y -> value x <> 0%R -> value x = value y -> x = y.
Proof.
  intros [Vx Fx] [Vy Fy] N E. unfold value in *. destruct (valid_ex prec64 emax64 x Vx) as [bx ->]. destruct (valid_ex prec64 emax64 y Vy) as [b_y ->].
  f_equal. rewrite !SF2R_B2SF in *. apply B2R_inj; [..|exact E].
  - destruct bx; try discriminate Fx; [exfalso; apply N; reflexivity | reflexivity].
  - destruct b_y; try discriminate Fy; [exfalso; apply N; rewrite E; reflexivity | reflexivity].
Qed.
Definition centre_of_octant (a : addr) : f64 := add64 (div64 (sub64 (centre (a_level a) (a_z a)) ROOTLEN) VERTEXAG) MAXELEV.
Definition modestb (x : addr * payload) : bool :=
  let '(a, v) := x in let c := centre_of_octant a in
  forallb (fun y => between 1 (-99999) 999999 (widen y)) [p_vp v; p_vs v; p_density v] &&
  forallb (fun y => between 1 (-999999) 9999999 (widen y)) [p_qp v; p_qs v; p_dfs v] &&
  (valid_binary prec32 emax32 (p_dfs v) && is_fin (p_dfs v)) &&
  ((-999 <=? p_block v) && (p_block v <=? 9999) && (-999 <=? p_zone v) && (p_zone v <=? 9999)) &&
  (negb (SFeqb c f_zero) && between 1 (-999999) 9999999 (add64 c (widen (p_dfs v)))).
Lemma modest_checked a v : octant_ok a -> modestb (a, v) = true -> modest a v.
Proof.
  intros (L1 & L2 & CO) H. unfold modestb in H. rewrite !andb_true_iff, !forallb_forall, !Z.leb_le in H.
  destruct H as ((((A & B) & [C1 C2]) & (((D1 & D2) & D3) & D4)) & [E1 E2]).
  split; [apply between_check, A; cbn; tauto|]. split; [apply between_check, A; cbn; tauto|]. split; [apply between_check, A; cbn; tauto|].
  split; [apply between_check, B; cbn; tauto|]. split; [apply between_check, B; cbn; tauto|]. split; [apply between_check, B; cbn; tauto|].
  split; [split; assumption|]. split; [lia|]. split; [lia|].
  intros s (c & (F & Ev) & ->). destruct (CO (a_z a)) as [Z1 Z2]; [cbn; tauto|].
  destruct (centre_elev_ok (a_level a) (a_z a) L1 Z1 Z2) as [F' Ev']. fold (centre_of_octant a) in F', Ev'.
  assert (Q : centre_of_octant a = c); [|rewrite <- Q; apply between_check, E2].
  apply double_unique; [exact F' | exact F | | rewrite Ev', Ev; reflexivity].
  intros N. apply negb_true_iff in E1. destruct F' as [Vc Fc]. unfold value in N.
  destruct (centre_of_octant a) as [b| | |b m e]; try discriminate.
  unfold SF2R in N. apply eq_0_F2R in N. destruct b; discriminate N.
Qed.
Definition deg_places : list location :=
  Eval vm_compute in [(dec64 (-1225) 1, deg_north, i2f64 (-1500)); (dec64 (-1215) 1, deg_north, i2f64 (-1500)); (dec64 (-122) 0, deg_north, i2f64 (-1500))].
Definition deg_config : config := mkConfig "where" "answers" "model.etree" "" "" "maxres" f_zero 128 (i2f64 1000000).
Lemma deg_opens : opens_files deg_env.
Proof. intros d n cache f Q. exists (d_recs f). cbn. rewrite Q. split; [reflexivity|]. split; [reflexivity|]. intros _. apply lsearch_ok. Qed.
Lemma deg_placed : exists ps, Forall2 (placed deg) deg_places ps.
Proof.
  assert (X : forall l, In l deg_places -> exists p, placed deg l p).
  { intros [[lon lat] elev] I.
    assert (K : exists cd c, lonLatElevToAddr deg (mkAddr 0 0 0 0 5 Leaf) lon lat elev = Val (cd, c) /\ octant_okb c = true /\
      exists x y, m_project deg lon lat = Some (x, y) /\ forallb (valid_binary prec64 emax64) [rot_p deg x y; rot_q deg x y; vert_r elev] = true).
    { destruct I as [Q|[Q|[Q|[]]]]; injection Q as <- <- <-; do 2 eexists; (split; [vm_compute; reflexivity|]);
        (split; [vm_compute; reflexivity|]); do 2 eexists; (split; [vm_compute; reflexivity | vm_compute; reflexivity]). }
    destruct K as (cd & c & Q & O & x & y & P & V).
    destruct (address_place deg (mkAddr 0 0 0 0 5 Leaf) lon lat elev cd c) as (p & q & r & A & B & _).
    - cbn. lia.
    - exact Q.
    - apply octant_okb_ok, O.
    - intros p q r (x' & y' & E & -> & -> & ->). rewrite P in E. injection E as <- <-. cbn [forallb] in V. rewrite !andb_true_iff in V. tauto.
    - exists (p, q, r). split; assumption. }
  revert X. generalize deg_places. induction l as [|l ls IH]; intros X; [exists []; constructor|].
  destruct (X l) as [p P]; [left; reflexivity|]. destruct IH as [ps PS]; [intros l' I; apply X; right; exact I|]. exists (p :: ps). constructor; assumption.
Qed.
(** The hypotheses of C74_lines hold: *)
Example C74_example : exists ps d1 d2 said lines fs' wss,
  genMain toy_etree toy_fmt deg_texts deg deg_files gen_args (fun _ => None) = (d1, Val (0, [])) /\ avgMain toy_etree avg_args d1 = (d2, Val (0, [])) /\
  main (deg_env d2) deg_texts deg_os deg junk9 deg_args (fun _ => None) = Val (mkResult 0 said (Some lines) fs') /\
  Forall2 (fun lp ws => told deg_recs (fst lp) (snd lp) ws) (combine deg_places ps) wss /\
  Forall2 (fun ws line => laid_out ws (line ++ newline)) wss lines.
Proof.
  destruct deg_placed as [ps PS]. exists ps.
  destruct (C74_lines toy_etree toy_fmt deg_texts deg deg_files gen_args gen_named avg_args avg_named "list.txt" "tmp.etree" "raw.etree" "model.etree"
    (fun _ => None) [(5, deg_pts)] [deg_recs] contents deg_env deg_os deg_args deg_config [] junk9 deg_where deg_places ps (fun _ => None))
    as (d1 & d2 & said & lines & fs' & wss & X1 & X2 & X3 & X4 & X5 & _).
  - exact toy_storage.
  - exact deg_model.
  - exact deg_good.
  - exact gen_command.
  - split; [reflexivity | discriminate].
  - split; [reflexivity | discriminate].
  - split; [reflexivity | discriminate].
  - discriminate.
  - exact avg_command.
  - split; [reflexivity | discriminate].
  - split; [reflexivity | discriminate].
  - discriminate.
  - exact deg_opens.
  - apply column_prints.
  - vm_compute. reflexivity.
  - reflexivity.
  - reflexivity.
  - reflexivity.
  - reflexivity.
  - reflexivity.
  - reflexivity.
  - eapply lists_check; [vm_compute; reflexivity..|]. repeat (apply located_cons; [reflexivity..|]). apply located_nil.
  - reflexivity.
  - intros l. reflexivity.
  - exact PS.
  - repeat (apply Forall_cons; [split; [split; vm_compute; reflexivity|]; split; apply between_check; vm_compute; reflexivity|]). apply Forall_nil.
  - change (concat [deg_recs]) with (deg_recs ++ [])%list. rewrite app_nil_r.
    assert (M : forallb modestb deg_recs = true) by (vm_compute; reflexivity). intros a v I. rewrite forallb_forall in M.
    split; [apply modest_checked; [exact (deg_octants _ I) | exact (M _ I)]|].
    destruct I as [Q|[Q|[]]]; injection Q as <- <-; eexists; vm_compute; reflexivity.
  - exists d1, d2, said, lines, fs', wss. cbn [concat] in X4. rewrite app_nil_r in X4. auto.
Qed.
(** and this is what the query application prints: the values of the first and the third
    line of the grid file, and no data at the point that has none. *)
Definition deg_run :=
  let d1 := fst (genMain toy_etree toy_fmt deg_texts deg deg_files gen_args (fun _ => None)) in
  let d2 := fst (avgMain toy_etree avg_args d1) in
  main (deg_env d2) deg_texts deg_os deg junk9 deg_args (fun _ => None).
Example C74_example_lines : app_seen deg_run = Some (0, [Said ("WARNING: No data for #, #, #." ++ NL)],
  Some ["-122.50000 37.75000  -1500.0  3200.0  1800.0  2400.0    100.0     50.0   1500.0    1    2  -4900.0";
        "-121.50000 37.75000  -1500.0  3500.0  2100.0  -999.0     90.0     45.0   -999.0    7    3  -7399.0";
        "-122.00000 37.75000  -1500.0  -999.0  -999.0  -999.0   -999.0   -999.0   -999.0    0    0   -999.0"], None).
Proof. vm_compute. reflexivity. Qed.
