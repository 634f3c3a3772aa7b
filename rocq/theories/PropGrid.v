(** C36 to C39: building a database from grid files. *)
From Coq Require Import ZArith Bool Reals Ascii String Sorting.Permutation Sorting.Sorted List Lia Lra.
From Flocq Require Import Core BinarySingleNaN.
From Verif Require Import Outcome Float Payload Addr SpecOct SpecGeom AvgEngine SpecAvg Geom GeomProof Store
  Averager VMCreator SpecStore StoreFacts SpecText Stream StreamFacts GridIngester QuerySurface SpecGrid
  GridFacts GridMain GridRes GridCheck ToyLib AvgFinal ToyGrid PropGeom.
Import ListNotations.
Open Scope Z_scope.

(** C36: of a grid file that can be read and fits the model exactly the points
    with data are added, in SI units, to the records already there (none of them
    twice); the counts are those of the points with and without data. *)
Theorem C36_grid_added : forall E F T L g db file d f text lev pts recs,
  gi_geom g = true -> T file = Some text -> grid_file F L text lev pts ->
  d db = Some f -> grid_recs L lev pts recs -> takes_new E -> all_different (d_recs f ++ recs) ->
  exists d' f', addGrid E F T L g db file d =
      (d', (count (filter has_data pts), count (no_data_points pts)), Val tt) /\
    d' db = Some f' /\ got f f' recs /\ others_untouched db d d'.
Proof.
  intros E F T L g db file d f text lev pts recs H1 H2 H3 H4 H5 H6 H7.
  destruct (grid_added E F T L g db file d f text lev pts recs H1 H2 H3 H4 H5 H6 H7) as (d' & A & B & C).
  exists d', (set_recs f (add_all E recs (d_recs f))). split; [exact A|]. split; [exact B|].
  split; [|exact C]. split; [|repeat split]. cbn [set_recs d_recs].
  apply add_all_perm.
Qed.
Print Assumptions C36_grid_added.

(** The two counts add up to the number of points. *)
Theorem C36_counts_add_up : forall pts,
  count (filter has_data pts) + count (no_data_points pts) = count pts.
Proof.
  unfold count, no_data_points. induction pts as [|p pts IH]; [reflexivity|].
  cbn [filter]. destruct (has_data p); cbn [negb List.length]; lia.
Qed.
Print Assumptions C36_counts_add_up.

(** In storage that keeps the etree order the file stays in order. *)
Theorem C36_stays_sorted : forall E F T L g db file d f text lev pts recs,
  gi_geom g = true -> T file = Some text -> grid_file F L text lev pts ->
  d db = Some f -> grid_recs L lev pts recs -> takes_new E -> all_different (d_recs f ++ recs) ->
  in_order E -> (forall r, In r (d_recs f ++ recs)%list -> octant_ok (fst r)) ->
  StronglySorted etree_lt (map fst (d_recs f)) ->
  exists f', fst (fst (addGrid E F T L g db file d)) db = Some f' /\
    StronglySorted etree_lt (map fst (d_recs f')).
Proof.
  intros E F T L g db file d f text lev pts recs H1 H2 H3 H4 H5 H6 H7 HO HK HS.
  destruct (grid_added E F T L g db file d f text lev pts recs H1 H2 H3 H4 H5 H6 H7) as (d' & A & B & C).
  rewrite A. cbn [fst]. eexists. split; [exact B|].
  cbn [set_recs d_recs]. apply add_all_sorted; assumption.
Qed.
Print Assumptions C36_stays_sorted.

(** The units: km to m, km/s to m/s and g/cm^3 to kg/m^3 are the product by 1000
    correctly rounded to single precision. *)
Theorem C36_units : forall x, finite_single x -> SFeqb x (i2f32 (-999)) = false ->
  (Rabs (value x) <= bpow radix2 118)%R ->
  finite_single (si32 x) /\
  value (si32 x) = round radix2 (FLT_exp (-149) 24) ZnearestE (1000 * value x).
Proof. exact si32_round. Qed.
Print Assumptions C36_units.
(** The elevation of a point, in double precision. *)
Theorem C36_elevation_units : forall x, finite_double x -> SFeqb x (i2f64 (-999)) = false ->
  (Rabs (value x) <= bpow radix2 1000)%R ->
  finite_double (si64 x) /\
  value (si64 x) = round radix2 (FLT_exp (-1074) 53) ZnearestE (1000 * value x).
Proof. exact si64_round. Qed.
Print Assumptions C36_elevation_units.

(** A line that cannot be read stops the program with an exception; the points of
    the lines before it have been stored. *)
Theorem C36_unreadable_line : forall E F T L g db file d f t e hw lines ws n rh rv lev pts recs,
  gi_geom g = true -> T file = Some (t ++ e)%string -> unterminated e ->
  laid_out (hw ++ concat lines ++ ws) t -> header F hw rh rv n -> grid_fits L rh rv lev ->
  Forall2 (reads F) lines pts -> count pts < n -> unreadable F ws ->
  d db = Some f -> grid_recs L lev pts recs -> takes_new E -> all_different (d_recs f ++ recs) ->
  exists d' f', addGrid E F T L g db file d =
      (d', (count (filter has_data pts), count (no_data_points pts)),
       Throw "Couldn't parse line."%string) /\
    d' db = Some f' /\ got f f' recs /\ others_untouched db d d'.
Proof.
  intros E F T L g db file d f t e hw lines ws n rh rv lev pts recs H1 H2 H3 H4 H5 H6 H7 H8 H9 H10 H11 H12 H13.
  destruct (grid_unreadable E F T L g db file d f t e hw lines ws n rh rv lev pts recs
    H1 H2 H3 H4 H5 H6 H7 H8 H9 H10 H11 H12 H13) as (d' & A & B & C).
  exists d', (set_recs f (add_all E recs (d_recs f))). split; [exact A|]. split; [exact B|].
  split; [|exact C]. split; [|repeat split]. cbn [set_recs d_recs]. apply add_all_perm.
Qed.
Print Assumptions C36_unreadable_line.

(** So does a point in an octant that is already stored. *)
Theorem C36_repeated_octant : forall E F T L g db file d f t e hw lines line rest n rh rv lev pts l a v recs,
  gi_geom g = true -> T file = Some (t ++ e)%string ->
  laid_out (hw ++ concat lines ++ line ++ rest) t -> header F hw rh rv n -> grid_fits L rh rv lev ->
  Forall2 (reads F) lines pts -> reads F line l -> has_data l = true -> count pts < n ->
  d db = Some f -> grid_recs L lev pts recs -> point_rec L lev l (a, v) ->
  takes_new E -> refuses_stored E -> all_different (d_recs f ++ recs) ->
  (exists x, In x (d_recs f ++ recs)%list /\ same_octant (fst x) a) ->
  exists d' f', addGrid E F T L g db file d =
      (d', (count (filter has_data pts), count (no_data_points pts)), Throw (et_error E)) /\
    d' db = Some f' /\ got f f' recs /\ others_untouched db d d'.
Proof.
  intros E F T L g db file d f t e hw lines line rest n rh rv lev pts l a v recs
    H1 H2 H4 H5 H6 H7 H8 H9 H10 H11 H12 H13 H14 H15 H16 H17.
  destruct (grid_refused E F T L g db file d f t e hw lines line rest n rh rv lev pts l a v recs
    H1 H2 H4 H5 H6 H7 H8 H9 H10 H11 H12 H13 H14 H15 H16 H17) as (d' & A & B & C).
  exists d', (set_recs f (add_all E recs (d_recs f))). split; [exact A|]. split; [exact B|].
  split; [|exact C]. split; [|repeat split]. cbn [set_recs d_recs]. apply add_all_perm.
Qed.
Print Assumptions C36_repeated_octant.

(** The whole program: the output database has exactly the records of all grid
    files in etree order, the standard schema, and the description with the date
    and host appended; only the output and the temporary file change. *)
Theorem C36_database_built : forall E F T L g d text tail names grids recss,
  gi_geom g = true -> gi_params g <> ""%string -> gi_tmp g <> ""%string -> gi_out g <> ""%string ->
  gi_tmp g <> gi_out g ->
  T (gi_params g) = Some (text ++ tail)%string -> laid_out names text -> unterminated tail ->
  grids_read F L T names grids -> grids_recs L grids recss ->
  takes_new E -> in_order E -> accepts (et_store E) ->
  (forall d1, can_create E d1 (gi_tmp g) /\ can_create E d1 (gi_out g) /\ et_open E d1 (gi_tmp g) = true) ->
  can_read E (gi_tmp g) -> et_flush E (gi_tmp g) = true ->
  et_close E (gi_tmp g) = true -> et_close E (gi_out g) = true ->
  all_different (concat recss) -> (forall r, In r (concat recss) -> octant_ok (fst r)) ->
  concat recss <> [] ->
  exists d' out, run E F T L g d =
      (d', map (fun gr => (count (filter has_data (snd gr)), count (no_data_points (snd gr)))) grids,
       Val tt) /\
    d' (gi_out g) = Some (mkDb out (Some SCHEMA)
      (Some (gi_desc g ++ String (Ascii.ascii_of_nat 10) "" ++ "created on: " ++ et_now E ++
             "host: " ++ et_host E)%string) 28) /\
    Permutation out (concat recss) /\ StronglySorted etree_lt (map fst out) /\
    (forall n, n <> gi_out g -> n <> gi_tmp g -> d' n = d n).
Proof. exact run_builds. Qed.
Print Assumptions C36_database_built.

(** C37: every text is a list of words, each followed by white space, and possibly
    one more word at its very end. *)
Theorem C37_every_text : forall s, exists ws t e,
  s = (t ++ e)%string /\ laid_out ws t /\ unterminated e.
Proof. exact text_form. Qed.
Print Assumptions C37_every_text.

(** The list of grid files yields the words followed by white space, and nothing
    else: a name that ends at the end of the file is lost without a message. *)
Theorem C37_list_read : forall T g text tail names,
  T (gi_params g) = Some (text ++ tail)%string -> laid_out names text -> unterminated tail ->
  readParams T g = Val names.
Proof. exact list_read. Qed.
Print Assumptions C37_list_read.
Theorem C37_last_name_needs_white_space : forall T1 T2 g text name c names,
  laid_out names text -> word name -> blank c ->
  T1 (gi_params g) = Some (text ++ name)%string ->
  T2 (gi_params g) = Some (text ++ name ++ String c "")%string ->
  readParams T1 g = Val names /\ readParams T2 g = Val (names ++ [name]).
Proof.
  intros T1 T2 g text name c names H1 H2 H3 H4 H5. split.
  - apply (list_read T1 g text name names H4 H1). right; exact H2.
  - apply (list_read T2 g (text ++ name ++ String c "") "").
    + rewrite H5, app_nil_s. reflexivity.
    + apply laid_app; assumption.
    + left; reflexivity.
Qed.
Print Assumptions C37_last_name_needs_white_space.

(** A grid file whose last number ends at the end of the file is rejected, after
    the points of the other lines have been stored. *)
Theorem C37_last_number_needs_white_space :
  forall E F T L g db file d f t e hw lines line l rh rv lev pts recs,
  gi_geom g = true -> T file = Some (t ++ e)%string -> word e ->
  laid_out (hw ++ concat lines ++ line) t -> reads F (line ++ [e]) l ->
  header F hw rh rv (count pts + 1) -> grid_fits L rh rv lev -> Forall2 (reads F) lines pts ->
  d db = Some f -> grid_recs L lev pts recs -> takes_new E -> all_different (d_recs f ++ recs) ->
  exists d' f', addGrid E F T L g db file d =
      (d', (count (filter has_data pts), count (no_data_points pts)),
       Throw "Couldn't parse line."%string) /\
    d' db = Some f' /\ got f f' recs /\ others_untouched db d d'.
Proof.
  intros E F T L g db file d f t e hw lines line l rh rv lev pts recs H1 H2 H3 H4 H5 H6 H7 H8 H9 H10 H11 H12.
  apply (C36_unreadable_line E F T L g db file d f t e hw lines line (count pts + 1) rh rv lev pts recs);
    try assumption; [right; exact H3 | lia |].
  apply eleven_unreadable.
  destruct H5 as (w1 & w2 & w3 & w4 & w5 & w6 & w7 & w8 & w9 & w10 & w11 & w12 & H5 & _).
  apply (f_equal (@List.length string)) in H5. rewrite app_length in H5. cbn in H5. lia.
Qed.
Print Assumptions C37_last_number_needs_white_space.

(** C38: a point outside the domain is stored, at an address outside the root cube. *)
Theorem C38_outside_stored : forall E L db v lon lat elev res lev d f p q r,
  level L res = Val lev -> 0 <= lev <= 31 -> coords L lon lat elev p q r ->
  (exists c, In c [p; q; r] /\ outside c) -> d db = Some f -> takes_new E ->
  let a := mkAddr (2 ^ 32 - 1) (2 ^ 32 - 1) (2 ^ 32 - 1) 0 lev Leaf in
  (forall x, In x (d_recs f) -> ~ same_octant (fst x) a) ->
  exists d' f', insert E L (Some db) v lon lat elev res d = (d', Val tt) /\
    d' db = Some f' /\ got f f' [(a, v)] /\ others_untouched db d d'.
Proof.
  intros E L db v lon lat elev res lev d f p q r HL HB HC HO Hd HN a HD.
  pose proof (geom_outside L (mkAddr 0 0 0 0 lev Leaf) lon lat elev p q r HB HC HO) as G.
  cbn [a_level a_type] in G.
  rewrite (insert_ok E L db v lon lat elev res lev 1 a d f HL G Hd (HN _ _ HD)).
  eexists. eexists. split; [reflexivity|]. split; [apply put_same|].
  split; [|intros n Hn; apply put_other; exact Hn].
  split; [|repeat split]. cbn [set_recs d_recs]. apply (add_all_perm E [(a, v)]).
Qed.
Print Assumptions C38_outside_stored.

(** No octant of the domain contains it or is contained in it, so no search at an
    address of the domain returns it. *)
Theorem C38_never_found : forall lev b, 0 <= lev <= 31 -> octant_ok b ->
  let a := mkAddr (2 ^ 32 - 1) (2 ^ 32 - 1) (2 ^ 32 - 1) 0 lev Leaf in
  ~ covers a b /\ ~ covers b a.
Proof. intros lev b H1 H2. apply bogus_far; assumption. Qed.
Print Assumptions C38_never_found.

(** A second such point of the same level is refused: the program stops. *)
Theorem C38_second_refused : forall E L db v lon lat elev res lev d f p q r,
  level L res = Val lev -> 0 <= lev <= 31 -> coords L lon lat elev p q r ->
  (exists c, In c [p; q; r] /\ outside c) -> d db = Some f -> refuses_stored E ->
  (exists x, In x (d_recs f) /\
     same_octant (fst x) (mkAddr (2 ^ 32 - 1) (2 ^ 32 - 1) (2 ^ 32 - 1) 0 lev Leaf)) ->
  insert E L (Some db) v lon lat elev res d = (d, Throw (et_error E)).
Proof.
  intros E L db v lon lat elev res lev d f p q r HL HB HC HO Hd HN HD.
  pose proof (geom_outside L (mkAddr 0 0 0 0 lev Leaf) lon lat elev p q r HB HC HO) as G.
  cbn [a_level a_type] in G.
  exact (insert_refused E L db v lon lat elev res lev 1 _ d f HL G Hd (HN _ _ HD)).
Qed.
Print Assumptions C38_second_refused.

(** C39: grids with another ratio of the resolutions are rejected and nothing is
    stored. *)
Theorem C39_exaggeration_checked : forall E F T L g db file d text rh rv,
  gi_geom g = true -> T file = Some text -> resolutions F text rh rv ->
  about_one (div64 (x1000 rh) (x1000 rv)) (i2f64 4) = false ->
  addGrid E F T L g db file d = (d, (0, 0),
    Throw ("Vertical exaggeration of " ++ n_show F (div64 (x1000 rh) (x1000 rv)) ++ " in '" ++ file ++
      "' does not match velocity model vertical exaggeration of " ++ n_show F (i2f64 4) ++ ".")%string).
Proof. exact bad_exaggeration. Qed.
Print Assumptions C39_exaggeration_checked.
(** So are grids whose resolution is not that of the nearest level. *)
Theorem C39_resolution_checked : forall E F T L g db file d text rh rv lev,
  gi_geom g = true -> T file = Some text -> resolutions F text rh rv ->
  about_one (div64 (x1000 rh) (x1000 rv)) (i2f64 4) = true ->
  level L (x1000 rh) = Val lev -> 0 <= lev < 32 ->
  about_one (x1000 rh) (div64 (i2f64 1638400) (i2f64 (2 ^ lev))) = false ->
  addGrid E F T L g db file d = (d, (0, 0),
    Throw ("Horizontal resolution of " ++ n_show F (x1000 rh) ++ " in '" ++ file ++
      "' does not fit resolution of nearest level in database of " ++
      n_show F (div64 (i2f64 1638400) (i2f64 (2 ^ lev))) ++ ".")%string).
Proof. exact bad_resolution. Qed.
Print Assumptions C39_resolution_checked.

(** What the two tests mean for resolutions (in km) between 0.1 m and 10000 km: a
    relative deviation of 1e-6, up to one part in 100000 of it. *)
Theorem C39_exaggeration_tolerance : forall rh rv, finite_double rh -> finite_double rv ->
  (/ 10000 <= value rh <= 10000)%R -> (/ 10000 <= value rv <= 10000)%R ->
  (about_one (div64 (x1000 rh) (x1000 rv)) (i2f64 4) = true ->
     (Rabs (value rh / value rv - 4) <= 400004 / 10 ^ 11)%R) /\
  ((Rabs (value rh / value rv - 4) <= 399996 / 10 ^ 11)%R ->
     about_one (div64 (x1000 rh) (x1000 rv)) (i2f64 4) = true).
Proof. exact ratio_check. Qed.
Print Assumptions C39_exaggeration_tolerance.
Theorem C39_resolution_tolerance : forall rh lev, finite_double rh ->
  (/ 10000 <= value rh <= 10000)%R -> 0 <= lev <= 31 ->
  let e := (root / 2 ^ Z.to_nat lev)%R in
  (about_one (x1000 rh) (div64 (i2f64 1638400) (i2f64 (2 ^ lev))) = true ->
     (Rabs (1000 * value rh / e - 1) <= 100001 / 10 ^ 11)%R) /\
  ((Rabs (1000 * value rh / e - 1) <= 99999 / 10 ^ 11)%R ->
     about_one (x1000 rh) (div64 (i2f64 1638400) (i2f64 (2 ^ lev))) = true).
Proof. exact edge_check. Qed.
Print Assumptions C39_resolution_tolerance.

(** One zero resolution is reported as a wrong exaggeration, not as unreadable. *)
Theorem C39_one_zero : forall E F T L g db file d text rh rv s,
  gi_geom g = true -> T file = Some text -> resolutions F text rh rv ->
  (rh = S754_zero s /\ finite_double rv /\ value rv <> 0%R) \/
  (rv = S754_zero s /\ finite_double rh /\ value rh <> 0%R) ->
  exists m, addGrid E F T L g db file d =
    (d, (0, 0), Throw ("Vertical exaggeration of " ++ m)%string).
Proof.
  intros E F T L g db file d text rh rv s H1 H2 H3 H4. eexists.
  apply (bad_exaggeration E F T L g db file d text rh rv H1 H2 H3 (one_zero rh rv s H4)).
Qed.
Print Assumptions C39_one_zero.

(** Two zero resolutions, and a grid file without any words, pass the test and
    reach the conversion of an infinite or NaN level to an integer. *)
Theorem C39_both_zero_undefined : forall E F T L g db file d text s1 s2,
  gi_geom g = true -> T file = Some text -> resolutions F text (S754_zero s1) (S754_zero s2) ->
  (forall s, m_log L (S754_infinity s) = S754_infinity false \/ m_log L (S754_infinity s) = S754_nan) ->
  finite_double (m_log L (i2f64 2)) ->
  exists why, addGrid E F T L g db file d = (d, (0, 0), UB why).
Proof. exact both_zero. Qed.
Print Assumptions C39_both_zero_undefined.
Theorem C39_empty_file_undefined : forall E F T L g db file d text,
  gi_geom g = true -> T file = Some text -> blanks text ->
  m_log L (S754_infinity false) = S754_infinity false -> finite_double (m_log L (i2f64 2)) ->
  exists why, addGrid E F T L g db file d = (d, (0, 0), UB why).
Proof. exact empty_grid. Qed.
Print Assumptions C39_empty_file_undefined.
(** A resolution for which the nearest level is not 0 to 31: undefined shift. *)
Theorem C39_level_out_of_range_undefined : forall E F T L g db file d text rh rv lev,
  gi_geom g = true -> T file = Some text -> resolutions F text rh rv ->
  about_one (div64 (x1000 rh) (x1000 rv)) (i2f64 4) = true ->
  level L (x1000 rh) = Val lev -> ~ (0 <= lev < 32) ->
  exists why, addGrid E F T L g db file d = (d, (0, 0), UB why).
Proof. exact level_out_of_range. Qed.
Print Assumptions C39_level_out_of_range_undefined.
(** A file that ends after the two resolutions is accepted as an empty grid. *)
Theorem C39_short_header_accepted : forall E F T L g db file d t e w1 w2 rh rv lev,
  gi_geom g = true -> T file = Some (t ++ e)%string -> laid_out [w1; w2] t -> unterminated e ->
  n_f64 F w1 = (rh, true) -> n_f64 F w2 = (rv, true) -> grid_fits L rh rv lev ->
  addGrid E F T L g db file d = (d, (0, 0), Val tt).
Proof. exact short_header. Qed.
Print Assumptions C39_short_header_accepted.

(** ** Concrete cases *)
Definition toy_ingester : ingester := mkIngester "list.txt" "model.etree" "tmp.etree" "toy model" true.
Definition toy_texts : texts := fun n =>
  if String.eqb n "list.txt" then Some "grid.txt "%string
  else if String.eqb n "grid.txt" then Some toy_text else None.
Definition toy_db : dbfile := mkDb [] (Some SCHEMA) None 28.
Definition one_db : disk := fun n => if String.eqb n "db" then Some toy_db else None.

(** The grid of ToyGrid.v (two points with data, one without) is added. *)
Example C36_example : exists d' f',
  addGrid toy_etree toy_fmt toy_texts toy toy_ingester "db" "grid.txt" one_db = (d', (2, 1), Val tt) /\
  d' "db"%string = Some f' /\ got toy_db f' toy_recs /\ others_untouched "db" one_db d'.
Proof.
  exact (C36_grid_added toy_etree toy_fmt toy_texts toy toy_ingester "db" "grid.txt" one_db toy_db
    toy_text 5 toy_pts toy_recs eq_refl eq_refl toy_grid_file eq_refl toy_grid_recs toy_takes_new toy_recs_differ).
Qed.
(** Vp 3.2 km/s is stored as 3200 m/s (both rounded to single precision), the
    missing density of the third point as -999, Qs as it is. *)
Example C36_example_values :
  map (fun r => (p_vp (snd r), p_density (snd r), p_qs (snd r))) toy_recs =
  [(i2f32 3200, i2f32 2400, i2f32 50); (i2f32 3500, i2f32 (-999), i2f32 45)].
Proof. vm_compute. reflexivity. Qed.
Example C36_example_sorted :
  exists f', fst (fst (addGrid toy_etree toy_fmt toy_texts toy toy_ingester "db" "grid.txt" one_db)) "db"%string
    = Some f' /\ StronglySorted etree_lt (map fst (d_recs f')).
Proof.
  apply (C36_stays_sorted toy_etree toy_fmt toy_texts toy toy_ingester "db" "grid.txt" one_db toy_db
    toy_text 5 toy_pts toy_recs eq_refl eq_refl toy_grid_file eq_refl toy_grid_recs toy_takes_new
    toy_recs_differ toy_in_order toy_recs_ok). constructor.
Qed.
Example C36_example_database : exists d' out,
  run toy_etree toy_fmt toy_texts toy toy_ingester (fun _ => None) = (d', [(2, 1)], Val tt) /\
  option_map d_recs (d' "model.etree"%string) = Some out /\ Permutation out toy_recs.
Proof.
  destruct (C36_database_built toy_etree toy_fmt toy_texts toy toy_ingester (fun _ => None)
    "grid.txt " "" ["grid.txt"%string] [(5, toy_pts)] [toy_recs]) as (d' & out & H1 & H2 & H3 & _).
  - reflexivity.
  - discriminate.
  - discriminate.
  - discriminate.
  - discriminate.
  - reflexivity.
  - apply (lay_laid ["grid.txt"%string]). reflexivity.
  - left; reflexivity.
  - constructor; [exists toy_text; split; [reflexivity | exact toy_grid_file] | constructor].
  - constructor; [exact toy_grid_recs | constructor].
  - exact toy_takes_new.
  - exact toy_in_order.
  - exact simple_accepts.
  - intros d1. repeat split.
  - repeat split.
  - reflexivity.
  - reflexivity.
  - reflexivity.
  - cbn [concat]. rewrite app_nil_r. exact toy_recs_differ.
  - cbn [concat]. rewrite app_nil_r. exact toy_recs_ok.
  - discriminate.
  - exists d', out. split; [exact H1|].
    change "model.etree"%string with (gi_out toy_ingester). split; [rewrite H2; reflexivity|].
    cbn [concat] in H3. rewrite app_nil_r in H3. exact H3.
Qed.

(** The same file without the white space at its end is rejected; the first point
    with data has been stored. *)
Definition cut_text : string :=
  (lay (toy_head ++ concat (firstn 2 toy_lines) ++ firstn 11 (nth 2 toy_lines [])) ++ "2")%string.
Example C37_example : exists d' f',
  addGrid toy_etree toy_fmt (fun _ => Some cut_text) toy toy_ingester "db" "grid.txt" one_db =
    (d', (1, 1), Throw "Couldn't parse line."%string) /\
  d' "db"%string = Some f' /\ got toy_db f' (firstn 1 toy_recs) /\ others_untouched "db" one_db d'.
Proof.
  pose proof toy_reads as R. unfold toy_lines, toy_pts in R.
  inversion R as [|? ? ? ? R1 R']; subst. inversion R' as [|? ? ? ? R2 R'']; subst.
  inversion R'' as [|? ? ? ? R3 _]; subst.
  pose proof toy_grid_recs as G. unfold grid_recs in G.
  apply (C37_last_number_needs_white_space toy_etree toy_fmt (fun _ => Some cut_text) toy toy_ingester "db"
    "grid.txt" one_db toy_db
    (lay (toy_head ++ concat (firstn 2 toy_lines) ++ firstn 11 (nth 2 toy_lines []))) "2" toy_head (firstn 2 toy_lines) (firstn 11 (nth 2 toy_lines []))
    (nth 2 toy_pts (parse_line [])) toy_rh toy_rv 5 (firstn 2 toy_pts) (firstn 1 toy_recs)).
  - reflexivity.
  - reflexivity.
  - apply wordb_word. reflexivity.
  - apply lay_laid. reflexivity.
  - exact R3.
  - exact toy_header.
  - exact toy_fits.
  - constructor; [exact R1|]. constructor; [exact R2 | constructor].
  - reflexivity.
  - change (filter has_data toy_pts) with
      [nth 0 toy_pts (parse_line []); nth 2 toy_pts (parse_line [])] in G.
    inversion G; subst. unfold grid_recs.
    change (filter has_data (firstn 2 toy_pts)) with [nth 0 toy_pts (parse_line [])].
    constructor; [assumption | constructor].
  - exact toy_takes_new.
  - constructor; [constructor | constructor].
Qed.
Example C37_example_list :
  readParams (fun _ => Some "a.txt b.txt"%string) toy_ingester = Val ["a.txt"%string] /\
  readParams (fun _ => Some "a.txt b.txt "%string) toy_ingester = Val ["a.txt"; "b.txt"]%string.
Proof. split; reflexivity. Qed.

(** A point 10000 km up is outside the domain and is stored. *)
Example C38_example : exists d' f',
  insert toy_etree toy (Some "db"%string) (snd (nth 0 toy_recs (mkAddr 0 0 0 0 0 Leaf, l_pay (parse_line []))))
    toy_x toy_y (i2f64 10000000) (i2f64 51200) one_db = (d', Val tt) /\
  d' "db"%string = Some f' /\
  map fst (d_recs f') = [mkAddr (2 ^ 32 - 1) (2 ^ 32 - 1) (2 ^ 32 - 1) 0 5 Leaf].
Proof. eexists. eexists. split; [vm_compute; reflexivity|]. split; reflexivity. Qed.
Example C38_example_hypotheses :
  level toy (i2f64 51200) = Val 5 /\
  coords toy toy_x toy_y (i2f64 10000000) (rot_p toy toy_x toy_y) (rot_q toy toy_x toy_y) (vert_r (i2f64 10000000)) /\
  outside (vert_r (i2f64 10000000)).
Proof.
  split; [vm_compute; reflexivity|]. split.
  - exists toy_x, toy_y. split; [vm_compute; reflexivity|]. repeat split.
  - split; [vm_compute; reflexivity|]. right; right. split; [vm_compute; reflexivity|]. right.
    unfold root, value. vm_compute. lra.
Qed.

(** 51.2 km with 12.9 km, and 51.0 km with 12.75 km, are rejected; 0 with 0 is
    undefined behaviour. *)
Definition grid_of (rh rv : string) : texts := fun _ => Some (lay [rh; rv; "1"; "1"; "1"; "0"]%string).
Example C39_example : 
  snd (addGrid toy_etree toy_fmt (grid_of "51.2" "12.8") toy toy_ingester "db" "g" one_db) = Val tt /\
  snd (addGrid toy_etree toy_fmt (grid_of "51.2" "12.9") toy toy_ingester "db" "g" one_db) =
    Throw "Vertical exaggeration of ? in 'g' does not match velocity model vertical exaggeration of ?."%string /\
  snd (addGrid toy_etree toy_fmt (grid_of "51.0" "12.75") toy toy_ingester "db" "g" one_db) =
    Throw "Horizontal resolution of ? in 'g' does not fit resolution of nearest level in database of ?."%string /\
  exists why, snd (addGrid toy_etree toy_fmt (grid_of "0" "0") toy toy_ingester "db" "g" one_db) = UB why.
Proof. repeat split; [vm_compute; reflexivity..|]. eexists. vm_compute. reflexivity. Qed.
Example C39_example_resolutions :
  (exists text, grid_of "51.2" "12.9" "g"%string = Some text /\
     resolutions toy_fmt text toy_rh (dec64 129 1)) /\
  about_one (div64 (x1000 toy_rh) (x1000 (dec64 129 1))) (i2f64 4) = false.
Proof.
  split; [|vm_compute; reflexivity]. eexists. split; [reflexivity|].
  exists (lay ["51.2"; "12.9"; "1"; "1"; "1"; "0"]%string), ""%string, "51.2"%string, "12.9"%string, ["1"; "1"; "1"; "0"]%string.
  split; [reflexivity|]. split; [apply lay_laid; reflexivity|]. split; vm_compute; reflexivity.
Qed.
