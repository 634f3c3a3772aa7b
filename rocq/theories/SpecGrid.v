(** Specification vocabulary for building a database from grid files. *)
From Coq Require Import ZArith Bool String Sorting.Permutation List.
From Verif Require Import Outcome Float Payload Addr SpecOct Geom Store Stream GridIngester SpecText.
Import ListNotations.
Open Scope Z_scope.

(** Twelve words that spell the values of one point. *)
Definition reads (F : numfmt) (ws : list string) (l : gridline) : Prop :=
  exists w1 w2 w3 w4 w5 w6 w7 w8 w9 w10 w11 w12,
  ws = [w1; w2; w3; w4; w5; w6; w7; w8; w9; w10; w11; w12] /\
  n_f64 F w1 = (l_lon l, true) /\ n_f64 F w2 = (l_lat l, true) /\ n_f64 F w3 = (l_elev l, true) /\
  n_f32 F w4 = (p_vp (l_pay l), true) /\ n_f32 F w5 = (p_vs (l_pay l), true) /\
  n_f32 F w6 = (p_density (l_pay l), true) /\
  n_f32 F w7 = (p_qp (l_pay l), true) /\ n_f32 F w8 = (p_qs (l_pay l), true) /\
  n_f32 F w9 = (p_dfs (l_pay l), true) /\
  n_short F w10 = (p_block (l_pay l), true) /\ n_short F w11 = (p_zone (l_pay l), true) /\
  n_int F w12 = (l_vol l, true).

(** Six words of the header: resolutions in km, three dimensions, number of points. *)
Definition header (F : numfmt) (ws : list string) (rh rv : f64) (n : Z) : Prop :=
  exists w1 w2 w3 w4 w5 w6 nx ny nz, ws = [w1; w2; w3; w4; w5; w6] /\
  n_f64 F w1 = (rh, true) /\ n_f64 F w2 = (rv, true) /\
  n_int F w3 = (nx, true) /\ n_int F w4 = (ny, true) /\ n_int F w5 = (nz, true) /\
  n_int F w6 = (n, true).

(** Multiplication by 1000 in double precision. *)
Definition x1000 (x : f64) : f64 := mul64 x (i2f64 1000).
(** a/b is 1 up to 1e-6, in double precision arithmetic. *)
Definition about_one (a b : f64) : bool :=
  negb (flt (dec64 1 6) (SFabs (sub64 (i2f64 1) (div64 a b)))).
(** The resolutions fit the model: ratio 4, and the horizontal one is the edge
    length 1638400 m / 2^lev of the level the geometry chooses for it. *)
Definition grid_fits (L : libm) (rh rv : f64) (lev : Z) : Prop :=
  level L (x1000 rh) = Val lev /\ 0 <= lev < 32 /\
  about_one (div64 (x1000 rh) (x1000 rv)) (i2f64 4) = true /\
  about_one (x1000 rh) (div64 (i2f64 1638400) (i2f64 (2 ^ lev))) = true.

(** A grid file: header and points, followed by anything. *)
Definition grid_file (F : numfmt) (L : libm) (text : string) (lev : Z) (pts : list gridline) : Prop :=
  exists t e hw lines rh rv, text = (t ++ e)%string /\ laid_out (hw ++ concat lines) t /\
    header F hw rh rv (Z.of_nat (List.length pts)) /\ Forall2 (reads F) lines pts /\ grid_fits L rh rv lev.

(** Points with data: fault block and zone are not 0. *)
Definition has_data (l : gridline) : bool :=
  negb (p_block (l_pay l) =? 0) && negb (p_zone (l_pay l) =? 0).

(** Conversion to SI units: times 1000 unless the value is -999. *)
Definition si64 (x : f64) : f64 := if SFeqb x (i2f64 (-999)) then x else x1000 x.
Definition si32 (x : f32) : f32 := if SFeqb x (i2f32 (-999)) then x else narrow (x1000 (widen x)).
Definition si_values (p : payload) : payload :=
  mkPayload (si32 (p_vp p)) (si32 (p_vs p)) (si32 (p_density p)) (p_qp p) (p_qs p)
            (si32 (p_dfs p)) (p_block p) (p_zone p).

(** The record for a point: a leaf octant of level [lev] at the address the geometry
    gives for the location (elevation in m), and the values in SI units. *)
Definition point_rec (L : libm) (lev : Z) (l : gridline) (r : addr * payload) : Prop :=
  (exists code, lonLatElevToAddr L (mkAddr 0 0 0 0 lev Leaf) (l_lon l) (l_lat l) (si64 (l_elev l)) =
                Val (code, fst r)) /\
  snd r = si_values (l_pay l).
Definition grid_recs (L : libm) (lev : Z) (pts : list gridline) (recs : list (addr * payload)) : Prop :=
  Forall2 (point_rec L lev) (filter has_data pts) recs.

(** Storage that takes every octant that is not yet stored. *)
Definition takes_new (E : etree) : Prop :=
  forall l a, (forall x, In x l -> ~ same_octant (fst x) a) -> et_insert E l a = true.
Definition refuses_stored (E : etree) : Prop :=
  forall l a, (exists x, In x l /\ same_octant (fst x) a) -> et_insert E l a = false.
(** Storage whose files are in etree order. *)
Definition in_order (E : etree) : Prop :=
  forall a b, octant_ok a -> octant_ok b -> (et_before E a b = true <-> etree_lt a b).

(** No octant twice. *)
Definition all_different (l : list (addr * payload)) : Prop :=
  ForallOrdPairs (fun x y => ~ same_octant (fst x) (fst y)) l.

(** The file got exactly the new records; its header is as before. *)
Definition got (f f' : dbfile) (recs : list (addr * payload)) : Prop :=
  Permutation (d_recs f') (d_recs f ++ recs)%list /\
  d_schema f' = d_schema f /\ d_meta f' = d_meta f /\ d_size f' = d_size f.

(** The words do not start with a readable line. *)
Definition unreadable (F : numfmt) (ws : list string) : Prop :=
  ~ exists line rest l, ws = (line ++ rest)%list /\ reads F line l.

Definition count (l : list gridline) : Z := Z.of_nat (List.length l).
Definition no_data_points (pts : list gridline) : list gridline :=
  filter (fun l => negb (has_data l)) pts.

(** Grid files with their levels and points, and the records they give. *)
Definition grids_read (F : numfmt) (L : libm) (T : texts) (names : list string)
    (grids : list (Z * list gridline)) : Prop :=
  Forall2 (fun n g => exists text, T n = Some text /\ grid_file F L text (fst g) (snd g)) names grids.
Definition grids_recs (L : libm) (grids : list (Z * list gridline))
    (recss : list (list (addr * payload))) : Prop :=
  Forall2 (fun g r => grid_recs L (fst g) (snd g) r) grids recss.

(** The text starts with the two resolutions. *)
Definition resolutions (F : numfmt) (text : string) (rh rv : f64) : Prop :=
  exists t e w1 w2 ws, text = (t ++ e)%string /\ laid_out (w1 :: w2 :: ws) t /\
    n_f64 F w1 = (rh, true) /\ n_f64 F w2 = (rv, true).

(** The text starts with a header that announces a number of points, which is not negative. *)
Definition has_header (F : numfmt) (text : string) : Prop :=
  exists t e hw ws rh rv n, text = (t ++ e)%string /\ laid_out (hw ++ ws) t /\ header F hw rh rv n /\ 0 <= n.
(** A file gave all its points with data; only one without a proper header can give nothing
    instead. *)
Definition all_or_nothing (F : numfmt) (L : libm) (T : texts) (name : string) (recs : list (addr * payload)) : Prop :=
  exists text, T name = Some text /\
    ((exists lev pts, grid_file F L text lev pts /\ grid_recs L lev pts recs) \/ (~ has_header F text /\ recs = [])).
