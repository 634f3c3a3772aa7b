(** Specification vocabulary for queries.

    A database is a finite list of stored octants with their values.  A location
    is given by its three model coordinates.  Nothing here depends on the model
    of the query code except the data types. *)
From Coq Require Import ZArith Bool List String Ascii Reals.
From Verif Require Import Outcome Float Payload Addr SpecOct SpecGeom.
Import ListNotations.
Open Scope Z_scope.

Definition contents := list (addr * payload).

(** Stored octants are well formed and stored once. *)
Definition db_ok (db : contents) : Prop :=
  (forall h p, In (h, p) db -> octant_ok h) /\
  (forall h p h' p', In (h, p) db -> In (h', p') db -> same_octant h h' -> (h, p) = (h', p')).

(** Contract of the storage library's search for an address in a database: the
    finest stored octant whose cube contains the cube of the address, if any. *)
Definition searches (search : addr -> option (addr * payload)) (db : contents) : Prop :=
  forall a, match search a with
  | Some (h, p) => In (h, p) db /\ covers h a /\
      forall h' p', In (h', p') db -> covers h' a -> a_level h' <= a_level h
  | None => forall h p, In (h, p) db -> ~ covers h a
  end.

(** A location: model coordinates along the three axes. *)
Definition place := (f64 * f64 * f64)%type.
Definition holds (h : addr) (w : place) : Prop :=
  let '(p, q, r) := w in
  spans (a_x h) (a_level h) p /\ spans (a_y h) (a_level h) q /\ spans (a_z h) (a_level h) r.
Definition place_inside (w : place) : Prop :=
  let '(p, q, r) := w in inside p /\ inside q /\ inside r.

(** The finest stored octant of level at most [l] that holds the location. *)
Definition finest (db : contents) (l : Z) (w : place) (h : addr) (v : payload) : Prop :=
  In (h, v) db /\ holds h w /\ a_level h <= l /\
  forall h' v', In (h', v') db -> holds h' w -> a_level h' <= l -> a_level h' <= a_level h.
Definition nothing (db : contents) (l : Z) (w : place) : Prop :=
  forall h v, In (h, v) db -> holds h w -> l < a_level h.

(** What "no data" looks like. *)
Definition no_data : payload :=
  let v := i2f32 (-999) in mkPayload v v v v v v 0 0.

(** ** Answers of one database *)
(** Maximum resolution: the finest octant, if it is not an average. *)
Definition max_answer (db : contents) (w : place) (ans : payload) : Prop :=
  (exists h v, finest db 31 w h v /\ ans = match a_type h with Leaf => v | Interior => no_data end) \/
  (nothing db 31 w /\ ans = no_data).

(** Fixed resolution, level [l]: the finest octant of level at most [l], unless it
    is an average over a cube larger than asked for. *)
Definition fixed_answer (db : contents) (l : Z) (w : place) (ans : payload) : Prop :=
  (exists h v, finest db l w h v /\
     ans = match a_type h with
           | Leaf => v
           | Interior => if Z.eqb (a_level h) l then v else no_data end) \/
  (nothing db l w /\ ans = no_data).

(** Wavelength dependent resolution.  The length of an edge of an octant divided by
    its shear wave speed, in double precision. *)
Definition edge_length (l : Z) : f64 := div64 (i2f64 1638400) (i2f64 (2 ^ l)).
Definition crossing_time (h : addr) (v : payload) : f64 :=
  div64 (edge_length (a_level h)) (widen (p_vs v)).
(** The octant is finer than needed for the period (and is not the root). *)
Definition too_fine (period : f64) (h : addr) (v : payload) : Prop :=
  flt f_zero (widen (p_vs v)) = true /\ flt (crossing_time h v) period = true /\ 0 < a_level h.
Definition too_coarse (period : f64) (h : addr) (v : payload) : Prop :=
  a_type h = Interior /\ flt period (crossing_time h v) = true.

(** Climb from octant [h] with values [v] until an octant is no longer too fine:
    the values there and in the octant visited just before, or the octant whose
    enclosing octants are all missing. *)
Inductive climbed :=
| Stopped (previous here : payload)
| Orphan (h : addr).
Inductive climbs (db : contents) (period : f64) (w : place) : payload -> addr -> payload -> climbed -> Prop :=
| climbs_stop : forall prev h v, ~ too_fine period h v ->
    climbs db period w prev h v (Stopped prev v)
| climbs_up : forall prev h v h' v' r, too_fine period h v ->
    finest db (a_level h - 1) w h' v' -> climbs db period w v h' v' r ->
    climbs db period w prev h v r
| climbs_orphan : forall prev h v, too_fine period h v -> nothing db (a_level h - 1) w ->
    climbs db period w prev h v (Orphan h).

(** Half the sum, in the arithmetic of the code: single precision sum, halved in
    double precision, stored in single precision. *)
Definition half_sum (x y : f32) : f32 := narrow (mul64 half64 (widen (add32 x y))).
Definition halfway (prev v : payload) : payload :=
  mkPayload (half_sum (p_vp prev) (p_vp v)) (half_sum (p_vs prev) (p_vs v))
    (half_sum (p_density prev) (p_density v)) (half_sum (p_qp prev) (p_qp v))
    (half_sum (p_qs prev) (p_qs v)) (half_sum (p_dfs prev) (p_dfs v)) (p_block v) (p_zone v).

(** The answer and the octant without parent, if the climb ran into one. *)
Definition wave_answer (db : contents) (period : f64) (w : place) (ans : payload) (orphan : option addr) : Prop :=
  (exists h v, finest db 31 w h v /\
     ((too_coarse period h v /\ ans = no_data /\ orphan = None) \/
      (~ too_coarse period h v /\
        ((exists prev here, climbs db period w v h v (Stopped prev here) /\
            ans = halfway prev here /\ orphan = None) \/
         (exists o, climbs db period w v h v (Orphan o) /\ ans = v /\ orphan = Some o))))) \/
  (nothing db 31 w /\ ans = no_data /\ orphan = None).

(** The three kinds of query: finest, at a level, for a period. *)
Inductive resolution := Finest | AtLevel (l : Z) | ForPeriod (t : f64).
Definition answer (r : resolution) (db : contents) (w : place) (ans : payload) (orphan : option addr) : Prop :=
  match r with
  | Finest => max_answer db w ans /\ orphan = None
  | AtLevel l => fixed_answer db l w ans /\ orphan = None
  | ForPeriod t => wave_answer db t w ans orphan
  end.

(** Detailed database first; the extended one, if any, when that has no data. *)
Definition combined (r : resolution) (db : contents) (ext : option contents) (w : place)
  (ans : payload) (o1 o2 : option addr) : Prop :=
  exists first, answer r db w first o1 /\
    match ext with
    | Some dbx => (p_block first = 0 -> answer r dbx w ans o2) /\
                  (p_block first <> 0 -> ans = first /\ o2 = None)
    | None => ans = first /\ o2 = None
    end.

(** ** Ground surface *)
(** The octant the surface is taken from: the finest of the detailed database if it
    is not an average, else the finest of the extended database. *)
Definition detailed_leaf (db : contents) (w : place) (h : addr) (v : payload) : Prop :=
  finest db 31 w h v /\ a_type h = Leaf.
Definition no_detailed_leaf (db : contents) (w : place) : Prop :=
  nothing db 31 w \/ exists h v, finest db 31 w h v /\ a_type h = Interior.
Definition surface_octant (db : contents) (ext : option contents) (w : place)
  (src : contents) (h : addr) (v : payload) : Prop :=
  (src = db /\ detailed_leaf db w h v) \/
  (no_detailed_leaf db w /\ exists dbx, ext = Some dbx /\ src = dbx /\ finest dbx 31 w h v).
Definition no_surface (db : contents) (ext : option contents) (w : place) : Prop :=
  no_detailed_leaf db w /\ match ext with Some dbx => nothing dbx 31 w | None => True end.
(** Elevation of the centre of an octant, as an exact double. *)
Definition centre_elev (z l : Z) (e : f64) : Prop :=
  finite_double e /\ (value e = (centre_of z l - root) / 4 + 12800)%R.
(** Surface elevation from an octant: its centre plus the stored depth. *)
Definition surface_elev (z l : Z) (v : payload) (s : f64) : Prop :=
  exists c, centre_elev z l c /\ s = add64 c (widen (p_dfs v)).
(** At a location the database holds nothing, an average, or a void. *)
Definition empty_at (db : contents) (w : place) : Prop :=
  nothing db 31 w \/
  exists h v, finest db 31 w h v /\ (a_type h = Interior \/ feq (p_vs v) (i2f32 (-999)) = true).

(** ** Values *)
Inductive vname := NVp | NVs | NDensity | NQp | NQs | NDepthFreeSurf | NFaultBlock | NZone | NElevation.
Definition spelling (n : vname) : string :=
  match n with
  | NVp => "Vp" | NVs => "Vs" | NDensity => "Density" | NQp => "Qp" | NQs => "Qs"
  | NDepthFreeSurf => "DepthFreeSurf" | NFaultBlock => "FaultBlock" | NZone => "Zone"
  | NElevation => "elevation"
  end%string.
(** A stored value as the double returned to the caller. *)
Definition stored_value (n : vname) (v : payload) (surface : f64) : f64 :=
  match n with
  | NVp => widen (p_vp v) | NVs => widen (p_vs v) | NDensity => widen (p_density v)
  | NQp => widen (p_qp v) | NQs => widen (p_qs v) | NDepthFreeSurf => widen (p_dfs v)
  | NFaultBlock => i2f64 (p_block v) | NZone => i2f64 (p_zone v)
  | NElevation => surface
  end.
Definition material (n : vname) : Prop := n <> NElevation.

(** Equality of names up to the case of ASCII letters. *)
Definition letter_lower (c : ascii) : ascii :=
  match Nat.compare (nat_of_ascii c) 65, Nat.compare (nat_of_ascii c) 90 with
  | Lt, _ => c
  | _, Gt => c
  | _, _ => ascii_of_nat (nat_of_ascii c + 32)
  end.
Definition lowercase (s : string) : list ascii := map letter_lower (list_ascii_of_string s).
Definition names_value (s : string) (n : vname) : Prop := lowercase s = lowercase (spelling n).
