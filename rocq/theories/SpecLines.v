(** Specification vocabulary for what the printed lines say about the grid files. *)
From Coq Require Import ZArith Bool Reals String List.
From Verif Require Import Outcome Float Payload Addr SpecOct SpecAvg SpecGeom Geom GeomProof VMQuery Store SpecQuery QueryApp SpecApp SpecColumns.
From Verif Require QuerySurface.
Import QuerySurface(finite_single).
Import ListNotations.
Open Scope Z_scope.

(** Databases are opened from the files that exist; searching works, and so does closing. *)
Definition opens_files {DB} (EQ : disk -> env DB) : Prop :=
  forall d n cache f, d n = Some f -> exists db, e_open (EQ d) n cache = Some db /\ e_close (EQ d) db = true /\
    (db_ok (d_recs f) -> searches (e_search (EQ d) db) (d_recs f)).

(** The place of a location, inside the model. *)
Definition placed (L : libm) (l : location) (w : place) : Prop :=
  let '(lon, lat, elev) := l in let '(p, q, r) := w in coords L lon lat elev p q r /\ place_inside w.

(** The numbers fit their columns. *)
Definition modest (a : addr) (v : payload) : Prop :=
  from_to 1 (-99999) 999999 (widen (p_vp v)) /\ from_to 1 (-99999) 999999 (widen (p_vs v)) /\
  from_to 1 (-99999) 999999 (widen (p_density v)) /\ from_to 1 (-999999) 9999999 (widen (p_qp v)) /\
  from_to 1 (-999999) 9999999 (widen (p_qs v)) /\ from_to 1 (-999999) 9999999 (widen (p_dfs v)) /\
  finite_single (p_dfs v) /\ -999 <= p_block v <= 9999 /\ -999 <= p_zone v <= 9999 /\
  forall s, surface_elev (a_z a) (a_level a) v s -> from_to 1 (-999999) 9999999 s.
Definition modest_location (l : location) : Prop :=
  let '(lon, lat, elev) := l in
  finite_double lon /\ from_to 5 (-999999) 9999999 lat /\ from_to 1 (-999999) 9999999 elev.

(** The words of a line show the location, the values of a record and the elevation of
    the ground. *)
Definition tells (l : location) (v : payload) (ground : f64) (ws : list string) : Prop :=
  let '(lon, lat, elev) := l in
  Forall2 (fun (shown : string -> Prop) w => shown w)
    [shows 5 lon; shows 5 lat; shows 1 elev;
     shows 1 (widen (p_vp v)); shows 1 (widen (p_vs v)); shows 1 (widen (p_density v));
     shows 1 (widen (p_qp v)); shows 1 (widen (p_qs v)); shows 1 (widen (p_dfs v));
     signed plain (p_block v); signed plain (p_zone v); shows 1 ground] ws.
(** The line of a location: the record whose octant holds it, or no data. *)
Definition told (recs : list (addr * payload)) (l : location) (w : place) (ws : list string) : Prop :=
  (exists a v s, In (a, v) recs /\ holds a w /\ surface_elev (a_z a) (a_level a) v s /\ tells l v s ws) \/
  ((forall a v, In (a, v) recs -> ~ holds a w) /\ tells l no_data (i2f64 (-999)) ws).
