(** Specification vocabulary for reading the output of the isosurface application. *)
From Coq Require Import ZArith Reals String Ascii List.
From Verif Require Import Outcome Float SpecGeom Geom VMQuery QueryApp IsoApp SpecText SpecApp SpecIso SpecColumns.
Import ListNotations.
Open Scope Z_scope.

(** At the point the surface is at [topo], the wave speeds do not increase with the
    elevation, are below the target at the surface and reach it at the lowest elevation;
    the model is less than 900 km deep there and the latitude fits its column. *)
Definition layered {DB} (E : env DB) (g : libm) (c : isoconf) (q : qstate DB) (eps : R) (l : point) (topo : f64) (vs : f64 -> f64) : Prop :=
  let '(lon, lat) := l in let L := i_elevMin c in
  surface E q lon lat topo /\ profile E q lon lat L topo vs /\ search_range L topo /\ good_log eps g L topo /\
  decreasing vs L topo /\ (value (vs topo) < value (i_vs c) <= value (vs L))%R /\ (value topo - value L <= 900000)%R /\
  finite_double lon /\ from_to 5 (-999999) 9999999 lat.

(** The three words of a point: longitude and latitude, and a depth in metres.  Below that
    depth the target is reached; at depths that are smaller by more than the resolution of
    the search it is not. *)
Definition depth_told (c : isoconf) (eps : R) (l : point) (topo : f64) (vs : f64 -> f64) (ws : list string) : Prop :=
  let '(lon, lat) := l in
  exists w1 w2 w3 n, ws = [w1; w2; w3] /\ shows 5 lon w1 /\ shows 5 lat w2 /\ signed (with_point 1) n w3 /\
  let depth := (IZR n / 10)%R in
  (forall a, between (i_elevMin c) topo a -> (depth + 1 / 10 <= value topo - value a)%R -> (value (i_vs c) <= value (vs a))%R) /\
  (forall a, between (i_elevMin c) topo a -> (value topo - value a <= depth - resolution eps - 1 / 10)%R -> (value (vs a) < value (i_vs c))%R).
