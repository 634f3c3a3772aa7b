(** Specification vocabulary for the isosurface application: the wave speed along a
    vertical line, where it reaches a target, and what the output file should hold. *)
From Coq Require Import ZArith Reals Bool String Ascii List.
From Verif Require Import Outcome Float Payload Addr SpecGeom Geom ErrorHandler VMQuery Stream GetOpt QueryApp IsoApp
  SpecText SpecQuery SpecHist SpecApp.
Import ListNotations.
Open Scope Z_scope.

(** ** One value at one place *)
(** Asked for this value alone, the query object returns [v]. *)
Definition reads {DB} (E : env DB) (q : qstate DB) (name : string) (lon lat z v : f64) : Prop :=
  exists q1 fs old q' fs', set_queryVals (Some [name]) q = Val q1 /\
    query E q1 fs (Some [old]) lon lat z = Val (q', fs', [v]).
(** The same, and the query is not reported as failed. *)
Definition reads_well {DB} (E : env DB) (q : qstate DB) (name : string) (lon lat z v : f64) : Prop :=
  exists q1 fs old q' fs', set_queryVals (Some [name]) q = Val q1 /\
    query E q1 fs (Some [old]) lon lat z = Val (q', fs', [v]) /\ eh_status (q_err q') <> ERROR.

(** ** Profiles *)
(** Between the elevations [L] and [U] of the point, the object answers with the shear
    wave speeds [vs]. *)
Definition between (L U z : f64) : Prop := finite_double z /\ (value L <= value z <= value U)%R.
Definition profile {DB} (E : env DB) (q : qstate DB) (lon lat L U : f64) (vs : f64 -> f64) : Prop :=
  forall z, between L U z -> finite_double (vs z) /\ reads E q "Vs" lon lat z (vs z).
(** Elevations of a search: at most 1000 km from zero, at least one metre apart. *)
Definition search_range (L U : f64) : Prop :=
  finite_double L /\ finite_double U /\
  (Rabs (value L) < 1000000 /\ Rabs (value U) < 1000000 /\ value L + 1 <= value U)%R.
(** The logarithms taken for such a search have a relative error of at most [eps]. *)
Definition good_log (eps : R) (g : libm) (L U : f64) : Prop :=
  let ratio := div64 (sub64 U L) (i2f64 25) in
  (0 <= eps <= / 256)%R /\
  log_within eps ratio (m_log g ratio) /\ log_within eps (i2f64 2) (m_log g (i2f64 2)).
(** The resolution of the search: 12.5 m, and what inexact logarithms add to it. *)
Definition resolution (eps : R) : R := (25 / 2 + 400 * eps + / 1000)%R.

(** The speed is at least the target at [r], and below it at a point at most [w] metres
    higher. *)
Definition crossing (w : R) (vs : f64 -> f64) (t L U r : f64) : Prop :=
  between L U r /\ (value t <= value (vs r))%R /\
  exists u, between L U u /\ (value (vs u) < value t)%R /\ (value r <= value u <= value r + w)%R.
(** The computed middle of two elevations. *)
Definition middle (L U : f64) : f64 := mul64 half64 (add64 U L).
(** The speed rises through the target, downwards, in the upper or the lower half. *)
Definition halves_bracket (vs : f64 -> f64) (t L U : f64) : Prop :=
  let M := middle L U in
  (value (vs U) < value t <= value (vs M) \/ value (vs M) < value t <= value (vs L))%R.
(** The speed does not increase with the elevation. *)
Definition decreasing (vs : f64 -> f64) (L U : f64) : Prop :=
  forall a b, between L U a -> between L U b -> (value a <= value b)%R -> (value (vs b) <= value (vs a))%R.

(** ** The surface *)
Definition down (e : f64) (k : Z) : f64 := add64 e (mul64 (i2f64 k) (dec64 (-125) 1)).
Definition positive (v : f64) : Prop := flt f_zero v = true.
(** The elevation reported for the surface, lowered by the least multiple of 12.5 m, up
    to nine times that, at which the speed is positive; as reported if there is none. *)
Definition surface {DB} (E : env DB) (q : qstate DB) (lon lat topo : f64) : Prop :=
  exists e, reads_well E q "Elevation" lon lat (i2f64 (-5000)) e /\
  ((exists k v, 0 <= k <= 9 /\ topo = down e k /\ reads E q "Vs" lon lat topo v /\ positive v /\
      forall j, 0 <= j < k -> exists v', reads E q "Vs" lon lat (down e j) v' /\ ~ positive v') \/
   (topo = e /\ forall j, 0 <= j <= 9 -> exists v', reads E q "Vs" lon lat (down e j) v' /\ ~ positive v')).

(** ** Points in a text file *)
Definition point := (f64 * f64)%type.
Inductive points (F : numfmt) : list string -> list point -> Prop :=
| points_nil : points F [] []
| points_cons : forall a b lon lat ws ls, numeral F a lon -> numeral F b lat ->
    points F ws ls -> points F (a :: b :: ws) ((lon, lat) :: ls).
Definition no_point (F : numfmt) (rest : list string) : Prop :=
  forall a b r lon lat, rest = a :: b :: r -> ~ (numeral F a lon /\ numeral F b lat).
Definition lists_points (F : numfmt) (text : string) (ls : list point) : Prop :=
  exists ws rest t e, text = (t ++ e)%string /\ laid_out (ws ++ rest) t /\ unterminated e /\
    points F ws ls /\ no_point F rest.

(** ** Runs *)
(** The same operating system, but the file with the locations holds [text]. *)
Definition with_input (S : os) (n text : string) : os :=
  mkOs (fun m => if String.eqb m n then Some text else o_read S m) (o_create S) (o_write S).

(** What the options ask for. *)
Definition iso_letter (k : ascii) : Prop := In k ["c"; "d"; "e"; "i"; "o"; "s"; "v"; "z"]%char.
Definition iso_asked (T : texts) (l : list (ascii * string)) : isoconf :=
  mkIso (given_as (t_atof T) "v" l f_zero) (given "i" l "") (given "o" l "") (given "d" l "") (given "e" l "")
    (given_as (t_atoi T) "c" l 128) (given_as (t_atof T) "s" l (i2f64 1000000)) (given_as (t_atof T) "z" l (i2f64 (-45000))).
Definition iso_complete (c : isoconf) : Prop :=
  feq f_zero (i_vs c) = false /\ i_in c <> ""%string /\ i_out c <> ""%string /\ i_db c <> ""%string.

(** The query object that a configuration asks for. *)
Definition iso_cache (c : isoconf) : Z := if 0 <? i_cache c then i_cache c else 128.
Definition iso_squashes (c : isoconf) : bool := negb (feq (i_squash c) (i2f64 1000000)).
Definition iso_object {DB} (c : isoconf) (g : libm) (d x : option DB) : qstate DB :=
  mkQ f_zero (if iso_squashes c then i_squash c else i2f64 (-2000)) d x nine g eh_new
      (i_db c) (i_dbExt c) MAXRES (iso_cache c) (iso_cache c) (iso_squashes c).
Definition iso_opens {DB} (E : env DB) (c : isoconf) (d : DB) (x : option DB) : Prop :=
  e_open E (i_db c) (iso_cache c) = Some d /\
  if String.eqb (i_dbExt c) "" then x = None
  else exists x', x = Some x' /\ e_open E (i_dbExt c) (iso_cache c) = Some x'.

(** The line of a point. *)
Definition iso_text (T : texts) (lon lat dist : f64) : string :=
  (t_fixed T 5 10 lon ++ t_fixed T 5 9 lat ++ t_fixed T 1 9 dist)%string.

(** At most one message. *)
Definition brief (w : list said) : Prop := w = [] \/ exists m, w = [Said m].
(** The end of the program for an input file with this point alone. *)
Definition ends_alone {DB} (E : env DB) (T : texts) (S : os) (g : libm) (args : list string) (fs : files) (c : isoconf)
    (l : point) (R : outcome result) : Prop :=
  exists text junk, lists_points (t_num T) text [l] /\ isoMain E T (with_input S (i_in c) text) g junk args fs = R.
