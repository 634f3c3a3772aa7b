(** Specification vocabulary for the parameter file of the program that limits
    gradients:

      VsGrader {
        swcorner-lon = -122.0
        ...
      }

    that is, the name of the program in any case, an opening brace, settings of the form
    name = value and a closing brace, separated by white space. *)
From Coq Require Import ZArith Bool Ascii String List.
From Verif Require Import Float Stream VMQuery VsGrader VsRun SpecText SpecQuery.
Import ListNotations.
Open Scope Z_scope.

(** Equal up to the case of letters. *)
Definition named (s name : string) : Prop := lowercase s = lowercase name.

(** What may stand between a name and the delimiter that follows it: up to 127 characters,
    the first one white space, none of them the delimiter. *)
Definition gap (delim : ascii) (g : string) : Prop :=
  (exists c r, g = String c r /\ blank c) /\ ~ In delim (list_ascii_of_string g) /\ (String.length g <= 127)%nat.

(** Settings: name, gap, equals sign, white space or nothing, value, white space. *)
Inductive laid_settings : list (string * string) -> string -> Prop :=
| laid_none : laid_settings [] ""
| laid_one : forall s k g s' v c es t, blanks s -> word k -> gap "=" g -> blanks s' -> word v -> blank c ->
    laid_settings es t -> laid_settings ((k, v) :: es) (s ++ k ++ g ++ "=" ++ s' ++ v ++ String c t).

(** A text that starts with the name of the program, the opening brace and settings. *)
Definition starts_with (es : list (string * string)) (tail text : string) : Prop :=
  exists s name g t, text = (s ++ name ++ g ++ "{" ++ t ++ tail)%string /\
    blanks s /\ word name /\ named name "VsGrader" /\ gap "{" g /\ laid_settings es t.
(** The closing brace, followed by white space and anything else. *)
Definition closing (tail : string) : Prop :=
  exists s c rest, blanks s /\ blank c /\ tail = (s ++ "}" ++ String c rest)%string.
Definition parameter_file (es : list (string * string)) (text : string) : Prop :=
  exists tail, starts_with es tail text /\ closing tail.

(** ** Meaning *)
Definition number_names : list string :=
  ["vs-gradient-max"; "vs-min"; "swcorner-lon"; "swcorner-lat"; "swcorner-elev"; "domain-length"; "domain-width";
   "domain-height"; "resolution-vert"]%string.
(** A known name with a readable value. *)
Definition acceptable (F : numfmt) (e : string * string) : Prop :=
  (exists n, In n number_names /\ named (fst e) n /\ snd (n_f64 F (snd e)) = true) \/
  (named (fst e) "cache-size" /\ snd (n_int F (snd e)) = true) \/
  (named (fst e) "query-resolution" /\ snd (n_f64 F (snd e)) = true) \/
  (named (fst e) "query-type" /\ exists t, In t ["maxres"; "fixedres"; "waveres"]%string /\ named (snd e) t).
Definition unknown_name (k : string) : Prop :=
  forall n, In n (["cache-size"; "query-resolution"; "query-type"; "}"]%string ++ number_names) -> ~ named k n.

(** The last element with a property, if any. *)
Definition last_such {A} (P : A -> Prop) (l : list A) (r : option A) : Prop :=
  match r with
  | Some x => P x /\ exists a b, l = (a ++ x :: b)%list /\ forall y, In y b -> ~ P y
  | None => forall y, In y l -> ~ P y
  end.
(** The value of a setting: the last one given, else the default. *)
Definition setting_is {A} (es : list (string * string)) (counts : string * string -> Prop) (meaning : string -> A) (default x : A) : Prop :=
  exists r, last_such counts es r /\ x = match r with Some e => meaning (snd e) | None => default end.
Definition number_is (F : numfmt) (es : list (string * string)) (name : string) (x : f64) : Prop :=
  setting_is es (fun e => named (fst e) name) (fun v => fst (n_f64 F v)) f_zero x.
(** The settings that must be given (and not be zero), as the messages name them. *)
Definition asked_for : list (string * string) :=
  [("vs-gradient-max", "vs-gradient-max"); ("vs-min", "vs-min"); ("swcorner-lon", "swcorner-lon"); ("swcorner-lat", "swcorner-lat");
   ("swcorner-elev", "swcorner-elev"); ("domain-length", "domain-len"); ("domain-width", "domain-width");
   ("domain-height", "domain-height"); ("resolution-vert", "resolution-vert")]%string.
Definition mentions (m part : string) : Prop := exists a b, m = (a ++ part ++ b)%string.

(** The kinds of query by name. *)
Definition kind_named (w : string) (t : qtype) : Prop :=
  named w (match t with MAXRES => "maxres" | FIXEDRES => "fixedres" | WAVERES => "waveres" end).

(** The settings that the program works with, [v], are those of the file; [v0]: before. *)
Definition understood (F : numfmt) (v0 : vsgrader) (es : list (string * string)) (v : vsgrader) : Prop :=
  number_is F es "vs-gradient-max" (gp_gradient (vg_g v)) /\ number_is F es "vs-min" (gp_minVs (vg_g v)) /\
  number_is F es "swcorner-lon" (gp_lon (vg_g v)) /\ number_is F es "swcorner-lat" (gp_lat (vg_g v)) /\
  number_is F es "swcorner-elev" (gp_elev (vg_g v)) /\ number_is F es "domain-length" (gp_len (vg_g v)) /\
  number_is F es "domain-width" (gp_width (vg_g v)) /\ number_is F es "domain-height" (gp_ht (vg_g v)) /\
  number_is F es "resolution-vert" (gp_res (vg_g v)) /\
  setting_is es (fun e => named (fst e) "cache-size" /\ 0 < fst (n_int F (snd e))) (fun w => fst (n_int F w)) (vg_cache v0) (vg_cache v) /\
  setting_is es (fun e => named (fst e) "query-resolution" /\ fle f_zero (fst (n_f64 F (snd e))) = true) (fun w => fst (n_f64 F w))
    (vg_res v0) (vg_res v) /\
  (exists r, last_such (fun e => named (fst e) "query-type") es r /\
     match r with Some e => kind_named (snd e) (vg_type v) | None => vg_type v = vg_type v0 end) /\
  vg_in v = vg_in v0 /\ vg_out v = vg_out v0 /\ vg_tmp v = vg_tmp v0.
(** Nothing is missing: no number is zero, and there is a resolution unless the query is for
    the maximum. *)
Definition is_zero (x : f64) : Prop := exists b, x = S754_zero b.
Definition complete (v : vsgrader) : Prop :=
  let g := vg_g v in
  (forall x, In x [gp_gradient g; gp_minVs g; gp_lon g; gp_lat g; gp_elev g; gp_len g; gp_width g; gp_ht g; gp_res g] -> ~ is_zero x) /\
  (vg_type v = MAXRES \/ fle (vg_res v) f_zero = false).
