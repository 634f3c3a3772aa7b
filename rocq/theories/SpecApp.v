(** Specification vocabulary for the query application: what a command line asks
    for, which locations a text file lists, what the output file should hold. *)
From Coq Require Import ZArith Bool String Ascii List.
From Verif Require Import Outcome Float Payload Addr Geom ErrorHandler VMQuery Stream GetOpt QueryApp SpecText SpecQuery SpecHist.
Import ListNotations.
Open Scope Z_scope.

(** ** Command lines *)
(** Options given as separate words: -k value. *)
Definition opt_words (l : list (ascii * string)) : list string :=
  flat_map (fun kv => [String "-" (String (fst kv) ""); snd kv]) l.
Definition known_letter (k : ascii) : Prop := In k ["c"; "d"; "e"; "i"; "l"; "o"; "r"; "s"; "t"]%char.
(** The last value given for an option. *)
Definition given (k : ascii) (l : list (ascii * string)) (start : string) : string :=
  last_given (fun kv : ascii * string => if Ascii.eqb (fst kv) k then Some (snd kv) else None) l start.
Definition given_as {A} (f : string -> A) (k : ascii) (l : list (ascii * string)) (start : A) : A :=
  last_given (fun kv : ascii * string => if Ascii.eqb (fst kv) k then Some (f (snd kv)) else None) l start.
(** What the options ask for. *)
Definition asked_for (T : texts) (l : list (ascii * string)) : config :=
  mkConfig (given "i" l "") (given "o" l "") (given "d" l "") (given "e" l "") (given "l" l "")
    (given "t" l "maxres") (given_as (t_atof T) "r" l f_zero) (given_as (t_atoi T) "c" l 128)
    (given_as (t_atof T) "s" l (i2f64 1000000)).

(** ** The query object that a configuration asks for *)
Definition kind_name (k : qtype) : string :=
  match k with MAXRES => "maxres" | FIXEDRES => "fixedres" | WAVERES => "waveres" end.
Definition asks_kind (c : config) (k : qtype) : Prop := lowercase (c_type c) = lowercase (kind_name k).
Definition positive_or (x d : f64) : f64 := if flt f_zero x then x else d.
Definition cache_of (c : config) : Z := if 0 <? c_cache c then c_cache c else 128.
Definition squashes (c : config) : bool := negb (feq (c_squash c) (i2f64 1000000)).
Definition nine : list (option Z) := map Some [0; 1; 2; 3; 4; 5; 6; 7; 8].
Definition object {DB} (c : config) (k : qtype) (g : libm) (d x : option DB) (e : errh) : qstate DB :=
  mkQ (match k with MAXRES => f_zero | _ => positive_or (c_res c) f_zero end)
      (if squashes c then c_squash c else i2f64 (-2000))
      d x nine g e (c_db c) (c_dbExt c) k (cache_of c)
      (if String.eqb (c_dbExt c) "" then 128 else cache_of c) (squashes c).
(** The databases open. *)
Definition opens {DB} (E : env DB) (c : config) (d : DB) (x : option DB) : Prop :=
  e_open E (c_db c) (cache_of c) = Some d /\
  if String.eqb (c_dbExt c) "" then x = None
  else exists x', x = Some x' /\ e_open E (c_dbExt c) (cache_of c) = Some x'.
Definition closes {DB} (E : env DB) (d : DB) (x : option DB) : Prop :=
  e_close E d = true /\ forall x', x = Some x' -> e_close E x' = true.

(** ** Locations in a text file *)
Definition location := (f64 * f64 * f64)%type.
Definition numeral (F : numfmt) (w : string) (v : f64) : Prop := n_f64 F w = (v, true).
(** The words are the numbers of these locations. *)
Inductive located (F : numfmt) : list string -> list location -> Prop :=
| located_nil : located F [] []
| located_cons : forall a b c lon lat elev ws ls, numeral F a lon -> numeral F b lat -> numeral F c elev ->
    located F ws ls -> located F (a :: b :: c :: ws) ((lon, lat, elev) :: ls).
(** No further location: fewer than three words, or something that is not a number
    among the next three. *)
Definition no_location (F : numfmt) (rest : list string) : Prop :=
  forall a b c r lon lat elev, rest = a :: b :: c :: r ->
    ~ (numeral F a lon /\ numeral F b lat /\ numeral F c elev).
(** The text lists exactly these locations, each followed by white space; a last
    word that ends at the end of the file is not looked at. *)
Definition lists (F : numfmt) (text : string) (ls : list location) : Prop :=
  exists ws rest t e, text = (t ++ e)%string /\ laid_out (ws ++ rest) t /\ unterminated e /\
    located F ws ls /\ no_location F rest.

(** ** Answers *)
(** What a query on its own, on an object with status OK, reports and returns. *)
Record reply := mkReply { y_status : status; y_msg : string; y_vals : list f64 }.
Definition replies {DB} (E : env DB) (q : qstate DB) (l : location) (y : reply) : Prop :=
  let '(lon, lat, elev) := l in
  exists fs olds q' fs', query E q fs (Some olds) lon lat elev = Val (q', fs', y_vals y) /\
    eh_status (q_err q') = y_status y /\ eh_msg (q_err q') = y_msg y.
Definition fails {DB} (E : env DB) (q : qstate DB) (l : location) (o : outcome result) : Prop :=
  let '(lon, lat, elev) := l in
  exists fs olds, List.length olds = 9%nat /\
  (query E q fs (Some olds) lon lat elev = Abort /\ o = Abort \/
   exists why, query E q fs (Some olds) lon lat elev = UB why /\ o = UB why).

(** The line of a location: the location and the nine values; fault block and zone
    as integers. *)
Definition value_of (v : list f64) (n : nat) : f64 := nth n v S754_nan.
Definition line_text (T : texts) (l : location) (v : list f64) (block zone : Z) : string :=
  let '(lon, lat, elev) := l in
  (t_fixed T 5 10 lon ++ t_fixed T 5 9 lat ++ t_fixed T 1 9 elev ++
   t_fixed T 1 8 (value_of v 0) ++ t_fixed T 1 8 (value_of v 1) ++ t_fixed T 1 8 (value_of v 2) ++
   t_fixed T 1 9 (value_of v 3) ++ t_fixed T 1 9 (value_of v 4) ++ t_fixed T 1 9 (value_of v 5) ++
   t_int T 5 block ++ t_int T 5 zone ++ t_fixed T 1 9 (value_of v 8))%string.
Definition short (z : Z) : Prop := -32768 <= z <= 32767.
Definition line_for (T : texts) (l : location) (y : reply) (s : string) : Prop :=
  exists block zone, short block /\ short zone /\
    value_of (y_vals y) 6 = i2f64 block /\ value_of (y_vals y) 7 = i2f64 zone /\
    s = line_text T l (y_vals y) block zone.
(** One line per location, in order. *)
Inductive lines_for (T : texts) : list location -> list reply -> list string -> Prop :=
| lines_nil : lines_for T [] [] []
| lines_cons : forall l y s ls ys ss, line_for T l y s -> lines_for T ls ys ss ->
    lines_for T (l :: ls) (y :: ys) (s :: ss).
(** The messages for standard error: one per answer that is not OK. *)
Definition warned (ys : list reply) : list said :=
  flat_map (fun y => match y_status y with OK => [] | _ => [Said (y_msg y)] end) ys.

(** Every stored fault block and zone is a 16-bit integer. *)
Definition stores_shorts {DB} (E : env DB) (d : option DB) : Prop :=
  forall db a h p, d = Some db -> e_search E db a = Some (h, p) -> short (p_block p) /\ short (p_zone p).

(** ** The log *)
Definition log_text {DB} (E : env DB) (l : location) : string :=
  let '(lon, lat, elev) := l in
  (e_sci E lon ++ ", " ++ e_sci E lat ++ ", " ++ e_sci E elev ++ ", No data" ++ String (ascii_of_nat 10) "")%string.
Definition no_data_reply (y : reply) : bool := feq (value_of (y_vals y) 6) f_zero.
Fixpoint log_of {DB} (E : env DB) (ls : list location) (ys : list reply) : string :=
  match ls, ys with
  | l :: ls', y :: ys' => ((if no_data_reply y then log_text E l else "") ++ log_of E ls' ys')%string
  | _, _ => ""%string
  end.
(** Only the log file changes, if there is one: it is emptied, and gets the lines. *)
Definition logged_files {DB} (E : env DB) (c : config) (fs : files) (text : string) (fs' : files) : Prop :=
  forall m, fs' m =
    if negb (String.eqb (c_log c) "") && negb (String.eqb (c_log c) "/dev/null") && e_writable E (c_log c)
       && String.eqb m (c_log c)
    then Some text else fs m.

(** ** Why a run may end before the first location *)
Definition line_end : string := String (ascii_of_nat 10) "".
Inductive cannot_start {DB} (E : env DB) (S : os) (c : config) : list (option DB) -> list said -> Prop :=
| no_database : forall x, e_open E (c_db c) (cache_of c) = None ->
    (if String.eqb (c_dbExt c) "" then x = None else x = e_open E (c_dbExt c) (cache_of c) /\ x <> None) ->
    cannot_start E S c [x] [Said ("Could not open the etree database '" ++ c_db c ++ "' for querying.")]
| no_extended : c_dbExt c <> ""%string -> e_open E (c_dbExt c) (cache_of c) = None ->
    cannot_start E S c [e_open E (c_db c) (cache_of c)]
      [Said ("Could not open the etree (regional) database '" ++ c_dbExt c ++ "' for querying.")]
| bad_resolution : forall d x, opens E c d x -> ~ asks_kind c MAXRES -> flt (c_res c) f_zero = true ->
    cannot_start E S c [Some d; x] [Said "Query resolution must be a positive value."; Usage]
| bad_kind : forall d x, opens E c d x -> (forall k, ~ asks_kind c k) -> flt (c_res c) f_zero = false ->
    cannot_start E S c [Some d; x]
      [Said ("Could not parse query string '" ++ c_type c ++ "' into a known type of query."); Usage]
| no_input : forall d x k, opens E c d x -> asks_kind c k -> (k <> MAXRES -> flt (c_res c) f_zero = false) ->
    o_read S (c_in c) = None ->
    cannot_start E S c [Some d; x] [Said ("Could not open file '" ++ c_in c ++ "' to read query locations." ++ line_end)]
| no_output : forall d x k text, opens E c d x -> asks_kind c k -> (k <> MAXRES -> flt (c_res c) f_zero = false) ->
    o_read S (c_in c) = Some text -> o_create S (c_out c) = false ->
    cannot_start E S c [Some d; x] [Said ("Could not open file '" ++ c_out c ++ "' to receive query data." ++ line_end)].
