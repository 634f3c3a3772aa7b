(** Specification vocabulary for the C example program: what can be read from a file of
    locations with fscanf(), and why a run may end before the first location. *)
From Coq Require Import ZArith Bool String Ascii List.
From Verif Require Import Outcome Float Payload Addr Geom ErrorHandler VMQuery Stream GetOpt QueryApp SpecText SpecApp.
Import ListNotations.
Open Scope Z_scope.

(** Options whose value is kept as text. *)
Definition text_letter (k : ascii) : Prop := In k ["d"; "e"; "i"; "l"; "o"; "t"]%char.
Definition short_word (a : string) : Prop := (String.length a < 256)%nat.

Definition readable (F : numfmt) (w : string) : Prop := exists v, numeral F w v.

(** The text lists these locations, each followed by white space, and what follows them
    is numbers only, too few for another location; a last word that ends at the end of
    the file must be a number as well, unless it looks like one up to its end. *)
Definition complete (F : numfmt) (to_end : string -> bool) (text : string) (ls : list location) : Prop :=
  exists ws rest t e, text = (t ++ e)%string /\ laid_out (ws ++ rest) t /\ unterminated e /\
    located F ws ls /\ (List.length rest < 3)%nat /\ Forall (readable F) rest /\
    (e = ""%string \/ readable F e \/ to_end e = true).

(** The numbers before the word that cannot be read replace the first coordinates of the
    location before. *)
Definition overwrite (old : location) (vs : list f64) : location :=
  let '(lon, lat, elev) := old in
  match vs with
  | [] => (lon, lat, elev)
  | [a] => (a, lat, elev)
  | a :: b :: _ => (a, b, elev)
  end.
(** After these locations comes a word that is not a number, before any further location
    is complete; [loc] is what the variables hold then. *)
Definition jammed (F : numfmt) (to_end : string -> bool) (text : string) (ls : list location) (loc : location) : Prop :=
  exists ws nums bad more t e vs, text = (t ++ e)%string /\ unterminated e /\
    located F ws ls /\ Forall2 (numeral F) nums vs /\ (List.length nums < 3)%nat /\ ~ readable F bad /\
    loc = overwrite (last ls (f_zero, f_zero, f_zero)) vs /\
    (laid_out (ws ++ nums ++ bad :: more) t \/
     laid_out (ws ++ nums) t /\ e = bad /\ bad <> ""%string /\ to_end bad = false).

(** Why a run may end before the first location, and the message. *)
Inductive c_refuses {DB} (E : env DB) (S : os) (c : config) : list said -> Prop :=
| c_no_database : e_open E (c_db c) (cache_of c) = None ->
    (c_dbExt c = ""%string \/ e_open E (c_dbExt c) (cache_of c) <> None) ->
    c_refuses E S c [Said ("Could not open the etree database '" ++ c_db c ++ "' for querying." ++ line_end)]
| c_no_extended : c_dbExt c <> ""%string -> e_open E (c_dbExt c) (cache_of c) = None ->
    c_refuses E S c
      [Said ("Could not open the etree (regional) database '" ++ c_dbExt c ++ "' for querying." ++ line_end)]
| c_bad_resolution : forall d x, opens E c d x -> ~ asks_kind c MAXRES -> flt (c_res c) f_zero = true ->
    c_refuses E S c [Said "Query resolution must be a positive value."; Usage]
| c_bad_kind : forall d x, opens E c d x -> (forall k, ~ asks_kind c k) -> flt (c_res c) f_zero = false ->
    c_refuses E S c
      [Said ("Could not parse query string '" ++ c_type c ++ "'  into a known type of query."); Usage]
| c_no_input : forall d x k, opens E c d x -> asks_kind c k -> (k <> MAXRES -> flt (c_res c) f_zero = false) ->
    o_read S (c_in c) = None ->
    c_refuses E S c [Said ("Could not open file '" ++ c_in c ++ "' to read query locations." ++ line_end)]
| c_no_output : forall d x k text, opens E c d x -> asks_kind c k -> (k <> MAXRES -> flt (c_res c) f_zero = false) ->
    o_read S (c_in c) = Some text -> o_create S (c_out c) = false ->
    (* the name is that of the input file *)
    c_refuses E S c [Said ("Could not open file '" ++ c_in c ++ "' to write query data." ++ line_end)].

(** What is in the output file after these lines were written one by one: a line that
    cannot be written is left out. *)
Fixpoint kept (S : os) (have new : list string) : list string :=
  match new with
  | [] => have
  | l :: new => kept S (if o_write S (have ++ [l])%list then (have ++ [l])%list else have) new
  end.
