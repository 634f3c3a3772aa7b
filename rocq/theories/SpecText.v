(** Specification vocabulary for text files. *)
From Coq Require Import Ascii String List.
Import ListNotations.

(** Tab, line feed, vertical tab, form feed, carriage return, space. *)
Definition blank (c : ascii) : Prop := In (nat_of_ascii c) [9; 10; 11; 12; 13; 32].
Definition blanks (s : string) : Prop := forall c, In c (list_ascii_of_string s) -> blank c.
Definition word (w : string) : Prop :=
  w <> ""%string /\ forall c, In c (list_ascii_of_string w) -> ~ blank c.

(** The text consists of the given words, in order, each followed by white space. *)
Inductive laid_out : list string -> string -> Prop :=
| laid_blank : forall s, blanks s -> laid_out [] s
| laid_word : forall s w c rest ws, blanks s -> word w -> blank c -> laid_out ws rest ->
    laid_out (w :: ws) (s ++ w ++ String c rest).

(** What may follow: nothing, or one last word that ends at the end of the file. *)
Definition unterminated (e : string) : Prop := e = ""%string \/ word e.
