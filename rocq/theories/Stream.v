(** Formatted input from a text file: std::ifstream with operator>>.

    Models the library behaviour used by GridIngester.cc and cencalvmquery.cc: an
    extraction from a stream that is not good() sets failbit; otherwise white
    space is skipped, the characters up to the next white space are taken, and
    eofbit is set when the end of the file is reached while doing so; finding no
    character at all sets eofbit and failbit.
    Simplification: a number extends to the next white space (the C++ library
    stops at the first character that cannot belong to a number).  How text is
    converted to numbers is left open: the fields of [numfmt] give the value
    stored and whether the conversion succeeded. *)
From Coq Require Import ZArith Bool Ascii String List.
From Verif Require Import Float.
Import ListNotations.
Open Scope Z_scope.

Record numfmt := mkFmt {
  n_f64 : string -> f64 * bool;     (* >> double *)
  n_f32 : string -> f32 * bool;     (* >> float *)
  n_int : string -> Z * bool;       (* >> int *)
  n_short : string -> Z * bool;     (* >> short *)
  n_show : f64 -> string }.         (* << double *)

Record istream := mkIn { i_rest : list ascii; i_eof : bool; i_fail : bool }.

Definition openText (s : string) : istream := mkIn (list_ascii_of_string s) false false.
Definition good (s : istream) : bool := negb (i_eof s) && negb (i_fail s).

(** isspace in the "C" locale *)
Definition isspace (c : ascii) : bool :=
  let n := nat_of_ascii c in
  (Nat.leb 9 n && Nat.leb n 13) || Nat.eqb n 32.

Fixpoint skipws (l : list ascii) : list ascii :=
  match l with
  | [] => []
  | c :: r => if isspace c then skipws r else l
  end.
Fixpoint takeword (l : list ascii) : list ascii * list ascii :=
  match l with
  | [] => ([], [])
  | c :: r => if isspace c then ([], l)
              else let (w, t) := takeword r in (c :: w, t)
  end.

(** operator>>(istream&, std::string&) *)
Definition getWord (s : istream) : istream * option string :=
  if good s then
    match skipws (i_rest s) with
    | [] => (mkIn [] true true, None)
    | r => let (w, t) := takeword r in
           (mkIn t (match t with [] => true | _ => false end) false,
            Some (string_of_list_ascii w))
    end
  else (mkIn (i_rest s) (i_eof s) true, None).

(** operator>>(istream&, number&): [old] is the value of the variable before. *)
Definition getNum {A} (conv : string -> A * bool) (old : A) (s : istream) : istream * A :=
  match getWord s with
  | (s', Some w) => let (v, ok) := conv w in
                    (mkIn (i_rest s') (i_eof s') (negb ok), v)
  | (s', None) => (s', old)
  end.
