(** The C library function getopt(), as the applications use it: called with the
    words of the command line until it returns EOF.

    GNU behaviour: a word that starts with '-' and is longer than one character is
    a cluster of option letters; an option that takes an argument takes the rest of
    its word or, when that is empty, the next word whatever it looks like; the word
    "--" ends the options; other words are skipped (they are moved to the end).
    An unknown letter or a missing argument yields '?'.  The diagnostics that
    getopt() itself writes are not modelled. *)
From Coq Require Import Bool String Ascii List.
Import ListNotations.

(** What one call returns: an option letter with optarg, or '?'. *)
Inductive optev :=
| Flag (c : ascii)
| Arg (c : ascii) (optarg : string)
| Unknown.

Section GetOpt.
(** The option string: does the letter name an option, and does it take an argument? *)
Variable opts : ascii -> option bool.

(** The letters of one word; the option that still lacks its argument. *)
Fixpoint cluster (cs : list ascii) : list optev * option ascii :=
  match cs with
  | [] => ([], None)
  | c :: cs' =>
      match opts c with
      | None => let (l, p) := cluster cs' in (Unknown :: l, p)
      | Some false => let (l, p) := cluster cs' in (Flag c :: l, p)
      | Some true =>
          match cs' with
          | [] => ([], Some c)
          | _ => ([Arg c (string_of_list_ascii cs')], None)
          end
      end
  end.

Definition dash : ascii := "-"%char.
Fixpoint getopts (pending : option ascii) (args : list string) : list optev :=
  match args with
  | [] => match pending with Some _ => [Unknown] | None => [] end
  | a :: rest =>
      match pending with
      | Some c => Arg c a :: getopts None rest
      | None =>
          if String.eqb a "--" then []
          else match list_ascii_of_string a with
               | d :: c :: cs =>
                   if Ascii.eqb d dash then
                     let (l, p) := cluster (c :: cs) in l ++ getopts p rest
                   else getopts None rest
               | _ => getopts None rest
               end
      end
  end.
End GetOpt.

(** An option string such as "c:hi:" as a function. *)
Fixpoint optstring (s : list ascii) (c : ascii) : option bool :=
  match s with
  | [] => None
  | x :: s' =>
      let takes := match s' with y :: _ => Ascii.eqb y ":"%char | [] => false end in
      if Ascii.eqb x ":"%char then optstring s' c
      else if Ascii.eqb x c then Some takes
      else optstring s' c
  end.
Definition options (s : string) : ascii -> option bool := optstring (list_ascii_of_string s).

Example getopts_ex :
  getopts (options "hi:o:") None ["-i"; "in"; "junk"; "-ho-"; "-x"; "-o"; "-h"; "-hi"]%string =
  [Arg "i" "in"; Flag "h"; Arg "o" "-"; Unknown; Arg "o" "-h"; Flag "h"; Unknown]%char%string.
Proof. vm_compute. reflexivity. Qed.
