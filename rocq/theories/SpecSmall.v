(** Specification vocabulary for the command line programs around the library. *)
From Coq Require Import ZArith Bool String Ascii List.
From Verif Require Import Outcome Float Store QueryApp SpecHist SpecApp SmallApps.
Import ListNotations.
Open Scope Z_scope.

(** ** Command lines *)
(** An option with its value in the next word, one with its value in the same word, and a
    word that is no option. *)
Inductive item := Separate (k : ascii) (v : string) | Joined (k : ascii) (v : string) | Stray (w : string).
Definition item_words (i : item) : list string :=
  match i with
  | Separate k v => [String "-" (String k ""); v]
  | Joined k v => [String "-" (String k v)]
  | Stray w => [w]
  end.
Definition item_ok (letters : list ascii) (i : item) : Prop :=
  match i with
  | Separate k v => In k letters
  | Joined k v => In k letters /\ v <> ""%string
  | Stray w => forall c s, w <> String "-" (String c s)
  end.
Definition settings (l : list item) : list (ascii * string) :=
  flat_map (fun i => match i with Separate k v => [(k, v)] | Joined k v => [(k, v)] | Stray _ => [] end) l.
Definition joined (l : list item) : nat := List.length (filter (fun i => match i with Joined _ _ => true | _ => false end) l).
Definition stray (l : list item) : nat := List.length (filter (fun i => match i with Stray _ => true | _ => false end) l).
(** What stands after "--" is not looked at. *)
Definition rest_ok (tail : list string) : Prop := tail = [] \/ exists r, tail = "--"%string :: r.

(** The command lines that a program with these option letters takes: the number of words
    must be twice the number of options, so each word that is no option needs an option
    that is joined with its value. *)
Definition command (letters : list ascii) (args : list string) (kvs : list (ascii * string)) : Prop :=
  exists items tail, Forall (item_ok letters) items /\ rest_ok tail /\
    args = (flat_map item_words items ++ tail)%list /\
    joined items = (stray items + List.length tail)%nat /\ kvs = settings items.

(** The names that the options give: the last one counts. *)
Definition avg_letters : list ascii := ["i"; "o"]%char.
Definition gen_letters : list ascii := ["c"; "i"; "o"; "t"]%char.
Definition pack_letters : list ascii := ["c"; "i"; "o"]%char.
Definition grade_letters : list ascii := ["c"; "i"; "o"; "p"; "t"]%char.
Definition named (k : ascii) (kvs : list (ascii * string)) (s : string) : Prop :=
  given k kvs "" = s /\ s <> ""%string.

(** ** How a program ends *)
(** A call of the library that returns gives exit code 0 and silence; an exception gives
    exit code 1 with its message on standard error. *)
Inductive exits {A} : outcome A -> outcome (Z * list said) -> Prop :=
| exits_well a : exits (Val a) (Val (0, []))
| exits_badly m : exits (Throw m) (Val (1, [Said m]))
| exits_abort : exits Abort Abort
| exits_ub w : exits (UB w) (UB w).
(** The program does what a call of the library does to the files, and ends accordingly. *)
Definition does {A} (program : disk * outcome (Z * list said)) (call : disk * outcome A) : Prop :=
  fst program = fst call /\ exits (snd call) (snd program).
(** The program shows its usage and does nothing. *)
Definition refuses (d : disk) (program : disk * outcome (Z * list said)) : Prop := program = (d, Val (1, [Usage])).
