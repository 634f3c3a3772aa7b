(** Specification vocabulary for the program that describes a database. *)
From Coq Require Import ZArith Bool String Ascii List.
Import ListNotations.
Open Scope Z_scope.

(** Decimal numerals: at least one digit, the most significant first. *)
Definition digit_value (c : ascii) : option Z :=
  match Z.of_nat (nat_of_ascii c) - 48 with
  | d => if (0 <=? d) && (d <=? 9) then Some d else None
  end.
Fixpoint number (acc : Z) (s : string) : option Z :=
  match s with
  | EmptyString => Some acc
  | String c r => match digit_value c with Some d => number (10 * acc + d) r | None => None end
  end.
Definition spells (s : string) (n : Z) : Prop := s <> ""%string /\ number 0 s = Some n.

(** The description of a database. *)
Definition newline : string := String "010" "".
Definition report (metadata schema count : string) : string :=
  "Database metadata:" ++ newline ++ metadata ++ newline ++ newline ++
  "Database schema:" ++ newline ++ schema ++ newline ++ newline ++
  "Number of octants: " ++ count ++ newline.
