(** Outcomes of C++ computations.

    A modelled function either returns a value, throws a C++ exception
    (std::runtime_error with its message), fails an assert() (the default
    build does not define NDEBUG, so assertions are active), or runs into
    behaviour that the C++ standard leaves undefined.  The four are kept
    apart in every model definition. *)
From Coq Require Import String.

Inductive outcome (A : Type) : Type :=
| Val (a : A)             (* normal return *)
| Throw (msg : string)    (* std::exception with what() = msg *)
| Abort                   (* assert() failed *)
| UB (why : string).      (* undefined behaviour *)
Arguments Val {A} a.
Arguments Throw {A} msg.
Arguments Abort {A}.
Arguments UB {A} why.

Definition bind {A B} (m : outcome A) (f : A -> outcome B) : outcome B :=
  match m with
  | Val a => f a
  | Throw s => Throw s
  | Abort => Abort
  | UB s => UB s
  end.

Declare Scope outcome_scope.
Delimit Scope outcome_scope with outcome.
Notation "'let*' x ':=' m 'in' k" := (bind m (fun x => k))
  (at level 200, x pattern, m at level 100, k at level 200, right associativity)
  : outcome_scope.
Open Scope outcome_scope.

(** assert(b) *)
Definition assert_ (b : bool) : outcome unit := if b then Val tt else Abort.

Lemma bind_val {A B} (m : outcome A) (f : A -> outcome B) b :
  bind m f = Val b -> exists a, m = Val a /\ f a = Val b.
Proof. destruct m; simpl; try discriminate; eauto. Qed.

Lemma assert_val b u : assert_ b = Val u -> b = true.
Proof. destruct b; [reflexivity | discriminate]. Qed.

