(** Outcomes of library calls.

    A C++ function of the library either returns a value, throws one of the
    ostk::core::error exceptions, or (when a precondition of the code it calls
    is violated) has undefined behaviour.  The three are kept apart. *)

From Coq Require Import List.
Import ListNotations.

(** The exception classes used by the modelled code
    (ostk::core::error::runtime::{Undefined,Wrong,ToBeImplemented} and
    ostk::core::error::RuntimeError). [OutOfFuel] is not an exception of the
    library: it is the outcome of a loop whose fuel ran out in the model, and
    every theorem excludes it explicitly. *)
Inductive error :=
| EUndefined
| EWrong
| EToBeImplemented
| ERuntime
| OutOfFuel.

Inductive result (A : Type) : Type :=
| Ok (a : A)
| Err (e : error)
| UB.

Arguments Ok {A} a.
Arguments Err {A} e.
Arguments UB {A}.

Definition bind {A B} (r : result A) (f : A -> result B) : result B :=
  match r with
  | Ok a => f a
  | Err e => Err e
  | UB => UB
  end.

Declare Scope result_scope.
Delimit Scope result_scope with result.
Notation "'let!' x ':=' r 'in' k" := (bind r (fun x => k))
  (at level 200, x pattern, r at level 100, k at level 200, right associativity) : result_scope.
Open Scope result_scope.

Definition rmap {A B} (f : A -> B) (r : result A) : result B :=
  let! a := r in Ok (f a).

(** [for x in l] pushing results, stopping at the first exception. *)
Fixpoint mapM {A B} (f : A -> result B) (l : list A) : result (list B) :=
  match l with
  | [] => Ok []
  | x :: r => let! y := f x in let! ys := mapM f r in Ok (y :: ys)
  end.

Definition is_ok {A} (r : result A) : bool :=
  match r with Ok _ => true | _ => false end.
