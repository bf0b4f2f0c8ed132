(** What names and texts should be: told apart by reading them. *)

From Coq Require Import List String Ascii.
From Verif Require Import Result TextSpec.
Import ListNotations.
Local Open Scope string_scope.

(** No two values have the same text. *)
Definition told_apart {A} (text : A -> result string) : Prop := forall a b t, text a = Ok t -> text b = Ok t -> a = b.
(** The texts of numbers have none of the characters in [cs]. *)
Definition texts_without {A} (cs : list ascii) (num : A -> string) : Prop := forall x c, In c cs -> lacks c (num x).
(** The texts of the coordinates of points. *)
Definition coordinates {A} (num : A -> string) (p : option (A * A)) : option (string * string) :=
  match p with Some (x, y) => Some (num x, num y) | None => None end.
