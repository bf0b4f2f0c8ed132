(** What a matrix of binary64 numbers stands for, and how far apart two are. *)

From Coq Require Import List Arith Reals Permutation Floats.SpecFloat.
From Verif Require Import FloatSpec TextModel Mat64Model.
Import ListNotations.
Local Open Scope R_scope.

(** Rows of the same length. *)
Definition well_shaped (m : matrix) : Prop := forall r, In r (mx_rows m) -> length r = mx_cols m.
(** The tree adds each of [n] elements once. *)
Fixpoint leaves (t : sum_tree) : list nat := match t with Leaf i => [i] | Node a b => leaves a ++ leaves b end.
Definition adds_all (t : sum_tree) (n : nat) : Prop := Permutation (leaves t) (seq 0 n).
(** All elements, row by row. *)
Definition elements (m : matrix) : list spec_float := concat (mx_rows m).
Definition finite_elements (B : R) (m : matrix) : Prop := forall x, In x (elements m) -> finite64 x /\ Rabs (rval x) <= B.
(** The distance of two lists of numbers. *)
Fixpoint sqdist (l k : list spec_float) : R :=
  match l, k with
  | x :: l', y :: k' => (rval x - rval y) * (rval x - rval y) + sqdist l' k'
  | _, _ => 0
  end.
Definition distance (a b : matrix) : R := sqrt (sqdist (elements a) (elements b)).
