(** Nearness and factories of vectors and matrices of any size in double precision
    (/repo/include/OpenSpaceToolkit/Mathematics/Object/Eigen.hpp, below Eigen). *)

From Coq Require Import List Bool Arith ZArith Floats.SpecFloat.
From Verif Require Import Result AngleModel FloatModel TextModel Geo64Model.
Import ListNotations.

(** The order in which Eigen adds the squares depends on the size, the alignment and the
    instruction set; here it is any binary tree whose leaves are the indices of the elements. *)
Inductive sum_tree := Leaf (i : nat) | Node (l r : sum_tree).
Fixpoint tree_sum (t : sum_tree) (l : list spec_float) : spec_float :=
  match t with
  | Leaf i => nth i l zero64
  | Node a b => sf_add (tree_sum a l) (tree_sum b l)
  end.
(** Eigen's norm(); the sum of no elements is zero. *)
Definition mx_norm (t : sum_tree) (l : list spec_float) : spec_float :=
  match l with
  | [] => b64_sqrt zero64
  | _ => b64_sqrt (tree_sum t (map (fun x => b64_mul x x) l))
  end.
(** Eigen's size(): rows times columns. *)
Definition mx_size (m : matrix) : nat := length (mx_rows m) * mx_cols m.
Definition mx_same_shape (a b : matrix) : bool := Nat.eqb (length (mx_rows a)) (length (mx_rows b)) && Nat.eqb (mx_cols a) (mx_cols b).
(** Eigen's difference, of elements in the same places. *)
Definition mx_diff (a b : matrix) : list spec_float :=
  map (fun p => sf_sub (fst p) (snd p)) (combine (concat (mx_rows a)) (concat (mx_rows b))).
(** 82-95: isNear.  Eigen requires equal shapes for the difference, of which only the sizes have been compared. *)
Definition mx_isNear (t : sum_tree) (a b : matrix) (tol : spec_float) : result bool :=
  if negb (mx_isDefined a) || negb (mx_isDefined b) then Err ERuntime
  else if negb (Nat.eqb (mx_size a) (mx_size b)) then Err ERuntime
  else if negb (mx_same_shape a b) then UB
  else Ok (SFleb (mx_norm t (mx_diff a b)) tol).
(** 240-243, 252-255, 264-267: X, Y, Z. *)
Definition axis64 (i : nat) : matrix := vector (map (fun j => if Nat.eqb i j then b64_of_Z 1 else zero64) (seq 0 3)).
(** 315-318, 328-338, 349-362: NaN (and 276-279, 289-292, 303-306: Undefined, which calls it); 371-374, 384-394, 405-418: Inf. *)
Definition mx_filled (x : spec_float) (rows cols : nat) : matrix := mkMatrix cols (repeat (repeat x cols) rows).
Definition mx_NaN : nat -> nat -> matrix := mx_filled S754_nan.
Definition mx_Undefined : nat -> nat -> matrix := mx_NaN.
Definition mx_Inf : nat -> nat -> matrix := mx_filled (S754_infinity false).
