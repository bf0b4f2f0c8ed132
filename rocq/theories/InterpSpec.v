(** What the interpolators should compute. *)

From Coq Require Import List Reals Arith.
From Verif Require Import Result InterpModel MatN LogEuclidModel.
Local Open Scope R_scope.

Declare Scope interp_scope.
Notation "l .[ i ]" := (nth i l 0) (at level 2, i at level 200, format "l .[ i ]") : interp_scope.
Delimit Scope interp_scope with interp.
Open Scope interp_scope.

Definition nondecreasing (x : list R) : Prop :=
  forall i j, (i <= j < length x)%nat -> x.[i] <= x.[j].
Definition increasing (x : list R) : Prop :=
  forall i j, (i < j < length x)%nat -> x.[i] < x.[j].

(** The point of abscissa [q] of the chord through (xa, ya) and (xb, yb). *)
Definition on_chord (xa ya xb yb q v : R) : Prop := (v - ya) * (xb - xa) = (q - xa) * (yb - ya).

(** A partial function seen as a total one (0 where it fails). *)
Definition value (r : result R) : R := match r with Ok v => v | _ => 0 end.

(** [q] is none of the abscissae. *)
Definition not_a_node (x : list R) (q : R) : Prop := forall i, (i < length x)%nat -> x.[i] <> q.

(** *** Matrices *)
(** SelfAdjointEigenSolver reads the lower triangle only. *)
Definition lower_sym (M : mat) : mat := fun i j => if Nat.leb j i then M i j else M j i.
Definition eig_contract (eig : nat -> mat -> option ((nat -> R) * mat)) : Prop :=
  forall n M d Q, eig n M = Some (d, Q) -> orthogonal n Q /\ meq n (lower_sym M) (conj_diag n Q d).
Definition symmetric (n : nat) (M : mat) : Prop := forall i j, (i < n)%nat -> (j < n)%nat -> M i j = M j i.

(** Same dimensions and entries. *)
Definition same_matrix (A B : matrix) : Prop :=
  rows A = rows B /\ cols A = cols B /\ forall i j, (i < rows A)%nat -> (j < cols A)%nat -> entry A i j = entry B i j.

(** [E] is the exponential of the symmetric n x n matrix [L]: diagonalise, exponentiate the
    eigenvalues. *)
Definition is_exp (n : nat) (L E : mat) : Prop :=
  exists Q d, orthogonal n Q /\ meq n L (conj_diag n Q d) /\ meq n E (conj_diag n Q (fun k => exp (d k))).
(** ... which is the sum of the series L^m / m!. *)
Fixpoint mpow (n : nat) (L : mat) (m : nat) : mat :=
  match m with O => mid | S k => mmul n L (mpow n L k) end.
Definition exp_series (n : nat) (L E : mat) : Prop :=
  forall i j, (i < n)%nat -> (j < n)%nat -> infinite_sum (fun m => mpow n L m i j / INR (fact m)) (E i j).
(** Positive definite: v^T M v > 0 for v <> 0. *)
Definition quadratic_form (n : nat) (M : mat) (v : nat -> R) : R :=
  msum n (fun i => msum n (fun j => v i * M i j * v j)).
Definition positive_definite (n : nat) (M : mat) : Prop :=
  forall v, (exists i, (i < n)%nat /\ v i <> 0) -> 0 < quadratic_form n M v.

(** Usable data: at least two nodes, one square matrix of the same size per node, strictly
    increasing abscissae. *)
Definition well_formed (x : list R) (ms : list matrix) (n : nat) : Prop :=
  (2 <= length x)%nat /\ length x = length ms /\ (forall m, In m ms -> rows m = n /\ cols m = n) /\ increasing x.
Definition dummy := mkM 0 0 mid.
