(** The properties of vectors and matrices of any size in double precision: C136. *)

From Coq Require Import List Bool Arith ZArith Reals Lra Lia Permutation Floats.SpecFloat.
From Verif Require Import Result AngleModel FloatSpec FloatProofs FloatProofs2 FloatModel FloatProofs3 FloatProofs4 TextModel Geo64Model Geo64Spec Geo64Proofs
  Mat64Model Mat64Spec Mat64Proofs Mat64Proofs2 Mat64Proofs3.
Import ListNotations.
Local Open Scope R_scope.

(** *** C136: nearness of matrices of any size in double precision *)
(** For matrices of one shape with up to 2^20 elements, added in any order, the test agrees with the exact distance up to n + 3 times 2^-53, relative, and 2^-526. *)
Theorem C136_near :
  forall t a b tol, well_shaped a -> well_shaped b -> length (mx_rows a) = length (mx_rows b) -> mx_cols a = mx_cols b -> finite_elements (powerRZ 2 450) a -> finite_elements (powerRZ 2 450) b ->
  mx_size a = 0%nat \/ adds_all t (mx_size a) -> (Z.of_nat (mx_size a) <= 2 ^ 20)%Z -> finite64 tol ->
  exists c, mx_isNear t a b tol = Ok c /\ ((1 + (INR (mx_size a) + 3) * powerRZ 2 (-53)) * distance a b + powerRZ 2 (-526) <= rval tol -> c = true) /\ (rval tol < (1 - (INR (mx_size a) + 3) * powerRZ 2 (-53)) * distance a b - powerRZ 2 (-526) -> c = false).
Proof. exact c136_near. Qed.
Print Assumptions C136_near.

(** A defined matrix is near itself for every tolerance that is not negative. *)
Theorem C136_same :
  forall t m tol, (forall x, In x (elements m) -> finite64 x) -> finite64 tol -> 0 <= rval tol -> mx_isNear t m m tol = Ok true.
Proof. exact c136_same. Qed.
Print Assumptions C136_same.

(** Nearness is symmetric, exactly and for all operands. *)
Theorem C136_symmetric :
  forall t a b tol, mx_isNear t a b tol = mx_isNear t b a tol.
Proof. exact c136_symmetric. Qed.
Print Assumptions C136_symmetric.

(** What is near stays near for a larger tolerance. *)
Theorem C136_tolerance :
  forall t a b tol tol', well_shaped a -> well_shaped b -> length (mx_rows a) = length (mx_rows b) -> mx_cols a = mx_cols b -> finite_elements (powerRZ 2 450) a -> finite_elements (powerRZ 2 450) b ->
  mx_size a = 0%nat \/ adds_all t (mx_size a) -> (Z.of_nat (mx_size a) <= 2 ^ 20)%Z -> finite64 tol -> finite64 tol' -> rval tol <= rval tol' -> mx_isNear t a b tol = Ok true -> mx_isNear t a b tol' = Ok true.
Proof. exact c136_tolerance. Qed.
Print Assumptions C136_tolerance.

(** Different matrices may be near for the tolerance zero: the squares underflow. *)
Theorem C136_zero_refuted :
  exists a b, well_shaped a /\ well_shaped b /\ elements a <> elements b /\ finite_elements 1 a /\ finite_elements 1 b /\ mx_isNear (Leaf 0) a b zero64 = Ok true.
Proof. exact c136_zero_refuted. Qed.
Print Assumptions C136_zero_refuted.

(** The errors are those of undefined matrices and of different sizes. *)
Theorem C136_errors :
  forall t a b tol, (mx_isDefined a = false \/ mx_isDefined b = false \/ mx_size a <> mx_size b -> mx_isNear t a b tol = Err ERuntime) /\
  (mx_isNear t a b tol = Err ERuntime -> mx_isDefined a = false \/ mx_isDefined b = false \/ mx_size a <> mx_size b).
Proof. exact c136_errors. Qed.
Print Assumptions C136_errors.

(** Only the sizes are compared: a row and a column of two elements pass the test, and their difference is undefined behaviour. *)
Theorem C136_shape_refuted :
  exists a b, well_shaped a /\ well_shaped b /\ mx_isDefined a = true /\ mx_isDefined b = true /\ mx_size a = mx_size b /\ forall t tol, mx_isNear t a b tol = UB.
Proof. exact c136_shape_refuted. Qed.
Print Assumptions C136_shape_refuted.

(** Matrices made of NaN or infinite elements have the size asked for and are undefined. *)
Theorem C136_filled :
  forall rows cols, well_shaped (mx_NaN rows cols) /\ well_shaped (mx_Inf rows cols) /\ mx_size (mx_NaN rows cols) = (rows * cols)%nat /\ mx_size (mx_Inf rows cols) = (rows * cols)%nat /\
  ((0 < rows)%nat -> (0 < cols)%nat -> mx_isNaN (mx_NaN rows cols) = true /\ mx_isInf (mx_NaN rows cols) = false /\ mx_isInf (mx_Inf rows cols) = true /\ mx_isNaN (mx_Inf rows cols) = false /\ mx_isDefined (mx_Undefined rows cols) = false /\ mx_isDefined (mx_Inf rows cols) = false).
Proof. exact c136_filled. Qed.
Print Assumptions C136_filled.

(** But an undefined matrix without elements is defined. *)
Theorem C136_empty_refuted :
  exists rows cols, mx_isDefined (mx_Undefined rows cols) = true.
Proof. exact c136_empty_refuted. Qed.
Print Assumptions C136_empty_refuted.

(** The three axes. *)
Theorem C136_axes :
  forall i, (i < 3)%nat -> exists x y z, axis64 i = vector [x; y; z] /\ finite64 x /\ finite64 y /\ finite64 z /\ rval x = (if Nat.eqb i 0 then 1 else 0) /\ rval y = (if Nat.eqb i 1 then 1 else 0) /\ rval z = (if Nat.eqb i 2 then 1 else 0).
Proof. exact c136_axes. Qed.
Print Assumptions C136_axes.

(** Two matrices of two rows and two columns at a distance of 5; the elements are added in pairs. *)
Example C136_example : let z n := b64_of_Z n in let a := mkMatrix 2 [[z 1%Z; z 2%Z]; [z 3%Z; z 4%Z]] in let b := mkMatrix 2 [[z 4%Z; z 2%Z]; [z 3%Z; z 0%Z]] in let t := Node (Node (Leaf 2) (Leaf 0)) (Node (Leaf 1) (Leaf 3)) in
  well_shaped a /\ well_shaped b /\ finite_elements (powerRZ 2 450) a /\ finite_elements (powerRZ 2 450) b /\ adds_all t (mx_size a) /\ distance a b = 5 /\ mx_isNear t a b (z 5%Z) = Ok true /\ mx_isNear t a b (z 4%Z) = Ok false.
Proof.
  intros z a b t. change (powerRZ 2) with P2. do 2 (split; [intros r H; cbn in H; repeat destruct H as [<- | H]; try contradiction; reflexivity |]).
  assert (W : forall n, (0 <= n <= 5)%Z -> finite64 (z n) /\ Rabs (rval (z n)) <= P2 450).
  { intros n H. destruct (of_Z_val n ltac:(lia)) as [F V]. split; [exact F |]. unfold z. rewrite V, Rabs_pos_eq by (apply IZR_le; lia). apply Rle_trans with (P2 3); [rewrite <- P2_Z by lia; apply IZR_le; lia | apply P2_mono; lia]. }
  do 2 (split; [intros x H; unfold elements in H; cbn [mx_rows concat app a b] in H; repeat destruct H as [<- | H]; try contradiction; apply W; lia |]). split.
  { unfold adds_all. change (seq 0 (mx_size a)) with [0; 1; 2; 3]%nat. change (leaves t) with ([2; 0] ++ [1; 3])%nat%list. apply (Permutation_trans (l' := [0; 2; 1; 3]%nat)); [apply perm_swap | apply perm_skip, perm_swap]. }
  split; [| split; vm_compute; reflexivity]. unfold distance, elements. cbn [mx_rows a b concat app sqdist]. assert (V : forall n, (0 <= n <= 5)%Z -> rval (z n) = IZR n) by (intros n H; apply of_Z_val; lia). rewrite !V by lia.
  replace (_ + _) with (5 * 5) by ring. apply sqrt_square. lra.
Qed.
