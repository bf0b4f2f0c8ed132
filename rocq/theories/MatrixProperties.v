(** The properties of transformations made from a matrix: C109. *)

From Coq Require Import List Bool Reals Lra Lia.
From Verif Require Import Result DOrder Vec Mat3 Mat4 AngleModel RotModel TransfModel TransfSpec MatrixSpec MatrixProofs.
Local Open Scope R_scope.

(** *** C109: transformations made from a matrix *)
(** A matrix is accepted exactly when it is the identity up to the tolerance; the type, the matrix and the rigidity of the result. *)
Theorem C109_matrix :
  forall prec m t, t3_Transformation prec (Some m) = Ok t <->
  like_identity prec 4 (entry4 m) /\ t3_type t = TIdentity /\ t3_matrix t = Some m /\
  (t3_rigid t = true <-> exact_last_row m /\ like_identity prec 3 (fun i j => dot3 (column3 m i) (column3 m j))).
Proof. exact c109_matrix. Qed.
Print Assumptions C109_matrix.

(** Every other matrix is an error. *)
Theorem C109_other :
  forall prec m, ~ like_identity prec 4 (entry4 m) -> t3_Transformation prec (Some m) = Err ERuntime.
Proof. exact c109_other. Qed.
Print Assumptions C109_other.

Theorem C109_undefined :
  forall prec, exists t, t3_Transformation prec None = Ok t /\ t3_isDefined t = false /\ t3_Transformation prec None = Ok t3_Undefined.
Proof. exact c109_undefined. Qed.
Print Assumptions C109_undefined.

Theorem C109_identity :
  forall prec, 0 <= prec -> t3_Transformation prec (Some id4) = Ok t3_Identity.
Proof. exact c109_identity. Qed.
Print Assumptions C109_identity.

(** In the plane the comparison is exact. *)
Theorem C109_plane :
  forall m, (t2_Transformation (Some m) = Ok t2_Identity <-> m = id3) /\ (m <> id3 -> t2_Transformation (Some m) = Err ERuntime) /\
  t2_Transformation None = Ok t2_Undefined.
Proof. exact c109_plane. Qed.
Print Assumptions C109_plane.

(** What the accessors answer, for undefined and for defined transformations. *)
Theorem C109_access :
  forall t, (t3_isDefined t = false ->
    t3_isIdentity t = Err EUndefined /\ t3_isRigid t = Err EUndefined /\ t3_getType t = Err EUndefined /\ t3_getMatrix t = Err EUndefined /\ t3_getInverse t = Err EUndefined) /\
  (t3_type t <> TUndefined -> t3_isIdentity t = Ok (if ttype_eqb (t3_type t) TIdentity then true else false) /\ t3_isRigid t = Ok (t3_rigid t) /\ t3_getType t = Ok (t3_type t) /\
    forall m, t3_matrix t = Some m -> t3_getMatrix t = Ok m).
Proof. exact c109_access. Qed.
Print Assumptions C109_access.

Theorem C109_access_plane :
  forall t, (t2_isDefined t = false ->
    t2_isIdentity t = false /\ t2_isRigid t = false /\ t2_getType t = Err EUndefined /\ t2_getMatrix t = Err EUndefined /\ t2_getInverse t = Err EUndefined) /\
  (t2_type t <> TUndefined -> t2_getType t = Ok (t2_type t) /\ (t2_isIdentity t = true <-> t2_type t = TIdentity) /\
    (t2_isRigid t = true <-> t2_type t = TIdentity \/ t2_type t = TTranslation \/ t2_type t = TRotation \/ t2_type t = TReflection) /\
    forall m, t2_matrix t = Some m -> t2_getMatrix t = Ok m).
Proof. exact c109_access_plane. Qed.
Print Assumptions C109_access_plane.

(** A translation by 1 is not the identity; a perturbation below the tolerance is taken for it. *)
Example C109_example : let m x := M4 1 0 0 x 0 1 0 0 0 0 1 0 0 0 0 1 in
  ~ like_identity (1 / 10) 4 (entry4 (m 1)) /\ like_identity (1 / 10) 4 (entry4 (m (1 / 20))) /\ exact_last_row (m (1 / 20)).
Proof.
  intros m. split; [| split; [| reflexivity]].
  - intros H. specialize (H 0%nat 3%nat ltac:(lia) ltac:(lia)). cbn in H. rewrite Rabs_R1 in H. lra.
  - intros i j I J. destruct i as [| [| [| [| i]]]]; try lia; destruct j as [| [| [| [| j]]]]; try lia; cbn;
      rewrite ?Rminus_eq_0, ?Rabs_R0, ?Rabs_R1, ?(Rmin_left 1 1) by lra; try lra. rewrite Rabs_right; lra.
Qed.
