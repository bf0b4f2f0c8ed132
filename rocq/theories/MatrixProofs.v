(** Proofs about transformations made from a matrix, and about their accessors. *)

From Coq Require Import List Bool Reals Lra Lia.
From Verif Require Import Result DOrder Vec Mat3 Mat4 AngleModel RotModel RotProofs TransfModel TransfSpec MatrixSpec.
Local Open Scope R_scope.

Lemma Reqb_no a b : Reqb a b = false -> a <> b.
Proof. unfold Reqb. destruct Req_EM_T; congruence. Qed.
Lemma much_iff p x : much_smaller p x = true <-> Rabs x <= p.
Proof. apply Rleb_iff. Qed.
Lemma one_iff p x : approx_one p x = true <-> Rabs (x - 1) <= p * Rmin (Rabs x) 1.
Proof. unfold approx_one. rewrite Rleb_iff, Rmult_comm. reflexivity. Qed.

Lemma identity4_iff p m : isIdentity4 p m = true <-> like_identity p 4 (entry4 m).
Proof.
  unfold isIdentity4, isIdentity3, like_identity. rewrite !andb_true_iff, !much_iff, !one_iff. split.
  - intros H i j I J. destruct i as [| [| [| [| i]]]]; try lia; destruct j as [| [| [| [| j]]]]; try lia; cbn; tauto.
  - intros H. cbn [lin4 m00 m01 m02 m10 m11 m12 m20 m21 m22]. repeat split.
    all: first [exact (H 0 0 ltac:(lia) ltac:(lia))%nat | exact (H 0 1 ltac:(lia) ltac:(lia))%nat | exact (H 0 2 ltac:(lia) ltac:(lia))%nat | exact (H 0 3 ltac:(lia) ltac:(lia))%nat
      | exact (H 1 0 ltac:(lia) ltac:(lia))%nat | exact (H 1 1 ltac:(lia) ltac:(lia))%nat | exact (H 1 2 ltac:(lia) ltac:(lia))%nat | exact (H 1 3 ltac:(lia) ltac:(lia))%nat
      | exact (H 2 0 ltac:(lia) ltac:(lia))%nat | exact (H 2 1 ltac:(lia) ltac:(lia))%nat | exact (H 2 2 ltac:(lia) ltac:(lia))%nat | exact (H 2 3 ltac:(lia) ltac:(lia))%nat
      | exact (H 3 0 ltac:(lia) ltac:(lia))%nat | exact (H 3 1 ltac:(lia) ltac:(lia))%nat | exact (H 3 2 ltac:(lia) ltac:(lia))%nat | exact (H 3 3 ltac:(lia) ltac:(lia))%nat].
Qed.
Lemma identity3_iff p m : isIdentity3 p m = true <-> like_identity p 3 (entry3 m).
Proof.
  unfold isIdentity3, like_identity. rewrite !andb_true_iff, !much_iff, !one_iff. split.
  - intros H i j I J. destruct i as [| [| [| i]]]; try lia; destruct j as [| [| [| j]]]; try lia; cbn; tauto.
  - intros H. repeat split.
    all: first [exact (H 0 0 ltac:(lia) ltac:(lia))%nat | exact (H 0 1 ltac:(lia) ltac:(lia))%nat | exact (H 0 2 ltac:(lia) ltac:(lia))%nat
      | exact (H 1 0 ltac:(lia) ltac:(lia))%nat | exact (H 1 1 ltac:(lia) ltac:(lia))%nat | exact (H 1 2 ltac:(lia) ltac:(lia))%nat
      | exact (H 2 0 ltac:(lia) ltac:(lia))%nat | exact (H 2 1 ltac:(lia) ltac:(lia))%nat | exact (H 2 2 ltac:(lia) ltac:(lia))%nat].
Qed.
Lemma gram_iff p m : isIdentity3 p (mul3 (transpose3 (lin4 m)) (lin4 m)) = true <-> like_identity p 3 (fun i j => dot3 (column3 m i) (column3 m j)).
Proof.
  rewrite identity3_iff. unfold like_identity. split; intros H i j I J; specialize (H i j I J); revert H;
    destruct i as [| [| [| i]]]; try lia; destruct j as [| [| [| j]]]; try lia; intros H; exact H.
Qed.
Lemma rigid_iff p m : t3_IsRigid p (Some m) = true <-> exact_last_row m /\ like_identity p 3 (fun i j => dot3 (column3 m i) (column3 m j)).
Proof.
  cbn [t3_IsRigid]. rewrite <- gram_iff. unfold exact_last_row, row4.
  destruct (Reqb (a30 m) 0) eqn:A; destruct (Reqb (a31 m) 0) eqn:B; destruct (Reqb (a32 m) 0) eqn:C; destruct (Reqb (a33 m) 1) eqn:D; cbn [negb orb].
  1: { apply Reqb_iff in A, B, C, D. rewrite A, B, C, D. tauto. }
  all: split; [discriminate |]; intros [H _]; injection H as H0 H1 H2 H3.
  all: repeat match goal with K : Reqb _ _ = false |- _ => apply Reqb_no in K end; contradiction.
Qed.

Lemma c109_matrix prec m t : t3_Transformation prec (Some m) = Ok t <->
  like_identity prec 4 (entry4 m) /\ t3_type t = TIdentity /\ t3_matrix t = Some m /\
  (t3_rigid t = true <-> exact_last_row m /\ like_identity prec 3 (fun i j => dot3 (column3 m i) (column3 m j))).
Proof.
  rewrite <- identity4_iff, <- rigid_iff. unfold t3_Transformation. cbn [t3_TypeOfMatrix]. destruct (isIdentity4 prec m); cbn [bind].
  - split.
    + intros [= <-]. cbn [t3_type t3_matrix t3_rigid]. tauto.
    + destruct t as [ty n r]. cbn [t3_type t3_matrix t3_rigid]. intros (_ & -> & -> & R). do 2 f_equal. destruct r, (t3_IsRigid prec (Some m)); intuition congruence.
  - split; [discriminate |]. intros [H _]. discriminate.
Qed.
Lemma c109_other prec m : ~ like_identity prec 4 (entry4 m) -> t3_Transformation prec (Some m) = Err ERuntime.
Proof.
  intros H. unfold t3_Transformation. cbn [t3_TypeOfMatrix]. destruct (isIdentity4 prec m) eqn:E; [| reflexivity]. elim H. apply identity4_iff, E.
Qed.
Lemma c109_undefined prec : exists t, t3_Transformation prec None = Ok t /\ t3_isDefined t = false /\ t3_Transformation prec None = Ok t3_Undefined.
Proof. exists t3_Undefined. repeat split. Qed.
(** An exact identity is accepted, a rotation or a translation by more than the tolerance is not. *)
Lemma c109_identity prec : 0 <= prec -> t3_Transformation prec (Some id4) = Ok t3_Identity.
Proof.
  intros P. assert (L : forall n f, (n <= 4)%nat -> (forall i j, (i < n)%nat -> (j < n)%nat -> f i j = if Nat.eqb i j then 1 else 0) -> like_identity prec n f).
  { intros n f N F i j I J. rewrite F by assumption. destruct (Nat.eqb i j).
    - replace (1 - 1) with 0 by ring. rewrite Rabs_R0, Rabs_R1, Rmin_left by lra. lra.
    - rewrite Rabs_R0. exact P. }
  apply c109_matrix. cbn [t3_type t3_matrix t3_rigid t3_Identity]. split; [| split; [reflexivity |]; split; [reflexivity |]; split; [intros _ | reflexivity]].
  - apply L; [lia |]. intros i j I J. destruct i as [| [| [| [| i]]]]; try lia; destruct j as [| [| [| [| j]]]]; try lia; reflexivity.
  - split; [reflexivity |]. apply L; [lia |]. intros i j I J. destruct i as [| [| [| i]]]; try lia; destruct j as [| [| [| j]]]; try lia; cbn; unfold dot3; cbn; ring.
Qed.
Lemma c109_plane m : (t2_Transformation (Some m) = Ok t2_Identity <-> m = id3) /\ (m <> id3 -> t2_Transformation (Some m) = Err ERuntime) /\
  t2_Transformation None = Ok t2_Undefined.
Proof.
  unfold t2_Transformation. cbn [t2_TypeOfMatrix]. destruct (m3_eq_dec m id3) as [-> | N]; cbn [bind]; repeat split; try congruence; discriminate.
Qed.
(** What the accessors answer: for undefined transformations in space errors only. *)
Lemma c109_access t : (t3_isDefined t = false ->
    t3_isIdentity t = Err EUndefined /\ t3_isRigid t = Err EUndefined /\ t3_getType t = Err EUndefined /\ t3_getMatrix t = Err EUndefined /\ t3_getInverse t = Err EUndefined) /\
  (t3_type t <> TUndefined -> t3_isIdentity t = Ok (if ttype_eqb (t3_type t) TIdentity then true else false) /\ t3_isRigid t = Ok (t3_rigid t) /\ t3_getType t = Ok (t3_type t) /\
    forall m, t3_matrix t = Some m -> t3_getMatrix t = Ok m).
Proof.
  unfold t3_isIdentity, t3_isRigid, t3_getType, t3_getMatrix, t3_getInverse, t3_defined, t3_isDefined. split.
  - intros H. rewrite H. repeat split.
  - intros H. destruct t as [ty m r]. cbn [t3_type t3_matrix t3_rigid] in *. destruct ty; try congruence; cbn; repeat split; intros n ->; reflexivity.
Qed.
Lemma c109_access_plane t : (t2_isDefined t = false ->
    t2_isIdentity t = false /\ t2_isRigid t = false /\ t2_getType t = Err EUndefined /\ t2_getMatrix t = Err EUndefined /\ t2_getInverse t = Err EUndefined) /\
  (t2_type t <> TUndefined -> t2_getType t = Ok (t2_type t) /\ (t2_isIdentity t = true <-> t2_type t = TIdentity) /\
    (t2_isRigid t = true <-> t2_type t = TIdentity \/ t2_type t = TTranslation \/ t2_type t = TRotation \/ t2_type t = TReflection) /\
    forall m, t2_matrix t = Some m -> t2_getMatrix t = Ok m).
Proof.
  unfold t2_isIdentity, t2_isRigid, t2_getType, t2_getMatrix, t2_getInverse, t2_defined, t2_isDefined. split.
  - intros H. destruct t as [ty m]. destruct ty; try discriminate. repeat split.
  - intros H. destruct t as [ty m]. cbn [t2_type t2_matrix] in *. destruct ty; try congruence; cbn; repeat split; try tauto; try congruence; try (intros [K | [K | [K | K]]]; discriminate); intros n ->; reflexivity.
Qed.
