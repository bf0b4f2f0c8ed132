(** Square matrices of any dimension over R, as functions of two indices. *)

From Coq Require Import Reals Lra Lia Arith.
Local Open Scope R_scope.

Definition mat := nat -> nat -> R.

Fixpoint msum (n : nat) (f : nat -> R) : R :=
  match n with O => 0 | S m => msum m f + f m end.
Definition mmul (n : nat) (A B : mat) : mat := fun i j => msum n (fun k => A i k * B k j).
Definition mtrans (A : mat) : mat := fun i j => A j i.
Definition mdiag (d : nat -> R) : mat := fun i j => if Nat.eqb i j then d i else 0.
Definition mid : mat := mdiag (fun _ => 1).
Definition madd (A B : mat) : mat := fun i j => A i j + B i j.
Definition mscale (k : R) (A : mat) : mat := fun i j => A i j * k.
(** Equality on the indices below the dimension. *)
Definition meq (n : nat) (A B : mat) : Prop := forall i j, (i < n)%nat -> (j < n)%nat -> A i j = B i j.

Lemma msum_ext n f g : (forall k, (k < n)%nat -> f k = g k) -> msum n f = msum n g.
Proof.
  induction n as [| n IH]; intros H; simpl; [reflexivity |].
  rewrite IH by (intros; apply H; lia). rewrite H by lia. reflexivity.
Qed.
Lemma msum_0 n : msum n (fun _ => 0) = 0.
Proof. induction n; simpl; lra. Qed.
Lemma msum_scale n k f : msum n (fun i => k * f i) = k * msum n f.
Proof. induction n; simpl; [ring |]. rewrite IHn. ring. Qed.
Lemma msum_scale_r n k f : msum n (fun i => f i * k) = msum n f * k.
Proof. induction n; simpl; [ring |]. rewrite IHn. ring. Qed.
Lemma msum_add n f g : msum n (fun i => f i + g i) = msum n f + msum n g.
Proof. induction n; simpl; [ring |]. rewrite IHn. ring. Qed.
Lemma msum_swap n m f : msum n (fun i => msum m (fun j => f i j)) = msum m (fun j => msum n (fun i => f i j)).
Proof.
  induction n; simpl; [symmetry; apply msum_0 |]. rewrite IHn, <- msum_add. reflexivity.
Qed.
Lemma msum_single n k f : (k < n)%nat -> (forall i, (i < n)%nat -> i <> k -> f i = 0) -> msum n f = f k.
Proof.
  induction n as [| n IH]; intros Hk H; [lia |]. simpl.
  destruct (Nat.eq_dec k n) as [-> | E].
  - rewrite (msum_ext n f (fun _ => 0)) by (intros; apply H; lia). rewrite msum_0. ring.
  - rewrite IH by (try lia; intros; apply H; lia). rewrite (H n) by lia. ring.
Qed.
Lemma msum_nonneg n f : (forall i, (i < n)%nat -> 0 <= f i) -> 0 <= msum n f.
Proof.
  induction n as [| n IH]; intros H; simpl; [lra |].
  specialize (IH (fun i Hi => H i (Nat.lt_lt_succ_r _ _ Hi))). specialize (H n (Nat.lt_succ_diag_r n)). lra.
Qed.

Lemma meq_refl n A : meq n A A. Proof. intros i j _ _; reflexivity. Qed.
Lemma meq_sym n A B : meq n A B -> meq n B A. Proof. intros H i j Hi Hj; symmetry; apply H; assumption. Qed.
Lemma meq_trans n A B C : meq n A B -> meq n B C -> meq n A C.
Proof. intros H1 H2 i j Hi Hj. rewrite H1 by assumption. apply H2; assumption. Qed.
Lemma mmul_compat n A A' B B' : meq n A A' -> meq n B B' -> meq n (mmul n A B) (mmul n A' B').
Proof.
  intros HA HB i j Hi Hj. unfold mmul. apply msum_ext. intros k Hk.
  rewrite HA, HB by assumption. reflexivity.
Qed.
Lemma mmul_assoc n A B C : meq n (mmul n (mmul n A B) C) (mmul n A (mmul n B C)).
Proof.
  intros i j _ _. unfold mmul.
  rewrite (msum_ext n _ (fun k => msum n (fun l => A i l * B l k * C k j)))
    by (intros; rewrite <- msum_scale_r; reflexivity).
  rewrite msum_swap. apply msum_ext. intros k _. rewrite <- msum_scale. apply msum_ext. intros; ring.
Qed.
Lemma mmul_id_l n A : meq n (mmul n mid A) A.
Proof.
  intros i j Hi Hj. unfold mmul, mid, mdiag. rewrite (msum_single n i); [rewrite Nat.eqb_refl; ring | exact Hi |].
  intros k _ Hk. destruct (Nat.eqb_spec i k); [lia | ring].
Qed.
Lemma mmul_id_r n A : meq n (mmul n A mid) A.
Proof.
  intros i j Hi Hj. unfold mmul, mid, mdiag. rewrite (msum_single n j); [rewrite Nat.eqb_refl; ring | exact Hj |].
  intros k _ Hk. destruct (Nat.eqb_spec k j); [lia | ring].
Qed.
Lemma mmul_diag_r n A d i j : (j < n)%nat -> mmul n A (mdiag d) i j = A i j * d j.
Proof.
  intros Hj. unfold mmul, mdiag. rewrite (msum_single n j); [rewrite Nat.eqb_refl; ring | exact Hj |].
  intros k _ Hk. destruct (Nat.eqb_spec k j); [lia | ring].
Qed.
Lemma mmul_diag_l n A d i j : (i < n)%nat -> mmul n (mdiag d) A i j = d i * A i j.
Proof.
  intros Hi. unfold mmul, mdiag. rewrite (msum_single n i); [rewrite Nat.eqb_refl; ring | exact Hi |].
  intros k _ Hk. destruct (Nat.eqb_spec i k); [lia | ring].
Qed.
Lemma mtrans_mul n A B : meq n (mtrans (mmul n A B)) (mmul n (mtrans B) (mtrans A)).
Proof. intros i j _ _. unfold mtrans, mmul. apply msum_ext. intros; ring. Qed.

Definition orthogonal (n : nat) (Q : mat) : Prop :=
  meq n (mmul n (mtrans Q) Q) mid /\ meq n (mmul n Q (mtrans Q)) mid.

(** Q diag(d) Q^T *)
Definition conj_diag (n : nat) (Q : mat) (d : nat -> R) : mat := mmul n (mmul n Q (mdiag d)) (mtrans Q).

Lemma conj_diag_entry n Q d i j : conj_diag n Q d i j = msum n (fun k => Q i k * d k * Q j k).
Proof.
  unfold conj_diag. unfold mmul at 1. apply msum_ext. intros k Hk. rewrite mmul_diag_r by exact Hk. reflexivity.
Qed.
Lemma conj_diag_sym n Q d i j : conj_diag n Q d i j = conj_diag n Q d j i.
Proof. rewrite !conj_diag_entry. apply msum_ext. intros; ring. Qed.

(** A function of a symmetric matrix does not depend on the eigendecomposition used. *)
Lemma conj_diag_function n Q P d e (f : R -> R) : orthogonal n Q -> orthogonal n P ->
  meq n (conj_diag n Q d) (conj_diag n P e) ->
  meq n (conj_diag n Q (fun k => f (d k))) (conj_diag n P (fun k => f (e k))).
Proof.
  intros [Q1 Q2] [P1 P2] H.
  (* X = P^T Q satisfies X D = E X *)
  set (X := mmul n (mtrans P) Q).
  assert (HX : meq n (mmul n X (mdiag d)) (mmul n (mdiag e) X)).
  { unfold X.
    (* P^T (Q D Q^T) Q = P^T Q D ; P^T (P E P^T) Q = E P^T Q *)
    assert (A : meq n (mmul n (mmul n (mtrans P) (conj_diag n Q d)) Q) (mmul n (mmul n (mtrans P) Q) (mdiag d))).
    { unfold conj_diag.
      eapply meq_trans; [apply mmul_assoc |].
      eapply meq_trans; [apply mmul_compat; [apply meq_refl | apply mmul_assoc] |].
      eapply meq_trans; [apply mmul_compat; [apply meq_refl | apply mmul_compat; [apply meq_refl | exact Q1]] |].
      eapply meq_trans; [apply mmul_compat; [apply meq_refl | apply mmul_id_r] |].
      apply meq_sym, mmul_assoc. }
    assert (B : meq n (mmul n (mmul n (mtrans P) (conj_diag n P e)) Q) (mmul n (mdiag e) (mmul n (mtrans P) Q))).
    { unfold conj_diag.
      eapply meq_trans; [apply mmul_compat; [apply meq_sym, mmul_assoc | apply meq_refl] |].
      eapply meq_trans; [apply mmul_compat; [apply mmul_compat; [apply meq_sym, mmul_assoc | apply meq_refl] | apply meq_refl] |].
      eapply meq_trans; [apply mmul_compat; [apply mmul_compat; [apply mmul_compat; [exact P1 | apply meq_refl] | apply meq_refl] | apply meq_refl] |].
      eapply meq_trans; [apply mmul_compat; [apply mmul_compat; [apply mmul_id_l | apply meq_refl] | apply meq_refl] |].
      apply mmul_assoc. }
    eapply meq_trans; [apply meq_sym, A |]. eapply meq_trans; [| exact B].
    apply mmul_compat; [apply mmul_compat; [apply meq_refl | exact H] | apply meq_refl]. }
  assert (HF : meq n (mmul n X (mdiag (fun k => f (d k)))) (mmul n (mdiag (fun k => f (e k))) X)).
  { intros i j Hi Hj. specialize (HX i j Hi Hj). rewrite mmul_diag_r, mmul_diag_l in * by assumption.
    destruct (Req_EM_T (X i j) 0) as [-> | N]; [ring |].
    assert (d j = e i) as ->; [| ring].
    apply Rmult_eq_reg_l with (X i j); [rewrite HX; ring | exact N]. }
  (* Q = P X, P^T = X Q^T *)
  assert (QX : meq n Q (mmul n P X)).
  { unfold X. apply meq_sym. eapply meq_trans; [apply meq_sym, mmul_assoc |].
    eapply meq_trans; [apply mmul_compat; [exact P2 | apply meq_refl] |]. apply mmul_id_l. }
  assert (PX : meq n (mmul n X (mtrans Q)) (mtrans P)).
  { unfold X. eapply meq_trans; [apply mmul_assoc |].
    eapply meq_trans; [apply mmul_compat; [apply meq_refl | exact Q2] |]. apply mmul_id_r. }
  unfold conj_diag.
  eapply meq_trans; [apply mmul_compat; [apply mmul_compat; [exact QX | apply meq_refl] | apply meq_refl] |].
  eapply meq_trans; [apply mmul_compat; [apply mmul_assoc | apply meq_refl] |].
  eapply meq_trans; [apply mmul_compat; [apply mmul_compat; [apply meq_refl | exact HF] | apply meq_refl] |].
  eapply meq_trans; [apply mmul_compat; [apply meq_sym, mmul_assoc | apply meq_refl] |].
  eapply meq_trans; [apply mmul_assoc |].
  apply mmul_compat; [apply meq_refl | exact PX].
Qed.
