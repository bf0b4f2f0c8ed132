(** Quaternions and rotation matrices: algebra. *)

From Coq Require Import List Bool Reals Lra Lia Psatz.
From Verif Require Import Result DOrder Vec VecProofs Mat3 AngleModel AngleSpec AngleProofs AngleProofs2 RotModel RotSpec.
Local Open Scope R_scope.

#[global] Arguments qmul : simpl never.
#[global] Arguments qconj : simpl never.
#[global] Arguments qnorm : simpl never.
#[global] Arguments q_matrix : simpl never.
#[global] Arguments mul3 : simpl never.
#[global] Arguments mulv3 : simpl never.
#[global] Arguments transpose3 : simpl never.

Lemma Q4_eq a b c d a' b' c' d' : a = a' -> b = b' -> c = c' -> d = d' -> Q4 a b c d = Q4 a' b' c' d'.
Proof. congruence. Qed.
Lemma q_ext p q : qx p = qx q -> qy p = qy q -> qz p = qz q -> qs p = qs q -> p = q.
Proof. destruct p, q; simpl; congruence. Qed.
Lemma M3_eq a b c d e f g h i a' b' c' d' e' f' g' h' i' :
  a = a' -> b = b' -> c = c' -> d = d' -> e = e' -> f = f' -> g = g' -> h = h' -> i = i' ->
  M3 a b c d e f g h i = M3 a' b' c' d' e' f' g' h' i'.
Proof. congruence. Qed.

Ltac qunfold :=
  unfold qmul, qconj, hamilton, negq, sq, dot4, q_matrix, q_Unit, of_parts, vec, mul3, mulv3, transpose3, id3,
    trace3, det3, of_rows, of_cols, row3, col3 in *;
  cbn [qx qy qz qs m00 m01 m02 m10 m11 m12 m20 m21 m22 vx vy vz] in *; v3unfold;
  cbn [qx qy qz qs m00 m01 m02 m10 m11 m12 m20 m21 m22 vx vy vz] in *.
Ltac qdestruct :=
  repeat match goal with a : v3 |- _ => destruct a | a : quat |- _ => destruct a | a : m3 |- _ => destruct a end.
Ltac qring :=
  clear; intros; qdestruct; qunfold; first [apply Q4_eq; ring | apply V3_eq; ring | apply M3_eq; ring | ring].

(** *** Comparisons *)
Lemma Rleb_t a b : a <= b -> Rleb a b = true.
Proof. unfold Rleb. destruct Rle_dec; [reflexivity | lra]. Qed.
Lemma Rleb_f a b : b < a -> Rleb a b = false.
Proof. unfold Rleb. destruct Rle_dec; [lra | reflexivity]. Qed.
Lemma Rleb_iff a b : Rleb a b = true <-> a <= b.
Proof. unfold Rleb. destruct Rle_dec; split; try discriminate; try lra; reflexivity. Qed.
Lemma Rleb_false a b : Rleb a b = false <-> b < a.
Proof. unfold Rleb. destruct Rle_dec; split; try discriminate; try lra; reflexivity. Qed.
Lemma Reqb_iff a b : Reqb a b = true <-> a = b.
Proof. unfold Reqb. destruct Req_EM_T; split; try discriminate; try contradiction; tauto. Qed.

(** *** C27 *)
Lemma qmul_hamilton p q : qmul p q = hamilton q p.
Proof. qring. Qed.
Lemma qmul_assoc p q r : qmul (qmul p q) r = qmul p (qmul q r).
Proof. qring. Qed.
Lemma qmul_unit_l q : qmul q_Unit q = q.
Proof. qring. Qed.
Lemma qmul_unit_r q : qmul q q_Unit = q.
Proof. qring. Qed.
Lemma sq_mul p q : sq (qmul p q) = sq p * sq q.
Proof. qring. Qed.
Lemma qconj_mul p q : qconj (qmul p q) = qmul (qconj q) (qconj p).
Proof. qring. Qed.
Lemma sq_conj q : sq (qconj q) = sq q.
Proof. qring. Qed.
Lemma sq_nonneg q : 0 <= sq q.
Proof. destruct q; qunfold; nra. Qed.
Lemma qnorm_sqrt q : qnorm q = sqrt (sq q).
Proof. reflexivity. Qed.
Lemma qnorm_nonneg q : 0 <= qnorm q.
Proof. apply sqrt_pos. Qed.
Lemma qnorm_sq q : qnorm q * qnorm q = sq q.
Proof. apply sqrt_sqrt, sq_nonneg. Qed.
Lemma qnorm_mul p q : qnorm (qmul p q) = qnorm p * qnorm q.
Proof. rewrite !qnorm_sqrt, sq_mul. apply sqrt_mult; apply sq_nonneg. Qed.
Lemma qnorm_unit q : unit_q q -> qnorm q = 1.
Proof. intros H. rewrite qnorm_sqrt, H. apply sqrt_1. Qed.
Lemma qnorm_1 q : qnorm q = 1 -> unit_q q.
Proof. intros H. unfold unit_q. rewrite <- qnorm_sq, H. ring. Qed.

Lemma c27_assoc p q r :
  (let! pq := crossMultiply p q in crossMultiply (Some pq) r)
  = (let! qr := crossMultiply q r in crossMultiply p (Some qr)).
Proof.
  destruct p as [p |], q as [q |], r as [r |]; try reflexivity. unfold crossMultiply. cbn [needd bind]. rewrite qmul_assoc. reflexivity.
Qed.
Lemma c27_product p q : crossMultiply (Some p) (Some q) = Ok (hamilton q p)
  /\ dotMultiply (Some p) (Some q) = Ok (hamilton p q).
Proof.
  unfold crossMultiply, dotMultiply. cbn [needd bind]. rewrite qmul_hamilton. split; [reflexivity |].
  f_equal. qring.
Qed.
Lemma c27_unit q : crossMultiply (Some q_Unit) (Some q) = Ok q /\ crossMultiply (Some q) (Some q_Unit) = Ok q.
Proof. unfold crossMultiply. simpl. rewrite qmul_unit_l, qmul_unit_r. split; reflexivity. Qed.
Lemma c27_norm p q : (let! pq := crossMultiply (Some p) (Some q) in norm (Some pq)) = Ok (qnorm p * qnorm q).
Proof. unfold crossMultiply, norm. cbn [needd bind]. rewrite qnorm_mul. reflexivity. Qed.
Lemma c27_conj p q :
  (let! pq := crossMultiply p q in conjugate (Some pq))
  = (let! q' := conjugate q in let! p' := conjugate p in crossMultiply (Some q') (Some p')).
Proof.
  destruct p as [p |], q as [q |]; try reflexivity. unfold crossMultiply, conjugate. cbn [needd bind]. rewrite qconj_mul. reflexivity.
Qed.

Definition qinv (q : quat) : quat := Q4 (- qx q / sq q) (- qy q / sq q) (- qz q / sq q) (qs q / sq q).
Lemma qinv_l q : 0 < sq q -> qmul (qinv q) q = q_Unit.
Proof. intros H. unfold qinv. destruct q as [x y z s]. qunfold. apply Q4_eq; field; lra. Qed.
Lemma qinv_r q : 0 < sq q -> qmul q (qinv q) = q_Unit.
Proof. intros H. unfold qinv. destruct q as [x y z s]. qunfold. apply Q4_eq; field; lra. Qed.
Lemma qinv_unit q : unit_q q -> qinv q = qconj q.
Proof. intros H. unfold qinv, qconj. rewrite H. apply Q4_eq; field. Qed.

Lemma inverse_eq eps q : inverse eps (Some q) = if Rltb (sq q) eps then Err ERuntime else Ok (qinv q).
Proof.
  unfold inverse. cbn [needd bind]. fold (sq q). rewrite (Rabs_pos_eq (sq q)) by apply sq_nonneg. reflexivity.
Qed.

Lemma c27_inverse eps q : 0 < eps ->
  (eps <= sq q -> exists i, inverse eps (Some q) = Ok i
     /\ crossMultiply (Some q) (Some i) = Ok q_Unit /\ crossMultiply (Some i) (Some q) = Ok q_Unit)
  /\ (sq q < eps -> inverse eps (Some q) = Err ERuntime)
  /\ (eps < 1 -> (is_ok (q_div eps (Some q) (Some q)) = true <-> eps <= sq q))
  /\ (eps <= sq q -> eps <= qnorm q -> q_div eps (Some q) (Some q) = Ok q_Unit).
Proof.
  intros He. rewrite inverse_eq.
  assert (Hdiv : forall H : eps <= sq q, eps <= qnorm q -> q_div eps (Some q) (Some q) = Ok q_Unit).
  { intros H Hn. unfold q_div. unfold norm. cbn [needd bind]. rewrite (Rltb_f (qnorm q) eps) by assumption.
    rewrite inverse_eq, Rltb_f by assumption. unfold crossMultiply. cbn [needd bind]. rewrite qinv_r by lra. reflexivity. }
  split; [| split; [| split]].
  - intros H. exists (qinv q). rewrite Rltb_f by assumption. split; [reflexivity |].
    unfold crossMultiply. simpl. rewrite qinv_l, qinv_r by lra. split; reflexivity.
  - intros H. rewrite Rltb_t by assumption. reflexivity.
  - intros H1. split.
    + intros Ho. destruct (Rle_lt_dec eps (sq q)) as [C | C]; [exact C | exfalso].
      unfold q_div in Ho. unfold norm in Ho. cbn [needd bind] in Ho.
      destruct (Rltb (qnorm q) eps); [discriminate |].
      rewrite inverse_eq, Rltb_t in Ho by assumption. discriminate.
    + intros H. rewrite Hdiv; [reflexivity | exact H |].
      pose proof (qnorm_sq q). pose proof (qnorm_nonneg q). nra.
  - exact Hdiv.
Qed.

(** *** C28 *)
Definition rot (q : quat) (v : v3) : v3 := vec (qmul (qmul q (of_parts v 0)) (qconj q)).
Lemma rot_matrix q v : mulv3 (q_matrix q) v = rot q v.
Proof. unfold rot. qring. Qed.
Lemma rot_dot q v w : dot3 (rot q v) (rot q w) = sq q * sq q * dot3 v w.
Proof. rewrite <- !rot_matrix. qring. Qed.
Lemma rot_cross q v w : cross3 (rot q v) (rot q w) = scale3 (sq q) (rot q (cross3 v w)).
Proof. rewrite <- !rot_matrix. qring. Qed.
Lemma rot_parts q v : qmul (qmul q (of_parts v 0)) (qconj q) = of_parts (rot q v) 0.
Proof. unfold rot. qring. Qed.
Lemma rot_mul p q v : rot (qmul p q) v = rot p (rot q v).
Proof.
  unfold rot at 1. rewrite qconj_mul.
  replace (qmul (qmul (qmul p q) (of_parts v 0)) (qmul (qconj q) (qconj p)))
    with (qmul (qmul p (qmul (qmul q (of_parts v 0)) (qconj q))) (qconj p)) by (rewrite !qmul_assoc; reflexivity).
  rewrite rot_parts. reflexivity.
Qed.
Lemma rot_neg q v : rot (negq q) v = rot q v.
Proof. unfold rot. qring. Qed.
Lemma rot_unit v : rot q_Unit v = v.
Proof. unfold rot. qring. Qed.
Lemma mulv3_linear m a b v w :
  mulv3 m (add3 (scale3 a v) (scale3 b w)) = add3 (scale3 a (mulv3 m v)) (scale3 b (mulv3 m w)).
Proof. qring. Qed.
Lemma rot_linear q a b v w : rot q (add3 (scale3 a v) (scale3 b w)) = add3 (scale3 a (rot q v)) (scale3 b (rot q w)).
Proof. rewrite <- !rot_matrix. apply mulv3_linear. Qed.
Lemma rot_sq q v : sqnorm3 (rot q v) = sq q * sq q * sqnorm3 v.
Proof. apply rot_dot. Qed.

Lemma isUnitary_tol q t : 0 < t -> isUnitary (Some q) (Some t) = Ok (Rleb (Rabs (qnorm q - 1)) t).
Proof. intros H. unfold isUnitary. cbn [needd bind]. rewrite (Rleb_f t 0) by lra. reflexivity. Qed.
Lemma isUnitary_unit q t : 0 < t -> unit_q q -> isUnitary (Some q) (Some t) = Ok true.
Proof.
  intros Ht H. rewrite isUnitary_tol by assumption. rewrite qnorm_unit by assumption.
  rewrite Rminus_diag_eq by reflexivity. rewrite Rabs_R0, Rleb_t by lra. reflexivity.
Qed.
Lemma q_rotate_unit eps q v : 0 < eps -> unit_q q -> q_rotate eps (Some q) (Some v) = Ok (rot q v).
Proof.
  intros He H. unfold q_rotate, rotateVector. cbn [needd bind]. rewrite isUnitary_unit by assumption. reflexivity.
Qed.

Lemma c28_isometry eps q : 0 < eps -> unit_q q ->
  exists f, q_rotates eps q f
    /\ (forall v w, dot3 (f v) (f w) = dot3 v w)
    /\ (forall v w, cross3 (f v) (f w) = f (cross3 v w))
    /\ (forall v, norm3 (f v) = norm3 v)
    /\ (forall a b v w, f (add3 (scale3 a v) (scale3 b w)) = add3 (scale3 a (f v)) (scale3 b (f w))).
Proof.
  intros He H. exists (rot q). split; [intros v; apply q_rotate_unit; assumption |].
  assert (D : forall v w, dot3 (rot q v) (rot q w) = dot3 v w) by (intros; rewrite rot_dot, H; ring).
  split; [exact D |]. split; [intros; rewrite rot_cross, H; apply scale3_1 |].
  split; [intros; unfold norm3, sqnorm3; rewrite D; reflexivity | intros; apply rot_linear].
Qed.

Lemma unit_mul p q : unit_q p -> unit_q q -> unit_q (qmul p q).
Proof. unfold unit_q. intros Hp Hq. rewrite sq_mul, Hp, Hq. ring. Qed.
Lemma unit_conj q : unit_q q -> unit_q (qconj q).
Proof. unfold unit_q. rewrite sq_conj. tauto. Qed.
Lemma unit_neg q : unit_q q -> unit_q (negq q).
Proof. unfold unit_q. intros <-. qring. Qed.

Lemma c28_homomorphism eps p q v : 0 < eps -> unit_q p -> unit_q q ->
  (let! pq := crossMultiply (Some p) (Some q) in q_rotate eps (Some pq) (Some v))
  = (let! w := q_rotate eps (Some q) (Some v) in q_rotate eps (Some p) (Some w)).
Proof.
  intros He Hp Hq. rewrite (q_rotate_unit eps q v He Hq). cbn [bind crossMultiply needd].
  rewrite (q_rotate_unit eps _ v He (unit_mul p q Hp Hq)), (q_rotate_unit eps p _ He Hp), rot_mul. reflexivity.
Qed.
Lemma rot_conj q v : unit_q q -> rot (qconj q) (rot q v) = v.
Proof.
  intros H. rewrite <- rot_mul. rewrite <- qinv_unit by assumption. rewrite qinv_l by (rewrite H; lra). apply rot_unit.
Qed.
Lemma rot_conj_r q v : unit_q q -> rot q (rot (qconj q) v) = v.
Proof.
  intros H. rewrite <- rot_mul. rewrite <- qinv_unit by assumption. rewrite qinv_r by (rewrite H; lra). apply rot_unit.
Qed.
Lemma c28_inverse eps q v : 0 < eps -> eps <= 1 -> unit_q q ->
  exists i w, inverse eps (Some q) = Ok i /\ q_rotate eps (Some q) (Some v) = Ok w
    /\ q_rotate eps (Some i) (Some w) = Ok v.
Proof.
  intros He H1 H. exists (qconj q), (rot q v). rewrite inverse_eq, Rltb_f by (rewrite H; lra).
  rewrite qinv_unit by assumption. split; [reflexivity |]. split; [apply q_rotate_unit; assumption |].
  rewrite q_rotate_unit by (assumption || apply unit_conj; assumption). rewrite rot_conj by assumption. reflexivity.
Qed.
Lemma c28_negated eps q v : 0 < eps -> unit_q q ->
  q_rotate eps (Some (negq q)) (Some v) = q_rotate eps (Some q) (Some v).
Proof.
  intros He H. rewrite !q_rotate_unit by (try apply unit_neg; assumption). rewrite rot_neg. reflexivity.
Qed.
Lemma c28_errors q v tol : 
  (forall t, tol = Some t -> 0 < t -> t < Rabs (qnorm q - 1) -> rotateVector (Some q) (Some v) tol = Err ERuntime)
  /\ rotateVector None (Some v) tol = Err EUndefined /\ rotateVector (Some q) None tol = Err EUndefined
  /\ rotateVector (Some q) (Some v) None = Err EUndefined
  /\ (forall t, tol = Some t -> t <= 0 -> rotateVector (Some q) (Some v) tol = Err EUndefined).
Proof.
  split; [| split; [| split; [| split]]]; try reflexivity.
  - intros t -> Ht H. unfold rotateVector. cbn [needd bind]. rewrite isUnitary_tol, Rleb_f by assumption. reflexivity.
  - intros t -> Ht. unfold rotateVector, isUnitary. cbn [needd bind]. rewrite Rleb_t by assumption. reflexivity.
Qed.
(** Within the tolerance the image is only stretched. *)
Lemma c28_tolerated q v t : 0 < t -> Rabs (qnorm q - 1) <= t ->
  exists w, rotateVector (Some q) (Some v) (Some t) = Ok w /\ norm3 w = qnorm q * qnorm q * norm3 v.
Proof.
  intros Ht H. exists (rot q v). unfold rotateVector. cbn [needd bind]. rewrite isUnitary_tol, Rleb_t by assumption.
  split; [reflexivity |]. unfold norm3. rewrite rot_sq, qnorm_sq.
  rewrite sqrt_mult; [| pose proof (sq_nonneg q); nra | apply sqnorm3_nonneg].
  rewrite sqrt_square by apply sq_nonneg. reflexivity.
Qed.
