(** Facts about vectors of R^2 and R^3. *)

From Coq Require Import Reals Lra Psatz.
From Verif Require Import Vec.
Local Open Scope R_scope.

Ltac v3unfold := unfold sqnorm3, add3, sub3, opp3, scale3, dot3, cross3, zero3 in *; cbn [vx vy vz] in *.
Ltac v2unfold := unfold sqnorm2, add2, sub2, opp2, scale2, dot2, zero2 in *; cbn [x2 y2] in *.
Lemma V3_eq a b c a' b' c' : a = a' -> b = b' -> c = c' -> V3 a b c = V3 a' b' c'.
Proof. congruence. Qed.
Lemma V2_eq a b a' b' : a = a' -> b = b' -> V2 a b = V2 a' b'.
Proof. congruence. Qed.
Ltac v3ring :=
  repeat match goal with a : v3 |- _ => destruct a end; v3unfold; first [apply V3_eq; ring | ring].
Ltac v2ring :=
  repeat match goal with a : v2 |- _ => destruct a end; v2unfold; first [apply V2_eq; ring | ring].

Lemma v3_ext a b : vx a = vx b -> vy a = vy b -> vz a = vz b -> a = b.
Proof. destruct a, b; simpl; congruence. Qed.
Lemma v2_ext a b : x2 a = x2 b -> y2 a = y2 b -> a = b.
Proof. destruct a, b; simpl; congruence. Qed.

(** *** Sums of squares *)
Lemma sq_nonneg x : 0 <= x * x.
Proof. nra. Qed.
Lemma sumsq2_0 a b : a * a + b * b = 0 -> a = 0 /\ b = 0.
Proof.
  intros H. pose proof (sq_nonneg a). pose proof (sq_nonneg b).
  split; apply Rsqr_0_uniq; unfold Rsqr; lra.
Qed.
Lemma sumsq3_0 a b c : a * a + b * b + c * c = 0 -> a = 0 /\ b = 0 /\ c = 0.
Proof.
  intros H. pose proof (sq_nonneg a). pose proof (sq_nonneg b). pose proof (sq_nonneg c).
  repeat split; apply Rsqr_0_uniq; unfold Rsqr; lra.
Qed.

(** *** Dimension 3 *)
Lemma sqnorm3_nonneg a : 0 <= sqnorm3 a.
Proof. destruct a; v3unfold; nra. Qed.
Lemma sqnorm3_0 a : sqnorm3 a = 0 <-> a = zero3.
Proof.
  split.
  - destruct a; v3unfold; intros H. apply sumsq3_0 in H. destruct H as [-> [-> ->]]; reflexivity.
  - intros ->; v3unfold; ring.
Qed.
Lemma sqnorm3_pos a : a <> zero3 <-> 0 < sqnorm3 a.
Proof.
  pose proof (sqnorm3_nonneg a). rewrite <- sqnorm3_0. split; intros; lra.
Qed.
Lemma norm3_nonneg a : 0 <= norm3 a.
Proof. apply sqrt_pos. Qed.
Lemma norm3_sq a : norm3 a * norm3 a = sqnorm3 a.
Proof. apply sqrt_sqrt, sqnorm3_nonneg. Qed.
Lemma norm3_pos a : 0 < sqnorm3 a -> 0 < norm3 a.
Proof. apply sqrt_lt_R0. Qed.
Lemma norm3_0 a : norm3 a = 0 <-> a = zero3.
Proof.
  rewrite <- sqnorm3_0. split; intros H.
  - rewrite <- norm3_sq, H; ring.
  - unfold norm3; rewrite H; apply sqrt_0.
Qed.
Lemma sqnorm3_scale k a : sqnorm3 (scale3 k a) = k * k * sqnorm3 a.
Proof. v3ring. Qed.
Lemma norm3_scale k a : norm3 (scale3 k a) = Rabs k * norm3 a.
Proof.
  unfold norm3. rewrite sqnorm3_scale, sqrt_mult; [| nra | apply sqnorm3_nonneg].
  f_equal. replace (k * k) with (Rsqr k) by reflexivity. apply sqrt_Rsqr_abs.
Qed.
Lemma dot3_sym a b : dot3 a b = dot3 b a.
Proof. v3ring. Qed.
Lemma dot3_scale_l k a b : dot3 (scale3 k a) b = k * dot3 a b.
Proof. v3ring. Qed.
Lemma dot3_scale_r k a b : dot3 a (scale3 k b) = k * dot3 a b.
Proof. v3ring. Qed.
Lemma lagrange3 a b : sqnorm3 (cross3 a b) = sqnorm3 a * sqnorm3 b - dot3 a b * dot3 a b.
Proof. v3ring. Qed.
Lemma cauchy3 a b : dot3 a b * dot3 a b <= sqnorm3 a * sqnorm3 b.
Proof. pose proof (sqnorm3_nonneg (cross3 a b)) as H. rewrite lagrange3 in H. lra. Qed.
Lemma cauchy3_norm a b : Rabs (dot3 a b) <= norm3 a * norm3 b.
Proof.
  apply Rsqr_incr_0_var.
  - rewrite <- Rsqr_abs. unfold Rsqr.
    replace (norm3 a * norm3 b * (norm3 a * norm3 b)) with ((norm3 a * norm3 a) * (norm3 b * norm3 b)) by ring.
    rewrite !norm3_sq. apply cauchy3.
  - apply Rmult_le_pos; apply norm3_nonneg.
Qed.
Lemma dot3_le_norms a b : dot3 a b <= norm3 a * norm3 b.
Proof. pose proof (cauchy3_norm a b). pose proof (Rle_abs (dot3 a b)). lra. Qed.
Lemma dot3_ge_norms a b : - (norm3 a * norm3 b) <= dot3 a b.
Proof. pose proof (cauchy3_norm a b) as H.
  revert H. unfold Rabs. destruct Rcase_abs; lra. Qed.
Lemma sqnorm3_sub a b : sqnorm3 (sub3 a b) = sqnorm3 a - 2 * dot3 a b + sqnorm3 b.
Proof. v3ring. Qed.
Lemma sqnorm3_add a b : sqnorm3 (add3 a b) = sqnorm3 a + 2 * dot3 a b + sqnorm3 b.
Proof. v3ring. Qed.
Lemma norm3_triangle a b : norm3 (add3 a b) <= norm3 a + norm3 b.
Proof.
  apply Rsqr_incr_0_var; [| pose proof (norm3_nonneg a); pose proof (norm3_nonneg b); lra].
  unfold Rsqr. rewrite norm3_sq, sqnorm3_add.
  pose proof (norm3_sq a). pose proof (norm3_sq b). pose proof (dot3_le_norms a b). nra.
Qed.
Lemma normalized3_dot a b : 0 < sqnorm3 a -> 0 < sqnorm3 b ->
  dot3 (normalized3 a) (normalized3 b) = dot3 a b / (norm3 a * norm3 b).
Proof.
  intros Ha Hb. unfold normalized3.
  destruct Rlt_dec; [| lra]. destruct Rlt_dec; [| lra].
  rewrite dot3_scale_l, dot3_scale_r. field.
  split; apply Rgt_not_eq, norm3_pos; assumption.
Qed.
Lemma sub3_0 a b : sub3 a b = zero3 -> a = b.
Proof.
  intros H. apply v3_ext; [apply (f_equal vx) in H | apply (f_equal vy) in H | apply (f_equal vz) in H];
    simpl in H; lra.
Qed.
(** Equality case of Cauchy-Schwarz. *)
Lemma cauchy3_eq a b : 0 < sqnorm3 a ->
  dot3 a b = norm3 a * norm3 b -> b = scale3 (norm3 b / norm3 a) a.
Proof.
  intros Ha H. apply sub3_0, sqnorm3_0.
  rewrite sqnorm3_sub, dot3_scale_r, sqnorm3_scale, (dot3_sym b a), H, <- !norm3_sq.
  field. apply Rgt_not_eq, norm3_pos, Ha.
Qed.
Lemma opp3_scale a : opp3 a = scale3 (-1) a.
Proof. v3ring. Qed.
Lemma norm3_opp a : norm3 (opp3 a) = norm3 a.
Proof. unfold norm3; f_equal; v3ring. Qed.
Lemma dot3_opp_r a b : dot3 a (opp3 b) = - dot3 a b.
Proof. v3ring. Qed.
Lemma scale3_scale k l a : scale3 k (scale3 l a) = scale3 (k * l) a.
Proof. v3ring. Qed.
Lemma scale3_1 a : scale3 1 a = a.
Proof. destruct a; v3unfold; f_equal; ring. Qed.

(** *** Dimension 2 *)
Lemma sqnorm2_nonneg a : 0 <= sqnorm2 a.
Proof. destruct a; v2unfold; nra. Qed.
Lemma sqnorm2_0 a : sqnorm2 a = 0 <-> a = zero2.
Proof.
  split.
  - destruct a; v2unfold; intros H. apply sumsq2_0 in H. destruct H as [-> ->]; reflexivity.
  - intros ->; v2unfold; ring.
Qed.
Lemma norm2_nonneg a : 0 <= norm2 a.
Proof. apply sqrt_pos. Qed.
Lemma norm2_sq a : norm2 a * norm2 a = sqnorm2 a.
Proof. apply sqrt_sqrt, sqnorm2_nonneg. Qed.
Lemma norm2_pos a : 0 < sqnorm2 a -> 0 < norm2 a.
Proof. apply sqrt_lt_R0. Qed.
Lemma norm2_0 a : norm2 a = 0 <-> a = zero2.
Proof.
  rewrite <- sqnorm2_0. split; intros H.
  - rewrite <- norm2_sq, H; ring.
  - unfold norm2; rewrite H; apply sqrt_0.
Qed.
Lemma sqnorm2_scale k a : sqnorm2 (scale2 k a) = k * k * sqnorm2 a.
Proof. v2ring. Qed.
Lemma norm2_scale k a : norm2 (scale2 k a) = Rabs k * norm2 a.
Proof.
  unfold norm2. rewrite sqnorm2_scale, sqrt_mult; [| nra | apply sqnorm2_nonneg].
  f_equal. replace (k * k) with (Rsqr k) by reflexivity. apply sqrt_Rsqr_abs.
Qed.
Lemma dot2_sym a b : dot2 a b = dot2 b a.
Proof. v2ring. Qed.
Lemma dot2_scale_l k a b : dot2 (scale2 k a) b = k * dot2 a b.
Proof. v2ring. Qed.
Lemma dot2_scale_r k a b : dot2 a (scale2 k b) = k * dot2 a b.
Proof. v2ring. Qed.
Lemma cauchy2 a b : dot2 a b * dot2 a b <= sqnorm2 a * sqnorm2 b.
Proof.
  assert (H : 0 <= (x2 a * y2 b - y2 a * x2 b) * (x2 a * y2 b - y2 a * x2 b)) by apply sq_nonneg.
  v2unfold. nra.
Qed.
Lemma cauchy2_norm a b : Rabs (dot2 a b) <= norm2 a * norm2 b.
Proof.
  apply Rsqr_incr_0_var.
  - rewrite <- Rsqr_abs. unfold Rsqr.
    replace (norm2 a * norm2 b * (norm2 a * norm2 b)) with ((norm2 a * norm2 a) * (norm2 b * norm2 b)) by ring.
    rewrite !norm2_sq. apply cauchy2.
  - apply Rmult_le_pos; apply norm2_nonneg.
Qed.
Lemma sqnorm2_sub a b : sqnorm2 (sub2 a b) = sqnorm2 a - 2 * dot2 a b + sqnorm2 b.
Proof. v2ring. Qed.
Lemma normalized2_dot a b : 0 < sqnorm2 a -> 0 < sqnorm2 b ->
  dot2 (normalized2 a) (normalized2 b) = dot2 a b / (norm2 a * norm2 b).
Proof.
  intros Ha Hb. unfold normalized2.
  destruct Rlt_dec; [| lra]. destruct Rlt_dec; [| lra].
  rewrite dot2_scale_l, dot2_scale_r. field.
  split; apply Rgt_not_eq, norm2_pos; assumption.
Qed.
Lemma sub2_0 a b : sub2 a b = zero2 -> a = b.
Proof.
  intros H. apply v2_ext; [apply (f_equal x2) in H | apply (f_equal y2) in H]; simpl in H; lra.
Qed.
Lemma cauchy2_eq a b : 0 < sqnorm2 a ->
  dot2 a b = norm2 a * norm2 b -> b = scale2 (norm2 b / norm2 a) a.
Proof.
  intros Ha H. apply sub2_0, sqnorm2_0.
  rewrite sqnorm2_sub, dot2_scale_r, sqnorm2_scale, (dot2_sym b a), H, <- !norm2_sq.
  field. apply Rgt_not_eq, norm2_pos, Ha.
Qed.
Lemma norm2_opp a : norm2 (opp2 a) = norm2 a.
Proof. unfold norm2; f_equal; v2ring. Qed.
Lemma dot2_opp_r a b : dot2 a (opp2 b) = - dot2 a b.
Proof. v2ring. Qed.
