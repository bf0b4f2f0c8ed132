From Coq Require Import List Bool ZArith Reals Lra Lia Psatz Floats.SpecFloat.
From Verif Require Import Result Vec Mat3 AngleModel FloatModel FloatSpec FloatProofs FloatProofs2 FloatProofs3 FloatProofs4 FloatProofs5 FloatProofs7 FloatProofs8 FloatProofs10
  Geo64Model Geo64Spec Geo64Proofs Geo64Proofs2 Geo64Proofs3 Geo64Proofs4 Geo64Proofs5 Geo64Proofs6 Geo64Proofs8 RotModel RotSpec RotProofs Rot64Model Rot64Spec Rot64Proofs.
Import ListNotations.
Local Open Scope R_scope.

Lemma len4_pos q : 0 <= len4 q.
Proof. apply sqrt_pos. Qed.
Lemma len4_sq q : len4 q * len4 q = sq q.
Proof. unfold len4. apply sqrt_sqrt. apply sq_nonneg. Qed.
Lemma len4_le q B : 0 <= B -> sq q <= B * B -> len4 q <= B.
Proof. intros HB H. rewrite <- (sqrt_Rsqr B) by exact HB. apply sqrt_le_1_alt. exact H. Qed.
Lemma len4_mul p q : len4 (qmul p q) = len4 p * len4 q.
Proof. unfold len4. rewrite sq_mul. apply sqrt_mult; apply sq_nonneg. Qed.
Lemma gap4_le p q e1 e2 e3 e4 B : Rabs (qx p - qx q) <= e1 -> Rabs (qy p - qy q) <= e2 -> Rabs (qz p - qz q) <= e3 -> Rabs (qs p - qs q) <= e4 ->
  0 <= B -> e1 * e1 + e2 * e2 + e3 * e3 + e4 * e4 <= B * B -> gap4 p q <= B.
Proof.
  intros H1 H2 H3 H4 HB H. apply len4_le; [exact HB |]. unfold sq; cbn [qx qy qz qs]. eapply Rle_trans; [| exact H].
  assert (S : forall x e, Rabs x <= e -> x * x <= e * e). { intros x e K. rewrite <- (Rabs_pos_eq (x * x)) by nra. rewrite Rabs_mult. apply Rmult_le_compat; auto using Rabs_pos. }
  pose proof (S _ _ H1). pose proof (S _ _ H2). pose proof (S _ _ H3). pose proof (S _ _ H4). lra.
Qed.
Lemma coord4 q : Rabs (qx q) <= len4 q /\ Rabs (qy q) <= len4 q /\ Rabs (qz q) <= len4 q /\ Rabs (qs q) <= len4 q.
Proof.
  assert (S : forall x, x * x <= sq q -> Rabs x <= len4 q). { intros x H. unfold len4. rewrite <- (sqrt_Rsqr_abs x). apply sqrt_le_1_alt. exact H. }
  unfold sq in S. repeat split; apply S; nra.
Qed.
(** The triangle inequality. *)
Lemma dot4_cauchy p q : dot4 p q <= len4 p * len4 q.
Proof.
  pose proof (cauchy4 (qx p) (qy p) (qz p) (qs p) (qx q) (qy q) (qz q) (qs q) (len4 p) (len4 q) (len4_pos p) (len4_pos q)) as C. rewrite !len4_sq in C.
  specialize (C (Rle_refl _) (Rle_refl _)). unfold dot4. pose proof (Rle_abs (qx p * qx q)). pose proof (Rle_abs (qy p * qy q)). pose proof (Rle_abs (qz p * qz q)). pose proof (Rle_abs (qs p * qs q)). lra.
Qed.
Definition add4 (p q : quat) : quat := Q4 (qx p + qx q) (qy p + qy q) (qz p + qz q) (qs p + qs q).
Definition sub4 (p q : quat) : quat := Q4 (qx p - qx q) (qy p - qy q) (qz p - qz q) (qs p - qs q).
Lemma gap4_sub p q : gap4 p q = len4 (sub4 p q).
Proof. reflexivity. Qed.
Lemma len4_add p q : len4 (add4 p q) <= len4 p + len4 q.
Proof.
  apply len4_le; [pose proof (len4_pos p); pose proof (len4_pos q); lra |].
  replace (sq (add4 p q)) with (sq p + 2 * dot4 p q + sq q) by (unfold sq, dot4, add4; cbn; ring). rewrite <- !len4_sq. pose proof (dot4_cauchy p q). lra.
Qed.
Lemma gap4_triangle p q w : gap4 p w <= gap4 p q + gap4 q w.
Proof.
  rewrite !gap4_sub. replace (sub4 p w) with (add4 (sub4 p q) (sub4 q w)) by (unfold add4, sub4; cbn; f_equal; ring). apply len4_add.
Qed.
Lemma gap4_sym p q : gap4 p q = gap4 q p.
Proof. rewrite !gap4_sub. unfold len4. f_equal. unfold sq, sub4; cbn. ring. Qed.
Lemma len4_gap p q : Rabs (len4 p - len4 q) <= gap4 p q.
Proof.
  pose proof (len4_add (sub4 p q) q) as A. replace (add4 (sub4 p q) q) with p in A by (destruct p; unfold add4, sub4; cbn; f_equal; ring).
  pose proof (len4_add (sub4 q p) p) as B. replace (add4 (sub4 q p) p) with q in B by (destruct q; unfold add4, sub4; cbn; f_equal; ring).
  rewrite <- gap4_sub in A, B. rewrite (gap4_sym q p) in B. apply abs_of. lra.
Qed.

(** *** Products *)
Lemma fmul4_near r p q : finite4 p -> finite4 q -> within4 (P2 450) p -> within4 (P2 450) q ->
  let N := len4 (val4 p) * len4 (val4 q) in
  near64 (q64x (fmul4 r p q)) (qx (qmul (val4 p) (val4 q))) (3.01 * e53 * N + 5 * tiny) /\
  near64 (q64y (fmul4 r p q)) (qy (qmul (val4 p) (val4 q))) (3.01 * e53 * N + 5 * tiny) /\
  near64 (q64z (fmul4 r p q)) (qz (qmul (val4 p) (val4 q))) (3.01 * e53 * N + 5 * tiny) /\
  near64 (q64s (fmul4 r p q)) (qs (qmul (val4 p) (val4 q))) (4.02 * e53 * N + 5 * tiny).
Proof.
  intros (F1 & F2 & F3 & F4) (G1 & G2 & G3 & G4) (B1 & B2 & B3 & B4) (D1 & D2 & D3 & D4) N.
  unfold fmul4, parts64, fsub3, fadd3, fscale3, fcross3, vec64; cbn [q64x q64y q64z q64s fx fy fz].
  unfold qmul, of_parts, sub3, add3, scale3, cross3, vec; cbn [qx qy qz qs vx vy vz val4].
  assert (C : forall a b c d a' b' c' d', a * a + b * b + c * c + d * d <= sq (val4 p) -> a' * a' + b' * b' + c' * c' + d' * d' <= sq (val4 q) ->
    Rabs (a' * a) + Rabs (b * b') + Rabs (c * c') + Rabs (d * d') <= N).
  { intros a b c d a' b' c' d' H1 H2. rewrite (Rmult_comm a' a). apply cauchy4; try apply len4_pos; rewrite len4_sq; assumption. }
  unfold sq, val4 in C; cbn [qx qy qz qs] in C.
  pose proof e53_pos.
  split; [| split; [| split]].
  - refine (near_le _ _ _ _ (comp_err _ _ _ _ _ _ _ _ G4 F1 F4 G1 F2 G3 F3 G2 D4 B1 B4 D1 B2 D3 B3 D2) _).
    apply Rplus_le_compat_r. apply Rmult_le_compat_l; [lra |]. apply C; lra.
  - refine (near_le _ _ _ _ (comp_err _ _ _ _ _ _ _ _ G4 F2 F4 G2 F3 G1 F1 G3 D4 B2 B4 D2 B3 D1 B1 D3) _).
    apply Rplus_le_compat_r. apply Rmult_le_compat_l; [lra |]. apply C; lra.
  - refine (near_le _ _ _ _ (comp_err _ _ _ _ _ _ _ _ G4 F3 F4 G3 F1 G2 F2 G1 D4 B3 B4 D3 B1 D2 B2 D1) _).
    apply Rplus_le_compat_r. apply Rmult_le_compat_l; [lra |]. apply C; lra.
  - refine (near_le _ _ _ _ (scal_err r (q64s p) (q64s q) (vec64 p) (vec64 q) F4 G4 (conj F1 (conj F2 F3)) (conj G1 (conj G2 G3)) B4 D4 (conj B1 (conj B2 B3)) (conj D1 (conj D2 D3))) _).
    apply Rplus_le_compat_r. apply Rmult_le_compat_l; [lra |]. unfold vec64; cbn [fx fy fz]. rewrite (Rmult_comm (rval (q64s p))). apply C; lra.
Qed.
Lemma fmul4_err r p q : finite4 p -> finite4 q -> within4 (P2 450) p -> within4 (P2 450) q ->
  finite4 (fmul4 r p q) /\ gap4 (val4 (fmul4 r p q)) (qmul (val4 p) (val4 q)) <= 8 * e53 * (len4 (val4 p) * len4 (val4 q)) + 16 * tiny.
Proof.
  intros F G B D. destruct (fmul4_near r p q F G B D) as ([X1 E1] & [X2 E2] & [X3 E3] & [X4 E4]). split; [repeat split; assumption |].
  pose proof (Rmult_le_pos _ _ (len4_pos (val4 p)) (len4_pos (val4 q))) as HN. pose proof e53_pos. pose proof tiny_pos.
  set (N := len4 (val4 p) * len4 (val4 q)) in *. apply (gap4_le (val4 (fmul4 r p q)) (qmul (val4 p) (val4 q)) _ _ _ _ _ E1 E2 E3 E4); [nra |].
  set (e := e53 * N). assert (0 <= e) by (unfold e; nra).
  replace (3.01 * e53 * N) with (3.01 * e) by (unfold e; ring). replace (4.02 * e53 * N) with (4.02 * e) by (unfold e; ring). replace (8 * e53 * N) with (8 * e) by (unfold e; ring).
  assert (0 <= e * e) by nra. assert (0 <= e * tiny) by nra. assert (0 <= tiny * tiny) by nra. lra.
Qed.
Lemma e50 : 8 * e53 = P2 (-50).
Proof. rewrite <- e53_P2. replace 8 with (P2 3) by (rewrite <- P2_Z by lia; reflexivity). rewrite <- P2_add. reflexivity. Qed.
Lemma tiny16 : 16 * tiny = P2 (-1071).
Proof. unfold tiny. replace 16 with (P2 4) by (rewrite <- P2_Z by lia; reflexivity). rewrite <- P2_add. reflexivity. Qed.
Lemma c131_accurate r p q : finite4 p -> finite4 q -> within4 (P2 450) p -> within4 (P2 450) q ->
  exists w, q64_mul r (Some p) (Some q) = Ok w /\ finite4 w /\
    gap4 (val4 w) (hamilton (val4 q) (val4 p)) <= P2 (-50) * (len4 (val4 p) * len4 (val4 q)) + P2 (-1071).
Proof.
  intros F G B D. exists (fmul4 r p q). split; [reflexivity |]. rewrite <- qmul_hamilton, <- e50, <- tiny16. apply fmul4_err; assumption.
Qed.
