(** Rotation vectors and their quaternions (C141). *)

From Coq Require Import List Bool ZArith Reals Lra Lia Psatz Floats.SpecFloat.
From Verif Require Import Result Vec Mat3 VecProofs AngleModel FloatModel FloatSpec FloatProofs FloatProofs2 FloatProofs3 FloatProofs4 FloatProofs5 FloatProofs7 FloatProofs8 FloatProofs10
  Geo3Spec Geo3Proofs Geo3Proofs2 Geo64Model Geo64Spec Geo64Proofs Geo64Proofs2 Geo64Proofs3 Geo64Proofs4 Geo64Proofs5 Geo64Proofs6 Geo64Proofs7 Geo64Proofs8 RotModel RotSpec RotProofs RotProofs2 RotProofs3 Rot64Model Rot64Spec Rot64Spec2 Rot64Proofs Rot64Proofs2 Rot64Proofs3 Rot64Proofs4 Rot64Proofs5 Rot64Proofs6 Rot64Proofs7 Rot64Proofs8 Rot64Proofs9 Rot64Proofs10 Rot64Proofs11 Rot64Proofs12 Rot64Proofs13 Rot64Proofs14 Rot64Proofs15 Rot64Proofs16 Rot64Proofs17 Att64Model Att64Spec Att64Proofs.
Import ListNotations.
Local Open Scope R_scope.

(** *** Turning by a quaternion that is close to a known one *)
Lemma turns_like r q p g t v : finite4 q -> Rabs (len4 (val4 q) - 1) <= 4.07 * e53 -> len4 p = 1 -> gap4 (val4 q) p <= g -> g <= / 10 -> finite64 t -> P2 (-50) <= rval t -> finite3 v -> norm3 (val3 v) <= P2 440 ->
  exists w, q64_rotateVector r (Some q) (Some v) (Some t) = Ok w /\ finite3 w /\ dist3 (val3 w) (rot p (val3 v)) <= (2.1 * g + 16.2 * e53) * norm3 (val3 v) + 40 * tiny.
Proof.
  intros F L LP G HG Ft Ht Fv Bv. pose proof (unitary_accept q t F L Ft Ht) as U. apply abs_le in L. pose proof e53_pos. assert (e53 <= / 1000000000) by (unfold e53; lra).
  destruct (frotate_err r q v F Fv ltac:(lra) Bv) as [Fw E]. exists (frotate r q v). split; [exact (rotate_ok r q v t U) |]. split; [exact Fw |].
  eapply Rle_trans; [apply (dist3_triangle _ (rot (val4 q) (val3 v))) |]. pose proof (rot_gap (val4 q) p (val3 v) LP) as RG. pose proof (norm3_nonneg (val3 v)) as NV. assert (G0 : 0 <= gap4 (val4 q) p) by apply len4_pos.
  assert (K : (2 + gap4 (val4 q) p) * gap4 (val4 q) p <= 2.1 * g) by (apply Rmult_le_compat; lra).
  assert (K2 : (2 + gap4 (val4 q) p) * gap4 (val4 q) p * norm3 (val3 v) <= 2.1 * g * norm3 (val3 v)) by (apply Rmult_le_compat_r; lra). lra.
Qed.
Lemma tiny40 : 40 * tiny <= P2 (-1069).
Proof. rewrite <- tiny64. pose proof tiny_pos. lra. Qed.

(** *** C141 *)
Lemma gap_parts v w s c D : 0 <= D -> dist3 v w * dist3 v w + (s - c) * (s - c) <= D * D -> gap4 (of_parts v s) (of_parts w c) <= D.
Proof.
  intros P H. apply len4_le; [exact P |]. unfold dist3 in H. rewrite norm3_sq in H. unfold sq, of_parts, sqnorm3, dot3, sub3 in *. cbn [qx qy qz qs vx vy vz] in *. exact H.
Qed.
Lemma half_polar a t : polar 1 a (t / 2) = half_q a t.
Proof. unfold polar, half_q, of_parts, scale3. cbn [vx vy vz]. f_equal; ring. Qed.
Lemma norm_sqnorm v : norm3 v = 1 -> sqnorm3 v = 1.
Proof. intros H. rewrite <- norm3_sq, H. ring. Qed.
Lemma unit_len q : unit_q q -> len4 q = 1.
Proof. intros H. unfold len4. rewrite H. apply sqrt_1. Qed.
Lemma scaled_axis s a t e : finite3 a -> Rabs (norm3 (val3 a) - 1) <= P2 (-50) -> returns s t e -> Rabs t <= 1 -> e <= / 100 ->
  finite3 (fscale3 s a) /\ dist3 (val3 (fscale3 s a)) (scale3 t (direction (val3 a))) <= e + 9.3 * e53.
Proof.
  intros F N [Fs E] T He. rewrite <- e50 in N. set (n := norm3 (val3 a)) in *. set (u := direction (val3 a)). pose proof e53_pos as PE. assert (e53 <= / 1000000000) by (unfold e53; lra). apply abs_le in N. assert (PN : 0 < n) by lra.
  assert (UN : norm3 u = 1) by (apply direction_norm; exact PN). assert (VA : val3 a = scale3 n u). { unfold u, direction. fold n. rewrite scale3_scale, Rinv_r by lra. destruct (val3 a) as [x0 y0 z0]. unfold scale3; cbn [vx vy vz]; f_equal; ring. }
  assert (BS : Rabs (rval s) <= 1.01) by (apply (near_size s t e 1) in T; [lra | split; assumption]). pose proof (Rabs_pos (rval s)) as BS0.
  destruct (coordinate_le (val3 a)) as (C1 & C2 & C3). fold n in C1, C2, C3. unfold val3 in C1, C2, C3; cbn [vx vy vz] in C1, C2, C3. destruct F as (F1 & F2 & F3).
  assert (PB : forall x, Rabs x <= n -> Rabs (rval s * x) <= P2 1023). { intros x Hx. rewrite Rabs_mult. pose proof P2_ge1023. apply Rle_trans with (1.01 * 1.1); [apply Rmult_le_compat; try apply Rabs_pos; lra | lra]. }
  destruct (mul_any s (fx a) Fs F1 (PB _ C1)) as [G1 E1]. destruct (mul_any s (fy a) Fs F2 (PB _ C2)) as [G2 E2]. destruct (mul_any s (fz a) Fs F3 (PB _ C3)) as [G3 E3].
  split; [repeat split; assumption |]. eapply Rle_trans; [apply (dist3_triangle _ (scale3 (rval s) (val3 a))) |].
  pose proof tiny_e4 as TE. pose proof tiny_pos as TP.
  assert (A : dist3 (val3 (fscale3 s a)) (scale3 (rval s) (val3 a)) <= 1.03 * e53).
  { unfold dist3. apply Rle_trans with (1.02 * e53 + 1.7321 * tiny); [| unfold e53 in *; lra].
    assert (V : forall x y, Rabs x = n * Rabs y -> e53 * Rabs (rval s * x) + tiny <= 1.02 * e53 * Rabs y + tiny). { intros x y Hx. rewrite Rabs_mult, Hx. apply Rplus_le_compat_r. replace (e53 * (Rabs (rval s) * (n * Rabs y))) with ((Rabs (rval s) * n) * (e53 * Rabs y)) by ring. replace (1.02 * e53 * Rabs y) with (1.02 * (e53 * Rabs y)) by ring. apply Rmult_le_compat_r; [apply Rmult_le_pos; [lra | apply Rabs_pos] |]. apply Rle_trans with (1.01 * (1 + 8 * e53)); [apply Rmult_le_compat; lra | unfold e53; lra]. }
    assert (X : forall f g, f (val3 a) = n * g u -> Rabs (f (val3 a)) = n * Rabs (g u)) by (intros f g Hf; rewrite Hf, Rabs_mult, (Rabs_pos_eq n) by lra; reflexivity).
    apply (norm_scaled _ u); [lra | lra | exact UN | | |]; unfold fscale3, sub3, scale3, val3; cbn [vx vy vz fx fy fz].
    - eapply Rle_trans; [exact E1 |]. apply V. apply (X vx vx). rewrite VA. reflexivity.
    - eapply Rle_trans; [exact E2 |]. apply V. apply (X vy vy). rewrite VA. reflexivity.
    - eapply Rle_trans; [exact E3 |]. apply V. apply (X vz vz). rewrite VA. reflexivity. }
  assert (B : dist3 (scale3 (rval s) (val3 a)) (scale3 t u) <= 1.01 * (8 * e53) + e).
  { unfold dist3. rewrite VA. replace (sub3 (scale3 (rval s) (scale3 n u)) (scale3 t u)) with (scale3 (rval s * (n - 1) + (rval s - t)) u) by (unfold sub3, scale3; cbn [vx vy vz]; f_equal; ring). rewrite norm3_scale, UN, Rmult_1_r.
    eapply Rle_trans; [apply Rabs_triang |]. apply Rplus_le_compat; [| exact E]. rewrite Rabs_mult. apply Rmult_le_compat; try apply Rabs_pos; [exact BS | apply abs_of; lra]. }
  unfold e53 in *. lra.
Qed.
Lemma cos_abs t : Rabs (cos t) <= 1.
Proof. pose proof (COS_bound t). apply abs_of. lra. Qed.
Lemma sin_abs t : Rabs (sin t) <= 1.
Proof. pose proof (SIN_bound t). apply abs_of. lra. Qed.
Lemma of_rotvec_near fcos fsin eps a t th e : finite3 a -> Rabs (norm3 (val3 a) - 1) <= P2 (-50) -> finite64 eps -> rval eps <= / 2 ->
  returns (fcos (b64_div t two_64)) (cos (th / 2)) e -> returns (fsin (b64_div t two_64)) (sin (th / 2)) e -> e <= / 100 ->
  exists q, q64_of_rotvec fcos fsin eps (mkRV64 (Some a) (Some t)) = Ok q /\ finite4 q /\ gap4 (val4 q) (half_q (direction (val3 a)) th) <= 2.83 * e + 23 * e53 /\ Rabs (len4 (val4 q) - 1) <= 4.07 * e53 /\
    forall t, finite64 t -> P2 (-50) <= rval t -> q64_isUnitary (Some q) (Some t) = Ok true.
Proof.
  intros F N Fe He [Fc Ec] Hs E. unfold q64_of_rotvec. cbn [rv64_get rv64_axis rv64_angle bind fst snd]. set (c := fcos (b64_div t two_64)) in *. set (s := fsin (b64_div t two_64)) in *.
  destruct (scaled_axis s a _ e F N Hs (sin_abs _) E) as [Fv Ev]. set (u := direction (val3 a)) in *. pose proof e53_pos as PE. assert (e53 <= / 1000000000) by (unfold e53; lra). assert (E0 : 0 <= e) by (eapply Rle_trans; [apply Rabs_pos | exact Ec]).
  assert (UN : sqnorm3 u = 1) by (apply norm_sqnorm, direction_norm; rewrite <- e50 in N; apply abs_le in N; lra).
  assert (K : times4 1 (half_q u th) = of_parts (scale3 (sin (th / 2)) u) (cos (th / 2))) by (unfold times4, half_q, of_parts, scale3; cbn [qx qy qz qs vx vy vz]; f_equal; ring).
  assert (G : gap4 (val4 (parts64 (fscale3 s a) c)) (times4 1 (half_q u th)) <= 1.4143 * e + 9.3 * e53).
  { rewrite K. change (val4 (parts64 (fscale3 s a) c)) with (of_parts (val3 (fscale3 s a)) (rval c)). apply gap_parts; [lra |].
    assert (A1 : dist3 (val3 (fscale3 s a)) (scale3 (sin (th / 2)) u) * dist3 (val3 (fscale3 s a)) (scale3 (sin (th / 2)) u) <= (e + 9.3 * e53) * (e + 9.3 * e53)) by (apply Rmult_le_compat; try exact Ev; apply sqrt_pos).
    assert (A2 : (rval c - cos (th / 2)) * (rval c - cos (th / 2)) <= e * e). { apply Rsqr_le_abs_1. rewrite (Rabs_pos_eq e) by exact E0. exact Ec. }
    assert (0 <= e * e53) by (apply Rmult_le_pos; lra). nra. }
  destruct Fv as (Fv1 & Fv2 & Fv3). assert (P4 : P2 (-440) <= 1) by (rewrite <- P2_0; apply P2_mono; lia).
  destruct (normal_target eps (parts64 (fscale3 s a) c) (half_q u th) 1 (1.4143 * e + 9.3 * e53)) as (q & Eq & Fq & Gq & Lq & Uq); try assumption; try lra; [repeat split; assumption | apply unit_len, half_q_unit, UN |].
  exists q. split; [exact Eq |]. split; [exact Fq |]. split; [unfold Rdiv in Gq; rewrite Rinv_1 in Gq; lra |]. split; assumption.
Qed.
Lemma c141_accurate fcos fsin eps a t th e : finite3 a -> Rabs (norm3 (val3 a) - 1) <= P2 (-50) -> finite64 eps -> rval eps <= / 2 ->
  returns (fcos (b64_div t two_64)) (cos (th / 2)) e -> returns (fsin (b64_div t two_64)) (sin (th / 2)) e -> e <= / 100 ->
  exists q, q64_of_rotvec fcos fsin eps (mkRV64 (Some a) (Some t)) = Ok q /\ finite4 q /\ gap4 (val4 q) (polar 1 (direction (val3 a)) (th / 2)) <= 3 * e + P2 (-48) /\
    forall tol, finite64 tol -> P2 (-50) <= rval tol -> q64_isUnitary (Some q) (Some tol) = Ok true.
Proof.
  intros F N Fe He Hc Hs E. destruct (of_rotvec_near _ _ _ _ _ _ _ F N Fe He Hc Hs E) as (q & Eq & Fq & Gq & _ & Uq). exists q. split; [exact Eq |]. split; [exact Fq |]. split; [| exact Uq]. rewrite half_polar, <- e48.
  assert (0 <= e) by (eapply Rle_trans; [apply Rabs_pos | exact (proj2 Hc)]). pose proof e53_pos. lra.
Qed.
Lemma c141_turn fcos fsin r eps a t th e tol v : finite3 a -> Rabs (norm3 (val3 a) - 1) <= P2 (-50) -> finite64 eps -> rval eps <= / 2 ->
  returns (fcos (b64_div t two_64)) (cos (th / 2)) e -> returns (fsin (b64_div t two_64)) (sin (th / 2)) e -> e <= / 100 -> finite64 tol -> P2 (-50) <= rval tol -> finite3 v -> norm3 (val3 v) <= P2 440 ->
  exists q w, q64_of_rotvec fcos fsin eps (mkRV64 (Some a) (Some t)) = Ok q /\ q64_rotateVector r (Some q) (Some v) (Some tol) = Ok w /\ finite3 w /\
    dist3 (val3 w) (frame_rotation (direction (val3 a)) th (val3 v)) <= (6 * e + P2 (-46)) * norm3 (val3 v) + P2 (-1069).
Proof.
  intros F N Fe He Hc Hs E Ft Ht Fv Bv. destruct (of_rotvec_near _ _ _ _ _ _ _ F N Fe He Hc Hs E) as (q & Eq & Fq & Gq & Lq & Uq). pose proof e53_pos as PE. assert (e53 <= / 1000000000) by (unfold e53; lra).
  assert (UN : sqnorm3 (direction (val3 a)) = 1) by (apply norm_sqnorm, direction_norm; rewrite <- e50 in N; apply abs_le in N; lra).
  destruct (turns_like r q (half_q (direction (val3 a)) th) (2.83 * e + 23 * e53) tol v Fq Lq (unit_len _ (half_q_unit _ _ UN)) Gq ltac:(lra) Ft Ht Fv Bv) as (w & Ew & Fw & Dw). exists q, w. split; [exact Eq |]. split; [exact Ew |]. split; [exact Fw |].
  rewrite half_q_rot in Dw by exact UN. eapply Rle_trans; [exact Dw |]. apply Rplus_le_compat; [| exact tiny40]. apply Rmult_le_compat_r; [apply norm3_nonneg |]. assert (Q : P2 (-46) = 128 * e53) by (rewrite <- e53_P2, (P2_times 7 (-53) 128) by (lia || (rewrite <- P2_Z by lia; reflexivity)); reflexivity).
  assert (0 <= e) by (eapply Rle_trans; [apply Rabs_pos | exact (proj2 Hc)]). rewrite Q. lra.
Qed.
(** The angle 0. *)
Lemma sum_zeros a b c d : finite64 a -> finite64 b -> finite64 c -> finite64 d -> rval a = 0 -> rval b = 0 -> rval c = 0 -> rval d = 1 -> finite64 (sf_add (sf_add (sf_add a b) c) d) /\ rval (sf_add (sf_add (sf_add a b) c) d) = 1.
Proof.
  intros Fa Fb Fc Fd A B C D. destruct (add_z_l a b Fa Fb A) as [F1 V1]. rewrite B in V1. destruct (add_z_l _ c F1 Fc V1) as [F2 V2]. rewrite C in V2. destruct (add_z_l _ d F2 Fd V2) as [F3 V3]. rewrite D in V3. split; assumption.
Qed.
Lemma div_ones x y : finite64 x -> finite64 y -> rval x = 1 -> rval y = 1 -> finite64 (b64_div x y) /\ rval (b64_div x y) = 1.
Proof.
  intros Fx Fy X Y. assert (E : rval x / rval y = 1) by (rewrite X, Y; field). destruct (SFdiv_rounded x y Fx Fy ltac:(rewrite Y; lra)) as [N _]; [rewrite E, Rabs_R1, <- P2_0; apply P2_mono; lia |]. rewrite E in N. split; [exact (proj1 N) |]. apply (nearest_exact _ _ N). exists x. split; assumption.
Qed.
Lemma normal_one eps v : finite4 v -> val4 v = one4 -> finite64 eps -> rval eps <= 1 -> exists u, q64_normalize eps (Some v) = Ok u /\ finite4 u /\ val4 u = one4.
Proof.
  intros (F1 & F2 & F3 & F4) V Fe He. injection V as V1 V2 V3 V4. destruct (mul_zero (q64x v) (q64x v) F1 F1 V1) as [A1 B1]. destruct (mul_zero (q64y v) (q64y v) F2 F2 V2) as [A2 B2]. destruct (mul_zero (q64z v) (q64z v) F3 F3 V3) as [A3 B3].
  destruct (mul_one (q64s v) (q64s v) F4 F4 V4 ltac:(rewrite V4, Rabs_R1, <- P2_0; apply P2_mono; lia)) as [A4 B4]. rewrite V4 in B4. destruct (sum_zeros _ _ _ _ A1 A2 A3 A4 B1 B2 B3 B4) as [FS VS]. destruct (sqrt_one _ FS VS) as [Fn Vn].
  change (finite64 (fnorm4 v)) in Fn. change (rval (fnorm4 v) = 1) in Vn. destruct (abs_val _ Fn) as [Fa Va]. rewrite Vn, Rabs_R1 in Va. unfold q64_normalize. cbn [need3 bind]. rewrite (ltb_f _ _ Fa Fe) by lra.
  eexists. split; [reflexivity |]. destruct (div_zero _ _ F1 Fn V1 ltac:(lra)) as [G1 W1]. destruct (div_zero _ _ F2 Fn V2 ltac:(lra)) as [G2 W2]. destruct (div_zero _ _ F3 Fn V3 ltac:(lra)) as [G3 W3]. destruct (div_ones _ _ F4 Fn V4 Vn) as [G4 W4].
  split; [repeat split; assumption |]. unfold val4, one4. cbn [q64x q64y q64z q64s]. rewrite W1, W2, W3, W4. reflexivity.
Qed.
Lemma c141_zero fcos fsin eps a t : finite3 a -> finite64 eps -> rval eps <= 1 -> returns (fcos (b64_div t two_64)) 1 0 -> returns (fsin (b64_div t two_64)) 0 0 ->
  exists q, q64_of_rotvec fcos fsin eps (mkRV64 (Some a) (Some t)) = Ok q /\ finite4 q /\ val4 q = one4.
Proof.
  intros (F1 & F2 & F3) Fe He [Fc Ec] [Fs Es]. unfold q64_of_rotvec. cbn [rv64_get rv64_axis rv64_angle bind fst snd]. set (c := fcos (b64_div t two_64)) in *. set (s := fsin (b64_div t two_64)) in *.
  assert (Vc : rval c = 1) by (apply abs_le in Ec; lra). assert (Vs : rval s = 0) by (apply abs_le in Es; lra).
  destruct (zero_mul s (fx a) Fs F1 Vs) as [G1 W1]. destruct (zero_mul s (fy a) Fs F2 Vs) as [G2 W2]. destruct (zero_mul s (fz a) Fs F3 Vs) as [G3 W3].
  apply normal_one; [repeat split; assumption | | exact Fe | exact He]. unfold val4, one4, parts64, fscale3. cbn [q64x q64y q64z q64s fx fy fz]. rewrite W1, W2, W3, Vc. reflexivity.
Qed.
(** Axes. *)
Lemma c141_axis r eps a t : finite3 a -> within3 (P2 450) a -> finite64 eps -> 0 <= rval eps <= / 4 ->
  (Rabs (norm3 (val3 a) - 1) + P2 (-50) <= rval eps -> exists b, RotationVector64 r eps (Some a) t = Ok (mkRV64 (Some b) t) /\ finite3 b /\ dist3 (val3 b) (direction (val3 a)) <= P2 (-51)) /\
  (rval eps + P2 (-50) <= Rabs (norm3 (val3 a) - 1) -> RotationVector64 r eps (Some a) t = Err ERuntime).
Proof.
  intros F B Fe He. destruct (rv64_new r eps a t F B Fe He) as [A R]. rewrite <- e50, <- e51. pose proof e53_pos as PE. pose proof inv_small. split; intros K.
  - exists (fnormalized3 r a). split; [apply A; lra |]. assert (HN : Rabs (norm3 (val3 a) - 1) <= / 4) by lra. apply abs_le in HN. destruct (normalized_tight r a F B ltac:(lra)) as [Fn D]. split; [exact Fn | lra].
  - apply R. lra.
Qed.
Lemma c141_vector r v : finite3 v -> within3 (P2 450) v -> P2 (-450) <= norm3 (val3 v) ->
  exists a n, rv64_of_vector r (Some v) = mkRV64 (Some a) (Some n) /\ finite3 a /\ finite64 n /\ dist3 (val3 a) (direction (val3 v)) <= P2 (-51) /\ Rabs (rval n - norm3 (val3 v)) <= P2 (-51) * norm3 (val3 v).
Proof.
  intros F B L. destruct (normalized_tight r v F B L) as [Fa D]. destruct (fnorm3_tight r v F B L) as (_ & _ & Fn & En). pose proof (normalized_len r v F B L) as NL. rewrite <- e51. pose proof e53_pos as PE. assert (e53 <= / 1000000000) by (unfold e53; lra).
  exists (fnormalized3 r v), (fnorm3 r v). unfold rv64_of_vector. assert (Q : feq3 (fnormalized3 r v) (axis64 0 0 0) = false).
  { apply not_true_is_false. intros E. apply feq3_val in E; [| exact Fa | repeat split]. rewrite E in NL. unfold norm3 in NL. replace (sqnorm3 _) with 0 in NL by (unfold sqnorm3, dot3, val3, axis64; cbn; ring). rewrite sqrt_0, Rminus_0_l, Rabs_Ropp, Rabs_R1 in NL. lra. }
  rewrite Q. split; [reflexivity |]. split; [exact Fa |]. split; [exact Fn |]. split; [lra |]. pose proof (norm3_nonneg (val3 v)). assert (0 <= e53 * norm3 (val3 v)) by (apply Rmult_le_pos; lra). lra.
Qed.
Lemma c141_zero_vector r v : finite3 v -> val3 v = V3 0 0 0 -> exists n, rv64_of_vector r (Some v) = mkRV64 (Some (axis64 0 0 1)) (Some n) /\ finite64 n /\ rval n = 0.
Proof.
  intros F V. pose proof (zero_sqnorm r v F V) as Z. assert (B : within3 (P2 450) v) by (injection V as V1 V2 V3; unfold within3; rewrite V1, V2, V3, Rabs_R0; pose proof (P2_pos 450); repeat split; lra).
  destruct (sqnorm_pos r v 450 F B ltac:(lia)) as [Fs _]. apply SFeqb_val in Z; [| exact Fs | exact I]. change (rval zero64) with 0 in Z.
  exists (fnorm3 r v). unfold rv64_of_vector, fnormalized3. rewrite (ltb_f zero64 _ I Fs) by (rewrite Z; change (rval zero64) with 0; lra).
  assert (Q : feq3 v (axis64 0 0 0) = true) by (apply feq3_val; [exact F | repeat split | rewrite V; unfold val3, axis64; cbn; reflexivity]). rewrite Q. split; [reflexivity |].
  pose proof (SFsqrt_rounded _ Fs ltac:(rewrite Z; lra)) as [N _]. rewrite Z, sqrt_0 in N. split; [exact (proj1 N) |]. apply (nearest_exact _ _ N). exists zero64. split; [exact I | reflexivity].
Qed.
Lemma c141_tiny_refuted : exists v, finite3 v /\ val3 v <> V3 0 0 0 /\ forall r, exists a, rv64_of_vector r (Some v) = mkRV64 (Some a) (Some zero64) /\ norm3 (val3 a) <= P2 (-600).
Proof.
  exists (F3 (S754_finite false (2 ^ 52) (-652)) zero64 zero64). assert (R : rval (S754_finite false (2 ^ 52) (-652)) = P2 (-600)) by (rewrite rval_sg; cbn [sg]; rewrite Rmult_1_l; change (Z.pos (2 ^ 52)) with (2 ^ 52)%Z; rewrite (P2_Z 52), <- P2_add by lia; reflexivity).
  split; [repeat split; vm_compute; reflexivity || discriminate |]. split; [unfold val3; cbn [fx fy fz]; rewrite R; intros E; injection E as E; pose proof (P2_pos (-600)); lra |].
  intros r. exists (F3 (S754_finite false (2 ^ 52) (-652)) zero64 zero64). split; [destruct r; vm_compute; reflexivity |]. unfold norm3, sqnorm3, dot3, val3. cbn [vx vy vz fx fy fz]. rewrite R. change (rval zero64) with 0.
  replace (P2 (-600) * P2 (-600) + 0 * 0 + 0 * 0) with (P2 (-600) * P2 (-600)) by ring. rewrite sqrt_square by (left; apply P2_pos). lra.
Qed.
Lemma c141_errors fcos fsin r eps a t : q64_of_rotvec fcos fsin eps (mkRV64 None t) = Err EUndefined /\ q64_of_rotvec fcos fsin eps (mkRV64 a None) = Err EUndefined /\ RotationVector64 r eps None t = Ok (mkRV64 None t) /\ rv64_of_vector r None = mkRV64 None None.
Proof. repeat split. unfold q64_of_rotvec, rv64_get. cbn [rv64_axis rv64_angle]. destruct a; reflexivity. Qed.
