(** Rotation vectors of quaternions (C148). *)

From Coq Require Import List Bool ZArith Reals Lra Lia Psatz Floats.SpecFloat.
From Verif Require Import Result Vec Mat3 VecProofs AngleModel FloatModel FloatSpec FloatProofs FloatProofs2 FloatProofs3 FloatProofs4 FloatProofs5 FloatProofs7 FloatProofs8 FloatProofs10
  Geo3Spec Geo3Proofs Geo3Proofs2 Geo64Model Geo64Spec Geo64Proofs Geo64Proofs2 Geo64Proofs3 Geo64Proofs4 Geo64Proofs5 Geo64Proofs6 Geo64Proofs7 Geo64Proofs8 RotModel RotSpec RotProofs RotProofs2 RotProofs3 RotProofs4 RotProofs9 Rot64Model Rot64Spec Rot64Spec2 Rot64Proofs Rot64Proofs2 Rot64Proofs3 Rot64Proofs4 Rot64Proofs5 Rot64Proofs6 Rot64Proofs7 Rot64Proofs8 Rot64Proofs9 Rot64Proofs10 Rot64Proofs11 Rot64Proofs12 Rot64Proofs13 Rot64Proofs14 Rot64Proofs15 Rot64Proofs16 Rot64Proofs17 Att64Model Att64Spec Att64Proofs Att64Proofs2 Att64Proofs3 Att64Proofs4 Att64Proofs5 Att64Proofs7 Att64Proofs8 Att64Proofs9.
Import ListNotations.
Local Open Scope R_scope.

(** *** Numbers below one *)
Lemma below_one x : finite64 x -> rval x < 1 -> rval x <= 1 - e53.
Proof.
  intros F H. pose proof e53_pos as PE. assert (E9 : e53 <= / 1000000000) by (unfold e53; lra). destruct x as [b | b | | b m e]; cbn [finite64] in F; try (change (0 <= 1 - e53); lra).
  apply bounded_spec in F. rewrite rval_sg in *. destruct b; cbn [sg] in *; [pose proof (P2_pos e); assert (0 < IZR (Zpos m)) by (apply IZR_lt; lia); assert (0 < IZR (Zpos m) * P2 e) by (apply Rmult_lt_0_compat; assumption); lra |]. rewrite Rmult_1_l in *.
  assert (M : (Zpos m < 2 ^ 53)%Z) by (destruct F as (_ & F & _); exact F). destruct (Z_lt_le_dec e (-53)) as [L | L].
  - apply Rle_trans with (P2 53 * P2 (-54)); [apply Rmult_le_compat; [apply IZR_le; lia | left; apply P2_pos | rewrite <- P2_Z by lia; apply IZR_le; lia | apply P2_mono; lia] |]. rewrite <- P2_add. change (53 + -54)%Z with (-1)%Z. rewrite (P2_m (-1)) by lia. change (2 ^ (- -1))%Z with 2%Z. lra.
  - assert (D : P2 e = IZR (2 ^ (e + 53)) * e53) by (rewrite P2_Z by lia; rewrite <- e53_P2, <- P2_add; f_equal; lia). rewrite D in *. rewrite <- Rmult_assoc, <- mult_IZR in *. set (n := (Zpos m * 2 ^ (e + 53))%Z) in *.
    assert (O : 1 = IZR (2 ^ 53) * e53) by (rewrite P2_Z by lia; rewrite <- e53_P2, <- P2_add; reflexivity). rewrite O in H. apply Rmult_lt_reg_r in H; [| lra]. apply lt_IZR in H. assert (N : (n <= 2 ^ 53 - 1)%Z) by lia. apply IZR_le in N. rewrite minus_IZR in N. apply Rmult_le_compat_r with (r := e53) in N; [| lra]. lra.
Qed.
Lemma strictly_inside x : finite64 x -> -1 < rval x < 1 -> Rabs (rval x) <= 1 - e53.
Proof.
  intros F [L U]. unfold Rabs. destruct (Rcase_abs (rval x)); [| apply below_one; assumption]. pose proof (below_one (SFopp x) (SFopp_finite x F)) as B. rewrite SFopp_val in B. apply B. lra.
Qed.

(** *** The axis *)
Lemma root_near s : finite64 s -> -1 < rval s < 1 -> let d := sf_sub one_64 (b64_mul s s) in finite64 d /\ SFltb d zero64 = false /\ finite64 (b64_sqrt d) /\ e53 <= rval (b64_sqrt d) <= 2.
Proof.
  intros F H d. pose proof (strictly_inside s F H) as B. pose proof e53_pos as PE. assert (E9 : e53 <= / 1000000000) by (unfold e53; lra). pose proof tiny_e4 as TE. pose proof P2_ge1023. set (x := rval s) in *.
  assert (S2 : 0 <= x * x <= (1 - e53) * (1 - e53)) by (split; [apply VecProofs.sq_nonneg | rewrite <- (Rabs_pos_eq (x * x)) by apply VecProofs.sq_nonneg; rewrite Rabs_mult; apply Rmult_le_compat; try apply Rabs_pos; exact B]).
  assert (E2 : e53 * e53 <= / 1000000000 * e53) by (apply Rmult_le_compat_r; lra). assert (S1 : x * x <= 1 - 1.9999 * e53) by lra.
  destruct (mul_any s s F F ltac:(fold x; rewrite Rabs_pos_eq by lra; lra)) as [Fy Ey]. fold x in Ey. rewrite (Rabs_pos_eq (x * x)) in Ey by lra. set (y := rval (b64_mul s s)) in *. assert (EY : e53 * (x * x) <= e53 * 1) by (apply Rmult_le_compat_l; lra). apply abs_le in Ey.
  destruct one_val as [FO VO]. destruct (sub_any one_64 (b64_mul s s) FO Fy ltac:(fold y; rewrite VO; apply Rle_trans with 2; [apply abs_of |]; lra)) as [Fd Ed]. fold y d in Ed, Fd. rewrite VO in Ed. assert (Y1 : 0.9 * e53 <= 1 - y) by lra. rewrite (Rabs_pos_eq (1 - y)) in Ed by lra. apply abs_le in Ed.
  assert (ED : e53 * (1 - y) <= / 1000000000 * (1 - y)) by (apply Rmult_le_compat_r; lra). assert (D1 : 0.8 * e53 <= rval d <= 1.5) by lra.
  split; [exact Fd |]. split; [apply ltb_f; [exact Fd | exact I | change (rval zero64) with 0; lra] |].
  pose proof (SFsqrt_rounded d Fd ltac:(lra)) as [[Fs _] _]. pose proof (sqrt_err d Fd ltac:(lra)) as Es. fold (b64_sqrt d) in Fs, Es. rewrite e53_P2 in Es. split; [exact Fs |].
  assert (Q1 : 10 * e53 <= sqrt (rval d)) by (rewrite <- (sqrt_square (10 * e53)) by lra; apply sqrt_le_1_alt; lra). assert (Q2 : sqrt (rval d) <= 1.9) by (rewrite <- (sqrt_square 1.9) by lra; apply sqrt_le_1_alt; lra).
  apply abs_le in Es. assert (e53 * sqrt (rval d) <= / 1000000000 * sqrt (rval d)) by (apply Rmult_le_compat_r; lra). lra.
Qed.
Lemma rel_dist a b e t : 0 <= e -> 0 <= t -> Rabs (vx a - vx b) <= e * Rabs (vx b) + t -> Rabs (vy a - vy b) <= e * Rabs (vy b) + t -> Rabs (vz a - vz b) <= e * Rabs (vz b) + t -> dist3 a b <= e * norm3 b + 2 * t.
Proof.
  intros C T X Y Z. unfold dist3. eapply Rle_trans; [apply (norm3_coords (sub3 a b) (add3 (V3 (e * Rabs (vx b)) (e * Rabs (vy b)) (e * Rabs (vz b))) (V3 t t t))); cbn [sub3 add3 vx vy vz]; assumption |].
  eapply Rle_trans; [apply norm3_triangle |]. pose proof (norm3_diag t T). apply Rplus_le_compat; [| lra]. right. replace (V3 (e * Rabs (vx b)) (e * Rabs (vy b)) (e * Rabs (vz b))) with (scale3 e (V3 (Rabs (vx b)) (Rabs (vy b)) (Rabs (vz b)))) by reflexivity. rewrite norm3_scale, (Rabs_pos_eq e) by exact C. f_equal. unfold norm3, sqnorm3, dot3. cbn [vx vy vz]. rewrite <- !Rabs_mult, !(fun x => Rabs_pos_eq (x * x) (VecProofs.sq_nonneg x)). reflexivity.
Qed.
Lemma quotient_near v k : finite3 v -> norm3 (val3 v) <= 2 -> P2 (-440) <= norm3 (val3 v) -> finite64 k -> e53 <= rval k <= 2 -> finite3 (fdiv3 v k) /\ within3 (P2 450) (fdiv3 v k) /\ P2 (-450) <= norm3 (val3 (fdiv3 v k)) /\ dist3 (direction (val3 (fdiv3 v k))) (direction (val3 v)) <= 2.01 * e53.
Proof.
  intros (F1 & F2 & F3) N2 N1 Fk Hk. pose proof e53_pos as PE. assert (E9 : e53 <= / 1000000000) by (unfold e53; lra). set (c := rval k) in *. pose proof (P2_pos (-440)) as P440. set (n := norm3 (val3 v)) in *.
  assert (IC : 0 < / c) by (apply Rinv_0_lt_compat; lra). assert (IC2 : / 2 <= / c) by (apply Rinv_le_contravar; lra). assert (ICE : / c <= P2 53) by (replace (P2 53) with (/ e53) by (rewrite <- e53_P2, P2_m by lia; change (- -53)%Z with 53%Z; rewrite <- P2_Z by lia; apply Rinv_inv); apply Rinv_le_contravar; lra).
  assert (BIG : 2 * P2 53 <= P2 449) by (replace 2 with (P2 1) by (rewrite <- P2_Z by lia; reflexivity); rewrite <- P2_add; apply P2_mono; lia).
  assert (B23 : P2 449 <= P2 1023) by (apply P2_mono; lia). assert (TT : 1000 * tiny <= e53 * (n * / c)). { apply Rle_trans with (e53 * (P2 (-440) * / 2)); [| apply Rmult_le_compat_l; [lra | apply Rmult_le_compat; lra]]. unfold tiny. rewrite <- e53_P2. replace (/ 2) with (P2 (-1)) by (rewrite P2_m by lia; reflexivity). rewrite <- !P2_add. apply Rle_trans with (P2 10 * P2 (-1075)); [apply Rmult_le_compat_r; [left; apply P2_pos | rewrite <- P2_Z by lia; apply IZR_le; lia] | rewrite <- P2_add; apply P2_mono; lia]. }
  assert (CO : forall x, finite64 x -> Rabs (rval x) <= n -> finite64 (b64_div x k) /\ Rabs (rval (b64_div x k) - / c * rval x) <= e53 * Rabs (/ c * rval x) + tiny).
  { intros x Fx Bx. replace (/ c * rval x) with (rval x / c) by (unfold Rdiv; ring). apply div_any; [exact Fx | exact Fk | fold c; lra |]. fold c. unfold Rdiv. rewrite Rabs_mult, (Rabs_pos_eq (/ c)) by lra. apply Rle_trans with (2 * P2 53); [apply Rmult_le_compat; try lra; apply Rabs_pos | lra]. }
  destruct (coordinate_le (val3 v)) as (C1 & C2 & C3). fold n in C1, C2, C3. unfold val3 in C1, C2, C3. cbn [vx vy vz] in C1, C2, C3.
  destruct (CO _ F1 C1) as [G1 D1]. destruct (CO _ F2 C2) as [G2 D2]. destruct (CO _ F3 C3) as [G3 D3]. set (w := fdiv3 v k) in *.
  assert (DW : dist3 (val3 w) (scale3 (/ c) (val3 v)) <= 1.002 * (e53 * (n * / c))).
  { pose proof (rel_dist (val3 w) (scale3 (/ c) (val3 v)) e53 tiny) as R. unfold w, fdiv3, val3, scale3 in R. cbn [fx fy fz vx vy vz] in R. specialize (R ltac:(lra) ltac:(pose proof tiny_pos; lra) D1 D2 D3). change (dist3 (val3 w) (scale3 (/ c) (val3 v)) <= e53 * norm3 (scale3 (/ c) (val3 v)) + 2 * tiny) in R. rewrite norm3_scale, Rabs_pos_eq in R by lra. fold n in R. lra. }
  assert (NS : norm3 (scale3 (/ c) (val3 v)) = n * / c) by (rewrite norm3_scale, Rabs_pos_eq by lra; fold n; ring). pose proof (norm_dist (val3 w) (scale3 (/ c) (val3 v))) as ND. rewrite NS in ND. apply abs_le in ND. assert (PN : 0 < n * / c) by (apply Rmult_lt_0_compat; lra). assert (SM : e53 * (n * / c) <= / 1000000000 * (n * / c)) by (apply Rmult_le_compat_r; lra).
  assert (UP : n * / c <= 2 * P2 53) by (apply Rmult_le_compat; lra). assert (LO : P2 (-440) * / 2 <= n * / c) by (apply Rmult_le_compat; lra).
  split; [repeat split; assumption |]. assert (P449 : 2 * P2 449 = P2 450) by (replace 2 with (P2 1) at 1 by (rewrite <- P2_Z by lia; reflexivity); rewrite <- P2_add; reflexivity). split; [apply within_norm; lra |].
  assert (P450 : P2 (-450) <= / 4 * P2 (-440)) by (replace (/ 4) with (P2 (-2)) by (rewrite P2_m by lia; reflexivity); rewrite <- P2_add; apply P2_mono; lia). split; [lra |].
  replace (direction (val3 v)) with (direction (scale3 (/ c) (val3 v))) by (unfold direction; rewrite NS; unfold scale3; cbn [vx vy vz]; fold n; f_equal; field; lra).
  eapply Rle_trans; [apply direction_dist; rewrite ?NS; lra |]. rewrite NS. unfold Rdiv. apply Rmult_le_reg_r with (n * / c); [exact PN |]. rewrite Rmult_assoc, Rinv_l by lra. lra.
Qed.

(** *** The rotation vector *)
Lemma vector_part q : finite4 q -> finite3 (vec64 q) /\ val3 (vec64 q) = vec (val4 q).
Proof. intros (A & B & C & D). split; [repeat split; assumption | reflexivity]. Qed.
Lemma vec_le q : norm3 (vec q) <= len4 q.
Proof. unfold norm3, len4. apply sqrt_le_1_alt. unfold sqnorm3, dot3, vec, sq. cbn [vx vy vz]. pose proof (VecProofs.sq_nonneg (qs q)). lra. Qed.
Lemma rv_near_len facos r eps q e : finite4 q -> Rabs (len4 (val4 q) - 1) <= 4.07 * e53 -> -1 < rval (q64s q) < 1 -> P2 (-440) <= norm3 (vec (val4 q)) -> finite64 eps -> P2 (-50) <= rval eps <= / 4 -> e <= 1 -> returns (facos (q64s q)) (acos (rval (q64s q))) e ->
  exists a t, rv64_of_quaternion facos r eps (Some q) = Ok (mkRV64 (Some a) (Some t)) /\ finite3 a /\ dist3 (val3 a) (direction (vec (val4 q))) <= 13.3 * e53 /\ Rabs (norm3 (val3 a) - 1) <= 3.62 * e53 /\ returns t (2 * acos (rval (q64s q))) (2 * e + 10.1 * e53).
Proof.
  intros Fq L S NV Fe He E1 [Fc Ec]. pose proof e53_pos as PE. assert (E9 : e53 <= / 1000000000) by (unfold e53; lra). pose proof P2_ge1023 as P23. pose proof tiny_e4 as TE. destruct (vector_part q Fq) as [Fv Vv].
  assert (NV2 : norm3 (val3 (vec64 q)) <= 2) by (rewrite Vv; pose proof (vec_le (val4 q)); apply abs_le in L; lra). assert (Fs : finite64 (q64s q)) by apply Fq. destruct (root_near (q64s q) Fs S) as (Fd & Ld & Fr & Hr). set (d := sf_sub one_64 (b64_mul (q64s q) (q64s q))) in *.
  destruct (quotient_near (vec64 q) (b64_sqrt d) Fv NV2 ltac:(rewrite Vv; exact NV) Fr Hr) as (Fw & Ww & Nw & Dw). set (w := fdiv3 (vec64 q) (b64_sqrt d)) in *. rewrite Vv in Dw.
  destruct (normalized_tight r w Fw Ww Nw) as [Fa Da]. pose proof (normalized_len r w Fw Ww Nw) as La. set (a := fnormalized3 r w) in *. pose proof La as La'. apply abs_le in La'. pose proof P2_450_2 as P4.
  assert (Wa : within3 (P2 450) a) by (apply within_norm; lra). assert (P45 : P2 (-450) <= / 2) by (apply Rle_trans with (P2 (-1)); [apply P2_mono; lia | right; rewrite P2_m by lia; reflexivity]). assert (Na : P2 (-450) <= norm3 (val3 a)) by lra.
  destruct (normalized_tight r a Fa Wa Na) as [Fb Db]. pose proof (normalized_len r a Fa Wa Na) as Lb. pose proof (P2_pos (-450)) as PP.
  assert (DD : dist3 (direction (val3 a)) (direction (val3 w)) <= 7.25 * e53). { replace (direction (val3 w)) with (direction (direction (val3 w))) at 1 by (unfold direction at 1; rewrite direction_norm by lra; unfold scale3; destruct (direction (val3 w)) as [x y z]; cbn [vx vy vz]; f_equal; field). eapply Rle_trans; [apply direction_dist; [lra | rewrite direction_norm by lra; lra] |]. rewrite direction_norm by lra. unfold Rdiv. rewrite Rinv_1. lra. }
  destruct two_val as [FT VT]. set (s := rval (q64s q)) in *. pose proof (acos_bound s) as AB. pose proof PI_4 as PI4. pose proof (proj1 (abs_le _ _ Ec)) as Ec1. pose proof (proj2 (abs_le _ _ Ec)) as Ec2.
  assert (BA : Rabs (rval (facos (q64s q))) <= 5) by (apply abs_of; lra). destruct (mul_any two_64 (facos (q64s q)) FT Fc ltac:(rewrite VT, Rabs_mult, (Rabs_pos_eq 2) by lra; assert (P2 10 <= P2 1023) by (apply P2_mono; lia); assert (P2 10 = 1024) by (rewrite <- P2_Z by lia; reflexivity); lra)) as [Ft Et]. rewrite VT in Et. rewrite Rabs_mult, (Rabs_pos_eq 2) in Et by lra.
  exists (fnormalized3 r a), (b64_mul two_64 (facos (q64s q))). split.
  - unfold rv64_of_quaternion. cbn [need3 bind]. rewrite (unitary_accept q eps Fq ltac:(lra) Fe (proj1 He)). cbn [bind negb]. destruct one_val as [FO VO].
    assert (N1 : SFeqb (q64s q) one_64 = false) by (apply Bool.not_true_iff_false; intros K; apply SFeqb_val in K; [fold s in K; lra | assumption..]). assert (N2 : SFeqb (q64s q) (SFopp one_64) = false) by (apply Bool.not_true_iff_false; intros K; apply SFeqb_val in K; [fold s in K; rewrite SFopp_val in K; lra | assumption | apply SFopp_finite; assumption]).
    assert (N3 : SFeqb (SFabs (q64s q)) one_64 = false). { destruct (abs_val _ Fs) as [Fab Vab]. apply Bool.not_true_iff_false; intros K; apply SFeqb_val in K; [| assumption..]. rewrite Vab, VO in K. fold s in K. unfold Rabs in K. destruct (Rcase_abs s); lra. }
    unfold q64_eq. change (q64s q64_Unit) with one_64. rewrite N1, N2, N3, !andb_false_r. cbn [orb]. fold d. rewrite Ld. fold w a. apply (rv64_new r eps a _ Fa Wa Fe ltac:(rewrite <- e50 in He; lra)). rewrite <- e50 in He. lra.
  - split; [exact Fb |]. split.
    + pose proof (dist3_triangle (val3 (fnormalized3 r a)) (direction (val3 a)) (direction (vec (val4 q)))). pose proof (dist3_triangle (direction (val3 a)) (direction (val3 w)) (direction (vec (val4 q)))). lra.
    + split; [exact Lb |]. split; [exact Ft |]. set (y := rval (facos (q64s q))) in *. assert (e53 * (2 * Rabs y) <= e53 * 10) by (apply Rmult_le_compat_l; lra). apply abs_le in Et. apply abs_of. lra.
Qed.
Lemma rv_near facos r eps q e : finite4 q -> Rabs (len4 (val4 q) - 1) <= P2 (-51) -> -1 < rval (q64s q) < 1 -> P2 (-440) <= norm3 (vec (val4 q)) -> finite64 eps -> P2 (-50) <= rval eps <= / 4 -> e <= 1 -> returns (facos (q64s q)) (acos (rval (q64s q))) e ->
  exists a t, rv64_of_quaternion facos r eps (Some q) = Ok (mkRV64 (Some a) (Some t)) /\ finite3 a /\ dist3 (val3 a) (direction (vec (val4 q))) <= 13.3 * e53 /\ Rabs (norm3 (val3 a) - 1) <= 3.62 * e53 /\ returns t (2 * acos (rval (q64s q))) (2 * e + 10.1 * e53).
Proof. intros Fq L. rewrite <- e51 in L. pose proof e53_pos. apply rv_near_len; [exact Fq | lra]. Qed.
Lemma c148_accurate facos r eps q e : finite4 q -> Rabs (len4 (val4 q) - 1) <= P2 (-51) -> -1 < rval (q64s q) < 1 -> P2 (-440) <= norm3 (vec (val4 q)) -> finite64 eps -> P2 (-50) <= rval eps <= / 4 -> e <= 1 -> returns (facos (q64s q)) (acos (rval (q64s q))) e ->
  exists a t, rv64_of_quaternion facos r eps (Some q) = Ok (mkRV64 (Some a) (Some t)) /\ finite3 a /\ dist3 (val3 a) (direction (vec (val4 q))) <= P2 (-49) /\ Rabs (norm3 (val3 a) - 1) <= P2 (-51) /\ returns t (2 * acos (rval (q64s q))) (2 * e + P2 (-49)).
Proof.
  intros Fq L S NV Fe He E1 Ec. destruct (rv_near facos r eps q e Fq L S NV Fe He E1 Ec) as (a & t & E & Fa & Da & La & Ft & Et). pose proof e53_pos. rewrite <- e51, <- e49. exists a, t. split; [exact E |]. split; [exact Fa |]. split; [lra |]. split; [lra |]. split; [exact Ft | lra].
Qed.
(** The exact rotation. *)
Lemma polar_gap q : Rabs (len4 q - 1) <= / 100 -> -1 < qs q < 1 -> 0 < norm3 (vec q) -> gap4 (polar 1 (direction (vec q)) (acos (qs q))) q <= 2.01 * Rabs (len4 q - 1) / norm3 (vec q).
Proof.
  intros L S N. set (n := norm3 (vec q)) in *. set (s := qs q) in *. set (k := sqrt (1 - Rsqr s)).
  assert (P1 : 0 <= 1 - Rsqr s) by (unfold Rsqr; nra). assert (KK : k * k = 1 - s * s) by (unfold k; rewrite sqrt_sqrt by exact P1; reflexivity). assert (K0 : 0 <= k) by apply sqrt_pos.
  assert (NN : n * n = len4 q * len4 q - s * s) by (rewrite len4_sq; unfold n; rewrite norm3_sq; unfold sqnorm3, dot3, vec, sq, s; cbn [vx vy vz]; ring).
  assert (PQ : polar 1 (direction (vec q)) (acos s) = of_parts (scale3 k (direction (vec q))) s) by (unfold polar, of_parts, scale3; cbn [vx vy vz]; rewrite sin_acos, cos_acos by lra; fold k; f_equal; ring).
  assert (QQ : q = of_parts (scale3 n (direction (vec q))) s) by (destruct q as [x y z w]; unfold of_parts, scale3, direction, s; cbn [vec qs vx vy vz scale3]; fold n; unfold vec; cbn [qx qy qz vx vy vz]; f_equal; field; lra).
  rewrite PQ. set (B := 2.01 * Rabs (len4 q - 1) / n). assert (B0 : 0 <= B) by (unfold B, Rdiv; apply Rmult_le_pos; [pose proof (Rabs_pos (len4 q - 1)); lra | left; apply Rinv_0_lt_compat, N]). rewrite QQ at 2. apply gap_parts; [exact B0 |].
  assert (DK : dist3 (scale3 k (direction (vec q))) (scale3 n (direction (vec q))) = Rabs (k - n)) by (unfold dist3; replace (sub3 (scale3 k (direction (vec q))) (scale3 n (direction (vec q)))) with (scale3 (k - n) (direction (vec q))) by (unfold sub3, scale3; cbn [vx vy vz]; f_equal; ring); rewrite norm3_scale, direction_norm by exact N; ring).
  rewrite DK. replace (Rabs (k - n) * Rabs (k - n) + (s - s) * (s - s)) with (Rabs (k - n) * Rabs (k - n)) by ring.
  assert (D : Rabs (k - n) <= B). { unfold B, Rdiv. apply Rmult_le_reg_r with n; [exact N |]. rewrite Rmult_assoc, Rinv_l, Rmult_1_r by lra. apply Rle_trans with (Rabs (k - n) * (k + n)); [apply Rmult_le_compat_l; [apply Rabs_pos | lra] |]. rewrite <- (Rabs_pos_eq (k + n)) by lra. rewrite <- Rabs_mult. replace ((k - n) * (k + n)) with (- ((len4 q - 1) * (len4 q + 1))) by (replace ((k - n) * (k + n)) with (k * k - n * n) by ring; rewrite KK, NN; ring). rewrite Rabs_Ropp, Rabs_mult, Rmult_comm. apply Rmult_le_compat_r; [apply Rabs_pos |]. apply abs_le in L. rewrite Rabs_pos_eq by lra. lra. }
  apply Rmult_le_compat; try apply Rabs_pos; exact D.
Qed.
Lemma c148_rotation q : finite4 q -> Rabs (len4 (val4 q) - 1) <= P2 (-51) -> -1 < rval (q64s q) < 1 -> 0 < norm3 (vec (val4 q)) -> gap4 (polar 1 (direction (vec (val4 q))) (acos (rval (q64s q)))) (val4 q) <= P2 (-49) / norm3 (vec (val4 q)).
Proof.
  intros F L S N. rewrite <- e51 in L. rewrite <- e49. pose proof e53_pos. assert (e53 <= / 1000000000) by (unfold e53; lra). eapply Rle_trans; [apply (polar_gap (val4 q)); [lra | exact S | exact N] |]. unfold Rdiv. apply Rmult_le_compat_r; [left; apply Rinv_0_lt_compat, N | lra].
Qed.

(** *** Back to a quaternion *)
Lemma sin_le t : Rabs (sin t) <= Rabs t.
Proof.
  assert (P : forall x, 0 <= x -> Rabs (sin x) <= x). { intros x H. pose proof (SIN_bound x) as SB. destruct (Rle_or_lt 1 x) as [L | L]; [apply Rle_trans with 1; [apply abs_of; lra | exact L] |]. destruct H as [H | <-]; [| rewrite sin_0, Rabs_R0; lra]. pose proof (sin_lt_x x H). pose proof PI2_1. assert (0 <= sin x) by (apply sin_ge_0; lra). rewrite Rabs_pos_eq; lra. }
  destruct (Rle_or_lt 0 t) as [H | H]; [rewrite (Rabs_pos_eq t) by exact H; apply P, H |]. rewrite <- (Rabs_Ropp t), <- (Rabs_Ropp (sin t)), <- sin_neg, (Rabs_pos_eq (- t)) by lra. apply P. lra.
Qed.
Lemma cos_close x y : Rabs (cos x - cos y) <= Rabs (x - y).
Proof.
  rewrite form2, !Rabs_mult. replace (Rabs (-2)) with 2 by (unfold Rabs; destruct Rcase_abs; lra). pose proof (sin_le ((x - y) / 2)) as A. pose proof (sin_abs ((x + y) / 2)) as B. replace (Rabs ((x - y) / 2)) with (Rabs (x - y) / 2) in A by (unfold Rdiv; rewrite Rabs_mult, (Rabs_pos_eq (/ 2)) by lra; reflexivity). pose proof (Rabs_pos (sin ((x - y) / 2))). pose proof (Rabs_pos (sin ((x + y) / 2))). nra.
Qed.
Lemma sin_close x y : Rabs (sin x - sin y) <= Rabs (x - y).
Proof. rewrite <- !cos_shift. eapply Rle_trans; [apply cos_close |]. right. rewrite <- Rabs_Ropp. f_equal. ring. Qed.
Lemma c148_round_trip facos fcos fsin r eps q e : finite4 q -> Rabs (len4 (val4 q) - 1) <= P2 (-51) -> -1 < rval (q64s q) < 1 -> P2 (-440) <= norm3 (vec (val4 q)) -> finite64 eps -> P2 (-50) <= rval eps <= / 4 -> e <= / 1000 ->
  returns (facos (q64s q)) (acos (rval (q64s q))) e -> (forall x, finite64 x -> returns (fcos x) (cos (rval x)) e /\ returns (fsin x) (sin (rval x)) e) ->
  exists v p, rv64_of_quaternion facos r eps (Some q) = Ok v /\ q64_of_rotvec fcos fsin eps v = Ok p /\ finite4 p /\ gap4 (val4 p) (val4 q) <= 6 * e + P2 (-46) + P2 (-49) / norm3 (vec (val4 q)).
Proof.
  intros Fq L S NV Fe He E1 Ec T. pose proof e53_pos as PE. assert (E9 : e53 <= / 1000000000) by (unfold e53; lra). destruct (rv_near facos r eps q e Fq L S NV Fe He ltac:(lra) Ec) as (a & t & E & Fa & Da & La & Ft & Et). set (s := rval (q64s q)) in *. pose proof (P2_pos (-440)) as PP.
  assert (E0 : 0 <= e) by (eapply Rle_trans; [apply Rabs_pos | exact (proj2 Ec)]). destruct two_val as [FT VT]. pose proof (acos_bound s) as AB. pose proof PI_4 as PI4. pose proof tiny_e4 as TE. pose proof P2_ge1023 as P23. pose proof (proj1 (abs_le _ _ Et)) as Et1. pose proof (proj2 (abs_le _ _ Et)) as Et2.
  assert (B8 : Rabs (rval t) <= 9) by (apply abs_of; lra). assert (H2 : Rabs (rval t / 2) = Rabs (rval t) / 2) by (unfold Rdiv; rewrite Rabs_mult, (Rabs_pos_eq (/ 2)) by lra; reflexivity).
  destruct (div_any t two_64 Ft FT ltac:(rewrite VT; lra) ltac:(rewrite VT, H2; assert (P2 10 <= P2 1023) by (apply P2_mono; lia); assert (P2 10 = 1024) by (rewrite <- P2_Z by lia; reflexivity); lra)) as [Fh Eh]. rewrite VT, H2 in Eh. set (h := b64_div t two_64) in *.
  assert (DH : Rabs (rval h - acos s) <= e + 10 * e53). { assert (e53 * (Rabs (rval t) / 2) <= e53 * 4.5) by (apply Rmult_le_compat_l; lra). apply abs_le in Eh. apply abs_of. lra. }
  destruct (T h Fh) as [[FC EC] [FS ES]].
  assert (RC : returns (fcos h) (cos (2 * acos s / 2)) (2 * e + 10 * e53)) by (split; [exact FC |]; replace (2 * acos s / 2) with (acos s) by field; pose proof (cos_close (rval h) (acos s)) as X; replace (rval (fcos h) - cos (acos s)) with ((rval (fcos h) - cos (rval h)) + (cos (rval h) - cos (acos s))) by ring; eapply Rle_trans; [apply Rabs_triang | lra]).
  assert (RS : returns (fsin h) (sin (2 * acos s / 2)) (2 * e + 10 * e53)) by (split; [exact FS |]; replace (2 * acos s / 2) with (acos s) by field; pose proof (sin_close (rval h) (acos s)) as X; replace (rval (fsin h) - sin (acos s)) with ((rval (fsin h) - sin (rval h)) + (sin (rval h) - sin (acos s))) by ring; eapply Rle_trans; [apply Rabs_triang | lra]).
  destruct (of_rotvec_near fcos fsin eps a t (2 * acos s) (2 * e + 10 * e53) Fa ltac:(rewrite <- e50; lra) Fe ltac:(lra) RC RS ltac:(lra)) as (p & Ep & Fp & Gp & _ & _).
  exists (mkRV64 (Some a) (Some t)), p. split; [exact E |]. split; [exact Ep |]. split; [exact Fp |]. rewrite <- half_polar in Gp. replace (2 * acos s / 2) with (acos s) in Gp by field.
  assert (NA : 0 < norm3 (val3 a)) by (apply abs_le in La; lra). set (D := direction (vec (val4 q))) in *. assert (UD : norm3 D = 1) by (apply direction_norm; lra).
  assert (GD : gap4 (polar 1 (direction (val3 a)) (acos s)) (polar 1 D (acos s)) <= 26.7 * e53).
  { replace (polar 1 (direction (val3 a)) (acos s)) with (of_parts (scale3 (sin (acos s)) (direction (val3 a))) (cos (acos s))) by (unfold polar, of_parts, scale3; cbn [vx vy vz]; f_equal; ring). replace (polar 1 D (acos s)) with (of_parts (scale3 (sin (acos s)) D) (cos (acos s))) by (unfold polar, of_parts, scale3; cbn [vx vy vz]; f_equal; ring).
    assert (DD : dist3 (direction (val3 a)) D <= 26.7 * e53). { replace D with (direction D) by (unfold direction at 1; rewrite UD; unfold scale3; destruct D as [x y z]; cbn [vx vy vz]; f_equal; field). eapply Rle_trans; [apply direction_dist; lra |]. rewrite UD. unfold Rdiv. rewrite Rinv_1. lra. }
    apply gap_parts; [lra |]. rewrite scale_dist. pose proof (sin_abs (acos s)) as SA. assert (Z : Rabs (sin (acos s)) * dist3 (direction (val3 a)) D <= 26.7 * e53) by (rewrite <- (Rmult_1_l (26.7 * e53)); apply Rmult_le_compat; try assumption; [apply Rabs_pos | apply sqrt_pos]). replace ((cos (acos s) - cos (acos s)) * (cos (acos s) - cos (acos s))) with 0 by ring. rewrite Rplus_0_r. apply Rmult_le_compat; try exact Z; (apply Rmult_le_pos; [apply Rabs_pos | apply sqrt_pos]). }
  pose proof (c148_rotation q Fq L S ltac:(lra)) as GR. fold s in GR. fold D in GR. pose proof (gap4_triangle (val4 p) (polar 1 (direction (val3 a)) (acos s)) (val4 q)) as T1. pose proof (gap4_triangle (polar 1 (direction (val3 a)) (acos s)) (polar 1 D (acos s)) (val4 q)) as T2.
  assert (E46 : P2 (-46) = 128 * e53) by (rewrite <- e53_P2; replace 128 with (P2 7) by (rewrite <- P2_Z by lia; reflexivity); rewrite <- P2_add; reflexivity). rewrite E46. lra.
Qed.
(** *** No rotation *)
Lemma unit_z r : fnorm3 r (axis64 0 0 1) = one_64 /\ fnormalized3 r (axis64 0 0 1) = axis64 0 0 1.
Proof. destruct r; split; vm_compute; reflexivity. Qed.
Lemma c148_unit facos r eps q : finite4 q -> Rabs (len4 (val4 q) - 1) <= P2 (-51) -> Rabs (rval (q64s q)) = 1 -> finite64 eps -> P2 (-50) <= rval eps -> rv64_of_quaternion facos r eps (Some q) = Ok (mkRV64 (Some (axis64 0 0 1)) (Some zero64)).
Proof.
  intros Fq L S Fe He. pose proof e53_pos as PE. unfold rv64_of_quaternion. cbn [need3 bind]. rewrite (unitary_accept q eps Fq ltac:(rewrite <- e51 in L; lra) Fe He). cbn [bind negb]. destruct (abs_val (q64s q) ltac:(apply Fq)) as [Fa Va]. destruct one_val as [FO VO].
  replace (SFeqb (SFabs (q64s q)) one_64) with true by (symmetry; apply SFeqb_val; [exact Fa | exact FO | rewrite Va, VO; exact S]). rewrite orb_true_r. unfold rv64_Unit, RotationVector64. destruct (unit_z r) as [-> ->]. change (sf_sub one_64 one_64) with zero64. rewrite ltb_f; [reflexivity | exact Fe | exact I |]. change (rval (SFabs zero64)) with 0. rewrite <- e50 in He. lra.
Qed.
Lemma c148_lost_refuted : exists th q, P2 (-26) <= th /\ finite4 q /\ gap4 (val4 q) (polar 1 (V3 1 0 0) (th / 2)) <= P2 (-53) /\ forall facos r eps, finite64 eps -> P2 (-50) <= rval eps -> rv64_of_quaternion facos r eps (Some q) = Ok (mkRV64 (Some (axis64 0 0 1)) (Some zero64)).
Proof.
  set (x := P2 (-27)). assert (X : 0 < x <= / 100) by (split; [apply P2_pos |]; unfold x; rewrite P2_m by lia; change (2 ^ (- -27))%Z with 134217728%Z; lra). pose proof e53_pos as PE. assert (XX : x * x = e53 / 2) by (unfold x; rewrite <- P2_add, <- e53_P2; change (-27 + -27)%Z with (-53 + -1)%Z; rewrite P2_add, (P2_m (-1)) by lia; reflexivity).
  exists (2 * asin x), (F4 (S754_finite false 4503599627370496 (-79)) zero64 zero64 one_64). destruct one_val as [FO VO].
  assert (VX : rval (S754_finite false 4503599627370496 (-79)) = x) by (rewrite rval_sg; cbn [sg]; rewrite Rmult_1_l; replace 4503599627370496 with (P2 52) by (rewrite <- P2_Z by lia; reflexivity); unfold x; rewrite <- P2_add; reflexivity).
  assert (F : finite4 (F4 (S754_finite false 4503599627370496 (-79)) zero64 zero64 one_64)) by (repeat split; vm_compute; reflexivity || discriminate).
  assert (V : val4 (F4 (S754_finite false 4503599627370496 (-79)) zero64 zero64 one_64) = Q4 x 0 0 1) by (unfold val4; cbn [q64x q64y q64z q64s]; rewrite VX, VO; reflexivity).
  split. { pose proof (asin_bound x) as AB. assert (SA : sin (asin x) = x) by (apply sin_asin; lra). assert (PA : 0 < asin x). { destruct (Rle_or_lt (asin x) 0) as [N | N]; [| exact N]. assert (0 <= sin (- asin x)) by (apply sin_ge_0; lra). rewrite sin_neg, SA in *. lra. } pose proof (sin_lt_x (asin x) PA) as Y. rewrite SA in Y. assert (D : P2 (-26) = 2 * x) by (unfold x; rewrite (P2_m (-26)), (P2_m (-27)) by lia; change (2 ^ (- -26))%Z with 67108864%Z; change (2 ^ (- -27))%Z with 134217728%Z; lra). lra. }
  split; [exact F |]. split.
  { rewrite V, e53_P2. replace (2 * asin x / 2) with (asin x) by field. apply len4_le; [lra |]. unfold polar, sq. cbn [qx qy qz qs vx vy vz]. rewrite sin_asin, cos_asin by lra. unfold Rsqr. rewrite XX. assert (S : 1 - e53 / 2 <= sqrt (1 - e53 / 2) <= 1). { split; [rewrite <- (sqrt_square (1 - e53 / 2)) at 1 by lra; apply sqrt_le_1_alt; assert (0 <= e53 / 2 * (1 - e53 / 2)) by (apply Rmult_le_pos; lra); lra | rewrite <- sqrt_1 at 2; apply sqrt_le_1_alt; lra]. }
    set (k := sqrt (1 - e53 / 2)) in *. replace ((x - 1 * x * 1) * (x - 1 * x * 1) + (0 - 1 * x * 0) * (0 - 1 * x * 0) + (0 - 1 * x * 0) * (0 - 1 * x * 0) + (1 - 1 * k) * (1 - 1 * k)) with ((1 - k) * (1 - k)) by ring. apply Rmult_le_compat; lra. }
  intros facos r eps Fe He. apply c148_unit; [exact F | | cbn [q64s]; rewrite VO; apply Rabs_R1 | exact Fe | exact He].
  rewrite V, <- e51. unfold len4, sq. cbn [qx qy qz qs]. replace (x * x + 0 * 0 + 0 * 0 + 1 * 1) with (1 + e53 / 2) by (rewrite XX; ring). assert (S : 1 <= sqrt (1 + e53 / 2) <= 1 + e53 / 2). { split; [rewrite <- sqrt_1 at 1; apply sqrt_le_1_alt; lra | rewrite <- (sqrt_square (1 + e53 / 2)) at 2 by lra; apply sqrt_le_1_alt; assert (0 <= e53 / 2 * (1 + e53 / 2)) by (apply Rmult_le_pos; lra); lra]. } apply abs_of. lra.
Qed.
(** *** Scalar parts above one *)
Definition q64_above : f4 := F4 zero64 zero64 zero64 (S754_finite false 4503599627370497 (-52)).
Lemma c148_above_refuted : exists q, finite4 q /\ forall facos r eps, finite64 eps -> P2 (-52) <= rval eps -> q64_isUnitary (Some q) (Some eps) = Ok true /\ rv64_of_quaternion facos r eps (Some q) = UB.
Proof.
  exists q64_above. split; [repeat split; vm_compute; reflexivity || discriminate |]. intros facos r eps Fe He. set (g := S754_finite false 4503599627370496 (-104)). assert (Fg : finite64 g) by (vm_compute; reflexivity). assert (Vg : rval g = P2 (-52)) by (unfold g; rewrite rval_sg; cbn [sg]; rewrite Rmult_1_l; replace 4503599627370496 with (P2 52) by (rewrite <- P2_Z by lia; reflexivity); rewrite <- P2_add; reflexivity).
  assert (N : SFabs (sf_sub (fnorm4 q64_above) one_64) = g) by (vm_compute; reflexivity). pose proof (P2_pos (-52)).
  assert (U : q64_isUnitary (Some q64_above) (Some eps) = Ok true). { unfold q64_isUnitary. cbn [need3 bind]. rewrite N. replace (SFleb eps zero64) with false by (symmetry; apply Bool.not_true_iff_false; intros K; apply SFleb_val in K; [change (rval zero64) with 0 in K; lra | exact Fe | exact I]). f_equal. apply SFleb_val; [exact Fg | exact Fe | lra]. }
  split; [exact U |]. unfold rv64_of_quaternion. cbn [need3 bind]. rewrite U. cbn [bind negb]. replace (q64_eq (Some q64_above) (Some q64_Unit) || SFeqb (SFabs (q64s q64_above)) one_64) with false by (vm_compute; reflexivity). replace (SFltb (sf_sub one_64 (b64_mul (q64s q64_above) (q64s q64_above))) zero64) with true by (vm_compute; reflexivity). reflexivity.
Qed.
Lemma c148_errors facos r eps q : rv64_of_quaternion facos r eps None = Err EUndefined /\ (q64_isUnitary (Some q) (Some eps) = Ok false -> rv64_of_quaternion facos r eps (Some q) = Err ERuntime) /\ rv64_of_quaternion facos r zero64 (Some q) = Err EUndefined.
Proof. split; [reflexivity |]. split; [| reflexivity]. intros H. unfold rv64_of_quaternion. cbn [need3 bind]. rewrite H. reflexivity. Qed.
