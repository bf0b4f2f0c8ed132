(** Rotations from two pairs of vectors (C147). *)

From Coq Require Import List Bool ZArith Reals Lra Lia Psatz Floats.SpecFloat.
From Verif Require Import Result Vec Mat3 VecProofs AngleModel FloatModel FloatSpec FloatProofs FloatProofs2 FloatProofs3 FloatProofs4 FloatProofs5 FloatProofs7 FloatProofs8 FloatProofs10
  Geo3Spec Geo3Proofs Geo3Proofs2 Geo64Model Geo64Spec Geo64Proofs Geo64Proofs2 Geo64Proofs3 Geo64Proofs4 Geo64Proofs5 Geo64Proofs6 Geo64Proofs7 Geo64Proofs8 RotModel RotSpec RotProofs RotProofs2 RotProofs3 RotProofs4 RotProofs9 Rot64Model Rot64Spec Rot64Spec2 Rot64Proofs Rot64Proofs2 Rot64Proofs3 Rot64Proofs4 Rot64Proofs5 Rot64Proofs6 Rot64Proofs7 Rot64Proofs8 Rot64Proofs9 Rot64Proofs10 Rot64Proofs11 Rot64Proofs12 Rot64Proofs13 Rot64Proofs14 Rot64Proofs15 Rot64Proofs16 Rot64Proofs17 Att64Model Att64Spec Att64Proofs Att64Proofs2 Att64Proofs3 Att64Proofs4 Att64Proofs5 Att64Proofs7 Att64Proofs8.
Import ListNotations.
Local Open Scope R_scope.

(** *** The exact rotation *)
Lemma frames_align u1 u2 v1 v2 : u1 <> zero3 -> u2 <> zero3 -> v1 <> zero3 -> v2 <> zero3 -> cross3 (normalized3 u1) (normalized3 u2) <> zero3 -> cross3 (normalized3 v1) (normalized3 v2) <> zero3 ->
  let m := mul3 (transpose3 (basis_rows v1 v2)) (basis_rows u1 u2) in is_rotation m /\ aligns m u1 u2 v1 v2 /\ is_rotation (basis_rows u1 u2) /\ is_rotation (basis_rows v1 v2).
Proof.
  intros Hu1 Hu2 Hv1 Hv2 Cu Cv.
  destruct (basis_rows_frame u1 u2 Hu1 Hu2 Cu) as (a & c & -> & R & Ea & Ha & Hc & O & Ec & Z & Y & D).
  destruct (basis_rows_frame v1 v2 Hv1 Hv2 Cv) as (a' & c' & -> & R' & Ea' & Ha' & Hc' & O' & Ec' & Z' & Y' & D').
  intros m. pose proof (rotation_mul _ _ (rotation_transpose _ R') R) as RR. split; [exact RR |]. split; [| split; assumption].
  pose proof (norm3_pos' u1 Hu1) as Pu1. pose proof (norm3_pos' v1 Hv1) as Pv1.
  assert (Nv : forall k, scale3 (k * / norm3 v1) v1 = scale3 k a') by (intros k; rewrite Ea', (normalized3_eq v1 Hv1), scale3_scale; reflexivity).
  unfold m. split.
  - exists (norm3 u1 * / norm3 v1). split; [apply Rmult_lt_0_compat; [| apply Rinv_0_lt_compat]; assumption |].
    rewrite <- (normalized3_back u1 Hu1) at 1. rewrite <- Ea.
    rewrite mulv3_mul, basis_apply, basis_back, !dot3_scale_r. change (dot3 a a) with (sqnorm3 a).
    rewrite Ha, (dot3_sym c a), O. replace (dot3 (cross3 c a) a) with 0 by v3ring.
    rewrite Nv. generalize (norm3 u1). intros. v3ring.
  - set (y := dot3 (cross3 c a) u2) in *. set (y' := dot3 (cross3 c' a') v2) in *.
    exists ((dot3 a u2 - y / y' * dot3 a' v2) * / norm3 v1), (y / y'). split; [apply Rdiv_lt_0_compat; assumption |].
    rewrite mulv3_mul, basis_apply, basis_back, Z. fold y.
    rewrite Nv. rewrite D' at 2.
    assert (y = y / y' * y') as Ey by (field; lra). rewrite Ey at 1. generalize (y / y') (dot3 a u2) (dot3 a' v2). intros.
    clear. generalize (cross3 c' a'). intros. v3ring.
Qed.
Lemma nonzero_norm v : 0 < norm3 v -> v <> zero3.
Proof. intros H E. apply norm3_0 in E. lra. Qed.
Lemma basis_rows_eq u w : 0 < norm3 u -> 0 < norm3 w -> 0 < norm3 (cross3 (direction u) (direction w)) ->
  cross3 (normalized3 u) (normalized3 w) <> zero3 /\ basis_rows u w = of_rows (direction u) (cross3 (direction (cross3 (direction u) (direction w))) (direction u)) (direction (cross3 (direction u) (direction w))).
Proof.
  intros U W C. assert (EU : normalized3 u = direction u) by (apply normalized3_eq, nonzero_norm, U). assert (EW : normalized3 w = direction w) by (apply normalized3_eq, nonzero_norm, W).
  unfold basis_rows. rewrite EU, EW. split; [apply nonzero_norm, C |]. rewrite (normalized3_eq _ (nonzero_norm _ C)). reflexivity.
Qed.

(** *** The computed frames *)
Lemma direction_dist c d : 0 < norm3 c -> 0 < norm3 d -> dist3 (direction c) (direction d) <= 2 * dist3 c d / norm3 d.
Proof.
  intros C D. set (x := norm3 c) in *. set (y := norm3 d) in *. unfold dist3, direction. fold x y.
  replace (sub3 (scale3 (/ x) c) (scale3 (/ y) d)) with (add3 (scale3 (/ y) (sub3 c d)) (scale3 (/ x - / y) c)) by (unfold sub3, add3, scale3; cbn [vx vy vz]; f_equal; ring).
  eapply Rle_trans; [apply norm3_triangle |]. rewrite !norm3_scale. fold x. rewrite (Rabs_pos_eq (/ y)) by (apply Rlt_le, Rinv_0_lt_compat, D). pose proof (norm_dist c d) as N. fold x y in N.
  replace (/ x - / y) with (/ x * / y * - (x - y)) by (field; lra). rewrite !Rabs_mult, Rabs_Ropp, (Rabs_pos_eq (/ x)), (Rabs_pos_eq (/ y)) by (apply Rlt_le, Rinv_0_lt_compat; assumption).
  unfold dist3 in N. set (e := norm3 (sub3 c d)) in *. replace (/ x * / y * Rabs (x - y) * x) with (/ y * Rabs (x - y)) by (field; lra). pose proof (Rinv_0_lt_compat y D). assert (/ y * Rabs (x - y) <= / y * e) by (apply Rmult_le_compat_l; lra). unfold Rdiv. lra.
Qed.
Lemma cross_moved a b a' b' s t : norm3 b' <= 1.001 -> norm3 a <= 1 -> dist3 a' a <= s -> dist3 b' b <= t -> dist3 (cross3 a' b') (cross3 a b) <= 1.001 * s + t.
Proof.
  intros B A S T. unfold dist3 in *. replace (sub3 (cross3 a' b') (cross3 a b)) with (add3 (cross3 (sub3 a' a) b') (cross3 a (sub3 b' b))) by (unfold sub3, add3, cross3; cbn [vx vy vz]; f_equal; ring).
  eapply Rle_trans; [apply norm3_triangle |]. pose proof (norm_cross (sub3 a' a) b') as X. pose proof (norm_cross a (sub3 b' b)) as Y. pose proof (norm3_nonneg (sub3 a' a)). pose proof (norm3_nonneg (sub3 b' b)). pose proof (norm3_nonneg a). pose proof (norm3_nonneg b').
  assert (norm3 (sub3 a' a) * norm3 b' <= s * 1.001) by (apply Rmult_le_compat; lra). assert (norm3 a * norm3 (sub3 b' b) <= 1 * t) by (apply Rmult_le_compat; lra). lra.
Qed.
Definition frame64 (r : order) (a b : f3) : f33 := let n := fnormalized3 r (fcross3 a b) in F33 a (fcross3 n a) n.
Definition frame3 (A B : v3) : m3 := let N := direction (cross3 A B) in of_cols A (cross3 N A) N.
Lemma frame_near r u w : finite3 u -> finite3 w -> within3 (P2 450) u -> within3 (P2 450) w -> P2 (-450) <= norm3 (val3 u) -> P2 (-450) <= norm3 (val3 w) -> let A := direction (val3 u) in let B := direction (val3 w) in let s := norm3 (cross3 A B) in P2 (-30) <= s ->
  let f := frame64 r (fnormalized3 r u) (fnormalized3 r w) in finite33 f /\ forall j, (j < 3)%nat -> dist3 (col3 (val33 f) j) (col3 (frame3 A B) j) <= 33 * e53 / s.
Proof.
  intros Fu Fw Wu Ww Nu Nw A B s Hs f. pose proof (P2_pos (-450)) as P450. pose proof e53_pos as PE. assert (E9 : e53 <= / 1000000000) by (unfold e53; lra).
  assert (UA : norm3 A = 1) by (apply direction_norm; lra). assert (UB : norm3 B = 1) by (apply direction_norm; lra).
  destruct (normalized_tight r u Fu Wu Nu) as [Fa Da]. destruct (normalized_tight r w Fw Ww Nw) as [Fb Db]. fold A in Da. fold B in Db. set (a := fnormalized3 r u) in *. set (b := fnormalized3 r w) in *.
  pose proof (norm_dist (val3 a) A) as Na. pose proof (norm_dist (val3 b) B) as Nb. rewrite UA in Na. rewrite UB in Nb. apply abs_le in Na, Nb.
  assert (S1 : s <= 1) by (unfold s; pose proof (norm_cross A B) as X; rewrite UA, UB in X; lra). assert (E30 : P2 (-30) = 8388608 * e53) by (rewrite <- e53_P2; replace 8388608 with (P2 23) by (rewrite <- P2_Z by lia; reflexivity); rewrite <- P2_add; reflexivity). rewrite E30 in Hs. assert (PS : 0 < s) by lra.
  destruct (cross_near a b Fa Fb ltac:(lra) ltac:(lra)) as [Fc Dc]. set (c := fcross3 a b) in *. pose proof (cross_moved A B (val3 a) (val3 b) (3.62 * e53) (3.62 * e53) ltac:(lra) ltac:(lra) Da Db) as Dm.
  assert (DC : dist3 (val3 c) (cross3 A B) <= 10.73 * e53) by (pose proof (dist3_triangle (val3 c) (cross3 (val3 a) (val3 b)) (cross3 A B)); lra).
  pose proof (norm_dist (val3 c) (cross3 A B)) as Nc. fold s in Nc. apply abs_le in Nc. assert (LC : P2 (-450) <= norm3 (val3 c)) by (apply Rle_trans with (P2 (-53)); [apply P2_mono; lia | rewrite e53_P2; lra]). assert (WC : within3 (P2 450) c) by (apply within_norm; pose proof P2_450_2; lra).
  destruct (normalized_tight r c Fc WC LC) as [Fn Dn]. set (n := fnormalized3 r c) in *. set (N := direction (cross3 A B)) in *. assert (UN : norm3 N = 1) by (apply direction_norm; fold s; lra).
  pose proof (direction_dist (val3 c) (cross3 A B) ltac:(lra) ltac:(fold s; lra)) as Dd. fold N s in Dd. pose proof (Rinv_0_lt_compat s PS) as IS. assert (I1 : 1 <= / s) by (rewrite <- Rinv_1; apply Rinv_le_contravar; lra). unfold Rdiv in *.
  assert (Dd2 : 2 * dist3 (val3 c) (cross3 A B) * / s <= 2 * (10.73 * e53) * / s) by (apply Rmult_le_compat_r; lra). assert (J : e53 <= e53 * / s) by (rewrite <- (Rmult_1_r e53) at 1; apply Rmult_le_compat_l; lra).
  assert (DN : dist3 (val3 n) N <= 25.1 * (e53 * / s)) by (pose proof (dist3_triangle (val3 n) (direction (val3 c)) N); lra).
  assert (ES : e53 * / s <= / 8388608) by (replace (/ 8388608) with (/ 8388608 * s * / s) by (field; lra); apply Rmult_le_compat_r; lra).
  pose proof (norm_dist (val3 n) N) as Nn. rewrite UN in Nn. apply abs_le in Nn.
  destruct (cross_near n a Fn Fa ltac:(lra) ltac:(lra)) as [Fm Dx]. pose proof (cross_moved N A (val3 n) (val3 a) (25.1 * (e53 * / s)) (3.62 * e53) ltac:(lra) ltac:(lra) DN Da) as Dy.
  assert (DM : dist3 (val3 (fcross3 n a)) (cross3 N A) <= 33 * e53 * / s) by (pose proof (dist3_triangle (val3 (fcross3 n a)) (cross3 (val3 n) (val3 a)) (cross3 N A)); lra).
  split; [split; [exact Fa | split; [exact Fm | exact Fn]] |]. intros j J'. destruct j as [| [| [| j]]]; [| | | lia].
  - change (dist3 (val3 a) A <= 33 * e53 * / s). lra.
  - exact DM.
  - change (dist3 (val3 n) N <= 33 * e53 * / s). lra.
Qed.
Lemma frame_product r p q P Q d d' : finite33 p -> finite33 q -> orthonormal_up_to 0 P -> orthonormal_up_to 0 (transpose3 Q) -> 0 <= d <= / 2000 -> 0 <= d' <= / 2000 -> (forall j, (j < 3)%nat -> norm3 (col3 P j) = 1) ->
  (forall j, (j < 3)%nat -> dist3 (col3 (val33 p) j) (col3 P j) <= d) -> (forall j, (j < 3)%nat -> dist3 (col3 (val33 q) j) (col3 Q j) <= d') ->
  finite33 (fmul33 r p (ftranspose q)) /\ forall j, (j < 3)%nat -> dist3 (col3 (val33 (fmul33 r p (ftranspose q))) j) (col3 (mul3 P (transpose3 Q)) j) <= 1.734 * d + 1.7321 * d' + 5.3 * e53.
Proof.
  intros Fp Fq OP OQ HD HD' UP DP DQ. pose proof (col_entries d' _ _ DQ) as EQ. pose proof e53_pos as PE. assert (E9 : e53 <= / 1000000000) by (unfold e53; lra). pose proof tiny_e4.
  assert (UQ : forall j, (j < 3)%nat -> norm3 (row3 Q j) = 1). { intros j J. pose proof (OQ j j J J) as K. rewrite Nat.eqb_refl in K. replace (col3 (transpose3 Q) j) with (row3 Q j) in K by (destruct j as [| [| [| j]]]; try lia; reflexivity). unfold norm3, sqnorm3. replace (dot3 (row3 Q j) (row3 Q j)) with 1 by (apply abs_le in K; lra). apply sqrt_1. }
  assert (RQ : forall j, (j < 3)%nat -> dist3 (row3 (val33 q) j) (row3 Q j) <= 1.7321 * d'). { intros j J. destruct (EQ j J) as (X & Y & Z). apply norm_box; [lra | | |]; assumption. }
  assert (CP : forall j, (j < 3)%nat -> norm3 (col3 (val33 p) j) <= 1.001). { intros j J. pose proof (norm_dist (col3 (val33 p) j) (col3 P j)) as N. rewrite (UP j J) in N. apply abs_le in N. specialize (DP j J). lra. }
  assert (ROW : forall v w, finite3 v -> norm3 w = 1 -> dist3 (val3 v) w <= 1.7321 * d' -> finite3 (fmulv3 r p v) /\ dist3 (val3 (fmulv3 r p v)) (mulv3 P w) <= 1.734 * d + 1.7321 * d' + 5.3 * e53).
  { intros v w Fv Uw Dv. pose proof (norm_dist (val3 v) w) as N. rewrite Uw in N. apply abs_le in N. destruct (fmulv3_err r p v 1.001 Fp Fv (within_norm v (P2 450) ltac:(pose proof P2_450_2; lra)) ltac:(lra) CP) as [Fm Dm]. split; [exact Fm |].
    pose proof (cols_mulv d _ _ (val3 v) (proj1 HD) DP) as C1. assert (C2 : dist3 (mulv3 P (val3 v)) (mulv3 P w) <= 1.7321 * d') by (unfold dist3; rewrite mulv_sub, (iso_mulv P _ OP); exact Dv).
    eapply Rle_trans; [apply (dist3_triangle _ (mulv3 (val33 p) (val3 v))) |]. eapply Rle_trans; [apply Rplus_le_compat_l, (dist3_triangle _ (mulv3 P (val3 v))) |].
    assert (1.7321 * d * norm3 (val3 v) <= 1.7321 * d * 1.001) by (apply Rmult_le_compat_l; lra). assert (5.2483 * 1.001 * e53 * norm3 (val3 v) <= 5.2483 * 1.001 * e53 * 1.001) by (apply Rmult_le_compat_l; lra). lra. }
  destruct (rows_finite q Fq) as (R0 & R1 & R2). destruct (row_val q) as (V0 & V1 & V2). rewrite <- ?V0, <- ?V1, <- ?V2 in *.
  pose proof (ROW (row64_0 q) (row3 Q 0) R0 (UQ 0%nat ltac:(lia)) ltac:(rewrite <- V0; exact (RQ 0%nat ltac:(lia)))) as [G0 D0]. pose proof (ROW (row64_1 q) (row3 Q 1) R1 (UQ 1%nat ltac:(lia)) ltac:(rewrite <- V1; exact (RQ 1%nat ltac:(lia)))) as [G1 D1]. pose proof (ROW (row64_2 q) (row3 Q 2) R2 (UQ 2%nat ltac:(lia)) ltac:(rewrite <- V2; exact (RQ 2%nat ltac:(lia)))) as [G2 D2].
  split; [split; [exact G0 | split; [exact G1 | exact G2]] |]. intros j J. destruct j as [| [| [| j]]]; [exact D0 | exact D1 | exact D2 | lia].
Qed.

(** *** The matrix *)
Lemma unit_columns M : orthonormal_up_to 0 M -> forall j, (j < 3)%nat -> norm3 (col3 M j) = 1.
Proof. intros O j J. pose proof (O j j J J) as K. rewrite Nat.eqb_refl in K. unfold norm3, sqnorm3. replace (dot3 (col3 M j) (col3 M j)) with 1 by (apply abs_le in K; lra). apply sqrt_1. Qed.
Definition basis_product (r : order) (u1 u2 v1 v2 : f3) : f33 := fmul33 r (ftranspose (basis64 r (fnormalized3 r v1) (fnormalized3 r v2))) (basis64 r (fnormalized3 r u1) (fnormalized3 r u2)).
Definition usable (u : f3) : Prop := finite3 u /\ within3 (P2 450) u /\ P2 (-450) <= norm3 (val3 u).
Lemma basis_near r u1 u2 v1 v2 : usable u1 -> usable u2 -> usable v1 -> usable v2 -> let s := sine (val3 u1) (val3 u2) in let t := sine (val3 v1) (val3 v2) in P2 (-30) <= s -> P2 (-30) <= t ->
  let m := basis_product r u1 u2 v1 v2 in let E := 60 * e53 * (/ s + / t) in finite33 m /\ 1 <= / s /\ 1 <= / t /\ 0 <= E <= / 2000 /\ exists M, is_rotation M /\ aligns M (val3 u1) (val3 u2) (val3 v1) (val3 v2) /\ orthonormal_up_to 0 M /\ entries_within E (val33 m) M.
Proof.
  intros (Fu1 & Wu1 & Nu1) (Fu2 & Wu2 & Nu2) (Fv1 & Wv1 & Nv1) (Fv2 & Wv2 & Nv2) s t Hs Ht m E. pose proof (P2_pos (-450)) as P450. pose proof (P2_pos (-30)) as P30. pose proof e53_pos as PE. assert (E9 : e53 <= / 1000000000) by (unfold e53; lra).
  destruct (frame_near r u1 u2 Fu1 Fu2 Wu1 Wu2 Nu1 Nu2 Hs) as [Fp Dp]. destruct (frame_near r v1 v2 Fv1 Fv2 Wv1 Wv2 Nv1 Nv2 Ht) as [Fq Dq].
  fold (sine (val3 u1) (val3 u2)) in Dp. fold s in Dp. fold (sine (val3 v1) (val3 v2)) in Dq. fold t in Dq.
  destruct (basis_rows_eq (val3 u1) (val3 u2) ltac:(lra) ltac:(lra) ltac:(fold (sine (val3 u1) (val3 u2)); fold s; lra)) as [Cu Bu]. destruct (basis_rows_eq (val3 v1) (val3 v2) ltac:(lra) ltac:(lra) ltac:(fold (sine (val3 v1) (val3 v2)); fold t; lra)) as [Cv Bv].
  destruct (frames_align (val3 u1) (val3 u2) (val3 v1) (val3 v2) ltac:(apply nonzero_norm; lra) ltac:(apply nonzero_norm; lra) ltac:(apply nonzero_norm; lra) ltac:(apply nonzero_norm; lra) Cu Cv) as (RM & AM & Ru & Rv).
  set (P := frame3 (direction (val3 v1)) (direction (val3 v2))) in *. set (Q := frame3 (direction (val3 u1)) (direction (val3 u2))) in *.
  assert (BP : basis_rows (val3 v1) (val3 v2) = transpose3 P) by (rewrite Bv; reflexivity). assert (BQ : basis_rows (val3 u1) (val3 u2) = transpose3 Q) by (rewrite Bu; reflexivity).
  rewrite BP, BQ, transpose3_transpose in RM, AM. rewrite BP in Rv. rewrite BQ in Ru. assert (OP : orthonormal_up_to 0 P) by (apply ortho_zero; apply rotation_transpose in Rv; rewrite transpose3_transpose in Rv; exact (proj1 Rv)). assert (OQ : orthonormal_up_to 0 (transpose3 Q)) by (apply ortho_zero; exact (proj1 Ru)).
  assert (SMALL : forall x, P2 (-30) <= x -> x <= 1 -> 1 <= / x /\ 0 <= 33 * e53 / x <= / 2000 /\ e53 * / x <= / 8388608).
  { intros x Hx X1. assert (E30 : P2 (-30) = 8388608 * e53) by (rewrite <- e53_P2; replace 8388608 with (P2 23) by (rewrite <- P2_Z by lia; reflexivity); rewrite <- P2_add; reflexivity). rewrite E30 in Hx. assert (PX : 0 < x) by lra. pose proof (Rinv_0_lt_compat x PX).
    assert (I1 : 1 <= / x) by (rewrite <- Rinv_1; apply Rinv_le_contravar; lra). assert (ES : e53 * / x <= / 8388608) by (replace (/ 8388608) with (/ 8388608 * x * / x) by (field; lra); apply Rmult_le_compat_r; lra). assert (0 <= e53 * / x) by (apply Rmult_le_pos; lra). unfold Rdiv. repeat split; lra. }
  assert (ONE : forall a b, 0 < norm3 a -> 0 < norm3 b -> sine a b <= 1) by (intros a b Pa Pb; unfold sine; pose proof (norm_cross (direction a) (direction b)) as X; rewrite !direction_norm in X by assumption; lra).
  destruct (SMALL s Hs (ONE (val3 u1) (val3 u2) ltac:(lra) ltac:(lra))) as (S1 & S2 & S3). destruct (SMALL t Ht (ONE (val3 v1) (val3 v2) ltac:(lra) ltac:(lra))) as (T1 & T2 & T3).
  destruct (frame_product r _ _ P Q _ _ Fq Fp OP OQ T2 S2 (unit_columns P OP) Dq Dp) as [Fm Dm].
  assert (Em : m = fmul33 r (frame64 r (fnormalized3 r v1) (fnormalized3 r v2)) (ftranspose (frame64 r (fnormalized3 r u1) (fnormalized3 r u2)))) by (unfold m, basis_product; change (basis64 r (fnormalized3 r v1) (fnormalized3 r v2)) with (ftranspose (frame64 r (fnormalized3 r v1) (fnormalized3 r v2))); rewrite ftranspose_twice; reflexivity).
  rewrite <- Em in Fm, Dm. split; [exact Fm |]. split; [exact S1 |]. split; [exact T1 |]. split; [unfold E; assert (0 <= e53 * / s) by (apply Rmult_le_pos; lra); assert (0 <= e53 * / t) by (apply Rmult_le_pos; lra); lra |].
  exists (mul3 P (transpose3 Q)). split; [exact RM |]. split; [exact AM |]. split; [apply ortho_zero; exact (proj1 RM) |]. apply (entries_le (1.734 * (33 * e53 / t) + 1.7321 * (33 * e53 / s) + 5.3 * e53)); [apply col_entries; exact Dm |].
  unfold E, Rdiv. assert (e53 * 1 <= e53 * / s) by (apply Rmult_le_compat_l; lra). assert (e53 * 1 <= e53 * / t) by (apply Rmult_le_compat_l; lra). lra.
Qed.
Lemma basis_inv r eps u1 u2 v1 v2 m : VectorBasis64 r eps (Some u1) (Some u2) (Some v1) (Some v2) = Ok m -> m = basis_product r u1 u2 v1 v2.
Proof.
  unfold VectorBasis64. cbn [need3 bind]. destruct (SFltb (fnorm3 r u1) eps); [discriminate |]. destruct (SFltb (fnorm3 r u2) eps); [discriminate |]. destruct (SFltb (fnorm3 r v1) eps); [discriminate |]. destruct (SFltb (fnorm3 r v2) eps); [discriminate |]. cbv zeta.
  destruct (parallel64 r eps (fnormalized3 r u1) (fnormalized3 r u2)); [discriminate |]. destruct (parallel64 r eps (fnormalized3 r v1) (fnormalized3 r v2)); [discriminate |]. unfold RotationMatrix64. destruct (rm64_ok _ _ _); [| discriminate]. intros H. injection H as <-. reflexivity.
Qed.
Lemma c147_entries r eps u1 u2 v1 v2 m : (forall u, In u [u1; u2; v1; v2] -> finite3 u /\ within3 (P2 450) u /\ P2 (-450) <= norm3 (val3 u)) -> let s := sine (val3 u1) (val3 u2) in let t := sine (val3 v1) (val3 v2) in P2 (-30) <= s -> P2 (-30) <= t ->
  VectorBasis64 r eps (Some u1) (Some u2) (Some v1) (Some v2) = Ok m -> finite33 m /\ exists M, is_rotation M /\ aligns M (val3 u1) (val3 u2) (val3 v1) (val3 v2) /\ entries_within (P2 (-47) * (/ s + / t)) (val33 m) M.
Proof.
  intros H s t Hs Ht EM. rewrite (basis_inv _ _ _ _ _ _ _ EM). destruct (basis_near r u1 u2 v1 v2 (H u1 ltac:(cbn; tauto)) (H u2 ltac:(cbn; tauto)) (H v1 ltac:(cbn; tauto)) (H v2 ltac:(cbn; tauto)) Hs Ht) as (F & S1 & T1 & HE & M & RM & AM & _ & EW). fold s t in EW, S1, T1. split; [exact F |]. exists M. split; [exact RM |]. split; [exact AM |].
  apply (entries_le (60 * e53 * (/ s + / t))); [exact EW |]. rewrite <- e47. pose proof e53_pos. apply Rmult_le_compat_r; lra.
Qed.
Lemma c147_turn r eps u1 u2 v1 v2 m : (forall u, In u [u1; u2; v1; v2] -> finite3 u /\ within3 (P2 450) u /\ P2 (-450) <= norm3 (val3 u)) -> let s := sine (val3 u1) (val3 u2) in let t := sine (val3 v1) (val3 v2) in P2 (-30) <= s -> P2 (-30) <= t ->
  VectorBasis64 r eps (Some u1) (Some u2) (Some v1) (Some v2) = Ok m -> exists M, is_rotation M /\ aligns M (val3 u1) (val3 u2) (val3 v1) (val3 v2) /\ forall v, finite3 v -> norm3 (val3 v) <= P2 440 ->
    exists w, rm64_mulv r (Some m) (Some v) = Ok w /\ finite3 w /\ dist3 (val3 w) (mulv3 M (val3 v)) <= P2 (-45) * (/ s + / t) * norm3 (val3 v) + P2 (-1071).
Proof.
  intros H s t Hs Ht EM. rewrite (basis_inv _ _ _ _ _ _ _ EM). destruct (basis_near r u1 u2 v1 v2 (H u1 ltac:(cbn; tauto)) (H u2 ltac:(cbn; tauto)) (H v1 ltac:(cbn; tauto)) (H v2 ltac:(cbn; tauto)) Hs Ht) as (F & S1 & T1 & HE & M & RM & AM & OM & EW). fold s t in EW, S1, T1, HE. exists M. split; [exact RM |]. split; [exact AM |]. intros v Fv Bv.
  destruct (near_turn r _ M _ v F OM HE EW Fv Bv) as (w & Ew & Fw & Dw). exists w. split; [exact Ew |]. split; [exact Fw |]. eapply Rle_trans; [exact Dw |]. pose proof tiny8. apply Rplus_le_compat; [| assumption]. apply Rmult_le_compat_r; [apply norm3_nonneg |]. rewrite <- e45. pose proof e53_pos. assert (e53 * 2 <= e53 * (/ s + / t)) by (apply Rmult_le_compat_l; lra). lra.
Qed.
Lemma norm_kept r eps u : usable u -> finite64 eps -> 2 * rval eps <= norm3 (val3 u) -> SFltb (fnorm3 r u) eps = false.
Proof.
  intros (F & W & N) Fe He. destruct (fnorm3_tight r u F W N) as (_ & _ & Fn & En). apply ltb_f; [exact Fn | exact Fe |]. pose proof e53_pos. assert (e53 <= / 1000000000) by (unfold e53; lra). pose proof (P2_pos (-450)). assert (e53 * norm3 (val3 u) <= / 1000000000 * norm3 (val3 u)) by (apply Rmult_le_compat_r; lra). apply abs_le in En. lra.
Qed.
Lemma norm_refused r eps u : usable u -> finite64 eps -> (1 + P2 (-51)) * norm3 (val3 u) < rval eps -> SFltb (fnorm3 r u) eps = true.
Proof.
  intros (F & W & N) Fe He. rewrite <- e51 in He. destruct (fnorm3_tight r u F W N) as (_ & _ & Fn & En). apply ltb_t; [exact Fn | exact Fe |]. pose proof e53_pos. pose proof (P2_pos (-450)). assert (0 <= e53 * norm3 (val3 u)) by (apply Rmult_le_pos; lra). apply abs_le in En. lra.
Qed.
(** The number compared with the tolerance. *)
Lemma parallel_near r u w : usable u -> usable w -> let c := Rabs (dot3 (direction (val3 u)) (direction (val3 w))) in let x := SFabs (sf_sub (SFabs (fdot3 r (fnormalized3 r u) (fnormalized3 r w))) one_64) in
  finite64 x /\ Rabs (rval x - (1 - c)) <= 12 * e53 /\ c <= 1 /\ c * c = 1 - sine (val3 u) (val3 w) * sine (val3 u) (val3 w).
Proof.
  intros (Fu & Wu & Nu) (Fw & Ww & Nw) c x. pose proof (P2_pos (-450)) as P450. pose proof e53_pos as PE. assert (E9 : e53 <= / 1000000000) by (unfold e53; lra). set (A := direction (val3 u)) in *. set (B := direction (val3 w)) in *.
  assert (UA : norm3 A = 1) by (apply direction_norm; lra). assert (UB : norm3 B = 1) by (apply direction_norm; lra).
  destruct (normalized_tight r u Fu Wu Nu) as [Fa Da]. destruct (normalized_tight r w Fw Ww Nw) as [Fb Db]. fold A in Da. fold B in Db. set (a := fnormalized3 r u) in *. set (b := fnormalized3 r w) in *.
  pose proof (norm_dist (val3 a) A) as Na. pose proof (norm_dist (val3 b) B) as Nb. rewrite UA in Na. rewrite UB in Nb. apply abs_le in Na, Nb. pose proof P2_450_2 as P4. pose proof tiny_e4 as TE.
  destruct (fdot3_near r a b Fa Fb (within_norm a (P2 450) ltac:(lra)) (within_norm b (P2 450) ltac:(lra))) as [Fd Ed]. pose proof (dot_perturbed A B (val3 a) (val3 b) (3.62 * e53) ltac:(lra) ltac:(lra) Da Db ltac:(lra)) as Ep.
  pose proof (norm3_nonneg (val3 a)). pose proof (norm3_nonneg (val3 b)). assert (NN : norm3 (val3 a) * norm3 (val3 b) <= 1.0001 * 1.0001) by (apply Rmult_le_compat; lra). assert (N2 : 3.03 * e53 * (norm3 (val3 a) * norm3 (val3 b)) <= 3.03 * e53 * (1.0001 * 1.0001)) by (apply Rmult_le_compat_l; lra).
  assert (C1 : c <= 1) by (unfold c; pose proof (cauchy3_norm A B) as X; rewrite UA, UB in X; lra). set (d := fdot3 r a b) in *. assert (DD : Rabs (rval d - dot3 A B) <= 10.37 * e53) by (apply abs_le in Ed; apply abs_le in Ep; apply abs_of; lra).
  assert (DC : Rabs (Rabs (rval d) - c) <= 10.37 * e53) by (eapply Rle_trans; [apply Rabs_triang_inv2 | exact DD]). destruct (abs_val d Fd) as [Fad Vad]. destruct one_val as [FO VO]. pose proof P2_ge1023. apply abs_le in DC. pose proof (Rabs_pos (dot3 A B)) as CP. fold c in CP.
  assert (B1 : Rabs (rval (SFabs d) - rval one_64) <= 1.01) by (rewrite Vad, VO; apply abs_of; lra). destruct (sub_any (SFabs d) one_64 Fad FO ltac:(lra)) as [Fs Es]. destruct (abs_val _ Fs) as [Fx Vx]. fold x in Fx, Vx. split; [exact Fx |]. split; [| split; [exact C1 |]].
  - rewrite Vx. rewrite Vad, VO in Es, B1. assert (e53 * Rabs (Rabs (rval d) - 1) <= e53 * 1.01) by (apply Rmult_le_compat_l; lra). set (y := rval (sf_sub (SFabs d) one_64)) in *. apply abs_le in Es. apply abs_of. unfold Rabs at 1 2; destruct (Rcase_abs y); lra.
  - unfold sine. fold A B. rewrite norm3_sq, lagrange3, <- !norm3_sq, UA, UB. unfold c. rewrite <- Rabs_mult, Rabs_pos_eq by (apply VecProofs.sq_nonneg). ring.
Qed.
Lemma parallel_kept r eps u w : usable u -> usable w -> finite64 eps -> 24 * e53 <= rval eps -> let s := sine (val3 u) (val3 w) in rval eps <= s * s / 4 -> parallel64 r eps (fnormalized3 r u) (fnormalized3 r w) = false.
Proof.
  intros Hu Hw Fe E1 s E2. destruct (parallel_near r u w Hu Hw) as (Fx & Ex & C1 & CC). fold s in CC. unfold parallel64. apply ltb_f; [exact Fx | exact Fe |]. apply abs_le in Ex. set (c := Rabs (dot3 (direction (val3 u)) (direction (val3 w)))) in *. assert (0 <= c) by apply Rabs_pos. assert (s * s <= 2 * (1 - c)) by nra. lra.
Qed.
Lemma parallel_refused r eps u w : usable u -> usable w -> finite64 eps -> let s := sine (val3 u) (val3 w) in s * s + 13 * e53 <= rval eps -> parallel64 r eps (fnormalized3 r u) (fnormalized3 r w) = true.
Proof.
  intros Hu Hw Fe s E2. destruct (parallel_near r u w Hu Hw) as (Fx & Ex & C1 & CC). fold s in CC. unfold parallel64. apply ltb_t; [exact Fx | exact Fe |]. apply abs_le in Ex. pose proof e53_pos. set (c := Rabs (dot3 (direction (val3 u)) (direction (val3 w)))) in *. assert (0 <= c) by apply Rabs_pos. assert (1 - c <= s * s) by nra. lra.
Qed.
Lemma c147_accepted r eps u1 u2 v1 v2 : (forall u, In u [u1; u2; v1; v2] -> finite3 u /\ within3 (P2 450) u /\ 2 * rval eps <= norm3 (val3 u)) -> let s := sine (val3 u1) (val3 u2) in let t := sine (val3 v1) (val3 v2) in 0 < s -> 0 < t -> finite64 eps ->
  P2 (-45) * (/ s + / t) <= rval eps <= / 4 -> rval eps <= s * s / 4 -> rval eps <= t * t / 4 -> exists m, VectorBasis64 r eps (Some u1) (Some u2) (Some v1) (Some v2) = Ok m.
Proof.
  intros H s t PS PT Fe HE Hs Ht. pose proof e53_pos as PE. rewrite <- e45 in HE.
  assert (USE : forall u, In u [u1; u2; v1; v2] -> 0 < rval eps -> P2 (-440) <= rval eps -> usable u) by (intros u Hu P0 P1; destruct (H u Hu) as (F & W & N); repeat split; try apply F; try apply W; apply Rle_trans with (P2 (-440)); [apply P2_mono; lia | lra]).
  assert (IS : 0 < / s) by (apply Rinv_0_lt_compat, PS). assert (IT : 0 < / t) by (apply Rinv_0_lt_compat, PT). assert (P0 : 0 < rval eps) by (assert (0 < 256 * e53 * (/ s + / t)) by (apply Rmult_lt_0_compat; lra); lra).
  assert (ONE : forall u w, In u [u1; u2; v1; v2] -> In w [u1; u2; v1; v2] -> sine (val3 u) (val3 w) <= 1) by (intros u w Iu Iw; unfold sine; pose proof (norm_cross (direction (val3 u)) (direction (val3 w))) as X; destruct (H u Iu) as (_ & _ & N1); destruct (H w Iw) as (_ & _ & N2); rewrite !direction_norm in X by lra; lra).
  pose proof (ONE u1 u2 ltac:(cbn; tauto) ltac:(cbn; tauto)) as S1. fold s in S1. pose proof (ONE v1 v2 ltac:(cbn; tauto) ltac:(cbn; tauto)) as T1. fold t in T1. assert (S2 : 1 <= / s) by (rewrite <- Rinv_1; apply Rinv_le_contravar; lra). assert (T2 : 1 <= / t) by (rewrite <- Rinv_1; apply Rinv_le_contravar; lra).
  assert (E5 : 512 * e53 <= rval eps) by (assert (256 * e53 * 2 <= 256 * e53 * (/ s + / t)) by (apply Rmult_le_compat_l; lra); lra). assert (P440 : P2 (-440) <= rval eps) by (apply Rle_trans with (P2 (-53)); [apply P2_mono; lia | rewrite e53_P2; lra]).
  assert (E30 : forall x, 0 < x -> rval eps <= x * x / 4 -> P2 (-30) <= x). { intros x PX HX. assert (E44 : 512 * e53 = P2 (-22) * P2 (-22)) by (rewrite <- P2_add, <- e53_P2; replace 512 with (P2 9) by (rewrite <- P2_Z by lia; reflexivity); rewrite <- P2_add; reflexivity). pose proof (P2_pos (-22)). apply Rle_trans with (P2 (-22)); [apply P2_mono; lia |]. destruct (Rle_or_lt (P2 (-22)) x) as [L | L]; [exact L |]. assert (x * x <= P2 (-22) * P2 (-22)) by (apply Rmult_le_compat; lra). lra. }
  assert (U1 := USE u1 ltac:(cbn; tauto) P0 P440). assert (U2 := USE u2 ltac:(cbn; tauto) P0 P440). assert (V1 := USE v1 ltac:(cbn; tauto) P0 P440). assert (V2 := USE v2 ltac:(cbn; tauto) P0 P440).
  destruct (basis_near r u1 u2 v1 v2 U1 U2 V1 V2 (E30 s PS Hs) (E30 t PT Ht)) as (F & _ & _ & HB & M & RM & AM & OM & EW). fold s t in EW, HB.
  exists (basis_product r u1 u2 v1 v2). unfold VectorBasis64. cbn [need3 bind]. cbv zeta.
  rewrite (norm_kept r eps u1 U1 Fe (proj2 (proj2 (H u1 ltac:(cbn; tauto))))), (norm_kept r eps u2 U2 Fe (proj2 (proj2 (H u2 ltac:(cbn; tauto))))), (norm_kept r eps v1 V1 Fe (proj2 (proj2 (H v1 ltac:(cbn; tauto))))), (norm_kept r eps v2 V2 Fe (proj2 (proj2 (H v2 ltac:(cbn; tauto))))).
  rewrite (parallel_kept r eps u1 u2 U1 U2 Fe ltac:(lra) Hs), (parallel_kept r eps v1 v2 V1 V2 Fe ltac:(lra) Ht). refine (near_accepted r eps _ M _ F OM HB EW Fe _). assert (e53 * 2 <= e53 * (/ s + / t)) by (apply Rmult_le_compat_l; lra). lra.
Qed.
Lemma c147_refused r eps u1 u2 v1 v2 : (forall u, In u [u1; u2; v1; v2] -> finite3 u /\ within3 (P2 450) u /\ P2 (-450) <= norm3 (val3 u)) -> finite64 eps ->
  let s := sine (val3 u1) (val3 u2) in let t := sine (val3 v1) (val3 v2) in (exists u, In u [u1; u2; v1; v2] /\ (1 + P2 (-51)) * norm3 (val3 u) < rval eps) \/ s * s + 13 * P2 (-53) <= rval eps \/ t * t + 13 * P2 (-53) <= rval eps ->
  VectorBasis64 r eps (Some u1) (Some u2) (Some v1) (Some v2) = Err ERuntime.
Proof.
  intros H Fe s t. rewrite e53_P2. assert (U1 := H u1 ltac:(cbn; tauto)). assert (U2 := H u2 ltac:(cbn; tauto)). assert (V1 := H v1 ltac:(cbn; tauto)). assert (V2 := H v2 ltac:(cbn; tauto)).
  unfold VectorBasis64. cbn [need3 bind]. cbv zeta. intros [(u & Iu & N) | [P | P]].
  - cbn [In] in Iu. destruct Iu as [<- | [<- | [<- | [<- | []]]]].
    + rewrite (norm_refused r eps u1 U1 Fe N). reflexivity.
    + rewrite (norm_refused r eps u2 U2 Fe N). destruct (SFltb (fnorm3 r u1) eps); reflexivity.
    + rewrite (norm_refused r eps v1 V1 Fe N). destruct (SFltb (fnorm3 r u1) eps), (SFltb (fnorm3 r u2) eps); reflexivity.
    + rewrite (norm_refused r eps v2 V2 Fe N). destruct (SFltb (fnorm3 r u1) eps), (SFltb (fnorm3 r u2) eps), (SFltb (fnorm3 r v1) eps); reflexivity.
  - rewrite (parallel_refused r eps u1 u2 U1 U2 Fe P). destruct (SFltb (fnorm3 r u1) eps), (SFltb (fnorm3 r u2) eps), (SFltb (fnorm3 r v1) eps), (SFltb (fnorm3 r v2) eps); reflexivity.
  - rewrite (parallel_refused r eps v1 v2 V1 V2 Fe P). destruct (SFltb (fnorm3 r u1) eps), (SFltb (fnorm3 r u2) eps), (SFltb (fnorm3 r v1) eps), (SFltb (fnorm3 r v2) eps), (parallel64 r eps (fnormalized3 r u1) (fnormalized3 r u2)); reflexivity.
Qed.
Lemma c147_errors r eps a b c d : (a = None \/ b = None \/ c = None \/ d = None) -> VectorBasis64 r eps a b c d = Err EUndefined.
Proof. intros H. destruct a as [a |], b as [b |], c as [c |], d as [d |]; try reflexivity. exfalso. destruct H as [H | [H | [H | H]]]; discriminate H. Qed.

(** *** Zero vectors and the tolerance of the library *)
Lemma c147_zero r eps u1 u2 v1 v2 : finite64 eps -> 0 < rval eps -> In (F3 zero64 zero64 zero64) [u1; u2; v1; v2] -> VectorBasis64 r eps (Some u1) (Some u2) (Some v1) (Some v2) = Err ERuntime.
Proof.
  intros Fe He I. assert (Z : SFltb (fnorm3 r (F3 zero64 zero64 zero64)) eps = true) by (replace (fnorm3 r (F3 zero64 zero64 zero64)) with zero64 by (destruct r; reflexivity); apply ltb_t; [exact Logic.I | exact Fe | exact He]).
  unfold VectorBasis64. cbn [need3 bind]. cbv zeta. cbn [In] in I. destruct I as [-> | [-> | [-> | [-> | []]]]]; rewrite Z.
  - reflexivity.
  - destruct (SFltb (fnorm3 r u1) eps); reflexivity.
  - destruct (SFltb (fnorm3 r u1) eps), (SFltb (fnorm3 r u2) eps); reflexivity.
  - destruct (SFltb (fnorm3 r u1) eps), (SFltb (fnorm3 r u2) eps), (SFltb (fnorm3 r v1) eps); reflexivity.
Qed.
Lemma sine_ge u w k : 0 < norm3 u -> 0 < norm3 w -> 0 <= k -> k * k * (sqnorm3 u * sqnorm3 w) <= sqnorm3 (cross3 u w) -> k <= sine u w.
Proof.
  intros Pu Pw K H. unfold sine. replace (cross3 (direction u) (direction w)) with (scale3 (/ (norm3 u * norm3 w)) (cross3 u w)) by (unfold direction, cross3, scale3; cbn [vx vy vz]; f_equal; field; lra).
  assert (PP : 0 < norm3 u * norm3 w) by (apply Rmult_lt_0_compat; assumption). rewrite norm3_scale, Rabs_pos_eq by (left; apply Rinv_0_lt_compat, PP).
  assert (L : k * (norm3 u * norm3 w) <= norm3 (cross3 u w)). { apply Rsqr_incr_0_var; [| apply norm3_nonneg]. unfold Rsqr. rewrite norm3_sq. replace (k * (norm3 u * norm3 w) * (k * (norm3 u * norm3 w))) with (k * k * ((norm3 u * norm3 u) * (norm3 w * norm3 w))) by ring. rewrite !norm3_sq. exact H. }
  replace k with (/ (norm3 u * norm3 w) * (k * (norm3 u * norm3 w))) by (field; lra). apply Rmult_le_compat_l; [left; apply Rinv_0_lt_compat, PP | exact L].
Qed.
Definition basis_u1 : f3 := F3 (S754_finite true 8176780916336884 (-54)) (S754_finite false 6372644810390266 (-53)) (S754_finite false 5481066583909226 (-53)).
Definition basis_u2 : f3 := F3 (S754_finite true 7757230292463678 (-54)) (S754_finite false 6240917917913896 (-53)) (S754_finite false 5229773620549690 (-53)).
Lemma c147_refuted : exists u1 u2 v1 v2, (forall u, In u [u1; u2; v1; v2] -> finite3 u /\ / 2 <= norm3 (val3 u) <= 2) /\ / 100 <= sine (val3 u1) (val3 u2) /\ / 100 <= sine (val3 v1) (val3 v2) /\
  forall r eps, finite64 eps -> rval eps <= 29 * P2 (-53) -> VectorBasis64 r eps (Some u1) (Some u2) (Some v1) (Some v2) = Err ERuntime.
Proof.
  exists basis_u1, basis_u2, (axis64 1 0 0), (axis64 0 1 0). destruct one_val as [FO VO]. change one_64 with (b64_of_Z 1) in FO, VO.
  assert (VU : val3 basis_u1 = V3 (- (8176780916336884 / 18014398509481984)) (6372644810390266 / 9007199254740992) (5481066583909226 / 9007199254740992)) by (unfold val3, basis_u1; cbn [fx fy fz]; rewrite !rval_sg; cbn [sg]; rewrite (P2_m (-53)), (P2_m (-54)) by lia; change (2 ^ (- -53))%Z with 9007199254740992%Z; change (2 ^ (- -54))%Z with 18014398509481984%Z; f_equal; lra).
  assert (VW : val3 basis_u2 = V3 (- (7757230292463678 / 18014398509481984)) (6240917917913896 / 9007199254740992) (5229773620549690 / 9007199254740992)) by (unfold val3, basis_u2; cbn [fx fy fz]; rewrite !rval_sg; cbn [sg]; rewrite (P2_m (-53)), (P2_m (-54)) by lia; change (2 ^ (- -53))%Z with 9007199254740992%Z; change (2 ^ (- -54))%Z with 18014398509481984%Z; f_equal; lra).
  assert (VX : val3 (axis64 1 0 0) = V3 1 0 0) by (unfold val3, axis64; cbn [fx fy fz]; rewrite VO; reflexivity). assert (VY : val3 (axis64 0 1 0) = V3 0 1 0) by (unfold val3, axis64; cbn [fx fy fz]; rewrite VO; reflexivity).
  assert (NN : forall v, / 4 <= sqnorm3 v <= 4 -> / 2 <= norm3 v <= 2) by (intros v Hv; unfold norm3; split; [rewrite <- (sqrt_square (/ 2)) by lra | rewrite <- (sqrt_square 2) by lra]; apply sqrt_le_1_alt; lra).
  assert (N1 : / 2 <= norm3 (val3 basis_u1) <= 2) by (apply NN; rewrite VU; unfold sqnorm3, dot3; cbn [vx vy vz]; lra). assert (N2 : / 2 <= norm3 (val3 basis_u2) <= 2) by (apply NN; rewrite VW; unfold sqnorm3, dot3; cbn [vx vy vz]; lra).
  assert (N3 : / 2 <= norm3 (val3 (axis64 1 0 0)) <= 2) by (apply NN; rewrite VX; unfold sqnorm3, dot3; cbn [vx vy vz]; lra). assert (N4 : / 2 <= norm3 (val3 (axis64 0 1 0)) <= 2) by (apply NN; rewrite VY; unfold sqnorm3, dot3; cbn [vx vy vz]; lra).
  split; [| split; [| split]].
  - intros u I. cbn [In] in I. destruct I as [<- | [<- | [<- | [<- | []]]]]; (split; [repeat split; vm_compute; reflexivity || discriminate | assumption]).
  - apply sine_ge; [lra | lra | lra |]. rewrite VU, VW. unfold cross3, sqnorm3, dot3. cbn [vx vy vz]. lra.
  - apply sine_ge; [lra | lra | lra |]. rewrite VX, VY. unfold cross3, sqnorm3, dot3. cbn [vx vy vz]. lra.
  - intros r eps Fe He. rewrite e53_P2 in He. pose proof e53_pos as PE.
    assert (Q : VectorBasis64 r eps (Some basis_u1) (Some basis_u2) (Some (axis64 1 0 0)) (Some (axis64 0 1 0)) = Err ERuntime \/ VectorBasis64 r eps (Some basis_u1) (Some basis_u2) (Some (axis64 1 0 0)) (Some (axis64 0 1 0)) = RotationMatrix64 r eps (basis_product r basis_u1 basis_u2 (axis64 1 0 0) (axis64 0 1 0))).
    { unfold VectorBasis64, basis_product. cbn [need3 bind]. cbv zeta. destruct (SFltb (fnorm3 r basis_u1) eps); [left; reflexivity |]. destruct (SFltb (fnorm3 r basis_u2) eps); [left; reflexivity |]. destruct (SFltb (fnorm3 r (axis64 1 0 0)) eps); [left; reflexivity |]. destruct (SFltb (fnorm3 r (axis64 0 1 0)) eps); [left; reflexivity |].
      destruct (parallel64 r eps (fnormalized3 r basis_u1) (fnormalized3 r basis_u2)); [left; reflexivity |]. destruct (parallel64 r eps (fnormalized3 r (axis64 1 0 0)) (fnormalized3 r (axis64 0 1 0))); [left; reflexivity | right; reflexivity]. }
    destruct Q as [Q | Q]; rewrite Q; [reflexivity |]. unfold RotationMatrix64.
    rewrite (checks_some r eps _ (S754_finite false 8303511812964352 (-101))); [reflexivity | exact Fe | vm_compute; repeat split; reflexivity || discriminate | |].
    + right; right; right; left. destruct r; vm_compute; reflexivity.
    + rewrite rval_sg. cbn [sg]. replace (P2 (-101)) with (P2 (-48) * e53) by (rewrite <- e53_P2, <- P2_add; reflexivity). rewrite (P2_m (-48)) by lia. change (2 ^ (- -48))%Z with 281474976710656%Z. lra.
Qed.
