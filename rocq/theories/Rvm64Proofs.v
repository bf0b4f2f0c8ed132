(** Rotation vectors read from matrices (C154). *)

From Coq Require Import List Bool ZArith Reals Lra Lia Psatz Floats.SpecFloat.
From Verif Require Import Result Vec Mat3 VecProofs AngleModel FloatModel FloatSpec FloatProofs FloatProofs2 FloatProofs3 FloatProofs4 FloatProofs5 FloatProofs7 FloatProofs8 FloatProofs10
  Geo3Spec Geo3Proofs Geo3Proofs2 Geo64Model Geo64Spec Geo64Proofs Geo64Proofs2 Geo64Proofs3 Geo64Proofs4 Geo64Proofs5 Geo64Proofs6 Geo64Proofs7 Geo64Proofs8 RotModel RotSpec RotProofs RotProofs2 RotProofs3 RotProofs4 RotProofs5 RotProofs7 RotProofs9 Rot64Model Rot64Spec Rot64Spec2 Rot64Proofs Rot64Proofs2 Rot64Proofs3 Rot64Proofs4 Rot64Proofs5 Rot64Proofs6 Rot64Proofs7 Rot64Proofs8 Rot64Proofs9 Rot64Proofs10 Rot64Proofs11 Rot64Proofs12 Rot64Proofs13 Rot64Proofs14 Rot64Proofs15 Rot64Proofs16 Rot64Proofs17 Att64Model Att64Spec Att64Proofs Att64Proofs2 Att64Proofs3 Att64Proofs4 Att64Proofs5 Att64Proofs7 Att64Proofs8 Att64Proofs9 Att64Proofs10 Pow64Model Pow64Spec Pow64Proofs Pow64Proofs2 Pow64Proofs3 Pow64Proofs4 Dif64Model Dif64Spec Dif64Proofs RotProofs6 Dif64Proofs2 Dif64Proofs3 Dif64Proofs4 Att64Proofs6 Dif64Proofs5 Eul64Model Eul64Spec Eul64Proofs Eul64Proofs2 Eul64Proofs3 Eul64Proofs4 Rvm64Model Rvm64Spec.
Import ListNotations.
Local Open Scope R_scope.

(** *** Arc cosines *)
Lemma acos_close w th e : 0 < th < PI -> -1 <= w <= 1 -> 0 <= e -> 8 * e <= sin th * sin th -> Rabs (w - cos th) <= e -> Rabs (acos w - th) <= 6 * e / sin th.
Proof.
  intros T W E0 E H. set (s := sin th) in *. set (c := cos th) in *. assert (S0 : 0 < s) by (apply sin_gt_0; lra). assert (SC : s * s = 1 - c * c) by (pose proof (sin2_cos2 th) as K; unfold Rsqr in K; fold s c in K; lra). pose proof (COS_bound th) as CB. fold c in CB. pose proof (SIN_bound th) as SB. fold s in SB.
  set (u := acos w). pose proof (acos_bound w) as AB. fold u in AB. assert (CU : cos u = w) by (apply cos_acos; lra). assert (SU : sin u = sqrt (1 - w * w)) by (unfold u; rewrite sin_acos by lra; reflexivity).
  pose proof (root_close w c s e S0 SC H W CB) as RC. rewrite <- SU in RC. set (k := 2 * e / s) in *. assert (K : k * s = 2 * e) by (unfold k; field; lra). assert (K0 : 0 <= k) by (unfold k, Rdiv; apply Rmult_le_pos; [lra | left; apply Rinv_0_lt_compat, S0]). apply abs_le in H. apply abs_le in RC.
  assert (D1 : Rabs ((sin u - s) * c) <= k * 1) by (rewrite Rabs_mult; apply Rmult_le_compat; [apply Rabs_pos | apply Rabs_pos | apply abs_of; lra | apply abs_of; lra]).
  assert (D2 : Rabs ((w - c) * s) <= e * 1) by (rewrite Rabs_mult; apply Rmult_le_compat; [apply Rabs_pos | apply Rabs_pos | apply abs_of; lra | apply abs_of; lra]).
  assert (D3 : Rabs ((sin u - s) * s) <= 2 * e) by (rewrite Rabs_mult, <- K; apply Rmult_le_compat; [apply Rabs_pos | apply Rabs_pos | apply abs_of; lra | apply abs_of; lra]).
  assert (D4 : Rabs ((w - c) * c) <= e * 1) by (rewrite Rabs_mult; apply Rmult_le_compat; [apply Rabs_pos | apply Rabs_pos | apply abs_of; lra | apply abs_of; lra]).
  assert (SS : s * s <= 1) by nra. assert (EK : e <= k) by (assert (k * s <= k * 1) by (apply Rmult_le_compat_l; lra); lra).
  assert (SD : Rabs (sin (u - th)) <= 2 * k - k / 2). { rewrite sin_minus, CU. fold s c. replace (sin u * c - w * s) with ((sin u - s) * c - (w - c) * s) by ring. assert (e <= k / 2) by (assert (k * s <= k * 1) by (apply Rmult_le_compat_l; lra); lra). apply abs_le in D1. apply abs_le in D2. apply abs_of. lra. }
  assert (CD : / 2 <= cos (u - th)). { rewrite cos_minus, CU. fold s c. replace (w * c + sin u * s) with (1 + (w - c) * c + (sin u - s) * s) by (replace 1 with (s * s + c * c) by lra; ring). apply abs_le in D3. apply abs_le in D4. lra. }
  assert (P : forall x, Rabs x <= PI -> / 2 <= cos x -> Rabs x <= 2 * Rabs (sin x)).
  { intros x BX CX. assert (CA : cos (Rabs x) = cos x) by (unfold Rabs; destruct Rcase_abs; [apply cos_neg | reflexivity]). assert (SA : Rabs (sin x) = Rabs (sin (Rabs x))) by (unfold Rabs at 3; destruct Rcase_abs; [rewrite sin_neg, Rabs_Ropp |]; reflexivity). rewrite SA. pose proof (Rabs_pos x) as XP. set (y := Rabs x) in *. pose proof PI_RGT_0.
    destruct (Rle_or_lt y (PI / 2)) as [L | L]; [pose proof (Dif64Proofs2.sin_half y ltac:(lra)); rewrite (Rabs_pos_eq (sin y)); lra |]. assert (cos y <= 0) by (apply cos_le_0; lra). lra. }
  pose proof (P (u - th) ltac:(apply abs_of; lra) CD) as Q. replace (6 * e / s) with (3 * k) by (unfold k; field; lra). lra.
Qed.

(** *** Normalizing twice, as the constructor does with a normalized axis *)
Lemma twice r eps w t : finite3 w -> within3 (P2 450) w -> P2 (-450) <= norm3 (val3 w) -> finite64 eps -> P2 (-50) <= rval eps <= / 4 ->
  exists b, RotationVector64 r eps (Some (fnormalized3 r w)) t = Ok (mkRV64 (Some b) t) /\ finite3 b /\ dist3 (val3 b) (direction (val3 w)) <= 10.9 * e53 /\ Rabs (norm3 (val3 b) - 1) <= 3.62 * e53.
Proof.
  intros Fw Ww Nw Fe He. pose proof e53_pos as PE. assert (E9 : e53 <= / 1000000000) by (unfold e53; lra).
  destruct (normalized_tight r w Fw Ww Nw) as [Fa Da]. pose proof (normalized_len r w Fw Ww Nw) as La. set (a := fnormalized3 r w) in *. pose proof La as La'. apply abs_le in La'. pose proof P2_450_2 as P4.
  assert (Wa : within3 (P2 450) a) by (apply within_norm; lra). assert (P45 : P2 (-450) <= / 2) by (apply Rle_trans with (P2 (-1)); [apply P2_mono; lia | right; rewrite P2_m by lia; reflexivity]). assert (Na : P2 (-450) <= norm3 (val3 a)) by lra.
  destruct (normalized_tight r a Fa Wa Na) as [Fb Db]. pose proof (normalized_len r a Fa Wa Na) as Lb. pose proof (P2_pos (-450)) as PP.
  assert (DD : dist3 (direction (val3 a)) (direction (val3 w)) <= 7.25 * e53). { replace (direction (val3 w)) with (direction (direction (val3 w))) at 1 by (unfold direction at 1; rewrite direction_norm by lra; unfold scale3; destruct (direction (val3 w)) as [x y z]; cbn [vx vy vz]; f_equal; field). eapply Rle_trans; [apply direction_dist; [lra | rewrite direction_norm by lra; lra] |]. rewrite direction_norm by lra. unfold Rdiv. rewrite Rinv_1. lra. }
  exists (fnormalized3 r a). split; [| split; [exact Fb |]; split; [| exact Lb]].
  - apply (rv64_new r eps a _ Fa Wa Fe ltac:(rewrite <- e50 in He; lra)). rewrite <- e50 in He. lra.
  - pose proof (dist3_triangle (val3 (fnormalized3 r a)) (direction (val3 a)) (direction (val3 w))). lra.
Qed.

(** *** The matrix of a rotation *)
Lemma unit_square x y z k : x * x + y * y + z * z = 1 -> -1 <= k <= 1 -> Rabs (k + (1 - k) * (x * x)) <= 1.
Proof. intros N K. apply abs_of. assert (0 <= x * x <= 1) by nra. assert (0 <= (1 - k) * (x * x) <= (1 - k) * 1) by (split; [apply Rmult_le_pos; lra | apply Rmult_le_compat_l; lra]). lra. Qed.
Lemma unit_sides x y z : x * x + y * y + z * z = 1 -> Rabs x <= 1.
Proof. intros N. apply abs_of. nra. Qed.
Lemma frame_entries d t : let M := matrix_of (frame_rotation d t) in let c := cos t in let s := sin t in
  m00 M = c + (1 - c) * (vx d * vx d) /\ m11 M = c + (1 - c) * (vy d * vy d) /\ m22 M = c + (1 - c) * (vz d * vz d) /\
  m12 M - m21 M = 2 * s * vx d /\ m20 M - m02 M = 2 * s * vy d /\ m01 M - m10 M = 2 * s * vz d.
Proof. destruct d as [x y z]. cbv zeta. unfold matrix_of, of_cols, frame_rotation, sub3, add3, scale3, cross3, dot3. cbn [m00 m01 m02 m10 m11 m12 m20 m21 m22 vx vy vz]. repeat split; ring. Qed.

Lemma trace_near r m d th dl : norm3 d = 1 -> finite33 m -> 0 <= dl <= / 1000 -> entries_within dl (val33 m) (matrix_of (frame_rotation d th)) ->
  near64 (b64_div (sf_sub (ftrace r m) one_64) two_64) (cos th) (1.51 * dl + 8 * e53).
Proof.
  intros N F D H. pose proof e53_pos as PE. assert (E9 : e53 <= / 1000000000) by (unfold e53; lra). pose proof tiny_e4 as TE. destruct (entries_nine _ _ _ H) as ((A & _ & _) & (_ & B & _) & (_ & _ & C)). destruct (frame_entries d th) as (M0 & M1 & M2 & _). cbv zeta in *. rewrite M0 in A. rewrite M1 in B. rewrite M2 in C.
  assert (NN : vx d * vx d + vy d * vy d + vz d * vz d = 1) by (pose proof (norm3_sq d) as K; rewrite N in K; unfold sqnorm3, dot3 in K; lra). pose proof (COS_bound th) as CB. set (c := cos th) in *.
  destruct F as ((F0 & _ & _) & (_ & F1 & _) & (_ & _ & F2)). destruct m as [u v w]. unfold val33, val3, of_cols in A, B, C. cbn [c64_0 c64_1 c64_2 vx vy vz m00 m11 m22] in *.
  assert (P12 : 1024 <= P2 1023) by (assert (P2 10 <= P2 1023) by (apply P2_mono; lia); assert (P2 10 = 1024) by (rewrite <- P2_Z by lia; reflexivity); lra).
  pose proof (near_sum64 r (fx u) (fy v) (fz w) _ _ _ dl dl dl 1 1 1 (conj F0 A) (conj F1 B) (conj F2 C) (unit_square (vx d) (vy d) (vz d) c NN CB) (unit_square (vy d) (vx d) (vz d) c ltac:(lra) CB) (unit_square (vz d) (vx d) (vy d) c ltac:(lra) CB) ltac:(lra)) as T.
  replace (c + (1 - c) * (vx d * vx d) + (c + (1 - c) * (vy d * vy d)) + (c + (1 - c) * (vz d * vz d))) with (1 + 2 * c) in T by (replace (c + (1 - c) * (vx d * vx d) + (c + (1 - c) * (vy d * vy d)) + (c + (1 - c) * (vz d * vz d))) with (3 * c + (1 - c) * (vx d * vx d + vy d * vy d + vz d * vz d)) by ring; rewrite NN; ring).
  fold (ftrace r (F33 u v w)) in T. change (sum64 r (fx u) (fy v) (fz w)) with (ftrace r (F33 u v w)) in T. destruct one_val as [FO VO]. pose proof (near_exact one_64 FO) as NO. rewrite VO in NO. set (E := dl + dl + dl + 2.01 * e53 * (1 + 1 + 1 + dl + dl + dl)) in *.
  assert (ED : e53 * dl <= e53 * / 1000) by (apply Rmult_le_compat_l; lra). assert (EB : 0 <= E <= 3 * dl + 6.05 * e53) by (unfold E; assert (0 <= e53 * dl) by (apply Rmult_le_pos; lra); lra).
  pose proof (near_sub _ _ _ _ _ _ 3 1 T NO ltac:(apply abs_of; lra) ltac:(apply abs_of; lra) ltac:(lra)) as S. replace (1 + 2 * c - 1) with (2 * c) in S by ring. set (y := sf_sub (ftrace r (F33 u v w)) one_64) in *. destruct S as [Fy Ey]. destruct two_val as [FT VT].
  assert (EE : e53 * E <= e53 * / 100) by (apply Rmult_le_compat_l; lra). assert (EY : Rabs (rval y - 2 * c) <= 3 * dl + 10.1 * e53) by lra. apply abs_le in EY.
  assert (Hy : Rabs (rval y / 2) <= 1.01) by (apply abs_of; lra). destruct (div_any y two_64 Fy FT ltac:(rewrite VT; lra) ltac:(rewrite VT; lra)) as [Fz Ez]. rewrite VT in Ez. split; [exact Fz |]. assert (e53 * Rabs (rval y / 2) <= e53 * 1.01) by (apply Rmult_le_compat_l; lra). apply abs_le in Ez. apply abs_of. lra.
Qed.
Lemma axis_near m d th dl : norm3 d = 1 -> finite33 m -> 0 <= dl <= / 1000 -> entries_within dl (val33 m) (matrix_of (frame_rotation d th)) ->
  let w := F3 (sf_sub (fy (c64_2 m)) (fz (c64_1 m))) (sf_sub (fz (c64_0 m)) (fx (c64_2 m))) (sf_sub (fx (c64_1 m)) (fy (c64_0 m))) in
  finite3 w /\ dist3 (val3 w) (scale3 (2 * sin th) d) <= 3.47 * dl + 3.7 * e53.
Proof.
  intros N F D H. pose proof e53_pos as PE. assert (E9 : e53 <= / 1000000000) by (unfold e53; lra). destruct (entries_nine _ _ _ H) as ((_ & A01 & A02) & (A10 & _ & A12) & (A20 & A21 & _)). destruct (frame_entries d th) as (_ & _ & _ & M0 & M1 & M2). cbv zeta in *.
  assert (NN : vx d * vx d + vy d * vy d + vz d * vz d = 1) by (pose proof (norm3_sq d) as K; rewrite N in K; unfold sqnorm3, dot3 in K; lra). pose proof (SIN_bound th) as SB. set (s := sin th) in *. set (M := matrix_of (frame_rotation d th)) in *.
  destruct F as ((_ & F10 & F20) & (F01 & _ & F21) & (F02 & F12 & _)). destruct m as [u v w]. unfold val33, val3, of_cols in A01, A02, A10, A12, A20, A21. cbn [c64_0 c64_1 c64_2 vx vy vz m01 m02 m10 m12 m20 m21] in *.
  assert (P12 : 1024 <= P2 1023) by (assert (P2 10 <= P2 1023) by (apply P2_mono; lia); assert (P2 10 = 1024) by (rewrite <- P2_Z by lia; reflexivity); lra).
  assert (G : forall x y a b k, finite64 x -> finite64 y -> Rabs (rval x - a) <= dl -> Rabs (rval y - b) <= dl -> a - b = 2 * s * k -> Rabs k <= 1 -> finite64 (sf_sub x y) /\ Rabs (rval (sf_sub x y) - 2 * s * k) <= 2.003 * dl + 2.01 * e53).
  { intros x y a b k Fx Fy Ex Ey Q K. apply abs_le in Ex. apply abs_le in Ey. apply abs_le in K. assert (SK : Rabs (s * k) <= 1 * 1) by (rewrite Rabs_mult; apply Rmult_le_compat; [apply Rabs_pos | apply Rabs_pos | apply abs_of; lra | apply abs_of; lra]). apply abs_le in SK.
    assert (B : Rabs (rval x - rval y) <= 2.002) by (apply abs_of; lra). destruct (sub_any x y Fx Fy ltac:(lra)) as [Fz Ez]. split; [exact Fz |]. assert (e53 * Rabs (rval x - rval y) <= e53 * 2.002) by (apply Rmult_le_compat_l; lra). apply abs_le in Ez. apply abs_of. lra. }
  destruct (G _ _ _ _ _ F12 F21 A12 A21 M0 (unit_sides _ _ _ NN)) as [Fa Ea]. destruct (G _ _ _ _ _ F20 F02 A20 A02 M1 (unit_sides (vy d) (vx d) (vz d) ltac:(lra))) as [Fb Eb]. destruct (G _ _ _ _ _ F01 F10 A01 A10 M2 (unit_sides (vz d) (vx d) (vy d) ltac:(lra))) as [Fc Ec].
  split; [split; [exact Fa | split; [exact Fb | exact Fc]] |]. set (B := 2.003 * dl + 2.01 * e53) in *. assert (B0 : 0 <= B) by (unfold B; lra). unfold dist3. apply Rle_trans with (norm3 (V3 B B B)).
  - apply norm3_coords; unfold val3, sub3, scale3; cbn [vx vy vz fx fy fz]; assumption.
  - apply Rle_trans with (1.7321 * B); [| unfold B; lra]. unfold norm3. apply Rle_trans with (sqrt (1.7321 * B * (1.7321 * B))); [| rewrite sqrt_square by lra; lra]. apply sqrt_le_1_alt. unfold sqnorm3, dot3. cbn [vx vy vz]. assert (0 <= B * B) by (apply Rmult_le_pos; lra). lra.
Qed.

Lemma back3 a b : add3 (sub3 a b) b = a.
Proof. v3ring. Qed.
(** *** From a matrix *)
Lemma c154_matrix facos r eps m d th e dl : acos_within facos e -> norm3 d = 1 -> 0 < th < PI -> 0 <= e <= sin th / 4 -> finite33 m -> 0 <= dl <= / 1000 -> 16 * dl + P2 (-46) <= sin th * sin th -> entries_within dl (val33 m) (matrix_of (frame_rotation d th)) -> finite64 eps -> P2 (-50) <= rval eps <= P2 (-26) ->
  exists a t, rv64_of_matrix facos r eps (Some m) = Ok (mkRV64 (Some a) (Some t)) /\ finite3 a /\ dist3 (val3 a) d <= (4 * dl + P2 (-49)) / sin th /\ Rabs (norm3 (val3 a) - 1) <= P2 (-51) /\ returns t th (e + (10 * dl + P2 (-47)) / sin th).
Proof.
  intros HC N T HE F D SS H Fe He. pose proof e53_pos as PE. assert (E9 : e53 <= / 1000000000) by (unfold e53; lra). pose proof (trace_near r m d th dl N F D H) as [Fz Ez]. destruct (axis_near m d th dl N F D H) as [Fw Dw]. cbv zeta in Fw, Dw.
  assert (P46 : P2 (-46) = 128 * e53) by (rewrite <- e53_P2; change (-46)%Z with (7 + -53)%Z; rewrite P2_add, <- P2_Z by lia; reflexivity). assert (P47 : P2 (-47) = 64 * e53) by (rewrite <- e53_P2; change (-47)%Z with (6 + -53)%Z; rewrite P2_add, <- P2_Z by lia; reflexivity). rewrite P46 in SS. rewrite P47, <- e49, <- e51.
  assert (S0 : 0 < sin th) by (apply sin_gt_0; lra). pose proof (SIN_bound th) as SB. pose proof (sin_lt_x th ltac:(lra)) as ST. pose proof (COS_bound th) as CB. assert (SC : sin th * sin th = 1 - cos th * cos th) by (pose proof (sin2_cos2 th) as K; unfold Rsqr in K; lra). set (s := sin th) in *. set (c := cos th) in *.
  set (w := F3 _ _ _) in *. set (z := b64_div _ _) in *. set (eta := 1.51 * dl + 8 * e53) in *. assert (EH : 0 <= eta /\ 10 * eta <= s * s) by (unfold eta; lra). pose proof Ez as Ez'. apply abs_le in Ez'.
  assert (Z1 : -1 <= rval z <= 1) by (split; nra). destruct (HC z Fz Z1) as (Ft & T0 & Et). set (t := facos z) in *. pose proof (acos_close (rval z) th eta T Z1 ltac:(lra) ltac:(fold s; lra) Ez) as AC. fold s in AC. apply abs_le in AC. apply abs_le in Et.
  set (i := / s). assert (I0 : 0 < i) by (apply Rinv_0_lt_compat, S0). assert (IS : i * s = 1) by (unfold i; field; lra). assert (I1 : 1 <= i) by nra. unfold Rdiv in *. fold i in AC |- *.
  assert (AI : 6 * eta * i <= 0.6 * s) by (replace (0.6 * s) with (0.6 * (s * s) * i) by (rewrite Rmult_assoc, (Rmult_assoc s s i), (Rmult_comm s i), IS; ring); apply Rmult_le_compat_r; lra).
  assert (P23 : P2 (-23) <= s). { apply Rsqr_incr_0_var; [| lra]. unfold Rsqr. rewrite <- P2_add. change (-23 + -23)%Z with (-46)%Z. lra. }
  assert (P26 : P2 (-26) = P2 (-23) / 8) by (change (-26)%Z with (-23 + -3)%Z; rewrite P2_add, (P2_m (-3)) by lia; reflexivity). assert (T1 : rval eps <= rval t) by lra.
  assert (NS : norm3 (scale3 (2 * s) d) = 2 * s) by (rewrite norm3_scale, N, Rabs_pos_eq; lra). assert (DS : 3.47 * dl + 3.7 * e53 <= s) by (assert (s * s <= s * 1) by (apply Rmult_le_compat_l; lra); lra).
  pose proof (norm3_triangle (sub3 (val3 w) (scale3 (2 * s) d)) (scale3 (2 * s) d)) as U1. rewrite back3 in U1. fold (dist3 (val3 w) (scale3 (2 * s) d)) in U1.
  pose proof (norm3_triangle (sub3 (scale3 (2 * s) d) (val3 w)) (val3 w)) as U2. rewrite back3 in U2. fold (dist3 (scale3 (2 * s) d) (val3 w)) in U2. rewrite (dist3_sym (scale3 (2 * s) d)) in U2.
  assert (NW : s <= norm3 (val3 w) <= 3) by lra. assert (P450 : P2 (-450) <= P2 (-23)) by (apply P2_mono; lia). pose proof P2_450_2 as P4. pose proof (P2_pos (-450)). assert (P4' : 3 <= P2 450) by (apply Rle_trans with (P2 2); [rewrite <- P2_Z by lia; cbn; lra | apply P2_mono; lia]).
  assert (P26b : P2 (-26) <= / 4) by (apply Rle_trans with (P2 (-2)); [apply P2_mono; lia | right; rewrite P2_m by lia; reflexivity]).
  destruct (twice r eps w (Some t) Fw ltac:(apply within_norm; lra) ltac:(lra) Fe ltac:(lra)) as (b & EB & Fb & Db & Lb). exists b, t. split; [| split; [exact Fb |]; split; [| split; [lra |]]].
  - unfold rv64_of_matrix. cbn [need3 bind]. fold z. fold t. rewrite (radians_finite t Ft). destruct (abs_val t Ft) as [Fa Va]. rewrite (ltb_f (SFabs t) eps Fa Fe) by (rewrite Va, Rabs_pos_eq; lra). fold w. exact EB.
  - pose proof (dist3_triangle (val3 b) (direction (val3 w)) d) as TR. assert (DD : direction (scale3 (2 * s) d) = d) by (unfold direction; rewrite NS; destruct d as [x y q]; unfold scale3; cbn [vx vy vz]; f_equal; field; lra). pose proof (direction_dist (val3 w) (scale3 (2 * s) d) ltac:(lra) ltac:(lra)) as DI. rewrite DD, NS in DI.
    replace (2 * dist3 (val3 w) (scale3 (2 * s) d) / (2 * s)) with (dist3 (val3 w) (scale3 (2 * s) d) * i) in DI by (unfold i; field; lra). assert (dist3 (val3 w) (scale3 (2 * s) d) * i <= (3.47 * dl + 3.7 * e53) * i) by (apply Rmult_le_compat_r; lra). assert (e53 * 1 <= e53 * i) by (apply Rmult_le_compat_l; lra). assert (0 <= dl * i) by (apply Rmult_le_pos; lra). lra.
  - split; [exact Ft |]. assert (6 * eta * i <= (10 * dl + 64 * e53) * i) by (apply Rmult_le_compat_r; [lra | unfold eta; lra]). apply abs_of. lra.
Qed.
