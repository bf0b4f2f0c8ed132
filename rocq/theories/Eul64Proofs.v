(** The angles read from a rotation, with errors. *)

From Coq Require Import List Bool ZArith Reals Lra Lia Psatz Floats.SpecFloat.
From Verif Require Import Result Vec Mat3 VecProofs AngleModel FloatModel FloatSpec FloatProofs FloatProofs2 FloatProofs3 FloatProofs4 FloatProofs5 FloatProofs7 FloatProofs8 FloatProofs10
  Geo3Spec Geo3Proofs Geo3Proofs2 Geo64Model Geo64Spec Geo64Proofs Geo64Proofs2 Geo64Proofs3 Geo64Proofs4 Geo64Proofs5 Geo64Proofs6 Geo64Proofs7 Geo64Proofs8 RotModel RotSpec RotProofs RotProofs2 RotProofs3 RotProofs4 RotProofs5 RotProofs7 RotProofs9 Rot64Model Rot64Spec Rot64Spec2 Rot64Proofs Rot64Proofs2 Rot64Proofs3 Rot64Proofs4 Rot64Proofs5 Rot64Proofs6 Rot64Proofs7 Rot64Proofs8 Rot64Proofs9 Rot64Proofs10 Rot64Proofs11 Rot64Proofs12 Rot64Proofs13 Rot64Proofs14 Rot64Proofs15 Rot64Proofs16 Rot64Proofs17 Att64Model Att64Spec Att64Proofs Att64Proofs2 Att64Proofs3 Att64Proofs4 Att64Proofs5 Att64Proofs7 Att64Proofs8 Att64Proofs9 Att64Proofs10 Pow64Model Pow64Spec Pow64Proofs Pow64Proofs2 Pow64Proofs3 Pow64Proofs4 Dif64Model Dif64Spec Dif64Proofs RotProofs6 Dif64Proofs2 Dif64Proofs3 Dif64Proofs4 Att64Proofs6 Dif64Proofs5 Eul64Spec.
Import ListNotations.
Local Open Scope R_scope.

(** *** The exact angles *)
Definition first_sine (s : axis_sequence) (m : m3) : R := match s with XYZ => - m21 m | ZXY => - m10 m | ZYX => m01 m | SeqUndefined => 0 end.
Definition first_cosine (s : axis_sequence) (m : m3) : R := match s with XYZ => m22 m | ZXY => m11 m | ZYX => m00 m | SeqUndefined => 0 end.
Definition last_sine (s : axis_sequence) (m : m3) : R := match s with XYZ => - m10 m | ZXY => - m02 m | ZYX => m12 m | SeqUndefined => 0 end.
Definition last_cosine (s : axis_sequence) (m : m3) : R := match s with XYZ => m00 m | ZXY => m22 m | ZYX => m22 m | SeqUndefined => 0 end.
Lemma exact_angles s m h : is_rotation m -> s <> SeqUndefined -> 0 < h -> h * h = 1 - middle_entry s m * middle_entry s m ->
  exists a b c, seq_matrix s a b c = m /\ sin b = middle_entry s m /\ cos b = h /\ h * cos a = first_cosine s m /\ h * sin a = first_sine s m /\ h * cos c = last_cosine s m /\ h * sin c = last_sine s m.
Proof.
  intros H Hs P Q. assert (B : -1 < middle_entry s m < 1) by nra. pose proof (rotation_entries m H) as [[C1 [C2 [C3 _]]] [[R1 [R2 [R3 _]]] _]].
  destruct (asin_sc _ B) as [S [P' Q']]. assert (HC : cos (asin (middle_entry s m)) = h) by nra.
  exists (atan2 (first_sine s m) (first_cosine s m)), (asin (middle_entry s m)), (atan2 (last_sine s m) (last_cosine s m)).
  assert (HA : 0 < first_cosine s m * first_cosine s m + first_sine s m * first_sine s m /\ sqrt (first_cosine s m * first_cosine s m + first_sine s m * first_sine s m) = h).
  { assert (E : first_cosine s m * first_cosine s m + first_sine s m * first_sine s m = h * h) by (destruct s; [congruence |..]; cbn [first_cosine first_sine middle_entry] in *; nra). rewrite E. split; [nra | apply sqrt_square; lra]. }
  assert (HB : 0 < last_cosine s m * last_cosine s m + last_sine s m * last_sine s m /\ sqrt (last_cosine s m * last_cosine s m + last_sine s m * last_sine s m) = h).
  { assert (E : last_cosine s m * last_cosine s m + last_sine s m * last_sine s m = h * h) by (destruct s; [congruence |..]; cbn [last_cosine last_sine middle_entry] in *; nra). rewrite E. split; [nra | apply sqrt_square; lra]. }
  destruct HA as [HA1 HA2]. destruct HB as [HB1 HB2]. destruct (atan2_sc _ _ HA1) as [A1 A2]. destruct (atan2_sc _ _ HB1) as [A3 A4]. rewrite HA2 in A1, A2. rewrite HB2 in A3, A4.
  split; [| repeat split; assumption].
  set (a := atan2 _ _) in *. set (c := atan2 (last_sine s m) _) in *. set (b := asin _) in *. clearbody a b c.
  destruct s; [congruence |..]; cbn [first_cosine first_sine last_cosine last_sine middle_entry] in *; [apply det_xyz | apply det_zxy | apply det_zyx]; try apply seq_matrix_rotation; try exact H; cbn [seq_matrix]; unfold mRX, mRY, mRZ; qunfold; rewrite ?S, ?HC; nra.
Qed.
(** *** Products *)
Lemma prod2_close x y x' y' D : Rabs (x - x') <= D -> Rabs (y - y') <= D -> -1 <= x <= 1 -> -1 <= y' <= 1 -> x' * y' - 2 * D <= x * y <= x' * y' + 2 * D.
Proof. intros X Y Bx By. apply abs_le in X. apply abs_le in Y. assert (E : x * y - x' * y' = x * (y - y') + y' * (x - x')) by ring. nra. Qed.
Lemma prod3_close x y z x' y' z' D : Rabs (x - x') <= D -> Rabs (y - y') <= D -> Rabs (z - z') <= D -> -1 <= x <= 1 -> -1 <= y <= 1 -> -1 <= y' <= 1 -> -1 <= z' <= 1 -> x' * y' * z' - 3 * D <= x * y * z <= x' * y' * z' + 3 * D.
Proof.
  intros X Y Z Bx By By' Bz. pose proof (prod2_close x y x' y' D X Y Bx By') as P. apply abs_le in Z. assert (BP : -1 <= x * y <= 1) by nra. set (p := x * y) in *. set (p' := x' * y') in *. assert (E : p * z - p' * z' = p * (z - z') + z' * (p - p')) by ring. nra.
Qed.
Lemma seq_close s a b c a' b' c' D : s <> SeqUndefined -> Rabs (cos a - cos a') <= D -> Rabs (sin a - sin a') <= D -> Rabs (cos b - cos b') <= D -> Rabs (sin b - sin b') <= D -> Rabs (cos c - cos c') <= D -> Rabs (sin c - sin c') <= D ->
  entries_within (5 * D) (seq_matrix s a b c) (seq_matrix s a' b' c').
Proof.
  intros Hs A1 A2 B1 B2 C1 C2. assert (D0 : 0 <= D) by (eapply Rle_trans; [apply Rabs_pos | exact A1]).
  pose proof (COS_bound a) as U1. pose proof (SIN_bound a) as U2. pose proof (COS_bound b) as U3. pose proof (SIN_bound b) as U4. pose proof (COS_bound c) as U5. pose proof (SIN_bound c) as U6.
  pose proof (COS_bound a') as V1. pose proof (SIN_bound a') as V2. pose proof (COS_bound b') as V3. pose proof (SIN_bound b') as V4. pose proof (COS_bound c') as V5. pose proof (SIN_bound c') as V6.
  set (ca := cos a) in *. set (sa := sin a) in *. set (cb := cos b) in *. set (sb := sin b) in *. set (cc := cos c) in *. set (sc := sin c) in *. set (ca' := cos a') in *. set (sa' := sin a') in *. set (cb' := cos b') in *. set (sb' := sin b') in *. set (cc' := cos c') in *. set (sc' := sin c') in *.
  pose proof (prod2_close _ _ _ _ _ A1 B1 U1 V3) as P1. pose proof (prod2_close _ _ _ _ _ A1 B2 U1 V4) as P2'. pose proof (prod2_close _ _ _ _ _ A2 B1 U2 V3) as P3. pose proof (prod2_close _ _ _ _ _ A2 B2 U2 V4) as P4.
  pose proof (prod2_close _ _ _ _ _ A1 C1 U1 V5) as P5. pose proof (prod2_close _ _ _ _ _ A1 C2 U1 V6) as P6. pose proof (prod2_close _ _ _ _ _ A2 C1 U2 V5) as P7. pose proof (prod2_close _ _ _ _ _ A2 C2 U2 V6) as P8.
  pose proof (prod2_close _ _ _ _ _ B1 C1 U3 V5) as P9. pose proof (prod2_close _ _ _ _ _ B1 C2 U3 V6) as P10. pose proof (prod2_close _ _ _ _ _ B2 C1 U4 V5) as P11. pose proof (prod2_close _ _ _ _ _ B2 C2 U4 V6) as P12.
  pose proof (prod3_close _ _ _ _ _ _ _ A1 B2 C1 U1 U4 V4 V5) as T1. pose proof (prod3_close _ _ _ _ _ _ _ A1 B2 C2 U1 U4 V4 V6) as T2. pose proof (prod3_close _ _ _ _ _ _ _ A2 B2 C1 U2 U4 V4 V5) as T3. pose proof (prod3_close _ _ _ _ _ _ _ A2 B2 C2 U2 U4 V4 V6) as T4.
  apply abs_le in A1. apply abs_le in A2. apply abs_le in B1. apply abs_le in B2. apply abs_le in C1. apply abs_le in C2. clear U1 U2 U3 U4 U5 U6 V1 V2 V3 V4 V5 V6.
  intros i Hi. destruct s; [congruence |..]; (destruct i as [| [| [| i]]]; [| | | lia]); cbn [seq_matrix]; unfold mRX, mRY, mRZ; fold ca sa cb sb cc sc ca' sa' cb' sb' cc' sc'; clearbody ca sa cb sb cc sc ca' sa' cb' sb' cc' sc'; qunfold; cbn [row3 vx vy vz]; repeat split; apply abs_of; lra.
Qed.
