From Coq Require Import List Bool ZArith Reals Lra Lia Psatz Floats.SpecFloat.
From Verif Require Import Result Vec Mat3 VecProofs AngleModel FloatModel FloatSpec FloatProofs FloatProofs2 FloatProofs3 FloatProofs4 FloatProofs5 FloatProofs7 FloatProofs8 FloatProofs10
  Geo3Spec Geo3Proofs Geo3Proofs2 Geo64Model Geo64Spec Geo64Proofs Geo64Proofs2 Geo64Proofs3 Geo64Proofs4 Geo64Proofs5 Geo64Proofs6 Geo64Proofs8 RotModel RotSpec RotProofs RotProofs2 Rot64Model Rot64Spec Rot64Spec2 Rot64Proofs Rot64Proofs2 Rot64Proofs3 Rot64Proofs4 Rot64Proofs5 Rot64Proofs6 Rot64Proofs7 Rot64Proofs8 Rot64Proofs9 Rot64Proofs10 Rot64Proofs11 Rot64Proofs12.
Import ListNotations.
Local Open Scope R_scope.

(** *** Whole entries *)
Lemma fdot3_whole r a b : finite3 a -> finite3 b -> whole3 (2 ^ 24) a -> whole3 (2 ^ 24) b ->
  exists n, isint (fdot3 r a b) n /\ (Z.abs n <= 3 * 2 ^ 48)%Z /\ rval (fdot3 r a b) = dot3 (val3 a) (val3 b).
Proof.
  intros (F1 & F2 & F3) (G1 & G2 & G3) ((x & Vx & Bx) & (y & Vy & By) & (z & Vz & Bz)) ((x' & Vx' & Bx') & (y' & Vy' & By') & (z' & Vz' & Bz')).
  assert (M : forall p q i j, finite64 p -> finite64 q -> rval p = IZR i -> rval q = IZR j -> (Z.abs i <= 2 ^ 24)%Z -> (Z.abs j <= 2 ^ 24)%Z -> ib (b64_mul p q) (i * j) (2 ^ 48)).
  { intros p q i j Fp Fq Vp Vq Bp Bq. apply ib_mul; split; try split; assumption. }
  destruct (ib_sum r _ _ _ _ _ _ _ (M _ _ _ _ F1 G1 Vx Vx' Bx Bx') (M _ _ _ _ F2 G2 Vy Vy' By By') (M _ _ _ _ F3 G3 Vz Vz' Bz Bz') ltac:(lia)) as [I B]. exists (x * x' + y * y' + z * z')%Z. split; [exact I |]. split; [exact B |].
  destruct I as [_ I]. unfold fdot3. rewrite I. unfold dot3, val3; cbn [vx vy vz]. rewrite Vx, Vy, Vz, Vx', Vy', Vz'. rewrite !plus_IZR, !mult_IZR. reflexivity.
Qed.
Lemma rows_whole N m : whole33 N m -> whole3 N (row64_0 m) /\ whole3 N (row64_1 m) /\ whole3 N (row64_2 m).
Proof. intros ((A & B & C) & (D & E & F) & (G & H & I)). repeat split; assumption. Qed.
Lemma fmulv3_whole r m v : finite33 m -> finite3 v -> whole33 (2 ^ 24) m -> whole3 (2 ^ 24) v ->
  finite3 (fmulv3 r m v) /\ val3 (fmulv3 r m v) = mulv3 (val33 m) (val3 v) /\ whole3 (3 * 2 ^ 48) (fmulv3 r m v).
Proof.
  intros F Fv W Wv. destruct (rows_finite m F) as (R0 & R1 & R2). destruct (rows_whole _ m W) as (W0 & W1 & W2).
  destruct (fdot3_whole r _ _ R0 Fv W0 Wv) as (n0 & [I0 V0] & B0 & D0). destruct (fdot3_whole r _ _ R1 Fv W1 Wv) as (n1 & [I1 V1] & B1 & D1). destruct (fdot3_whole r _ _ R2 Fv W2 Wv) as (n2 & [I2 V2] & B2 & D2).
  split; [repeat split; assumption |]. split; [| split; [exists n0 | split; [exists n1 | exists n2]]; split; assumption]. unfold val3 at 1, fmulv3, mulv3; cbn [fx fy fz]. destruct (row_val m) as (-> & -> & ->). rewrite D0, D1, D2. reflexivity.
Qed.
Lemma c134_whole r m v : finite33 m -> finite3 v -> whole33 (2 ^ 24) m -> whole3 (2 ^ 24) v ->
  exists w, rm64_mulv r (Some m) (Some v) = Ok w /\ finite3 w /\ val3 w = mulv3 (val33 m) (val3 v).
Proof. intros F Fv W Wv. destruct (fmulv3_whole r m v F Fv W Wv) as (A & B & _). exists (fmulv3 r m v). split; [reflexivity |]. split; assumption. Qed.
(** *** Turns by right angles: exact orthonormal matrices with whole entries *)
Lemma sqrt_one x : finite64 x -> rval x = 1 -> finite64 (b64_sqrt x) /\ rval (b64_sqrt x) = 1.
Proof.
  intros F V. assert (P : 0 <= rval x) by lra. pose proof (SFsqrt_rounded x F P) as N. split; [exact (proj1 (proj1 N)) |]. rewrite V, sqrt_1 in N. destruct one64 as [F1 V1].
  apply Rle_antisym.
  - rewrite <- V1. apply (nearest_above _ _ _ (proj1 N) F1). rewrite V1. lra.
  - rewrite <- V1. apply (nearest_below _ _ _ (proj1 N) F1). rewrite V1. lra.
Qed.
Lemma ortho_zero m : mul3 (transpose3 m) m = id3 <-> orthonormal_up_to 0 m.
Proof.
  destruct m as [a0 a1 a2 a3 a4 a5 a6 a7 a8]. unfold mul3, transpose3, of_cols, id3, mulv3, row3, col3, dot3; cbn [vx vy vz m00 m01 m02 m10 m11 m12 m20 m21 m22]. split.
  - intros E. injection E as E0 E1 E2 E3 E4 E5 E6 E7 E8. intros i j Hi Hj. destruct i as [| [| [| i]]]; try lia; destruct j as [| [| [| j]]]; try lia; unfold col3, dot3; cbn [Nat.eqb vx vy vz m00 m01 m02 m10 m11 m12 m20 m21 m22];
      match goal with |- Rabs ?x <= 0 => replace x with 0 by lra end; rewrite Rabs_R0; lra.
  - intros O. assert (Z : forall i j, (i < 3)%nat -> (j < 3)%nat -> dot3 (col3 (M3 a0 a1 a2 a3 a4 a5 a6 a7 a8) i) (col3 (M3 a0 a1 a2 a3 a4 a5 a6 a7 a8) j) = if Nat.eqb i j then 1 else 0).
    { intros i j Hi Hj. pose proof (O i j Hi Hj) as K. apply abs_le in K. lra. }
    pose proof (Z 0 0 ltac:(lia) ltac:(lia))%nat as Z0. pose proof (Z 0 1 ltac:(lia) ltac:(lia))%nat as Z1. pose proof (Z 0 2 ltac:(lia) ltac:(lia))%nat as Z2. pose proof (Z 1 1 ltac:(lia) ltac:(lia))%nat as Z3. pose proof (Z 1 2 ltac:(lia) ltac:(lia))%nat as Z4. pose proof (Z 2 2 ltac:(lia) ltac:(lia))%nat as Z5.
    unfold col3, dot3 in *; cbn [Nat.eqb vx vy vz m00 m01 m02 m10 m11 m12 m20 m21 m22] in *. f_equal; lra.
Qed.
Lemma whole_one N m : orthonormal_up_to 0 (val33 m) -> whole33 N m -> whole33 1 m.
Proof.
  intros O (W0 & W1 & W2). pose proof (col_len 0 _ 0 (Rle_refl 0) O ltac:(lia)) as L0. pose proof (col_len 0 _ 1 (Rle_refl 0) O ltac:(lia)) as L1. pose proof (col_len 0 _ 2 (Rle_refl 0) O ltac:(lia)) as L2. destruct (col_val m) as (C0 & C1 & C2). rewrite C0 in L0. rewrite C1 in L1. rewrite C2 in L2.
  assert (G : forall a, Rabs (norm3 (val3 a) - 1) <= 0 -> whole3 N a -> whole3 1 a).
  { intros a L ((x & Vx & _) & (y & Vy & _) & (z & Vz & _)). apply abs_le in L. destruct (within_norm a 1 ltac:(lra)) as (X & Y & Z). rewrite Vx, <- abs_IZR in X. rewrite Vy, <- abs_IZR in Y. rewrite Vz, <- abs_IZR in Z. apply le_IZR in X, Y, Z.
    split; [exists x | split; [exists y | exists z]]; split; assumption. }
  split; [exact (G _ L0 W0) | split; [exact (G _ L1 W1) | exact (G _ L2 W2)]].
Qed.
Lemma whole_more N M a : (N <= M)%Z -> whole3 N a -> whole3 M a.
Proof. intros L ((x & Vx & Bx) & (y & Vy & By) & (z & Vz & Bz)). split; [exists x | split; [exists y | exists z]]; (split; [assumption | lia]). Qed.
Lemma right_ok r eps m N : finite33 m -> whole33 N m -> orthonormal_up_to 0 (val33 m) -> finite64 eps -> 0 <= rval eps -> rm64_ok r eps m = true.
Proof.
  intros (F0 & F1 & F2) W O Fe He. pose proof (whole_one _ m O W) as (W0 & W1 & W2). assert (L24 : (1 <= 2 ^ 24)%Z) by lia. apply (whole_more _ _ _ L24) in W0, W1, W2. destruct (col_val m) as (C0 & C1 & C2).
  assert (Z : forall i j, (i < 3)%nat -> (j < 3)%nat -> dot3 (col3 (val33 m) i) (col3 (val33 m) j) = if Nat.eqb i j then 1 else 0) by (intros i j Hi Hj; pose proof (O i j Hi Hj) as K; apply abs_le in K; lra).
  assert (LG : forall a, finite3 a -> whole3 (2 ^ 24) a -> dot3 (val3 a) (val3 a) = 1 -> SFltb eps (sf_sub (fnorm3 r a) one_64) = false).
  { intros a Fa Wa D. destruct (fdot3_whole r a a Fa Fa Wa Wa) as (n & [I _] & _ & V). rewrite D in V. destruct (sqrt_one _ I V) as [Fs Vs]. fold (fsqnorm3 r a) in Fs, Vs. fold (fnorm3 r a) in Fs, Vs.
    destruct (minus_one _ Fs ltac:(rewrite Vs, Rabs_R1; pose proof (P2_mono 0 500 ltac:(lia)) as M; rewrite P2_0 in M; exact M)) as [Fm Em]. rewrite Vs in Em. replace (1 - 1) with 0 in Em by ring. rewrite Rabs_R0, Rmult_0_r in Em. apply abs_le in Em. apply ltb_f; [exact Fe | exact Fm | lra]. }
  assert (OB : forall a b, finite3 a -> finite3 b -> whole3 (2 ^ 24) a -> whole3 (2 ^ 24) b -> dot3 (val3 a) (val3 b) = 0 -> SFltb eps (SFabs (fdot3 r a b)) = false).
  { intros a b Fa Fb Wa Wb D. destruct (fdot3_whole r a b Fa Fb Wa Wb) as (n & [I _] & _ & V). rewrite D in V. destruct (abs_val _ I) as [Fm Vm]. rewrite V, Rabs_R0 in Vm. apply ltb_f; [exact Fe | exact Fm | lra]. }
  unfold rm64_ok. rewrite !andb_true_iff, !negb_true_iff.
  pose proof (Z 0 0 ltac:(lia) ltac:(lia))%nat as Z0. pose proof (Z 0 1 ltac:(lia) ltac:(lia))%nat as Z1. pose proof (Z 2 0 ltac:(lia) ltac:(lia))%nat as Z2. pose proof (Z 1 1 ltac:(lia) ltac:(lia))%nat as Z3. pose proof (Z 1 2 ltac:(lia) ltac:(lia))%nat as Z4. pose proof (Z 2 2 ltac:(lia) ltac:(lia))%nat as Z5.
  rewrite ?C0, ?C1, ?C2 in *. cbn [Nat.eqb] in *. repeat split; (apply LG || apply OB); assumption.
Qed.
Lemma ortho_mul m n : orthonormal_up_to 0 m -> orthonormal_up_to 0 n -> orthonormal_up_to 0 (mul3 m n).
Proof.
  intros O1 O2 i j Hi Hj. assert (C : forall k, (k < 3)%nat -> col3 (mul3 m n) k = mulv3 m (col3 n k)) by (intros k Hk; destruct k as [| [| [| k]]]; try lia; reflexivity). rewrite !C by assumption.
  pose proof (gram_dot 0 m (col3 n i) (col3 n j) O1) as G. pose proof (O2 i j Hi Hj) as K. rewrite Rmult_0_r, Rmult_0_l in G. apply abs_le in G. apply abs_le in K. apply abs_of. lra.
Qed.
Lemma right_mul r eps m n N M : finite33 m -> finite33 n -> whole33 N m -> whole33 M n -> orthonormal_up_to 0 (val33 m) -> orthonormal_up_to 0 (val33 n) -> finite64 eps -> 0 <= rval eps ->
  rm64_mul r eps (Some m) (Some n) = Ok (fmul33 r m n) /\ val33 (fmul33 r m n) = mul3 (val33 m) (val33 n) /\ finite33 (fmul33 r m n).
Proof.
  intros F G W V O1 O2 Fe He. pose proof (whole_one _ m O1 W) as (W0 & W1 & W2). pose proof (whole_one _ n O2 V) as (V0 & V1 & V2). assert (L24 : (1 <= 2 ^ 24)%Z) by lia. apply (whole_more _ _ _ L24) in W0, W1, W2, V0, V1, V2. destruct G as (G0 & G1 & G2).
  destruct (fmulv3_whole r m _ F G0 (conj W0 (conj W1 W2)) V0) as (A0 & B0 & D0). destruct (fmulv3_whole r m _ F G1 (conj W0 (conj W1 W2)) V1) as (A1 & B1 & D1). destruct (fmulv3_whole r m _ F G2 (conj W0 (conj W1 W2)) V2) as (A2 & B2 & D2).
  assert (E : val33 (fmul33 r m n) = mul3 (val33 m) (val33 n)). { unfold val33 at 1, fmul33; cbn [c64_0 c64_1 c64_2]. rewrite B0, B1, B2. reflexivity. }
  assert (FF : finite33 (fmul33 r m n)) by (split; [exact A0 | split; [exact A1 | exact A2]]). split; [| split; [exact E | exact FF]].
  unfold rm64_mul. cbn [need3 bind]. unfold RotationMatrix64. rewrite (right_ok r eps (fmul33 r m n) (3 * 2 ^ 48) FF); [reflexivity | exact (conj D0 (conj D1 D2)) | rewrite E; apply ortho_mul; assumption | exact Fe | exact He].
Qed.
Lemma c134_right r eps m n N : finite33 m -> finite33 n -> whole33 N m -> whole33 N n -> mul3 (transpose3 (val33 m)) (val33 m) = id3 -> mul3 (transpose3 (val33 n)) (val33 n) = id3 -> finite64 eps -> 0 <= rval eps ->
  RotationMatrix64 r eps m = Ok m /\ (exists w, rm64_mul r eps (Some m) (Some n) = Ok w /\ val33 w = mul3 (val33 m) (val33 n)) /\
  exists t, rm64_toTransposed r eps (Some m) = Ok t /\ val33 t = transpose3 (val33 m) /\ (exists i, rm64_mul r eps (Some t) (Some m) = Ok i /\ val33 i = id3) /\ exists i, rm64_mul r eps (Some m) (Some t) = Ok i /\ val33 i = id3.
Proof.
  intros F G W V O1 O2 Fe He. pose proof O1 as O1'. apply ortho_zero in O1. apply ortho_zero in O2. pose proof (gram_rows 0 _ (Rle_refl 0) O1) as OT. rewrite Rmult_0_r in OT. rewrite <- ftranspose_val in OT. pose proof (ftranspose_finite m F) as FT.
  assert (WT : whole33 N (ftranspose m)) by (destruct (rows_whole _ m W) as (A & B & C); exact (conj A (conj B C))).
  split; [unfold RotationMatrix64; rewrite (right_ok r eps m N F W O1 Fe He); reflexivity |]. split.
  - destruct (right_mul r eps m n N N F G W V O1 O2 Fe He) as (A & B & _). exists (fmul33 r m n). split; assumption.
  - exists (ftranspose m). split; [unfold rm64_toTransposed; cbn [need3 bind]; unfold RotationMatrix64; rewrite (right_ok r eps _ N FT WT OT Fe He); reflexivity |]. split; [reflexivity |]. split.
    + destruct (right_mul r eps (ftranspose m) m N N FT F WT W OT O1 Fe He) as (A & B & _). exists (fmul33 r (ftranspose m) m). split; [exact A |]. rewrite B, ftranspose_val. exact O1'.
    + destruct (right_mul r eps m (ftranspose m) N N F FT W WT O1 OT Fe He) as (A & B & _). exists (fmul33 r m (ftranspose m)). split; [exact A |]. rewrite B. apply ortho_zero in OT. rewrite !ftranspose_val in OT. rewrite ftranspose_val. replace (transpose3 (transpose3 (val33 m))) with (val33 m) in OT by (destruct (val33 m); reflexivity). exact OT.
Qed.
(** *** Powers of a matrix *)
Definition checks64 (r : order) (m : f33) : list spec_float :=
  [sf_sub (fnorm3 r (c64_0 m)) one_64; sf_sub (fnorm3 r (c64_1 m)) one_64; sf_sub (fnorm3 r (c64_2 m)) one_64;
   SFabs (fdot3 r (c64_0 m) (c64_1 m)); SFabs (fdot3 r (c64_1 m) (c64_2 m)); SFabs (fdot3 r (c64_2 m) (c64_0 m))].
Lemma ok_checks r eps m : rm64_ok r eps m = forallb (fun x => negb (SFltb eps x)) (checks64 r m).
Proof. unfold rm64_ok, checks64. cbn [forallb]. rewrite andb_true_r, !andb_assoc. reflexivity. Qed.
Lemma checks_all r eps m : finite64 eps -> Forall (fun x => finite64 x /\ rval x <= rval eps) (checks64 r m) -> rm64_ok r eps m = true.
Proof. intros Fe H. rewrite ok_checks. apply forallb_forall. intros x I. rewrite Forall_forall in H. destruct (H x I) as [Fx L]. rewrite (ltb_f eps x Fe Fx L). reflexivity. Qed.
Lemma checks_some r eps m x : finite64 eps -> finite64 x -> In x (checks64 r m) -> rval eps < rval x -> rm64_ok r eps m = false.
Proof. intros Fe Fx I L. rewrite ok_checks. apply not_true_is_false. intros H. rewrite forallb_forall in H. specialize (H x I). cbv beta in H. rewrite (ltb_t eps x Fe Fx L) in H. discriminate. Qed.
Definition eight64 : spec_float := S754_finite false 4503599627370496 (-102).
Lemma eight_val : finite64 eight64 /\ rval eight64 = 8 * e53.
Proof.
  split; [vm_compute; repeat split; reflexivity || discriminate |]. unfold eight64. rewrite rval_sg. cbn [sg]. replace (P2 (-102)) with (P2 (-49) * e53) by (rewrite <- e53_P2, <- P2_add; reflexivity).
  rewrite P2_m by lia. change (2 ^ (- -49))%Z with 562949953421312%Z. lra.
Qed.
Definition turn133 : f33 := Eval vm_compute in fmatrix (fnormal4 (F4 zero64 (b64_of_Z 1) (b64_of_Z 1) (b64_of_Z 1))).
Lemma below_eight x : finite64 x -> SFltb eight64 x = false -> finite64 x /\ rval x <= 8 * e53.
Proof. intros F H. split; [exact F |]. destruct eight_val as [F8 V8]. destruct (Rle_lt_dec (rval x) (rval eight64)) as [L | L]; [lra |]. rewrite (ltb_t _ _ F8 F L) in H. discriminate. Qed.
Lemma c134_power_refuted : exists m, finite33 m /\ forall r eps, finite64 eps -> P2 (-50) <= rval eps < 10 * P2 (-53) ->
  exists m2 m3, RotationMatrix64 r eps m = Ok m /\ rm64_mul r eps (Some m) (Some m) = Ok m2 /\ rm64_mul r eps (Some m2) (Some m) = Ok m3 /\ rm64_mul r eps (Some m3) (Some m) = Err ERuntime.
Proof.
  exists turn133. split; [vm_compute; repeat split; reflexivity || discriminate |]. intros r eps Fe He. rewrite ten_53, <- e50 in He.
  set (m2 := fmul33 r turn133 turn133). set (m3 := fmul33 r m2 turn133). set (m4 := fmul33 r m3 turn133).
  assert (G : forall m, Forall (fun x => finite64 x /\ SFltb eight64 x = false) (checks64 r m) -> rm64_ok r eps m = true).
  { intros m H. apply checks_all; [exact Fe |]. eapply Forall_impl; [| exact H]. intros x [F L]. destruct (below_eight x F L) as [_ B]. split; [exact F | lra]. }
  assert (K1 : rm64_ok r eps turn133 = true) by (apply G; destruct r; vm_compute; repeat constructor; discriminate || reflexivity).
  assert (K2 : rm64_ok r eps m2 = true) by (apply G; destruct r; vm_compute; repeat constructor; discriminate || reflexivity).
  assert (K3 : rm64_ok r eps m3 = true) by (apply G; destruct r; vm_compute; repeat constructor; discriminate || reflexivity).
  assert (K4 : rm64_ok r eps m4 = false). { destruct ten_val as [F10 V10]. apply (checks_some r eps m4 ten64 Fe F10); [| lra]. replace ten64 with (nth 1 (checks64 r m4) zero64) by (destruct r; vm_compute; reflexivity). apply nth_In. cbn [checks64 length]. lia. }
  exists m2, m3. unfold rm64_mul. cbn [need3 bind]. unfold RotationMatrix64. fold m2. fold m3. fold m4. rewrite K1, K2, K3, K4. repeat split.
Qed.
