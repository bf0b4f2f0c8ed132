(** The properties of Euler angles read from rotations (C153). *)

From Coq Require Import List Bool ZArith Reals Lra Lia Psatz Floats.SpecFloat.
From Verif Require Import Result Vec Mat3 VecProofs AngleModel FloatModel FloatSpec FloatProofs FloatProofs2 FloatProofs3 FloatProofs4 FloatProofs5 FloatProofs7 FloatProofs8 FloatProofs10
  Geo3Spec Geo3Proofs Geo3Proofs2 Geo64Model Geo64Spec Geo64Proofs Geo64Proofs2 Geo64Proofs3 Geo64Proofs4 Geo64Proofs5 Geo64Proofs6 Geo64Proofs7 Geo64Proofs8 RotModel RotSpec RotProofs RotProofs2 RotProofs3 RotProofs4 RotProofs5 RotProofs7 RotProofs9 Rot64Model Rot64Spec Rot64Spec2 Rot64Proofs Rot64Proofs2 Rot64Proofs3 Rot64Proofs4 Rot64Proofs5 Rot64Proofs6 Rot64Proofs7 Rot64Proofs8 Rot64Proofs9 Rot64Proofs10 Rot64Proofs11 Rot64Proofs12 Rot64Proofs13 Rot64Proofs14 Rot64Proofs15 Rot64Proofs16 Rot64Proofs17 Att64Model Att64Spec Att64Proofs Att64Proofs2 Att64Proofs3 Att64Proofs4 Att64Proofs5 Att64Proofs7 Att64Proofs8 Att64Proofs9 Att64Proofs10 Pow64Model Pow64Spec Pow64Proofs Pow64Proofs2 Pow64Proofs3 Pow64Proofs4 Dif64Model Dif64Spec Dif64Proofs RotProofs6 Dif64Proofs2 Dif64Proofs3 Dif64Proofs4 Att64Proofs6 Dif64Proofs5 Eul64Model Eul64Spec Eul64Proofs Eul64Proofs2.
Import ListNotations.
Local Open Scope R_scope.

(** *** The coefficients *)
Lemma product_near x y : finite64 x -> finite64 y -> Rabs (rval x) <= 1.001 -> Rabs (rval y) <= 1.001 -> finite64 (b64_mul x y) /\ Rabs (rval (b64_mul x y) - rval x * rval y) <= 1.01 * e53 /\ Rabs (rval x * rval y) <= 1.003.
Proof.
  intros Fx Fy Bx By. pose proof P2_big as PB. pose proof e53_pos as PE. pose proof tiny_e4 as T4. assert (B : Rabs (rval x * rval y) <= 1.003). { rewrite Rabs_mult. apply Rle_trans with (1.001 * 1.001); [apply Rmult_le_compat; try apply Rabs_pos; assumption | lra]. }
  destruct (mul_any x y Fx Fy ltac:(lra)) as [F E]. split; [exact F |]. split; [| exact B]. assert (e53 * Rabs (rval x * rval y) <= e53 * 1.003) by (apply Rmult_le_compat_l; lra). lra.
Qed.
Lemma sum_near x y a b d B : finite64 x -> finite64 y -> Rabs (rval x - a) <= d * e53 -> Rabs (rval y - b) <= 1.01 * e53 -> Rabs a <= B -> Rabs b <= 1.003 -> 0 <= d <= 100 -> 0 <= B <= 10 ->
  (finite64 (sf_add x y) /\ Rabs (rval (sf_add x y) - (a + b)) <= (d + B + 2.1) * e53) /\ (finite64 (sf_sub x y) /\ Rabs (rval (sf_sub x y) - (a - b)) <= (d + B + 2.1) * e53).
Proof.
  intros Fx Fy X Y A B' Hd HB. pose proof P2_big as PB. pose proof e53_pos as PE. assert (E9 : e53 <= / 1000000000) by (unfold e53; lra). apply abs_le in X. apply abs_le in Y. apply abs_le in A. apply abs_le in B'. assert (DE : d * e53 <= 100 * e53) by (apply Rmult_le_compat_r; lra). split.
  - assert (S : Rabs (rval x + rval y) <= B + 1.004) by (apply abs_of; lra). destruct (add_any x y Fx Fy ltac:(lra)) as [F E]. split; [exact F |]. assert (e53 * Rabs (rval x + rval y) <= e53 * (B + 1.004)) by (apply Rmult_le_compat_l; lra). apply abs_le in E. apply abs_of. lra.
  - assert (S : Rabs (rval x - rval y) <= B + 1.004) by (apply abs_of; lra). destruct (sub_any x y Fx Fy ltac:(lra)) as [F E]. split; [exact F |]. assert (e53 * Rabs (rval x - rval y) <= e53 * (B + 1.004)) by (apply Rmult_le_compat_l; lra). apply abs_le in E. apply abs_of. lra.
Qed.
Lemma scaled_near c x a k : finite64 c -> rval c = k -> Rabs k <= 2 -> finite64 x -> Rabs (rval x - a) <= 4.2 * e53 -> Rabs a <= 2.01 -> finite64 (b64_mul c x) /\ Rabs (rval (b64_mul c x) - k * a) <= 14 * e53.
Proof.
  intros Fc Vc K Fx X A. pose proof P2_big as PB. pose proof e53_pos as PE. assert (E9 : e53 <= / 1000000000) by (unfold e53; lra). pose proof tiny_e4 as T4. assert (XB : Rabs (rval x) <= 2.02) by (apply abs_le in X; apply abs_le in A; apply abs_of; lra).
  assert (B : Rabs (rval c * rval x) <= 4.04) by (rewrite Rabs_mult, Vc; apply Rle_trans with (2 * 2.02); [apply Rmult_le_compat; try apply Rabs_pos; assumption | lra]). destruct (mul_any c x Fc Fx ltac:(lra)) as [F E]. split; [exact F |].
  replace (rval (b64_mul c x) - k * a) with ((rval (b64_mul c x) - rval c * rval x) + k * (rval x - a)) by (rewrite Vc; ring). eapply Rle_trans; [apply Rabs_triang |]. rewrite (Rabs_mult k). assert (Rabs k * Rabs (rval x - a) <= 2 * (4.2 * e53)) by (apply Rmult_le_compat; try apply Rabs_pos; assumption). assert (e53 * Rabs (rval c * rval x) <= e53 * 4.04) by (apply Rmult_le_compat_l; lra). lra.
Qed.
Lemma four_near a b c d (f g h : spec_float -> spec_float -> spec_float) (i j k : R) : finite64 a -> finite64 b -> finite64 c -> finite64 d -> Rabs (rval a) <= 1.001 -> Rabs (rval b) <= 1.001 -> Rabs (rval c) <= 1.001 -> Rabs (rval d) <= 1.001 ->
  (f = sf_add /\ i = 1 \/ f = sf_sub /\ i = -1) -> (g = sf_add /\ j = 1 \/ g = sf_sub /\ j = -1) -> (h = sf_add /\ k = 1 \/ h = sf_sub /\ k = -1) ->
  let x := h (g (f (b64_mul a a) (b64_mul b b)) (b64_mul c c)) (b64_mul d d) in finite64 x /\ Rabs (rval x - (rval a * rval a + i * (rval b * rval b) + j * (rval c * rval c) + k * (rval d * rval d))) <= 14 * e53.
Proof.
  intros Fa Fb Fc Fd Ba Bb Bc Bd Hf Hg Hh x. destruct (product_near a a Fa Fa Ba Ba) as (F1 & E1 & B1). destruct (product_near b b Fb Fb Bb Bb) as (F2 & E2 & B2). destruct (product_near c c Fc Fc Bc Bc) as (F3 & E3 & B3). destruct (product_near d d Fd Fd Bd Bd) as (F4 & E4 & B4). pose proof e53_pos as PE.
  assert (G1 : finite64 (f (b64_mul a a) (b64_mul b b)) /\ Rabs (rval (f (b64_mul a a) (b64_mul b b)) - (rval a * rval a + i * (rval b * rval b))) <= 4.2 * e53 /\ Rabs (rval a * rval a + i * (rval b * rval b)) <= 2.01).
  { destruct (sum_near _ _ _ _ 1.01 1.003 F1 F2 E1 E2 B1 B2 ltac:(lra) ltac:(lra)) as [[S1 S2] [S3 S4]]. apply abs_le in B1. apply abs_le in B2. destruct Hf as [[-> ->] | [-> ->]]; (split; [assumption |]; split; [| apply abs_of; lra]); [replace (rval a * rval a + 1 * (rval b * rval b)) with (rval a * rval a + rval b * rval b) by ring | replace (rval a * rval a + -1 * (rval b * rval b)) with (rval a * rval a - rval b * rval b) by ring]; lra. }
  set (u := f _ _) in *. set (p := rval a * rval a + i * (rval b * rval b)) in *. destruct G1 as (Fu & Eu & Bu).
  assert (G2 : finite64 (g u (b64_mul c c)) /\ Rabs (rval (g u (b64_mul c c)) - (p + j * (rval c * rval c))) <= 8.4 * e53 /\ Rabs (p + j * (rval c * rval c)) <= 3.02).
  { destruct (sum_near _ _ _ _ 4.2 2.01 Fu F3 Eu E3 Bu B3 ltac:(lra) ltac:(lra)) as [[S1 S2] [S3 S4]]. apply abs_le in Bu. apply abs_le in B3. destruct Hg as [[-> ->] | [-> ->]]; (split; [assumption |]; split; [| apply abs_of; lra]); [replace (p + 1 * (rval c * rval c)) with (p + rval c * rval c) by ring | replace (p + -1 * (rval c * rval c)) with (p - rval c * rval c) by ring]; lra. }
  set (v := g _ _) in *. set (p' := p + j * (rval c * rval c)) in *. destruct G2 as (Fv & Ev & Bv).
  destruct (sum_near _ _ _ _ 8.4 3.02 Fv F4 Ev E4 Bv B4 ltac:(lra) ltac:(lra)) as [[S1 S2] [S3 S4]]. unfold x. destruct Hh as [[-> ->] | [-> ->]]; (split; [assumption |]); [replace (p' + 1 * (rval d * rval d)) with (p' + rval d * rval d) by ring | replace (p' + -1 * (rval d * rval d)) with (p' - rval d * rval d) by ring]; lra.
Qed.
Lemma two_near a b c d (f : spec_float -> spec_float -> spec_float) (i : R) n k : finite64 a -> finite64 b -> finite64 c -> finite64 d -> Rabs (rval a) <= 1.001 -> Rabs (rval b) <= 1.001 -> Rabs (rval c) <= 1.001 -> Rabs (rval d) <= 1.001 ->
  (f = sf_add /\ i = 1 \/ f = sf_sub /\ i = -1) -> finite64 n -> rval n = k -> Rabs k <= 2 ->
  let x := b64_mul n (f (b64_mul a b) (b64_mul c d)) in finite64 x /\ Rabs (rval x - k * (rval a * rval b + i * (rval c * rval d))) <= 14 * e53.
Proof.
  intros Fa Fb Fc Fd Ba Bb Bc Bd Hf Fn Vn K x. destruct (product_near a b Fa Fb Ba Bb) as (F1 & E1 & B1). destruct (product_near c d Fc Fd Bc Bd) as (F2 & E2 & B2). pose proof e53_pos as PE. apply (scaled_near n _ _ k); try assumption.
  - destruct (sum_near _ _ _ _ 1.01 1.003 F1 F2 E1 E2 B1 B2 ltac:(lra) ltac:(lra)) as [[S1 _] [S3 _]]. destruct Hf as [[-> _] | [-> _]]; assumption.
  - destruct (sum_near _ _ _ _ 1.01 1.003 F1 F2 E1 E2 B1 B2 ltac:(lra) ltac:(lra)) as [[_ S2] [_ S4]]. destruct Hf as [[-> ->] | [-> ->]]; [replace (rval a * rval b + 1 * (rval c * rval d)) with (rval a * rval b + rval c * rval d) by ring | replace (rval a * rval b + -1 * (rval c * rval d)) with (rval a * rval b - rval c * rval d) by ring]; lra.
  - apply abs_le in B1. apply abs_le in B2. destruct Hf as [[_ ->] | [_ ->]]; apply abs_of; lra.
Qed.
Lemma scaled_matrix q : 0 < len4 q -> q_matrix q = mscale3 (len4 q * len4 q) (q_matrix (versor q)) /\ is_rotation (q_matrix (versor q)) /\ matrix_of (turned4 (versor q)) = q_matrix (versor q).
Proof.
  intros H. split; [| split].
  - rewrite <- (versor_back q H) at 1. generalize (versor q), (len4 q). intros [x y z s] k. unfold times4, q_matrix, mscale3. cbn [qx qy qz qs m00 m01 m02 m10 m11 m12 m20 m21 m22]. f_equal; ring.
  - apply q_matrix_rotation. unfold unit_q. rewrite <- len4_sq, versor_len by exact H. ring.
  - apply map_matrix. intros v. rewrite turned_rot. apply rot_matrix.
Qed.
Lemma named_matrix s a b c : matrix_of (named_sequence s a b c) = seq_matrix s a b c.
Proof. apply map_matrix. intros v. apply seq_matrix_named. Qed.
Lemma middle_of s M f : (forall v, mulv3 M v = f v) -> middle_sine s f = middle_entry s M.
Proof. intros E. destruct s; cbn [middle_entry middle_sine]; rewrite <- ?E; destruct M; qunfold; ring. Qed.
Lemma middle_cosine_sq s M f : is_rotation M -> s <> SeqUndefined -> (forall v, mulv3 M v = f v) -> middle_cosine s f * middle_cosine s f = 1 - middle_entry s M * middle_entry s M.
Proof.
  intros H Hs E. unfold middle_cosine. rewrite (middle_of s M f E). apply sqrt_sqrt. pose proof (rotation_entries M H) as [[C1 [C2 [C3 _]]] [[R1 [R2 [R3 _]]] _]]. destruct s; [congruence |..]; cbn [middle_entry]; nra.
Qed.
Lemma entries_mono e e' m n : e <= e' -> entries_within e m n -> entries_within e' m n.
Proof. intros L H i Hi. destruct (H i Hi) as (A & B & C). repeat split; lra. Qed.
Lemma entries_nine e m n : entries_within e m n ->
  (Rabs (m00 m - m00 n) <= e /\ Rabs (m01 m - m01 n) <= e /\ Rabs (m02 m - m02 n) <= e) /\ (Rabs (m10 m - m10 n) <= e /\ Rabs (m11 m - m11 n) <= e /\ Rabs (m12 m - m12 n) <= e) /\ (Rabs (m20 m - m20 n) <= e /\ Rabs (m21 m - m21 n) <= e /\ Rabs (m22 m - m22 n) <= e).
Proof. intros H. split; [exact (H 0%nat ltac:(lia)) |]. split; [exact (H 1%nat ltac:(lia)) | exact (H 2%nat ltac:(lia))]. Qed.
Lemma opp_close x a e : Rabs (rval x - a) <= e -> Rabs (rval (SFopp x) - - a) <= e.
Proof. intros H. rewrite SFopp_val. replace (- rval x - - a) with (- (rval x - a)) by ring. rewrite Rabs_Ropp. exact H. Qed.
(** *** From a matrix *)
Lemma matrix_angles fatan2 fasin e s M k h m d sg : s <> SeqUndefined -> is_rotation M -> 0 < h -> h * h = 1 - middle_entry s M * middle_entry s M -> atan2_within fatan2 e -> asin_within fasin e -> e <= / 1000 -> 0.9 <= k <= 1.1 -> finite33 m ->
  entries_within d (val33 m) (mscale3 k M) -> d + Rabs (k - 1) <= sg -> 4 * d <= h -> 2 * sg <= h * h ->
  exists f t p, e64_of_matrix fatan2 fasin (Some m) s = Ok (mkE64 (Some f) (Some t) (Some p) ZYX) /\ finite64 f /\ finite64 t /\ finite64 p /\ entries_within (5 * (e + 4 * d / h + 2 * sg / h + P2 (-49))) (seq_matrix s (rval f) (rval t) (rval p)) M.
Proof.
  intros Hs HM HP HE HA HI E1 K FM EW SG DH SH. pose proof (entries_nine _ _ _ EW) as ((A1 & A2 & A3) & (B1 & B2 & B3) & (C1 & C2 & C3)). destruct FM as ((F1 & F2 & F3) & (F4 & F5 & F6) & (F7 & F8 & F9)).
  unfold val33, of_cols, val3, mscale3 in A1, A2, A3, B1, B2, B3, C1, C2, C3. cbn [m00 m01 m02 m10 m11 m12 m20 m21 m22 vx vy vz] in A1, A2, A3, B1, B2, B3, C1, C2, C3.
  assert (MID : forall z, Rabs (rval z - k * middle_entry s M) <= d -> Rabs (rval z - middle_entry s M) <= sg).
  { intros z Z. assert (MB : Rabs (middle_entry s M) <= 1) by (apply abs_of; nra). replace (rval z - middle_entry s M) with ((rval z - k * middle_entry s M) + (k - 1) * middle_entry s M) by ring. eapply Rle_trans; [apply Rabs_triang |]. rewrite Rabs_mult. pose proof (Rabs_pos (k - 1)). assert (Rabs (k - 1) * Rabs (middle_entry s M) <= Rabs (k - 1) * 1) by (apply Rmult_le_compat_l; assumption). lra. }
  assert (OPP : forall x a, Rabs (rval x - k * a) <= d -> Rabs (rval (SFopp x) - k * - a) <= d). { intros x a X. replace (k * - a) with (- (k * a)) by ring. apply opp_close, X. }
  assert (G : forall y1 x1 z y2 x2, e64_of_matrix fatan2 fasin (Some m) s = Ok (e64_adjust (fatan2 y1 x1) (fasin z) (fatan2 y2 x2)) -> finite64 y1 -> finite64 x1 -> finite64 z -> finite64 y2 -> finite64 x2 -> Rabs (rval y1 - k * first_sine s M) <= d -> Rabs (rval x1 - k * first_cosine s M) <= d -> Rabs (rval z - k * middle_entry s M) <= d -> Rabs (rval y2 - k * last_sine s M) <= d -> Rabs (rval x2 - k * last_cosine s M) <= d ->
    exists f t p, e64_of_matrix fatan2 fasin (Some m) s = Ok (mkE64 (Some f) (Some t) (Some p) ZYX) /\ finite64 f /\ finite64 t /\ finite64 p /\ entries_within (5 * (e + 4 * d / h + 2 * sg / h + P2 (-49))) (seq_matrix s (rval f) (rval t) (rval p)) M).
  { intros y1 x1 z y2 x2 HR Fy1 Fx1 Fz Fy2 Fx2 Y1 X1 Z Y2 X2. destruct (euler_core fatan2 fasin e s M k h y1 x1 z y2 x2 d sg Hs HM HP HE HA HI E1 K Fy1 Fx1 Fz Fy2 Fx2 Y1 X1 (MID z Z) Y2 X2 DH SH) as (f & t & p & HQ & R). exists f, t, p. rewrite HR, HQ. split; [reflexivity | exact R]. }
  clear MID EW. destruct s; [congruence |..]; cbn [first_sine first_cosine last_sine last_cosine middle_entry] in G; (eapply G; [reflexivity |..]); try (apply SFopp_finite); try assumption; try (apply OPP); assumption.
Qed.
Lemma c153_matrix fatan2 fasin e s M m d : atan2_within fatan2 e -> asin_within fasin e -> e <= / 1000 -> s <> SeqUndefined -> is_rotation M -> finite33 m -> entries_within d (val33 m) M -> let h := middle_cosine s (mulv3 M) in 0 < h -> 4 * d <= h * h ->
  exists f t p, e64_of_matrix fatan2 fasin (Some m) s = Ok (mkE64 (Some f) (Some t) (Some p) ZYX) /\ finite64 f /\ finite64 t /\ finite64 p /\ entries_within (5 * (e + 6 * d / h + P2 (-49))) (matrix_of (named_sequence s (rval f) (rval t) (rval p))) M.
Proof.
  intros HA HI E1 Hs HM FM EW h HP DH. pose proof (middle_cosine_sq s M (mulv3 M) HM Hs (fun v => eq_refl)) as HE. fold h in HE. assert (H1 : h <= 1) by nra. assert (D0 : 0 <= d) by (eapply Rle_trans; [apply Rabs_pos | apply (EW 0%nat ltac:(lia))]).
  destruct (matrix_angles fatan2 fasin e s M 1 h m d d Hs HM HP HE HA HI E1 ltac:(lra) FM) as (f & t & p & HQ & Ff & Ft & Fp & R); [rewrite mscale3_1; exact EW | rewrite Rminus_diag_eq, Rabs_R0 by reflexivity; lra | nra | lra |].
  exists f, t, p. split; [exact HQ |]. split; [exact Ff |]. split; [exact Ft |]. split; [exact Fp |]. rewrite named_matrix. replace (6 * d / h) with (4 * d / h + 2 * d / h) by (field; lra). rewrite <- Rplus_assoc. exact R.
Qed.
(** *** From a quaternion *)
Lemma square_near l d : Rabs (l - 1) <= d -> d <= / 1000 -> 0.99 <= l <= 1.001 /\ 0.9 <= l * l <= 1.1 /\ Rabs (l * l - 1) <= 2.001 * d.
Proof. intros H D. apply abs_le in H. split; [lra |]. split; [nra |]. apply abs_of. nra. Qed.
Lemma c153_quaternion fatan2 fasin r eps q e d : atan2_within fatan2 e -> asin_within fasin e -> e <= / 1000 -> finite4 q -> Rabs (len4 (val4 q) - 1) <= d -> d <= / 1000 -> q64_isUnitary (Some q) (Some eps) = Ok true ->
  let f := turned4 (versor (val4 q)) in let h := middle_cosine ZYX f in 0 < h -> 5 * d + P2 (-46) <= h * h ->
  exists a b c, e64_of_quaternion fatan2 fasin r eps (Some q) ZYX = Ok (mkE64 (Some a) (Some b) (Some c) ZYX) /\ finite64 a /\ finite64 b /\ finite64 c /\ entries_within (5 * (e + (5 * d + P2 (-46)) / h)) (matrix_of (named_sequence ZYX (rval a) (rval b) (rval c))) (matrix_of f).
Proof.
  intros HA HI E1 FQ HL D1 HU f h HP HH. destruct (square_near _ _ HL D1) as (L1 & K & K1). set (l := len4 (val4 q)) in *. destruct (scaled_matrix (val4 q) ltac:(fold l; lra)) as (SM & RM & MO). fold l in SM. set (M := q_matrix (versor (val4 q))) in *.
  assert (MF : forall v, mulv3 M v = f v). { intros v. unfold f. rewrite turned_rot. unfold M. apply rot_matrix. } pose proof (middle_cosine_sq ZYX M f RM ltac:(discriminate) MF) as HE. fold h in HE. assert (D0 : 0 <= d) by (eapply Rle_trans; [apply Rabs_pos | exact HL]). pose proof e53_pos as PE. assert (P46 : P2 (-46) = 128 * e53) by (rewrite <- e53_P2; change 128 with (IZR (2 ^ 7)); rewrite P2_Z by lia; rewrite <- P2_add; reflexivity).
  destruct (coord4 (val4 q)) as (X & Y & Z & S). fold l in X, Y, Z, S. unfold val4 in X, Y, Z, S. cbn [qx qy qz qs] in X, Y, Z, S. destruct q as [x y z w]. cbn [q64x q64y q64z q64s] in X, Y, Z, S. destruct FQ as (Fx & Fy & Fz & Fw). cbn [q64x q64y q64z q64s] in Fx, Fy, Fz, Fw.
  assert (BX : Rabs (rval x) <= 1.001) by lra. assert (BY : Rabs (rval y) <= 1.001) by lra. assert (BZ : Rabs (rval z) <= 1.001) by lra. assert (BW : Rabs (rval w) <= 1.001) by lra. destruct two_val as [F2 V2]. destruct (of_Z_val (-2) ltac:(lia)) as [Fm Vm]. assert (A2 : Rabs 2 <= 2) by (apply abs_of; lra). assert (Am : Rabs (-2) <= 2) by (apply abs_of; lra).
  destruct (two_near x y w z sf_add 1 two_64 2 Fx Fy Fw Fz BX BY BW BZ ltac:(auto) F2 V2 A2) as [N1 Q1]. destruct (four_near w z y x sf_sub sf_sub sf_add (-1) (-1) 1 Fw Fz Fy Fx BW BZ BY BX ltac:(auto) ltac:(auto) ltac:(auto)) as [N2 Q2]. destruct (two_near x z y w sf_sub (-1) (b64_of_Z (-2)) (-2) Fx Fz Fy Fw BX BZ BY BW ltac:(auto) Fm Vm Am) as [N3 Q3].
  destruct (two_near y z x w sf_add 1 two_64 2 Fy Fz Fx Fw BY BZ BX BW ltac:(auto) F2 V2 A2) as [N4 Q4]. destruct (four_near w z y x sf_add sf_sub sf_sub 1 (-1) (-1) Fw Fz Fy Fx BW BZ BY BX ltac:(auto) ltac:(auto) ltac:(auto)) as [N5 Q5].
  assert (E01 := f_equal m01 SM). assert (E00 := f_equal m00 SM). assert (E02 := f_equal m02 SM). assert (E12 := f_equal m12 SM). assert (E22 := f_equal m22 SM). unfold q_matrix at 1, val4 in E01. unfold q_matrix at 1, val4 in E00. unfold q_matrix at 1, val4 in E02. unfold q_matrix at 1, val4 in E12. unfold q_matrix at 1, val4 in E22. unfold mscale3 in E01, E00, E02, E12, E22. cbn [m00 m01 m02 m12 m22 qx qy qz qs q64x q64y q64z q64s] in E01, E00, E02, E12, E22.
  assert (H1 : h <= 1) by nra. assert (MB : Rabs (middle_entry ZYX M) <= 1) by (apply abs_of; nra).
  destruct (euler_core fatan2 fasin e ZYX M (l * l) h _ _ _ _ _ (14 * e53) (14 * e53 + 2.001 * d) ltac:(discriminate) RM HP HE HA HI E1 K N1 N2 N3 N4 N5) as (a & b & c & HQ & Fa & Fb & Fc & R); cbn [first_sine first_cosine last_sine last_cosine middle_entry] in *.
  - rewrite <- E01. eapply Rle_trans; [| exact Q1]. right. f_equal. ring.
  - rewrite <- E00. eapply Rle_trans; [| exact Q2]. right. f_equal. ring.
  - assert (Q : Rabs (rval (b64_mul (b64_of_Z (-2)) (sf_sub (b64_mul x z) (b64_mul y w))) - l * l * - m02 M) <= 14 * e53). { replace (l * l * - m02 M) with (- (l * l * m02 M)) by ring. rewrite <- E02. eapply Rle_trans; [| exact Q3]. right. f_equal. ring. }
    set (u := rval (b64_mul (b64_of_Z (-2)) (sf_sub (b64_mul x z) (b64_mul y w)))) in *. clearbody u. replace (u - - m02 M) with ((u - l * l * - m02 M) + (l * l - 1) * - m02 M) by ring. eapply Rle_trans; [apply Rabs_triang |]. rewrite Rabs_mult. pose proof (Rabs_pos (l * l - 1)). assert (Rabs (l * l - 1) * Rabs (- m02 M) <= Rabs (l * l - 1) * 1) by (apply Rmult_le_compat_l; assumption). lra.
  - rewrite <- E12. eapply Rle_trans; [| exact Q4]. right. f_equal. ring.
  - rewrite <- E22. eapply Rle_trans; [| exact Q5]. right. f_equal. ring.
  - nra.
  - lra.
  - exists a, b, c. split; [| split; [exact Fa |]; split; [exact Fb |]; split; [exact Fc |]].
    + unfold e64_of_quaternion. cbn [need3 bind]. rewrite HU. cbn [bind negb q64x q64y q64z q64s]. rewrite HQ. reflexivity.
    + rewrite named_matrix. unfold f. rewrite MO. fold M. eapply entries_mono; [| exact R]. apply Rmult_le_compat_l; [lra |]. rewrite <- e49. assert (I1 : 1 <= / h) by (rewrite <- Rinv_1 at 1; apply Rinv_le_contravar; lra). unfold Rdiv. rewrite P46. nra.
Qed.
Lemma c153_quaternion_other fatan2 fasin r eps q s e d : atan2_within fatan2 e -> asin_within fasin e -> e <= / 1000 -> finite4 q -> Rabs (len4 (val4 q) - 1) <= d -> d <= P2 (-26) -> finite64 eps -> 2 * d + P2 (-48) <= rval eps <= / 4 -> s = XYZ \/ s = ZXY ->
  let f := turned4 (versor (val4 q)) in let h := middle_cosine s f in 0 < h -> 5 * d + P2 (-46) <= h * h ->
  exists a b c, e64_of_quaternion fatan2 fasin r eps (Some q) s = Ok (mkE64 (Some a) (Some b) (Some c) ZYX) /\ finite64 a /\ finite64 b /\ finite64 c /\ entries_within (5 * (e + (5 * d + P2 (-46)) / h)) (matrix_of (named_sequence s (rval a) (rval b) (rval c))) (matrix_of f).
Proof.
  intros HA HI E1 FQ HL D1 FE HEP HS f h HP HH. assert (D2 : d <= / 1000). { eapply Rle_trans; [exact D1 |]. rewrite P2_m by lia. apply Rinv_le_contravar; [lra | apply IZR_le; lia]. } destruct (square_near _ _ HL D2) as (L1 & K & K1). set (l := len4 (val4 q)) in *. destruct (scaled_matrix (val4 q) ltac:(fold l; lra)) as (SM & RM & MO). fold l in SM. set (M := q_matrix (versor (val4 q))) in *. assert (Hs : s <> SeqUndefined) by (destruct HS; subst s; discriminate).
  assert (MF : forall v, mulv3 M v = f v). { intros v. unfold f. rewrite turned_rot. unfold M. apply rot_matrix. } pose proof (middle_cosine_sq s M f RM Hs MF) as HE. fold h in HE. assert (D0 : 0 <= d) by (eapply Rle_trans; [apply Rabs_pos | exact HL]). pose proof e53_pos as PE. assert (P46 : P2 (-46) = 128 * e53) by (rewrite <- e53_P2; change 128 with (IZR (2 ^ 7)); rewrite P2_Z by lia; rewrite <- P2_add; reflexivity). assert (P50 : P2 (-50) = 8 * e53) by (rewrite <- e53_P2; change 8 with (IZR (2 ^ 3)); rewrite P2_Z by lia; rewrite <- P2_add; reflexivity).
  destruct (c135_accepted r eps q d FQ FE ltac:(lra) HL HEP) as (m & HM & FM & EW & _). rewrite turning_matrix, SM in EW. assert (H1 : h <= 1) by nra.
  destruct (matrix_angles fatan2 fasin e s M (l * l) h m (P2 (-50)) (P2 (-50) + 2.001 * d) Hs RM HP HE HA HI E1 K FM EW) as (a & b & c & HQ & Fa & Fb & Fc & R); [lra | rewrite P50; nra | lra |].
  exists a, b, c. split; [| split; [exact Fa |]; split; [exact Fb |]; split; [exact Fc |]].
  - unfold e64_of_quaternion. cbn [need3 bind]. assert (HU : q64_isUnitary (Some q) (Some eps) = Ok true). { unfold rm64_of_quaternion in HM. cbn [need3 bind] in HM. destruct (q64_isUnitary (Some q) (Some eps)) as [[|] | |]; try discriminate; reflexivity. } rewrite HU. cbn [bind negb]. destruct HS; subst s; rewrite HM; cbn [bind]; exact HQ.
  - rewrite named_matrix. unfold f. rewrite MO. fold M. eapply entries_mono; [| exact R]. apply Rmult_le_compat_l; [lra |]. rewrite <- e49. assert (I1 : 1 <= / h) by (rewrite <- Rinv_1 at 1; apply Rinv_le_contravar; lra). unfold Rdiv. rewrite P46, P50. nra.
Qed.
