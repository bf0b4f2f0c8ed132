(** Double precision: whole coordinates, and points that are rejected. *)

From Coq Require Import List Bool Arith ZArith Reals Lra Lia Floats.SpecFloat.
From Verif Require Import Result Vec DOrder RotModel AngleModel FloatSpec FloatProofs FloatProofs2 FloatModel FloatProofs3 FloatProofs4 Geo3Types Geo3Model Geo3Spec Geo3Proofs Geo64Model Geo64Spec Geo64Proofs.
Import ListNotations.
Local Open Scope R_scope.

(** *** Whole numbers *)
Definition isint (x : spec_float) (n : Z) : Prop := finite64 x /\ rval x = IZR n.
Lemma isint_sub x y n m : isint x n -> isint y m -> (Z.abs (n - m) <= 2 ^ 53)%Z -> isint (sf_sub x y) (n - m).
Proof. intros [Fx Vx] [Fy Vy] B. exact (sub_int x y n m Fx Fy Vx Vy B). Qed.
Lemma isint_add x y n m : isint x n -> isint y m -> (Z.abs (n + m) <= 2 ^ 53)%Z -> isint (sf_add x y) (n + m).
Proof. intros [Fx Vx] [Fy Vy] B. exact (add_int x y n m Fx Fy Vx Vy B). Qed.
Lemma isint_mul x y n m : isint x n -> isint y m -> (Z.abs (n * m) <= 2 ^ 53)%Z -> isint (b64_mul x y) (n * m).
Proof.
  intros [Fx Vx] [Fy Vy] B. assert (T : rval x * rval y = IZR (n * m)) by (rewrite mult_IZR, Vx, Vy; reflexivity).
  assert (U : Rabs (rval x * rval y) <= P2 1023) by (rewrite T; eapply Rle_trans; [apply int_small, B | apply P2_mono; lia]).
  destruct (SFmul_rounded x y Fx Fy U) as [N _]. change (SFmul 53 1024 x y) with (b64_mul x y) in N. rewrite T in N. split; [exact (proj1 N) |].
  apply (nearest_exact _ _ N). apply integer_representable, B.
Qed.
Definition isint3 (a : f3) (i j k : Z) : Prop := isint (fx a) i /\ isint (fy a) j /\ isint (fz a) k.
Lemma whole_isint N a : finite3 a -> whole3 N a -> exists i j k, isint3 a i j k /\ (Z.abs i <= N)%Z /\ (Z.abs j <= N)%Z /\ (Z.abs k <= N)%Z.
Proof.
  intros (Fx & Fy & Fz) ((i & Vi & Bi) & (j & Vj & Bj) & (k & Vk & Bk)). exists i, j, k. unfold isint3, isint. tauto.
Qed.
Lemma isint3_val a i j k : isint3 a i j k -> val3 a = V3 (IZR i) (IZR j) (IZR k).
Proof. intros ((_ & Vx) & (_ & Vy) & (_ & Vz)). unfold val3. rewrite Vx, Vy, Vz. reflexivity. Qed.
Lemma isint3_finite a i j k : isint3 a i j k -> finite3 a.
Proof. intros ((F1 & _) & (F2' & _) & (F3' & _)). split; [| split]; assumption. Qed.
Lemma abs_mul_le a b A B : (Z.abs a <= A)%Z -> (Z.abs b <= B)%Z -> (Z.abs (a * b) <= A * B)%Z.
Proof. intros H K. rewrite Z.abs_mul. apply Z.mul_le_mono_nonneg; lia. Qed.
Lemma mul25 a b : (Z.abs a <= 2 ^ 25 -> Z.abs b <= 2 ^ 25 -> Z.abs (a * b) <= 2 ^ 50)%Z.
Proof. exact (abs_mul_le a b (2 ^ 25) (2 ^ 25)). Qed.
Lemma le53 a : (Z.abs a <= 2 ^ 50 -> Z.abs a <= 2 ^ 53)%Z.
Proof. lia. Qed.
Lemma sub50 a b : (Z.abs a <= 2 ^ 50 -> Z.abs b <= 2 ^ 50 -> Z.abs (a - b) <= 2 ^ 51)%Z.
Proof. lia. Qed.
Lemma le51 a : (Z.abs a <= 2 ^ 51 -> Z.abs a <= 2 ^ 53)%Z.
Proof. lia. Qed.
Lemma le60 a : (Z.abs a <= 2 ^ 51 -> Z.abs a <= 2 ^ 60)%Z.
Proof. lia. Qed.
Lemma add50 a b : (Z.abs a <= 2 ^ 50 -> Z.abs b <= 2 ^ 50 -> Z.abs (a + b) <= 2 ^ 51)%Z.
Proof. lia. Qed.
Lemma add51 a b : (Z.abs a <= 2 ^ 51 -> Z.abs b <= 2 ^ 50 -> Z.abs (a + b) <= 2 ^ 53 /\ Z.abs (b + a) <= 2 ^ 53)%Z.
Proof. lia. Qed.
Lemma sub24 N a b : (N <= 2 ^ 50 -> Z.abs a <= N -> Z.abs b <= N -> Z.abs (a - b) <= 2 ^ 53)%Z.
Proof. lia. Qed.
Lemma sub25 a b : (Z.abs a <= 2 ^ 24 -> Z.abs b <= 2 ^ 24 -> Z.abs (a - b) <= 2 ^ 25)%Z.
Proof. lia. Qed.
Lemma isint3_sub a b i j k i' j' k' N : isint3 a i j k -> isint3 b i' j' k' -> (N <= 2 ^ 50)%Z ->
  (Z.abs i <= N /\ Z.abs j <= N /\ Z.abs k <= N)%Z -> (Z.abs i' <= N /\ Z.abs j' <= N /\ Z.abs k' <= N)%Z -> isint3 (fsub3 a b) (i - i') (j - j') (k - k').
Proof.
  intros (Ax & Ay & Az) (Bx & By & Bz) HN (H1 & H2 & H3) (H1' & H2' & H3'). unfold fsub3. split; [| split]; cbn [fx fy fz]; (apply isint_sub; [assumption | assumption | apply (sub24 N); assumption]).
Qed.
Lemma isint3_cross a b i j k i' j' k' : isint3 a i j k -> isint3 b i' j' k' ->
  (Z.abs i <= 2 ^ 25 /\ Z.abs j <= 2 ^ 25 /\ Z.abs k <= 2 ^ 25)%Z -> (Z.abs i' <= 2 ^ 25 /\ Z.abs j' <= 2 ^ 25 /\ Z.abs k' <= 2 ^ 25)%Z ->
  isint3 (fcross3 a b) (j * k' - k * j') (k * i' - i * k') (i * j' - j * i').
Proof.
  intros (Ax & Ay & Az) (Bx & By & Bz) (H1 & H2 & H3) (H1' & H2' & H3').
  unfold fcross3. split; [| split]; cbn [fx fy fz];
    (apply isint_sub; [apply isint_mul; [assumption | assumption | apply le53, mul25; assumption] | apply isint_mul; [assumption | assumption | apply le53, mul25; assumption] | apply le51, sub50; apply mul25; assumption]).
Qed.
Lemma isint3_dot r a b i j k i' j' k' : isint3 a i j k -> isint3 b i' j' k' ->
  (Z.abs i <= 2 ^ 25 /\ Z.abs j <= 2 ^ 25 /\ Z.abs k <= 2 ^ 25)%Z -> (Z.abs i' <= 2 ^ 25 /\ Z.abs j' <= 2 ^ 25 /\ Z.abs k' <= 2 ^ 25)%Z ->
  isint (fdot3 r a b) (i * i' + j * j' + k * k').
Proof.
  intros (Ax & Ay & Az) (Bx & By & Bz) (H1 & H2 & H3) (H1' & H2' & H3').
  assert (I1 : isint (b64_mul (fx a) (fx b)) (i * i')) by (apply isint_mul; [assumption | assumption | apply le53, mul25; assumption]).
  assert (I2 : isint (b64_mul (fy a) (fy b)) (j * j')) by (apply isint_mul; [assumption | assumption | apply le53, mul25; assumption]).
  assert (I3 : isint (b64_mul (fz a) (fz b)) (k * k')) by (apply isint_mul; [assumption | assumption | apply le53, mul25; assumption]).
  unfold fdot3, sum64. destruct r.
  - apply isint_add; [apply isint_add; [assumption | assumption | apply le51, add50; apply mul25; assumption] | assumption |].
    apply (add51 (i * i' + j * j') (k * k')); [apply add50; apply mul25; assumption | apply mul25; assumption].
  - rewrite <- Z.add_assoc. apply isint_add; [assumption | apply isint_add; [assumption | assumption | apply le51, add50; apply mul25; assumption] |].
    apply (add51 (j * j' + k * k') (i * i')); [apply add50; apply mul25; assumption | apply mul25; assumption].
Qed.
(** A square vanishes only with its root. *)
Lemma square_int x n : isint x n -> (Z.abs n <= 2 ^ 60)%Z -> finite64 (b64_mul x x) /\ 0 <= rval (b64_mul x x) <= P2 120 /\ (rval (b64_mul x x) = 0 <-> n = 0%Z).
Proof.
  intros [F V] B. assert (U : Rabs (rval x) <= P2 60) by (rewrite V, <- abs_IZR, <- P2_Z by lia; apply IZR_le, B).
  destruct (square_pos x 60 F U ltac:(lia)) as [Fm Bm]. split; [exact Fm |]. split; [exact Bm |].
  destruct (mul_bound x x 60 60 F F U U ltac:(lia) ltac:(lia)) as (_ & N & _). split.
  - intros Z. destruct (Z.eq_dec n 0) as [E | E]; [exact E | exfalso]. destruct (of_Z_val 1 ltac:(lia)) as [F1 V1].
    pose proof (nearest_below _ _ (b64_of_Z 1) (proj1 N) F1) as L. rewrite V1, Z, V, <- mult_IZR in L. assert (1 <= IZR (n * n)) by (apply IZR_le; nia). specialize (L H). lra.
  - intros ->. apply (mul_zero x x F F V).
Qed.
Lemma sqnorm_int r a i j k : isint3 a i j k -> (Z.abs i <= 2 ^ 60 /\ Z.abs j <= 2 ^ 60 /\ Z.abs k <= 2 ^ 60)%Z ->
  (SFeqb (fsqnorm3 r a) zero64 = true <-> (i = 0 /\ j = 0 /\ k = 0)%Z).
Proof.
  intros (Ix & Iy & Iz) (B1 & B2 & B3). destruct (square_int _ _ Ix B1) as (F1 & P1 & Z1), (square_int _ _ Iy B2) as (F2' & P2' & Z2), (square_int _ _ Iz B3) as (F3' & P3 & Z3).
  destruct (sum64_pos r _ _ _ 120 F1 F2' F3' P1 P2' P3 ltac:(lia)) as (F & L1 & L2 & L3 & _). split.
  - intros E. apply SFeqb_val in E; [| exact F | exact I]. unfold fsqnorm3, fdot3 in E. cbn [rval zero64] in E. rewrite E in *. repeat split; [apply Z1 | apply Z2 | apply Z3]; lra.
  - intros (-> & -> & ->). apply zero_sqnorm; [exact (isint3_finite _ _ _ _ (conj Ix (conj Iy Iz))) | exact (isint3_val _ _ _ _ (conj Ix (conj Iy Iz)))].
Qed.
Lemma bool_eq_iff (a b : bool) : (a = true <-> b = true) -> a = b.
Proof. destruct a, b; intros [H K]; try reflexivity; [symmetry; apply H; reflexivity | apply K; reflexivity]. Qed.
Lemma Reqb_iff a b : Reqb a b = true <-> a = b.
Proof. unfold Reqb. destruct (Req_EM_T a b); split; intros H; congruence. Qed.
Lemma Rleb_iff64 a b : Rleb a b = true <-> a <= b.
Proof. unfold Rleb. destruct (Rle_dec a b); split; intros H; try lra; congruence. Qed.
Lemma sq_zero3 i j k : sqnorm3 (V3 (IZR i) (IZR j) (IZR k)) = 0 <-> (i = 0 /\ j = 0 /\ k = 0)%Z.
Proof.
  unfold sqnorm3, dot3. cbn [vx vy vz]. split.
  - intros H. assert (A : forall n : Z, IZR n * IZR n <= 0 -> n = 0%Z) by (intros n Hn; rewrite <- mult_IZR in Hn; apply le_IZR in Hn; nia).
    pose proof (Rle_0_sqr (IZR i)). pose proof (Rle_0_sqr (IZR j)). pose proof (Rle_0_sqr (IZR k)). unfold Rsqr in *. repeat split; apply A; lra.
  - intros (-> & -> & ->). ring.
Qed.
(** On whole coordinates the code computes as it would with real numbers. *)
Lemma segment_exact r a b p : finite3 a -> finite3 b -> finite3 p -> whole3 (2 ^ 24) a -> whole3 (2 ^ 24) b -> whole3 (2 ^ 24) p ->
  s64_contains r (mkS64 (Some a) (Some b)) (Some p) = s_contains (mkSeg (Some (val3 a)) (Some (val3 b))) (Some (val3 p)).
Proof.
  intros Fa Fb Fp Wa Wb Wp.
  destruct (whole_isint _ a Fa Wa) as (i & j & k & Ia & Ba), (whole_isint _ b Fb Wb) as (i1 & j1 & k1 & Ib & Bb), (whole_isint _ p Fp Wp) as (i2 & j2 & k2 & Ip & Bp).
  assert (N24 : (2 ^ 24 <= 2 ^ 50)%Z) by (clear; lia).
  pose proof (isint3_sub _ _ _ _ _ _ _ _ _ Ib Ia N24 Bb Ba) as IAB. pose proof (isint3_sub _ _ _ _ _ _ _ _ _ Ip Ia N24 Bp Ba) as IAC.
  assert (NB : (Z.abs (i1 - i) <= 2 ^ 25 /\ Z.abs (j1 - j) <= 2 ^ 25 /\ Z.abs (k1 - k) <= 2 ^ 25)%Z) by (clear - Ba Bb; destruct Ba as (? & ? & ?), Bb as (? & ? & ?); repeat split; apply sub25; assumption).
  assert (NC : (Z.abs (i2 - i) <= 2 ^ 25 /\ Z.abs (j2 - j) <= 2 ^ 25 /\ Z.abs (k2 - k) <= 2 ^ 25)%Z) by (clear - Ba Bp; destruct Ba as (? & ? & ?), Bp as (? & ? & ?); repeat split; apply sub25; assumption).
  pose proof (isint3_cross _ _ _ _ _ _ _ _ IAB IAC NB NC) as IX.
  destruct (isint3_dot r _ _ _ _ _ _ _ _ IAB IAC NB NC) as [FD VD]. destruct (isint3_dot r _ _ _ _ _ _ _ _ IAB IAB NB NB) as [FE VE].
  unfold s64_contains, s_contains, s_isDegenerate. cbn [need3 needd bind s64_data s_data s64_first s64_second s_first s_second].
  replace (v3_eqb (val3 a) (val3 b)) with (feq3 a b) by (apply bool_eq_iff; rewrite v3_eqb_iff; apply feq3_val; assumption).
  replace (v3_eqb (val3 a) (val3 p)) with (feq3 a p) by (apply bool_eq_iff; rewrite v3_eqb_iff; apply feq3_val; assumption).
  destruct (feq3 a b); [reflexivity |].
  assert (VB : sub3 (val3 b) (val3 a) = V3 (IZR (i1 - i)) (IZR (j1 - j)) (IZR (k1 - k))) by (rewrite (isint3_val _ _ _ _ Ib), (isint3_val _ _ _ _ Ia); unfold sub3; cbn [vx vy vz]; rewrite !minus_IZR; reflexivity).
  assert (VC : sub3 (val3 p) (val3 a) = V3 (IZR (i2 - i)) (IZR (j2 - j)) (IZR (k2 - k))) by (rewrite (isint3_val _ _ _ _ Ip), (isint3_val _ _ _ _ Ia); unfold sub3; cbn [vx vy vz]; rewrite !minus_IZR; reflexivity).
  rewrite VB, VC. clear VB VC Ia Ib Ip. revert NB NC IAB IAC IX VD VE. generalize (i1 - i)%Z (j1 - j)%Z (k1 - k)%Z (i2 - i)%Z (j2 - j)%Z (k2 - k)%Z.
  intros u v w u' v' w' NB NC IAB IAC IX VD VE.
  replace (Reqb (sqnorm3 (cross3 (V3 (IZR u) (IZR v) (IZR w)) (V3 (IZR u') (IZR v') (IZR w')))) 0) with (SFeqb (fsqnorm3 r (fcross3 (fsub3 b a) (fsub3 p a))) zero64).
  2: { apply bool_eq_iff. rewrite Reqb_iff. unfold cross3. cbn [vx vy vz]. rewrite <- !mult_IZR, <- !minus_IZR, sq_zero3.
       apply (sqnorm_int r _ _ _ _ IX).
       destruct NB as (N1 & N2 & N3), NC as (M1 & M2 & M3). split; [| split]; apply le60, sub50; apply mul25; assumption. }
  destruct (SFeqb _ zero64); [| reflexivity]. f_equal.
  assert (D : dot3 (V3 (IZR u) (IZR v) (IZR w)) (V3 (IZR u') (IZR v') (IZR w')) = rval (fdot3 r (fsub3 b a) (fsub3 p a))) by (rewrite VD; unfold dot3; cbn [vx vy vz]; rewrite !plus_IZR, !mult_IZR; reflexivity).
  assert (E : dot3 (V3 (IZR u) (IZR v) (IZR w)) (V3 (IZR u) (IZR v) (IZR w)) = rval (fdot3 r (fsub3 b a) (fsub3 b a))) by (rewrite VE; unfold dot3; cbn [vx vy vz]; rewrite !plus_IZR, !mult_IZR; reflexivity).
  rewrite D, E. f_equal; apply bool_eq_iff; rewrite Rleb_iff64, SFleb_val by (assumption || exact I); reflexivity.
Qed.
Lemma c126_whole r a b p : finite3 a -> finite3 b -> finite3 p -> whole3 (2 ^ 24) a -> whole3 (2 ^ 24) b -> whole3 (2 ^ 24) p ->
  exists t, s64_contains r (mkS64 (Some a) (Some b)) (Some p) = Ok t /\ (t = true <-> on_segment (val3 a) (val3 b) (val3 p)).
Proof.
  intros Fa Fb Fp Wa Wb Wp. rewrite (segment_exact r a b p Fa Fb Fp Wa Wb Wp). apply (c50_segment (mkSeg (Some (val3 a)) (Some (val3 b)))). reflexivity.
Qed.

(** *** Points that are rejected *)
Definition at3 (i j k : Z) : f3 := F3 (b64_of_Z i) (b64_of_Z j) (b64_of_Z k).
Lemma c126_through_refuted : exists p q, whole3 3 p /\ whole3 3 q /\
  forall r, exists l, l64_Through r (Some p) (Some q) = Ok l /\ l64_contains r l (Some q) = Ok false.
Proof.
  exists (at3 0 0 0), (at3 1 3 0).
  assert (W : forall n, (Z.abs n <= 3)%Z -> whole64 3 (b64_of_Z n)) by (intros n H; exists n; split; [apply (of_Z_val n ltac:(lia)) | exact H]).
  split; [split; [| split]; apply W; lia |]. split; [split; [| split]; apply W; lia |].
  intros []; (eexists; split; [vm_compute; reflexivity | vm_compute; reflexivity]).
Qed.
Lemma c126_center_refuted : exists a b, finite3 a /\ finite3 b /\ forall r, exists c, s64_getCenter (mkS64 (Some a) (Some b)) = Ok c /\ finite3 c /\
  s64_contains r (mkS64 (Some a) (Some b)) (Some c) = Ok false.
Proof.
  exists (F3 (b64_div (b64_of_Z 1) (b64_of_Z 10)) (b64_of_Z 0) (b64_of_Z 0)), (at3 1 1 0).
  split; [repeat split; vm_compute; reflexivity |]. split; [repeat split; vm_compute; reflexivity |].
  intros []; (eexists; split; [vm_compute; reflexivity |]; split; [repeat split; vm_compute; reflexivity | vm_compute; reflexivity]).
Qed.
