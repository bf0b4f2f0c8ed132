(** Elementary rotations, rows and columns (C143). *)

From Coq Require Import List Bool ZArith Reals Lra Lia Psatz Floats.SpecFloat.
From Verif Require Import Result Vec Mat3 VecProofs AngleModel FloatModel FloatSpec FloatProofs FloatProofs2 FloatProofs3 FloatProofs4 FloatProofs5 FloatProofs7 FloatProofs8 FloatProofs10
  Geo3Spec Geo3Proofs Geo3Proofs2 Geo64Model Geo64Spec Geo64Proofs Geo64Proofs2 Geo64Proofs3 Geo64Proofs4 Geo64Proofs5 Geo64Proofs6 Geo64Proofs7 Geo64Proofs8 RotModel RotSpec RotProofs RotProofs2 RotProofs3 Rot64Model Rot64Spec Rot64Spec2 Rot64Proofs Rot64Proofs2 Rot64Proofs3 Rot64Proofs4 Rot64Proofs5 Rot64Proofs6 Rot64Proofs7 Rot64Proofs8 Rot64Proofs9 Rot64Proofs10 Rot64Proofs11 Rot64Proofs12 Rot64Proofs13 Rot64Proofs14 Rot64Proofs15 Rot64Proofs16 Rot64Proofs17 Att64Model Att64Spec Att64Proofs Att64Proofs2 Att64Proofs3.
Import ListNotations.
Local Open Scope R_scope.

(** *** Sums that cancel *)
Lemma add_cancel x y : finite64 x -> finite64 y -> rval x + rval y = 0 -> finite64 (sf_add x y) /\ rval (sf_add x y) = 0.
Proof.
  intros Fx Fy E. destruct (SFadd_rounded x y Fx Fy) as [N _]; [rewrite E, Rabs_R0; left; apply P2_pos |]. rewrite E in N. split; [exact (proj1 N) |]. apply (nearest_exact _ _ N). exists zero64. split; [exact I | reflexivity].
Qed.
Lemma sum_cancel r p q z : finite64 p -> finite64 q -> finite64 z -> rval p + rval q + rval z = 0 -> rval p = 0 \/ rval q = 0 \/ rval z = 0 -> finite64 (sum64 r p q z) /\ rval (sum64 r p q z) = 0.
Proof.
  intros Fp Fq Fz E [V | [V | V]]; destruct r; cbn [sum64].
  - destruct (add_z_l p q Fp Fq V) as [F W]. apply add_cancel; [exact F | exact Fz | lra].
  - destruct (add_cancel q z Fq Fz ltac:(lra)) as [F W]. destruct (add_z_l p _ Fp F V) as [F' W']. split; [exact F' | lra].
  - destruct (add_z_r p q Fp Fq V) as [F W]. apply add_cancel; [exact F | exact Fz | lra].
  - destruct (add_z_l q z Fq Fz V) as [F W]. apply add_cancel; [exact Fp | exact F | lra].
  - destruct (add_cancel p q Fp Fq ltac:(lra)) as [F W]. destruct (add_z_r _ z F Fz V) as [F' W']. split; [exact F' | lra].
  - destruct (add_z_r q z Fq Fz V) as [F W]. apply add_cancel; [exact Fp | exact F | lra].
Qed.
Lemma oblique_zero eps x : finite64 eps -> 0 <= rval eps -> finite64 x /\ rval x = 0 -> SFltb eps (SFabs x) = false.
Proof. intros Fe He [F V]. destruct (abs_val x F) as [Fa Va]. apply ltb_f; [exact Fe | exact Fa |]. rewrite Va, V, Rabs_R0. exact He. Qed.

(** *** The matrix of an elementary rotation *)
Lemma circle_near c s t e : returns c (cos t) e -> returns s (sin t) e -> e <= / 10000 -> rval c * rval c + rval s * rval s <= (1 + 1.4145 * e) * (1 + 1.4145 * e) /\ Rabs (rval c * rval c + rval s * rval s - 1) <= 3 * e.
Proof.
  intros [_ Hc] [_ Hs] He. pose proof (sin2_cos2 t) as T. unfold Rsqr in T. set (x := cos t) in *. set (y := sin t) in *. set (u := rval c - x) in *. set (v := rval s - y) in *. replace (rval c) with (x + u) by (unfold u; ring). replace (rval s) with (y + v) by (unfold v; ring).
  assert (E0 : 0 <= e) by (eapply Rle_trans; [apply Rabs_pos | exact Hc]). assert (U : u * u <= e * e) by (apply Rsqr_le_abs_1; rewrite (Rabs_pos_eq e) by exact E0; exact Hc). assert (V : v * v <= e * e) by (apply Rsqr_le_abs_1; rewrite (Rabs_pos_eq e) by exact E0; exact Hs).
  assert (EE : e * e <= / 10000 * e) by (apply Rmult_le_compat_r; lra). pose proof (VecProofs.sq_nonneg u). pose proof (VecProofs.sq_nonneg v).
  assert (D : Rabs (x * u + y * v) <= 1.41422 * e). { apply Rsqr_le_abs_0 || idtac. rewrite <- (Rabs_pos_eq (1.41422 * e)) by lra. apply Rsqr_le_abs_0. unfold Rsqr. pose proof (VecProofs.sq_nonneg (x * v - y * u)). assert ((x * u + y * v) * (x * u + y * v) + (x * v - y * u) * (x * v - y * u) = (u * u + v * v) * (y * y + x * x)) as Q by ring. rewrite T in Q. nra. }
  apply abs_le in D. split; [nra |]. apply abs_of. nra.
Qed.
Lemma near_zero64 e : 0 <= e -> Rabs (rval zero64 - 0) <= e.
Proof. intros H. change (rval zero64) with 0. rewrite Rminus_0_r, Rabs_R0. exact H. Qed.
Lemma near_one64 e : 0 <= e -> Rabs (rval one_64 - 1) <= e.
Proof. intros H. destruct one_val as [_ ->]. rewrite Rminus_diag_eq, Rabs_R0 by reflexivity. exact H. Qed.
Lemma near_opp64 s t e : Rabs (rval s - t) <= e -> Rabs (rval (SFopp s) - - t) <= e.
Proof. intros H. rewrite SFopp_val. replace (- rval s - - t) with (- (rval s - t)) by ring. rewrite Rabs_Ropp. exact H. Qed.
Lemma norm_of v n : 0 <= n -> sqnorm3 v <= n * n -> norm3 v <= n.
Proof. intros P H. unfold norm3. rewrite <- (sqrt_square n) by exact P. apply sqrt_le_1_alt, H. Qed.
Definition elementary_facts (f : spec_float -> spec_float -> f33) (n : nat) : Prop := forall r eps c s t e, returns c (cos t) e -> returns s (sin t) e -> e <= / 10000 -> let m := f c s in
  finite33 m /\ entries_within e (val33 m) (matrix_of (frame_rotation (axis_vector n) t)) /\ orthonormal_up_to (3 * e) (val33 m) /\ (forall i j, (i < 3)%nat -> (j < 3)%nat -> i <> j -> dot3 (col3 (val33 m) i) (col3 (val33 m) j) = 0) /\
  col3 (val33 m) (n - 1) = axis_vector n /\ (finite64 eps -> 1.4145 * e + 4.3 * e53 <= rval eps <= / 4 -> RotationMatrix64 r eps m = Ok m) /\ ftranspose m = f c (SFopp s).
Lemma opp_twice s : SFopp (SFopp s) = s.
Proof. destruct s as [[] | [] | | []]; reflexivity. Qed.
Ltac fold_val := unfold val33, of_cols, val3, m64_RX, m64_RY, m64_RZ; cbn [c64_0 c64_1 c64_2 fx fy fz vx vy vz].
Lemma mul_z x y : finite64 x -> finite64 y -> rval x = 0 \/ rval y = 0 -> finite64 (b64_mul x y) /\ rval (b64_mul x y) = 0.
Proof. intros Fx Fy [V | V]; [apply zero_mul | rewrite mul_comm64; apply zero_mul]; assumption. Qed.
Ltac elementary_solve M :=
  intros r eps c s t e Hc Hs He; cbv zeta; pose proof (returns_pos _ _ _ Hc) as E0; destruct (circle_near c s t e Hc Hs He) as [CN CR]; destruct Hc as [Fc Hc]; destruct Hs as [Fs Hs]; destruct one_val as [FO VO];
  assert (FN : finite64 (SFopp s)) by (apply SFopp_finite; exact Fs); assert (VN : rval (SFopp s) = - rval s) by apply SFopp_val; assert (VZ : rval zero64 = 0) by reflexivity;
  assert (BC : Rabs (rval c) <= 1.1 /\ Rabs (rval s) <= 1.1) by (pose proof (cos_abs t) as B1; pose proof (sin_abs t) as B2; apply abs_le in Hc; apply abs_le in Hs; apply abs_le in B1; apply abs_le in B2; split; apply abs_of; lra); destruct BC as [BC BS];
  rewrite (map_matrix (M t)) by (intros v; (apply mRX_frame || apply mRY_frame || apply mRZ_frame));
  split; [repeat split; assumption || exact I |]; split;
  [intros i Hi; destruct i as [| [| [| i]]]; try lia; repeat split; fold_val; cbn [row3 vx vy vz m00 m01 m02 m10 m11 m12 m20 m21 m22 mRX mRY mRZ]; first [apply near_zero64; exact E0 | apply near_one64; exact E0 | exact Hc | exact Hs | apply near_opp64; exact Hs] |]; split;
  [intros i j Hi Hj; fold_val; rewrite VN, VO, VZ; destruct i as [| [| [| i]]]; try lia; destruct j as [| [| [| j]]]; try lia; cbn [Nat.eqb]; unfold dot3; cbn [col3 vx vy vz m00 m01 m02 m10 m11 m12 m20 m21 m22]; apply abs_le in CR; apply abs_of; lra |]; split;
  [intros i j Hi Hj N; fold_val; rewrite VN, VO, VZ; destruct i as [| [| [| i]]]; try lia; destruct j as [| [| [| j]]]; try lia; unfold dot3; cbn [col3 vx vy vz m00 m01 m02 m10 m11 m12 m20 m21 m22]; ring |]; split;
  [fold_val; rewrite VO, VZ; reflexivity |]; split; [| unfold ftranspose, row64_0, row64_1, row64_2; fold_val; unfold m64_RX, m64_RY, m64_RZ; cbn [c64_0 c64_1 c64_2 fx fy fz]; rewrite opp_twice; reflexivity];
  intros Fe HE; pose proof e53_pos as PE; pose proof P2_450_2 as P4; pose proof P2_ge1023 as P10;
  assert (CS : finite64 (b64_mul c s)) by (apply mul_any; [exact Fc | exact Fs | rewrite Rabs_mult; pose proof (Rabs_pos (rval c)); pose proof (Rabs_pos (rval s)); apply Rle_trans with (1.1 * 1.1); [apply Rmult_le_compat; assumption | lra]]);
  assert (SC : b64_mul s c = b64_mul c s) by apply mul_comm64; assert (NC : b64_mul (SFopp s) c = SFopp (b64_mul c s)) by (rewrite mul_opp_l, SC; reflexivity); assert (CN' : b64_mul c (SFopp s) = SFopp (b64_mul c s)) by apply mul_opp_r;
  assert (FCS : finite64 (SFopp (b64_mul c s))) by (apply SFopp_finite; exact CS); assert (VCS : rval (SFopp (b64_mul c s)) = - rval (b64_mul c s)) by apply SFopp_val;
  unfold RotationMatrix64, rm64_ok; unfold m64_RX, m64_RY, m64_RZ; cbn [c64_0 c64_1 c64_2];
  assert (LA : forall x y z, finite64 x -> finite64 y -> finite64 z -> rval x * rval x + rval y * rval y + rval z * rval z <= (1 + 1.4145 * e) * (1 + 1.4145 * e) -> SFltb eps (sf_sub (fnorm3 r (F3 x y z)) one_64) = false)
    by (intros x y z Fx Fy Fz Q; pose proof (norm_of (val3 (F3 x y z)) (1 + 1.4145 * e) ltac:(lra) Q) as NQ; assert (FF : finite3 (F3 x y z)) by (repeat split; assumption); apply (long_near r eps (F3 x y z) FF (within_norm (F3 x y z) (P2 450) ltac:(lra)) Fe ltac:(lra)); lra);
  rewrite !LA by (assumption || exact I || (rewrite ?VN, ?VO, ?VZ; lra || nra)); cbn [negb andb];
  assert (Z00 : finite64 (b64_mul zero64 zero64) /\ rval (b64_mul zero64 zero64) = 0) by (split; [exact I | reflexivity]);
  assert (Z1 : finite64 (b64_mul zero64 one_64) /\ rval (b64_mul zero64 one_64) = 0) by (apply mul_z; [exact I | exact FO | left; reflexivity]); assert (Z2 : finite64 (b64_mul one_64 zero64) /\ rval (b64_mul one_64 zero64) = 0) by (apply mul_z; [exact FO | exact I | right; reflexivity]);
  assert (Z3 : finite64 (b64_mul zero64 c) /\ rval (b64_mul zero64 c) = 0) by (apply mul_z; [exact I | exact Fc | left; reflexivity]); assert (Z4 : finite64 (b64_mul c zero64) /\ rval (b64_mul c zero64) = 0) by (apply mul_z; [exact Fc | exact I | right; reflexivity]);
  assert (Z5 : finite64 (b64_mul zero64 s) /\ rval (b64_mul zero64 s) = 0) by (apply mul_z; [exact I | exact Fs | left; reflexivity]); assert (Z6 : finite64 (b64_mul s zero64) /\ rval (b64_mul s zero64) = 0) by (apply mul_z; [exact Fs | exact I | right; reflexivity]);
  assert (Z7 : finite64 (b64_mul zero64 (SFopp s)) /\ rval (b64_mul zero64 (SFopp s)) = 0) by (apply mul_z; [exact I | exact FN | left; reflexivity]); assert (Z8 : finite64 (b64_mul (SFopp s) zero64) /\ rval (b64_mul (SFopp s) zero64) = 0) by (apply mul_z; [exact FN | exact I | right; reflexivity]);
  destruct Z00 as [G0 W0], Z1 as [G1 W1], Z2 as [G2 W2], Z3 as [G3 W3], Z4 as [G4 W4], Z5 as [G5 W5], Z6 as [G6 W6], Z7 as [G7 W7], Z8 as [G8 W8];
  rewrite !(oblique_zero eps) by (first [exact Fe | lra | unfold fdot3; cbn [fx fy fz]; rewrite ?NC, ?CN', ?SC; apply sum_cancel; [assumption | assumption | assumption | lra | (left; assumption) || (right; left; assumption) || (right; right; assumption)]]);
  reflexivity.
Lemma RX_facts : elementary_facts m64_RX 1.
Proof. elementary_solve mRX. Qed.
Lemma RY_facts : elementary_facts m64_RY 2.
Proof. elementary_solve mRY. Qed.
Lemma RZ_facts : elementary_facts m64_RZ 3.
Proof. elementary_solve mRZ. Qed.

(** *** C143 *)
Lemma elementary_cases n f : In (n, f) [(1%nat, RX64); (2%nat, RY64); (3%nat, RZ64)] -> exists g, f = elementary64 g /\ elementary_facts g n.
Proof.
  cbn [In]. intros [E | [E | [E | []]]]; injection E as <- <-; [exists m64_RX | exists m64_RY | exists m64_RZ]; (split; [reflexivity |]); [exact RX_facts | exact RY_facts | exact RZ_facts].
Qed.
Lemma c143_accepted n f fcos fsin r eps t th e : In (n, f) [(1%nat, RX64); (2%nat, RY64); (3%nat, RZ64)] -> returns (fcos t) (cos th) e -> returns (fsin t) (sin th) e -> e <= / 10000 -> finite64 eps -> 1.5 * e + 4.5 * P2 (-53) <= rval eps <= / 4 ->
  exists m, f fcos fsin r eps (Some t) = Ok m /\ finite33 m /\ entries_within e (val33 m) (matrix_of (frame_rotation (axis_vector n) th)) /\ orthonormal_up_to (3 * e) (val33 m) /\
    (forall i j, (i < 3)%nat -> (j < 3)%nat -> i <> j -> dot3 (col3 (val33 m) i) (col3 (val33 m) j) = 0) /\ col3 (val33 m) (n - 1) = axis_vector n.
Proof.
  intros I Hc Hs He Fe HE. destruct (elementary_cases n f I) as (g & -> & G). destruct (G r eps _ _ _ _ Hc Hs He) as (Fm & Em & Om & Dm & Am & Km & _). rewrite e53_P2 in HE. pose proof e53_pos. pose proof (returns_pos _ _ _ Hc).
  exists (g (fcos t) (fsin t)). split; [unfold elementary64; cbn [need3 bind]; apply Km; [exact Fe | lra] |]. repeat (split; [assumption |]). assumption.
Qed.
Lemma elementary_inv g fcos fsin r eps t m : elementary64 g fcos fsin r eps (Some t) = Ok m -> m = g (fcos t) (fsin t) /\ RotationMatrix64 r eps m = Ok m.
Proof. unfold elementary64. cbn [need3 bind]. unfold RotationMatrix64. destruct (rm64_ok r eps (g (fcos t) (fsin t))) eqn:K; [| discriminate]. intros E. injection E as <-. rewrite K. split; reflexivity. Qed.
Lemma axis_unit n : sqnorm3 (axis_vector n) = 1.
Proof. unfold axis_vector, sqnorm3, dot3. destruct n as [| [| [| n]]]; cbn [vx vy vz]; ring. Qed.
Lemma c143_turn n f fcos fsin r eps t th e m v : In (n, f) [(1%nat, RX64); (2%nat, RY64); (3%nat, RZ64)] -> returns (fcos t) (cos th) e -> returns (fsin t) (sin th) e -> e <= / 10000 -> f fcos fsin r eps (Some t) = Ok m -> finite3 v -> norm3 (val3 v) <= P2 440 ->
  exists w, rm64_mulv r (Some m) (Some v) = Ok w /\ finite3 w /\ dist3 (val3 w) (frame_rotation (axis_vector n) th (val3 v)) <= (4 * e + P2 (-50)) * norm3 (val3 v) + P2 (-1071).
Proof.
  intros I Hc Hs He Em Fv Bv. destruct (elementary_cases n f I) as (g & -> & G). destruct (G r eps _ _ _ _ Hc Hs He) as (Fm & Ew & _). apply elementary_inv in Em. destruct Em as [-> _]. pose proof (returns_pos _ _ _ Hc). pose proof e53_pos.
  rewrite axis_angle_map in Ew. destruct (near_turn r _ _ e v Fm (axis_angle_ortho _ th (axis_unit n)) ltac:(lra) Ew Fv Bv) as (w & E & Fw & D). exists w. split; [exact E |]. split; [exact Fw |]. rewrite axis_angle_frame in D. eapply Rle_trans; [exact D |]. rewrite <- e50.
  apply Rplus_le_compat; [apply Rmult_le_compat_r; [apply norm3_nonneg | lra] | exact tiny8].
Qed.
Lemma c143_opposite n f fcos fsin r eps t t' th e m : In (n, f) [(1%nat, RX64); (2%nat, RY64); (3%nat, RZ64)] -> returns (fcos t) (cos th) e -> returns (fsin t) (sin th) e -> e <= / 10000 -> fcos t' = fcos t -> fsin t' = SFopp (fsin t) -> f fcos fsin r eps (Some t) = Ok m ->
  f fcos fsin r eps (Some t') = rm64_toTransposed r eps (Some m).
Proof.
  intros I Hc Hs He C S Em. destruct (elementary_cases n f I) as (g & -> & G). destruct (G r eps _ _ _ _ Hc Hs He) as (_ & _ & _ & _ & _ & _ & T). apply elementary_inv in Em. destruct Em as [-> _]. unfold rm64_toTransposed, elementary64. cbn [need3 bind]. rewrite T, C, S. reflexivity.
Qed.
Lemma c143_zero n f fcos fsin r eps t : In (n, f) [(1%nat, RX64); (2%nat, RY64); (3%nat, RZ64)] -> returns (fcos t) 1 0 -> returns (fsin t) 0 0 -> finite64 eps -> 0 <= rval eps -> exists m, f fcos fsin r eps (Some t) = Ok m /\ finite33 m /\ val33 m = id3.
Proof.
  intros I Hc Hs Fe He. destruct (elementary_cases n f I) as (g & -> & G). assert (Hc' : returns (fcos t) (cos 0) 0) by (rewrite cos_0; exact Hc). assert (Hs' : returns (fsin t) (sin 0) 0) by (rewrite sin_0; exact Hs). destruct (G r eps _ _ _ _ Hc' Hs' ltac:(lra)) as (Fm & Ew & _).
  exists (g (fcos t) (fsin t)). assert (V : val33 (g (fcos t) (fsin t)) = id3).
  { assert (Q : matrix_of (frame_rotation (axis_vector n) 0) = id3). { apply map_matrix. intros v. unfold frame_rotation. rewrite cos_0, sin_0. destruct v as [x y z]. unfold id3, mulv3, row3, dot3, sub3, add3, scale3, cross3. cbn [vx vy vz m00 m01 m02 m10 m11 m12 m20 m21 m22]. f_equal; ring. }
    rewrite Q in Ew. destruct (Ew 0%nat ltac:(lia)) as (A0 & A1 & A2). destruct (Ew 1%nat ltac:(lia)) as (B0 & B1 & B2). destruct (Ew 2%nat ltac:(lia)) as (C0 & C1 & C2). destruct (val33 (g (fcos t) (fsin t))) as [a0 a1 a2 a3 a4 a5 a6 a7 a8]. unfold row3, id3 in *; cbn [vx vy vz m00 m01 m02 m10 m11 m12 m20 m21 m22] in *.
    apply abs_le in A0, A1, A2, B0, B1, B2, C0, C1, C2. f_equal; lra. }
  split; [unfold elementary64; cbn [need3 bind]; apply (id_accepted r eps _ Fm V Fe He) |]. split; assumption.
Qed.
Lemma c143_columns r eps a b c e : finite3 a -> finite3 b -> finite3 c -> 0 <= e <= P2 (-28) -> orthonormal_up_to e (of_cols (val3 a) (val3 b) (val3 c)) -> finite64 eps -> rval eps <= / 4 ->
  (e + P2 (-50) <= rval eps -> exists m, Columns64 r eps (Some a) (Some b) (Some c) = Ok m /\ val33 m = of_cols (val3 a) (val3 b) (val3 c)) /\
  (3 * e + P2 (-50) <= rval eps -> exists m, Rows64 r eps (Some a) (Some b) (Some c) = Ok m /\ val33 m = transpose3 (of_cols (val3 a) (val3 b) (val3 c))).
Proof.
  intros Fa Fb Fc He O Fe Hp. set (m := F33 a b c). assert (Fm : finite33 m) by (repeat (split; [assumption |]); assumption). change (of_cols (val3 a) (val3 b) (val3 c)) with (val33 m) in *. pose proof e53_pos as PE. assert (H26 : P2 (-28) <= P2 (-26)) by (apply P2_mono; lia). split; intros HE.
  - exists m. split; [| reflexivity]. rewrite <- e50 in HE. unfold Columns64. cbn [need3 bind]. fold m. unfold RotationMatrix64. rewrite (ortho_ok r eps m e Fm ltac:(lra) O Fe ltac:(lra)). reflexivity.
  - destruct (c134_transposed r eps m e Fm He O Fe ltac:(lra)) as (t & Et & Et' & _ & Vt & _). exists t. split; [| exact Vt]. rewrite <- e50 in HE. unfold Rows64. cbn [need3 bind]. fold m. rewrite (ortho_ok r eps m e Fm ltac:(lra) O Fe ltac:(lra)). exact Et.
Qed.
Lemma c143_checked r eps a b c m : (Columns64 r eps (Some a) (Some b) (Some c) = Ok m -> RotationMatrix64 r eps m = Ok m /\ val33 m = of_cols (val3 a) (val3 b) (val3 c)) /\
  (Rows64 r eps (Some a) (Some b) (Some c) = Ok m -> RotationMatrix64 r eps m = Ok m /\ rm64_toTransposed r eps (Some m) = Columns64 r eps (Some a) (Some b) (Some c) /\ val33 m = transpose3 (of_cols (val3 a) (val3 b) (val3 c))).
Proof.
  unfold Columns64, Rows64, rm64_toTransposed, RotationMatrix64. cbn [need3 bind]. split.
  - destruct (rm64_ok r eps (F33 a b c)) eqn:K; [| discriminate]. intros E. injection E as <-. rewrite K. split; reflexivity.
  - destruct (rm64_ok r eps (F33 a b c)) eqn:K; [| discriminate]. destruct (rm64_ok r eps (ftranspose (F33 a b c))) eqn:K2; [| discriminate]. intros E. injection E as <-. rewrite K2. replace (ftranspose (ftranspose (F33 a b c))) with (F33 a b c) by (destruct a, b, c; reflexivity). rewrite K. repeat split; reflexivity.
Qed.
Lemma c143_rows_refuted : exists a b c, finite3 a /\ finite3 b /\ finite3 c /\ forall r eps, finite64 eps -> 0 <= rval eps < 3 / 16 -> Columns64 r eps (Some a) (Some b) (Some c) = Ok (F33 a b c) /\ Rows64 r eps (Some a) (Some b) (Some c) = Err ERuntime.
Proof.
  destruct c134_transposed_refuted as ([a b c] & (Fa & Fb & Fc) & H). exists a, b, c. split; [exact Fa |]. split; [exact Fb |]. split; [exact Fc |]. intros r eps Fe He. destruct (H r eps Fe He) as [A B]. unfold Columns64, Rows64. cbn [need3 bind]. unfold rm64_toTransposed in B. cbn [need3 bind] in B.
  assert (K : rm64_ok r eps (F33 a b c) = true) by (unfold RotationMatrix64 in A; destruct (rm64_ok r eps (F33 a b c)); [reflexivity | discriminate]). rewrite K. split; assumption.
Qed.
Lemma c143_errors n f fcos fsin r eps (a b : option f3) : (In (n, f) [(1%nat, RX64); (2%nat, RY64); (3%nat, RZ64)] -> f fcos fsin r eps None = Err EUndefined) /\
  Columns64 r eps None a b = Err EUndefined /\ Columns64 r eps a None b = Err EUndefined /\ Columns64 r eps a b None = Err EUndefined /\ Rows64 r eps None a b = Err EUndefined /\ Rows64 r eps a None b = Err EUndefined /\ Rows64 r eps a b None = Err EUndefined.
Proof. split; [intros I; destruct (elementary_cases n f I) as (g & -> & _); reflexivity |]. destruct a, b; repeat split. Qed.
