From Coq Require Import List Bool ZArith Reals Lra Lia Psatz Floats.SpecFloat.
From Verif Require Import Result Vec Mat3 VecProofs AngleModel FloatModel FloatSpec FloatProofs FloatProofs2 FloatProofs3 FloatProofs4 FloatProofs5 FloatProofs7 FloatProofs8 FloatProofs10
  Geo3Spec Geo3Proofs Geo3Proofs2 Geo64Model Geo64Spec Geo64Proofs Geo64Proofs2 Geo64Proofs3 Geo64Proofs4 Geo64Proofs5 Geo64Proofs6 Geo64Proofs8 RotModel RotSpec RotProofs Rot64Model Rot64Spec Rot64Proofs Rot64Proofs2 Rot64Proofs3 Rot64Proofs4 Rot64Proofs5 Rot64Proofs6.
Import ListNotations.
Local Open Scope R_scope.

(** *** Neutral elements *)
Lemma one_val : finite64 one_64 /\ rval one_64 = 1.
Proof. exact one64. Qed.
Lemma P1023_450 x : Rabs x <= P2 450 -> Rabs x <= P2 1023.
Proof. intros H. eapply Rle_trans; [exact H | apply P2_mono; lia]. Qed.
Lemma mul_one x y : finite64 x -> finite64 y -> rval x = 1 -> Rabs (rval y) <= P2 450 -> finite64 (b64_mul x y) /\ rval (b64_mul x y) = rval y.
Proof.
  intros Fx Fy V B. pose proof (SFmul_rounded x y Fx Fy) as H. rewrite V, Rmult_1_l in H. destruct (H (P1023_450 _ B)) as [N _]. change (SFmul 53 1024 x y) with (b64_mul x y) in N.
  split; [exact (proj1 N) | apply (nearest_exact _ _ N); exists y; split; [exact Fy | reflexivity]].
Qed.
Lemma mul_one_r x y : finite64 x -> finite64 y -> rval y = 1 -> Rabs (rval x) <= P2 450 -> finite64 (b64_mul x y) /\ rval (b64_mul x y) = rval x.
Proof. intros. rewrite mul_comm64. apply mul_one; assumption. Qed.
Lemma add_z_l x y : finite64 x -> finite64 y -> rval x = 0 -> finite64 (sf_add x y) /\ rval (sf_add x y) = rval y.
Proof.
  intros Fx Fy V. destruct (zero_of x Fx V) as [s ->]. split; [| apply add_zero_val, Fy]. unfold sf_add. destruct y as [s' | s' | | s' m' e']; try contradiction; cbn [SFadd]; [destruct s, s'; exact I | exact Fy].
Qed.
Lemma add_z_r x y : finite64 x -> finite64 y -> rval y = 0 -> finite64 (sf_add x y) /\ rval (sf_add x y) = rval x.
Proof. intros. rewrite add_comm_sf. apply add_z_l; assumption. Qed.
Lemma sub_z_r x y : finite64 x -> finite64 y -> rval y = 0 -> finite64 (sf_sub x y) /\ rval (sf_sub x y) = rval x.
Proof. intros Fx Fy V. rewrite <- (add_opp_sub x y Fx Fy). apply add_z_r; [exact Fx | apply SFopp_finite, Fy | rewrite SFopp_val; lra]. Qed.
Lemma c131_unit r q : finite4 q -> within4 (P2 450) q ->
  exists w w', q64_mul r (Some q64_Unit) (Some q) = Ok w /\ q64_mul r (Some q) (Some q64_Unit) = Ok w' /\ val4 q64_Unit = one4 /\ val4 w = val4 q /\ val4 w' = val4 q.
Proof.
  intros (F1 & F2 & F3 & F4) (B1 & B2 & B3 & B4). exists (fmul4 r q64_Unit q), (fmul4 r q q64_Unit). do 2 (split; [reflexivity |]). destruct one_val as [O1 O2].
  split; [unfold val4, one4, q64_Unit; cbn [q64x q64y q64z q64s]; rewrite O2; reflexivity |].
  assert (Z : finite64 zero64 /\ rval zero64 = 0) by (split; [exact I | reflexivity]). destruct Z as [Z1 Z2].
  assert (ML : forall y, finite64 y -> finite64 (b64_mul zero64 y) /\ rval (b64_mul zero64 y) = 0) by (intros; apply zero_mul; assumption).
  assert (MR : forall y, finite64 y -> finite64 (b64_mul y zero64) /\ rval (b64_mul y zero64) = 0) by (intros; apply mul_zero; assumption).
  assert (C : forall a b c d e f g h, finite64 (b64_mul a b) -> finite64 (b64_mul c d) -> (rval (b64_mul a b) = 0 \/ rval (b64_mul c d) = 0) -> finite64 (b64_mul e f) /\ rval (b64_mul e f) = 0 -> finite64 (b64_mul g h) /\ rval (b64_mul g h) = 0 ->
     rval (sf_sub (sf_add (b64_mul a b) (b64_mul c d)) (sf_sub (b64_mul e f) (b64_mul g h))) = rval (b64_mul a b) + rval (b64_mul c d)).
  { intros a b c d e f g h X1 X2 X3 [Y1 Y2] [Y3 Y4]. destruct (sub_zero _ _ Y1 Y3 Y2 Y4) as [S1 S2].
    destruct X3 as [X3 | X3]; [destruct (add_z_l _ _ X1 X2 X3) as [A1 A2] | destruct (add_z_r _ _ X1 X2 X3) as [A1 A2]]; rewrite (proj2 (sub_z_r _ _ A1 S1 S2)), A2, X3; ring. }
  assert (S0 : forall x y z, finite64 x /\ rval x = 0 -> finite64 y /\ rval y = 0 -> finite64 z /\ rval z = 0 -> finite64 (sum64 r x y z) /\ rval (sum64 r x y z) = 0).
  { intros x y z [X1 X2] [Y1 Y2] [W1 W2]. destruct r; cbn [sum64].
    - destruct (add_zero _ _ X1 Y1 X2 Y2) as [A A']. apply add_zero; assumption.
    - destruct (add_zero _ _ Y1 W1 Y2 W2) as [A A']. apply add_zero; assumption. }
  split; unfold val4, fmul4, parts64, fsub3, fadd3, fscale3, fcross3, fdot3, vec64, q64_Unit; cbn [q64x q64y q64z q64s fx fy fz]; f_equal.
  - destruct (MR _ F4) as [X1 X2]. destruct (mul_one _ _ O1 F1 O2 B1) as [Y1 Y2]. rewrite C; auto. lra.
  - destruct (MR _ F4) as [X1 X2]. destruct (mul_one _ _ O1 F2 O2 B2) as [Y1 Y2]. rewrite C; auto. lra.
  - destruct (MR _ F4) as [X1 X2]. destruct (mul_one _ _ O1 F3 O2 B3) as [Y1 Y2]. rewrite C; auto. lra.
  - destruct (mul_one _ _ O1 F4 O2 B4) as [Y1 Y2]. destruct (S0 _ _ _ (ML _ F1) (ML _ F2) (ML _ F3)) as [S1 S2]. rewrite (proj2 (sub_z_r _ _ Y1 S1 S2)). exact Y2.
  - destruct (MR _ F4) as [X1 X2]. destruct (mul_one _ _ O1 F1 O2 B1) as [Y1 Y2]. rewrite C; auto. lra.
  - destruct (MR _ F4) as [X1 X2]. destruct (mul_one _ _ O1 F2 O2 B2) as [Y1 Y2]. rewrite C; auto. lra.
  - destruct (MR _ F4) as [X1 X2]. destruct (mul_one _ _ O1 F3 O2 B3) as [Y1 Y2]. rewrite C; auto. lra.
  - destruct (mul_one_r _ _ F4 O1 O2 B4) as [Y1 Y2]. destruct (S0 _ _ _ (MR _ F1) (MR _ F2) (MR _ F3)) as [S1 S2]. rewrite (proj2 (sub_z_r _ _ Y1 S1 S2)). exact Y2.
Qed.

(** *** Inverses and quotients *)
Lemma gap4_scaled p q c a1 a2 a3 a4 D t : 0 <= c -> 0 <= t -> 0 <= D -> 0 <= a1 -> 0 <= a2 -> 0 <= a3 -> 0 <= a4 -> a1 * a1 + a2 * a2 + a3 * a3 + a4 * a4 <= D * D ->
  Rabs (qx p - qx q) <= c * a1 + t -> Rabs (qy p - qy q) <= c * a2 + t -> Rabs (qz p - qz q) <= c * a3 + t -> Rabs (qs p - qs q) <= c * a4 + t -> gap4 p q <= c * D + 2 * t.
Proof.
  intros C T D0 A1 A2 A3 A4 S E1 E2 E3 E4. apply (gap4_le p q _ _ _ _ _ E1 E2 E3 E4); [nra |].
  assert (H : a1 + a2 + a3 + a4 <= 2 * D). { apply Rsqr_incr_0_var; [| lra]. unfold Rsqr. pose proof (Rle_0_sqr (a1 - a2)). pose proof (Rle_0_sqr (a1 - a3)). pose proof (Rle_0_sqr (a1 - a4)). pose proof (Rle_0_sqr (a2 - a3)). pose proof (Rle_0_sqr (a2 - a4)). pose proof (Rle_0_sqr (a3 - a4)). unfold Rsqr in *. lra. }
  assert (H1 : c * c * (a1 * a1 + a2 * a2 + a3 * a3 + a4 * a4) <= c * c * (D * D)) by (apply Rmult_le_compat_l; [nra | exact S]).
  assert (H2 : c * t * (a1 + a2 + a3 + a4) <= c * t * (2 * D)) by (apply Rmult_le_compat_l; [nra | exact H]). lra.
Qed.
Definition finv4 (q : f4) : f4 := let n := fdot4 q q in F4 (b64_div (SFopp (q64x q)) n) (b64_div (SFopp (q64y q)) n) (b64_div (SFopp (q64z q)) n) (b64_div (q64s q) n).
Lemma inv_450 : P2 450 * P2 (-450) = 1.
Proof. rewrite <- P2_add. apply P2_0. Qed.
Lemma finv4_err q : finite4 q -> within4 (P2 450) q -> P2 (-450) <= len4 (val4 q) ->
  finite4 (finv4 q) /\ gap4 (val4 (finv4 q)) (times4 (/ sq (val4 q)) (bar4 (val4 q))) <= 5.05 * e53 * / len4 (val4 q).
Proof.
  intros F B L. destruct (fsq4_err q F B L) as [Fn En]. pose proof (P2_pos (-450)) as P450. pose proof (sq_450 _ L) as LS. pose proof (P2_pos (-900)) as P900. pose proof (len_within q F B) as LW.
  destruct (coord4 (val4 q)) as (C1 & C2 & C3 & C4). destruct F as (F1 & F2 & F3 & F4). unfold val4 in C1, C2, C3, C4; cbn [qx qy qz qs] in C1, C2, C3, C4. fold (val4 q) in C1, C2, C3, C4.
  pose proof (len4_sq (val4 q)) as Q. set (S := sq (val4 q)) in *. set (N := len4 (val4 q)) in *. assert (PN : 0 < N) by lra. assert (PS : 0 < S) by lra.
  assert (IN : / N <= P2 450). { apply Rmult_le_reg_r with N; [exact PN |]. rewrite Rinv_l by lra. rewrite <- inv_450. apply Rmult_le_compat_l; [apply Rlt_le, P2_pos | exact L]. }
  assert (AS : forall x, Rabs x <= N -> 0 <= Rabs x / S /\ Rabs x / S <= / N).
  { intros x H. split; [apply Rmult_le_pos; [apply Rabs_pos | apply Rlt_le, Rinv_0_lt_compat; exact PS] |]. apply Rmult_le_reg_r with S; [exact PS |]. unfold Rdiv. rewrite Rmult_assoc, Rinv_l by lra. rewrite <- Q, <- Rmult_assoc, Rinv_l by lra. lra. }
  assert (LD : forall x, Rabs x <= N -> Rabs x / S <= P2 900). { intros x H. destruct (AS x H) as [_ H']. pose proof (P2_mono 450 900 ltac:(lia)). lra. }
  assert (O : forall x, Rabs (rval (SFopp x)) = Rabs (rval x)) by (intros; rewrite SFopp_val, Rabs_Ropp; reflexivity).
  destruct (div_len (SFopp (q64x q)) _ S 4.03 (SFopp_finite _ F1) Fn PS ltac:(lra) En ltac:(rewrite O; exact (LD _ C1))) as [G1 E1].
  destruct (div_len (SFopp (q64y q)) _ S 4.03 (SFopp_finite _ F2) Fn PS ltac:(lra) En ltac:(rewrite O; exact (LD _ C2))) as [G2 E2].
  destruct (div_len (SFopp (q64z q)) _ S 4.03 (SFopp_finite _ F3) Fn PS ltac:(lra) En ltac:(rewrite O; exact (LD _ C3))) as [G3 E3].
  destruct (div_len (q64s q) _ S 4.03 F4 Fn PS ltac:(lra) En (LD _ C4)) as [G4 E4].
  rewrite O in E1, E2, E3. rewrite SFopp_val in E1, E2, E3. split; [repeat split; assumption |].
  assert (W : forall x, / S * x = x / S) by (intros; unfold Rdiv; ring).
  assert (SS : forall x, (Rabs x / S) * (Rabs x / S) = x * x / (S * S)). { intros x. replace (x * x) with (Rabs x * Rabs x) by (rewrite <- Rabs_mult; apply Rabs_pos_eq; nra). field. lra. }
  apply Rle_trans with ((4.03 + 1.01) * e53 * / N + 2 * tiny).
  - apply (gap4_scaled _ _ _ (Rabs (rval (q64x q)) / S) (Rabs (rval (q64y q)) / S) (Rabs (rval (q64z q)) / S) (Rabs (rval (q64s q)) / S)); try (apply AS; assumption); try (unfold val4, finv4, times4, bar4; cbn [qx qy qz qs q64x q64y q64z q64s]; rewrite W; assumption).
    + unfold e53; lra.
    + apply Rlt_le, tiny_pos.
    + apply Rlt_le, Rinv_0_lt_compat, PN.
    + right. rewrite !SS. replace (/ N * / N) with (S / (S * S)) by (rewrite <- Q; field; lra). unfold Rdiv. rewrite <- !Rmult_plus_distr_r. f_equal.
  - assert (T : 2 * tiny <= 0.01 * e53 * / N).
    { assert (H : / (2 * P2 450) <= / N) by (apply Rinv_le_contravar; lra). assert (K : 1000 * tiny <= e53 * / (2 * P2 450)).
      { pose proof tiny_900 as T9. assert (P2 (-900) <= / (2 * P2 450)). { apply Rmult_le_reg_r with (2 * P2 450); [pose proof (P2_pos 450); lra |]. rewrite Rinv_l by (pose proof (P2_pos 450); lra). change 2 with (IZR (2 ^ 1)). rewrite P2_Z by lia. rewrite <- !P2_add. change 1 with (P2 0). apply P2_mono. lia. } unfold e53 in *. lra. }
      pose proof (Rinv_0_lt_compat N PN). unfold e53 in *. lra. }
    unfold e53 in *. lra.
Qed.
Lemma c131_inverse eps q : finite64 eps -> finite4 q -> within4 (P2 450) q -> P2 (-450) <= len4 (val4 q) ->
  (rval eps <= (1 - P2 (-50)) * sq (val4 q) -> exists w, q64_inverse eps (Some q) = Ok w /\ finite4 w /\
     gap4 (val4 w) (times4 (/ sq (val4 q)) (bar4 (val4 q))) <= P2 (-50) * / len4 (val4 q)) /\
  ((1 + P2 (-50)) * sq (val4 q) < rval eps -> q64_inverse eps (Some q) = Err ERuntime).
Proof.
  intros Fe F B L. destruct (fsq4_err q F B L) as [Fn En]. pose proof (sq_450 _ L). pose proof (P2_pos (-900)). pose proof (P2_pos (-450)). assert (PI : 0 < / len4 (val4 q)) by (apply Rinv_0_lt_compat; lra). rewrite <- e50. unfold q64_inverse. cbn [need3 bind]. destruct (abs_val _ Fn) as [Fa Va].
  assert (Pn : 0 <= rval (fdot4 q q)) by (apply abs_le in En; unfold e53 in *; lra). rewrite (Rabs_pos_eq _ Pn) in Va. apply abs_le in En. split; intros HE.
  - rewrite (ltb_f _ _ Fa Fe) by (rewrite Va; unfold e53 in *; lra). exists (finv4 q). split; [reflexivity |]. destruct (finv4_err q F B L) as [Fu G]. split; [exact Fu |]. unfold e53 in *; lra.
  - rewrite (ltb_t _ _ Fa Fe) by (rewrite Va; unfold e53 in *; lra). reflexivity.
Qed.
Lemma bar_conj q : bar4 q = qconj q.
Proof. reflexivity. Qed.
Lemma len_inv q : 0 < len4 q -> len4 (times4 (/ sq q) (bar4 q)) = / len4 q.
Proof. intros P. assert (S : 0 < sq q) by (rewrite <- len4_sq; nra). rewrite len_times by (apply Rlt_le, Rinv_0_lt_compat, S). rewrite bar_conj, len_conj, <- len4_sq. field. lra. Qed.
Lemma e49 : 16 * e53 = P2 (-49).
Proof. rewrite <- e53_P2. replace 16 with (P2 4) by (rewrite <- P2_Z by lia; reflexivity). rewrite <- P2_add. reflexivity. Qed.
Lemma c131_quotient r eps p q : finite64 eps -> finite4 p -> within4 (P2 450) p -> finite4 q -> within4 (P2 440) q -> P2 (-440) <= len4 (val4 q) ->
  rval eps <= (1 - P2 (-50)) * sq (val4 q) -> rval eps <= (1 - P2 (-50)) * len4 (val4 q) ->
  exists w, q64_div r eps (Some p) (Some q) = Ok w /\ finite4 w /\
    gap4 (val4 w) (hamilton (times4 (/ sq (val4 q)) (bar4 (val4 q))) (val4 p)) <= P2 (-49) * (len4 (val4 p) / len4 (val4 q)) + P2 (-1071).
Proof.
  intros Fe Fp Bp Fq Bq' Lq' H1 H2. pose proof (P2_mono 440 450 ltac:(lia)) as M1. pose proof (P2_mono (-450) (-440) ltac:(lia)) as M2.
  assert (Bq : within4 (P2 450) q) by (destruct Bq' as (A & B & C & D); repeat split; lra). assert (L : P2 (-450) <= len4 (val4 q)) by lra. pose proof (P2_pos (-440)) as P44.
  destruct (c131_inverse eps q Fe Fq Bq L) as [IA _]. destruct (IA H1) as (i & Ei & Fi & Gi0). clear IA. destruct (finv4_err q Fq Bq L) as [_ Gi].
  assert (Hi : i = finv4 q). { unfold q64_inverse in Ei. cbn [need3 bind] in Ei. destruct (SFltb (SFabs (fdot4 q q)) eps); [discriminate |]. injection Ei as <-. reflexivity. }
  subst i. clear Gi0. destruct (fnorm4_err q Fq Bq L) as [Fn En]. apply abs_le in En. exists (fmul4 r p (finv4 q)).
  set (N := len4 (val4 q)) in *. set (P := len4 (val4 p)) in *. assert (P0 : 0 <= P) by apply len4_pos. assert (PN : 0 < N) by lra. assert (IP : 0 < / N) by (apply Rinv_0_lt_compat; exact PN).
  split. { unfold q64_div, q64_norm. cbn [need3 bind]. rewrite (ltb_f _ _ Fn Fe) by (rewrite <- e50 in H2; unfold e53 in *; lra). rewrite Ei. reflexivity. }
  assert (Li : len4 (val4 (finv4 q)) <= 1.0001 * / N).
  { pose proof (len4_gap (val4 (finv4 q)) (times4 (/ sq (val4 q)) (bar4 (val4 q)))) as G. rewrite len_inv in G by (fold N; lra). fold N in G. apply abs_le in G. unfold e53 in *. lra. }
  assert (IN : / N <= P2 440). { apply Rmult_le_reg_r with N; [exact PN |]. rewrite Rinv_l by lra. replace 1 with (P2 440 * P2 (-440)) by (rewrite <- P2_add; apply P2_0). apply Rmult_le_compat_l; [apply Rlt_le, P2_pos | exact Lq']. }
  assert (Bi : within4 (P2 450) (finv4 q)) by (apply within_len; [exact Fi |]; rewrite P2_440; pose proof (P2_pos 440); lra).
  destruct (fmul4_err r p (finv4 q) Fp Fi Bp Bi) as [Fw G]. split; [exact Fw |]. rewrite <- qmul_hamilton. eapply Rle_trans; [apply (gap4_triangle _ (qmul (val4 p) (val4 (finv4 q)))) |]. rewrite gap4_mul_l. fold P in G |- *.
  assert (K1 : P * len4 (val4 (finv4 q)) <= P * (1.0001 * / N)) by (apply Rmult_le_compat_l; assumption).
  assert (K2 : P * gap4 (val4 (finv4 q)) (times4 (/ sq (val4 q)) (bar4 (val4 q))) <= P * (5.05 * e53 * / N)) by (apply Rmult_le_compat_l; assumption).
  rewrite <- e49, <- tiny16. unfold Rdiv. set (X := P * / N). replace (P * (1.0001 * / N)) with (1.0001 * X) in K1 by (unfold X; ring). replace (P * (5.05 * e53 * / N)) with (5.05 * e53 * X) in K2 by (unfold X; ring).
  assert (0 <= X) by (unfold X; nra). unfold e53 in *. lra.
Qed.
(** *** Order of products *)
Lemma c131_order r p q w : finite4 p -> finite4 q -> finite4 w -> within4 (P2 220) p -> within4 (P2 220) q -> within4 (P2 220) w ->
  exists pq qw x y, q64_mul r (Some p) (Some q) = Ok pq /\ q64_mul r (Some q) (Some w) = Ok qw /\ q64_mul r (Some pq) (Some w) = Ok x /\ q64_mul r (Some p) (Some qw) = Ok y /\
    finite4 x /\ finite4 y /\ gap4 (val4 x) (val4 y) <= P2 (-47) * (len4 (val4 p) * len4 (val4 q) * len4 (val4 w)) + P2 (-1069) * (1 + len4 (val4 p) + len4 (val4 w)).
Proof.
  intros Fp Fq Fw Bp Bq Bw. exists (fmul4 r p q), (fmul4 r q w), (fmul4 r (fmul4 r p q) w), (fmul4 r p (fmul4 r q w)). do 4 (split; [reflexivity |]).
  assert (M : P2 220 <= P2 450) by (apply P2_mono; lia). assert (M' : P2 220 * P2 220 * 1024 = P2 450) by (change 1024 with (IZR (2 ^ 10)); rewrite P2_Z, <- !P2_add by lia; reflexivity).
  assert (W : forall a, within4 (P2 220) a -> within4 (P2 450) a) by (intros a (A & B & C & D); repeat split; lra).
  assert (LW : forall a, within4 (P2 220) a -> len4 (val4 a) <= 2 * P2 220).
  { intros a (A & B & C & D). apply len4_le; [pose proof (P2_pos 220); lra |]. unfold sq, val4; cbn [qx qy qz qs]. assert (G : forall x, Rabs x <= P2 220 -> x * x <= P2 220 * P2 220) by (intros x H; apply Rsqr_le_abs_1; rewrite (Rabs_pos_eq (P2 220)); [exact H | apply Rlt_le, P2_pos]). pose proof (G _ A). pose proof (G _ B). pose proof (G _ C). pose proof (G _ D). lra. }
  destruct (fmul4_err r p q Fp Fq (W _ Bp) (W _ Bq)) as [F1 G1]. destruct (fmul4_err r q w Fq Fw (W _ Bq) (W _ Bw)) as [F2 G2].
  pose proof (LW _ Bp) as Lp. pose proof (LW _ Bq) as Lq. pose proof (LW _ Bw) as Lw. pose proof (len4_pos (val4 p)) as P0. pose proof (len4_pos (val4 q)) as Q0. pose proof (len4_pos (val4 w)) as W0.
  pose proof (len4_gap (val4 (fmul4 r p q)) (qmul (val4 p) (val4 q))) as E1. rewrite len4_mul in E1. apply abs_le in E1. pose proof (len4_gap (val4 (fmul4 r q w)) (qmul (val4 q) (val4 w))) as E2. rewrite len4_mul in E2. apply abs_le in E2.
  set (P := len4 (val4 p)) in *. set (Q := len4 (val4 q)) in *. set (V := len4 (val4 w)) in *. pose proof tiny_pos as TP. pose proof tiny_e as TE. pose proof (P2_pos 220) as P220.
  assert (P1 : 1 <= P2 220) by (rewrite <- P2_0; apply P2_mono; lia).
  assert (PQ : 0 <= P * Q <= 4 * (P2 220 * P2 220)) by (split; [nra |]; apply Rle_trans with (2 * P2 220 * (2 * P2 220)); [apply Rmult_le_compat; assumption | lra]).
  assert (QV : 0 <= Q * V <= 4 * (P2 220 * P2 220)) by (split; [nra |]; apply Rle_trans with (2 * P2 220 * (2 * P2 220)); [apply Rmult_le_compat; assumption | lra]).
  assert (PP : 1 <= P2 220 * P2 220) by nra.
  assert (N1 : len4 (val4 (fmul4 r p q)) <= 1.0001 * (P * Q) + 16 * tiny) by (unfold e53 in *; lra). assert (N2 : len4 (val4 (fmul4 r q w)) <= 1.0001 * (Q * V) + 16 * tiny) by (unfold e53 in *; lra).
  assert (B1 : within4 (P2 450) (fmul4 r p q)) by (apply within_len; [exact F1 | unfold e53 in *; lra]). assert (B2 : within4 (P2 450) (fmul4 r q w)) by (apply within_len; [exact F2 | unfold e53 in *; lra]).
  destruct (fmul4_err r _ w F1 Fw B1 (W _ Bw)) as [F3 G3]. destruct (fmul4_err r p _ Fp F2 (W _ Bp) B2) as [F4 G4]. split; [exact F3 |]. split; [exact F4 |]. fold V in G3. fold P in G4.
  set (X := qmul (qmul (val4 p) (val4 q)) (val4 w)).
  assert (D1 : gap4 (val4 (fmul4 r (fmul4 r p q) w)) X <= 16.1 * e53 * (P * Q * V) + 17 * tiny * (1 + V)).
  { eapply Rle_trans; [apply (gap4_triangle _ (qmul (val4 (fmul4 r p q)) (val4 w))) |]. unfold X. rewrite gap4_mul_r. fold V.
    assert (K1 : len4 (val4 (fmul4 r p q)) * V <= (1.0001 * (P * Q) + 16 * tiny) * V) by (apply Rmult_le_compat_r; assumption).
    assert (K2 : gap4 (val4 (fmul4 r p q)) (qmul (val4 p) (val4 q)) * V <= (8 * e53 * (P * Q) + 16 * tiny) * V) by (apply Rmult_le_compat_r; assumption).
    set (Y := P * Q * V) in *. assert (0 <= Y) by (unfold Y; nra). replace ((1.0001 * (P * Q) + 16 * tiny) * V) with (1.0001 * Y + 16 * (tiny * V)) in K1 by (unfold Y; ring). replace ((8 * e53 * (P * Q) + 16 * tiny) * V) with (8 * e53 * Y + 16 * (tiny * V)) in K2 by (unfold Y; ring).
    replace (17 * tiny * (1 + V)) with (17 * tiny + 17 * (tiny * V)) by ring. assert (0 <= tiny * V) by nra. unfold e53 in *. lra. }
  assert (D2 : gap4 X (val4 (fmul4 r p (fmul4 r q w))) <= 16.1 * e53 * (P * Q * V) + 17 * tiny * (1 + P)).
  { rewrite gap4_sym. eapply Rle_trans; [apply (gap4_triangle _ (qmul (val4 p) (val4 (fmul4 r q w)))) |]. unfold X. rewrite qmul_assoc, gap4_mul_l. fold P.
    assert (K1 : P * len4 (val4 (fmul4 r q w)) <= P * (1.0001 * (Q * V) + 16 * tiny)) by (apply Rmult_le_compat_l; assumption).
    assert (K2 : P * gap4 (val4 (fmul4 r q w)) (qmul (val4 q) (val4 w)) <= P * (8 * e53 * (Q * V) + 16 * tiny)) by (apply Rmult_le_compat_l; assumption).
    set (Y := P * Q * V) in *. assert (0 <= Y) by (unfold Y; nra). replace (P * (1.0001 * (Q * V) + 16 * tiny)) with (1.0001 * Y + 16 * (tiny * P)) in K1 by (unfold Y; ring). replace (P * (8 * e53 * (Q * V) + 16 * tiny)) with (8 * e53 * Y + 16 * (tiny * P)) in K2 by (unfold Y; ring).
    replace (17 * tiny * (1 + P)) with (17 * tiny + 17 * (tiny * P)) by ring. assert (0 <= tiny * P) by nra. unfold e53 in *. lra. }
  eapply Rle_trans; [apply (gap4_triangle _ X) |]. replace (P2 (-47)) with (64 * e53) by (change (-47)%Z with (-48 + 1)%Z; rewrite P2_succ, <- e48; ring). rewrite <- tiny64.
  set (Y := P * Q * V) in *. assert (0 <= Y) by (unfold Y; nra). replace (17 * tiny * (1 + V)) with (17 * tiny + 17 * (tiny * V)) in D1 by ring. replace (17 * tiny * (1 + P)) with (17 * tiny + 17 * (tiny * P)) in D2 by ring. replace (64 * tiny * (1 + P + V)) with (64 * tiny + 64 * (tiny * P) + 64 * (tiny * V)) by ring.
  assert (0 <= tiny * V) by nra. assert (0 <= tiny * P) by nra. unfold e53 in *. lra.
Qed.
