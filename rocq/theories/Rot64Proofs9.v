From Coq Require Import List Bool ZArith Reals Lra Lia Psatz Floats.SpecFloat.
From Verif Require Import Result Vec Mat3 VecProofs AngleModel FloatModel FloatSpec FloatProofs FloatProofs2 FloatProofs3 FloatProofs4 FloatProofs5 FloatProofs7 FloatProofs8 FloatProofs10
  Geo3Spec Geo3Proofs Geo3Proofs2 Geo64Model Geo64Spec Geo64Proofs Geo64Proofs2 Geo64Proofs3 Geo64Proofs4 Geo64Proofs5 Geo64Proofs6 Geo64Proofs8 RotModel RotSpec RotProofs Rot64Model Rot64Spec Rot64Proofs Rot64Proofs2 Rot64Proofs3 Rot64Proofs4 Rot64Proofs5 Rot64Proofs6 Rot64Proofs7 Rot64Proofs8.
Import ListNotations.
Local Open Scope R_scope.

(** *** Sums of three products, norms *)
Lemma absdot3 a b c a' b' c' : Rabs (a * a') + Rabs (b * b') + Rabs (c * c') <= norm3 (V3 a b c) * norm3 (V3 a' b' c').
Proof.
  pose proof (cauchy4 a b c 0 a' b' c' 0 (norm3 (V3 a b c)) (norm3 (V3 a' b' c')) (norm3_nonneg _) (norm3_nonneg _)) as C. rewrite !norm3_sq in C. unfold sqnorm3, dot3 in C; cbn [vx vy vz] in C.
  assert (H : Rabs (a * a') + Rabs (b * b') + Rabs (c * c') + Rabs (0 * 0) <= norm3 (V3 a b c) * norm3 (V3 a' b' c')) by (apply C; lra). rewrite Rmult_0_l, Rabs_R0 in H. lra.
Qed.
Lemma fdot3_near r a b : finite3 a -> finite3 b -> within3 (P2 450) a -> within3 (P2 450) b ->
  near64 (fdot3 r a b) (dot3 (val3 a) (val3 b)) (3.03 * e53 * (norm3 (val3 a) * norm3 (val3 b)) + 4 * tiny).
Proof.
  intros (F1 & F2 & F3) (G1 & G2 & G3) (B1 & B2 & B3) (D1 & D2 & D3).
  pose proof (absdot3 (rval (fx a)) (rval (fy a)) (rval (fz a)) (rval (fx b)) (rval (fy b)) (rval (fz b))) as C. change (V3 (rval (fx a)) (rval (fy a)) (rval (fz a))) with (val3 a) in C. change (V3 (rval (fx b)) (rval (fy b)) (rval (fz b))) with (val3 b) in C.
  set (N := norm3 (val3 a) * norm3 (val3 b)) in *. unfold fdot3, dot3, val3; cbn [vx vy vz].
  pose proof (near_prod_450 _ _ F1 G1 B1 D1) as N1. pose proof (near_prod_450 _ _ F2 G2 B2 D2) as N2. pose proof (near_prod_450 _ _ F3 G3 B3 D3) as N3.
  pose proof (prod_450 _ _ B1 D1) as P1. pose proof (prod_450 _ _ B2 D2) as P2'. pose proof (prod_450 _ _ B3 D3) as P3.
  set (x := rval (fx a) * rval (fx b)) in *. set (y := rval (fy a) * rval (fy b)) in *. set (z := rval (fz a) * rval (fz b)) in *.
  pose proof (Rabs_pos x). pose proof (Rabs_pos y). pose proof (Rabs_pos z). pose proof P2_900 as [T1 T2]. pose proof tiny_1. pose proof tiny_pos.
  refine (near_le _ _ _ _ (near_sum64 r _ _ _ _ _ _ _ _ _ (Rabs x) (Rabs y) (Rabs z) N1 N2 N3 (Rle_refl _) (Rle_refl _) (Rle_refl _) _) _).
  - unfold e53; lra.
  - assert (K : e53 * (Rabs x + Rabs y + Rabs z) <= e53 * N) by (apply Rmult_le_compat_l; [pose proof e53_pos; lra | exact C]). unfold e53 in *. lra.
Qed.
Lemma norm_within a B : 0 <= B -> within3 B a -> norm3 (val3 a) <= 2 * B.
Proof.
  intros P (B1 & B2 & B3). apply Rsqr_incr_0_var; [| lra]. unfold Rsqr. rewrite norm3_sq. unfold sqnorm3, dot3, val3; cbn [vx vy vz].
  assert (G : forall x, Rabs x <= B -> x * x <= B * B). { intros x H. apply Rsqr_le_abs_1. rewrite (Rabs_pos_eq B); assumption. }
  pose proof (G _ B1). pose proof (G _ B2). pose proof (G _ B3). nra.
Qed.
Lemma within_norm a B : norm3 (val3 a) <= B -> within3 B a.
Proof.
  intros L. pose proof (norm3_nonneg (val3 a)). pose proof (norm3_sq (val3 a)) as S. unfold sqnorm3, dot3 in S. unfold val3 in S at 3 4 5 6 7 8; cbn [vx vy vz] in S.
  assert (G : forall x, x * x <= norm3 (val3 a) * norm3 (val3 a) -> Rabs x <= B). { intros x K. apply Rle_trans with (norm3 (val3 a)); [| exact L]. rewrite <- (Rabs_pos_eq (norm3 (val3 a))) by assumption. apply Rsqr_le_abs_0. exact K. }
  repeat split; apply G; nra.
Qed.
Lemma fnorm3_any r a : finite3 a -> within3 (P2 450) a ->
  finite64 (fnorm3 r a) /\ 0 <= rval (fnorm3 r a) <= P2 500 /\ (Rabs (rval (fnorm3 r a) - norm3 (val3 a)) <= 2.6 * e53 * norm3 (val3 a) \/ norm3 (val3 a) <= 0.3 /\ rval (fnorm3 r a) <= 0.3).
Proof.
  intros F B. destruct (fdot3_near r a a F F B B) as [Fs E]. pose proof (norm3_nonneg (val3 a)) as NP. set (N := norm3 (val3 a)) in *.
  assert (SN : dot3 (val3 a) (val3 a) = N * N) by (unfold N; rewrite norm3_sq; reflexivity). rewrite SN in E. apply abs_le in E.
  destruct (sqnorm_pos r a 450 F B ltac:(lia)) as [_ Ps]. unfold fsqnorm3 in Ps. pose proof (sqrt_err _ Fs Ps) as K. rewrite e53_P2 in K.
  assert (Fn : finite64 (fnorm3 r a)) by (exact (proj1 (proj1 (SFsqrt_rounded _ Fs Ps)))). split; [exact Fn |]. unfold fnorm3, fsqnorm3, b64_sqrt in *. set (s := rval (fdot3 r a a)) in *. set (n := rval (SFsqrt 53 1024 (fdot3 r a a))) in *.
  pose proof (sqrt_pos s) as Q0. apply abs_le in K. pose proof (norm_within a (P2 450) (Rlt_le _ _ (P2_pos 450)) B) as LW. fold N in LW.
  assert (P500 : 4 * P2 450 <= P2 500) by (replace 4 with (P2 2) by (rewrite <- P2_Z by lia; reflexivity); rewrite <- P2_add; apply P2_mono; lia). pose proof (P2_mono 0 500 ltac:(lia)) as M. rewrite P2_0 in M.
  destruct (Rle_lt_dec (P2 (-450)) N) as [L | L].
  - assert (PN : 0 < N) by (pose proof (P2_pos (-450)); lra). assert (S9 : P2 (-900) <= N * N) by (change (-900)%Z with (-450 + -450)%Z; rewrite P2_add; pose proof (P2_pos (-450)); apply Rmult_le_compat; lra).
    pose proof tiny_900 as T. pose proof (sqrt_rel s (N * N) (3.04 * e53) ltac:(nra) ltac:(unfold e53; lra)) as R. rewrite sqrt_square in R by exact NP.
    assert (R' : Rabs (sqrt s - N) <= 0.506 * (3.04 * e53) * N) by (apply R; apply abs_of; unfold e53 in *; lra). apply abs_le in R'. split; [unfold e53 in *; lra |]. left. apply abs_of. unfold e53 in *. lra.
  - assert (LS : P2 (-450) <= / 100) by (apply Rle_trans with (P2 (-7)); [apply P2_mono; lia | rewrite P2_m by lia; apply Rinv_le_contravar; [lra | apply IZR_le; lia]]). assert (S1 : N * N <= / 10000) by nra. pose proof tiny_e.
    assert (Q1 : sqrt s <= 0.2) by (apply Rsqr_incr_0_var; [unfold Rsqr; rewrite sqrt_sqrt by exact Ps; unfold e53 in *; lra | lra]). unfold e53 in *. split; [lra |]. right. lra.
Qed.

(** *** The checks of the constructor *)
Lemma long_near r eps a : finite3 a -> within3 (P2 450) a -> finite64 eps -> 0 <= rval eps <= / 4 ->
  (norm3 (val3 a) + 4.3 * e53 <= 1 + rval eps -> SFltb eps (sf_sub (fnorm3 r a) one_64) = false) /\ (SFltb eps (sf_sub (fnorm3 r a) one_64) = false -> norm3 (val3 a) <= 1 + rval eps + 4.3 * e53).
Proof.
  intros F B Fe He. destruct (fnorm3_any r a F B) as (Fn & Bn & E). destruct (minus_one _ Fn ltac:(rewrite Rabs_pos_eq by lra; lra)) as [Fm Em]. pose proof (norm3_nonneg (val3 a)) as NP.
  set (N := norm3 (val3 a)) in *. set (n := rval (fnorm3 r a)) in *. set (m := rval (sf_sub (fnorm3 r a) one_64)) in *. pose proof (Rabs_pos (n - 1)) as A2.
  assert (EQ : SFltb eps (sf_sub (fnorm3 r a) one_64) = false <-> m <= rval eps).
  { split; intros H; [| apply ltb_f; assumption]. destruct (Rle_lt_dec m (rval eps)) as [L | L]; [exact L |]. rewrite (ltb_t eps _ Fe Fm L) in H. discriminate. }
  apply abs_le in Em. destruct E as [E | [E1 E2]].
  - apply abs_le in E. rewrite EQ. split; intros H.
    + assert (Rabs (n - 1) <= 1) by (apply abs_of; unfold e53 in *; lra). unfold e53 in *. lra.
    + destruct (Rle_lt_dec n 1) as [L | L]; [unfold e53 in *; lra |]. rewrite (Rabs_pos_eq (n - 1)) in Em by lra. unfold e53 in *. lra.
  - rewrite EQ. assert (n - 1 < 0) by lra. rewrite (Rabs_left (n - 1)) in Em by assumption. unfold e53 in *. split; intros; lra.
Qed.
Lemma oblique_near r eps a b : finite3 a -> finite3 b -> norm3 (val3 a) <= 1.27 -> norm3 (val3 b) <= 1.27 -> finite64 eps ->
  (Rabs (dot3 (val3 a) (val3 b)) + 5 * e53 <= rval eps -> SFltb eps (SFabs (fdot3 r a b)) = false) /\ (SFltb eps (SFabs (fdot3 r a b)) = false -> Rabs (dot3 (val3 a) (val3 b)) <= rval eps + 5 * e53).
Proof.
  intros F G A B Fe. pose proof P2_450_2. assert (WA : within3 (P2 450) a) by (apply within_norm; lra). assert (WB : within3 (P2 450) b) by (apply within_norm; lra).
  destruct (fdot3_near r a b F G WA WB) as [Fd E]. destruct (abs_val _ Fd) as [Fa Va].
  assert (EQ : SFltb eps (SFabs (fdot3 r a b)) = false <-> Rabs (rval (fdot3 r a b)) <= rval eps).
  { rewrite <- Va. split; intros H'; [| apply ltb_f; assumption]. destruct (Rle_lt_dec (rval (SFabs (fdot3 r a b))) (rval eps)) as [L | L]; [exact L |]. rewrite (ltb_t eps _ Fe Fa L) in H'. discriminate. }
  rewrite EQ. pose proof (norm3_nonneg (val3 a)). pose proof (norm3_nonneg (val3 b)). assert (NN : norm3 (val3 a) * norm3 (val3 b) <= 1.27 * 1.27) by (apply Rmult_le_compat; assumption). pose proof tiny_e.
  set (d := rval (fdot3 r a b)) in *. set (D := dot3 (val3 a) (val3 b)) in *.
  pose proof (Rabs_triang (d - D) D) as T1. replace (d - D + D) with d in T1 by ring. pose proof (Rabs_triang (D - d) d) as T2. replace (D - d + d) with D in T2 by ring. rewrite (Rabs_minus_sym D d) in T2.
  unfold e53 in *. split; intros; lra.
Qed.
Lemma col_val m : col3 (val33 m) 0 = val3 (c64_0 m) /\ col3 (val33 m) 1 = val3 (c64_1 m) /\ col3 (val33 m) 2 = val3 (c64_2 m).
Proof. repeat split. Qed.
Lemma ok_near r eps m : finite33 m -> within33 (P2 450) m -> finite64 eps -> 0 <= rval eps <= / 4 ->
  (columns_tolerated (rval eps - 5 * e53) (val33 m) -> rm64_ok r eps m = true) /\ (rm64_ok r eps m = true -> columns_tolerated (rval eps + 5 * e53) (val33 m)).
Proof.
  intros (F0 & F1 & F2) (B0 & B1 & B2) Fe He.
  destruct (long_near r eps _ F0 B0 Fe He) as [L0 L0']. destruct (long_near r eps _ F1 B1 Fe He) as [L1 L1']. destruct (long_near r eps _ F2 B2 Fe He) as [L2 L2'].
  unfold rm64_ok. rewrite !andb_true_iff, !negb_true_iff. unfold columns_tolerated. destruct (col_val m) as (C0 & C1 & C2). pose proof e53_pos. split.
  - intros [N D]. pose proof (N 0%nat ltac:(lia)) as N0. pose proof (N 1%nat ltac:(lia)) as N1. pose proof (N 2%nat ltac:(lia)) as N2.
    pose proof (D 0%nat 1%nat ltac:(lia) ltac:(lia) ltac:(lia)) as D0. pose proof (D 1%nat 2%nat ltac:(lia) ltac:(lia) ltac:(lia)) as D1. pose proof (D 2%nat 0%nat ltac:(lia) ltac:(lia) ltac:(lia)) as D2. rewrite ?C0, ?C1, ?C2 in *.
    destruct (oblique_near r eps _ _ F0 F1 ltac:(lra) ltac:(lra) Fe) as [O0 _]. destruct (oblique_near r eps _ _ F1 F2 ltac:(lra) ltac:(lra) Fe) as [O1 _]. destruct (oblique_near r eps _ _ F2 F0 ltac:(lra) ltac:(lra) Fe) as [O2 _].
    repeat split; [apply L0 | apply L1 | apply L2 | apply O0 | apply O1 | apply O2]; lra.
  - intros [[[[[H0 H1] H2] H3] H4] H5]. specialize (L0' H0). specialize (L1' H1). specialize (L2' H2). assert (5 * e53 <= / 100) by (unfold e53; lra).
    destruct (oblique_near r eps _ _ F0 F1 ltac:(lra) ltac:(lra) Fe) as [_ O0]. destruct (oblique_near r eps _ _ F1 F2 ltac:(lra) ltac:(lra) Fe) as [_ O1]. destruct (oblique_near r eps _ _ F2 F0 ltac:(lra) ltac:(lra) Fe) as [_ O2].
    specialize (O0 H3). specialize (O1 H4). specialize (O2 H5). split.
    + intros [| [| [| j]]] J; try lia; rewrite ?C0, ?C1, ?C2; lra.
    + intros [| [| [| i]]] [| [| [| j]]] Hi Hj D; try lia; rewrite ?C0, ?C1, ?C2; try assumption; rewrite dot3_sym; assumption.
Qed.
Lemma c134_near r eps m : finite33 m -> within33 (P2 450) m -> finite64 eps -> 0 <= rval eps <= / 4 ->
  (columns_tolerated (rval eps - P2 (-50)) (val33 m) -> RotationMatrix64 r eps m = Ok m) /\
  (columns_tolerated (rval eps + P2 (-50)) (val33 m) \/ RotationMatrix64 r eps m = Err ERuntime).
Proof.
  intros F B Fe He. destruct (ok_near r eps m F B Fe He) as [H1 H2]. rewrite <- e50. pose proof e53_pos.
  assert (MO : forall x y, x <= y -> columns_tolerated x (val33 m) -> columns_tolerated y (val33 m)).
  { intros x y L [A D]. split; [intros j J; specialize (A j J); lra | intros i j Hi Hj N; specialize (D i j Hi Hj N); lra]. }
  unfold RotationMatrix64. split.
  - intros H3. rewrite H1; [reflexivity |]. apply (MO (rval eps - 8 * e53)); [lra | exact H3].
  - destruct (rm64_ok r eps m); [left; apply (MO (rval eps + 5 * e53)); [lra | exact (H2 eq_refl)] | right; reflexivity].
Qed.
