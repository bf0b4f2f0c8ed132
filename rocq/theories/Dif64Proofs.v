(** The square root of a square, and the scalar part of normalized quaternions (C151, C152). *)

From Coq Require Import List Bool ZArith Reals Lra Lia Psatz Floats.SpecFloat.
From Verif Require Import Result Vec Mat3 VecProofs AngleModel FloatModel FloatSpec FloatProofs FloatProofs2 FloatProofs3 FloatProofs4 FloatProofs5 FloatProofs7 FloatProofs8 FloatProofs10
  Geo3Spec Geo3Proofs Geo3Proofs2 Geo64Model Geo64Spec Geo64Proofs Geo64Proofs2 Geo64Proofs3 Geo64Proofs4 Geo64Proofs5 Geo64Proofs6 Geo64Proofs7 Geo64Proofs8 RotModel RotSpec RotProofs RotProofs2 RotProofs3 RotProofs4 RotProofs5 RotProofs7 RotProofs9 Rot64Model Rot64Spec Rot64Spec2 Rot64Proofs Rot64Proofs2 Rot64Proofs3 Rot64Proofs4 Rot64Proofs5 Rot64Proofs6 Rot64Proofs7 Rot64Proofs8 Rot64Proofs9 Rot64Proofs10 Rot64Proofs11 Rot64Proofs12 Rot64Proofs13 Rot64Proofs14 Rot64Proofs15 Rot64Proofs16 Rot64Proofs17 Att64Model Att64Spec Att64Proofs Att64Proofs2 Att64Proofs3 Att64Proofs4 Att64Proofs5 Att64Proofs7 Att64Proofs8 Att64Proofs9 Att64Proofs10 Pow64Model Pow64Spec Pow64Proofs Pow64Proofs2 Pow64Proofs3 Pow64Proofs4 Dif64Model Dif64Spec.
Import ListNotations.
Local Open Scope R_scope.

(** *** The square root of a square *)
Lemma spaced w E m : finite64 w -> (-1074 <= E)%Z -> (2 ^ 52 < m)%Z -> rval w <> IZR m * P2 E -> rval w <= IZR (m - 1) * P2 E \/ IZR (m + 1) * P2 E <= rval w.
Proof.
  intros F LE LM N. pose proof (P2_pos E) as PE. destruct (finite_grid w E F LE) as [[M HM] | B].
  - rewrite HM in *. assert (M <> m) by (intros ->; apply N; reflexivity). destruct (Z.lt_ge_cases M m) as [L | L]; [left | right]; (apply Rmult_le_compat_r; [lra | apply IZR_le; lia]).
  - left. apply abs_le in B. rewrite Z.add_comm, P2_add in B. assert (P2 52 <= IZR (m - 1)) by (rewrite <- P2_Z by lia; apply IZR_le; lia). assert (P2 52 * P2 E <= IZR (m - 1) * P2 E) by (apply Rmult_le_compat_r; lra). lra.
Qed.
Lemma square_gap m : (2 ^ 52 <= m < 2 ^ 53)%Z -> P2 (-53) * (IZR m * IZR m) <= IZR m - / 2.
Proof.
  intros H. assert (A : IZR m <= P2 53 - 1) by (rewrite <- P2_Z by lia; rewrite <- minus_IZR; apply IZR_le; lia). assert (B : P2 52 <= IZR m) by (rewrite <- P2_Z by lia; apply IZR_le; lia). pose proof (P2_pos (-53)) as P. assert (Q : P2 (-53) * P2 53 = 1) by (rewrite <- P2_add; apply P2_0). assert (Q2 : P2 (-53) * P2 52 = / 2) by (rewrite <- P2_add; change (-53 + 52)%Z with (-1)%Z; rewrite P2_m by lia; reflexivity).
  pose proof (P2_pos 52). set (k := IZR m) in *. assert (C : P2 (-53) * (k * k) <= P2 (-53) * (k * (P2 53 - 1))) by (apply Rmult_le_compat_l; [lra | apply Rmult_le_compat_l; lra]). assert (D : P2 (-53) * P2 52 <= P2 (-53) * k) by (apply Rmult_le_compat_l; lra). replace (P2 (-53) * (k * (P2 53 - 1))) with (k * (P2 (-53) * P2 53) - P2 (-53) * k) in C by ring. rewrite Q in C. lra.
Qed.
Lemma sqrt_le_sq x y : 0 <= y -> sqrt x <= y -> 0 <= x -> x <= y * y.
Proof. intros Y H X. rewrite <- (sqrt_sqrt x X). apply Rmult_le_compat; try apply sqrt_pos; assumption. Qed.
Lemma sq_le_sqrt x y : 0 <= y -> y <= sqrt x -> 0 <= x -> y * y <= x.
Proof. intros Y H X. rewrite <- (sqrt_sqrt x X). apply Rmult_le_compat; assumption. Qed.
Lemma normal_form x : finite64 x -> P2 (-1000) <= Rabs (rval x) -> exists m E, (-1074 <= E)%Z /\ (2 ^ 52 <= m < 2 ^ 53)%Z /\ Rabs (rval x) = IZR m * P2 E.
Proof.
  intros F L. pose proof (P2_pos (-1000)) as P. destruct x as [b | b | | b m e]; try contradiction; cbn [finite64 rval] in *.
  - rewrite Rabs_R0 in L. lra.
  - apply bounded_spec in F. destruct F as (B1 & B2 & B3). fold (P2 e) (sg b) in L |- *. rewrite Rmult_assoc, sg_abs in L |- * by (apply Rmult_le_pos; [apply IZR_le; lia | apply Rlt_le, P2_pos]). exists (Zpos m), e. split; [lia |]. split; [| reflexivity]. destruct B3 as [-> | B3]; [| lia]. exfalso.
    assert (A : IZR (Z.pos m) <= P2 53) by (rewrite <- P2_Z by lia; apply IZR_le; lia). pose proof (P2_pos (-1074)) as Q. assert (C : IZR (Z.pos m) * P2 (-1074) <= P2 53 * P2 (-1074)) by (apply Rmult_le_compat_r; lra). rewrite <- P2_add in C. change (53 + -1074)%Z with (-21 + -1000)%Z in C. rewrite P2_add in C. assert (D : P2 (-21) = / 2097152) by (rewrite P2_m by lia; reflexivity). rewrite D in C. lra.
Qed.
Lemma fsqrt_square x M : finite64 x -> P2 (-400) <= Rabs (rval x) <= P2 400 -> finite64 M -> rval M = rval (b64_mul x x) -> finite64 (b64_sqrt M) /\ rval (b64_sqrt M) = Rabs (rval x).
Proof.
  intros F B FM EM. set (a := Rabs (rval x)) in *. assert (AA : rval x * rval x = a * a) by (unfold a; rewrite <- Rabs_mult, Rabs_pos_eq; [reflexivity | apply Rle_0_sqr]).
  pose proof (P2_pos (-400)) as P4. assert (A0 : 0 < a) by lra. assert (AH : a * a <= P2 800) by (change 800%Z with (400 + 400)%Z; rewrite P2_add; apply Rmult_le_compat; lra). assert (AL : P2 (-800) <= a * a) by (change (-800)%Z with (-400 + -400)%Z; rewrite P2_add; apply Rmult_le_compat; lra).
  pose proof (P2_mono 800 1023 ltac:(lia)) as M1. pose proof (P2_mono (-1021) (-800) ltac:(lia)) as M2. pose proof (P2_pos (-800)) as P8.
  assert (R : rounded64 (a * a) (b64_mul x x)). { rewrite <- AA. apply SFmul_rounded; [exact F | exact F |]. rewrite AA, Rabs_pos_eq; lra. }
  assert (ER : Rabs (rval M - a * a) <= P2 (-53) * (a * a)). { rewrite EM. destruct R as [_ [E | [_ E]]]; rewrite (Rabs_pos_eq (a * a)) in E by lra; [exact E | fold (P2 (-1021)) in E; lra]. }
  assert (P53 : P2 (-53) <= / 1000) by (rewrite e53_P2; unfold e53; lra). pose proof (P2_pos (-53)) as P53'. pose proof (abs_le _ _ ER) as ER'. assert (LOW : P2 (-53) * (a * a) <= / 1000 * (a * a)) by (apply Rmult_le_compat_r; lra). assert (M0 : 0 <= rval M) by lra.
  destruct (SFsqrt_rounded M FM M0) as [NS _]. change (SFsqrt 53 1024 M) with (b64_sqrt M) in NS. destruct NS as [FS NS]. split; [exact FS |]. set (s := rval (b64_sqrt M)) in *.
  assert (FA : finite64 (SFabs x) /\ rval (SFabs x) = a). { unfold a. destruct x as [b | b | | b m e]; try contradiction; cbn [SFabs finite64 rval]. - split; [exact I |]. rewrite Rabs_R0. reflexivity. - split; [exact F |]. rewrite !Rmult_assoc. fold (sg b). rewrite sg_abs. + ring. + apply Rmult_le_pos; [apply IZR_le; lia | apply Rlt_le, P2_pos]. }
  pose proof (NS (SFabs x) (proj1 FA)) as NA. rewrite (proj2 FA) in NA. pose proof (sqrt_pos (rval M)) as SP.
  (* a = m 2^E *)
  assert (REP : exists m E, (-1074 <= E)%Z /\ (2 ^ 52 <= m < 2 ^ 53)%Z /\ a = IZR m * P2 E).
  { apply normal_form; [exact F |]. pose proof (P2_mono (-1000) (-400) ltac:(lia)). fold a. lra. }
  destruct REP as (m & E & HE & HM & HA). pose proof (P2_pos E) as PE. destruct (Z.eq_dec m (2 ^ 52)) as [-> | NM].
  - assert (A2 : a = P2 (52 + E)) by (rewrite HA, P2_add; f_equal; apply P2_Z; lia). assert (EX : rval (b64_mul x x) = a * a).
    { apply (nearest_exact _ _ (proj1 R)). exists (b64_mul (SFabs x) (SFabs x)). clear -FA A2 A0 AH AL M1 M2 P8. destruct FA as [FA VA].
      assert (RR : representable (IZR 1 * P2 (52 + E + (52 + E)))). { assert (AE : a * a = P2 (52 + E + (52 + E))) by (rewrite A2, <- P2_add; reflexivity). rewrite AE in AH, AL. assert (L1 : (-801 < 52 + E + (52 + E))%Z). { apply Z.nle_gt. intros C. pose proof (P2_mono _ _ C). pose proof (P2_add 1 (-801)) as Q. change (1 + -801)%Z with (-800)%Z in Q. pose proof (P2_pos (-801)). assert (P1 : P2 1 = 2) by (rewrite <- P2_Z by lia; reflexivity). rewrite P1 in Q. lra. } assert (L2 : (52 + E + (52 + E) < 801)%Z). { apply Z.nle_gt. intros C. pose proof (P2_mono _ _ C). pose proof (P2_add 1 800) as Q. change (1 + 800)%Z with 801%Z in Q. pose proof (P2_pos 800). assert (P1 : P2 1 = 2) by (rewrite <- P2_Z by lia; reflexivity). rewrite P1 in Q. lra. } apply grid_representable; [lia | lia |]. change (Z.abs 1) with 1%Z. rewrite Rmult_1_l. apply P2_mono. lia. }
      rewrite Rmult_1_l in RR. assert (AE : a * a = P2 (52 + E + (52 + E))) by (rewrite A2, <- P2_add; reflexivity). rewrite <- AE in RR. assert (R2 : rounded64 (a * a) (b64_mul (SFabs x) (SFabs x))) by (rewrite <- VA; apply SFmul_rounded; [exact FA | exact FA | rewrite VA, Rabs_pos_eq; lra]). split; [exact (proj1 (proj1 R2)) |]. apply (nearest_exact _ _ (proj1 R2) RR). }
    rewrite EM, EX in *. rewrite sqrt_square in * by lra. assert (Z : Rabs (s - a) <= 0). { eapply Rle_trans; [exact NA |]. rewrite Rminus_diag_eq, Rabs_R0 by reflexivity. lra. } apply abs_le in Z. lra.
  - assert (HM' : (2 ^ 52 < m)%Z) by lia. destruct (Req_dec s a) as [Q | NQ]; [exact Q | exfalso]. pose proof (square_gap m HM) as SG. set (k := IZR m) in *. set (u := P2 E) in *. assert (K : 1000 <= k) by (apply IZR_le; lia).
    assert (ERK : P2 (-53) * (a * a) <= (k - / 2) * (u * u)). { rewrite HA. replace (P2 (-53) * (k * u * (k * u))) with (P2 (-53) * (k * k) * (u * u)) by ring. apply Rmult_le_compat_r; [| exact SG]. apply Rmult_le_pos; lra. }
    pose proof (Rmult_lt_0_compat _ _ PE PE) as UU. destruct (spaced (b64_sqrt M) E m FS HE HM') as [D | D]; [fold s k u; lra | |]; fold s u in D; [rewrite minus_IZR in D | rewrite plus_IZR in D]; fold k in D.
    + assert (T : sqrt (rval M) <= a - u / 2). { apply Rnot_lt_le. intros C. rewrite HA in *. destruct (Rle_or_lt (k * u) (sqrt (rval M))) as [G | G]; [rewrite (Rabs_left1 (s - _)), (Rabs_left1 (k * u - _)) in NA by lra; lra |]. rewrite (Rabs_pos_eq (k * u - _)) in NA by lra. apply abs_le in NA. lra. }
      apply sqrt_le_sq in T; [| rewrite HA; nra | exact M0]. rewrite HA in *. assert ((k * u - u / 2) * (k * u - u / 2) = k * u * (k * u) - (k - / 4) * (u * u)) by field. lra.
    + assert (T : a + u / 2 <= sqrt (rval M)). { apply Rnot_lt_le. intros C. rewrite HA in *. destruct (Rle_or_lt (sqrt (rval M)) (k * u)) as [G | G]; [rewrite (Rabs_pos_eq (s - _)), (Rabs_pos_eq (k * u - _)) in NA by lra; lra |]. rewrite (Rabs_left1 (k * u - _)) in NA by lra. apply abs_le in NA. lra. }
      apply sq_le_sqrt in T; [| rewrite HA; nra | exact M0]. rewrite HA in *. assert ((k * u + u / 2) * (k * u + u / 2) = k * u * (k * u) + (k + / 4) * (u * u)) by field. lra.
Qed.

(** *** The scalar part of a normalized quaternion is at most 1 *)
Lemma P2_big : 1000000 <= P2 1023.
Proof. pose proof (P2_mono 20 1023 ltac:(lia)) as M. rewrite <- (P2_Z 20) in M by lia. change (2 ^ 20)%Z with 1048576%Z in M. lra. Qed.
Lemma square_up x : finite64 x -> Rabs (rval x) <= 4 -> finite64 (b64_mul x x) /\ 0 <= rval (b64_mul x x) <= 17 /\ nearest64 (rval x * rval x) (b64_mul x x) /\ rval (b64_mul x x) <= 1.001 * (rval x * rval x) + tiny.
Proof.
  intros F B. pose proof P2_big as PB. pose proof (Rle_0_sqr (rval x)) as SQ. unfold Rsqr in SQ. assert (S16 : rval x * rval x <= 16) by (apply abs_le in B; nra).
  destruct (SFmul_rounded x x F F ltac:(rewrite Rabs_pos_eq; lra)) as [N _]. change (SFmul 53 1024 x x) with (b64_mul x x) in N. destruct (mul_any x x F F ltac:(rewrite Rabs_pos_eq; lra)) as [Fm E]. rewrite (Rabs_pos_eq (rval x * rval x)) in E by lra. apply abs_le in E.
  pose proof (nearest_below _ _ zero64 N I ltac:(change (rval zero64) with 0; lra)) as L. change (rval zero64) with 0 in L. assert (ES : e53 * (rval x * rval x) <= 0.001 * (rval x * rval x)) by (apply Rmult_le_compat_r; [lra | unfold e53; lra]). pose proof tiny_e4. assert (e53 <= / 1000) by (unfold e53; lra). repeat split; try assumption; try exact (proj2 N); lra.
Qed.
Lemma sum_up x y : finite64 x -> finite64 y -> 0 <= rval x <= 100 -> 0 <= rval y <= 100 -> finite64 (sf_add x y) /\ rval x <= rval (sf_add x y) /\ rval y <= rval (sf_add x y) /\ rval (sf_add x y) <= 1.001 * (rval x + rval y) /\ nearest64 (rval x + rval y) (sf_add x y).
Proof.
  intros Fx Fy Bx By. pose proof P2_big as PB. destruct (SFadd_rounded x y Fx Fy ltac:(rewrite Rabs_pos_eq; lra)) as [N _]. change (SFadd 53 1024 x y) with (sf_add x y) in N. destruct (add_any x y Fx Fy ltac:(rewrite Rabs_pos_eq; lra)) as [Fs E]. rewrite (Rabs_pos_eq (rval x + rval y)) in E by lra. apply abs_le in E.
  pose proof (nearest_below _ _ x N Fx ltac:(lra)). pose proof (nearest_below _ _ y N Fy ltac:(lra)). assert (ES : e53 * (rval x + rval y) <= 0.001 * (rval x + rval y)) by (apply Rmult_le_compat_r; [lra | unfold e53; lra]). repeat split; try assumption; try exact (proj2 N); lra.
Qed.
Lemma squares w : finite4 w -> within4 4 w -> exists A, fdot4 w w = sf_add A (b64_mul (q64s w) (q64s w)) /\ finite64 A /\ 0 <= rval A <= 60 /\ rval A <= 1.01 * (rval (q64x w) * rval (q64x w) + rval (q64y w) * rval (q64y w) + rval (q64z w) * rval (q64z w)) + 4 * tiny.
Proof.
  intros (F1 & F2 & F3 & F4) (B1 & B2 & B3 & B4). destruct (square_up _ F1 B1) as (X1 & X2 & _ & X3). destruct (square_up _ F2 B2) as (Y1 & Y2 & _ & Y3). destruct (square_up _ F3 B3) as (Z1 & Z2 & _ & Z3).
  destruct (sum_up _ _ X1 Y1 ltac:(lra) ltac:(lra)) as (S1 & S2 & S3 & S4 & _). destruct (sum_up _ _ S1 Z1 ltac:(lra) ltac:(lra)) as (T1 & T2 & T3 & T4 & _).
  eexists. split; [reflexivity |]. split; [exact T1 |]. pose proof tiny_pos. pose proof (Rle_0_sqr (rval (q64x w))) as Q1. pose proof (Rle_0_sqr (rval (q64y w))) as Q2. pose proof (Rle_0_sqr (rval (q64z w))) as Q3. unfold Rsqr in *. split; lra.
Qed.
Lemma norm4_above w : finite4 w -> within4 4 w -> P2 (-400) <= Rabs (rval (q64s w)) -> finite64 (fnorm4 w) /\ Rabs (rval (q64s w)) <= rval (fnorm4 w).
Proof.
  intros F B L. destruct (squares w F B) as (A & HA & FA & A0 & _). destruct F as (F1 & F2 & F3 & F4). destruct B as (B1 & B2 & B3 & B4). destruct (square_up _ F4 B4) as (S1 & S2 & _). destruct (sum_up _ _ FA S1 ltac:(lra) ltac:(lra)) as (T1 & T2 & T3 & T4 & _).
  unfold fnorm4. rewrite HA. set (M := b64_mul (q64s w) (q64s w)) in *. set (N := sf_add A M) in *. pose proof (P2_mono 2 400 ltac:(lia)) as P4. rewrite P2_2 in P4. destruct (fsqrt_square _ M F4 ltac:(lra) S1 eq_refl) as [Fs Vs].
  destruct (SFsqrt_rounded N T1 ltac:(lra)) as [NN _]. change (SFsqrt 53 1024 N) with (b64_sqrt N) in NN. split; [exact (proj1 NN) |].
  destruct (Req_dec (rval N) (rval M)) as [Q | Q]; [right; symmetry; apply (fsqrt_square _ N F4 ltac:(lra) T1); exact Q |].
  rewrite <- Vs. destruct (SFsqrt_rounded M S1 ltac:(lra)) as [NM _]. change (SFsqrt 53 1024 M) with (b64_sqrt M) in NM. apply (nearest_mono _ _ _ _ NM NN). apply sqrt_lt_1; lra.
Qed.
Lemma scalar_at_most eps w u : finite4 w -> within4 4 w -> finite64 (fnorm4 w) -> / 2 <= rval (fnorm4 w) -> q64_normalize eps (Some w) = Ok u -> finite64 (q64s u) /\ -1 <= rval (q64s u) <= 1.
Proof.
  intros F B Fn NL H. assert (NA : Rabs (rval (q64s w)) <= rval (fnorm4 w)). { destruct (Rle_or_lt (Rabs (rval (q64s w))) (/ 2)) as [L | L]; [lra |]. apply norm4_above; [exact F | exact B |]. pose proof (P2_mono (-400) (-1) ltac:(lia)) as M. rewrite (P2_m (-1)) in M by lia. change (2 ^ (- -1))%Z with 2%Z in M. lra. }
  unfold q64_normalize in H. cbn [need3 bind] in H. destruct (SFltb _ _) in H; [discriminate |]. injection H as <-. cbn [q64s]. destruct F as (_ & _ & _ & F4). destruct B as (_ & _ & _ & B4).
  set (s := rval (q64s w)) in *. set (n := rval (fnorm4 w)) in *. assert (QB : -1 <= s / n <= 1). { assert (Rabs (s / n) <= 1) as Q. { unfold Rdiv. rewrite Rabs_mult, (Rabs_pos_eq (/ n)) by (left; apply Rinv_0_lt_compat; lra). apply Rmult_le_reg_r with n; [lra |]. rewrite Rmult_assoc, Rinv_l by lra. lra. } apply abs_le in Q. lra. }
  pose proof P2_big as PB. destruct (SFdiv_rounded (q64s w) (fnorm4 w) F4 Fn ltac:(fold n; lra)) as [N _]. { fold s n. apply abs_of. lra. } change (SFdiv 53 1024 (q64s w) (fnorm4 w)) with (b64_div (q64s w) (fnorm4 w)) in N. fold s n in N. destruct one_val as [FO VO]. split; [exact (proj1 N) |].
  split. - pose proof (nearest_below _ _ (SFopp one_64) N (SFopp_finite _ FO)) as G. rewrite SFopp_val, VO in G. apply G. lra. - pose proof (nearest_above _ _ one_64 N FO) as G. rewrite VO in G. apply G. lra.
Qed.

(** *** Quotients of a quaternion and itself *)
Lemma absorbed f A : finite64 f -> finite64 A -> / 2 <= rval f <= 4 -> 0 <= rval A <= P2 (-60) -> finite64 (sf_add A f) /\ rval (sf_add A f) = rval f.
Proof.
  intros Ff FA Bf BA. pose proof P2_big as PB. assert (P60 : P2 (-60) <= / 1000) by (pose proof (P2_mono (-60) (-10) ltac:(lia)) as M; rewrite (P2_m (-10)) in M by lia; change (2 ^ (- -10))%Z with 1024%Z in M; lra).
  destruct (SFadd_rounded A f FA Ff ltac:(rewrite Rabs_pos_eq; lra)) as [[Fz NZ] _]. change (SFadd 53 1024 A f) with (sf_add A f) in *. split; [exact Fz |]. pose proof (NZ f Ff) as E. set (z := rval (sf_add A f)) in *. replace (rval f - (rval A + rval f)) with (- rval A) in E by ring. rewrite Rabs_Ropp, (Rabs_pos_eq (rval A)) in E by lra. apply abs_le in E.
  assert (Q : P2 (-54 + 52) = / 4) by (change (-54 + 52)%Z with (-2)%Z; rewrite P2_m by lia; reflexivity).
  destruct (finite_grid f (-54) Ff ltac:(lia)) as [[K HK] | C]; [| rewrite Q in C; apply abs_le in C; lra]. destruct (finite_grid (sf_add A f) (-54) Fz ltac:(lia)) as [[J HJ] | C]; [| rewrite Q in C; apply abs_le in C; fold z in C; lra].
  fold z in HJ. rewrite HK, HJ in *. pose proof (P2_pos (-54)) as P. assert (P6 : P2 (-60) = / 64 * P2 (-54)) by (change (-60)%Z with (-6 + -54)%Z; rewrite P2_add; f_equal; rewrite P2_m by lia; reflexivity). f_equal. f_equal. destruct (Z.lt_total K J) as [C | [C | C]]; [exfalso | lia | exfalso].
  - assert (D : IZR (K + 1) <= IZR J) by (apply IZR_le; lia). rewrite plus_IZR in D. assert ((IZR K + 1) * P2 (-54) <= IZR J * P2 (-54)) by (apply Rmult_le_compat_r; lra). lra.
  - assert (D : IZR (J + 1) <= IZR K) by (apply IZR_le; lia). rewrite plus_IZR in D. assert ((IZR J + 1) * P2 (-54) <= IZR K * P2 (-54)) by (apply Rmult_le_compat_r; lra). lra.
Qed.
Lemma near_real w : finite4 w -> 0.8 <= Rabs (rval (q64s w)) <= 1.9 -> Rabs (rval (q64x w)) <= P2 (-40) -> Rabs (rval (q64y w)) <= P2 (-40) -> Rabs (rval (q64z w)) <= P2 (-40) -> finite64 (fnorm4 w) /\ rval (fnorm4 w) = Rabs (rval (q64s w)).
Proof.
  intros F S X Y Z. assert (P40 : P2 (-40) <= / 1000) by (pose proof (P2_mono (-40) (-10) ltac:(lia)) as M; rewrite (P2_m (-10)) in M by lia; change (2 ^ (- -10))%Z with 1024%Z in M; lra).
  assert (B : within4 4 w) by (repeat split; lra). destruct (squares w F B) as (A & HA & FA & A0 & A1). destruct F as (F1 & F2 & F3 & F4). destruct B as (B1 & B2 & B3 & B4). destruct (square_up _ F4 B4) as (S1 & S2 & N & _).
  assert (SQ : forall x, Rabs x <= P2 (-40) -> x * x <= P2 (-80)) by (intros x H; change (-80)%Z with (-40 + -40)%Z; rewrite P2_add; rewrite <- (Rabs_pos_eq (x * x)) by apply Rle_0_sqr; rewrite Rabs_mult; apply Rmult_le_compat; try apply Rabs_pos; exact H).
  apply SQ in X. apply SQ in Y. apply SQ in Z. assert (P8 : P2 (-80) <= / 1000 * P2 (-60)) by (change (-80)%Z with (-20 + -60)%Z; rewrite P2_add; apply Rmult_le_compat_r; [apply Rlt_le, P2_pos | rewrite P2_m by lia; change (2 ^ (- -20))%Z with 1048576%Z; lra]). assert (T8 : tiny <= / 1000 * P2 (-60)). { unfold tiny. change (-1075)%Z with (-1015 + -60)%Z. rewrite P2_add. apply Rmult_le_compat_r; [apply Rlt_le, P2_pos |]. pose proof (P2_mono (-1015) (-20) ltac:(lia)) as M. rewrite (P2_m (-20)) in M by lia. change (2 ^ (- -20))%Z with 1048576%Z in M. lra. }
  assert (SS : rval (q64s w) * rval (q64s w) = Rabs (rval (q64s w)) * Rabs (rval (q64s w))) by (rewrite <- Rabs_mult, Rabs_pos_eq; [reflexivity | apply Rle_0_sqr]). set (a := Rabs (rval (q64s w))) in *. assert (AL : 0.64 <= a * a <= 3.61) by nra.
  destruct (mul_any (q64s w) (q64s w) F4 F4) as [_ E]. { rewrite SS, Rabs_pos_eq by lra. pose proof P2_big. lra. } rewrite SS, (Rabs_pos_eq (a * a)) in E by lra. apply abs_le in E. pose proof tiny_e4 as T4. assert (E9 : e53 <= / 1000000) by (unfold e53; lra). pose proof e53_pos. assert (EA : e53 * (a * a) <= / 1000000 * (a * a)) by (apply Rmult_le_compat_r; lra).
  unfold fnorm4. rewrite HA. destruct (absorbed (b64_mul (q64s w) (q64s w)) A S1 FA ltac:(lra) ltac:(lra)) as [FS VS]. pose proof (P2_mono 2 400 ltac:(lia)) as P4. rewrite P2_2 in P4. pose proof (P2_mono (-400) (-2) ltac:(lia)) as P5. rewrite (P2_m (-2)) in P5 by lia. change (2 ^ (- -2))%Z with 4%Z in P5. apply fsqrt_square; [exact F4 | fold a; lra | exact FS | exact VS].
Qed.
Lemma one_unique z : finite64 z -> rval z = 1 -> z = one_64.
Proof. intros F V. destruct one_val as [FO VO]. destruct (value_unique z one_64 F FO ltac:(rewrite VO; exact V)) as [E | (s & s' & _ & E)]; [exact E | discriminate]. Qed.
Lemma normal_real eps w : finite64 eps -> rval eps <= / 2 -> finite4 w -> 0.8 <= Rabs (rval (q64s w)) <= 1.9 -> Rabs (rval (q64x w)) <= P2 (-40) -> Rabs (rval (q64y w)) <= P2 (-40) -> Rabs (rval (q64z w)) <= P2 (-40) ->
  exists u, q64_normalize eps (Some w) = Ok u /\ SFabs (q64s u) = one_64.
Proof.
  intros Fe He F S X Y Z. destruct (near_real w F S X Y Z) as [Fn Vn]. unfold q64_normalize. cbn [need3 bind]. set (a := Rabs (rval (q64s w))) in *.
  assert (FA : forall x, finite64 x -> finite64 (SFabs x) /\ rval (SFabs x) = Rabs (rval x)). { intros x Fx. destruct x as [b | b | | b m e]; try contradiction; cbn [SFabs finite64 rval]. - split; [exact I |]. rewrite Rabs_R0. reflexivity. - split; [exact Fx |]. rewrite !Rmult_assoc. fold (sg b). rewrite sg_abs; [ring |]. apply Rmult_le_pos; [apply IZR_le; lia | apply Rlt_le, P2_pos]. }
  destruct (FA _ Fn) as [Fan Van]. rewrite Vn, (Rabs_pos_eq a) in Van by lra. rewrite (ltb_f _ _ Fan Fe) by lra. eexists. split; [reflexivity |]. cbn [q64s]. destruct F as (_ & _ & _ & F4).
  assert (Q : Rabs (rval (q64s w) / a) = 1). { unfold Rdiv. rewrite Rabs_mult. fold a. rewrite (Rabs_pos_eq (/ a)) by (left; apply Rinv_0_lt_compat; lra). apply Rinv_r. lra. } pose proof P2_big as PB.
  destruct (SFdiv_rounded (q64s w) (fnorm4 w) F4 Fn ltac:(rewrite Vn; lra) ltac:(rewrite Vn, Q; lra)) as [N _]. change (SFdiv 53 1024 (q64s w) (fnorm4 w)) with (b64_div (q64s w) (fnorm4 w)) in N. rewrite Vn in N. destruct one_val as [FO VO].
  assert (V : rval (b64_div (q64s w) (fnorm4 w)) = rval (q64s w) / a). { apply (nearest_exact _ _ N). destruct (Rcase_abs (rval (q64s w) / a)) as [C | C]; [rewrite Rabs_left in Q by exact C; exists (SFopp one_64); split; [apply SFopp_finite, FO |]; rewrite SFopp_val, VO; lra | rewrite Rabs_right in Q by exact C; exists one_64; split; [exact FO |]; lra]. }
  destruct (FA _ (proj1 N)) as [FB VB]. apply one_unique; [exact FB |]. rewrite VB, V. exact Q.
Qed.
