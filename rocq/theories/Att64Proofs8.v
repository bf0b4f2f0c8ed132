(** Interpolation between two rotations (C146). *)

From Coq Require Import List Bool ZArith Reals Lra Lia Psatz Floats.SpecFloat.
From Verif Require Import Result Vec Mat3 VecProofs AngleModel FloatModel FloatSpec FloatProofs FloatProofs2 FloatProofs3 FloatProofs4 FloatProofs5 FloatProofs7 FloatProofs8 FloatProofs10
  Geo3Spec Geo3Proofs Geo3Proofs2 Geo64Model Geo64Spec Geo64Proofs Geo64Proofs2 Geo64Proofs3 Geo64Proofs4 Geo64Proofs5 Geo64Proofs6 Geo64Proofs7 Geo64Proofs8 RotModel RotSpec RotProofs RotProofs2 RotProofs3 RotProofs4 RotProofs9 Rot64Model Rot64Spec Rot64Spec2 Rot64Proofs Rot64Proofs2 Rot64Proofs3 Rot64Proofs4 Rot64Proofs5 Rot64Proofs6 Rot64Proofs7 Rot64Proofs8 Rot64Proofs9 Rot64Proofs10 Rot64Proofs11 Rot64Proofs12 Rot64Proofs13 Rot64Proofs14 Rot64Proofs15 Rot64Proofs16 Rot64Proofs17 Att64Model Att64Spec Att64Proofs Att64Proofs2 Att64Proofs3 Att64Proofs4 Att64Proofs7.
Import ListNotations.
Local Open Scope R_scope.

Lemma mix_len k p q : 0 <= k <= 1 -> len4 (mix4 k p q) <= (1 - k) * len4 p + k * len4 q.
Proof.
  intros K. replace (mix4 k p q) with (add4 (times4 (1 - k) p) (times4 k q)) by reflexivity. eapply Rle_trans; [apply len4_add |]. rewrite !len_times by lra. lra.
Qed.
Lemma nlerp_raw p q k : finite4 p -> finite4 q -> / 2 <= len4 (val4 p) <= 2 -> / 2 <= len4 (val4 q) <= 2 -> finite64 k -> 0 <= rval k <= 1 ->
  exists w, q64_LERP (Some p) (Some q) (Some k) = Ok w /\ finite4 w /\ gap4 (val4 w) (mix4 (rval k) (val4 p) (val4 q)) <= 16.001 * e53 /\ len4 (mix4 (rval k) (val4 p) (val4 q)) <= 2.
Proof.
  intros Fp Fq Lp Lq Fk Hk. assert (M : 2 <= P2 450) by (apply Rle_trans with (P2 1); [right; rewrite <- P2_Z by lia; reflexivity | apply P2_mono; lia]).
  destruct (c133_accurate p q k Fp Fq (within_len p (P2 450) Fp ltac:(lra)) (within_len q (P2 450) Fq ltac:(lra)) Fk Hk) as (w & E & Fw & G). exists w. split; [exact E |]. split; [exact Fw |]. split.
  - eapply Rle_trans; [exact G |]. rewrite <- e51. pose proof tiny_e4. pose proof e53_pos. assert (T : P2 (-1072) = 8 * tiny) by (unfold tiny; replace 8 with (P2 3) by (rewrite <- P2_Z by lia; reflexivity); rewrite <- P2_add; reflexivity). rewrite T. assert (4 * e53 * (len4 (val4 p) + len4 (val4 q)) <= 4 * e53 * 4) by (apply Rmult_le_compat_l; lra). lra.
  - eapply Rle_trans; [apply mix_len; lra |]. apply Rle_trans with ((1 - rval k) * 2 + rval k * 2); [apply Rplus_le_compat; apply Rmult_le_compat_l; lra | lra].
Qed.
Lemma nlerp_def eps p q k w : q64_LERP (Some p) (Some q) (Some k) = Ok w -> q64_NLERP eps (Some p) (Some q) (Some k) = q64_normalize eps (Some w).
Proof. intros E. unfold q64_NLERP. rewrite E. reflexivity. Qed.
Lemma nlerp_near eps p q k : finite4 p -> finite4 q -> / 2 <= len4 (val4 p) <= 2 -> / 2 <= len4 (val4 q) <= 2 -> finite64 k -> 0 <= rval k <= 1 -> finite64 eps ->
  let m := mix4 (rval k) (val4 p) (val4 q) in 65 * e53 <= len4 m -> rval eps <= len4 m / 2 ->
  exists u, q64_NLERP eps (Some p) (Some q) (Some k) = Ok u /\ finite4 u /\ gap4 (val4 u) (times4 (/ len4 m) m) <= 41 * e53 / len4 m /\ Rabs (len4 (val4 u) - 1) <= 4.07 * e53 /\ len4 (times4 (/ len4 m) m) = 1 /\
    forall t, finite64 t -> P2 (-50) <= rval t -> q64_isUnitary (Some u) (Some t) = Ok true.
Proof.
  intros Fp Fq Lp Lq Fk Hk Fe m Hm He. destruct (nlerp_raw p q k Fp Fq Lp Lq Fk Hk) as (w & E & Fw & G & L2). fold m in G, L2. pose proof e53_pos as PE. set (l := len4 m) in *. assert (PL : 0 < l) by lra.
  assert (U : len4 (times4 (/ l) m) = 1) by (rewrite len_times by (apply Rlt_le, Rinv_0_lt_compat; lra); fold l; apply Rinv_l; lra).
  assert (T : times4 l (times4 (/ l) m) = m) by (destruct m as [x y z s]; unfold times4; cbn [qx qy qz qs]; f_equal; field; lra). rewrite <- T in G.
  assert (L440 : P2 (-440) <= l) by (apply Rle_trans with (P2 (-53)); [apply P2_mono; lia | rewrite e53_P2; lra]).
  destruct (normal_target eps w _ l (16.001 * e53) Fw Fe U ltac:(lra) G ltac:(lra) He) as (u & Eu & Fu & Gu & Lu & Uu). exists u. split; [rewrite (nlerp_def eps p q k w E); exact Eu |]. split; [exact Fu |]. split; [| split; [exact Lu | split; [exact U | exact Uu]]].
  eapply Rle_trans; [exact Gu |]. assert (I2 : / 2 <= / l) by (apply Rinv_le_contravar; lra). unfold Rdiv. assert (e53 * / 2 <= e53 * / l) by (apply Rmult_le_compat_l; lra). lra.
Qed.
Lemma c146_accurate eps p q k : finite4 p -> finite4 q -> / 2 <= len4 (val4 p) <= 2 -> / 2 <= len4 (val4 q) <= 2 -> finite64 k -> 0 <= rval k <= 1 -> finite64 eps ->
  let m := mix4 (rval k) (val4 p) (val4 q) in P2 (-46) <= len4 m -> rval eps <= len4 m / 2 ->
  exists u, q64_NLERP eps (Some p) (Some q) (Some k) = Ok u /\ finite4 u /\ gap4 (val4 u) (times4 (/ len4 m) m) <= P2 (-47) / len4 m /\ forall t, finite64 t -> P2 (-50) <= rval t -> q64_isUnitary (Some u) (Some t) = Ok true.
Proof.
  intros Fp Fq Lp Lq Fk Hk Fe m Hm He. pose proof e53_pos as PE. assert (E46 : P2 (-46) = 128 * e53) by (rewrite <- e53_P2; replace 128 with (P2 7) by (rewrite <- P2_Z by lia; reflexivity); rewrite <- P2_add; reflexivity). rewrite E46 in Hm.
  destruct (nlerp_near eps p q k Fp Fq Lp Lq Fk Hk Fe ltac:(fold m; lra) He) as (u & Eu & Fu & Gu & _ & _ & Uu). fold m in Gu. exists u. split; [exact Eu |]. split; [exact Fu |]. split; [| exact Uu]. eapply Rle_trans; [exact Gu |]. rewrite <- e47. unfold Rdiv. apply Rmult_le_compat_r; [apply Rlt_le, Rinv_0_lt_compat |]; lra.
Qed.
Lemma c146_turn r eps p q k tol v : finite4 p -> finite4 q -> / 2 <= len4 (val4 p) <= 2 -> / 2 <= len4 (val4 q) <= 2 -> finite64 k -> 0 <= rval k <= 1 -> finite64 eps ->
  let m := mix4 (rval k) (val4 p) (val4 q) in P2 (-44) <= len4 m -> rval eps <= len4 m / 2 -> finite64 tol -> P2 (-50) <= rval tol -> finite3 v -> norm3 (val3 v) <= P2 440 ->
  exists u w, q64_NLERP eps (Some p) (Some q) (Some k) = Ok u /\ q64_rotateVector r (Some u) (Some v) (Some tol) = Ok w /\ finite3 w /\ dist3 (val3 w) (turned4 (times4 (/ len4 m) m) (val3 v)) <= P2 (-46) / len4 m * norm3 (val3 v) + P2 (-1069).
Proof.
  intros Fp Fq Lp Lq Fk Hk Fe m Hm He Ft Ht Fv Bv. pose proof e53_pos as PE. assert (E44 : P2 (-44) = 512 * e53) by (rewrite <- e53_P2; replace 512 with (P2 9) by (rewrite <- P2_Z by lia; reflexivity); rewrite <- P2_add; reflexivity). assert (E46 : P2 (-46) = 128 * e53) by (rewrite <- e53_P2; replace 128 with (P2 7) by (rewrite <- P2_Z by lia; reflexivity); rewrite <- P2_add; reflexivity). rewrite E44 in Hm.
  destruct (nlerp_raw p q k Fp Fq Lp Lq Fk Hk) as (_ & _ & _ & _ & L2). fold m in L2. destruct (nlerp_near eps p q k Fp Fq Lp Lq Fk Hk Fe ltac:(fold m; lra) He) as (u & Eu & Fu & Gu & Lu & Um & _). fold m in Gu, Um. set (l := len4 m) in *. assert (PL : 0 < l) by lra.
  assert (I2 : / 2 <= / l) by (apply Rinv_le_contravar; lra). assert (I5 : e53 * / l <= / 512) by (replace (/ 512) with (/ 512 * l * / l) by (field; lra); apply Rmult_le_compat_r; lra). assert (J : e53 * / 2 <= e53 * / l) by (apply Rmult_le_compat_l; lra).
  destruct (turns_like r u _ (41 * e53 / l) tol v Fu Lu Um Gu ltac:(unfold Rdiv; lra) Ft Ht Fv Bv) as (w & Ew & Fw & Dw). exists u, w. split; [exact Eu |]. split; [exact Ew |]. split; [exact Fw |]. rewrite turned_rot. eapply Rle_trans; [exact Dw |]. rewrite <- tiny64, E46. pose proof tiny_pos.
  apply Rplus_le_compat; [| lra]. apply Rmult_le_compat_r; [apply norm3_nonneg | unfold Rdiv; lra].
Qed.
Lemma c146_succeeds eps p q k : finite4 p -> finite4 q -> Rabs (len4 (val4 p) - 1) <= / 100 -> Rabs (len4 (val4 q) - 1) <= / 100 -> 0 <= dot4 (val4 p) (val4 q) -> finite64 k -> 0 <= rval k <= 1 -> finite64 eps -> rval eps <= / 3 ->
  exists u, q64_NLERP eps (Some p) (Some q) (Some k) = Ok u /\ finite4 u /\ gap4 (val4 u) (times4 (/ len4 (mix4 (rval k) (val4 p) (val4 q))) (mix4 (rval k) (val4 p) (val4 q))) <= P2 (-46).
Proof.
  intros Fp Fq Lp Lq D Fk Hk Fe He. apply abs_le in Lp, Lq. set (t := rval k) in *. set (m := mix4 t (val4 p) (val4 q)).
  assert (S : sq m = (1 - t) * (1 - t) * sq (val4 p) + 2 * (t * (1 - t)) * dot4 (val4 p) (val4 q) + t * t * sq (val4 q)) by (unfold m, mix4, sq, dot4; cbn [qx qy qz qs]; ring).
  assert (P : 0.98 <= sq (val4 p)) by (rewrite <- len4_sq; nra). assert (Q : 0.98 <= sq (val4 q)) by (rewrite <- len4_sq; nra). assert (T : 0 <= t * (1 - t)) by (apply Rmult_le_pos; lra). assert (TD : 0 <= t * (1 - t) * dot4 (val4 p) (val4 q)) by (apply Rmult_le_pos; assumption).
  assert (A1 : (1 - t) * (1 - t) * 0.98 <= (1 - t) * (1 - t) * sq (val4 p)) by (apply Rmult_le_compat_l; [nra | exact P]). assert (A2 : t * t * 0.98 <= t * t * sq (val4 q)) by (apply Rmult_le_compat_l; [nra | exact Q]).
  assert (S2 : 0.49 <= sq m). { rewrite S. assert (0 <= (2 * t - 1) * (2 * t - 1)) by apply VecProofs.sq_nonneg. set (X := sq (val4 p)) in *. set (Y := sq (val4 q)) in *. set (Z := dot4 (val4 p) (val4 q)) in *. clearbody X Y Z t. lra. } assert (L : 0.7 <= len4 m) by (unfold len4; rewrite <- (sqrt_square 0.7) by lra; apply sqrt_le_1_alt; lra).
  pose proof e53_pos. assert (e53 <= / 1000000000) by (unfold e53; lra). destruct (nlerp_near eps p q k Fp Fq ltac:(lra) ltac:(lra) Fk Hk Fe ltac:(fold t; fold m; lra) ltac:(fold t; fold m; lra)) as (u & Eu & Fu & Gu & _). fold t in Gu. fold m in Gu. exists u. split; [exact Eu |]. split; [exact Fu |].
  eapply Rle_trans; [exact Gu |]. assert (E46 : P2 (-46) = 128 * e53) by (rewrite <- e53_P2; replace 128 with (P2 7) by (rewrite <- P2_Z by lia; reflexivity); rewrite <- P2_add; reflexivity). rewrite E46. assert (I : / len4 m <= / 0.7) by (apply Rinv_le_contravar; lra). unfold Rdiv. apply Rle_trans with (41 * e53 * / 0.7); [apply Rmult_le_compat_l; lra | lra].
Qed.
Lemma c146_ends eps p q k : finite4 p -> finite4 q -> / 2 <= len4 (val4 p) <= 2 -> / 2 <= len4 (val4 q) <= 2 -> finite64 k -> finite64 eps -> rval eps <= / 3 ->
  (rval k = 0 -> exists u, q64_NLERP eps (Some p) (Some q) (Some k) = Ok u /\ finite4 u /\ gap4 (val4 u) (times4 (/ len4 (val4 p)) (val4 p)) <= P2 (-50)) /\
  (rval k = 1 -> exists u, q64_NLERP eps (Some p) (Some q) (Some k) = Ok u /\ finite4 u /\ gap4 (val4 u) (times4 (/ len4 (val4 q)) (val4 q)) <= P2 (-50)).
Proof.
  intros Fp Fq Lp Lq Fk Fe He. assert (M : 2 <= P2 450) by (apply Rle_trans with (P2 1); [right; rewrite <- P2_Z by lia; reflexivity | apply P2_mono; lia]). assert (M2 : P2 (-450) <= / 2) by (apply Rle_trans with (P2 (-1)); [apply P2_mono; lia | right; rewrite P2_m by lia; reflexivity]).
  destruct (c133_ends p q k Fp Fq (within_len p (P2 450) Fp ltac:(lra)) (within_len q (P2 450) Fq ltac:(lra)) Fk) as [A B].
  assert (N : forall w x, finite4 w -> val4 w = x -> / 2 <= len4 x <= 2 -> exists u, q64_normalize eps (Some w) = Ok u /\ finite4 u /\ gap4 (val4 u) (times4 (/ len4 x) x) <= P2 (-50)).
  { intros w x Fw <- Lx. destruct (c132_normalize eps w Fe Fw (within_len w (P2 450) Fw ltac:(lra)) ltac:(lra)) as [Y _]. destruct Y as (u & Eu & Fu & Gu & _); [rewrite <- e51; pose proof e53_pos; assert (e53 <= / 1000000000) by (unfold e53; lra); nra |]. exists u. split; [exact Eu |]. split; [exact Fu | exact Gu]. }
  split; intros V.
  - destruct (A V) as (w & Ew & Vw). destruct (nlerp_raw p q k Fp Fq Lp Lq Fk ltac:(lra)) as (w' & Ew' & Fw & _). rewrite Ew in Ew'. injection Ew' as <-. rewrite (nlerp_def eps p q k w Ew). exact (N w _ Fw Vw Lp).
  - destruct (B V) as (w & Ew & Vw). destruct (nlerp_raw p q k Fp Fq Lp Lq Fk ltac:(lra)) as (w' & Ew' & Fw & _). rewrite Ew in Ew'. injection Ew' as <-. rewrite (nlerp_def eps p q k w Ew). exact (N w _ Fw Vw Lq).
Qed.
Lemma c146_refused eps p q k : finite4 p -> finite4 q -> / 2 <= len4 (val4 p) <= 2 -> / 2 <= len4 (val4 q) <= 2 -> finite64 k -> 0 <= rval k <= 1 -> finite64 eps -> rval eps <= / 4 ->
  len4 (mix4 (rval k) (val4 p) (val4 q)) + 19 * P2 (-53) <= rval eps -> q64_NLERP eps (Some p) (Some q) (Some k) = Err ERuntime.
Proof.
  intros Fp Fq Lp Lq Fk Hk Fe He Hm. rewrite e53_P2 in Hm. destruct (nlerp_raw p q k Fp Fq Lp Lq Fk Hk) as (w & E & Fw & G & _). rewrite (nlerp_def eps p q k w E). pose proof e53_pos. assert (e53 <= / 1000000000) by (unfold e53; lra).
  pose proof (len4_gap (val4 w) (mix4 (rval k) (val4 p) (val4 q))) as LG. apply abs_le in LG. apply normalize_refused; [exact Fw | lra | exact Fe | lra].
Qed.
Definition half_64 : spec_float := S754_finite false 4503599627370496 (-53).
Lemma c146_antipodal eps p : finite4 p -> within4 (P2 450) p -> finite64 eps -> 0 < rval eps -> q64_NLERP eps (Some p) (Some (F4 (SFopp (q64x p)) (SFopp (q64y p)) (SFopp (q64z p)) (SFopp (q64s p)))) (Some (S754_finite false 4503599627370496 (-53))) = Err ERuntime.
Proof.
  intros (H1 & H2 & H3 & H4) (B1 & B2 & B3 & B4) Fe He. fold half_64.
  assert (FH : finite64 half_64) by (vm_compute; repeat split; reflexivity || discriminate). assert (VH : rval half_64 = / 2) by (unfold half_64; rewrite rval_sg; cbn [sg]; rewrite P2_m by lia; change (2 ^ (- -53))%Z with 9007199254740992%Z; lra).
  rewrite (nlerp_def eps _ _ _ _ (lerp_ok _ _ half_64 FH ltac:(lra))). unfold flerp4. cbn [q64x q64y q64z q64s].
  assert (SH : sf_sub one_64 half_64 = half_64) by (vm_compute; reflexivity). rewrite !SH.
  assert (Z : forall x, finite64 x -> Rabs (rval x) <= P2 450 -> finite64 (sf_add (b64_mul x half_64) (b64_mul (SFopp x) half_64)) /\ rval (sf_add (b64_mul x half_64) (b64_mul (SFopp x) half_64)) = 0).
  { intros x Fx Bx. rewrite mul_opp_l. assert (FM : finite64 (b64_mul x half_64)). { refine (proj1 (mul_any x half_64 Fx FH _)). rewrite VH, Rabs_mult, (Rabs_pos_eq (/ 2)) by lra. assert (P2 450 <= P2 1023) by (apply P2_mono; lia). pose proof (P2_pos 450). lra. }
    apply add_cancel; [exact FM | apply SFopp_finite; exact FM | rewrite SFopp_val; ring]. }
  destruct (Z _ H1 B1) as [G1 V1], (Z _ H2 B2) as [G2 V2], (Z _ H3 B3) as [G3 V3], (Z _ H4 B4) as [G4 V4].
  destruct (zero_of _ G1 V1) as [s1 E1], (zero_of _ G2 V2) as [s2 E2], (zero_of _ G3 V3) as [s3 E3], (zero_of _ G4 V4) as [s4 E4]. rewrite E1, E2, E3, E4. unfold q64_normalize. cbn [need3 bind].
  assert (N : exists s, SFabs (fnorm4 (F4 (S754_zero s1) (S754_zero s2) (S754_zero s3) (S754_zero s4))) = S754_zero s) by (destruct s1, s2, s3, s4; exists false; vm_compute; reflexivity). destruct N as [s N]. rewrite N, ltb_t; [reflexivity | exact I | exact Fe | exact He].
Qed.
Lemma c146_errors eps p q k : q64_NLERP eps p q None = Err EUndefined /\
  (finite64 k -> rval k < 0 \/ 1 < rval k -> q64_NLERP eps p q (Some k) = Err ERuntime) /\
  (finite64 k -> 0 <= rval k <= 1 -> q64_NLERP eps None q (Some k) = Err EUndefined /\ q64_NLERP eps p None (Some k) = Err EUndefined).
Proof.
  destruct (c133_errors p q k) as (A & B & C). unfold q64_NLERP. split; [rewrite A; reflexivity |]. split; [intros F H; rewrite (B F H); reflexivity |]. intros F H. destruct (C F H) as [D E]. rewrite D, E. split; reflexivity.
Qed.
