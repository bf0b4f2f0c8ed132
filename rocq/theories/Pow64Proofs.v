(** Exponentials and logarithms of quaternions in double precision (C149). *)

From Coq Require Import List Bool ZArith Reals Lra Lia Psatz Floats.SpecFloat.
From Verif Require Import Result Vec Mat3 VecProofs AngleModel FloatModel FloatSpec FloatProofs FloatProofs2 FloatProofs3 FloatProofs4 FloatProofs5 FloatProofs7 FloatProofs8 FloatProofs10
  Geo3Spec Geo3Proofs Geo3Proofs2 Geo64Model Geo64Spec Geo64Proofs Geo64Proofs2 Geo64Proofs3 Geo64Proofs4 Geo64Proofs5 Geo64Proofs6 Geo64Proofs7 Geo64Proofs8 RotModel RotSpec RotProofs RotProofs2 RotProofs3 RotProofs4 RotProofs5 RotProofs7 RotProofs9 Rot64Model Rot64Spec Rot64Spec2 Rot64Proofs Rot64Proofs2 Rot64Proofs3 Rot64Proofs4 Rot64Proofs5 Rot64Proofs6 Rot64Proofs7 Rot64Proofs8 Rot64Proofs9 Rot64Proofs10 Rot64Proofs11 Rot64Proofs12 Rot64Proofs13 Rot64Proofs14 Rot64Proofs15 Rot64Proofs16 Rot64Proofs17 Att64Model Att64Spec Att64Proofs Att64Proofs2 Att64Proofs3 Att64Proofs4 Att64Proofs5 Att64Proofs7 Att64Proofs8 Att64Proofs9 Att64Proofs10 Pow64Model Pow64Spec.
Import ListNotations.
Local Open Scope R_scope.

(** *** Norms *)
Lemma P2_2 : P2 2 = 4. Proof. rewrite <- P2_Z by lia. reflexivity. Qed.
Lemma fnorm3_upper r v : finite3 v -> within3 (P2 450) v -> finite64 (fnorm3 r v) /\ 0 <= rval (fnorm3 r v) <= (1 + 2.6 * e53) * norm3 (val3 v) + P2 (-440).
Proof.
  intros F B. destruct (fnorm3_any r v F B) as (Fn & [N0 _] & _). split; [exact Fn |]. split; [exact N0 |]. pose proof (P2_pos (-440)) as P440. pose proof (norm3_nonneg (val3 v)) as L0. pose proof e53_pos as PE. assert (E9 : e53 <= / 1000000000) by (unfold e53; lra).
  destruct (Rle_lt_dec (P2 (-450)) (norm3 (val3 v))) as [H | H]; [destruct (fnorm3_tight r v F B H) as (_ & _ & _ & E); apply abs_le in E; lra |].
  destruct (fdot3_near r v v F F B B) as [Fs E]. set (N := norm3 (val3 v)) in *. assert (SN : dot3 (val3 v) (val3 v) = N * N) by (unfold N; rewrite norm3_sq; reflexivity). rewrite SN in E. apply abs_le in E.
  destruct (sqnorm_pos r v 450 F B ltac:(lia)) as [_ Ps]. unfold fsqnorm3 in Ps. pose proof (sqrt_err _ Fs Ps) as K. rewrite e53_P2 in K. apply abs_le in K. change (SFsqrt 53 1024 (fdot3 r v v)) with (fnorm3 r v) in K.
  pose proof (P2_pos (-900)) as P900. assert (S : N * N <= P2 (-900)) by (replace (-900)%Z with (-450 + -450)%Z by reflexivity; rewrite P2_add; apply Rmult_le_compat; lra). assert (S0 : 0 <= N * N) by (apply Rmult_le_pos; lra).
  assert (T : 10 * tiny <= P2 (-900)) by (pose proof tiny16 as T16; pose proof (P2_mono (-1071) (-900) ltac:(lia)); pose proof tiny_pos; lra).
  assert (Q : rval (fdot3 r v v) <= 4 * P2 (-900)) by (assert (e53 * (N * N) <= / 1000000000 * (N * N)) by (apply Rmult_le_compat_r; lra); lra).
  assert (R : sqrt (rval (fdot3 r v v)) <= 2 * P2 (-450)). { apply Rle_trans with (sqrt ((2 * P2 (-450)) * (2 * P2 (-450)))); [apply sqrt_le_1_alt; replace (2 * P2 (-450) * (2 * P2 (-450))) with (4 * (P2 (-450) * P2 (-450))) by ring; rewrite <- P2_add; exact Q | rewrite sqrt_square; [lra | pose proof (P2_pos (-450)); lra]]. }
  assert (P4 : 4 * P2 (-450) <= P2 (-440)) by (rewrite <- P2_2, <- P2_add; apply P2_mono; lia). pose proof (sqrt_pos (rval (fdot3 r v v))). assert (e53 * sqrt (rval (fdot3 r v v)) <= 1 * sqrt (rval (fdot3 r v v))) by (apply Rmult_le_compat_r; lra). assert (0 <= (1 + 2.6 * e53) * N) by (apply Rmult_le_pos; lra). lra.
Qed.
(** Both branches of exp and log. *)
Lemma norm_branch r v eps : finite3 v -> norm3 (val3 v) <= 4 -> finite64 eps -> P2 (-400) <= rval eps ->
  let n := fnorm3 r v in finite64 n /\
  (SFleb n eps = true /\ norm3 (val3 v) <= (1 + 2.61 * e53) * rval eps \/
   SFleb n eps = false /\ rval eps < rval n /\ P2 (-402) <= norm3 (val3 v) /\ rval eps <= (1 + 2.61 * e53) * norm3 (val3 v) /\ Rabs (rval n - norm3 (val3 v)) <= 2.6 * e53 * norm3 (val3 v)).
Proof.
  intros F N4 Fe He n. pose proof e53_pos as PE. assert (E9 : e53 <= / 1000000000) by (unfold e53; lra). pose proof (P2_mono 3 450 ltac:(lia)) as M. rewrite <- (P2_Z 3) in M by lia. change (IZR (2 ^ 3)) with 8 in M. assert (B : within3 (P2 450) v) by (apply within_norm; lra).
  destruct (fnorm3_upper r v F B) as [Fn Bn]. fold n in Fn, Bn. split; [exact Fn |]. set (N := norm3 (val3 v)) in *. pose proof (norm3_nonneg (val3 v)) as N0. fold N in N0. pose proof (P2_pos (-400)) as P400.
  assert (Q : 4 * P2 (-402) = P2 (-400)) by (rewrite <- P2_2, <- P2_add; reflexivity). assert (Q2 : 4 * P2 (-440) <= P2 (-402)) by (rewrite <- P2_2, <- P2_add; apply P2_mono; lia). assert (Q3 : P2 (-450) <= P2 (-440)) by (apply P2_mono; lia). pose proof (P2_pos (-450)) as P450.
  destruct (SFleb n eps) eqn:C; [left | right].
  - split; [reflexivity |]. apply SFleb_val in C; [| exact Fn | exact Fe]. destruct (Rle_lt_dec (P2 (-450)) N) as [H | H].
    + destruct (fnorm3_tight r v F B H) as (_ & _ & _ & E). fold n N in E. apply abs_le in E. assert (N * (1 - 2.6 * e53) <= rval eps) by lra. assert (0 <= e53 * e53 <= / 1000000000 * e53) by (split; [apply Rmult_le_pos; lra | apply Rmult_le_compat_r; lra]). assert (N * 1 <= N * ((1 - 2.6 * e53) * (1 + 2.61 * e53))) by (apply Rmult_le_compat_l; lra). assert (N * (1 - 2.6 * e53) * (1 + 2.61 * e53) <= rval eps * (1 + 2.61 * e53)) by (apply Rmult_le_compat_r; lra). lra.
    + assert (0 <= 2.61 * e53 * rval eps) by (apply Rmult_le_pos; lra). lra.
  - split; [reflexivity |]. assert (G : rval eps < rval n). { destruct (Rle_or_lt (rval n) (rval eps)) as [G | G]; [| exact G]. apply SFleb_val in G; [congruence | exact Fn | exact Fe]. } split; [exact G |].
    assert (L : P2 (-402) <= N) by (assert (e53 * N <= / 1000000000 * N) by (apply Rmult_le_compat_r; lra); lra). split; [exact L |]. destruct (fnorm3_tight r v F B ltac:(fold N; lra)) as (_ & _ & _ & E). fold n N in E. split; [apply abs_le in E; lra | exact E].
Qed.

(** *** A vector times x / n *)
Lemma inverse_near n N : 0 < N -> Rabs (n - N) <= 2.6 * e53 * N -> 0 < n /\ Rabs (/ n - / N) <= 2.61 * e53 * / N.
Proof.
  intros P E. pose proof e53_pos as PE. assert (E9 : e53 <= / 1000000000) by (unfold e53; lra). assert (E1 : e53 * N <= / 1000000000 * N) by (apply Rmult_le_compat_r; lra). assert (Pn : 0 < n) by (apply abs_le in E; lra). split; [exact Pn |].
  replace (/ n - / N) with (- ((n - N) * / (n * N))) by (field; lra). rewrite Rabs_Ropp, Rabs_mult, (Rabs_pos_eq (/ (n * N))) by (left; apply Rinv_0_lt_compat, Rmult_lt_0_compat; assumption).
  apply Rmult_le_reg_r with (n * N); [apply Rmult_lt_0_compat; assumption |]. rewrite Rmult_assoc, Rinv_l by (apply Rgt_not_eq, Rmult_lt_0_compat; assumption). replace (2.61 * e53 * / N * (n * N)) with (2.61 * e53 * n) by (field; lra). apply abs_le in E as E'. assert (e53 * N * (1 - 2.6 * e53) <= e53 * n) by (rewrite Rmult_assoc; apply Rmult_le_compat_l; lra). assert (e53 * N * e53 <= e53 * N * / 1000000000) by (apply Rmult_le_compat_l; [apply Rmult_le_pos; lra | lra]). lra.
Qed.
Lemma tiny_590 N n : P2 (-440) <= N -> Rabs (n - N) <= 2.6 * e53 * N -> tiny * / n <= P2 (-600).
Proof.
  intros L E. pose proof (P2_pos (-440)) as P. destruct (inverse_near n N ltac:(lra) E) as [Pn _]. pose proof e53_pos as PE. assert (E9 : e53 <= / 1000000000) by (unfold e53; lra). assert (e53 * N <= / 1000000000 * N) by (apply Rmult_le_compat_r; lra). apply abs_le in E.
  assert (HL : P2 (-441) <= n) by (assert (Q : 2 * P2 (-441) = P2 (-440)) by (replace 2 with (P2 1) at 1 by (rewrite <- P2_Z by lia; reflexivity); rewrite <- P2_add; reflexivity); lra).
  apply Rle_trans with (tiny * P2 441); [apply Rmult_le_compat_l; [pose proof tiny_pos; lra |]; replace (P2 441) with (/ P2 (-441)); [apply Rinv_le_contravar; [apply P2_pos | exact HL] | rewrite (P2_m (-441)) by lia; rewrite Rinv_inv; rewrite P2_Z by lia; reflexivity] |].
  unfold tiny. rewrite <- P2_add. apply P2_mono. lia.
Qed.
Lemma quot_range x N n : Rabs x <= 16 -> P2 (-440) <= N -> Rabs (n - N) <= 2.6 * e53 * N -> Rabs (x * / n) <= P2 500.
Proof.
  intros X L E. pose proof (P2_pos (-440)) as P. destruct (inverse_near n N ltac:(lra) E) as [Pn _]. pose proof e53_pos as PE. assert (E9 : e53 <= / 1000000000) by (unfold e53; lra). assert (e53 * N <= / 1000000000 * N) by (apply Rmult_le_compat_r; lra). apply abs_le in E.
  assert (HL : P2 (-441) <= n) by (assert (Q : 2 * P2 (-441) = P2 (-440)) by (replace 2 with (P2 1) at 1 by (rewrite <- P2_Z by lia; reflexivity); rewrite <- P2_add; reflexivity); lra).
  rewrite Rabs_mult, (Rabs_pos_eq (/ n)) by (left; apply Rinv_0_lt_compat, Pn). apply Rle_trans with (P2 4 * P2 441); [apply Rmult_le_compat; [apply Rabs_pos | left; apply Rinv_0_lt_compat, Pn | rewrite <- (P2_Z 4) by lia; exact X |] | rewrite <- P2_add; apply P2_mono; lia].
  replace (P2 441) with (/ P2 (-441)); [apply Rinv_le_contravar; [apply P2_pos | exact HL] | rewrite (P2_m (-441)) by lia; rewrite Rinv_inv; rewrite P2_Z by lia; reflexivity].
Qed.
Lemma quot_first v x n N : finite64 v -> finite64 x -> finite64 n -> P2 (-440) <= N -> N <= 4 -> Rabs (rval v) <= N -> Rabs (rval x) <= 4 -> Rabs (rval n - N) <= 2.6 * e53 * N ->
  finite64 (b64_div (b64_mul v x) n) /\ Rabs (rval (b64_div (b64_mul v x) n) - rval x * (/ N * rval v)) <= 4.63 * e53 * Rabs (rval x * (/ N * rval v)) + P2 (-598).
Proof.
  intros Fv Fx Fn NL NU V X E. pose proof (P2_pos (-440)) as P440. destruct (inverse_near (rval n) N ltac:(lra) E) as [Pn I]. pose proof (tiny_590 N (rval n) NL E) as T. pose proof e53_pos as PE. assert (E9 : e53 <= / 1000000000) by (unfold e53; lra). pose proof tiny_pos as TP. pose proof tiny_e4 as T4.
  assert (P23 : P2 500 <= P2 1023) by (apply P2_mono; lia). assert (P5 : 20 <= P2 500) by (apply Rle_trans with (P2 5); [rewrite <- P2_Z by lia; apply IZR_le; lia | apply P2_mono; lia]).
  assert (VX : Rabs (rval v * rval x) <= 16) by (rewrite Rabs_mult; replace 16 with (4 * 4) by ring; apply Rmult_le_compat; try apply Rabs_pos; lra).
  destruct (mul_any v x Fv Fx ltac:(lra)) as [Ft Et]. set (t := rval (b64_mul v x)) in *. pose proof (quot_range t N (rval n)) as QR. pose proof (Rabs_pos (rval v * rval x)) as VP. assert (EV : e53 * Rabs (rval v * rval x) <= e53 * 16) by (apply Rmult_le_compat_l; lra).
  assert (B1 : Rabs (t - rval v * rval x) <= e53 * Rabs (rval v * rval x) + tiny) by exact Et. clear Et.
  assert (TX : Rabs t <= 17) by (apply abs_le in B1; apply abs_le in VX; apply abs_of; lra).
  assert (QT : Rabs (t / rval n) <= P2 501). { replace (t / rval n) with (2 * (t / 2 * / rval n)) by (field; lra). rewrite Rabs_mult, (Rabs_pos_eq 2) by lra. replace (P2 501) with (2 * P2 500) by (replace 2 with (P2 1) at 1 by (rewrite <- P2_Z by lia; reflexivity); rewrite <- P2_add; reflexivity). apply Rmult_le_compat_l; [lra |]. apply (quot_range (t / 2) N (rval n)); [| exact NL | exact E]. unfold Rdiv. rewrite Rabs_mult, (Rabs_pos_eq (/ 2)) by lra. lra. }
  destruct (div_any (b64_mul v x) n Ft Fn ltac:(lra)) as [Fw Ew]; [fold t; pose proof (P2_mono 501 1023 ltac:(lia)); lra |]. fold t in Ew. split; [exact Fw |]. set (w := rval (b64_div (b64_mul v x) n)) in *.
  set (c := rval x * (/ N * rval v)). assert (CN : rval v * rval x = c * N) by (unfold c; field; lra). rewrite CN in B1. set (ac := Rabs c). assert (AC : Rabs (c * N) = ac * N) by (rewrite Rabs_mult, (Rabs_pos_eq N) by lra; reflexivity). rewrite AC in B1. assert (A0 : 0 <= ac) by apply Rabs_pos. assert (EA : 0 <= e53 * ac) by (apply Rmult_le_pos; lra).
  (* t/n - c *)
  assert (IP : 0 < / rval n) by (apply Rinv_0_lt_compat, Pn). assert (R : Rabs (N * / rval n - 1) <= 2.61 * e53). { replace (N * / rval n - 1) with (N * (/ rval n - / N)) by (field; lra). rewrite Rabs_mult, (Rabs_pos_eq N) by lra. apply Rle_trans with (N * (2.61 * e53 * / N)); [apply Rmult_le_compat_l; lra | right; field; lra]. } set (rho := N * / rval n) in *.
  assert (D : Rabs (t / rval n - c) <= 3.615 * e53 * ac + P2 (-600)).
  { replace (t / rval n - c) with ((t - c * N) * / rval n + c * (rho - 1)) by (unfold rho; field; lra). eapply Rle_trans; [apply Rabs_triang |]. rewrite !Rabs_mult, (Rabs_pos_eq (/ rval n)) by lra. fold ac.
    assert (G1 : Rabs (t - c * N) * / rval n <= e53 * (ac * rho) + tiny * / rval n). { replace (e53 * (ac * rho) + tiny * / rval n) with ((e53 * (ac * N) + tiny) * / rval n) by (unfold rho; ring). apply Rmult_le_compat_r; lra. }
    assert (G2 : ac * Rabs (rho - 1) <= ac * (2.61 * e53)) by (apply Rmult_le_compat_l; lra). assert (R1 : rho <= 1.001) by (apply abs_le in R; lra). assert (G3 : e53 * (ac * rho) <= e53 * (ac * 1.001)) by (apply Rmult_le_compat_l; [lra |]; apply Rmult_le_compat_l; lra). lra. }
  assert (D2 : Rabs (t / rval n) <= 1.001 * ac + P2 (-600)). { pose proof (Rabs_triang (t / rval n - c) c) as TR. replace (t / rval n - c + c) with (t / rval n) in TR by ring. fold ac in TR. assert (e53 * ac <= / 1000000000 * ac) by (apply Rmult_le_compat_r; lra). lra. }
  replace (w - c) with ((w - t / rval n) + (t / rval n - c)) by ring. eapply Rle_trans; [apply Rabs_triang |]. pose proof (P2_pos (-600)) as P6. assert (Q : 4 * P2 (-600) = P2 (-598)) by (rewrite <- P2_2, <- P2_add; reflexivity). assert (T6 : tiny <= P2 (-600)) by (unfold tiny; apply P2_mono; lia).
  assert (G4 : e53 * Rabs (t / rval n) <= e53 * (1.001 * ac + P2 (-600))) by (apply Rmult_le_compat_l; lra). assert (G5 : e53 * P2 (-600) <= 1 * P2 (-600)) by (apply Rmult_le_compat_r; lra). lra.
Qed.
Lemma quot_second v x n N : finite64 v -> finite64 x -> finite64 n -> P2 (-440) <= N -> N <= 4 -> Rabs (rval v) <= N -> Rabs (rval x) <= 4 -> Rabs (rval n - N) <= 2.6 * e53 * N ->
  finite64 (b64_mul (b64_div x n) v) /\ Rabs (rval (b64_mul (b64_div x n) v) - rval x * (/ N * rval v)) <= 4.63 * e53 * Rabs (rval x * (/ N * rval v)) + P2 (-598).
Proof.
  intros Fv Fx Fn NL NU V X E. pose proof (P2_pos (-440)) as P440. destruct (inverse_near (rval n) N ltac:(lra) E) as [Pn I]. pose proof (tiny_590 N (rval n) NL E) as T. pose proof e53_pos as PE. assert (E9 : e53 <= / 1000000000) by (unfold e53; lra). pose proof tiny_pos as TP. pose proof tiny_e4 as T4.
  assert (P23 : P2 500 <= P2 1023) by (apply P2_mono; lia). pose proof (quot_range (rval x) N (rval n) ltac:(lra) NL E) as QX.
  destruct (div_any x n Fx Fn ltac:(lra) ltac:(unfold Rdiv; lra)) as [Fd Ed]. set (d := rval (b64_div x n)) in *.
  assert (IP : 0 < / rval n) by (apply Rinv_0_lt_compat, Pn). assert (R : Rabs (N * / rval n - 1) <= 2.61 * e53). { replace (N * / rval n - 1) with (N * (/ rval n - / N)) by (field; lra). rewrite Rabs_mult, (Rabs_pos_eq N) by lra. apply Rle_trans with (N * (2.61 * e53 * / N)); [apply Rmult_le_compat_l; lra | right; field; lra]. } set (rho := N * / rval n) in *.
  assert (R1 : 0 <= rho <= 1.001) by (apply abs_le in R; lra). set (c := rval x * (/ N * rval v)). set (ac := Rabs c). assert (A0 : 0 <= ac) by apply Rabs_pos. assert (EA : 0 <= e53 * ac) by (apply Rmult_le_pos; lra). pose proof (Rabs_pos (rval v)) as V0.
  assert (XV : Rabs (rval x / rval n) * Rabs (rval v) = ac * rho). { rewrite <- Rabs_mult. replace (rval x / rval n * rval v) with (c * rho) by (unfold c, rho; field; lra). rewrite Rabs_mult, (Rabs_pos_eq rho) by lra. reflexivity. }
  assert (D : Rabs (d * rval v - c) <= 3.612 * e53 * ac + 4 * tiny).
  { replace (d * rval v - c) with ((d - rval x / rval n) * rval v + c * (rho - 1)) by (unfold c, rho; field; lra). eapply Rle_trans; [apply Rabs_triang |]. rewrite !Rabs_mult. fold ac.
    assert (G1 : Rabs (d - rval x / rval n) * Rabs (rval v) <= e53 * (ac * rho) + tiny * 4). { apply Rle_trans with ((e53 * Rabs (rval x / rval n) + tiny) * Rabs (rval v)); [apply Rmult_le_compat_r; lra |]. rewrite Rmult_plus_distr_r, Rmult_assoc, XV. apply Rplus_le_compat_l. apply Rmult_le_compat_l; lra. }
    assert (G2 : ac * Rabs (rho - 1) <= ac * (2.61 * e53)) by (apply Rmult_le_compat_l; lra). assert (G3 : e53 * (ac * rho) <= e53 * (ac * 1.001)) by (apply Rmult_le_compat_l; [lra |]; apply Rmult_le_compat_l; lra). lra. }
  assert (AC4 : ac <= 4). { assert (H : ac * N <= 4 * N). { replace (ac * N) with (Rabs (rval x) * Rabs (rval v)) by (unfold ac, c; rewrite !Rabs_mult, (Rabs_pos_eq (/ N)) by (left; apply Rinv_0_lt_compat; lra); field; lra). apply Rmult_le_compat; try apply Rabs_pos; lra. } apply Rmult_le_reg_r with N; lra. }
  assert (D2 : Rabs (d * rval v) <= 1.001 * ac + 4 * tiny). { pose proof (Rabs_triang (d * rval v - c) c) as TR. replace (d * rval v - c + c) with (d * rval v) in TR by ring. fold ac in TR. assert (e53 * ac <= / 1000000000 * ac) by (apply Rmult_le_compat_r; lra). lra. }
  assert (P5 : 20 <= P2 500) by (apply Rle_trans with (P2 5); [rewrite <- P2_Z by lia; apply IZR_le; lia | apply P2_mono; lia]).
  destruct (mul_any (b64_div x n) v Fd Fv) as [Fw Ew]; [fold d; lra |]. fold d in Ew. split; [exact Fw |]. set (w := rval (b64_mul (b64_div x n) v)) in *.
  replace (w - c) with ((w - d * rval v) + (d * rval v - c)) by ring. eapply Rle_trans; [apply Rabs_triang |]. assert (T6 : 16 * tiny <= P2 (-598)) by (rewrite tiny16; apply P2_mono; lia).
  assert (G4 : e53 * Rabs (d * rval v) <= e53 * (1.001 * ac + 4 * tiny)) by (apply Rmult_le_compat_l; lra). assert (G5 : e53 * tiny <= 1 * tiny) by (apply Rmult_le_compat_r; lra). lra.
Qed.
Lemma P590 : P2 (-590) <= / 1000000 * e53.
Proof. pose proof P440_e. pose proof (P2_mono (-590) (-440) ltac:(lia)). lra. Qed.
Lemma quot_vec v x n : finite3 v -> finite64 x -> finite64 n -> let N := norm3 (val3 v) in P2 (-440) <= N -> N <= 4 -> Rabs (rval x) <= 4 -> Rabs (rval n - N) <= 2.6 * e53 * N ->
  let a := fdiv3 (F3 (b64_mul (fx v) x) (b64_mul (fy v) x) (b64_mul (fz v) x)) n in let b := fscale3 (b64_div x n) v in
  finite3 a /\ finite3 b /\ dist3 (val3 a) (scale3 (rval x) (direction (val3 v))) <= 4.63 * e53 * Rabs (rval x) + P2 (-590) /\ dist3 (val3 b) (scale3 (rval x) (direction (val3 v))) <= 4.63 * e53 * Rabs (rval x) + P2 (-590).
Proof.
  intros (F1 & F2 & F3) Fx Fn N NL NU X E a b. destruct (coordinate_le (val3 v)) as (C1 & C2 & C3). fold N in C1, C2, C3. unfold val3 in C1, C2, C3. cbn [vx vy vz] in C1, C2, C3. pose proof e53_pos as PE. pose proof (P2_pos (-598)) as P8. assert (Q : 2 * P2 (-598) <= P2 (-590)) by (replace 2 with (P2 1) at 1 by (rewrite <- P2_Z by lia; reflexivity); rewrite <- P2_add; apply P2_mono; lia).
  assert (PN : 0 < N) by (pose proof (P2_pos (-440)); lra). assert (NU1 : norm3 (scale3 (rval x) (direction (val3 v))) = Rabs (rval x)). { unfold direction. rewrite !norm3_scale. fold N. rewrite (Rabs_pos_eq (/ N)) by (left; apply Rinv_0_lt_compat, PN). field. lra. }
  destruct (quot_first _ _ _ N F1 Fx Fn NL NU C1 X E) as [A1 B1]. destruct (quot_first _ _ _ N F2 Fx Fn NL NU C2 X E) as [A2 B2]. destruct (quot_first _ _ _ N F3 Fx Fn NL NU C3 X E) as [A3 B3].
  destruct (quot_second _ _ _ N F1 Fx Fn NL NU C1 X E) as [A4 B4]. destruct (quot_second _ _ _ N F2 Fx Fn NL NU C2 X E) as [A5 B5]. destruct (quot_second _ _ _ N F3 Fx Fn NL NU C3 X E) as [A6 B6].
  split; [exact (conj A1 (conj A2 A3)) |]. split; [exact (conj A4 (conj A5 A6)) |]. rewrite <- NU1 at 1 2. split.
  - eapply Rle_trans; [apply (rel_dist (val3 a) _ (4.63 * e53) (P2 (-598))); [lra | lra | exact B1 | exact B2 | exact B3] | rewrite NU1; lra].
  - eapply Rle_trans; [apply (rel_dist (val3 b) _ (4.63 * e53) (P2 (-598))); [lra | lra | exact B4 | exact B5 | exact B6] | rewrite NU1; lra].
Qed.
