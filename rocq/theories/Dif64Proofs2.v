(** Accuracy of angular differences (C151). *)

From Coq Require Import List Bool ZArith Reals Lra Lia Psatz Floats.SpecFloat.
From Verif Require Import Result Vec Mat3 VecProofs AngleModel FloatModel FloatSpec FloatProofs FloatProofs2 FloatProofs3 FloatProofs4 FloatProofs5 FloatProofs7 FloatProofs8 FloatProofs10
  Geo3Spec Geo3Proofs Geo3Proofs2 Geo64Model Geo64Spec Geo64Proofs Geo64Proofs2 Geo64Proofs3 Geo64Proofs4 Geo64Proofs5 Geo64Proofs6 Geo64Proofs7 Geo64Proofs8 RotModel RotSpec RotProofs RotProofs2 RotProofs3 RotProofs4 RotProofs5 RotProofs7 RotProofs9 Rot64Model Rot64Spec Rot64Spec2 Rot64Proofs Rot64Proofs2 Rot64Proofs3 Rot64Proofs4 Rot64Proofs5 Rot64Proofs6 Rot64Proofs7 Rot64Proofs8 Rot64Proofs9 Rot64Proofs10 Rot64Proofs11 Rot64Proofs12 Rot64Proofs13 Rot64Proofs14 Rot64Proofs15 Rot64Proofs16 Rot64Proofs17 Att64Model Att64Spec Att64Proofs Att64Proofs2 Att64Proofs3 Att64Proofs4 Att64Proofs5 Att64Proofs7 Att64Proofs8 Att64Proofs9 Att64Proofs10 Pow64Model Pow64Spec Pow64Proofs Pow64Proofs2 Pow64Proofs3 Pow64Proofs4 Dif64Model Dif64Spec Dif64Proofs RotProofs6.
Import ListNotations.
Local Open Scope R_scope.

(** *** Arc cosines of neighbouring numbers *)
Lemma sin_half y : 0 <= y <= PI / 2 -> y / 2 <= sin y.
Proof.
  intros B. pose proof PI_RGT_0 as PP. pose proof PI_4 as P4. destruct (Rle_or_lt y (PI / 3)) as [L | L].
  - destruct (Req_dec y 0) as [-> | N]; [rewrite sin_0; lra |]. destruct (MVT_cor2 sin cos 0 y ltac:(lra)) as (c & E & C). { intros. apply derivable_pt_lim_sin. } rewrite sin_0, !Rminus_0_r in E. assert (CC : cos (PI / 3) <= cos c) by (apply cos_decr_1; lra). rewrite cos_PI3 in CC. rewrite E. assert (y * (1 / 2) <= y * cos c) by (apply Rmult_le_compat_l; lra). lra.
  - assert (S : sin (PI / 3) <= sin y) by (apply sin_incr_1; lra). rewrite sin_PI3 in S. assert (Q : 1.73 <= sqrt 3) by (rewrite <- (sqrt_square 1.73) by lra; apply sqrt_le_1; lra). pose proof pi_digits. lra.
Qed.
Lemma arc_gap x t : 0 <= x <= PI / 2 -> 0 <= t <= PI / 2 -> Rabs (x - t) * sin t <= 4 * Rabs (cos x - cos t) /\ Rabs (x - t) * Rabs (x - t) <= 8 * Rabs (cos x - cos t).
Proof.
  intros X T. pose proof PI_RGT_0 as PP. set (D := Rabs (x - t)). assert (DB : 0 <= D <= PI / 2) by (split; [apply Rabs_pos | apply abs_of; lra]). assert (DX : D <= x + t) by (apply abs_of; lra).
  assert (E : Rabs (cos x - cos t) = 2 * sin ((x + t) / 2) * sin (D / 2)).
  { rewrite form2. pose proof (sin_ge_0 ((x + t) / 2) ltac:(lra) ltac:(lra)) as S1. assert (A : Rabs (sin ((x - t) / 2)) = sin (D / 2)). { unfold D. destruct (Rle_or_lt 0 (x - t)) as [C | C]; [rewrite !Rabs_pos_eq; [reflexivity | exact C | apply sin_ge_0; lra] |]. rewrite (Rabs_left (x - t)) by exact C. replace (- (x - t) / 2) with (- ((x - t) / 2)) by field. rewrite sin_neg. apply Rabs_left1. rewrite <- (Ropp_involutive ((x - t) / 2)), sin_neg. assert (0 <= sin (- ((x - t) / 2))) by (apply sin_ge_0; lra). lra. } rewrite !Rabs_mult, A, (Rabs_left (-2)), (Rabs_pos_eq (sin ((x + t) / 2))) by lra. ring. }
  rewrite E. pose proof (sin_half (D / 2) ltac:(lra)) as S2. assert (S3 : sin (D / 2) <= sin ((x + t) / 2)) by (apply sin_incr_1; lra). assert (S4 : sin (t / 2) <= sin ((x + t) / 2)) by (apply sin_incr_1; lra).
  assert (S5 : sin t <= 2 * sin (t / 2)). { replace t with (2 * (t / 2)) at 1 by field. rewrite sin_2a. pose proof (COS_bound (t / 2)). pose proof (sin_ge_0 (t / 2) ltac:(lra) ltac:(lra)). assert (sin (t / 2) * cos (t / 2) <= sin (t / 2) * 1) by (apply Rmult_le_compat_l; lra). lra. }
  pose proof (sin_ge_0 t ltac:(lra) ltac:(lra)) as S0. split.
  - assert (M : (D / 4) * (sin t / 2) <= sin (D / 2) * sin ((x + t) / 2)) by (apply Rmult_le_compat; lra). lra.
  - assert (M : (D / 4) * (D / 4) <= sin (D / 2) * sin ((x + t) / 2)) by (apply Rmult_le_compat; lra). lra.
Qed.

Lemma acos_quarter c : 0 <= c <= 1 -> acos c <= PI / 2.
Proof. intros B. pose proof (acos_bound c) as A. pose proof PI_RGT_0. apply Rnot_lt_le. intros L. pose proof (cos_lt_0 (acos c) L ltac:(lra)) as N. rewrite cos_acos in N by lra. lra. Qed.

(** *** angularDifferenceWith *)
Lemma SFabs_val x : finite64 x -> finite64 (SFabs x) /\ rval (SFabs x) = Rabs (rval x).
Proof. intros Fx. destruct x as [b | b | | b m e]; try contradiction; cbn [SFabs finite64 rval]. - split; [exact I |]. rewrite Rabs_R0. reflexivity. - split; [exact Fx |]. rewrite !Rmult_assoc. fold (sg b). rewrite sg_abs; [ring |]. apply Rmult_le_pos; [apply IZR_le; lia | apply Rlt_le, P2_pos]. Qed.
Lemma quotient_near r eps p q : finite4 p -> finite4 q -> Rabs (len4 (val4 p) - 1) <= / 1000 -> Rabs (len4 (val4 q) - 1) <= / 1000 -> finite64 eps -> rval eps <= / 32 ->
  exists w, q64_div r eps (Some p) (Some q) = Ok w /\ finite4 w /\ within4 4 w /\ gap4 (val4 w) (times4 (len4 (val4 p) / len4 (val4 q)) (qmul (versor (val4 p)) (qconj (versor (val4 q))))) <= 16.1 * e53 * (len4 (val4 p) / len4 (val4 q)).
Proof.
  intros Fp Fq Lp Lq Fe He. pose proof e53_pos as PE. assert (E9 : e53 <= / 1000000000) by (unfold e53; lra). apply abs_le in Lp. apply abs_le in Lq. set (lp := len4 (val4 p)) in *. set (lq := len4 (val4 q)) in *.
  pose proof (P2_mono 2 440 ltac:(lia)) as M. rewrite P2_2 in M. pose proof (P2_mono 2 450 ltac:(lia)) as M'. rewrite P2_2 in M'. pose proof (P2_mono (-440) (-2) ltac:(lia)) as M2. rewrite (P2_m (-2)) in M2 by lia. change (2 ^ (- -2))%Z with 4%Z in M2. assert (P50 : P2 (-50) <= / 100000000) by (rewrite <- e50; lra). pose proof (P2_pos (-50)) as P50'.
  assert (Bp : within4 (P2 450) p) by (apply within_len; [exact Fp | fold lp; lra]). assert (Bq : within4 (P2 440) q) by (apply within_len; [exact Fq | fold lq; lra]). assert (SQ : sq (val4 q) = lq * lq) by (unfold lq; rewrite len4_sq; reflexivity). assert (SQL : 0.998 <= lq * lq) by nra.
  destruct (c131_quotient r eps p q Fe Fp Bp Fq Bq ltac:(fold lq; lra)) as (w & HW & Fw & G). { rewrite SQ. assert (0.9 * 0.998 <= (1 - P2 (-50)) * (lq * lq)) by (apply Rmult_le_compat; lra). lra. } { fold lq. assert (0.9 * 0.998 <= (1 - P2 (-50)) * lq) by (apply Rmult_le_compat; lra). lra. }
  exists w. split; [exact HW |]. split; [exact Fw |]. fold lp lq in G. rewrite SQ, <- qmul_hamilton in G. assert (ILQ : 0 < / lq <= 1.0011). { split; [apply Rinv_0_lt_compat; lra |]. apply Rmult_le_reg_r with lq; [lra |]. rewrite Rinv_l by lra. lra. }
  assert (K1 : 0.99 <= lp / lq <= 1.01). { unfold Rdiv. assert (0.998 <= / lq). { apply Rmult_le_reg_r with lq; [lra |]. rewrite Rinv_l by lra. lra. } split; [assert (0.999 * 0.998 <= lp * / lq) by (apply Rmult_le_compat; lra) | assert (lp * / lq <= 1.001 * 1.0011) by (apply Rmult_le_compat; lra)]; lra. }
  assert (TQ : qmul (val4 p) (times4 (/ (lq * lq)) (bar4 (val4 q))) = times4 (lp / lq) (qmul (versor (val4 p)) (qconj (versor (val4 q))))).
  { rewrite <- (versor_back (val4 p)) at 1 by (fold lp; lra). fold lp. rewrite bar_conj. replace (qconj (versor (val4 q))) with (times4 (/ lq) (qconj (val4 q))) by (unfold versor, times4, qconj; cbn [qx qy qz qs]; fold lq; f_equal; ring). rewrite <- (times_one (versor (val4 p))) at 2. rewrite !qmul_times, times_times. f_equal. field. lra. }
  rewrite TQ in G. assert (T1 : P2 (-1071) <= / 1000 * e53). { pose proof (P2_mono (-1071) (-63) ltac:(lia)) as Q. change (-63)%Z with (-10 + -53)%Z in Q. rewrite P2_add, e53_P2, (P2_m (-10)) in Q by lia. change (2 ^ (- -10))%Z with 1024%Z in Q. lra. } rewrite <- e49 in G.
  assert (G' : gap4 (val4 w) (times4 (lp / lq) (qmul (versor (val4 p)) (qconj (versor (val4 q))))) <= 16.1 * e53 * (lp / lq)) by (assert (0.1 * e53 * 0.99 <= 0.1 * e53 * (lp / lq)) by (apply Rmult_le_compat_l; lra); lra). split; [| exact G'].
  apply within_len; [exact Fw |]. pose proof (len4_gap (val4 w) (times4 (lp / lq) (qmul (versor (val4 p)) (qconj (versor (val4 q)))))) as LG. rewrite len4_times, len4_mul, len_conj, !versor_len, (Rabs_pos_eq (lp / lq)) in LG by (fold lp lq; lra). apply abs_le in LG. assert (16.1 * e53 * (lp / lq) <= 16.1 * e53 * 1.01) by (apply Rmult_le_compat_l; lra). lra.
Qed.
Lemma difference_def facos r eps p q d u : q64_isUnitary (Some p) (Some eps) = Ok true -> q64_isUnitary (Some q) (Some eps) = Ok true -> q64_div r eps (Some p) (Some q) = Ok d -> q64_normalize eps (Some d) = Ok u -> finite64 (b64_mul two_64 (facos (SFabs (q64s u)))) ->
  q64_angularDifferenceWith facos r eps (Some p) (Some q) = Ok (mkA64 (Some (b64_mul two_64 (facos (SFabs (q64s u))))) Radian).
Proof. intros UP UQ HD HN F. unfold q64_angularDifferenceWith. rewrite UP. cbn [bind negb]. rewrite UQ. cbn [bind negb]. rewrite HD. cbn [bind]. rewrite HN. cbn [bind]. destruct (b64_mul two_64 _); try reflexivity. contradiction. Qed.
Lemma doubled facos e x : acos_within facos e -> e <= / 1000 -> finite64 x -> 0 <= rval x <= 1 -> finite64 (b64_mul two_64 (facos x)) /\ 0 <= rval (b64_mul two_64 (facos x)) <= 3.2 /\ Rabs (rval (b64_mul two_64 (facos x)) - 2 * acos (rval x)) <= 2 * e + 4 * e53.
Proof.
  intros HF He F B. destruct (HF x F ltac:(lra)) as (Fa & A0 & EA). destruct two_val as [FT VT]. pose proof (acos_bound (rval x)) as AB. pose proof PI_RGT_0 as PP.
  pose proof pi_digits as PU. assert (AH : acos (rval x) <= PI / 2) by (apply acos_quarter; lra).
  apply abs_le in EA. assert (e53 <= / 1000000) by (unfold e53; lra). pose proof e53_pos. pose proof P2_big. destruct (mul_any two_64 (facos x) FT Fa ltac:(rewrite VT, Rabs_pos_eq; lra)) as [Fm Em]. rewrite VT in Em. destruct (SFmul_rounded two_64 (facos x) FT Fa ltac:(rewrite VT, Rabs_pos_eq; lra)) as [N _]. change (SFmul 53 1024 two_64 (facos x)) with (b64_mul two_64 (facos x)) in N. rewrite VT in N.
  pose proof (nearest_below _ _ zero64 N I ltac:(change (rval zero64) with 0; lra)) as L. change (rval zero64) with 0 in L. rewrite (Rabs_pos_eq (2 * _)) in Em by lra. apply abs_le in Em. pose proof tiny_e4. set (y := rval (facos x)) in *. assert (e53 * (2 * y) <= e53 * 3.2) by (apply Rmult_le_compat_l; lra). split; [exact Fm |]. split; [lra |]. apply abs_of. lra.
Qed.
Lemma between p q : 0 < len4 p -> 0 < len4 q -> exists sg d th, (sg = 1 \/ sg = -1) /\ norm3 d = 1 /\ 0 <= th <= PI / 2 /\ times4 sg (versor q) = hamilton (polar 1 d th) (versor p) /\ cos th = Rabs (dot4 (versor p) (versor q)).
Proof.
  intros HP HQ. pose proof PI_RGT_0 as PP. set (P := versor p). set (Q := versor q). assert (LP : len4 P = 1) by (apply versor_len, HP). assert (LQ : len4 Q = 1) by (apply versor_len, HQ).
  assert (SG : exists sg, (sg = 1 \/ sg = -1) /\ sg * dot4 P Q = Rabs (dot4 P Q)). { destruct (Rle_or_lt 0 (dot4 P Q)) as [C | C]; [exists 1; split; [left; reflexivity | rewrite Rabs_pos_eq by exact C; ring] | exists (-1); split; [right; reflexivity | rewrite Rabs_left by exact C; ring]]. } destruct SG as (sg & HS & DS).
  assert (AS : Rabs sg = 1) by (destruct HS as [-> | ->]; [apply Rabs_R1 | rewrite Rabs_left; lra]).
  destruct (polar_any (qmul (qconj P) (times4 sg Q))) as (d & th & D & T & Z). { rewrite len4_mul, len_conj, len4_times, AS, LP, LQ. ring. }
  assert (C : cos th = Rabs (dot4 P Q)). { assert (E : qs (qmul (qconj P) (times4 sg Q)) = cos th) by (rewrite Z; unfold polar; cbn [qs]; ring). rewrite qmul_conj_dot in E. rewrite <- E, <- DS. unfold dot4, times4. cbn [qx qy qz qs]. ring. }
  exists sg, d, th. split; [exact HS |]. split; [exact D |]. split. { split; [lra |]. destruct (Rle_or_lt th (PI / 2)) as [L | L]; [exact L |]. pose proof (cos_lt_0 th L ltac:(lra)) as N. pose proof (Rabs_pos (dot4 P Q)). lra. }
  split; [| exact C]. rewrite <- Z, <- qmul_hamilton, conj_cancel. replace (sq P) with 1 by (rewrite <- len4_sq, LP; ring). rewrite times_one. reflexivity.
Qed.
Lemma difference_near facos r eps p q e : acos_within facos e -> e <= / 1000 -> finite4 p -> finite4 q -> Rabs (len4 (val4 p) - 1) <= / 1000 -> Rabs (len4 (val4 q) - 1) <= / 1000 -> finite64 eps -> rval eps <= / 32 -> q64_isUnitary (Some p) (Some eps) = Ok true -> q64_isUnitary (Some q) (Some eps) = Ok true ->
  exists t c, q64_angularDifferenceWith facos r eps (Some p) (Some q) = Ok (mkA64 (Some t) Radian) /\ finite64 t /\ 0 <= rval t <= 3.2 /\ 0 <= c <= 1 /\ Rabs (rval t - 2 * acos c) <= 2 * e + 4 * e53 /\ Rabs (c - Rabs (dot4 (versor (val4 p)) (versor (val4 q)))) <= 36.3 * e53.
Proof.
  intros HF E1 Fp Fq Lp Lq Fe He UP UQ. destruct (quotient_near r eps p q Fp Fq Lp Lq Fe He) as (w & HW & Fw & Bw & G). apply abs_le in Lp. apply abs_le in Lq. set (lp := len4 (val4 p)) in *. set (lq := len4 (val4 q)) in *. set (P := versor (val4 p)) in *. set (Q := versor (val4 q)) in *.
  pose proof e53_pos as PE. assert (E9 : e53 <= / 1000000000) by (unfold e53; lra). assert (LP : len4 P = 1) by (apply versor_len; fold lp; lra). assert (LQ : len4 Q = 1) by (apply versor_len; fold lq; lra).
  assert (K1 : 0.99 <= lp / lq <= 1.01). { unfold Rdiv. assert (0.998 <= / lq <= 1.0011). { split; (apply Rmult_le_reg_r with lq; [lra |]; rewrite Rinv_l by lra; lra). } split; [assert (0.999 * 0.998 <= lp * / lq) by (apply Rmult_le_compat; lra) | assert (lp * / lq <= 1.001 * 1.0011) by (apply Rmult_le_compat; lra)]; lra. }
  assert (LZ : len4 (qmul P (qconj Q)) = 1) by (rewrite len4_mul, len_conj, LP, LQ; ring). pose proof (P2_mono (-440) (-2) ltac:(lia)) as M2. rewrite (P2_m (-2)) in M2 by lia. change (2 ^ (- -2))%Z with 4%Z in M2. assert (KE : 16.1 * e53 * (lp / lq) <= 16.1 * e53 * 1.01) by (apply Rmult_le_compat_l; lra).
  destruct (normal_target eps w (qmul P (qconj Q)) (lp / lq) (16.1 * e53 * (lp / lq)) Fw Fe LZ ltac:(lra) G ltac:(lra) ltac:(lra)) as (u & HU & Fu & Gu & _ & _). assert (K2 : lp / lq <> 0) by lra. assert (K3 : 2 * (16.1 * e53 * (lp / lq) / (lp / lq)) = 32.2 * e53). { clear - K2. set (z := lp / lq) in *. clearbody z. unfold Rdiv. rewrite (Rmult_assoc (16.1 * e53)), Rinv_r by exact K2. lra. } rewrite K3 in Gu.
  assert (LW : Rabs (len4 (val4 w) - lp / lq) <= 16.1 * e53 * (lp / lq)). { eapply Rle_trans; [| exact G]. pose proof (len4_gap (val4 w) (times4 (lp / lq) (qmul P (qconj Q)))) as LG. rewrite len4_times, LZ, (Rabs_pos_eq (lp / lq)), Rmult_1_r in LG by lra. exact LG. } apply abs_le in LW.
  pose proof (P2_mono (-450) (-2) ltac:(lia)) as M3. rewrite (P2_m (-2)) in M3 by lia. change (2 ^ (- -2))%Z with 4%Z in M3. pose proof (P2_mono 2 450 ltac:(lia)) as M4. rewrite P2_2 in M4. destruct (fnorm4_err w Fw ltac:(destruct Bw as (? & ? & ? & ?); repeat split; lra) ltac:(lra)) as [Fn En]. apply abs_le in En. assert (3.05 * e53 * len4 (val4 w) <= 3.05 * e53 * 2) by (apply Rmult_le_compat_l; lra).
  destruct (scalar_at_most eps w u Fw Bw Fn ltac:(lra) HU) as [Fs Bs]. destruct (SFabs_val _ Fs) as [Fa Va]. assert (BA : 0 <= rval (SFabs (q64s u)) <= 1) by (rewrite Va; split; [apply Rabs_pos | apply abs_of; lra]).
  destruct (doubled facos e (SFabs (q64s u)) HF E1 Fa BA) as (Ft & Bt & Et). exists (b64_mul two_64 (facos (SFabs (q64s u)))), (rval (SFabs (q64s u))). split; [apply (difference_def _ _ _ _ _ w); assumption |]. split; [exact Ft |]. split; [exact Bt |]. split; [exact BA |]. split; [exact Et |].
  rewrite Va. pose proof (gap_scalar (val4 u) (qmul P (qconj Q))) as GS. rewrite qs_mul_conj in GS. eapply Rle_trans; [apply Rabs_triang_inv2 |]. change (qs (val4 u)) with (rval (q64s u)) in GS. lra.
Qed.
