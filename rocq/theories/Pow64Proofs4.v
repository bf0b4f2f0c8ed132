(** Accuracy of spherical interpolation (C150). *)

From Coq Require Import List Bool ZArith Reals Lra Lia Psatz Floats.SpecFloat.
From Verif Require Import Result Vec Mat3 VecProofs AngleModel FloatModel FloatSpec FloatProofs FloatProofs2 FloatProofs3 FloatProofs4 FloatProofs5 FloatProofs7 FloatProofs8 FloatProofs10
  Geo3Spec Geo3Proofs Geo3Proofs2 Geo64Model Geo64Spec Geo64Proofs Geo64Proofs2 Geo64Proofs3 Geo64Proofs4 Geo64Proofs5 Geo64Proofs6 Geo64Proofs7 Geo64Proofs8 RotModel RotSpec RotProofs RotProofs2 RotProofs3 RotProofs4 RotProofs5 RotProofs7 RotProofs9 Rot64Model Rot64Spec Rot64Spec2 Rot64Proofs Rot64Proofs2 Rot64Proofs3 Rot64Proofs4 Rot64Proofs5 Rot64Proofs6 Rot64Proofs7 Rot64Proofs8 Rot64Proofs9 Rot64Proofs10 Rot64Proofs11 Rot64Proofs12 Rot64Proofs13 Rot64Proofs14 Rot64Proofs15 Rot64Proofs16 Rot64Proofs17 Att64Model Att64Spec Att64Proofs Att64Proofs2 Att64Proofs3 Att64Proofs4 Att64Proofs5 Att64Proofs7 Att64Proofs8 Att64Proofs9 Att64Proofs10 Pow64Model Pow64Spec Pow64Proofs Pow64Proofs2 Pow64Proofs3.
Import ListNotations.
Local Open Scope R_scope.

(** *** Powers of neighbouring unit quaternions *)
Lemma polar_gap_sq a b s t : norm3 a = 1 -> norm3 b = 1 -> gap4 (polar 1 a s) (polar 1 b t) * gap4 (polar 1 a s) (polar 1 b t) = 2 - 2 * cos (s - t) + 2 * (1 - dot3 a b) * (sin s * sin t).
Proof.
  intros A B. assert (AA : dot3 a a = 1) by (change (dot3 a a) with (sqnorm3 a); rewrite <- norm3_sq, A; ring). assert (BB : dot3 b b = 1) by (change (dot3 b b) with (sqnorm3 b); rewrite <- norm3_sq, B; ring).
  unfold gap4. rewrite len4_sq. pose proof (sc1 s) as Ss. pose proof (sc1 t) as St. rewrite cos_minus.
  transitivity ((sin s * sin s) * dot3 a a + (sin t * sin t) * dot3 b b - 2 * (sin s * sin t) * dot3 a b + (cos s - cos t) * (cos s - cos t)).
  - unfold sq, polar, dot3. cbn [qx qy qz qs]. ring.
  - rewrite AA, BB. transitivity ((cos s * cos s + sin s * sin s) + (cos t * cos t + sin t * sin t) - 2 * (cos s * cos t + dot3 a b * (sin s * sin t))); [ring | rewrite Ss, St; ring].
Qed.
Lemma sin_part k t : 0 <= k <= 1 -> 0 <= t <= PI -> - / 100000 <= cos t -> 0 <= sin (k * t) <= 1.0001 * sin t.
Proof.
  intros K T C. assert (KT : 0 <= k * t <= t) by (split; [apply Rmult_le_pos; lra | assert (k * t <= 1 * t) by (apply Rmult_le_compat_r; lra); lra]). pose proof (sin_ge_0 (k * t) ltac:(lra) ltac:(lra)) as S0. split; [exact S0 |]. pose proof (sin_ge_0 t ltac:(lra) ltac:(lra)) as S1.
  destruct (Rle_or_lt t (PI / 2)) as [H | H].
  - assert (sin (k * t) <= sin t); [| lra]. pose proof PI_RGT_0. apply sin_incr_1; lra.
  - pose proof (SIN_bound (k * t)) as SB. pose proof (cos_le_0 t ltac:(lra) ltac:(lra)) as CN. pose proof (sc1 t) as SC. assert (0.9999 <= sin t) by nra. nra.
Qed.
Lemma pow_close k a b s t : 0 <= k <= 1 -> norm3 a = 1 -> norm3 b = 1 -> 0 <= s <= PI -> 0 <= t <= PI -> - / 100000 <= cos s -> - / 100000 <= cos t ->
  gap4 (polar 1 a (k * s)) (polar 1 b (k * t)) <= 1.0002 * gap4 (polar 1 a s) (polar 1 b t).
Proof.
  intros K A B S T CS CT. pose proof (sin_part k s K S CS) as PS. pose proof (sin_part k t K T CT) as PT. pose proof (len4_pos (Q4 (qx (polar 1 a s) - qx (polar 1 b t)) (qy (polar 1 a s) - qy (polar 1 b t)) (qz (polar 1 a s) - qz (polar 1 b t)) (qs (polar 1 a s) - qs (polar 1 b t)))) as GP. fold (gap4 (polar 1 a s) (polar 1 b t)) in GP.
  apply sqrt_le_sq; [lra | apply len4_pos |]. replace (1.0002 * gap4 (polar 1 a s) (polar 1 b t) * (1.0002 * gap4 (polar 1 a s) (polar 1 b t))) with (1.00040004 * (gap4 (polar 1 a s) (polar 1 b t) * gap4 (polar 1 a s) (polar 1 b t))) by lra. rewrite !polar_gap_sq by assumption.
  assert (C : cos (s - t) <= cos (k * s - k * t)). { replace (k * s - k * t) with (k * (s - t)) by ring. set (x := s - t). assert (X : forall y, 0 <= y -> y <= PI -> cos y <= cos (k * y)). { intros y Y0 Y1. assert (0 <= k * y <= y) by (split; [apply Rmult_le_pos; lra | assert (k * y <= 1 * y) by (apply Rmult_le_compat_r; lra); lra]). apply cos_decr_1; lra. } destruct (Rle_or_lt 0 x) as [P | P]; [apply X; unfold x in *; lra |]. rewrite <- (cos_neg x), <- (cos_neg (k * x)). replace (- (k * x)) with (k * - x) by ring. apply X; unfold x in *; lra. }
  pose proof (dot3_le_norms a b) as D. rewrite A, B in D. pose proof (COS_bound (s - t)) as CB.
  assert (M : sin (k * s) * sin (k * t) <= (1.0001 * sin s) * (1.0001 * sin t)) by (apply Rmult_le_compat; lra). assert (M2 : 2 * (1 - dot3 a b) * (sin (k * s) * sin (k * t)) <= 2 * (1 - dot3 a b) * ((1.0001 * sin s) * (1.0001 * sin t))) by (apply Rmult_le_compat_l; lra). assert (0 <= (1 - dot3 a b) * (sin s * sin t)) by (apply Rmult_le_pos; [lra | apply Rmult_le_pos; lra]). lra.
Qed.

(** *** The relative rotation *)
Lemma versor_len q : 0 < len4 q -> len4 (versor q) = 1.
Proof. intros H. unfold versor. rewrite len4_times, Rabs_pos_eq by (left; apply Rinv_0_lt_compat, H). field. lra. Qed.
Lemma polar_any q : len4 q = 1 -> exists d t, norm3 d = 1 /\ 0 <= t <= PI /\ q = polar 1 d t.
Proof.
  intros L. pose proof PI_RGT_0 as PP. destruct (Req_dec (norm3 (vec q)) 0) as [Z | Z].
  - assert (V : vec q = zero3) by (apply norm3_0; exact Z). assert (N1 : norm3 (V3 1 0 0) = 1) by (unfold norm3; replace (sqnorm3 (V3 1 0 0)) with 1 by (unfold sqnorm3, dot3; cbn [vx vy vz]; ring); apply sqrt_1).
    destruct q as [x y z s]. injection V as -> -> ->. unfold len4 in L. assert (SS : s * s = 1). { assert (Q : sqrt (sq (Q4 0 0 0 s)) * sqrt (sq (Q4 0 0 0 s)) = 1) by (rewrite L; ring). rewrite sqrt_sqrt in Q by apply sq_nonneg. unfold sq in Q. cbn [qx qy qz qs] in Q. lra. }
    assert (S : s = 1 \/ s = -1) by (assert (W : (s - 1) * (s + 1) = 0) by lra; apply Rmult_integral in W; destruct W; [left | right]; lra). exists (V3 1 0 0). destruct S as [-> | ->]; [exists 0 | exists PI]; (split; [exact N1 |]); (split; [lra |]); unfold polar; cbn [vx vy vz]; rewrite ?sin_0, ?cos_0, ?sin_PI, ?cos_PI; f_equal; ring.
  - destruct (polar_exists q) as (h & a & t & H & A & T & Q & HQ & _); [intros V; apply Z, norm3_0, V |]. change (qnorm q) with (len4 q) in HQ. rewrite L in HQ. subst h. exists a, t. split; [unfold norm3; rewrite A; apply sqrt_1 |]. split; [lra | exact Q].
Qed.
Lemma qmul_times k l p q : qmul (times4 k p) (times4 l q) = times4 (k * l) (qmul p q).
Proof. destruct p as [p1 p2 p3 p4], q as [q1 q2 q3 q4]. unfold qmul, times4, of_parts, sub3, add3, scale3, cross3, dot3, vec. cbn [qx qy qz qs vx vy vz]. f_equal; ring. Qed.
Lemma qmul_conj_dot p q : qs (qmul (qconj p) q) = dot4 p q.
Proof. destruct p as [p1 p2 p3 p4], q as [q1 q2 q3 q4]. unfold qmul, qconj, dot4, of_parts, sub3, add3, scale3, cross3, dot3, vec. cbn [qx qy qz qs vx vy vz]. ring. Qed.
Lemma conj_cancel p q : qmul p (qmul (qconj p) q) = times4 (sq p) q.
Proof.
  rewrite <- qmul_assoc. replace (qmul p (qconj p)) with (Q4 0 0 0 (sq p)) by qring. generalize (sq p). intros k. destruct q as [q1 q2 q3 q4]. unfold qmul, times4, of_parts, sub3, add3, scale3, cross3, dot3, vec. cbn [qx qy qz qs vx vy vz]. f_equal; ring.
Qed.
Lemma gap_times_any k a b : gap4 (times4 k a) (times4 k b) = Rabs k * gap4 a b.
Proof. unfold gap4. rewrite <- len4_times. f_equal. unfold times4. cbn [qx qy qz qs]. f_equal; ring. Qed.
Lemma gap_same k l a : gap4 (times4 k a) (times4 l a) = Rabs (k - l) * len4 a.
Proof. unfold gap4. rewrite <- len4_times. f_equal. unfold times4. cbn [qx qy qz qs]. f_equal; ring. Qed.
Lemma times_times k l a : times4 k (times4 l a) = times4 (k * l) a.
Proof. unfold times4. cbn [qx qy qz qs]. f_equal; ring. Qed.
Lemma times_one a : times4 1 a = a.
Proof. destruct a as [a1 a2 a3 a4]. unfold times4. cbn [qx qy qz qs]. f_equal; ring. Qed.
Lemma versor_back q : 0 < len4 q -> times4 (len4 q) (versor q) = q.
Proof. intros H. unfold versor. rewrite times_times, Rinv_r by lra. apply times_one. Qed.
Lemma relative r eps p q : finite4 p -> finite4 q -> Rabs (len4 (val4 p) - 1) <= / 1000 -> Rabs (len4 (val4 q) - 1) <= / 1000 -> finite64 eps -> rval eps <= / 32 ->
  exists i i' m sg, q64_inverse eps (Some p) = Ok i /\ (if SFleb zero64 (fdot4 p q) then Ok i else q64_scale (Some i) (b64_of_Z (-1))) = Ok i' /\ q64_mul r (Some i') (Some q) = Ok m /\ finite4 m /\
    (sg = 1 \/ sg = -1) /\ - (4.1 * e53) <= sg * dot4 (val4 p) (val4 q) /\
    gap4 (val4 m) (times4 (len4 (val4 q) / len4 (val4 p)) (qmul (qconj (versor (val4 p))) (times4 sg (versor (val4 q))))) <= 14.4 * e53.
Proof.
  intros Fp Fq Lp Lq Fe He. pose proof e53_pos as PE. assert (E9 : e53 <= / 1000000000) by (unfold e53; lra). pose proof tiny_e4 as T4. pose proof tiny_pos as TP. apply abs_le in Lp. apply abs_le in Lq.
  pose proof (P2_mono 2 450 ltac:(lia)) as M. rewrite P2_2 in M. pose proof (P2_mono (-450) (-2) ltac:(lia)) as M2. rewrite (P2_m (-2)) in M2 by lia. change (2 ^ (- -2))%Z with 4%Z in M2. assert (P50 : P2 (-50) <= / 100000000) by (rewrite <- e50; lra). pose proof (P2_pos (-50)) as P50'.
  assert (Bp : within4 (P2 450) p) by (apply within_len; [exact Fp | lra]). assert (Bq : within4 (P2 450) q) by (apply within_len; [exact Fq | lra]). set (lp := len4 (val4 p)) in *. set (lq := len4 (val4 q)) in *.
  assert (SP : sq (val4 p) = lp * lp) by (unfold lp; rewrite len4_sq; reflexivity). assert (SPL : 0.998 <= lp * lp) by (replace 0.998 with (0.998 * 1) by lra; nra).
  destruct (c131_inverse eps p Fe Fp Bp ltac:(fold lp; lra)) as [(i & HI & Fi & _) _]. { rewrite SP. assert (0.9 * 0.998 <= (1 - P2 (-50)) * (lp * lp)) by (apply Rmult_le_compat; lra). lra. }
  assert (IE : i = finv4 p). { unfold q64_inverse in HI. cbn [need3 bind] in HI. destruct (SFltb _ _) in HI; [discriminate |]. injection HI as <-. reflexivity. }
  destruct (finv4_err p Fp Bp ltac:(fold lp; lra)) as [_ Gi]. rewrite <- IE in Gi. fold lp in Gi. rewrite SP, bar_conj in Gi. set (ti := times4 (/ (lp * lp)) (qconj (val4 p))) in *.
  assert (ILP : / lp <= 1.0011). { apply Rmult_le_reg_r with lp; [lra |]. rewrite Rinv_l by lra. lra. } assert (ILP0 : 0 < / lp) by (apply Rinv_0_lt_compat; lra).
  assert (LT : len4 ti = / lp). { unfold ti. rewrite len4_times, len_conj, Rabs_pos_eq by (left; apply Rinv_0_lt_compat; lra). fold lp. field. lra. }
  assert (Gi' : gap4 (val4 i) ti <= 5.06 * e53) by (assert (5.05 * e53 * / lp <= 5.05 * e53 * 1.0011) by (apply Rmult_le_compat_l; lra); lra).
  pose proof (len4_gap (val4 i) ti) as LG. rewrite LT in LG. apply abs_le in LG.
  destruct (fdot4_near p q Fp Fq Bp Bq) as [Fd Ed]. fold lp lq in Ed. assert (LL : lp * lq <= 1.0021) by (replace 1.0021 with (1.0021 * 1) by lra; nra). pose proof (abs_le _ _ Ed) as Ed'.
  assert (ELL : 4.02 * e53 * (lp * lq) <= 4.02 * e53 * 1.0021) by (apply Rmult_le_compat_l; lra).
  assert (SG : exists i' sg, (if SFleb zero64 (fdot4 p q) then Ok i else q64_scale (Some i) (b64_of_Z (-1))) = Ok i' /\ finite4 i' /\ (sg = 1 \/ sg = -1) /\ - (4.1 * e53) <= sg * dot4 (val4 p) (val4 q) /\ gap4 (val4 i') (times4 sg ti) <= 6.1 * e53).
  { destruct (SFleb zero64 (fdot4 p q)) eqn:C.
    - apply SFleb_val in C; [| exact I | exact Fd]. change (rval zero64) with 0 in C. exists i, 1. split; [reflexivity |]. split; [exact Fi |]. split; [left; reflexivity |]. split; [lra |]. rewrite times_one. lra.
    - assert (C' : rval (fdot4 p q) < 0). { destruct (Rle_or_lt 0 (rval (fdot4 p q))) as [G | G]; [| exact G]. assert (K : SFleb zero64 (fdot4 p q) = true) by (apply SFleb_val; [exact I | exact Fd | exact G]). congruence. }
      assert (MV : rval (b64_of_Z (-1)) = -1 /\ finite64 (b64_of_Z (-1))) by (destruct (of_Z_val (-1) ltac:(lia)) as [A B]; split; [exact B | exact A]). destruct MV as [MV MF].
      destruct (scale4_err i (b64_of_Z (-1)) Fi MF ltac:(lra) ltac:(rewrite MV; rewrite Rabs_left; lra)) as (i' & HI' & Fi' & G'). rewrite MV in G'. replace (Rabs (-1)) with 1 in G' by (rewrite Rabs_left; lra). exists i', (-1). split; [exact HI' |]. split; [exact Fi' |]. split; [right; reflexivity |]. split; [lra |].
      eapply Rle_trans; [apply (gap4_triangle _ (times4 (-1) (val4 i))) |]. rewrite gap_times_any. replace (Rabs (-1)) with 1 by (rewrite Rabs_left; lra). assert (e53 * (1 * len4 (val4 i)) <= e53 * 1.002) by (apply Rmult_le_compat_l; lra). lra. }
  destruct SG as (i' & sg & HI' & Fi' & HS & DS & Gs). assert (AS : Rabs sg = 1) by (destruct HS as [-> | ->]; [apply Rabs_R1 | rewrite Rabs_left; lra]).
  pose proof (len4_gap (val4 i') (times4 sg ti)) as LG'. rewrite len4_times, AS, LT in LG'. apply abs_le in LG'. pose proof (len4_pos (val4 i')) as LI0.
  assert (Bi : within4 (P2 450) i') by (apply within_len; [exact Fi' | lra]). destruct (fmul4_err r i' q Fi' Fq Bi Bq) as [Fm Gm]. fold lq in Gm.
  exists i, i', (fmul4 r i' q), sg. split; [exact HI |]. split; [exact HI' |]. split; [reflexivity |]. split; [exact Fm |]. split; [exact HS |]. split; [exact DS |].
  assert (TQ : times4 (lq / lp) (qmul (qconj (versor (val4 p))) (times4 sg (versor (val4 q)))) = qmul (times4 sg ti) (val4 q)).
  { rewrite <- (versor_back (val4 q)) at 2 by (fold lq; lra). fold lq. unfold ti. rewrite times_times. replace (qconj (versor (val4 p))) with (times4 (/ lp) (qconj (val4 p))) by (unfold versor, times4, qconj; cbn [qx qy qz qs]; fold lp; f_equal; ring). rewrite !qmul_times, times_times. f_equal. field. lra. }
  rewrite TQ. eapply Rle_trans; [apply (gap4_triangle _ (qmul (val4 i') (val4 q))) |]. rewrite gap4_mul_r. fold lq.
  assert (X1 : len4 (val4 i') * lq <= 1.003 * 1.001) by (apply Rmult_le_compat; lra). assert (X2 : 8 * e53 * (len4 (val4 i') * lq) <= 8 * e53 * (1.003 * 1.001)) by (apply Rmult_le_compat_l; lra). assert (X3 : gap4 (val4 i') (times4 sg ti) * lq <= 6.1 * e53 * 1.001) by (apply Rmult_le_compat; try lra; apply len4_pos). lra.
Qed.

(** *** SLERP *)
Lemma big_sine t : - / 100000 <= cos t < 0 -> 0 <= sin t -> 0.9 <= sin t.
Proof. intros C S. pose proof (sc1 t). nra. Qed.
Lemma times_nonpos a b : 0 <= a -> b < 0 -> a * b <= 0.
Proof. intros. nra. Qed.
Lemma slerp_def L r eps p q k i i' m w u : SFltb k zero64 = false -> SFltb one_64 k = false -> q64_inverse eps (Some p) = Ok i -> (if SFleb zero64 (fdot4 p q) then Ok i else q64_scale (Some i) (b64_of_Z (-1))) = Ok i' ->
  q64_mul r (Some i') (Some q) = Ok m -> q64_pow L r eps (Some m) k = Ok w -> q64_mul r (Some p) (Some w) = Ok u -> q64_SLERP L r eps (Some p) (Some q) (Some k) = q64_normalize eps (Some u).
Proof. intros A B C D E F G. unfold q64_SLERP, q64_dotProduct. cbn [need3 bind]. rewrite A, B. cbn [orb]. rewrite C. cbn [bind]. rewrite D. cbn [bind]. rewrite E. cbn [bind]. rewrite F. cbn [bind]. rewrite G. reflexivity. Qed.
Lemma slerp_near L r eps p q k e : libm_within L e -> e <= / 1000 -> finite4 p -> finite4 q -> Rabs (len4 (val4 p) - 1) <= / 1000 -> Rabs (len4 (val4 q) - 1) <= / 1000 -> finite64 k -> 0 <= rval k <= 1 -> finite64 eps -> P2 (-400) <= rval eps <= / 32 ->
  exists sg d th w, (sg = 1 \/ sg = -1) /\ norm3 d = 1 /\ 0 <= th <= PI /\ - (5 * e53) <= cos th /\ times4 sg (versor (val4 q)) = qmul (versor (val4 p)) (polar 1 d th) /\
    q64_SLERP L r eps (Some p) (Some q) (Some k) = Ok w /\ finite4 w /\ gap4 (val4 w) (qmul (versor (val4 p)) (polar 1 d (rval k * th))) <= 7.1 * e + 165 * e53 + 4.2 * rval eps /\ Rabs (len4 (val4 w) - 1) <= 4.07 * e53 /\
    forall t, finite64 t -> P2 (-50) <= rval t -> q64_isUnitary (Some w) (Some t) = Ok true.
Proof.
  intros HL He Fp Fq Lp Lq Fk K Fe Heps. pose proof (libm_pos L e HL) as E0. pose proof e53_pos as PE. assert (E9 : e53 <= / 1000000000) by (unfold e53; lra). pose proof tiny_e4 as T4. pose proof tiny_pos as TP. pose proof pi_digits as PD. pose proof (P2_pos (-400)) as P4.
  destruct (relative r eps p q Fp Fq Lp Lq Fe ltac:(lra)) as (i & i' & m & sg & HI & HI' & HM & Fm & HS & DS & GM). apply abs_le in Lp. apply abs_le in Lq. set (lp := len4 (val4 p)) in *. set (lq := len4 (val4 q)) in *. set (vp := versor (val4 p)) in *. set (vq := versor (val4 q)) in *.
  assert (LVP : len4 vp = 1) by (apply versor_len; fold lp; lra). assert (LVQ : len4 vq = 1) by (apply versor_len; fold lq; lra). assert (AS : Rabs sg = 1) by (destruct HS as [-> | ->]; [apply Rabs_R1 | rewrite Rabs_left; lra]).
  set (M := qmul (qconj vp) (times4 sg vq)) in *. assert (LM : len4 M = 1) by (unfold M; rewrite len4_mul, len_conj, len4_times, LVP, LVQ, AS; ring). destruct (polar_any M LM) as (d & th & Nd & TH & EM).
  assert (ILP : 0 < / lp <= 1.0011). { split; [apply Rinv_0_lt_compat; lra |]. apply Rmult_le_reg_r with lp; [lra |]. rewrite Rinv_l by lra. lra. } assert (ILQ : 0 < / lq <= 1.0011). { split; [apply Rinv_0_lt_compat; lra |]. apply Rmult_le_reg_r with lq; [lra |]. rewrite Rinv_l by lra. lra. }
  assert (CT : - (5 * e53) <= cos th). { replace (cos th) with (qs M) by (rewrite EM; unfold polar; cbn [qs]; ring). unfold M. rewrite qmul_conj_dot. replace (dot4 vp (times4 sg vq)) with (/ lp * / lq * (sg * dot4 (val4 p) (val4 q))) by (unfold vp, vq, versor, dot4, times4; cbn [qx qy qz qs]; fold lp lq; ring).
    assert (I1 : 0 < / lp * / lq <= 1.0011 * 1.0011) by (split; [apply Rmult_lt_0_compat; lra | apply Rmult_le_compat; lra]). set (c := / lp * / lq) in *. assert (c * - (4.1 * e53) <= c * (sg * dot4 (val4 p) (val4 q))) by (apply Rmult_le_compat_l; lra). assert (c * (4.1 * e53) <= 1.0011 * 1.0011 * (4.1 * e53)) by (apply Rmult_le_compat_r; lra). lra. }
  assert (REL : times4 sg vq = qmul vp (polar 1 d th)) by (rewrite <- EM; unfold M; rewrite conj_cancel, <- len4_sq, LVP, Rmult_1_r, times_one; reflexivity).
  (* the computed relative rotation *)
  set (H := lq / lp) in *. assert (HB : 0.997 <= H <= 1.0022). { unfold H, Rdiv. split; [| apply Rle_trans with (1.001 * 1.0011); [apply Rmult_le_compat; lra | lra]]. apply Rmult_le_reg_r with lp; [lra |]. rewrite Rmult_assoc, Rinv_l by lra. lra. }
  set (h := len4 (val4 m)). pose proof (len4_gap (val4 m) (times4 H M)) as HH. rewrite len4_times, LM, Rmult_1_r, (Rabs_pos_eq H) in HH by lra. fold h in HH. assert (HH' : Rabs (h - H) <= 14.4 * e53) by lra. pose proof (abs_le _ _ HH') as HB'.
  set (vm := versor (val4 m)). assert (LVM : len4 vm = 1) by (apply versor_len; fold h; lra). destruct (polar_any vm LVM) as (dm & tm & Nm & TM & EVM). assert (EM' : val4 m = polar h dm tm) by (rewrite polar_times, <- EVM; unfold vm, h; rewrite versor_back by (fold h; lra); reflexivity).
  assert (GV : gap4 vm M <= 29 * e53). { assert (X : H * gap4 vm M <= 28.8 * e53). { rewrite <- (Rabs_pos_eq H) at 1 by lra. rewrite <- gap_times_any. eapply Rle_trans; [apply (gap4_triangle _ (times4 h vm)) |]. rewrite gap_same, LVM, Rmult_1_r, Rabs_minus_sym. unfold vm, h at 2. rewrite versor_back by (fold h; lra). lra. } assert (0.997 * gap4 vm M <= H * gap4 vm M) by (apply Rmult_le_compat_r; [apply len4_pos | lra]). lra. }
  assert (CM : - (34 * e53) <= cos tm). { pose proof (gap_scalar vm M) as GS. rewrite EVM, EM in GS at 1. unfold polar in GS at 1 2. cbn [qs] in GS. apply abs_le in GS. lra. }
  assert (HC : 0 <= cos tm \/ 2 * rval eps <= h * sin tm). { destruct (Rle_or_lt 0 (cos tm)) as [C | C]; [left; exact C | right]. pose proof (sin_ge_0 tm ltac:(lra) ltac:(lra)) as S0. pose proof (big_sine tm ltac:(lra) S0) as BS. assert (0.9 * 0.9 <= h * sin tm) by (apply Rmult_le_compat; lra). lra. }
  destruct (pow_near L r eps m k e h dm tm HL He Fm ltac:(lra) Nm TM EM' Fk ltac:(rewrite Rabs_pos_eq; lra) Fe Heps HC) as (w0 & eta & HP & Fw & _ & BE & _ & ALT). specialize (BE ltac:(apply abs_of; lra)). rewrite (Rabs_pos_eq (rval k)) in ALT by lra.
  assert (KE : rval k * eta <= e + 16.3 * e53 + 1.03 * rval eps). { destruct (Rle_or_lt 0 eta) as [P | P]; [assert (rval k * eta <= 1 * eta) by (apply Rmult_le_compat_r; lra); lra | pose proof (times_nonpos (rval k) eta ltac:(lra) P); lra]. }
  assert (EE : e53 * rval eps <= / 1000000000 * rval eps) by (apply Rmult_le_compat_r; lra).
  assert (PW : exists E', 0.995 <= E' <= 1.005 /\ gap4 (val4 w0) (times4 E' (polar 1 dm (rval k * tm))) <= 3.5 * e + 40 * e53 + 2.05 * rval eps).
  { destruct ALT as [[-> A] | (z & Z & G)].
    - exists 1. split; [lra |]. rewrite times_one, unit_val, <- (polar_zero dm). eapply Rle_trans; [apply polar_close; exact Nm |]. rewrite (dist_scale _ _ _ Nm), Rminus_0_l, Rabs_Ropp, Rabs_mult, (Rabs_pos_eq tm), (Rabs_pos_eq (rval k)) by lra. lra.
    - pose proof (ln_near h 1 0.0031 ltac:(lra) ltac:(lra) ltac:(apply abs_of; lra)) as LN. rewrite ln_1, Rminus_0_r in LN. assert (LK : Rabs (rval k * ln h) <= 1 * (1.02 * 0.0031)) by (rewrite Rabs_mult, (Rabs_pos_eq (rval k)) by lra; apply Rmult_le_compat; try apply Rabs_pos; lra).
      assert (ZB : Rabs z <= 0.0042) by (replace z with ((z - rval k * ln h) + rval k * ln h) by ring; eapply Rle_trans; [apply Rabs_triang |]; lra). pose proof (exp_small z ltac:(lra)) as EZ. apply abs_le in EZ. exists (exp z). split; [lra |]. rewrite <- polar_times. eapply Rle_trans; [exact G |].
      assert (G1 : (exp z + e) * (1.4145 * e + 19.1 * e53) <= 1.006 * (1.4145 * e + 19.1 * e53)) by (apply Rmult_le_compat_r; lra). assert (G2 : exp z * (eta + 4.1 * e53) <= 1.005 * (e + 20.4 * e53 + 1.03 * rval eps)). { destruct (Rle_or_lt 0 (eta + 4.1 * e53)) as [P | P]; [apply Rmult_le_compat; lra |]. pose proof (times_nonpos (exp z) (eta + 4.1 * e53) ltac:(lra) P). lra. } lra. }
  destruct PW as (E' & EB & GW). set (W := polar 1 d (rval k * th)). assert (LW : len4 W = 1) by (apply polar_len; [exact Nd | lra]).
  assert (GW2 : gap4 (val4 w0) (times4 E' W) <= 3.5 * e + 69.2 * e53 + 2.05 * rval eps). { eapply Rle_trans; [apply (gap4_triangle _ (times4 E' (polar 1 dm (rval k * tm)))) |]. rewrite gap_times_any, (Rabs_pos_eq E') by lra. pose proof (pow_close (rval k) dm d tm th K Nm Nd TM TH ltac:(lra) ltac:(lra)) as PC. rewrite <- EVM, <- EM in PC. fold W in PC.
    assert (E' * gap4 (polar 1 dm (rval k * tm)) W <= 1.005 * (1.0002 * (29 * e53))) by (apply Rmult_le_compat; try apply len4_pos; lra). lra. }
  pose proof (len4_gap (val4 w0) (times4 E' W)) as LGW. rewrite len4_times, LW, Rmult_1_r, (Rabs_pos_eq E') in LGW by lra. apply abs_le in LGW.
  pose proof (P2_mono 2 450 ltac:(lia)) as M4. rewrite P2_2 in M4. assert (Bp : within4 (P2 450) p) by (apply within_len; [exact Fp | fold lp; lra]). assert (Bw : within4 (P2 450) w0) by (apply within_len; [exact Fw | lra]). destruct (fmul4_err r p w0 Fp Fw Bp Bw) as [Fx Gx]. fold lp in Gx. set (x := fmul4 r p w0) in *.
  assert (TX : qmul (val4 p) (times4 E' W) = times4 (lp * E') (qmul vp W)) by (rewrite <- (versor_back (val4 p)) at 1 by (fold lp; lra); fold lp vp; apply qmul_times).
  assert (GX : gap4 (val4 x) (times4 (lp * E') (qmul vp W)) <= 3.504 * e + 78.1 * e53 + 2.053 * rval eps).
  { rewrite <- TX. eapply Rle_trans; [apply (gap4_triangle _ (qmul (val4 p) (val4 w0))) |]. rewrite gap4_mul_l. fold lp. pose proof (len4_pos (val4 w0)) as LW0. assert (X1 : lp * len4 (val4 w0) <= 1.001 * 1.08) by (apply Rmult_le_compat; lra). assert (X2 : 8 * e53 * (lp * len4 (val4 w0)) <= 8 * e53 * (1.001 * 1.08)) by (apply Rmult_le_compat_l; lra). assert (X3 : lp * gap4 (val4 w0) (times4 E' W) <= 1.001 * (3.5 * e + 69.2 * e53 + 2.05 * rval eps)) by (apply Rmult_le_compat; try apply len4_pos; lra). lra. }
  set (D := 3.504 * e + 78.1 * e53 + 2.053 * rval eps) in *. assert (KB : 0.994 <= lp * E' <= 1.0061) by (split; [apply Rle_trans with (0.999 * 0.995); [lra | apply Rmult_le_compat; lra] | apply Rle_trans with (1.001 * 1.005); [apply Rmult_le_compat; lra | lra]]).
  assert (LQW : len4 (qmul vp W) = 1) by (rewrite len4_mul, LVP, LW; ring). assert (P440 : P2 (-440) <= 0.994) by (pose proof P440_e; lra).
  destruct (normal_target eps x (qmul vp W) (lp * E') D Fx Fe LQW ltac:(lra) GX ltac:(unfold D; lra) ltac:(lra)) as (u & HU & Fu & GU & LU & UU).
  exists sg, d, th, u. split; [exact HS |]. split; [exact Nd |]. split; [exact TH |]. split; [exact CT |]. split; [exact REL |].
  destruct one_val as [FO VO]. split; [rewrite <- HU; apply (slerp_def L r eps p q k i i' m w0 x); [apply ltb_f; [exact Fk | exact I | change (rval zero64) with 0; lra] | apply ltb_f; [exact FO | exact Fk | rewrite VO; lra] | exact HI | exact HI' | exact HM | exact HP | reflexivity] |].
  split; [exact Fu |]. split; [| split; [exact LU | exact UU]]. eapply Rle_trans; [exact GU |]. assert (DK : D / (lp * E') <= 1.0062 * D). { unfold Rdiv. rewrite Rmult_comm. apply Rmult_le_compat_r; [unfold D; lra |]. apply Rmult_le_reg_r with (lp * E'); [lra |]. rewrite Rinv_l by lra. lra. } unfold D in *. lra.
Qed.
