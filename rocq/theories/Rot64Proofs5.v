From Coq Require Import List Bool ZArith Reals Lra Lia Psatz Floats.SpecFloat.
From Verif Require Import Result Vec Mat3 VecProofs AngleModel FloatModel FloatSpec FloatProofs FloatProofs2 FloatProofs3 FloatProofs4 FloatProofs5 FloatProofs7 FloatProofs8 FloatProofs10
  Geo3Spec Geo3Proofs Geo3Proofs2 Geo64Model Geo64Spec Geo64Proofs Geo64Proofs2 Geo64Proofs3 Geo64Proofs4 Geo64Proofs5 Geo64Proofs6 Geo64Proofs8 RotModel RotSpec RotProofs Rot64Model Rot64Spec Rot64Proofs Rot64Proofs2 Rot64Proofs3 Rot64Proofs4.
Import ListNotations.
Local Open Scope R_scope.

(** *** Turning vectors *)
Lemma gap4_mul_r a b c : gap4 (qmul a c) (qmul b c) = gap4 a b * len4 c.
Proof. rewrite !gap4_sub. replace (sub4 (qmul a c) (qmul b c)) with (qmul (sub4 a b) c) by (destruct a, b, c; unfold sub4, qmul, of_parts, sub3, add3, scale3, cross3, dot3, vec; cbn; f_equal; ring). apply len4_mul. Qed.
Lemma gap4_mul_l a b c : gap4 (qmul c a) (qmul c b) = len4 c * gap4 a b.
Proof. rewrite !gap4_sub. replace (sub4 (qmul c a) (qmul c b)) with (qmul c (sub4 a b)) by (destruct a, b, c; unfold sub4, qmul, of_parts, sub3, add3, scale3, cross3, dot3, vec; cbn; f_equal; ring). apply len4_mul. Qed.
Lemma gap_vec a b : dist3 (vec a) (vec b) <= gap4 a b.
Proof. unfold dist3, gap4, norm3, len4. apply sqrt_le_1_alt. unfold sqnorm3, dot3, sub3, vec, sq; cbn. pose proof (Rle_0_sqr (qs a - qs b)). unfold Rsqr in *. lra. Qed.
Lemma len_parts v : len4 (of_parts v 0) = norm3 v.
Proof. unfold len4, norm3. f_equal. unfold sq, sqnorm3, dot3, of_parts; cbn. ring. Qed.
Lemma turned_rot q v : turned4 q v = rot q v.
Proof. unfold turned4, rot. rewrite <- !qmul_hamilton. reflexivity. Qed.
Lemma len_conj q : len4 (qconj q) = len4 q.
Proof. unfold len4. rewrite sq_conj. reflexivity. Qed.
Lemma conj_val q : val4 (fconj4 q) = qconj (val4 q).
Proof. unfold val4, fconj4, qconj; cbn. rewrite !SFopp_val. reflexivity. Qed.
Lemma conj_finite q : finite4 q -> finite4 (fconj4 q).
Proof. intros (A & B & C & D). repeat split; try apply SFopp_finite; assumption. Qed.
Lemma tiny_450 : tiny <= P2 450.
Proof. apply P2_mono. lia. Qed.
Lemma P2_440 : P2 450 = 1024 * P2 440.
Proof. change 1024 with (IZR (2 ^ 10)). rewrite P2_Z, <- P2_add by lia. reflexivity. Qed.
Lemma frotate_err r q v : finite4 q -> finite3 v -> len4 (val4 q) <= 1.000001 -> norm3 (val3 v) <= P2 440 ->
  finite3 (frotate r q v) /\ dist3 (val3 (frotate r q v)) (rot (val4 q) (val3 v)) <= 16.2 * e53 * norm3 (val3 v) + 40 * tiny.
Proof.
  intros Fq Fv Lq Bv. pose proof P2_450_2 as P450. pose proof P2_440 as PE. pose proof (P2_pos 440) as P440. pose proof tiny_pos as TP. pose proof tiny_e as TE.
  pose proof (norm3_nonneg (val3 v)) as V0. pose proof (len4_pos (val4 q)) as Q0.
  assert (Bq : within4 (P2 450) q) by (apply within_len; [exact Fq | lra]).
  set (w := parts64 v zero64). assert (Fw : finite4 w) by (destruct Fv as (A & B & C); repeat split; assumption).
  assert (Vw : val4 w = of_parts (val3 v) 0) by reflexivity. assert (Lw : len4 (val4 w) = norm3 (val3 v)) by (rewrite Vw; apply len_parts).
  assert (Bw : within4 (P2 450) w) by (apply within_len; [exact Fw | rewrite Lw; lra]).
  destruct (fmul4_err r q w Fq Fw Bq Bw) as [F1 G1]. rewrite Lw, Vw in G1. set (p := fmul4 r q w) in *. set (V := norm3 (val3 v)) in *. set (K := len4 (val4 q)) in *.
  assert (KV : K * V <= 1.000001 * V) by (apply Rmult_le_compat_r; lra).
  assert (Lp : len4 (val4 p) <= 1.000002 * V + 16 * tiny).
  { pose proof (len4_gap (val4 p) (qmul (val4 q) (of_parts (val3 v) 0))) as H. rewrite len4_mul, len_parts in H. fold V K in H. apply abs_le in H. unfold e53 in *. lra. }
  assert (Bp : within4 (P2 450) p). { apply within_len; [exact F1 |]. assert (e53 <= 1) by (unfold e53; lra). lra. }
  assert (Fc : finite4 (fconj4 q)) by (apply conj_finite; exact Fq). assert (Lc : len4 (val4 (fconj4 q)) = K) by (rewrite conj_val; apply len_conj).
  assert (Bc : within4 (P2 450) (fconj4 q)) by (apply within_len; [exact Fc | rewrite Lc; lra]).
  destruct (fmul4_err r p (fconj4 q) F1 Fc Bp Bc) as [F2 G2]. rewrite Lc in G2.
  assert (Hv : val3 (frotate r q v) = vec (val4 (fmul4 r p (fconj4 q)))) by reflexivity.
  split; [destruct F2 as (A & B & C & D); repeat split; assumption |]. rewrite Hv. unfold rot. eapply Rle_trans; [apply gap_vec |]. eapply Rle_trans; [apply (gap4_triangle _ (qmul (val4 p) (val4 (fconj4 q)))) |].
  rewrite <- conj_val, gap4_mul_r, Lc.
  assert (PK : len4 (val4 p) * K <= 1.00001 * V + 17 * tiny).
  { apply Rle_trans with ((1.000002 * V + 16 * tiny) * 1.000001); [apply Rmult_le_compat; try lra; apply len4_pos | lra]. }
  assert (GK : gap4 (val4 p) (qmul (val4 q) (of_parts (val3 v) 0)) * K <= (8 * e53 * (1.000001 * V) + 16 * tiny) * 1.000001).
  { apply Rmult_le_compat; [apply len4_pos | lra | | lra]. unfold e53 in *. lra. }
  unfold e53 in *. lra.
Qed.
Lemma tiny64 : 64 * tiny = P2 (-1069).
Proof. unfold tiny. replace 64 with (P2 6) by (rewrite <- P2_Z by lia; reflexivity). rewrite <- P2_add. reflexivity. Qed.
Lemma dist_norm a b : Rabs (norm3 a - norm3 b) <= dist3 a b.
Proof.
  unfold dist3. pose proof (norm3_triangle (sub3 a b) b) as A. pose proof (norm3_triangle (sub3 b a) a) as B.
  replace (add3 (sub3 a b) b) with a in A by (destruct a; unfold add3, sub3; cbn; f_equal; ring). replace (add3 (sub3 b a) a) with b in B by (destruct b; unfold add3, sub3; cbn; f_equal; ring).
  pose proof (dist3_sym a b) as S. unfold dist3 in S. rewrite <- S in B. apply abs_of. lra.
Qed.
Lemma rot_len q v : norm3 (rot q v) = len4 q * len4 q * norm3 v.
Proof. unfold norm3. rewrite rot_sq. rewrite sqrt_mult by (try apply Rle_0_sqr; try (rewrite <- norm3_sq; apply Rle_0_sqr); pose proof (sq_nonneg q); nra). rewrite sqrt_square by apply sq_nonneg. rewrite len4_sq. reflexivity. Qed.
Lemma accepted_bounds q t : finite4 q -> within4 (P2 450) q -> finite64 t -> 0 < rval t <= P2 (-26) -> q64_isUnitary (Some q) (Some t) = Ok true ->
  len4 (val4 q) <= 1.000001 /\ Rabs (len4 (val4 q) * len4 (val4 q) - 1) <= 2 * rval t + 10.8 * e53.
Proof.
  intros F B Ft Ht H. pose proof (accepted_len q t F B Ft Ht H) as L. pose proof (sq_26 _ Ht) as Q. pose proof P2_26_small. set (d := rval t + 4.3 * e53) in *. assert (D : 0 <= d <= / 1000000) by (unfold d, e53; lra).
  apply abs_le in L. split; [lra |]. set (K := len4 (val4 q)) in *. replace (K * K - 1) with (2 * (K - 1) + (K - 1) * (K - 1)) by ring.
  assert (Rabs ((K - 1) * (K - 1)) <= d * d) by (rewrite Rabs_mult; apply Rmult_le_compat; try apply Rabs_pos; apply abs_of; lra). eapply Rle_trans; [apply Rabs_triang |]. assert (Rabs (2 * (K - 1)) <= 2 * d) by (apply abs_of; lra). unfold d, e53 in *. lra.
Qed.
Lemma rotate_ok r q v t : q64_isUnitary (Some q) (Some t) = Ok true -> q64_rotateVector r (Some q) (Some v) (Some t) = Ok (frotate r q v).
Proof. intros H. unfold q64_rotateVector. cbn [need3 bind]. rewrite H. reflexivity. Qed.
Lemma c132_rotate r q v t : finite4 q -> within4 (P2 450) q -> finite3 v -> norm3 (val3 v) <= P2 440 -> finite64 t -> 0 < rval t <= P2 (-26) ->
  q64_isUnitary (Some q) (Some t) = Ok true ->
  exists w, q64_rotateVector r (Some q) (Some v) (Some t) = Ok w /\ finite3 w /\
    dist3 (val3 w) (turned4 (val4 q) (val3 v)) <= P2 (-48) * norm3 (val3 v) + P2 (-1069) /\
    Rabs (norm3 (val3 w) - norm3 (val3 v)) <= (2 * rval t + P2 (-48)) * norm3 (val3 v) + P2 (-1069).
Proof.
  intros Fq Bq Fv Bv Ft Ht H. exists (frotate r q v). split; [apply rotate_ok; exact H |]. destruct (accepted_bounds q t Fq Bq Ft Ht H) as [L1 L2].
  destruct (frotate_err r q v Fq Fv L1 Bv) as [Fw G]. split; [exact Fw |]. rewrite turned_rot, <- e48, <- tiny64. pose proof tiny_pos. pose proof (norm3_nonneg (val3 v)) as V0. split; [unfold e53 in *; lra |].
  pose proof (dist_norm (val3 (frotate r q v)) (rot (val4 q) (val3 v))) as D. rewrite rot_len in D. set (V := norm3 (val3 v)) in *. set (K2 := len4 (val4 q) * len4 (val4 q)) in *.
  assert (KV : Rabs (K2 * V - V) <= (2 * rval t + 10.8 * e53) * V) by (replace (K2 * V - V) with ((K2 - 1) * V) by ring; rewrite Rabs_mult, (Rabs_pos_eq V V0); apply Rmult_le_compat_r; assumption).
  apply abs_le in D. apply abs_le in KV. apply abs_of. replace ((2 * rval t + 32 * e53) * V) with (2 * rval t * V + 32 * e53 * V) by ring. replace ((2 * rval t + 10.8 * e53) * V) with (2 * rval t * V + 10.8 * e53 * V) in KV by ring. unfold e53 in *. lra.
Qed.
(** There and back. *)
Lemma rot_back q v : rot (qconj q) (rot q v) = scale3 (sq q * sq q) v.
Proof. rewrite <- !rot_matrix. qring. Qed.
Lemma rot_sub q v w : dist3 (rot q v) (rot q w) = len4 q * len4 q * dist3 v w.
Proof.
  unfold dist3. rewrite <- rot_len. f_equal. rewrite <- !rot_matrix. qring.
Qed.
Lemma SFabs_opp x : SFabs (SFopp x) = SFabs x.
Proof. destruct x; reflexivity. Qed.
Lemma fnorm4_conj q : fnorm4 (fconj4 q) = fnorm4 q.
Proof.
  unfold fnorm4, fdot4, fconj4; cbn [q64x q64y q64z q64s]. rewrite (square_abs (SFopp (q64x q))), (square_abs (SFopp (q64y q))), (square_abs (SFopp (q64z q))), !SFabs_opp, <- !square_abs. reflexivity.
Qed.
Lemma c132_back r q v t : finite4 q -> within4 (P2 450) q -> finite3 v -> norm3 (val3 v) <= P2 430 -> finite64 t -> 0 < rval t <= P2 (-26) ->
  q64_isUnitary (Some q) (Some t) = Ok true ->
  exists c w u, q64_conjugate (Some q) = Ok c /\ q64_rotateVector r (Some q) (Some v) (Some t) = Ok w /\ q64_rotateVector r (Some c) (Some w) (Some t) = Ok u /\ finite3 u /\
    dist3 (val3 u) (val3 v) <= (4 * rval t + P2 (-47)) * norm3 (val3 v) + P2 (-1068).
Proof.
  intros Fq Bq Fv Bv Ft Ht H. exists (fconj4 q), (frotate r q v), (frotate r (fconj4 q) (frotate r q v)). split; [reflexivity |]. split; [apply rotate_ok; exact H |].
  assert (Hc : q64_isUnitary (Some (fconj4 q)) (Some t) = Ok true).
  { rewrite <- H. unfold q64_isUnitary. cbn [need3 bind]. rewrite fnorm4_conj. reflexivity. }
  split; [apply rotate_ok; exact Hc |]. destruct (accepted_bounds q t Fq Bq Ft Ht H) as [L1 L2]. pose proof (conj_finite q Fq) as Fc.
  assert (P4 : 1024 * P2 430 = P2 440) by (change 1024 with (IZR (2 ^ 10)); rewrite P2_Z, <- P2_add by lia; reflexivity). pose proof (P2_pos 430).
  destruct (frotate_err r q v Fq Fv L1 ltac:(lra)) as [Fw G]. set (V := norm3 (val3 v)) in *. pose proof (norm3_nonneg (val3 v)) as V0. fold V in V0. pose proof tiny_pos as TP. pose proof tiny_e as TE.
  set (w := frotate r q v) in *. set (K2 := len4 (val4 q) * len4 (val4 q)) in *. pose proof P2_26_small as P26.
  assert (K0 : 0 <= K2) by (unfold K2; pose proof (len4_pos (val4 q)); nra). assert (K1 : K2 <= 1.00001) by (apply abs_le in L2; unfold e53 in *; lra).
  assert (Nw : norm3 (val3 w) <= 1.0001 * V + 40 * tiny).
  { pose proof (dist_norm (val3 w) (rot (val4 q) (val3 v))) as D. rewrite rot_len in D. fold K2 V in D. apply abs_le in D. assert (K2 * V <= 1.00001 * V) by (apply Rmult_le_compat_r; lra). unfold e53 in *. lra. }
  assert (T1 : tiny <= P2 430) by (apply P2_mono; lia).
  destruct (frotate_err r (fconj4 q) w Fc Fw ltac:(rewrite conj_val, len_conj; lra) ltac:(lra)) as [Fu G2]. split; [exact Fu |].
  rewrite conj_val in G2. eapply Rle_trans; [apply (dist3_triangle _ (rot (qconj (val4 q)) (val3 w))) |]. eapply Rle_trans; [apply Rplus_le_compat_l, (dist3_triangle _ (rot (qconj (val4 q)) (rot (val4 q) (val3 v)))) |].
  rewrite rot_sub, len_conj. fold K2. rewrite rot_back, <- len4_sq. fold K2.
  assert (D3 : dist3 (scale3 (K2 * K2) (val3 v)) (val3 v) <= (4 * rval t + 30.1 * e53) * V).
  { unfold dist3. replace (sub3 (scale3 (K2 * K2) (val3 v)) (val3 v)) with (scale3 (K2 * K2 - 1) (val3 v)) by (destruct (val3 v); unfold sub3, scale3; cbn; f_equal; ring). rewrite norm3_scale. apply Rmult_le_compat_r; [exact V0 |]. fold K2 in L2.
    set (d := 2 * rval t + 10.8 * e53) in *. assert (dd : d * d <= 8.4 * e53).
    { pose proof P2_26 as Q. pose proof (Rmult_le_compat (rval t) (P2 (-26)) (rval t) (P2 (-26)) ltac:(lra) ltac:(lra) ltac:(lra) ltac:(lra)) as TT. rewrite Q in TT.
      set (y := 10.8 * e53) in *. assert (Yy : 0 <= y <= / 1000000) by (unfold y, e53; lra). unfold d. replace ((2 * rval t + y) * (2 * rval t + y)) with (4 * (rval t * rval t) + (4 * rval t + y) * y) by ring.
      assert ((4 * rval t + y) * y <= / 1000 * y) by (apply Rmult_le_compat_r; lra). unfold y, e53 in *. lra. }
    replace (K2 * K2 - 1) with (2 * (K2 - 1) + (K2 - 1) * (K2 - 1)) by ring. eapply Rle_trans; [apply Rabs_triang |].
    assert (Rabs ((K2 - 1) * (K2 - 1)) <= d * d) by (rewrite Rabs_mult; apply Rmult_le_compat; try apply Rabs_pos; assumption). assert (Rabs (2 * (K2 - 1)) <= 2 * d) by (apply abs_le in L2; apply abs_of; lra). unfold d, e53 in *. lra. }
  assert (D2 : K2 * dist3 (val3 w) (rot (val4 q) (val3 v)) <= 1.00001 * (16.2 * e53 * V + 40 * tiny)) by (apply Rmult_le_compat; try lra; apply dist3_pos).
  replace (P2 (-47)) with (64 * e53) by (rewrite <- e53_P2; replace 64 with (P2 6) by (rewrite <- P2_Z by lia; reflexivity); rewrite <- P2_add; reflexivity).
  replace (P2 (-1068)) with (128 * tiny) by (unfold tiny; replace 128 with (P2 7) by (rewrite <- P2_Z by lia; reflexivity); rewrite <- P2_add; reflexivity).
  replace ((4 * rval t + 64 * e53) * V) with (4 * rval t * V + 64 * e53 * V) by ring. replace ((4 * rval t + 30.1 * e53) * V) with (4 * rval t * V + 30.1 * e53 * V) in D3 by ring. unfold e53 in *. lra.
Qed.
