From Coq Require Import List Bool ZArith Reals Lra Lia Psatz Floats.SpecFloat.
From Verif Require Import Result Vec Mat3 VecProofs AngleModel FloatModel FloatSpec FloatProofs FloatProofs2 FloatProofs3 FloatProofs4 FloatProofs5 FloatProofs7 FloatProofs8 FloatProofs10
  Geo64Model Geo64Spec Geo64Proofs Geo64Proofs2 Geo64Proofs3 Geo64Proofs4 Geo64Proofs5 Geo64Proofs6 Geo64Proofs8 RotModel RotSpec RotProofs Rot64Model Rot64Spec Rot64Proofs Rot64Proofs2 Rot64Proofs3.
Import ListNotations.
Local Open Scope R_scope.

Lemma P2_ge1023 : 8388608 <= P2 1023.
Proof. pose proof (P2_mono 23 1023 ltac:(lia)) as M. rewrite <- (P2_Z 23) in M by lia. exact M. Qed.
Lemma tiny_e : 10000 * tiny <= e53.
Proof.
  pose proof tiny_900. assert (P2 (-900) <= / 100) by (apply Rle_trans with (P2 (-7)); [apply P2_mono; lia | rewrite P2_m by lia; apply Rinv_le_contravar; [lra | apply IZR_le; lia]]). pose proof (P2_pos (-900)). unfold e53 in *. lra.
Qed.
Lemma len_within q : finite4 q -> within4 (P2 450) q -> len4 (val4 q) <= 2 * P2 450.
Proof.
  intros _ (B1 & B2 & B3 & B4). apply len4_le; [pose proof (P2_pos 450); lra |]. unfold sq, val4; cbn [qx qy qz qs].
  assert (G : forall x, Rabs x <= P2 450 -> x * x <= P2 450 * P2 450). { intros x H. apply Rsqr_le_abs_1. rewrite (Rabs_pos_eq (P2 450)); [exact H | apply Rlt_le, P2_pos]. }
  pose proof (G _ B1). pose proof (G _ B2). pose proof (G _ B3). pose proof (G _ B4). lra.
Qed.
(** The computed norm, whatever the length. *)
Lemma fnorm4_any q : finite4 q -> within4 (P2 450) q ->
  finite64 (fnorm4 q) /\ 0 <= rval (fnorm4 q) <= P2 500 /\ (Rabs (rval (fnorm4 q) - len4 (val4 q)) <= 3.05 * e53 * len4 (val4 q) \/ len4 (val4 q) <= 0.3 /\ rval (fnorm4 q) <= 0.3).
Proof.
  intros F B. pose proof (len4_pos (val4 q)) as LP. destruct (Rle_lt_dec (P2 (-450)) (len4 (val4 q))) as [L | L].
  - destruct (fnorm4_err q F B L) as [Fn E]. split; [exact Fn |]. pose proof (len_within q F B) as LW. split; [| left; exact E].
    assert (4 * P2 450 <= P2 500) by (replace 4 with (P2 2) by (rewrite <- P2_Z by lia; reflexivity); rewrite <- P2_add; apply P2_mono; lia). pose proof (P2_pos (-450)). apply abs_le in E. unfold e53 in *. lra.
  - destruct (fdot4_near q q F F B B) as [Fs E]. rewrite len4_sq in E. pose proof (sq_nonneg (val4 q)) as S0. assert (LS : P2 (-450) <= / 100) by (apply Rle_trans with (P2 (-7)); [apply P2_mono; lia | rewrite P2_m by lia; apply Rinv_le_contravar; [lra | apply IZR_le; lia]]).
    assert (S1 : sq (val4 q) <= / 10000) by (rewrite <- len4_sq; nra). pose proof tiny_e. change (dot4 (val4 q) (val4 q)) with (sq (val4 q)) in E. apply abs_le in E.
    assert (Ps : 0 <= rval (fdot4 q q)).
    { unfold fdot4. destruct F as (F1 & F2 & F3 & F4). destruct B as (B1 & B2 & B3 & B4).
      destruct (square_pos _ 450 F1 B1 ltac:(lia)) as [X1 [Y1 Z1]]. destruct (square_pos _ 450 F2 B2 ltac:(lia)) as [X2 [Y2 Z2]]. destruct (square_pos _ 450 F3 B3 ltac:(lia)) as [X3 [Y3 Z3]]. destruct (square_pos _ 450 F4 B4 ltac:(lia)) as [X4 [Y4 Z4]].
      change (2 * 450)%Z with 900%Z in *. pose proof P2_900 as [T1 T2].
      destruct (add_pos _ _ (2 * P2 900) X1 X2 Y1 Y2 ltac:(lra) ltac:(lra)) as (A1 & A2 & _). destruct (add_any _ _ X1 X2 ltac:(rewrite Rabs_pos_eq by lra; lra)) as [_ A3].
      rewrite (Rabs_pos_eq (_ + _)) in A3 by lra. apply abs_le in A3.
      assert (K : rval (sf_add (b64_mul (q64x q) (q64x q)) (b64_mul (q64y q) (q64y q))) <= 2.1 * P2 900) by (unfold e53 in *; lra).
      destruct (add_pos _ _ (4 * P2 900) A1 X3 ltac:(lra) Y3 ltac:(lra) ltac:(lra)) as (C1 & C2 & _). destruct (add_any _ _ A1 X3 ltac:(rewrite Rabs_pos_eq by lra; lra)) as [_ C3].
      rewrite (Rabs_pos_eq (_ + _)) in C3 by lra. apply abs_le in C3.
      destruct (add_pos _ _ (6 * P2 900) C1 X4 ltac:(lra) Y4 ltac:(unfold e53 in *; lra) ltac:(lra)) as (D1 & D2 & _). lra. }
    assert (Bs : rval (fdot4 q q) <= 0.04) by (unfold e53 in *; lra).
    pose proof (sqrt_err _ Fs Ps) as K. rewrite e53_P2 in K. pose proof (sqrt_pos (rval (fdot4 q q))) as Q0. assert (Q1 : sqrt (rval (fdot4 q q)) <= 0.2) by (apply Rsqr_incr_0_var; [unfold Rsqr; rewrite sqrt_sqrt by exact Ps; lra | lra]).
    assert (Fn : finite64 (fnorm4 q)) by (exact (proj1 (proj1 (SFsqrt_rounded _ Fs Ps)))). split; [exact Fn |]. unfold fnorm4, b64_sqrt in *. apply abs_le in K.
    pose proof (P2_mono 0 500 ltac:(lia)) as M. rewrite P2_0 in M. unfold e53 in *. split; [lra |]. right. lra.
Qed.
Lemma minus_one x : finite64 x -> Rabs (rval x) <= P2 500 -> finite64 (sf_sub x one_64) /\ Rabs (rval (sf_sub x one_64) - (rval x - 1)) <= e53 * Rabs (rval x - 1).
Proof.
  intros F B. destruct one64 as [F1 V1]. fold one_64 in F1, V1. pose proof (sub_any x one_64 F F1) as H. rewrite V1 in H. apply H.
  pose proof (P2_mono 500 1022 ltac:(lia)). pose proof (P2_succ 1022) as Q. change (1022 + 1)%Z with 1023%Z in Q. pose proof P2_ge1023. apply abs_le in B. apply abs_of. lra.
Qed.
Lemma unitary_near q t : finite4 q -> within4 (P2 450) q -> finite64 t -> 0 < rval t <= / 4 ->
  exists b, q64_isUnitary (Some q) (Some t) = Ok b /\ (Rabs (len4 (val4 q) - 1) + 4.3 * e53 <= rval t -> b = true) /\ (b = true -> Rabs (len4 (val4 q) - 1) <= rval t + 4.3 * e53).
Proof.
  intros F B Ft Ht. destruct (fnorm4_any q F B) as (Fn & Bn & E). unfold q64_isUnitary. cbn [need3 bind].
  replace (SFleb t zero64) with false by (symmetry; apply not_true_is_false; intros H; apply SFleb_val in H; [change (rval zero64) with 0 in H; lra | exact Ft | exact I]).
  eexists. split; [reflexivity |]. destruct (minus_one _ Fn ltac:(rewrite Rabs_pos_eq by lra; lra)) as [Fm Em]. destruct (abs_val _ Fm) as [Fa Va].
  rewrite (SFleb_val _ _ Fa Ft), Va. set (f := rval (sf_sub (fnorm4 q) one_64)) in *. set (n := rval (fnorm4 q)) in *. set (N := len4 (val4 q)) in *. pose proof (len4_pos (val4 q)) as LP. fold N in LP.
  pose proof (Rabs_triang (f - (n - 1)) (n - 1)) as T1. replace (f - (n - 1) + (n - 1)) with f in T1 by ring.
  pose proof (Rabs_triang ((n - 1) - f) f) as T2. replace (n - 1 - f + f) with (n - 1) in T2 by ring. rewrite (Rabs_minus_sym (n - 1) f) in T2.
  pose proof (Rabs_triang (n - N) (N - 1)) as T3. replace (n - N + (N - 1)) with (n - 1) in T3 by ring.
  pose proof (Rabs_triang (N - n) (n - 1)) as T4. replace (N - n + (n - 1)) with (N - 1) in T4 by ring. rewrite (Rabs_minus_sym N n) in T4.
  destruct E as [E | [E1 E2]].
  - pose proof (Rabs_pos (N - 1)) as A1. pose proof (Rabs_pos (n - 1)) as A2. split; intros H.
    + assert (N <= 1.25) by (assert (Rabs (N - 1) <= / 4) as H' by (unfold e53 in *; lra); apply abs_le in H'; lra). unfold e53 in *. lra.
    + assert (n <= 1.26) by (assert (Rabs (n - 1) <= 0.26) as H' by (unfold e53 in *; lra); apply abs_le in H'; lra). assert (N <= 1.27) by (apply abs_le in E; unfold e53 in *; lra). unfold e53 in *. lra.
  - assert (0.7 <= Rabs (N - 1)) by (rewrite Rabs_minus_sym, Rabs_pos_eq; lra). assert (0.7 <= Rabs (n - 1)) by (rewrite Rabs_minus_sym, Rabs_pos_eq; lra). split; intros H'; exfalso; unfold e53 in *; lra.
Qed.
Lemma c132_near q t : finite4 q -> within4 (P2 450) q -> finite64 t -> 0 < rval t <= / 4 ->
  exists b, q64_isUnitary (Some q) (Some t) = Ok b /\ (Rabs (len4 (val4 q) - 1) + P2 (-50) <= rval t -> b = true) /\ (b = true -> Rabs (len4 (val4 q) - 1) <= rval t + P2 (-50)).
Proof.
  intros F B Ft Ht. destruct (unitary_near q t F B Ft Ht) as (b & E & H1 & H2). exists b. rewrite <- e50. split; [exact E |]. split; intros H; [apply H1 | specialize (H2 H)]; unfold e53 in *; lra.
Qed.

(** *** Normalization *)
Lemma gap4_len p q d : len4 q = 1 -> gap4 p q <= d -> Rabs (len4 p - 1) <= d.
Proof. intros L G. rewrite <- L. eapply Rle_trans; [apply len4_gap | exact G]. Qed.
Lemma len_times k q : 0 <= k -> len4 (times4 k q) = k * len4 q.
Proof.
  intros K. unfold len4. replace (sq (times4 k q)) with (k * k * sq q) by (unfold sq, times4; cbn [qx qy qz qs]; ring). rewrite sqrt_mult by (try apply sq_nonneg; nra). rewrite sqrt_square by exact K. reflexivity.
Qed.
Lemma fnormal4_len q : finite4 q -> within4 (P2 450) q -> P2 (-450) <= len4 (val4 q) -> Rabs (len4 (val4 (fnormal4 q)) - 1) <= 4.07 * e53.
Proof.
  intros F B L. destruct (fnormal4_err q F B L) as [_ G]. pose proof (P2_pos (-450)). refine (gap4_len _ _ _ _ G). rewrite len_times by (apply Rlt_le, Rinv_0_lt_compat; lra). apply Rinv_l. lra.
Qed.
Lemma within_len q B : finite4 q -> len4 (val4 q) <= B -> within4 B q.
Proof. intros _ L. destruct (coord4 (val4 q)) as (A & B' & C & D). unfold val4 in A, B', C, D; cbn [qx qy qz qs] in A, B', C, D. fold (val4 q) in A, B', C, D. repeat split; lra. Qed.
Lemma P2_450_2 : 2 <= P2 450.
Proof. change 2 with (IZR (2 ^ 1)). rewrite P2_Z by lia. apply P2_mono. lia. Qed.
Lemma unitary_accept q t : finite4 q -> Rabs (len4 (val4 q) - 1) <= 4.07 * e53 -> finite64 t -> P2 (-50) <= rval t -> q64_isUnitary (Some q) (Some t) = Ok true.
Proof.
  intros F L Ft Ht. assert (B : within4 (P2 450) q) by (apply within_len; [exact F |]; pose proof P2_450_2; apply abs_le in L; unfold e53 in *; lra).
  rewrite <- e50 in Ht. destruct (fnorm4_any q F B) as (Fn & Bn & E). unfold q64_isUnitary. cbn [need3 bind].
  replace (SFleb t zero64) with false by (symmetry; apply not_true_is_false; intros H; apply SFleb_val in H; [change (rval zero64) with 0 in H; unfold e53 in *; lra | exact Ft | exact I]).
  destruct (minus_one _ Fn ltac:(rewrite Rabs_pos_eq by lra; lra)) as [Fm Em]. destruct (abs_val _ Fm) as [Fa Va]. f_equal. apply (SFleb_val _ _ Fa Ft). rewrite Va.
  apply abs_le in L. destruct E as [E | [E1 E2]]; [| exfalso; unfold e53 in *; lra]. apply abs_le in E.
  assert (K : Rabs (rval (fnorm4 q) - 1) <= 7.2 * e53) by (apply abs_of; unfold e53 in *; lra).
  pose proof (Rabs_triang (rval (sf_sub (fnorm4 q) one_64) - (rval (fnorm4 q) - 1)) (rval (fnorm4 q) - 1)) as T. replace (rval (sf_sub (fnorm4 q) one_64) - (rval (fnorm4 q) - 1) + (rval (fnorm4 q) - 1)) with (rval (sf_sub (fnorm4 q) one_64)) in T by ring. unfold e53 in *. lra.
Qed.
Lemma c132_normalize eps q : finite64 eps -> finite4 q -> within4 (P2 450) q -> P2 (-450) <= len4 (val4 q) ->
  (rval eps <= (1 - P2 (-51)) * len4 (val4 q) ->
     exists u, q64_normalize eps (Some q) = Ok u /\ finite4 u /\ gap4 (val4 u) (times4 (/ len4 (val4 q)) (val4 q)) <= P2 (-50) /\
       forall t, finite64 t -> P2 (-50) <= rval t -> q64_isUnitary (Some u) (Some t) = Ok true) /\
  ((1 + P2 (-51)) * len4 (val4 q) < rval eps -> q64_normalize eps (Some q) = Err ERuntime).
Proof.
  intros Fe F B L. destruct (fnorm4_err q F B L) as [Fn En]. pose proof (P2_pos (-450)). rewrite <- e50, <- e51. unfold q64_normalize. cbn [need3 bind]. destruct (abs_val _ Fn) as [Fa Va].
  assert (Pn : 0 <= rval (fnorm4 q)) by (apply abs_le in En; unfold e53 in *; lra). rewrite (Rabs_pos_eq _ Pn) in Va. apply abs_le in En. split; intros H1.
  - rewrite (ltb_f _ _ Fa Fe) by (rewrite Va; unfold e53 in *; lra). exists (fnormal4 q). split; [reflexivity |]. destruct (fnormal4_err q F B L) as [Fu G]. split; [exact Fu |]. split; [unfold e53 in *; lra |].
    intros t Ft Ht. apply unitary_accept; [exact Fu | exact (fnormal4_len q F B L) | exact Ft | rewrite <- e50; exact Ht].
  - rewrite (ltb_t _ _ Fa Fe) by (rewrite Va; unfold e53 in *; lra). reflexivity.
Qed.

(** *** Products of accepted quaternions *)
Lemma P2_26 : P2 (-26) * P2 (-26) = 2 * e53.
Proof. rewrite <- P2_add, <- e53_P2. change (-26 + -26)%Z with (-53 + 1)%Z. rewrite P2_succ. ring. Qed.
Lemma P2_26_small : 0 < P2 (-26) <= / 67000000.
Proof. split; [apply P2_pos |]. rewrite P2_m by lia. apply Rinv_le_contravar; [lra | apply IZR_le; lia]. Qed.
Lemma accepted_len q t : finite4 q -> within4 (P2 450) q -> finite64 t -> 0 < rval t <= P2 (-26) -> q64_isUnitary (Some q) (Some t) = Ok true -> Rabs (len4 (val4 q) - 1) <= rval t + 4.3 * e53.
Proof.
  intros F B Ft Ht H. pose proof P2_26_small. destruct (unitary_near q t F B Ft ltac:(lra)) as (b & E & _ & H2). rewrite H in E. injection E as <-. exact (H2 eq_refl).
Qed.
Lemma e48 : 32 * e53 = P2 (-48).
Proof. rewrite <- e53_P2. replace 32 with (P2 5) by (rewrite <- P2_Z by lia; reflexivity). rewrite <- P2_add. reflexivity. Qed.
Lemma sq_26 t : 0 < t <= P2 (-26) -> (t + 4.3 * e53) * (t + 4.3 * e53) <= 2.1 * e53.
Proof.
  intros H. pose proof P2_26 as Q. pose proof P2_26_small as S. apply Rle_trans with ((P2 (-26) + 4.3 * e53) * (P2 (-26) + 4.3 * e53)); [apply Rmult_le_compat; unfold e53; lra |].
  set (y := 4.3 * e53). replace ((P2 (-26) + y) * (P2 (-26) + y)) with (P2 (-26) * P2 (-26) + (2 * P2 (-26) + y) * y) by ring. rewrite Q.
  assert ((2 * P2 (-26) + y) * y <= / 1000 * y) by (apply Rmult_le_compat_r; unfold y, e53; lra). unfold y, e53 in *. lra.
Qed.
Lemma c132_product r p q t t' : finite4 p -> finite4 q -> within4 (P2 450) p -> within4 (P2 450) q -> finite64 t -> finite64 t' -> 0 < rval t <= P2 (-26) ->
  q64_isUnitary (Some p) (Some t) = Ok true -> q64_isUnitary (Some q) (Some t) = Ok true -> 2 * rval t + P2 (-48) <= rval t' <= / 4 ->
  exists w, q64_mul r (Some p) (Some q) = Ok w /\ finite4 w /\ q64_isUnitary (Some w) (Some t') = Ok true.
Proof.
  intros Fp Fq Bp Bq Ft Ft' Ht Hp Hq Ht'. exists (fmul4 r p q). split; [reflexivity |]. destruct (fmul4_err r p q Fp Fq Bp Bq) as [Fw G]. split; [exact Fw |].
  pose proof (accepted_len p t Fp Bp Ft Ht Hp) as Lp. pose proof (accepted_len q t Fq Bq Ft Ht Hq) as Lq. pose proof (sq_26 _ Ht) as Q. pose proof P2_26_small as S. pose proof tiny_e. pose proof tiny_pos.
  set (P := len4 (val4 p)) in *. set (K := len4 (val4 q)) in *. set (d := rval t + 4.3 * e53) in *.
  assert (D : 0 <= d <= / 1000000) by (unfold d, e53; lra). apply abs_le in Lp. apply abs_le in Lq.
  assert (PK : Rabs (P * K - 1) <= 2 * d + 2.1 * e53).
  { replace (P * K - 1) with ((P - 1) + (K - 1) + (P - 1) * (K - 1)) by ring. eapply Rle_trans; [apply Rabs_triang |]. assert (Rabs ((P - 1) * (K - 1)) <= d * d) by (rewrite Rabs_mult; apply Rmult_le_compat; try apply Rabs_pos; apply abs_of; lra).
    assert (Rabs (P - 1 + (K - 1)) <= 2 * d) by (apply abs_of; lra). lra. }
  assert (L : Rabs (len4 (val4 (fmul4 r p q)) - P * K) <= 8 * e53 * (P * K) + 16 * tiny).
  { unfold P, K. rewrite <- len4_mul. eapply Rle_trans; [apply len4_gap |]. rewrite len4_mul. exact G. }
  assert (PK1 : P * K <= 1.001) by (apply abs_le in PK; unfold e53 in *; lra).
  assert (Lw : Rabs (len4 (val4 (fmul4 r p q)) - 1) <= 2 * d + 10.2 * e53).
  { apply abs_le in PK. apply abs_le in L. apply abs_of. unfold e53 in *. lra. }
  assert (Bw : within4 (P2 450) (fmul4 r p q)) by (apply within_len; [exact Fw |]; pose proof P2_450_2; apply abs_le in Lw; unfold e53 in *; lra).
  destruct (unitary_near (fmul4 r p q) t' Fw Bw Ft' ltac:(rewrite <- e48 in Ht'; unfold e53 in *; lra)) as (b & E & H1 & _). rewrite E. f_equal. apply H1. rewrite <- e48 in Ht'. unfold d, e53 in *. lra.
Qed.
