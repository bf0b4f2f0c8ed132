From Coq Require Import List Bool ZArith Reals Lra Lia Psatz Floats.SpecFloat.
From Verif Require Import Result Vec Mat3 VecProofs AngleModel FloatModel FloatSpec FloatProofs FloatProofs2 FloatProofs3 FloatProofs4 FloatProofs5 FloatProofs7 FloatProofs8 FloatProofs10
  Geo3Spec Geo3Proofs Geo3Proofs2 Geo64Model Geo64Spec Geo64Proofs Geo64Proofs2 Geo64Proofs3 Geo64Proofs4 Geo64Proofs5 Geo64Proofs6 Geo64Proofs8 RotModel RotSpec RotProofs RotProofs2 Rot64Model Rot64Spec Rot64Spec2 Rot64Proofs Rot64Proofs2 Rot64Proofs3 Rot64Proofs4 Rot64Proofs5 Rot64Proofs6 Rot64Proofs7 Rot64Proofs8 Rot64Proofs9 Rot64Proofs10 Rot64Proofs11.
Import ListNotations.
Local Open Scope R_scope.

(** *** Nearly orthonormal matrices *)
Lemma ortho_cols e m j : 0 <= e <= P2 (-26) -> orthonormal_up_to e m -> (j < 3)%nat -> norm3 (col3 m j) <= 1.001.
Proof. intros He O J. pose proof P2_26_small. pose proof (col_len e m j ltac:(lra) O J) as C. apply abs_le in C. lra. Qed.
Lemma ortho_within e m : 0 <= e <= P2 (-26) -> orthonormal_up_to e (val33 m) -> within33 (P2 450) m.
Proof.
  intros He O. pose proof P2_450_2. destruct (col_val m) as (C0 & C1 & C2). pose proof (ortho_cols e _ 0 He O ltac:(lia)) as N0. pose proof (ortho_cols e _ 1 He O ltac:(lia)) as N1. pose proof (ortho_cols e _ 2 He O ltac:(lia)) as N2. rewrite ?C0, ?C1, ?C2 in *.
  repeat split; apply within_norm; lra.
Qed.
Lemma ortho_mulv r m v e : finite33 m -> finite3 v -> within3 (P2 450) v -> 0 <= e <= P2 (-26) -> orthonormal_up_to e (val33 m) ->
  finite3 (fmulv3 r m v) /\ dist3 (val3 (fmulv3 r m v)) (mulv3 (val33 m) (val3 v)) <= 5.26 * e53 * norm3 (val3 v) + 8 * tiny.
Proof.
  intros F Fv Wv He O. destruct (fmulv3_err r m v 1.001 F Fv Wv ltac:(lra)) as [Fw E]. { intros j J. exact (ortho_cols e _ j He O J). }
  split; [exact Fw |]. pose proof (norm3_nonneg (val3 v)) as PN. pose proof e53_pos. assert (0 <= e53 * norm3 (val3 v)) by (apply Rmult_le_pos; lra). lra.
Qed.
Lemma within_440 v : norm3 (val3 v) <= P2 440 -> within3 (P2 450) v.
Proof. intros N. pose proof P2_440. pose proof (P2_pos 440). apply within_norm. lra. Qed.
Lemma c134_length r m v e : finite33 m -> finite3 v -> norm3 (val3 v) <= P2 440 -> 0 <= e <= P2 (-26) -> orthonormal_up_to e (val33 m) ->
  exists w, rm64_mulv r (Some m) (Some v) = Ok w /\ finite3 w /\ Rabs (norm3 (val3 w) - norm3 (val3 v)) <= (3.01 * e + P2 (-50)) * norm3 (val3 v) + P2 (-1071).
Proof.
  intros F Fv Nv He O. destruct (ortho_mulv r m v e F Fv (within_440 v Nv) He O) as [Fw E]. exists (fmulv3 r m v). split; [reflexivity |]. split; [exact Fw |]. rewrite <- e50, <- tiny16.
  pose proof (gram_len e _ (val3 v) (proj1 He) O) as G. pose proof (dist_norm (val3 (fmulv3 r m v)) (mulv3 (val33 m) (val3 v))) as D. pose proof (norm3_nonneg (val3 v)) as PN. pose proof e53_pos. pose proof tiny_pos.
  assert (0 <= e53 * norm3 (val3 v)) by (apply Rmult_le_pos; lra). assert (0 <= e * norm3 (val3 v)) by (apply Rmult_le_pos; lra). apply abs_le in G. apply abs_le in D. apply abs_of. lra.
Qed.
Lemma ftranspose_val m : val33 (ftranspose m) = transpose3 (val33 m).
Proof. reflexivity. Qed.
Lemma ftranspose_finite m : finite33 m -> finite33 (ftranspose m).
Proof. intros ((A & B & C) & (D & E & F) & (G & H & I)). repeat split; assumption. Qed.
Lemma ftranspose_twice m : ftranspose (ftranspose m) = m.
Proof. destruct m as [[a b c] [d e f] [g h i]]. reflexivity. Qed.
Lemma mulv3_dist m e v w : 0 <= e -> orthonormal_up_to e m -> dist3 (mulv3 m v) (mulv3 m w) <= (1 + 3.0002 * e) * dist3 v w.
Proof.
  intros P O. unfold dist3. replace (sub3 (mulv3 m v) (mulv3 m w)) with (mulv3 m (sub3 v w)) by (destruct m as [a0 a1 a2 a3 a4 a5 a6 a7 a8], v as [b0 b1 b2], w as [d0 d1 d2]; unfold mulv3, sub3, dot3, row3; cbn [vx vy vz m00 m01 m02 m10 m11 m12 m20 m21 m22]; f_equal; ring).
  pose proof (gram_len e m (sub3 v w) P O) as G. apply abs_le in G. lra.
Qed.
Lemma P2_28 : P2 (-26) = 4 * P2 (-28).
Proof. replace 4 with (P2 2) by (rewrite <- P2_Z by lia; reflexivity). rewrite <- P2_add. reflexivity. Qed.
(** The transposed matrix undoes the matrix. *)
Lemma c134_back r m v e : finite33 m -> finite3 v -> norm3 (val3 v) <= P2 430 -> 0 <= e <= P2 (-28) -> orthonormal_up_to e (val33 m) ->
  exists t w u, rm64_transpose (Some m) = Ok t /\ rm64_mulv r (Some m) (Some v) = Ok w /\ rm64_mulv r (Some t) (Some w) = Ok u /\ finite3 u /\
    dist3 (val3 u) (val3 v) <= (3.01 * e + P2 (-49)) * norm3 (val3 v) + P2 (-1070).
Proof.
  intros F Fv Nv He O. pose proof P2_28 as Q28. pose proof (P2_pos (-28)) as P28. pose proof (P2_pos 430) as P430. assert (Q430 : P2 440 = 1024 * P2 430) by (replace 1024 with (P2 10) by (rewrite <- P2_Z by lia; reflexivity); rewrite <- P2_add; reflexivity).
  pose proof P2_26_small as S26. assert (He' : 0 <= e <= P2 (-26)) by lra. destruct (ortho_mulv r m v e F Fv (within_440 v ltac:(lra)) He' O) as [Fw E]. pose proof (gram_rows e _ (proj1 He) O) as OT. rewrite <- ftranspose_val in OT.
  pose proof (gram_len e _ (val3 v) (proj1 He) O) as G. pose proof (dist_norm (val3 (fmulv3 r m v)) (mulv3 (val33 m) (val3 v))) as D. pose proof (norm3_nonneg (val3 v)) as PN. pose proof e53_pos as PE. pose proof tiny_pos as PT.
  set (w := fmulv3 r m v) in *. assert (EN : e * norm3 (val3 v) <= P2 (-28) * norm3 (val3 v)) by (apply Rmult_le_compat_r; lra).
  assert (EN' : P2 (-28) * norm3 (val3 v) <= / 100000000 * norm3 (val3 v)) by (apply Rmult_le_compat_r; lra). assert (T1 : tiny <= P2 430) by (apply P2_mono; lia). assert (UN : e53 * norm3 (val3 v) <= / 1000000 * norm3 (val3 v)) by (apply Rmult_le_compat_r; [lra | unfold e53; lra]).
  assert (EP : 0 <= e * norm3 (val3 v)) by (apply Rmult_le_pos; lra). assert (UP : 0 <= e53 * norm3 (val3 v)) by (apply Rmult_le_pos; lra). apply abs_le in G. apply abs_le in D.
  assert (NW : norm3 (val3 w) <= 1.001 * norm3 (val3 v) + 8 * tiny) by lra.
  destruct (ortho_mulv r (ftranspose m) w (3 * e) (ftranspose_finite m F) Fw (within_440 w ltac:(lra)) ltac:(lra) OT) as [Fu Eu]. exists (ftranspose m), w, (fmulv3 r (ftranspose m) w). split; [reflexivity |]. split; [reflexivity |]. split; [reflexivity |]. split; [exact Fu |].
  pose proof (mulv3_dist _ (3 * e) (val3 w) (mulv3 (val33 m) (val3 v)) ltac:(lra) OT) as DD. pose proof (gram_back e _ (val3 v) (proj1 He) O) as GB. rewrite <- ftranspose_val in GB.
  set (u := val3 (fmulv3 r (ftranspose m) w)) in *. pose proof (dist3_triangle u (mulv3 (val33 (ftranspose m)) (val3 w)) (val3 v)) as T2. pose proof (dist3_triangle (mulv3 (val33 (ftranspose m)) (val3 w)) (mulv3 (val33 (ftranspose m)) (mulv3 (val33 m) (val3 v))) (val3 v)) as T3.
  assert (DD' : (1 + 3.0002 * (3 * e)) * dist3 (val3 w) (mulv3 (val33 m) (val3 v)) <= 1.0001 * dist3 (val3 w) (mulv3 (val33 m) (val3 v))) by (apply Rmult_le_compat_r; [apply norm3_nonneg | lra]).
  rewrite <- e49. replace (P2 (-1070)) with (32 * tiny) by (unfold tiny; replace 32 with (P2 5) by (rewrite <- P2_Z by lia; reflexivity); rewrite <- P2_add; reflexivity).
  assert (e53 * norm3 (val3 w) <= e53 * (1.001 * norm3 (val3 v) + 8 * tiny)) by (apply Rmult_le_compat_l; lra). assert (e53 * tiny <= / 1000 * tiny) by (apply Rmult_le_compat_r; [lra | unfold e53; lra]). lra.
Qed.
(** *** Acceptance *)
Lemma ortho_ok r eps m e : finite33 m -> 0 <= e <= P2 (-26) -> orthonormal_up_to e (val33 m) -> finite64 eps -> e + 5 * e53 <= rval eps <= / 4 -> rm64_ok r eps m = true.
Proof.
  intros F He O Fe H. pose proof e53_pos. apply (ok_near r eps m F (ortho_within e m He O) Fe ltac:(lra)). split.
  - intros j J. pose proof (col_len e _ j (proj1 He) O J) as C. apply abs_le in C. lra.
  - intros i j Hi Hj N. pose proof (O i j Hi Hj) as C. replace (Nat.eqb i j) with false in C by (symmetry; apply Nat.eqb_neq; exact N). rewrite Rminus_0_r in C. lra.
Qed.
Lemma c134_transposed r eps m e : finite33 m -> 0 <= e <= P2 (-28) -> orthonormal_up_to e (val33 m) -> finite64 eps -> 3 * e + P2 (-50) <= rval eps <= / 4 ->
  exists t, rm64_toTransposed r eps (Some m) = Ok t /\ rm64_transpose (Some m) = Ok t /\ finite33 t /\ val33 t = transpose3 (val33 m) /\ orthonormal_up_to (3 * e) (val33 t).
Proof.
  intros F He O Fe H. pose proof P2_28 as Q28. pose proof (P2_pos (-28)). rewrite <- e50 in H. pose proof e53_pos. pose proof (gram_rows e _ (proj1 He) O) as OT. rewrite <- ftranspose_val in OT. pose proof (ftranspose_finite m F) as FT.
  exists (ftranspose m). split; [| repeat split; assumption || reflexivity || (try apply FT); try assumption]. unfold rm64_toTransposed. cbn [need3 bind]. unfold RotationMatrix64. rewrite (ortho_ok r eps _ (3 * e) FT ltac:(lra) OT Fe ltac:(lra)). reflexivity.
Qed.
(** *** Products *)
Lemma dot_perturbed a b a' b' s : norm3 a <= 1.01 -> norm3 b <= 1.01 -> dist3 a' a <= s -> dist3 b' b <= s -> s <= / 1000 -> Rabs (dot3 a' b' - dot3 a b) <= 2.022 * s.
Proof.
  intros A B DA DB S. unfold dist3 in *. pose proof (norm3_nonneg (sub3 a' a)). pose proof (norm3_nonneg (sub3 b' b)). pose proof (norm3_nonneg a). pose proof (norm3_nonneg b).
  replace (dot3 a' b' - dot3 a b) with (dot3 a (sub3 b' b) + dot3 (sub3 a' a) b + dot3 (sub3 a' a) (sub3 b' b)) by (unfold dot3, sub3; cbn [vx vy vz]; ring).
  pose proof (cauchy3_norm a (sub3 b' b)) as K1. pose proof (cauchy3_norm (sub3 a' a) b) as K2. pose proof (cauchy3_norm (sub3 a' a) (sub3 b' b)) as K3.
  assert (M1 : norm3 a * norm3 (sub3 b' b) <= 1.01 * s) by (apply Rmult_le_compat; assumption). assert (M2 : norm3 (sub3 a' a) * norm3 b <= s * 1.01) by (apply Rmult_le_compat; assumption). assert (M3 : norm3 (sub3 a' a) * norm3 (sub3 b' b) <= / 1000 * s) by (apply Rmult_le_compat; lra).
  eapply Rle_trans; [apply Rabs_triang |]. eapply Rle_trans; [apply Rplus_le_compat_r, Rabs_triang |]. lra.
Qed.
Lemma fmul33_cols r m n j : (j < 3)%nat -> exists v, col3 (val33 n) j = val3 v /\ (finite33 n -> finite3 v) /\ col3 (val33 (fmul33 r m n)) j = val3 (fmulv3 r m v) /\ col3 (mul3 (val33 m) (val33 n)) j = mulv3 (val33 m) (val3 v).
Proof.
  destruct (col_val n) as (C0 & C1 & C2). intros J. destruct j as [| [| [| j]]]; [exists (c64_0 n) | exists (c64_1 n) | exists (c64_2 n) | lia]; (split; [reflexivity |]); (split; [intros (A & B & C); assumption |]); split; reflexivity.
Qed.
Lemma fmul33_ortho r m n e : finite33 m -> finite33 n -> 0 <= e <= P2 (-26) -> orthonormal_up_to e (val33 m) -> orthonormal_up_to e (val33 n) ->
  finite33 (fmul33 r m n) /\ orthonormal_up_to (5 * e + 11 * e53) (val33 (fmul33 r m n)) /\ forall j, (j < 3)%nat -> dist3 (col3 (val33 (fmul33 r m n)) j) (col3 (mul3 (val33 m) (val33 n)) j) <= 5.27 * e53.
Proof.
  intros F G He O1 O2. pose proof P2_26_small as S26. pose proof tiny_e as TE. pose proof e53_pos as PE. pose proof P2_450_2 as Q450.
  assert (C : forall j, (j < 3)%nat -> exists v, col3 (val33 n) j = val3 v /\ finite3 (fmulv3 r m v) /\ col3 (val33 (fmul33 r m n)) j = val3 (fmulv3 r m v) /\ col3 (mul3 (val33 m) (val33 n)) j = mulv3 (val33 m) (val3 v) /\
    dist3 (val3 (fmulv3 r m v)) (mulv3 (val33 m) (val3 v)) <= 5.27 * e53 /\ norm3 (mulv3 (val33 m) (val3 v)) <= 1.01 /\ norm3 (val3 v) <= 1 + e).
  { intros j J. destruct (fmul33_cols r m n j J) as (v & E1 & E2 & E3 & E4). specialize (E2 G). pose proof (col_len e _ j (proj1 He) O2 J) as L. rewrite E1 in L. apply abs_le in L. exists v. split; [exact E1 |].
    destruct (ortho_mulv r m v e F E2 ltac:(apply within_norm; lra) He O1) as [Fw E]. split; [exact Fw |]. split; [exact E3 |]. split; [exact E4 |]. split; [unfold e53 in *; lra |]. split; [| lra].
    pose proof (gram_len e _ (val3 v) (proj1 He) O1) as GL. apply abs_le in GL. assert (e * norm3 (val3 v) <= / 1000 * norm3 (val3 v)) by (apply Rmult_le_compat_r; [apply norm3_nonneg | lra]). lra. }
  split; [| split].
  - destruct G as (G0 & G1 & G2). destruct (C 0%nat ltac:(lia)) as (v0 & _ & A0 & B0 & _). destruct (C 1%nat ltac:(lia)) as (v1 & _ & A1 & B1 & _). destruct (C 2%nat ltac:(lia)) as (v2 & _ & A2 & B2 & _).
    assert (W : forall v, finite3 v -> norm3 (val3 v) <= 1.001 -> finite3 (fmulv3 r m v)). { intros v Fv Nv. apply (ortho_mulv r m v e F Fv ltac:(apply within_norm; lra) He O1). }
    pose proof (ortho_cols e _ 0 He O2 ltac:(lia)). pose proof (ortho_cols e _ 1 He O2 ltac:(lia)). pose proof (ortho_cols e _ 2 He O2 ltac:(lia)). destruct (col_val n) as (K0 & K1 & K2). rewrite ?K0, ?K1, ?K2 in *.
    split; [exact (W _ G0 ltac:(assumption)) | split; [exact (W _ G1 ltac:(assumption)) | exact (W _ G2 ltac:(assumption))]].
  - intros i j Hi Hj. destruct (C i Hi) as (v & Ev & _ & Cv & _ & Dv & Nv & Lv). destruct (C j Hj) as (w & Ew & _ & Cw & _ & Dw & Nw & Lw). rewrite Cv, Cw.
    pose proof (dot_perturbed _ _ _ _ (5.27 * e53) Nv Nw Dv Dw ltac:(unfold e53; lra)) as P1. pose proof (gram_dot e _ (val3 v) (val3 w) O1) as P2'. pose proof (O2 i j Hi Hj) as P3. rewrite Ev, Ew in P3.
    pose proof (norm3_nonneg (val3 v)). pose proof (norm3_nonneg (val3 w)). assert (VW : norm3 (val3 v) * norm3 (val3 w) <= 1.001 * 1.001) by (apply Rmult_le_compat; lra). assert (e * (norm3 (val3 v) * norm3 (val3 w)) <= e * (1.001 * 1.001)) by (apply Rmult_le_compat_l; lra).
    apply abs_le in P1. apply abs_le in P2'. apply abs_le in P3. apply abs_of. unfold e53 in *. lra.
  - intros j J. destruct (C j J) as (v & _ & _ & Cv & Cw & Dv & _). rewrite Cv, Cw. exact Dv.
Qed.
Lemma c134_product r eps m n e : finite33 m -> finite33 n -> 0 <= e <= P2 (-29) -> orthonormal_up_to e (val33 m) -> orthonormal_up_to e (val33 n) -> finite64 eps -> 5 * e + P2 (-49) <= rval eps <= / 4 ->
  exists w, rm64_mul r eps (Some m) (Some n) = Ok w /\ finite33 w /\ orthonormal_up_to (5 * e + P2 (-49)) (val33 w) /\ forall j, (j < 3)%nat -> dist3 (col3 (val33 w) j) (col3 (mul3 (val33 m) (val33 n)) j) <= P2 (-50).
Proof.
  intros F G He O1 O2 Fe H. assert (Q29 : P2 (-26) = 8 * P2 (-29)) by (replace 8 with (P2 3) by (rewrite <- P2_Z by lia; reflexivity); rewrite <- P2_add; reflexivity). pose proof (P2_pos (-29)) as P29. pose proof P2_26 as Q26. pose proof P2_26_small as S26.
  destruct (fmul33_ortho r m n e F G ltac:(lra) O1 O2) as (Fw & Ow & Dw). exists (fmul33 r m n). rewrite <- e49, <- e50 in *. pose proof e53_pos. split; [| split; [exact Fw | split]].
  - unfold rm64_mul. cbn [need3 bind]. unfold RotationMatrix64. rewrite (ortho_ok r eps _ (5 * e + 11 * e53) Fw); [reflexivity | | exact Ow | exact Fe | lra].
    assert (K : 11 * e53 <= P2 (-29)). { replace e53 with (P2 (-53)) by (rewrite e53_P2; reflexivity). apply Rle_trans with (P2 4 * P2 (-53)); [apply Rmult_le_compat_r; [apply Rlt_le, P2_pos | rewrite <- P2_Z by lia; apply IZR_le; lia] | rewrite <- P2_add; apply P2_mono; lia]. } lra.
  - intros i j Hi Hj. specialize (Ow i j Hi Hj). lra.
  - intros j J. specialize (Dw j J). lra.
Qed.
