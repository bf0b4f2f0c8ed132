(** The properties of angular differences and of nearness (C151, C152). *)

From Coq Require Import List Bool ZArith Reals Lra Lia Psatz Floats.SpecFloat.
From Verif Require Import Result Vec Mat3 VecProofs AngleModel FloatModel FloatSpec FloatProofs FloatProofs2 FloatProofs3 FloatProofs4 FloatProofs5 FloatProofs7 FloatProofs8 FloatProofs10
  Geo3Spec Geo3Proofs Geo3Proofs2 Geo64Model Geo64Spec Geo64Proofs Geo64Proofs2 Geo64Proofs3 Geo64Proofs4 Geo64Proofs5 Geo64Proofs6 Geo64Proofs7 Geo64Proofs8 RotModel RotSpec RotProofs RotProofs2 RotProofs3 RotProofs4 RotProofs5 RotProofs7 RotProofs9 Rot64Model Rot64Spec Rot64Spec2 Rot64Proofs Rot64Proofs2 Rot64Proofs3 Rot64Proofs4 Rot64Proofs5 Rot64Proofs6 Rot64Proofs7 Rot64Proofs8 Rot64Proofs9 Rot64Proofs10 Rot64Proofs11 Rot64Proofs12 Rot64Proofs13 Rot64Proofs14 Rot64Proofs15 Rot64Proofs16 Rot64Proofs17 Att64Model Att64Spec Att64Proofs Att64Proofs2 Att64Proofs3 Att64Proofs4 Att64Proofs5 Att64Proofs7 Att64Proofs8 Att64Proofs9 Att64Proofs10 Pow64Model Pow64Spec Pow64Proofs Pow64Proofs2 Pow64Proofs3 Pow64Proofs4 Dif64Model Dif64Spec Dif64Proofs RotProofs6 Dif64Proofs2.
Import ListNotations.
Local Open Scope R_scope.

(** *** C151 *)
Lemma c151_accurate facos r eps p q e : acos_within facos e -> e <= / 1000 -> finite4 p -> finite4 q -> Rabs (len4 (val4 p) - 1) <= / 1000 -> Rabs (len4 (val4 q) - 1) <= / 1000 -> finite64 eps -> rval eps <= / 32 -> q64_isUnitary (Some p) (Some eps) = Ok true -> q64_isUnitary (Some q) (Some eps) = Ok true ->
  exists sg d th t, (sg = 1 \/ sg = -1) /\ norm3 d = 1 /\ 0 <= th <= PI / 2 /\ times4 sg (versor (val4 q)) = hamilton (polar 1 d th) (versor (val4 p)) /\
    q64_angularDifferenceWith facos r eps (Some p) (Some q) = Ok (mkA64 (Some t) Radian) /\ finite64 t /\ 0 <= rval t /\
    Rabs (cos (rval t / 2) - cos th) <= e + P2 (-47) /\ Rabs (rval t - 2 * th) <= 2 * e + P2 (-20) /\ Rabs (rval t - 2 * th) * sin th <= 2 * e + P2 (-44).
Proof.
  intros HF E1 Fp Fq Lp Lq Fe He UP UQ. destruct (difference_near facos r eps p q e HF E1 Fp Fq Lp Lq Fe He UP UQ) as (t & c & HT & Ft & Bt & Bc & Et & Ec). apply abs_le in Lp. apply abs_le in Lq.
  destruct (between (val4 p) (val4 q) ltac:(lra) ltac:(lra)) as (sg & d & th & HS & D & T & Z & C). rewrite <- C in Ec. pose proof e53_pos as PE. pose proof PI_RGT_0 as PP. pose proof (SIN_bound th) as SB. pose proof (sin_ge_0 th ltac:(lra) ltac:(lra)) as S0.
  exists sg, d, th, t. split; [exact HS |]. split; [exact D |]. split; [exact T |]. split; [exact Z |]. split; [exact HT |]. split; [exact Ft |]. split; [lra |].
  set (x := acos c) in *. assert (X : 0 <= x <= PI / 2). { unfold x. pose proof (acos_bound c) as AB. split; [lra |]. apply acos_quarter. lra. } assert (CX : cos x = c) by (apply cos_acos; lra). rewrite <- CX in Ec. clear CX Bc.
  assert (E0 : 0 <= 2 * e + 4 * e53) by (eapply Rle_trans; [apply Rabs_pos | exact Et]). destruct (arc_gap x th X T) as [A1 A2]. set (D0 := Rabs (x - th)) in *. assert (DP : 0 <= D0) by apply Rabs_pos.
  assert (TR : Rabs (rval t - 2 * th) <= 2 * e + 4 * e53 + 2 * D0). { replace (rval t - 2 * th) with ((rval t - 2 * x) + 2 * (x - th)) by ring. eapply Rle_trans; [apply Rabs_triang |]. rewrite Rabs_mult, (Rabs_pos_eq 2) by lra. fold D0. lra. }
  assert (E44 : P2 (-44) = 512 * e53) by (rewrite <- e53_P2; change (-44)%Z with (9 + -53)%Z; rewrite P2_add; f_equal; rewrite <- P2_Z by lia; reflexivity). split; [| split].
  - replace (cos (rval t / 2) - cos th) with ((cos (rval t / 2) - cos x) + (cos x - cos th)) by ring. eapply Rle_trans; [apply Rabs_triang |]. pose proof (cos_close (rval t / 2) x) as CC. replace (rval t / 2 - x) with (/ 2 * (rval t - 2 * x)) in CC by field. rewrite Rabs_mult, (Rabs_pos_eq (/ 2)) in CC by lra. rewrite <- e47. lra.
  - assert (DB : D0 <= P2 (-22)). { apply Rnot_lt_le. intros K. pose proof (P2_pos (-22)) as PK. assert (M : P2 (-22) * P2 (-22) <= D0 * D0) by (apply Rmult_le_compat; lra). rewrite <- P2_add in M. change (-22 + -22)%Z with (-44)%Z in M. lra. } assert (P2 (-20) = 4 * P2 (-22)) by (change (-20)%Z with (2 + -22)%Z; rewrite P2_add, P2_2; reflexivity). assert (4 * e53 <= P2 (-22)). { rewrite <- e53_P2. change (-22)%Z with (31 + -53)%Z. rewrite P2_add. apply Rmult_le_compat_r; [apply Rlt_le, P2_pos |]. rewrite <- P2_Z by lia. apply IZR_le. lia. } lra.
  - assert (M : Rabs (rval t - 2 * th) * sin th <= (2 * e + 4 * e53 + 2 * D0) * sin th) by (apply Rmult_le_compat_r; lra). assert (M2 : (2 * e + 4 * e53) * sin th <= (2 * e + 4 * e53) * 1) by (apply Rmult_le_compat_l; lra). lra.
Qed.
Lemma c151_orders facos r eps p q e : acos_within facos e -> e <= / 1000 -> finite4 p -> finite4 q -> Rabs (len4 (val4 p) - 1) <= / 1000 -> Rabs (len4 (val4 q) - 1) <= / 1000 -> finite64 eps -> rval eps <= / 32 -> q64_isUnitary (Some p) (Some eps) = Ok true -> q64_isUnitary (Some q) (Some eps) = Ok true ->
  exists s t, q64_angularDifferenceWith facos r eps (Some p) (Some q) = Ok (mkA64 (Some s) Radian) /\ q64_angularDifferenceWith facos r eps (Some q) (Some p) = Ok (mkA64 (Some t) Radian) /\ finite64 s /\ finite64 t /\ Rabs (rval s - rval t) <= 4 * e + P2 (-19).
Proof.
  intros HF E1 Fp Fq Lp Lq Fe He UP UQ. destruct (difference_near facos r eps p q e HF E1 Fp Fq Lp Lq Fe He UP UQ) as (s & c & HS & Fs & Bs & Bc & Es & Ec). destruct (difference_near facos r eps q p e HF E1 Fq Fp Lq Lp Fe He UQ UP) as (t & c' & HT & Ft & Bt & Bc' & Et & Ec').
  exists s, t. split; [exact HS |]. split; [exact HT |]. split; [exact Fs |]. split; [exact Ft |]. replace (dot4 (versor (val4 q)) (versor (val4 p))) with (dot4 (versor (val4 p)) (versor (val4 q))) in Ec' by (unfold dot4; ring).
  pose proof e53_pos as PE. apply abs_le in Ec. apply abs_le in Ec'. apply abs_le in Es. apply abs_le in Et. pose proof (acos_bound c) as AB. pose proof (acos_bound c') as AB'. pose proof (acos_quarter c Bc) as AQ. pose proof (acos_quarter c' Bc') as AQ'. destruct (arc_gap (acos c) (acos c') ltac:(lra) ltac:(lra)) as [_ A]. rewrite !cos_acos in A by lra.
  assert (G : Rabs (c - c') <= 72.6 * e53) by (apply abs_of; lra). set (D0 := Rabs (acos c - acos c')) in *. assert (D1 : D0 <= P2 (-21)). { apply Rnot_lt_le. intros K. pose proof (P2_pos (-21)) as PK. assert (M : P2 (-21) * P2 (-21) <= D0 * D0) by (apply Rmult_le_compat; lra). rewrite <- P2_add in M. change (-21 + -21)%Z with (11 + -53)%Z in M. rewrite P2_add, e53_P2 in M. replace (P2 11) with 2048 in M by (rewrite <- P2_Z by lia; reflexivity). lra. }
  apply abs_le in D1. assert (P2 (-19) = 4 * P2 (-21)) by (change (-19)%Z with (2 + -21)%Z; rewrite P2_add, P2_2; reflexivity). assert (8 * e53 <= P2 (-21)). { rewrite <- e53_P2. change (-21)%Z with (32 + -53)%Z. rewrite P2_add. apply Rmult_le_compat_r; [apply Rlt_le, P2_pos |]. rewrite <- P2_Z by lia. apply IZR_le. lia. } apply abs_of. lra.
Qed.
Lemma c151_same facos r eps p q : finite64 (facos one_64) -> rval (facos one_64) = 0 -> finite4 p -> finite4 q -> Rabs (len4 (val4 p) - 1) <= / 1000 -> val4 q = val4 p \/ val4 q = times4 (-1) (val4 p) -> finite64 eps -> rval eps <= / 32 -> q64_isUnitary (Some p) (Some eps) = Ok true -> q64_isUnitary (Some q) (Some eps) = Ok true ->
  exists t, q64_angularDifferenceWith facos r eps (Some p) (Some q) = Ok (mkA64 (Some t) Radian) /\ finite64 t /\ rval t = 0.
Proof.
  intros FO VO Fp Fq Lp HQ Fe He UP UQ. assert (Lq : Rabs (len4 (val4 q) - 1) <= / 1000) by (destruct HQ as [-> | ->]; [exact Lp | rewrite len4_times, (Rabs_left (-1)) by lra; replace (- (-1) * len4 (val4 p)) with (len4 (val4 p)) by ring; exact Lp]).
  assert (LE : len4 (val4 q) = len4 (val4 p)) by (destruct HQ as [-> | ->]; [reflexivity | rewrite len4_times, (Rabs_left (-1)) by lra; ring]).
  destruct (quotient_near r eps p q Fp Fq Lp Lq Fe He) as (w & HW & Fw & _ & G). rewrite LE in G. apply abs_le in Lp. unfold Rdiv in G. rewrite Rinv_r, Rmult_1_r, times_one in G by lra. set (P := versor (val4 p)) in *. assert (LP : len4 P = 1) by (apply versor_len; lra).
  assert (Z : exists sg, (sg = 1 \/ sg = -1) /\ qmul P (qconj (versor (val4 q))) = Q4 0 0 0 sg).
  { assert (SP : sq P = 1) by (rewrite <- len4_sq, LP; ring). destruct HQ as [EQ | EQ].
    - exists 1. split; [left; reflexivity |]. rewrite EQ. fold P. replace (qmul P (qconj P)) with (Q4 0 0 0 (sq P)) by qring. rewrite SP. reflexivity.
    - exists (-1). split; [right; reflexivity |]. assert (VQ : versor (val4 q) = times4 (-1) P) by (unfold versor at 1; rewrite LE, EQ; unfold P, versor; rewrite !times_times; f_equal; ring). rewrite VQ. replace (qmul P (qconj (times4 (-1) P))) with (Q4 0 0 0 (- sq P)) by (clear; destruct P as [p1 p2 p3 p4]; unfold qmul, qconj, times4, sq, of_parts, sub3, add3, scale3, cross3, dot3, vec; cbn [qx qy qz qs vx vy vz]; f_equal; ring). rewrite SP. reflexivity. }
  destruct Z as (sg & HS & HZ). rewrite HZ in G. pose proof e53_pos as PE. assert (E9 : e53 <= / 1000000000) by (unfold e53; lra). destruct (coord4 (Q4 (qx (val4 w) - 0) (qy (val4 w) - 0) (qz (val4 w) - 0) (qs (val4 w) - sg))) as (C1 & C2 & C3 & C4). change (len4 (Q4 (qx (val4 w) - 0) (qy (val4 w) - 0) (qz (val4 w) - 0) (qs (val4 w) - sg))) with (gap4 (val4 w) (Q4 0 0 0 sg)) in *. cbn [qx qy qz qs] in C1, C2, C3, C4. rewrite Rminus_0_r in C1, C2, C3. unfold val4 in C1, C2, C3, C4. cbn [qx qy qz qs] in C1, C2, C3, C4. fold (val4 w) in C1, C2, C3, C4.
  assert (E40 : 16.1 * e53 <= P2 (-40)). { rewrite <- e53_P2. change (-40)%Z with (13 + -53)%Z. rewrite P2_add. apply Rmult_le_compat_r; [apply Rlt_le, P2_pos |]. rewrite <- P2_Z by lia. change (2 ^ 13)%Z with 8192%Z. lra. }
  destruct (normal_real eps w Fe ltac:(lra) Fw) as (u & HU & AU); [| lra | lra | lra |].
  { apply abs_le in C4. destruct HS as [-> | ->]; [rewrite Rabs_pos_eq by lra | rewrite Rabs_left by lra]; lra. }
  destruct two_val as [FT VT]. pose proof P2_big as PB. destruct (SFmul_rounded two_64 (facos one_64) FT FO ltac:(rewrite VO, Rmult_0_r, Rabs_R0; lra)) as [N _]. change (SFmul 53 1024 two_64 (facos one_64)) with (b64_mul two_64 (facos one_64)) in N. rewrite VO, Rmult_0_r in N.
  exists (b64_mul two_64 (facos one_64)). split; [| split; [exact (proj1 N) | apply (nearest_exact _ _ N); exists zero64; split; [exact I | reflexivity]]]. rewrite <- AU. apply (difference_def _ _ _ _ _ w); try assumption. rewrite AU. exact (proj1 N).
Qed.
Lemma dif_norms : fnorm4 dif_p = one_64 /\ fnorm4 dif_q = one_64 /\ fdot4 dif_p dif_p = one_64 /\ fdot4 dif_q dif_q = S754_finite false 4503599627370497 (-52).
Proof. repeat split; vm_compute; reflexivity. Qed.
Lemma exact_unitary p eps : fnorm4 p = one_64 -> finite64 eps -> 0 < rval eps -> q64_isUnitary (Some p) (Some eps) = Ok true.
Proof.
  intros N Fe He. unfold q64_isUnitary. cbn [need3 bind]. rewrite N. replace (SFleb eps zero64) with false by (symmetry; apply not_true_is_false; intros H; apply SFleb_val in H; [change (rval zero64) with 0 in H; lra | exact Fe | exact I]).
  assert (Z : SFabs (sf_sub one_64 one_64) = S754_zero false) by (vm_compute; reflexivity). rewrite Z. f_equal. apply SFleb_val; [exact I | exact Fe |]. change (rval (S754_zero false)) with 0. lra.
Qed.
Definition dif_inv (q : f4) : f4 := let n := fdot4 q q in F4 (b64_div (SFopp (q64x q)) n) (b64_div (SFopp (q64y q)) n) (b64_div (SFopp (q64z q)) n) (b64_div (q64s q) n).
Definition dif_nor (q : f4) : f4 := let n := fnorm4 q in F4 (b64_div (q64x q) n) (b64_div (q64y q) n) (b64_div (q64z q) n) (b64_div (q64s q) n).
Lemma dif_arguments r : q64s (dif_nor (fmul4 r dif_p (dif_inv dif_q))) = S754_finite false 9007199254740991 (-53) /\ q64s (dif_nor (fmul4 r dif_q (dif_inv dif_p))) = one_64 /\
  fnorm4 (fmul4 r dif_p (dif_inv dif_q)) = S754_finite false 9007199254740991 (-53) /\ fnorm4 (fmul4 r dif_q (dif_inv dif_p)) = one_64.
Proof. destruct r; repeat split; vm_compute; reflexivity. Qed.
Lemma difference_run facos r eps p q : finite64 eps -> q64_isUnitary (Some p) (Some eps) = Ok true -> q64_isUnitary (Some q) (Some eps) = Ok true -> SFltb (fnorm4 q) eps = false -> SFltb (SFabs (fdot4 q q)) eps = false -> SFltb (SFabs (fnorm4 (fmul4 r p (dif_inv q)))) eps = false ->
  finite64 (b64_mul two_64 (facos (SFabs (q64s (dif_nor (fmul4 r p (dif_inv q))))))) -> q64_angularDifferenceWith facos r eps (Some p) (Some q) = Ok (mkA64 (Some (b64_mul two_64 (facos (SFabs (q64s (dif_nor (fmul4 r p (dif_inv q)))))))) Radian).
Proof.
  intros Fe UP UQ C1 C2 C3 F. apply (difference_def _ _ _ _ _ (fmul4 r p (dif_inv q)) (dif_nor (fmul4 r p (dif_inv q)))); [exact UP | exact UQ | | | exact F].
  - unfold q64_div, q64_norm, q64_inverse. cbn [need3 bind]. rewrite C1. cbn [bind]. rewrite C2. cbn [bind]. reflexivity.
  - unfold q64_normalize. cbn [need3 bind]. rewrite C3. reflexivity.
Qed.
Lemma below_one_val : finite64 (S754_finite false 9007199254740991 (-53)) /\ rval (S754_finite false 9007199254740991 (-53)) = 1 - e53.
Proof. split; [vm_compute; reflexivity |]. rewrite rval_sg. cbn [sg]. rewrite P2_m by lia. unfold e53. change (2 ^ (- -53))%Z with 9007199254740992%Z. field. Qed.
Lemma above_one_val : finite64 (S754_finite false 4503599627370497 (-52)) /\ 1 <= rval (S754_finite false 4503599627370497 (-52)).
Proof. split; [vm_compute; reflexivity |]. rewrite rval_sg. cbn [sg]. rewrite P2_m by lia. change (2 ^ (- -52))%Z with 4503599627370496%Z. lra. Qed.
Lemma c151_order facos r eps e : acos_within facos e -> e <= P2 (-28) -> rval (facos one_64) = 0 -> finite64 eps -> 0 < rval eps <= / 32 ->
  q64_isUnitary (Some dif_p) (Some eps) = Ok true /\ q64_isUnitary (Some dif_q) (Some eps) = Ok true /\
  exists s t, q64_angularDifferenceWith facos r eps (Some dif_q) (Some dif_p) = Ok (mkA64 (Some s) Radian) /\ finite64 s /\ rval s = 0 /\ q64_angularDifferenceWith facos r eps (Some dif_p) (Some dif_q) = Ok (mkA64 (Some t) Radian) /\ finite64 t /\ P2 (-26) <= rval t <= 3.2.
Proof.
  intros HF E1 O Fe He. destruct dif_norms as (N1 & N2 & D1 & D2). pose proof (exact_unitary _ _ N1 Fe ltac:(lra)) as UP. pose proof (exact_unitary _ _ N2 Fe ltac:(lra)) as UQ. split; [exact UP |]. split; [exact UQ |].
  destruct (dif_arguments r) as (A1 & A2 & A3 & A4). destruct one_val as [F1 V1]. destruct below_one_val as [FB VB]. destruct above_one_val as [FA VA]. pose proof e53_pos as PE. assert (E9 : e53 <= / 1000000000) by (unfold e53; lra).
  assert (P28 : P2 (-28) <= / 1000000) by (rewrite P2_m by lia; change (2 ^ (- -28))%Z with 268435456%Z; lra). 
  assert (X1 : SFltb one_64 eps = false) by (apply ltb_f; [exact F1 | exact Fe | lra]). assert (X2 : SFltb (S754_finite false 9007199254740991 (-53)) eps = false) by (apply ltb_f; [exact FB | exact Fe | lra]). assert (X3 : SFltb (S754_finite false 4503599627370497 (-52)) eps = false) by (apply ltb_f; [exact FA | exact Fe | lra]).
  assert (B1 : SFabs one_64 = one_64) by reflexivity.
  destruct (doubled facos e one_64 HF ltac:(lra) F1 ltac:(lra)) as (Ft1 & Bt1 & _). destruct (doubled facos e (S754_finite false 9007199254740991 (-53)) HF ltac:(lra) FB ltac:(lra)) as (Ft2 & Bt2 & Et2).
  exists (b64_mul two_64 (facos one_64)), (b64_mul two_64 (facos (S754_finite false 9007199254740991 (-53)))). split; [| split; [exact Ft1 | split; [| split; [| split; [exact Ft2 |]]]]].
  - pose proof (difference_run facos r eps dif_q dif_p Fe UQ UP) as K. rewrite N1, D1, A4, A2, B1 in K. apply (K X1 X1 X1 Ft1).
  - destruct two_val as [FT VT]. pose proof P2_big as PB. destruct (HF one_64 F1 ltac:(lra)) as (FO & _ & _). destruct (SFmul_rounded two_64 (facos one_64) FT FO ltac:(rewrite O, Rmult_0_r, Rabs_R0; lra)) as [N _]. change (SFmul 53 1024 two_64 (facos one_64)) with (b64_mul two_64 (facos one_64)) in N. rewrite O, Rmult_0_r in N. apply (nearest_exact _ _ N). exists zero64. split; [exact I | reflexivity].
  - pose proof (difference_run facos r eps dif_p dif_q Fe UP UQ) as K. rewrite N2, D2, A3, A1 in K. apply (K X1 X3 X2 Ft2).
  - split; [| lra]. apply abs_le in Et2. rewrite VB in Et2. set (x := acos (1 - e53)) in *. assert (CX : cos x = 1 - e53) by (apply cos_acos; lra). pose proof (one_minus_cos x) as OM. rewrite CX in OM. pose proof (acos_bound (1 - e53)) as AB. fold x in AB.
    assert (XB : P2 (-26) <= x). { apply Rnot_lt_le. intros K. pose proof (P2_pos (-26)) as PK. assert (M : x * x < P2 (-26) * P2 (-26)) by (apply Rmult_le_0_lt_compat; lra). rewrite <- P2_add in M. change (-26 + -26)%Z with (1 + -53)%Z in M. rewrite P2_add, e53_P2 in M. replace (P2 1) with 2 in M by (rewrite <- P2_Z by lia; reflexivity). lra. }
    assert (P2 (-26) = 4 * P2 (-28)) by (change (-26)%Z with (2 + -28)%Z; rewrite P2_add, P2_2; reflexivity). assert (4 * e53 <= P2 (-28)). { rewrite <- e53_P2. change (-28)%Z with (25 + -53)%Z. rewrite P2_add. apply Rmult_le_compat_r; [apply Rlt_le, P2_pos |]. rewrite <- P2_Z by lia. apply IZR_le. lia. } lra.
Qed.
Lemma c151_symmetric_refuted : exists p q, val4 p <> val4 q /\ val4 p <> times4 (-1) (val4 q) /\ forall facos r eps e, acos_within facos e -> e <= P2 (-28) -> rval (facos one_64) = 0 -> finite64 eps -> 0 < rval eps <= / 32 ->
  q64_isUnitary (Some p) (Some eps) = Ok true /\ q64_isUnitary (Some q) (Some eps) = Ok true /\
  exists s t, q64_angularDifferenceWith facos r eps (Some q) (Some p) = Ok (mkA64 (Some s) Radian) /\ finite64 s /\ rval s = 0 /\ q64_angularDifferenceWith facos r eps (Some p) (Some q) = Ok (mkA64 (Some t) Radian) /\ finite64 t /\ P2 (-26) <= rval t <= 3.2.
Proof.
  exists dif_p, dif_q. assert (YQ : 0 < rval (q64y dif_q)) by (unfold dif_q; cbn [q64y]; rewrite rval_sg; cbn [sg]; pose proof (P2_pos (-79)); lra). split; [| split].
  { intros H. apply (f_equal qy) in H. unfold val4 in H. cbn [qy] in H. change (rval (q64y dif_p)) with 0 in H. lra. }
  { intros H. apply (f_equal qy) in H. unfold val4, times4 in H. cbn [qy] in H. change (rval (q64y dif_p)) with 0 in H. lra. }
  intros facos r eps e. apply c151_order.
Qed.
Lemma c151_refused facos r eps p q : finite64 eps -> 0 < rval eps ->
  (q64_isUnitary (Some p) (Some eps) = Ok false -> forall q, q64_angularDifferenceWith facos r eps (Some p) q = Err ERuntime) /\
  (q64_isUnitary (Some q) (Some eps) = Ok false -> q64_angularDifferenceWith facos r eps (Some p) (Some q) = Err ERuntime) /\
  q64_angularDifferenceWith facos r eps None (Some q) = Err EUndefined /\ q64_angularDifferenceWith facos r eps None None = Err EUndefined /\
  (q64_isUnitary (Some p) (Some eps) = Ok true -> q64_angularDifferenceWith facos r eps (Some p) None = Err EUndefined).
Proof.
  intros Fe He. assert (D : forall x, q64_isUnitary (Some x) (Some eps) = Ok true \/ q64_isUnitary (Some x) (Some eps) = Ok false). { intros x. unfold q64_isUnitary. cbn [need3 bind]. replace (SFleb eps zero64) with false by (symmetry; apply not_true_is_false; intros H; apply SFleb_val in H; [change (rval zero64) with 0 in H; lra | exact Fe | exact I]). destruct (SFleb _ _); [left | right]; reflexivity. }
  unfold q64_angularDifferenceWith. split; [intros U q'; rewrite U; reflexivity |]. split; [intros U; rewrite U; destruct (D p) as [-> | ->]; reflexivity |]. split; [reflexivity |]. split; [reflexivity |]. intros U. rewrite U. reflexivity.
Qed.
