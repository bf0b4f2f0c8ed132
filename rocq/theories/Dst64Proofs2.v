(** Double precision: distances from points to segments. *)

From Coq Require Import List Bool Arith ZArith Reals Lra Lia Psatz Floats.SpecFloat.
From Verif Require Import Result Vec DOrder RotModel AngleModel FloatSpec FloatProofs FloatProofs2 FloatModel FloatProofs3 FloatProofs4 FloatProofs5 FloatProofs7 FloatProofs10
  VecProofs Geo3Types Geo3Model Geo3Spec Geo3Proofs Geo3Proofs2 Geo64Model Geo64Spec Geo64Proofs Geo64Proofs2 Geo64Proofs3 Geo64Proofs4 Geo64Proofs5 Geo64Proofs6 Geo64Proofs7 Geo64Proofs8 Rot64Model Dst64Model Dst64Proofs.
Import ListNotations.
Local Open Scope R_scope.

(** *** The parameter *)
Lemma clamp_val q : finite64 q -> finite64 (std_max64 zero64 (std_min64 (b64_of_Z 1) q)) /\ rval (std_max64 zero64 (std_min64 (b64_of_Z 1) q)) = Rmax 0 (Rmin 1 (rval q)).
Proof.
  intros F. destruct one64 as [F1 V1]. assert (M : finite64 (std_min64 (b64_of_Z 1) q) /\ rval (std_min64 (b64_of_Z 1) q) = Rmin 1 (rval q)).
  { unfold std_min64. destruct (SFltb q (b64_of_Z 1)) eqn:E; (split; [assumption |]).
    - apply (SFltb_val _ _ F F1) in E. rewrite V1 in E. symmetry. apply Rmin_right. lra.
    - rewrite V1. symmetry. apply Rmin_left. apply Rnot_lt_le. intros K. rewrite <- V1 in K. rewrite (ltb_t _ _ F F1 K) in E. discriminate. }
  destruct M as [Fm Vm]. rewrite <- Vm. unfold std_max64. destruct (SFltb zero64 _) eqn:E; (split; [assumption || exact I |]).
  - apply (SFltb_val zero64 _ I Fm) in E. change (rval zero64) with 0 in E. symmetry. apply Rmax_right. lra.
  - change (rval zero64) with 0. symmetry. apply Rmax_left. apply Rnot_lt_le. intros K. rewrite (ltb_t zero64 _ I Fm K) in E. discriminate.
Qed.
Lemma clamp_lip x y : Rabs (Rmax 0 (Rmin 1 x) - Rmax 0 (Rmin 1 y)) <= Rabs (x - y).
Proof.
  pose proof (Rle_abs (x - y)). pose proof (Rle_abs (- (x - y))) as H'. rewrite Rabs_Ropp in H'. pose proof (Rabs_pos (x - y)). apply abs_of. unfold Rmax, Rmin. repeat destruct Rle_dec; lra.
Qed.
Lemma clamp_range x : 0 <= Rmax 0 (Rmin 1 x) <= 1.
Proof. split; [apply Rmax_l | apply Rmax_lub; [lra | apply Rmin_l]]. Qed.
Lemma ratio_err s S l B P q : 0 < B -> 0 <= P -> Rabs (s - S) <= 6 * e53 * (P * B) + 4 * tiny -> Rabs S <= P * B -> Rabs (l - B * B) <= 7 * e53 * (B * B) ->
  Rabs (q - s / l) <= e53 * Rabs (s / l) + tiny -> Rabs (q - S / (B * B)) * B <= 14.2 * e53 * P + 5 * tiny / B + tiny * B.
Proof.
  intros HB HP Hs HS Hl Hq. assert (PB : 0 < B * B) by nra. apply abs_le in Hl. assert (Pl : 0 < l) by (unfold e53 in *; lra).
  assert (X : Rabs (s / l - S / (B * B)) <= (13 * e53 * (P * B) + 4 * tiny) / l).
  { replace (s / l - S / (B * B)) with ((s - S + S * ((B * B - l) / (B * B))) / l) by (field; lra). unfold Rdiv at 1. rewrite Rabs_mult, (Rabs_right (/ l)) by (apply Rle_ge, Rlt_le, Rinv_0_lt_compat, Pl).
    unfold Rdiv at 2. apply Rmult_le_compat_r; [apply Rlt_le, Rinv_0_lt_compat, Pl |]. eapply Rle_trans; [apply Rabs_triang |]. rewrite Rabs_mult.
    assert (R : Rabs ((B * B - l) / (B * B)) <= 7 * e53). { apply abs_of. split; [apply Rmult_le_reg_r with (B * B) | apply Rmult_le_reg_r with (B * B)]; try exact PB; unfold Rdiv; rewrite Rmult_assoc, Rinv_l, Rmult_1_r by lra; lra. }
    assert (R' : Rabs S * Rabs ((B * B - l) / (B * B)) <= P * B * (7 * e53)) by (apply Rmult_le_compat; try apply Rabs_pos; assumption). lra. }
  assert (Y : Rabs (S / (B * B)) <= P / B).
  { unfold Rdiv at 1. rewrite Rabs_mult, (Rabs_right (/ (B * B))) by (apply Rle_ge, Rlt_le, Rinv_0_lt_compat, PB). apply Rmult_le_reg_r with (B * B); [exact PB |]. rewrite Rmult_assoc, Rinv_l, Rmult_1_r by lra. replace (P / B * (B * B)) with (P * B) by (field; lra). exact HS. }
  pose proof (Rabs_triang (s / l - S / (B * B)) (S / (B * B))) as T1. replace (s / l - S / (B * B) + S / (B * B)) with (s / l) in T1 by ring.
  pose proof (Rabs_triang (q - s / l) (s / l - S / (B * B))) as T2. replace (q - s / l + (s / l - S / (B * B))) with (q - S / (B * B)) in T2 by ring.
  pose proof tiny_pos as PT. assert (Z : (13 * e53 * (P * B) + 4 * tiny) / l <= (13 * e53 * (P * B) + 4 * tiny) / ((1 - 7 * e53) * (B * B))).
  { unfold Rdiv. apply Rmult_le_compat_l; [apply Rplus_le_le_0_compat; [apply Rmult_le_pos; [unfold e53; lra | nra] | lra] |]. apply Rinv_le_contravar; [unfold e53 in *; lra | lra]. }
  set (K := (13 * e53 * (P * B) + 4 * tiny) / ((1 - 7 * e53) * (B * B))) in *.
  assert (KB : K * B = (13 * e53 * P + 4 * tiny / B) / (1 - 7 * e53)) by (unfold K; field; split; [lra | unfold e53; lra]).
  assert (F : Rabs (q - S / (B * B)) <= (1 + e53) * K + e53 * (P / B) + tiny) by (unfold e53 in *; lra).
  apply Rle_trans with (((1 + e53) * K + e53 * (P / B) + tiny) * B); [apply Rmult_le_compat_r; [lra | exact F] |].
  replace (((1 + e53) * K + e53 * (P / B) + tiny) * B) with ((1 + e53) * (K * B) + e53 * P + tiny * B) by (field; lra). rewrite KB.
  assert (TB : 0 <= tiny / B) by (apply Rlt_le, Rdiv_lt_0_compat; assumption). replace (4 * tiny / B) with (4 * (tiny / B)) by (field; lra). replace (5 * tiny / B) with (5 * (tiny / B)) by (field; lra).
  set (w := tiny / B) in *. clearbody w. assert (J : (13 * e53 * P + 4 * w) / (1 - 7 * e53) <= (13 * e53 * P + 4 * w) * (1 + 8 * e53)).
  { assert (PX : 0 <= 13 * e53 * P + 4 * w) by (assert (0 <= 13 * e53 * P) by (apply Rmult_le_pos; [unfold e53; lra | exact HP]); lra). set (X' := 13 * e53 * P + 4 * w) in *. clearbody X'.
    apply Rmult_le_compat_l; [exact PX |]. apply Rmult_le_reg_r with (1 - 7 * e53); [unfold e53; lra |]. rewrite Rinv_l by (unfold e53; lra). unfold e53; lra. }
  unfold e53 in *. lra.
Qed.
(** *** The foot of the perpendicular *)
Lemma foot_err a c t B k : finite64 a -> finite64 c -> finite64 t -> 0 <= rval t <= 1 -> Rabs (rval a) <= P2 k -> Rabs (rval c) <= P2 k -> (0 <= k <= 1000)%Z -> Rabs (rval c - B) <= e53 * Rabs B ->
  finite64 (sf_add a (b64_mul t c)) /\ Rabs (rval (sf_add a (b64_mul t c)) - (rval a + rval t * B)) <= e53 * Rabs (rval a) + 3.1 * e53 * Rabs B + 2 * tiny /\ Rabs (rval (sf_add a (b64_mul t c))) <= P2 (k + 3).
Proof.
  intros Fa Fc Ft Ht Ba Bc K Ec. pose proof (P2_pos k) as Pk. pose proof (Rabs_pos (rval c)) as Pc. pose proof (P2_mono k 1000 ltac:(lia)) as M1.
  assert (Q : P2 1023 = 8388608 * P2 1000) by (replace 8388608 with (P2 23) by (rewrite <- P2_Z by lia; reflexivity); rewrite <- P2_add; reflexivity).
  assert (Q8 : P2 (k + 3) = 8 * P2 k) by (replace 8 with (P2 3) by (rewrite <- P2_Z by lia; reflexivity); rewrite <- P2_add; f_equal; lia).
  assert (T1 : tiny <= P2 k) by (apply P2_mono; lia). pose proof tiny_pos as PT.
  assert (A : Rabs (rval t * rval c) <= Rabs (rval c)) by (rewrite Rabs_mult, (Rabs_right (rval t)) by lra; nra).
  destruct (mul_any t c Ft Fc ltac:(lra)) as [Fm Em]. set (m := rval (b64_mul t c)) in *.
  pose proof (Rabs_triang (m - rval t * rval c) (rval t * rval c)) as U1. replace (m - rval t * rval c + rval t * rval c) with m in U1 by ring. pose proof (Rabs_triang (rval a) m) as U2.
  assert (Bm : Rabs (rval a + m) <= 3.1 * P2 k) by (unfold e53 in *; lra).
  destruct (add_any a (b64_mul t c) Fa Fm ltac:(fold m; lra)) as [Fs Es]. fold m in Es. split; [exact Fs |]. set (x := rval (sf_add a (b64_mul t c))) in *. split.
  - assert (TB : Rabs (rval t * rval c - rval t * B) <= e53 * Rabs B).
    { replace (rval t * rval c - rval t * B) with (rval t * (rval c - B)) by ring. rewrite Rabs_mult, (Rabs_right (rval t)) by lra. pose proof (Rabs_pos (rval c - B)). nra. }
    pose proof (Rabs_triang (rval c - B) B) as U3. replace (rval c - B + B) with (rval c) in U3 by ring. pose proof (Rabs_pos B).
    pose proof (Rabs_triang (x - (rval a + m)) (m - rval t * rval c + (rval t * rval c - rval t * B))) as U4. replace (x - (rval a + m) + (m - rval t * rval c + (rval t * rval c - rval t * B))) with (x - (rval a + rval t * B)) in U4 by ring.
    pose proof (Rabs_triang (m - rval t * rval c) (rval t * rval c - rval t * B)) as U5. pose proof (Rabs_pos (rval a)). unfold e53 in *. lra.
  - pose proof (Rabs_triang (x - (rval a + m)) (rval a + m)) as U4. replace (x - (rval a + m) + (rval a + m)) with x in U4 by ring. unfold e53 in *. lra.
Qed.
Lemma foot3_err a c t B k : finite3 a -> finite3 c -> finite64 t -> 0 <= rval t <= 1 -> within3 (P2 k) a -> within3 (P2 k) c -> (0 <= k <= 1000)%Z -> approx3 c B ->
  finite3 (fadd3 a (fscale3 t c)) /\ dist3 (val3 (fadd3 a (fscale3 t c))) (add3 (val3 a) (scale3 (rval t) B)) <= 3 * e53 * norm3 (val3 a) + 9.3 * e53 * norm3 B + 6 * tiny /\ within3 (P2 (k + 3)) (fadd3 a (fscale3 t c)).
Proof.
  intros (Ax & Ay & Az) (Cx & Cy & Cz) Ft Ht (Ux & Uy & Uz) (Vx & Vy & Vz) K (Px & Py & Pz).
  destruct (foot_err _ _ t _ k Ax Cx Ft Ht Ux Vx K Px) as (F1 & E1 & W1). destruct (foot_err _ _ t _ k Ay Cy Ft Ht Uy Vy K Py) as (F2' & E2 & W2). destruct (foot_err _ _ t _ k Az Cz Ft Ht Uz Vz K Pz) as (F3' & E3 & W3).
  split; [split; [exact F1 | split; [exact F2' | exact F3']] |]. split; [| split; [exact W1 | split; [exact W2 | exact W3]]].
  pose proof (norm3_sum (sub3 (val3 (fadd3 a (fscale3 t c))) (add3 (val3 a) (scale3 (rval t) B)))) as T. unfold dist3. eapply Rle_trans; [exact T |].
  destruct (coordinate_le (val3 a)) as (X & Y & Z). destruct (coordinate_le B) as (X' & Y' & Z'). unfold sub3, add3, scale3, val3, fadd3, fscale3 in *. cbn [vx vy vz fx fy fz] in *. clear T.
  set (na := norm3 (V3 (rval (fx a)) (rval (fy a)) (rval (fz a)))) in *. set (nb := norm3 B) in *. unfold e53 in *. lra.
Qed.
Lemma segment_exact a b p L : a <> b -> least_distance (on_segment a b) p L ->
  L = dist3 (add3 a (scale3 (Rmax 0 (Rmin 1 (dot3 (sub3 p a) (sub3 b a) / sqnorm3 (sub3 b a)))) (sub3 b a))) p.
Proof.
  intros N H. destruct (c49_segment (mkSeg (Some a) (Some b)) a b p eq_refl) as (x & E & G). rewrite (least_unique _ _ _ _ H G). unfold s_distanceTo, s_isDegenerate, s_data in E. cbn [needd bind s_first s_second] in E.
  replace (v3_eqb a b) with false in E by (symmetry; apply v3_eqb_false; exact N). cbn [pt_distanceTo needd bind] in E. injection E as <-. reflexivity.
Qed.
Lemma P2_le_abs k : (0 <= k)%Z -> P2 (- k) = / P2 k.
Proof. intros _. apply Rmult_eq_reg_r with (P2 k); [rewrite P2_opp, Rinv_l; [reflexivity |] |]; pose proof (P2_pos k); lra. Qed.
Lemma norm_sub_le a b : norm3 (sub3 a b) <= norm3 a + norm3 b.
Proof. replace (sub3 a b) with (add3 a (opp3 b)) by v3ring. rewrite <- (norm3_opp b). apply norm3_triangle. Qed.
Lemma within_norm k a : within3 (P2 k) a -> norm3 (val3 a) <= 3 * P2 k.
Proof. intros (X & Y & Z). pose proof (norm3_sum (val3 a)) as T. unfold val3 in T at 2 3 4. cbn [vx vy vz] in T. lra. Qed.
Lemma c157_segment r a b p L : finite3 a -> finite3 b -> finite3 p -> within3 (P2 200) a -> within3 (P2 200) b -> within3 (P2 200) p -> P2 (-200) <= dist3 (val3 b) (val3 a) ->
  least_distance (on_segment (val3 a) (val3 b)) (val3 p) L ->
  exists x, s64_distanceTo r (mkS64 (Some a) (Some b)) (Some p) = Ok x /\ finite64 x /\ Rabs (rval x - L) <= P2 (-47) * (norm3 (val3 a) + norm3 (val3 b) + norm3 (val3 p)) + P2 (-500).
Proof.
  intros Fa Fb Fp Ba Bb Bp LB H. pose proof (P2_pos (-200)) as P200. assert (N : val3 a <> val3 b). { intros E. rewrite E in LB. unfold dist3 in LB. replace (sub3 (val3 b) (val3 b)) with (V3 0 0 0) in LB by (unfold sub3; rewrite !Rminus_diag_eq by reflexivity; reflexivity). replace (norm3 (V3 0 0 0)) with 0 in LB by (symmetry; apply norm3_0; reflexivity). lra. }
  rewrite (segment_exact _ _ _ _ N H). clear H L. unfold s64_distanceTo. cbn [need3 bind s64_data s64_first s64_second].
  replace (feq3 a b) with false by (symmetry; apply not_true_iff_false; intros E; apply (feq3_val _ _ Fa Fb) in E; contradiction).
  destruct (sub3_approx p a 200 Fp Fa Bp Ba ltac:(lia)) as (FP & BP & AP). destruct (sub3_approx b a 200 Fb Fa Bb Ba ltac:(lia)) as (FB & BB & AB).
  destruct (dot_err r _ _ _ _ (200 + 2) FP FB BP BB AP AB ltac:(lia)) as [Fs Es]. destruct (dot_err r _ _ _ _ (200 + 2) FB FB BB BB AB AB ltac:(lia)) as [Fl El]. rewrite absdot_sq in El. fold (fsqnorm3 r (fsub3 b a)) in *.
  pose proof (absdot_cauchy (sub3 (val3 p) (val3 a)) (sub3 (val3 b) (val3 a))) as AC. pose proof (cauchy3_norm (sub3 (val3 p) (val3 a)) (sub3 (val3 b) (val3 a))) as SC.
  pose proof (norm_sub_le (val3 p) (val3 a)) as NP. pose proof (norm_sub_le (val3 b) (val3 a)) as NB. pose proof (within_norm _ _ Ba) as Wa. pose proof (within_norm _ _ Bb) as Wb. pose proof (within_norm _ _ Bp) as Wp.
  unfold dist3 in LB. rewrite <- norm3_sq. change (dot3 (sub3 (val3 b) (val3 a)) (sub3 (val3 b) (val3 a))) with (sqnorm3 (sub3 (val3 b) (val3 a))) in El. rewrite <- norm3_sq in El.
  set (P := sub3 (val3 p) (val3 a)) in *. set (B := sub3 (val3 b) (val3 a)) in *. set (s := fdot3 r (fsub3 p a) (fsub3 b a)) in *. set (l := fsqnorm3 r (fsub3 b a)) in *. set (S := dot3 P B) in *.
  pose proof (norm3_nonneg P) as PP. pose proof (norm3_nonneg (val3 a)) as Pa. pose proof (norm3_nonneg (val3 b)) as Pb. pose proof (norm3_nonneg (val3 p)) as Pp. pose proof tiny_pos as PT.
  set (nB := norm3 B) in *. set (nP := norm3 P) in *. set (na := norm3 (val3 a)) in *. set (nb := norm3 (val3 b)) in *. set (np := norm3 (val3 p)) in *.
  assert (PB : 0 < nB) by lra. assert (BB' : P2 (-400) <= nB * nB) by (replace (-400)%Z with (-200 + -200)%Z by lia; rewrite P2_add; apply Rmult_le_compat; lra).
  assert (T4 : 4 * tiny <= e53 * (nB * nB)).
  { apply Rle_trans with (e53 * P2 (-400)); [| apply Rmult_le_compat_l; [unfold e53; lra | exact BB']]. rewrite <- e53_P2, <- P2_add. replace 4 with (P2 2) by (rewrite <- P2_Z by lia; reflexivity). unfold tiny. rewrite <- P2_add. apply P2_mono. lia. }
  assert (El' : Rabs (rval l - nB * nB) <= 7 * e53 * (nB * nB)) by (unfold e53 in *; lra). assert (Pl : P2 (-401) <= rval l).
  { pose proof El' as Q. apply abs_le in Q. assert (P2 (-400) = 2 * P2 (-401)) by (replace 2 with (P2 1) by (rewrite <- P2_Z by lia; reflexivity); rewrite <- P2_add; reflexivity). pose proof (P2_pos (-401)). unfold e53 in *. lra. }
  assert (Es' : Rabs (rval s - S) <= 6 * e53 * (nP * nB) + 4 * tiny) by (unfold e53 in *; lra).
  pose proof (P2_pos (-401)) as P401. assert (DQ : Rabs (rval s / rval l) <= P2 1023).
  { assert (Bs : Rabs (rval s) <= P2 500).
    { pose proof (Rabs_triang (rval s - S) S) as T. replace (rval s - S + S) with (rval s) in T by ring. pose proof (P2_pos 200).
      assert (U : nP * nB <= 6 * P2 200 * (6 * P2 200)) by (apply Rmult_le_compat; lra). replace (6 * P2 200 * (6 * P2 200)) with (36 * P2 400) in U by (replace 400%Z with (200 + 200)%Z by lia; rewrite P2_add; ring).
      assert (V : 64 * P2 400 <= P2 500) by (replace 64 with (P2 6) by (rewrite <- P2_Z by lia; reflexivity); rewrite <- P2_add; apply P2_mono; lia). assert (tiny <= P2 400) by (apply P2_mono; lia). unfold e53 in *. lra. }
    unfold Rdiv. rewrite Rabs_mult, (Rabs_right (/ rval l)) by (apply Rle_ge, Rlt_le, Rinv_0_lt_compat; lra). apply Rle_trans with (P2 500 * / P2 (-401)).
    - apply Rmult_le_compat; [apply Rabs_pos | apply Rlt_le, Rinv_0_lt_compat; lra | exact Bs | apply Rinv_le_contravar; lra].
    - replace (-401)%Z with (- (401))%Z by lia. rewrite P2_le_abs by lia. rewrite Rinv_inv. rewrite <- P2_add. apply P2_mono. lia. }
  destruct (div_any s l Fs Fl ltac:(lra) DQ) as [Fq Eq]. set (q := b64_div s l) in *.
  pose proof (ratio_err _ _ _ _ _ _ PB PP Es' SC El' Eq) as RE. destruct (clamp_val q Fq) as [Ft Vt]. set (t := std_max64 zero64 (std_min64 (b64_of_Z 1) q)) in *.
  pose proof (clamp_range (rval q)) as Ht. rewrite <- Vt in Ht.
  destruct (foot3_err a _ t _ (200 + 2) Fa FB Ft Ht (within_weaken 200 (200 + 2) _ ltac:(lia) Ba) BB ltac:(lia) AB) as (Ff & Ef & Bf). set (f := fadd3 a (fscale3 t (fsub3 b a))) in *. fold na nB in Ef.
  destruct (c127_accurate r f p Ff Fp (within_weaken (200 + 2 + 3) 450 _ ltac:(lia) Bf) (within_weaken 200 450 _ ltac:(lia) Bp)) as (x & Ex & Fx & Dx). exists x. split; [exact Ex |]. split; [exact Fx |].
  pose proof (clamp_lip (rval q) (S / (nB * nB))) as CL. rewrite <- Vt in CL. set (T := Rmax 0 (Rmin 1 (S / (nB * nB)))) in *. pose proof (clamp_range (S / (nB * nB))) as HT. fold T in HT.
  assert (G : dist3 (add3 (val3 a) (scale3 (rval t) B)) (add3 (val3 a) (scale3 T B)) <= 14.2 * e53 * nP + 5 * tiny / nB + tiny * nB).
  { unfold dist3. replace (sub3 (add3 (val3 a) (scale3 (rval t) B)) (add3 (val3 a) (scale3 T B))) with (scale3 (rval t - T) B) by (destruct B as [u v w], (val3 a) as [u' v' w']; unfold scale3, sub3, add3; cbn [vx vy vz]; f_equal; ring).
    rewrite norm3_scale. fold nB. eapply Rle_trans; [| exact RE]. apply Rmult_le_compat_r; [lra | exact CL]. }
  assert (W1 : 5 * tiny / nB <= P2 (-800)).
  { unfold Rdiv. apply Rle_trans with (P2 3 * tiny * / P2 (-200)).
    - apply Rmult_le_compat; [lra | apply Rlt_le, Rinv_0_lt_compat, PB | | apply Rinv_le_contravar; lra]. rewrite <- P2_Z by lia. change (IZR (2 ^ 3)) with 8. lra.
    - replace (-200)%Z with (- (200))%Z by lia. rewrite P2_le_abs by lia. rewrite Rinv_inv. unfold tiny. rewrite <- !P2_add. apply P2_mono. lia. }
  assert (W2 : tiny * nB <= P2 (-800)).
  { apply Rle_trans with (tiny * P2 203); [apply Rmult_le_compat_l; [lra |]; assert (P2 203 = 8 * P2 200) by (replace 8 with (P2 3) by (rewrite <- P2_Z by lia; reflexivity); rewrite <- P2_add; reflexivity); lra |].
    unfold tiny. rewrite <- P2_add. apply P2_mono. lia. }
  assert (W3 : 6 * tiny <= P2 (-800)) by (apply Rle_trans with (P2 3 * tiny); [rewrite <- P2_Z by lia; change (IZR (2 ^ 3)) with 8; lra | unfold tiny; rewrite <- P2_add; apply P2_mono; lia]).
  assert (W4 : 16 * P2 (-530) <= P2 (-500)) by (replace 16 with (P2 4) by (rewrite <- P2_Z by lia; reflexivity); rewrite <- P2_add; apply P2_mono; lia).
  pose proof (P2_mono (-800) (-530) ltac:(lia)) as W5. pose proof (P2_pos (-530)) as W6.
  pose proof (dist3_triangle (val3 f) (add3 (val3 a) (scale3 (rval t) B)) (add3 (val3 a) (scale3 T B))) as D1. set (e := add3 (val3 a) (scale3 T B)) in *. set (g := add3 (val3 a) (scale3 (rval t) B)) in *.
  pose proof (dist3_triangle (val3 f) e (val3 p)) as D2. pose proof (dist3_triangle e (val3 f) (val3 p)) as D3. rewrite (dist3_sym e (val3 f)) in D3.
  assert (D4 : dist3 e (val3 p) <= nP + nB).
  { pose proof (dist3_triangle e (val3 a) (val3 p)) as D. rewrite (dist3_sym (val3 a)) in D. change (dist3 (val3 p) (val3 a)) with nP in D. assert (dist3 e (val3 a) <= nB); [| lra].
    unfold dist3, e. replace (sub3 (add3 (val3 a) (scale3 T B)) (val3 a)) with (scale3 T B) by (destruct B as [u v w], (val3 a) as [u' v' w']; unfold scale3, sub3, add3; cbn [vx vy vz]; f_equal; ring). rewrite norm3_scale, Rabs_right by lra. fold nB. nra. }
  assert (E' : P2 (-47) = 64 * e53) by (rewrite <- e53_P2; replace 64 with (P2 6) by (rewrite <- P2_Z by lia; reflexivity); rewrite <- P2_add; reflexivity).
  assert (E2 : P2 (-50) = 8 * e53) by (rewrite <- e53_P2; replace 8 with (P2 3) by (rewrite <- P2_Z by lia; reflexivity); rewrite <- P2_add; reflexivity). rewrite E'. rewrite E2 in Dx.
  apply abs_le in Dx. set (df := dist3 (val3 f) (val3 p)) in *. set (de := dist3 e (val3 p)) in *.
  assert (X1 : dist3 (val3 f) e <= 3 * e53 * na + 9.3 * e53 * nB + 14.2 * e53 * nP + 3 * P2 (-530)) by lra. set (dd := dist3 (val3 f) e) in *. clearbody dd.
  assert (X2 : df <= 1.01 * (nP + nB) + 0.01 * na + 4 * P2 (-530)) by (unfold e53 in *; lra). apply abs_of. unfold e53 in *. lra.
Qed.
Lemma c157_degenerate r a p : finite3 a -> s64_distanceTo r (mkS64 (Some a) (Some a)) (Some p) = pt64_distanceTo r (Some a) (Some p).
Proof.
  intros Fa. unfold s64_distanceTo. cbn [need3 bind s64_data s64_first s64_second]. replace (feq3 a a) with true by (symmetry; apply (feq3_val a a Fa Fa); reflexivity). reflexivity.
Qed.
Lemma c157_first r a b : finite3 a -> finite3 b -> within3 (P2 200) a -> within3 (P2 200) b -> P2 (-200) <= dist3 (val3 b) (val3 a) ->
  exists x, s64_distanceTo r (mkS64 (Some a) (Some b)) (Some a) = Ok x /\ finite64 x /\ rval x = 0.
Proof.
  intros Fa Fb Ba Bb LB. pose proof (P2_pos (-200)) as P200. assert (N : val3 a <> val3 b). { intros E. rewrite E in LB. unfold dist3 in LB. replace (sub3 (val3 b) (val3 b)) with (V3 0 0 0) in LB by (unfold sub3; rewrite !Rminus_diag_eq by reflexivity; reflexivity). replace (norm3 (V3 0 0 0)) with 0 in LB by (symmetry; apply norm3_0; reflexivity). lra. }
  unfold s64_distanceTo. cbn [need3 bind s64_data s64_first s64_second].
  replace (feq3 a b) with false by (symmetry; apply not_true_iff_false; intros E; apply (feq3_val _ _ Fa Fb) in E; contradiction).
  destruct (sub3_approx b a 200 Fb Fa Bb Ba ltac:(lia)) as (FB & BB & AB). destruct (self_sub a Fa) as [Fz Vz]. destruct (zero3_dot r _ _ FB Fz Vz) as [Fs Vs]. rewrite dot_comm64 in Fs, Vs.
  destruct (dot_err r _ _ _ _ (200 + 2) FB FB BB BB AB AB ltac:(lia)) as [Fl El]. rewrite absdot_sq in El. fold (fsqnorm3 r (fsub3 b a)) in *. unfold dist3 in LB.
  change (dot3 (sub3 (val3 b) (val3 a)) (sub3 (val3 b) (val3 a))) with (sqnorm3 (sub3 (val3 b) (val3 a))) in El. rewrite <- norm3_sq in El.
  set (B := sub3 (val3 b) (val3 a)) in *. set (s := fdot3 r (fsub3 a a) (fsub3 b a)) in *. set (l := fsqnorm3 r (fsub3 b a)) in *. set (nB := norm3 B) in *.
  assert (BB' : P2 (-400) <= nB * nB) by (replace (-400)%Z with (-200 + -200)%Z by lia; rewrite P2_add; apply Rmult_le_compat; lra). pose proof (P2_pos (-400)).
  assert (T4 : 4 * tiny <= e53 * (nB * nB)).
  { apply Rle_trans with (e53 * P2 (-400)); [| apply Rmult_le_compat_l; [unfold e53; lra | exact BB']]. rewrite <- e53_P2, <- P2_add. replace 4 with (P2 2) by (rewrite <- P2_Z by lia; reflexivity). unfold tiny. rewrite <- P2_add. apply P2_mono. lia. }
  apply abs_le in El. assert (Pl : 0 < rval l) by (unfold e53 in *; lra).
  assert (DQ : Rabs (rval s / rval l) <= P2 1023). { rewrite Vs. unfold Rdiv. rewrite Rmult_0_l, Rabs_R0. apply Rlt_le, P2_pos. }
  destruct (div_any s l Fs Fl ltac:(lra) DQ) as [Fq _]. pose proof (SFdiv_rounded s l Fs Fl ltac:(lra) DQ) as [_ RN]. rewrite Vs in *.
  destruct (clamp_val (b64_div s l) Fq) as [Ft Vt].
  assert (Vq : rval (b64_div s l) = 0). { destruct (zero_of s Fs Vs) as [sg Eq]. rewrite Eq. destruct l as [ | | | sl m e]; try contradiction; [cbn in Pl; lra |]. destruct sg, sl; reflexivity. }
  rewrite Vq in Vt. replace (Rmax 0 (Rmin 1 0)) with 0 in Vt by (rewrite Rmin_right by lra; rewrite Rmax_left by lra; reflexivity). set (t := std_max64 _ _) in *.
  assert (Z : forall u v, finite64 u -> finite64 v -> finite64 (sf_add u (b64_mul t v)) /\ rval (sf_add u (b64_mul t v)) = rval u).
  { intros u v Fu Fv. destruct (mul_zero v t Fv Ft Vt) as [Fm Vm]. rewrite mul_comm64 in Fm, Vm. apply Geo64Proofs5.add_zero_val; assumption. }
  destruct Fa as (Ax & Ay & Az). destruct FB as (Cx & Cy & Cz). destruct (Z _ _ Ax Cx) as [G1 H1]. destruct (Z _ _ Ay Cy) as [G2 H2]. destruct (Z _ _ Az Cz) as [G3 H3].
  assert (Ff : finite3 (fadd3 a (fscale3 t (fsub3 b a)))) by (split; [exact G1 | split; [exact G2 | exact G3]]).
  assert (Vf : val3 (fadd3 a (fscale3 t (fsub3 b a))) = val3 a) by (unfold val3, fadd3, fscale3; cbn [fx fy fz]; rewrite H1, H2, H3; reflexivity).
  set (f := fadd3 a (fscale3 t (fsub3 b a))) in *. assert (Y : forall u v, finite64 u -> finite64 v -> rval u = rval v -> finite64 (sf_sub u v) /\ rval (sf_sub u v) = 0).
  { intros u v Fu Fv Huv. assert (A0 : Rabs (rval u - rval v) = 0) by (rewrite Huv, Rminus_diag_eq, Rabs_R0 by reflexivity; reflexivity). pose proof (P2_pos 1023).
    destruct (sub_any u v Fu Fv ltac:(lra)) as [Fw Ew]. split; [exact Fw |]. rewrite A0, Rmult_0_r in Ew. rewrite Huv, (Rminus_diag_eq (rval v)), Rminus_0_r in Ew by reflexivity. apply abs_le in Ew. lra. }
  destruct (Y _ _ G1 Ax H1) as [I1 J1]. destruct (Y _ _ G2 Ay H2) as [I2 J2]. destruct (Y _ _ G3 Az H3) as [I3 J3].
  assert (Fd : finite3 (fsub3 f a)) by (split; [exact I1 | split; [exact I2 | exact I3]]). assert (Vd : val3 (fsub3 f a) = V3 0 0 0) by (unfold val3, fsub3; cbn [fx fy fz]; f_equal; assumption).
  eexists. split; [reflexivity |]. destruct (zero3_dot r _ _ Fd Fd Vd) as [Fn Vn]. apply sqrt_zero; assumption.
Qed.
(** *** Sets of points *)
Lemma min_element_spec l : forall m, finite64 m -> Forall finite64 l -> finite64 (min_element64 m l) /\ (min_element64 m l = m \/ In (min_element64 m l) l) /\ rval (min_element64 m l) <= rval m /\ forall x, In x l -> rval (min_element64 m l) <= rval x.
Proof.
  induction l as [| x l IH]; intros m Fm Fl; cbn [min_element64]; [split; [exact Fm |]; split; [left; reflexivity |]; split; [lra | intros _ []] |]. inversion Fl as [| ? ? Fx Fr]; subst.
  destruct (SFltb x m) eqn:E.
  - apply (SFltb_val _ _ Fx Fm) in E. destruct (IH x Fx Fr) as (F & I0 & L & A). split; [exact F |]. split; [destruct I0 as [-> | I0]; right; [left; reflexivity | right; exact I0] |]. split; [lra |]. intros y [<- | Iy]; [exact L | apply A, Iy].
  - assert (E' : rval m <= rval x) by (apply Rnot_lt_le; intros K; rewrite (ltb_t _ _ Fx Fm K) in E; discriminate). destruct (IH m Fm Fr) as (F & I0 & L & A). split; [exact F |]. split; [destruct I0 as [I0 | I0]; [left; exact I0 | right; right; exact I0] |].
    split; [exact L |]. intros y [<- | Iy]; [lra | apply A, Iy].
Qed.
Lemma c157_set r a b ps : ps <> [] -> (forall p, In p ps -> exists y, s64_distanceTo r (mkS64 (Some a) (Some b)) (Some p) = Ok y /\ finite64 y) ->
  exists x, s64_distanceTo_ps r (mkS64 (Some a) (Some b)) ps = Ok x /\ finite64 x /\
    (exists p, In p ps /\ s64_distanceTo r (mkS64 (Some a) (Some b)) (Some p) = Ok x) /\
    forall p y, In p ps -> s64_distanceTo r (mkS64 (Some a) (Some b)) (Some p) = Ok y -> rval x <= rval y.
Proof.
  intros N H. destruct ps as [| p l]; [congruence |]. unfold s64_distanceTo_ps. cbn [s64_data s64_first s64_second bind]. set (D := fun q => s64_distanceTo r (mkS64 (Some a) (Some b)) (Some q)) in *.
  set (g := fun q => match D q with Ok y => y | _ => zero64 end). assert (G : forall q, In q (p :: l) -> D q = Ok (g q) /\ finite64 (g q)) by (intros q I0; destruct (H q I0) as (y & E & F); unfold g; fold (D q) in E; rewrite E; split; [reflexivity | exact F]).
  fold (D p). rewrite (proj1 (G p (or_introl eq_refl))). cbn [bind]. change (mapM (fun q => s64_distanceTo r (mkS64 (Some a) (Some b)) (Some q)) l) with (mapM D l).
  rewrite (mapM_ok D g l) by (intros q I0; apply (G q (or_intror I0))). cbn [bind].
  assert (FL : Forall finite64 (map g l)) by (apply Forall_forall; intros x I0; apply in_map_iff in I0; destruct I0 as (q & <- & I0); apply (G q (or_intror I0))).
  destruct (min_element_spec (map g l) (g p) (proj2 (G p (or_introl eq_refl))) FL) as (F & I0 & L & A). eexists. split; [reflexivity |]. split; [exact F |]. split.
  - destruct I0 as [E | I0]; [exists p; split; [left; reflexivity |]; fold (D p); rewrite E; apply (G p (or_introl eq_refl)) |].
    apply in_map_iff in I0. destruct I0 as (q & E & I0). exists q. split; [right; exact I0 |]. fold (D q). rewrite <- E. apply (G q (or_intror I0)).
  - intros q y [<- | Iq] E; fold (D q) in E || fold (D p) in E.
    + rewrite (proj1 (G p (or_introl eq_refl))) in E. injection E as <-. exact L.
    + rewrite (proj1 (G q (or_intror Iq))) in E. injection E as <-. apply A, in_map, Iq.
Qed.
(** The far end of a segment can be at a positive distance of the segment that contains it. *)
Definition far_end : f3 := F3 (S754_finite false 4503599627370496 (-112)) zero64 zero64.
Definition near_end : f3 := F3 (b64_of_Z 1) zero64 zero64.
Lemma c157_second_refuted : exists a b, finite3 a /\ finite3 b /\ forall r, exists x, s64_distanceTo r (mkS64 (Some a) (Some b)) (Some b) = Ok x /\ 0 < rval x /\ s64_contains r (mkS64 (Some a) (Some b)) (Some b) = Ok true.
Proof.
  exists near_end, far_end. split; [split; [vm_compute; reflexivity | split; exact I] |]. split; [split; [vm_compute; reflexivity | split; exact I] |].
  intros r. exists (S754_finite false 4503599627370496 (-112)). split; [destruct r; vm_compute; reflexivity |]. split; [rewrite rval_sg; cbn [sg]; pose proof (pos_pos 4503599627370496 (-112)); lra |]. destruct r; vm_compute; reflexivity.
Qed.
(** *** Errors *)
Lemma c157_errors r p o d a b : l64_distanceTo r (mkL64 None d) p = Err EUndefined /\ l64_distanceTo r (mkL64 o None) p = Err EUndefined /\ l64_distanceTo r (mkL64 o d) None = Err EUndefined /\
  r64_distanceTo r (mkL64 None d) p = Err EUndefined /\ r64_distanceTo r (mkL64 o None) p = Err EUndefined /\ r64_distanceTo r (mkL64 o d) None = Err EUndefined /\
  s64_distanceTo r (mkS64 None b) p = Err EUndefined /\ s64_distanceTo r (mkS64 a None) p = Err EUndefined /\ s64_distanceTo r (mkS64 a b) None = Err EUndefined.
Proof. destruct p, o, d, a, b; repeat split. Qed.
Lemma c157_set_errors r s a b ps : s64_distanceTo_ps r s [] = Err EUndefined /\ s64_distanceTo_ps r (mkS64 None b) ps = Err EUndefined /\ s64_distanceTo_ps r (mkS64 a None) ps = Err EUndefined.
Proof. destruct ps, a, b; repeat split. Qed.
