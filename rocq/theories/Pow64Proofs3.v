(** Accuracy of powers of quaternions (C149). *)

From Coq Require Import List Bool ZArith Reals Lra Lia Psatz Floats.SpecFloat.
From Verif Require Import Result Vec Mat3 VecProofs AngleModel FloatModel FloatSpec FloatProofs FloatProofs2 FloatProofs3 FloatProofs4 FloatProofs5 FloatProofs7 FloatProofs8 FloatProofs10
  Geo3Spec Geo3Proofs Geo3Proofs2 Geo64Model Geo64Spec Geo64Proofs Geo64Proofs2 Geo64Proofs3 Geo64Proofs4 Geo64Proofs5 Geo64Proofs6 Geo64Proofs7 Geo64Proofs8 RotModel RotSpec RotProofs RotProofs2 RotProofs3 RotProofs4 RotProofs5 RotProofs7 RotProofs9 Rot64Model Rot64Spec Rot64Spec2 Rot64Proofs Rot64Proofs2 Rot64Proofs3 Rot64Proofs4 Rot64Proofs5 Rot64Proofs6 Rot64Proofs7 Rot64Proofs8 Rot64Proofs9 Rot64Proofs10 Rot64Proofs11 Rot64Proofs12 Rot64Proofs13 Rot64Proofs14 Rot64Proofs15 Rot64Proofs16 Rot64Proofs17 Att64Model Att64Spec Att64Proofs Att64Proofs2 Att64Proofs3 Att64Proofs4 Att64Proofs5 Att64Proofs7 Att64Proofs8 Att64Proofs9 Att64Proofs10 Pow64Model Pow64Spec Pow64Proofs Pow64Proofs2.
Import ListNotations.
Local Open Scope R_scope.

(** *** The exponential map does not increase distances *)
Lemma one_minus_cos x : 2 - 2 * cos x <= x * x.
Proof.
  pose proof (cos_2a_sin (x / 2)) as C. replace (2 * (x / 2)) with x in C by field. pose proof (sin_le (x / 2)) as S. pose proof (Rabs_pos (sin (x / 2))) as S0.
  assert (Q : sin (x / 2) * sin (x / 2) <= x / 2 * (x / 2)). { rewrite <- (Rabs_pos_eq (sin (x / 2) * sin (x / 2))), <- (Rabs_pos_eq (x / 2 * (x / 2))), !Rabs_mult by apply VecProofs.sq_nonneg. apply Rmult_le_compat; assumption. } rewrite C. lra.
Qed.
Lemma polar_close a d s t : norm3 a = 1 -> norm3 d = 1 -> gap4 (polar 1 a s) (polar 1 d t) <= dist3 (scale3 s a) (scale3 t d).
Proof.
  intros A D. assert (AA : dot3 a a = 1) by (change (dot3 a a) with (sqnorm3 a); rewrite <- norm3_sq, A; ring). assert (DD : dot3 d d = 1) by (change (dot3 d d) with (sqnorm3 d); rewrite <- norm3_sq, D; ring).
  unfold gap4, len4, dist3, norm3. apply sqrt_le_1_alt. pose proof (dot3_le_norms a d) as C1. pose proof (dot3_le_norms (opp3 a) d) as C2. rewrite norm3_opp, A, D in *. set (c := dot3 a d) in *. replace (dot3 (opp3 a) d) with (- c) in C2 by (unfold c, dot3, opp3; cbn [vx vy vz]; ring).
  pose proof (one_minus_cos (s - t)) as U. pose proof (one_minus_cos (s + t)) as V. rewrite cos_minus in U. rewrite cos_plus in V. pose proof (sc1 s) as Ss. pose proof (sc1 t) as St.
  set (ls := 2 - 2 * (cos s * cos t + c * (sin s * sin t))). set (rs := s * s + t * t - 2 * (s * t) * c).
  apply Rle_trans with ls; [right | apply Rle_trans with rs; [| right]].
  - transitivity ((sin s * sin s) * dot3 a a + (sin t * sin t) * dot3 d d - 2 * (sin s * sin t) * c + (cos s - cos t) * (cos s - cos t)).
    + unfold sq, polar, c, dot3. cbn [qx qy qz qs]. ring.
    + rewrite AA, DD. unfold ls. transitivity ((cos s * cos s + sin s * sin s) + (cos t * cos t + sin t * sin t) - 2 * (cos s * cos t + c * (sin s * sin t))); [ring | rewrite Ss, St; ring].
  - assert (X : 0 <= (1 + c) / 2 * ((s - t) * (s - t) - (2 - 2 * (cos s * cos t + sin s * sin t)))) by (apply Rmult_le_pos; lra). assert (Y : 0 <= (1 - c) / 2 * ((s + t) * (s + t) - (2 - 2 * (cos s * cos t - sin s * sin t)))) by (apply Rmult_le_pos; lra). unfold ls, rs. lra.
  - transitivity ((s * s) * dot3 a a + (t * t) * dot3 d d - 2 * (s * t) * c); [rewrite AA, DD; unfold rs; ring | unfold sqnorm3, c, dot3, sub3, scale3; cbn [vx vy vz]; ring].
Qed.
Lemma own_scale v : 0 < norm3 v -> scale3 (norm3 v) (direction v) = v.
Proof. intros H. unfold direction, scale3. set (n := norm3 v) in *. destruct v as [a b c]; cbn [vx vy vz]. f_equal; field; lra. Qed.
Lemma polar_zero d : polar 1 d 0 = one4.
Proof. unfold polar, one4. rewrite sin_0, cos_0. f_equal; ring. Qed.
Lemma unit_val : val4 q64_Unit = one4.
Proof. unfold val4, q64_Unit, one4. cbn [q64x q64y q64z q64s]. change (rval zero64) with 0. rewrite (proj2 one_val). reflexivity. Qed.
Lemma exp_close x y : Rabs (x - y) <= / 20 -> Rabs (exp x - exp y) <= 1.06 * exp y * Rabs (x - y).
Proof.
  intros H. set (d := x - y) in *. pose proof (exp_pos y) as P. replace (exp x) with (exp y * exp d) by (rewrite <- exp_plus; f_equal; unfold d; ring). replace (exp y * exp d - exp y) with (exp y * (exp d - 1)) by ring. rewrite Rabs_mult, (Rabs_pos_eq (exp y)) by lra.
  replace (1.06 * exp y * Rabs d) with (exp y * (1.06 * Rabs d)) by ring. apply Rmult_le_compat_l; [lra |]. pose proof (exp_ineq1_le d) as A. pose proof (exp_ineq1_le (- d)) as B. pose proof (exp_pos d) as PD. assert (I : exp d * exp (- d) = 1) by (rewrite <- exp_plus, Rplus_opp_r; apply exp_0).
  pose proof (abs_le _ _ H) as HB. unfold Rabs at 2. destruct (Rcase_abs d) as [S | S]; apply abs_of.
  - assert (exp d * (1 - d) <= 1) by (rewrite <- I; apply Rmult_le_compat_l; lra). split; [lra |]. assert (exp d < 1) by (rewrite <- exp_0; apply exp_increasing; lra). lra.
  - split; [lra |]. assert (Q : exp d * (1 - d) <= 1) by (rewrite <- I; apply Rmult_le_compat_l; lra). assert (M : (exp d - 1 - 1.06 * d) * (1 - d) <= 0) by nra. destruct (Rle_or_lt (exp d - 1) (1.06 * d)) as [G | G]; [exact G |]. assert (0 < (exp d - 1 - 1.06 * d) * (1 - d)) by (apply Rmult_lt_0_compat; lra). lra.
Qed.

(** *** Powers *)
(** The logarithm of a quaternion whose polar form is known. *)
Lemma log_polar L r eps q e h d th : libm_within L e -> e <= / 1000 -> finite4 q -> / 2 <= h <= 2 -> norm3 d = 1 -> 0 <= th <= PI -> val4 q = polar h d th -> finite64 eps -> P2 (-400) <= rval eps <= / 32 ->
  0 <= cos th \/ 2 * rval eps <= h * sin th ->
  exists v s, q64_log L r eps (Some q) = Ok (parts64 v s) /\ finite3 v /\ returns s (ln h) (e + 3.2 * e53) /\ exists eta, dist3 (val3 v) (scale3 th d) <= eta /\ eta <= e + 16.3 * e53 + 2.1 * rval eps /\ (Rabs (h - 1) <= / 100 -> eta <= e + 16.3 * e53 + 1.03 * rval eps) /\ (2 * rval eps <= h * sin th -> eta <= e + 16.3 * e53).
Proof.
  intros HL He Fq H D TH Q Fe Heps HC. pose proof (libm_pos L e HL) as E0. pose proof e53_pos as PE. assert (E9 : e53 <= / 1000000000) by (unfold e53; lra). pose proof pi_digits as PD.
  assert (LQ : len4 (val4 q) = h) by (rewrite Q; apply polar_len; [exact D | lra]). destruct (log_near L r eps q e HL He Fq ltac:(lra) Fe ltac:(lra)) as (v & s & HQ & Fv & Rs & ALT). rewrite LQ in Rs. exists v, s. split; [exact HQ |]. split; [exact Fv |]. split; [exact Rs |].
  pose proof (sin_ge_0 th ltac:(lra) ltac:(lra)) as S0. assert (VN : norm3 (vec (val4 q)) = h * sin th) by (rewrite Q, polar_vec, norm3_scale, D, Rabs_pos_eq by (apply Rmult_le_pos; lra); ring). rewrite VN in ALT. pose proof (P2_pos (-400)) as P4.
  destruct ALT as [[Z B] | (NL & EL & DV)].
  - exists th. assert (EE : e53 * rval eps <= / 1000000000 * rval eps) by (apply Rmult_le_compat_r; lra). assert (HS : h * sin th <= 1.001 * rval eps) by lra. assert (S2 : sin th <= 2.002 * rval eps). { assert (/ 2 * sin th <= h * sin th) by (apply Rmult_le_compat_r; lra). lra. }
    assert (C0 : 0 <= cos th) by (destruct HC as [C | C]; [exact C | lra]). pose proof (sc1 th) as SC.
    assert (T : forall u, u <= 2.002 * rval eps -> sin th <= u -> u <= / 10 -> th <= 1.01 * u). { intros u U1 U2 U3. assert (cos th <> 0) by (intros C; rewrite C in SC; nra). pose proof (small_arc th ltac:(rewrite Rabs_pos_eq by lra; destruct (Req_dec th PI) as [-> | ]; [rewrite cos_PI in C0; lra | lra]) ltac:(lra) ltac:(rewrite Rabs_pos_eq by lra; lra)) as A. rewrite !Rabs_pos_eq in A by lra. lra. }
    assert (DZ : dist3 (val3 v) (scale3 th d) = th) by (rewrite Z; unfold dist3; replace (sub3 zero3 (scale3 th d)) with (scale3 (- th) d) by (unfold sub3, scale3, zero3; cbn [vx vy vz]; f_equal; ring); rewrite norm3_scale, Rabs_Ropp, D, Rabs_pos_eq by lra; ring).
    assert (TS : th <= 1.01 * sin th) by (apply T; lra).
    split; [lra |]. split; [lra |]. split; [| intros; lra]. intros HD. apply abs_le in HD. assert (0.99 * sin th <= h * sin th) by (apply Rmult_le_compat_r; lra). lra.
  - exists (e + 16.3 * e53). pose proof (P2_pos (-402)) as P42. assert (SP : 0 < sin th) by (destruct S0 as [S0 | S0]; [exact S0 | rewrite <- S0 in NL; lra]).
    assert (TP : 0 < th < PI). { split; [destruct (Req_dec th 0) as [-> | ]; [rewrite sin_0 in SP; lra | lra] | destruct (Req_dec th PI) as [-> | ]; [rewrite sin_PI in SP; lra | lra]]. }
    assert (DD : direction (vec (val4 q)) = d). { unfold direction. rewrite VN, Q, polar_vec. unfold scale3. destruct d as [d1 d2 d3]; cbn [vx vy vz]. f_equal; field; lra. }
    replace (qs (val4 q)) with (h * cos th) in DV by (rewrite Q; reflexivity). rewrite DD, atan2_polar in DV by lra. split; [exact DV |]. split; [lra |]. split; [intros; lra | intros; lra].
Qed.
Lemma parts_val v s : val4 (parts64 v s) = of_parts (val3 v) (rval s).
Proof. reflexivity. Qed.
Lemma gap_scalar p q : Rabs (qs p - qs q) <= gap4 p q.
Proof. destruct (coord4 (Q4 (qx p - qx q) (qy p - qy q) (qz p - qz q) (qs p - qs q))) as (_ & _ & _ & H). exact H. Qed.
Lemma ln_half h : / 2 <= h <= 2 -> Rabs (ln h) <= 0.7.
Proof.
  intros H. assert (L2 : ln 2 <= 0.7). { rewrite <- (ln_exp 0.7). destruct (Req_dec 2 (exp 0.7)) as [-> | N]; [right; reflexivity |]. left. apply ln_increasing; [lra |]. pose proof (exp_ineq1_le 0.35) as _. assert (B : 2 <= exp 0.7); [| lra].
    replace 0.7 with (0.1 + 0.1 + 0.1 + 0.1 + 0.1 + 0.1 + 0.1) by lra. rewrite !exp_plus. assert (X : 1.1046 <= exp 0.1). { replace 0.1 with (0.01 + 0.01 + 0.01 + 0.01 + 0.01 + 0.01 + 0.01 + 0.01 + 0.01 + 0.01) by lra. rewrite !exp_plus. pose proof (exp_ineq1_le 0.01) as Y. set (y := exp 0.01) in *. assert (Y2 : 1.0201 <= y * y) by nra. assert (Y4 : 1.0406 <= (y * y) * (y * y)) by nra. set (f := (y * y) * (y * y) * y). assert (Y5 : 1.051006 <= f) by (unfold f; nra). replace (y * y * y * y * y * y * y * y * y * y) with (f * f) by (unfold f; ring). nra. }
    set (x := exp 0.1) in *. assert (X2 : 1.22 <= x * x) by nra. assert (X4 : 1.488 <= (x * x) * (x * x)) by nra. set (g := (x * x) * (x * x)) in *. set (p := x * x) in *. assert (X6 : 1.815 <= g * p) by nra. replace (p * x * x * x * x * x) with (g * p * x) by (unfold g, p; ring). nra. }
  apply abs_of. split.
  - replace (- 0.7) with (- (0.7)) by lra. assert (- ln 2 <= ln h); [| lra]. rewrite <- ln_Rinv by lra. destruct (Req_dec (/ 2) h) as [-> | N]; [lra |]. left. apply ln_increasing; lra.
  - destruct (Req_dec h 2) as [-> | N]; [exact L2 |]. assert (ln h < ln 2) by (apply ln_increasing; lra). lra.
Qed.
(** The logarithm times the exponent. *)
Lemma pow_mid v s k th d l eta sig : finite3 v -> finite64 s -> finite64 k -> Rabs (rval k) <= 1 -> norm3 d = 1 -> 0 <= th <= PI -> dist3 (val3 v) (scale3 th d) <= eta -> eta <= / 10 -> Rabs l <= 0.7 -> Rabs (rval s - l) <= sig -> sig <= / 100 ->
  exists w, q64_scale (Some (parts64 v s)) k = Ok w /\ finite4 w /\ dist3 (vec (val4 w)) (scale3 (rval k * th) d) <= Rabs (rval k) * eta + 4.1 * e53 /\ Rabs (qs (val4 w) - rval k * l) <= sig + 4.1 * e53.
Proof.
  intros Fv Fs Fk K D TH DV HE HL ES HS. pose proof e53_pos as PE. pose proof tiny_e4 as T4. pose proof tiny_pos as TP. pose proof pi_digits as PD.
  assert (NV : norm3 (val3 v) <= 3.25). { pose proof (dist_norm (val3 v) (scale3 th d)) as N. rewrite norm3_scale, D, (Rabs_pos_eq th) in N by lra. apply abs_le in N. lra. }
  assert (SB : Rabs (rval s) <= 0.71) by (apply abs_le in ES; apply abs_le in HL; apply abs_of; lra).
  assert (LV : len4 (val4 (parts64 v s)) <= 4). { apply len4_le; [lra |]. rewrite parts_val. replace (sq (of_parts (val3 v) (rval s))) with (sqnorm3 (val3 v) + rval s * rval s) by (unfold sq, of_parts, sqnorm3, dot3; cbn [qx qy qz qs]; ring). rewrite <- norm3_sq. pose proof (norm3_nonneg (val3 v)). assert (norm3 (val3 v) * norm3 (val3 v) <= 3.25 * 3.25) by (apply Rmult_le_compat; lra). assert (rval s * rval s <= 0.71 * 0.71) by (rewrite <- (Rabs_pos_eq (rval s * rval s)), Rabs_mult by apply VecProofs.sq_nonneg; apply Rmult_le_compat; try apply Rabs_pos; exact SB). lra. }
  destruct (scale4_err (parts64 v s) k ltac:(destruct Fv as (? & ? & ?); repeat split; assumption) Fk ltac:(lra) ltac:(lra)) as (w & HW & Fw & G). exists w. split; [exact HW |]. split; [exact Fw |].
  assert (GB : gap4 (val4 w) (times4 (rval k) (val4 (parts64 v s))) <= 4.05 * e53). { assert (Rabs (rval k) * len4 (val4 (parts64 v s)) <= 1 * 4) by (apply Rmult_le_compat; try apply Rabs_pos; try apply len4_pos; lra). assert (e53 * (Rabs (rval k) * len4 (val4 (parts64 v s))) <= e53 * (1 * 4)) by (apply Rmult_le_compat_l; lra). lra. }
  split.
  - eapply Rle_trans; [apply (dist3_triangle _ (scale3 (rval k) (val3 v))) |]. pose proof (gap_vec (val4 w) (times4 (rval k) (val4 (parts64 v s)))) as GV. change (vec (times4 (rval k) (val4 (parts64 v s)))) with (scale3 (rval k) (val3 v)) in GV.
    assert (Q : dist3 (scale3 (rval k) (val3 v)) (scale3 (rval k * th) d) = Rabs (rval k) * dist3 (val3 v) (scale3 th d)). { unfold dist3. rewrite <- norm3_scale. f_equal. unfold sub3, scale3. cbn [vx vy vz]. f_equal; ring. } rewrite Q. assert (Rabs (rval k) * dist3 (val3 v) (scale3 th d) <= Rabs (rval k) * eta) by (apply Rmult_le_compat_l; [apply Rabs_pos | exact DV]). lra.
  - pose proof (gap_scalar (val4 w) (times4 (rval k) (val4 (parts64 v s)))) as GS. change (qs (times4 (rval k) (val4 (parts64 v s)))) with (rval k * rval s) in GS. replace (qs (val4 w) - rval k * l) with ((qs (val4 w) - rval k * rval s) + rval k * (rval s - l)) by ring. eapply Rle_trans; [apply Rabs_triang |]. rewrite Rabs_mult. assert (Rabs (rval k) * Rabs (rval s - l) <= 1 * sig) by (apply Rmult_le_compat; try apply Rabs_pos; assumption). lra.
Qed.
Lemma pow_near L r eps q k e h d th : libm_within L e -> e <= / 1000 -> finite4 q -> / 2 <= h <= 2 -> norm3 d = 1 -> 0 <= th <= PI -> val4 q = polar h d th -> finite64 k -> Rabs (rval k) <= 1 -> finite64 eps -> P2 (-400) <= rval eps <= / 32 ->
  0 <= cos th \/ 2 * rval eps <= h * sin th ->
  exists u eta, q64_pow L r eps (Some q) k = Ok u /\ finite4 u /\ eta <= e + 16.3 * e53 + 2.1 * rval eps /\ (Rabs (h - 1) <= / 100 -> eta <= e + 16.3 * e53 + 1.03 * rval eps) /\ (2 * rval eps <= h * sin th -> eta <= e + 16.3 * e53) /\
    (u = q64_Unit /\ Rabs (rval k) * th <= (1 + 2.61 * e53) * rval eps + Rabs (rval k) * eta + 4.1 * e53 \/
     exists z, Rabs (z - rval k * ln h) <= e + 7.3 * e53 /\ gap4 (val4 u) (polar (exp z) d (rval k * th)) <= (exp z + e) * (1.4145 * e + 19.1 * e53) + e + / 100 * e53 + exp z * (eta + 4.1 * e53)).
Proof.
  intros HL He Fq H D TH Q Fk K Fe Heps HC. pose proof (libm_pos L e HL) as E0. pose proof e53_pos as PE. assert (E9 : e53 <= / 1000000000) by (unfold e53; lra). pose proof pi_digits as PD.
  destruct (log_polar L r eps q e h d th HL He Fq H D TH Q Fe Heps HC) as (v & s & HQ & Fv & [Fs Es] & eta & DV & B1 & B2 & B3). pose proof (dist3_pos (val3 v) (scale3 th d)) as ET.
  destruct (pow_mid v s k th d (ln h) eta (e + 3.2 * e53) Fv Fs Fk K D TH DV ltac:(lra) (ln_half h H) Es ltac:(lra)) as (w & HW & Fw & DW & SW).
  assert (KT : Rabs (rval k) * th <= 1 * PI) by (apply Rmult_le_compat; try apply Rabs_pos; lra). assert (KE : Rabs (rval k) * eta <= 1 * eta) by (apply Rmult_le_compat_r; lra).
  assert (NW : Rabs (norm3 (vec (val4 w)) - Rabs (rval k) * th) <= Rabs (rval k) * eta + 4.1 * e53). { pose proof (dist_norm (vec (val4 w)) (scale3 (rval k * th) d)) as N. rewrite norm3_scale, D, Rmult_1_r, Rabs_mult, (Rabs_pos_eq th) in N by lra. lra. }
  pose proof (abs_le _ _ NW) as NW'. assert (SB : Rabs (qs (val4 w)) <= 1). { assert (Rabs (rval k * ln h) <= 1 * 0.7) by (rewrite Rabs_mult; apply Rmult_le_compat; try apply Rabs_pos; [exact K | apply ln_half, H]). apply abs_le in SW. apply abs_le in H0. apply abs_of. lra. }
  destruct (exp_near L r eps w e HL He Fw SB ltac:(lra) Fe ltac:(lra)) as (u & HU & Fu & ALT). exists u, eta. split; [unfold q64_pow; rewrite HQ; cbn [bind]; rewrite HW; exact HU |]. split; [exact Fu |]. split; [exact B1 |]. split; [exact B2 |]. split; [exact B3 |].
  destruct ALT as [[-> B] | (NL & EL & G)].
  - left. split; [reflexivity | lra].
  - right. change (rval (q64s w)) with (qs (val4 w)) in G. exists (qs (val4 w)). split; [lra |]. set (z := qs (val4 w)) in *. eapply Rle_trans; [apply (gap4_triangle _ (polar (exp z) (direction (vec (val4 w))) (norm3 (vec (val4 w))))) |]. apply Rplus_le_compat; [exact G |].
    rewrite (polar_times (exp z)), (polar_times (exp z) d). pose proof (exp_pos z) as EP. rewrite gap4_times by lra. apply Rmult_le_compat_l; [lra |]. pose proof (P2_pos (-402)). eapply Rle_trans; [apply polar_close; [apply unit_dir; lra | exact D] |]. rewrite own_scale by lra. lra.
Qed.
Lemma exp_small z : Rabs z <= / 20 -> Rabs (exp z - 1) <= 1.06 * Rabs z.
Proof. intros H. pose proof (exp_close z 0) as E. rewrite exp_0, Rminus_0_r in E. specialize (E H). lra. Qed.
(** Unit quaternions. *)
Lemma pow_unit L r eps q k e h d th del : libm_within L e -> e <= / 1000 -> finite4 q -> Rabs (h - 1) <= del -> del <= / 100 -> norm3 d = 1 -> 0 <= th <= PI -> val4 q = polar h d th -> finite64 k -> Rabs (rval k) <= 1 -> finite64 eps -> P2 (-400) <= rval eps <= / 32 ->
  0 <= cos th \/ 2 * rval eps <= h * sin th ->
  exists u, q64_pow L r eps (Some q) k = Ok u /\ finite4 u /\ gap4 (val4 u) (polar 1 d (rval k * th)) <= 4.6 * e + 50 * e53 + 1.1 * del + 2.05 * rval eps.
Proof.
  intros HL He Fq H HD D TH Q Fk K Fe Heps HC. pose proof (libm_pos L e HL) as E0. pose proof e53_pos as PE. assert (E9 : e53 <= / 1000000000) by (unfold e53; lra). pose proof (abs_le _ _ H) as H'. pose proof (Rabs_pos (h - 1)) as H0. pose proof (P2_pos (-400)) as P4.
  destruct (pow_near L r eps q k e h d th HL He Fq ltac:(lra) D TH Q Fk K Fe Heps HC) as (u & eta & HU & Fu & _ & B & _ & ALT). specialize (B ltac:(lra)). exists u. split; [exact HU |]. split; [exact Fu |].
  assert (EE : e53 * rval eps <= / 1000000000 * rval eps) by (apply Rmult_le_compat_r; lra). destruct ALT as [[-> A] | (z & Z & G)].
  - rewrite unit_val, <- (polar_zero d). eapply Rle_trans; [apply polar_close; exact D |]. rewrite (dist_scale _ _ _ D), Rminus_0_l, Rabs_Ropp, Rabs_mult, (Rabs_pos_eq th) by lra.
    assert (Rabs (rval k) * eta <= 1 * (e + 16.3 * e53 + 1.03 * rval eps)). { destruct (Rle_or_lt 0 eta) as [P | P]; [apply Rmult_le_compat; try apply Rabs_pos; lra |]. assert (Rabs (rval k) * eta <= 0) by (pose proof (Rabs_pos (rval k)); nra). lra. } lra.
  - pose proof (ln_near h 1 (Rabs (h - 1)) ltac:(lra) ltac:(lra) ltac:(lra)) as LN. rewrite ln_1, Rminus_0_r in LN. assert (LK : Rabs (rval k * ln h) <= 1.02 * del). { rewrite Rabs_mult. assert (Rabs (rval k) * Rabs (ln h) <= 1 * (1.02 * Rabs (h - 1))) by (apply Rmult_le_compat; try apply Rabs_pos; assumption). lra. }
    assert (ZB : Rabs z <= e + 7.3 * e53 + 1.02 * del) by (replace z with ((z - rval k * ln h) + rval k * ln h) by ring; eapply Rle_trans; [apply Rabs_triang |]; lra). pose proof (exp_small z ltac:(lra)) as EZ.
    eapply Rle_trans; [apply (gap4_triangle _ (polar (exp z) d (rval k * th))) |]. assert (Q2 : gap4 (polar (exp z) d (rval k * th)) (polar 1 d (rval k * th)) = Rabs (exp z - 1)). { rewrite (polar_times (exp z)). transitivity (Rabs (exp z - 1) * len4 (polar 1 d (rval k * th))); [| rewrite polar_len by (try exact D; lra); ring]. unfold gap4. rewrite <- len4_times. f_equal. unfold times4. cbn [qx qy qz qs]. f_equal; ring. }
    rewrite Q2. assert (XB : exp z <= 1.013) by (apply abs_le in EZ; lra). pose proof (exp_pos z) as EP.
    assert (G1 : (exp z + e) * (1.4145 * e + 19.1 * e53) <= 1.015 * (1.4145 * e + 19.1 * e53)) by (apply Rmult_le_compat_r; lra). assert (G2 : exp z * (eta + 4.1 * e53) <= 1.013 * (e + 20.4 * e53 + 1.03 * rval eps)). { destruct (Rle_or_lt 0 (eta + 4.1 * e53)) as [P | P]; [apply Rmult_le_compat; lra |]. assert (exp z * (eta + 4.1 * e53) <= 0) by nra. lra. } lra.
Qed.
