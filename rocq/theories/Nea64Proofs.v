(** Nearness of Euler angles, and rotation vectors of Euler angles, in double precision (C156). *)

From Coq Require Import List Bool ZArith Reals Lra Lia Psatz Floats.SpecFloat.
From Verif Require Import Result Vec Mat3 VecProofs AngleModel FloatModel FloatSpec FloatProofs FloatProofs2 FloatProofs3 FloatProofs4 FloatProofs5 FloatProofs7 FloatProofs8 FloatProofs10
  Geo3Spec Geo3Proofs Geo3Proofs2 Geo64Model Geo64Spec Geo64Proofs Geo64Proofs2 Geo64Proofs3 Geo64Proofs4 Geo64Proofs5 Geo64Proofs6 Geo64Proofs7 Geo64Proofs8 RotModel RotSpec RotProofs RotProofs2 RotProofs3 RotProofs4 RotProofs5 RotProofs7 RotProofs9 Rot64Model Rot64Spec Rot64Spec2 Rot64Proofs Rot64Proofs2 Rot64Proofs3 Rot64Proofs4 Rot64Proofs5 Rot64Proofs6 Rot64Proofs7 Rot64Proofs8 Rot64Proofs9 Rot64Proofs10 Rot64Proofs11 Rot64Proofs12 Rot64Proofs13 Rot64Proofs14 Rot64Proofs15 Rot64Proofs16 Rot64Proofs17 Att64Model Att64Spec Att64Proofs Att64Proofs2 Att64Proofs3 Att64Proofs4 Att64Proofs5 Att64Proofs7 Att64Proofs8 Att64Proofs9 Att64Proofs10 Pow64Model Pow64Spec Pow64Proofs Pow64Proofs2 Pow64Proofs3 Pow64Proofs4 Dif64Model Dif64Spec Dif64Proofs RotProofs6 Dif64Proofs2 Dif64Proofs3 Dif64Proofs4 Att64Proofs6 Dif64Proofs5 Eul64Model Eul64Spec Eul64Proofs Eul64Proofs2 Eul64Proofs3 Eul64Proofs4 Rvm64Model Rvm64Spec Rvm64Proofs Rvm64Proofs2 Nea64Model.
Import ListNotations.
Local Open Scope R_scope.

(** *** Angles between rotations *)
Lemma chord_sq u w : len4 u = 1 -> len4 w = 1 -> gap4 u w * gap4 u w = 2 - 2 * dot4 u w.
Proof.
  intros U W. unfold gap4. rewrite len4_sq. assert (A : sq u = 1) by (rewrite <- len4_sq, U; ring). assert (B : sq w = 1) by (rewrite <- len4_sq, W; ring). unfold sq, dot4 in *. cbn [qx qy qz qs] in *. lra.
Qed.
Lemma half_chord t : 0 <= t <= PI / 2 -> 2 - 2 * cos t = (2 * sin (t / 2)) * (2 * sin (t / 2)) /\ 0 <= sin (t / 2).
Proof.
  intros T. pose proof PI_RGT_0. split; [| apply sin_ge_0; lra]. replace t with (2 * (t / 2)) at 1 by field. rewrite cos_2a_sin. ring.
Qed.
Lemma sine_slope : forall x y, 0 <= x <= PI / 4 -> 0 <= y <= PI / 4 -> Rabs (x - y) <= 1.43 * Rabs (sin x - sin y).
Proof.
  assert (G : forall x y, 0 <= x -> y <= PI / 4 -> x < y -> y - x <= 1.43 * (sin y - sin x)).
  { intros x y X Y L. destruct (MVT_cor2 sin cos x y L) as (c & E & C); [intros; apply derivable_pt_lim_sin |]. rewrite E. pose proof PI_RGT_0. assert (K : cos (PI / 4) <= cos c) by (apply cos_decr_1; lra). rewrite cos_PI4 in K.
    assert (S : 0.7 <= 1 / sqrt 2). { assert (sqrt 2 <= 1.42) by (apply Rsqr_incr_0_var; [rewrite Rsqr_sqrt by lra; unfold Rsqr; lra | lra]). assert (0 < sqrt 2) by (apply sqrt_lt_R0; lra). unfold Rdiv. rewrite Rmult_1_l. apply Rle_trans with (/ 1.42); [lra | apply Rinv_le_contravar; lra]. }
    assert (0.7 * (y - x) <= cos c * (y - x)) by (apply Rmult_le_compat_r; lra). lra. }
  intros x y X Y. destruct (Rtotal_order x y) as [L | [-> | L]].
  - pose proof (G x y ltac:(lra) ltac:(lra) L). rewrite (Rabs_left (x - y)) by lra. rewrite Rabs_left by lra. lra.
  - rewrite !Rminus_diag_eq by reflexivity. rewrite Rabs_R0. lra.
  - pose proof (G y x ltac:(lra) ltac:(lra) L). rewrite (Rabs_pos_eq (x - y)) by lra. rewrite Rabs_pos_eq by lra. lra.
Qed.
Lemma sq_le x y : 0 <= y -> x * x <= y * y -> x <= y.
Proof. intros Y H. destruct (Rle_or_lt x y) as [L | L]; [exact L |]. exfalso. assert (y * y < x * x) by (apply Rmult_le_0_lt_compat; lra). lra. Qed.
Lemma arc_le u w U W s t dl : len4 u = 1 -> len4 w = 1 -> len4 U = 1 -> len4 W = 1 -> gap4 u U <= dl -> gap4 w W <= dl -> 0 <= s <= PI / 2 -> 0 <= t <= PI / 2 -> cos s = Rabs (dot4 u w) -> cos t = Rabs (dot4 U W) -> sin (s / 2) <= sin (t / 2) + dl.
Proof.
  intros Lu Lw LU LW G1 G2 Hs Ht Cs Ct. destruct (half_chord s Hs) as [S S0]. destruct (half_chord t Ht) as [T T0].
  assert (SG : exists sg, (sg = 1 \/ sg = -1) /\ sg * dot4 U W = Rabs (dot4 U W)). { destruct (Rle_or_lt 0 (dot4 U W)) as [C | C]; [exists 1; split; [left; reflexivity | rewrite Rabs_pos_eq by exact C; ring] | exists (-1); split; [right; reflexivity | rewrite Rabs_left by exact C; ring]]. } destruct SG as (sg & HS & DS).
  assert (AS : Rabs sg = 1) by (destruct HS as [-> | ->]; [apply Rabs_R1 | rewrite Rabs_left; lra]). assert (DT : forall a b, dot4 a (times4 sg b) = sg * dot4 a b) by (intros a b; unfold dot4, times4; cbn [qx qy qz qs]; ring).
  assert (LT : forall a, len4 a = 1 -> len4 (times4 sg a) = 1) by (intros a A; rewrite len4_times, AS, A; ring).
  assert (K1 : gap4 U (times4 sg W) = 2 * sin (t / 2)). { pose proof (chord_sq U (times4 sg W) LU (LT W LW)) as Q. rewrite DT, DS, <- Ct, T in Q. assert (0 <= gap4 U (times4 sg W)) by apply sqrt_pos. apply Rle_antisym; apply sq_le; lra. }
  assert (K2 : 2 * sin (s / 2) <= gap4 u (times4 sg w)). { apply sq_le; [apply sqrt_pos |]. rewrite <- S, (chord_sq u (times4 sg w) Lu (LT w Lw)), DT, Cs. assert (sg * dot4 u w <= Rabs (dot4 u w)) by (rewrite <- (Rmult_1_l (Rabs (dot4 u w))), <- AS, <- Rabs_mult; apply Rle_abs). lra. }
  pose proof (gap4_triangle u U (times4 sg w)) as T1. pose proof (gap4_triangle U (times4 sg W) (times4 sg w)) as T2. rewrite gap_times_any, AS, (gap4_sym W w) in T2. lra.
Qed.
Lemma arc_stable u w U W s t dl : len4 u = 1 -> len4 w = 1 -> len4 U = 1 -> len4 W = 1 -> gap4 u U <= dl -> gap4 w W <= dl -> 0 <= s <= PI / 2 -> 0 <= t <= PI / 2 -> cos s = Rabs (dot4 u w) -> cos t = Rabs (dot4 U W) -> Rabs (2 * s - 2 * t) <= 5.72 * dl.
Proof.
  intros Lu Lw LU LW G1 G2 Hs Ht Cs Ct. pose proof (arc_le u w U W s t dl Lu Lw LU LW G1 G2 Hs Ht Cs Ct) as A. pose proof (arc_le U W u w t s dl LU LW Lu Lw ltac:(rewrite gap4_sym; exact G1) ltac:(rewrite gap4_sym; exact G2) Ht Hs Ct Cs) as B.
  pose proof (sine_slope (s / 2) (t / 2) ltac:(lra) ltac:(lra)) as K. assert (L : Rabs (sin (s / 2) - sin (t / 2)) <= dl) by (apply abs_of; lra). replace (2 * s - 2 * t) with (4 * (s / 2 - t / 2)) by field. rewrite Rabs_mult, (Rabs_pos_eq 4) by lra. lra.
Qed.
Lemma polar_cos sg d th P Q : len4 P = 1 -> (sg = 1 \/ sg = -1) -> 0 <= th <= PI / 2 -> times4 sg Q = hamilton (polar 1 d th) P -> cos th = Rabs (dot4 P Q).
Proof.
  intros LP HS T E. assert (SP : sq P = 1) by (rewrite <- len4_sq, LP; ring). assert (K : dot4 P (times4 sg Q) = cos th * sq P) by (rewrite E; unfold dot4, hamilton, polar, sq; cbn [qx qy qz qs]; ring). rewrite SP, Rmult_1_r in K.
  assert (C0 : 0 <= cos th) by (apply cos_ge_0; lra). assert (DT : dot4 P (times4 sg Q) = sg * dot4 P Q) by (unfold dot4, times4; cbn [qx qy qz qs]; ring). rewrite DT in K. rewrite <- (Rabs_pos_eq (cos th)), <- K by exact C0. rewrite Rabs_mult. destruct HS as [-> | ->]; [rewrite Rabs_R1 | rewrite (Rabs_left (-1)) by lra]; ring.
Qed.
Lemma versor_gap q P dl : Rabs (len4 q - 1) <= / 2 -> gap4 q P <= dl -> gap4 (versor q) P <= dl + Rabs (len4 q - 1).
Proof.
  intros L G. apply abs_le in L as L'. pose proof (gap4_triangle (versor q) q P) as T. assert (E : gap4 (versor q) q = Rabs (len4 q - 1)); [| lra].
  unfold versor. rewrite <- (times_one q) at 3. rewrite gap_same. rewrite <- (Rabs_pos_eq (len4 q)) at 2 by lra. rewrite <- Rabs_mult. replace ((/ len4 q - 1) * len4 q) with (- (len4 q - 1)) by (field; lra). apply Rabs_Ropp.
Qed.
Lemma polar_frame d th v : norm3 d = 1 -> rot (polar 1 d th) v = frame_rotation d (2 * th) v.
Proof. intros N. replace th with (2 * th / 2) at 1 by field. rewrite half_polar. apply half_q_rot. rewrite <- norm3_sq, N. ring. Qed.
Lemma sign_rot sg q v : sg = 1 \/ sg = -1 -> rot (times4 sg q) v = rot q v.
Proof. intros [-> | ->]; [rewrite times_one; reflexivity |]. replace (times4 (-1) q) with (negq q) by (destruct q as [q1 q2 q3 q4]; unfold negq, times4; cbn [qx qy qz qs]; f_equal; ring). apply rot_neg. Qed.
Lemma between_rot P Q : len4 P = 1 -> len4 Q = 1 -> exists d th, norm3 d = 1 /\ 0 <= th <= PI / 2 /\ cos th = Rabs (dot4 P Q) /\ forall v, rot Q v = rot P (frame_rotation d (2 * th) v).
Proof.
  intros LP LQ. assert (V : forall q, len4 q = 1 -> versor q = q) by (intros q L; unfold versor; rewrite L, Rinv_1; apply times_one). destruct (between P Q ltac:(lra) ltac:(lra)) as (sg & d & th & HS & N & T & E & C). rewrite (V P LP), (V Q LQ) in E. rewrite (V P LP), (V Q LQ) in C.
  exists d, th. split; [exact N |]. split; [exact T |]. split; [exact C |]. intros v. rewrite <- (sign_rot sg Q v HS), E, <- qmul_hamilton, rot_mul, polar_frame by exact N. reflexivity.
Qed.

(** *** Nearness of Euler angles *)
Lemma c156_near fcos fsin facos fuel r eps x y z s a b c x' y' z' s' a' b' c' e h v : s <> SeqUndefined -> s' <> SeqUndefined ->
  trig_at fcos fsin (b64_div x two_64) (a / 2) e -> trig_at fcos fsin (b64_div y two_64) (b / 2) e -> trig_at fcos fsin (b64_div z two_64) (c / 2) e ->
  trig_at fcos fsin (b64_div x' two_64) (a' / 2) e -> trig_at fcos fsin (b64_div y' two_64) (b' / 2) e -> trig_at fcos fsin (b64_div z' two_64) (c' / 2) e -> e <= / 10000 ->
  acos_within facos h -> h <= / 1000 -> finite64 eps -> P2 (-50) <= rval eps <= / 32 -> finite64 v -> 0 <= rval v <= 6.28 ->
  exists d th n, norm3 d = 1 /\ 0 <= th <= PI / 2 /\ (forall w, named_sequence s' a' b' c' w = named_sequence s a b c (frame_rotation d (2 * th) w)) /\
    e64_isNear fcos fsin facos fuel r eps (mkE64 (Some x) (Some y) (Some z) s) (mkE64 (Some x') (Some y') (Some z') s') (mkA64 (Some v) Radian) = Ok n /\
    (2 * th + 2 * h + 140 * e + P2 (-19) <= rval v -> n = true) /\ (n = true -> 2 * th <= rval v + 2 * h + 140 * e + P2 (-19)).
Proof.
  intros S S' X Y Z X' Y' Z' E1 HC H1 Fe He Fv Bv. pose proof e53_pos as PE. assert (E9 : e53 <= / 1000000000) by (unfold e53; lra). assert (E0 : 0 <= e) by (destruct X as [[_ K] _]; pose proof (Rabs_pos (rval (fcos (b64_div x two_64)) - cos (a / 2))); lra).
  destruct (of_euler_near fcos fsin eps x y z s a b c e S X Y Z E1 Fe ltac:(lra)) as (p & P & Ep & Fp & LP & RP & GP & Lp & Up). destruct (of_euler_near fcos fsin eps x' y' z' s' a' b' c' e S' X' Y' Z' E1 Fe ltac:(lra)) as (q & Q & Eq & Fq & LQ & RQ & GQ & Lq & Uq).
  destruct (c152_near facos fuel r eps p q h v HC H1 Fp Fq ltac:(lra) ltac:(lra) Fe (proj2 He) (Up eps Fe (proj1 He)) (Uq eps Fe (proj1 He)) Fv Bv) as (sg & d0 & t0 & n & HS & N0 & T0 & Z0 & EN & I1 & I2).
  destruct (between_rot P Q LP LQ) as (d & th & N & T & C & R). exists d, th, n. split; [exact N |]. split; [exact T |]. split; [intros w; rewrite <- RP, <- RQ; apply R |]. split; [unfold e64_isNear; rewrite Ep, Eq; cbn [bind]; exact EN |].
  pose proof (proj1 (abs_le _ _ Lp)) as Lp1. pose proof (proj1 (abs_le _ _ Lq)) as Lq1. assert (VP : len4 (versor (val4 p)) = 1) by (apply versor_len; lra). assert (VQ : len4 (versor (val4 q)) = 1) by (apply versor_len; lra).
  pose proof (polar_cos sg d0 t0 _ _ VP HS T0 Z0) as C0. pose proof (versor_gap (val4 p) P _ ltac:(lra) GP) as G1. pose proof (versor_gap (val4 q) Q _ ltac:(lra) GQ) as G2.
  pose proof (arc_stable _ _ P Q t0 th (24.04 * e + 33.4 * e53) VP VQ LP LQ ltac:(lra) ltac:(lra) T0 T C0 C) as A. apply abs_le in A.
  assert (P19 : P2 (-19) = 2 * P2 (-20)) by (change (-19)%Z with (1 + -20)%Z; rewrite P2_add, <- (P2_Z 1) by lia; reflexivity). assert (P20 : 200 * e53 <= P2 (-20)) by (rewrite P2_m by lia; change (2 ^ (- -20))%Z with 1048576%Z; lra).
  split; [intros K; apply I1; lra | intros K; specialize (I2 K); lra].
Qed.
Lemma c156_same fcos fsin facos fuel r eps x y z s a b c e v : s <> SeqUndefined ->
  trig_at fcos fsin (b64_div x two_64) (a / 2) e -> trig_at fcos fsin (b64_div y two_64) (b / 2) e -> trig_at fcos fsin (b64_div z two_64) (c / 2) e -> e <= / 10000 ->
  finite64 (facos one_64) -> rval (facos one_64) = 0 -> finite64 eps -> P2 (-50) <= rval eps <= / 32 -> finite64 v -> 0 <= rval v <= 6.28 ->
  e64_isNear fcos fsin facos fuel r eps (mkE64 (Some x) (Some y) (Some z) s) (mkE64 (Some x) (Some y) (Some z) s) (mkA64 (Some v) Radian) = Ok true.
Proof.
  intros S X Y Z E1 FC VC Fe He Fv Bv. pose proof e53_pos as PE. assert (E9 : e53 <= / 1000000000) by (unfold e53; lra). destruct (of_euler_near fcos fsin eps x y z s a b c e S X Y Z E1 Fe ltac:(lra)) as (p & P & Ep & Fp & LP & RP & GP & Lp & Up).
  unfold e64_isNear. rewrite Ep. cbn [bind]. apply c152_same; try assumption; try (apply Up; [exact Fe | lra]); [lra | left; reflexivity | lra].
Qed.

(** *** Rotation vectors of Euler angles *)
Lemma c156_vector fcos fsin facos r eps x y z s a b c e h : s <> SeqUndefined ->
  trig_at fcos fsin (b64_div x two_64) (a / 2) e -> trig_at fcos fsin (b64_div y two_64) (b / 2) e -> trig_at fcos fsin (b64_div z two_64) (c / 2) e -> e <= / 10000 -> acos_within facos h -> h <= 1 -> finite64 eps -> P2 (-50) <= rval eps <= / 4 ->
  exists d th, norm3 d = 1 /\ 0 <= th <= PI /\ (forall v, named_sequence s a b c v = frame_rotation d (2 * th) v) /\
    (200 * e + P2 (-44) <= sin th * sin th -> exists u t, rv64_of_euler fcos fsin facos r eps (mkE64 (Some x) (Some y) (Some z) s) = Ok (mkRV64 (Some u) (Some t)) /\ finite3 u /\
      dist3 (val3 u) d <= (50 * e + P2 (-46)) / sin th /\ Rabs (norm3 (val3 u) - 1) <= P2 (-51) /\ returns t (2 * th) (2 * h + (300 * e + P2 (-44)) / sin th)).
Proof.
  intros S X Y Z E1 HC H1 Fe He. pose proof e53_pos as PE. assert (E9 : e53 <= / 1000000000) by (unfold e53; lra). assert (E0 : 0 <= e) by (destruct X as [[_ K] _]; pose proof (Rabs_pos (rval (fcos (b64_div x two_64)) - cos (a / 2))); lra).
  destruct (of_euler_near fcos fsin eps x y z s a b c e S X Y Z E1 Fe ltac:(lra)) as (q & P & Eq & Fq & LP & RP & GP & Lq & Uq). destruct (polar_any P LP) as (d & th & N & T & EP). exists d, th. split; [exact N |]. split; [exact T |]. split; [intros v; rewrite <- RP, EP; apply polar_frame, N |]. intros SS. subst P.
  assert (P44 : P2 (-44) = 512 * e53) by (rewrite <- e53_P2; change (-44)%Z with (9 + -53)%Z; rewrite P2_add, <- P2_Z by lia; reflexivity). assert (P46 : P2 (-46) = 128 * e53) by (rewrite <- e53_P2; change (-46)%Z with (7 + -53)%Z; rewrite P2_add, <- P2_Z by lia; reflexivity). rewrite P44 in *. rewrite P46, <- e51.
  set (g := 24.04 * e + 29.3 * e53) in *. assert (G0 : 0 < g) by (unfold g; lra). assert (G8 : 8 * g <= sin th * sin th) by (unfold g; lra). assert (S0 : 0 < sin th). { destruct (sin_ge_0 th ltac:(lra) ltac:(lra)) as [K | K]; [exact K | rewrite <- K in G8; lra]. }
  assert (T' : 0 < th < PI) by (split; [destruct (proj1 T) as [K | K]; [exact K | rewrite <- K, sin_0 in S0; lra] | destruct (proj2 T) as [K | K]; [exact K | rewrite K, sin_PI in S0; lra]]). pose proof (SIN_bound th) as SB. assert (S8 : 8 * g <= sin th) by (assert (sin th * sin th <= sin th * 1) by (apply Rmult_le_compat_l; lra); lra).
  pose proof (gap_scalar (val4 q) (polar 1 d th)) as GS. pose proof (gap_vec (val4 q) (polar 1 d th)) as GV. replace (qs (polar 1 d th)) with (cos th) in GS by (unfold polar; cbn [qs]; ring). change (qs (val4 q)) with (rval (q64s q)) in GS.
  assert (VP : vec (polar 1 d th) = scale3 (sin th) d) by (rewrite polar_vec; f_equal; ring). rewrite VP in GV. assert (NP : norm3 (scale3 (sin th) d) = sin th) by (rewrite norm3_scale, N, Rabs_pos_eq by lra; ring). pose proof (norm_dist (vec (val4 q)) (scale3 (sin th) d)) as ND. rewrite NP in ND. apply abs_le in ND.
  assert (CS : cos th * cos th = 1 - sin th * sin th) by (pose proof (sin2_cos2 th) as K; unfold Rsqr in K; lra). pose proof (COS_bound th) as CB. pose proof (proj1 (abs_le _ _ GS)) as GS1. pose proof (proj2 (abs_le _ _ GS)) as GS2.
  assert (W : -1 < rval (q64s q) < 1). { split. - destruct (Rlt_le_dec (-1) (rval (q64s q))) as [K | K]; [exact K |]. exfalso. assert ((1 - cos th) * (1 + cos th) <= 2 * g) by (apply Rmult_le_compat; lra). lra. - destruct (Rlt_le_dec (rval (q64s q)) 1) as [K | K]; [exact K |]. exfalso. assert ((1 + cos th) * (1 - cos th) <= 2 * g) by (apply Rmult_le_compat; lra). lra. }
  assert (P440 : P2 (-440) <= e53) by (rewrite <- e53_P2; apply P2_mono; lia). assert (NV : e53 <= norm3 (vec (val4 q))) by (unfold g in *; lra). destruct (HC (q64s q) ltac:(apply Fq) ltac:(lra)) as (Fc & _ & Ec).
  destruct (rv_near_len facos r eps q h Fq Lq W ltac:(lra) Fe He H1 (conj Fc Ec)) as (u & t & E & Fu & Du & Lu & Ft & Et). exists u, t. split; [unfold rv64_of_euler; rewrite Eq; exact E |]. split; [exact Fu |].
  assert (IS : 1 <= / sin th) by (rewrite <- Rinv_1 at 1; apply Rinv_le_contravar; lra). assert (GI : 0 < g * / sin th) by (apply Rmult_lt_0_compat; lra). assert (EI : e53 <= e53 * / sin th) by (rewrite <- (Rmult_1_r e53) at 1; apply Rmult_le_compat_l; lra). assert (EE : 0 <= e * / sin th) by (apply Rmult_le_pos; lra). assert (GD : g * / sin th = 24.04 * (e * / sin th) + 29.3 * (e53 * / sin th)) by (unfold g; ring).
  split.
  - pose proof (direction_dist (vec (val4 q)) (scale3 (sin th) d) ltac:(lra) ltac:(rewrite NP; lra)) as DD. rewrite NP in DD. assert (DS : direction (scale3 (sin th) d) = d) by (unfold direction; rewrite NP; unfold scale3; destruct d as [d1 d2 d3]; cbn [vx vy vz]; f_equal; field; lra). rewrite DS in DD.
    assert (2 * dist3 (vec (val4 q)) (scale3 (sin th) d) / sin th <= 2 * (g * / sin th)) by (unfold Rdiv; rewrite Rmult_assoc; apply Rmult_le_compat_l; [lra |]; apply Rmult_le_compat_r; lra). pose proof (dist3_triangle (val3 u) (direction (vec (val4 q))) d). unfold Rdiv. rewrite Rmult_plus_distr_r. lra.
  - split; [lra |]. split; [exact Ft |]. pose proof (acos_close (rval (q64s q)) th g T' ltac:(lra) ltac:(lra) G8 ltac:(lra)) as AC. unfold Rdiv in AC. rewrite Rmult_assoc in AC. apply abs_le in AC. apply abs_le in Et. unfold Rdiv. rewrite Rmult_plus_distr_r. apply abs_of. lra.
Qed.
Lemma c156_errors fcos fsin facos fuel r eps x y z s : (x = None \/ y = None \/ z = None \/ s = SeqUndefined) ->
  rv64_of_euler fcos fsin facos r eps (mkE64 x y z s) = Err EUndefined /\ forall e tol, e64_isNear fcos fsin facos fuel r eps (mkE64 x y z s) e tol = Err EUndefined /\ (forall q, q64_of_euler fcos fsin eps e = Ok q -> e64_isNear fcos fsin facos fuel r eps e (mkE64 x y z s) tol = Err EUndefined).
Proof.
  intros H. pose proof (proj1 (c144_errors fcos fsin r eps x y z s H)) as E. unfold rv64_of_euler, e64_isNear. rewrite E. split; [reflexivity |]. intros e tol. split; [reflexivity |]. intros q Q. rewrite Q. reflexivity.
Qed.
Lemma c156_zero fcos fsin facos r eps x y z s : s <> SeqUndefined -> (forall t, In t [x; y; z; b64_div x two_64; b64_div y two_64; b64_div z two_64] -> trig_at fcos fsin t 0 0) -> finite64 eps -> P2 (-50) <= rval eps <= 1 ->
  rv64_of_euler fcos fsin facos r eps (mkE64 (Some x) (Some y) (Some z) s) = Ok (mkRV64 (Some (axis64 0 0 1)) (Some zero64)).
Proof.
  intros S T Fe He. pose proof (P2_pos (-50)) as P0. destruct (proj1 (c144_zero fcos fsin r eps x y z s S T Fe ltac:(lra))) as (q & E & Fq & V). unfold rv64_of_euler. rewrite E. cbn [bind]. assert (V1 : rval (q64s q) = 1) by (change (rval (q64s q)) with (qs (val4 q)); rewrite V; reflexivity).
  apply c148_unit; [exact Fq | | rewrite V1; apply Rabs_R1 | exact Fe | lra]. rewrite V. replace (len4 one4) with 1 by (unfold len4, sq, one4; cbn [qx qy qz qs]; replace (0 * 0 + 0 * 0 + 0 * 0 + 1 * 1) with 1 by ring; symmetry; apply sqrt_1). rewrite Rminus_diag_eq, Rabs_R0 by reflexivity. left. apply P2_pos.
Qed.
Lemma c156_tolerance fcos fsin facos fuel r eps d e p q u : q64_of_euler fcos fsin eps d = Ok p -> q64_of_euler fcos fsin eps e = Ok q -> e64_isNear fcos fsin facos fuel r eps d e (mkA64 None u) = Err EUndefined.
Proof. intros P Q. unfold e64_isNear. rewrite P, Q. reflexivity. Qed.
