(** Accuracy of the exponential and the logarithm (C149). *)

From Coq Require Import List Bool ZArith Reals Lra Lia Psatz Floats.SpecFloat.
From Verif Require Import Result Vec Mat3 VecProofs AngleModel FloatModel FloatSpec FloatProofs FloatProofs2 FloatProofs3 FloatProofs4 FloatProofs5 FloatProofs7 FloatProofs8 FloatProofs10
  Geo3Spec Geo3Proofs Geo3Proofs2 Geo64Model Geo64Spec Geo64Proofs Geo64Proofs2 Geo64Proofs3 Geo64Proofs4 Geo64Proofs5 Geo64Proofs6 Geo64Proofs7 Geo64Proofs8 RotModel RotSpec RotProofs RotProofs2 RotProofs3 RotProofs4 RotProofs5 RotProofs7 RotProofs9 Rot64Model Rot64Spec Rot64Spec2 Rot64Proofs Rot64Proofs2 Rot64Proofs3 Rot64Proofs4 Rot64Proofs5 Rot64Proofs6 Rot64Proofs7 Rot64Proofs8 Rot64Proofs9 Rot64Proofs10 Rot64Proofs11 Rot64Proofs12 Rot64Proofs13 Rot64Proofs14 Rot64Proofs15 Rot64Proofs16 Rot64Proofs17 Att64Model Att64Spec Att64Proofs Att64Proofs2 Att64Proofs3 Att64Proofs4 Att64Proofs5 Att64Proofs7 Att64Proofs8 Att64Proofs9 Att64Proofs10 Pow64Model Pow64Spec Pow64Proofs.
Import ListNotations.
Local Open Scope R_scope.

(** *** Multiples of quaternions *)
Lemma rel_gap a b e t : 0 <= e -> 0 <= t -> Rabs (qx a - qx b) <= e * Rabs (qx b) + t -> Rabs (qy a - qy b) <= e * Rabs (qy b) + t -> Rabs (qz a - qz b) <= e * Rabs (qz b) + t -> Rabs (qs a - qs b) <= e * Rabs (qs b) + t -> gap4 a b <= e * len4 b + 2 * t.
Proof.
  intros C T X Y Z S. set (ab := Q4 (Rabs (qx b)) (Rabs (qy b)) (Rabs (qz b)) (Rabs (qs b))). set (tt := Q4 t t t t).
  assert (A : gap4 a b <= len4 (add4 (times4 e ab) tt)).
  { unfold gap4, len4. apply sqrt_le_1_alt. unfold sq, add4, times4, ab, tt. cbn [qx qy qz qs].
    assert (M : forall x y, Rabs x <= y -> x * x <= y * y). { intros x y H. pose proof (Rabs_pos x). replace (x * x) with (Rabs x * Rabs x) by (rewrite <- Rabs_mult; apply Rabs_pos_eq, VecProofs.sq_nonneg). apply Rmult_le_compat; assumption. }
    pose proof (M _ _ X). pose proof (M _ _ Y). pose proof (M _ _ Z). pose proof (M _ _ S). lra. }
  eapply Rle_trans; [exact A |]. eapply Rle_trans; [apply len4_add |]. rewrite len_times by exact C.
  assert (LA : len4 ab = len4 b). { unfold len4. f_equal. unfold sq, ab. cbn [qx qy qz qs]. rewrite <- !Rabs_mult, !Rabs_pos_eq by apply VecProofs.sq_nonneg. reflexivity. }
  assert (LT : len4 tt = 2 * t). { unfold len4. replace (sq tt) with ((2 * t) * (2 * t)) by (unfold sq, tt; cbn [qx qy qz qs]; ring). apply sqrt_square. lra. }
  rewrite LA, LT. lra.
Qed.
Lemma scale4_err p k : finite4 p -> finite64 k -> len4 (val4 p) <= 8 -> Rabs (rval k) <= 8 ->
  exists w, q64_scale (Some p) k = Ok w /\ finite4 w /\ gap4 (val4 w) (times4 (rval k) (val4 p)) <= e53 * (Rabs (rval k) * len4 (val4 p)) + 2 * tiny.
Proof.
  intros (F1 & F2 & F3 & F4) Fk L K. unfold q64_scale. cbn [need3 bind]. eexists. split; [reflexivity |]. destruct (coord4 (val4 p)) as (C1 & C2 & C3 & C4). cbn [val4 qx qy qz qs] in C1, C2, C3, C4. pose proof e53_pos as PE. pose proof tiny_pos as TP.
  assert (P9 : 64 <= P2 1023) by (apply Rle_trans with (P2 6); [rewrite <- P2_Z by lia; apply IZR_le; lia | apply P2_mono; lia]).
  assert (M : forall x, finite64 x -> Rabs (rval x) <= len4 (val4 p) -> finite64 (b64_mul x k) /\ Rabs (rval (b64_mul x k) - rval k * rval x) <= e53 * Rabs (rval k * rval x) + tiny).
  { intros x Fx Bx. rewrite (Rmult_comm (rval k)). apply mul_any; [exact Fx | exact Fk |]. rewrite Rabs_mult. apply Rle_trans with (8 * 8); [apply Rmult_le_compat; try apply Rabs_pos; lra | lra]. }
  destruct (M _ F1 C1) as [G1 D1]. destruct (M _ F2 C2) as [G2 D2]. destruct (M _ F3 C3) as [G3 D3]. destruct (M _ F4 C4) as [G4 D4].
  split; [exact (conj G1 (conj G2 (conj G3 G4))) |]. rewrite <- len4_times. apply rel_gap; [lra | lra | exact D1 | exact D2 | exact D3 | exact D4].
Qed.

(** *** The exponential *)
Lemma libm_pos L e : libm_within L e -> 0 <= e.
Proof. intros (S & _). destruct (S zero64 I ltac:(change (rval zero64) with 0; rewrite Rabs_R0; lra)) as [[_ H] _]. eapply Rle_trans; [apply Rabs_pos | exact H]. Qed.
Lemma unit_dir v : 0 < norm3 v -> norm3 (direction v) = 1.
Proof. intros H. unfold direction. rewrite norm3_scale, Rabs_pos_eq by (left; apply Rinv_0_lt_compat, H). field. lra. Qed.
Lemma dist_scale k l d : norm3 d = 1 -> dist3 (scale3 k d) (scale3 l d) = Rabs (k - l).
Proof. intros H. unfold dist3. replace (sub3 (scale3 k d) (scale3 l d)) with (scale3 (k - l) d) by (unfold sub3, scale3; cbn [vx vy vz]; f_equal; ring). rewrite norm3_scale, H. ring. Qed.
Lemma polar_parts h a t : polar h a t = of_parts (scale3 (h * sin t) a) (h * cos t).
Proof. destruct a. reflexivity. Qed.
Lemma polar_times h a t : polar h a t = times4 h (polar 1 a t).
Proof. unfold polar, times4. cbn [qx qy qz qs]. f_equal; ring. Qed.
Lemma polar_len h a t : norm3 a = 1 -> 0 <= h -> len4 (polar h a t) = h.
Proof. intros A H. unfold len4. rewrite polar_sq by (rewrite <- norm3_sq, A; ring). apply sqrt_square, H. Qed.
Lemma exp_near L r eps q e : libm_within L e -> e <= / 1000 -> finite4 q -> Rabs (rval (q64s q)) <= 1 -> norm3 (vec (val4 q)) <= 3.9 -> finite64 eps -> P2 (-400) <= rval eps ->
  let N := norm3 (vec (val4 q)) in let E := exp (rval (q64s q)) in
  exists u, q64_exp L r eps (Some q) = Ok u /\ finite4 u /\
    (u = q64_Unit /\ N <= (1 + 2.61 * e53) * rval eps \/
     P2 (-402) <= N /\ rval eps <= (1 + 2.61 * e53) * N /\ gap4 (val4 u) (polar E (direction (vec (val4 q))) N) <= (E + e) * (1.4145 * e + 19.1 * e53) + e + / 100 * e53).
Proof.
  intros HL He Fq S NU Fe Heps N E. pose proof (libm_pos L e HL) as E0. destruct HL as (HS & _ & HE & _). destruct (vector_part q Fq) as [Fv Vv]. pose proof e53_pos as PE. assert (E9 : e53 <= / 1000000000) by (unfold e53; lra). pose proof tiny_e4 as T4. pose proof tiny_pos as TP.
  destruct (norm_branch r (vec64 q) eps Fv ltac:(rewrite Vv; lra) Fe Heps) as (Fn & [[C B] | (C & _ & NL & EL & En)]); rewrite Vv in *; fold N in B || fold N in NL, EL, En; unfold q64_exp; cbn [need3 bind]; rewrite C.
  { exists q64_Unit. split; [reflexivity |]. split; [repeat split; vm_compute; reflexivity || discriminate |]. left. split; [reflexivity | exact B]. }
  set (n := fnorm3 r (vec64 q)) in *. assert (NN : e53 * N <= e53 * 3.9) by (apply Rmult_le_compat_l; unfold N; lra). apply abs_le in En as En'. assert (P42 : 0 < P2 (-402)) by apply P2_pos.
  destruct (HS n Fn ltac:(apply abs_of; unfold N in *; lra)) as [[Fs Es] [Fc Ec]]. destruct (HE _ ltac:(apply Fq) S) as [Fx Ex]. fold E in Ex.
  assert (Es' : Rabs (rval (m_sin L n) - sin N) <= e + 10.14 * e53). { pose proof (sin_close (rval n) N) as SC. replace (rval (m_sin L n) - sin N) with ((rval (m_sin L n) - sin (rval n)) + (sin (rval n) - sin N)) by ring. eapply Rle_trans; [apply Rabs_triang |]. lra. }
  assert (Ec' : Rabs (rval (m_cos L n) - cos N) <= e + 10.14 * e53). { pose proof (cos_close (rval n) N) as SC. replace (rval (m_cos L n) - cos N) with ((rval (m_cos L n) - cos (rval n)) + (cos (rval n) - cos N)) by ring. eapply Rle_trans; [apply Rabs_triang |]. lra. }
  assert (S1 : Rabs (rval (m_sin L n)) <= 1.001). { pose proof (SIN_bound (rval n)). apply abs_le in Es. apply abs_of. lra. }
  pose proof (P2_mono (-440) (-402) ltac:(lia)) as P440. destruct (quot_vec (vec64 q) (m_sin L n) n Fv Fs Fn ltac:(rewrite Vv; fold N; lra) ltac:(rewrite Vv; lra) ltac:(lra) ltac:(rewrite Vv; exact En)) as (Fa & _ & Da & _). rewrite Vv in Da. set (d := direction (vec (val4 q))) in *.
  assert (Nd : norm3 d = 1) by (apply unit_dir; fold N; lra). set (a := fdiv3 _ n) in *. set (y := parts64 a (m_cos L n)).
  assert (Fy : finite4 y) by (destruct Fa as (? & ? & ?); repeat split; assumption).
  assert (G : gap4 (val4 y) (polar 1 d N) <= 1.4143 * e + 18 * e53).
  { change (val4 y) with (of_parts (val3 a) (rval (m_cos L n))). rewrite polar_parts, !Rmult_1_l. apply gap_parts; [lra |].
    assert (DV : dist3 (val3 a) (scale3 (sin N) d) <= e + 14.8 * e53). { eapply Rle_trans; [apply (dist3_triangle _ (scale3 (rval (m_sin L n)) d)) |]. rewrite (dist_scale _ _ _ Nd). pose proof P590. assert (e53 * Rabs (rval (m_sin L n)) <= e53 * 1.001) by (apply Rmult_le_compat_l; lra). lra. }
    pose proof (dist3_pos (val3 a) (scale3 (sin N) d)) as D0. assert (X1 : dist3 (val3 a) (scale3 (sin N) d) * dist3 (val3 a) (scale3 (sin N) d) <= (e + 14.8 * e53) * (e + 14.8 * e53)) by (apply Rmult_le_compat; lra).
    assert (X2 : (rval (m_cos L n) - cos N) * (rval (m_cos L n) - cos N) <= (e + 10.14 * e53) * (e + 10.14 * e53)). { replace ((rval (m_cos L n) - cos N) * (rval (m_cos L n) - cos N)) with (Rabs (rval (m_cos L n) - cos N) * Rabs (rval (m_cos L n) - cos N)) by (rewrite <- Rabs_mult; apply Rabs_pos_eq, VecProofs.sq_nonneg). apply Rmult_le_compat; try apply Rabs_pos; exact Ec'. }
    assert (0 <= e * e) by (apply Rmult_le_pos; lra). assert (0 <= e * e53) by (apply Rmult_le_pos; lra). assert (0 <= e53 * e53) by (apply Rmult_le_pos; lra). lra. }
  assert (LP : len4 (polar 1 d N) = 1) by (apply polar_len; [exact Nd | lra]). pose proof (len4_gap (val4 y) (polar 1 d N)) as LG. rewrite LP in LG. apply abs_le in LG.
  assert (EB : 0 < E <= 3). { split; [apply exp_pos |]. unfold E. eapply Rle_trans; [| exact exp_le_3]. destruct (Req_dec (rval (q64s q)) 1) as [-> | NE]; [right; reflexivity |]. left. apply exp_increasing. apply abs_le in S. lra. }
  set (x := m_exp L (q64s q)) in *. assert (XB : Rabs (rval x) <= E + e) by (apply abs_le in Ex; apply abs_of; lra).
  destruct (scale4_err y x Fy Fx ltac:(lra) ltac:(lra)) as (u & HU & Fu & Gu). exists u. split; [exact HU |]. split; [exact Fu |]. right. split; [exact NL |]. split; [exact EL |].
  rewrite polar_times. eapply Rle_trans; [apply (gap4_triangle _ (times4 (rval x) (val4 y))) |].
  assert (G2 : gap4 (times4 (rval x) (val4 y)) (times4 E (polar 1 d N)) <= (E + e) * (1.4143 * e + 18 * e53) + e).
  { eapply Rle_trans; [apply (gap4_triangle _ (times4 (rval x) (polar 1 d N))) |]. apply Rplus_le_compat.
    - assert (Q : forall k a b, gap4 (times4 k a) (times4 k b) = Rabs k * gap4 a b). { intros k a0 b0. unfold gap4. rewrite <- len4_times. f_equal. unfold times4. cbn [qx qy qz qs]. f_equal; ring. } rewrite Q. apply Rmult_le_compat; [apply Rabs_pos | apply len4_pos | exact XB | exact G].
    - assert (Q : gap4 (times4 (rval x) (polar 1 d N)) (times4 E (polar 1 d N)) = Rabs (rval x - E) * len4 (polar 1 d N)). { unfold gap4. rewrite <- len4_times. f_equal. unfold times4. cbn [qx qy qz qs]. f_equal; ring. } rewrite Q, LP, Rmult_1_r. exact Ex. }
  pose proof (len4_pos (val4 y)) as LY. assert (G3 : Rabs (rval x) * len4 (val4 y) <= (E + e) * 1.01) by (apply Rmult_le_compat; try apply Rabs_pos; lra). assert (G4 : e53 * (Rabs (rval x) * len4 (val4 y)) <= e53 * ((E + e) * 1.01)) by (apply Rmult_le_compat_l; lra).
  assert (0 <= (E + e) * e) by (apply Rmult_le_pos; lra). assert (0 <= (E + e) * e53) by (apply Rmult_le_pos; lra). lra.
Qed.

(** *** The logarithm *)
Lemma small_arc t : Rabs t < PI -> 0 < cos t -> Rabs (sin t) <= / 10 -> Rabs t <= 1.01 * Rabs (sin t).
Proof.
  assert (P : forall x, 0 <= x -> x < PI -> 0 < cos x -> Rabs (sin x) <= / 10 -> x <= 1.01 * Rabs (sin x)).
  { intros x X0 XP C S. destruct X0 as [X0 | <-]; [| rewrite sin_0, Rabs_R0; lra].
    assert (XH : x < PI / 2) by (destruct (Rlt_or_le x (PI / 2)) as [H | H]; [exact H | pose proof (cos_le_0 x H ltac:(lra)); lra]).
    pose proof (sin_gt_0 x X0 XP) as SP. rewrite Rabs_pos_eq in * by lra.
    destruct (MVT_cor2 sin cos 0 x X0) as (c & E & B). { intros. apply derivable_pt_lim_sin. } rewrite sin_0, !Rminus_0_r in E.
    assert (CC : cos x <= cos c) by (left; apply cos_decreasing_1; lra). pose proof (sc1 x) as SC. assert (C2 : 0.991 <= cos x) by nra. rewrite E. assert (x * 0.991 <= cos c * x) by (rewrite (Rmult_comm (cos c)); apply Rmult_le_compat_l; lra). lra. }
  intros T C S. destruct (Rle_or_lt 0 t) as [H | H]; [rewrite (Rabs_pos_eq t) in * by exact H; apply P; assumption |].
  rewrite <- (Rabs_Ropp t), <- (Rabs_Ropp (sin t)), <- sin_neg in *. rewrite (Rabs_pos_eq (- t)) in * by lra. apply P; [lra | exact T | rewrite cos_neg; exact C | exact S].
Qed.
Lemma angle_near x y z k : 0 < y -> 0 <= k <= / 100 -> Rabs (z - y) <= k * y -> Rabs (atan2 z x - atan2 y x) <= 0.52 * k.
Proof.
  intros Y K E. assert (KY : k * y <= / 100 * y) by (apply Rmult_le_compat_r; lra). assert (Z : 0 < z) by (apply abs_le in E; lra). pose proof (atan2_pos x y Y) as B1. pose proof (atan2_pos x z Z) as B2.
  assert (X2 : 0 <= x * x) by apply VecProofs.sq_nonneg. assert (Y2 : 0 < y * y) by (apply Rmult_lt_0_compat; assumption). assert (Z2 : 0 < z * z) by (apply Rmult_lt_0_compat; assumption).
  destruct (atan2_sc x y ltac:(lra)) as [C1 S1]. destruct (atan2_sc x z ltac:(lra)) as [C2 S2]. set (t := atan2 y x) in *. set (t' := atan2 z x) in *. set (p := sqrt (x * x + y * y)) in *. set (p' := sqrt (x * x + z * z)) in *.
  assert (P : 0 < p) by (apply sqrt_lt_R0; lra). assert (P' : 0 < p') by (apply sqrt_lt_R0; lra). assert (PP : p * p = x * x + y * y) by (apply sqrt_sqrt; lra). assert (PP' : p' * p' = x * x + z * z) by (apply sqrt_sqrt; lra).
  assert (SD : p * p' * sin (t' - t) = x * (z - y)) by (rewrite sin_minus; transitivity ((p' * sin t') * (p * cos t) - (p' * cos t') * (p * sin t)); [ring | rewrite C1, S1, C2, S2; ring]).
  assert (CD : p * p' * cos (t' - t) = x * x + z * y) by (rewrite cos_minus; transitivity ((p' * cos t') * (p * cos t) + (p' * sin t') * (p * sin t)); [ring | rewrite C1, S1, C2, S2; ring]).
  assert (PR : 0 < p * p') by (apply Rmult_lt_0_compat; assumption). assert (CP : 0 < cos (t' - t)). { apply Rmult_lt_reg_l with (p * p'); [exact PR |]. rewrite CD, Rmult_0_r. assert (0 < z * y) by (apply Rmult_lt_0_compat; assumption). lra. }
  assert (SB : Rabs (sin (t' - t)) <= 0.51 * k).
  { apply Rmult_le_reg_l with (p * p'); [exact PR |]. replace (p * p' * Rabs (sin (t' - t))) with (Rabs (x * (z - y))) by (rewrite <- SD, (Rabs_mult (p * p')), (Rabs_pos_eq (p * p')) by lra; reflexivity). rewrite Rabs_mult.
    assert (G1 : p * 0.99 <= p'). { apply sqrt_le_sq; [lra | lra |]. rewrite PP'. replace (p * 0.99 * (p * 0.99)) with (0.9801 * (p * p)) by lra. rewrite PP. assert (0.9801 * (y * y) <= z * z) by (replace (0.9801 * (y * y)) with ((0.99 * y) * (0.99 * y)) by lra; apply abs_le in E; apply Rmult_le_compat; lra). lra. }
    assert (G2 : Rabs x * y <= p * p / 2). { rewrite PP. pose proof (VecProofs.sq_nonneg (Rabs x - y)) as Q. replace (x * x) with (Rabs x * Rabs x) by (rewrite <- Rabs_mult; apply Rabs_pos_eq; exact X2). lra. }
    assert (G3 : Rabs x * Rabs (z - y) <= k * (Rabs x * y)) by (replace (k * (Rabs x * y)) with (Rabs x * (k * y)) by ring; apply Rmult_le_compat_l; [apply Rabs_pos | exact E]). assert (G4 : k * (Rabs x * y) <= k * (p * p / 2)) by (apply Rmult_le_compat_l; lra). assert (G5 : p * (p * 0.99) * k <= p * p' * k) by (apply Rmult_le_compat_r; [lra |]; apply Rmult_le_compat_l; lra). assert (0 <= p * p * k) by (apply Rmult_le_pos; [rewrite PP; lra | lra]). lra. }
  eapply Rle_trans; [apply small_arc; [apply Rabs_def1; lra | exact CP | lra] | lra].
Qed.
Lemma ln_near x y k : 0 < y -> 0 <= k <= / 100 -> Rabs (x - y) <= k * y -> Rabs (ln x - ln y) <= 1.02 * k.
Proof.
  intros Y K E. assert (KY : k * y <= / 100 * y) by (apply Rmult_le_compat_r; lra). assert (X : 0 < x) by (apply abs_le in E; lra).
  assert (U : forall a b, 0 < a -> 0 < b -> ln a - ln b <= (a - b) / b). { intros a b A B. replace (ln a) with (ln (b * (a / b))) by (f_equal; field; lra). rewrite ln_mult by (try exact B; apply Rdiv_lt_0_compat; assumption). replace ((a - b) / b) with (a / b - 1) by (field; lra). assert (Q : 0 < a / b) by (apply Rdiv_lt_0_compat; assumption). pose proof (exp_ineq1_le (ln (a / b))) as I. rewrite exp_ln in I by exact Q. lra. }
  pose proof (U x y X Y) as A. pose proof (U y x Y X) as B. apply abs_le in E. apply abs_of. split.
  - assert ((y - x) / x <= 1.02 * k); [| lra]. apply Rmult_le_reg_r with x; [exact X |]. unfold Rdiv. rewrite Rmult_assoc, Rinv_l, Rmult_1_r by lra. assert (0 <= k * (x - 0.99 * y)) by (apply Rmult_le_pos; lra). lra.
  - assert ((x - y) / y <= k); [| lra]. apply Rmult_le_reg_r with y; [exact Y |]. unfold Rdiv. rewrite Rmult_assoc, Rinv_l, Rmult_1_r by lra. lra.
Qed.
Lemma log_near L r eps q e : libm_within L e -> e <= / 1000 -> finite4 q -> 0.34 <= len4 (val4 q) <= 2.9 -> finite64 eps -> P2 (-400) <= rval eps ->
  let N := norm3 (vec (val4 q)) in
  exists v s, q64_log L r eps (Some q) = Ok (parts64 v s) /\ finite3 v /\ returns s (ln (len4 (val4 q))) (e + 3.2 * e53) /\
    (val3 v = zero3 /\ N <= (1 + 2.61 * e53) * rval eps \/
     P2 (-402) <= N /\ rval eps <= (1 + 2.61 * e53) * N /\ dist3 (val3 v) (scale3 (atan2 N (qs (val4 q))) (direction (vec (val4 q)))) <= e + 16.3 * e53).
Proof.
  intros HL He Fq LB Fe Heps N. pose proof (libm_pos L e HL) as E0. destruct HL as (_ & HA & _ & HG). destruct (vector_part q Fq) as [Fv Vv]. pose proof e53_pos as PE. assert (E9 : e53 <= / 1000000000) by (unfold e53; lra). pose proof pi_digits as PD.
  assert (N3 : N <= 2.9) by (pose proof (vec_le (val4 q)); unfold N; lra). pose proof (P2_mono 2 450 ltac:(lia)) as M. rewrite P2_2 in M. pose proof (P2_mono (-450) (-2) ltac:(lia)) as M2. rewrite (P2_m (-2)) in M2 by lia. change (2 ^ (- -2))%Z with 4%Z in M2.
  assert (B4 : within4 (P2 450) q) by (apply within_len; [exact Fq | lra]). destruct (fnorm4_err q Fq B4 ltac:(lra)) as [Fl El].
  assert (RL : returns (m_log L (fnorm4 q)) (ln (len4 (val4 q))) (e + 3.2 * e53)).
  { assert (G : 3.05 * e53 * len4 (val4 q) <= 3.05 * e53 * 3) by (apply Rmult_le_compat_l; lra). apply abs_le in El as El'. destruct (HG _ Fl ltac:(lra)) as [Fg Eg]. split; [exact Fg |]. pose proof (ln_near (rval (fnorm4 q)) (len4 (val4 q)) (3.05 * e53) ltac:(lra) ltac:(lra) El) as LN.
    replace (rval (m_log L (fnorm4 q)) - ln (len4 (val4 q))) with ((rval (m_log L (fnorm4 q)) - ln (rval (fnorm4 q))) + (ln (rval (fnorm4 q)) - ln (len4 (val4 q)))) by ring. eapply Rle_trans; [apply Rabs_triang |]. lra. }
  destruct (norm_branch r (vec64 q) eps Fv ltac:(rewrite Vv; fold N; lra) Fe Heps) as (Fn & [[C B] | (C & _ & NL & EL & En)]); rewrite Vv in *; fold N in B || fold N in NL, EL, En; unfold q64_log; cbn [need3 bind]; rewrite C.
  { exists (F3 zero64 zero64 zero64), (m_log L (fnorm4 q)). split; [reflexivity |]. split; [repeat split |]. split; [exact RL |]. left. split; [reflexivity | exact B]. }
  set (n := fnorm3 r (vec64 q)) in *. assert (P42 : 0 < P2 (-402)) by apply P2_pos. assert (NN : e53 * N <= / 1000000000 * N) by (apply Rmult_le_compat_r; lra). apply abs_le in En as En'. destruct (coord4 (val4 q)) as (_ & _ & _ & C4). cbn [val4 qs] in C4.
  destruct (HA n (q64s q) Fn ltac:(apply Fq) ltac:(lra) ltac:(lra)) as [Fa Ea]. pose proof (angle_near (rval (q64s q)) N (rval n) (2.6 * e53) ltac:(lra) ltac:(lra) En) as AN. pose proof (atan2_pos (rval (q64s q)) N ltac:(lra)) as AP. set (th := atan2 N (rval (q64s q))) in *. set (x := m_atan2 L n (q64s q)) in *.
  assert (Ex : Rabs (rval x - th) <= e + 1.36 * e53). { replace (rval x - th) with ((rval x - atan2 (rval n) (rval (q64s q))) + (atan2 (rval n) (rval (q64s q)) - th)) by ring. eapply Rle_trans; [apply Rabs_triang |]. lra. }
  assert (XB : Rabs (rval x) <= 3.15) by (apply abs_le in Ex; apply abs_of; lra). pose proof (P2_mono (-440) (-402) ltac:(lia)) as P440.
  destruct (quot_vec (vec64 q) x n Fv Fa Fn ltac:(rewrite Vv; fold N; lra) ltac:(rewrite Vv; fold N; lra) ltac:(lra) ltac:(rewrite Vv; exact En)) as (_ & Fb & _ & Db). rewrite Vv in Db. set (d := direction (vec (val4 q))) in *. assert (Nd : norm3 d = 1) by (apply unit_dir; fold N; lra).
  exists (fscale3 (b64_div x n) (vec64 q)), (m_log L (fnorm4 q)). split; [reflexivity |]. split; [exact Fb |]. split; [exact RL |]. right. split; [exact NL |]. split; [exact EL |]. cbn [val4 qs]. fold th.
  eapply Rle_trans; [apply (dist3_triangle _ (scale3 (rval x) d)) |]. rewrite (dist_scale _ _ _ Nd). pose proof P590. assert (e53 * Rabs (rval x) <= e53 * 3.15) by (apply Rmult_le_compat_l; lra). lra.
Qed.
