(** Exponential, powers and interpolation of quaternions (C39, C40). *)

From Coq Require Import List Bool Reals Lra Lia Psatz.
From Verif Require Import Result DOrder Vec VecProofs Mat3 AngleModel AngleSpec AngleProofs AngleProofs2 RotModel RotSpec
  RotProofs RotProofs2 RotProofs3 RotProofs4 RotProofs5 RotProofs6.
Local Open Scope R_scope.

(** *** C40 *)
Lemma atan2_pos x y : 0 < y -> 0 < atan2 y x < PI.
Proof.
  intros Hy. pose proof PI_RGT_0. unfold atan2. destruct (Rlt_dec 0 x).
  - pose proof (atan_bound (y / x)). assert (0 < y / x) by (apply Rdiv_lt_0_compat; assumption).
    pose proof (atan_increasing 0 (y / x) H1) as I. rewrite atan_0 in I. lra.
  - destruct (Rlt_dec x 0).
    + destruct (Rlt_dec y 0); [lra |]. pose proof (atan_bound (y / x)).
      assert (y / x < 0) by (unfold Rdiv; pose proof (Rinv_lt_0_compat x r); nra).
      pose proof (atan_increasing (y / x) 0 H1) as I. rewrite atan_0 in I. lra.
    + destruct (Rlt_dec 0 y); [lra | contradiction].
Qed.
Lemma atan2_polar h t : 0 < h -> 0 < t < PI -> atan2 (h * sin t) (h * cos t) = t.
Proof.
  intros Hh Ht. pose proof (sin_gt_0 t ltac:(lra) ltac:(lra)) as S.
  pose proof (atan2_pos (h * cos t) (h * sin t) ltac:(nra)) as B.
  pose proof (sc1 t) as SC.
  destruct (atan2_sc (h * cos t) (h * sin t) ltac:(nra)) as [C _].
  replace (h * cos t * (h * cos t) + h * sin t * (h * sin t)) with (h * h) in C by (transitivity (h * h * (cos t * cos t + sin t * sin t)); [rewrite SC; ring | ring]).
  rewrite sqrt_square in C by lra.
  assert (cos (atan2 (h * sin t) (h * cos t)) = cos t) by (apply (Rmult_eq_reg_l h); lra).
  apply (f_equal acos) in H. rewrite !acos_cos in H by lra. exact H.
Qed.

Lemma polar_vec h a t : vec (polar h a t) = scale3 (h * sin t) a.
Proof. unfold polar, vec; cbn. destruct a; v3unfold; reflexivity. Qed.
Lemma polar_sq h a t : sqnorm3 a = 1 -> sq (polar h a t) = h * h.
Proof.
  intros H. pose proof (sc1 t). transitivity (h * h * (sin t * sin t) * sqnorm3 a + h * h * (cos t * cos t)).
  - unfold polar. qring.
  - rewrite H. nra.
Qed.
Lemma polar_norm h a t : 0 < h -> sqnorm3 a = 1 -> qnorm (polar h a t) = h.
Proof. intros Hh H. rewrite qnorm_sqrt, polar_sq by assumption. apply sqrt_square. lra. Qed.
Lemma polar_parts h a t : of_parts (scale3 (h * sin t) a) (h * cos t) = polar h a t.
Proof. unfold polar, of_parts. destruct a; v3unfold; reflexivity. Qed.

Lemma q_exp_parts eps a f w : 0 < eps -> sqnorm3 a = 1 ->
  q_exp eps (Some (of_parts (scale3 f a) w)) = Ok (if Rleb (Rabs f) eps then q_Unit else polar (exp w) a f).
Proof.
  intros He H. unfold q_exp. cbn [needd bind]. 
  replace (vec (of_parts (scale3 f a) w)) with (scale3 f a) by (destruct a; v3unfold; reflexivity).
  rewrite norm3_scale, (norm3_1 a H), Rmult_1_r.
  destruct (Rleb (Rabs f) eps) eqn:E; [reflexivity |]. apply Rleb_false in E.
  unfold q_scale. cbn [needd bind]. f_equal. change (qs (of_parts (scale3 f a) w)) with w.
  assert (S : sin (Rabs f) / Rabs f * f = sin f /\ cos (Rabs f) = cos f).
  { unfold Rabs in *. destruct Rcase_abs; [rewrite sin_neg, cos_neg |]; (split; [field; lra | reflexivity]). }
  destruct S as [S ->]. rewrite scale3_scale, S. unfold polar, of_parts, vec. destruct a; v3unfold; cbn; apply Q4_eq; ring.
Qed.

Lemma q_log_polar eps h a t : 0 < eps -> 0 < h -> sqnorm3 a = 1 -> 0 < t < PI -> eps < h * sin t ->
  q_log eps (Some (polar h a t)) = Ok (of_parts (scale3 t a) (ln h)).
Proof.
  intros He Hh H Ht Hn. unfold q_log. cbn [needd bind]. rewrite polar_vec, norm3_scale, (norm3_1 a H), polar_norm by assumption.
  rewrite Rabs_pos_eq, Rmult_1_r by lra. unfold log_. destruct Rlt_dec; [| contradiction]. cbn [bind].
  rewrite (Rleb_f (h * sin t)) by assumption. change (qs (polar h a t)) with (h * cos t).
  rewrite atan2_polar by assumption. f_equal. f_equal. rewrite scale3_scale. f_equal. field.
  split; intro Z; rewrite Z in Hn; lra.
Qed.
Lemma q_pow_polar eps h a t k : 0 < eps -> 0 < h -> sqnorm3 a = 1 -> 0 < t < PI -> eps < h * sin t ->
  q_pow eps (Some (polar h a t)) k = Ok (if Rleb (Rabs (k * t)) eps then q_Unit else polar (Rpower h k) a (k * t)).
Proof.
  intros He Hh H Ht Hn. unfold q_pow. rewrite q_log_polar by assumption. unfold q_scale. cbn [needd bind].
  replace (of_parts (scale3 k (vec (of_parts (scale3 t a) (ln h)))) (qs (of_parts (scale3 t a) (ln h)) * k))
    with (of_parts (scale3 (k * t) a) (k * ln h)).
  - apply q_exp_parts; assumption.
  - destruct a; unfold of_parts, vec; v3unfold; cbn; apply Q4_eq; ring.
Qed.

Lemma c40_exp_log_partial eps h a t : 0 < eps -> 0 < h -> sqnorm3 a = 1 -> eps < t < PI -> eps < h * sin t ->
  exists l, q_log eps (Some (polar h a t)) = Ok l /\ q_exp eps (Some l) = Ok (polar h a t).
Proof.
  intros He Hh H Ht Hn. eexists. split; [apply q_log_polar; try assumption; lra |].
  rewrite q_exp_parts by assumption. rewrite Rabs_pos_eq, Rleb_f, exp_ln by lra. reflexivity.
Qed.
Lemma c40_pow_partial eps h a t k : 0 < eps -> 0 < h -> sqnorm3 a = 1 -> 0 < t < PI -> eps < h * sin t ->
  eps < Rabs (k * t) -> q_pow eps (Some (polar h a t)) k = Ok (polar (Rpower h k) a (k * t)).
Proof. intros. rewrite q_pow_polar, Rleb_f by assumption. reflexivity. Qed.

Lemma polar_mul h k a s t : sqnorm3 a = 1 -> qmul (polar h a s) (polar k a t) = polar (h * k) a (s + t).
Proof.
  intros H. unfold polar. rewrite sin_plus, cos_plus. unfold sqnorm3, dot3 in H. destruct a as [x y z]. qunfold.
  apply Q4_eq; try ring.
  transitivity (h * k * (cos s * cos t - sin s * sin t * (x * x + y * y + z * z))); [ring | rewrite H; ring].
Qed.
Lemma c40_one_partial eps h a t : 0 < eps -> 0 < h -> sqnorm3 a = 1 -> eps < t < PI -> eps < h * sin t ->
  q_pow eps (Some (polar h a t)) 1 = Ok (polar h a t).
Proof.
  intros He Hh H Ht Hn. rewrite c40_pow_partial; try assumption; try lra.
  - rewrite Rpower_1, Rmult_1_l by assumption. reflexivity.
  - rewrite Rmult_1_l, Rabs_pos_eq; lra.
Qed.
Lemma c40_add_partial eps h a t k l : 0 < eps -> 0 < h -> sqnorm3 a = 1 -> 0 < t < PI -> eps < h * sin t ->
  eps < Rabs (k * t) -> eps < Rabs (l * t) -> eps < Rabs ((k + l) * t) ->
  exists u w, q_pow eps (Some (polar h a t)) k = Ok u /\ q_pow eps (Some (polar h a t)) l = Ok w
    /\ q_pow eps (Some (polar h a t)) (k + l) = crossMultiply (Some u) (Some w).
Proof.
  intros. rewrite !c40_pow_partial by assumption. do 2 eexists. split; [reflexivity |]. split; [reflexivity |].
  unfold crossMultiply. cbn [needd bind]. rewrite polar_mul by assumption. rewrite <- Rpower_plus, Rmult_plus_distr_r. reflexivity.
Qed.
(** Every quaternion with a vector part has a polar form. *)
Lemma polar_exists q : vec q <> zero3 -> exists h a t, 0 < h /\ sqnorm3 a = 1 /\ 0 < t < PI /\ q = polar h a t
  /\ h = qnorm q /\ h * sin t = norm3 (vec q).
Proof.
  intros H. assert (N : 0 < norm3 (vec q)).
  { pose proof (norm3_nonneg (vec q)). destruct (Req_dec (norm3 (vec q)) 0) as [E | E]; [| lra].
    exfalso. apply H. apply norm3_0. exact E. }
  pose proof (norm3_sq (vec q)) as NS.
  assert (SQ : sq q = qs q * qs q + norm3 (vec q) * norm3 (vec q)).
  { rewrite NS. destruct q; unfold sq, sqnorm3, dot3, vec; cbn. ring. }
  assert (P : 0 < qs q * qs q + norm3 (vec q) * norm3 (vec q)) by nra.
  destruct (atan2_sc (qs q) (norm3 (vec q)) P) as [C S]. rewrite <- SQ in C, S. fold (qnorm q) in *.
  change (sqrt (sq q)) with (qnorm q) in *.
  exists (qnorm q), (scale3 (/ norm3 (vec q)) (vec q)), (atan2 (norm3 (vec q)) (qs q)).
  split; [rewrite qnorm_sqrt, SQ; apply sqrt_lt_R0; exact P |].
  split; [rewrite sqnorm3_scale, <- NS; field; lra |].
  split; [apply atan2_pos; exact N |]. split; [| split; [reflexivity | exact S]].
  unfold polar. rewrite C, S. generalize dependent (norm3 (vec q)). intros n N _ _ _ _ _.
  destruct q as [x y z s]. unfold vec, scale3. cbn [vx vy vz qx qy qz qs]. apply Q4_eq; try reflexivity; field; lra.
Qed.
Lemma c40_polar_form q : vec q <> zero3 -> exists h a t, 0 < h /\ sqnorm3 a = 1 /\ 0 < t < PI /\ q = polar h a t.
Proof. intros H. destruct (polar_exists q H) as (h & a & t & H1 & H2 & H3 & H4 & _). exists h, a, t. auto. Qed.
Lemma c40_refuted eps : 0 < eps -> exists q l, sq q <> 0 /\ q_log eps (Some q) = Ok l /\ q_exp eps (Some l) = Ok q_Unit
  /\ q_pow eps (Some q) 1 = Ok q_Unit /\ q_eq (Some q) (Some q_Unit) = false.
Proof.
  intros He. exists (Q4 0 0 0 2), (of_parts zero3 (ln 2)).
  assert (N : qnorm (Q4 0 0 0 2) = 2).
  { unfold qnorm; cbn. replace (0 * 0 + 0 * 0 + 0 * 0 + 2 * 2) with (2 * 2) by ring. apply sqrt_square. lra. }
  assert (Z : norm3 (V3 0 0 0) = 0) by (apply norm3_0; reflexivity).
  assert (L : q_log eps (Some (Q4 0 0 0 2)) = Ok (of_parts zero3 (ln 2))).
  { unfold q_log. cbn [needd bind]. rewrite N. unfold log_. destruct Rlt_dec; [| lra]. cbn [bind].
    change (vec (Q4 0 0 0 2)) with (V3 0 0 0). rewrite Z, Rleb_t by lra. reflexivity. }
  split; [unfold sq; cbn; lra |]. split; [exact L |].
  assert (E : forall w, q_exp eps (Some (of_parts zero3 w)) = Ok q_Unit).
  { intros w. unfold q_exp. cbn [needd bind]. change (vec (of_parts zero3 w)) with (V3 0 0 0). rewrite Z, Rleb_t by lra. reflexivity. }
  split; [apply E |]. split.
  - unfold q_pow. rewrite L. unfold q_scale. cbn [bind needd].
    replace (scale3 1 (vec (of_parts zero3 (ln 2)))) with zero3; [apply E |]. 
    change (vec (of_parts zero3 (ln 2))) with zero3. symmetry. apply scale3_1.
  - destruct (q_eq (Some (Q4 0 0 0 2)) (Some q_Unit)) eqn:F; [| reflexivity].
    apply q_eq_iff in F. destruct F as [F | F]; apply (f_equal qs) in F; cbn in F; lra.
Qed.
(** The logarithm of 0 is not a number. *)
Lemma c40_log_zero eps : q_log eps (Some (Q4 0 0 0 0)) = UB.
Proof.
  unfold q_log. cbn [needd bind]. unfold qnorm; cbn. replace (0 * 0 + 0 * 0 + 0 * 0 + 0 * 0) with 0 by ring.
  rewrite sqrt_0. unfold log_. destruct Rlt_dec; [lra | reflexivity].
Qed.

(** *** C39 *)
Lemma ratio_ok_in r : 0 <= r <= 1 -> ratio_ok (Some r) = Ok r.
Proof. intros H. unfold ratio_ok. cbn [need bind]. rewrite !Rltb_f by lra. reflexivity. Qed.
Lemma ratio_ok_out r : r < 0 \/ 1 < r -> ratio_ok (Some r) = Err ERuntime.
Proof.
  intros H. unfold ratio_ok. cbn [need bind]. destruct (Rlt_le_dec r 0); [rewrite Rltb_t by assumption; reflexivity |].
  rewrite (Rltb_f r 0), Rltb_t by lra. reflexivity.
Qed.
Lemma c39_ratio eps p q r : r < 0 \/ 1 < r ->
  LERP p q (Some r) = Err ERuntime /\ NLERP eps p q (Some r) = Err ERuntime /\ SLERP eps p q (Some r) = Err ERuntime
  /\ LERP p q None = Err EUndefined /\ NLERP eps p q None = Err EUndefined /\ SLERP eps p q None = Err EUndefined.
Proof.
  intros H. unfold NLERP, SLERP, LERP. rewrite ratio_ok_out by assumption. repeat split.
Qed.
Lemma LERP_eq p q r : 0 <= r <= 1 -> LERP (Some p) (Some q) (Some r)
  = Ok (Q4 ((1 - r) * qx p + r * qx q) ((1 - r) * qy p + r * qy q) ((1 - r) * qz p + r * qz q) ((1 - r) * qs p + r * qs q)).
Proof.
  intros H. unfold LERP. rewrite ratio_ok_in by assumption. unfold q_scale, q_add. cbn [needd bind]. f_equal. qring.
Qed.
Lemma c39_lerp p q r : 0 <= r <= 1 ->
  LERP (Some p) (Some q) (Some 0) = Ok p /\ LERP (Some p) (Some q) (Some 1) = Ok q
  /\ LERP (Some p) (Some q) (Some r)
     = Ok (Q4 (qx p + r * (qx q - qx p)) (qy p + r * (qy q - qy p)) (qz p + r * (qz q - qz p)) (qs p + r * (qs q - qs p))).
Proof.
  intros H. rewrite !LERP_eq by lra. repeat split; f_equal.
  - destruct p; apply Q4_eq; cbn; ring.
  - destruct q; apply Q4_eq; cbn; ring.
  - apply Q4_eq; ring.
Qed.
Lemma sq_lerp p q r : unit_q p -> unit_q q ->
  sq (Q4 ((1 - r) * qx p + r * qx q) ((1 - r) * qy p + r * qy q) ((1 - r) * qz p + r * qz q) ((1 - r) * qs p + r * qs q))
  = (1 - r) * (1 - r) + r * r + 2 * r * (1 - r) * dot4 p q.
Proof.
  intros Hp Hq. transitivity ((1 - r) * (1 - r) * sq p + r * r * sq q + 2 * r * (1 - r) * dot4 p q); [qring |].
  rewrite Hp, Hq. ring.
Qed.
Lemma c39_nlerp_partial eps p q r : 0 < eps -> eps <= 1 / 2 -> unit_q p -> unit_q q -> 0 <= r <= 1 ->
  NLERP eps (Some p) (Some q) (Some 0) = Ok p /\ NLERP eps (Some p) (Some q) (Some 1) = Ok q
  /\ (forall w, NLERP eps (Some p) (Some q) (Some r) = Ok w -> unit_q w)
  /\ (0 <= dot4 p q -> exists w, NLERP eps (Some p) (Some q) (Some r) = Ok w).
Proof.
  intros He H1 Hp Hq Hr. unfold NLERP. destruct (c39_lerp p q r Hr) as [-> [-> _]]. cbn [bind].
  rewrite !normalize_unit by (try assumption; lra). split; [reflexivity |]. split; [reflexivity |].
  rewrite LERP_eq by assumption. cbn [bind]. split.
  - intros w. apply normalize_is_unit. exact He.
  - intros Hd. rewrite normalize_eq. rewrite Rltb_f; [eexists; reflexivity |].
    rewrite qnorm_sqrt, sq_lerp by assumption. apply Rle_trans with (sqrt (1 / 4)).
    + replace (1 / 4) with (1 / 2 * (1 / 2)) by field. rewrite sqrt_square by lra. exact H1.
    + apply sqrt_le_1_alt. assert (0 <= r * (1 - r) * dot4 p q) by (apply Rmult_le_pos; nra). nra.
Qed.
Lemma c39_nlerp_refuted eps : 0 < eps -> exists p q, unit_q p /\ unit_q q /\ NLERP eps (Some p) (Some q) (Some (1 / 2)) = Err ERuntime.
Proof.
  intros He. exists (Q4 0 0 0 1), (Q4 0 0 0 (-1)). split; [unfold unit_q, sq; cbn; ring |]. split; [unfold unit_q, sq; cbn; ring |].
  unfold NLERP. rewrite LERP_eq by lra. cbn [bind qx qy qz qs]. rewrite normalize_eq. rewrite Rltb_t; [reflexivity |].
  rewrite qnorm_sqrt. unfold sq; cbn. match goal with |- sqrt ?x < _ => replace x with 0 by field end. rewrite sqrt_0. exact He.
Qed.
