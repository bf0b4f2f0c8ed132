(** Proofs about cones: the half lines of the lateral surface, transformations. *)

From Coq Require Import List Bool Reals Lra Lia Psatz ZArith.
From Verif Require IntervalModel IntervalSpec.
From Verif Require Import Result DOrder Vec VecProofs AngleModel AngleSpec AngleProofs AngleProofs2 RotModel RotSpec RotProofs RotProofs3 IntervalGridModel IntervalSpec IntervalGridProofs
  Geo3Types Geo3Model Geo3Spec Geo3Proofs Geo3Proofs2 SphereModel SphereSpec EllModel InterModel ConeModel ConeSpec ConeProofs ConeProofs2 ConeProofs3 ConeProofs4.
Import ListNotations.
Local Open Scope R_scope.

Lemma half_q_conj a t : qconj (half_q a t) = half_q a (- t).
Proof.
  unfold half_q. replace (- t / 2) with (- (t / 2)) by field. rewrite sin_neg, cos_neg. unfold qconj, of_parts. destruct a. cbn. f_equal; ring.
Qed.
Lemma frame_rotation_inv a t v : sqnorm3 a = 1 -> frame_rotation a t (frame_rotation a (- t) v) = v.
Proof.
  intros H. rewrite <- !half_q_rot by exact H. rewrite <- half_q_conj. apply rot_conj_r. apply half_q_unit. exact H.
Qed.
(** The conjugate of the frame rotation turns the vectors. *)
Lemma turned_ok eps a k t v : 0 < eps < 1 -> Rabs (norm3 a - 1) <= eps -> turns k = Some (t / (2 * PI)) ->
  turned eps a k v = Ok (frame_rotation (normalized3 a) (- t) v).
Proof.
  intros He Ha Hk. unfold turned. destruct (RotationVector_ok eps a k) as [H _]; try lra. destruct (H Ha) as (r & E & Ax & An & U). rewrite E. cbn [bind].
  pose proof PI_RGT_0.
  assert (Rv : rv_rotates r (frame_rotation (normalized3 a) t)).
  { exists (normalized3 a), t. split; [exact Ax |]. split; [rewrite An; exact Hk |]. split; [exact U | reflexivity]. }
  destruct (rv_to_q eps r _ ltac:(lra) ltac:(lra) Rv) as (q & Eq & Uq & Rq). rewrite Eq. cbn [bind conjugate needd].
  rewrite q_rotate_unit by (try apply unit_conj; try assumption; lra). f_equal.
  set (w := frame_rotation (normalized3 a) (- t) v). pose proof (Rq w) as E2. rewrite q_rotate_unit in E2 by (assumption || lra).
  assert (E3 : rot q w = v).
  { unfold w in *. rewrite <- (frame_rotation_inv (normalized3 a) t v U) at 2. congruence. }
  rewrite <- E3 at 1. apply rot_conj. exact Uq.
Qed.
(** Turning the axis about a perpendicular. *)
Lemma frame_scale a t k v : frame_rotation a t (scale3 k v) = scale3 k (frame_rotation a t v).
Proof. unfold frame_rotation. generalize (cos t), (sin t). clear. intros c s. v3ring. Qed.
Lemma first_formula e h s c k : sub3 (add3 (scale3 c h) (scale3 (k * 0) e)) (scale3 (- s) (cross3 e h)) = add3 (scale3 c h) (scale3 s (cross3 e h)).
Proof. v3ring. Qed.
Lemma first_direction e h t : dot3 e h = 0 -> frame_rotation e (- t) h = add3 (scale3 (cos t) h) (scale3 (sin t) (cross3 e h)).
Proof. intros D. unfold frame_rotation. rewrite cos_neg, sin_neg, D. apply first_formula. Qed.
Lemma cross_unit e h : sqnorm3 e = 1 -> sqnorm3 h = 1 -> dot3 e h = 0 -> sqnorm3 (cross3 e h) = 1.
Proof. intros He Hh D. rewrite lagrange3, He, Hh, D. ring. Qed.
Lemma next_formula h e c s c' s' k : sub3 (add3 (scale3 c' (add3 (scale3 c h) (scale3 s e))) (scale3 ((1 - c') * c) h)) (scale3 (- s') (cross3 h (add3 (scale3 c h) (scale3 s e))))
  = add3 (add3 (scale3 c h) (scale3 s (add3 (scale3 c' e) (scale3 s' (cross3 h e))))) (scale3 (k * 0) h).
Proof. v3ring. Qed.
Lemma add3_0_r v k h : add3 v (scale3 (k * 0) h) = v.
Proof. v3ring. Qed.
Lemma next_direction h e t s : sqnorm3 h = 1 -> dot3 e h = 0 ->
  frame_rotation h (- s) (add3 (scale3 (cos t) h) (scale3 (sin t) e)) = add3 (scale3 (cos t) h) (scale3 (sin t) (around h e s)).
Proof.
  intros Hh D. unfold frame_rotation. rewrite cos_neg, sin_neg.
  rewrite (dot3_sym h (add3 _ _)), dot_add, !dot3_scale_l, D, (unit_dot h Hh).
  replace (cos t * 1 + sin t * 0) with (cos t) by ring. rewrite (next_formula h e (cos t) (sin t) (cos s) (sin s) 0), add3_0_r. reflexivity.
Qed.
Lemma around_unit h e s : sqnorm3 h = 1 -> sqnorm3 e = 1 -> dot3 e h = 0 -> sqnorm3 (around h e s) = 1 /\ dot3 (around h e s) h = 0.
Proof.
  intros Hh He D. unfold around. assert (C : sqnorm3 (cross3 h e) = 1) by (apply cross_unit; [exact Hh | exact He | rewrite dot3_sym; exact D]).
  assert (P : dot3 (cross3 h e) e = 0) by (clear; v3ring). split.
  - rewrite sqnorm_comb, He, C, (dot3_sym e), P. pose proof (sin_cos s). lra.
  - rewrite dot_add, !dot3_scale_l, D, cross_perp. ring.
Qed.
(** The angle from one to the other. *)
Lemma around_angle h e s s' : sqnorm3 h = 1 -> sqnorm3 e = 1 -> dot3 e h = 0 -> dot3 (around h e s) (around h e s') = cos (s - s').
Proof.
  intros Hh He D. unfold around. assert (C : sqnorm3 (cross3 h e) = 1) by (apply cross_unit; [exact Hh | exact He | rewrite dot3_sym; exact D]).
  assert (P : dot3 (cross3 h e) e = 0) by (clear; v3ring).
  rewrite dot_add, !dot3_scale_l, !(dot3_sym _ (add3 _ _)), !dot_add, !dot3_scale_l, (dot3_sym e (cross3 h e)), P, (unit_dot e He), (unit_dot _ C), cos_minus. ring.
Qed.

(** The reference perpendicular. *)
Definition reference (u : v3) : v3 :=
  if Rltb (Rabs (dot3 u (V3 1 0 0))) (1 / 2) then normalized3 (cross3 u (V3 1 0 0)) else normalized3 (cross3 u (V3 0 1 0)).
Lemma cross_nonzero u x y : 0 < sqnorm3 (cross3 u x) -> normalized3 (cross3 u x) = y -> sqnorm3 y = 1 /\ dot3 y u = 0.
Proof.
  intros H <-. destruct (normalized3_unit (cross3 u x) ltac:(apply sqnorm3_pos; exact H)) as [U E]. split; [exact U |].
  rewrite E, dot3_scale_l, cross_perp. ring.
Qed.
Lemma reference_ok u : 1 / 4 < sqnorm3 u -> sqnorm3 (reference u) = 1 /\ dot3 (reference u) u = 0.
Proof.
  intros H. unfold reference.
  assert (X : sqnorm3 (cross3 u (V3 1 0 0)) = vy u * vy u + vz u * vz u) by v3ring.
  assert (Y : sqnorm3 (cross3 u (V3 0 1 0)) = vx u * vx u + vz u * vz u) by v3ring.
  assert (S : sqnorm3 u = vx u * vx u + vy u * vy u + vz u * vz u) by v3ring.
  assert (D : dot3 u (V3 1 0 0) = vx u) by v3ring. rewrite D.
  pose proof (VecProofs.sq_nonneg (vz u)). pose proof (VecProofs.sq_nonneg (vy u)).
  destruct (Rltb (Rabs (vx u)) (1 / 2)) eqn:B.
  - apply Rltb_true in B. eapply cross_nonzero; [| reflexivity]. rewrite X. assert (vx u * vx u < 1 / 4) by (unfold Rabs in B; destruct Rcase_abs; nra). lra.
  - apply Rltb_false in B. eapply cross_nonzero; [| reflexivity]. rewrite Y. assert (1 / 4 <= vx u * vx u) by (unfold Rabs in B; destruct Rcase_abs; nra). lra.
Qed.
Lemma nth_error_same {A} (l l' : list A) : (forall i, nth_error l i = nth_error l' i) -> l = l'.
Proof.
  revert l'. induction l as [| x l IH]; intros [| y l'] H; [reflexivity | discriminate (H 0%nat) | discriminate (H 0%nat) |].
  pose proof (H 0%nat) as E. injection E as ->. f_equal. apply IH. intros i. exact (H (S i)).
Qed.
Lemma map_nth_seq {A B} (f : A -> B) (g : nat -> B) n l : length l = n -> (forall i, (i < n)%nat -> option_map f (nth_error l i) = Some (g i)) ->
  map f l = map g (seq 0 n).
Proof.
  intros Hl H. apply nth_error_same. intros i. destruct (Nat.lt_ge_cases i n) as [L | L].
  - rewrite !nth_error_map, H by exact L. rewrite (nth_error_nth' (seq 0 n) 0%nat) by (rewrite seq_length; exact L). rewrite seq_nth by exact L. reflexivity.
  - rewrite !(proj2 (nth_error_None _ _)); [reflexivity | rewrite map_length, seq_length; exact L | rewrite map_length, Hl; exact L].
Qed.
Lemma degrees_ok n : (0 < n)%nat -> exists l, (if Nat.ltb 1 n then let! i := @IntervalModel.HalfOpenRight R_order 0 360 in generateArrayWithSize i n else Ok [0]) = Ok l
  /\ length l = n /\ forall i, (i < n)%nat -> nth_error l i = Some (INR i * (360 / INR n)).
Proof.
  intros Hn. destruct (Nat.ltb 1 n) eqn:B.
  - apply Nat.ltb_lt in B.
    assert (V : @IntervalSpec.valid R_order (@IntervalModel.mkI R_order IntervalModel.THalfOpenRight (Some 0) (Some 360))).
    { split; [discriminate |]. left. apply Rltb_t. lra. }
    destruct (withSize_spec _ 0 360 n V B) as (l & E & L & N).
    assert (EI : @IntervalModel.HalfOpenRight R_order 0 360 = Ok (@IntervalModel.mkI R_order IntervalModel.THalfOpenRight (Some 0) (Some 360))).
    { unfold IntervalModel.HalfOpenRight, IntervalModel.construct, gtb, eqb. cbn [ltb R_order]. rewrite !(Rltb_f 360 0), (Rltb_t 0 360) by lra. reflexivity. }
    rewrite EI. cbn [bind]. exists l. split; [exact E |]. split; [exact L |]. intros i Hi. rewrite (N i Hi). f_equal. unfold first_index, cells. cbn.
    replace (i + 0)%nat with i by lia. replace (n - 1 + 0 + 1)%nat with n by lia. lra.
  - apply Nat.ltb_ge in B. assert (n = 1%nat) as -> by lia. exists [0]. split; [reflexivity |]. split; [reflexivity |]. intros [| i] Hi; [| lia]. cbn. f_equal. lra.
Qed.
Lemma unit_within u eps : 0 < eps < 1 / 2 -> Rabs (norm3 u - 1) <= eps -> 1 / 4 < sqnorm3 u.
Proof. intros He H. rewrite <- norm3_sq. assert (1 / 2 < norm3 u) by (unfold Rabs in H; destruct Rcase_abs; lra). nra. Qed.
Lemma c58_rays eps c a u k t n : 0 < eps < 1 / 2 -> c = mkCone (Some a) (Some u) k -> turns k = Some (t / (2 * PI)) -> Rabs (norm3 u - 1) <= eps -> (0 < n)%nat ->
  exists e, sqnorm3 e = 1 /\ dot3 e u = 0 /\
    co_rays eps c n = Ok (map (fun i => mkRay (Some a) (Some (lateral (normalized3 u) e t n i))) (seq 0 n)).
Proof.
  intros He -> Hk Hu Hn. pose proof (unit_within u eps He Hu) as Q. destruct (reference_ok u Q) as [Ue De].
  pose proof (norm3_pos u ltac:(lra)) as Pu. destruct (axis_unit u ltac:(lra)) as (h & Eh & Hh & Eu). rewrite Eh.
  set (e0 := reference u) in *. assert (De' : dot3 e0 h = 0).
  { rewrite Eu, dot3_scale_r in De. apply Rmult_integral in De. destruct De as [De | De]; [exfalso; lra | exact De]. }
  set (e := cross3 e0 h). assert (Ue' : sqnorm3 e = 1) by (apply cross_unit; assumption). assert (Dh : dot3 e h = 0) by (unfold e; clear; v3ring).
  exists e. split; [exact Ue' |]. split; [rewrite Eu, dot3_scale_r, Dh; ring |].
  unfold co_rays. replace (Nat.eqb n 0) with false by (symmetry; apply Nat.eqb_neq; lia). cbn [co_axis co_apex co_angle needd bind]. fold (reference u). fold e0.
  rewrite (turned_ok eps e0 k t u) by (try assumption; try lra; rewrite (norm_unit e0 Ue), Rminus_diag_eq, Rabs_R0 by reflexivity; lra). cbn [bind].
  assert (N0 : normalized3 e0 = e0) by (rewrite <- (scale3_1 e0) at 1; apply normalized_scaled; [lra | exact Ue]). rewrite N0.
  rewrite Eu at 1. rewrite frame_scale, (first_direction e0 h t De'). fold e.
  destruct (edge_unit h e t Hh Ue' Dh) as [W1 W2]. set (w := add3 (scale3 (cos t) h) (scale3 (sin t) e)) in *.
  assert (Er : Ray (Some a) (Some (scale3 (norm3 u) w)) = Ok (mkRay (Some a) (Some w))).
  { unfold Ray, unit_direction. rewrite sqnorm3_scale, W1, Rmult_1_r. destruct (Reqb (norm3 u * norm3 u) 1) eqn:B1.
    - apply Reqb_iff in B1. assert (N1 : norm3 u = 1) by nra. rewrite N1, scale3_1. reflexivity.
    - rewrite (proj2 (Reqb_false (norm3 u * norm3 u) 0)) by nra. rewrite (normalized_scaled (norm3 u) w Pu W1). reflexivity. }
  rewrite Er. cbn [bind]. destruct (degrees_ok n Hn) as (l & El & Ll & Nl). rewrite El. cbn [bind].
  rewrite (mapM_ok _ (fun x => mkRay (Some a) (Some (add3 (scale3 (cos t) h) (scale3 (sin t) (around h e (x * (2 * PI) / 360))))))).
  - f_equal. apply map_nth_seq; [exact Ll |]. intros i Hi. rewrite (Nl i Hi). cbn [option_map]. unfold lateral.
    assert (INR n <> 0) by (apply not_0_INR; lia). replace (INR i * (360 / INR n) * (2 * PI) / 360) with (2 * PI * INR i / INR n) by (field; assumption). reflexivity.
  - intros x _. cbn [r_data r_origin r_direction bind].
    rewrite (turned_ok eps u (mkA (Some x) Degree) (x * (2 * PI) / 360)); [| lra | exact Hu |].
    2: { rewrite turns_mk by discriminate. cbn [units_per_turn]. f_equal. field. pose proof PI_RGT_0. lra. }
    cbn [bind]. rewrite Eh. unfold w. rewrite (next_direction h e t _ Hh Dh).
    apply ray_of_unit. destruct (around_unit h e (x * (2 * PI) / 360) Hh Ue' Dh) as [A1 A2]. apply (edge_unit h _ t Hh A1 A2).
Qed.
(** What these half lines are. *)
Lemma c58_on_cone u e t n i a s : 0 < sqnorm3 u -> sqnorm3 e = 1 -> dot3 e u = 0 ->
  sqnorm3 (lateral (normalized3 u) e t n i) = 1 /\ (0 <= s -> on_cone a u t (along a s (lateral (normalized3 u) e t n i))).
Proof.
  intros Qu He De. pose proof (norm3_pos u Qu) as Pu. destruct (axis_unit u Qu) as (h & Eh & Hh & Eu). rewrite Eh.
  assert (Dh : dot3 e h = 0).
  { rewrite Eu, dot3_scale_r in De. apply Rmult_integral in De. destruct De as [De | De]; [exfalso; lra | exact De]. }
  destruct (around_unit h e (2 * PI * INR i / INR n) Hh He Dh) as [A1 A2]. destruct (edge_unit h _ t Hh A1 A2) as [W1 W2]. fold (lateral h e t n i) in W1, W2.
  split; [exact W1 |]. intros Hs. apply (on_cone_unit a u h t _ Pu Eu). rewrite along_sub, norm3_scale, (norm_unit _ W1), dot3_scale_l, W2, Rabs_right by lra. ring.
Qed.
Lemma dot_combs c s h v w : dot3 (add3 (scale3 c h) (scale3 s v)) (add3 (scale3 c h) (scale3 s w)) = c * c * dot3 h h + c * s * dot3 w h + s * c * dot3 v h + s * s * dot3 v w.
Proof. v3ring. Qed.
(** Evenly spread: the parts across the axis are [2 * PI / n] apart. *)
Lemma c58_spread u e t n i j : 0 < sqnorm3 u -> sqnorm3 e = 1 -> dot3 e u = 0 ->
  dot3 (lateral (normalized3 u) e t n i) (lateral (normalized3 u) e t n j) = cos t * cos t + sin t * sin t * cos (2 * PI * INR i / INR n - 2 * PI * INR j / INR n).
Proof.
  intros Qu He De. pose proof (norm3_pos u Qu) as Pu. destruct (axis_unit u Qu) as (h & Eh & Hh & Eu). rewrite Eh.
  assert (Dh : dot3 e h = 0).
  { rewrite Eu, dot3_scale_r in De. apply Rmult_integral in De. destruct De as [De | De]; [exfalso; lra | exact De]. }
  unfold lateral. set (x := 2 * PI * INR i / INR n). set (y := 2 * PI * INR j / INR n).
  destruct (around_unit h e x Hh He Dh) as [_ A]. destruct (around_unit h e y Hh He Dh) as [_ B]. rewrite <- (around_angle h e x y Hh He Dh).
  set (v := around h e x) in *. set (w := around h e y) in *.
  rewrite dot_combs, A, B, (unit_dot h Hh). ring.
Qed.
(** An axis which is not a unit vector, as the constructor accepts. *)
Lemma c58_not_unit eps c a u k t n : 0 < eps < 1 / 2 -> c = mkCone (Some a) (Some u) k -> turns k = Some (t / (2 * PI)) -> eps < Rabs (norm3 u - 1) -> (0 < n)%nat ->
  co_rays eps c n = Err ERuntime.
Proof.
  intros He -> Hk Hu Hn. unfold co_rays. replace (Nat.eqb n 0) with false by (symmetry; apply Nat.eqb_neq; lia). cbn [co_axis co_apex co_angle needd bind]. fold (reference u).
  assert (C : sqnorm3 (reference u) = 1 /\ dot3 (reference u) u = 0 /\ u <> zero3 \/ reference u = zero3).
  { unfold reference. destruct Rltb.
    - destruct (Req_dec (sqnorm3 (cross3 u (V3 1 0 0))) 0) as [Z | Z].
      + right. unfold normalized3. rewrite Z. destruct Rlt_dec; [lra | apply sqnorm3_0; exact Z].
      + left. destruct (cross_nonzero u (V3 1 0 0) _ ltac:(pose proof (sqnorm3_nonneg (cross3 u (V3 1 0 0))); lra) eq_refl) as [A B]. split; [exact A |]. split; [exact B |].
        intros ->. apply Z. v3unfold. ring.
    - destruct (Req_dec (sqnorm3 (cross3 u (V3 0 1 0))) 0) as [Z | Z].
      + right. unfold normalized3. rewrite Z. destruct Rlt_dec; [lra | apply sqnorm3_0; exact Z].
      + left. destruct (cross_nonzero u (V3 0 1 0) _ ltac:(pose proof (sqnorm3_nonneg (cross3 u (V3 0 1 0))); lra) eq_refl) as [A B]. split; [exact A |]. split; [exact B |].
        intros ->. apply Z. v3unfold. ring. }
  destruct C as [(Ue & De & Un) | ->].
  - set (e0 := reference u) in *.
    rewrite (turned_ok eps e0 k t u) by (try assumption; try lra; rewrite (norm_unit e0 Ue), Rminus_diag_eq, Rabs_R0 by reflexivity; lra). cbn [bind].
    assert (N0 : normalized3 e0 = e0) by (rewrite <- (scale3_1 e0) at 1; apply normalized_scaled; [lra | exact Ue]). rewrite N0.
    assert (Er : exists d, Ray (Some a) (Some (frame_rotation e0 (- t) u)) = Ok (mkRay (Some a) (Some d))).
    { unfold Ray, unit_direction. destruct Reqb; [eexists; reflexivity |]. destruct (Reqb _ 0) eqn:B; [| eexists; reflexivity].
      exfalso. apply Reqb_iff, sqnorm3_0 in B. apply Un. rewrite <- (frame_rotation_inv e0 t u Ue), B. unfold frame_rotation. generalize (cos t), (sin t). clear. intros c s. v3ring. }
    destruct Er as (d & ->). cbn [bind]. destruct (degrees_ok n Hn) as (l & El & Ll & Nl). rewrite El. cbn [bind].
    destruct l as [| x l]; [cbn in Ll; lia |]. cbn [mapM r_data r_origin r_direction bind]. unfold turned at 1.
    rewrite (proj2 (RotationVector_ok eps u _ ltac:(lra) ltac:(lra)) Hu). reflexivity.
  - unfold turned at 1. rewrite (proj2 (RotationVector_ok eps zero3 k ltac:(lra) ltac:(lra))); [reflexivity |]. rewrite norm3_zero. rewrite Rabs_left by lra. lra.
Qed.
Lemma c58_errors eps c n : co_rays eps c 0 = Err EWrong /\ ((0 < n)%nat -> co_axis c = None -> co_rays eps c n = Err EUndefined).
Proof.
  split; [reflexivity |]. intros Hn Hc. unfold co_rays. replace (Nat.eqb n 0) with false by (symmetry; apply Nat.eqb_neq; lia). rewrite Hc. reflexivity.
Qed.
