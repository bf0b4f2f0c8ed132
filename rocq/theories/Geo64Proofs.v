(** Containment in linear objects in double precision. *)

From Coq Require Import List Bool Arith ZArith Reals Lra Lia Floats.SpecFloat.
From Verif Require Import Result Vec DOrder AngleModel FloatSpec FloatProofs FloatProofs2 FloatModel FloatProofs3 FloatProofs4 Geo3Types Geo3Model Geo3Spec Geo64Model Geo64Spec.
Import ListNotations.
Local Open Scope R_scope.

(** *** Products and sums *)
Lemma mul_comm64 x y : b64_mul x y = b64_mul y x.
Proof.
  unfold b64_mul. destruct x as [s | s | | s m e], y as [s' | s' | | s' m' e']; cbn [SFmul]; rewrite ?(xorb_comm s s'); try reflexivity.
  rewrite (Pos.mul_comm m m'), (Z.add_comm e e'). reflexivity.
Qed.
Lemma zero_of x : finite64 x -> rval x = 0 -> exists s, x = S754_zero s.
Proof.
  destruct x as [s | s | | s m e]; intros F V; try contradiction; [exists s; reflexivity |]. exfalso. rewrite rval_sg in V. pose proof (pos_pos m e). destruct s; cbn [sg] in V; lra.
Qed.
Lemma mul_zero x y : finite64 x -> finite64 y -> rval y = 0 -> finite64 (b64_mul x y) /\ rval (b64_mul x y) = 0.
Proof.
  intros Fx Fy V. destruct (zero_of y Fy V) as [s' ->]. destruct x as [s | s | | s m e]; try contradiction; split; cbn; try exact I; reflexivity.
Qed.
Lemma zero_mul x y : finite64 x -> finite64 y -> rval x = 0 -> finite64 (b64_mul x y) /\ rval (b64_mul x y) = 0.
Proof. intros Fx Fy V. rewrite mul_comm64. apply mul_zero; assumption. Qed.
Lemma sub_zero x y : finite64 x -> finite64 y -> rval x = 0 -> rval y = 0 -> finite64 (sf_sub x y) /\ rval (sf_sub x y) = 0.
Proof.
  intros Fx Fy Vx Vy. destruct (sub_int x y 0 0 Fx Fy Vx Vy ltac:(lia)) as [F V]. split; [exact F | exact V].
Qed.
Lemma add_zero x y : finite64 x -> finite64 y -> rval x = 0 -> rval y = 0 -> finite64 (sf_add x y) /\ rval (sf_add x y) = 0.
Proof.
  intros Fx Fy Vx Vy. destruct (add_int x y 0 0 Fx Fy Vx Vy ltac:(lia)) as [F V]. split; [exact F | exact V].
Qed.
Lemma zero3_dot r a b : finite3 a -> finite3 b -> val3 b = V3 0 0 0 -> finite64 (fdot3 r a b) /\ rval (fdot3 r a b) = 0.
Proof.
  intros (Ax & Ay & Az) (Bx & By & Bz) V. injection V as Vx Vy Vz.
  destruct (mul_zero _ _ Ax Bx Vx) as [F1 Z1]. destruct (mul_zero _ _ Ay By Vy) as [F2' Z2]. destruct (mul_zero _ _ Az Bz Vz) as [F3' Z3].
  unfold fdot3, sum64. destruct r.
  - destruct (add_zero _ _ F1 F2' Z1 Z2). apply add_zero; assumption.
  - destruct (add_zero _ _ F2' F3' Z2 Z3). apply add_zero; assumption.
Qed.
Lemma dot_comm64 r a b : fdot3 r a b = fdot3 r b a.
Proof. unfold fdot3. rewrite (mul_comm64 (fx a)), (mul_comm64 (fy a)), (mul_comm64 (fz a)). reflexivity. Qed.
Lemma zero3_cross a b : finite3 a -> finite3 b -> val3 b = V3 0 0 0 -> finite3 (fcross3 a b) /\ val3 (fcross3 a b) = V3 0 0 0.
Proof.
  intros (Ax & Ay & Az) (Bx & By & Bz) V. injection V as Vx Vy Vz. unfold finite3, val3, fcross3. cbn [fx fy fz].
  destruct (mul_zero _ _ Ay Bz Vz), (mul_zero _ _ Az By Vy), (mul_zero _ _ Az Bx Vx), (mul_zero _ _ Ax Bz Vz), (mul_zero _ _ Ax By Vy), (mul_zero _ _ Ay Bx Vx).
  destruct (sub_zero (b64_mul (fy a) (fz b)) (b64_mul (fz a) (fy b))) as [? ->]; try assumption.
  destruct (sub_zero (b64_mul (fz a) (fx b)) (b64_mul (fx a) (fz b))) as [? ->]; try assumption.
  destruct (sub_zero (b64_mul (fx a) (fy b)) (b64_mul (fy a) (fx b))) as [? ->]; try assumption.
  split; [split; [| split] | reflexivity]; assumption.
Qed.
Lemma self_sub a : finite3 a -> finite3 (fsub3 a a) /\ val3 (fsub3 a a) = V3 0 0 0.
Proof.
  intros (Ax & Ay & Az). unfold finite3, val3, fsub3. cbn [fx fy fz]. destruct (sub_self _ Ax) as [-> ?], (sub_self _ Ay) as [-> ?], (sub_self _ Az) as [-> ?].
  split; [split; [| split] | reflexivity]; assumption.
Qed.
Lemma zero_sqnorm r a : finite3 a -> val3 a = V3 0 0 0 -> SFeqb (fsqnorm3 r a) zero64 = true.
Proof. intros F V. destruct (zero3_dot r a a F F V) as [Fd Vd]. unfold fsqnorm3. apply SFeqb_val; [exact Fd | exact I | rewrite Vd; reflexivity]. Qed.
Lemma feq3_val a b : finite3 a -> finite3 b -> (feq3 a b = true <-> val3 a = val3 b).
Proof.
  intros (Ax & Ay & Az) (Bx & By & Bz). unfold feq3. rewrite !andb_true_iff, !SFeqb_val by assumption. unfold val3. split; [intros [[-> ->] ->]; reflexivity | intros E; injection E as -> -> ->; repeat split].
Qed.

(** *** Objects contain the points they start from *)
Lemma c126_origin r o d : finite3 o -> finite3 d ->
  l64_contains r (mkL64 (Some o) (Some d)) (Some o) = Ok true /\ r64_contains r (mkL64 (Some o) (Some d)) (Some o) = Ok true /\
  p64_contains r (mkP64 (Some o) (Some d)) (Some o) = Ok true.
Proof.
  intros Fo Fd. destruct (self_sub o Fo) as [Fs Vs]. destruct (zero3_cross d _ Fd Fs Vs) as [Fc Vc]. destruct (zero3_dot r d _ Fd Fs Vs) as [Ft Vt].
  unfold l64_contains, r64_contains, p64_contains. cbn [need3 bind l64_data l64_origin l64_direction p64_point p64_normal]. rewrite (zero_sqnorm r _ Fc Vc). split; [reflexivity |]. split.
  - f_equal. apply SFleb_val; [exact I | exact Ft | rewrite Vt; cbn; lra].
  - rewrite dot_comm64. f_equal. apply SFeqb_val; [exact Ft | exact I | rewrite Vt; reflexivity].
Qed.

(** *** Sums of numbers that are not negative *)
Lemma add_pos x y B : finite64 x -> finite64 y -> 0 <= rval x -> 0 <= rval y -> rval x + rval y <= B -> B <= P2 1023 ->
  finite64 (sf_add x y) /\ rval x <= rval (sf_add x y) /\ rval y <= rval (sf_add x y) /\ rval (sf_add x y) <= 2 * (rval x + rval y).
Proof.
  intros Fx Fy Px Py U B1. assert (T : Rabs (rval x + rval y) <= P2 1023) by (rewrite Rabs_right; lra).
  destruct (SFadd_rounded x y Fx Fy T) as [N _]. pose proof (add_err x y Fx Fy T) as E.
  change (SFadd 53 1024 x y) with (sf_add x y) in *. split; [exact (proj1 N) |]. split; [apply (nearest_below _ _ x N Fx); lra |]. split; [apply (nearest_below _ _ y N Fy); lra |].
  rewrite (Rabs_right (_ + _)) in E by lra. apply abs_le in E. pose proof (P2_mono (-53) 0 ltac:(lia)) as Q. rewrite P2_0 in Q. pose proof (P2_pos (-53)). nra.
Qed.
Lemma mul_bound x y a b : finite64 x -> finite64 y -> Rabs (rval x) <= P2 a -> Rabs (rval y) <= P2 b -> (a + b <= 1023)%Z -> (-1074 <= a + b)%Z ->
  finite64 (b64_mul x y) /\ rounded64 (rval x * rval y) (b64_mul x y) /\ Rabs (rval (b64_mul x y)) <= P2 (a + b).
Proof.
  intros Fx Fy Bx By S S'. assert (T : Rabs (rval x * rval y) <= P2 (a + b)) by (rewrite Rabs_mult, P2_add; apply Rmult_le_compat; try apply Rabs_pos; assumption).
  assert (U : Rabs (rval x * rval y) <= P2 1023) by (eapply Rle_trans; [exact T | apply P2_mono; lia]).
  pose proof (SFmul_rounded x y Fx Fy U) as N. change (SFmul 53 1024 x y) with (b64_mul x y) in N. split; [exact (proj1 (proj1 N)) |]. split; [exact N |].
  assert (W : representable (IZR 1 * P2 (a + b))).
  { destruct (Z.le_gt_cases (a + b) 971) as [C | C].
    - apply grid_representable; [lia | lia |]. rewrite Rmult_1_l. apply P2_mono. lia.
    - replace (IZR 1 * P2 (a + b)) with (IZR (2 ^ (a + b - 971)) * P2 971) by (rewrite P2_Z, <- P2_add by lia; rewrite Rmult_1_l; f_equal; lia).
      apply grid_representable; [lia | |].
      + rewrite Z.abs_eq by (apply Z.pow_nonneg; lia). apply Z.pow_le_mono_r; lia.
      + rewrite Z.abs_eq by (apply Z.pow_nonneg; lia). rewrite P2_Z, <- P2_add by lia. apply P2_mono. lia. }
  rewrite Rmult_1_l in W. destruct W as (w & Fw & Vw). apply abs_le in T. apply abs_of. split.
  - apply Ropp_le_cancel. rewrite Ropp_involutive. pose proof (nearest_below _ _ (SFopp w) (proj1 N) (SFopp_finite _ Fw)) as L. rewrite SFopp_val, Vw in L. lra.
  - rewrite <- Vw. apply (nearest_above _ _ w (proj1 N) Fw). lra.
Qed.
Lemma square_pos x a : finite64 x -> Rabs (rval x) <= P2 a -> (-500 <= a <= 500)%Z -> finite64 (b64_mul x x) /\ 0 <= rval (b64_mul x x) <= P2 (2 * a).
Proof.
  intros F B S. destruct (mul_bound x x a a F F B B ltac:(lia) ltac:(lia)) as (Fm & N & U). split; [exact Fm |]. apply abs_le in U. replace (a + a)%Z with (2 * a)%Z in U by lia. split; [| lra].
  pose proof (nearest_below _ _ (S754_zero false) (proj1 N) I) as L. rewrite rval_zero in L. apply L. nra.
Qed.
Lemma sum64_pos r x y z a : finite64 x -> finite64 y -> finite64 z -> 0 <= rval x <= P2 a -> 0 <= rval y <= P2 a -> 0 <= rval z <= P2 a -> (a <= 1000)%Z ->
  finite64 (sum64 r x y z) /\ rval x <= rval (sum64 r x y z) /\ rval y <= rval (sum64 r x y z) /\ rval z <= rval (sum64 r x y z) /\ rval (sum64 r x y z) <= P2 (a + 4).
Proof.
  intros Fx Fy Fz Bx By Bz A. pose proof (P2_mono a 1000 A) as Q. pose proof (P2_pos a).
  assert (Q4 : P2 (a + 4) = 16 * P2 a) by (rewrite P2_add; replace (P2 4) with 16 by (rewrite <- P2_Z by lia; reflexivity); ring).
  assert (Q10 : P2 1000 * 16 <= P2 1023) by (replace 16 with (P2 4) by (rewrite <- P2_Z by lia; reflexivity); rewrite <- P2_add; apply P2_mono; lia).
  unfold sum64. destruct r.
  - destruct (add_pos x y (2 * P2 a) Fx Fy ltac:(lra) ltac:(lra) ltac:(lra) ltac:(lra)) as (F1 & L1 & L2 & U1).
    destruct (add_pos (sf_add x y) z (5 * P2 a) F1 Fz ltac:(lra) ltac:(lra) ltac:(lra) ltac:(lra)) as (F2' & L3 & L4 & U2). split; [exact F2' |]. lra.
  - destruct (add_pos y z (2 * P2 a) Fy Fz ltac:(lra) ltac:(lra) ltac:(lra) ltac:(lra)) as (F1 & L1 & L2 & U1).
    destruct (add_pos x (sf_add y z) (5 * P2 a) Fx F1 ltac:(lra) ltac:(lra) ltac:(lra) ltac:(lra)) as (F2' & L3 & L4 & U2). split; [exact F2' |]. lra.
Qed.
Lemma sub_bound x y a : finite64 x -> finite64 y -> Rabs (rval x) <= P2 a -> Rabs (rval y) <= P2 a -> (a <= 1000)%Z ->
  finite64 (sf_sub x y) /\ rounded64 (rval x - rval y) (sf_sub x y) /\ Rabs (rval (sf_sub x y) - (rval x - rval y)) <= P2 (-53) * Rabs (rval x - rval y) /\ Rabs (rval (sf_sub x y)) <= P2 (a + 2).
Proof.
  intros Fx Fy Bx By A. assert (T : Rabs (rval x - rval y) <= 2 * P2 a) by (apply abs_le in Bx; apply abs_le in By; apply abs_of; lra).
  assert (U : Rabs (rval x - rval y) <= P2 1023) by (eapply Rle_trans; [exact T |]; rewrite <- P2_succ; apply P2_mono; lia).
  pose proof (SFsub_rounded x y Fx Fy U) as N. pose proof (sub_err x y Fx Fy U) as E. change (SFsub 53 1024 x y) with (sf_sub x y) in *.
  split; [exact (proj1 (proj1 N)) |]. split; [exact N |]. split; [exact E |].
  replace (P2 (a + 2)) with (4 * P2 a) by (replace (a + 2)%Z with (a + 1 + 1)%Z by lia; rewrite !P2_succ; ring).
  pose proof (P2_mono (-53) 0 ltac:(lia)) as Q. rewrite P2_0 in Q. pose proof (P2_pos (-53)). pose proof (Rabs_pos (rval x - rval y)).
  assert (E' : Rabs (rval (sf_sub x y) - (rval x - rval y)) <= 2 * P2 a) by nra. apply abs_le in E'. apply abs_le in T. apply abs_of. lra.
Qed.
Lemma sub3_bound a b k : finite3 a -> finite3 b -> within3 (P2 k) a -> within3 (P2 k) b -> (k <= 1000)%Z -> finite3 (fsub3 a b) /\ within3 (P2 (k + 2)) (fsub3 a b).
Proof.
  intros (Ax & Ay & Az) (Bx & By & Bz) (Ux & Uy & Uz) (Vx & Vy & Vz) K. unfold finite3, within3, fsub3. cbn [fx fy fz].
  destruct (sub_bound _ _ k Ax Bx Ux Vx K) as (? & _ & _ & ?), (sub_bound _ _ k Ay By Uy Vy K) as (? & _ & _ & ?), (sub_bound _ _ k Az Bz Uz Vz K) as (? & _ & _ & ?). repeat split; assumption.
Qed.
Lemma sqnorm_pos r a k : finite3 a -> within3 (P2 k) a -> (-490 <= k <= 490)%Z -> finite64 (fsqnorm3 r a) /\ 0 <= rval (fsqnorm3 r a).
Proof.
  intros (Ax & Ay & Az) (Ux & Uy & Uz) K. unfold fsqnorm3, fdot3.
  destruct (square_pos _ k Ax Ux ltac:(lia)) as [F1 B1]. destruct (square_pos _ k Ay Uy ltac:(lia)) as [F2' B2]. destruct (square_pos _ k Az Uz ltac:(lia)) as [F3' B3].
  destruct (sum64_pos r _ _ _ (2 * k) F1 F2' F3' B1 B2 B3 ltac:(lia)) as (F & L & _). split; [exact F | lra].
Qed.
Lemma cross_self a k : finite3 a -> within3 (P2 k) a -> (-490 <= k <= 490)%Z -> finite3 (fcross3 a a) /\ val3 (fcross3 a a) = V3 0 0 0.
Proof.
  intros (Ax & Ay & Az) (Ux & Uy & Uz) K. unfold finite3, val3, fcross3. cbn [fx fy fz].
  rewrite (mul_comm64 (fz a) (fy a)), (mul_comm64 (fz a) (fx a)), (mul_comm64 (fy a) (fx a)).
  destruct (mul_bound _ _ k k Ax Ay Ux Uy ltac:(lia) ltac:(lia)) as (F1 & _), (mul_bound _ _ k k Ax Az Ux Uz ltac:(lia) ltac:(lia)) as (F2' & _), (mul_bound _ _ k k Ay Az Uy Uz ltac:(lia) ltac:(lia)) as (F3' & _).
  destruct (sub_self _ F1) as [-> ?], (sub_self _ F2') as [-> ?], (sub_self _ F3') as [-> ?]. repeat split; assumption.
Qed.
Lemma c126_ends r a b : finite3 a -> finite3 b -> within3 (IZR (2 ^ 400)) a -> within3 (IZR (2 ^ 400)) b ->
  s64_contains r (mkS64 (Some a) (Some b)) (Some a) = Ok true /\ s64_contains r (mkS64 (Some a) (Some b)) (Some b) = Ok true.
Proof.
  intros Fa Fb Ba Bb. rewrite P2_Z in Ba, Bb by lia. destruct (sub3_bound b a 400 Fb Fa Bb Ba ltac:(lia)) as [Fs Bs].
  destruct (self_sub a Fa) as [F0 V0]. destruct (zero3_cross _ _ Fs F0 V0) as [Fc Vc]. destruct (zero3_dot r _ _ Fs F0 V0) as [Fd Vd].
  destruct (cross_self _ _ Fs Bs ltac:(lia)) as [Fe Ve]. destruct (sqnorm_pos r _ _ Fs Bs ltac:(lia)) as [Fn Pn]. unfold fsqnorm3 in Fn, Pn.
  unfold s64_contains. cbn [need3 bind s64_data s64_first s64_second]. destruct (feq3 a b) eqn:E.
  - split; [f_equal; apply feq3_val; [exact Fa | exact Fa | reflexivity] | reflexivity].
  - rewrite (zero_sqnorm r _ Fc Vc), (zero_sqnorm r _ Fe Ve). split; f_equal; apply andb_true_intro; split; apply SFleb_val; try assumption; try exact I.
    + rewrite Vd. cbn. lra.
    + rewrite Vd. exact Pn.
    + apply Rle_refl.
Qed.
