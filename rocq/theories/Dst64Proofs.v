(** Double precision: distances from points to lines, rays and segments. *)

From Coq Require Import List Bool Arith ZArith Reals Lra Lia Psatz Floats.SpecFloat.
From Verif Require Import Result Vec DOrder RotModel AngleModel FloatSpec FloatProofs FloatProofs2 FloatModel FloatProofs3 FloatProofs4 FloatProofs5 FloatProofs7 FloatProofs10
  VecProofs Geo3Types Geo3Model Geo3Spec Geo3Proofs Geo3Proofs2 Geo64Model Geo64Spec Geo64Proofs Geo64Proofs2 Geo64Proofs3 Geo64Proofs4 Geo64Proofs5 Geo64Proofs6 Geo64Proofs7 Geo64Proofs8 Rot64Model Dst64Model.
Import ListNotations.
Local Open Scope R_scope.

(** *** Cross products and norms *)
Lemma cross_term a b c d A B C D j k : finite64 a -> finite64 b -> finite64 c -> finite64 d ->
  Rabs (rval a) <= P2 j -> Rabs (rval b) <= P2 j -> Rabs (rval c) <= P2 k -> Rabs (rval d) <= P2 k -> (-100 <= j <= 230)%Z -> (-100 <= k <= 230)%Z ->
  Rabs (rval a - A) <= e53 * Rabs A -> Rabs (rval b - B) <= e53 * Rabs B -> Rabs (rval c - C) <= e53 * Rabs C -> Rabs (rval d - D) <= e53 * Rabs D ->
  let w := sf_sub (b64_mul a d) (b64_mul b c) in
  finite64 w /\ Rabs (rval w) <= P2 (j + k + 2) /\ Rabs (rval w - (A * D - B * C)) <= 4.7 * e53 * (Rabs (A * D) + Rabs (B * C)) + 3 * tiny.
Proof.
  intros Fa Fb Fc Fd Ba Bb Bc Bd J K Ea Eb Ec Ed w.
  destruct (mul_bound _ _ j k Fa Fd Ba Bd ltac:(lia) ltac:(lia)) as (F1 & N1 & M1). destruct (mul_bound _ _ j k Fb Fc Bb Bc ltac:(lia) ltac:(lia)) as (F2' & N2 & M2).
  pose proof (term_err _ _ _ _ _ Ea Ed (rounded_any _ _ N1)) as T1. pose proof (term_err _ _ _ _ _ Eb Ec (rounded_any _ _ N2)) as T2.
  destruct (sub_rel _ _ (j + k) F1 F2' M1 M2 ltac:(lia)) as (Fw & Ew & Bw). fold w in Fw, Ew, Bw. split; [exact Fw |]. split; [exact Bw |].
  set (m := rval (b64_mul a d)) in *. set (n := rval (b64_mul b c)) in *. set (x := rval w) in *. pose proof tiny_pos. pose proof (Rabs_pos (A * D)). pose proof (Rabs_pos (B * C)).
  assert (H' : Rabs (m - n) <= (1 + 3.6 * e53) * (Rabs (A * D) + Rabs (B * C)) + 2 * tiny).
  { pose proof (Rabs_triang (m - A * D) (A * D)) as U1. replace (m - A * D + A * D) with m in U1 by ring. pose proof (Rabs_triang (n - B * C) (B * C)) as U2. replace (n - B * C + B * C) with n in U2 by ring.
    pose proof (Rabs_triang m (- n)) as U3. rewrite Rabs_Ropp in U3. replace (m + - n) with (m - n) in U3 by ring. lra. }
  pose proof (Rabs_triang (x - (m - n)) (m - n - (A * D - B * C))) as U. replace (x - (m - n) + (m - n - (A * D - B * C))) with (x - (A * D - B * C)) in U by ring.
  pose proof (Rabs_triang (m - A * D) (- (n - B * C))) as V. rewrite Rabs_Ropp in V. replace (m - A * D + - (n - B * C)) with (m - n - (A * D - B * C)) in V by ring. unfold e53 in *. lra.
Qed.
Lemma cross_err d v D V j k : finite3 d -> finite3 v -> within3 (P2 j) d -> within3 (P2 k) v -> approx3 d D -> approx3 v V -> (-100 <= j <= 230)%Z -> (-100 <= k <= 230)%Z ->
  finite3 (fcross3 d v) /\ within3 (P2 (j + k + 2)) (fcross3 d v) /\ dist3 (val3 (fcross3 d v)) (cross3 D V) <= 14.1 * e53 * (norm3 D * norm3 V) + 9 * tiny.
Proof.
  intros (Ax & Ay & Az) (Bx & By & Bz) (Ux & Uy & Uz) (Vx & Vy & Vz) (Px & Py & Pz) (Qx & Qy & Qz) J K.
  destruct (cross_term _ _ _ _ _ _ _ _ j k Ay Az By Bz Uy Uz Vy Vz J K Py Pz Qy Qz) as (F1 & W1 & E1).
  destruct (cross_term _ _ _ _ _ _ _ _ j k Az Ax Bz Bx Uz Ux Vz Vx J K Pz Px Qz Qx) as (F2' & W2 & E2).
  destruct (cross_term _ _ _ _ _ _ _ _ j k Ax Ay Bx By Ux Uy Vx Vy J K Px Py Qx Qy) as (F3' & W3 & E3).
  split; [split; [exact F1 | split; [exact F2' | exact F3']] |]. split; [split; [exact W1 | split; [exact W2 | exact W3]] |].
  unfold dist3. pose proof (norm3_sum (sub3 (val3 (fcross3 d v)) (cross3 D V))) as T. unfold fcross3, sub3, cross3, val3 in *. cbn [vx vy vz fx fy fz] in *.
  assert (N0 : forall w, 0 <= norm3 w) by (intros; apply sqrt_pos). pose proof (norm3_sq D) as Sv. pose proof (norm3_sq V) as Sv'. unfold sqnorm3, dot3 in Sv, Sv'.
  assert (C1 : Rabs (vy D * vz V) + Rabs (vz D * vy V) <= norm3 D * norm3 V) by (clear - N0 Sv Sv'; apply pair_cauchy; try apply N0; nra).
  assert (C2 : Rabs (vz D * vx V) + Rabs (vx D * vz V) <= norm3 D * norm3 V) by (clear - N0 Sv Sv'; apply pair_cauchy; try apply N0; nra).
  assert (C3 : Rabs (vx D * vy V) + Rabs (vy D * vx V) <= norm3 D * norm3 V) by (clear - N0 Sv Sv'; apply pair_cauchy; try apply N0; nra).
  unfold e53 in *. lra.
Qed.
Lemma fnorm_abs r v : finite3 v -> within3 (P2 450) v ->
  finite64 (fnorm3 r v) /\ Rabs (rval (fnorm3 r v) - norm3 (val3 v)) <= 8 * e53 * norm3 (val3 v) + P2 (-530).
Proof.
  intros Fd Bd. pose proof (exact_approx v) as Ad. destruct (dot_err r _ _ _ _ 450 Fd Fd Bd Bd Ad Ad ltac:(lia)) as (Fs & E).
  destruct (sqnorm_pos r _ 450 Fd Bd ltac:(lia)) as [_ Ps]. unfold fsqnorm3 in Ps. unfold fnorm3, fsqnorm3, b64_sqrt.
  set (s := fdot3 r _ _) in *. split; [apply (SFsqrt_rounded s Fs Ps) |]. pose proof (sqrt_err s Fs Ps) as K. rewrite e53_P2 in K. rewrite absdot_sq in E. unfold norm3, sqnorm3.
  set (S := dot3 (val3 v) (val3 v)) in *. assert (PS : 0 <= S) by (unfold S, dot3; nra).
  assert (E' : Rabs (rval s - S) <= 6 * e53 * S + P2 (-535) * P2 (-535)).
  { rewrite <- P2_add. eapply Rle_trans; [exact E |]. apply Rplus_le_compat_l. unfold tiny. replace 4 with (P2 2) by (rewrite <- P2_Z by lia; reflexivity). rewrite <- P2_add. apply P2_mono. lia. }
  pose proof (sqrt_near _ _ _ Ps PS (Rlt_le _ _ (P2_pos (-535))) E') as L.
  assert (Q : P2 (-530) = 32 * P2 (-535)) by (replace 32 with (P2 5) by (rewrite <- P2_Z by lia; reflexivity); rewrite <- P2_add; reflexivity).
  rewrite Q. apply abs_le in L. apply abs_le in K. pose proof (sqrt_pos S). pose proof (P2_pos (-535)). apply abs_of. unfold e53 in *. lra.
Qed.
Lemma cross_le a b : norm3 (cross3 a b) <= norm3 a * norm3 b.
Proof.
  pose proof (norm3_nonneg a). pose proof (norm3_nonneg b). apply sqrt_le_sq; [apply Rmult_le_pos; assumption | apply norm3_nonneg |]. rewrite norm3_sq, lagrange3.
  replace (norm3 a * norm3 b * (norm3 a * norm3 b)) with (norm3 a * norm3 a * (norm3 b * norm3 b)) by ring. rewrite !norm3_sq. pose proof (VecProofs.sq_nonneg (dot3 a b)). lra.
Qed.
Lemma cross_dist a a' b : dist3 (cross3 a b) (cross3 a' b) <= dist3 a a' * norm3 b.
Proof. unfold dist3. replace (sub3 (cross3 a b) (cross3 a' b)) with (cross3 (sub3 a a') b) by v3ring. apply cross_le. Qed.
Lemma dot_dist a a' b : Rabs (dot3 a b - dot3 a' b) <= dist3 a a' * norm3 b.
Proof. unfold dist3. replace (dot3 a b - dot3 a' b) with (dot3 (sub3 a a') b) by v3ring. apply cauchy3_norm. Qed.
Lemma least_unique S p x y : least_distance S p x -> least_distance S p y -> x = y.
Proof.
  intros [(q & Sq & <-) H] [(q' & Sq' & <-) H']. apply Rle_antisym; [apply H, Sq' | apply H', Sq].
Qed.
Lemma least_same (S T : v3 -> Prop) p x : (forall q, S q <-> T q) -> least_distance S p x -> least_distance T p x.
Proof. intros E [(q & Sq & D) H]. split; [exists q; split; [apply E, Sq | exact D] |]. intros q' Tq. apply H, E, Tq. Qed.
Lemma on_line_unit o v q : 0 < norm3 v -> on_line o v q <-> on_line o (scale3 (/ norm3 v) v) q.
Proof.
  intros P. split; intros (t & ->); [exists (t * norm3 v) | exists (t * / norm3 v)]; unfold along; f_equal; destruct v as [a b c]; unfold scale3; cbn [vx vy vz]; f_equal; field; lra.
Qed.
Lemma on_ray_unit o v q : 0 < norm3 v -> on_ray o v q <-> on_ray o (scale3 (/ norm3 v) v) q.
Proof.
  intros P. pose proof (Rinv_0_lt_compat _ P). split; intros (t & T & ->); [exists (t * norm3 v) | exists (t * / norm3 v)]; (split; [nra |]); unfold along; f_equal; destruct v as [a b c]; unfold scale3; cbn [vx vy vz]; f_equal; field; lra.
Qed.
Lemma unit_sq v : 0 < norm3 v -> sqnorm3 (scale3 (/ norm3 v) v) = 1.
Proof. intros P. rewrite <- norm3_sq, norm3_scale, Rabs_right by (apply Rle_ge, Rlt_le, Rinv_0_lt_compat, P). rewrite Rinv_l by lra. ring. Qed.
Lemma line_exact o v p L : 0 < norm3 v -> least_distance (on_line o v) p L -> L = norm3 (cross3 (scale3 (/ norm3 v) v) (sub3 p o)).
Proof.
  intros P H. set (u := scale3 (/ norm3 v) v). destruct (c49_line (mkLine (Some o) (Some u)) o u p (conj eq_refl (unit_sq v P))) as (x & E & G). injection E as <-.
  eapply least_unique; [| exact G]. eapply least_same; [| exact H]. intros q. apply on_line_unit, P.
Qed.
Lemma ray_exact o v p L : 0 < norm3 v -> least_distance (on_ray o v) p L ->
  L = if Rltb (dot3 (sub3 p o) (scale3 (/ norm3 v) v)) 0 then norm3 (sub3 p o) else norm3 (cross3 (scale3 (/ norm3 v) v) (sub3 p o)).
Proof.
  intros P H. set (u := scale3 (/ norm3 v) v). destruct (c49_ray (mkRay (Some o) (Some u)) o u p (conj eq_refl (unit_sq v P))) as (x & E & G).
  assert (X : L = x) by (eapply least_unique; [| exact G]; eapply least_same; [| exact H]; intros q; apply on_ray_unit, P). subst x.
  unfold r_distanceTo, r_data in E. cbn [needd bind r_origin r_direction] in E. destruct (v3_eqb p o) eqn:Q.
  - apply v3_eqb_iff in Q. subst p. injection E as <-. replace (sub3 o o) with (V3 0 0 0) by v3ring. replace (cross3 u (V3 0 0 0)) with (V3 0 0 0) by v3ring.
    replace (norm3 (V3 0 0 0)) with 0 by (symmetry; apply norm3_0; reflexivity). destruct Rltb; reflexivity.
  - destruct (Rltb (dot3 (sub3 p o) u) 0); injection E as <-; reflexivity.
Qed.

(** *** Lines and rays *)
Lemma unit_within d u : norm3 u = 1 -> dist3 (val3 d) u <= P2 (-47) -> norm3 (val3 d) <= 1 + 64 * e53 /\ within3 (P2 1) d.
Proof.
  intros U D. assert (E : P2 (-47) = 64 * e53) by (rewrite <- e53_P2; replace 64 with (P2 6) by (rewrite <- P2_Z by lia; reflexivity); rewrite <- P2_add; reflexivity).
  pose proof (norm_dist (val3 d) u) as N. apply abs_le in N. rewrite U, E in *. split; [lra |]. destruct (coordinate_le (val3 d)) as (X & Y & Z). cbn [val3 vx vy vz] in *.
  replace (P2 1) with 2 by (rewrite <- P2_Z by lia; reflexivity). repeat split; (eapply Rle_trans; [eassumption |]); unfold e53 in *; lra.
Qed.
Lemma line_value r o d p u : finite3 o -> finite3 d -> finite3 p -> within3 (P2 200) o -> within3 (P2 200) p -> norm3 u = 1 -> dist3 (val3 d) u <= P2 (-47) ->
  finite64 (fnorm3 r (fcross3 d (fsub3 p o))) /\
  Rabs (rval (fnorm3 r (fcross3 d (fsub3 p o))) - norm3 (cross3 u (sub3 (val3 p) (val3 o)))) <= 87 * e53 * dist3 (val3 p) (val3 o) + P2 (-528).
Proof.
  intros Fo Fd Fp Bo Bp U D. destruct (unit_within d u U D) as [Nd Bd]. destruct (sub3_approx p o 200 Fp Fo Bp Bo ltac:(lia)) as (Fv & Bv & Av).
  destruct (cross_err d _ _ _ 1 (200 + 2) Fd Fv Bd Bv (exact_approx d) Av ltac:(lia) ltac:(lia)) as (Fc & Bc & Ec).
  destruct (fnorm_abs r _ Fc (within_weaken (1 + (200 + 2) + 2) 450 _ ltac:(lia) Bc)) as [Fn En]. split; [exact Fn |].
  assert (E : P2 (-47) = 64 * e53) by (rewrite <- e53_P2; replace 64 with (P2 6) by (rewrite <- P2_Z by lia; reflexivity); rewrite <- P2_add; reflexivity). rewrite E in D.
  set (V := sub3 (val3 p) (val3 o)) in *. change (dist3 (val3 p) (val3 o)) with (norm3 V). set (c := fcross3 d (fsub3 p o)) in *. set (n := rval (fnorm3 r c)) in *.
  pose proof (norm3_nonneg V) as PV. pose proof (cross_dist (val3 d) u V) as CD. pose proof (norm_dist (val3 c) (cross3 (val3 d) V)) as N1. pose proof (norm_dist (cross3 (val3 d) V) (cross3 u V)) as N2. pose proof (cross_le u V) as CU. rewrite U, Rmult_1_l in CU.
  assert (G1 : dist3 (val3 d) u * norm3 V <= 64 * e53 * norm3 V) by (apply Rmult_le_compat_r; assumption).
  assert (G2 : norm3 (val3 d) * norm3 V <= (1 + 64 * e53) * norm3 V) by (apply Rmult_le_compat_r; assumption).
  assert (Q : P2 (-528) = 4 * P2 (-530)) by (replace 4 with (P2 2) by (rewrite <- P2_Z by lia; reflexivity); rewrite <- P2_add; reflexivity).
  assert (Q' : 9 * tiny <= P2 (-530)). { apply Rle_trans with (P2 4 * tiny); [pose proof tiny_pos; rewrite <- P2_Z by lia; change (IZR (2 ^ 4)) with 16; lra |]. unfold tiny. rewrite <- P2_add. apply P2_mono. lia. }
  pose proof tiny_pos. pose proof (P2_pos (-530)). apply abs_le in En. apply abs_le in N1. apply abs_le in N2. apply abs_of. rewrite Q.
  set (x := norm3 (val3 c)) in *. set (y := norm3 (cross3 (val3 d) V)) in *. set (z := norm3 (cross3 u V)) in *. set (k := norm3 (val3 d) * norm3 V) in *. set (g := dist3 (val3 d) u * norm3 V) in *. set (W := norm3 V) in *.
  assert (Ec' : dist3 (val3 c) (cross3 (val3 d) V) <= 14.2 * e53 * W + P2 (-530)) by (unfold e53 in *; lra). unfold e53 in *. lra.
Qed.
Lemma unit_of v : 0 < norm3 v -> norm3 (scale3 (/ norm3 v) v) = 1.
Proof. intros P. rewrite norm3_scale, Rabs_right by (apply Rle_ge, Rlt_le, Rinv_0_lt_compat, P). apply Rinv_l. lra. Qed.
Lemma c157_line r o v p L : finite3 o -> finite3 v -> finite3 p -> within3 (P2 200) o -> within3 (P2 200) p -> within3 (P2 450) v -> P2 (-450) <= norm3 (val3 v) ->
  least_distance (on_line (val3 o) (val3 v)) (val3 p) L ->
  exists l x, Line64 r (Some o) (Some v) = Ok l /\ l64_distanceTo r l (Some p) = Ok x /\ finite64 x /\ Rabs (rval x - L) <= P2 (-46) * dist3 (val3 p) (val3 o) + P2 (-500).
Proof.
  intros Fo Fv Fp Bo Bp Bv Lv H. pose proof (P2_pos (-450)). assert (PV : 0 < norm3 (val3 v)) by lra. destruct (c130_direction r (Some o) v Fv Bv Lv) as (d & El & Fd & Ed).
  exists (mkL64 (Some o) (Some d)). eexists. split; [exact El |]. split; [reflexivity |]. rewrite (line_exact _ _ _ _ PV H).
  destruct (line_value r o d p _ Fo Fd Fp Bo Bp (unit_of _ PV) Ed) as [Fx Ex]. split; [exact Fx |]. eapply Rle_trans; [exact Ex |].
  assert (E : P2 (-46) = 128 * e53) by (rewrite <- e53_P2; replace 128 with (P2 7) by (rewrite <- P2_Z by lia; reflexivity); rewrite <- P2_add; reflexivity). rewrite E.
  pose proof (P2_mono (-528) (-500) ltac:(lia)). apply Rplus_le_compat; [| assumption]. apply Rmult_le_compat_r; [apply norm3_nonneg | unfold e53; lra].
Qed.
Lemma pythagoras u V : norm3 u = 1 -> norm3 (cross3 u V) <= norm3 V <= norm3 (cross3 u V) + Rabs (dot3 V u).
Proof.
  intros U. split; [pose proof (cross_le u V) as C; rewrite U, Rmult_1_l in C; exact C |]. pose proof (norm3_nonneg (cross3 u V)) as P. pose proof (Rabs_pos (dot3 V u)) as A. apply sqrt_le_sq; [lra | apply norm3_nonneg |].
  pose proof (lagrange3 u V) as G. rewrite <- (norm3_sq u), U in G. rewrite <- norm3_sq in G. rewrite (norm3_sq V). rewrite (dot3_sym u V) in G.
  assert (S : Rabs (dot3 V u) * Rabs (dot3 V u) = dot3 V u * dot3 V u) by (rewrite <- Rabs_mult; apply Rabs_right, Rle_ge, VecProofs.sq_nonneg). nra.
Qed.
Lemma c157_ray r o v p L : finite3 o -> finite3 v -> finite3 p -> within3 (P2 200) o -> within3 (P2 200) p -> within3 (P2 450) v -> P2 (-450) <= norm3 (val3 v) ->
  least_distance (on_ray (val3 o) (val3 v)) (val3 p) L ->
  exists l x, Line64 r (Some o) (Some v) = Ok l /\ r64_distanceTo r l (Some p) = Ok x /\ finite64 x /\ Rabs (rval x - L) <= P2 (-45) * dist3 (val3 p) (val3 o) + P2 (-500).
Proof.
  intros Fo Fv Fp Bo Bp Bv Lv H. pose proof (P2_pos (-450)). assert (PV : 0 < norm3 (val3 v)) by lra. destruct (c130_direction r (Some o) v Fv Bv Lv) as (d & El & Fd & Ed).
  exists (mkL64 (Some o) (Some d)). pose proof (ray_exact _ _ _ _ PV H) as EL. pose proof (unit_of _ PV) as U. set (u := scale3 (/ norm3 (val3 v)) (val3 v)) in *.
  unfold r64_distanceTo. cbn [need3 bind l64_data l64_origin l64_direction]. destruct (feq3 p o) eqn:Q.
  - apply (feq3_val _ _ Fp Fo) in Q. exists zero64. split; [exact El |]. split; [reflexivity |]. split; [exact I |]. rewrite Q in *. replace (sub3 (val3 o) (val3 o)) with (V3 0 0 0) in EL by (unfold sub3; rewrite !Rminus_diag_eq by reflexivity; reflexivity).
    replace (cross3 u (V3 0 0 0)) with (V3 0 0 0) in EL by (unfold cross3; cbn [vx vy vz]; f_equal; ring). replace (norm3 (V3 0 0 0)) with 0 in EL by (symmetry; apply norm3_0; reflexivity).
    assert (L0 : L = 0) by (destruct Rltb; exact EL). rewrite L0. change (rval zero64) with 0. rewrite Rminus_0_r, Rabs_R0. pose proof (norm3_nonneg (sub3 (val3 o) (val3 o))). pose proof (P2_pos (-45)). pose proof (P2_pos (-500)). unfold dist3. nra.
  - clear Q. destruct (line_value r o d p u Fo Fd Fp Bo Bp U Ed) as [Fx Ex]. destruct (unit_within d u U Ed) as [Nd Bd]. destruct (sub3_approx p o 200 Fp Fo Bp Bo ltac:(lia)) as (Fw & Bw & Aw).
    destruct (fnorm_abs r _ Fw (within_weaken (200 + 2) 450 _ ltac:(lia) Bw)) as [Fn En]. destruct (dot_err r _ d _ _ (200 + 2) Fw Fd Bw (within_weaken 1 (200 + 2) _ ltac:(lia) Bd) Aw (exact_approx d) ltac:(lia)) as [Fs Es].
    pose proof (approx_dist _ _ Aw) as AD. pose proof (absdot_cauchy (sub3 (val3 p) (val3 o)) (val3 d)) as AC. pose proof (pythagoras u (sub3 (val3 p) (val3 o)) U) as PY. pose proof (norm_dist (val3 (fsub3 p o)) (sub3 (val3 p) (val3 o))) as ND.
    pose proof (dot_dist (val3 d) u (sub3 (val3 p) (val3 o))) as DD. rewrite !(dot3_sym _ (sub3 (val3 p) (val3 o))) in DD. change (dist3 (val3 p) (val3 o)) with (norm3 (sub3 (val3 p) (val3 o))) in *. set (V := sub3 (val3 p) (val3 o)) in *.
    assert (E : P2 (-47) = 64 * e53) by (rewrite <- e53_P2; replace 64 with (P2 6) by (rewrite <- P2_Z by lia; reflexivity); rewrite <- P2_add; reflexivity). rewrite E in Ed.
    assert (E' : P2 (-45) = 256 * e53) by (rewrite <- e53_P2; replace 256 with (P2 8) by (rewrite <- P2_Z by lia; reflexivity); rewrite <- P2_add; reflexivity). rewrite E'.
    assert (Q : 4 * P2 (-528) <= P2 (-500)). { replace 4 with (P2 2) by (rewrite <- P2_Z by lia; reflexivity). rewrite <- P2_add. apply P2_mono. lia. }
    assert (Q' : 4 * tiny <= P2 (-528)). { replace 4 with (P2 2) by (rewrite <- P2_Z by lia; reflexivity). unfold tiny. rewrite <- P2_add. apply P2_mono. lia. }
    pose proof (P2_mono (-530) (-528) ltac:(lia)) as Q3. pose proof (P2_pos (-530)) as Q4. pose proof (norm3_nonneg V) as PW. pose proof tiny_pos.
    assert (G1 : dist3 (val3 d) u * norm3 V <= 64 * e53 * norm3 V) by (apply Rmult_le_compat_r; assumption).
    assert (G2 : norm3 V * norm3 (val3 d) <= norm3 V * (1 + 64 * e53)) by (apply Rmult_le_compat_l; assumption).
    set (W := norm3 V) in *. set (S := dot3 V u) in *. set (s := fdot3 r (fsub3 p o) d) in *.
    assert (SS : Rabs (rval s - S) <= 70.1 * e53 * W + P2 (-528)).
    { pose proof (Rabs_triang (rval s - dot3 V (val3 d)) (dot3 V (val3 d) - S)) as T. replace (rval s - dot3 V (val3 d) + (dot3 V (val3 d) - S)) with (rval s - S) in T by ring. unfold e53 in *. lra. }
    assert (NN : Rabs (rval (fnorm3 r (fsub3 p o)) - W) <= 9.1 * e53 * W + P2 (-528)).
    { apply abs_le in ND. apply abs_le in En. apply abs_of. unfold e53 in *. lra. }
    apply abs_le in SS. destruct (SFltb s zero64) eqn:C.
    + apply (SFltb_val s zero64 Fs I) in C. change (rval zero64) with 0 in C. eexists. split; [exact El |]. split; [reflexivity |]. split; [exact Fn |]. apply abs_le in NN. apply abs_of.
      destruct (Rltb S 0) eqn:D; [| apply Rltb_false in D; rewrite Rabs_right in PY by lra]; rewrite EL; unfold e53 in *; lra.
    + assert (C' : 0 <= rval s) by (apply Rnot_lt_le; intros K; rewrite (ltb_t s zero64 Fs I K) in C; discriminate). eexists. split; [exact El |]. split; [reflexivity |]. split; [exact Fx |]. apply abs_le in Ex. apply abs_of.
      destruct (Rltb S 0) eqn:D; [apply Rltb_true in D; rewrite Rabs_left in PY by lra |]; rewrite EL; unfold e53 in *; lra.
Qed.
Lemma c157_origin r o d : finite3 o -> finite3 d ->
  (exists x, l64_distanceTo r (mkL64 (Some o) (Some d)) (Some o) = Ok x /\ finite64 x /\ rval x = 0) /\
  r64_distanceTo r (mkL64 (Some o) (Some d)) (Some o) = Ok zero64.
Proof.
  intros Fo Fd. destruct (self_sub o Fo) as [Fs Vs]. destruct (zero3_cross d _ Fd Fs Vs) as [Fc Vc]. destruct (zero3_dot r _ _ Fc Fc Vc) as [Ft Vt]. split.
  - eexists. split; [reflexivity |]. apply sqrt_zero; assumption.
  - unfold r64_distanceTo. cbn [need3 bind l64_data l64_origin l64_direction]. replace (feq3 o o) with true by (symmetry; apply (feq3_val o o Fo Fo); reflexivity). reflexivity.
Qed.
