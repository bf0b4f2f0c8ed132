(** Proofs about cones: equality. *)

From Coq Require Import List Bool Reals Lra Lia Psatz ZArith.
From Verif Require Import Result DOrder Vec VecProofs AngleModel AngleSpec AngleProofs AngleProofs2 RotModel RotProofs Geo3Types Geo3Model Geo3Spec
  Geo3Proofs Geo3Proofs2 SphereModel EllModel InterModel ConeModel ConeSpec ConeProofs.
Import ListNotations.
Local Open Scope R_scope.

Lemma same_reduced s s' x y : same_mod_turn s s' -> same_mod_turn (x / 360) s -> same_mod_turn (y / 360) s' -> 0 <= x < 360 -> 0 <= y < 360 -> x = y.
Proof.
  intros H Hx Hy Bx By. pose proof (same_mod_turn_trans _ _ _ Hx H) as H1. destruct H1 as [k Hk]. destruct Hy as [j Hj].
  assert (D : x - y = 360 * IZR (k - j)) by (rewrite minus_IZR; lra).
  assert (Z : (k - j = 0)%Z) by (apply IZR_lt_1; lra). rewrite Z in D. lra.
Qed.
(** Equal angles are equal once reduced. *)
Lemma same_in_degrees k k' s s' : turns k = Some s -> turns k' = Some s' -> same_mod_turn s s' ->
  exists N, forall fuel, (N <= fuel)%nat -> inDegrees fuel k (Some 0) (Some 360) = inDegrees fuel k' (Some 0) (Some 360).
Proof.
  intros Hk Hk' H. pose proof (in_range_reduces 360 Degree ltac:(discriminate) eq_refl) as Rd.
  destruct (Rd k s 0 Hk) as (x & [N HN] & Bx & Sx). destruct (Rd k' s' 0 Hk') as (y & [M HM] & By & Sy).
  rewrite Rplus_0_l in *. pose proof (same_reduced s s' x y H Sx Sy ltac:(lra) ltac:(lra)) as ->.
  exists (max N M). intros fuel Hf. unfold inDegrees. rewrite HN, HM by lia. reflexivity.
Qed.

Lemma c55_decides c d a u k s a' u' k' s' : c = mkCone (Some a) (Some u) k -> turns k = Some s ->
  d = mkCone (Some a') (Some u') k' -> turns k' = Some s' ->
  exists b, returns (fun fuel => co_eq fuel c d) b
    /\ (b = true <-> a = a' /\ ((u = u' /\ same_mod_turn s s') \/ (u = opp3 u' /\ same_mod_turn s (1 / 2 - s')))).
Proof.
  intros -> Hk -> Hk'. unfold co_eq, co_data. cbn [co_apex co_axis co_angle]. rewrite (turns_defined _ _ Hk), (turns_defined _ _ Hk').
  destruct (v3_eqb a a') eqn:Ea; [| exists false; split; [exists 0%nat; reflexivity |]; apply v3_eqb_false in Ea; split; [discriminate | tauto]].
  apply v3_eqb_iff in Ea. cbn [negb].
  destruct (angle_eq_spec k k' s s' Hk Hk') as (b1 & [N1 H1] & I1).
  destruct (c19_add (mkA (Some 180) Degree) k' (1 / 2) s') as [_ (m & Em & _ & Hm)].
  { unfold turns. cbn. f_equal. field. } { exact Hk'. }
  destruct (angle_eq_spec k m s _ Hk Hm) as (b2 & [N2 H2] & I2).
  exists ((v3_eqb u u' && b1) || (v3_eqb u (opp3 u') && b2)). split.
  - exists (max N1 N2). intros fuel Hf. rewrite H1, Em by lia. cbn [bind]. rewrite H2 by lia.
    destruct (v3_eqb u u'), b1, (v3_eqb u (opp3 u')), b2; reflexivity.
  - rewrite orb_true_iff, !andb_true_iff, !v3_eqb_iff, I1, I2. tauto.
Qed.
Lemma c55_same_points_partial c d a u k s a' u' k' s' : c = mkCone (Some a) (Some u) k -> turns k = Some s ->
  d = mkCone (Some a') (Some u') k' -> turns k' = Some s' -> u <> opp3 u' -> returns (fun fuel => co_eq fuel c d) true ->
  forall eps p, exists N, forall fuel, (N <= fuel)%nat -> co_contains fuel eps c p = co_contains fuel eps d p.
Proof.
  intros Ec Hk Ed Hk' Hn H eps p. destruct (c55_decides c d a u k s a' u' k' s' Ec Hk Ed Hk') as (b & Hb & I).
  pose proof (returns_unique _ _ _ Hb H) as ->. destruct (proj1 I eq_refl) as [<- [[<- Hs] | [X _]]]; [| contradiction].
  destruct (same_in_degrees k k' s s' Hk Hk' Hs) as [N HN]. exists N. intros fuel Hf. specialize (HN fuel Hf). subst c d.
  unfold co_contains, co_data, co_within. cbn [co_apex co_axis co_angle]. rewrite (turns_defined _ _ Hk), (turns_defined _ _ Hk').
  destruct p; cbn [needd bind]; [rewrite HN |]; reflexivity.
Qed.
(** The other case of operator==: opposite axes and complementary angles.  The two cones cover the space
    between them, and contain different points. *)
Lemma c55_opposite_refuted eps : 0 < eps <= 1 -> exists c d a u u' t t' p, good_cone eps c a u t /\ good_cone eps d a u' t'
  /\ 0 <= t <= PI / 2 /\ 0 <= t' <= PI / 2 /\ returns (fun fuel => co_eq fuel c d) true
  /\ forall fuel, co_contains fuel eps c (Some p) = Ok true /\ co_contains fuel eps d (Some p) = Ok false.
Proof.
  intros He. pose proof PI_RGT_0 as P. set (h := Radians (PI / 2)).
  set (d := mkCone (Some zero3) (Some (V3 0 0 (-1))) h).
  assert (Hh : turns h = Some (PI / 2 / (2 * PI))) by reflexivity.
  assert (G : good_cone eps (cone_z h) zero3 (V3 0 0 1) (PI / 2)) by (apply cone_z_good; lra).
  assert (G' : good_cone eps d zero3 (V3 0 0 (-1)) (PI / 2)).
  { exists h. split; [reflexivity |]. split; [reflexivity |]. rewrite sqnorm_axis. lra. }
  exists (cone_z h), d, zero3, (V3 0 0 1), (V3 0 0 (-1)), (PI / 2), (PI / 2), (V3 0 0 1).
  do 2 (split; [assumption |]). do 2 (split; [lra |]).
  assert (Q : clear_of eps zero3 (V3 0 0 1)) by (right; rewrite sub_zero, sqnorm_axis; lra).
  assert (Z : forall k, dot3 (V3 0 0 1) (V3 0 0 k) = k) by (intros; v3unfold; ring).
  split.
  - destruct (c55_decides (cone_z h) d zero3 (V3 0 0 1) h _ zero3 (V3 0 0 (-1)) h _ eq_refl Hh eq_refl Hh) as (b & Hb & I).
    enough (b = true) by congruence. apply I. split; [reflexivity |]. right. split; [unfold opp3; cbn; f_equal; ring |].
    exists 0%Z. simpl. field. lra.
  - intros fuel. split.
    + destruct (c54_contains_partial fuel eps _ _ _ _ (V3 0 0 1) ltac:(lra) G ltac:(lra) Q) as (b & -> & I). f_equal. apply I.
      unfold solid_cone. rewrite sub_zero, Z, cos_PI2. lra.
    + destruct (c54_contains_partial fuel eps _ _ _ _ (V3 0 0 1) ltac:(lra) G' ltac:(lra) Q) as (b & -> & I). f_equal.
      destruct b; [| reflexivity]. pose proof (proj1 I eq_refl) as S. unfold solid_cone in S. rewrite sub_zero, Z, cos_PI2 in S. lra.
Qed.

(** *** Cones with the same points are equal *)
Lemma cross_perp u w : dot3 (cross3 u w) u = 0.
Proof. v3ring. Qed.
Lemma cross_axes u : sqnorm3 u = 1 -> cross3 u (V3 1 0 0) <> zero3 \/ cross3 u (V3 0 1 0) <> zero3.
Proof.
  intros H. destruct (Req_dec (vy u) 0) as [Y | Y]; [destruct (Req_dec (vz u) 0) as [Z | Z] |].
  - right. intros E. apply (f_equal vz) in E. revert H E. unfold sqnorm3. v3unfold. intros. assert (vx u = 0) by lra. nra.
  - left. intros E. apply (f_equal vy) in E. revert E. v3unfold. lra.
  - left. intros E. apply (f_equal vz) in E. revert E. v3unfold. lra.
Qed.
Lemma perp u : sqnorm3 u = 1 -> exists n, sqnorm3 n = 1 /\ dot3 n u = 0.
Proof.
  intros H. destruct (cross_axes u H) as [N | N]; destruct (normalized3_unit _ N) as [U E].
  - exists (normalized3 (cross3 u (V3 1 0 0))). split; [exact U |]. rewrite E, dot3_scale_l, cross_perp. ring.
  - exists (normalized3 (cross3 u (V3 0 1 0))). split; [exact U |]. rewrite E, dot3_scale_l, cross_perp. ring.
Qed.
Lemma sqnorm_comb x y v w : sqnorm3 (add3 (scale3 x v) (scale3 y w)) = x * x * sqnorm3 v + 2 * x * y * dot3 v w + y * y * sqnorm3 w.
Proof. v3ring. Qed.
Lemma norm_unit v : sqnorm3 v = 1 -> norm3 v = 1.
Proof. intros H. unfold norm3. rewrite H. apply sqrt_1. Qed.
(** A unit direction of the cone about [u], on the side of [n]. *)
Lemma edge_unit u n t : sqnorm3 u = 1 -> sqnorm3 n = 1 -> dot3 n u = 0 ->
  let w := add3 (scale3 (cos t) u) (scale3 (sin t) n) in sqnorm3 w = 1 /\ dot3 w u = cos t.
Proof.
  intros Hu Hn H w. unfold w. split.
  - rewrite sqnorm_comb, Hu, Hn, dot3_sym, H. pose proof (sin2_cos2 t) as S. unfold Rsqr in S. lra.
  - rewrite dot_add, !dot3_scale_l, H. unfold sqnorm3 in Hu. rewrite Hu. ring.
Qed.
Definition directions (u : v3) (t : R) (d : v3) : Prop := norm3 d * norm3 u * cos t <= dot3 d u.
Lemma away u u' : sqnorm3 u = 1 -> sqnorm3 u' = 1 -> u <> u' -> 0 <= dot3 u u' ->
  exists n s, 0 < s /\ sqnorm3 n = 1 /\ dot3 n u = 0 /\ dot3 n u' = - s /\ s * s = 1 - dot3 u u' * dot3 u u' /\ dot3 u u' < 1.
Proof.
  intros Hu Hu' N P. set (c := dot3 u u') in *.
  assert (L : c < 1).
  { pose proof (sqnorm3_sub u u') as S. rewrite Hu, Hu' in S. fold c in S.
    assert (0 < sqnorm3 (sub3 u u')) by (apply sqnorm3_pos; intros E; apply N, sub3_0, E). lra. }
  assert (Q : 0 < 1 - c * c) by nra. pose proof (sqrt_lt_R0 _ Q) as Sp. pose proof (sqrt_sqrt (1 - c * c) ltac:(lra)) as Ss.
  set (s := sqrt (1 - c * c)) in *. exists (scale3 (/ s) (add3 (scale3 c u) (scale3 (-1) u'))), s.
  assert (D : dot3 u' u = c) by (rewrite dot3_sym; reflexivity).
  split; [exact Sp |]. split; [rewrite sqnorm3_scale, sqnorm_comb, Hu, Hu'; fold c; apply (Rmult_eq_reg_l (s * s)); [| nra]; field_simplify; nra |].
  split; [rewrite dot3_scale_l, dot_add, !dot3_scale_l, D; unfold sqnorm3 in Hu; rewrite Hu; ring |].
  split; [| split; [exact Ss | exact L]].
  rewrite dot3_scale_l, dot_add, !dot3_scale_l. fold c. unfold sqnorm3 in Hu'. rewrite Hu'.
  apply (Rmult_eq_reg_l s); [| lra]. rewrite <- Rmult_assoc, Rinv_r by lra. lra.
Qed.
Lemma same_directions u u' t t' : sqnorm3 u = 1 -> sqnorm3 u' = 1 -> 0 <= t < PI / 2 -> 0 <= t' < PI / 2 ->
  (forall d, directions u t d <-> directions u' t' d) -> u = u' /\ t = t'.
Proof.
  intros Hu Hu' Ht Ht' H. pose proof PI_RGT_0. assert (C : 0 < cos t) by (apply cos_gt_0; lra). assert (C' : 0 < cos t') by (apply cos_gt_0; lra).
  assert (S : 0 <= sin t) by (apply sin_ge_0; lra). assert (S' : 0 <= sin t') by (apply sin_ge_0; lra).
  pose proof (COS_bound t). pose proof (COS_bound t').
  pose proof (norm_unit _ Hu) as Nu. pose proof (norm_unit _ Hu') as Nu'.
  assert (P : 0 <= dot3 u u').
  { assert (D : directions u t u) by (unfold directions; rewrite Nu; unfold sqnorm3 in Hu; rewrite Hu; lra).
    apply H in D. unfold directions in D. rewrite Nu, Nu' in D. lra. }
  assert (E : u = u').
  { destruct (v3_eq_dec u u') as [E | N]; [exact E | exfalso].
    destruct (away u u' Hu Hu' N P) as (n & s & Hs & Hn & Hnu & Hnu' & Hss & Hc).
    destruct (away u' u Hu' Hu ltac:(congruence) ltac:(rewrite dot3_sym; exact P)) as (m & r & Hr & Hm & Hmu & Hmu' & Hrr & _).
    rewrite (dot3_sym u' u) in Hrr. set (c := dot3 u u') in *.
    destruct (edge_unit u n t Hu Hn Hnu) as [W1 W2]. set (w := add3 _ _) in *.
    destruct (edge_unit u' m t' Hu' Hm Hmu) as [Z1 Z2]. set (z := add3 (scale3 (cos t') u') _) in *.
    assert (D1 : directions u' t' w) by (apply H; unfold directions; rewrite (norm_unit _ W1), Nu, W2; lra).
    assert (D2 : directions u t z) by (apply H; unfold directions; rewrite (norm_unit _ Z1), Nu', Z2; lra).
    unfold directions in D1, D2. rewrite (norm_unit _ W1), Nu' in D1. rewrite (norm_unit _ Z1), Nu in D2.
    unfold w in D1. unfold z in D2. rewrite dot_add, !dot3_scale_l, Hnu' in D1. rewrite dot_add, !dot3_scale_l, Hmu', (dot3_sym u' u) in D2.
    fold c in D1, D2. assert (0 <= sin t * s) by (apply Rmult_le_pos; lra). assert (0 <= sin t' * r) by (apply Rmult_le_pos; lra).
    assert (0 < cos t * (1 - c)) by (apply Rmult_lt_0_compat; lra). assert (0 < cos t' * (1 - c)) by (apply Rmult_lt_0_compat; lra). lra. }
  split; [exact E |]. subst u'. destruct (perp u Hu) as (n & Hn & Hnu).
  assert (X : forall x y, (directions u x (add3 (scale3 (cos y) u) (scale3 (sin y) n)) <-> cos x <= cos y)).
  { intros x y. destruct (edge_unit u n y Hu Hn Hnu) as [W1 W2]. unfold directions. rewrite (norm_unit _ W1), W2, Nu, !Rmult_1_l. reflexivity. }
  assert (cos t' <= cos t) by (apply (X t' t), H, (X t t); lra). assert (cos t <= cos t') by (apply (X t t'), H, (X t' t'); lra).
  apply Rle_antisym; apply cos_le_iff; lra.
Qed.
Lemma c55_complete eps c d a u t a' u' t' : 0 < eps -> good_cone eps c a u t -> good_cone eps d a' u' t' -> sqnorm3 u = 1 -> sqnorm3 u' = 1 ->
  0 <= t < PI / 2 -> 0 <= t' < PI / 2 -> same_points (solid_cone a u t) (solid_cone a' u' t') -> returns (fun fuel => co_eq fuel c d) true.
Proof.
  intros He (k & Ec & Hk & _) (k' & Ed & Hk' & _) Hu Hu' Ht Ht' S. pose proof PI_RGT_0.
  assert (A : solid_cone a' u' t' a) by (apply S, solid_apex). assert (A' : solid_cone a u t a') by (apply S, solid_apex).
  assert (D : forall x, directions u t x <-> directions u' t' x).
  { intros x. pose proof (solid_directions a u t a x ltac:(lra)) as R1. pose proof (solid_directions a' u' t' a x ltac:(lra)) as R2.
    assert (R3 : (forall y, on_ray a x y -> solid_cone a u t y) <-> (forall y, on_ray a x y -> solid_cone a' u' t' y)) by (split; intros Y y Hy; apply S, Y, Hy).
    pose proof (solid_apex a u t). unfold directions. tauto. }
  destruct (same_directions u u' t t' Hu Hu' Ht Ht' D) as [<- <-].
  assert (E : a = a').
  { apply sub3_0, norm3_0. unfold solid_cone in A, A'. rewrite (norm_unit _ Hu), Rmult_1_r in A, A'.
    replace (sub3 a' a) with (scale3 (-1) (sub3 a a')) in A' by (clear; v3ring). rewrite norm3_scale, dot3_scale_l, Rabs_left in A' by lra.
    assert (C : 0 < cos t) by (apply cos_gt_0; lra). pose proof (norm3_nonneg (sub3 a a')). nra. }
  destruct (c55_decides c d _ _ _ _ _ _ _ _ Ec Hk Ed Hk') as (b & Hb & I). enough (b = true) by congruence.
  apply I. split; [exact E |]. left. split; [reflexivity | apply same_mod_turn_refl].
Qed.
