(** Proofs about equality and transformation of cuboids (C93). *)

From Coq Require Import List Bool Reals Lra Lia Psatz Permutation.
From Verif Require Import Result DOrder Vec VecProofs Mat3 Mat4 AngleModel AngleProofs RotModel RotSpec RotProofs RotProofs2 TransfModel TransfSpec
  TransfProofs TransfProofs2 Geo3Types Geo3Model Geo3Spec Geo3Proofs Geo3Proofs2 Geo3Proofs3 GteModel GteSpec ChordProofs SphereSpec SphereProofs GteProofs
  CuboidModel CuboidSpec CuboidProofs.
Import ListNotations.
Local Open Scope R_scope.

Lemma match_iff u e v f : cu_match u e v f = true <-> (u = v \/ u = opp3 v) /\ e = f.
Proof. unfold cu_match. rewrite andb_true_iff, orb_true_iff, !eqb_true, Reqb_iff. reflexivity. Qed.
Lemma match_abs u e v f x : cu_match u e v f = true -> Rabs (dot3 u x) = Rabs (dot3 v x) /\ e = f.
Proof.
  rewrite match_iff. intros [[-> | ->] ->]; split; try reflexivity. replace (dot3 (opp3 v) x) with (- dot3 v x) by (clear; v3ring). apply Rabs_Ropp.
Qed.
Lemma scale_dot a v x : dot3 (scale3 a v) x = a * dot3 v x.
Proof. v3ring. Qed.
Definition inbox (u : v3 * v3 * v3) (k : R * R * R) (v : v3) : Prop :=
  let '(u0, u1, u2) := u in let '(k0, k1, k2) := k in Rabs (dot3 u0 v) <= k0 /\ Rabs (dot3 u1 v) <= k1 /\ Rabs (dot3 u2 v) <= k2.
Lemma solid_inbox c u k p : solid_box c u k p <-> inbox u k (sub3 p c).
Proof. destruct u as [[? ?] ?], k as [[? ?] ?]. reflexivity. Qed.
Lemma eq_sound b c u k b' c' u' k' : good_cuboid b c u k -> good_cuboid b' c' u' k' -> cu_eq b b' = true ->
  c = c' /\ forall v, inbox u k v <-> inbox u' k' v.
Proof.
  destruct u as [[u0 u1] u2], k as [[k0 k1] k2], u' as [[v0 v1] v2], k' as [[j0 j1] j2]. intros (-> & _ & _) (-> & _ & _).
  unfold cu_eq. cbn [cu_data cu_center cu_axes cu_extent]. destruct (v3_eqb c c') eqn:Ec; [| discriminate]. apply eqb_true in Ec. intros H. split; [exact Ec |].
  intros x. unfold inbox.
  repeat match type of H with (if ?m then _ else _) = true => destruct m eqn:? end; try discriminate;
  repeat match goal with M : cu_match _ _ _ _ = true |- _ => apply (match_abs _ _ _ _ x) in M; destruct M as [-> ->] end; tauto.
Qed.

(** A face of one box is a face of the other. *)
Definition sided (w0 w1 w2 v : v3) : Prop := Rabs (dot3 w0 v) <= 1 /\ Rabs (dot3 w1 v) <= 1 /\ Rabs (dot3 w2 v) <= 1.
Lemma touching w0 w1 w2 w x : (forall v, sided w0 w1 w2 v -> Rabs (dot3 w v) <= 1) ->
  dot3 w0 x = 1 -> dot3 w1 x = 0 -> dot3 w2 x = 0 -> dot3 w x = 1 -> w0 = w.
Proof.
  intros H X0 X1 X2 X. apply sub3_0. destruct (v3_eq_dec (sub3 w0 w) zero3) as [E | N]; [exact E | exfalso]. apply sqnorm3_pos in N.
  remember (sub3 w0 w) as d eqn:Hd. set (s := Rabs (dot3 w0 d) + Rabs (dot3 w1 d) + Rabs (dot3 w2 d)).
  pose proof (Rabs_pos (dot3 w0 d)) as A0. pose proof (Rabs_pos (dot3 w1 d)) as A1. pose proof (Rabs_pos (dot3 w2 d)) as A2.
  set (t := / (2 * (1 + s))). assert (T : 0 < t) by (apply Rinv_0_lt_compat; unfold s; lra).
  assert (B : t * (1 + s) = / 2) by (unfold t; field; unfold s; lra).
  assert (Bi : forall a, 0 <= a -> a <= s -> 0 <= t * a <= / 2) by (intros a Ha Hs; split; nra).
  pose proof (Bi _ A0 ltac:(unfold s; lra)) as B0. pose proof (Bi _ A1 ltac:(unfold s; lra)) as B1. pose proof (Bi _ A2 ltac:(unfold s; lra)) as B2.
  set (n := 1 - t * dot3 w0 d).
  assert (M0 : - (/ 2) <= t * dot3 w0 d <= / 2) by (revert B0; unfold Rabs; destruct Rcase_abs; lra).
  assert (M1 : - (/ 2) <= t * dot3 w1 d <= / 2) by (revert B1; unfold Rabs; destruct Rcase_abs; lra).
  assert (M2 : - (/ 2) <= t * dot3 w2 d <= / 2) by (revert B2; unfold Rabs; destruct Rcase_abs; lra).
  assert (N1 : / 2 <= n) by (unfold n; lra).
  assert (L : forall a, dot3 a (scale3 (/ n) (sub3 x (scale3 t d))) = (dot3 a x - t * dot3 a d) / n) by (intros a; unfold Rdiv; generalize n t; clear; intros; v3ring).
  assert (Q : forall a, - n <= a <= n -> Rabs (a / n) <= 1).
  { intros a Ha. apply Rabs_le. split; apply (Rmult_le_reg_r n); try lra; unfold Rdiv; rewrite Rmult_assoc, Rinv_l by lra; lra. }
  specialize (H (scale3 (/ n) (sub3 x (scale3 t d)))). unfold sided in H. rewrite !L, X0, X1, X2, X in H.
  assert (K : Rabs ((1 - t * dot3 w d) / n) <= 1).
  { apply H. split; [apply Q; unfold n; lra |]. split; apply Q; lra. }
  assert (K' : (1 - t * dot3 w d) / n <= 1) by (eapply Rle_trans; [apply Rle_abs | exact K]).
  apply (Rmult_le_compat_r n) in K'; [| lra]. unfold Rdiv in K'. rewrite Rmult_assoc, Rinv_l in K' by lra. unfold n in K'.
  assert (E : sqnorm3 d = dot3 w0 d - dot3 w d) by (unfold sqnorm3; rewrite Hd at 1; generalize d; clear; intros; v3ring).
  assert (t * sqnorm3 d <= 0) by (rewrite E; lra). nra.
Qed.
Lemma scaled_match u k v j s : sqnorm3 u = 1 -> sqnorm3 v = 1 -> 0 < k -> 0 < j -> s * s = 1 ->
  scale3 (/ k) u = scale3 (s / j) v -> cu_match u k v j = true.
Proof.
  intros U V K J S E. assert (N : / k * / k = / j * / j).
  { pose proof (f_equal sqnorm3 E) as F. rewrite !sqnorm3_scale, U, V in F. unfold Rdiv in F. nra. }
  assert (KJ : k = j).
  { assert (P : 0 < / k) by (apply Rinv_0_lt_compat, K). assert (Q : 0 < / j) by (apply Rinv_0_lt_compat, J). assert (I : / k = / j) by nra.
    rewrite <- (Rinv_inv k), I, Rinv_inv. reflexivity. }
  subst j. apply match_iff. split; [| reflexivity]. assert (W : u = scale3 s v).
  { apply (f_equal (scale3 k)) in E. replace (scale3 k (scale3 (/ k) u)) with u in E.
    - rewrite E. clear - K. destruct v; unfold scale3; simpl; f_equal; field; lra.
    - clear - K. destruct u; unfold scale3; simpl; f_equal; field; lra. }
  assert (S' : s = 1 \/ s = -1) by (assert (Z : (s - 1) * (s + 1) = 0) by nra; apply Rmult_integral in Z; lra).
  destruct S' as [-> | ->]; [left | right]; rewrite W; clear; v3ring.
Qed.
Lemma face_match u0 u1 u2 k0 k1 k2 v0 v1 v2 j0 j1 j2 : orthonormal (u0, u1, u2) -> positive (k0, k1, k2) -> orthonormal (v0, v1, v2) -> positive (j0, j1, j2) ->
  (forall v, inbox (u0, u1, u2) (k0, k1, k2) v <-> inbox (v0, v1, v2) (j0, j1, j2) v) ->
  cu_match u0 k0 v0 j0 = true \/ cu_match u0 k0 v1 j1 = true \/ cu_match u0 k0 v2 j2 = true.
Proof.
  intros (U0 & U1 & U2 & U01 & U12 & U20) (K0 & K1 & K2) (V0 & V1 & V2 & _) (J0 & J1 & J2) H.
  assert (Sc : forall k u v, 0 < k -> Rabs (dot3 (scale3 (/ k) u) v) <= 1 <-> Rabs (dot3 u v) <= k).
  { intros k u v K. replace (dot3 (scale3 (/ k) u) v) with (/ k * dot3 u v) by (clear; v3ring). rewrite Rabs_mult, (Rabs_right (/ k)) by (apply Rle_ge, Rlt_le, Rinv_0_lt_compat, K).
    split; intros X.
    - apply (Rmult_le_compat_l k) in X; [| lra]. rewrite <- Rmult_assoc, Rinv_r, Rmult_1_l in X by lra. lra.
    - apply (Rmult_le_reg_l k); [lra |]. rewrite <- Rmult_assoc, Rinv_r by lra. lra. }
  set (x := scale3 k0 u0).
  assert (X0 : dot3 (scale3 (/ k0) u0) x = 1).
  { unfold x. replace (dot3 (scale3 (/ k0) u0) (scale3 k0 u0)) with (/ k0 * k0 * sqnorm3 u0) by (clear; v3ring). rewrite U0. field. lra. }
  assert (X1 : dot3 (scale3 (/ k1) u1) x = 0).
  { unfold x. replace (dot3 (scale3 (/ k1) u1) (scale3 k0 u0)) with (/ k1 * k0 * dot3 u0 u1) by (clear; v3ring). rewrite U01. ring. }
  assert (X2 : dot3 (scale3 (/ k2) u2) x = 0).
  { unfold x. replace (dot3 (scale3 (/ k2) u2) (scale3 k0 u0)) with (/ k2 * k0 * dot3 u2 u0) by (clear; v3ring). rewrite U20. ring. }
  assert (Step : forall v j, sqnorm3 v = 1 -> 0 < j -> (forall y, inbox (v0, v1, v2) (j0, j1, j2) y -> Rabs (dot3 v y) <= j) -> j <= Rabs (dot3 v x) -> cu_match u0 k0 v j = true).
  { intros v j V J Hv Hx. assert (E : Rabs (dot3 v x) = j).
    { apply Rle_antisym; [| exact Hx]. apply Hv, H. unfold inbox. split; [apply (proj1 (Sc k0 u0 x K0)) | split; [apply (proj1 (Sc k1 u1 x K1)) | apply (proj1 (Sc k2 u2 x K2))]]; rewrite ?X0, ?X1, ?X2, ?Rabs_R0, ?Rabs_R1; lra. }
    rewrite abs_eq in E by exact J.
    assert (S : exists s, s * s = 1 /\ s * dot3 v x = j) by (destruct E as [-> | ->]; [exists 1 | exists (-1)]; split; ring). destruct S as (s & S & Es).
    apply (scaled_match u0 k0 v j s U0 V K0 J S). apply (touching _ (scale3 (/ k1) u1) (scale3 (/ k2) u2) _ x); [| assumption | assumption | assumption |].
    - intros y (Y0 & Y1 & Y2). apply (proj1 (Sc k0 u0 y K0)) in Y0. apply (proj1 (Sc k1 u1 y K1)) in Y1. apply (proj1 (Sc k2 u2 y K2)) in Y2.
      replace (dot3 (scale3 (s / j) v) y) with (s * dot3 (scale3 (/ j) v) y) by (rewrite !scale_dot; unfold Rdiv; ring).
      rewrite Rabs_mult. replace (Rabs s) with 1; [rewrite Rmult_1_l; apply (proj2 (Sc j v y J)); apply Hv, H; unfold inbox; tauto |].
      assert (S' : s = 1 \/ s = -1) by (assert (Z : (s - 1) * (s + 1) = 0) by nra; apply Rmult_integral in Z; lra). destruct S' as [-> | ->]; [rewrite Rabs_R1 | rewrite Rabs_left]; lra.
    - replace (dot3 (scale3 (s / j) v) x) with (s * dot3 v x / j) by (rewrite scale_dot; unfold Rdiv; ring). rewrite Es. field. lra. }
  destruct (Rle_or_lt j0 (Rabs (dot3 v0 x))) as [L0 | L0]; [left; apply Step; [assumption | assumption | unfold inbox; tauto | exact L0] |].
  destruct (Rle_or_lt j1 (Rabs (dot3 v1 x))) as [L1 | L1]; [right; left; apply Step; [assumption | assumption | unfold inbox; tauto | exact L1] |].
  destruct (Rle_or_lt j2 (Rabs (dot3 v2 x))) as [L2 | L2]; [right; right; apply Step; [assumption | assumption | unfold inbox; tauto | exact L2] |].
  exfalso.
  assert (G : forall v j, 0 < j -> Rabs (dot3 v x) < j -> exists m, 1 < m /\ forall n, 1 <= n <= m -> Rabs (dot3 v (scale3 n x)) <= j).
  { intros v j J L. exists (1 + (j - Rabs (dot3 v x)) / (1 + Rabs (dot3 v x))). pose proof (Rabs_pos (dot3 v x)) as A. set (a := Rabs (dot3 v x)) in *.
    assert (D : 0 < (j - a) / (1 + a)) by (apply Rdiv_lt_0_compat; lra). split; [lra |]. intros n [N1 N2].
    replace (dot3 v (scale3 n x)) with (n * dot3 v x) by (clearbody x; clear; v3ring). rewrite Rabs_mult, (Rabs_right n) by lra. fold a.
    assert (F : (j - a) / (1 + a) * (1 + a) = j - a) by (field; lra). nra. }
  destruct (G v0 j0 J0 L0) as (m0 & M0 & G0). destruct (G v1 j1 J1 L1) as (m1 & M1 & G1). destruct (G v2 j2 J2 L2) as (m2 & M2 & G2).
  set (m := Rmin m0 (Rmin m1 m2)). assert (Mm : 1 < m /\ m <= m0 /\ m <= m1 /\ m <= m2).
  { unfold m. pose proof (Rmin_l m0 (Rmin m1 m2)). pose proof (Rmin_r m0 (Rmin m1 m2)). pose proof (Rmin_l m1 m2). pose proof (Rmin_r m1 m2).
    split; [apply Rmin_glb_lt; [| apply Rmin_glb_lt]; assumption | lra]. }
  assert (I : inbox (u0, u1, u2) (k0, k1, k2) (scale3 m x)) by (apply H; unfold inbox; split; [apply G0; lra | split; [apply G1; lra | apply G2; lra]]).
  destruct I as (I & _). apply (proj2 (Sc k0 u0 _ K0)) in I. replace (dot3 (scale3 (/ k0) u0) (scale3 m x)) with (m * dot3 (scale3 (/ k0) u0) x) in I by (clearbody x; clear; v3ring).
  rewrite X0, Rmult_1_r, Rabs_right in I by lra. lra.
Qed.
Lemma match_once u k v j v' j' : sqnorm3 v = 1 -> dot3 v v' = 0 -> cu_match u k v j = true -> cu_match u k v' j' = false.
Proof.
  intros V O M. destruct (cu_match u k v' j') eqn:M'; [exfalso | reflexivity]. apply match_iff in M, M'. destruct M as [[-> | ->] _], M' as [[E | E] _].
  - rewrite <- E in O. unfold sqnorm3 in V. lra.
  - rewrite E in V. replace (sqnorm3 (opp3 v')) with (- dot3 (opp3 v') v') in V by (clear; v3ring). rewrite <- E in V. lra.
  - rewrite <- E in O. replace (dot3 v (opp3 v)) with (- sqnorm3 v) in O by (clear; v3ring). lra.
  - assert (v = v') as <- by (transitivity (opp3 (opp3 v)); [clear; v3ring | rewrite E; clear; v3ring]). unfold sqnorm3 in V. lra.
Qed.
Lemma match_sym u k v j : cu_match u k v j = cu_match v j u k.
Proof.
  apply eq_true_iff_eq. rewrite !match_iff. split; intros [[-> | ->] ->]; split; try reflexivity; try (left; reflexivity); right; clear; v3ring.
Qed.
Lemma same_box_center c u k c' u' k' : orthonormal u -> positive k -> orthonormal u' -> positive k' ->
  same_points (solid_box c u k) (solid_box c' u' k') -> c = c'.
Proof.
  destruct u as [[u0 u1] u2], k as [[k0 k1] k2]. intros O (K0 & K1 & K2) _ _ H.
  assert (Sy : forall p, solid_box c' u' k' p -> solid_box c' u' k' (sub3 (scale3 2 c') p)).
  { intros p. rewrite !solid_inbox. replace (sub3 (sub3 (scale3 2 c') p) c') with (opp3 (sub3 p c')) by (clear; v3ring). destruct u' as [[? ?] ?], k' as [[? ?] ?]. unfold inbox.
    assert (E : forall v, dot3 v (opp3 (sub3 p c')) = - dot3 v (sub3 p c')) by (clear; intros; v3ring). rewrite !E, !Rabs_Ropp. tauto. }
  assert (Q : forall a b d, Rabs a <= k0 -> Rabs b <= k1 -> Rabs d <= k2 ->
     Rabs (2 * dot3 u0 (sub3 c' c) - a) <= k0 /\ Rabs (2 * dot3 u1 (sub3 c' c) - b) <= k1 /\ Rabs (2 * dot3 u2 (sub3 c' c) - d) <= k2).
  { intros a b d A B D. destruct (at_coordinates c u0 u1 u2 a b d O) as (E0 & E1 & E2). set (p := at_ c u0 u1 u2 a b d) in *.
    assert (P : solid_box c (u0, u1, u2) (k0, k1, k2) p) by (unfold solid_box; rewrite E0, E1, E2; tauto).
    apply H, Sy, H in P. unfold solid_box in P.
    assert (E : forall v, dot3 v (sub3 (sub3 (scale3 2 c') p) c) = 2 * dot3 v (sub3 c' c) - dot3 v (sub3 p c)) by (clearbody p; clear; intros; v3ring).
    rewrite !E, E0, E1, E2 in P. exact P. }
  assert (A : Rabs 0 <= k0 /\ Rabs 0 <= k1 /\ Rabs 0 <= k2) by (rewrite Rabs_R0; lra).
  assert (Ak : forall k, 0 < k -> Rabs k <= k /\ Rabs (- k) <= k) by (intros k K; rewrite Rabs_Ropp, Rabs_right; lra).
  assert (Zero : forall k y, 0 < k -> Rabs (2 * y - k) <= k -> Rabs (2 * y - - k) <= k -> y = 0).
  { intros k y K. unfold Rabs. do 2 destruct Rcase_abs; intros; lra. }
  assert (D0 : dot3 u0 (sub3 c' c) = 0) by (apply (Zero k0); [exact K0 | apply (Q k0 0 0) | apply (Q (- k0) 0 0)]; try apply Ak; tauto).
  assert (D1 : dot3 u1 (sub3 c' c) = 0) by (apply (Zero k1); [exact K1 | apply (Q 0 k1 0) | apply (Q 0 (- k1) 0)]; try apply Ak; tauto).
  assert (D2 : dot3 u2 (sub3 c' c) = 0) by (apply (Zero k2); [exact K2 | apply (Q 0 0 k2) | apply (Q 0 0 (- k2))]; try apply Ak; tauto).
  symmetry. apply (coordinates_eq u0 u1 u2 c' c c O); rewrite ?D0, ?D1, ?D2; clear; v3ring.
Qed.
Lemma c93_equal b c u k b' c' u' k' : good_cuboid b c u k -> good_cuboid b' c' u' k' ->
  cu_eq b b' = true <-> same_points (solid_box c u k) (solid_box c' u' k').
Proof.
  intros G G'. split.
  - intros E. destruct (eq_sound b c u k b' c' u' k' G G' E) as [-> F]. intros p. rewrite !solid_inbox. apply F.
  - intros H. destruct u as [[u0 u1] u2], k as [[k0 k1] k2], u' as [[v0 v1] v2], k' as [[j0 j1] j2]. destruct G as (-> & O & P), G' as (-> & O' & P').
    pose proof (same_box_center c _ _ c' _ _ O P O' P' H) as <-.
    assert (F : forall v, inbox (u0, u1, u2) (k0, k1, k2) v <-> inbox (v0, v1, v2) (j0, j1, j2) v).
    { intros v. specialize (H (add3 c v)). rewrite !solid_inbox in H. replace (sub3 (add3 c v) c) with v in H by (clear; v3ring). exact H. }
    pose proof O as (U0 & U1 & U2 & U01 & U12 & U20). pose proof O' as (V0 & V1 & V2 & V01 & V12 & V20). destruct P as (K0 & K1 & K2).
    assert (M0 := face_match u0 u1 u2 k0 k1 k2 v0 v1 v2 j0 j1 j2 O (conj K0 (conj K1 K2)) O' P' F).
    assert (M1 : cu_match u1 k1 v0 j0 = true \/ cu_match u1 k1 v1 j1 = true \/ cu_match u1 k1 v2 j2 = true).
    { apply (face_match u1 u2 u0 k1 k2 k0); [repeat split; assumption | repeat split; assumption | exact O' | exact P' |]. intros v. rewrite <- F. unfold inbox. tauto. }
    assert (M2 : cu_match u2 k2 v0 j0 = true \/ cu_match u2 k2 v1 j1 = true \/ cu_match u2 k2 v2 j2 = true).
    { apply (face_match u2 u0 u1 k2 k0 k1); [repeat split; assumption | repeat split; assumption | exact O' | exact P' |]. intros v. rewrite <- F. unfold inbox. tauto. }
    assert (V10 : dot3 v1 v0 = 0) by (rewrite dot_comm; exact V01). assert (V21 : dot3 v2 v1 = 0) by (rewrite dot_comm; exact V12). assert (V02 : dot3 v0 v2 = 0) by (rewrite dot_comm; exact V20).
    assert (Row : forall u k, cu_match u k v0 j0 = true \/ cu_match u k v1 j1 = true \/ cu_match u k v2 j2 = true ->
      (cu_match u k v0 j0 = true /\ cu_match u k v1 j1 = false /\ cu_match u k v2 j2 = false)
      \/ (cu_match u k v0 j0 = false /\ cu_match u k v1 j1 = true /\ cu_match u k v2 j2 = false)
      \/ (cu_match u k v0 j0 = false /\ cu_match u k v1 j1 = false /\ cu_match u k v2 j2 = true)).
    { intros u k [M | [M | M]]; [left | right; left | right; right]; rewrite M; repeat split; try (eapply match_once; [| | exact M]; assumption). }
    assert (Col : forall u k u' k' v j, sqnorm3 u = 1 -> dot3 u u' = 0 -> cu_match u k v j = true -> cu_match u' k' v j = true -> False).
    { intros u k u' k' v j U D A B. rewrite match_sym in A, B. rewrite (match_once v j u k u' k' U D A) in B. discriminate. }
    unfold cu_eq. cbn [cu_data cu_center cu_axes cu_extent]. rewrite (proj2 (eqb_true c c) eq_refl).
    apply Row in M0, M1, M2.
    destruct M0 as [(A0 & A1 & A2) | [(A0 & A1 & A2) | (A0 & A1 & A2)]]; destruct M1 as [(B0 & B1 & B2) | [(B0 & B1 & B2) | (B0 & B1 & B2)]];
      try (exfalso; eapply (Col u0 _ u1); [exact U0 | exact U01 | eassumption | eassumption]);
      destruct M2 as [(C0 & C1 & C2) | [(C0 & C1 & C2) | (C0 & C1 & C2)]];
      try (exfalso; eapply (Col u1 _ u2); [exact U1 | exact U12 | eassumption | eassumption]);
      try (exfalso; eapply (Col u2 _ u0); [exact U2 | exact U20 | eassumption | eassumption]);
      rewrite ?A0, ?A1, ?A2, ?B0, ?B1, ?B2, ?C0, ?C1, ?C2; reflexivity.
Qed.

(** *** Transformation *)
Lemma normalized_unit v : sqnorm3 v = 1 -> normalized3 v = v.
Proof. intros U. unfold normalized3. destruct Rlt_dec; [| reflexivity]. rewrite norm3_1 by exact U. clear. destruct v; unfold scale3; simpl; f_equal; field. Qed.
Lemma c93_rigid eps prec t b c u k : 0 < eps -> 0 < prec -> proper3 eps prec t -> good_cuboid b c u k ->
  exists f b' u', maps_points3 t f /\ cu_apply t b = Ok b' /\ good_cuboid b' (f c) u' k
    /\ image_of f (solid_box c u k) (solid_box (f c) u' k) /\ image_of f (on_box c u k) (on_box (f c) u' k)
    /\ forall p, cu_contains eps b' (Some (f p)) = cu_contains eps b (Some p).
Proof.
  intros He Hp H. destruct u as [[u0 u1] u2], k as [[k0 k1] k2]. intros (-> & O & P). destruct (proper_shape eps prec t He Hp H) as (ty & l & d & -> & Rl & N0).
  assert (N : ty <> TUndefined) by (intros ->; exact N0).
  pose proof O as (U0 & U1 & U2 & U01 & U12 & U20).
  set (b' := mkCuboid (Some (amap l d c)) (Some (mulv3 l u0), Some (mulv3 l u1), Some (mulv3 l u2)) (Some k0, Some k1, Some k2)).
  exists (amap l d), b', (mulv3 l u0, mulv3 l u1, mulv3 l u2). split; [apply apply_affine |].
  assert (A : cu_apply (mkT3 ty (Some (affine4 l d)) true) (mkCuboid (Some c) (Some u0, Some u1, Some u2) (Some k0, Some k1, Some k2)) = Ok b').
  { unfold cu_apply. rewrite apply_defined by assumption. cbn [negb cu_data cu_center cu_axes cu_extent bind]. unfold t3_isIdentity. rewrite apply_defined by assumption. cbn [bind t3_type].
    destruct (ttype_eqb ty TIdentity) eqn:I.
    - assert (ty = TIdentity) as -> by (destruct ty; try discriminate; reflexivity). destruct N0 as [-> ->]. unfold b', amap. rewrite !mulv3_id.
      replace (add3 c zero3) with c by (clear; v3ring). reflexivity.
    - rewrite pt_apply_affine by assumption. cbn [bind]. rewrite !(proj2 (apply_affine _ _ _ _)). cbn [option_map].
      rewrite !normalized_unit, !norm3_1, !Rmult_1_r by (rewrite rotation_unit; assumption). reflexivity. }
  assert (Rb : forall u p q, dot3 (mulv3 l u) (sub3 (amap l d p) (amap l d q)) = dot3 u (sub3 p q)) by (intros; rewrite amap_sub; apply rotation_dot, Rl).
  assert (Inv : forall q, exists p, q = amap l d p) by (intros q; exists (amap (transpose3 l) (opp3 (mulv3 (transpose3 l) d)) q); symmetry; apply amap_inv_r, rotation_right, Rl).
  split; [exact A |]. split; [split; [reflexivity |]; split; [| exact P] |].
  { unfold orthonormal, sqnorm3. rewrite !rotation_dot by assumption. repeat split; assumption. }
  assert (Im : forall S T : v3 -> Prop, (forall p, T (amap l d p) <-> S p) -> image_of (amap l d) S T).
  { intros S T E q. split; [intros X; destruct (Inv q) as [p ->]; exists p; split; [apply E, X | reflexivity] | intros (p & X & ->); apply E, X]. }
  split; [apply Im; intros p; unfold solid_box; rewrite !Rb; reflexivity |]. split; [apply Im; intros p; unfold on_box, solid_box; rewrite !Rb; reflexivity |].
  intros p. unfold cu_contains, b'. cbn [needd bind cu_data cu_center cu_axes cu_extent]. rewrite !(dot_comm (sub3 (amap l d p) (amap l d c))), !Rb, !(dot_comm (sub3 p c)). reflexivity.
Qed.
Lemma c93_cube c x : 0 < x -> exists b, Cube (Some c) (Some x) = Ok b /\ good_cuboid b c (V3 1 0 0, V3 0 1 0, V3 0 0 1) (x, x, x).
Proof. intros X. eexists. split; [reflexivity |]. split; [reflexivity |]. split; [repeat split; v3unfold; ring | repeat split; exact X]. Qed.
Lemma c93_errors c x b t : Cube None x = Err EUndefined /\ Cube (Some c) None = Err EUndefined /\ cu_apply t3_Undefined b = Err EUndefined
  /\ (cu_data b = Err EUndefined -> (t3_isDefined t = true -> cu_apply t b = Err EUndefined) /\ forall b', cu_eq b b' = false /\ cu_eq b' b = false).
Proof.
  split; [reflexivity |]. split; [reflexivity |]. split; [reflexivity |]. intros D. split.
  - intros T. unfold cu_apply. rewrite T, D. reflexivity.
  - intros b'. unfold cu_eq. rewrite D. split; [reflexivity |]. destruct (cu_data b') as [[[? [[? ?] ?]] [[? ?] ?]] | |]; reflexivity.
Qed.
