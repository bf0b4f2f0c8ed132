(** Proofs about cones: containment and equality. *)

From Coq Require Import List Bool Reals Lra Lia Psatz ZArith.
From Verif Require Import Result DOrder Vec VecProofs AngleModel AngleSpec AngleProofs AngleProofs2 RotModel RotProofs Geo3Types Geo3Model Geo3Spec
  Geo3Proofs Geo3Proofs2 SphereModel EllModel InterModel ConeModel ConeSpec.
Import ListNotations.
Local Open Scope R_scope.

(** *** Angles *)
Lemma cos_le_iff x y : 0 <= x <= PI -> 0 <= y <= PI -> (x <= y <-> cos y <= cos x).
Proof.
  intros Hx Hy. split; intros H.
  - destruct (Req_dec x y) as [-> | N]; [lra |]. left. apply cos_decreasing_1; lra.
  - destruct (Rle_dec x y) as [L | L]; [exact L |]. exfalso. apply Rnot_le_lt in L.
    assert (cos x < cos y) by (apply cos_decreasing_1; lra). lra.
Qed.
Lemma acos_le_iff x t : -1 <= x <= 1 -> 0 <= t <= PI -> (acos x <= t <-> cos t <= x).
Proof.
  intros Hx Ht. pose proof (acos_bound x) as B. rewrite (cos_le_iff (acos x) t B Ht), cos_acos by exact Hx. reflexivity.
Qed.
Lemma in_degrees fuel k t : turns k = Some (t / (2 * PI)) -> 0 <= t < 2 * PI -> inDegrees fuel k (Some 0) (Some 360) = Ok (t / (2 * PI) * 360).
Proof.
  intros H Ht. pose proof PI_RGT_0 as P. unfold inDegrees, in_range. cbn [need bind].
  destruct Req_EM_T as [_ | N]; [| exfalso; lra].
  rewrite (in_unit_spec _ _ Degree H) by discriminate. cbn [bind units_per_turn]. unfold ReduceRange.
  assert (0 <= t / (2 * PI) < 1).
  { split; [apply Rmult_le_pos; [lra | left; apply Rinv_0_lt_compat; lra] |].
    apply (Rmult_lt_reg_r (2 * PI)); [lra |]. unfold Rdiv. rewrite Rmult_assoc, Rinv_l by lra. lra. }
  rewrite Rltb_f, Rltb_t by lra. reflexivity.
Qed.
Lemma turn_le x y : x / (2 * PI) * 360 <= y / (2 * PI) * 360 <-> x <= y.
Proof.
  pose proof PI_RGT_0 as P. assert (I : 0 < / (2 * PI)) by (apply Rinv_0_lt_compat; lra). unfold Rdiv. split; intros H; nra.
Qed.

Lemma within_ok fuel eps v u k t : 0 < eps -> eps <= sqnorm3 v -> eps <= sqnorm3 u -> turns k = Some (t / (2 * PI)) -> 0 <= t < 2 * PI ->
  exists b, co_within fuel eps v u k = Ok b /\ (b = true <-> acos (dot3 v u / (norm3 v * norm3 u)) <= t).
Proof.
  intros He Hv Hu Hk Ht. unfold co_within. rewrite (Between3_acos eps v u He Hv Hu). cbn [bind].
  set (x := acos _). assert (B : 0 <= x <= PI) by apply acos_bound. pose proof PI_RGT_0.
  rewrite (in_degrees fuel (Radians x) x) by (try reflexivity; lra). cbn [bind].
  rewrite (in_degrees fuel k t Hk Ht). cbn [bind]. eexists. split; [reflexivity |]. rewrite Rleb_iff. apply turn_le.
Qed.

Lemma cosine_le v u t : 0 < sqnorm3 v -> 0 < sqnorm3 u -> 0 <= t <= PI ->
  (acos (dot3 v u / (norm3 v * norm3 u)) <= t <-> norm3 v * norm3 u * cos t <= dot3 v u).
Proof.
  intros Hv Hu Ht. pose proof (norm3_pos v Hv) as Pv. pose proof (norm3_pos u Hu) as Pu.
  rewrite acos_le_iff; [| apply ratio_bound; [exact Pv | exact Pu | apply cauchy3_norm] | exact Ht].
  assert (P : 0 < norm3 v * norm3 u) by (apply Rmult_lt_0_compat; assumption).
  split; intros H.
  - apply (Rmult_le_compat_l (norm3 v * norm3 u)) in H; [| lra].
    replace (norm3 v * norm3 u * (dot3 v u / (norm3 v * norm3 u))) with (dot3 v u) in H by (field; lra). exact H.
  - apply (Rmult_le_reg_l (norm3 v * norm3 u)); [exact P |].
    replace (norm3 v * norm3 u * (dot3 v u / (norm3 v * norm3 u))) with (dot3 v u) by (field; lra). exact H.
Qed.
Lemma norm3_zero : norm3 zero3 = 0.
Proof. apply norm3_0. reflexivity. Qed.
Lemma sub_self p : sub3 p p = zero3.
Proof. v3ring. Qed.
Lemma dot_zero u : dot3 zero3 u = 0.
Proof. v3ring. Qed.
Lemma solid_apex a u t : solid_cone a u t a.
Proof. unfold solid_cone. rewrite sub_self, norm3_zero, dot_zero. lra. Qed.
Lemma acute_cos t : 0 <= t <= PI / 2 -> 0 <= cos t <= 1.
Proof. intros H. pose proof PI_RGT_0. split; [apply cos_ge_0; lra | apply COS_bound]. Qed.
Lemma solid_front a u t p : 0 <= t <= PI / 2 -> solid_cone a u t p -> 0 <= dot3 (sub3 p a) u.
Proof.
  intros Ht H. unfold solid_cone in H. pose proof (acute_cos t Ht).
  pose proof (norm3_nonneg (sub3 p a)). pose proof (norm3_nonneg u).
  assert (0 <= norm3 (sub3 p a) * norm3 u) by (apply Rmult_le_pos; assumption).
  assert (0 <= norm3 (sub3 p a) * norm3 u * cos t) by (apply Rmult_le_pos; lra). lra.
Qed.
Lemma co_data_ok eps c a u t k : c = mkCone (Some a) (Some u) k -> turns k = Some (t / (2 * PI)) -> eps <= sqnorm3 u -> co_data c = Ok (a, u, k).
Proof. intros -> Hk _. unfold co_data. cbn [co_apex co_axis co_angle]. rewrite (turns_defined _ _ Hk). reflexivity. Qed.

(** *** Containment *)
Lemma c54_contains_partial fuel eps c a u t p : 0 < eps -> good_cone eps c a u t -> 0 <= t <= PI / 2 -> clear_of eps a p ->
  exists b, co_contains fuel eps c (Some p) = Ok b /\ (b = true <-> solid_cone a u t p).
Proof.
  intros He (k & E & Hk & Hu) Ht Hp. pose proof PI_RGT_0. unfold co_contains. cbn [needd bind].
  rewrite (co_data_ok eps c a u t k E Hk Hu). cbn [bind].
  destruct (v3_eqb p a) eqn:Ep.
  { apply v3_eqb_iff in Ep. subst p. exists true. split; [reflexivity |]. split; [intros _; apply solid_apex | reflexivity]. }
  apply v3_eqb_false in Ep. destruct Hp as [Hp | Hp]; [contradiction |].
  destruct (Rltb (dot3 (sub3 p a) u) 0) eqn:Ed.
  { apply Rltb_true in Ed. exists false. split; [reflexivity |]. split; [discriminate |]. intros H1. pose proof (solid_front a u t p Ht H1). lra. }
  destruct (within_ok fuel eps (sub3 p a) u k t He Hp Hu Hk ltac:(lra)) as (b & Eb & Hb). exists b. split; [exact Eb |].
  rewrite Hb. apply cosine_le; lra.
Qed.
Lemma c54_apex fuel eps c a u t : good_cone eps c a u t -> co_contains fuel eps c (Some a) = Ok true.
Proof.
  intros (k & E & Hk & Hu). unfold co_contains. cbn [needd bind]. rewrite (co_data_ok eps c a u t k E Hk Hu). cbn [bind].
  rewrite v3_eqb_refl. reflexivity.
Qed.
(** In front of the apex, closer to it than Angle::Between accepts. *)
Lemma c54_near_apex fuel eps c a u t p : good_cone eps c a u t -> 0 < sqnorm3 (sub3 p a) < eps -> 0 <= dot3 (sub3 p a) u ->
  co_contains fuel eps c (Some p) = Err ERuntime.
Proof.
  intros (k & E & Hk & Hu) Hp Hd. unfold co_contains. cbn [needd bind]. rewrite (co_data_ok eps c a u t k E Hk Hu). cbn [bind].
  destruct (v3_eqb p a) eqn:Ep.
  { apply v3_eqb_iff in Ep. subst p. rewrite sub_self in Hp. exfalso. unfold sqnorm3 in Hp. rewrite dot_zero in Hp. lra. }
  rewrite Rltb_f by exact Hd. unfold co_within, Between3. rewrite (Rltb_t (sqnorm3 (sub3 p a)) eps) by lra. reflexivity.
Qed.
Lemma sqnorm_axis k : sqnorm3 (V3 0 0 k) = k * k.
Proof. v3unfold. ring. Qed.
Lemma norm_axis k : 0 <= k -> norm3 (V3 0 0 k) = k.
Proof. intros H. unfold norm3. rewrite sqnorm_axis. apply sqrt_square. exact H. Qed.
Lemma sub_zero p : sub3 p zero3 = p.
Proof. destruct p. v3unfold. f_equal; ring. Qed.
Definition cone_z (k : angle) : cone := mkCone (Some zero3) (Some (V3 0 0 1)) k.
Lemma cone_z_good eps t : eps <= 1 -> good_cone eps (cone_z (Radians t)) zero3 (V3 0 0 1) t.
Proof. intros H. exists (Radians t). split; [reflexivity |]. split; [reflexivity |]. rewrite sqnorm_axis. lra. Qed.
Lemma c54_near_apex_refuted eps : 0 < eps <= 1 -> exists c a u t p, good_cone eps c a u t /\ 0 <= t <= PI / 2 /\ solid_cone a u t p
  /\ forall fuel, co_contains fuel eps c (Some p) = Err ERuntime.
Proof.
  intros He. pose proof PI_RGT_0. exists (cone_z (Radians (PI / 4))), zero3, (V3 0 0 1), (PI / 4), (V3 0 0 (eps / 2)).
  pose proof (cone_z_good eps (PI / 4) ltac:(lra)) as G. split; [exact G |]. split; [lra |]. split.
  - unfold solid_cone. rewrite sub_zero, !norm_axis by lra. pose proof (COS_bound (PI / 4)).
    replace (dot3 (V3 0 0 (eps / 2)) (V3 0 0 1)) with (eps / 2) by (v3unfold; ring). nra.
  - intros fuel. apply (c54_near_apex fuel eps _ _ _ _ _ G); rewrite sub_zero.
    + rewrite sqnorm_axis. split; nra.
    + replace (dot3 (V3 0 0 (eps / 2)) (V3 0 0 1)) with (eps / 2) by (v3unfold; ring). lra.
Qed.
(** A cone wider than a half space lacks the points behind its apex. *)
Lemma c54_obtuse_refuted eps : 0 < eps <= 1 -> exists c a u t p, good_cone eps c a u t /\ PI / 2 < t < PI /\ clear_of eps a p
  /\ solid_cone a u t p /\ forall fuel, co_contains fuel eps c (Some p) = Ok false.
Proof.
  intros He. pose proof PI_RGT_0. exists (cone_z (Radians (3 * (PI / 4)))), zero3, (V3 0 0 1), (3 * (PI / 4)), (V3 1 0 (- (1 / 2))).
  pose proof (cone_z_good eps (3 * (PI / 4)) ltac:(lra)) as G. split; [exact G |]. split; [lra |].
  assert (Q : sqnorm3 (V3 1 0 (- (1 / 2))) = 5 / 4) by (v3unfold; field).
  assert (D : dot3 (V3 1 0 (- (1 / 2))) (V3 0 0 1) = - (1 / 2)) by (v3unfold; field).
  split; [right; rewrite sub_zero, Q; lra |]. split.
  - unfold solid_cone. rewrite sub_zero, D, (norm_axis 1) by lra. replace (3 * (PI / 4)) with (PI / 2 + PI / 4) by field.
    replace (cos (PI / 2 + PI / 4)) with (- sin (PI / 4)) by (rewrite cos_plus, cos_PI2, sin_PI2; ring).
    assert (N : 1 <= norm3 (V3 1 0 (- (1 / 2)))) by (apply sqrt_le_sq; [apply norm3_nonneg | lra | rewrite norm3_sq, Q; lra]).
    assert (S : 1 / 2 <= sin (PI / 4)).
    { rewrite <- sin_PI6. left. apply sin_increasing_1; lra. }
    nra.
  - intros fuel. destruct G as (k & E & Hk & Hu). unfold co_contains. cbn [needd bind]. rewrite (co_data_ok eps _ _ _ _ _ E Hk Hu). cbn [bind].
    rewrite sub_zero, D, (Rltb_t (- (1 / 2)) 0) by lra. destruct (v3_eqb _ _) eqn:Z; [| reflexivity].
    apply v3_eqb_iff in Z. injection Z. intros. exfalso. lra.
Qed.

(** Closed along half lines from the apex, and convex. *)
Lemma along_apex a p s : sub3 (along a s (sub3 p a)) a = scale3 s (sub3 p a).
Proof. apply along_sub. Qed.
Lemma solid_ray a u t p s : 0 <= s -> solid_cone a u t p -> solid_cone a u t (along a s (sub3 p a)).
Proof.
  intros Hs H. unfold solid_cone in *. rewrite along_apex, norm3_scale, dot3_scale_l, Rabs_right by lra.
  replace (s * norm3 (sub3 p a) * norm3 u * cos t) with (s * (norm3 (sub3 p a) * norm3 u * cos t)) by ring.
  apply Rmult_le_compat_l; assumption.
Qed.
Lemma sub_segment a p q s : sub3 (along p s (sub3 q p)) a = add3 (scale3 (1 - s) (sub3 p a)) (scale3 s (sub3 q a)).
Proof. unfold along. v3ring. Qed.
Lemma dot_add a b c : dot3 (add3 a b) c = dot3 a c + dot3 b c.
Proof. v3ring. Qed.
Lemma norm_sum v w s k : 0 <= s -> 0 <= k -> norm3 (add3 (scale3 s v) (scale3 k w)) <= s * norm3 v + k * norm3 w.
Proof.
  intros Hs Hk. eapply Rle_trans; [apply norm3_triangle |]. rewrite !norm3_scale, !Rabs_right by lra. lra.
Qed.
Lemma solid_sum u t v w s k : 0 <= t <= PI / 2 -> 0 <= s -> 0 <= k -> norm3 v * norm3 u * cos t <= dot3 v u -> norm3 w * norm3 u * cos t <= dot3 w u ->
  norm3 (add3 (scale3 s v) (scale3 k w)) * norm3 u * cos t <= dot3 (add3 (scale3 s v) (scale3 k w)) u.
Proof.
  intros Ht Hs Hk Hv Hw. rewrite dot_add, !dot3_scale_l. pose proof (norm_sum v w s k Hs Hk) as N. pose proof (acute_cos t Ht) as C.
  pose proof (norm3_nonneg u) as U. set (m := norm3 u * cos t) in *. assert (M : 0 <= m) by (apply Rmult_le_pos; lra).
  apply (Rle_trans _ ((s * norm3 v + k * norm3 w) * m)); [rewrite Rmult_assoc; apply Rmult_le_compat_r; assumption |].
  rewrite Rmult_assoc in Hv, Hw. fold m in Hv, Hw.
  replace ((s * norm3 v + k * norm3 w) * m) with (s * (norm3 v * m) + k * (norm3 w * m)) by ring.
  apply Rplus_le_compat; apply Rmult_le_compat_l; assumption.
Qed.
Lemma solid_convex a u t p q x : 0 <= t <= PI / 2 -> solid_cone a u t p -> solid_cone a u t q -> on_segment p q x -> solid_cone a u t x.
Proof.
  intros Ht Hp Hq (s & Hs & ->). unfold solid_cone in *. rewrite sub_segment. apply solid_sum; try assumption; lra.
Qed.
Lemma c54_further fuel eps c a u t p s : 0 < eps -> good_cone eps c a u t -> 0 <= t <= PI / 2 -> clear_of eps a p -> 1 <= s ->
  co_contains fuel eps c (Some p) = Ok true -> co_contains fuel eps c (Some (along a s (sub3 p a))) = Ok true.
Proof.
  intros He G Ht Hp Hs H. destruct (c54_contains_partial fuel eps c a u t p He G Ht Hp) as (b & E & I).
  rewrite E in H. injection H as ->. pose proof (proj1 I eq_refl) as S.
  assert (Hp' : clear_of eps a (along a s (sub3 p a))).
  { destruct Hp as [-> | Hp]; [left; unfold along; rewrite sub_self; v3ring | right]. rewrite along_apex, sqnorm3_scale.
    assert (1 <= s * s) by (clear - Hs; nra). set (m := sqnorm3 (sub3 p a)) in *. clearbody m. clear - He Hp H. nra. }
  destruct (c54_contains_partial fuel eps c a u t _ He G Ht Hp') as (b' & E' & I'). rewrite E'. f_equal. apply I'. apply solid_ray; [lra | exact S].
Qed.
Lemma c54_segment fuel eps c a u t p q : 0 < eps -> good_cone eps c a u t -> 0 <= t <= PI / 2 -> clear_of eps a p -> clear_of eps a q ->
  exists b, co_contains_segment fuel eps c (mkSeg (Some p) (Some q)) = Ok b
    /\ (b = true <-> forall x, on_segment p q x -> solid_cone a u t x)
    /\ (b = true <-> forall x, on_segment p q x -> clear_of eps a x -> co_contains fuel eps c (Some x) = Ok true).
Proof.
  intros He G Ht Hp Hq. destruct (c54_contains_partial fuel eps c a u t p He G Ht Hp) as (b & E & I).
  destruct (c54_contains_partial fuel eps c a u t q He G Ht Hq) as (b' & E' & I').
  unfold co_contains_segment. cbn [s_data s_first s_second bind]. rewrite E. cbn [bind].
  destruct (on_segment_ends p q) as [Op Oq].
  exists (b && b'). split; [destruct b; [rewrite E' |]; reflexivity |]. rewrite andb_true_iff.
  assert (K : b = true /\ b' = true <-> forall x, on_segment p q x -> solid_cone a u t x).
  { rewrite I, I'. split; [intros [Sp Sq] x Hx; apply (solid_convex a u t p q x Ht Sp Sq Hx) | intros H; split; apply H; assumption]. }
  split; [exact K |]. split.
  - intros H x Hx Hc. destruct (c54_contains_partial fuel eps c a u t x He G Ht Hc) as (d & Ed & Id). rewrite Ed. f_equal. apply Id.
    apply (proj1 K H x Hx).
  - intros H. split; [rewrite (H p Op Hp) in E | rewrite (H q Oq Hq) in E']; congruence.
Qed.
Lemma c54_sets fuel eps c a u t s : 0 < eps -> good_cone eps c a u t -> 0 <= t <= PI / 2 -> (forall p, In p s -> clear_of eps a p) ->
  exists b, co_contains_ps fuel eps c s = Ok b /\ (b = true <-> forall p, In p s -> solid_cone a u t p).
Proof.
  intros He G Ht Hs. unfold co_contains_ps. pose proof G as (k & E & Hk & Hu). rewrite (co_data_ok eps _ _ _ _ _ E Hk Hu). cbn [bind].
  apply allM_ok. intros p Hp. apply (c54_contains_partial fuel eps c a u t p He G Ht (Hs p Hp)).
Qed.
(** A ray is contained when all its points are. *)
Lemma scale_along a o d s : sub3 (along o s d) a = add3 (scale3 1 (sub3 o a)) (scale3 s d).
Proof. unfold along. v3ring. Qed.
Lemma unbounded k m : (forall s, 0 <= s -> m <= s * k) -> 0 <= k.
Proof.
  intros H. destruct (Rle_dec 0 k) as [L | L]; [exact L |]. exfalso. apply Rnot_le_lt in L.
  assert (P : 0 <= (Rabs m + 1) / - k) by (apply Rmult_le_pos; [pose proof (Rabs_pos m); lra | left; apply Rinv_0_lt_compat; lra]).
  specialize (H _ P). replace ((Rabs m + 1) / - k * k) with (- (Rabs m + 1)) in H by (field; lra).
  unfold Rabs in H. destruct Rcase_abs; lra.
Qed.
Lemma solid_directions a u t o d : 0 <= t <= PI / 2 ->
  ((forall x, on_ray o d x -> solid_cone a u t x) <-> solid_cone a u t o /\ norm3 d * norm3 u * cos t <= dot3 d u).
Proof.
  intros Ht. pose proof (acute_cos t Ht) as C. split.
  - intros H. split.
    + specialize (H (along o 0 d) ltac:(exists 0; split; [lra | reflexivity])). rewrite along_0 in H. exact H.
    + set (v := sub3 o a). set (m := norm3 u * cos t). assert (M : 0 <= m) by (apply Rmult_le_pos; [apply norm3_nonneg | lra]).
      enough (0 <= dot3 d u - norm3 d * m) by (unfold m in *; lra).
      apply (unbounded _ (- (norm3 v * m + dot3 v u))). intros s Hs.
      specialize (H (along o s d) ltac:(exists s; split; [exact Hs | reflexivity])). unfold solid_cone in H.
      rewrite scale_along, dot_add, !dot3_scale_l, Rmult_assoc in H. fold m v in H.
      assert (N : s * norm3 d - norm3 v <= norm3 (add3 (scale3 1 v) (scale3 s d))).
      { assert (T : norm3 (scale3 s d) <= norm3 (add3 (scale3 1 v) (scale3 s d)) + norm3 v).
        { replace (scale3 s d) with (add3 (add3 (scale3 1 v) (scale3 s d)) (scale3 (-1) v)) at 1 by (clearbody v; clear; v3ring).
          eapply Rle_trans; [apply norm3_triangle |]. rewrite (norm3_scale (-1)). rewrite Rabs_left by lra. lra. }
        rewrite norm3_scale, Rabs_right in T by lra. lra. }
      apply (Rmult_le_compat_r m) in N; [| exact M]. lra.
  - intros [Ho Hd] x (s & Hs & ->). unfold solid_cone in *. rewrite scale_along. apply solid_sum; try assumption; lra.
Qed.
Lemma c54_ray fuel eps c a u t r o d : 0 < eps <= 1 -> good_cone eps c a u t -> 0 <= t <= PI / 2 -> good_ray r o d -> clear_of eps a o ->
  exists b, co_contains_ray fuel eps c r = Ok b /\ (b = true <-> forall x, on_ray o d x -> solid_cone a u t x).
Proof.
  intros He G Ht [-> Hd] Ho. pose proof PI_RGT_0. destruct (c54_contains_partial fuel eps c a u t o ltac:(lra) G Ht Ho) as (b & E & I).
  unfold co_contains_ray. cbn [r_data r_origin r_direction bind]. pose proof G as (k & Ec & Hk & Hu).
  rewrite (co_data_ok eps _ _ _ _ _ Ec Hk Hu). cbn [bind]. rewrite E. cbn [bind].
  destruct (within_ok fuel eps d u k t ltac:(lra) ltac:(lra) Hu Hk ltac:(lra)) as (b' & E' & I').
  rewrite cosine_le in I' by lra. exists (b && b'). split; [destruct b; [exact E' | reflexivity] |].
  rewrite andb_true_iff, I, I'. symmetry. apply solid_directions. exact Ht.
Qed.
Lemma c54_errors fuel eps c s q r p ps sg ry e : co_data c = Err EUndefined ->
  co_contains fuel eps c p = Err EUndefined /\ co_contains_ps fuel eps c ps = Err EUndefined
  /\ (s_data sg = Ok q -> co_contains_segment fuel eps c sg = Err EUndefined) /\ co_contains_ray fuel eps c ry = Err EUndefined
  /\ co_contains_sphere fuel eps c s = Err EUndefined /\ co_contains_ellipsoid c e = Err EUndefined
  /\ co_intersects_sphere c s = Err EUndefined /\ co_distanceTo eps c p = Err EUndefined
  /\ (forall fuel d, co_eq fuel c d = Ok false /\ co_eq fuel d c = Ok false)
  /\ (forall e, is_ok (e_data e) = true -> co_data r <> Err EUndefined -> co_contains_ellipsoid r e = Err EToBeImplemented).
Proof.
  intros H. assert (N : forall p, co_contains fuel eps c p = Err EUndefined).
  { intros [p' |]; unfold co_contains; cbn [needd bind]; [rewrite H |]; reflexivity. }
  assert (D : forall e, e_data e = Err EUndefined \/ is_ok (e_data e) = true).
  { intros x. unfold e_data. destruct (e_center x), (e_a x), (e_b x), (e_c x), (e_q x); cbn; auto. }
  split; [apply N |]. split; [unfold co_contains_ps; rewrite H; reflexivity |].
  split; [intros E; unfold co_contains_segment; rewrite E; cbn [bind]; destruct q; rewrite N; reflexivity |].
  split; [unfold co_contains_ray, r_data; destruct (r_origin ry), (r_direction ry); try reflexivity; cbn [bind]; rewrite H; reflexivity |].
  split; [unfold co_contains_sphere, sp_data; destruct (sp_center s), (sp_radius s); try reflexivity; cbn [bind]; rewrite H; reflexivity |].
  split; [unfold co_contains_ellipsoid; destruct (D e) as [X | X]; [rewrite X; reflexivity | destruct (e_data e); try discriminate; cbn [bind]; rewrite H; reflexivity] |].
  split; [unfold co_intersects_sphere, sp_data; destruct (sp_center s), (sp_radius s); try reflexivity; cbn [bind]; rewrite H; reflexivity |].
  split; [unfold co_distanceTo; destruct p; cbn [needd bind]; [rewrite H |]; reflexivity |].
  split; [intros f d; unfold co_eq; rewrite H; destruct (co_data d) as [[[? ?] ?] | |]; split; reflexivity |].
  intros x Hx Hr. unfold co_contains_ellipsoid. destruct (e_data x); try discriminate. cbn [bind].
  unfold co_data in *. destruct (co_apex r), (co_axis r); try contradiction. destruct (angle_isDefined (co_angle r)); [reflexivity | contradiction].
Qed.
