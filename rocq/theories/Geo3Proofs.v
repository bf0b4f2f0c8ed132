(** Points, lines, rays, segments and planes (C48, C49, C50). *)

From Coq Require Import List Bool Reals Lra Lia Psatz.
From Verif Require Import Result DOrder Vec VecProofs AngleModel AngleProofs RotModel RotProofs TransfModel Geo3Types Geo3Model Geo3Spec.
Import ListNotations.
Local Open Scope R_scope.

(** *** Helpers *)
Lemma v3_eqb_iff a b : v3_eqb a b = true <-> a = b.
Proof. unfold v3_eqb. destruct v3_eq_dec; split; intros; congruence. Qed.
Lemma v3_eqb_false a b : v3_eqb a b = false <-> a <> b.
Proof. unfold v3_eqb. destruct v3_eq_dec; split; intros; congruence. Qed.
Lemma v3_eqb_refl a : v3_eqb a a = true.
Proof. apply v3_eqb_iff. reflexivity. Qed.
Lemma Reqb_false a b : Reqb a b = false <-> a <> b.
Proof. unfold Reqb. destruct Req_EM_T; split; intros; congruence. Qed.
Lemma dist3_sym p q : dist3 p q = dist3 q p.
Proof. unfold dist3. rewrite <- norm3_opp. f_equal. v3ring. Qed.
Lemma sqrt_le_sq x y : 0 <= y -> 0 <= x -> x * x <= y * y -> x <= y.
Proof. intros. apply Rsqr_incr_0; unfold Rsqr; assumption. Qed.
Lemma norm3_le a b : sqnorm3 a <= sqnorm3 b -> norm3 a <= norm3 b.
Proof. intros. apply sqrt_le_1; try apply sqnorm3_nonneg. assumption. Qed.
Lemma norm3_eq a b : sqnorm3 a = sqnorm3 b -> norm3 a = norm3 b.
Proof. intros H. unfold norm3. rewrite H. reflexivity. Qed.
Lemma along_0 o d : along o 0 d = o.
Proof. unfold along. v3ring. Qed.
Lemma along_sub o t d : sub3 (along o t d) o = scale3 t d.
Proof. unfold along. v3ring. Qed.

(** A vector parallel to [d]. *)
Lemma cross_0 d v : d <> zero3 -> (sqnorm3 (cross3 d v) = 0 <-> v = scale3 (dot3 d v / sqnorm3 d) d).
Proof.
  intros Hd. apply sqnorm3_pos in Hd. split.
  - intros H. apply sqnorm3_0 in H. apply sub3_0, sqnorm3_0.
    assert (L : sqnorm3 d * sqnorm3 v = dot3 d v * dot3 d v).
    { pose proof (lagrange3 d v) as L. rewrite H in L. replace (sqnorm3 zero3) with 0 in L by (v3unfold; ring). lra. }
    rewrite sqnorm3_sub, dot3_scale_r, sqnorm3_scale, (dot3_sym v d).
    apply (Rmult_eq_reg_l (sqnorm3 d)); [| lra]. rewrite Rmult_0_r.
    transitivity (sqnorm3 d * sqnorm3 v - dot3 d v * dot3 d v); [field; lra | lra].
  - intros ->. generalize (dot3 d v / sqnorm3 d). intros k. destruct d. v3unfold. ring.
Qed.
Lemma cross_scale d k : sqnorm3 (cross3 d (scale3 k d)) = 0.
Proof. destruct d. v3unfold. ring. Qed.
Lemma sub_along o p d t : sub3 p o = scale3 t d -> p = along o t d.
Proof.
  intros H. unfold along. rewrite <- H. v3ring.
Qed.

(** *** C50 *)
Lemma c50_line l o d p : l = mkLine (Some o) (Some d) -> d <> zero3 ->
  exists b, l_contains l (Some p) = Ok b /\ (b = true <-> on_line o d p).
Proof.
  intros -> Hd. eexists. split; [reflexivity |]. rewrite Reqb_iff, cross_0 by assumption. split.
  - intros H. eexists. apply sub_along. exact H.
  - intros (t & ->). rewrite along_sub, dot3_scale_r. f_equal. apply sqnorm3_pos in Hd. unfold sqnorm3 in *. field. lra.
Qed.
Lemma c50_ray r o d p : r = mkRay (Some o) (Some d) -> d <> zero3 ->
  exists b, r_contains r (Some p) = Ok b /\ (b = true <-> on_ray o d p).
Proof.
  intros -> Hd. eexists. split; [reflexivity |]. rewrite andb_true_iff, Reqb_iff, Rleb_iff, cross_0 by assumption.
  apply sqnorm3_pos in Hd. split.
  - intros [H K]. eexists. split; [| apply sub_along; exact H]. apply Rle_mult_inv_pos; assumption.
  - intros (t & Ht & ->). rewrite along_sub, dot3_scale_r. unfold sqnorm3 in *. split; [f_equal; field; lra |]. apply Rmult_le_pos; lra.
Qed.
Lemma c50_segment s a b p : s = mkSeg (Some a) (Some b) ->
  exists c, s_contains s (Some p) = Ok c /\ (c = true <-> on_segment a b p).
Proof.
  intros ->. unfold s_contains, s_isDegenerate. cbn [needd bind s_data s_first s_second]. destruct (v3_eqb a b) eqn:E.
  - apply v3_eqb_iff in E. subst b. eexists. split; [reflexivity |]. rewrite v3_eqb_iff. split.
    + intros <-. exists 0. split; [lra |]. rewrite along_0. reflexivity.
    + intros (t & _ & ->). unfold along. v3ring.
  - apply v3_eqb_false in E. assert (Hd : sub3 b a <> zero3) by (intros H; apply sub3_0 in H; congruence).
    assert (Hp := proj1 (sqnorm3_pos _) Hd).
    assert (G : forall t, dot3 (sub3 b a) (scale3 t (sub3 b a)) = t * sqnorm3 (sub3 b a)) by (intros; rewrite dot3_scale_r; reflexivity).
    destruct (Reqb (sqnorm3 (cross3 (sub3 b a) (sub3 p a))) 0) eqn:F.
    + eexists. split; [reflexivity |]. apply Reqb_iff, cross_0 in F; [| assumption]. rewrite andb_true_iff, !Rleb_iff.
      fold (sqnorm3 (sub3 b a)). split.
      * intros [K L]. exists (dot3 (sub3 b a) (sub3 p a) / sqnorm3 (sub3 b a)). split; [| apply sub_along; exact F]. split.
        -- apply Rle_mult_inv_pos; assumption.
        -- apply (Rmult_le_reg_r (sqnorm3 (sub3 b a))); [assumption |]. unfold Rdiv. rewrite Rmult_assoc, Rinv_l by lra. lra.
      * intros (t & Ht & ->). rewrite along_sub, G. nra.
    + eexists. split; [reflexivity |]. split; [discriminate |]. intros (t & _ & ->). exfalso.
      rewrite along_sub, cross_scale in F. apply Reqb_false in F. congruence.
Qed.
Lemma c50_plane q n p : exists b, pl_contains (Plane (Some q) (Some n)) (Some p) = Ok b /\ (b = true <-> on_plane q n p).
Proof.
  eexists. split; [reflexivity |]. rewrite Reqb_iff. unfold on_plane, normalized3. destruct Rlt_dec as [H |].
  - rewrite dot3_scale_r, dot3_sym. apply norm3_pos in H. split; intros K.
    + apply Rmult_integral in K. destruct K as [K |]; [| assumption]. apply Rinv_neq_0_compat in K; [easy | lra].
    + rewrite K. ring.
  - rewrite dot3_sym. reflexivity.
Qed.
(** The constructors. *)
Lemma normalized3_unit d : d <> zero3 -> sqnorm3 (normalized3 d) = 1 /\ normalized3 d = scale3 (/ norm3 d) d.
Proof.
  intros H. apply sqnorm3_pos in H. unfold normalized3. destruct Rlt_dec; [| lra]. split; [| reflexivity].
  rewrite sqnorm3_scale, <- norm3_sq. apply norm3_pos in H. field. lra.
Qed.
Lemma unit_direction_ok d : d <> zero3 -> exists k, 0 < k /\ unit_direction (Some d) = Ok (Some (scale3 k d)) /\ sqnorm3 (scale3 k d) = 1.
Proof.
  intros H. unfold unit_direction. destruct (Reqb (sqnorm3 d) 1) eqn:E.
  - exists 1. rewrite scale3_1. apply Reqb_iff in E. split; [lra |]. split; [reflexivity | assumption].
  - destruct (Reqb (sqnorm3 d) 0) eqn:F; [apply Reqb_iff in F; apply sqnorm3_pos in H; lra |].
    destruct (normalized3_unit d H) as [U N]. exists (/ norm3 d). rewrite <- N. split; [| split; [reflexivity | assumption]].
    apply Rinv_0_lt_compat, norm3_pos, sqnorm3_pos, H.
Qed.
Lemma unit_direction_zero : unit_direction (Some zero3) = Err EWrong.
Proof.
  unfold unit_direction. replace (sqnorm3 zero3) with 0 by (v3unfold; ring).
  rewrite (proj2 (Reqb_false 0 1)) by lra. rewrite (proj2 (Reqb_iff 0 0)) by lra. reflexivity.
Qed.
Lemma c50_construct o d : d <> zero3 ->
  exists l r u, Line (Some o) (Some d) = Ok l /\ Ray (Some o) (Some d) = Ok r
    /\ good_line l o u /\ good_ray r o u
    /\ (forall p, on_line o u p <-> on_line o d p) /\ (forall p, on_ray o u p <-> on_ray o d p).
Proof.
  intros H. destruct (unit_direction_ok d H) as (k & K & E & U). unfold Line, Ray. rewrite E. cbn [bind].
  do 3 eexists. do 2 (split; [reflexivity |]). do 2 (split; [split; [reflexivity | exact U] |]). split; intros p; split.
  - intros (t & ->). exists (t * k). unfold along. rewrite scale3_scale. reflexivity.
  - intros (t & ->). exists (t / k). unfold along. rewrite scale3_scale. do 2 f_equal. field. lra.
  - intros (t & Ht & ->). exists (t * k). split; [nra |]. unfold along. rewrite scale3_scale. reflexivity.
  - intros (t & Ht & ->). exists (t / k). split; [apply Rle_mult_inv_pos; lra |]. unfold along. rewrite scale3_scale. do 2 f_equal. field. lra.
Qed.
Lemma c50_construct_zero o : Line o (Some zero3) = Err EWrong /\ Ray o (Some zero3) = Err EWrong.
Proof. unfold Line, Ray. rewrite unit_direction_zero. split; reflexivity. Qed.
Lemma c50_through p q : p <> q -> exists l d, Line_Points (Some p) (Some q) = Ok l /\ good_line l p d
  /\ on_line p d p /\ on_line p d q /\ (forall x, on_segment p q x -> on_line p d x)
  /\ s_toLine (mkSeg (Some p) (Some q)) = Ok l.
Proof.
  intros H. assert (N : sub3 q p <> zero3) by (intros E; apply sub3_0 in E; congruence).
  destruct (normalized3_unit _ N) as [U E]. unfold s_toLine, Line_Points. cbn [needd bind pt_eq s_first s_second].
  rewrite (proj2 (v3_eqb_false p q) H). unfold Line, unit_direction. rewrite (proj2 (Reqb_iff _ _) U). cbn [bind].
  assert (P : 0 < norm3 (sub3 q p)) by (apply norm3_pos, sqnorm3_pos, N).
  do 2 eexists. split; [reflexivity |]. split; [split; [reflexivity | exact U] |].
  assert (S : forall x, on_segment p q x -> on_line p (normalized3 (sub3 q p)) x).
  { intros x (t & _ & ->). exists (t * norm3 (sub3 q p)). rewrite E. unfold along. rewrite scale3_scale. do 2 f_equal. field. lra. }
  split; [exists 0; rewrite along_0; reflexivity |]. split; [apply S; exists 1; split; [lra |]; unfold along; v3ring |]. split; [exact S | reflexivity].
Qed.
Lemma c50_errors l r s pl q : l_contains l None = Err EUndefined /\ r_contains r None = Err EUndefined
  /\ s_contains s None = Err EUndefined /\ pl_contains pl None = Err EUndefined
  /\ l_contains (mkLine None (Some q)) (Some q) = Err EUndefined /\ r_contains (mkRay None (Some q)) (Some q) = Err EUndefined
  /\ s_contains (mkSeg None (Some q)) (Some q) = Err EUndefined /\ pl_contains (mkPlane None (Some q)) (Some q) = Err EUndefined
  /\ Line_Points (Some q) (Some q) = Err ERuntime.
Proof. unfold Line_Points, pt_eq. cbn [needd bind]. rewrite v3_eqb_refl. repeat split. Qed.

(** *** C48 *)
Lemma on_plane_along q n o t d : on_plane q n (along o t d) <-> t * dot3 n d = dot3 n (sub3 q o).
Proof.
  unfold on_plane. replace (dot3 n (sub3 (along o t d) q)) with (t * dot3 n d - dot3 n (sub3 q o)); [split; lra |].
  unfold along. destruct n, o, d, q. v3unfold. ring.
Qed.
Lemma represents_empty (S : v3 -> Prop) : (forall p, ~ S p) -> represents inter_empty S.
Proof. intros H. split; [repeat split |]. intros p. cbn. split; [intros K; destruct (H p K) | intros (o & [] & _)]. Qed.
Lemma represents_point (S : v3 -> Prop) q : (forall p, S p <-> p = q) -> represents (inter_point q) S.
Proof.
  intros H. split; [repeat split |]. intros p. rewrite H. cbn. split.
  - intros ->. exists (OPoint (Some q)). split; [left; reflexivity | reflexivity].
  - intros (o & [<- | []] & E). cbn in E. congruence.
Qed.
Lemma represents_one (S : v3 -> Prop) ty o : well_typed (mkInter ty true [o]) -> (forall p, S p <-> points_obj o p) -> represents (mkInter ty true [o]) S.
Proof.
  intros W H. split; [exact W |]. intros p. rewrite H. cbn. split.
  - intros K. exists o. split; [left; reflexivity | exact K].
  - intros (x & [<- | []] & E). exact E.
Qed.
Lemma c48_line o d q n : exists b i,
  l_intersects_plane (mkLine (Some o) (Some d)) (mkPlane (Some q) (Some n)) = Ok b
  /\ l_inter_plane (mkLine (Some o) (Some d)) (mkPlane (Some q) (Some n)) = Ok i
  /\ (b = true <-> exists p, on_line o d p /\ on_plane q n p)
  /\ represents i (fun p => on_line o d p /\ on_plane q n p).
Proof.
  unfold l_intersects_plane, l_inter_plane, l_data, pl_data. cbn [l_origin l_direction pl_point pl_normal bind].
  destruct (Reqb (dot3 n d) 0) eqn:E; [apply Reqb_iff in E | apply Reqb_false in E].
  - destruct (Reqb (dot3 n (sub3 q o)) 0) eqn:F; [apply Reqb_iff in F | apply Reqb_false in F]; do 2 eexists; (split; [reflexivity |]).
    + split; [reflexivity |]. assert (A : forall p, on_line o d p -> on_plane q n p).
      { intros p (t & ->). apply on_plane_along. rewrite E, F. ring. }
      split; [split; [intros _ | reflexivity] |].
      * exists o. assert (L : on_line o d o) by (exists 0; rewrite along_0; reflexivity). split; [exact L | apply A, L].
      * apply represents_one; [repeat split |]. intros p. cbn. split; [intros [H _]; do 2 eexists; split; [reflexivity | exact H] |].
        intros (o' & d' & Q & H). injection Q as <- <-. split; [exact H | apply A, H].
    + split; [reflexivity |]. assert (A : forall p, ~ (on_line o d p /\ on_plane q n p)).
      { intros p ((t & ->) & H). apply on_plane_along in H. rewrite E, Rmult_0_r in H. congruence. }
      split; [split; [discriminate | intros (p & H); destruct (A p H)] |]. apply represents_empty, A.
  - do 2 eexists. split; [reflexivity |]. split; [reflexivity |].
    assert (A : forall p, on_line o d p /\ on_plane q n p <-> p = along o (dot3 n (sub3 q o) / dot3 n d) d).
    { intros p. split.
      - intros ((t & ->) & H). apply on_plane_along in H. f_equal. rewrite <- H. field. assumption.
      - intros ->. split; [eexists; reflexivity |]. apply on_plane_along. field. assumption. }
    split; [split; [intros _ | reflexivity] |].
    + eexists. apply A. reflexivity.
    + apply represents_point, A.
Qed.
Lemma c48_ray o d q n : exists b i,
  r_intersects_plane (mkRay (Some o) (Some d)) (mkPlane (Some q) (Some n)) = Ok b
  /\ r_inter_plane (mkRay (Some o) (Some d)) (mkPlane (Some q) (Some n)) = Ok i
  /\ (b = true <-> exists p, on_ray o d p /\ on_plane q n p)
  /\ represents i (fun p => on_ray o d p /\ on_plane q n p).
Proof.
  unfold r_intersects_plane, r_inter_plane, r_data, pl_data. cbn [r_origin r_direction pl_point pl_normal bind].
  destruct (Reqb (dot3 n d) 0) eqn:E; [apply Reqb_iff in E | apply Reqb_false in E].
  - destruct (Reqb (dot3 n (sub3 q o)) 0) eqn:F; [apply Reqb_iff in F | apply Reqb_false in F]; do 2 eexists; (split; [reflexivity |]).
    + split; [reflexivity |]. assert (A : forall p, on_ray o d p -> on_plane q n p).
      { intros p (t & _ & ->). apply on_plane_along. rewrite E, F. ring. }
      split; [split; [intros _ | reflexivity] |].
      * exists o. assert (L : on_ray o d o) by (exists 0; rewrite along_0; split; [lra | reflexivity]). split; [exact L | apply A, L].
      * apply represents_one; [repeat split |]. intros p. cbn. split; [intros [H _]; do 2 eexists; split; [reflexivity | exact H] |].
        intros (o' & d' & Q & H). injection Q as <- <-. split; [exact H | apply A, H].
    + split; [reflexivity |]. assert (A : forall p, ~ (on_ray o d p /\ on_plane q n p)).
      { intros p ((t & _ & ->) & H). apply on_plane_along in H. rewrite E, Rmult_0_r in H. congruence. }
      split; [split; [discriminate | intros (p & H); destruct (A p H)] |]. apply represents_empty, A.
  - assert (A : forall t p, on_plane q n (along o t d) -> p = along o t d -> t = dot3 n (sub3 q o) / dot3 n d).
    { intros t p H _. apply on_plane_along in H. rewrite <- H. field. assumption. }
    assert (B : on_plane q n (along o (dot3 n (sub3 q o) / dot3 n d) d)) by (apply on_plane_along; field; assumption).
    remember (dot3 n (sub3 q o) / dot3 n d) as t0. clear Heqt0.
    destruct (Rltb t0 0) eqn:F; [apply Rltb_true in F | apply Rltb_false in F]; do 2 eexists; (split; [reflexivity |]).
    + split; [reflexivity |]. assert (C : forall p, ~ (on_ray o d p /\ on_plane q n p)).
      { intros p ((t & Ht & ->) & H). pose proof (A t _ H eq_refl). lra. }
      split; [| apply represents_empty, C]. rewrite Rleb_iff. split; [lra | intros (p & H); destruct (C p H)].
    + split; [reflexivity |]. split.
      * rewrite Rleb_iff. split; [| lra]. intros _. exists (along o t0 d). split; [| exact B]. exists t0. split; [lra | reflexivity].
      * apply represents_point. intros p. split.
        -- intros ((t & Ht & ->) & H). pose proof (A t _ H eq_refl). subst t. reflexivity.
        -- intros ->. split; [exists t0; split; [lra | reflexivity] | exact B].
Qed.
Lemma c48_segment a c q n : exists b i,
  s_intersects_plane (mkSeg (Some a) (Some c)) (mkPlane (Some q) (Some n)) = Ok b
  /\ s_inter_plane (mkSeg (Some a) (Some c)) (mkPlane (Some q) (Some n)) = Ok i
  /\ (b = true <-> exists p, on_segment a c p /\ on_plane q n p)
  /\ represents i (fun p => on_segment a c p /\ on_plane q n p).
Proof.
  unfold s_intersects_plane, s_inter_plane, s_data, pl_data. cbn [s_first s_second pl_point pl_normal bind].
  set (d := sub3 c a). destruct (Reqb (dot3 n d) 0) eqn:E; [apply Reqb_iff in E | apply Reqb_false in E].
  - destruct (Reqb (dot3 n (sub3 q a)) 0) eqn:F; [apply Reqb_iff in F | apply Reqb_false in F]; do 2 eexists; (split; [reflexivity |]).
    + split; [reflexivity |]. assert (A : forall p, on_segment a c p -> on_plane q n p).
      { intros p (t & _ & ->). apply on_plane_along. fold d. rewrite E, F. ring. }
      split; [split; [intros _ | reflexivity] |].
      * exists a. assert (L : on_segment a c a) by (exists 0; rewrite along_0; split; [lra | reflexivity]). split; [exact L | apply A, L].
      * apply represents_one; [repeat split |]. intros p. cbn. split; [intros [H _]; do 2 eexists; split; [reflexivity | exact H] |].
        intros (o' & d' & Q & H). injection Q as <- <-. split; [exact H | apply A, H].
    + split; [reflexivity |]. assert (A : forall p, ~ (on_segment a c p /\ on_plane q n p)).
      { intros p ((t & _ & ->) & H). apply on_plane_along in H. fold d in H. rewrite E, Rmult_0_r in H. congruence. }
      split; [split; [discriminate | intros (p & H); destruct (A p H)] |]. apply represents_empty, A.
  - assert (A : forall t p, on_plane q n (along a t d) -> p = along a t d -> t = dot3 n (sub3 q a) / dot3 n d).
    { intros t p H _. apply on_plane_along in H. rewrite <- H. field. assumption. }
    assert (B : on_plane q n (along a (dot3 n (sub3 q a) / dot3 n d) d)) by (apply on_plane_along; field; assumption).
    remember (dot3 n (sub3 q a) / dot3 n d) as t0. clear Heqt0.
    destruct (Rltb t0 0 || Rltb 1 t0) eqn:F; do 2 eexists; (split; [reflexivity |]).
    + split; [reflexivity |]. assert (F' : t0 < 0 \/ 1 < t0) by (apply orb_true_iff in F; rewrite !Rltb_true in F; exact F).
      assert (C : forall p, ~ (on_segment a c p /\ on_plane q n p)).
      { intros p ((t & Ht & ->) & H). pose proof (A t _ H eq_refl). lra. }
      split; [| apply represents_empty, C]. rewrite andb_true_iff, !Rleb_iff. split; [lra | intros (p & H); destruct (C p H)].
    + split; [reflexivity |]. assert (F' : 0 <= t0 <= 1) by (apply orb_false_iff in F; rewrite !Rltb_false in F; lra). split.
      * rewrite andb_true_iff, !Rleb_iff. split; [| lra]. intros _. exists (along a t0 d). split; [| exact B]. exists t0. split; [lra | reflexivity].
      * apply represents_point. intros p. split.
        -- intros ((t & Ht & ->) & H). pose proof (A t _ H eq_refl). subst t. reflexivity.
        -- intros ->. split; [exists t0; split; [lra | reflexivity] | exact B].
Qed.

(** *** C49 *)
Lemma c49_point p q : exists d, pt_distanceTo (Some p) (Some q) = Ok d /\ least_distance (fun x => x = p) q d.
Proof.
  eexists. split; [reflexivity |]. fold (dist3 p q). split; [exists p; split; [reflexivity | apply dist3_sym] |]. intros x ->. rewrite dist3_sym. lra.
Qed.
Lemma project o d p t : sqnorm3 d = 1 ->
  sqnorm3 (sub3 p (along o t d)) = sqnorm3 (cross3 d (sub3 p o)) + (t - dot3 d (sub3 p o)) * (t - dot3 d (sub3 p o)).
Proof.
  intros U. rewrite lagrange3, U. replace (sub3 p (along o t d)) with (sub3 (sub3 p o) (scale3 t d)) by (unfold along; v3ring).
  rewrite sqnorm3_sub, sqnorm3_scale, dot3_scale_r, U, (dot3_sym _ d). ring.
Qed.
Lemma c49_line l o d p : good_line l o d -> exists x, l_distanceTo l (Some p) = Ok x /\ least_distance (on_line o d) p x.
Proof.
  intros [-> U]. eexists. split; [reflexivity |]. split.
  - exists (along o (dot3 d (sub3 p o)) d). split; [eexists; reflexivity |]. apply norm3_eq. rewrite project by assumption. ring.
  - intros q (t & ->). apply norm3_le. rewrite project by assumption. pose proof (VecProofs.sq_nonneg (t - dot3 d (sub3 p o))). lra.
Qed.
Lemma c49_ray r o d p : good_ray r o d -> exists x, r_distanceTo r (Some p) = Ok x /\ least_distance (on_ray o d) p x.
Proof.
  intros [-> U]. unfold r_distanceTo, r_data. cbn [needd bind r_origin r_direction].
  assert (L : on_ray o d o) by (exists 0; rewrite along_0; split; [lra | reflexivity]).
  destruct (v3_eqb p o) eqn:E.
  - apply v3_eqb_iff in E. subst p. eexists. split; [reflexivity |]. split.
    + exists o. split; [exact L |]. apply norm3_0. v3ring.
    + intros q _. apply norm3_nonneg.
  - clear E. destruct (Rltb (dot3 (sub3 p o) d) 0) eqn:E; [apply Rltb_true in E | apply Rltb_false in E]; eexists; (split; [reflexivity |]); rewrite dot3_sym in E; split.
    + exists o. split; [exact L | reflexivity].
    + intros q (t & Ht & ->). apply norm3_le. rewrite project by assumption. rewrite lagrange3, U. nra.
    + exists (along o (dot3 d (sub3 p o)) d). split; [eexists; split; [exact E | reflexivity] |]. apply norm3_eq. rewrite project by assumption. ring.
    + intros q (t & _ & ->). apply norm3_le. rewrite project by assumption. pose proof (VecProofs.sq_nonneg (t - dot3 d (sub3 p o))). lra.
Qed.
Lemma project_segment a b p t : 0 < sqnorm3 (sub3 b a) ->
  sqnorm3 (sub3 p (along a t (sub3 b a)))
  = sqnorm3 (sub3 p a) - dot3 (sub3 p a) (sub3 b a) * dot3 (sub3 p a) (sub3 b a) / sqnorm3 (sub3 b a)
    + sqnorm3 (sub3 b a) * ((t - dot3 (sub3 p a) (sub3 b a) / sqnorm3 (sub3 b a)) * (t - dot3 (sub3 p a) (sub3 b a) / sqnorm3 (sub3 b a))).
Proof.
  intros H. replace (sub3 p (along a t (sub3 b a))) with (sub3 (sub3 p a) (scale3 t (sub3 b a))) by (unfold along; v3ring).
  rewrite sqnorm3_sub, sqnorm3_scale, dot3_scale_r. field. lra.
Qed.
Lemma c49_segment s a b p : s = mkSeg (Some a) (Some b) -> exists x, s_distanceTo s (Some p) = Ok x /\ least_distance (on_segment a b) p x.
Proof.
  intros ->. unfold s_distanceTo, s_isDegenerate, s_data. cbn [needd bind s_first s_second pt_distanceTo]. destruct (v3_eqb a b) eqn:E.
  - apply v3_eqb_iff in E. subst b. eexists. split; [reflexivity |]. fold (dist3 a p). split.
    + exists a. split; [exists 0; rewrite along_0; split; [lra | reflexivity] | apply dist3_sym].
    + intros q (t & _ & ->). replace (along a t (sub3 a a)) with a by (unfold along; v3ring). rewrite dist3_sym. lra.
  - apply v3_eqb_false in E. assert (Hp : 0 < sqnorm3 (sub3 b a)) by (apply sqnorm3_pos; intros H; apply sub3_0 in H; congruence).
    eexists. split; [reflexivity |]. remember (dot3 (sub3 p a) (sub3 b a) / sqnorm3 (sub3 b a)) as k.
    assert (C : 0 <= Rmax 0 (Rmin 1 k) <= 1) by (split; [apply Rmax_l | apply Rmax_lub; [lra | apply Rmin_l]]).
    fold (along a (Rmax 0 (Rmin 1 k)) (sub3 b a)). fold (dist3 (along a (Rmax 0 (Rmin 1 k)) (sub3 b a)) p). rewrite dist3_sym. split.
    + exists (along a (Rmax 0 (Rmin 1 k)) (sub3 b a)). split; [eexists; split; [exact C | reflexivity] | reflexivity].
    + intros q (t & Ht & ->). apply norm3_le. rewrite !project_segment, <- Heqk by assumption.
      apply Rplus_le_compat_l, Rmult_le_compat_l; [lra |].
      clear - Ht. unfold Rmax, Rmin. destruct (Rle_dec 1 k) as [H | H]; destruct Rle_dec as [K | K]; try apply Rnot_le_lt in H; try apply Rnot_le_lt in K; pose proof (VecProofs.sq_nonneg (t - k)); nra.
Qed.
(** Least element of a list. *)
Lemma min_from_le m l : min_from m l <= m /\ forall x, In x l -> min_from m l <= x.
Proof.
  revert m. induction l as [| x l IH]; intros m; cbn [min_from]; [split; [lra | intros _ []] |].
  destruct (IH (if Rltb x m then x else m)) as [A B]. split.
  - destruct (Rltb x m) eqn:E; [apply Rltb_true in E |]; lra.
  - intros y [<- | H]; [| apply B, H]. destruct (Rltb x m) eqn:E; [| apply Rltb_false in E]; lra.
Qed.
Lemma min_from_in m l : min_from m l = m \/ In (min_from m l) l.
Proof.
  revert m. induction l as [| x l IH]; intros m; cbn [min_from]; [left; reflexivity |].
  destruct (IH (if Rltb x m then x else m)) as [A | A]; [| right; right; exact A].
  rewrite A. destruct (Rltb x m); [right; left; reflexivity | left; reflexivity].
Qed.
Lemma mapM_ok {A B} (f : A -> result B) (g : A -> B) l : (forall x, In x l -> f x = Ok (g x)) -> mapM f l = Ok (map g l).
Proof.
  induction l as [| x l IH]; intros H; [reflexivity |]. cbn [mapM map]. rewrite H by (left; reflexivity). cbn [bind].
  rewrite IH by (intros; apply H; right; assumption). reflexivity.
Qed.
Lemma c49_pointset s p : s <> [] -> exists x, ps_distanceTo s (Some p) = Ok x /\ least_distance (fun q => In q s) p x.
Proof.
  destruct s as [| q r]; [congruence |]. intros _. unfold ps_distanceTo. cbn [needd bind pt_distanceTo].
  rewrite (mapM_ok _ (fun q => dist3 p q)) by reflexivity. cbn [bind]. eexists. split; [reflexivity |]. fold (dist3 p q).
  destruct (min_from_le (dist3 p q) (map (dist3 p) r)) as [A B]. split.
  - destruct (min_from_in (dist3 p q) (map (dist3 p) r)) as [C | C]; [exists q; split; [left; reflexivity | symmetry; exact C] |].
    apply in_map_iff in C. destruct C as (y & C & D). exists y. split; [right; exact D | exact C].
  - intros y [<- | H]; [exact A |]. apply B, in_map, H.
Qed.
Lemma c49_segment_set s a b ps : s = mkSeg (Some a) (Some b) -> ps <> [] ->
  exists x, s_distanceTo_ps s ps = Ok x
    /\ (exists p q, In p ps /\ on_segment a b q /\ dist3 p q = x)
    /\ (forall p q, In p ps -> on_segment a b q -> x <= dist3 p q).
Proof.
  intros ->. destruct ps as [| p r]; [congruence |]. intros _. unfold s_distanceTo_ps. cbn [s_data s_first s_second bind].
  assert (F : exists f, forall p, s_distanceTo (mkSeg (Some a) (Some b)) (Some p) = Ok (f p) /\ least_distance (on_segment a b) p (f p)).
  { exists (fun p => match s_distanceTo (mkSeg (Some a) (Some b)) (Some p) with Ok x => x | _ => 0 end). intros x.
    destruct (c49_segment _ a b x eq_refl) as (d & E & L). rewrite E. split; [reflexivity | exact L]. }
  destruct F as (f & F). rewrite (proj1 (F p)). cbn [bind]. rewrite (mapM_ok _ f) by (intros; apply F). cbn [bind].
  eexists. split; [reflexivity |]. destruct (min_from_le (f p) (map f r)) as [A B]. split.
  - destruct (min_from_in (f p) (map f r)) as [C | C].
    + rewrite C. destruct (proj2 (F p)) as [(q & Q & D) _]. exists p, q. split; [left; reflexivity |]. split; assumption.
    + apply in_map_iff in C. destruct C as (y & <- & D). destruct (proj2 (F y)) as [(q & Q & E) _]. exists y, q. split; [right; exact D |]. split; assumption.
  - intros y q [<- | H] Q.
    + apply (Rle_trans _ (f p)); [exact A |]. apply (proj2 (F p)), Q.
    + apply (Rle_trans _ (f y)); [apply B, in_map, H |]. apply (proj2 (F y)), Q.
Qed.
Lemma c49_errors p l r s : pt_distanceTo p None = Err EUndefined /\ pt_distanceTo None p = Err EUndefined
  /\ l_distanceTo l None = Err EUndefined /\ r_distanceTo r None = Err EUndefined
  /\ s_distanceTo s None = Err EUndefined /\ ps_distanceTo [] p = Err EUndefined /\ s_distanceTo_ps s [] = Err EUndefined.
Proof. unfold l_distanceTo, l_data. destruct p, l as [[] []]; repeat split. Qed.
