(** 2D points, point sets, lines, segments and line strings (C63, C65, C97, C98). *)

From Coq Require Import List Bool Reals Lra Lia Psatz Permutation.
From Verif Require Import Result DOrder Vec VecProofs AngleModel AngleProofs RotModel RotProofs TransfModel Geo3Types Geo3Model Geo3Proofs Geo3Proofs2
  Geo2Model Geo2Spec.
Import ListNotations.
Local Open Scope R_scope.

(** *** Helpers *)
Lemma v2_eqb_iff a b : v2_eqb a b = true <-> a = b.
Proof. unfold v2_eqb. destruct v2_eq_dec; split; intros; congruence. Qed.
Lemma v2_eqb_false a b : v2_eqb a b = false <-> a <> b.
Proof. unfold v2_eqb. destruct v2_eq_dec; split; intros; congruence. Qed.
Lemma v2_eqb_refl a : v2_eqb a a = true.
Proof. apply v2_eqb_iff. reflexivity. Qed.
Lemma sqnorm2_pos a : a <> zero2 <-> 0 < sqnorm2 a.
Proof. pose proof (sqnorm2_nonneg a). rewrite <- sqnorm2_0. split; intros; lra. Qed.
Lemma scale2_scale k l a : scale2 k (scale2 l a) = scale2 (k * l) a.
Proof. v2ring. Qed.
Lemma scale2_1 a : scale2 1 a = a.
Proof. destruct a as [a1 a2]; v2unfold; f_equal; ring. Qed.
Lemma norm2_le a b : sqnorm2 a <= sqnorm2 b -> norm2 a <= norm2 b.
Proof. intros. apply sqrt_le_1; try apply sqnorm2_nonneg. assumption. Qed.
Lemma norm2_eq a b : sqnorm2 a = sqnorm2 b -> norm2 a = norm2 b.
Proof. intros H. unfold norm2. rewrite H. reflexivity. Qed.
Lemma dist2_sym p q : dist2 p q = dist2 q p.
Proof. unfold dist2. rewrite <- norm2_opp. f_equal. v2ring. Qed.
Lemma norm2_triangle a b : norm2 (add2 a b) <= norm2 a + norm2 b.
Proof.
  pose proof (norm2_nonneg a). pose proof (norm2_nonneg b). apply sqrt_le_sq; [lra | apply norm2_nonneg |]. rewrite norm2_sq.
  replace (sqnorm2 (add2 a b)) with (sqnorm2 a + 2 * dot2 a b + sqnorm2 b) by v2ring. rewrite <- !norm2_sq.
  pose proof (cauchy2_norm a b). pose proof (Rle_abs (dot2 a b)). nra.
Qed.
Lemma dist2_triangle p q r : dist2 p r <= dist2 p q + dist2 q r.
Proof. unfold dist2. replace (sub2 p r) with (add2 (sub2 p q) (sub2 q r)) by v2ring. apply norm2_triangle. Qed.
Lemma along2_0 o d : along2 o 0 d = o.
Proof. unfold along2. v2ring. Qed.
Lemma along2_sub o t d : sub2 (along2 o t d) o = scale2 t d.
Proof. unfold along2. v2ring. Qed.
Lemma normalized2_unit d : d <> zero2 -> sqnorm2 (normalized2 d) = 1 /\ normalized2 d = scale2 (/ norm2 d) d.
Proof.
  intros H. apply sqnorm2_pos in H. unfold normalized2. destruct Rlt_dec; [| lra]. split; [| reflexivity].
  rewrite sqnorm2_scale, <- norm2_sq. apply norm2_pos in H. field. lra.
Qed.

(** *** C63: membership *)
Lemma c63_line l o d p : l = mkLine2 (Some o) (Some d) -> d <> zero2 ->
  exists b, l2_contains l (Some p) = Ok b /\ l2_intersects l (Some p) = Ok b /\ (b = true <-> on_line2 o d p).
Proof.
  intros -> Hd. unfold l2_intersects, l2_contains, l2_data. cbn [needd bind l2_origin l2_direction]. destruct (v2_eqb p o) eqn:E.
  - apply v2_eqb_iff in E. subst p. exists true. do 2 (split; [reflexivity |]). split; [| reflexivity]. intros _. exists 0. rewrite along2_0. reflexivity.
  - clear E. destruct o as [ox oy], d as [dx dy], p as [px py]. unfold add2. cbn [x2 y2].
    destruct (Reqb (ox + dx) ox) eqn:E; eexists; do 2 (split; [reflexivity |]); rewrite Reqb_iff.
    + apply Reqb_iff in E. assert (dx = 0) by lra. subst dx. assert (Hy : dy <> 0) by (intros ->; apply Hd; reflexivity). split.
      * intros ->. exists ((py - oy) / dy). unfold along2. v2unfold. apply V2_eq; [ring | field; exact Hy].
      * intros (t & T). apply (f_equal x2) in T. unfold along2 in T. v2unfold. lra.
    + apply Reqb_false in E. assert (Hx : dx <> 0) by lra. replace (oy + dy - oy) with dy by ring. replace (ox + dx - ox) with dx by ring. split.
      * intros H. exists ((px - ox) / dx). unfold along2. v2unfold. apply V2_eq; [field; exact Hx | rewrite H; field; exact Hx].
      * intros (t & T). pose proof (f_equal x2 T) as Tx. pose proof (f_equal y2 T) as Ty. unfold along2 in Tx, Ty. v2unfold. rewrite Tx, Ty. field. exact Hx.
Qed.
Lemma cross_plane a b : sqnorm3 (cross3 (in_plane a) (in_plane b)) = (x2 a * y2 b - y2 a * x2 b) * (x2 a * y2 b - y2 a * x2 b).
Proof. destruct a as [a1 a2], b as [b1 b2]. unfold in_plane. v3unfold. cbn [x2 y2]. ring. Qed.
Lemma dot_plane a b : dot3 (in_plane a) (in_plane b) = dot2 a b.
Proof. destruct a as [a1 a2], b as [b1 b2]. unfold in_plane. v3unfold. v2unfold. ring. Qed.
Lemma cross2_0 d v : d <> zero2 -> (sqnorm3 (cross3 (in_plane d) (in_plane v)) = 0 <-> v = scale2 (dot2 d v / sqnorm2 d) d).
Proof.
  intros Hd. apply sqnorm2_pos in Hd. rewrite cross_plane. split.
  - intros H. assert (C : x2 d * y2 v - y2 d * x2 v = 0) by (apply Rmult_integral in H; tauto).
    destruct d as [a b], v as [x y]. v2unfold. apply V2_eq; apply (Rmult_eq_reg_l (a * a + b * b)); try lra.
    + transitivity (a * (a * x + b * y)); [| field; lra]. replace (b * b * x) with (b * (b * x)) by ring. nra.
    + transitivity (b * (a * x + b * y)); [| field; lra]. nra.
  - intros ->. generalize (dot2 d v / sqnorm2 d). intros k. destruct d as [d1 d2]. v2unfold. ring.
Qed.
Lemma sub_along2 o p d t : sub2 p o = scale2 t d -> p = along2 o t d.
Proof. intros H. unfold along2. rewrite <- H. v2ring. Qed.
Lemma c63_segment s a b p : s = mkSeg2 (Some a) (Some b) ->
  exists c, s2_contains s (Some p) = Ok c /\ (c = true <-> on_segment2 a b p).
Proof.
  intros ->. unfold s2_contains, s2_isDegenerate. cbn [needd bind s2_data s2_first s2_second]. destruct (v2_eqb a b) eqn:E.
  - apply v2_eqb_iff in E. subst b. eexists. split; [reflexivity |]. rewrite v2_eqb_iff. split.
    + intros <-. exists 0. split; [lra |]. rewrite along2_0. reflexivity.
    + intros (t & _ & ->). unfold along2. v2ring.
  - apply v2_eqb_false in E. assert (Hd : sub2 b a <> zero2) by (intros H; apply sub2_0 in H; congruence).
    assert (Hp := proj1 (sqnorm2_pos _) Hd). rewrite !dot_plane.
    destruct (Reqb (sqnorm3 (cross3 (in_plane (sub2 b a)) (in_plane (sub2 p a)))) 0) eqn:F.
    + eexists. split; [reflexivity |]. apply Reqb_iff, cross2_0 in F; [| assumption]. rewrite andb_true_iff, !Rleb_iff.
      fold (sqnorm2 (sub2 b a)). split.
      * intros [K L]. exists (dot2 (sub2 b a) (sub2 p a) / sqnorm2 (sub2 b a)). split; [| apply sub_along2; exact F]. split.
        -- apply Rle_mult_inv_pos; assumption.
        -- apply (Rmult_le_reg_r (sqnorm2 (sub2 b a))); [assumption |]. unfold Rdiv. rewrite Rmult_assoc, Rinv_l by lra. lra.
      * intros (t & Ht & ->). rewrite along2_sub, dot2_scale_r. fold (sqnorm2 (sub2 b a)). nra.
    + eexists. split; [reflexivity |]. split; [discriminate |]. intros (t & _ & ->). exfalso.
      rewrite along2_sub in F. apply Reqb_false in F. apply F. rewrite cross_plane. generalize (sub2 b a). intros [x y]. v2unfold. ring.
Qed.
Lemma c63_sets o d a b s : d <> zero2 -> s <> [] -> exists c e,
  l2_contains_ps (mkLine2 (Some o) (Some d)) s = Ok c /\ (c = true <-> forall p, In p s -> on_line2 o d p)
  /\ s2_contains_ps (mkSeg2 (Some a) (Some b)) s = Ok e /\ (e = true <-> forall p, In p s -> on_segment2 a b p).
Proof.
  intros Hd H. destruct (allM_ok (fun p => l2_contains (mkLine2 (Some o) (Some d)) (Some p)) (on_line2 o d) s) as (c & C & Ci).
  { intros x _. destruct (c63_line _ o d x eq_refl Hd) as (r & R & _ & Ri). exists r. split; assumption. }
  destruct (allM_ok (fun p => s2_contains (mkSeg2 (Some a) (Some b)) (Some p)) (on_segment2 a b) s) as (e & E & Ei); [intros; apply c63_segment; reflexivity |].
  exists c, e. unfold l2_contains_ps, s2_contains_ps. replace (ps2_isEmpty s) with false by (destruct s; [congruence | reflexivity]).
  cbn [l2_data l2_origin l2_direction bind]. split; [exact C |]. split; [exact Ci |]. split; [exact E | exact Ei].
Qed.
(** The empty set: an error for a line, never contained in a segment. *)
Lemma c63_empty_set_refuted : exists o d s, good_line2 (mkLine2 (Some o) (Some d)) o d
  /\ l2_contains_ps (mkLine2 (Some o) (Some d)) [] = Err EUndefined /\ s2_contains_ps s [] = Ok false.
Proof. exists zero2, (V2 1 0), (mkSeg2 (Some zero2) (Some (V2 1 0))). split; [split; [reflexivity | v2unfold; ring] | split; reflexivity]. Qed.
Lemma c63_construct o d : d <> zero2 -> exists l u, Line2 (Some o) (Some d) = Ok l /\ good_line2 l o u /\ (forall p, on_line2 o u p <-> on_line2 o d p).
Proof.
  intros H. unfold Line2. destruct (Reqb (sqnorm2 d) 1) eqn:E.
  - apply Reqb_iff in E. do 2 eexists. split; [reflexivity |]. split; [split; [reflexivity | exact E] |]. reflexivity.
  - destruct (Reqb (sqnorm2 d) 0) eqn:F; [apply Reqb_iff in F; apply sqnorm2_pos in H; lra |].
    destruct (normalized2_unit d H) as [U N]. do 2 eexists. split; [reflexivity |]. split; [split; [reflexivity | exact U] |].
    assert (P : 0 < norm2 d) by (apply norm2_pos, sqnorm2_pos, H). intros p. rewrite N. split; intros (t & ->).
    + exists (t * / norm2 d). unfold along2. rewrite scale2_scale. reflexivity.
    + exists (t * norm2 d). unfold along2. rewrite scale2_scale. do 2 f_equal. field. lra.
Qed.
Lemma c63_construct_zero o : Line2 o (Some zero2) = Err EWrong.
Proof.
  unfold Line2. replace (sqnorm2 zero2) with 0 by (v2unfold; ring).
  rewrite (proj2 (Reqb_false 0 1)) by lra. rewrite (proj2 (Reqb_iff 0 0)) by lra. reflexivity.
Qed.
Lemma on_segment2_ends a b : on_segment2 a b a /\ on_segment2 a b b.
Proof. split; [exists 0 | exists 1]; (split; [lra |]); unfold along2; v2ring. Qed.
Lemma c63_through p q : p <> q -> exists l d, Line2_Points (Some p) (Some q) = Ok l /\ good_line2 l p d
  /\ s2_toLine (mkSeg2 (Some p) (Some q)) = Ok l /\ (forall x, on_segment2 p q x -> on_line2 p d x).
Proof.
  intros H. assert (N : sub2 q p <> zero2) by (intros E; apply sub2_0 in E; congruence).
  destruct (normalized2_unit _ N) as [U E]. unfold s2_toLine, Line2_Points. cbn [needd bind s2_first s2_second].
  rewrite (proj2 (v2_eqb_false p q) H). unfold Line2. rewrite (proj2 (Reqb_iff _ _) U).
  assert (P : 0 < norm2 (sub2 q p)) by (apply norm2_pos, sqnorm2_pos, N).
  do 2 eexists. split; [reflexivity |]. split; [split; [reflexivity | exact U] |]. split; [reflexivity |].
  intros x (t & _ & ->). exists (t * norm2 (sub2 q p)). rewrite E. unfold along2. rewrite scale2_scale. do 2 f_equal. field. lra.
Qed.
Lemma c63_errors l s q : l2_contains l None = Err EUndefined /\ s2_contains s None = Err EUndefined
  /\ l2_contains (mkLine2 None (Some q)) (Some q) = Err EUndefined /\ s2_contains (mkSeg2 None (Some q)) (Some q) = Err EUndefined
  /\ Line2_Points (Some q) (Some q) = Err ERuntime /\ Line2_Points None (Some q) = Err EUndefined
  /\ l2_distanceTo l None = Err EUndefined /\ s2_distanceTo s None = Err EUndefined /\ s2_distanceTo_ps s [] = Err EUndefined.
Proof.
  unfold l2_distanceTo, l2_data, Line2_Points. cbn [needd bind]. rewrite v2_eqb_refl. destruct l as [[] []]; repeat split.
Qed.

(** *** C63: distance *)
Lemma c63_point_distance p q : exists d, p2_distanceTo (Some p) (Some q) = Ok d /\ d = dist2 p q /\ least_distance2 (fun x => x = p) q d.
Proof.
  eexists. split; [reflexivity |]. split; [reflexivity |]. fold (dist2 p q). split; [exists p; split; [reflexivity | apply dist2_sym] |].
  intros x ->. rewrite dist2_sym. lra.
Qed.
Lemma project2 o d p t : sqnorm2 d = 1 ->
  sqnorm2 (sub2 p (along2 o t d)) = sqnorm2 (sub2 (sub2 p o) (scale2 (dot2 (sub2 p o) d) d)) + (t - dot2 d (sub2 p o)) * (t - dot2 d (sub2 p o)).
Proof.
  intros U. replace (sub2 p (along2 o t d)) with (sub2 (sub2 p o) (scale2 t d)) by (unfold along2; v2ring).
  rewrite !sqnorm2_sub, !sqnorm2_scale, !dot2_scale_r, U, !(dot2_sym _ d). ring.
Qed.
Lemma c63_line_distance l o d p : good_line2 l o d -> exists x, l2_distanceTo l (Some p) = Ok x /\ least_distance2 (on_line2 o d) p x.
Proof.
  intros [-> U]. eexists. split; [reflexivity |]. split.
  - exists (along2 o (dot2 d (sub2 p o)) d). split; [eexists; reflexivity |]. apply norm2_eq. rewrite project2 by assumption. ring.
  - intros q (t & ->). apply norm2_le. rewrite project2 by assumption. pose proof (VecProofs.sq_nonneg (t - dot2 d (sub2 p o))). lra.
Qed.
Lemma project_segment2 a b p t : 0 < sqnorm2 (sub2 b a) ->
  sqnorm2 (sub2 p (along2 a t (sub2 b a)))
  = sqnorm2 (sub2 p a) - dot2 (sub2 p a) (sub2 b a) * dot2 (sub2 p a) (sub2 b a) / sqnorm2 (sub2 b a)
    + sqnorm2 (sub2 b a) * ((t - dot2 (sub2 p a) (sub2 b a) / sqnorm2 (sub2 b a)) * (t - dot2 (sub2 p a) (sub2 b a) / sqnorm2 (sub2 b a))).
Proof.
  intros H. replace (sub2 p (along2 a t (sub2 b a))) with (sub2 (sub2 p a) (scale2 t (sub2 b a))) by (unfold along2; v2ring).
  rewrite sqnorm2_sub, sqnorm2_scale, dot2_scale_r. field. lra.
Qed.
Lemma c63_segment_distance s a b p : s = mkSeg2 (Some a) (Some b) -> exists x, s2_distanceTo s (Some p) = Ok x /\ least_distance2 (on_segment2 a b) p x.
Proof.
  intros ->. unfold s2_distanceTo, s2_isDegenerate, s2_data. cbn [needd bind s2_first s2_second p2_distanceTo]. destruct (v2_eqb a b) eqn:E.
  - apply v2_eqb_iff in E. subst b. eexists. split; [reflexivity |]. fold (dist2 a p). split.
    + exists a. split; [exists 0; rewrite along2_0; split; [lra | reflexivity] | apply dist2_sym].
    + intros q (t & _ & ->). replace (along2 a t (sub2 a a)) with a by (unfold along2; v2ring). rewrite dist2_sym. lra.
  - apply v2_eqb_false in E. assert (Hp : 0 < sqnorm2 (sub2 b a)) by (apply sqnorm2_pos; intros H; apply sub2_0 in H; congruence).
    eexists. split; [reflexivity |]. remember (dot2 (sub2 p a) (sub2 b a) / sqnorm2 (sub2 b a)) as k.
    assert (C : 0 <= Rmax 0 (Rmin 1 k) <= 1) by (split; [apply Rmax_l | apply Rmax_lub; [lra | apply Rmin_l]]).
    fold (along2 a (Rmax 0 (Rmin 1 k)) (sub2 b a)). fold (dist2 (along2 a (Rmax 0 (Rmin 1 k)) (sub2 b a)) p). rewrite dist2_sym. split.
    + exists (along2 a (Rmax 0 (Rmin 1 k)) (sub2 b a)). split; [eexists; split; [exact C | reflexivity] | reflexivity].
    + intros q (t & Ht & ->). apply norm2_le. rewrite !project_segment2, <- Heqk by assumption.
      apply Rplus_le_compat_l, Rmult_le_compat_l; [lra |].
      clear - Ht. unfold Rmax, Rmin. destruct (Rle_dec 1 k) as [H | H]; destruct Rle_dec as [K | K]; try apply Rnot_le_lt in H; try apply Rnot_le_lt in K; pose proof (VecProofs.sq_nonneg (t - k)); nra.
Qed.
Lemma c63_segment_set s a b ps : s = mkSeg2 (Some a) (Some b) -> ps <> [] ->
  exists x, s2_distanceTo_ps s ps = Ok x
    /\ (exists p q, In p ps /\ on_segment2 a b q /\ dist2 p q = x)
    /\ (forall p q, In p ps -> on_segment2 a b q -> x <= dist2 p q).
Proof.
  intros ->. destruct ps as [| p r]; [congruence |]. intros _. unfold s2_distanceTo_ps. cbn [s2_data s2_first s2_second bind].
  assert (F : exists f, forall p, s2_distanceTo (mkSeg2 (Some a) (Some b)) (Some p) = Ok (f p) /\ least_distance2 (on_segment2 a b) p (f p)).
  { exists (fun p => match s2_distanceTo (mkSeg2 (Some a) (Some b)) (Some p) with Ok x => x | _ => 0 end). intros x.
    destruct (c63_segment_distance _ a b x eq_refl) as (d & E & L). rewrite E. split; [reflexivity | exact L]. }
  destruct F as (f & F). rewrite (proj1 (F p)). cbn [bind]. rewrite (mapM_ok _ f) by (intros; apply F). cbn [bind].
  eexists. split; [reflexivity |]. destruct (min_from_le (f p) (map f r)) as [A B]. split.
  - destruct (min_from_in (f p) (map f r)) as [C | C].
    + rewrite C. destruct (proj2 (F p)) as [(q & Q & D) _]. exists p, q. split; [left; reflexivity |]. split; assumption.
    + apply in_map_iff in C. destruct C as (y & <- & D). destruct (proj2 (F y)) as [(q & Q & E) _]. exists y, q. split; [right; exact D |]. split; assumption.
  - intros y q [<- | H] Q.
    + apply (Rle_trans _ (f p)); [exact A |]. apply (proj2 (F p)), Q.
    + apply (Rle_trans _ (f y)); [apply B, in_map, H |]. apply (proj2 (F y)), Q.
Qed.

(** *** C97: equality of the linear objects, points *)
Lemma scale2_0 k d : scale2 k d = zero2 -> k = 0 \/ d = zero2.
Proof.
  intros H. destruct (Req_dec k 0) as [| K]; [left; assumption | right]. apply (f_equal (scale2 (/ k))) in H.
  rewrite scale2_scale, Rinv_l, scale2_1 in H by assumption. rewrite H. v2ring.
Qed.
Lemma unit_nonzero2 d : sqnorm2 d = 1 -> d <> zero2.
Proof. intros U. apply sqnorm2_pos. lra. Qed.
Lemma opp2_scale a : opp2 a = scale2 (-1) a.
Proof. v2ring. Qed.
Lemma unit_parallel2 d d' k : sqnorm2 d = 1 -> sqnorm2 d' = 1 -> d' = scale2 k d -> d = d' \/ d = opp2 d'.
Proof.
  intros U U' ->. rewrite sqnorm2_scale, U in U'. assert (K : (k - 1) * (k + 1) = 0) by lra. apply Rmult_integral in K. destruct K as [K | K].
  - left. assert (k = 1) by lra. subst. rewrite scale2_1. reflexivity.
  - right. assert (k = -1) by lra. subst. rewrite opp2_scale, scale2_scale. replace (-1 * -1) with 1 by ring. rewrite scale2_1. reflexivity.
Qed.
Lemma c97_line a b o d o' d' : good_line2 a o d -> good_line2 b o' d' ->
  exists r, l2_eq a b = Ok r /\ (r = true <-> same_points2 (on_line2 o d) (on_line2 o' d')).
Proof.
  intros [-> U] [-> U']. unfold l2_eq, l2_data. cbn [l2_origin l2_direction].
  destruct (c63_line (mkLine2 (Some o) (Some d)) o d o' eq_refl (unit_nonzero2 d U)) as (c & C & _ & Ci).
  destruct (v2_eqb d d' || v2_eqb d (opp2 d')) eqn:E.
  - exists c. split; [exact C |]. rewrite Ci. apply orb_true_iff in E. rewrite !v2_eqb_iff in E.
    assert (K : exists k, k * k = 1 /\ d = scale2 k d').
    { destruct E as [-> | ->]; [exists 1; split; [ring | rewrite scale2_1; reflexivity] | exists (-1); split; [ring | apply opp2_scale]]. }
    destruct K as (k & K2 & K). split.
    + intros (u & Hu). intros p. split; intros (t & ->).
      * exists (k * (t - u)). rewrite Hu. unfold along2. rewrite K. v2ring.
      * exists (u + k * t). rewrite Hu. unfold along2. rewrite K.
        replace (scale2 (u + k * t) (scale2 k d')) with (add2 (scale2 (u * k) d') (scale2 (k * k * t) d')) by v2ring. rewrite K2. v2ring.
    + intros S. apply S. exists 0. rewrite along2_0. reflexivity.
  - exists false. split; [reflexivity |]. split; [discriminate |]. intros S. exfalso.
    destruct (proj2 (S o')) as (t & T); [exists 0; rewrite along2_0; reflexivity |].
    destruct (proj2 (S (along2 o' 1 d'))) as (t1 & T1); [exists 1; reflexivity |].
    assert (K : d' = scale2 (t1 - t) d).
    { transitivity (sub2 (along2 o' 1 d') o'); [unfold along2; v2ring |]. rewrite T1. rewrite T at 1. unfold along2. v2ring. }
    apply (unit_parallel2 d d') in K; [| assumption | assumption]. apply orb_false_iff in E. rewrite !v2_eqb_false in E. tauto.
Qed.
Lemma on_segment2_point a p : on_segment2 a a p <-> p = a.
Proof.
  split; [intros (t & _ & ->); unfold along2; v2ring |]. intros ->. exists 0. rewrite along2_0. split; [lra | reflexivity].
Qed.
Lemma on_segment2_swap a b p : on_segment2 a b p -> on_segment2 b a p.
Proof. intros (t & Ht & ->). exists (1 - t). split; [lra |]. unfold along2. v2ring. Qed.
Lemma segment_extreme2 a b a' b' : on_segment2 a b a' -> on_segment2 a b b' -> on_segment2 a' b' a -> on_segment2 a' b' b -> a = a' \/ a = b'.
Proof.
  intros (u & Hu & A') (w & Hw & B') (t & Ht & A) Sb.
  destruct (v2_eq_dec a b) as [E | E].
  - left. subst b. rewrite A'. unfold along2. v2ring.
  - assert (D : sub2 b a <> zero2) by (intros H; apply sub2_0 in H; congruence).
    assert (Z : scale2 ((1 - t) * u + t * w) (sub2 b a) = zero2).
    { transitivity (sub2 (along2 (along2 a u (sub2 b a)) t (sub2 (along2 a w (sub2 b a)) (along2 a u (sub2 b a)))) a); [unfold along2; v2ring |].
      rewrite <- A', <- B', <- A. v2ring. }
    apply scale2_0 in Z. destruct Z as [Z | Z]; [| contradiction].
    assert (P : (1 - t) * u = 0 /\ t * w = 0) by (split; nra). destruct P as [P Q].
    apply Rmult_integral in P. apply Rmult_integral in Q. destruct P as [P | P].
    + right. rewrite A. replace t with 1 by lra. unfold along2. v2ring.
    + left. rewrite A', P, along2_0. reflexivity.
Qed.
Lemma c97_segment s t a b a' b' : s = mkSeg2 (Some a) (Some b) -> t = mkSeg2 (Some a') (Some b') ->
  (s2_eq s t = true <-> same_points2 (on_segment2 a b) (on_segment2 a' b')).
Proof.
  intros -> ->. cbn. rewrite orb_true_iff, !andb_true_iff, !v2_eqb_iff. split.
  - intros [[-> ->] | [-> ->]] p; [reflexivity |]. split; apply on_segment2_swap.
  - intros S. destruct (on_segment2_ends a b) as [Ea Eb], (on_segment2_ends a' b') as [Ea' Eb'].
    pose proof (proj2 (S _) Ea') as A1. pose proof (proj2 (S _) Eb') as B1. pose proof (proj1 (S _) Ea) as C1. pose proof (proj1 (S _) Eb) as D1.
    pose proof (segment_extreme2 a b a' b' A1 B1 C1 D1) as X.
    pose proof (segment_extreme2 b a a' b' (on_segment2_swap _ _ _ A1) (on_segment2_swap _ _ _ B1) D1 C1) as Y.
    destruct X as [X | X], Y as [Y | Y]; try (left; split; assumption); try (right; split; assumption).
    + subst a b. apply on_segment2_point in B1. subst b'. left. split; reflexivity.
    + subst a b. apply on_segment2_point in A1. subst a'. left. split; reflexivity.
Qed.
Lemma c97_center a b : exists c, s2_getCenter (mkSeg2 (Some a) (Some b)) = Ok c /\ on_segment2 a b c /\ dist2 c a = dist2 c b
  /\ s2_getLength (mkSeg2 (Some a) (Some b)) = Ok (dist2 a b)
  /\ (a <> b -> exists d, s2_getDirection (mkSeg2 (Some a) (Some b)) = Ok d /\ sqnorm2 d = 1 /\ b = along2 a (dist2 a b) d)
  /\ (a = b -> s2_getDirection (mkSeg2 (Some a) (Some b)) = Err ERuntime).
Proof.
  eexists. split; [reflexivity |]. split; [exists (1 / 2); split; [lra | reflexivity] |]. split; [apply norm2_eq; destruct a as [a1 a2], b as [b1 b2]; v2unfold; field |].
  unfold s2_getLength, s2_getDirection, s2_isDegenerate, s2_data. cbn [s2_first s2_second bind].
  split; [fold (dist2 b a); rewrite dist2_sym; reflexivity |]. split.
  - intros H. rewrite (proj2 (v2_eqb_false a b) H). eexists. split; [reflexivity |].
    assert (D : sub2 b a <> zero2) by (intros E; apply sub2_0 in E; congruence). destruct (normalized2_unit _ D) as [U E]. split; [exact U |].
    assert (P : 0 < norm2 (sub2 b a)) by (apply norm2_pos, sqnorm2_pos, D).
    rewrite E, dist2_sym. unfold along2, dist2. rewrite scale2_scale, Rinv_r, scale2_1 by lra. v2ring.
  - intros ->. rewrite v2_eqb_refl. reflexivity.
Qed.
Lemma c97_point p q : p2_eq (Some p) (Some q) = true <-> p = q.
Proof. apply v2_eqb_iff. Qed.
Lemma c97_arithmetic p v q : p2_add (Some p) (Some v) = Ok (add2 p v)
  /\ p2_sub (Some q) (Some p) = Ok (sub2 q p) /\ p2_subv (Some (add2 p v)) (Some v) = Ok p /\ p2_add (Some p) (Some (sub2 q p)) = Ok q.
Proof. unfold p2_add, p2_sub, p2_subv. cbn [needd bind]. repeat split; f_equal; v2ring. Qed.
Lemma c97_near p q tol : exists b, p2_isNear (Some p) (Some q) (Some tol) = Ok b /\ (b = true <-> dist2 p q <= tol).
Proof. eexists. split; [reflexivity |]. apply Rleb_iff. Qed.
Lemma c97_undefined p q l s : p2_eq None q = false /\ p2_eq p None = false /\ l2_eq (mkLine2 None (Some zero2)) l = Ok false
  /\ s2_eq (mkSeg2 None (Some zero2)) s = false /\ p2_add None (Some zero2) = Err EUndefined /\ p2_add p None = Err EUndefined
  /\ p2_sub None p = Err EUndefined /\ p2_sub p None = Err EUndefined /\ p2_isNear p q None = Err EUndefined.
Proof. destruct p; repeat split. Qed.

(** *** C98: point sets *)
Lemma ps2_mem_iff p s : ps2_mem p s = true <-> In p s.
Proof.
  unfold ps2_mem. rewrite existsb_exists. split.
  - intros (x & H & E). apply v2_eqb_iff in E. subst. exact H.
  - intros H. exists p. split; [exact H | apply v2_eqb_refl].
Qed.
Lemma ps2_insert_in s p q : In q (ps2_insert s p) <-> In q s \/ q = p.
Proof.
  unfold ps2_insert. destruct (ps2_mem p s) eqn:E.
  - apply ps2_mem_iff in E. split; [tauto |]. intros [H | ->]; assumption.
  - rewrite in_app_iff. cbn. intuition congruence.
Qed.
Lemma ps2_insert_nodup s p : NoDup s -> NoDup (ps2_insert s p).
Proof.
  intros H. unfold ps2_insert. destruct (ps2_mem p s) eqn:E; [exact H |].
  apply (Permutation_NoDup (l := p :: s)); [apply Permutation_cons_append |]. constructor; [| exact H].
  intros K. apply ps2_mem_iff in K. congruence.
Qed.
Lemma ps2_fold l s : NoDup s -> NoDup (fold_left ps2_insert l s) /\ forall q, In q (fold_left ps2_insert l s) <-> In q s \/ In q l.
Proof.
  revert s. induction l as [| p l IH]; intros s H; cbn [fold_left].
  - split; [exact H |]. cbn. tauto.
  - destruct (IH (ps2_insert s p) (ps2_insert_nodup s p H)) as [A B]. split; [exact A |]. intros q. rewrite B, ps2_insert_in. cbn. intuition congruence.
Qed.
Lemma c98_construct l : exists s, PointSet2 (map Some l) = Ok s /\ NoDup s /\ (forall p, In p s <-> In p l).
Proof.
  unfold PointSet2. rewrite mapM_needd_some. cbn [bind]. eexists. split; [reflexivity |].
  destruct (ps2_fold l [] (NoDup_nil _)) as [A B]. split; [exact A |]. intros p. rewrite B. cbn. tauto.
Qed.
Lemma c98_construct_undefined l : In None l -> PointSet2 l = Err EUndefined.
Proof. intros H. unfold PointSet2. rewrite mapM_needd_none by assumption. reflexivity. Qed.
Lemma c98_equal s t : NoDup s -> NoDup t -> (ps2_eq s t = true <-> forall p, In p s <-> In p t).
Proof.
  intros Hs Ht. unfold ps2_eq. rewrite andb_true_iff, Nat.eqb_eq, forallb_forall. split.
  - intros [L H] p. assert (I : incl s t) by (intros x Hx; apply ps2_mem_iff, H, Hx). split; [apply I |].
    apply (NoDup_length_incl Hs); [lia | exact I].
  - intros H. split.
    + apply Permutation_length, NoDup_Permutation; assumption.
    + intros p Hp. apply ps2_mem_iff, H, Hp.
Qed.
Lemma closest2_from_spec p l best : exists q, closest2_from p best (sqnorm2 (sub2 best p)) l = q /\ (q = best \/ In q l)
  /\ sqnorm2 (sub2 q p) <= sqnorm2 (sub2 best p) /\ forall x, In x l -> sqnorm2 (sub2 q p) <= sqnorm2 (sub2 x p).
Proof.
  revert best. induction l as [| y l IH]; intros best; cbn [closest2_from].
  - exists best. split; [reflexivity |]. split; [left; reflexivity |]. split; [lra | intros _ []].
  - destruct (Rltb (sqnorm2 (sub2 y p)) (sqnorm2 (sub2 best p))) eqn:E.
    + apply Rltb_true in E. destruct (IH y) as (q & Q & A & B & C). exists q. split; [exact Q |]. split.
      * right. destruct A as [-> | A]; [left; reflexivity | right; exact A].
      * split; [lra |]. intros x [<- | H]; [exact B | apply C, H].
    + apply Rltb_false in E. destruct (IH best) as (q & Q & A & B & C). exists q. split; [exact Q |]. split.
      * destruct A as [-> | A]; [left; reflexivity | right; right; exact A].
      * split; [exact B |]. intros x [<- | H]; [lra | apply C, H].
Qed.
Lemma c98_closest s p : s <> [] -> exists q, ps2_getPointClosestTo s (Some p) = Ok q /\ In q s /\ forall x, In x s -> dist2 p q <= dist2 p x.
Proof.
  destruct s as [| b l]; [congruence |]. intros _. destruct (closest2_from_spec p l b) as (q & Q & A & B & C).
  exists q. cbn. rewrite Q. split; [reflexivity |]. split; [destruct A as [-> | A]; [left; reflexivity | right; exact A] |].
  intros x H. rewrite !(dist2_sym p). apply norm2_le. destruct H as [<- | H]; [exact B | apply C, H].
Qed.
Lemma c98_distance s p : s <> [] -> exists x, ps2_distanceTo s (Some p) = Ok x /\ least_distance2 (fun q => In q s) p x.
Proof.
  destruct s as [| q r]; [congruence |]. intros _. unfold ps2_distanceTo. cbn [needd bind p2_distanceTo].
  rewrite (mapM_ok _ (fun q => dist2 p q)) by reflexivity. cbn [bind]. eexists. split; [reflexivity |]. fold (dist2 p q).
  destruct (min_from_le (dist2 p q) (map (dist2 p) r)) as [A B]. split.
  - destruct (min_from_in (dist2 p q) (map (dist2 p) r)) as [C | C]; [exists q; split; [left; reflexivity | symmetry; exact C] |].
    apply in_map_iff in C. destruct C as (y & C & D). exists y. split; [right; exact D | exact C].
  - intros y [<- | H]; [exact A |]. apply B, in_map, H.
Qed.
Lemma take_near2_some p tol t t' : ps2_take_near p (Some tol) t = Ok (Some t') ->
  exists l q r, t = l ++ q :: r /\ t' = l ++ r /\ dist2 p q <= tol.
Proof.
  revert t'. induction t as [| q r IH]; intros t'; cbn; [discriminate |].
  destruct (Rleb (norm2 (sub2 p q)) tol) eqn:E.
  - intros H. injection H as <-. apply Rleb_iff in E. exists [], q, r. repeat split. exact E.
  - destruct (ps2_take_near p (Some tol) r) as [[r' |] | |]; cbn [bind option_map]; try discriminate.
    intros H. injection H as <-. destruct (IH r' eq_refl) as (l & x & y & -> & -> & D). exists (q :: l), x, y. repeat split. exact D.
Qed.
Lemma take_near2_ok p tol t : exists o, ps2_take_near p (Some tol) t = Ok o /\ (o = None -> forall q, In q t -> tol < dist2 p q).
Proof.
  induction t as [| q r IH]; cbn; [eexists; split; [reflexivity | intros _ _ []] |].
  destruct (Rleb (norm2 (sub2 p q)) tol) eqn:E; [eexists; split; [reflexivity | discriminate] |].
  destruct IH as (o & O & N). rewrite O. cbn [bind]. destruct o as [r' |]; eexists; (split; [reflexivity |]); [discriminate |].
  intros _ x [<- | H]; [apply Rleb_false in E; exact E | apply N; [reflexivity | exact H]].
Qed.
Lemma match_near2_sound tol s : forall t, length s = length t -> ps2_match_near s (Some tol) t = Ok true ->
  exists t', Permutation t t' /\ Forall2 (fun p q => dist2 p q <= tol) s t'.
Proof.
  induction s as [| p r IH]; intros t L; cbn [ps2_match_near].
  - intros _. destruct t; [| discriminate]. exists []. split; constructor.
  - destruct (take_near2_ok p tol t) as (o & O & _). rewrite O. cbn [bind]. destruct o as [t1 |]; [| discriminate].
    destruct (take_near2_some _ _ _ _ O) as (l & q & x & -> & -> & D). intros H.
    assert (L' : length r = length (l ++ x)) by (rewrite app_length in L |- *; cbn in L; lia). destruct (IH _ L' H) as (t' & P & F).
    exists (q :: t'). split; [| constructor; assumption]. rewrite <- Permutation_middle. apply perm_skip, P.
Qed.
Lemma c98_near_sound s t tol : ps2_isNear s t (Some tol) = Ok true ->
  s <> [] /\ exists t', Permutation t t' /\ Forall2 (fun p q => dist2 p q <= tol) s t'.
Proof.
  unfold ps2_isNear. destruct s as [| p r]; [discriminate |]. destruct t as [| q u]; [discriminate |]. cbn [ps2_isEmpty orb].
  destruct (Nat.eqb (length (p :: r)) (length (q :: u))) eqn:E; [| discriminate]. cbn [negb]. apply Nat.eqb_eq in E. intros H.
  split; [discriminate |]. apply (match_near2_sound tol _ _ E H).
Qed.
Lemma c98_near_answers s t tol : exists b, ps2_isNear s t (Some tol) = Ok b.
Proof.
  unfold ps2_isNear. destruct (_ || _); [eexists; reflexivity |]. destruct (negb _); [eexists; reflexivity |]. clear. revert t.
  induction s as [| p r IH]; intros t; cbn [ps2_match_near]; [eexists; reflexivity |].
  destruct (take_near2_ok p tol t) as (o & O & _). rewrite O. cbn [bind]. destruct o; [apply IH | eexists; reflexivity].
Qed.
Lemma match_near2_complete tol s : forall t t', NoDup t -> (forall q q', In q t -> In q' t -> q <> q' -> 2 * tol < dist2 q q') ->
  Permutation t t' -> Forall2 (fun p q => dist2 p q <= tol) s t' -> ps2_match_near s (Some tol) t = Ok true.
Proof.
  induction s as [| p r IH]; intros t t' N S P F; cbn [ps2_match_near]; [reflexivity |].
  inversion F as [| ? q ? t1 D F1]; subst. assert (Q : In q t) by (apply (Permutation_in q (Permutation_sym P)); left; reflexivity).
  destruct (take_near2_ok p tol t) as (o & O & Z). rewrite O. cbn [bind]. destruct o as [u |].
  - destruct (take_near2_some _ _ _ _ O) as (l & x & y & -> & -> & Dx).
    assert (x = q).
    { destruct (v2_eq_dec x q) as [| E]; [assumption | exfalso]. assert (X : In x (l ++ x :: y)) by (apply in_app_iff; right; left; reflexivity).
      pose proof (S x q X Q E). pose proof (dist2_triangle x p q). rewrite (dist2_sym x p) in *. lra. }
    subst x. apply (IH _ t1).
    + apply NoDup_remove_1 in N. exact N.
    + intros a b Ha Hb. apply S; apply in_app_iff; [apply in_app_iff in Ha | apply in_app_iff in Hb]; cbn; tauto.
    + apply (Permutation_cons_inv (a := q)). rewrite Permutation_middle. exact P.
    + exact F1.
  - specialize (Z eq_refl q Q). lra.
Qed.
Lemma c98_near_complete_partial s t t' tol : s <> [] -> NoDup t -> (forall q q', In q t -> In q' t -> q <> q' -> 2 * tol < dist2 q q') ->
  Permutation t t' -> Forall2 (fun p q => dist2 p q <= tol) s t' -> ps2_isNear s t (Some tol) = Ok true.
Proof.
  intros Hs N S P F. unfold ps2_isNear. assert (L : length s = length t) by (rewrite (Permutation_length P); apply (Forall2_len _ _ _ F)).
  destruct s as [| p r]; [congruence |]. destruct t as [| q u]; [discriminate |]. cbn [ps2_isEmpty orb]. rewrite L, Nat.eqb_refl. cbn [negb].
  apply (match_near2_complete tol _ _ t' N S P F).
Qed.
Lemma dist2_x a b : dist2 (V2 a 0) (V2 b 0) = Rabs (a - b).
Proof. unfold dist2, norm2. v2unfold. rewrite <- sqrt_Rsqr_abs. f_equal. unfold Rsqr. ring. Qed.
Lemma c98_near_refuted : exists s s' t t' tol, NoDup s /\ NoDup t /\ Permutation s s' /\ Permutation t t'
  /\ Forall2 (fun p q => dist2 p q <= tol) s t' /\ ps2_isNear s t (Some tol) = Ok false /\ ps2_isNear s' t (Some tol) = Ok true.
Proof.
  exists [V2 0 0; V2 2 0], [V2 2 0; V2 0 0], [V2 1 0; V2 (-1) 0], [V2 (-1) 0; V2 1 0], 1.
  assert (N : forall a b, a <> b -> NoDup [V2 a 0; V2 b 0]).
  { intros a b H. constructor; [intros [E | []]; congruence |]. constructor; [intros [] | constructor]. }
  split; [apply N; lra |]. split; [apply N; lra |]. split; [apply perm_swap |]. split; [apply perm_swap |].
  assert (E : forall a b, norm2 (sub2 (V2 a 0) (V2 b 0)) = Rabs (a - b)) by apply dist2_x.
  split; [repeat constructor; rewrite dist2_x; unfold Rabs; destruct Rcase_abs; lra |].
  assert (NT : forall a b, Rabs (a - b) <= 1 -> p2_isNear (Some (V2 a 0)) (Some (V2 b 0)) (Some 1) = Ok true)
    by (intros a b H; unfold p2_isNear, p2_distanceTo; cbn [needd need bind]; rewrite E, (Rleb_t _ _ H); reflexivity).
  assert (NF : forall a b, 1 < Rabs (a - b) -> p2_isNear (Some (V2 a 0)) (Some (V2 b 0)) (Some 1) = Ok false)
    by (intros a b H; unfold p2_isNear, p2_distanceTo; cbn [needd need bind]; rewrite E, (Rleb_f _ _ H); reflexivity).
  unfold ps2_isNear. cbn [ps2_isEmpty orb length Nat.eqb negb ps2_match_near ps2_take_near].
  rewrite (NT 0 1), (NT 2 1) by (unfold Rabs; destruct Rcase_abs; lra). cbn [bind ps2_take_near ps2_match_near].
  rewrite (NT 0 (-1)), (NF 2 (-1)) by (unfold Rabs; destruct Rcase_abs; lra). split; reflexivity.
Qed.
Lemma c98_errors s p : ps2_getPointClosestTo [] (Some p) = Err EUndefined /\ ps2_getPointClosestTo s None = Err EUndefined
  /\ ps2_distanceTo [] (Some p) = Err EUndefined /\ ps2_distanceTo s None = Err EUndefined
  /\ ps2_isNear [] s None = Ok false /\ ps2_isNear s [] None = Ok false.
Proof. repeat split. destruct s; reflexivity. Qed.

(** *** C65 *)
Lemma any_segment_ok l p : (2 <= length l)%nat -> exists b, ls2_any_segment (map Some l) p = Ok b /\ (b = true <-> on_string2 l p).
Proof.
  induction l as [| a l IH]; intros L; [cbn in L; lia |]. destruct l as [| b l]; [cbn in L; lia |].
  cbn [map]. change (ls2_any_segment (Some a :: Some b :: map Some l) p)
    with (let! c := s2_contains (mkSeg2 (Some a) (Some b)) (Some p) in if c then Ok true else ls2_any_segment (map Some (b :: l)) p).
  destruct (c63_segment _ a b p eq_refl) as (c & C & Ci). rewrite C. cbn [bind]. cbn [on_string2]. destruct c.
  - exists true. split; [reflexivity |]. split; [intros _; left; apply Ci; reflexivity | reflexivity].
  - destruct l as [| c l].
    + exists false. split; [reflexivity |]. split; [discriminate |]. intros [H | ->]; [apply Ci, H |]. apply Ci. apply on_segment2_ends.
    + destruct IH as (d & D & Di); [cbn; lia |]. exists d. split; [exact D |]. rewrite Di. split; [intros H; right; exact H |].
      intros [H | H]; [apply Ci in H; discriminate | exact H].
Qed.
Lemma c65_contains l p : l <> [] -> exists b, ls2_contains (map Some l) (Some p) = Ok b /\ (b = true <-> on_string2 l p).
Proof.
  destruct l as [| a [| b l]]; [congruence | |]; intros _.
  - eexists. split; [reflexivity |]. cbn. rewrite v2_eqb_iff. split; congruence.
  - apply (any_segment_ok (a :: b :: l)). cbn. lia.
Qed.
Lemma on_string_nth l p : (2 <= length l)%nat ->
  (on_string2 l p <-> exists i a b, nth_error l i = Some a /\ nth_error l (S i) = Some b /\ on_segment2 a b p).
Proof.
  induction l as [| a l IH]; intros L; [cbn in L; lia |]. destruct l as [| b l]; [cbn in L; lia |]. cbn [on_string2]. split.
  - intros [H | H]; [exists 0%nat, a, b; repeat split; exact H |]. destruct l as [| c l].
    + cbn in H. subst p. exists 0%nat, a, b. repeat split. apply on_segment2_ends.
    + apply IH in H; [| cbn; lia]. destruct H as (i & x & y & X & Y & H). exists (S i), x, y. repeat split; assumption.
  - intros (i & x & y & X & Y & H). destruct i as [| i].
    + cbn in X, Y. injection X as <-. injection Y as <-. left. exact H.
    + right. destruct l as [| c l]; [destruct i; discriminate |]. apply IH; [cbn; lia |]. exists i, x, y. repeat split; assumption.
Qed.
Lemma c65_segments l p : (2 <= length l)%nat -> (ls2_contains (map Some l) (Some p) = Ok true <->
  exists i a b, nth_error l i = Some a /\ nth_error l (S i) = Some b /\ on_segment2 a b p).
Proof.
  intros L. destruct (c65_contains l p) as (b & B & Bi); [destruct l; [cbn in L; lia | discriminate] |]. rewrite B, <- on_string_nth by assumption.
  rewrite <- Bi. split; [intros H; injection H as H; exact H | intros ->; reflexivity].
Qed.
Lemma c65_equal l m : ls2_eq (map Some l) (map Some m) = true <-> l = m.
Proof.
  revert m. induction l as [| p l IH]; intros [| q m]; cbn [map ls2_eq p2_eq]; try (split; congruence).
  rewrite andb_true_iff, v2_eqb_iff, IH. split; [intros [-> ->]; reflexivity | intros H; injection H as -> ->; split; reflexivity].
Qed.
Lemma c65_undefined_point_refuted : exists l : linestring2, ls2_isDefined l = true /\ ls2_eq l l = false.
Proof. exists [None]. split; reflexivity. Qed.
Lemma ls2_closest_eq p best dmin l : ls2_closest p best dmin (map Some l) = Ok (closest2_from p best dmin l).
Proof. revert best dmin. induction l as [| q l IH]; intros best dmin; cbn; [reflexivity |]. rewrite !IH. destruct Rltb; reflexivity. Qed.
Lemma c65_closest_vertex_partial l p : l <> [] -> exists q, ls2_getPointClosestTo (map Some l) (Some p) = Ok q /\ In q l /\ forall x, In x l -> dist2 p q <= dist2 p x.
Proof.
  intros H. destruct (c98_closest l p H) as (q & Q & R). exists q. split; [| exact R]. destruct l as [| b l]; [congruence |].
  cbn in *. rewrite ls2_closest_eq. exact Q.
Qed.
(** The closest vertex is not the closest point of the line string. *)
Lemma c65_closest_point_refuted : exists l p q x, ls2_getPointClosestTo (map Some l) (Some p) = Ok q
  /\ on_string2 l x /\ dist2 p x < dist2 p q.
Proof.
  exists [V2 0 0; V2 2 0], (V2 1 0), (V2 0 0), (V2 1 0). split; [| split].
  - cbn. rewrite (proj2 (Rltb_false _ _)); [reflexivity |]. v2unfold. lra.
  - left. exists (1 / 2). split; [lra |]. unfold along2. v2unfold. apply V2_eq; field.
  - rewrite !dist2_x. replace (1 - 1) with 0 by ring. replace (1 - 0) with 1 by ring. rewrite Rabs_R0, Rabs_R1. lra.
Qed.
Lemma c65_near l m tol : exists b, ls2_isNear (map Some l) (map Some m) (Some tol) = Ok b
  /\ (b = true <-> l <> [] /\ Forall2 (fun p q => dist2 p q <= tol) l m).
Proof.
  assert (G : forall l m, length l = length m -> exists b, ls2_all_near (map Some l) (map Some m) (Some tol) = Ok b /\ (b = true <-> Forall2 (fun p q => dist2 p q <= tol) l m)).
  { clear. induction l as [| p l IH]; intros [| q m] L; try discriminate; cbn [map ls2_all_near]; [exists true; split; [reflexivity | split; [constructor | reflexivity]] |].
    unfold p2_isNear. cbn [need bind p2_distanceTo needd]. fold (dist2 p q). destruct (Rleb (dist2 p q) tol) eqn:E.
    - destruct (IH m) as (b & B & Bi); [cbn in L; lia |]. exists b. split; [exact B |]. rewrite Bi. apply Rleb_iff in E. split; [intros; constructor; assumption | intros F; inversion F; assumption].
    - exists false. split; [reflexivity |]. apply Rleb_false in E. split; [discriminate |]. intros F. inversion F. lra. }
  unfold ls2_isNear. destruct l as [| p l].
  - exists false. split; [reflexivity |]. split; [discriminate | intros [H _]; congruence].
  - destruct m as [| q m].
    + exists false. split; [reflexivity |]. split; [discriminate | intros [_ H]; inversion H].
    + cbn [map ls2_isEmpty orb]. rewrite <- !map_cons, !map_length. destruct (Nat.eqb (length (p :: l)) (length (q :: m))) eqn:E; cbn [negb].
      * apply Nat.eqb_eq in E. destruct (G (p :: l) (q :: m) E) as (b & B & Bi). exists b. split; [exact B |]. rewrite Bi. split; [intros; split; [discriminate | assumption] | intros []; assumption].
      * apply Nat.eqb_neq in E. exists false. split; [reflexivity |]. split; [discriminate |]. intros [_ F]. apply Forall2_len in F. contradiction.
Qed.
Lemma c65_access l i : (forall p, nth_error l i = Some p -> ls2_accessPointAt l i = Ok p) /\ ((length l <= i)%nat -> ls2_accessPointAt l i = Err ERuntime).
Proof.
  unfold ls2_accessPointAt. split.
  - intros p ->. reflexivity.
  - intros H. apply nth_error_None in H. rewrite H. reflexivity.
Qed.
Lemma c65_segment a b p : exists l, ls2_Segment (mkSeg2 (Some a) (Some b)) = Ok (map Some l) /\ (on_string2 l p <-> on_segment2 a b p).
Proof.
  exists [a; b]. split; [reflexivity |]. cbn. split; [| intros H; left; exact H]. intros [H | ->]; [exact H |]. apply on_segment2_ends.
Qed.
Lemma c65_errors l p : ls2_contains l None = Err EUndefined /\ ls2_contains [] (Some p) = Err EUndefined
  /\ ls2_getPointClosestTo l None = Err EUndefined /\ ls2_getPointClosestTo [] (Some p) = Err EUndefined
  /\ ls2_contains [None; Some p] (Some p) = Err EUndefined /\ ls2_Segment (mkSeg2 None (Some p)) = Err EUndefined.
Proof. repeat split. Qed.
