(** Proofs about ellipsoids and segments (C88). *)

From Coq Require Import List Bool Reals Lra Lia Psatz.
From Verif Require IntervalModel IntervalSpec IntervalProofs.
From Verif Require Import Result DOrder Vec VecProofs Mat3 Mat4 AngleModel AngleProofs RotModel RotSpec RotProofs RotProofs2 RotProofs10 TransfModel TransfSpec
  TransfProofs TransfProofs2 Geo3Types Geo3Model Geo3Spec Geo3Proofs Geo3Proofs2 Geo3Proofs3 GteModel GteSpec ChordProofs SphereSpec SphereProofs GteProofs
  EllModel EllSpec EllProofs.
Import ListNotations.
Local Open Scope R_scope.

(** *** Intervals of real numbers *)
Lemma closed_ok (l u : R) : l <= u -> @IntervalModel.Closed R_order l u = Ok (@IntervalModel.mkI R_order IntervalModel.TClosed (Some l) (Some u)).
Proof.
  intros H. unfold IntervalModel.Closed, IntervalModel.construct, gtb. cbn [ltb R_order]. rewrite Rltb_f by assumption. rewrite andb_false_r. reflexivity.
Qed.
Lemma closed_valid (l u : R) : l <= u -> @IntervalSpec.valid R_order (@IntervalModel.mkI R_order IntervalModel.TClosed (Some l) (Some u)).
Proof.
  intros H. split; [discriminate |]. unfold lt. cbn [ltb R_order]. destruct (Rle_lt_or_eq_dec _ _ H) as [L | ->]; [left; apply Rltb_t, L | right; split; reflexivity].
Qed.
Lemma closed_mem (l u v : R) : @IntervalSpec.mem R_order (@IntervalModel.mkI R_order IntervalModel.TClosed (Some l) (Some u)) v <-> l <= v <= u.
Proof.
  unfold IntervalSpec.mem, IntervalSpec.in_set, IntervalSpec.lower_included, IntervalSpec.upper_included, lt. cbn [ltb R_order]. rewrite !Rltb_true. split.
  - intros [_ [[A | [A _]] [B | [B _]]]]; cbn [car R_order] in *; subst; lra.
  - intros [A B]. split; [discriminate |]. split.
    + destruct (Rle_lt_or_eq_dec _ _ A); [left; assumption | right; tauto].
    + destruct (Rle_lt_or_eq_dec _ _ B); [left; assumption | right; tauto].
Qed.
Definition crosses (l u h : R) : result bool :=
  let! resultInterval := @IntervalModel.Closed R_order l u in
  let! segmentInterval := @IntervalModel.Closed R_order (- h) h in
  let! c := @IntervalModel.contains_interval R_order resultInterval segmentInterval in
  if negb c then @IntervalModel.intersects R_order resultInterval segmentInterval else Ok false.
Lemma crosses_spec l u h : l <= u -> 0 <= h -> exists b, crosses l u h = Ok b
  /\ (b = true <-> (exists t, - h <= t <= h /\ l <= t <= u) /\ (exists t, - h <= t <= h /\ ~ l <= t <= u)).
Proof.
  intros L H. unfold crosses. rewrite !closed_ok by lra. cbn [bind].
  pose proof (closed_valid l u L) as V. pose proof (closed_valid (- h) h ltac:(lra)) as W.
  destruct (IntervalProofs.contains_interval_spec _ _ V W) as (c & Ec & Hc). rewrite Ec. cbn [bind].
  destruct (IntervalProofs.intersects_spec _ _ V W) as (i & Ei & Hi).
  assert (Hc' : c = true <-> forall t, - h <= t <= h -> l <= t <= u).
  { rewrite Hc. split; intros X t; [rewrite <- !closed_mem; apply X | specialize (X t); rewrite <- !closed_mem in X; exact X]. }
  assert (Hi' : i = true <-> exists t, - h <= t <= h /\ l <= t <= u).
  { rewrite Hi. split; intros (t & A & B); exists t; rewrite ?closed_mem in *; tauto. }
  destruct c; cbn [negb].
  - exists false. split; [reflexivity |]. split; [discriminate |]. intros [_ (t & A & B)]. exfalso. apply B, (proj1 Hc' eq_refl), A.
  - exists i. split; [exact Ei |]. rewrite Hi'. split; [| tauto]. intros X. split; [exact X |].
    destruct (Rlt_le_dec (- h) l) as [C | C]; [exists (- h); lra |]. destruct (Rlt_le_dec u h) as [D | D]; [exists h; lra |].
    exfalso. assert (false = true) by (apply Hc'; intros; lra). discriminate.
Qed.

(** *** The segment *)
Lemma segment_param a b x : a <> b -> let L := norm3 (sub3 b a) in
  on_segment a b x <-> exists t, - (L / 2) <= t <= L / 2 /\ x = along (add3 a (scale3 (1 / 2) (sub3 b a))) t (normalized3 (sub3 b a)).
Proof.
  intros N L. assert (D : sub3 b a <> zero3) by (intros X; apply N; symmetry; apply sub3_0, X).
  assert (P : 0 < L) by (apply norm3_pos, sqnorm3_pos, D). pose proof (proj1 (sqnorm3_pos _) D) as Q.
  unfold normalized3. destruct (Rlt_dec 0 (sqnorm3 (sub3 b a))) as [_ |]; [| contradiction]. fold L.
  assert (E : forall s, along a s (sub3 b a) = along (add3 a (scale3 (1 / 2) (sub3 b a))) ((s - 1 / 2) * L) (scale3 (/ L) (sub3 b a))).
  { intros s. unfold along. clearbody L. clear - P. destruct a, b. v3unfold. apply V3_eq; field; lra. }
  split.
  - intros (s & S & ->). exists ((s - 1 / 2) * L). split; [split; nra | apply E].
  - intros (t & T & ->). exists (t / L + 1 / 2). split.
    + assert (- (1 / 2) <= t / L <= 1 / 2); [| lra]. split; apply Rmult_le_reg_r with L; try assumption; replace (t / L * L) with t by (field; lra); lra.
    + rewrite E. f_equal. field. lra.
Qed.
Lemma line_param a b x : a <> b -> let L := norm3 (sub3 b a) in
  on_line a (sub3 b a) x <-> exists t, x = along (add3 a (scale3 (1 / 2) (sub3 b a))) t (normalized3 (sub3 b a)).
Proof.
  intros N L. assert (D : sub3 b a <> zero3) by (intros X; apply N; symmetry; apply sub3_0, X).
  assert (P : 0 < L) by (apply norm3_pos, sqnorm3_pos, D). pose proof (proj1 (sqnorm3_pos _) D) as Q.
  unfold normalized3. destruct (Rlt_dec 0 (sqnorm3 (sub3 b a))) as [_ |]; [| contradiction]. fold L.
  assert (E : forall s, along a s (sub3 b a) = along (add3 a (scale3 (1 / 2) (sub3 b a))) ((s - 1 / 2) * L) (scale3 (/ L) (sub3 b a))).
  { intros s. unfold along. clearbody L. clear - P. destruct a, b. v3unfold. apply V3_eq; field; lra. }
  split.
  - intros (s & ->). exists ((s - 1 / 2) * L). apply E.
  - intros (t & ->). exists (t / L + 1 / 2). rewrite E. f_equal. field. lra.
Qed.
Lemma form_scale u k t v : ellipsoid_form u k (scale3 t v) = t * t * ellipsoid_form u k v.
Proof.
  destruct u as [[u1 u2] u3], k as [[a b] c]. unfold ellipsoid_form.
  assert (E : forall x, dot3 x (scale3 t v) = t * dot3 x v) by (intros; v3ring). rewrite !E. unfold Rdiv. ring.
Qed.
Lemma bilinear_sym u k v w : ell_bilinear u k v w = ell_bilinear u k w v.
Proof. destruct u as [[u1 u2] u3], k as [[a b] c]. unfold ell_bilinear. ring. Qed.

(** The form on a line, as a function of the parameter. *)
Section Quadratic.
Variables a2 a1 a0 : R.
Hypothesis A2 : 0 < a2.
Definition poly t := a2 * t * t + 2 * a1 * t + a0.
Definition discr := a1 * a1 - a0 * a2.
Lemma poly_min t : poly (- a1 / a2) <= poly t /\ poly (- a1 / a2) = - discr / a2.
Proof.
  unfold poly, discr. assert (E : a2 * (- a1 / a2) * (- a1 / a2) + 2 * a1 * (- a1 / a2) + a0 = - (a1 * a1 - a0 * a2) / a2) by (field; lra).
  split; [| exact E]. rewrite E. apply Rmult_le_reg_l with a2; [exact A2 |].
  replace (a2 * (- (a1 * a1 - a0 * a2) / a2)) with (- (a1 * a1 - a0 * a2)) by (field; lra).
  pose proof (VecProofs.sq_nonneg (a2 * t + a1)). nra.
Qed.
Lemma poly_below t m : poly t < - m / a2 -> m < discr.
Proof.
  intros H. destruct (poly_min t) as [L E]. rewrite E in L. assert (- discr / a2 < - m / a2) by lra.
  apply Rmult_lt_compat_r with (r := a2) in H0; [| exact A2]. replace (- discr / a2 * a2) with (- discr) in H0 by (field; lra).
  replace (- m / a2 * a2) with (- m) in H0 by (field; lra). lra.
Qed.
Lemma poly_above m : (forall t, m / a2 < poly t) -> discr < - m.
Proof.
  intros H. specialize (H (- a1 / a2)). destruct (poly_min 0) as [_ E]. rewrite E in H.
  apply Rmult_lt_compat_r with (r := a2) in H; [| exact A2]. replace (- discr / a2 * a2) with (- discr) in H by (field; lra).
  replace (m / a2 * a2) with m in H by (field; lra). lra.
Qed.
Lemma poly_solid t : 0 <= discr -> poly t <= 0 <-> (- a1 - sqrt discr) * / a2 <= t <= (- a1 + sqrt discr) * / a2.
Proof.
  intros H. unfold poly. rewrite <- (quad_spec a2 a1 a0 t A2). unfold quad. fold discr. rewrite Rltb_f by exact H. reflexivity.
Qed.
Lemma poly_tangent y : (forall t, poly t <= 0 <-> t = y) -> discr = 0 /\ y = - a1 / a2.
Proof.
  intros H. destruct (poly_min y) as [L E]. pose proof (proj2 (H y) eq_refl) as Y.
  assert (X : poly (- a1 / a2) <= 0) by lra. apply H in X. split; [| congruence].
  assert (D : 0 <= discr).
  { rewrite <- X, E in Y. apply Rmult_le_compat_r with (r := a2) in Y; [| lra]. replace (- discr / a2 * a2) with (- discr) in Y by (field; lra). lra. }
  pose proof (sqrt_pos discr) as S. assert (I : 0 < / a2) by (apply Rinv_0_lt_compat, A2).
  assert (T0 : (- a1 - sqrt discr) * / a2 = y) by (apply H, (poly_solid _ D); split; [lra | nra]).
  assert (T1 : (- a1 + sqrt discr) * / a2 = y) by (apply H, (poly_solid _ D); split; [nra | lra]).
  assert (Z : sqrt discr * / a2 = 0) by lra. apply Rmult_integral in Z. destruct Z as [Z | Z]; [| lra]. apply sqrt_eq_0; assumption.
Qed.
Lemma poly_roots : 0 <= discr -> poly ((- a1 - sqrt discr) * / a2) = 0 /\ poly ((- a1 + sqrt discr) * / a2) = 0.
Proof.
  intros H. pose proof (sqrt_sqrt discr H) as Q. unfold poly, discr in *. set (s := sqrt (a1 * a1 - a0 * a2)) in *.
  split; apply Rmult_eq_reg_l with a2; try lra; rewrite Rmult_0_r.
  - replace (a2 * (a2 * ((- a1 - s) * / a2) * ((- a1 - s) * / a2) + 2 * a1 * ((- a1 - s) * / a2) + a0)) with (s * s - (a1 * a1 - a0 * a2)) by (field; lra). lra.
  - replace (a2 * (a2 * ((- a1 + s) * / a2) * ((- a1 + s) * / a2) + 2 * a1 * ((- a1 + s) * / a2) + a0)) with (s * s - (a1 * a1 - a0 * a2)) by (field; lra). lra.
Qed.
(** A set of parameters around a point of the solid and one outside has a root. *)
Lemma poly_crossing h t t' : 0 <= discr -> - h <= t <= h -> poly t <= 0 -> - h <= t' <= h -> ~ poly t' <= 0 -> exists s, - h <= s <= h /\ poly s = 0.
Proof.
  intros D T P T' P'. apply (poly_solid t D) in P. destruct (poly_roots D) as [R0 R1].
  set (t0 := (- a1 - sqrt discr) * / a2) in *. set (t1 := (- a1 + sqrt discr) * / a2) in *.
  destruct (Rlt_le_dec t' t0) as [C | C]; [exists t0; split; [lra | exact R0] |].
  destruct (Rlt_le_dec t1 t') as [C' | C']; [exists t1; split; [lra | exact R1] |].
  exfalso. apply P', (poly_solid t' D). fold t0 t1. lra.
Qed.
End Quadratic.

Lemma c88_segment_partial eps tol e c u k a b : 0 < eps -> 0 <= tol -> good_ellipsoid eps e c u k -> a <> b ->
  let margin := tol * sqnorm3 (sub3 b a) / ellipsoid_form u k (sub3 b a) in
  let on_line := on_line a (sub3 b a) in
  let value p := ellipsoid_form u k (sub3 p c) in
  exists r, e_intersects_segment eps tol e (mkSeg (Some a) (Some b)) = Ok r
    /\ ((forall x, on_line x -> 1 + margin < value x) -> r = false)
    /\ ((exists x, on_line x /\ value x < 1 - margin) ->
          (r = true <-> (exists x, on_segment a b x /\ solid_ellipsoid c u k x) /\ (exists x, on_segment a b x /\ ~ solid_ellipsoid c u k x)))
    /\ (forall y, (forall x, on_line x /\ solid_ellipsoid c u k x <-> x = y) -> (r = true <-> on_segment a b y))
    /\ (r = true -> exists x, on_segment a b x /\ Rabs (value x - 1) <= margin).
Proof.
  intros He Ht H N. destruct (good_data eps e c u k He H) as [q D]. destruct (getMatrix_eq eps e c u k He H) as (m & Em & _ & Fm).
  destruct (c53_axes eps e c u k He H) as (O & _ & _). pose proof (good_positive eps e c u k H) as P.
  assert (Dn : sub3 b a <> zero3) by (intros X; apply N; symmetry; apply sub3_0, X).
  set (L := norm3 (sub3 b a)). assert (PL : 0 < L) by (apply norm3_pos, sqnorm3_pos, Dn).
  set (dir := normalized3 (sub3 b a)). set (ctr := add3 a (scale3 (1 / 2) (sub3 b a))). set (diff := sub3 ctr c).
  assert (Edir : dir = scale3 (/ L) (sub3 b a)) by (unfold dir, normalized3; destruct (Rlt_dec 0 (sqnorm3 (sub3 b a))) as [_ | C]; [reflexivity | exfalso; apply C, sqnorm3_pos, Dn]).
  set (a2 := ellipsoid_form u k dir). set (a1 := ell_bilinear u k dir diff). set (a0 := ellipsoid_form u k diff - 1).
  pose proof (ell_pos u k _ O P Dn) as PW.
  assert (A2e : a2 = / (L * L) * ellipsoid_form u k (sub3 b a)).
  { unfold a2. rewrite Edir, form_scale. rewrite Rinv_mult. reflexivity. }
  assert (LL : L * L = sqnorm3 (sub3 b a)) by apply norm3_sq.
  assert (A2 : 0 < a2) by (rewrite A2e; apply Rmult_lt_0_compat; [apply Rinv_0_lt_compat; nra | exact PW]).
  assert (Val : forall t, ellipsoid_form u k (sub3 (along ctr t dir) c) - 1 = poly a2 a1 a0 t).
  { intros t. rewrite along_sub, ell_expand. fold diff. rewrite (bilinear_sym u k diff dir). fold a1 a2. unfold poly, a0. ring. }
  assert (Solid : forall t, solid_ellipsoid c u k (along ctr t dir) <-> poly a2 a1 a0 t <= 0).
  { intros t. rewrite <- Val. unfold solid_ellipsoid. split; lra. }
  assert (Mg : tol * sqnorm3 (sub3 b a) / ellipsoid_form u k (sub3 b a) = tol / a2).
  { rewrite A2e, <- LL. field. lra. }
  assert (Seg : forall x, on_segment a b x <-> exists t, - (L / 2) <= t <= L / 2 /\ x = along ctr t dir) by (intros x; apply segment_param, N).
  assert (Lin : forall x, on_line a (sub3 b a) x <-> exists t, x = along ctr t dir) by (intros x; apply line_param, N).
  assert (Dz : dir <> zero3).
  { intros X. rewrite Edir in X. apply scale3_0 in X. destruct X as [X | X]; [| contradiction]. apply Rinv_neq_0_compat in X; lra. }
  cbv zeta. rewrite Mg.
  assert (Eq : e_intersects_segment eps tol e (mkSeg (Some a) (Some b)) =
    (if Rltb (discr a2 a1 a0) (- tol) then Ok false
     else if Rltb tol (discr a2 a1 a0) then crosses ((- a1 - sqrt (discr a2 a1 a0)) * (1 / a2)) ((- a1 + sqrt (discr a2 a1 a0)) * (1 / a2)) (L / 2)
     else Ok (Rleb (Rabs (- a1 / a2)) (L / 2)))).
  { unfold e_intersects_segment. rewrite D. destruct k as [[k1 k2] k3]. cbn [bind s_data s_first s_second].
    unfold s_isDegenerate, s_getDirection, s_getCenter, s_getLength, s_isDegenerate. cbn [bind s_data s_first s_second].
    rewrite (proj2 (eqb_false a b) N). cbn [bind]. fold L dir ctr. rewrite Em. cbn [bind]. fold diff.
    rewrite !Fm. rewrite !bilinear_diag. fold a2 a1 a0. unfold div_. rewrite !(proj2 (Reqb_false a2 0)) by lra. cbn [bind]. reflexivity. }
  rewrite Eq. clear Eq. set (dd := discr a2 a1 a0).
  assert (Mp : forall t, poly a2 a1 a0 (- a1 / a2) <= poly a2 a1 a0 t /\ poly a2 a1 a0 (- a1 / a2) = - dd / a2) by (intros t; apply poly_min, A2).
  assert (Above : (forall x, on_line a (sub3 b a) x -> 1 + tol / a2 < ellipsoid_form u k (sub3 x c)) -> dd < - tol).
  { intros X. apply poly_above; [exact A2 |]. intros t. rewrite <- Val. specialize (X (along ctr t dir) (proj2 (Lin _) (ex_intro _ t eq_refl))). lra. }
  assert (Below : (exists x, on_line a (sub3 b a) x /\ ellipsoid_form u k (sub3 x c) < 1 - tol / a2) -> tol < dd).
  { intros (x & X & V). apply Lin in X. destruct X as [t ->]. apply (poly_below a2 a1 a0 A2 t). rewrite <- Val. unfold Rdiv in *. lra. }
  assert (Tang : forall y, (forall x, on_line a (sub3 b a) x /\ solid_ellipsoid c u k x <-> x = y) -> dd = 0 /\ y = along ctr (- a1 / a2) dir).
  { intros y Y. pose proof (proj2 (Y y) eq_refl) as [Y1 Y2]. apply Lin in Y1. destruct Y1 as [t Et].
    destruct (poly_tangent a2 a1 a0 A2 t) as [D0 T0].
    - intros s. rewrite <- Solid. split.
      + intros X. apply (along_inj ctr s t dir Dz). rewrite <- Et. apply Y. split; [apply Lin; exists s; reflexivity | exact X].
      + intros ->. rewrite <- Et. exact Y2.
    - split; [exact D0 | rewrite <- T0; exact Et]. }
  unfold Rltb. destruct (Rlt_dec dd (- tol)) as [C1 | C1]; [| destruct (Rlt_dec tol dd) as [C2 | C2]].
  - exists false. split; [reflexivity |]. split; [reflexivity |]. split; [intros X; apply Below in X; lra |]. split; [| discriminate].
    intros y Y. destruct (Tang y Y) as [X _]. lra.
  - assert (D0 : 0 <= dd) by lra. pose proof (sqrt_pos dd) as Sq. assert (I : 0 < / a2) by (apply Rinv_0_lt_compat, A2).
    replace (1 / a2) with (/ a2) by (field; lra).
    destruct (crosses_spec ((- a1 - sqrt dd) * / a2) ((- a1 + sqrt dd) * / a2) (L / 2)) as (r & Er & Hr); [nra | lra |].
    assert (Hr' : r = true <-> (exists x, on_segment a b x /\ solid_ellipsoid c u k x) /\ (exists x, on_segment a b x /\ ~ solid_ellipsoid c u k x)).
    { rewrite Hr. split.
      - intros [(t & T & X) (t' & T' & X')]. split.
        + exists (along ctr t dir). split; [apply Seg; exists t; tauto |]. apply Solid, (poly_solid a2 a1 a0 A2 t D0), X.
        + exists (along ctr t' dir). split; [apply Seg; exists t'; tauto |]. intros Y. apply X'. apply (poly_solid a2 a1 a0 A2 t' D0), Solid, Y.
      - intros [(x & Sx & X) (x' & Sx' & X')]. apply Seg in Sx, Sx'. destruct Sx as (t & T & ->), Sx' as (t' & T' & ->). split.
        + exists t. split; [exact T |]. apply (poly_solid a2 a1 a0 A2 t D0), Solid, X.
        + exists t'. split; [exact T' |]. intros Y. apply X', Solid, (poly_solid a2 a1 a0 A2 t' D0), Y. }
    exists r. split; [exact Er |]. split; [intros X; apply Above in X; lra |]. split; [intros _; exact Hr' |]. split; [intros y Y; destruct (Tang y Y); lra |].
    intros Rt. apply Hr' in Rt. destruct Rt as [(x & Sx & X) (x' & Sx' & X')]. apply Seg in Sx, Sx'. destruct Sx as (t & T & ->), Sx' as (t' & T' & ->).
    rewrite Solid in X, X'. destruct (poly_crossing a2 a1 a0 A2 (L / 2) t t' D0 T X T' X') as (s & S & Z).
    exists (along ctr s dir). split; [apply Seg; exists s; tauto |]. rewrite Val, Z, Rabs_R0. apply Rmult_le_pos; [exact Ht | lra].
  - exists (Rleb (Rabs (- a1 / a2)) (L / 2)). split; [reflexivity |]. split; [intros X; apply Above in X; lra |]. split; [intros X; apply Below in X; lra |].
    assert (Iff : Rleb (Rabs (- a1 / a2)) (L / 2) = true <-> on_segment a b (along ctr (- a1 / a2) dir)).
    { rewrite Rleb_iff, Seg. split.
      - intros X. exists (- a1 / a2). split; [| reflexivity]. revert X. unfold Rabs. destruct (Rcase_abs _); lra.
      - intros (t & T & X). apply along_inj in X; [| exact Dz]. rewrite X. apply Rabs_le. lra. }
    split.
    + intros y Y. destruct (Tang y Y) as [_ ->]. exact Iff.
    + intros X. apply Iff in X. exists (along ctr (- a1 / a2) dir). split; [exact X |]. rewrite Val, (proj2 (Mp 0)).
      unfold Rdiv. rewrite Rabs_mult, (Rabs_right (/ a2)) by (apply Rgt_ge, Rinv_0_lt_compat, A2).
      apply Rmult_le_compat_r; [left; apply Rinv_0_lt_compat, A2 |]. apply Rabs_le. lra.
Qed.
Lemma c88_segment_degenerate eps tol e c u k a : 0 < eps -> good_ellipsoid eps e c u k ->
  e_intersects_segment eps tol e (mkSeg (Some a) (Some a)) = e_contains eps e (Some a).
Proof.
  intros He H. destruct (good_data eps e c u k He H) as [q D]. unfold e_intersects_segment. rewrite D. destruct k as [[k1 k2] k3].
  cbn [bind s_data s_first s_second s_isDegenerate]. rewrite (proj2 (eqb_true a a) eq_refl). reflexivity.
Qed.
(** The unit sphere as an ellipsoid. *)
Definition unit_axes : v3 * v3 * v3 := (V3 1 0 0, V3 0 1 0, V3 0 0 1).
Definition unit_ball : ellipsoid := mkEll (Some zero3) (Some 1) (Some 1) (Some 1) (Some q_Unit).
Lemma unit_ball_good eps : 0 < eps -> good_ellipsoid eps unit_ball zero3 unit_axes (1, 1, 1).
Proof.
  intros He. pose proof (good_make eps zero3 q_Unit 1 1 1 He) as G. replace (qconj q_Unit) with q_Unit in G by (unfold q_Unit; qunfold; apply Q4_eq; ring).
  rewrite !rot_unit in G. apply G; [unfold unit_q, q_Unit; qunfold; ring | split; [lra | split; lra]].
Qed.
Lemma unit_ball_form v : ellipsoid_form unit_axes (1, 1, 1) v = sqnorm3 v.
Proof. unfold ellipsoid_form, unit_axes. v3unfold. field. Qed.

(** A diameter: its end points are on the surface, the other ones inside. *)
Lemma c88_chord_refuted eps tol : 0 < eps -> 0 <= tol < 1 -> exists e a b c u k, a <> b /\ good_ellipsoid eps e c u k
  /\ on_ellipsoid c u k a /\ on_ellipsoid c u k b
  /\ e_intersects_segment eps tol e (mkSeg (Some a) (Some b)) = Ok false.
Proof.
  intros He Ht. exists unit_ball, (V3 (-1) 0 0), (V3 1 0 0), zero3, unit_axes, (1, 1, 1).
  assert (N : V3 (-1) 0 0 <> V3 1 0 0) by (intros X; apply (f_equal vx) in X; simpl in X; lra).
  pose proof (unit_ball_good eps He) as G. split; [exact N |]. split; [exact G |].
  unfold on_ellipsoid. rewrite !unit_ball_form. split; [v3unfold; ring |]. split; [v3unfold; ring |].
  destruct (c88_segment_partial eps tol unit_ball zero3 unit_axes (1, 1, 1) _ _ He (proj1 Ht) G N) as (r & E & _ & H & _).
  rewrite E. f_equal. destruct r; [| reflexivity]. exfalso. destruct H as [H _].
  - exists zero3. split; [exists (1 / 2); unfold along; v3unfold; apply V3_eq; field |]. rewrite !unit_ball_form. v3unfold.
    replace (tol * _ / _) with tol by (field; lra). lra.
  - destruct (H eq_refl) as [_ (x & (t & T & ->) & X)]. apply X. unfold solid_ellipsoid. rewrite unit_ball_form. unfold along. v3unfold. nra.
Qed.
