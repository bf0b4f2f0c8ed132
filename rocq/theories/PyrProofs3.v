(** The half lines on the lateral faces of a pyramid, and its intersections (C107). *)

From Coq Require Import List Bool Reals Lra Lia Arith Psatz Permutation.
From Verif Require IntervalModel IntervalSpec RotProofs4 RotProofs9 CuboidProofs2.
From Verif Require Import Result DOrder Vec VecProofs Mat3 Mat4 AngleModel AngleSpec AngleProofs AngleProofs2 RotModel RotSpec RotProofs RotProofs2 RotProofs3 IntervalGridModel IntervalSpec IntervalGridProofs
  TransfModel TransfSpec TransfProofs TransfProofs2 Geo3Types Geo3Model Geo3Spec Geo3Proofs Geo3Proofs2 Geo3Proofs3 GteModel GteSpec ChordProofs SphereModel SphereSpec SphereProofs
  EllModel EllSpec EllProofs EllProofs2 EllProofs3 Geo2Model Geo2Spec Geo2Proofs Poly2Model Poly2Spec Poly2Proofs Poly2Proofs2 Poly2Ref
  InterModel ConeModel ConeSpec ConeProofs ConeProofs2 ConeProofs3 ConeProofs4 ConeProofs5 ConeProofs6 PyrModel PyrSpec PyrProofs PyrProofs2.
Import ListNotations.
Local Open Scope R_scope.

Definition rays_from (a : v3) (ds : list v3) : list ray := map (fun d => mkRay (Some a) (Some d)) ds.
Lemma angles_ok n t : 0 < t -> exists l, (if Nat.ltb 1 n then let! c := @IntervalModel.Closed R_order 0 t in generateArrayWithSize c n else Ok [0]) = Ok l
  /\ length l = Nat.max 1 n /\ forall i x, nth_error l i = Some x -> x = INR i * t / INR (n - 1).
Proof.
  intros Ht. destruct (Nat.ltb 1 n) eqn:B.
  - apply Nat.ltb_lt in B.
    assert (V : @IntervalSpec.valid R_order (@IntervalModel.mkI R_order IntervalModel.TClosed (Some 0) (Some t))).
    { split; [discriminate |]. left. apply Rltb_t. lra. }
    destruct (withSize_spec _ 0 t n V B) as (l & E & L & N).
    assert (EI : @IntervalModel.Closed R_order 0 t = Ok (@IntervalModel.mkI R_order IntervalModel.TClosed (Some 0) (Some t))).
    { unfold IntervalModel.Closed, IntervalModel.construct, gtb, eqb. cbn [ltb R_order]. rewrite !(Rltb_f t 0), (Rltb_t 0 t) by lra. reflexivity. }
    rewrite EI. cbn [bind]. exists l. split; [exact E |]. split; [rewrite L; lia |]. intros i x Hi. assert (Hl : (i < n)%nat) by (rewrite <- L; apply nth_error_Some; congruence).
    rewrite (N i Hl) in Hi. injection Hi as <-. unfold first_index, cells. cbn.
    replace (i + 0)%nat with i by lia. replace (n - 1 + 0 + 0)%nat with (n - 1)%nat by lia. unfold Rdiv. ring.
  - apply Nat.ltb_ge in B. exists [0]. split; [reflexivity |]. split; [cbn [length]; lia |]. intros [| i] x Hi; [cbn in Hi; injection Hi as <-; cbn; unfold Rdiv; ring | destruct i; discriminate].
Qed.
Lemma turn_axis f s : frame f s -> cross3 (cross3 f s) f = s.
Proof. intros (Uf & Us & D). rewrite across_eq, Uf, D. rewrite scale3_1. v3ring. Qed.
Lemma scaled_cross k f s c : cross3 f (add3 (scale3 c f) (scale3 k s)) = scale3 k (cross3 f s).
Proof. v3ring. Qed.
Lemma comb_scale r c k f s : scale3 r (add3 (scale3 c f) (scale3 k s)) = add3 (scale3 (r * c) f) (scale3 (r * k) s).
Proof. v3ring. Qed.
Lemma dot_comb f s c k w : dot3 (add3 (scale3 c f) (scale3 k s)) w = c * dot3 f w + k * dot3 s w.
Proof. v3ring. Qed.
Lemma in_plane_comb f s c k p q : p = add3 (scale3 c f) (scale3 k s) -> k <> 0 -> add3 (scale3 (fst q) f) (scale3 (snd q) s) = add3 (scale3 (fst q - snd q * c / k) f) (scale3 (snd q / k) p).
Proof. intros -> K. destruct q as [u w]. cbn [fst snd]. replace (scale3 (w / k) (add3 (scale3 c f) (scale3 k s))) with (add3 (scale3 (w * c / k) f) (scale3 w s)).
  - v3ring.
  - rewrite comb_scale. f_equal; f_equal; field; exact K.
Qed.
Section face_rays.
  Variables (eps : R) (b : polygon) (a : v3) (m : R) (outer : list v2) (inner : list (list v2)) (o x y : v3) (i : nat) (e : v2 * v2).
  Hypothesis He : 0 < eps < 1 / 2.
  Hypothesis HB : placed m b outer inner o x y.
  Hypothesis HE : nth_error (cycle outer) i = Some e.
  Notation v := (lift o x y (fst e)).
  Notation w := (lift o x y (snd e)).
  Lemma face_edge n : py_face_rays eps (mkPyramid b (Some a)) i n
    = (if v3_eqb (normalized3 (sub3 v a)) (normalized3 (sub3 w a)) then let! r := Ray (Some a) (Some (normalized3 (sub3 v a))) in Ok [r]
       else let! between := Between3 eps (Some (normalized3 (sub3 v a))) (Some (normalized3 (sub3 w a))) in
            let! angles := if Nat.ltb 1 n then let! t := in_unit between Radian in let! c := @IntervalModel.Closed R_order 0 t in generateArrayWithSize c n else Ok [0] in
            mapM (fun x => let! d := ConeModel.turned eps (normalized3 (cross3 (normalized3 (sub3 v a)) (normalized3 (sub3 w a)))) (Radians x) (normalized3 (sub3 v a)) in Ray (Some a) (Some d)) angles).
  Proof.
    unfold py_face_rays. cbn [py_base py_apex]. rewrite (proj1 (c60_edge_at _ _ _ _ _ _ _ HB) i e HE). unfold lift_segment. cbn [bind s_data s_first s_second fst snd needd]. reflexivity.
  Qed.
  Lemma face_rays_ok n : cross3 (sub3 v a) (sub3 w a) <> zero3 ->
    exists ds, py_face_rays eps (mkPyramid b (Some a)) i n = Ok (rays_from a ds) /\ face_spread a v w n ds.
  Proof.
    intros N. rewrite face_edge. destruct (face_frame a v w N) as (f & s & k & Ef & _ & F & EV & EW & Ek & Pk). pose proof F as (Uf & Us & D).
    destruct (cross_ne _ _ N) as [Nv Nw]. pose proof (norm3_pos _ (proj1 (sqnorm3_pos _) Nv)) as PV. pose proof (norm3_pos _ (proj1 (sqnorm3_pos _) Nw)) as PW.
    set (V := sub3 v a) in *. set (W := sub3 w a) in *. set (c := dot3 W f) in *. clear Ek. rewrite Ef.
    destruct (Geo3Proofs.normalized3_unit W Nw) as [Ug Eg]. set (g := normalized3 W) in *. set (r := / norm3 W) in *. assert (Pr : 0 < r) by (apply Rinv_0_lt_compat; exact PW).
    assert (Eg' : g = add3 (scale3 (r * c) f) (scale3 (r * k) s)) by (rewrite Eg; rewrite EW at 1; apply comb_scale). assert (Pk' : 0 < r * k) by (apply Rmult_lt_0_compat; assumption).
    assert (Dg : dot3 f g = r * c) by (rewrite Eg', two_parts, (unit_dot f Uf), D; ring).
    assert (Sg : r * c * (r * c) + r * k * (r * k) = 1). { pose proof (unit_dot g Ug) as Z. rewrite Eg', two_parts, !dot_comb, (unit_dot f Uf), (unit_dot s Us), (dot3_sym s f), D in Z. lra. }
    set (c' := r * c) in *. set (k' := r * k) in *.
    assert (Nfg : f <> g). { intros Z. rewrite <- Z, (unit_dot f Uf) in Dg. nra. }
    rewrite (proj2 (v3_eqb_false f g) Nfg). assert (Ax : normalized3 (cross3 f g) = cross3 f s).
    { rewrite Eg', scaled_cross. apply normalized_scaled; [exact Pk' |]. rewrite lagrange3, Uf, Us, D. ring. }
    rewrite Ax. destruct (c20_between3 eps f g ltac:(lra) ltac:(lra) ltac:(rewrite Ug; lra)) as (t & Eb & Bt & Ct & _). rewrite Eb. cbn [bind].
    rewrite (norm_unit f Uf), (norm_unit g Ug), Dg in Ct. replace (c' / (1 * 1)) with c' in Ct by field.
    assert (Ht : 0 < t < PI). { split.
      - destruct (Rle_lt_or_eq_dec 0 t ltac:(lra)) as [L | <-]; [exact L |]. rewrite cos_0 in Ct. nra.
      - destruct (Rle_lt_or_eq_dec t PI ltac:(lra)) as [L | ->]; [exact L |]. rewrite cos_PI in Ct. nra. }
    assert (St : sin t = k'). { pose proof (sin_gt_0 t ltac:(lra) ltac:(lra)). pose proof (sin2_cos2 t) as Z. unfold Rsqr in Z. rewrite Ct in Z. assert (sin t * sin t = k' * k') by lra. nra. }
    assert (Ei : in_unit (Radians t) Radian = Ok t) by reflexivity. rewrite Ei. cbn [bind]. destruct (angles_ok n t ltac:(lra)) as (l & El & Ll & Nl). rewrite El. cbn [bind].
    set (dir := fun u => add3 (scale3 (cos u) f) (scale3 (sin u) s)). assert (Ud : forall u, sqnorm3 (dir u) = 1).
    { intros u. unfold dir. pose proof (sin2_cos2 u) as Z. unfold Rsqr in Z. change (sqnorm3 ?q) with (dot3 q q). rewrite two_parts, !dot_comb, (unit_dot f Uf), (unit_dot s Us), (dot3_sym s f), D. lra. }
    exists (map dir l). split.
    - rewrite (mapM_ok _ (fun u => mkRay (Some a) (Some (dir u)))); [unfold rays_from; rewrite map_map; reflexivity |]. intros u _.
      assert (Un : sqnorm3 (cross3 f s) = 1) by (apply frame_normal, F).
      rewrite (turned_ok eps (cross3 f s) (Radians u) u f); [| lra | rewrite (norm_unit _ Un), Rminus_eq_0, Rabs_R0; lra | reflexivity].
      cbn [bind]. rewrite (CuboidProofs2.normalized_unit _ Un), first_direction by (rewrite cross_perp; reflexivity). rewrite (turn_axis f s F). fold (dir u). apply ray_of_unit, Ud.
    - exists t. split; [exact Ht |]. split; [| split; [rewrite map_length; exact Ll |]].
      + rewrite Ct. fold V W. unfold dist3. fold V W. rewrite EV at 2. rewrite dot3_scale_l. rewrite (dot3_sym f W). fold c. unfold c', r. field. lra.
      + intros j d Hj. rewrite nth_error_map in Hj. destruct (nth_error l j) as [u |] eqn:Ej; [| discriminate]. injection Hj as <-. pose proof (Nl j u Ej) as Eu.
        assert (Bu : 0 <= u <= t).
        { rewrite Eu. assert (Lj : (j < Nat.max 1 n)%nat) by (rewrite <- Ll; apply nth_error_Some; congruence). destruct (Nat.le_gt_cases n 1) as [Hn | Hn].
          - assert (j = 0%nat) as -> by lia. cbn [INR]. unfold Rdiv. rewrite !Rmult_0_l. lra.
          - assert (Pn : 0 < INR (n - 1)) by (apply lt_0_INR; lia). pose proof (pos_INR j). assert (Le : INR j <= INR (n - 1)) by (apply le_INR; lia). split.
            + apply Rmult_le_pos; [apply Rmult_le_pos; lra | apply Rlt_le, Rinv_0_lt_compat; exact Pn].
            + apply Rmult_le_reg_r with (INR (n - 1)); [exact Pn |]. unfold Rdiv. rewrite Rmult_assoc, Rinv_l, Rmult_1_r by lra. rewrite (Rmult_comm t). apply Rmult_le_compat_r; lra. }
        split; [apply Ud |]. split.
        * exists (sin (t - u) / sin t * / norm3 V), (sin u / sin t * r). assert (Ps : 0 < sin t) by (apply sin_gt_0; lra). pose proof (Rinv_0_lt_compat _ PV). pose proof (Rinv_0_lt_compat _ Ps).
          assert (S1 : 0 <= sin (t - u)) by (apply sin_ge_0; lra). assert (S2 : 0 <= sin u) by (apply sin_ge_0; lra).
          split; [repeat apply Rmult_le_pos; lra |]. split; [repeat apply Rmult_le_pos; lra |].
          unfold dir. pose proof (in_plane_comb f s c' k' g (cos u, sin u) Eg' ltac:(lra)) as IP. cbn [fst snd] in IP. rewrite IP. fold V W. f_equal.
          -- assert (EF : f = scale3 (/ norm3 V) V) by (rewrite <- Ef; apply Geo3Proofs.normalized3_unit; exact Nv). rewrite EF at 1. rewrite scale3_scale. f_equal. rewrite sin_minus, St, Ct. field. lra.
          -- rewrite Eg, scale3_scale. f_equal. rewrite St. reflexivity.
        * unfold dir. fold V. rewrite EV at 1. rewrite dot3_scale_r, dot_comb, (unit_dot f Uf), (dot3_sym s f), D. unfold dist3. fold V. rewrite Eu. ring.
  Qed.
  (** An edge in line with the apex. *)
  Lemma face_rays_lined n : v <> a -> w <> a -> cross3 (sub3 v a) (sub3 w a) = zero3 ->
    (0 < dot3 (sub3 v a) (sub3 w a) -> exists d k, py_face_rays eps (mkPyramid b (Some a)) i n = Ok (rays_from a [d]) /\ sqnorm3 d = 1 /\ 0 < k /\ sub3 v a = scale3 k d)
    /\ (dot3 (sub3 v a) (sub3 w a) < 0 -> py_face_rays eps (mkPyramid b (Some a)) i n = Err ERuntime).
  Proof.
    intros Hv Hw Z. rewrite face_edge. assert (Nv : sub3 v a <> zero3) by (intros E; apply Hv, sub3_0, E). assert (Nw : sub3 w a <> zero3) by (intros E; apply Hw, sub3_0, E).
    pose proof (norm3_pos _ (proj1 (sqnorm3_pos _) Nv)) as PV. pose proof (norm3_pos _ (proj1 (sqnorm3_pos _) Nw)) as PW.
    destruct (Geo3Proofs.normalized3_unit _ Nv) as [Uf Ef], (Geo3Proofs.normalized3_unit _ Nw) as [Ug Eg]. pose proof (RotProofs9.normalized3_back _ Nv) as Bv. pose proof (RotProofs9.normalized3_back _ Nw) as Bw.
    set (V := sub3 v a) in *. set (W := sub3 w a) in *. set (f := normalized3 V) in *. set (g := normalized3 W) in *.
    assert (Zfg : cross3 f g = zero3). { rewrite Ef, Eg. replace (cross3 (scale3 (/ norm3 V) V) (scale3 (/ norm3 W) W)) with (scale3 (/ norm3 V * / norm3 W) (cross3 V W)); [rewrite Z; apply scale_zero |]. generalize (/ norm3 V) (/ norm3 W) V W. clear. intros r1 r2 V W. v3ring. }
    assert (Dfg : dot3 f g * dot3 f g = 1). { pose proof (lagrange3 f g) as L. rewrite Zfg, Uf, Ug in L. replace (sqnorm3 zero3) with 0 in L by (v3unfold; ring). lra. }
    assert (Ed : dot3 V W = norm3 V * norm3 W * dot3 f g) by (rewrite <- Bv at 1; rewrite <- Bw at 1; rewrite dot3_scale_l, dot3_scale_r; ring).
    assert (Pp : 0 < norm3 V * norm3 W) by (apply Rmult_lt_0_compat; assumption). split; intros S.
    - assert (D1 : dot3 f g = 1) by nra. assert (Efg : f = g).
      { apply sub3_0, sqnorm3_0. replace (sqnorm3 (sub3 f g)) with (sqnorm3 f + sqnorm3 g - 2 * dot3 f g) by (generalize f g; clear; intros f g; v3ring). rewrite Uf, Ug, D1. ring. }
      rewrite (proj2 (v3_eqb_iff f g) Efg), (ray_of_unit a f Uf). cbn [bind]. exists f, (norm3 V). split; [reflexivity |]. split; [exact Uf |]. split; [exact PV | symmetry; exact Bv].
    - assert (D1 : dot3 f g = -1) by nra. assert (Nfg : f <> g) by (intros E; rewrite <- E, (unit_dot f Uf) in D1; lra). rewrite (proj2 (v3_eqb_false f g) Nfg), Zfg, RotProofs4.normalized3_zero.
      destruct (c20_between3 eps f g ltac:(lra) ltac:(lra) ltac:(rewrite Ug; lra)) as (t & Eb & Bt & Ct & T0 & _). rewrite Eb. cbn [bind].
      assert (Pt : 0 < t). { destruct (Rle_lt_or_eq_dec 0 t ltac:(lra)) as [L | <-]; [exact L |]. rewrite cos_0, (norm_unit f Uf), (norm_unit g Ug), D1 in Ct. lra. }
      assert (Ei : in_unit (Radians t) Radian = Ok t) by reflexivity. rewrite Ei. cbn [bind]. destruct (angles_ok n t Pt) as (l & El & Ll & _). rewrite El. cbn [bind].
      destruct l as [| u l]; [cbn [length] in Ll; lia |]. cbn [mapM]. unfold ConeModel.turned at 1. rewrite (proj2 (RotationVector_ok eps zero3 (Radians u) ltac:(lra) ltac:(lra))); [reflexivity |]. rewrite norm3_zero, Rabs_left by lra. lra.
  Qed.
End face_rays.
Lemma c107_face eps m b a outer inner o x y i v w n : 0 < eps < 1 / 2 -> placed m b outer inner o x y -> nth_error (cycle outer) i = Some (v, w) ->
  cross3 (sub3 (lift o x y v) a) (sub3 (lift o x y w) a) <> zero3 ->
  exists ds, py_face_rays eps (mkPyramid b (Some a)) i n = Ok (map (fun d => mkRay (Some a) (Some d)) ds) /\ face_spread a (lift o x y v) (lift o x y w) n ds.
Proof. intros He HB HE. exact (face_rays_ok eps b a m outer inner o x y i (v, w) He HB HE n). Qed.
Lemma c107_face_lined eps m b a outer inner o x y i v w n : 0 < eps < 1 / 2 -> placed m b outer inner o x y -> nth_error (cycle outer) i = Some (v, w) ->
  lift o x y v <> a -> lift o x y w <> a -> cross3 (sub3 (lift o x y v) a) (sub3 (lift o x y w) a) = zero3 ->
  (0 < dot3 (sub3 (lift o x y v) a) (sub3 (lift o x y w) a) ->
    exists d k, py_face_rays eps (mkPyramid b (Some a)) i n = Ok [mkRay (Some a) (Some d)] /\ sqnorm3 d = 1 /\ 0 < k /\ sub3 (lift o x y v) a = scale3 k d)
  /\ (dot3 (sub3 (lift o x y v) a) (sub3 (lift o x y w) a) < 0 -> py_face_rays eps (mkPyramid b (Some a)) i n = Err ERuntime).
Proof. intros He HB HE. exact (face_rays_lined eps b a m outer inner o x y i (v, w) He HB HE n). Qed.
(** What a spread is made of: the first half line goes through the first vertex, the last through the second. *)
Lemma c107_ends a v w n ds : v <> a -> w <> a -> face_spread a v w n ds ->
  (exists k, 0 < k /\ nth_error ds 0 = Some (scale3 k (sub3 v a)))
  /\ ((2 <= n)%nat -> exists k, 0 < k /\ nth_error ds (n - 1) = Some (scale3 k (sub3 w a))).
Proof.
  intros Hv Hw (t & Ht & Hc & L & H). assert (Nv : sub3 v a <> zero3) by (intros E; apply Hv, sub3_0, E). assert (Nw : sub3 w a <> zero3) by (intros E; apply Hw, sub3_0, E).
  pose proof (norm3_pos _ (proj1 (sqnorm3_pos _) Nv)) as PV. pose proof (norm3_pos _ (proj1 (sqnorm3_pos _) Nw)) as PW. fold (dist3 v a) in PV. fold (dist3 w a) in PW.
  assert (K : forall u z, 0 < norm3 z -> sqnorm3 u = 1 -> dot3 u z = norm3 z -> u = scale3 (/ norm3 z) z).
  { clear. intros u z Pz Hu Hd. apply sub3_0, sqnorm3_0. replace (sqnorm3 (sub3 u (scale3 (/ norm3 z) z))) with (sqnorm3 u + (/ norm3 z * / norm3 z) * sqnorm3 z - 2 * / norm3 z * dot3 u z) by (generalize (/ norm3 z); clear; intros r; v3ring).
    rewrite Hu, Hd, <- norm3_sq. field. lra. }
  split.
  - destruct (nth_error ds 0) as [d |] eqn:E; [| apply nth_error_None in E; lia]. destruct (H 0%nat d E) as (U & _ & Dd). replace (INR 0 * t / INR (n - 1)) with 0 in Dd by (cbn [INR]; unfold Rdiv; ring). rewrite cos_0, Rmult_1_r in Dd.
    exists (/ dist3 v a). split; [apply Rinv_0_lt_compat, PV |]. f_equal. apply K; assumption.
  - intros Hn. destruct (nth_error ds (n - 1)) as [d |] eqn:E; [| apply nth_error_None in E; lia]. destruct (H _ d E) as (U & (p & q & Hp & Hq & Ed) & Dd).
    assert (Pn : 0 < INR (n - 1)) by (apply lt_0_INR; lia). replace (INR (n - 1) * t / INR (n - 1)) with t in Dd by (field; lra).
    assert (D1 : dot3 d (sub3 v a) = p * (dist3 v a * dist3 v a) + q * (dist3 v a * dist3 w a * cos t)).
    { rewrite Ed, dot_comb, Hc, (dot3_sym (sub3 w a)). unfold dist3. rewrite norm3_sq. reflexivity. }
    assert (D2 : 1 = p * p * (dist3 v a * dist3 v a) + q * q * (dist3 w a * dist3 w a) + 2 * p * q * (dist3 v a * dist3 w a * cos t)).
    { rewrite <- U, Ed, Hc. unfold dist3. rewrite !norm3_sq. generalize (sub3 v a) (sub3 w a). clear. intros V W. v3ring. }
    pose proof (sin2_cos2 t) as SC. unfold Rsqr in SC. pose proof (sin_gt_0 t ltac:(lra) ltac:(lra)) as Ps. set (A := dist3 v a) in *. set (B := dist3 w a) in *. set (c := cos t) in *. set (s := sin t) in *.
    rewrite D1 in Dd. assert (E1 : p * A + q * B * c = c) by nra. assert (E2 : (q * B * s - s) * (q * B * s + s) = 0).
    { assert (p * A = c - q * B * c) by lra. assert (X : 1 = (p * A) * (p * A) + (q * B) * (q * B) + 2 * (p * A) * (q * B) * c) by lra. rewrite H0 in X. replace ((q * B * s - s) * (q * B * s + s)) with ((q * B * (q * B) - 1) * (s * s)) by ring. replace (s * s) with (1 - c * c) by lra. lra. }
    apply Rmult_integral in E2. assert (qB : q * B = 1). { assert (0 <= q * B) by (apply Rmult_le_pos; lra). destruct E2 as [E2 | E2]; [apply Rmult_eq_reg_r with s; lra | exfalso; nra]. }
    assert (p = 0) by (rewrite qB in E1; nra). exists q. assert (0 < q) by nra. split; [assumption |]. rewrite Ed. f_equal. rewrite H0. generalize (sub3 v a) (sub3 w a). clear. intros V W. v3ring.
Qed.
