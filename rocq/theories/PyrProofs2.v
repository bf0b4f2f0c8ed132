(** The points in a pyramid (C106). *)

From Coq Require Import List Bool Reals Lra Lia Arith.
From Verif Require RotProofs4 RotProofs9 RotProofs10 CuboidProofs CuboidProofs2 EllProofs4 CuboidSpec.
From Verif Require Import Result DOrder Vec VecProofs Mat3 Mat4 AngleModel RotModel RotSpec RotProofs RotProofs2 TransfModel TransfSpec TransfProofs TransfProofs2
  Geo3Types Geo3Model Geo3Spec Geo3Proofs Geo3Proofs2 Geo3Proofs3 Geo2Model Geo2Spec Geo2Proofs Poly2Model Poly2Spec Poly2Proofs Poly2Proofs2 Poly2Ref
  GteModel SphereModel EllModel InterModel ConeModel ConeProofs ConeProofs2 ConeProofs3 PyrModel PyrSpec PyrProofs.
Import ListNotations.
Local Open Scope R_scope.

Lemma lift_in_plane x y o q : frame x y -> dot3 (cross3 x y) (sub3 q o) = 0 -> q = lift o x y (V2 (dot3 x (sub3 q o)) (dot3 y (sub3 q o))).
Proof.
  intros (Fx & Fy & Fd) H. pose proof (CuboidProofs.at_any o x y (cross3 x y) q (EllProofs4.cross_orthonormal x y Fx Fy Fd)) as E. rewrite H in E. rewrite E at 1.
  unfold CuboidProofs.at_, lift. cbn [x2 y2]. generalize (dot3 x (sub3 q o)) (dot3 y (sub3 q o)) (cross3 x y). clear. intros r s c. v3ring.
Qed.
Lemma lift_coordinates x y o v : frame x y -> dot3 x (sub3 (lift o x y v) o) = x2 v /\ dot3 y (sub3 (lift o x y v) o) = y2 v /\ dot3 (cross3 x y) (sub3 (lift o x y v) o) = 0.
Proof.
  intros (Fx & Fy & Fd). assert (E : forall w, dot3 w (sub3 (lift o x y v) o) = x2 v * dot3 w x + y2 v * dot3 w y) by (intros w; unfold lift; generalize (x2 v) (y2 v); clear; intros r s; v3ring).
  rewrite !E. rewrite (unit_dot x Fx), (unit_dot y Fy), (dot3_sym y x), Fd. replace (dot3 (cross3 x y) x) with 0 by (clear; v3ring). replace (dot3 (cross3 x y) y) with 0 by (clear; v3ring). repeat split; ring.
Qed.
Lemma frame_normal x y : frame x y -> sqnorm3 (cross3 x y) = 1.
Proof. intros (Fx & Fy & Fd). rewrite lagrange3, Fx, Fy, Fd. ring. Qed.
Lemma projected x y o q : head3 (mulv4 (mul4 (with_block (transpose3 (of_cols x y (cross3 x y)))) (M4 1 0 0 (vx (opp3 o)) 0 1 0 (vy (opp3 o)) 0 0 1 (vz (opp3 o)) 0 0 0 1)) (V4 (vx q) (vy q) (vz q) 1))
  = V3 (dot3 x (sub3 q o)) (dot3 y (sub3 q o)) (dot3 (cross3 x y) (sub3 q o)).
Proof. unfold with_block, affine4, transpose3, of_cols, head3. destruct x, y, o, q. cbv -[Rplus Rmult Ropp Rminus IZR]. apply V3_eq; ring. Qed.
Lemma nothing v : scale3 0 v = zero3.
Proof. v3ring. Qed.
Lemma sub_split u o a : sub3 u a = add3 (sub3 u o) (sub3 o a).
Proof. v3ring. Qed.
Lemma dot_plus u v w : dot3 u (add3 v w) = dot3 u v + dot3 u w.
Proof. v3ring. Qed.
Lemma dot_minus u v w : dot3 u (sub3 v w) = dot3 u v - dot3 u w.
Proof. v3ring. Qed.
Lemma add_back a p : add3 a (sub3 p a) = p.
Proof. v3ring. Qed.
Lemma along_from a t d o : sub3 (along a t d) o = sub3 (scale3 t d) (sub3 o a).
Proof. unfold along. v3ring. Qed.
Section contains.
  Variables (B : boost) (eps : R) (P : poly2) (o x y a : v3).
  Hypothesis HB : covers_regions B.
  Hypothesis HV : bg_valid B P = true.
  Hypothesis HD : pg2_isDefined P = true.
  Hypothesis He : 0 < eps.
  Hypothesis F : frame x y.
  Notation b := (mkPolygon P (Some o) (Some x) (Some y)).
  Notation n := (cross3 x y).
  Lemma base_data : pg_data b = Ok (P, o, x, y).
  Proof. unfold pg_data. cbn [pg_origin pg_x pg_y pg_polygon]. rewrite HD. reflexivity. Qed.
  Lemma contains_eq p : p <> a ->
    py_contains B eps (mkPyramid b (Some a)) (Some p)
    = (if Reqb (dot3 n (normalized3 (sub3 p a))) 0 then if Reqb (dot3 n (sub3 o a)) 0 then Err ERuntime else Ok false
       else if Rltb (dot3 n (sub3 o a) / dot3 n (normalized3 (sub3 p a))) 0 then Ok false
       else let q := along a (dot3 n (sub3 o a) / dot3 n (normalized3 (sub3 p a))) (normalized3 (sub3 p a)) in
            pg2_contains B P (Some (V2 (dot3 x (sub3 q o)) (dot3 y (sub3 q o))))).
  Proof.
    intros N. unfold py_contains. cbn [needd bind]. unfold py_data. cbn [py_base py_apex]. rewrite base_data. cbn [bind]. rewrite (proj2 (v3_eqb_false p a)) by exact N.
    assert (Np : sub3 p a <> zero3) by (intros Z; apply N, sub3_0, Z).
    assert (ER : Ray (Some a) (Some (sub3 p a)) = Ok (mkRay (Some a) (Some (normalized3 (sub3 p a))))).
    { unfold Ray, unit_direction. destruct (Reqb (sqnorm3 (sub3 p a)) 1) eqn:E1; [apply Reqb_iff in E1; rewrite CuboidProofs2.normalized_unit by exact E1; reflexivity |].
      rewrite (proj2 (Reqb_false (sqnorm3 (sub3 p a)) 0)); [reflexivity |]. apply sqnorm3_pos in Np. lra. }
    rewrite ER. cbn [bind]. unfold pg_getOrigin, pg_getNormalVector, pg_getXAxis, pg_getYAxis, pg_getPolygon2d. rewrite base_data. cbn [bind].
    assert (Un : normalized3 n = n) by (apply CuboidProofs2.normalized_unit, frame_normal, F). rewrite Un.
    unfold r_inter_plane, Plane. cbn [r_data r_origin r_direction pl_data pl_point pl_normal option_map bind]. rewrite Un.
    destruct (Reqb (dot3 n (normalized3 (sub3 p a))) 0).
    - destruct (Reqb (dot3 n (sub3 o a)) 0); reflexivity.
    - destruct (Rltb _ 0); [reflexivity |]. cbn [bind inter_isEmpty inter_point i_type i_objects].
      unfold t3_Translation. cbn [needd bind]. unfold Columns. cbn [needd bind].
      assert (RH : right_handed x y n) by (destruct F as (F1 & F2 & F3); repeat split; assumption).
      rewrite (RotProofs10.right_handed_ok eps x y n), (rotation_ok eps _ He (RotProofs10.right_handed_rotation _ _ _ RH)) by assumption. cbn [bind].
      unfold t3_Rotation_rm. cbn [needd bind]. unfold t3_mul. cbn [t3_isDefined t3_type t3_matrix negb andb type_composition bind isSome]. unfold t3_applyTo_point. cbn [needd bind t3_matrix].
      match goal with |- (if ?c then _ else _) = _ => change c with false end. cbv iota.
      match goal with |- bind ?r _ = _ => match r with if ?c then _ else if ?d then _ else _ => change c with false; change d with false end end. cbn [bind t3_matrix needd].
      rewrite projected. cbn [vx vy]. reflexivity.
  Qed.
  Lemma contains_iff p : dot3 n (sub3 o a) <> 0 ->
    exists r, py_contains B eps (mkPyramid b (Some a)) (Some p) = Ok r /\ (r = true <-> open_pyramid (placed_region P o x y) a p).
  Proof.
    intros H. destruct (v3_eqb p a) eqn:E.
    { apply v3_eqb_iff in E. subst p. exists true. split; [| split; [intros _; left; reflexivity | reflexivity]]. unfold py_contains. cbn [needd bind]. unfold py_data. cbn [py_base py_apex]. rewrite base_data. cbn [bind]. rewrite v3_eqb_refl. reflexivity. }
    apply v3_eqb_false in E. rewrite contains_eq by exact E. cbn zeta.
    assert (Np : sub3 p a <> zero3) by (intros Z; apply E, sub3_0, Z). pose proof (norm3_pos _ (proj1 (sqnorm3_pos _) Np)) as PX.
    destruct (axis_unit (sub3 p a) (proj1 (sqnorm3_pos _) Np)) as (d & -> & Ud & EX). set (l := norm3 (sub3 p a)) in *.
        assert (K : forall q t, placed_region P o x y q -> 0 <= t -> p = along a t (sub3 q a) -> 0 < t /\ dot3 n d = t * dot3 n (sub3 o a) / l /\ q = along a (l / t) d).
    { intros q t (v & _ & ->) Ht Ep. assert (Q : sub3 p a = scale3 t (sub3 (lift o x y v) a)) by (rewrite Ep at 1; apply along_sub).
      assert (Ht' : t <> 0). { intros ->. apply Np. rewrite Q. apply nothing. }
      split; [lra |]. assert (Dn : dot3 n (sub3 (lift o x y v) a) = dot3 n (sub3 o a)).
      { rewrite (sub_split _ o a), dot_plus, (proj2 (proj2 (lift_coordinates x y o v F))). ring. }
      split.
      - assert (Z : l * dot3 n d = t * dot3 n (sub3 o a)) by (rewrite <- dot3_scale_r, <- EX, Q, dot3_scale_r, Dn; reflexivity). rewrite <- Z. field. lra.
      - unfold along. replace (scale3 (l / t) d) with (scale3 (/ t) (sub3 p a)) by (rewrite EX, scale3_scale; f_equal; field; lra). rewrite Q, scale3_scale, Rinv_l, scale3_1 by exact Ht'. symmetry. apply add_back. }
    destruct (Reqb (dot3 n d) 0) eqn:E1.
    - apply Reqb_iff in E1. rewrite (proj2 (Reqb_false _ _) H). exists false. split; [reflexivity |]. split; [discriminate |]. intros [-> | (q & t & S & Ht & Ep)]; [congruence |].
      destruct (K q t S Ht Ep) as (Pt & Dd & _). exfalso. rewrite Dd in E1. apply Rmult_integral in E1. destruct E1 as [E1 | E1]; [apply Rmult_integral in E1; destruct E1; [lra | contradiction] | apply Rinv_neq_0_compat in E1; lra].
    - apply Reqb_false in E1. set (h := dot3 n (sub3 o a)) in *. destruct (Rltb (h / dot3 n d) 0) eqn:E2.
      + apply Rltb_true in E2. exists false. split; [reflexivity |]. split; [discriminate |]. intros [-> | (q & t & S & Ht & Ep)]; [congruence |].
        destruct (K q t S Ht Ep) as (Pt & Dd & _). exfalso. rewrite Dd in E2. replace (h / (t * h / l)) with (l / t) in E2 by (field; repeat split; lra).
        assert (0 < l / t) by (apply Rdiv_lt_0_compat; lra). lra.
      + apply Rltb_false in E2. set (t := h / dot3 n d) in *.
        assert (Pt : 0 < t). { assert (t <> 0); [| lra]. unfold t. intros Z. apply Rmult_integral in Z. destruct Z as [Z | Z]; [contradiction | apply Rinv_neq_0_compat in Z; [contradiction | exact E1]]. }
        assert (Pl : dot3 n (sub3 (along a t d) o) = 0).
        { rewrite along_from, dot_minus, dot3_scale_r. fold h. unfold t. field. exact E1. }
        pose proof (lift_in_plane x y o _ F Pl) as EL. set (v := V2 (dot3 x (sub3 (along a t d) o)) (dot3 y (sub3 (along a t d) o))) in *.
        destruct (c101_contains B P v HB HV HD) as (r & R1 & R2). exists r. split; [exact R1 |]. rewrite R2. split.
        * intros Rv. right. exists (along a t d), (l / t). split; [exists v; split; [exact Rv | exact EL] |]. split; [apply Rlt_le, Rdiv_lt_0_compat; lra |].
          rewrite along_sub. unfold along. rewrite scale3_scale. replace (l / t * t) with l by (field; lra). rewrite <- EX. symmetry. apply add_back.
        * intros [-> | (q & s & S & Hs & Ep)]; [congruence |]. destruct (K q s S Hs Ep) as (Ps & Dd & Eq). assert (Et : t = l / s) by (unfold t; rewrite Dd; field; repeat split; lra).
          rewrite <- Et in Eq. destruct S as (v' & Rv' & Eq'). rewrite Eq in Eq'. rewrite EL in Eq'. assert (v = v'); [| subst v'; exact Rv'].
          destruct (lift_coordinates x y o v F) as (A1 & A2 & _), (lift_coordinates x y o v' F) as (B1 & B2 & _). rewrite Eq' in A1, A2. destruct v as [v1 v2], v' as [w1 w2]. cbn [x2 y2] in *. f_equal; congruence.
  Qed.
End contains.
Lemma c106_contains B eps P o x y a p : covers_regions B -> bg_valid B P = true -> pg2_isDefined P = true -> 0 < eps -> frame x y -> dot3 (cross3 x y) (sub3 o a) <> 0 ->
  exists r, py_contains B eps (mkPyramid (mkPolygon P (Some o) (Some x) (Some y)) (Some a)) (Some p) = Ok r /\ (r = true <-> open_pyramid (placed_region P o x y) a p).
Proof. intros. apply contains_iff; assumption. Qed.
Lemma c106_solid B eps P o x y a p : covers_regions B -> bg_valid B P = true -> pg2_isDefined P = true -> 0 < eps -> frame x y -> dot3 (cross3 x y) (sub3 o a) <> 0 ->
  solid_pyramid (placed_region P o x y) a p -> py_contains B eps (mkPyramid (mkPolygon P (Some o) (Some x) (Some y)) (Some a)) (Some p) = Ok true.
Proof.
  intros HB HV HD He F H (q & t & S & Ht & ->). destruct (c106_contains B eps P o x y a (along a t (sub3 q a)) HB HV HD He F H) as (r & E & I). rewrite E. f_equal. apply I. right. exists q, t. repeat split; [exact S | lra].
Qed.
Lemma c106_set B eps P o x y a s : covers_regions B -> bg_valid B P = true -> pg2_isDefined P = true -> 0 < eps -> frame x y -> dot3 (cross3 x y) (sub3 o a) <> 0 ->
  exists r, py_contains_ps B eps (mkPyramid (mkPolygon P (Some o) (Some x) (Some y)) (Some a)) s = Ok r /\ (r = true <-> forall p, In p s -> open_pyramid (placed_region P o x y) a p).
Proof.
  intros HB HV HD He F H. unfold py_contains_ps, py_data. cbn [py_base py_apex]. rewrite base_data by exact HD. cbn [bind].
  apply (allM_ok _ (open_pyramid (placed_region P o x y) a)). intros p _. apply c106_contains; assumption.
Qed.
(** Only the ends of a segment are looked at. *)
Lemma c106_segment B eps P o x y a p q : covers_regions B -> bg_valid B P = true -> pg2_isDefined P = true -> 0 < eps -> frame x y -> dot3 (cross3 x y) (sub3 o a) <> 0 ->
  exists r, py_contains_segment B eps (mkPyramid (mkPolygon P (Some o) (Some x) (Some y)) (Some a)) (mkSeg (Some p) (Some q)) = Ok r
    /\ (r = true <-> open_pyramid (placed_region P o x y) a p /\ open_pyramid (placed_region P o x y) a q).
Proof.
  intros HB HV HD He F H. destruct (c106_contains B eps P o x y a p HB HV HD He F H) as (r & E & I), (c106_contains B eps P o x y a q HB HV HD He F H) as (r' & E' & I').
  unfold py_contains_segment. cbn [s_data s_first s_second bind]. rewrite E. cbn [bind]. destruct r.
  - exists r'. split; [exact E' |]. rewrite I'. split; [intros K; split; [apply I; reflexivity | exact K] | intros [_ K]; exact K].
  - exists false. split; [reflexivity |]. split; [discriminate |]. intros [K _]. apply I in K. discriminate.
Qed.
(** An apex in the plane of its base. *)
Lemma c106_flat B eps P o x y a p : pg2_isDefined P = true -> 0 < eps -> frame x y -> p <> a -> dot3 (cross3 x y) (sub3 o a) = 0 -> dot3 (cross3 x y) (sub3 p a) = 0 ->
  py_contains B eps (mkPyramid (mkPolygon P (Some o) (Some x) (Some y)) (Some a)) (Some p) = Err ERuntime.
Proof.
  intros HD He F N H K. rewrite (contains_eq B eps P o x y a) by assumption. assert (Np : sub3 p a <> zero3) by (intros Z; apply N, sub3_0, Z).
  destruct (Geo3Proofs.normalized3_unit _ Np) as [_ E]. rewrite E, dot3_scale_r, K, H. rewrite (proj2 (Reqb_iff (/ norm3 (sub3 p a) * 0) 0)) by ring. rewrite (proj2 (Reqb_iff 0 0)) by reflexivity. reflexivity.
Qed.

(** Two ways in which the pyramid contains more than its points. *)
Definition flat_square : polygon := mkPolygon (unit_square 0 0) (Some (V3 0 0 0)) (Some (V3 1 0 0)) (Some (V3 0 1 0)).
Lemma flat_frame : frame (V3 1 0 0) (V3 0 1 0).
Proof. repeat split; v3unfold; ring. Qed.
Lemma c106_beyond_refuted B eps : covers_regions B -> bg_valid B (unit_square 0 0) = true -> 0 < eps ->
  exists p, py_contains B eps (mkPyramid flat_square (Some (V3 0 0 1))) (Some p) = Ok true /\ ~ solid_pyramid (placed_region (unit_square 0 0) (V3 0 0 0) (V3 1 0 0) (V3 0 1 0)) (V3 0 0 1) p.
Proof.
  intros HB HV He. exists (V3 1 1 (-1)). split.
  - destruct (c106_contains B eps (unit_square 0 0) (V3 0 0 0) (V3 1 0 0) (V3 0 1 0) (V3 0 0 1) (V3 1 1 (-1)) HB HV eq_refl He flat_frame) as (r & E & I); [v3unfold; cbn; lra |].
    unfold flat_square. rewrite E. f_equal. apply I. right. exists (V3 (1 / 2) (1 / 2) 0), 2. split; [| split; [lra | unfold along; v3unfold; cbn; apply V3_eq; field]].
    exists (V2 (0 + 1 / 2) (0 + 1 / 2)). split; [apply square_centre |]. unfold lift. v3unfold. cbn. apply V3_eq; field.
  - intros (q & t & (v & _ & ->) & Ht & E). apply (f_equal vz) in E. unfold along, lift in E. v3unfold. cbn in E. lra.
Qed.
Lemma arg2_negative u w : w < 0 -> arg2 u w < 0.
Proof.
  intros H. assert (L : Rabs u < sqrt (u * u + w * w)). { rewrite <- (sqrt_Rsqr_abs u). apply sqrt_lt_1_alt. unfold Rsqr. nra. }
  assert (G : 0 < u + sqrt (u * u + w * w)) by (unfold Rabs in L; destruct Rcase_abs; lra).
  assert (N : 2 * atan (w / (u + sqrt (u * u + w * w))) < 0).
  { assert (atan (w / (u + sqrt (u * u + w * w))) < atan 0); [| rewrite atan_0 in *; lra]. apply atan_increasing. apply Rmult_lt_reg_r with (u + sqrt (u * u + w * w)); [exact G |]. unfold Rdiv. rewrite Rmult_assoc, Rinv_l by lra. lra. }
  unfold arg2. destruct (Rlt_dec u 0); [destruct (Req_EM_T w 0); [lra |] |]; exact N.
Qed.
Lemma arg2_opposite u w : u * u + w * w <> 0 -> 0 < w -> 0 < arg2 u w.
Proof.
  intros _ H. assert (L : Rabs u < sqrt (u * u + w * w)). { rewrite <- (sqrt_Rsqr_abs u). apply sqrt_lt_1_alt. unfold Rsqr. nra. }
  assert (G : 0 < u + sqrt (u * u + w * w)) by (unfold Rabs in L; destruct Rcase_abs; lra).
  assert (N : 0 < 2 * atan (w / (u + sqrt (u * u + w * w)))).
  { assert (atan 0 < atan (w / (u + sqrt (u * u + w * w)))); [| rewrite atan_0 in *; lra]. apply atan_increasing. apply Rdiv_lt_0_compat; assumption. }
  unfold arg2. destruct (Rlt_dec u 0); [destruct (Req_EM_T w 0); [lra |] |]; exact N.
Qed.
Lemma hole_outer s : 0 < s < 3 -> encloses (p_outer hole) (V2 s (3 / 2)).
Proof.
  intros S. unfold encloses, hole. cbn [p_outer closed app consecutive map sum fold_right]. unfold subtended. cbn [fst snd].
  assert (K : forall a b, cross2 (sub2 a (V2 s (3 / 2))) (sub2 b (V2 s (3 / 2))) < 0 -> arg2 (dot2 (sub2 a (V2 s (3 / 2))) (sub2 b (V2 s (3 / 2)))) (cross2 (sub2 a (V2 s (3 / 2))) (sub2 b (V2 s (3 / 2)))) < 0) by (intros; apply arg2_negative; assumption).
  pose proof (K (V2 0 0) (V2 0 3) ltac:(unfold cross2; v2unfold; cbn [x2 y2]; lra)). pose proof (K (V2 0 3) (V2 3 3) ltac:(unfold cross2; v2unfold; cbn [x2 y2]; lra)).
  pose proof (K (V2 3 3) (V2 3 0) ltac:(unfold cross2; v2unfold; cbn [x2 y2]; lra)). pose proof (K (V2 3 0) (V2 0 0) ltac:(unfold cross2; v2unfold; cbn [x2 y2]; lra)). unfold sum. cbn [fold_right]. lra.
Qed.
Lemma hole_edge s : s = 1 \/ s = 2 -> region hole (V2 s (3 / 2)).
Proof.
  intros S. split; [right; apply hole_outer; lra |]. intros r [<- | []]. left. apply on_string_nth; [cbn; lia |]. destruct S as [-> | ->].
  - exists 3%nat, (V2 1 2), (V2 1 1). split; [reflexivity |]. split; [reflexivity |]. exists (1 / 2). split; [lra |]. unfold along2. v2unfold. cbn. apply V2_eq; field.
  - exists 1%nat, (V2 2 1), (V2 2 2). split; [reflexivity |]. split; [reflexivity |]. exists (1 / 2). split; [lra |]. unfold along2. v2unfold. cbn. apply V2_eq; field.
Qed.
Lemma hole_middle : ~ region hole (V2 (3 / 2) (3 / 2)).
Proof.
  intros [_ H]. destruct (H _ (or_introl eq_refl)) as [S | E].
  - apply on_string_nth in S; [| cbn; lia]. destruct S as (i & a & b & A & Bn & t & Ht & Et). destruct i as [| [| [| [| i]]]]; cbn in A, Bn; try (injection A as <-; injection Bn as <-; unfold along2 in Et; v2unfold; cbn in Et; pose proof (f_equal x2 Et) as E1; pose proof (f_equal y2 Et) as E2; cbn in E1, E2; lra).
    destruct i as [| i]; cbn in Bn; [discriminate |]. destruct i; discriminate.
  - apply E. unfold encloses. cbn [closed app consecutive map sum fold_right]. unfold subtended. cbn [fst snd].
    assert (K : forall a b, 0 < cross2 (sub2 a (V2 (3 / 2) (3 / 2))) (sub2 b (V2 (3 / 2) (3 / 2))) -> 0 < arg2 (dot2 (sub2 a (V2 (3 / 2) (3 / 2))) (sub2 b (V2 (3 / 2) (3 / 2)))) (cross2 (sub2 a (V2 (3 / 2) (3 / 2))) (sub2 b (V2 (3 / 2) (3 / 2))))).
    { intros a b P. apply arg2_opposite; [nra | exact P]. }
    pose proof (K (V2 1 1) (V2 2 1) ltac:(unfold cross2; v2unfold; cbn [x2 y2]; lra)). pose proof (K (V2 2 1) (V2 2 2) ltac:(unfold cross2; v2unfold; cbn [x2 y2]; lra)).
    pose proof (K (V2 2 2) (V2 1 2) ltac:(unfold cross2; v2unfold; cbn [x2 y2]; lra)). pose proof (K (V2 1 2) (V2 1 1) ltac:(unfold cross2; v2unfold; cbn [x2 y2]; lra)). unfold sum. cbn [fold_right]. lra.
Qed.
Lemma c106_segment_refuted B eps : covers_regions B -> bg_valid B hole = true -> 0 < eps ->
  let S := placed_region hole (V3 0 0 0) (V3 1 0 0) (V3 0 1 0) in
  exists p q m, py_contains_segment B eps (mkPyramid (mkPolygon hole (Some (V3 0 0 0)) (Some (V3 1 0 0)) (Some (V3 0 1 0))) (Some (V3 0 0 1))) (mkSeg (Some p) (Some q)) = Ok true
    /\ on_segment p q m /\ ~ open_pyramid S (V3 0 0 1) m.
Proof.
  intros HB HV He S. exists (V3 1 (3 / 2) 0), (V3 2 (3 / 2) 0), (V3 (3 / 2) (3 / 2) 0).
  assert (Hd : dot3 (cross3 (V3 1 0 0) (V3 0 1 0)) (sub3 (V3 0 0 0) (V3 0 0 1)) <> 0) by (v3unfold; cbn; lra). split; [| split].
  - destruct (c106_segment B eps hole (V3 0 0 0) (V3 1 0 0) (V3 0 1 0) (V3 0 0 1) (V3 1 (3 / 2) 0) (V3 2 (3 / 2) 0) HB HV eq_refl He flat_frame Hd) as (r & E & I). rewrite E. f_equal. apply I.
    split; right.
    + exists (V3 1 (3 / 2) 0), 1. split; [exists (V2 1 (3 / 2)); split; [apply hole_edge; left; reflexivity | unfold lift; v3unfold; cbn; apply V3_eq; field] | split; [lra |]]. unfold along. v3unfold. cbn. apply V3_eq; field.
    + exists (V3 2 (3 / 2) 0), 1. split; [exists (V2 2 (3 / 2)); split; [apply hole_edge; right; reflexivity | unfold lift; v3unfold; cbn; apply V3_eq; field] | split; [lra |]]. unfold along. v3unfold. cbn. apply V3_eq; field.
  - exists (1 / 2). split; [lra |]. unfold along. v3unfold. cbn. apply V3_eq; field.
  - intros [K | (q & t & (v & Rv & ->) & Ht & E)].
    + apply (f_equal vx) in K. cbn in K. lra.
    + unfold along, lift in E. v3unfold. cbn in E. destruct v as [v1 w1]. pose proof (f_equal vx E) as E1. pose proof (f_equal vy E) as E2. pose proof (f_equal vz E) as E3. cbn in E1, E2, E3. assert (t = 1) by lra. subst t.
      apply hole_middle. replace (V2 (3 / 2) (3 / 2)) with (V2 v1 w1); [exact Rv | apply V2_eq; lra].
Qed.
Lemma c106_errors B eps p x s e : py_contains B eps p None = Err EUndefined /\ (py_data p = Err EUndefined ->
  py_contains B eps p (Some x) = Err EUndefined /\ py_contains_ps B eps p s = Err EUndefined /\ (forall b c, py_contains_segment B eps p (mkSeg (Some b) (Some c)) = Err EUndefined))
  /\ py_contains_segment B eps p (mkSeg None None) = Err EUndefined
  /\ (forall d b, e_data e = Ok d -> py_data p = Ok b -> py_contains_ellipsoid p e = Err EToBeImplemented).
Proof.
  split; [reflexivity |]. split; [| split; [reflexivity |]].
  - intros D. unfold py_contains_segment, py_contains_ps, py_contains. cbn [needd bind s_data s_first s_second]. rewrite D. repeat split.
  - intros d b Hd Hb. unfold py_contains_ellipsoid. rewrite Hd, Hb. reflexivity.
Qed.
