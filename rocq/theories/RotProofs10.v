(** Comparison of rotations, access to coefficients (C73 to C78). *)

From Coq Require Import List Bool Reals Lra Lia Psatz ZArith.
From Verif Require Import Result DOrder Vec VecProofs Mat3 AngleModel AngleSpec AngleProofs AngleProofs2 RotModel RotSpec
  RotProofs RotProofs2 RotProofs3 RotProofs4 RotProofs5 RotProofs6.
Local Open Scope R_scope.

(** *** C73 *)
Lemma c73_access m i j : (i < 3)%nat -> (j < 3)%nat ->
  exists r c x, getRowAt (Some m) i = Ok r /\ getColumnAt (Some m) j = Ok c /\ rm_at (Some m) i j = Ok x
    /\ x = dot3 r (axis_vector (S j)) /\ x = dot3 (axis_vector (S i)) c.
Proof.
  intros Hi Hj. unfold getRowAt, getColumnAt, rm_at.
  destruct i as [| [| [| i]]]; try lia; destruct j as [| [| [| j]]]; try lia; cbn;
    do 3 eexists; (do 3 (split; [reflexivity |])); split; unfold dot3; cbn; ring.
Qed.
Lemma c73_errors m i j : (3 <= i)%nat ->
  getRowAt m i = Err ERuntime /\ getColumnAt m i = Err ERuntime
  /\ ((3 < i)%nat -> rm_at m i j = Err ERuntime /\ ((j <= 3)%nat -> rm_at m j i = Err ERuntime)).
Proof.
  intros Hi. unfold getRowAt, getColumnAt, rm_at. rewrite (proj2 (Nat.leb_le 3 i) Hi). split; [reflexivity |].
  split; [reflexivity |]. intros H3. rewrite (proj2 (Nat.ltb_lt 3 i) H3). split; [reflexivity |].
  intros Hj. rewrite (proj2 (Nat.ltb_ge 3 j) Hj). reflexivity.
Qed.
Lemma c73_refuted : exists m, is_rotation m /\ forall j, (j <= 3)%nat -> rm_at (Some m) 3 j = UB /\ rm_at (Some m) j 3 = UB.
Proof.
  exists id3. split; [apply rotation_id |]. intros j Hj. destruct j as [| [| [| [| j]]]]; try lia; split; reflexivity.
Qed.

(** *** C74 *)
Lemma c74_refuted eps : 0 < eps -> eps < 1 -> exists q, isUnitary (Some q) (Some eps) = Ok true
  /\ rv_of_quaternion eps (Some q) = UB.
Proof.
  intros He H1. exists (Q4 0 0 0 (1 + eps)).
  assert (N : qnorm (Q4 0 0 0 (1 + eps)) = 1 + eps).
  { unfold qnorm; cbn. match goal with |- sqrt ?x = _ => replace x with ((1 + eps) * (1 + eps)) by ring end.
    apply sqrt_square. lra. }
  assert (I : isUnitary (Some (Q4 0 0 0 (1 + eps))) (Some eps) = Ok true).
  { rewrite isUnitary_tol by assumption. rewrite N. f_equal. apply Rleb_t.
    replace (1 + eps - 1) with eps by ring. rewrite Rabs_pos_eq; lra. }
  split; [exact I |]. unfold rv_of_quaternion. rewrite I. cbn [needd bind negb].
  destruct (q_eq (Some (Q4 0 0 0 (1 + eps))) (Some q_Unit)) eqn:E.
  { apply q_eq_iff in E. destruct E as [E | E]; apply (f_equal qs) in E; cbn in E; lra. }
  cbn [orb qs]. unfold Reqb. destruct Req_EM_T as [X | _]; [rewrite Rabs_pos_eq in X; lra |].
  unfold sqrt_. destruct Rlt_dec; [reflexivity | nra].
Qed.
(** Exactly unit quaternions convert. *)
Lemma c74_partial eps q : 0 < eps -> unit_q q -> exists r, rv_of_quaternion eps (Some q) = Ok r.
Proof. intros He H. destruct (c34_from_quaternion eps q He H) as (r & f & E & _). exists r. exact E. Qed.

(** *** C75 *)
Lemma in_range_now fuel a t : turns a = Some (t / (2 * PI)) -> 0 <= t < 2 * PI ->
  in_range fuel (2 * PI) Radian a (Some 0) (Some (2 * PI)) = Ok t.
Proof.
  intros H B. unfold in_range. cbn [need bind]. destruct Req_EM_T; [| lra]. rewrite (in_radian _ _ H). cbn [bind].
  unfold ReduceRange. rewrite Rltb_f, Rltb_t by lra. reflexivity.
Qed.
Lemma c75_near eps fuel p q tol d t : 0 < eps -> eps <= 1 -> unit_q p -> unit_q q ->
  angularDifferenceWith eps (Some p) (Some q) = Ok (Radians d) ->
  turns tol = Some (t / (2 * PI)) -> 0 <= t < 2 * PI ->
  exists b, q_isNear eps fuel (Some p) (Some q) tol = Ok b /\ (b = true <-> d <= t).
Proof.
  intros He H1 Hp Hq Hd Ht B. exists (Rleb d t). split; [| apply Rleb_iff].
  unfold q_isNear. rewrite (turns_defined _ _ Ht), Hd. cbn [negb bind]. unfold inRadians.
  assert (D : d = angdiff p q).
  { rewrite angdiff_eq in Hd by assumption. injection Hd as <-. reflexivity. }
  pose proof (angdiff_range p q Hp Hq). pose proof PI_RGT_0.
  rewrite (in_range_now fuel _ d) by (try (apply turns_Radians); lra). cbn [bind].
  rewrite (in_range_now fuel _ t) by (try assumption; lra). reflexivity.
Qed.
Lemma c75_errors eps fuel p q tol : 0 < eps -> turns tol = None \/ p = None \/ q = None /\ (forall p', p = Some p' -> Rabs (qnorm p' - 1) <= eps) ->
  q_isNear eps fuel p q tol = Err EUndefined.
Proof.
  intros He H. unfold q_isNear. destruct (angle_isDefined tol) eqn:E; [| reflexivity]. cbn [negb].
  destruct H as [H | H]; [apply turns_None in H; congruence |]. unfold angularDifferenceWith.
  destruct p as [p |]; [| reflexivity]. destruct H as [H | [-> H]]; [discriminate |].
  rewrite isUnitary_tol by assumption. rewrite (Rleb_t _ _ (H p eq_refl)). reflexivity.
Qed.
(** A whole-turn tolerance accepts nothing but equal rotations; a negative one accepts everything. *)
Lemma c75_refuted eps : 0 < eps -> eps <= 1 -> exists p q, unit_q p /\ unit_q q
  /\ angularDifferenceWith eps (Some p) (Some q) = Ok (Radians PI)
  /\ returns (fun fuel => q_isNear eps fuel (Some p) (Some q) (Radians (2 * PI))) false
  /\ returns (fun fuel => q_isNear eps fuel (Some p) (Some q) (Radians (- (PI / 2)))) true.
Proof.
  intros He H1. pose proof PI_RGT_0. exists (Q4 0 0 0 1), (Q4 1 0 0 0).
  assert (U1 : unit_q (Q4 0 0 0 1)) by (unfold unit_q, sq; cbn; ring).
  assert (U2 : unit_q (Q4 1 0 0 0)) by (unfold unit_q, sq; cbn; ring).
  split; [exact U1 |]. split; [exact U2 |].
  assert (D : angularDifferenceWith eps (Some (Q4 0 0 0 1)) (Some (Q4 1 0 0 0)) = Ok (Radians PI)).
  { rewrite angdiff_eq by assumption. do 2 f_equal. unfold dot4; cbn.
    replace (0 * 1 + 0 * 0 + 0 * 0 + 1 * 0) with 0 by ring. rewrite Rabs_R0, acos_0. field. }
  split; [exact D |].
  assert (IR : forall x, exists r, returns (fun fuel => inRadians fuel (Radians x) (Some 0) (Some (2 * PI))) r
    /\ 0 <= r < 2 * PI /\ same_mod_turn (r / (2 * PI)) (x / (2 * PI))).
  { intros x. destruct (proj1 c16_reduces (Radians x) _ 0 (turns_Radians x)) as (r & Hr & B & M). rewrite Rplus_0_l in *.
    exists r. split; [exact Hr |]. split; assumption. }
  assert (Q : forall x r b, returns (fun fuel => inRadians fuel (Radians x) (Some 0) (Some (2 * PI))) r -> Rleb PI r = b ->
    returns (fun fuel => q_isNear eps fuel (Some (Q4 0 0 0 1)) (Some (Q4 1 0 0 0)) (Radians x)) b).
  { intros x r b [N Hr] Hb. exists N. intros fuel Hf. unfold q_isNear. rewrite D. cbn [angle_isDefined Radians aval aunit unit_eqb negb bind].
    rewrite (Hr fuel Hf). unfold inRadians.
    rewrite (in_range_now fuel _ PI) by (try apply turns_Radians; lra). cbn [bind]. rewrite Hb. reflexivity. }
  split.
  - destruct (IR (2 * PI)) as (r & Hr & B & [k M]). apply (Q _ r); [exact Hr |]. apply Rleb_f.
    assert (r = 2 * PI * (1 + IZR k)) as E by (transitivity (r / (2 * PI) * (2 * PI)); [field; lra | rewrite M; field; lra]).
    assert (k = (-1)%Z) as ->.
    { assert (-1 < IZR (k + 1) < 1). { rewrite plus_IZR. split; apply (Rmult_lt_reg_l (2 * PI)); lra. }
      apply IZR_lt_1 in H0. lia. }
    rewrite E. lra.
  - destruct (IR (- (PI / 2))) as (r & Hr & B & [k M]). apply (Q _ r); [exact Hr |]. apply Rleb_t.
    assert (r = 2 * PI * (- (1 / 4) + IZR k)) as E by (transitivity (r / (2 * PI) * (2 * PI)); [field; lra | rewrite M; field; lra]).
    assert (k = 1%Z) as ->.
    { assert (-1 < IZR (k - 1) < 1). { rewrite minus_IZR. split; apply (Rmult_lt_reg_l (2 * PI)); lra. }
      apply IZR_lt_1 in H0. lia. }
    rewrite E. lra.
Qed.

(** *** C76 *)
Lemma isZero_turns a s : turns a = Some s -> exists b, angle_isZero a = Ok b /\ (b = true <-> s = 0).
Proof.
  intros H. unfold angle_isZero. rewrite (turns_defined _ _ H). apply turns_Some in H. destruct H as [v [-> [Hu E]]].
  cbn [need bind]. eexists. split; [reflexivity |]. pose proof (per_turn_pos _ Hu) as P.
  destruct Req_EM_T as [Z | Z]; (split; intros K; try congruence; try reflexivity).
  - nra.
  - exfalso. apply Z. rewrite E, K. ring.
Qed.
Lemma v3_eqb_iff a b : v3_eqb a b = true <-> a = b.
Proof. unfold v3_eqb. destruct v3_eq_dec; split; congruence. Qed.

Lemma rv_eq_spec r s a b x y : rv_axis r = Some a -> rv_axis s = Some b -> turns (rv_angle r) = Some x -> turns (rv_angle s) = Some y ->
  exists e, returns (fun fuel => rv_eq fuel r s) e
    /\ (e = true <-> (x = 0 /\ y = 0) \/ (a = b /\ same_mod_turn x y) \/ (a = opp3 b /\ same_mod_turn x (- y))).
Proof.
  intros Ha Hb Hx Hy.
  destruct (isZero_turns _ _ Hx) as (zx & Zx & Ex). destruct (isZero_turns _ _ Hy) as (zy & Zy & Ey).
  destruct (angle_eq_spec _ _ _ _ Hx Hy) as (e1 & [N1 R1] & E1).
  destruct (turns_opp _ _ Hy) as (o & Ho & Hto). destruct (angle_eq_spec _ _ _ _ Hx Hto) as (e2 & [N2 R2] & E2).
  exists (zx && zy || (v3_eqb a b && e1) || (v3_eqb a (opp3 b) && e2)). split.
  - exists (max N1 N2). intros fuel Hf. unfold rv_eq, rv_isDefined.
    rewrite Ha, Hb, (turns_defined _ _ Hx), (turns_defined _ _ Hy), Zx, Zy, Ho. cbn [negb orb needd bind].
    rewrite R1, R2 by lia. destruct (zx && zy); [reflexivity |]. cbn [orb].
    destruct (v3_eqb a b); cbn [andb bind]; [destruct e1; [reflexivity |] |]; cbn [orb bind];
      destruct (v3_eqb a (opp3 b)); reflexivity.
  - rewrite !orb_true_iff, !andb_true_iff, !v3_eqb_iff, Ex, Ey, E1, E2. tauto.
Qed.

Lemma sin_cos_period t k : sin (t + 2 * IZR k * PI) = sin t /\ cos (t + 2 * IZR k * PI) = cos t.
Proof.
  assert (N : forall n, sin (t + 2 * IZR (Z.of_nat n) * PI) = sin t /\ cos (t + 2 * IZR (Z.of_nat n) * PI) = cos t)
    by (intros n; rewrite <- INR_IZR_INZ; split; [apply sin_period | apply cos_period]).
  destruct (Z_le_dec 0 k).
  - rewrite <- (Z2Nat.id k) by assumption. apply N.
  - clear N. set (u := t + 2 * IZR k * PI). assert (E : t = u + 2 * INR (Z.to_nat (- k)) * PI).
    { rewrite INR_IZR_INZ, Z2Nat.id, opp_IZR by lia. unfold u. ring. }
    rewrite E. rewrite sin_period, cos_period. split; reflexivity.
Qed.
Lemma frame_rotation_mod a x y v : same_mod_turn x y -> frame_rotation a (x * (2 * PI)) v = frame_rotation a (y * (2 * PI)) v.
Proof.
  intros [k ->]. replace ((y + IZR k) * (2 * PI)) with (y * (2 * PI) + 2 * IZR k * PI) by ring.
  unfold frame_rotation. destruct (sin_cos_period (y * (2 * PI)) k) as [-> ->]. reflexivity.
Qed.
Lemma frame_rotation_0 a v : frame_rotation a 0 v = v.
Proof. unfold frame_rotation. rewrite cos_0, sin_0. v3ring. Qed.

Lemma rv_rotates_turns r f : rv_rotates r f -> exists a x, rv_axis r = Some a /\ turns (rv_angle r) = Some x /\ sqnorm3 a = 1
  /\ forall v, f v = frame_rotation a (x * (2 * PI)) v.
Proof.
  intros (a & t & Ha & Ht & U & F). exists a, (t / (2 * PI)). repeat split; try assumption.
  intros v. rewrite F. f_equal. field. pose proof PI_RGT_0; lra.
Qed.
Lemma c76_sound r s f g : rv_rotates r f -> rv_rotates s g -> returns (fun fuel => rv_eq fuel r s) true -> forall v, f v = g v.
Proof.
  intros Hr Hs E v. destruct (rv_rotates_turns _ _ Hr) as (a & x & Ha & Hx & Ua & Ff).
  destruct (rv_rotates_turns _ _ Hs) as (b & y & Hb & Hy & Ub & Fg).
  destruct (rv_eq_spec r s a b x y Ha Hb Hx Hy) as (e & Re & Ee). pose proof (returns_unique _ _ _ E Re) as <-.
  rewrite Ff, Fg. destruct (proj1 Ee eq_refl) as [[-> ->] | [[-> M] | [-> M]]].
  - rewrite Rmult_0_l, !frame_rotation_0. reflexivity.
  - apply frame_rotation_mod. exact M.
  - rewrite (frame_rotation_mod _ _ _ v M). replace (- y * (2 * PI)) with (- (y * (2 * PI))) by ring. apply frame_rotation_opp.
Qed.

Lemma rot_ext_matrix p q : (forall v, rot p v = rot q v) -> q_matrix p = q_matrix q.
Proof. intros H. apply mulv3_ext. intros v. rewrite !rot_matrix. apply H. Qed.
Lemma sin_0_turn x : sin (x * PI) = 0 -> exists k, x = IZR k.
Proof.
  intros H. destruct (sin_eq_0_0 _ H) as [k K]. exists k. apply (Rmult_eq_reg_r PI); [exact K | apply PI_neq0].
Qed.
Lemma scale3_cancel k l a b : sqnorm3 a = 1 -> sqnorm3 b = 1 -> k <> 0 -> scale3 k a = scale3 l b -> a = b \/ a = opp3 b.
Proof.
  intros Ha Hb Hk E. pose proof (f_equal sqnorm3 E) as N. rewrite !sqnorm3_scale, Ha, Hb in N.
  assert (A : a = scale3 (/ k * l) b).
  { rewrite <- scale3_scale, <- E, scale3_scale, Rinv_l by assumption. symmetry. apply scale3_1. }
  assert ((l - k) * (l + k) = 0) as M by nra. apply Rmult_integral in M. destruct M as [M | M].
  - left. rewrite A. assert (l = k) as -> by lra. rewrite Rinv_l by assumption. apply scale3_1.
  - right. rewrite A, opp3_scale. assert (l = - k) as -> by lra. f_equal. field. exact Hk.
Qed.
(** Two rotations about unit axes are equal only if the axes and angles match, up to sign. *)
Lemma frame_rotation_inj a b x y : sqnorm3 a = 1 -> sqnorm3 b = 1 ->
  (forall v, frame_rotation a (x * (2 * PI)) v = frame_rotation b (y * (2 * PI)) v) ->
  (exists v, frame_rotation a (x * (2 * PI)) v <> v) ->
  (a = b /\ same_mod_turn x y) \/ (a = opp3 b /\ same_mod_turn x (- y)).
Proof.
  intros Ha Hb H [w Hw]. pose proof PI_RGT_0 as P.
  assert (Q : q_matrix (half_q a (x * (2 * PI))) = q_matrix (half_q b (y * (2 * PI)))).
  { apply rot_ext_matrix. intros v. rewrite !half_q_rot by assumption. apply H. }
  apply q_matrix_inj in Q; try (apply half_q_unit; assumption).
  assert (Hx : x * (2 * PI) / 2 = x * PI) by field. assert (Hy : y * (2 * PI) / 2 = y * PI) by field.
  unfold half_q in Q. rewrite Hx, Hy in Q.
  assert (S : sin (x * PI) <> 0).
  { intros Z. apply Hw. destruct (sin_0_turn _ Z) as [k ->].
    rewrite (frame_rotation_mod a (IZR k) 0); [rewrite Rmult_0_l; apply frame_rotation_0 |]. exists k. ring. }
  assert (V : exists l, scale3 (sin (x * PI)) a = scale3 l b /\ (sin (x * PI) = 0 \/ True)
     /\ exists sg, (sg = 1 \/ sg = -1) /\ l = sg * sin (y * PI) /\ cos (x * PI) = sg * cos (y * PI)).
  { destruct Q as [Q | Q].
    - exists (1 * sin (y * PI)). split; [| split; [right; exact I | exists 1; split; [left; reflexivity | split; [reflexivity |]]]].
      + apply (f_equal vec) in Q. replace (1 * sin (y * PI)) with (sin (y * PI)) by ring. destruct a, b. exact Q.
      + apply (f_equal qs) in Q. cbn in Q. lra.
    - exists (-1 * sin (y * PI)). split; [| split; [right; exact I | exists (-1); split; [right; reflexivity | split; [reflexivity |]]]].
      + apply (f_equal vec) in Q. generalize (sin (x * PI)) (sin (y * PI)) Q. clear. intros.
        destruct a, b. unfold negq, vec, of_parts in Q. v3unfold. cbn in Q. injection Q as Q1 Q2 Q3. apply V3_eq; lra.
      + apply (f_equal qs) in Q. cbn in Q. lra. }
  destruct V as (l & E & _ & sg & Hsg & -> & C).
  assert (W : forall t, sin (x * PI) * cos (t * PI) - cos (x * PI) * sin (t * PI) = 0 -> same_mod_turn x t).
  { intros t Z. rewrite <- sin_minus in Z. replace (x * PI - t * PI) with ((x - t) * PI) in Z by ring.
    destruct (sin_0_turn _ Z) as [k K]. exists k. lra. }
  destruct (scale3_cancel _ _ a b Ha Hb S E) as [-> | ->].
  - left. split; [reflexivity |]. apply W.
    assert (sin (x * PI) = sg * sin (y * PI)) as ->.
    { apply (f_equal (dot3 b)) in E. rewrite !dot3_scale_r in E. change (dot3 b b) with (sqnorm3 b) in E. rewrite Hb in E. lra. }
    rewrite C. ring.
  - right. split; [reflexivity |]. apply W. replace (- y * PI) with (- (y * PI)) by ring. rewrite cos_neg, sin_neg.
    assert (sin (x * PI) = - (sg * sin (y * PI))) as ->.
    { apply (f_equal (dot3 b)) in E. rewrite opp3_scale, !dot3_scale_r in E. change (dot3 b b) with (sqnorm3 b) in E. rewrite Hb in E. lra. }
    rewrite C. ring.
Qed.
Lemma c76_complete_partial r s f g : rv_rotates r f -> rv_rotates s g -> (forall v, f v = g v) -> (exists v, f v <> v) ->
  returns (fun fuel => rv_eq fuel r s) true.
Proof.
  intros Hr Hs E [w Hw]. destruct (rv_rotates_turns _ _ Hr) as (a & x & Ha & Hx & Ua & Ff).
  destruct (rv_rotates_turns _ _ Hs) as (b & y & Hb & Hy & Ub & Fg).
  destruct (rv_eq_spec r s a b x y Ha Hb Hx Hy) as (e & Re & Ee).
  assert (e = true) as ->; [| exact Re]. apply Ee. right. apply frame_rotation_inj; try assumption.
  - intros v. rewrite <- Ff, <- Fg. apply E.
  - exists w. rewrite <- Ff. exact Hw.
Qed.
Lemma c76_refuted : exists r s, rv_rotates r (fun v => v) /\ rv_rotates s (fun v => v)
  /\ returns (fun fuel => rv_eq fuel r s) false.
Proof.
  pose proof PI_RGT_0.
  exists (mkRV (Some (V3 1 0 0)) (mkA (Some 360) Degree)), (mkRV (Some (V3 0 0 1)) (mkA (Some 0) Degree)).
  assert (T1 : turns (mkA (Some 360) Degree) = Some 1) by (cbn; f_equal; field).
  assert (T2 : turns (mkA (Some 0) Degree) = Some 0) by (cbn; f_equal; field).
  split; [| split].
  - exists (V3 1 0 0), (2 * PI). cbn [rv_axis rv_angle]. split; [reflexivity |]. split; [rewrite T1; f_equal; field; lra |].
    split; [unfold sqnorm3, dot3; cbn; ring |]. intros v. unfold frame_rotation. rewrite cos_2PI, sin_2PI. v3ring.
  - exists (V3 0 0 1), 0. cbn [rv_axis rv_angle]. split; [reflexivity |]. split; [rewrite T2; f_equal; field; lra |].
    split; [unfold sqnorm3, dot3; cbn; ring |]. intros v. symmetry. apply frame_rotation_0.
  - destruct (rv_eq_spec (mkRV (Some (V3 1 0 0)) (mkA (Some 360) Degree)) (mkRV (Some (V3 0 0 1)) (mkA (Some 0) Degree))
      _ _ 1 0 eq_refl eq_refl T1 T2) as (e & Re & Ee).
    destruct e; [| exact Re]. exfalso. destruct (proj1 Ee eq_refl) as [[? _] | [[E _] | [E _]]]; [lra | |];
      apply (f_equal vx) in E; cbn in E; lra.
Qed.

(** *** C78 *)
Lemma right_handed_ok eps a b c : 0 < eps -> right_handed a b c -> vectors_ok eps a b c = true.
Proof.
  intros He (Ha & Hb & -> & H). assert (Hc : sqnorm3 (cross3 a b) = 1) by (rewrite lagrange3, Ha, Hb, H; ring).
  unfold vectors_ok. rewrite !norm3_1, H by assumption.
  replace (dot3 b (cross3 a b)) with 0 by v3ring. replace (dot3 (cross3 a b) a) with 0 by v3ring.
  rewrite Rabs_R0, !Rltb_f by lra. reflexivity.
Qed.
Lemma right_handed_rotation a b c : right_handed a b c -> is_rotation (of_cols a b c).
Proof.
  intros (Ha & Hb & -> & H). assert (Hc : sqnorm3 (cross3 a b) = 1) by (rewrite lagrange3, Ha, Hb, H; ring). split.
  - transitivity (M3 (sqnorm3 a) (dot3 a b) (dot3 a (cross3 a b)) (dot3 a b) (sqnorm3 b) (dot3 b (cross3 a b))
      (dot3 a (cross3 a b)) (dot3 b (cross3 a b)) (sqnorm3 (cross3 a b))); [qring |].
    rewrite Ha, Hb, Hc, H. replace (dot3 a (cross3 a b)) with 0 by v3ring. replace (dot3 b (cross3 a b)) with 0 by v3ring. reflexivity.
  - transitivity (sqnorm3 (cross3 a b)); [qring | exact Hc].
Qed.
Lemma c78_columns eps a b c : 0 < eps -> right_handed a b c ->
  exists m, Columns eps (Some a) (Some b) (Some c) = Ok m /\ is_rotation m
    /\ getColumnAt (Some m) 0 = Ok a /\ getColumnAt (Some m) 1 = Ok b /\ getColumnAt (Some m) 2 = Ok c.
Proof.
  intros He H. pose proof (right_handed_rotation a b c H) as R. exists (of_cols a b c). unfold Columns. cbn [needd bind].
  rewrite right_handed_ok, rotation_ok by assumption. split; [reflexivity |]. split; [exact R |].
  destruct a, b, c; repeat split.
Qed.
Lemma c78_rows eps a b c : 0 < eps -> right_handed a b c ->
  exists m, Rows eps (Some a) (Some b) (Some c) = Ok m /\ is_rotation m
    /\ getRowAt (Some m) 0 = Ok a /\ getRowAt (Some m) 1 = Ok b /\ getRowAt (Some m) 2 = Ok c.
Proof.
  intros He H. pose proof (right_handed_rotation a b c H) as R. apply rotation_transpose in R.
  assert (transpose3 (of_cols a b c) = of_rows a b c) as E by (destruct a, b, c; reflexivity). rewrite E in R.
  exists (of_rows a b c). unfold Rows. cbn [needd bind].
  rewrite right_handed_ok, rotation_ok by assumption. split; [reflexivity |]. split; [exact R |].
  destruct a, b, c; repeat split.
Qed.
Lemma c78_result eps a b c m : 
  (Columns eps (Some a) (Some b) (Some c) = Ok m -> m = of_cols a b c /\ columns_tolerated eps m)
  /\ (Rows eps (Some a) (Some b) (Some c) = Ok m -> m = of_rows a b c /\ columns_tolerated eps m).
Proof.
  unfold Columns, Rows. cbn [needd bind]. split; intros E; (destruct vectors_ok; [| discriminate]);
    unfold RotationMatrix in E; destruct columns_ok eqn:C; try discriminate; injection E as <-; (split; [reflexivity | apply columns_ok_iff; exact C]).
Qed.
