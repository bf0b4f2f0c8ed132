(** The contracts of GteSpec.v can be met: a reference implementation of the queries with spheres
    and ellipsoids, in exact arithmetic. *)

From Coq Require Import List Bool Reals Lra Lia Psatz Classical_Prop.
From Verif Require Import Result DOrder Vec VecProofs Mat3 Mat4 AngleModel RotModel RotProofs RotProofs2 TransfProofs Geo3Types Geo3Model Geo3Spec Geo3Proofs Geo3Proofs2 GteModel GteSpec ChordProofs.
Import ListNotations.
Local Open Scope R_scope.

(** The solutions of [a2 t^2 + 2 a1 t + a0 <= 0]. *)
Definition quad (a2 a1 a0 : R) : option (R * R) :=
  let discr := a1 * a1 - a0 * a2 in
  if Rltb discr 0 then None else Some ((- a1 - sqrt discr) / a2, (- a1 + sqrt discr) / a2).
Definition inside (i : option (R * R)) (t : R) : Prop := match i with None => False | Some (l, u) => l <= t <= u end.
Definition ordered (i : option (R * R)) : Prop := match i with None => True | Some (l, u) => l <= u end.
Lemma quad_spec a2 a1 a0 t : 0 < a2 -> inside (quad a2 a1 a0) t <-> a2 * t * t + 2 * a1 * t + a0 <= 0.
Proof.
  intros P. unfold quad. set (D := a1 * a1 - a0 * a2). unfold Rltb. destruct (Rlt_dec D 0) as [L | L]; unfold inside.
  - split; [tauto |]. intros H. assert (0 <= (a2 * t + a1) * (a2 * t + a1)) by (apply VecProofs.sq_nonneg). unfold D in L. nra.
  - assert (Q : sqrt D * sqrt D = D) by (apply sqrt_sqrt; lra). assert (S : 0 <= sqrt D) by apply sqrt_pos. set (s := sqrt D) in *.
    assert (E : a2 * (a2 * t * t + 2 * a1 * t + a0) = (a2 * t + a1 + s) * (a2 * t + a1 - s)) by (unfold D in Q; nra).
    assert (A : (- a1 - s) / a2 <= t <-> 0 <= a2 * t + a1 + s).
    { split; intros H.
      - apply Rmult_le_compat_l with (r := a2) in H; [| lra]. replace (a2 * ((- a1 - s) / a2)) with (- a1 - s) in H by (field; lra). lra.
      - apply Rmult_le_reg_l with a2; [exact P |]. replace (a2 * ((- a1 - s) / a2)) with (- a1 - s) by (field; lra). lra. }
    assert (B : t <= (- a1 + s) / a2 <-> a2 * t + a1 - s <= 0).
    { split; intros H.
      - apply Rmult_le_compat_l with (r := a2) in H; [| lra]. replace (a2 * ((- a1 + s) / a2)) with (- a1 + s) in H by (field; lra). lra.
      - apply Rmult_le_reg_l with a2; [exact P |]. replace (a2 * ((- a1 + s) / a2)) with (- a1 + s) by (field; lra). lra. }
    rewrite A, B. split.
    + intros [X Y]. assert (a2 * (a2 * t * t + 2 * a1 * t + a0) <= 0) by (rewrite E; nra). nra.
    + intros H. assert (a2 * (a2 * t * t + 2 * a1 * t + a0) <= 0) by nra. split; nra.
Qed.
Lemma quad_ordered a2 a1 a0 : 0 < a2 -> ordered (quad a2 a1 a0).
Proof.
  intros P. unfold quad. unfold Rltb. destruct (Rlt_dec _ 0); [exact I |]. simpl. apply Rmult_le_compat_r; [left; apply Rinv_0_lt_compat, P |].
  pose proof (sqrt_pos (a1 * a1 - a0 * a2)). lra.
Qed.
(** Cut by bounds. *)
Definition above (lo : R) (i : option (R * R)) : option (R * R) :=
  match i with None => None | Some (l, u) => if Rltb u lo then None else Some (Rmax l lo, u) end.
Definition below (hi : R) (i : option (R * R)) : option (R * R) :=
  match i with None => None | Some (l, u) => if Rltb hi l then None else Some (l, Rmin u hi) end.
Lemma above_spec lo i t : inside (above lo i) t <-> inside i t /\ lo <= t.
Proof.
  destruct i as [[l u] |]; [| simpl; tauto]. unfold above, Rltb. destruct (Rlt_dec u lo); simpl; [lra |].
  unfold Rmax. destruct (Rle_dec l lo); lra.
Qed.
Lemma below_spec hi i t : inside (below hi i) t <-> inside i t /\ t <= hi.
Proof.
  destruct i as [[l u] |]; [| simpl; tauto]. unfold below, Rltb. destruct (Rlt_dec hi l); simpl; [lra |].
  unfold Rmin. destruct (Rle_dec u hi); lra.
Qed.
Lemma above_ordered lo i : ordered i -> ordered (above lo i).
Proof. destruct i as [[l u] |]; [| simpl; tauto]. unfold above, Rltb. destruct (Rlt_dec u lo); simpl; [tauto |]. unfold Rmax. destruct (Rle_dec l lo); lra. Qed.
Lemma below_ordered hi i : ordered i -> ordered (below hi i).
Proof. destruct i as [[l u] |]; [| simpl; tauto]. unfold below, Rltb. destruct (Rlt_dec hi l); simpl; [tauto |]. unfold Rmin. destruct (Rle_dec u hi); lra. Qed.
(** The answers. *)
Definition test (i : option (R * R)) : bool := match i with None => false | Some _ => true end.
Definition ends (o d : v3) (i : option (R * R)) : option (list v3) :=
  match i with
  | None => None
  | Some (l, u) => if Reqb l u then Some [along o l d] else Some [along o l d; along o u d]
  end.
Lemma test_decides i o d (S : v3 -> Prop) : ordered i -> (forall x, S x <-> exists t, inside i t /\ x = along o t d) -> decides (test i) S.
Proof.
  intros O H. unfold decides. destruct i as [[l u] |]; simpl in *; split; try discriminate; try reflexivity.
  - intros _. exists (along o l d). apply H. exists l. split; [lra | reflexivity].
  - intros (x & X). apply H in X. destruct X as (t & [] & _).
Qed.
Lemma ends_chord i o d (S : v3 -> Prop) : d <> zero3 -> ordered i -> (forall x, S x <-> exists t, inside i t /\ x = along o t d) -> chord (ends o d i) S.
Proof.
  intros N O H. destruct i as [[l u] |]; simpl in *.
  - destruct (Reqb l u) eqn:E; simpl.
    + apply Reqb_iff in E. subst u. intros x. rewrite H. split.
      * intros (t & T & ->). f_equal. lra.
      * intros ->. exists l. split; [lra | reflexivity].
    + apply Reqb_false in E. split; [intros X; apply along_inj in X; [contradiction | exact N] |].
      intros x. rewrite H. split.
      * intros (t & T & ->). exists ((t - l) / (u - l)). split.
        { split; [apply Rmult_le_reg_r with (u - l); [lra |]; replace ((t - l) / (u - l) * (u - l)) with (t - l) by (field; lra); lra |].
          apply Rmult_le_reg_r with (u - l); [lra |]; replace ((t - l) / (u - l) * (u - l)) with (t - l) by (field; lra); lra. }
        unfold along, scale3, add3, sub3; simpl. apply V3_eq; field; lra.
      * intros (t & T & ->). exists (l + t * (u - l)). split; [nra |].
        unfold along, scale3, add3, sub3; simpl. apply V3_eq; ring.
  - intros x X. apply H in X. destruct X as (t & [] & _).
Qed.

(** The parameters of a line in a solid given by a form. *)
Section Form.
Variable F : v3 -> R.
Variable B : v3 -> v3 -> R.
Hypothesis F_expand : forall v t w, F (add3 v (scale3 t w)) = F v + 2 * t * B v w + t * t * F w.
Hypothesis F_pos : forall w, w <> zero3 -> 0 < F w.
Variable c : v3.
Variable K : R.
Definition params (o d : v3) : option (R * R) := quad (F d) (B (sub3 o c) d) (F (sub3 o c) - K).
Lemma params_spec o d t : d <> zero3 -> inside (params o d) t <-> fsolid F c K (along o t d).
Proof.
  intros N. unfold params. rewrite quad_spec by (apply F_pos, N). unfold fsolid. rewrite along_sub, F_expand.
  split; intros H; nra.
Qed.
Lemma params_ordered o d : d <> zero3 -> ordered (params o d).
Proof. intros N. apply quad_ordered, F_pos, N. Qed.
Lemma line_params o d : d <> zero3 -> forall x, both (on_line o d) (fsolid F c K) x <-> exists t, inside (params o d) t /\ x = along o t d.
Proof.
  intros N x. split.
  - intros [(t & ->) H]. exists t. split; [apply params_spec; assumption | reflexivity].
  - intros (t & H & ->). split; [exists t; reflexivity | apply params_spec; assumption].
Qed.
Lemma ray_params o d : d <> zero3 -> forall x, both (on_ray o d) (fsolid F c K) x <-> exists t, inside (above 0 (params o d)) t /\ x = along o t d.
Proof.
  intros N x. split.
  - intros [(t & T & ->) H]. exists t. split; [apply above_spec; split; [apply params_spec; assumption | exact T] | reflexivity].
  - intros (t & H & ->). apply above_spec in H. destruct H as [H T]. split; [exists t; split; [exact T | reflexivity] | apply params_spec; assumption].
Qed.
Lemma segment_params a b : sub3 b a <> zero3 -> forall x, both (on_segment a b) (fsolid F c K) x <->
  exists t, inside (below 1 (above 0 (params a (sub3 b a)))) t /\ x = along a t (sub3 b a).
Proof.
  intros N x. split.
  - intros [(t & T & ->) H]. exists t. split; [apply below_spec; split; [apply above_spec; split; [apply params_spec; assumption | lra] | lra] | reflexivity].
  - intros (t & H & ->). apply below_spec in H. destruct H as [H T]. apply above_spec in H. destruct H as [H T']. split; [exists t; split; [lra | reflexivity] | apply params_spec; assumption].
Qed.
End Form.

(** Coordinates along orthonormal axes. *)
Lemma parseval u1 u2 u3 v w : orthonormal (u1, u2, u3) -> dot3 v w = dot3 u1 v * dot3 u1 w + dot3 u2 v * dot3 u2 w + dot3 u3 v * dot3 u3 w.
Proof.
  intros (A & B & C & D & E & F).
  set (U := of_rows u1 u2 u3).
  assert (UU : mul3 U (transpose3 U) = id3).
  { unfold U. destruct u1, u2, u3. qunfold. apply M3_eq; lra. }
  assert (VV : mul3 (transpose3 U) U = id3).
  { assert (Dt : det3 U <> 0).
    { intros Z. assert (K : det3 (mul3 U (transpose3 U)) = det3 U * det3 (transpose3 U)) by qring.
      rewrite UU, Z in K. qunfold. lra. }
    destruct (inverse3 U) as [n |] eqn:I; [| apply inverse3_none in I; contradiction].
    apply inverse3_some in I. destruct I as (I1 & I2 & _).
    assert (N : n = transpose3 U).
    { rewrite <- (mul3_id_r n), <- UU. rewrite <- mul3_assoc, I1. apply mul3_id_l. }
    rewrite <- N. exact I1. }
  assert (K : dot3 v w = dot3 v (mulv3 (mul3 (transpose3 U) U) w)).
  { rewrite VV. clear. destruct v, w. qunfold. ring. }
  rewrite K. unfold U. clear. destruct u1, u2, u3, v, w. qunfold. ring.
Qed.

Lemma dot3_zero_r v : dot3 v zero3 = 0. Proof. v3ring. Qed.
Definition ell_bilinear (u : v3 * v3 * v3) (k : R * R * R) (v w : v3) : R :=
  let '(u1, u2, u3) := u in
  let '(a, b, c) := k in
  (dot3 u1 v / a) * (dot3 u1 w / a) + (dot3 u2 v / b) * (dot3 u2 w / b) + (dot3 u3 v / c) * (dot3 u3 w / c).
Lemma ell_expand u k v t w : ellipsoid_form u k (add3 v (scale3 t w)) = ellipsoid_form u k v + 2 * t * ell_bilinear u k v w + t * t * ellipsoid_form u k w.
Proof.
  destruct u as [[u1 u2] u3], k as [[a b] c]. unfold ellipsoid_form, ell_bilinear.
  assert (E : forall x, dot3 x (add3 v (scale3 t w)) = dot3 x v + t * dot3 x w) by (intros; v3ring).
  rewrite !E. unfold Rdiv. ring.
Qed.
Lemma ell_pos u k w : orthonormal u -> positive k -> w <> zero3 -> 0 < ellipsoid_form u k w.
Proof.
  destruct u as [[u1 u2] u3], k as [[a b] c]. intros O (A & B & C) N. apply sqnorm3_pos in N. unfold sqnorm3 in N.
  rewrite (parseval u1 u2 u3 w w O) in N. unfold ellipsoid_form.
  assert (Q : forall x e, 0 < e -> 0 <= (x / e) ^ 2) by (intros; apply pow2_ge_0).
  assert (Z : forall x e, 0 < e -> (x / e) ^ 2 = 0 -> x * x = 0).
  { intros x e He H. replace (x * x) with ((x / e) ^ 2 * (e * e)) by (field; lra). rewrite H. ring. }
  pose proof (Q (dot3 u1 w) a A). pose proof (Q (dot3 u2 w) b B). pose proof (Q (dot3 u3 w) c C).
  destruct (Req_dec ((dot3 u1 w / a) ^ 2) 0) as [E1 |]; [| lra].
  destruct (Req_dec ((dot3 u2 w / b) ^ 2) 0) as [E2 |]; [| lra].
  destruct (Req_dec ((dot3 u3 w / c) ^ 2) 0) as [E3 |]; [| lra].
  apply Z in E1, E2, E3; try assumption. lra.
Qed.

(** *** The reference implementation *)
Definition ref_plane_sphere (n q c : v3) (r : R) : bool := Rleb (Rabs (dot3 n (sub3 q c))) r.
Definition ref_plane_ellipsoid (n q c : v3) (u : v3 * v3 * v3) (k : R * R * R) : bool :=
  let '(u1, u2, u3) := u in
  let '(a, b, d) := k in
  Rleb (dot3 n (sub3 q c) * dot3 n (sub3 q c)) ((a * dot3 u1 n) ^ 2 + (b * dot3 u2 n) ^ 2 + (d * dot3 u3 n) ^ 2).
Definition sphere_params c r := params sqnorm3 dot3 c (r * r).
Definition ell_params c u k := params (ellipsoid_form u k) (ell_bilinear u k) c 1.
(** Any proposition is decided by the axioms of the real numbers. *)
Definition yes (P : Prop) : bool := if ClassicalDedekindReals.sig_not_dec P then true else false.
Lemma yes_iff P : yes P = true <-> P.
Proof. unfold yes. destruct (ClassicalDedekindReals.sig_not_dec P) as [H | H]; split; intros; try reflexivity; try discriminate; try (apply Classical_Prop.NNPP, H); contradiction. Qed.
Definition ref_gte : gte := mkGte
  (fun o d c r => test (sphere_params c r o d))
  (fun o d c r => test (above 0 (sphere_params c r o d)))
  (fun a b c r => test (below 1 (above 0 (sphere_params c r a (sub3 b a)))))
  ref_plane_sphere
  (fun o d c r => ends o d (sphere_params c r o d))
  (fun o d c r => ends o d (above 0 (sphere_params c r o d)))
  (fun a b c r => ends a (sub3 b a) (below 1 (above 0 (sphere_params c r a (sub3 b a)))))
  (fun o d c u k => test (ell_params c u k o d))
  (fun o d c u k => test (above 0 (ell_params c u k o d)))
  ref_plane_ellipsoid
  (fun o d c u k => ends o d (ell_params c u k o d))
  (fun o d c u k => ends o d (above 0 (ell_params c u k o d)))
  (fun a b c u k => ends a (sub3 b a) (below 1 (above 0 (ell_params c u k a (sub3 b a)))))
  (fun o d c u k => yes (exists p, both (on_line o d) (solid_box c u k) p))
  (fun c u k c' u' k' => yes (exists p, both (solid_box c u k) (solid_box c' u' k') p)).

Lemma sphere_expand v t w : sqnorm3 (add3 v (scale3 t w)) = sqnorm3 v + 2 * t * dot3 v w + t * t * sqnorm3 w.
Proof. v3ring. Qed.
Lemma sphere_positive w : w <> zero3 -> 0 < sqnorm3 w. Proof. apply sqnorm3_pos. Qed.
Lemma ball_solid c r p : 0 <= r -> ball c r p <-> fsolid sqnorm3 c (r * r) p.
Proof.
  intros R. unfold ball, fsolid, dist3. pose proof (norm3_nonneg (sub3 p c)). pose proof (norm3_sq (sub3 p c)). split; intros; nra.
Qed.
Lemma ref_sphere : sphere_queries ref_gte.
Proof.
  assert (L : forall o d c r, d <> zero3 -> 0 <= r -> forall x, both (on_line o d) (ball c r) x <-> exists t, inside (sphere_params c r o d) t /\ x = along o t d).
  { intros o d c r N R x. unfold both. rewrite (ball_solid c r x R). apply (line_params sqnorm3 dot3 sphere_expand sphere_positive c (r * r) o d N). }
  assert (Y : forall o d c r, d <> zero3 -> 0 <= r -> forall x, both (on_ray o d) (ball c r) x <-> exists t, inside (above 0 (sphere_params c r o d)) t /\ x = along o t d).
  { intros o d c r N R x. unfold both. rewrite (ball_solid c r x R). apply (ray_params sqnorm3 dot3 sphere_expand sphere_positive c (r * r) o d N). }
  assert (G : forall a b c r, sub3 b a <> zero3 -> 0 <= r -> forall x, both (on_segment a b) (ball c r) x <->
     exists t, inside (below 1 (above 0 (sphere_params c r a (sub3 b a)))) t /\ x = along a t (sub3 b a)).
  { intros a b c r N R x. unfold both. rewrite (ball_solid c r x R). apply (segment_params sqnorm3 dot3 sphere_expand sphere_positive c (r * r) a b N). }
  assert (O : forall c r o d, d <> zero3 -> ordered (sphere_params c r o d)).
  { intros. apply params_ordered; [exact sphere_positive | assumption]. }
  assert (Nz : forall a b : v3, a <> b -> sub3 b a <> zero3) by (intros a b N X; apply N; symmetry; apply sub3_0, X).
  constructor.
  - intros o d c r U R. apply unit_nonzero in U. eapply test_decides; [apply O, U | apply L; assumption].
  - intros o d c r U R. apply unit_nonzero in U. eapply test_decides; [apply above_ordered, O, U | apply Y; assumption].
  - intros a b c r N R _. apply Nz in N. eapply test_decides; [apply below_ordered, above_ordered, O, N | apply G; assumption].
  - intros n q c r U R. unfold decides. cbn [ti_plane_sphere ref_gte]. unfold ref_plane_sphere. rewrite Rleb_iff. split.
    + intros H. exists (add3 c (scale3 (dot3 n (sub3 q c)) n)). split.
      * unfold on_plane. replace (sub3 (add3 c (scale3 (dot3 n (sub3 q c)) n)) q) with (sub3 (scale3 (dot3 n (sub3 q c)) n) (sub3 q c)) by v3ring.
        replace (dot3 n (sub3 (scale3 (dot3 n (sub3 q c)) n) (sub3 q c))) with (dot3 n (sub3 q c) * sqnorm3 n - dot3 n (sub3 q c)) by (clear; v3ring). rewrite U. ring.
      * unfold ball, dist3. replace (sub3 (add3 c (scale3 (dot3 n (sub3 q c)) n)) c) with (scale3 (dot3 n (sub3 q c)) n) by v3ring.
        rewrite norm3_scale. unfold norm3. rewrite U, sqrt_1. lra.
    + intros (p & P & D). unfold on_plane in P. unfold ball, dist3 in D.
      replace (dot3 n (sub3 q c)) with (dot3 n (sub3 p c)).
      * eapply Rle_trans; [apply cauchy3_norm |]. unfold norm3 at 1. rewrite U, sqrt_1. lra.
      * replace (dot3 n (sub3 p c)) with (dot3 n (sub3 p q) + dot3 n (sub3 q c)) by (clear; v3ring). rewrite P. ring.
  - intros o d c r U R. apply unit_nonzero in U. apply ends_chord; [exact U | apply O, U | apply L; assumption].
  - intros o d c r U R. apply unit_nonzero in U. apply ends_chord; [exact U | apply above_ordered, O, U | apply Y; assumption].
  - intros a b c r N R. apply Nz in N. apply ends_chord; [exact N | apply below_ordered, above_ordered, O, N | apply G; assumption].
Qed.
Lemma ref_ellipsoid : ellipsoid_queries ref_gte.
Proof.
  assert (O : forall c u k o d, orthonormal u -> positive k -> d <> zero3 -> ordered (ell_params c u k o d)).
  { intros. apply params_ordered; [intros; apply ell_pos; assumption | assumption]. }
  assert (Nz : forall a b : v3, a <> b -> sub3 b a <> zero3) by (intros a b N X; apply N; symmetry; apply sub3_0, X).
  constructor.
  - intros o d c u k U Ou Pk. apply unit_nonzero in U. eapply test_decides; [apply O; assumption |].
    apply (line_params (ellipsoid_form u k) (ell_bilinear u k) (ell_expand u k) (fun w => ell_pos u k w Ou Pk) c 1 o d U).
  - intros o d c u k U Ou Pk. apply unit_nonzero in U. eapply test_decides; [apply above_ordered, O; assumption |].
    apply (ray_params (ellipsoid_form u k) (ell_bilinear u k) (ell_expand u k) (fun w => ell_pos u k w Ou Pk) c 1 o d U).
  - intros n q c [[u1 u2] u3] [[a b] e] U Ou (A & B & E). unfold decides. cbn [ti_plane_ellipsoid ref_gte]. unfold ref_plane_ellipsoid. rewrite Rleb_iff.
    set (w1 := a * dot3 u1 n). set (w2 := b * dot3 u2 n). set (w3 := e * dot3 u3 n). set (D := dot3 n (sub3 q c)).
    assert (W : 0 < w1 ^ 2 + w2 ^ 2 + w3 ^ 2).
    { pose proof (parseval u1 u2 u3 n n Ou) as P. unfold sqnorm3 in U. rewrite U in P.
      assert (Z : forall x y, 0 < x -> (x * y) ^ 2 = 0 -> y * y = 0) by (intros x y X H; replace (y * y) with ((x * y) ^ 2 / (x * x)) by (field; lra); rewrite H; unfold Rdiv; ring).
      pose proof (pow2_ge_0 w1). pose proof (pow2_ge_0 w2). pose proof (pow2_ge_0 w3).
      destruct (Req_dec (w1 ^ 2) 0) as [E1 |]; [| lra]. destruct (Req_dec (w2 ^ 2) 0) as [E2 |]; [| lra]. destruct (Req_dec (w3 ^ 2) 0) as [E3 |]; [| lra].
      apply Z in E1, E2, E3; try assumption. lra. }
    destruct Ou as (O1 & O2 & O3 & O12 & O23 & O31).
    assert (O21 : dot3 u2 u1 = 0) by (rewrite dot3_sym; exact O12). assert (O32 : dot3 u3 u2 = 0) by (rewrite dot3_sym; exact O23). assert (O13 : dot3 u1 u3 = 0) by (rewrite dot3_sym; exact O31).
    unfold sqnorm3 in O1, O2, O3.
    assert (Lin : forall x k1 k2 k3, dot3 x (add3 (scale3 k1 u1) (add3 (scale3 k2 u2) (scale3 k3 u3))) = k1 * dot3 x u1 + k2 * dot3 x u2 + k3 * dot3 x u3)
      by (clear; intros; v3ring).
    set (S2 := w1 ^ 2 + w2 ^ 2 + w3 ^ 2) in *. split.
    + intros H. set (m := D / S2). set (v := add3 (scale3 (a * w1 * m) u1) (add3 (scale3 (b * w2 * m) u2) (scale3 (e * w3 * m) u3))). exists (add3 c v). split.
      * unfold on_plane. replace (dot3 n (sub3 (add3 c v) q)) with (dot3 n v - D) by (unfold D; generalize v; clear; intros; v3ring).
        unfold v. rewrite Lin. rewrite (dot3_sym n u1), (dot3_sym n u2), (dot3_sym n u3).
        replace (a * w1 * m * dot3 u1 n + b * w2 * m * dot3 u2 n + e * w3 * m * dot3 u3 n) with (m * S2) by (unfold S2, w1, w2, w3; ring).
        unfold m. field. lra.
      * unfold solid_ellipsoid. replace (sub3 (add3 c v) c) with v by (generalize v; clear; intros; v3ring). unfold ellipsoid_form, v. rewrite !Lin.
        rewrite O1, O2, O3, O12, O23, O31, O21, O32, O13.
        replace ((a * w1 * m * 1 + b * w2 * m * 0 + e * w3 * m * 0) / a) with (w1 * m) by (field; lra).
        replace ((a * w1 * m * 0 + b * w2 * m * 1 + e * w3 * m * 0) / b) with (w2 * m) by (field; lra).
        replace ((a * w1 * m * 0 + b * w2 * m * 0 + e * w3 * m * 1) / e) with (w3 * m) by (field; lra).
        replace ((w1 * m) ^ 2 + (w2 * m) ^ 2 + (w3 * m) ^ 2) with (S2 * (m * m)) by (unfold S2; ring).
        replace (S2 * (m * m)) with (D * D / S2) by (unfold m; field; lra).
        apply Rmult_le_reg_r with S2; [exact W |]. replace (D * D / S2 * S2) with (D * D) by (field; lra). lra.
    + intros (p & P & Q). unfold on_plane in P. unfold solid_ellipsoid, ellipsoid_form in Q.
      assert (Dp : D = dot3 n (sub3 p c)).
      { unfold D. replace (dot3 n (sub3 p c)) with (dot3 n (sub3 p q) + dot3 n (sub3 q c)) by (clear; v3ring). rewrite P. ring. }
      rewrite (parseval u1 u2 u3 n (sub3 p c)) in Dp by (repeat split; assumption).
      set (y1 := dot3 u1 (sub3 p c)) in *. set (y2 := dot3 u2 (sub3 p c)) in *. set (y3 := dot3 u3 (sub3 p c)) in *.
      assert (Dp' : D = w1 * (y1 / a) + w2 * (y2 / b) + w3 * (y3 / e)) by (rewrite Dp; unfold w1, w2, w3; field; lra).
      set (z1 := y1 / a) in *. set (z2 := y2 / b) in *. set (z3 := y3 / e) in *.
      pose proof (cauchy3 (V3 w1 w2 w3) (V3 z1 z2 z3)) as CS. unfold sqnorm3, dot3 in CS. cbn [vx vy vz] in CS. rewrite <- Dp' in CS.
      unfold S2 in *. nra.
  - intros o d c u k U Ou Pk. apply unit_nonzero in U. apply ends_chord; [exact U | apply O; assumption |].
    apply (line_params (ellipsoid_form u k) (ell_bilinear u k) (ell_expand u k) (fun w => ell_pos u k w Ou Pk) c 1 o d U).
  - intros o d c u k U Ou Pk. apply unit_nonzero in U. apply ends_chord; [exact U | apply above_ordered, O; assumption |].
    apply (ray_params (ellipsoid_form u k) (ell_bilinear u k) (ell_expand u k) (fun w => ell_pos u k w Ou Pk) c 1 o d U).
  - intros a b c u k N Ou Pk. apply Nz in N. apply ends_chord; [exact N | apply below_ordered, above_ordered, O; assumption |].
    apply (segment_params (ellipsoid_form u k) (ell_bilinear u k) (ell_expand u k) (fun w => ell_pos u k w Ou Pk) c 1 a b N).
Qed.
Lemma ref_box : box_queries ref_gte.
Proof. constructor; intros; apply yes_iff. Qed.
