(** Double precision: distances in the plane, as distances in the plane z = 0 of space. *)

From Coq Require Import List Bool Arith ZArith Reals Lra Lia Psatz Floats.SpecFloat.
From Verif Require Import Result Vec DOrder RotModel AngleModel FloatSpec FloatProofs FloatProofs2 FloatModel FloatProofs3 FloatProofs4 FloatProofs5 FloatProofs7 FloatProofs10
  VecProofs Geo3Types Geo3Model Geo3Spec Geo3Proofs Geo3Proofs2 Geo2Model Geo2Spec Geo2Proofs Geo64Model Geo64Spec Geo64Proofs Geo64Proofs2 Geo64Proofs3 Geo64Proofs4 Geo64Proofs5 Geo64Proofs6 Geo64Proofs7 Geo64Proofs8
  Rot64Model Dst64Model Dst64Proofs Dst64Proofs2 Pln64Model Pln64Spec.
Import ListNotations.
Local Open Scope R_scope.

(** *** The plane z = 0 *)
Definition emb (a : f2) : f3 := F3 (fx2 a) (fy2 a) zero64.
Lemma emb_val a : val3 (emb a) = in_plane (val2 a).
Proof. reflexivity. Qed.
Lemma emb_finite a : finite2 a -> finite3 (emb a).
Proof. intros [X Y]. split; [exact X | split; [exact Y | exact I]]. Qed.
Lemma emb_within k a : within2 (P2 k) a -> within3 (P2 k) (emb a).
Proof. intros [X Y]. split; [exact X | split; [exact Y |]]. change (rval (fz (emb a))) with 0. rewrite Rabs_R0. apply Rlt_le, P2_pos. Qed.
Lemma plane_norm v : norm3 (in_plane v) = norm2 v.
Proof. unfold norm3, norm2. f_equal. unfold sqnorm3, dot3, sqnorm2, dot2, in_plane. cbn [vx vy vz]. ring. Qed.
Lemma plane_sub a b : sub3 (in_plane a) (in_plane b) = in_plane (sub2 a b).
Proof. unfold sub3, sub2, in_plane. cbn [vx vy vz x2 y2]. f_equal. ring. Qed.
Lemma plane_dist a b : dist3 (in_plane a) (in_plane b) = dist2 a b.
Proof. unfold dist3, dist2. rewrite plane_sub. apply plane_norm. Qed.
Lemma plane_dot a b : dot3 (in_plane a) (in_plane b) = dot2 a b.
Proof. unfold dot3, dot2, in_plane. cbn [vx vy vz]. ring. Qed.
Lemma norm2_le_norm3 x y z : norm2 (V2 x y) <= norm3 (V3 x y z).
Proof. unfold norm2, norm3. apply sqrt_le_1_alt. unfold sqnorm2, dot2, sqnorm3, dot3. cbn [vx vy vz x2 y2]. nra. Qed.
Lemma add0 x : sf_add x zero64 = x \/ (x = S754_zero true /\ sf_add x zero64 = zero64).
Proof. destruct x as [[] | s | | s m e]; [right; split; reflexivity | left; reflexivity | left; reflexivity | left; reflexivity | left; reflexivity]. Qed.
Lemma add0_val x : finite64 (sf_add x zero64) -> finite64 x /\ rval x = rval (sf_add x zero64).
Proof. destruct (add0 x) as [-> | [-> ->]]; intros F; (split; [exact F || exact I | reflexivity]). Qed.
Lemma emb_dot a b : fdot3 FirstTwo (emb a) (emb b) = sf_add (fdot2 a b) zero64.
Proof. reflexivity. Qed.
Lemma emb_sqnorm a : fsqnorm3 FirstTwo (emb a) = sf_add (fsqnorm2 a) zero64.
Proof. reflexivity. Qed.
Lemma emb_sub a b : fsub3 (emb a) (emb b) = emb (fsub2 a b).
Proof. reflexivity. Qed.
Lemma emb_norm a : finite64 (fnorm3 FirstTwo (emb a)) -> finite64 (fnorm2 a) /\ rval (fnorm2 a) = rval (fnorm3 FirstTwo (emb a)).
Proof.
  unfold fnorm3, fnorm2. rewrite emb_sqnorm. destruct (add0 (fsqnorm2 a)) as [-> | [-> ->]]; intros F; (split; [exact F || exact I | reflexivity]).
Qed.
Lemma emb_distance p q x : pt64_distanceTo FirstTwo (Some (emb p)) (Some (emb q)) = Ok x -> finite64 x -> exists y, pt64_distanceTo2 (Some p) (Some q) = Ok y /\ finite64 y /\ rval y = rval x.
Proof.
  unfold pt64_distanceTo, pt64_sub. cbn [need3 bind]. rewrite emb_sub. intros E F. injection E as <-. destruct (emb_norm _ F) as [Fy Vy]. eexists. split; [reflexivity |]. split; assumption.
Qed.
(** *** Points *)
Lemma c158_point p q : finite2 p -> finite2 q -> within2 (P2 450) p -> within2 (P2 450) q ->
  exists d, pt64_distanceTo2 (Some p) (Some q) = Ok d /\ finite64 d /\ Rabs (rval d - dist2 (val2 p) (val2 q)) <= P2 (-50) * dist2 (val2 p) (val2 q) + P2 (-530).
Proof.
  intros Fp Fq Bp Bq. destruct (c127_accurate FirstTwo _ _ (emb_finite _ Fp) (emb_finite _ Fq) (emb_within _ _ Bp) (emb_within _ _ Bq)) as (x & E & F & A). rewrite !emb_val, plane_dist in A.
  destruct (emb_distance _ _ _ E F) as (y & E' & F' & V'). exists y. split; [exact E' |]. split; [exact F' |]. rewrite V'. exact A.
Qed.
Lemma c158_near p q tol : finite2 p -> finite2 q -> finite64 tol -> within2 (P2 450) p -> within2 (P2 450) q ->
  exists t, pt64_isNear2 (Some p) (Some q) (Some tol) = Ok t /\
    (t = true -> dist2 (val2 p) (val2 q) <= rval tol * (1 + P2 (-49)) + P2 (-529)) /\
    (dist2 (val2 p) (val2 q) * (1 + P2 (-50)) + P2 (-530) <= rval tol -> t = true).
Proof.
  intros Fp Fq Ft Bp Bq. destruct (c127_near FirstTwo _ _ tol (emb_finite _ Fp) (emb_finite _ Fq) Ft (emb_within _ _ Bp) (emb_within _ _ Bq)) as (t & E & A). rewrite !emb_val, plane_dist in A.
  destruct (c127_accurate FirstTwo _ _ (emb_finite _ Fp) (emb_finite _ Fq) (emb_within _ _ Bp) (emb_within _ _ Bq)) as (x & Ex & F & _). destruct (emb_distance _ _ _ Ex F) as (y & E' & F' & V').
  exists t. split; [| exact A]. unfold pt64_isNear in E. rewrite Ex in E. cbn [need3 bind] in E. unfold pt64_isNear2. rewrite E'. cbn [need3 bind]. rewrite <- E. f_equal.
  apply eq_true_iff_eq. rewrite (SFleb_val y tol F' Ft), (SFleb_val x tol F Ft), V'. reflexivity.
Qed.
Lemma c158_length a b : finite2 a -> finite2 b -> within2 (P2 450) a -> within2 (P2 450) b ->
  exists d, ps64_getLength (mkPS64 (Some a) (Some b)) = Ok d /\ finite64 d /\ Rabs (rval d - dist2 (val2 a) (val2 b)) <= P2 (-50) * dist2 (val2 a) (val2 b) + P2 (-530).
Proof.
  intros Fa Fb Ba Bb. replace (dist2 (val2 a) (val2 b)) with (dist2 (val2 b) (val2 a)) by (unfold dist2, norm2; f_equal; unfold sqnorm2, dot2, sub2; cbn [x2 y2]; ring). exact (c158_point b a Fb Fa Bb Ba).
Qed.
(** *** Lines *)
Lemma c158_direction o v : finite2 v -> within2 (P2 450) v -> P2 (-450) <= norm2 (val2 v) ->
  exists d, PLine64 o (Some v) = Ok (mkPL64 o (Some d)) /\ finite2 d /\ dist2 (val2 d) (scale2 (/ norm2 (val2 v)) (val2 v)) <= P2 (-47).
Proof.
  intros Fv Bv Lv. rewrite <- plane_norm, <- emb_val in Lv. destruct (norm_err FirstTwo _ (emb_finite _ Fv) (emb_within _ _ Bv) Lv) as (Fs & Ps & _ & Fn & En). destruct (c130_direction FirstTwo None _ (emb_finite _ Fv) (emb_within _ _ Bv) Lv) as (d & El & (Dx & Dy & _) & Ed).
  rewrite emb_sqnorm in Ps. assert (Z : sf_add (fsqnorm2 v) zero64 = fsqnorm2 v) by (destruct (add0 (fsqnorm2 v)) as [E | [_ E]]; [exact E | rewrite E in Ps; cbn in Ps; lra]).
  exists (F2 (fx d) (fy d)). split; [| split; [split; [exact Dx | exact Dy] |]].
  - unfold Line64 in El. unfold PLine64. rewrite emb_sqnorm, Z in El. unfold fnormalized3 in El. rewrite emb_sqnorm, Z in El. unfold fnormalized2.
    destruct (SFeqb (fsqnorm2 v) (b64_of_Z 1)); cbn [negb] in *; [injection El as <-; destruct v; reflexivity |]. destruct (SFeqb (fsqnorm2 v) zero64); [discriminate |].
    destruct (SFltb zero64 (fsqnorm2 v)); injection El as <-; [reflexivity | destruct v; reflexivity].
  - eapply Rle_trans; [| exact Ed]. rewrite emb_val, plane_norm. unfold dist2, dist3, sub2, sub3, scale2, scale3, in_plane, val2, val3. cbn [vx vy vz x2 y2 fx2 fy2]. apply norm2_le_norm3.
Qed.
Lemma resid_err v V s S n W : finite64 v -> finite64 s -> finite64 n -> Rabs (rval v - V) <= e53 * Rabs V -> Rabs V <= W -> Rabs (rval s - S) <= 6.1 * e53 * W + 4 * tiny -> Rabs S <= 1.01 * W -> Rabs (rval n) <= 1.01 -> 0 <= W <= P2 210 ->
  finite64 (sf_sub v (b64_mul s n)) /\ Rabs (rval (sf_sub v (b64_mul s n)) - (V - S * rval n)) <= 11 * e53 * W + 6 * tiny /\ Rabs (rval (sf_sub v (b64_mul s n))) <= P2 214.
Proof.
  intros Fv Fs Fn Ev HV Es HS Hn HW. pose proof tiny_pos as PT. assert (T210 : tiny <= P2 210) by (apply P2_mono; lia).
  assert (Q : 16 * P2 210 = P2 214) by (replace 16 with (P2 4) by (rewrite <- P2_Z by lia; reflexivity); rewrite <- P2_add; reflexivity). assert (Q' : P2 214 <= P2 1023) by (apply P2_mono; lia).
  pose proof (Rabs_triang (rval v - V) V) as U1. replace (rval v - V + V) with (rval v) in U1 by ring. pose proof (Rabs_triang (rval s - S) S) as U2. replace (rval s - S + S) with (rval s) in U2 by ring.
  assert (B1 : Rabs (rval s * rval n) <= 1.01 * (1.02 * W + 4 * tiny)) by (rewrite Rabs_mult, Rmult_comm; apply Rmult_le_compat; try apply Rabs_pos; [exact Hn | unfold e53 in *; lra]).
  destruct (mul_any s n Fs Fn ltac:(lra)) as [Fm Em]. set (m := rval (b64_mul s n)) in *. pose proof (Rabs_triang (m - rval s * rval n) (rval s * rval n)) as U3. replace (m - rval s * rval n + rval s * rval n) with m in U3 by ring.
  pose proof (Rabs_triang (rval v) (- m)) as U4. rewrite Rabs_Ropp in U4. replace (rval v + - m) with (rval v - m) in U4 by ring.
  assert (B2 : Rabs (rval v - m) <= 2.1 * W + 6 * tiny) by (unfold e53 in *; lra). destruct (sub_any v (b64_mul s n) Fv Fm ltac:(fold m; lra)) as [Fc Ec]. fold m in Ec. set (c := rval (sf_sub v (b64_mul s n))) in *. split; [exact Fc |].
  assert (B3 : Rabs (rval s * rval n - S * rval n) <= (6.1 * e53 * W + 4 * tiny) * 1.01) by (replace (rval s * rval n - S * rval n) with ((rval s - S) * rval n) by ring; rewrite Rabs_mult; apply Rmult_le_compat; try apply Rabs_pos; assumption).
  split.
  - pose proof (Rabs_triang (c - (rval v - m)) (rval v - V)) as T1. pose proof (Rabs_triang (m - rval s * rval n) (rval s * rval n - S * rval n)) as T2.
    pose proof (Rabs_triang (c - (rval v - m) + (rval v - V)) (- (m - rval s * rval n + (rval s * rval n - S * rval n)))) as T3. rewrite Rabs_Ropp in T3.
    replace (c - (rval v - m) + (rval v - V) + - (m - rval s * rval n + (rval s * rval n - S * rval n))) with (c - (V - S * rval n)) in T3 by ring. unfold e53 in *. lra.
  - pose proof (Rabs_triang (c - (rval v - m)) (rval v - m)) as T1. replace (c - (rval v - m) + (rval v - m)) with c in T1 by ring. rewrite <- Q. unfold e53 in *. lra.
Qed.
Lemma norm2_sum a : norm2 a <= Rabs (x2 a) + Rabs (y2 a).
Proof. pose proof (norm3_sum (in_plane a)) as T. rewrite plane_norm in T. unfold in_plane in T. cbn [vx vy vz] in T. rewrite Rabs_R0 in T. lra. Qed.
Lemma coordinate2_le a : Rabs (x2 a) <= norm2 a /\ Rabs (y2 a) <= norm2 a.
Proof. destruct (coordinate_le (in_plane a)) as (X & Y & _). rewrite plane_norm in X, Y. split; assumption. Qed.
Lemma norm2_dist v w : Rabs (norm2 v - norm2 w) <= dist2 v w.
Proof. rewrite <- !plane_norm, <- plane_dist. apply norm_dist. Qed.
Lemma on_line2_unit o v q : 0 < norm2 v -> on_line2 o v q <-> on_line2 o (scale2 (/ norm2 v) v) q.
Proof.
  intros P. split; intros (t & ->); [exists (t * norm2 v) | exists (t * / norm2 v)]; unfold along2; f_equal; destruct v as [a b]; unfold scale2; cbn [x2 y2]; f_equal; field; lra.
Qed.
Lemma line2_exact o v p L : 0 < norm2 v -> least_distance2 (on_line2 o v) p L ->
  let u := scale2 (/ norm2 v) v in norm2 u = 1 /\ L = norm2 (sub2 (sub2 p o) (scale2 (dot2 (sub2 p o) u) u)).
Proof.
  intros P H u. assert (U : norm2 u = 1) by (unfold u; rewrite norm2_scale, Rabs_right by (apply Rle_ge, Rlt_le, Rinv_0_lt_compat, P); apply Rinv_l; lra). split; [exact U |].
  assert (U2 : sqnorm2 u = 1) by (rewrite <- norm2_sq, U; ring). destruct (c63_line_distance (mkLine2 (Some o) (Some u)) o u p (conj eq_refl U2)) as (x & E & G). injection E as <-.
  destruct H as [(q & Sq & <-) H]. destruct G as [(q' & Sq' & EG) G]. rewrite <- EG in *. apply Rle_antisym; [exact (H q' (proj2 (on_line2_unit o v q' P) Sq')) | exact (G q (proj1 (on_line2_unit o v q P) Sq))].
Qed.
Lemma c158_line o v p L : finite2 o -> finite2 v -> finite2 p -> within2 (P2 200) o -> within2 (P2 200) p -> within2 (P2 450) v -> P2 (-450) <= norm2 (val2 v) ->
  least_distance2 (on_line2 (val2 o) (val2 v)) (val2 p) L ->
  exists l x, PLine64 (Some o) (Some v) = Ok l /\ pl64_distanceTo l (Some p) = Ok x /\ finite64 x /\ Rabs (rval x - L) <= P2 (-45) * dist2 (val2 p) (val2 o) + P2 (-500).
Proof.
  intros Fo Fv Fp Bo Bp Bv Lv H. pose proof (P2_pos (-450)). assert (PV : 0 < norm2 (val2 v)) by lra. destruct (c158_direction (Some o) v Fv Bv Lv) as (d & El & Fd & Ed).
  exists (mkPL64 (Some o) (Some d)). eexists. split; [exact El |]. split; [reflexivity |]. destruct (line2_exact _ _ _ _ PV H) as [U EL]. set (u := scale2 (/ norm2 (val2 v)) (val2 v)) in *. clearbody u. clear H El.
  assert (E : P2 (-47) = 64 * e53) by (rewrite <- e53_P2; replace 64 with (P2 6) by (rewrite <- P2_Z by lia; reflexivity); rewrite <- P2_add; reflexivity). rewrite E in Ed.
  assert (E' : P2 (-45) = 256 * e53) by (rewrite <- e53_P2; replace 256 with (P2 8) by (rewrite <- P2_Z by lia; reflexivity); rewrite <- P2_add; reflexivity). rewrite E'. clear E E'.
  assert (ND : norm2 (val2 d) <= 1 + 64 * e53) by (pose proof (norm2_dist (val2 d) u) as T; apply abs_le in T; lra). destruct (coordinate2_le (val2 d)) as [Cx Cy]. cbn [x2 y2 val2] in Cx, Cy.
  assert (Bd : within2 (P2 1) d) by (replace (P2 1) with 2 by (rewrite <- P2_Z by lia; reflexivity); split; unfold e53 in *; lra).
  destruct (sub3_approx (emb p) (emb o) 200 (emb_finite _ Fp) (emb_finite _ Fo) (emb_within _ _ Bp) (emb_within _ _ Bo) ltac:(lia)) as (Fw & Bw & Aw).
  destruct (dot_err FirstTwo _ (emb d) _ _ (200 + 2) Fw (emb_finite _ Fd) Bw (within_weaken 1 (200 + 2) _ ltac:(lia) (emb_within _ _ Bd)) Aw (exact_approx (emb d)) ltac:(lia)) as [Fs Es].
  pose proof (absdot_cauchy (sub3 (val3 (emb p)) (val3 (emb o))) (val3 (emb d))) as AC. rewrite !emb_val, plane_sub, plane_dot in Es. rewrite !emb_val, plane_sub, !plane_norm in AC. rewrite !emb_val, plane_sub in Aw. rewrite !emb_sub in *. rewrite emb_dot in Fs, Es.
  destruct (add0_val _ Fs) as [Fs' Vs]. rewrite <- Vs in Es. clear Fs Vs. destruct Aw as (Ax & Ay & _). destruct Fw as (Wx & Wy & _). cbn [emb fx fy fz in_plane vx vy vz] in Ax, Ay, Wx, Wy.
  pose proof (norm2_sum (sub2 (val2 p) (val2 o))) as NW. destruct (coordinate2_le (sub2 (val2 p) (val2 o))) as [Vx Vy]. pose proof (norm2_nonneg (sub2 (val2 p) (val2 o))) as PW. change (dist2 (val2 p) (val2 o)) with (norm2 (sub2 (val2 p) (val2 o))).
  assert (BW : norm2 (sub2 (val2 p) (val2 o)) <= P2 210).
  { destruct Bo as [ox oy]. destruct Bp as [px py]. unfold sub2, val2 in NW. cbn [x2 y2] in NW. pose proof (Rabs_triang (rval (fx2 p)) (- rval (fx2 o))) as Tx. pose proof (Rabs_triang (rval (fy2 p)) (- rval (fy2 o))) as Ty. rewrite Rabs_Ropp in Tx, Ty.
    assert (4 * P2 200 <= P2 210) by (replace 4 with (P2 2) by (rewrite <- P2_Z by lia; reflexivity); rewrite <- P2_add; apply P2_mono; lia). unfold Rminus in NW. eapply Rle_trans; [exact NW |]. lra. }
  set (V := sub2 (val2 p) (val2 o)) in *. set (W := norm2 V) in *. set (S := dot2 V (val2 d)) in *. set (w := fsub2 p o) in *. set (s := fdot2 w d) in *. pose proof tiny_pos as PT.
  assert (G2 : W * norm2 (val2 d) <= W * (1 + 64 * e53)) by (apply Rmult_le_compat_l; assumption).
  assert (Es' : Rabs (rval s - S) <= 6.1 * e53 * W + 4 * tiny) by (unfold e53 in *; lra).
  assert (HS : Rabs S <= 1.01 * W) by (pose proof (cauchy2_norm V (val2 d)) as C; fold S W in C; unfold e53 in *; lra).
  destruct Fd as [Fdx Fdy]. destruct (resid_err _ _ s S _ W Wx Fs' Fdx Ax Vx Es' HS ltac:(unfold e53 in *; lra) (conj PW BW)) as (F1 & E1 & B1). destruct (resid_err _ _ s S _ W Wy Fs' Fdy Ay Vy Es' HS ltac:(unfold e53 in *; lra) (conj PW BW)) as (F2' & E2 & B2).
  assert (Fc : finite2 (fsub2 w (fscale2 s d))) by (split; [exact F1 | exact F2']). assert (Bc : within2 (P2 214) (fsub2 w (fscale2 s d))) by (split; [exact B1 | exact B2]).
  destruct (fnorm_abs FirstTwo _ (emb_finite _ Fc) (within_weaken 214 450 _ ltac:(lia) (emb_within _ _ Bc))) as [Fn En]. destruct (emb_norm _ Fn) as [Fx Ex]. split; [exact Fx |]. rewrite Ex. clear Ex Fx Fn. rewrite emb_val, plane_norm in En.
  set (n := rval (fnorm3 FirstTwo _)) in *. set (c := fsub2 w (fscale2 s d)) in *.
  assert (D1 : dist2 (val2 c) (sub2 V (scale2 S (val2 d))) <= 22 * e53 * W + 12 * tiny).
  { unfold dist2. eapply Rle_trans; [apply norm2_sum |]. unfold c, fsub2, fscale2, sub2, scale2, val2. cbn [x2 y2 fx2 fy2]. fold V. unfold e53 in *. lra. }
  assert (D2 : dist2 (sub2 V (scale2 S (val2 d))) (sub2 V (scale2 (dot2 V u) u)) <= 128.1 * e53 * W).
  { unfold dist2. replace (sub2 (sub2 V (scale2 S (val2 d))) (sub2 V (scale2 (dot2 V u) u))) with (add2 (scale2 (dot2 V (sub2 u (val2 d))) (val2 d)) (scale2 (dot2 V u) (sub2 u (val2 d)))).
    2:{ unfold S. destruct V as [a b], u as [a' b'], (val2 d) as [a'' b'']. unfold add2, sub2, scale2, dot2. cbn [x2 y2]. f_equal; ring. }
    eapply Rle_trans; [apply norm2_triangle |]. rewrite !norm2_scale. pose proof (cauchy2_norm V (sub2 u (val2 d))) as C1. pose proof (cauchy2_norm V u) as C2. rewrite U, Rmult_1_r in C2. fold W in C1, C2.
    assert (X : norm2 (sub2 u (val2 d)) <= 64 * e53) by (fold (dist2 u (val2 d)); rewrite dist2_sym; exact Ed). pose proof (norm2_nonneg (sub2 u (val2 d))) as X0. pose proof (norm2_nonneg (val2 d)) as X1.
    assert (Y1 : W * norm2 (sub2 u (val2 d)) <= W * (64 * e53)) by (apply Rmult_le_compat_l; assumption).
    assert (Y2 : Rabs (dot2 V (sub2 u (val2 d))) * norm2 (val2 d) <= W * (64 * e53) * (1 + 64 * e53)) by (apply Rmult_le_compat; try apply Rabs_pos; lra).
    assert (Y3 : Rabs (dot2 V u) * norm2 (sub2 u (val2 d)) <= W * (64 * e53)) by (apply Rmult_le_compat; try apply Rabs_pos; assumption). unfold e53 in *. lra. }
  pose proof (norm2_dist (val2 c) (sub2 V (scale2 S (val2 d)))) as N1. pose proof (norm2_dist (sub2 V (scale2 S (val2 d))) (sub2 V (scale2 (dot2 V u) u))) as N2. rewrite <- EL in N2.
  assert (LL : L <= 2 * W).
  { rewrite EL. pose proof (norm2_triangle V (scale2 (- dot2 V u) u)) as T. replace (add2 V (scale2 (- dot2 V u) u)) with (sub2 V (scale2 (dot2 V u) u)) in T by (clear; clearbody V; destruct V as [a b], u as [a' b']; unfold add2, sub2, scale2, dot2; cbn [x2 y2]; f_equal; ring).
    rewrite norm2_scale, Rabs_Ropp, U, Rmult_1_r in T. pose proof (cauchy2_norm V u) as C2. rewrite U, Rmult_1_r in C2. fold W in C2, T. lra. }
  assert (Q : 16 * P2 (-530) <= P2 (-500)) by (replace 16 with (P2 4) by (rewrite <- P2_Z by lia; reflexivity); rewrite <- P2_add; apply P2_mono; lia).
  assert (Q' : 12 * tiny <= P2 (-530)). { apply Rle_trans with (P2 4 * tiny); [rewrite <- P2_Z by lia; change (IZR (2 ^ 4)) with 16; lra |]. unfold tiny. rewrite <- P2_add. apply P2_mono. lia. }
  pose proof (P2_pos (-530)). apply abs_le in En. apply abs_le in N1. apply abs_le in N2. apply abs_of. set (x := norm2 (val2 c)) in *. set (y := norm2 (sub2 V (scale2 S (val2 d)))) in *.
  assert (XX : x <= 2.1 * W + P2 (-530)) by (unfold e53 in *; lra). unfold e53 in *. lra.
Qed.
