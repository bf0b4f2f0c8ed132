(** Points accepted by containment tests in double precision are close to the object. *)

From Coq Require Import List Bool Arith ZArith Reals Lra Lia Floats.SpecFloat.
From Verif Require Import Result Vec DOrder RotModel AngleModel FloatSpec FloatProofs FloatProofs2 FloatModel FloatProofs3 FloatProofs4 FloatProofs5 FloatProofs7 FloatProofs10
  VecProofs Geo3Types Geo3Model Geo3Spec Geo3Proofs Geo3Proofs2 Geo64Model Geo64Spec Geo64Proofs Geo64Proofs2 Geo64Proofs3.
Import ListNotations.
Local Open Scope R_scope.

Lemma pair_cauchy a b c d N M : a * a + b * b <= N * N -> c * c + d * d <= M * M -> 0 <= N -> 0 <= M -> Rabs (a * d) + Rabs (b * c) <= N * M.
Proof.
  intros H K PN PM. rewrite !Rabs_mult. pose proof (Rabs_pos a) as Pa. pose proof (Rabs_pos b) as Pb. pose proof (Rabs_pos c) as Pc. pose proof (Rabs_pos d) as Pd.
  assert (SQ : forall x, x * x = Rabs x * Rabs x) by (intros x; rewrite <- Rabs_mult, Rabs_right by (apply Rle_ge; nra); reflexivity).
  rewrite (SQ a), (SQ b) in H. rewrite (SQ c), (SQ d) in K. set (a' := Rabs a) in *. set (b' := Rabs b) in *. set (c' := Rabs c) in *. set (d' := Rabs d) in *. clearbody a' b' c' d'.
  apply Rsqr_incr_0_var; [| nra]. unfold Rsqr.
  assert (C : (a' * d' + b' * c') * (a' * d' + b' * c') <= (a' * a' + b' * b') * (c' * c' + d' * d')).
  { assert (0 <= (a' * c' - b' * d') * (a' * c' - b' * d')) by apply Rle_0_sqr. nra. }
  eapply Rle_trans; [exact C |]. replace (N * M * (N * M)) with (N * N * (M * M)) by ring. apply Rmult_le_compat; nra.
Qed.
Lemma absdot_cauchy u v : absdot u v <= norm3 u * norm3 v.
Proof.
  assert (E : absdot u v = dot3 (V3 (Rabs (vx u)) (Rabs (vy u)) (Rabs (vz u))) (V3 (Rabs (vx v)) (Rabs (vy v)) (Rabs (vz v)))) by (unfold absdot, dot3; cbn [vx vy vz]; rewrite !Rabs_mult; reflexivity).
  assert (N : forall w, norm3 (V3 (Rabs (vx w)) (Rabs (vy w)) (Rabs (vz w))) = norm3 w).
  { intros w. unfold norm3, sqnorm3, dot3. cbn [vx vy vz]. rewrite <- !Rabs_mult, !Rabs_right by (apply Rle_ge; nra). reflexivity. }
  rewrite E. eapply Rle_trans; [apply Rle_abs |]. eapply Rle_trans; [apply cauchy3_norm |]. rewrite !N. lra.
Qed.
Lemma norm3_sum a : norm3 a <= Rabs (vx a) + Rabs (vy a) + Rabs (vz a).
Proof.
  pose proof (Rabs_pos (vx a)). pose proof (Rabs_pos (vy a)). pose proof (Rabs_pos (vz a)). unfold norm3. rewrite <- (sqrt_square (Rabs (vx a) + _ + _)) by lra. apply sqrt_le_1_alt. unfold sqnorm3, dot3.
  assert (SQ : forall x, x * x = Rabs x * Rabs x) by (intros x; rewrite <- Rabs_mult, Rabs_right by (apply Rle_ge; nra); reflexivity). rewrite (SQ (vx a)), (SQ (vy a)), (SQ (vz a)). nra.
Qed.

(** A component of a cross product whose square rounds to zero. *)
Lemma square_small x k : finite64 x -> Rabs (rval x) <= P2 k -> (-500 <= k <= 500)%Z -> rval (b64_mul x x) = 0 -> Rabs (rval x) <= P2 (-537).
Proof.
  intros F B K Z. destruct (mul_bound x x k k F F B B ltac:(lia) ltac:(lia)) as (_ & N & _). pose proof (rounded_any _ _ N) as E. rewrite Z in E.
  replace (0 - rval x * rval x) with (- (rval x * rval x)) in E by ring. rewrite Rabs_Ropp in E. rewrite Rabs_mult in E.
  assert (T : P2 (-1075) * 2 = P2 (-537) * P2 (-537)) by (rewrite <- P2_add; replace (-537 + -537)%Z with (-1075 + 1)%Z by lia; rewrite P2_succ; ring).
  pose proof (Rabs_pos (rval x)). pose proof (P2_pos (-537)). apply Rsqr_incr_0_var; [| lra]. unfold Rsqr. rewrite <- T. unfold e53 in E. pose proof (P2_pos (-1075)). set (w := Rabs (rval x) * Rabs (rval x)) in *. lra.
Qed.
Lemma cross_comp a b c d A B C D k : finite64 a -> finite64 b -> finite64 c -> finite64 d ->
  Rabs (rval a) <= P2 k -> Rabs (rval b) <= P2 k -> Rabs (rval c) <= P2 k -> Rabs (rval d) <= P2 k -> (-230 <= k <= 230)%Z ->
  Rabs (rval a - A) <= e53 * Rabs A -> Rabs (rval b - B) <= e53 * Rabs B -> Rabs (rval c - C) <= e53 * Rabs C -> Rabs (rval d - D) <= e53 * Rabs D ->
  let w := sf_sub (b64_mul a d) (b64_mul b c) in
  finite64 w /\ 0 <= rval (b64_mul w w) <= P2 950 /\ finite64 (b64_mul w w) /\ (rval (b64_mul w w) = 0 -> Rabs (A * D - B * C) <= 4 * e53 * (Rabs (A * D) + Rabs (B * C)) + P2 (-530)).
Proof.
  intros Fa Fb Fc Fd Ba Bb Bc Bd K Ea Eb Ec Ed w.
  destruct (mul_bound _ _ k k Fa Fd Ba Bd ltac:(lia) ltac:(lia)) as (F1 & N1 & M1). destruct (mul_bound _ _ k k Fb Fc Bb Bc ltac:(lia) ltac:(lia)) as (F2' & N2 & M2).
  pose proof (term_err _ _ _ _ _ Ea Ed (rounded_any _ _ N1)) as T1. pose proof (term_err _ _ _ _ _ Eb Ec (rounded_any _ _ N2)) as T2.
  destruct (sub_rel _ _ (k + k) F1 F2' M1 M2 ltac:(lia)) as (Fw & Ew & Bw). fold w in Fw, Ew, Bw.
  destruct (square_pos w (k + k + 2) Fw Bw ltac:(lia)) as [Fq Bq]. split; [exact Fw |]. split; [split; [apply Bq |]; eapply Rle_trans; [apply Bq | apply P2_mono; lia] |]. split; [exact Fq |].
  intros Z. pose proof (square_small w _ Fw Bw ltac:(lia) Z) as S. set (m := rval (b64_mul a d)) in *. set (n := rval (b64_mul b c)) in *. set (x := rval w) in *.
  assert (H : Rabs (m - n) <= 2 * P2 (-537)).
  { pose proof (Rabs_triang (m - n - x) x) as T. replace (m - n - x + x) with (m - n) in T by ring. rewrite (Rabs_minus_sym (m - n)) in T. unfold e53 in Ew. pose proof (Rabs_pos (m - n)). lra. }
  assert (Q : P2 (-530) = 128 * P2 (-537)) by (replace 128 with (P2 7) by (rewrite <- P2_Z by lia; reflexivity); rewrite <- P2_add; reflexivity).
  assert (Q' : tiny <= P2 (-537)) by (apply P2_mono; lia). pose proof tiny_pos. rewrite Q. apply abs_le in H. apply abs_le in T1. apply abs_le in T2. pose proof (Rabs_pos (A * D)). pose proof (Rabs_pos (B * C)).
  apply abs_of. unfold e53 in *. lra.
Qed.
Lemma small400 : 3 * P2 (-530) <= P2 (-500).
Proof. eapply Rle_trans; [| apply P2_mono; instantiate (1 := (-528)%Z); lia]. replace (-528)%Z with (-530 + 1 + 1)%Z by lia. rewrite !P2_succ. pose proof (P2_pos (-530)). lra. Qed.
(** If the rounded cross product of two rounded vectors has a rounded square norm of zero, the exact cross product is small. *)
Lemma cross_small r d d' v v' k : finite3 d -> finite3 d' -> within3 (P2 k) d -> within3 (P2 k) d' -> approx3 d v -> approx3 d' v' -> (-230 <= k <= 230)%Z ->
  SFeqb (fsqnorm3 r (fcross3 d d')) zero64 = true -> norm3 (cross3 v v') <= P2 (-49) * (norm3 v * norm3 v') + P2 (-500).
Proof.
  intros (Ax & Ay & Az) (Bx & By & Bz) (Ux & Uy & Uz) (Vx & Vy & Vz) (Px & Py & Pz) (Qx & Qy & Qz) K. unfold fsqnorm3, fdot3, fcross3. cbn [fx fy fz].
  destruct (cross_comp _ _ _ _ _ _ _ _ k Ay Az By Bz Uy Uz Vy Vz K Py Pz Qy Qz) as (F1 & P1 & G1 & H1).
  destruct (cross_comp _ _ _ _ _ _ _ _ k Az Ax Bz Bx Uz Ux Vz Vx K Pz Px Qz Qx) as (F2' & P2' & G2 & H2).
  destruct (cross_comp _ _ _ _ _ _ _ _ k Ax Ay Bx By Ux Uy Vx Vy K Px Py Qx Qy) as (F3' & P3' & G3 & H3).
  destruct (sum64_pos r _ _ _ 950 G1 G2 G3 P1 P2' P3' ltac:(lia)) as (F & L1 & L2 & L3 & _). rewrite SFeqb_val by (exact F || exact I). intros E. change (rval zero64) with 0 in E.
  specialize (H1 ltac:(lra)). specialize (H2 ltac:(lra)). specialize (H3 ltac:(lra)). clear - H1 H2 H3.
  assert (N0 : forall w, 0 <= norm3 w) by (intros; apply sqrt_pos). pose proof (norm3_sq v) as Sv. pose proof (norm3_sq v') as Sv'. unfold sqnorm3, dot3 in Sv, Sv'.
  assert (Q : P2 (-49) = 16 * e53) by (rewrite <- e53_P2; replace 16 with (P2 4) by (rewrite <- P2_Z by lia; reflexivity); rewrite <- P2_add; reflexivity).
  pose proof (norm3_sum (cross3 v v')) as T. unfold cross3 in *. cbn [vx vy vz] in T. rewrite Q. pose proof small400.
  assert (C1 : Rabs (vy v * vz v') + Rabs (vz v * vy v') <= norm3 v * norm3 v') by (apply pair_cauchy; try apply N0; nra).
  assert (C2 : Rabs (vz v * vx v') + Rabs (vx v * vz v') <= norm3 v * norm3 v') by (apply pair_cauchy; try apply N0; nra).
  assert (C3 : Rabs (vx v * vy v') + Rabs (vy v * vx v') <= norm3 v * norm3 v') by (apply pair_cauchy; try apply N0; nra).
  assert (0 <= norm3 v * norm3 v') by (apply Rmult_le_pos; apply N0). unfold e53 in *. lra.
Qed.
Lemma exact_approx d : approx3 d (val3 d).
Proof.
  unfold approx3, val3. cbn [vx vy vz]. assert (Z : forall x, Rabs (x - x) <= e53 * Rabs x); [| split; [apply Z | split; apply Z]].
  intros x. rewrite Rminus_diag_eq, Rabs_R0 by reflexivity. pose proof (Rabs_pos x). unfold e53. lra.
Qed.
Lemma dot_err' r d d' v v' k : finite3 d -> finite3 d' -> within3 (P2 k) d -> within3 (P2 k) d' -> approx3 d v -> approx3 d' v' -> (-500 <= k <= 490)%Z ->
  finite64 (fdot3 r d d') /\ Rabs (rval (fdot3 r d d') - dot3 v v') <= P2 (-50) * (norm3 v * norm3 v') + P2 (-500) / 2.
Proof.
  intros A B C D E F K. destruct (dot_err r d d' v v' k A B C D E F K) as [G H]. split; [exact G |]. eapply Rle_trans; [exact H |].
  assert (Q' : P2 (-50) = 8 * e53) by (rewrite <- e53_P2; replace 8 with (P2 3) by (rewrite <- P2_Z by lia; reflexivity); rewrite <- P2_add; reflexivity).
  assert (Q : 8 * tiny <= P2 (-500)) by (unfold tiny; replace 8 with (P2 3) by (rewrite <- P2_Z by lia; reflexivity); rewrite <- P2_add; apply P2_mono; lia).
  pose proof (absdot_cauchy v v') as T. pose proof tiny_pos. assert (0 <= norm3 v * norm3 v') by (apply Rmult_le_pos; apply sqrt_pos). rewrite Q'. unfold e53. lra.
Qed.
Lemma within_weaken k l a : (k <= l)%Z -> within3 (P2 k) a -> within3 (P2 l) a.
Proof. intros H (X & Y & Z). pose proof (P2_mono k l H). repeat split; lra. Qed.

(** *** Lines, rays, planes and segments *)
Lemma c126_line_near r o d p : finite3 o -> finite3 d -> finite3 p -> within3 (P2 200) o -> within3 (P2 200) d -> within3 (P2 200) p ->
  (l64_contains r (mkL64 (Some o) (Some d)) (Some p) = Ok true ->
    norm3 (cross3 (val3 d) (sub3 (val3 p) (val3 o))) <= P2 (-49) * (norm3 (val3 d) * dist3 (val3 p) (val3 o)) + P2 (-500)) /\
  (r64_contains r (mkL64 (Some o) (Some d)) (Some p) = Ok true ->
    norm3 (cross3 (val3 d) (sub3 (val3 p) (val3 o))) <= P2 (-49) * (norm3 (val3 d) * dist3 (val3 p) (val3 o)) + P2 (-500) /\
    - (P2 (-50) * (norm3 (val3 d) * dist3 (val3 p) (val3 o)) + P2 (-500)) <= dot3 (val3 d) (sub3 (val3 p) (val3 o))).
Proof.
  intros Fo Fd Fp Bo Bd Bp. destruct (sub3_approx p o 200 Fp Fo Bp Bo ltac:(lia)) as (Fs & Bs & As). pose proof (within_weaken 200 (200 + 2) _ ltac:(lia) Bd) as Bd'.
  unfold l64_contains, r64_contains. cbn [need3 bind l64_data l64_origin l64_direction]. unfold dist3.
  assert (C : SFeqb (fsqnorm3 r (fcross3 d (fsub3 p o))) zero64 = true -> norm3 (cross3 (val3 d) (sub3 (val3 p) (val3 o))) <= P2 (-49) * (norm3 (val3 d) * norm3 (sub3 (val3 p) (val3 o))) + P2 (-500)).
  { apply cross_small with (200 + 2)%Z; try assumption; [apply exact_approx | lia]. }
  split; intros H.
  - apply C. destruct (SFeqb _ zero64); [reflexivity | discriminate].
  - destruct (SFeqb _ zero64) eqn:E; [| discriminate]. cbn [andb] in H. split; [apply C; reflexivity |].
    destruct (dot_err' r _ _ _ _ (200 + 2) Fd Fs Bd' Bs (exact_approx d) As ltac:(lia)) as [Ft Et]. destruct (SFleb zero64 (fdot3 r d (fsub3 p o))) eqn:L; [| discriminate].
    apply SFleb_val in L; [| exact I | exact Ft]. change (rval zero64) with 0 in L. apply abs_le in Et. pose proof (P2_pos (-500)). lra.
Qed.
Lemma c126_plane_near r q n p : finite3 q -> finite3 n -> finite3 p -> within3 (P2 200) q -> within3 (P2 200) n -> within3 (P2 200) p ->
  p64_contains r (mkP64 (Some q) (Some n)) (Some p) = Ok true ->
  Rabs (dot3 (sub3 (val3 p) (val3 q)) (val3 n)) <= P2 (-50) * (dist3 (val3 p) (val3 q) * norm3 (val3 n)) + P2 (-500).
Proof.
  intros Fq Fn Fp Bq Bn Bp. destruct (sub3_approx p q 200 Fp Fq Bp Bq ltac:(lia)) as (Fs & Bs & As). pose proof (within_weaken 200 (200 + 2) _ ltac:(lia) Bn) as Bn'.
  unfold p64_contains. cbn [need3 bind p64_point p64_normal]. intros H. destruct (SFeqb _ zero64) eqn:E; [| discriminate].
  destruct (dot_err' r _ _ _ _ (200 + 2) Fs Fn Bs Bn' As (exact_approx n) ltac:(lia)) as [Ft Et]. apply SFeqb_val in E; [| exact Ft | exact I]. change (rval zero64) with 0 in E. rewrite E in Et.
  unfold dist3. set (t := dot3 _ _) in *. replace (0 - t) with (- t) in Et by ring. rewrite Rabs_Ropp in Et. pose proof (P2_pos (-500)). lra.
Qed.
Lemma c126_segment_near r a b p : finite3 a -> finite3 b -> finite3 p -> within3 (P2 200) a -> within3 (P2 200) b -> within3 (P2 200) p ->
  s64_contains r (mkS64 (Some a) (Some b)) (Some p) = Ok true ->
  norm3 (cross3 (sub3 (val3 b) (val3 a)) (sub3 (val3 p) (val3 a))) <= P2 (-49) * (dist3 (val3 b) (val3 a) * dist3 (val3 p) (val3 a)) + P2 (-500) /\
  - (P2 (-50) * (dist3 (val3 b) (val3 a) * dist3 (val3 p) (val3 a)) + P2 (-500)) <= dot3 (sub3 (val3 b) (val3 a)) (sub3 (val3 p) (val3 a)) /\
  dot3 (sub3 (val3 b) (val3 a)) (sub3 (val3 p) (val3 a)) <= sqnorm3 (sub3 (val3 b) (val3 a)) + P2 (-50) * (dist3 (val3 b) (val3 a) * (dist3 (val3 p) (val3 a) + dist3 (val3 b) (val3 a))) + P2 (-500).
Proof.
  intros Fa Fb Fp Ba Bb Bp. destruct (sub3_approx p a 200 Fp Fa Bp Ba ltac:(lia)) as (Fs & Bs & As). destruct (sub3_approx b a 200 Fb Fa Bb Ba ltac:(lia)) as (Ft & Bt & At).
  unfold s64_contains. cbn [need3 bind s64_data s64_first s64_second]. pose proof (P2_pos (-500)). pose proof (P2_pos (-49)). pose proof (P2_pos (-50)).
  assert (N0 : 0 <= dist3 (val3 b) (val3 a) * dist3 (val3 p) (val3 a)) by (apply Rmult_le_pos; apply sqrt_pos). assert (N1 : 0 <= dist3 (val3 b) (val3 a) * dist3 (val3 b) (val3 a)) by (apply Rmult_le_pos; apply sqrt_pos).
  pose proof (Rmult_le_pos _ _ (Rlt_le _ _ (P2_pos (-49))) N0) as N2. pose proof (Rmult_le_pos _ _ (Rlt_le _ _ (P2_pos (-50))) N0) as N3. pose proof (Rmult_le_pos _ _ (Rlt_le _ _ (P2_pos (-50))) N1) as N4.
  destruct (feq3 a b) eqn:E.
  - intros H'. apply (f_equal (fun x => match x with Ok t => t | _ => false end)) in H'. apply (feq3_val a p Fa Fp) in H'. apply (feq3_val a b Fa Fb) in E. rewrite <- H', <- E in *.
    assert (Z : sub3 (val3 a) (val3 a) = zero3) by (unfold sub3, zero3; f_equal; ring). rewrite Z in *. unfold sqnorm3, dot3, cross3, zero3. cbn [vx vy vz].
    replace (norm3 _) with 0 by (unfold norm3, sqnorm3, dot3; cbn [vx vy vz]; replace (_ + _ + _) with 0 by ring; symmetry; apply sqrt_0). repeat split; lra.
  - destruct (SFeqb (fsqnorm3 r _) zero64) eqn:C; [| discriminate]. intros K. split.
    + apply cross_small with r (fsub3 b a) (fsub3 p a) (200 + 2)%Z; try assumption. lia.
    + destruct (dot_err' r _ _ _ _ (200 + 2) Ft Fs Bt Bs At As ltac:(lia)) as [F1 E1]. destruct (dot_err' r _ _ _ _ (200 + 2) Ft Ft Bt Bt At At ltac:(lia)) as [F2' E2].
      destruct (SFleb zero64 _) eqn:L1; [| discriminate]. destruct (SFleb (fdot3 r (fsub3 b a) (fsub3 p a)) _) eqn:L2; [| discriminate].
      apply SFleb_val in L1; [| exact I | exact F1]. apply SFleb_val in L2; [| exact F1 | exact F2']. change (rval zero64) with 0 in L1. apply abs_le in E1. apply abs_le in E2. unfold dist3 in *. unfold sqnorm3. split; lra.
Qed.
