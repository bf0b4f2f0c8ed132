(** The shortest rotation between two vectors (C145). *)

From Coq Require Import List Bool ZArith Reals Lra Lia Psatz Floats.SpecFloat.
From Verif Require Import Result Vec Mat3 VecProofs AngleModel FloatModel FloatSpec FloatProofs FloatProofs2 FloatProofs3 FloatProofs4 FloatProofs5 FloatProofs7 FloatProofs8 FloatProofs10
  Geo3Spec Geo3Proofs Geo3Proofs2 Geo64Model Geo64Spec Geo64Proofs Geo64Proofs2 Geo64Proofs3 Geo64Proofs4 Geo64Proofs5 Geo64Proofs6 Geo64Proofs7 Geo64Proofs8 RotModel RotSpec RotProofs RotProofs2 RotProofs3 RotProofs4 RotProofs9 Rot64Model Rot64Spec Rot64Spec2 Rot64Proofs Rot64Proofs2 Rot64Proofs3 Rot64Proofs4 Rot64Proofs5 Rot64Proofs6 Rot64Proofs7 Rot64Proofs8 Rot64Proofs9 Rot64Proofs10 Rot64Proofs11 Rot64Proofs12 Rot64Proofs13 Rot64Proofs14 Rot64Proofs15 Rot64Proofs16 Rot64Proofs17 Att64Model Att64Spec Att64Proofs Att64Proofs2 Att64Proofs3.
Import ListNotations.
Local Open Scope R_scope.

(** *** Products of vectors *)
Lemma norm_box d c : 0 <= c -> Rabs (vx d) <= c -> Rabs (vy d) <= c -> Rabs (vz d) <= c -> norm3 d <= 1.7321 * c.
Proof.
  intros C X Y Z. unfold norm3. rewrite <- (sqrt_square (1.7321 * c)) by lra. apply sqrt_le_1_alt. unfold sqnorm3, dot3.
  assert (S : forall x, Rabs x <= c -> x * x <= c * c) by (intros x H; rewrite <- (Rabs_pos_eq (x * x)) by nra; rewrite Rabs_mult; apply Rmult_le_compat; try apply Rabs_pos; exact H).
  pose proof (S _ X). pose proof (S _ Y). pose proof (S _ Z). nra.
Qed.
Lemma norm_cross a b : norm3 (cross3 a b) <= norm3 a * norm3 b.
Proof.
  pose proof (norm3_nonneg a). pose proof (norm3_nonneg b). unfold norm3 at 1. rewrite <- (sqrt_square (norm3 a * norm3 b)) by (apply Rmult_le_pos; assumption). apply sqrt_le_1_alt. rewrite lagrange3.
  replace (norm3 a * norm3 b * (norm3 a * norm3 b)) with ((norm3 a * norm3 a) * (norm3 b * norm3 b)) by ring. rewrite !norm3_sq. pose proof (Rle_0_sqr (dot3 a b)) as S. unfold Rsqr in S. lra.
Qed.
Lemma cross_perturbed a b a' b' s : norm3 a' <= 1.001 -> norm3 b <= 1.001 -> dist3 a' a <= s -> dist3 b' b <= s -> dist3 (cross3 a' b') (cross3 a b) <= 2.002 * s.
Proof.
  intros A B DA DB. unfold dist3 in *. replace (sub3 (cross3 a' b') (cross3 a b)) with (add3 (cross3 a' (sub3 b' b)) (cross3 (sub3 a' a) b)) by (unfold cross3, sub3, add3; cbn [vx vy vz]; f_equal; ring).
  eapply Rle_trans; [apply norm3_triangle |]. pose proof (norm_cross a' (sub3 b' b)). pose proof (norm_cross (sub3 a' a) b). pose proof (norm3_nonneg a'). pose proof (norm3_nonneg b). pose proof (norm3_nonneg (sub3 a' a)). pose proof (norm3_nonneg (sub3 b' b)).
  assert (norm3 a' * norm3 (sub3 b' b) <= 1.001 * s) by (apply Rmult_le_compat; lra). assert (norm3 (sub3 a' a) * norm3 b <= s * 1.001) by (apply Rmult_le_compat; lra). lra.
Qed.
Lemma sub_products x y z w : finite64 x -> finite64 y -> finite64 z -> finite64 w -> Rabs (rval x * rval y) <= 2 -> Rabs (rval z * rval w) <= 2 ->
  finite64 (sf_sub (b64_mul x y) (b64_mul z w)) /\ Rabs (rval (sf_sub (b64_mul x y) (b64_mul z w)) - (rval x * rval y - rval z * rval w)) <= 2.0001 * e53 * (Rabs (rval x * rval y) + Rabs (rval z * rval w)) + 3 * tiny.
Proof.
  intros Fx Fy Fz Fw A B. pose proof P2_ge1023 as PM. pose proof e53_pos as PE. pose proof tiny_pos as TP. pose proof tiny_e4 as TE. assert (E9 : e53 <= / 1000000000) by (unfold e53; lra).
  destruct (mul_any x y Fx Fy ltac:(lra)) as [F1 E1]. destruct (mul_any z w Fz Fw ltac:(lra)) as [F2 E2]. set (p := rval x * rval y) in *. set (q := rval z * rval w) in *. set (P := Rabs p) in *. set (Q := Rabs q) in *. pose proof (Rabs_pos p) as P0. pose proof (Rabs_pos q) as Q0. fold P in P0. fold Q in Q0.
  assert (EP : 0 <= e53 * P <= 2 * e53) by (split; [apply Rmult_le_pos; lra | apply Rle_trans with (e53 * 2); [apply Rmult_le_compat_l |]; lra]). assert (EQ : 0 <= e53 * Q <= 2 * e53) by (split; [apply Rmult_le_pos; lra | apply Rle_trans with (e53 * 2); [apply Rmult_le_compat_l |]; lra]).
  assert (BP : - P <= p <= P) by (apply abs_le; apply Rle_refl). assert (BQ : - Q <= q <= Q) by (apply abs_le; apply Rle_refl). apply abs_le in E1. apply abs_le in E2.
  assert (H : Rabs (rval (b64_mul x y) - rval (b64_mul z w)) <= (1 + e53) * (P + Q) + 2 * tiny) by (apply abs_of; lra).
  destruct (sub_any _ _ F1 F2 ltac:(eapply Rle_trans; [exact H |]; lra)) as [F3 E3]. split; [exact F3 |]. apply abs_le in E3. assert (K : e53 * Rabs (rval (b64_mul x y) - rval (b64_mul z w)) <= e53 * ((1 + e53) * (P + Q) + 2 * tiny)) by (apply Rmult_le_compat_l; lra).
  assert (K2 : e53 * (e53 * (P + Q)) <= / 1000000000 * (e53 * (P + Q))) by (apply Rmult_le_compat_r; lra). assert (K3 : e53 * tiny <= / 1000000000 * tiny) by (apply Rmult_le_compat_r; lra). apply abs_of. lra.
Qed.
Lemma pair_le x y z w A B : x * x + z * z <= A * A -> y * y + w * w <= B * B -> 0 <= A -> 0 <= B -> Rabs (x * y) + Rabs (z * w) <= A * B.
Proof.
  intros HA HB PA PB. rewrite !Rabs_mult. apply Rsqr_incr_0; [| pose proof (Rabs_pos x); pose proof (Rabs_pos y); pose proof (Rabs_pos z); pose proof (Rabs_pos w); nra | apply Rmult_le_pos; assumption]. unfold Rsqr.
  assert (S : forall t, Rabs t * Rabs t = t * t) by (intros t; rewrite <- Rabs_mult; apply Rabs_pos_eq; nra).
  assert (K : (Rabs x * Rabs y + Rabs z * Rabs w) * (Rabs x * Rabs y + Rabs z * Rabs w) = (x * x + z * z) * (y * y + w * w) - (Rabs x * Rabs w - Rabs z * Rabs y) * (Rabs x * Rabs w - Rabs z * Rabs y)) by (rewrite <- (S x), <- (S y), <- (S z), <- (S w); ring).
  rewrite K. replace (A * B * (A * B)) with ((A * A) * (B * B)) by ring. pose proof (Rle_0_sqr (Rabs x * Rabs w - Rabs z * Rabs y)) as Q. unfold Rsqr in Q. assert ((x * x + z * z) * (y * y + w * w) <= (A * A) * (B * B)) by (apply Rmult_le_compat; nra). lra.
Qed.
Lemma cross_near a b : finite3 a -> finite3 b -> norm3 (val3 a) <= 1.001 -> norm3 (val3 b) <= 1.001 -> finite3 (fcross3 a b) /\ dist3 (val3 (fcross3 a b)) (cross3 (val3 a) (val3 b)) <= 3.48 * e53.
Proof.
  intros (F1 & F2 & F3) (G1 & G2 & G3) NA NB. pose proof (norm3_nonneg (val3 a)) as PA. pose proof (norm3_nonneg (val3 b)) as PB. pose proof (norm3_sq (val3 a)) as SA. pose proof (norm3_sq (val3 b)) as SB.
  set (A := norm3 (val3 a)) in *. set (B := norm3 (val3 b)) in *. unfold sqnorm3, dot3, val3 in SA, SB. cbn [vx vy vz] in SA, SB. assert (AB : A * B <= 1.0021) by (apply Rle_trans with (1.001 * 1.001); [apply Rmult_le_compat; lra | lra]). pose proof e53_pos as PE. pose proof tiny_e4 as TE. pose proof tiny_pos as TP.
  assert (S : forall x y z w, finite64 x -> finite64 y -> finite64 z -> finite64 w -> rval x * rval x + rval z * rval z <= A * A -> rval y * rval y + rval w * rval w <= B * B ->
    finite64 (sf_sub (b64_mul x y) (b64_mul z w)) /\ Rabs (rval (sf_sub (b64_mul x y) (b64_mul z w)) - (rval x * rval y - rval z * rval w)) <= 2.0047 * e53).
  { intros x y z w Fx Fy Fz Fw X Y. pose proof (pair_le _ _ _ _ A B X Y PA PB) as L. pose proof (Rabs_pos (rval x * rval y)). pose proof (Rabs_pos (rval z * rval w)). destruct (sub_products x y z w Fx Fy Fz Fw ltac:(lra) ltac:(lra)) as [F E]. split; [exact F |]. eapply Rle_trans; [exact E |].
    assert (e53 * (Rabs (rval x * rval y) + Rabs (rval z * rval w)) <= e53 * 1.0021) by (apply Rmult_le_compat_l; lra). lra. }
  pose proof (Rle_0_sqr (rval (fx a))) as Q1. pose proof (Rle_0_sqr (rval (fy a))) as Q2. pose proof (Rle_0_sqr (rval (fz a))) as Q3. pose proof (Rle_0_sqr (rval (fx b))) as Q4. pose proof (Rle_0_sqr (rval (fy b))) as Q5. pose proof (Rle_0_sqr (rval (fz b))) as Q6. unfold Rsqr in *.
  destruct (S (fy a) (fz b) (fz a) (fy b) F2 G3 F3 G2 ltac:(lra) ltac:(lra)) as [H1 E1]. destruct (S (fz a) (fx b) (fx a) (fz b) F3 G1 F1 G3 ltac:(lra) ltac:(lra)) as [H2 E2]. destruct (S (fx a) (fy b) (fy a) (fx b) F1 G2 F2 G1 ltac:(lra) ltac:(lra)) as [H3 E3].
  split; [repeat split; assumption |]. unfold dist3. eapply Rle_trans; [apply (norm_box _ (2.0047 * e53)) |]; [lra | exact E1 | exact E2 | exact E3 | lra].
Qed.

(** *** The half way quaternion *)
Lemma half_way_len a b : norm3 a = 1 -> norm3 b = 1 -> len4 (half_way a b) = norm3 (add3 a b).
Proof.
  intros A B. apply norm_sqnorm in A. apply norm_sqnorm in B. unfold len4, norm3. rewrite half_way_sq by assumption. f_equal. revert A B. unfold sqnorm3, dot3, add3. cbn [vx vy vz]. lra.
Qed.
Lemma shortest_raw r u v : finite3 u -> finite3 v -> within3 (P2 450) u -> within3 (P2 450) v -> P2 (-450) <= norm3 (val3 u) -> P2 (-450) <= norm3 (val3 v) ->
  let a := fnormalized3 r u in let b := fnormalized3 r v in let q := parts64 (fcross3 b a) (sf_add one_64 (fdot3 r a b)) in finite4 q /\ gap4 (val4 q) (half_way (direction (val3 u)) (direction (val3 v))) <= 16.5 * e53.
Proof.
  intros Fu Fv Wu Wv Nu Nv a b q. pose proof (P2_pos (-450)) as P450. destruct (normalized_tight r u Fu Wu Nu) as [Fa Da]. destruct (normalized_tight r v Fv Wv Nv) as [Fb Db]. fold a in Fa, Da. fold b in Fb, Db. set (A := direction (val3 u)) in *. set (B := direction (val3 v)) in *.
  assert (UA : norm3 A = 1) by (apply direction_norm; lra). assert (UB : norm3 B = 1) by (apply direction_norm; lra). pose proof e53_pos as PE. assert (E9 : e53 <= / 1000000000) by (unfold e53; lra). pose proof tiny_e4 as TE. pose proof tiny_pos as TP.
  pose proof (normalized_len r u Fu Wu Nu) as La. pose proof (normalized_len r v Fv Wv Nv) as Lb. fold a in La. fold b in Lb. apply abs_le in La. apply abs_le in Lb.
  destruct (cross_near b a Fb Fa ltac:(lra) ltac:(lra)) as [Fc Ec]. pose proof (cross_perturbed B A (val3 b) (val3 a) (3.62 * e53) ltac:(lra) ltac:(lra) Db Da) as Pc.
  assert (W : forall c, finite3 c -> norm3 (val3 c) <= 2 -> within3 (P2 450) c). { intros c Fc' Nc. destruct (coordinate_le (val3 c)) as (C1 & C2 & C3). unfold val3 in C1, C2, C3; cbn [vx vy vz] in C1, C2, C3. pose proof (P2_mono 1 450 ltac:(lia)) as PM. rewrite <- (P2_Z 1) in PM by lia. change (IZR (2 ^ 1)) with 2 in PM. fold (val3 c) in C1, C2, C3. repeat split; lra. }
  destruct (fdot3_near r a b Fa Fb (W a Fa ltac:(lra)) (W b Fb ltac:(lra))) as [Fd Ed]. pose proof (dot_perturbed A B (val3 a) (val3 b) (3.62 * e53) ltac:(lra) ltac:(lra) Da Db ltac:(lra)) as Pd.
  assert (N2 : norm3 (val3 a) * norm3 (val3 b) <= 1.0001) by (pose proof (norm3_nonneg (val3 a)); pose proof (norm3_nonneg (val3 b)); apply Rle_trans with ((1 + 3.62 * e53) * (1 + 3.62 * e53)); [apply Rmult_le_compat; lra | nra]).
  assert (E2 : 3.03 * e53 * (norm3 (val3 a) * norm3 (val3 b)) <= 3.03 * e53 * 1.0001) by (apply Rmult_le_compat_l; lra). assert (CS : Rabs (dot3 A B) <= 1) by (pose proof (cauchy3_norm A B) as C; rewrite UA, UB in C; lra). apply abs_le in Ed. apply abs_le in Pd. apply abs_le in CS.
  destruct one_val as [FO VO]. pose proof P2_ge1023. destruct (add_any one_64 (fdot3 r a b) FO Fd ltac:(rewrite VO; apply abs_of; lra)) as [Fs Es]. rewrite VO in Es. assert (K : e53 * Rabs (1 + rval (fdot3 r a b)) <= e53 * 2.001) by (apply Rmult_le_compat_l; [lra | apply abs_of; lra]). apply abs_le in Es.
  split; [repeat split; assumption || apply Fc |]. unfold half_way. change (val4 q) with (of_parts (val3 (fcross3 b a)) (rval (sf_add one_64 (fdot3 r a b)))). apply gap_parts; [lra |]. pose proof (dist3_triangle (val3 (fcross3 b a)) (cross3 (val3 b) (val3 a)) (cross3 B A)) as T. assert (T0 : 0 <= dist3 (val3 (fcross3 b a)) (cross3 B A)) by apply norm3_nonneg.
  assert (T1 : dist3 (val3 (fcross3 b a)) (cross3 B A) <= 10.74 * e53) by lra. assert (S1 : Rabs (rval (sf_add one_64 (fdot3 r a b)) - (1 + dot3 A B)) <= 12.37 * e53) by (apply abs_of; lra).
  assert (Q1 : dist3 (val3 (fcross3 b a)) (cross3 B A) * dist3 (val3 (fcross3 b a)) (cross3 B A) <= (10.74 * e53) * (10.74 * e53)) by (apply Rmult_le_compat; lra).
  set (s := rval (sf_add one_64 (fdot3 r a b)) - (1 + dot3 A B)) in *. assert (Q2 : s * s <= (12.37 * e53) * (12.37 * e53)) by (rewrite <- (Rabs_pos_eq (s * s)) by nra; rewrite Rabs_mult; apply Rmult_le_compat; try apply Rabs_pos; exact S1). nra.
Qed.
Lemma half_way_target a b : norm3 a = 1 -> norm3 b = 1 -> 0 < norm3 (add3 a b) -> let p := times4 (/ norm3 (add3 a b)) (half_way a b) in
  len4 p = 1 /\ turned4 p a = b /\ dot3 (vec p) a = 0 /\ dot3 (vec p) b = 0 /\ 0 < qs p /\ half_way a b = times4 (norm3 (add3 a b)) p.
Proof.
  intros A B K p. pose proof (half_way_len a b A B) as L. set (k := norm3 (add3 a b)) in *. pose proof (Rinv_0_lt_compat k K) as IK. pose proof (norm_sqnorm a A) as SA. pose proof (norm_sqnorm b B) as SB.
  assert (KK : k * k = 2 * (1 + dot3 a b)) by (rewrite <- (half_way_sq a b SA SB), <- L; unfold len4; apply sqrt_sqrt; unfold sq; generalize (half_way a b); intros [x0 y0 z0 s0]; cbn [qx qy qz qs]; nra).
  split; [unfold p; rewrite len4_times, L, Rabs_pos_eq by lra; apply Rinv_l; lra |]. split.
  { rewrite turned_rot. unfold p. change (times4 (/ k) (half_way a b)) with (qscale (/ k) (half_way a b)). rewrite rot_qscale, half_way_rot by assumption. rewrite <- KK. destruct b as [x0 y0 z0]. unfold scale3. cbn [vx vy vz]. f_equal; field; lra. }
  split; [unfold p, half_way, vec, times4, of_parts, dot3, cross3; cbn [qx qy qz qs vx vy vz]; ring |]. split; [unfold p, half_way, vec, times4, of_parts, dot3, cross3; cbn [qx qy qz qs vx vy vz]; ring |].
  split; [unfold p, half_way, times4, of_parts; cbn [qs]; apply Rmult_lt_0_compat; [exact IK | nra] |]. unfold p. destruct (half_way a b) as [x0 y0 z0 s0]. unfold times4. cbn [qx qy qz qs]. f_equal; field; lra.
Qed.

(** *** C145 *)
Lemma shortest_near r eps u v : finite3 u -> finite3 v -> within3 (P2 450) u -> within3 (P2 450) v -> P2 (-450) <= norm3 (val3 u) -> P2 (-450) <= norm3 (val3 v) -> let A := direction (val3 u) in let B := direction (val3 v) in let k := norm3 (add3 A B) in
  P2 (-44) <= k -> finite64 eps -> rval eps <= k / 2 -> exists q p, q64_ShortestRotation r eps (Some u) (Some v) = Ok q /\ finite4 q /\ len4 p = 1 /\ turned4 p A = B /\ dot3 (vec p) A = 0 /\ dot3 (vec p) B = 0 /\ 0 < qs p /\ gap4 (val4 q) p <= 41.2 * e53 / k /\
    Rabs (len4 (val4 q) - 1) <= 4.07 * e53 /\ forall tol, finite64 tol -> P2 (-50) <= rval tol -> q64_isUnitary (Some q) (Some tol) = Ok true.
Proof.
  intros Fu Fv Wu Wv Nu Nv A B k Hk Fe He. pose proof (P2_pos (-450)) as P450. pose proof e53_pos as PE. assert (K44 : P2 (-44) = 512 * e53) by (rewrite <- e53_P2; replace 512 with (P2 9) by (rewrite <- P2_Z by lia; reflexivity); rewrite <- P2_add; reflexivity). rewrite K44 in Hk.
  assert (UA : norm3 A = 1) by (apply direction_norm; lra). assert (UB : norm3 B = 1) by (apply direction_norm; lra). assert (K2 : k <= 2) by (pose proof (norm3_triangle A B); unfold k; lra). assert (PK : 0 < k) by lra.
  destruct (half_way_target A B UA UB PK) as (Lp & Tp & D1 & D2 & Sp & Hp). set (p := times4 (/ norm3 (add3 A B)) (half_way A B)) in *. fold k in Hp. destruct (shortest_raw r u v Fu Fv Wu Wv Nu Nv) as [Fq Gq]. fold A B in Gq. rewrite Hp in Gq.
  assert (L440 : P2 (-440) <= k) by (apply Rle_trans with (P2 (-44)); [apply P2_mono; lia | rewrite K44; exact Hk]).
  destruct (normal_target eps _ p k (16.5 * e53) Fq Fe Lp ltac:(lra) Gq ltac:(lra) ltac:(lra)) as (q & Eq & Fq' & G & L & U). exists q, p. split; [exact Eq |]. split; [exact Fq' |]. do 5 (split; [assumption |]). split; [| split; [exact L | exact U]].
  eapply Rle_trans; [exact G |]. pose proof (Rinv_0_lt_compat k PK) as IK. assert (I2 : / 2 <= / k) by (apply Rinv_le_contravar; lra). unfold Rdiv. assert (e53 * / 2 <= e53 * / k) by (apply Rmult_le_compat_l; lra). lra.
Qed.
Lemma c145_accurate r eps u v : finite3 u -> finite3 v -> within3 (P2 450) u -> within3 (P2 450) v -> P2 (-450) <= norm3 (val3 u) -> P2 (-450) <= norm3 (val3 v) -> let A := direction (val3 u) in let B := direction (val3 v) in let k := norm3 (add3 A B) in
  P2 (-44) <= k -> finite64 eps -> rval eps <= k / 2 -> exists q p, q64_ShortestRotation r eps (Some u) (Some v) = Ok q /\ finite4 q /\ len4 p = 1 /\ turned4 p A = B /\ dot3 (vec p) A = 0 /\ dot3 (vec p) B = 0 /\ 0 < qs p /\ gap4 (val4 q) p <= P2 (-47) / k /\
    forall tol, finite64 tol -> P2 (-50) <= rval tol -> q64_isUnitary (Some q) (Some tol) = Ok true.
Proof.
  intros Fu Fv Wu Wv Nu Nv A B k Hk Fe He. destruct (shortest_near r eps u v Fu Fv Wu Wv Nu Nv Hk Fe He) as (q & p & E & F & L & T & D1 & D2 & S & G & _ & U). exists q, p. do 7 (split; [assumption |]). split; [| exact U]. eapply Rle_trans; [exact G |]. fold A B k. rewrite <- e47. unfold Rdiv. apply Rmult_le_compat_r; [apply Rlt_le, Rinv_0_lt_compat; pose proof (P2_pos (-44)); lra | pose proof e53_pos; lra].
Qed.
Lemma c145_rotates r eps u v tol : finite3 u -> finite3 v -> within3 (P2 450) u -> norm3 (val3 u) <= P2 440 -> within3 (P2 450) v -> P2 (-450) <= norm3 (val3 u) -> P2 (-450) <= norm3 (val3 v) -> let k := norm3 (add3 (direction (val3 u)) (direction (val3 v))) in
  P2 (-44) <= k -> finite64 eps -> rval eps <= k / 2 -> finite64 tol -> P2 (-50) <= rval tol ->
  exists q w, q64_ShortestRotation r eps (Some u) (Some v) = Ok q /\ q64_rotateVector r (Some q) (Some u) (Some tol) = Ok w /\ finite3 w /\ dist3 (val3 w) (scale3 (norm3 (val3 u)) (direction (val3 v))) <= P2 (-46) / k * norm3 (val3 u) + P2 (-1069).
Proof.
  intros Fu Fv Wu Bu Wv Nu Nv k Hk Fe He Ft Ht. pose proof (P2_pos (-450)) as P450. pose proof (P2_pos (-44)) as P44. pose proof e53_pos as PE. destruct (shortest_near r eps u v Fu Fv Wu Wv Nu Nv Hk Fe He) as (q & p & E & F & L & T & D1 & D2 & S & G & LQ & U). fold k in G.
  assert (PK : 0 < k) by lra. pose proof (Rinv_0_lt_compat k PK) as IK. assert (K44 : P2 (-44) = 512 * e53) by (rewrite <- e53_P2; replace 512 with (P2 9) by (rewrite <- P2_Z by lia; reflexivity); rewrite <- P2_add; reflexivity). assert (UA : norm3 (direction (val3 u)) = 1) by (apply direction_norm; lra). assert (UB : norm3 (direction (val3 v)) = 1) by (apply direction_norm; lra). assert (K2 : k <= 2) by (pose proof (norm3_triangle (direction (val3 u)) (direction (val3 v))); unfold k; lra).
  assert (G1 : 41.2 * e53 / k <= / 10). { apply (Rmult_le_reg_r k); [exact PK |]. unfold Rdiv. rewrite Rmult_assoc, Rinv_l, Rmult_1_r by lra. lra. }
  destruct (turns_like r q p (41.2 * e53 / k) tol u F LQ L G G1 Ft Ht Fu Bu) as (w & Ew & Fw & Dw). exists q, w. do 3 (split; [assumption |]).
  assert (TU : rot p (val3 u) = scale3 (norm3 (val3 u)) (direction (val3 v))). { rewrite <- T, turned_rot, scale3_dist. f_equal. unfold direction. rewrite scale3_scale, Rinv_r by lra. symmetry. apply scale3_1. }
  rewrite TU in Dw. eapply Rle_trans; [exact Dw |]. apply Rplus_le_compat; [| exact tiny40]. apply Rmult_le_compat_r; [apply norm3_nonneg |]. rewrite <- e46. assert (I2 : / 2 <= / k) by (apply Rinv_le_contravar; lra). assert (e53 * / 2 <= e53 * / k) by (apply Rmult_le_compat_l; lra). unfold Rdiv. assert (0 <= e53 * / k) by (apply Rmult_le_pos; lra). lra.
Qed.
Lemma c145_errors r eps u v : q64_ShortestRotation r eps None v = Err EUndefined /\ q64_ShortestRotation r eps u None = Err EUndefined.
Proof. split; [reflexivity |]. destruct u; reflexivity. Qed.
Lemma sqrt_arg x : finite64 (b64_sqrt x) -> 0 <= rval x.
Proof.
  intros F. destruct x as [s | s | | s m e]; cbn [rval]; try apply Rle_refl. destruct s; [contradiction F |]. apply Rmult_le_pos; [rewrite Rmult_1_l; apply IZR_le; lia | left; apply P2_pos].
Qed.
Lemma fnorm4_upper q : finite4 q -> len4 (val4 q) <= 1 -> finite64 (fnorm4 q) /\ 0 <= rval (fnorm4 q) <= (1 + 3.05 * e53) * len4 (val4 q) + P2 (-440).
Proof.
  intros F L. pose proof (P2_mono 0 450 ltac:(lia)) as M. rewrite P2_0 in M. assert (B : within4 (P2 450) q) by (apply within_len; [exact F | lra]). destruct (fnorm4_any q F B) as (Fn & [N0 _] & _). split; [exact Fn |]. split; [exact N0 |]. pose proof (P2_pos (-440)) as P440. pose proof (len4_pos (val4 q)) as L0. pose proof e53_pos as PE. assert (E9 : e53 <= / 1000000000) by (unfold e53; lra).
  destruct (Rle_lt_dec (P2 (-450)) (len4 (val4 q))) as [H | H]; [destruct (fnorm4_err q F B H) as [_ E]; apply abs_le in E; lra |].
  destruct (fdot4_near q q F F B B) as [Fs E]. rewrite len4_sq in E. change (dot4 (val4 q) (val4 q)) with (sq (val4 q)) in E. apply abs_le in E. pose proof (sqrt_arg _ Fn) as Ps. pose proof (sqrt_err _ Fs Ps) as K. rewrite e53_P2 in K. apply abs_le in K. change (SFsqrt 53 1024 (fdot4 q q)) with (fnorm4 q) in K.
  pose proof (P2_pos (-900)) as P900. assert (S : sq (val4 q) <= P2 (-900)) by (rewrite <- len4_sq; replace (-900)%Z with (-450 + -450)%Z by reflexivity; rewrite P2_add; apply Rmult_le_compat; lra). pose proof (sq_nonneg (val4 q)) as S0.
  assert (T : 10 * tiny <= P2 (-900)) by (pose proof tiny16 as T16; pose proof (P2_mono (-1071) (-900) ltac:(lia)); pose proof tiny_pos; lra).
  assert (Q : rval (fdot4 q q) <= 4 * P2 (-900)) by (assert (e53 * sq (val4 q) <= / 1000000000 * sq (val4 q)) by (apply Rmult_le_compat_r; lra); lra).
  assert (R : sqrt (rval (fdot4 q q)) <= 2 * P2 (-450)). { apply Rle_trans with (sqrt ((2 * P2 (-450)) * (2 * P2 (-450)))); [apply sqrt_le_1_alt; replace (2 * P2 (-450) * (2 * P2 (-450))) with (4 * (P2 (-450) * P2 (-450))) by ring; rewrite <- P2_add; exact Q | rewrite sqrt_square; [lra | pose proof (P2_pos (-450)); lra]]. }
  assert (P4 : 4 * P2 (-450) <= P2 (-440)) by (replace 4 with (P2 2) by (rewrite <- P2_Z by lia; reflexivity); rewrite <- P2_add; apply P2_mono; lia). pose proof (sqrt_pos (rval (fdot4 q q))). assert (e53 * sqrt (rval (fdot4 q q)) <= 1 * sqrt (rval (fdot4 q q))) by (apply Rmult_le_compat_r; lra). assert (0 <= (1 + 3.05 * e53) * len4 (val4 q)) by (apply Rmult_le_pos; lra). lra.
Qed.
Lemma P440_e : P2 (-440) <= / 1000000 * e53.
Proof. rewrite <- e53_P2. apply Rle_trans with (P2 (-20) * P2 (-53)); [rewrite <- P2_add; apply P2_mono; lia | apply Rmult_le_compat_r; [left; apply P2_pos | rewrite P2_m by lia; apply Rinv_le_contravar; [lra | apply IZR_le; lia]]]. Qed.
Lemma normalize_refused eps q : finite4 q -> len4 (val4 q) <= 1 / 2 -> finite64 eps -> len4 (val4 q) + 2 * e53 < rval eps -> q64_normalize eps (Some q) = Err ERuntime.
Proof.
  intros F L Fe He. destruct (fnorm4_upper q F ltac:(lra)) as [Fn Bn]. unfold q64_normalize. cbn [need3 bind]. destruct (abs_val _ Fn) as [Fa Va]. rewrite ltb_t; [reflexivity | exact Fa | exact Fe |]. rewrite Va, Rabs_pos_eq by lra. pose proof P440_e. pose proof e53_pos. pose proof (len4_pos (val4 q)). assert (3.05 * e53 * len4 (val4 q) <= 3.05 * e53 * (1 / 2)) by (apply Rmult_le_compat_l; lra). lra.
Qed.
Lemma c145_refused r eps u v : finite3 u -> finite3 v -> within3 (P2 450) u -> within3 (P2 450) v -> P2 (-450) <= norm3 (val3 u) -> P2 (-450) <= norm3 (val3 v) -> finite64 eps -> rval eps <= / 4 ->
  norm3 (add3 (direction (val3 u)) (direction (val3 v))) + 19 * P2 (-53) <= rval eps -> q64_ShortestRotation r eps (Some u) (Some v) = Err ERuntime.
Proof.
  intros Fu Fv Wu Wv Nu Nv Fe He Hk. rewrite e53_P2 in Hk. pose proof (P2_pos (-450)) as P450. pose proof e53_pos as PE. destruct (shortest_raw r u v Fu Fv Wu Wv Nu Nv) as [Fq Gq]. unfold q64_ShortestRotation. cbn [need3 bind]. cbv zeta.
  pose proof (len4_gap _ _ : Rabs (len4 (val4 (parts64 (fcross3 (fnormalized3 r v) (fnormalized3 r u)) (sf_add one_64 (fdot3 r (fnormalized3 r u) (fnormalized3 r v))))) - len4 (half_way (direction (val3 u)) (direction (val3 v)))) <= _) as LG. apply abs_le in LG.
  rewrite (half_way_len (direction (val3 u)) (direction (val3 v)) ltac:(apply direction_norm; lra) ltac:(apply direction_norm; lra)) in LG. apply normalize_refused; [exact Fq | lra | exact Fe | lra].
Qed.
(** Opposite vectors. *)
Definition fopp3 (a : f3) : f3 := F3 (SFopp (fx a)) (SFopp (fy a)) (SFopp (fz a)).
Lemma div_opp x y : b64_div (SFopp x) y = SFopp (b64_div x y).
Proof.
  assert (Q : forall s m e l, binary_round_aux 53 1024 (negb s) m e l = SFopp (binary_round_aux 53 1024 s m e l)).
  { intros s m e l. unfold binary_round_aux. destruct (shr_fexp 53 1024 m e l) as [r e']. destruct (shr_fexp 53 1024 (round_nearest_even (shr_m r) (loc_of_shr_record r)) e' loc_Exact) as [r' e'']. destruct (shr_m r'); try reflexivity. destruct (Zle_bool e'' (1024 - 53)); reflexivity. }
  unfold b64_div. destruct x as [s | s | | s m e], y as [s' | s' | | s' m' e']; cbn [SFdiv SFopp]; try reflexivity; try (destruct s, s'; reflexivity).
  destruct (SFdiv_core_binary 53 1024 (Z.pos m) e (Z.pos m') e') as [[q e''] l]. replace (xorb (negb s) s') with (negb (xorb s s')) by (destruct s, s'; reflexivity). apply Q.
Qed.
Lemma opp_opp x : SFopp (SFopp x) = x.
Proof. destruct x as [s | s | | s m e]; cbn [SFopp]; rewrite ?negb_involutive; reflexivity. Qed.
Lemma normalized_opp r a : fnormalized3 r (fopp3 a) = fopp3 (fnormalized3 r a).
Proof.
  assert (S : fsqnorm3 r (fopp3 a) = fsqnorm3 r a) by (unfold fsqnorm3, fdot3, fopp3; cbn [fx fy fz]; rewrite !mul_opp_l, !mul_opp_r, !opp_opp; reflexivity).
  unfold fnormalized3. rewrite S. destruct (SFltb zero64 (fsqnorm3 r a)); [unfold fdiv3, fopp3; cbn [fx fy fz]; rewrite !div_opp; reflexivity | reflexivity].
Qed.
Lemma zero_div x y : finite64 x -> rval x = 0 -> rval (b64_div x y) = 0.
Proof. intros F V. destruct (zero_of x F V) as [s ->]. destruct y as [s' | s' | | s' m e]; reflexivity. Qed.
Lemma normal_vec eps v s q : finite3 v -> val3 v = V3 0 0 0 -> q64_normalize eps (Some (parts64 v s)) = Ok q -> vec (val4 q) = V3 0 0 0.
Proof.
  intros (F1 & F2 & F3) V E. apply normalize_eq in E. subst q. unfold val3 in V. injection V as V1 V2 V3'. unfold vec, val4, fnormal4, parts64. cbn [qx qy qz qs q64x q64y q64z q64s]. rewrite !zero_div by assumption. reflexivity.
Qed.
Lemma shortest_def r eps u v : q64_ShortestRotation r eps (Some u) (Some v) = q64_normalize eps (Some (parts64 (fcross3 (fnormalized3 r v) (fnormalized3 r u)) (sf_add one_64 (fdot3 r (fnormalized3 r u) (fnormalized3 r v))))).
Proof. unfold q64_ShortestRotation. cbn [need3 bind]. cbv zeta. reflexivity. Qed.
Lemma shortest_vec r eps u v q : finite3 (fcross3 (fnormalized3 r v) (fnormalized3 r u)) -> val3 (fcross3 (fnormalized3 r v) (fnormalized3 r u)) = V3 0 0 0 -> q64_ShortestRotation r eps (Some u) (Some v) = Ok q -> vec (val4 q) = V3 0 0 0.
Proof. intros F V E. rewrite shortest_def in E. exact (normal_vec eps _ _ q F V E). Qed.
Lemma normal_within r u : finite3 u -> within3 (P2 450) u -> P2 (-450) <= norm3 (val3 u) -> finite3 (fnormalized3 r u) /\ within3 (P2 1) (fnormalized3 r u) /\ Rabs (norm3 (val3 (fnormalized3 r u)) - 1) <= 3.62 * e53.
Proof.
  intros F W N. destruct (normalized_tight r u F W N) as [Fa _]. pose proof (normalized_len r u F W N) as L. split; [exact Fa |]. split; [| exact L]. apply abs_le in L. destruct (coordinate_le (val3 (fnormalized3 r u))) as (C1 & C2 & C3). assert (P1 : P2 1 = 2) by (rewrite <- P2_Z by lia; reflexivity). rewrite P1. assert (e53 <= / 1000000000) by (unfold e53; lra). set (n := norm3 (val3 (fnormalized3 r u))) in *. unfold val3 in C1, C2, C3; cbn [vx vy vz] in C1, C2, C3. repeat split; lra.
Qed.
Lemma c145_same r eps u : finite3 u -> within3 (P2 450) u -> P2 (-450) <= norm3 (val3 u) -> finite64 eps -> rval eps <= 1 -> exists q, q64_ShortestRotation r eps (Some u) (Some u) = Ok q /\ finite4 q /\ vec (val4 q) = V3 0 0 0 /\ Rabs (qs (val4 q) - 1) <= P2 (-50).
Proof.
  intros F W N Fe He. pose proof (P2_pos (-450)) as P450. pose proof e53_pos as PE. assert (E9 : e53 <= / 1000000000) by (unfold e53; lra). assert (UA : norm3 (direction (val3 u)) = 1) by (apply direction_norm; lra).
  assert (K : norm3 (add3 (direction (val3 u)) (direction (val3 u))) = 2) by (replace (add3 (direction (val3 u)) (direction (val3 u))) with (scale3 2 (direction (val3 u))) by (unfold add3, scale3; cbn [vx vy vz]; f_equal; ring); rewrite norm3_scale, UA, Rabs_pos_eq by lra; ring).
  assert (P44 : P2 (-44) <= 2) by (pose proof (P2_mono (-44) 0 ltac:(lia)) as M; rewrite P2_0 in M; lra). destruct (shortest_near r eps u u F F W W N N ltac:(rewrite K; exact P44) Fe ltac:(rewrite K; lra)) as (q & p & E & Fq & Lp & Tp & D1 & D2 & Sp & G & Lq & U). rewrite K in G.
  exists q. split; [exact E |]. split; [exact Fq |]. destruct (normal_within r u F W N) as (Fa & Wa & _). destruct (cross_self (fnormalized3 r u) 1 Fa Wa ltac:(lia)) as [Fc Vc].
  assert (V : vec (val4 q) = V3 0 0 0) by (exact (shortest_vec r eps u u q Fc Vc E)). split; [exact V |]. rewrite <- e50.
  assert (LS : len4 (val4 q) = Rabs (qs (val4 q))). { unfold len4. replace (sq (val4 q)) with (qs (val4 q) * qs (val4 q)); [fold (Rsqr (qs (val4 q))); apply sqrt_Rsqr_abs |]. revert V. destruct (val4 q) as [x0 y0 z0 s0]. unfold vec, sq. cbn [qx qy qz qs]. intros V. injection V as -> -> ->. ring. }
  rewrite LS in Lq. assert (D : Rabs (qs (val4 q) - qs p) <= gap4 (val4 q) p) by (unfold gap4; destruct (coord4 (Q4 (qx (val4 q) - qx p) (qy (val4 q) - qy p) (qz (val4 q) - qz p) (qs (val4 q) - qs p))) as (_ & _ & _ & D); exact D). apply abs_le in D.
  destruct (Rle_lt_dec 0 (qs (val4 q))) as [P | P]; [rewrite (Rabs_pos_eq (qs (val4 q)) P) in Lq; lra |]. exfalso. rewrite (Rabs_left (qs (val4 q)) P) in Lq. apply abs_le in Lq. lra.
Qed.
Lemma c145_opposite r eps u : finite3 u -> within3 (P2 450) u -> P2 (-450) <= norm3 (val3 u) -> let v := F3 (SFopp (fx u)) (SFopp (fy u)) (SFopp (fz u)) in finite64 eps ->
  (10.4 * P2 (-53) <= rval eps -> q64_ShortestRotation r eps (Some u) (Some v) = Err ERuntime) /\ forall q, q64_ShortestRotation r eps (Some u) (Some v) = Ok q -> vec (val4 q) = V3 0 0 0.
Proof.
  intros F W N v Fe. change v with (fopp3 u). destruct (normal_within r u F W N) as (Fa & Wa & La). unfold q64_ShortestRotation. cbn [need3 bind]. cbv zeta. rewrite normalized_opp. set (a := fnormalized3 r u) in *. pose proof e53_pos as PE. assert (E9 : e53 <= / 1000000000) by (unfold e53; lra). pose proof tiny_e4 as TE. pose proof tiny_pos as TP. apply abs_le in La.
  assert (C : finite3 (fcross3 (fopp3 a) a) /\ val3 (fcross3 (fopp3 a) a) = V3 0 0 0).
  { destruct Fa as (F1 & F2 & F3). destruct Wa as (W1 & W2 & W3). unfold finite3, val3, fcross3, fopp3. cbn [fx fy fz]. rewrite !mul_opp_l. rewrite (mul_comm64 (fz a) (fy a)), (mul_comm64 (fz a) (fx a)), (mul_comm64 (fy a) (fx a)).
    destruct (mul_bound _ _ 1 1 F1 F2 W1 W2 ltac:(lia) ltac:(lia)) as (G1 & _), (mul_bound _ _ 1 1 F1 F3 W1 W3 ltac:(lia) ltac:(lia)) as (G2 & _), (mul_bound _ _ 1 1 F2 F3 W2 W3 ltac:(lia) ltac:(lia)) as (G3 & _).
    destruct (sub_self _ (SFopp_finite _ G1)) as [-> ?], (sub_self _ (SFopp_finite _ G2)) as [-> ?], (sub_self _ (SFopp_finite _ G3)) as [-> ?]. repeat split; assumption. }
  destruct C as [Fc Vc]. split; [| intros q; apply normal_vec; assumption].
  intros He. rewrite e53_P2 in He. assert (Fb : finite3 (fopp3 a)) by (destruct Fa as (F1 & F2 & F3); repeat split; apply SFopp_finite; assumption). assert (M : P2 1 <= P2 450) by (apply P2_mono; lia). assert (Wb : within3 (P2 450) (fopp3 a)) by (destruct Wa as (W1 & W2 & W3); repeat split; unfold fopp3; cbn [fx fy fz]; rewrite SFopp_val, Rabs_Ropp; lra). assert (Wa' : within3 (P2 450) a) by (destruct Wa as (W1 & W2 & W3); repeat split; lra).
  destruct (fdot3_near r a (fopp3 a) Fa Fb Wa' Wb) as [Fd Ed]. assert (VB : val3 (fopp3 a) = scale3 (-1) (val3 a)) by (unfold val3, fopp3, scale3; cbn [fx fy fz vx vy vz]; rewrite !SFopp_val; f_equal; ring).
  assert (D : dot3 (val3 a) (val3 (fopp3 a)) = - (norm3 (val3 a) * norm3 (val3 a))) by (rewrite VB, norm3_sq; unfold sqnorm3, dot3, scale3; cbn [vx vy vz]; ring). rewrite D, VB, norm3_scale, (Rabs_left (-1)) in Ed by lra. replace (- -1 * norm3 (val3 a)) with (norm3 (val3 a)) in Ed by ring.
  set (n := norm3 (val3 a)) in *. assert (N2 : 1 - 7.245 * e53 <= n * n <= 1 + 7.245 * e53) by nra. assert (E2 : 3.03 * e53 * (n * n) <= 3.03 * e53 * 1.0001) by (apply Rmult_le_compat_l; lra). apply abs_le in Ed.
  destruct one_val as [FO VO]. pose proof P2_ge1023. assert (S : Rabs (1 + rval (fdot3 r a (fopp3 a))) <= 10.277 * e53) by (apply abs_of; lra). destruct (add_any one_64 (fdot3 r a (fopp3 a)) FO Fd ltac:(rewrite VO; lra)) as [Fs Es]. rewrite VO in Es. set (s := rval (sf_add one_64 (fdot3 r a (fopp3 a)))) in *.
  assert (S2 : Rabs s <= 10.28 * e53) by (assert (e53 * Rabs (1 + rval (fdot3 r a (fopp3 a))) <= e53 * (10.277 * e53)) by (apply Rmult_le_compat_l; lra); assert (e53 * e53 <= / 1000000000 * e53) by (apply Rmult_le_compat_r; lra); apply abs_le in S; apply abs_le in Es; apply abs_of; lra).
  set (q := parts64 (fcross3 (fopp3 a) a) (sf_add one_64 (fdot3 r a (fopp3 a)))). assert (Fq : finite4 q) by (repeat split; assumption || apply Fc).
  assert (LS : len4 (val4 q) = Rabs s). { unfold len4. replace (sq (val4 q)) with (s * s); [fold (Rsqr s); apply sqrt_Rsqr_abs |]. change (val4 q) with (of_parts (val3 (fcross3 (fopp3 a) a)) s). rewrite Vc. unfold of_parts, sq. cbn [qx qy qz qs vx vy vz]. ring. }
  destruct (fnorm4_upper q Fq ltac:(lra)) as [Fn Bn]. rewrite LS in Bn. unfold q64_normalize. cbn [need3 bind]. destruct (abs_val _ Fn) as [Fab Va]. rewrite ltb_t; [reflexivity | exact Fab | exact Fe |]. rewrite Va, Rabs_pos_eq by lra. pose proof P440_e. assert (3.05 * e53 * Rabs s <= 3.05 * e53 * / 1000) by (apply Rmult_le_compat_l; lra). lra.
Qed.
(** Nearly opposite vectors. *)
Definition witness_u : f3 := F3 (S754_finite true 6860410949931764 (-53)) (S754_finite false 7133764578412848 (-54)) (S754_finite true 4700611090954320 (-53)).
Definition witness_v : f3 := F3 (S754_finite false 6860410949931766 (-53)) (S754_finite true 7133764578412833 (-54)) (S754_finite false 4700611090954315 (-53)).
Definition witness_w : f3 := F3 (S754_finite false 8105629763758000 (-53)) (S754_finite false 7999651745159057 (-54)) (S754_finite true 6859344198619280 (-57)).
Definition witness_raw : f4 := F4 (S754_finite true 4503599627370496 (-104)) (S754_finite false 5629499534213120 (-103)) (S754_finite false 7318349394477056 (-103)) (S754_finite false 5629499534213120 (-103)).
Definition witness_n : spec_float := S754_finite false 5522937856611440 (-102).
Lemma c145_close_refuted : exists u v w, finite3 u /\ finite3 v /\ finite3 w /\ 0 < norm3 (val3 u) <= 2 /\ 0 < norm3 (val3 v) <= 2 /\ dot3 (val3 w) (val3 v) <= 0.49 * (norm3 (val3 u) * norm3 (val3 v)) /\ forall r eps tol, finite64 eps -> rval eps <= 9.8 * P2 (-53) -> finite64 tol -> P2 (-50) <= rval tol ->
  exists q, q64_ShortestRotation r eps (Some u) (Some v) = Ok q /\ q64_rotateVector r (Some q) (Some u) (Some tol) = Ok w.
Proof.
  exists witness_u, witness_v, witness_w. do 3 (split; [repeat split; vm_compute; reflexivity || discriminate |]).
  assert (VU : val3 witness_u = V3 (- (6860410949931764 / 9007199254740992)) (7133764578412848 / 18014398509481984) (- (4700611090954320 / 9007199254740992))) by (unfold val3, witness_u; cbn [fx fy fz]; rewrite !rval_sg; cbn [sg]; rewrite (P2_m (-53)), (P2_m (-54)) by lia; change (2 ^ (- -53))%Z with 9007199254740992%Z; change (2 ^ (- -54))%Z with 18014398509481984%Z; f_equal; lra).
  assert (VV : val3 witness_v = V3 (6860410949931766 / 9007199254740992) (- (7133764578412833 / 18014398509481984)) (4700611090954315 / 9007199254740992)) by (unfold val3, witness_v; cbn [fx fy fz]; rewrite !rval_sg; cbn [sg]; rewrite (P2_m (-53)), (P2_m (-54)) by lia; change (2 ^ (- -53))%Z with 9007199254740992%Z; change (2 ^ (- -54))%Z with 18014398509481984%Z; f_equal; lra).
  assert (VW : val3 witness_w = V3 (8105629763758000 / 9007199254740992) (7999651745159057 / 18014398509481984) (- (6859344198619280 / 144115188075855872))) by (unfold val3, witness_w; cbn [fx fy fz]; rewrite !rval_sg; cbn [sg]; rewrite (P2_m (-53)), (P2_m (-54)), (P2_m (-57)) by lia; change (2 ^ (- -53))%Z with 9007199254740992%Z; change (2 ^ (- -54))%Z with 18014398509481984%Z; change (2 ^ (- -57))%Z with 144115188075855872%Z; f_equal; lra).
  assert (NU : 1.003 <= norm3 (val3 witness_u) <= 2) by (rewrite VU; unfold norm3; split; [rewrite <- (sqrt_square 1.003) by lra | rewrite <- (sqrt_square 2) by lra]; apply sqrt_le_1_alt; unfold sqnorm3, dot3; cbn [vx vy vz]; lra).
  assert (NV : 1.003 <= norm3 (val3 witness_v) <= 2) by (rewrite VV; unfold norm3; split; [rewrite <- (sqrt_square 1.003) by lra | rewrite <- (sqrt_square 2) by lra]; apply sqrt_le_1_alt; unfold sqnorm3, dot3; cbn [vx vy vz]; lra).
  split; [lra |]. split; [lra |]. split.
  { apply Rle_trans with (0.49 * (1.003 * 1.003)); [rewrite VW, VV; unfold dot3; cbn [vx vy vz]; lra | apply Rmult_le_compat_l; [lra |]; apply Rmult_le_compat; lra]. }
  intros r eps tol Fe He Ft Ht. assert (FN : finite64 witness_n) by (vm_compute; repeat split; reflexivity || discriminate). assert (VN : 9.81 * e53 <= rval witness_n). { unfold witness_n. rewrite rval_sg. cbn [sg]. replace (P2 (-102)) with (P2 (-49) * e53) by (rewrite <- e53_P2, <- P2_add; reflexivity). rewrite P2_m by lia. change (2 ^ (- -49))%Z with 562949953421312%Z. pose proof e53_pos. lra. }
  rewrite e53_P2 in He. pose proof e53_pos as PE. exists (fnormal4 witness_raw).
  assert (E : q64_ShortestRotation r eps (Some witness_u) (Some witness_v) = q64_normalize eps (Some witness_raw)) by (unfold q64_ShortestRotation; cbn [need3 bind]; cbv zeta; f_equal; f_equal; destruct r; vm_compute; reflexivity).
  assert (EN : SFabs (fnorm4 witness_raw) = witness_n) by (vm_compute; reflexivity).
  split; [rewrite E; unfold q64_normalize; cbn [need3 bind]; rewrite EN, ltb_f; [reflexivity | exact FN | exact Fe | lra] |].
  assert (U : q64_isUnitary (Some (fnormal4 witness_raw)) (Some tol) = Ok true).
  { assert (FR : finite4 witness_raw) by (repeat split; vm_compute; reflexivity || discriminate). assert (B : forall s m e, (Zpos m < 2 ^ 53)%Z -> (e <= 0)%Z -> Rabs (rval (S754_finite s m e)) <= P2 450).
    { intros s m e Hm He'. rewrite rval_sg, Rabs_mult. replace (Rabs (sg s)) with 1 by (destruct s; cbn [sg]; unfold Rabs; destruct Rcase_abs; lra). rewrite Rmult_1_l, Rabs_pos_eq by (apply Rmult_le_pos; [apply IZR_le; lia | left; apply P2_pos]). apply Rle_trans with (P2 53 * P2 0); [| rewrite <- P2_add; apply P2_mono; lia]. apply Rmult_le_compat; [apply IZR_le; lia | left; apply P2_pos | rewrite <- P2_Z by lia; apply IZR_le; lia | apply P2_mono; lia]. }
    assert (W : within4 (P2 450) witness_raw) by (repeat split; apply B; reflexivity || discriminate).
    assert (L : P2 (-450) <= len4 (val4 witness_raw)). { destruct (coord4 (val4 witness_raw)) as (_ & _ & _ & D). eapply Rle_trans; [| exact D]. unfold val4, witness_raw. cbn [qs q64s]. rewrite rval_sg. cbn [sg]. rewrite Rmult_1_l, Rabs_pos_eq by (apply Rmult_le_pos; [apply IZR_le; lia | left; apply P2_pos]). apply Rle_trans with (1 * P2 (-103)); [rewrite Rmult_1_l; apply P2_mono; lia | apply Rmult_le_compat_r; [left; apply P2_pos | apply IZR_le; lia]]. }
    apply unitary_accept; [exact (proj1 (fnormal4_err witness_raw FR W L)) | exact (fnormal4_len witness_raw FR W L) | exact Ft | exact Ht]. }
  rewrite (rotate_ok r _ witness_u tol U). f_equal. destruct r; vm_compute; reflexivity.
Qed.
