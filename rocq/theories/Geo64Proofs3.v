(** Distances in double precision. *)

From Coq Require Import List Bool Arith ZArith Reals Lra Lia Floats.SpecFloat.
From Verif Require Import Result Vec DOrder RotModel AngleModel FloatSpec FloatProofs FloatProofs2 FloatModel FloatProofs3 FloatProofs4 FloatProofs5 FloatProofs7 FloatProofs10
  VecProofs Geo3Types Geo3Model Geo3Spec Geo3Proofs Geo3Proofs2 Geo64Model Geo64Spec Geo64Proofs Geo64Proofs2.
Import ListNotations.
Local Open Scope R_scope.

(** *** Symmetry *)
Lemma square_abs x : b64_mul x x = b64_mul (SFabs x) (SFabs x).
Proof. destruct x as [s | s | | s m e]; cbn; try reflexivity; destruct s; reflexivity. Qed.
Lemma sqnorm_sym r p q : fsqnorm3 r (fsub3 p q) = fsqnorm3 r (fsub3 q p).
Proof.
  unfold fsqnorm3, fdot3, fsub3. cbn [fx fy fz].
  rewrite (square_abs (sf_sub (fx p) (fx q))), (square_abs (sf_sub (fy p) (fy q))), (square_abs (sf_sub (fz p) (fz q))), (abs_sub (fx p)), (abs_sub (fy p)), (abs_sub (fz p)).
  rewrite <- !square_abs. reflexivity.
Qed.
Lemma c127_symmetric r p q tol : pt64_distanceTo r p q = pt64_distanceTo r q p /\ pt64_isNear r p q tol = pt64_isNear r q p tol.
Proof.
  assert (S : pt64_distanceTo r p q = pt64_distanceTo r q p).
  { unfold pt64_distanceTo, pt64_sub. destruct p as [p |], q as [q |]; try reflexivity. cbn [need3 bind]. unfold fnorm3. rewrite sqnorm_sym. reflexivity. }
  split; [exact S |]. unfold pt64_isNear. rewrite S. reflexivity.
Qed.
Lemma sqrt_zero x : finite64 x -> rval x = 0 -> finite64 (b64_sqrt x) /\ rval (b64_sqrt x) = 0.
Proof. intros F V. destruct (zero_of x F V) as [s ->]. split; [exact I | reflexivity]. Qed.
Lemma c127_same r p : finite3 p -> exists z, pt64_distanceTo r (Some p) (Some p) = Ok z /\ finite64 z /\ rval z = 0.
Proof.
  intros F. destruct (self_sub p F) as [Fs Vs]. destruct (zero3_dot r _ _ Fs Fs Vs) as [Fd Vd]. exists (fnorm3 r (fsub3 p p)). split; [reflexivity |]. apply sqrt_zero; assumption.
Qed.
Lemma c127_separate_refuted : exists p q, finite3 p /\ finite3 q /\ val3 p <> val3 q /\
  forall r, pt64_distanceTo r (Some p) (Some q) = Ok zero64 /\ pt64_isNear r (Some p) (Some q) (Some zero64) = Ok true.
Proof.
  exists (F3 (S754_finite false (2 ^ 52) (-652)) zero64 zero64), (F3 zero64 zero64 zero64).
  split; [split; [vm_compute; reflexivity | split; exact I] |]. split; [split; [exact I | split; exact I] |]. split.
  - intros E. apply (f_equal vx) in E. unfold val3 in E. cbn [vx fx] in E. pose proof (pos_pos (2 ^ 52) (-652)) as P. rewrite rval_sg in E. cbn [sg rval zero64] in E. lra.
  - intros []; split; vm_compute; reflexivity.
Qed.
Lemma c127_errors r p q tol : (p = None \/ q = None -> pt64_distanceTo r p q = Err EUndefined /\ pt64_isNear r p q tol = Err EUndefined) /\
  pt64_isNear r p q None = Err EUndefined.
Proof.
  split; [| reflexivity]. intros H. assert (D : pt64_distanceTo r p q = Err EUndefined) by (destruct H as [-> | ->]; [destruct q |]; reflexivity).
  split; [exact D |]. unfold pt64_isNear. rewrite D. destruct tol; reflexivity.
Qed.

(** *** Accuracy *)
Definition tiny : R := P2 (-1075).
Lemma tiny_pos : 0 < tiny.
Proof. apply P2_pos. Qed.
Lemma sub_rel x y k : finite64 x -> finite64 y -> Rabs (rval x) <= P2 k -> Rabs (rval y) <= P2 k -> (k <= 1000)%Z ->
  finite64 (sf_sub x y) /\ Rabs (rval (sf_sub x y) - (rval x - rval y)) <= e53 * Rabs (rval x - rval y) /\ Rabs (rval (sf_sub x y)) <= P2 (k + 2).
Proof.
  intros Fx Fy Bx By K. destruct (sub_bound x y k Fx Fy Bx By K) as (F & _ & E & B). rewrite e53_P2 in E. split; [exact F |]. split; [exact E | exact B].
Qed.
Lemma product_err X X' d d' : Rabs (d - X) <= e53 * Rabs X -> Rabs (d' - X') <= e53 * Rabs X' -> Rabs (d * d' - X * X') <= 2.5 * e53 * Rabs (X * X').
Proof.
  intros H H'. rewrite Rabs_mult. destruct (Req_dec X 0) as [-> | N].
  { rewrite Rabs_R0, Rmult_0_r in H. apply abs_le in H. assert (d = 0) by lra. subst d. rewrite !Rmult_0_l, Rminus_0_r, Rabs_R0. lra. }
  destruct (Req_dec X' 0) as [-> | N'].
  { rewrite Rabs_R0, Rmult_0_r in H'. apply abs_le in H'. assert (d' = 0) by lra. subst d'. rewrite !Rmult_0_r, Rminus_0_r, Rabs_R0. lra. }
  destruct (rel_of_err e53 d X N H) as (q & -> & B), (rel_of_err e53 d' X' N' H') as (q' & -> & B').
  replace (X * (1 + q) * (X' * (1 + q')) - X * X') with (X * X' * (q + q' + q * q')) by ring. rewrite !Rabs_mult, (Rmult_comm (2.5 * e53)). apply Rmult_le_compat_l; [apply Rmult_le_pos; apply Rabs_pos |].
  pose proof (Rabs_triang (q + q') (q * q')) as T. pose proof (Rabs_triang q q') as T'. rewrite (Rabs_mult q) in T. pose proof (Rabs_pos q). pose proof (Rabs_pos q').
  assert (Rabs q * Rabs q' <= e53 * e53) by (apply Rmult_le_compat; assumption). unfold e53 in *. lra.
Qed.
(** The rounded product of two rounded differences. *)
Lemma term_err X X' d d' m : Rabs (d - X) <= e53 * Rabs X -> Rabs (d' - X') <= e53 * Rabs X' -> Rabs (m - d * d') <= e53 * Rabs (d * d') + tiny ->
  Rabs (m - X * X') <= 3.6 * e53 * Rabs (X * X') + tiny.
Proof.
  intros H H' K. pose proof (product_err X X' d d' H H') as P. set (t := d * d') in *. set (w := X * X') in *.
  pose proof (Rabs_triang (m - t) (t - w)) as T. replace (m - t + (t - w)) with (m - w) in T by ring.
  pose proof (Rabs_triang (t - w) w) as T'. replace (t - w + w) with t in T' by ring. pose proof (Rabs_pos w). unfold e53 in *. lra.
Qed.
Lemma sum64_err r x y z a : finite64 x -> finite64 y -> finite64 z -> Rabs (rval x) <= P2 a -> Rabs (rval y) <= P2 a -> Rabs (rval z) <= P2 a -> (a <= 1000)%Z ->
  finite64 (sum64 r x y z) /\ Rabs (rval (sum64 r x y z) - (rval x + rval y + rval z)) <= 2.1 * e53 * (Rabs (rval x) + Rabs (rval y) + Rabs (rval z)).
Proof.
  assert (G : forall x y z, finite64 x -> finite64 y -> finite64 z -> Rabs (rval x) <= P2 a -> Rabs (rval y) <= P2 a -> Rabs (rval z) <= P2 a -> (a <= 1000)%Z ->
    (finite64 (sf_add (sf_add x y) z) /\ Rabs (rval (sf_add (sf_add x y) z) - (rval x + rval y + rval z)) <= 2.1 * e53 * (Rabs (rval x) + Rabs (rval y) + Rabs (rval z))) /\
    (finite64 (sf_add z (sf_add x y)) /\ Rabs (rval (sf_add z (sf_add x y)) - (rval x + rval y + rval z)) <= 2.1 * e53 * (Rabs (rval x) + Rabs (rval y) + Rabs (rval z)))).
  { clear. intros x y z Fx Fy Fz Bx By Bz A.
    assert (Q : P2 a * 16 <= P2 1023) by (replace 16 with (P2 4) by (rewrite <- P2_Z by lia; reflexivity); rewrite <- P2_add; apply P2_mono; lia).
    pose proof (Rabs_triang (rval x) (rval y)) as T1. pose proof (Rabs_pos (rval x)). pose proof (Rabs_pos (rval y)). pose proof (Rabs_pos (rval z)). pose proof (P2_pos a).
    assert (U1 : Rabs (rval x + rval y) <= P2 1023) by lra.
    pose proof (SFadd_rounded x y Fx Fy U1) as [[F1 _] _]. pose proof (add_err x y Fx Fy U1) as E1. change (SFadd 53 1024 x y) with (sf_add x y) in *. rewrite e53_P2 in E1.
    set (w := sf_add x y) in *. pose proof (Rabs_triang (rval w - (rval x + rval y)) (rval x + rval y)) as T2. replace (rval w - (rval x + rval y) + (rval x + rval y)) with (rval w) in T2 by ring.
    assert (W : Rabs (rval w) <= (1 + e53) * (Rabs (rval x) + Rabs (rval y))) by (unfold e53 in *; lra).
    assert (H' : forall v, finite64 v /\ Rabs (rval v - (rval w + rval z)) <= e53 * Rabs (rval w + rval z) ->
      finite64 v /\ Rabs (rval v - (rval x + rval y + rval z)) <= 2.1 * e53 * (Rabs (rval x) + Rabs (rval y) + Rabs (rval z))).
    { intros v [Fv Ev]. split; [exact Fv |]. pose proof (Rabs_triang (rval w) (rval z)) as T3.
      pose proof (Rabs_triang (rval v - (rval w + rval z)) (rval w - (rval x + rval y))) as T4. replace (rval v - (rval w + rval z) + (rval w - (rval x + rval y))) with (rval v - (rval x + rval y + rval z)) in T4 by ring.
      unfold e53 in *. lra. }
    assert (U2 : Rabs (rval w + rval z) <= P2 1023) by (pose proof (Rabs_triang (rval w) (rval z)); unfold e53 in *; lra).
    split; apply H'.
    - pose proof (SFadd_rounded w z F1 Fz U2) as [[F2' _] _]. pose proof (add_err w z F1 Fz U2) as E2. rewrite e53_P2 in E2. split; [exact F2' | exact E2].
    - rewrite (Rplus_comm (rval w)) in U2. pose proof (SFadd_rounded z w Fz F1 U2) as [[F2' _] _]. pose proof (add_err z w Fz F1 U2) as E2. rewrite e53_P2, (Rplus_comm (rval z)) in E2. split; [exact F2' | exact E2]. }
  intros Fx Fy Fz Bx By Bz A. destruct r; cbn [sum64].
  - apply G; assumption.
  - destruct (G y z x Fy Fz Fx By Bz Bx A) as [_ [F E]]. split; [exact F |]. replace (rval x + rval y + rval z) with (rval y + rval z + rval x) by ring. lra.
Qed.
(** What is known of a difference of two points. *)
Definition approx3 (d : f3) (v : v3) : Prop :=
  Rabs (rval (fx d) - vx v) <= e53 * Rabs (vx v) /\ Rabs (rval (fy d) - vy v) <= e53 * Rabs (vy v) /\ Rabs (rval (fz d) - vz v) <= e53 * Rabs (vz v).
Lemma sub3_approx a b k : finite3 a -> finite3 b -> within3 (P2 k) a -> within3 (P2 k) b -> (k <= 1000)%Z ->
  finite3 (fsub3 a b) /\ within3 (P2 (k + 2)) (fsub3 a b) /\ approx3 (fsub3 a b) (sub3 (val3 a) (val3 b)).
Proof.
  intros (Ax & Ay & Az) (Bx & By & Bz) (Ux & Uy & Uz) (Vx & Vy & Vz) K. unfold finite3, within3, approx3, fsub3, sub3, val3. cbn [fx fy fz vx vy vz].
  destruct (sub_rel _ _ k Ax Bx Ux Vx K) as (? & ? & ?), (sub_rel _ _ k Ay By Uy Vy K) as (? & ? & ?), (sub_rel _ _ k Az Bz Uz Vz K) as (? & ? & ?). repeat split; assumption.
Qed.
Definition absdot (u v : v3) : R := Rabs (vx u * vx v) + Rabs (vy u * vy v) + Rabs (vz u * vz v).
Lemma dot_err r d d' v v' k : finite3 d -> finite3 d' -> within3 (P2 k) d -> within3 (P2 k) d' -> approx3 d v -> approx3 d' v' -> (-500 <= k <= 490)%Z ->
  finite64 (fdot3 r d d') /\ Rabs (rval (fdot3 r d d') - dot3 v v') <= 6 * e53 * absdot v v' + 4 * tiny.
Proof.
  intros (Ax & Ay & Az) (Bx & By & Bz) (Ux & Uy & Uz) (Vx & Vy & Vz) (Px & Py & Pz) (Qx & Qy & Qz) K. unfold fdot3.
  destruct (mul_bound _ _ k k Ax Bx Ux Vx ltac:(lia) ltac:(lia)) as (F1 & N1 & M1). destruct (mul_bound _ _ k k Ay By Uy Vy ltac:(lia) ltac:(lia)) as (F2' & N2 & M2).
  destruct (mul_bound _ _ k k Az Bz Uz Vz ltac:(lia) ltac:(lia)) as (F3' & N3 & M3).
  pose proof (term_err _ _ _ _ _ Px Qx (rounded_any _ _ N1)) as T1. pose proof (term_err _ _ _ _ _ Py Qy (rounded_any _ _ N2)) as T2. pose proof (term_err _ _ _ _ _ Pz Qz (rounded_any _ _ N3)) as T3.
  destruct (sum64_err r _ _ _ (k + k) F1 F2' F3' M1 M2 M3 ltac:(lia)) as (F & E). split; [exact F |]. unfold dot3, absdot.
  set (m1 := rval (b64_mul (fx d) (fx d'))) in *. set (m2 := rval (b64_mul (fy d) (fy d'))) in *. set (m3 := rval (b64_mul (fz d) (fz d'))) in *.
  set (w1 := vx v * vx v') in *. set (w2 := vy v * vy v') in *. set (w3 := vz v * vz v') in *. set (S := rval (sum64 _ _ _ _)) in *.
  assert (A : forall m w, Rabs (m - w) <= 3.6 * e53 * Rabs w + tiny -> Rabs m <= (1 + 3.6 * e53) * Rabs w + tiny).
  { intros m w H. pose proof (Rabs_triang (m - w) w) as T. replace (m - w + w) with m in T by ring. lra. }
  pose proof (A _ _ T1) as L1. pose proof (A _ _ T2) as L2. pose proof (A _ _ T3) as L3.
  pose proof (Rabs_pos w1). pose proof (Rabs_pos w2). pose proof (Rabs_pos w3). pose proof tiny_pos.
  apply abs_le in E. apply abs_le in T1. apply abs_le in T2. apply abs_le in T3. apply abs_of. unfold e53 in *. lra.
Qed.
Lemma absdot_sq v : absdot v v = dot3 v v.
Proof. unfold absdot, dot3. rewrite !Rabs_right by (apply Rle_ge; nra). reflexivity. Qed.
Lemma sqrt_near s S e : 0 <= s -> 0 <= S -> 0 <= e -> Rabs (s - S) <= 6 * e53 * S + e * e -> Rabs (sqrt s - sqrt S) <= 6 * e53 * sqrt S + e.
Proof.
  intros Ps PS Pe H. apply abs_le in H. pose proof (sqrt_pos S) as P. pose proof (sqrt_sqrt S PS) as Q. set (w := sqrt S) in *. rewrite <- Q in H. clearbody w. clear Q PS S. apply abs_of.
  assert (U : 0 < 6 * e53 < 1) by (unfold e53; lra). set (c := 6 * e53) in *. clearbody c. split.
  - destruct (Rle_dec ((1 - c) * w - e) 0) as [C | C]; [pose proof (sqrt_pos s); lra |].
    assert (L : (1 - c) * w - e <= sqrt s); [| lra]. rewrite <- (sqrt_square ((1 - c) * w - e)) by lra. apply sqrt_le_1_alt.
    assert (Z : ((1 - c) * w - e) * ((1 - c) * w - e) <= (1 - c) * w * ((1 - c) * w) - e * e) by nra.
    assert (Z' : (1 - c) * w * ((1 - c) * w) <= (1 - c) * (w * w)) by (replace ((1 - c) * w * ((1 - c) * w)) with ((1 - c) * ((1 - c) * (w * w))) by ring; apply Rmult_le_compat_l; [lra |]; nra).
    lra.
  - assert (L : sqrt s <= (1 + c) * w + e); [| lra]. rewrite <- (sqrt_square ((1 + c) * w + e)) by nra. apply sqrt_le_1_alt.
    assert (0 <= w * w) by nra. assert (Z : w * w * (1 + c) <= (1 + c) * w * ((1 + c) * w)) by (replace ((1 + c) * w * ((1 + c) * w)) with (w * w * (1 + c) + c * (w * w) * (1 + c)) by ring; assert (0 <= c * (w * w)) by nra; nra).
    assert (0 <= (1 + c) * w * e) by (apply Rmult_le_pos; nra). nra.
Qed.
Lemma c127_accurate r p q : finite3 p -> finite3 q -> within3 (P2 450) p -> within3 (P2 450) q ->
  exists d, pt64_distanceTo r (Some p) (Some q) = Ok d /\ finite64 d /\ Rabs (rval d - dist3 (val3 p) (val3 q)) <= P2 (-50) * dist3 (val3 p) (val3 q) + P2 (-530).
Proof.
  intros Fp Fq Bp Bq. destruct (sub3_approx p q 450 Fp Fq Bp Bq ltac:(lia)) as (Fd & Bd & Ad). destruct (dot_err r _ _ _ _ (450 + 2) Fd Fd Bd Bd Ad Ad ltac:(lia)) as (Fs & E).
  destruct (sqnorm_pos r _ (450 + 2) Fd Bd ltac:(lia)) as [_ Ps]. unfold fsqnorm3 in Ps. eexists. split; [reflexivity |]. unfold fnorm3, fsqnorm3, b64_sqrt.
  set (s := fdot3 r _ _) in *. split; [apply (SFsqrt_rounded s Fs Ps) |]. pose proof (sqrt_err s Fs Ps) as K. rewrite e53_P2 in K. rewrite absdot_sq in E. unfold dist3, norm3, sqnorm3.
  set (S := dot3 (sub3 (val3 p) (val3 q)) (sub3 (val3 p) (val3 q))) in *. assert (PS : 0 <= S) by (unfold S, dot3; nra).
  assert (E' : Rabs (rval s - S) <= 6 * e53 * S + P2 (-535) * P2 (-535)).
  { rewrite <- P2_add. eapply Rle_trans; [exact E |]. apply Rplus_le_compat_l. unfold tiny. replace 4 with (P2 2) by (rewrite <- P2_Z by lia; reflexivity). rewrite <- P2_add. apply P2_mono. lia. }
  pose proof (sqrt_near _ _ _ Ps PS (Rlt_le _ _ (P2_pos (-535))) E') as L.
  assert (Q : P2 (-530) = 32 * P2 (-535)) by (replace 32 with (P2 5) by (rewrite <- P2_Z by lia; reflexivity); rewrite <- P2_add; reflexivity).
  assert (Q' : P2 (-50) = 8 * e53) by (rewrite <- e53_P2; replace 8 with (P2 3) by (rewrite <- P2_Z by lia; reflexivity); rewrite <- P2_add; reflexivity).
  rewrite Q, Q'. apply abs_le in L. apply abs_le in K. pose proof (sqrt_pos S). pose proof (P2_pos (-535)). apply abs_of. unfold e53 in *. lra.
Qed.
Lemma dist3_pos a b : 0 <= dist3 a b.
Proof. apply sqrt_pos. Qed.
Lemma c127_triangle r a b c : finite3 a -> finite3 b -> finite3 c -> within3 (P2 450) a -> within3 (P2 450) b -> within3 (P2 450) c ->
  exists x y z, pt64_distanceTo r (Some a) (Some c) = Ok x /\ pt64_distanceTo r (Some a) (Some b) = Ok y /\ pt64_distanceTo r (Some b) (Some c) = Ok z /\
    rval x <= (rval y + rval z) * (1 + P2 (-48)) + P2 (-500).
Proof.
  intros Fa Fb Fc Ba Bb Bc. destruct (c127_accurate r a c Fa Fc Ba Bc) as (x & Ex & _ & Ax). destruct (c127_accurate r a b Fa Fb Ba Bb) as (y & Ey & _ & Ay). destruct (c127_accurate r b c Fb Fc Bb Bc) as (z & Ez & _ & Az).
  exists x, y, z. split; [exact Ex |]. split; [exact Ey |]. split; [exact Ez |].
  assert (Q' : P2 (-50) = 8 * e53) by (rewrite <- e53_P2; replace 8 with (P2 3) by (rewrite <- P2_Z by lia; reflexivity); rewrite <- P2_add; reflexivity).
  assert (Q8 : P2 (-48) = 32 * e53) by (rewrite <- e53_P2; replace 32 with (P2 5) by (rewrite <- P2_Z by lia; reflexivity); rewrite <- P2_add; reflexivity).
  assert (Q5 : 1024 * P2 (-530) <= P2 (-500)) by (replace 1024 with (P2 10) by (rewrite <- P2_Z by lia; reflexivity); rewrite <- P2_add; apply P2_mono; lia).
  rewrite Q' in *. rewrite Q8. pose proof (dist3_triangle (val3 a) (val3 b) (val3 c)) as T. pose proof (dist3_pos (val3 a) (val3 b)). pose proof (dist3_pos (val3 b) (val3 c)). pose proof (P2_pos (-530)).
  apply abs_le in Ax. apply abs_le in Ay. apply abs_le in Az. unfold e53 in *. lra.
Qed.
