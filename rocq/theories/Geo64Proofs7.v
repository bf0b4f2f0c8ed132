(** Double precision: lines through two points, centers, lengths, nearness, and slopes. *)

From Coq Require Import List Bool Arith ZArith Reals Lra Lia Floats.SpecFloat.
From Verif Require Import Result Vec DOrder RotModel AngleModel FloatSpec FloatProofs FloatProofs2 FloatModel FloatProofs3 FloatProofs4 FloatProofs5 FloatProofs7 FloatProofs10
  VecProofs Geo3Types Geo3Model Geo3Spec Geo3Proofs Geo3Proofs2 Geo64Model Geo64Spec Geo64Proofs Geo64Proofs2 Geo64Proofs3 Geo64Proofs4 Geo64Proofs5 Geo64Proofs6.
Import ListNotations.
Local Open Scope R_scope.

(** *** Lengths and nearness *)
Lemma c127_length r a b : s64_getLength r (mkS64 a b) = (match a, b with Some a, Some b => pt64_distanceTo r (Some a) (Some b) | _, _ => Err EUndefined end).
Proof.
  unfold s64_getLength, s64_data. cbn [s64_first s64_second]. destruct a as [a |], b as [b |]; try reflexivity. rewrite (proj1 (c127_symmetric r (Some a) (Some b) None)). reflexivity.
Qed.
Lemma c127_near r p q tol : finite3 p -> finite3 q -> finite64 tol -> within3 (P2 450) p -> within3 (P2 450) q ->
  exists t, pt64_isNear r (Some p) (Some q) (Some tol) = Ok t /\
    (t = true -> dist3 (val3 p) (val3 q) <= rval tol * (1 + P2 (-49)) + P2 (-529)) /\
    (dist3 (val3 p) (val3 q) * (1 + P2 (-50)) + P2 (-530) <= rval tol -> t = true).
Proof.
  intros Fp Fq Ft Bp Bq. destruct (c127_accurate r p q Fp Fq Bp Bq) as (d & E & Fd & A). unfold pt64_isNear. rewrite E. cbn [need3 bind]. eexists. split; [reflexivity |].
  rewrite (SFleb_val d tol Fd Ft). apply abs_le in A. pose proof (dist3_pos (val3 p) (val3 q)).
  assert (Q' : P2 (-50) = 8 * e53) by (rewrite <- e53_P2, (P2_times 3 (-53) 8) by (lia || (rewrite <- P2_Z by lia; reflexivity)); reflexivity).
  assert (Q9 : P2 (-49) = 16 * e53) by (rewrite <- e53_P2, (P2_times 4 (-53) 16) by (lia || (rewrite <- P2_Z by lia; reflexivity)); reflexivity).
  assert (Q5 : P2 (-529) = 2 * P2 (-530)) by (rewrite <- P2_succ; reflexivity). pose proof (P2_pos (-530)). rewrite Q', Q9, Q5 in *. unfold e53 in *. split; intros H'; lra.
Qed.

(** *** Centers *)
Lemma half_err x : finite64 x -> Rabs (rval x) <= P2 1000 -> finite64 (b64_div x (b64_of_Z 2)) /\ Rabs (rval (b64_div x (b64_of_Z 2)) - rval x / 2) <= e53 * Rabs (rval x) + tiny.
Proof.
  intros F B. destruct (of_Z_val 2 ltac:(lia)) as [F2' V2']. pose proof (P2_mono 1000 1023 ltac:(lia)) as M. pose proof (Rabs_pos (rval x)).
  assert (H2 : Rabs (rval x / 2) <= Rabs (rval x)) by (unfold Rdiv; rewrite Rabs_mult, (Rabs_right (/ 2)) by lra; lra).
  assert (U : Rabs (rval x / rval (b64_of_Z 2)) <= P2 1023) by (rewrite V2'; lra).
  pose proof (SFdiv_rounded x _ F F2' ltac:(rewrite V2'; lra) U) as N. split; [exact (proj1 (proj1 N)) |]. pose proof (rounded_any _ _ N) as E. rewrite V2' in E. eapply Rle_trans; [exact E |].
  apply Rplus_le_compat_r. apply Rmult_le_compat_l; [unfold e53; lra | exact H2].
Qed.
Lemma center_err a b : finite64 a -> finite64 b -> Rabs (rval a) <= P2 900 -> Rabs (rval b) <= P2 900 ->
  finite64 (sf_add a (b64_div (sf_sub b a) (b64_of_Z 2))) /\
  Rabs (rval (sf_add a (b64_div (sf_sub b a) (b64_of_Z 2))) - / 2 * (rval a + rval b)) <= 4 * e53 * (Rabs (rval a) + Rabs (rval b)) + 2 * tiny.
Proof.
  intros Fa Fb Ba Bb. destruct (sub_rel b a 900 Fb Fa Bb Ba ltac:(lia)) as (Fd & Ed & Bd). destruct (half_err (sf_sub b a) Fd ltac:(eapply Rle_trans; [exact Bd | apply P2_mono; lia])) as [Fh Eh].
  set (d := rval (sf_sub b a)) in *. set (h := rval (b64_div (sf_sub b a) (b64_of_Z 2))) in *. set (x := rval a) in *. set (y := rval b) in *.
  pose proof (Rabs_pos x) as Px. pose proof (Rabs_pos y) as Py. pose proof tiny_pos as Pt.
  assert (T1 : Rabs (y - x) <= Rabs x + Rabs y) by (unfold Rminus; eapply Rle_trans; [apply Rabs_triang |]; rewrite Rabs_Ropp; lra).
  assert (Hd : Rabs d <= (1 + e53) * (Rabs x + Rabs y)) by (pose proof (Rabs_triang (d - (y - x)) (y - x)) as T; replace (d - (y - x) + (y - x)) with d in T by ring; unfold e53 in *; lra).
  assert (Hh : Rabs h <= 0.6 * (Rabs x + Rabs y) + tiny).
  { pose proof (Rabs_triang (h - d / 2) (d / 2)) as T. replace (h - d / 2 + d / 2) with h in T by ring. assert (D2 : Rabs (d / 2) = Rabs d * / 2) by (unfold Rdiv; rewrite Rabs_mult, (Rabs_right (/ 2)) by lra; reflexivity). rewrite D2 in T. unfold e53 in *. lra. }
  assert (T2 : Rabs (x + h) <= 2 * (Rabs x + Rabs y) + tiny) by (pose proof (Rabs_triang x h); lra).
  assert (Q : 8 * P2 900 <= P2 1022) by (rewrite (P2_times 3 900 8) by (lia || (rewrite <- P2_Z by lia; reflexivity)); apply P2_mono; lia).
  assert (Q1 : P2 1023 = 2 * P2 1022) by (rewrite <- P2_succ; reflexivity). assert (Q2 : tiny <= P2 1022) by (apply P2_mono; lia).
  assert (U : Rabs (x + h) <= P2 1023) by lra.
  pose proof (SFadd_rounded a _ Fa Fh U) as [[F _] _]. pose proof (add_err a _ Fa Fh U) as E. rewrite e53_P2 in E. fold x h in E. split; [exact F |].
  change (SFadd 53 1024 a (b64_div (sf_sub b a) (b64_of_Z 2))) with (sf_add a (b64_div (sf_sub b a) (b64_of_Z 2))) in E. set (c := rval (sf_add a _)) in *.
  assert (T3 : Rabs (x + h) <= 1.7 * (Rabs x + Rabs y) + tiny) by (pose proof (Rabs_triang x h); lra).
  apply abs_le in E. apply abs_le in Eh. apply abs_le in Ed. apply abs_of. unfold e53 in *. lra.
Qed.
Lemma c126_center a b : finite3 a -> finite3 b -> within3 (P2 900) a -> within3 (P2 900) b ->
  exists c, s64_getCenter (mkS64 (Some a) (Some b)) = Ok c /\ finite3 c /\
    dist3 (val3 c) (scale3 (/ 2) (add3 (val3 a) (val3 b))) <= P2 (-49) * (norm3 (val3 a) + norm3 (val3 b)) + P2 (-1000).
Proof.
  intros (Ax & Ay & Az) (Bx & By & Bz) (Ux & Uy & Uz) (Vx & Vy & Vz). eexists. split; [reflexivity |].
  destruct (center_err _ _ Ax Bx Ux Vx) as [Fx Ex]. destruct (center_err _ _ Ay By Uy Vy) as [Fy Ey]. destruct (center_err _ _ Az Bz Uz Vz) as [Fz Ez].
  split; [split; [exact Fx | split; [exact Fy | exact Fz]] |]. unfold dist3. eapply Rle_trans; [apply norm3_sum |]. destruct (coordinate_le (val3 a)) as (C1 & C2 & C3). destruct (coordinate_le (val3 b)) as (D1 & D2 & D3).
  unfold sub3, scale3, add3, fadd3, fdiv3, fsub3. set (na := norm3 (val3 a)) in *. set (nb := norm3 (val3 b)) in *. cbn [val3 vx vy vz fx fy fz] in *.
  assert (Q9 : P2 (-49) = 16 * e53) by (rewrite <- e53_P2, (P2_times 4 (-53) 16) by (lia || (rewrite <- P2_Z by lia; reflexivity)); reflexivity).
  assert (Q : 8 * tiny <= P2 (-1000)) by (unfold tiny; rewrite (P2_times 3 (-1075) 8) by (lia || (rewrite <- P2_Z by lia; reflexivity)); apply P2_mono; lia). pose proof tiny_pos.
  assert (0 <= na) by apply sqrt_pos. assert (0 <= nb) by apply sqrt_pos. rewrite Q9. unfold e53 in *. lra.
Qed.

(** *** Directions of differences *)
Lemma scale_dist k v w : dist3 (scale3 k v) (scale3 k w) = Rabs k * dist3 v w.
Proof. unfold dist3. rewrite <- norm3_scale. f_equal. unfold sub3, scale3. cbn [vx vy vz]. f_equal; ring. Qed.
Lemma approx_dist d v : approx3 d v -> dist3 (val3 d) v <= e53 * norm3 v.
Proof.
  intros (X & Y & Z). unfold dist3. rewrite <- (Rabs_right e53) by (unfold e53; lra). rewrite <- norm3_scale. unfold norm3. apply sqrt_le_1_alt. unfold sqnorm3, dot3, sub3, scale3, val3. cbn [vx vy vz].
  assert (G : forall a b, Rabs a <= e53 * Rabs b -> a * a <= e53 * b * (e53 * b)).
  { intros a b H. assert (SQ : forall x, x * x = Rabs x * Rabs x) by (intros x; rewrite <- Rabs_mult, Rabs_right by (apply Rle_ge; nra); reflexivity).
    rewrite (SQ a), (SQ (e53 * b)). rewrite Rabs_mult, (Rabs_right e53) by (unfold e53; lra). apply Rmult_le_compat; try apply Rabs_pos; assumption. }
  pose proof (G _ _ X). pose proof (G _ _ Y). pose proof (G _ _ Z). lra.
Qed.
Lemma norm_dist v w : Rabs (norm3 v - norm3 w) <= dist3 v w.
Proof.
  assert (Z : forall x, norm3 x = dist3 x zero3) by (intros [a b c]; unfold dist3; f_equal; unfold sub3, zero3; cbn [vx vy vz]; f_equal; ring).
  assert (S : forall x y, dist3 x y = dist3 y x).
  { intros x y. unfold dist3, norm3. f_equal. unfold sqnorm3, dot3, sub3. cbn [vx vy vz]. ring. }
  pose proof (dist3_triangle v w zero3) as T1. pose proof (dist3_triangle w v zero3) as T2. rewrite (S w v) in T2. rewrite !Z. apply abs_of. lra.
Qed.
Definition unit3 (v : v3) : v3 := scale3 (/ norm3 v) v.
Lemma unit_close v w e : 0 < norm3 w -> 0 < norm3 v -> dist3 v w <= e * norm3 w -> dist3 (unit3 v) (unit3 w) <= 2 * e.
Proof.
  intros Pw Pv H. pose proof (norm_dist v w) as N. eapply Rle_trans; [apply (dist3_triangle _ (scale3 (/ norm3 w) v)) |].
  assert (A : dist3 (scale3 (/ norm3 w) v) (unit3 w) <= e).
  { unfold unit3. rewrite scale_dist, Rabs_inv, (Rabs_right (norm3 w)) by lra. apply Rmult_le_reg_l with (norm3 w); [exact Pw |]. rewrite <- Rmult_assoc, Rinv_r by lra. lra. }
  assert (B : dist3 (unit3 v) (scale3 (/ norm3 w) v) <= e); [| lra].
  unfold unit3, dist3. replace (sub3 (scale3 (/ norm3 v) v) (scale3 (/ norm3 w) v)) with (scale3 (/ norm3 v - / norm3 w) v) by (unfold sub3, scale3; cbn [vx vy vz]; f_equal; ring).
  rewrite norm3_scale. replace (/ norm3 v - / norm3 w) with ((norm3 w - norm3 v) * / norm3 w * / norm3 v) by (field; lra). rewrite !Rabs_mult, !Rabs_inv, (Rabs_right (norm3 w)), (Rabs_right (norm3 v)) by lra.
  rewrite Rmult_assoc, Rinv_l, Rmult_1_r by lra. rewrite (Rabs_minus_sym (norm3 w)). apply Rmult_le_reg_r with (norm3 w); [exact Pw |]. rewrite Rmult_assoc, Rinv_l by lra. lra.
Qed.
Lemma unit_normalized v : 0 < norm3 v -> normalized3 v = unit3 v.
Proof. intros P. unfold normalized3, unit3. destruct (Rlt_dec 0 (sqnorm3 v)) as [S | S]; [reflexivity | exfalso; apply S; rewrite <- norm3_sq; nra]. Qed.
Lemma unit_norm v : 0 < norm3 v -> norm3 (unit3 v) = 1.
Proof. intros P. unfold unit3. rewrite norm3_scale, Rabs_inv, Rabs_right by lra. apply Rinv_l. lra. Qed.
Lemma difference_unit r p q : finite3 p -> finite3 q -> within3 (P2 440) p -> within3 (P2 440) q -> P2 (-440) <= dist3 (val3 q) (val3 p) ->
  feq3 p q = false /\ finite3 (fnormalized3 r (fsub3 q p)) /\ dist3 (val3 (fnormalized3 r (fsub3 q p))) (unit3 (sub3 (val3 q) (val3 p))) <= 66 * e53.
Proof.
  intros Fp Fq Bp Bq L. pose proof (P2_pos (-440)) as P440. destruct (sub3_approx q p 440 Fq Fp Bq Bp ltac:(lia)) as (Fd & Bd & Ad). pose proof (approx_dist _ _ Ad) as D. fold (dist3 (val3 q) (val3 p)) in D.
  pose proof (norm_dist (val3 (fsub3 q p)) (sub3 (val3 q) (val3 p))) as N. fold (dist3 (val3 q) (val3 p)) in N. apply abs_le in N.
  split. { apply not_true_is_false. intros E. apply (feq3_val _ _ Fp Fq) in E. rewrite E in L. unfold dist3, norm3 in L. replace (sqnorm3 _) with 0 in L by (unfold sqnorm3, dot3, sub3; cbn [vx vy vz]; ring). rewrite sqrt_0 in L. lra. }
  assert (Q : P2 (-440) = 2 * P2 (-441)) by (rewrite <- P2_succ; reflexivity). pose proof (P2_mono (-450) (-441) ltac:(lia)) as M. pose proof (P2_pos (-450)) as P450.
  assert (H : P2 (-450) <= norm3 (val3 (fsub3 q p))) by (unfold e53 in *; lra). pose proof (within_weaken (440 + 2) 450 _ ltac:(lia) Bd) as Bd'.
  destruct (normalized_err r _ Fd Bd' H) as [Fn En]. split; [exact Fn |]. rewrite unit_normalized in En by lra. eapply Rle_trans; [apply (dist3_triangle _ (unit3 (val3 (fsub3 q p)))) |].
  assert (U : dist3 (unit3 (val3 (fsub3 q p))) (unit3 (sub3 (val3 q) (val3 p))) <= 2 * e53) by (apply unit_close; [unfold dist3 in L; lra | lra | exact D]).
  assert (Q7 : P2 (-47) = 64 * e53) by (rewrite <- e53_P2, (P2_times 6 (-53) 64) by (lia || (rewrite <- P2_Z by lia; reflexivity)); reflexivity). unfold e53 in *. lra.
Qed.
Lemma c130_segment r a b : finite3 a -> finite3 b -> within3 (P2 440) a -> within3 (P2 440) b -> P2 (-440) <= dist3 (val3 b) (val3 a) ->
  exists d, s64_getDirection r (mkS64 (Some a) (Some b)) = Ok d /\ finite3 d /\ dist3 (val3 d) (scale3 (/ dist3 (val3 b) (val3 a)) (sub3 (val3 b) (val3 a))) <= P2 (-46).
Proof.
  intros Fa Fb Ba Bb L. destruct (difference_unit r a b Fa Fb Ba Bb L) as (E & F & D). unfold s64_getDirection. cbn [s64_data s64_first s64_second bind]. rewrite E. eexists. split; [reflexivity |]. split; [exact F |].
  eapply Rle_trans; [exact D |]. assert (Q7 : P2 (-46) = 128 * e53) by (rewrite <- e53_P2, (P2_times 7 (-53) 128) by (lia || (rewrite <- P2_Z by lia; reflexivity)); reflexivity). unfold e53 in *. lra.
Qed.
Lemma c130_through r p q : finite3 p -> finite3 q -> within3 (P2 440) p -> within3 (P2 440) q -> P2 (-440) <= dist3 (val3 q) (val3 p) ->
  exists d, l64_Through r (Some p) (Some q) = Ok (mkL64 (Some p) (Some d)) /\ finite3 d /\ dist3 (val3 d) (scale3 (/ dist3 (val3 q) (val3 p)) (sub3 (val3 q) (val3 p))) <= P2 (-45).
Proof.
  intros Fp Fq Bp Bq L. destruct (difference_unit r p q Fp Fq Bp Bq L) as (E & F & D). unfold l64_Through. cbn [need3 bind]. rewrite E. set (n := fnormalized3 r (fsub3 q p)) in *.
  pose proof (P2_pos (-440)) as P440. fold (unit3 (sub3 (val3 q) (val3 p))). change (scale3 (/ dist3 (val3 q) (val3 p)) (sub3 (val3 q) (val3 p))) with (unit3 (sub3 (val3 q) (val3 p))). set (U := unit3 (sub3 (val3 q) (val3 p))) in *.
  assert (NU : norm3 U = 1) by (apply unit_norm; unfold dist3 in L; lra). pose proof (norm_dist (val3 n) U) as N. rewrite NU in N. apply abs_le in N.
  assert (B : within3 (P2 450) n).
  { destruct (coordinate_le (val3 n)) as (C1 & C2 & C3). pose proof (P2_mono 1 450 ltac:(lia)) as M. change 1%Z with (0 + 1)%Z in M. rewrite P2_succ, P2_0 in M. unfold within3. unfold e53 in *. change (vx (val3 n)) with (rval (fx n)) in C1. change (vy (val3 n)) with (rval (fy n)) in C2. change (vz (val3 n)) with (rval (fz n)) in C3. repeat split; lra. }
  assert (H : P2 (-450) <= norm3 (val3 n)).
  { pose proof (P2_mono (-450) (-1) ltac:(lia)) as M. assert (Q : P2 (-1) * 2 = 1) by (rewrite Rmult_comm, <- P2_succ; reflexivity). unfold e53 in *. lra. }
  destruct (c130_direction r (Some p) n F B H) as (d & Ed & Fd & Dd). exists d. split; [exact Ed |]. split; [exact Fd |]. fold (unit3 (val3 n)) in Dd.
  assert (PN : 0 < norm3 (val3 n)) by (pose proof (P2_pos (-450)); lra).
  assert (K : dist3 (unit3 (val3 n)) U <= 2 * (66 * e53)).
  { assert (UU : unit3 U = U) by (unfold unit3 at 1; rewrite NU, Rinv_1; destruct U as [x y z]; unfold scale3; cbn [vx vy vz]; f_equal; ring).
    rewrite <- UU. apply unit_close; [rewrite NU; lra | exact PN | rewrite NU; lra]. }
  eapply Rle_trans; [apply (dist3_triangle _ (unit3 (val3 n))) |].
  assert (Q7 : P2 (-47) = 64 * e53) by (rewrite <- e53_P2, (P2_times 6 (-53) 64) by (lia || (rewrite <- P2_Z by lia; reflexivity)); reflexivity).
  assert (Q5 : P2 (-45) = 256 * e53) by (rewrite <- e53_P2, (P2_times 8 (-53) 256) by (lia || (rewrite <- P2_Z by lia; reflexivity)); reflexivity). unfold e53 in *. lra.
Qed.
Lemma c130_same r p q : finite3 p -> finite3 q -> val3 p = val3 q ->
  l64_Through r (Some p) (Some q) = Err ERuntime /\ s64_getDirection r (mkS64 (Some p) (Some q)) = Err ERuntime.
Proof. intros Fp Fq E. unfold l64_Through, s64_getDirection. cbn [need3 bind s64_data s64_first s64_second]. rewrite (proj2 (feq3_val p q Fp Fq) E). split; reflexivity. Qed.
Lemma c130_errors r p q s : (p = None \/ q = None -> l64_Through r p q = Err EUndefined) /\
  (s64_first s = None \/ s64_second s = None -> s64_getDirection r s = Err EUndefined /\ s64_getCenter s = Err EUndefined /\ s64_getLength r s = Err EUndefined) /\
  Line64 r p None = Ok (mkL64 p None) /\ Plane64 r p None = mkP64 p None.
Proof.
  split; [intros H; destruct p, q; try reflexivity; destruct H; discriminate |]. split; [| split; reflexivity].
  intros H. unfold s64_getDirection, s64_getCenter, s64_getLength, s64_data. destruct (s64_first s), (s64_second s); try (split; [| split]; reflexivity). destruct H; discriminate.
Qed.
