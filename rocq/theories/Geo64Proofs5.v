(** Spheres and lines of the plane in double precision. *)

From Coq Require Import List Bool Arith ZArith Reals Lra Lia Floats.SpecFloat.
From Verif Require Import Result Vec DOrder RotModel AngleModel FloatSpec FloatProofs FloatProofs2 FloatModel FloatProofs3 FloatProofs4 FloatProofs5 FloatProofs7 FloatProofs10
  VecProofs Geo3Types Geo3Model Geo3Spec Geo3Proofs Geo3Proofs2 Geo2Model Geo2Spec Geo64Model Geo64Spec Geo64Proofs Geo64Proofs2 Geo64Proofs3 Geo64Proofs4.
Import ListNotations.
Local Open Scope R_scope.

(** *** Spheres *)
Lemma c128_whole r eps c R p : finite3 c -> finite64 R -> finite3 p -> whole3 (2 ^ 24) c -> whole64 (2 ^ 25) R -> whole3 (2 ^ 24) p -> 0 <= rval R -> finite64 eps -> 0 < rval eps <= 1 ->
  exists t, sp64_contains r eps (mkSp64 (Some c) (Some R)) (Some p) = Ok t /\ (t = true <-> dist3 (val3 p) (val3 c) = rval R).
Proof.
  intros Fc FR Fp Wc (n & Vn & Bn) Wp PR Fe Pe. destruct (whole_isint _ c Fc Wc) as (i & j & k & Ic & Bi & Bj & Bk). destruct (whole_isint _ p Fp Wp) as (i' & j' & k' & Ip & Bi' & Bj' & Bk').
  eexists. split; [reflexivity |]. pose proof (isint3_sub _ _ _ _ _ _ _ _ (2 ^ 24) Ip Ic ltac:(lia) (conj Bi' (conj Bj' Bk')) (conj Bi (conj Bj Bk))) as Is.
  assert (Bs : (Z.abs (i' - i) <= 2 ^ 25 /\ Z.abs (j' - j) <= 2 ^ 25 /\ Z.abs (k' - k) <= 2 ^ 25)%Z) by (repeat split; apply sub25; assumption).
  pose proof (isint3_dot r _ _ _ _ _ _ _ _ Is Is Bs Bs) as Iq. unfold fsqnorm3. set (q := ((i' - i) * (i' - i) + (j' - j) * (j' - j) + (k' - k) * (k' - k))%Z) in *.
  assert (Bq : (0 <= q <= 3 * 2 ^ 50)%Z).
  { destruct Bs as (B1 & B2 & B3). pose proof (mul25 _ _ B1 B1). pose proof (mul25 _ _ B2 B2). pose proof (mul25 _ _ B3 B3). pose proof (Z.square_nonneg (i' - i)). pose proof (Z.square_nonneg (j' - j)). pose proof (Z.square_nonneg (k' - k)).
    unfold q. clear - H H0 H1 H2 H3 H4. lia. }
  assert (IR : isint (b64_mul R R) (n * n)) by (apply isint_mul; [split; assumption | split; assumption | apply le53, mul25; assumption]).
  assert (BR : (0 <= n * n <= 2 ^ 50)%Z) by (pose proof (mul25 _ _ Bn Bn); pose proof (Z.square_nonneg n); clear - H H0; lia).
  assert (Id : isint (sf_sub (fdot3 r (fsub3 p c) (fsub3 p c)) (b64_mul R R)) (q - n * n)) by (apply isint_sub; [assumption | assumption | clear - Bq BR; lia]).
  destruct (abs_val _ (proj1 Id)) as [Fa Va]. rewrite (SFltb_val _ _ Fa Fe), Va, (proj2 Id).
  assert (D : dist3 (val3 p) (val3 c) = rval R <-> q = (n * n)%Z).
  { unfold dist3. rewrite (isint3_val _ _ _ _ Ip), (isint3_val _ _ _ _ Ic). unfold norm3.
    assert (E : sqnorm3 (sub3 (V3 (IZR i') (IZR j') (IZR k')) (V3 (IZR i) (IZR j) (IZR k))) = IZR q) by (unfold sqnorm3, dot3, sub3, q; cbn [vx vy vz]; rewrite !plus_IZR, !mult_IZR, !minus_IZR; reflexivity).
    rewrite E, Vn. rewrite Vn in PR. split.
    - intros H. apply eq_IZR. rewrite mult_IZR, <- H. symmetry. apply sqrt_sqrt. apply IZR_le. lia.
    - intros ->. rewrite mult_IZR. apply sqrt_square. exact PR. }
  rewrite D, <- abs_IZR. split.
  - intros H. assert (L : (Z.abs (q - n * n) < 1)%Z) by (apply lt_IZR; lra). clear - L. lia.
  - intros ->. rewrite Z.sub_diag. cbn. lra.
Qed.
Lemma c128_near r eps c R p : finite3 c -> finite64 R -> finite3 p -> within3 (P2 200) c -> Rabs (rval R) <= P2 200 -> within3 (P2 200) p -> finite64 eps ->
  sp64_contains r eps (mkSp64 (Some c) (Some R)) (Some p) = Ok true ->
  Rabs (dist3 (val3 p) (val3 c) * dist3 (val3 p) (val3 c) - rval R * rval R) <= rval eps + P2 (-49) * (dist3 (val3 p) (val3 c) * dist3 (val3 p) (val3 c) + rval R * rval R) + P2 (-500).
Proof.
  intros Fc FR Fp Bc BR Bp Fe H. destruct (sub3_approx p c 200 Fp Fc Bp Bc ltac:(lia)) as (Fs & Bs & As).
  destruct (dot_err' r _ _ _ _ (200 + 2) Fs Fs Bs Bs As As ltac:(lia)) as [Ft Et]. destruct (mul_bound R R 200 200 FR FR BR BR ltac:(lia) ltac:(lia)) as (Fm & Nm & Bm).
  pose proof (rounded_any _ _ Nm) as Em. rewrite (Rabs_right (rval R * rval R)) in Em by (apply Rle_ge; nra).
  unfold dist3. pose proof (norm3_sq (sub3 (val3 p) (val3 c))) as Q. unfold sqnorm3 in Q. rewrite Q in *. set (D := dot3 _ _) in *.
  assert (PD : 0 <= D) by (unfold D, dot3; nra). assert (PR : 0 <= rval R * rval R) by nra. set (S := fdot3 r _ _) in *.
  assert (B1 : Rabs (rval S) <= P2 500).
  { destruct (square_pos (fx (fsub3 p c)) (200 + 2) (proj1 Fs) (proj1 Bs) ltac:(lia)) as [G1 H1]. destruct (square_pos (fy (fsub3 p c)) (200 + 2) (proj1 (proj2 Fs)) (proj1 (proj2 Bs)) ltac:(lia)) as [G2 H2].
    destruct (square_pos (fz (fsub3 p c)) (200 + 2) (proj2 (proj2 Fs)) (proj2 (proj2 Bs)) ltac:(lia)) as [G3 H3]. destruct (sum64_pos r _ _ _ (2 * (200 + 2)) G1 G2 G3 H1 H2 H3 ltac:(lia)) as (_ & L & _ & _ & U).
    unfold S, fdot3. rewrite Rabs_right by lra. eapply Rle_trans; [exact U | apply P2_mono; lia]. }
  assert (B2 : Rabs (rval (b64_mul R R)) <= P2 500) by (eapply Rle_trans; [exact Bm | apply P2_mono; lia]).
  destruct (sub_rel _ _ 500 Ft Fm B1 B2 ltac:(lia)) as (Fd & Ed & _). unfold sp64_contains in H. cbn [need3 bind sp64_center sp64_radius] in H.
  change (fsqnorm3 r (fsub3 p c)) with S in H. destruct (SFltb _ eps) eqn:L; [| discriminate]. destruct (abs_val _ Fd) as [Fa Va]. apply SFltb_val in L; [| assumption..]. rewrite Va in L.
  assert (Q' : P2 (-50) = 8 * e53) by (rewrite <- e53_P2; replace 8 with (P2 3) by (rewrite <- P2_Z by lia; reflexivity); rewrite <- P2_add; reflexivity).
  assert (Q9 : P2 (-49) = 16 * e53) by (rewrite <- e53_P2; replace 16 with (P2 4) by (rewrite <- P2_Z by lia; reflexivity); rewrite <- P2_add; reflexivity).
  assert (Q5 : 32 * P2 (-1075) <= P2 (-500)) by (replace 32 with (P2 5) by (rewrite <- P2_Z by lia; reflexivity); rewrite <- P2_add; apply P2_mono; lia).
  rewrite Q' in Et. rewrite Q9. pose proof (P2_pos (-500)). pose proof (P2_pos (-1075)).
  set (s := rval S) in *. set (m := rval (b64_mul R R)) in *. set (w := rval (sf_sub S (b64_mul R R))) in *. set (R2 := rval R * rval R) in *. clearbody s m w R2 D.
  assert (Sz : Rabs (s - m) <= Rabs w + e53 * Rabs (s - m)).
  { pose proof (Rabs_triang (s - m - w) w) as T. replace (s - m - w + w) with (s - m) in T by ring. rewrite (Rabs_minus_sym (s - m) w) in T. lra. }
  assert (Tr : Rabs (s - m) <= D * (1 + 8 * e53) + P2 (-500) / 2 + R2 * (1 + e53) + P2 (-1075)).
  { apply abs_le in Et. apply abs_le in Em. apply abs_of. unfold e53 in *. lra. }
  apply abs_le in Et. apply abs_le in Em. assert (X : Rabs (s - m) <= rval eps + e53 * (D * (1 + 8 * e53) + P2 (-500) / 2 + R2 * (1 + e53) + P2 (-1075))) by (unfold e53 in *; lra).
  apply abs_le in X. apply abs_of. unfold e53 in *. lra.
Qed.
Lemma zero_val : rval zero64 = 0.
Proof. reflexivity. Qed.
Lemma c128_on_refuted : exists p R, finite3 p /\ finite64 R /\ 0 < rval R /\ dist3 (val3 p) (V3 0 0 0) = rval R /\
  forall r eps, finite64 eps -> rval eps <= / 16 -> sp64_contains r eps (mkSp64 (Some (F3 zero64 zero64 zero64)) (Some R)) (Some p) = Ok false.
Proof.
  pose (v := S754_finite false ((2 ^ 50 + 1) * 4) (-30)). exists (F3 (b64_mul (b64_of_Z 3) v) (b64_mul (b64_of_Z 4) v) zero64), (b64_mul (b64_of_Z 5) v).
  assert (F : finite64 v) by (vm_compute; reflexivity). pose proof (pos_pos ((2 ^ 50 + 1) * 4) (-30)) as P.
  assert (V3' : rval (b64_mul (b64_of_Z 3) v) = 3 * (IZR (Zpos ((2 ^ 50 + 1) * 4)) * P2 (-30))).
  { replace (b64_mul (b64_of_Z 3) v) with (S754_finite false (3 * 2 * (2 ^ 50 + 1)) (-29)) by (vm_compute; reflexivity). rewrite rval_sg. cbn [sg].
    replace (-29)%Z with (-30 + 1)%Z by lia. rewrite P2_succ. replace (Zpos (3 * 2 * (2 ^ 50 + 1))) with (3 * 2 * (2 ^ 50 + 1))%Z by reflexivity. replace (Zpos ((2 ^ 50 + 1) * 4)) with ((2 ^ 50 + 1) * 4)%Z by reflexivity. rewrite !mult_IZR. ring. }
  assert (V4' : rval (b64_mul (b64_of_Z 4) v) = 4 * (IZR (Zpos ((2 ^ 50 + 1) * 4)) * P2 (-30))).
  { replace (b64_mul (b64_of_Z 4) v) with (S754_finite false (4 * (2 ^ 50 + 1)) (-28)) by (vm_compute; reflexivity). rewrite rval_sg. cbn [sg].
    replace (-28)%Z with (-30 + 1 + 1)%Z by lia. rewrite !P2_succ. replace (Zpos (4 * (2 ^ 50 + 1))) with (4 * (2 ^ 50 + 1))%Z by reflexivity. replace (Zpos ((2 ^ 50 + 1) * 4)) with ((2 ^ 50 + 1) * 4)%Z by reflexivity. rewrite !mult_IZR. ring. }
  assert (V5' : rval (b64_mul (b64_of_Z 5) v) = 5 * (IZR (Zpos ((2 ^ 50 + 1) * 4)) * P2 (-30))).
  { replace (b64_mul (b64_of_Z 5) v) with (S754_finite false (5 * (2 ^ 50 + 1)) (-28)) by (vm_compute; reflexivity). rewrite rval_sg. cbn [sg].
    replace (-28)%Z with (-30 + 1 + 1)%Z by lia. rewrite !P2_succ. replace (Zpos (5 * (2 ^ 50 + 1))) with (5 * (2 ^ 50 + 1))%Z by reflexivity. replace (Zpos ((2 ^ 50 + 1) * 4)) with ((2 ^ 50 + 1) * 4)%Z by reflexivity. rewrite !mult_IZR. ring. }
  set (t := IZR (Zpos ((2 ^ 50 + 1) * 4)) * P2 (-30)) in *.
  split; [split; [vm_compute; reflexivity | split; [vm_compute; reflexivity | exact I]] |]. split; [vm_compute; reflexivity |]. split; [rewrite V5'; lra |]. split.
  - unfold dist3, val3. cbn [fx fy fz]. rewrite V3', V4', V5', zero_val. unfold norm3, sqnorm3, dot3, sub3. cbn [vx vy vz]. rewrite <- (sqrt_square (5 * t)) by lra. f_equal. ring.
  - intros r eps Fe Le. unfold sp64_contains. cbn [need3 bind sp64_center sp64_radius]. f_equal.
    replace (SFabs _) with (S754_finite false (2 ^ 52) (-56)) by (destruct r; vm_compute; reflexivity).
    assert (N : ~ rval (S754_finite false (2 ^ 52) (-56)) < rval eps).
    { rewrite rval_sg. cbn [sg]. replace (Zpos (2 ^ 52)) with (2 ^ 52)%Z by reflexivity. rewrite P2_Z, <- P2_add by lia. replace (52 + -56)%Z with (-4)%Z by lia.
      assert (Q : P2 (-4) * 16 = 1) by (replace 16 with (P2 4) by (rewrite <- P2_Z by lia; reflexivity); rewrite <- P2_add; reflexivity). lra. }
    apply not_true_is_false. intros H. apply N. apply SFltb_val; [vm_compute; reflexivity | exact Fe | exact H].
Qed.

(** *** Lines of the plane *)
Lemma feq2_val a b : finite2 a -> finite2 b -> (feq2 a b = true <-> val2 a = val2 b).
Proof.
  intros (Ax & Ay) (Bx & By). unfold feq2. rewrite !andb_true_iff, !SFeqb_val by assumption. unfold val2. split; [intros [-> ->]; reflexivity | intros E; injection E as -> ->; split; reflexivity].
Qed.
Lemma add_zero_val x z : finite64 x -> finite64 z -> rval z = 0 -> finite64 (sf_add x z) /\ rval (sf_add x z) = rval x.
Proof.
  intros Fx Fz V.
  destruct (zero_of z Fz V) as [s ->]. destruct x as [s' | s' | | s' m e]; try contradiction.
  - destruct s, s'; split; try exact I; reflexivity.
  - split; [exact Fx | reflexivity].
Qed.
Lemma c129_origin o d : finite2 o -> l64_contains2 (Some o) (Some d) (Some o) = Ok true.
Proof. intros F. unfold l64_contains2. cbn [need3 bind]. rewrite (proj2 (feq2_val o o F F) eq_refl). reflexivity. Qed.
Lemma line2_vertical o d p : x2 d = 0 -> y2 d <> 0 -> (on_line2 o d p <-> x2 p = x2 o).
Proof.
  intros X Y. unfold on_line2, along2, add2, scale2. split; [intros [t ->]; cbn [x2]; rewrite X; ring |].
  intros E. exists ((y2 p - y2 o) / y2 d). destruct p as [a b]. cbn [x2 y2] in *. rewrite X, E. f_equal; field; exact Y.
Qed.
Lemma line2_horizontal o d p : y2 d = 0 -> x2 d <> 0 -> (on_line2 o d p <-> y2 p = y2 o).
Proof.
  intros Y X. unfold on_line2, along2, add2, scale2. split; [intros [t ->]; cbn [y2]; rewrite Y; ring |].
  intros E. exists ((x2 p - x2 o) / x2 d). destruct p as [a b]. cbn [x2 y2] in *. rewrite Y, E. f_equal; field; exact X.
Qed.
Lemma c129_vertical o d p : finite2 o -> finite2 d -> finite2 p -> rval (fx2 d) = 0 -> rval (fy2 d) <> 0 ->
  exists t, l64_contains2 (Some o) (Some d) (Some p) = Ok t /\ (t = true <-> on_line2 (val2 o) (val2 d) (val2 p)).
Proof.
  intros Fo Fd Fp V Y. unfold l64_contains2. cbn [need3 bind]. setoid_rewrite (line2_vertical (val2 o) (val2 d) (val2 p) V Y). destruct (feq2 p o) eqn:E.
  - exists true. split; [reflexivity |]. apply (feq2_val _ _ Fp Fo) in E. rewrite E. split; reflexivity.
  - destruct (add_zero_val (fx2 o) (fx2 d) (proj1 Fo) (proj1 Fd) V) as [Fa Va]. cbn [fadd2 fx2 fy2].
    replace (SFeqb (sf_add (fx2 o) (fx2 d)) (fx2 o)) with true by (symmetry; apply SFeqb_val; [exact Fa | apply Fo | exact Va]).
    eexists. split; [reflexivity |]. apply SFeqb_val; [apply Fp | apply Fo].
Qed.
(** A rounded step of one is a step, up to 2^52. *)
Lemma step_one x y : finite64 x -> finite64 y -> Rabs (rval x) <= P2 52 -> rval y = 1 \/ rval y = -1 -> finite64 (sf_add x y) /\ rval (sf_add x y) <> rval x /\ Rabs (rval (sf_add x y)) <= P2 54.
Proof.
  intros Fx Fy B V. assert (Q : P2 52 = 4503599627370496) by (rewrite <- P2_Z by lia; reflexivity). assert (Q4 : P2 54 = 18014398509481984) by (rewrite <- P2_Z by lia; reflexivity).
  rewrite Q in B. apply abs_le in B. assert (U' : Rabs (rval x + rval y) <= 4503599627370497) by (apply abs_of; lra).
  assert (U : Rabs (rval x + rval y) <= P2 1023) by (pose proof (P2_mono 54 1023 ltac:(lia)); lra).
  destruct (SFadd_rounded x y Fx Fy U) as [[F _] _]. pose proof (add_err x y Fx Fy U) as E. change (SFadd 53 1024 x y) with (sf_add x y) in *. rewrite e53_P2 in E. split; [exact F |].
  assert (E' : Rabs (rval (sf_add x y) - (rval x + rval y)) <= 0.6) by (unfold e53 in E; lra). apply abs_le in E'. split; [intros G; lra |]. rewrite Q4. apply abs_of. lra.
Qed.
Lemma div_zero x y : finite64 x -> finite64 y -> rval x = 0 -> rval y <> 0 -> finite64 (b64_div x y) /\ rval (b64_div x y) = 0.
Proof.
  intros Fx Fy V N. destruct (zero_of x Fx V) as [s ->]. destruct y as [s' | s' | | s' m e]; try contradiction. split; [exact I | reflexivity].
Qed.
Lemma sub_same x y : finite64 x -> finite64 y -> rval x = rval y -> finite64 (sf_sub x y) /\ rval (sf_sub x y) = 0.
Proof.
  intros Fx Fy E. assert (U : Rabs (rval x - rval y) <= P2 1023) by (rewrite E, Rminus_diag_eq, Rabs_R0 by reflexivity; apply Rlt_le, P2_pos).
  destruct (SFsub_rounded x y Fx Fy U) as [[F _] _]. pose proof (sub_err x y Fx Fy U) as K. change (SFsub 53 1024 x y) with (sf_sub x y) in *. rewrite E, (Rminus_diag_eq (rval y) (rval y) eq_refl), Rabs_R0, Rmult_0_r, Rminus_0_r in K.
  split; [exact F |]. apply abs_le in K. lra.
Qed.
Lemma c129_horizontal o d p : finite2 o -> finite2 d -> finite2 p -> Rabs (rval (fx2 o)) <= P2 52 -> Rabs (rval (fx2 p)) <= P2 1000 ->
  rval (fx2 d) = 1 \/ rval (fx2 d) = -1 -> rval (fy2 d) = 0 ->
  exists t, l64_contains2 (Some o) (Some d) (Some p) = Ok t /\ (t = true <-> on_line2 (val2 o) (val2 d) (val2 p)).
Proof.
  intros Fo Fd Fp Bo Bp V Y. unfold l64_contains2. cbn [need3 bind]. assert (X : x2 (val2 d) <> 0) by (cbn [val2 x2]; lra). setoid_rewrite (line2_horizontal (val2 o) (val2 d) (val2 p) Y X).
  destruct (feq2 p o) eqn:E.
  - exists true. split; [reflexivity |]. apply (feq2_val _ _ Fp Fo) in E. rewrite E. split; reflexivity.
  - cbn [fadd2 fx2 fy2]. destruct (step_one (fx2 o) (fx2 d) (proj1 Fo) (proj1 Fd) Bo V) as (Fa & Na & Ba). destruct (add_zero_val (fy2 o) (fy2 d) (proj2 Fo) (proj2 Fd) Y) as [Fb Vb].
    replace (SFeqb (sf_add (fx2 o) (fx2 d)) (fx2 o)) with false.
    2:{ symmetry. apply not_true_is_false. intros H. apply SFeqb_val in H; [contradiction | exact Fa | apply Fo]. }
    eexists. split; [reflexivity |].
    destruct (sub_same (sf_add (fy2 o) (fy2 d)) (fy2 o) Fb (proj2 Fo) Vb) as [Fn Vn].
    destruct (sub_bound (sf_add (fx2 o) (fx2 d)) (fx2 o) 54 Fa (proj1 Fo) Ba ltac:(eapply Rle_trans; [exact Bo | apply P2_mono; lia]) ltac:(lia)) as (Fe & Ne & _ & _).
    assert (Nz : rval (sf_sub (sf_add (fx2 o) (fx2 d)) (fx2 o)) <> 0).
    { intros Z. destruct (sub_rel (sf_add (fx2 o) (fx2 d)) (fx2 o) 54 Fa (proj1 Fo) Ba ltac:(eapply Rle_trans; [exact Bo | apply P2_mono; lia]) ltac:(lia)) as (_ & R' & _). rewrite Z in R'.
      set (w := rval (sf_add (fx2 o) (fx2 d)) - rval (fx2 o)) in *. assert (W : w <> 0) by (unfold w; lra). apply Rabs_pos_lt in W. replace (0 - w) with (- w) in R' by ring. rewrite Rabs_Ropp in R'. unfold e53 in R'. lra. }
    destruct (div_zero _ _ Fn Fe Vn Nz) as [Fm Vm].
    destruct (sub_bound (fx2 p) (fx2 o) 1000 (proj1 Fp) (proj1 Fo) Bp ltac:(eapply Rle_trans; [exact Bo | apply P2_mono; lia]) ltac:(lia)) as (Fs & _).
    destruct (mul_zero (sf_sub (fx2 p) (fx2 o)) _ Fs Fm Vm) as [Ft Vt]. rewrite mul_comm64 in Ft, Vt.
    assert (G : finite64 (sf_add (b64_mul (b64_div (sf_sub (sf_add (fy2 o) (fy2 d)) (fy2 o)) (sf_sub (sf_add (fx2 o) (fx2 d)) (fx2 o))) (sf_sub (fx2 p) (fx2 o))) (fy2 o)) /\
      rval (sf_add (b64_mul (b64_div (sf_sub (sf_add (fy2 o) (fy2 d)) (fy2 o)) (sf_sub (sf_add (fx2 o) (fx2 d)) (fx2 o))) (sf_sub (fx2 p) (fx2 o))) (fy2 o)) = rval (fy2 o)).
    { set (z := b64_mul _ _) in *. destruct (zero_of z Ft Vt) as [s ->]. destruct (fy2 o) as [s' | s' | | s' m e] eqn:O; try (exfalso; destruct Fo as [_ Fo']; rewrite O in Fo'; exact Fo').
      - destruct s, s'; split; try exact I; reflexivity.
      - split; [destruct Fo as [_ Fo']; rewrite O in Fo'; exact Fo' | reflexivity]. }
    destruct G as [Fg Vg]. rewrite (SFeqb_val _ _ (proj2 Fp) Fg), Vg. reflexivity.
Qed.
Lemma c129_accept_refuted : exists o d p, finite2 o /\ finite2 d /\ finite2 p /\ sqnorm2 (val2 d) = 1 /\ l64_contains2 (Some o) (Some d) (Some p) = Ok true /\ ~ on_line2 (val2 o) (val2 d) (val2 p).
Proof.
  exists (F2 (S754_finite false (2 ^ 52) 8) zero64), (F2 (b64_of_Z 1) zero64), (F2 (S754_finite false (2 ^ 52) 8) (b64_of_Z 5)).
  destruct (of_Z_val 1 ltac:(lia)) as [F1 V1]. destruct (of_Z_val 5 ltac:(lia)) as [F5 V5].
  split; [split; [vm_compute; reflexivity | exact I] |]. split; [split; [exact F1 | exact I] |]. split; [split; [vm_compute; reflexivity | exact F5] |].
  split; [unfold sqnorm2, dot2, val2; cbn [fx2 fy2 x2 y2]; rewrite V1, zero_val; ring |]. split; [vm_compute; reflexivity |].
  assert (X : x2 (val2 (F2 (b64_of_Z 1) zero64)) <> 0) by (unfold val2; cbn [fx2 x2]; rewrite V1; lra).
  rewrite line2_horizontal by (reflexivity || exact X). unfold val2. cbn [fx2 fy2 y2]. rewrite V5, zero_val. lra.
Qed.
Lemma c129_reject_refuted : exists d, finite2 d /\ let o := F2 zero64 zero64 in
  val2 (fadd2 o d) = val2 d /\ on_line2 (val2 o) (val2 d) (val2 d) /\ l64_contains2 (Some o) (Some d) (Some d) = Ok false.
Proof.
  pose (n := b64_sqrt (b64_of_Z 50)). exists (F2 (b64_div (b64_of_Z 1) n) (b64_div (b64_of_Z 7) n)).
  split; [split; vm_compute; reflexivity |]. cbv zeta. split; [| split].
  - unfold val2, fadd2. cbn [fx2 fy2]. f_equal; f_equal; vm_compute; reflexivity.
  - exists 1. unfold along2, add2, scale2, val2. cbn [fx2 fy2 x2 y2]. rewrite zero_val. f_equal; ring.
  - vm_compute. reflexivity.
Qed.
Lemma c129_errors o d p : o = None \/ d = None \/ p = None -> l64_contains2 o d p = Err EUndefined.
Proof. intros H. unfold l64_contains2. destruct p as [p |]; [| reflexivity]. cbn [need3 bind]. destruct o, d; try reflexivity. destruct H as [H | [H | H]]; discriminate. Qed.
Lemma c126_errors r l s pl p : (p = None \/ l64_origin l = None \/ l64_direction l = None -> l64_contains r l p = Err EUndefined /\ r64_contains r l p = Err EUndefined) /\
  (p = None \/ s64_first s = None \/ s64_second s = None -> s64_contains r s p = Err EUndefined) /\
  (p = None \/ p64_point pl = None \/ p64_normal pl = None -> p64_contains r pl p = Err EUndefined).
Proof.
  unfold l64_contains, r64_contains, s64_contains, p64_contains, l64_data, s64_data. split; [| split]; intros H; (destruct p as [p |]; [| try split; reflexivity]); cbn [need3 bind].
  - destruct (l64_origin l), (l64_direction l); try (split; reflexivity). destruct H as [H | [H | H]]; discriminate.
  - destruct (s64_first s), (s64_second s); try reflexivity. destruct H as [H | [H | H]]; discriminate.
  - destruct (p64_point pl), (p64_normal pl); try reflexivity. destruct H as [H | [H | H]]; discriminate.
Qed.
Lemma c128_errors r eps s p : p = None \/ sp64_center s = None \/ sp64_radius s = None -> sp64_contains r eps s p = Err EUndefined.
Proof. intros H. unfold sp64_contains. destruct p as [p |]; [| reflexivity]. cbn [need3 bind]. destruct (sp64_center s), (sp64_radius s); try reflexivity. destruct H as [H | [H | H]]; discriminate. Qed.
