(** Double precision: lines of the plane that are not steep. *)

From Coq Require Import List Bool Arith ZArith Reals Lra Lia Floats.SpecFloat.
From Verif Require Import Result Vec DOrder RotModel AngleModel FloatSpec FloatProofs FloatProofs2 FloatModel FloatProofs3 FloatProofs4 FloatProofs5 FloatProofs7 FloatProofs10
  VecProofs Geo3Types Geo3Model Geo3Spec Geo3Proofs Geo3Proofs2 Geo2Model Geo2Spec Geo64Model Geo64Spec Geo64Proofs Geo64Proofs2 Geo64Proofs3 Geo64Proofs4 Geo64Proofs5 Geo64Proofs6 Geo64Proofs7.
Import ListNotations.
Local Open Scope R_scope.

Lemma add_any x y : finite64 x -> finite64 y -> Rabs (rval x + rval y) <= P2 1023 -> finite64 (sf_add x y) /\ Rabs (rval (sf_add x y) - (rval x + rval y)) <= e53 * Rabs (rval x + rval y).
Proof. intros Fx Fy U. pose proof (SFadd_rounded x y Fx Fy U) as [[F _] _]. pose proof (add_err x y Fx Fy U) as E. rewrite e53_P2 in E. split; [exact F | exact E]. Qed.
Lemma sub_any x y : finite64 x -> finite64 y -> Rabs (rval x - rval y) <= P2 1023 -> finite64 (sf_sub x y) /\ Rabs (rval (sf_sub x y) - (rval x - rval y)) <= e53 * Rabs (rval x - rval y).
Proof. intros Fx Fy U. pose proof (SFsub_rounded x y Fx Fy U) as [[F _] _]. pose proof (sub_err x y Fx Fy U) as E. rewrite e53_P2 in E. split; [exact F | exact E]. Qed.
Lemma mul_any x y : finite64 x -> finite64 y -> Rabs (rval x * rval y) <= P2 1023 -> finite64 (b64_mul x y) /\ Rabs (rval (b64_mul x y) - (rval x * rval y)) <= e53 * Rabs (rval x * rval y) + tiny.
Proof. intros Fx Fy U. pose proof (SFmul_rounded x y Fx Fy U) as N. split; [exact (proj1 (proj1 N)) | exact (rounded_any _ _ N)]. Qed.
Lemma div_any x y : finite64 x -> finite64 y -> rval y <> 0 -> Rabs (rval x / rval y) <= P2 1023 -> finite64 (b64_div x y) /\ Rabs (rval (b64_div x y) - (rval x / rval y)) <= e53 * Rabs (rval x / rval y) + tiny.
Proof. intros Fx Fy N0 U. pose proof (SFdiv_rounded x y Fx Fy N0 U) as N. split; [exact (proj1 (proj1 N)) | exact (rounded_any _ _ N)]. Qed.

(** Adding a step of at most one and subtracting the start again. *)
Lemma there_and_back x d B : finite64 x -> finite64 d -> Rabs (rval x) <= B -> Rabs (rval d) <= 1 -> 1 <= B <= 1048576 ->
  finite64 (sf_add x d) /\ finite64 (sf_sub (sf_add x d) x) /\ Rabs (rval (sf_add x d) - rval x - rval d) <= 2 * e53 * B /\ Rabs (rval (sf_sub (sf_add x d) x) - rval d) <= 4 * e53 * B.
Proof.
  intros Fx Fd Bx Bd HB. assert (Q : 8388608 <= P2 1023) by (pose proof (P2_mono 23 1023 ltac:(lia)) as M; rewrite <- (P2_Z 23) in M by lia; exact M).
  assert (U1 : Rabs (rval x + rval d) <= B + 1) by (pose proof (Rabs_triang (rval x) (rval d)); lra).
  destruct (add_any x d Fx Fd ltac:(lra)) as [Fs Es]. set (s := rval (sf_add x d)) in *.
  assert (E1 : Rabs (s - rval x - rval d) <= 2 * e53 * B) by (replace (s - rval x - rval d) with (s - (rval x + rval d)) by ring; unfold e53 in *; lra).
  assert (U2 : Rabs (s - rval x) <= 1 + 2 * e53 * B) by (pose proof (Rabs_triang (s - rval x - rval d) (rval d)) as T; replace (s - rval x - rval d + rval d) with (s - rval x) in T by ring; lra).
  destruct (sub_any (sf_add x d) x Fs Fx ltac:(fold s; unfold e53 in *; lra)) as [Ft Et]. fold s in Et.
  split; [exact Fs |]. split; [exact Ft |]. split; [exact E1 |]. set (t := rval (sf_sub (sf_add x d) x)) in *.
  pose proof (Rabs_triang (t - (s - rval x)) (s - rval x - rval d)) as T. replace (t - (s - rval x) + (s - rval x - rval d)) with (t - rval d) in T by ring. unfold e53 in *. lra.
Qed.
Lemma product_split w m t s T : w - s * T = w - m * t + ((m - s) * t + s * (t - T)).
Proof. ring. Qed.
Lemma between_err a b c d : a - b - d = a - (c + b) + (c - d).
Proof. ring. Qed.
Lemma c129_near o d p B : finite2 o -> finite2 d -> finite2 p -> 1 <= B <= 1048576 -> Rabs (rval (fx2 o)) <= B -> Rabs (rval (fy2 o)) <= B -> Rabs (rval (fx2 p)) <= B -> Rabs (rval (fy2 p)) <= B ->
  / 2 <= Rabs (rval (fx2 d)) <= 1 -> Rabs (rval (fy2 d)) <= 1 -> l64_contains2 (Some o) (Some d) (Some p) = Ok true ->
  Rabs ((rval (fy2 p) - rval (fy2 o)) * rval (fx2 d) - (rval (fx2 p) - rval (fx2 o)) * rval (fy2 d)) <= P2 (-46) * (B * B).
Proof.
  intros [Fox Foy] [Fdx Fdy] [Fpx Fpy] HB Box Boy Bpx Bpy Bdx Bdy.
  destruct (there_and_back _ _ B Fox Fdx Box ltac:(lra) HB) as (Fs & Fden & Es & Eden). destruct (there_and_back _ _ B Foy Fdy Boy Bdy HB) as (Fs' & Fnum & _ & Enum).
  assert (Q : 8388608 <= P2 1023) by (pose proof (P2_mono 23 1023 ltac:(lia)) as M; rewrite <- (P2_Z 23) in M by lia; exact M).
  assert (Q6 : P2 (-46) = 128 * e53) by (rewrite <- e53_P2, (P2_times 7 (-53) 128) by (lia || (rewrite <- P2_Z by lia; reflexivity)); reflexivity).
  assert (TT : tiny <= / 1000 * e53).
  { unfold tiny. rewrite <- e53_P2. replace (-1075)%Z with (-1022 + -53)%Z by lia. rewrite P2_add. apply Rmult_le_compat_r; [apply Rlt_le, P2_pos |].
    assert (M : P2 (-1022) <= P2 (-10)) by (apply P2_mono; lia). assert (P2 (-10) * 1024 = 1) by (rewrite Rmult_comm, (P2_times 10 (-10) 1024) by (lia || (rewrite <- P2_Z by lia; reflexivity)); reflexivity). lra. }
  pose proof tiny_pos as TP. assert (BB : B <= B * B) by nra.
  unfold l64_contains2. cbn [need3 bind]. destruct (feq2 p o) eqn:E0.
  { intros _. apply (feq2_val p o (conj Fpx Fpy) (conj Fox Foy)) in E0. apply (f_equal (fun v => (x2 v, y2 v))) in E0. unfold val2 in E0. cbn [x2 y2] in E0. injection E0 as -> ->. rewrite Q6.
    replace (_ * _ - _ * _) with 0 by ring. rewrite Rabs_R0. unfold e53. nra. }
  cbn [fadd2 fx2 fy2]. destruct (SFeqb (sf_add (fx2 o) (fx2 d)) (fx2 o)) eqn:E1.
  { exfalso. apply SFeqb_val in E1; [| exact Fs | exact Fox]. rewrite E1 in Es. replace (rval (fx2 o) - rval (fx2 o) - rval (fx2 d)) with (- rval (fx2 d)) in Es by ring. rewrite Rabs_Ropp in Es. unfold e53 in *. lra. }
  set (den := rval (sf_sub (sf_add (fx2 o) (fx2 d)) (fx2 o))) in *. set (num := rval (sf_sub (sf_add (fy2 o) (fy2 d)) (fy2 o))) in *. set (dx := rval (fx2 d)) in *. set (dy := rval (fy2 d)) in *.
  assert (G : 4 * e53 * B <= / 1000000) by (unfold e53; lra).
  assert (Dden : 0.499 <= Rabs den).
  { pose proof (Rabs_triang (dx - den) den) as T. replace (dx - den + den) with dx in T by ring. rewrite (Rabs_minus_sym dx) in T. lra. }
  assert (Nden : den <> 0) by (intros Z; rewrite Z, Rabs_R0 in Dden; lra). assert (Ndx : dx <> 0) by (intros Z; rewrite Z, Rabs_R0 in Bdx; lra).
  set (sg' := dy / dx) in *. assert (Bsg : Rabs sg' <= 2).
  { unfold sg', Rdiv. rewrite Rabs_mult, Rabs_inv. apply Rmult_le_reg_r with (Rabs dx); [lra |]. rewrite Rmult_assoc, Rinv_l by lra. lra. }
  assert (Dq : Rabs (num / den - sg') <= 32.5 * e53 * B).
  { replace (num / den - sg') with (((num - dy) - sg' * (den - dx)) / den) by (unfold sg'; field; split; assumption). unfold Rdiv. rewrite Rabs_mult, Rabs_inv.
    apply Rmult_le_reg_r with (Rabs den); [lra |]. rewrite Rmult_assoc, Rinv_l, Rmult_1_r by lra.
    pose proof (Rabs_triang (num - dy) (- (sg' * (den - dx)))) as T. rewrite Rabs_Ropp, Rabs_mult in T. fold (Rminus (num - dy) (sg' * (den - dx))) in T.
    assert (H1 : Rabs sg' * Rabs (den - dx) <= 2 * (4 * e53 * B)) by (apply Rmult_le_compat; try apply Rabs_pos; lra).
    assert (H2 : 32.5 * e53 * B * 0.499 <= 32.5 * e53 * B * Rabs den) by (apply Rmult_le_compat_l; [unfold e53; lra | exact Dden]). unfold e53 in *. lra. }
  assert (Bq : Rabs (num / den) <= 2.001) by (pose proof (Rabs_triang (num / den - sg') sg') as T; replace (num / den - sg' + sg') with (num / den) in T by ring; lra).
  destruct (div_any _ _ Fnum Fden Nden ltac:(fold num den; lra)) as [Fm Em]. fold num den in Em. set (mf := b64_div _ _) in *. set (m := rval mf) in *.
  assert (Dm : Rabs (m - sg') <= 36 * e53 * B) by (pose proof (Rabs_triang (m - num / den) (num / den - sg')) as T; replace (m - num / den + (num / den - sg')) with (m - sg') in T by ring; unfold e53 in *; lra).
  assert (Bm : Rabs m <= 2.01) by (pose proof (Rabs_triang (m - sg') sg') as T; replace (m - sg' + sg') with m in T by ring; lra).
  set (T0 := rval (fx2 p) - rval (fx2 o)) in *.
  assert (BT : Rabs T0 <= 2 * B) by (unfold T0, Rminus; eapply Rle_trans; [apply Rabs_triang |]; rewrite Rabs_Ropp; lra).
  destruct (sub_any _ _ Fpx Fox ltac:(fold T0; lra)) as [Ft Et]. fold T0 in Et. set (tf := sf_sub (fx2 p) (fx2 o)) in *. set (t := rval tf) in *.
  assert (Bt : Rabs t <= 2.01 * B) by (pose proof (Rabs_triang (t - T0) T0) as T; replace (t - T0 + T0) with t in T by ring; unfold e53 in *; lra).
  assert (Bmt : Rabs (m * t) <= 4.1 * B) by (rewrite Rabs_mult; eapply Rle_trans; [apply Rmult_le_compat; [apply Rabs_pos | apply Rabs_pos | exact Bm | exact Bt] |]; lra).
  destruct (mul_any mf tf Fm Ft ltac:(fold m t; lra)) as [Fw Ew]. fold m t in Ew. set (wf := b64_mul mf tf) in *. set (w := rval wf) in *.
  assert (Dw : Rabs (w - sg' * T0) <= 82 * e53 * (B * B)).
  { rewrite (product_split w m t sg' T0). eapply Rle_trans; [apply Rabs_triang |].
    pose proof (Rabs_triang ((m - sg') * t) (sg' * (t - T0))) as T. rewrite (Rabs_mult (m - sg')), (Rabs_mult sg') in T.
    assert (H1 : Rabs (m - sg') * Rabs t <= 36 * e53 * B * (2.01 * B)) by (apply Rmult_le_compat; try apply Rabs_pos; assumption).
    assert (H2 : Rabs sg' * Rabs (t - T0) <= 2 * (e53 * (2 * B))) by (apply Rmult_le_compat; try apply Rabs_pos; [assumption | unfold e53 in *; lra]).
    replace (36 * e53 * B * (2.01 * B)) with (72.36 * e53 * (B * B)) in H1 by lra. unfold e53 in *. lra. }
  assert (Bw : Rabs w <= 4.2 * B) by (pose proof (Rabs_triang (w - m * t) (m * t)) as T; replace (w - m * t + m * t) with w in T by ring; unfold e53 in *; lra).
  assert (BwY : Rabs (w + rval (fy2 o)) <= 5.2 * B) by (pose proof (Rabs_triang w (rval (fy2 o))); lra).
  destruct (add_any wf (fy2 o) Fw Foy ltac:(fold w; lra)) as [Fv Ev]. fold w in Ev. intros H. destruct (SFeqb (fy2 p) (sf_add wf (fy2 o))) eqn:E2; [| discriminate].
  apply SFeqb_val in E2; [| exact Fpy | exact Fv]. rewrite <- E2 in Ev. set (Y := rval (fy2 o)) in *. set (y := rval (fy2 p)) in *.
  assert (R1 : Rabs (y - Y - sg' * T0) <= 128 * e53 * (B * B)).
  { rewrite (between_err y Y w (sg' * T0)). eapply Rle_trans; [apply Rabs_triang |]. unfold e53 in *. lra. }
  replace ((y - Y) * dx - T0 * dy) with ((y - Y - sg' * T0) * dx) by (unfold sg'; field; exact Ndx). rewrite Rabs_mult, Q6.
  pose proof (Rabs_pos (y - Y - sg' * T0)). assert (Rabs (y - Y - sg' * T0) * Rabs dx <= Rabs (y - Y - sg' * T0) * 1) by (apply Rmult_le_compat_l; lra). lra.
Qed.
