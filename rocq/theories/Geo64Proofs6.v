(** Directions in double precision. *)

From Coq Require Import List Bool Arith ZArith Reals Lra Lia Floats.SpecFloat.
From Verif Require Import Result Vec DOrder RotModel AngleModel FloatSpec FloatProofs FloatProofs2 FloatModel FloatProofs3 FloatProofs4 FloatProofs5 FloatProofs7 FloatProofs10
  VecProofs Geo3Types Geo3Model Geo3Spec Geo3Proofs Geo3Proofs2 Geo64Model Geo64Spec Geo64Proofs Geo64Proofs2 Geo64Proofs3 Geo64Proofs4 Geo64Proofs5.
Import ListNotations.
Local Open Scope R_scope.

Lemma P2_times j k (n : Z) : (0 <= j)%Z -> IZR n = P2 j -> IZR n * P2 k = P2 (j + k).
Proof. intros _ ->. rewrite <- P2_add. reflexivity. Qed.
Lemma norm_err r v : finite3 v -> within3 (P2 450) v -> P2 (-450) <= norm3 (val3 v) ->
  finite64 (fsqnorm3 r v) /\ 0 < rval (fsqnorm3 r v) /\ Rabs (rval (fsqnorm3 r v) - sqnorm3 (val3 v)) <= 7 * e53 * sqnorm3 (val3 v) /\
  finite64 (fnorm3 r v) /\ Rabs (rval (fnorm3 r v) - norm3 (val3 v)) <= 9 * e53 * norm3 (val3 v).
Proof.
  intros F B L. destruct (dot_err r _ _ _ _ 450 F F B B (exact_approx v) (exact_approx v) ltac:(lia)) as [Fs E]. destruct (sqnorm_pos r v 450 F B ltac:(lia)) as [_ Ps].
  rewrite absdot_sq in E. fold (fsqnorm3 r v) in *. fold (sqnorm3 (val3 v)) in E. pose proof (norm3_sq (val3 v)) as Q. pose proof (P2_pos (-450)) as P450.
  assert (LS : P2 (-900) <= sqnorm3 (val3 v)) by (rewrite <- Q; change (-900)%Z with (-450 + -450)%Z; rewrite P2_add; apply Rmult_le_compat; lra).
  assert (T : 4 * tiny <= e53 * P2 (-900)).
  { unfold tiny. rewrite <- e53_P2, <- P2_add. rewrite (P2_times 2 (-1075) 4) by (lia || (rewrite <- P2_Z by lia; reflexivity)). apply P2_mono. lia. }
  assert (E7 : Rabs (rval (fsqnorm3 r v) - sqnorm3 (val3 v)) <= 7 * e53 * sqnorm3 (val3 v)) by (unfold e53 in *; lra).
  assert (Pos : 0 < rval (fsqnorm3 r v)) by (apply abs_le in E7; pose proof (P2_pos (-900)); unfold e53 in *; lra).
  split; [exact Fs |]. split; [exact Pos |]. split; [exact E7 |]. unfold fnorm3, b64_sqrt. split; [apply SFsqrt_rounded; [exact Fs | lra] |].
  pose proof (sqrt_err _ Fs Ps) as K. rewrite e53_P2 in K.
  assert (E' : Rabs (rval (fsqnorm3 r v) - sqnorm3 (val3 v)) <= 6 * e53 * sqnorm3 (val3 v) + P2 (-535) * P2 (-535)).
  { rewrite <- P2_add. eapply Rle_trans; [exact E |]. apply Rplus_le_compat_l. unfold tiny. rewrite (P2_times 2 (-1075) 4) by (lia || (rewrite <- P2_Z by lia; reflexivity)). apply P2_mono. lia. }
  assert (PS : 0 <= sqnorm3 (val3 v)) by (pose proof (P2_pos (-900)); lra).
  pose proof (sqrt_near _ _ _ Ps PS (Rlt_le _ _ (P2_pos (-535))) E') as N. fold (norm3 (val3 v)) in N.
  assert (T' : P2 (-535) <= e53 * P2 (-450)) by (rewrite <- e53_P2, <- P2_add; apply P2_mono; lia).
  apply abs_le in N. apply abs_le in K. apply abs_of. unfold e53 in *. lra.
Qed.
Lemma coordinate_le v : Rabs (vx v) <= norm3 v /\ Rabs (vy v) <= norm3 v /\ Rabs (vz v) <= norm3 v.
Proof.
  assert (N : 0 <= norm3 v) by apply sqrt_pos. pose proof (norm3_sq v) as Q. unfold sqnorm3, dot3 in Q.
  assert (G : forall x, x * x <= norm3 v * norm3 v -> Rabs x <= norm3 v).
  { intros x H. apply Rsqr_incr_0_var; [| exact N]. unfold Rsqr. rewrite <- Rabs_mult, Rabs_right by (apply Rle_ge; nra). exact H. }
  split; [| split]; apply G; nra.
Qed.
(** A coordinate divided by a norm. *)
Lemma coord_div x n N : finite64 x -> finite64 n -> 0 < N -> Rabs (rval n - N) <= 9 * e53 * N -> Rabs (rval x) <= N ->
  finite64 (b64_div x n) /\ Rabs (rval (b64_div x n) - rval x / N) <= 12 * e53.
Proof.
  intros Fx Fn PN En Bx. apply abs_le in En. assert (Pn : 0 < rval n) by (unfold e53 in *; lra).
  assert (H : Rabs (rval x / rval n) <= 1 + 10 * e53).
  { unfold Rdiv. rewrite Rabs_mult, Rabs_inv, (Rabs_right (rval n)) by lra. apply Rmult_le_reg_r with (rval n); [lra |]. rewrite Rmult_assoc, Rinv_l by lra. unfold e53 in *. lra. }
  assert (U : Rabs (rval x / rval n) <= P2 1023) by (pose proof (P2_mono 1 1023 ltac:(lia)) as M; change 1%Z with (0 + 1)%Z in M; rewrite P2_succ, P2_0 in M; unfold e53 in *; lra).
  pose proof (SFdiv_rounded x n Fx Fn ltac:(lra) U) as R'. change (SFdiv 53 1024 x n) with (b64_div x n) in R'. split; [exact (proj1 (proj1 R')) |].
  pose proof (rounded_any _ _ R') as E. assert (T : P2 (-1075) <= / 100 * e53).
  { rewrite <- e53_P2. replace (-1075)%Z with (-1022 + -53)%Z by lia. rewrite P2_add. apply Rmult_le_compat_r; [apply Rlt_le, P2_pos |].
    assert (M : P2 (-1022) <= P2 (-7)) by (apply P2_mono; lia). assert (P2 (-7) * 128 = 1) by (rewrite Rmult_comm, (P2_times 7 (-7) 128) by (lia || (rewrite <- P2_Z by lia; reflexivity)); reflexivity). lra. }
  assert (D : Rabs (rval x / rval n - rval x / N) <= 9 * e53 * (1 + 10 * e53)).
  { replace (rval x / rval n - rval x / N) with (rval x / rval n * ((N - rval n) / N)) by (field; lra). rewrite Rabs_mult.
    assert (G : Rabs ((N - rval n) / N) <= 9 * e53).
    { unfold Rdiv. rewrite Rabs_mult, Rabs_inv, (Rabs_right N) by lra. apply Rmult_le_reg_r with N; [lra |]. rewrite Rmult_assoc, Rinv_l by lra. rewrite Rmult_1_r. apply abs_of. lra. }
    rewrite (Rmult_comm (9 * e53)). apply Rmult_le_compat; try apply Rabs_pos; assumption. }
  pose proof (Rabs_triang (rval (b64_div x n) - rval x / rval n) (rval x / rval n - rval x / N)) as Tr.
  replace (rval (b64_div x n) - rval x / rval n + (rval x / rval n - rval x / N)) with (rval (b64_div x n) - rval x / N) in Tr by ring. unfold e53 in *. lra.
Qed.
Lemma normalized_err r v : finite3 v -> within3 (P2 450) v -> P2 (-450) <= norm3 (val3 v) ->
  finite3 (fnormalized3 r v) /\ dist3 (val3 (fnormalized3 r v)) (normalized3 (val3 v)) <= P2 (-47).
Proof.
  intros F B L. destruct (norm_err r v F B L) as (Fs & Ps & _ & Fn & En). pose proof (P2_pos (-450)) as P450. assert (PN : 0 < norm3 (val3 v)) by lra.
  unfold fnormalized3. replace (SFltb zero64 (fsqnorm3 r v)) with true by (symmetry; apply SFltb_val; [exact I | exact Fs | exact Ps]). fold (fnorm3 r v).
  destruct (coordinate_le (val3 v)) as (Cx & Cy & Cz). destruct F as (Fx & Fy & Fz).
  destruct (coord_div (fx v) _ _ Fx Fn PN En Cx) as [Gx Ex]. destruct (coord_div (fy v) _ _ Fy Fn PN En Cy) as [Gy Ey]. destruct (coord_div (fz v) _ _ Fz Fn PN En Cz) as [Gz Ez].
  split; [split; [exact Gx | split; [exact Gy | exact Gz]] |]. unfold normalized3. destruct (Rlt_dec 0 (sqnorm3 (val3 v))) as [S | S]; [| exfalso; apply S; rewrite <- norm3_sq; nra].
  unfold dist3. eapply Rle_trans; [apply norm3_sum |]. unfold sub3, scale3, fdiv3. cbn [val3 vx vy vz fx fy fz].
  rewrite !(Rmult_comm (/ norm3 (val3 v))). change (rval (fx v) * / norm3 (val3 v)) with (rval (fx v) / norm3 (val3 v)). change (rval (fy v) * / norm3 (val3 v)) with (rval (fy v) / norm3 (val3 v)). change (rval (fz v) * / norm3 (val3 v)) with (rval (fz v) / norm3 (val3 v)).
  assert (Q : P2 (-47) = 64 * e53) by (rewrite <- e53_P2, (P2_times 6 (-53) 64) by (lia || (rewrite <- P2_Z by lia; reflexivity)); reflexivity). rewrite Q. unfold e53 in *. lra.
Qed.
Lemma sub_scale k v : sub3 v (scale3 k v) = scale3 (1 - k) v.
Proof. destruct v as [a b c]. unfold sub3, scale3. cbn [vx vy vz]. f_equal; ring. Qed.
Lemma one64 : finite64 (b64_of_Z 1) /\ rval (b64_of_Z 1) = 1.
Proof. exact (of_Z_val 1 ltac:(lia)). Qed.
Lemma c130_direction r o v : finite3 v -> within3 (P2 450) v -> P2 (-450) <= norm3 (val3 v) ->
  exists d, Line64 r o (Some v) = Ok (mkL64 o (Some d)) /\ finite3 d /\ dist3 (val3 d) (scale3 (/ norm3 (val3 v)) (val3 v)) <= P2 (-47).
Proof.
  intros F B L. destruct (norm_err r v F B L) as (Fs & Ps & Es & _ & _). pose proof (P2_pos (-450)) as P450. assert (PN : 0 < norm3 (val3 v)) by lra.
  assert (E : normalized3 (val3 v) = scale3 (/ norm3 (val3 v)) (val3 v)) by (unfold normalized3; destruct (Rlt_dec 0 (sqnorm3 (val3 v))) as [S | S]; [reflexivity | exfalso; apply S; rewrite <- norm3_sq; nra]).
  unfold Line64. destruct (SFeqb (fsqnorm3 r v) (b64_of_Z 1)) eqn:C; cbn [negb].
  - exists v. split; [reflexivity |]. split; [exact F |]. apply SFeqb_val in C; [| exact Fs | apply one64]. rewrite (proj2 one64) in C. rewrite C in Es. pose proof (norm3_sq (val3 v)) as Q. set (N := norm3 (val3 v)) in *.
    rewrite <- Q in Es. unfold dist3. rewrite sub_scale. rewrite norm3_scale. fold N.
    replace N with (Rabs N) at 2 by (apply Rabs_right; lra). rewrite <- Rabs_mult. replace ((1 - / N) * N) with (N - 1) by (field; lra).
    assert (H : Rabs (N - 1) <= Rabs (1 - N * N)).
    { replace (1 - N * N) with (- ((N - 1) * (N + 1))) by ring. rewrite Rabs_Ropp, Rabs_mult, (Rabs_right (N + 1)) by lra. pose proof (Rabs_pos (N - 1)). nra. }
    assert (U : N * N <= 2) by (apply abs_le in Es; unfold e53 in Es; lra). assert (Q7 : P2 (-47) = 64 * e53) by (rewrite <- e53_P2, (P2_times 6 (-53) 64) by (lia || (rewrite <- P2_Z by lia; reflexivity)); reflexivity).
    rewrite Q7. unfold e53 in *. lra.
  - replace (SFeqb (fsqnorm3 r v) zero64) with false.
    2:{ symmetry. apply not_true_is_false. intros H. apply SFeqb_val in H; [| exact Fs | exact I]. change (rval zero64) with 0 in H. lra. }
    destruct (normalized_err r v F B L) as [Fd Ed]. rewrite E in Ed. eexists. split; [reflexivity |]. split; [exact Fd | exact Ed].
Qed.
Lemma c130_plane r q n : finite3 n -> within3 (P2 450) n -> P2 (-450) <= norm3 (val3 n) ->
  exists d, Plane64 r q (Some n) = mkP64 q (Some d) /\ finite3 d /\ dist3 (val3 d) (scale3 (/ norm3 (val3 n)) (val3 n)) <= P2 (-47).
Proof.
  intros F B L. destruct (normalized_err r n F B L) as [Fd Ed]. pose proof (P2_pos (-450)) as P450.
  assert (E : normalized3 (val3 n) = scale3 (/ norm3 (val3 n)) (val3 n)) by (unfold normalized3; destruct (Rlt_dec 0 (sqnorm3 (val3 n))) as [S | S]; [reflexivity | exfalso; apply S; rewrite <- norm3_sq; nra]).
  rewrite E in Ed. eexists. split; [reflexivity |]. split; [exact Fd | exact Ed].
Qed.
Lemma c130_zero r o v : finite3 v -> val3 v = V3 0 0 0 -> Line64 r o (Some v) = Err EWrong.
Proof.
  intros F V. destruct (zero3_dot r v v F F V) as [Fd Vd]. unfold Line64, fsqnorm3. replace (SFeqb (fdot3 r v v) (b64_of_Z 1)) with false.
  - cbn [negb]. replace (SFeqb (fdot3 r v v) zero64) with true by (symmetry; apply SFeqb_val; [exact Fd | exact I | exact Vd]). reflexivity.
  - symmetry. apply not_true_is_false. intros H. apply SFeqb_val in H; [| exact Fd | apply one64]. rewrite Vd, (proj2 one64) in H. lra.
Qed.
Definition tiny3 : f3 := F3 (S754_finite false (2 ^ 52) (-652)) zero64 zero64.
Definition huge3 : f3 := F3 (S754_finite false (2 ^ 52) 548) zero64 zero64.
Lemma c130_small_refuted : exists v, finite3 v /\ val3 v <> V3 0 0 0 /\ forall r o, Line64 r o (Some v) = Err EWrong.
Proof.
  exists tiny3. split; [split; [vm_compute; reflexivity | split; exact I] |]. split.
  - intros E. apply (f_equal vx) in E. unfold val3, tiny3 in E. cbn [vx fx] in E. pose proof (pos_pos (2 ^ 52) (-652)) as P. rewrite rval_sg in E. cbn [sg] in E. lra.
  - intros [] o; vm_compute; reflexivity.
Qed.
Lemma c130_large_refuted : exists v d, finite3 v /\ val3 d = V3 0 0 0 /\ (forall r o, Line64 r o (Some v) = Ok (mkL64 o (Some d))) /\
  forall r o p, finite3 o -> finite3 p -> within3 (P2 1000) o -> within3 (P2 1000) p -> l64_contains r (mkL64 (Some o) (Some d)) (Some p) = Ok true.
Proof.
  exists huge3, (F3 zero64 zero64 zero64). split; [split; [vm_compute; reflexivity | split; exact I] |]. split; [reflexivity |]. split; [intros [] o; vm_compute; reflexivity |].
  intros r o p Fo Fp Bo Bp. destruct (sub3_bound p o 1000 Fp Fo Bp Bo ltac:(lia)) as [Fs _]. unfold l64_contains. cbn [need3 bind l64_data l64_origin l64_direction]. f_equal.
  set (s := fsub3 p o) in *. clearbody s. destruct Fs as (Fx & Fy & Fz).
  assert (M : forall x, finite64 x -> finite64 (b64_mul zero64 x) /\ rval (b64_mul zero64 x) = 0) by (intros x Fx'; rewrite mul_comm64; apply mul_zero; [exact Fx' | exact I | reflexivity]).
  assert (S : forall x y, finite64 x -> finite64 y -> finite64 (sf_sub (b64_mul zero64 x) (b64_mul zero64 y)) /\ rval (sf_sub (b64_mul zero64 x) (b64_mul zero64 y)) = 0) by (intros x y Hx Hy; destruct (M x Hx), (M y Hy); apply sub_zero; assumption).
  apply (zero_sqnorm r (fcross3 (F3 zero64 zero64 zero64) s)).
  - unfold fcross3, finite3. cbn [fx fy fz]. repeat split; apply S; assumption.
  - unfold fcross3, val3. cbn [fx fy fz]. rewrite (proj2 (S (fz s) (fy s) Fz Fy)), (proj2 (S (fx s) (fz s) Fx Fz)), (proj2 (S (fy s) (fx s) Fy Fx)). reflexivity.
Qed.
Definition diag3 : f3 := F3 (b64_of_Z 1) (b64_of_Z 1) zero64.
(** Building a line again from its own origin and direction. *)
Lemma c130_again_refuted : exists v, finite3 v /\ forall r o, exists l l', Line64 r o (Some v) = Ok l /\ Line64 r (l64_origin l) (l64_direction l) = Ok l' /\ l64_eq r l l' = Ok false.
Proof.
  exists diag3. split; [split; [vm_compute; reflexivity | split; [vm_compute; reflexivity | exact I]] |]. intros r o.
  exists (mkL64 o (Some (fnormalized3 r diag3))), (mkL64 o (Some (fnormalized3 r (fnormalized3 r diag3)))). destruct r, o; (split; [| split]; vm_compute; reflexivity).
Qed.
Lemma c130_equal r o d : finite3 o -> finite3 d -> l64_eq r (mkL64 (Some o) (Some d)) (mkL64 (Some o) (Some d)) = Ok true /\
  l64_eq r (mkL64 (Some o) (Some d)) (mkL64 (Some o) (Some (fopp3 d))) = Ok true.
Proof.
  intros Fo Fd. destruct (c126_origin r o d Fo Fd) as [C _]. unfold l64_eq. cbn [l64_data l64_origin l64_direction].
  assert (E : fopp3 (fopp3 d) = d).
  { destruct d as [x y z]. unfold fopp3. cbn [fx fy fz]. f_equal; [destruct x as [s | s | | s m e] | destruct y as [s | s | | s m e] | destruct z as [s | s | | s m e]]; cbn; rewrite ?negb_involutive; reflexivity. }
  rewrite E, (proj2 (feq3_val d d Fd Fd) eq_refl). cbn [orb]. rewrite orb_true_r. split; exact C.
Qed.
