(** Angle::Between, Angle::isNear, and ReduceRange with rounding. *)

From Coq Require Import List Reals Lra Lia ZArith Bool Psatz Floats.SpecFloat.
From Verif Require Import Result DOrder Vec VecProofs AngleModel AngleSpec AngleProofs.
Local Open Scope R_scope.

(** *** C20 *)
Lemma ratio_bound d n m : 0 < n -> 0 < m -> Rabs d <= n * m -> -1 <= d / (n * m) <= 1.
Proof.
  intros Hn Hm H. assert (Hnm : 0 < n * m) by (apply Rmult_lt_0_compat; assumption).
  assert (Hd : - (n * m) <= d <= n * m) by (revert H; unfold Rabs; destruct Rcase_abs; lra).
  split; apply Rmult_le_reg_r with (n * m); try assumption;
    replace (d / (n * m) * (n * m)) with d by (field; lra); lra.
Qed.

Lemma acos_0_iff c : -1 <= c <= 1 -> (acos c = 0 <-> c = 1).
Proof.
  intros H. split; intros E.
  - rewrite <- (cos_acos c H), E. apply cos_0.
  - subst; apply acos_1.
Qed.
Lemma acos_PI_iff c : -1 <= c <= 1 -> (acos c = PI <-> c = -1).
Proof.
  intros H. split; intros E.
  - rewrite <- (cos_acos c H), E. apply cos_PI.
  - subst. change (-1) with (- (1)). rewrite acos_opp, acos_1. ring.
Qed.

Section dim3.
Variables (eps : R) (u v : v3).
Hypotheses (He : 0 < eps) (Hu : eps <= sqnorm3 u) (Hv : eps <= sqnorm3 v).
Let Pu : 0 < norm3 u. Proof. apply norm3_pos; lra. Qed.
Let Pv : 0 < norm3 v. Proof. apply norm3_pos; lra. Qed.

Lemma cosine3_bound : -1 <= dot3 u v / (norm3 u * norm3 v) <= 1.
Proof. apply ratio_bound; [exact Pu | exact Pv | apply cauchy3_norm]. Qed.

Lemma Between3_acos : Between3 eps (Some u) (Some v) = Ok (Radians (acos (dot3 u v / (norm3 u * norm3 v)))).
Proof.
  unfold Between3. rewrite (Rltb_f (sqnorm3 u)), (Rltb_f (sqnorm3 v)) by assumption. simpl orb. cbv iota.
  destruct v3_eq_dec as [E | _].
  { unfold angle_Zero, Radians. repeat f_equal. symmetry. apply acos_0_iff; [apply cosine3_bound |].
    subst v. change (dot3 u u) with (sqnorm3 u). rewrite <- norm3_sq. field. pose proof Pu; lra. }
  destruct v3_eq_dec as [E | _].
  { unfold angle_Pi, Radians. repeat f_equal. symmetry. apply acos_PI_iff; [apply cosine3_bound |].
    rewrite E at 1. rewrite dot3_sym, dot3_opp_r. change (dot3 v v) with (sqnorm3 v).
    rewrite E, norm3_opp, <- norm3_sq. field. pose proof Pv; lra. }
  rewrite normalized3_dot by lra.
  pose proof cosine3_bound as B. revert B. generalize (dot3 u v / (norm3 u * norm3 v)). intros c B.
  unfold angle_Zero, angle_Pi, Radians.
  destruct Rle_dec as [H | _]; [replace c with 1 by lra; rewrite acos_1; reflexivity |].
  destruct Rle_dec as [H | _]; [| reflexivity].
  do 3 f_equal. symmetry. apply acos_PI_iff; lra.
Qed.

Lemma same_direction3_iff : same_direction3 u v <-> dot3 u v / (norm3 u * norm3 v) = 1.
Proof.
  pose proof Pu. pose proof Pv. split.
  - intros [k [Hk ->]]. rewrite dot3_scale_r, norm3_scale, Rabs_pos_eq by lra.
    change (dot3 u u) with (sqnorm3 u). rewrite <- norm3_sq. field. lra.
  - intros E. exists (norm3 v / norm3 u). split; [apply Rdiv_lt_0_compat; assumption |].
    apply cauchy3_eq; [lra |].
    replace (dot3 u v) with (dot3 u v / (norm3 u * norm3 v) * (norm3 u * norm3 v)) by (field; lra).
    rewrite E. ring.
Qed.
End dim3.

Lemma opposite_direction3_iff eps u v : 0 < eps -> eps <= sqnorm3 u -> eps <= sqnorm3 v ->
  (opposite_direction3 u v <-> dot3 u v / (norm3 u * norm3 v) = -1).
Proof.
  intros He Hu Hv.
  assert (Hv' : eps <= sqnorm3 (opp3 v)) by (rewrite opp3_scale, sqnorm3_scale; lra).
  pose proof (same_direction3_iff eps u (opp3 v) He Hu Hv') as H.
  rewrite norm3_opp, dot3_opp_r in H. unfold Rdiv in *. rewrite Ropp_mult_distr_l_reverse in H.
  transitivity (same_direction3 u (opp3 v)).
  - split; intros [k [Hk E]]; exists k; split; try assumption.
    + rewrite E. v3ring.
    + replace v with (opp3 (opp3 v)) by (clear; destruct v; v3unfold; f_equal; ring). rewrite E. v3ring.
  - rewrite H. split; lra.
Qed.

Lemma c20_between3 eps u v : 0 < eps -> eps <= sqnorm3 u -> eps <= sqnorm3 v ->
  exists theta, Between3 eps (Some u) (Some v) = Ok (Radians theta)
    /\ 0 <= theta <= PI
    /\ cos theta = dot3 u v / (norm3 u * norm3 v)
    /\ (theta = 0 <-> same_direction3 u v)
    /\ (theta = PI <-> opposite_direction3 u v)
    /\ Between3 eps (Some v) (Some u) = Ok (Radians theta)
    /\ forall k, 0 < k -> eps <= sqnorm3 (scale3 k u) ->
        Between3 eps (Some (scale3 k u)) (Some v) = Ok (Radians theta).
Proof.
  intros He Hu Hv. exists (acos (dot3 u v / (norm3 u * norm3 v))).
  pose proof (cosine3_bound eps u v He Hu Hv) as B.
  split; [apply Between3_acos; assumption |].
  split; [apply acos_bound |]. split; [apply cos_acos, B |].
  split; [rewrite (same_direction3_iff eps) by assumption; apply acos_0_iff, B |].
  split; [rewrite (opposite_direction3_iff eps) by assumption; apply acos_PI_iff, B |].
  split.
  - rewrite Between3_acos by assumption. rewrite (dot3_sym v u), (Rmult_comm (norm3 v)). reflexivity.
  - intros k Hk Hku. rewrite Between3_acos by assumption. do 3 f_equal.
    rewrite dot3_scale_l, norm3_scale, Rabs_pos_eq by lra.
    assert (0 < norm3 u) by (apply norm3_pos; lra). assert (0 < norm3 v) by (apply norm3_pos; lra).
    field. lra.
Qed.

Lemma c20_between3_errors eps a b :
  (a = None \/ b = None -> Between3 eps a b = Err EUndefined)
  /\ (forall u v, a = Some u -> b = Some v -> sqnorm3 u < eps \/ sqnorm3 v < eps -> Between3 eps a b = Err ERuntime).
Proof.
  split.
  - intros [-> | ->]; [reflexivity | destruct a; reflexivity].
  - intros u v -> -> H. unfold Between3.
    destruct H as [H | H]; rewrite (Rltb_t _ _ H); rewrite ?orb_true_r; reflexivity.
Qed.

Section dim2.
Variables (eps : R) (u v : v2).
Hypotheses (He : 0 < eps) (Hu : eps <= sqnorm2 u) (Hv : eps <= sqnorm2 v).
Let Pu : 0 < norm2 u. Proof. apply norm2_pos; lra. Qed.
Let Pv : 0 < norm2 v. Proof. apply norm2_pos; lra. Qed.

Lemma cosine2_bound : -1 <= dot2 u v / (norm2 u * norm2 v) <= 1.
Proof. apply ratio_bound; [exact Pu | exact Pv | apply cauchy2_norm]. Qed.

Lemma Between2_acos : Between2 eps (Some u) (Some v) = Ok (Radians (acos (dot2 u v / (norm2 u * norm2 v)))).
Proof.
  unfold Between2. rewrite (Rltb_f (sqnorm2 u)), (Rltb_f (sqnorm2 v)) by assumption. simpl orb. cbv iota.
  destruct v2_eq_dec as [E | _].
  { unfold angle_Zero, Radians. repeat f_equal. symmetry. apply acos_0_iff; [apply cosine2_bound |].
    subst v. change (dot2 u u) with (sqnorm2 u). rewrite <- norm2_sq. field. pose proof Pu; lra. }
  destruct v2_eq_dec as [E | _].
  { unfold angle_Pi, Radians. repeat f_equal. symmetry. apply acos_PI_iff; [apply cosine2_bound |].
    rewrite E at 1. rewrite dot2_sym, dot2_opp_r. change (dot2 v v) with (sqnorm2 v).
    rewrite E, norm2_opp, <- norm2_sq. field. pose proof Pv; lra. }
  rewrite normalized2_dot by lra.
  pose proof cosine2_bound as B. revert B. generalize (dot2 u v / (norm2 u * norm2 v)). intros c B.
  unfold angle_Zero, angle_Pi, Radians.
  destruct Rle_dec as [H | _]; [replace c with 1 by lra; rewrite acos_1; reflexivity |].
  destruct Rle_dec as [H | _]; [| reflexivity].
  do 3 f_equal. symmetry. apply acos_PI_iff; lra.
Qed.

Lemma same_direction2_iff : same_direction2 u v <-> dot2 u v / (norm2 u * norm2 v) = 1.
Proof.
  pose proof Pu. pose proof Pv. split.
  - intros [k [Hk ->]]. rewrite dot2_scale_r, norm2_scale, Rabs_pos_eq by lra.
    change (dot2 u u) with (sqnorm2 u). rewrite <- norm2_sq. field. lra.
  - intros E. exists (norm2 v / norm2 u). split; [apply Rdiv_lt_0_compat; assumption |].
    apply cauchy2_eq; [lra |].
    replace (dot2 u v) with (dot2 u v / (norm2 u * norm2 v) * (norm2 u * norm2 v)) by (field; lra).
    rewrite E. ring.
Qed.
End dim2.

Lemma opposite_direction2_iff eps u v : 0 < eps -> eps <= sqnorm2 u -> eps <= sqnorm2 v ->
  (opposite_direction2 u v <-> dot2 u v / (norm2 u * norm2 v) = -1).
Proof.
  intros He Hu Hv.
  assert (Hv' : eps <= sqnorm2 (opp2 v)) by (replace (sqnorm2 (opp2 v)) with (sqnorm2 v) by (clear; v2ring); lra).
  pose proof (same_direction2_iff eps u (opp2 v) He Hu Hv') as H.
  rewrite norm2_opp, dot2_opp_r in H. unfold Rdiv in *. rewrite Ropp_mult_distr_l_reverse in H.
  transitivity (same_direction2 u (opp2 v)).
  - split; intros [k [Hk E]]; exists k; split; try assumption.
    + rewrite E. v2ring.
    + replace v with (opp2 (opp2 v)) by (clear; destruct v; v2unfold; f_equal; ring). rewrite E. v2ring.
  - rewrite H. split; lra.
Qed.

Lemma c20_between2 eps u v : 0 < eps -> eps <= sqnorm2 u -> eps <= sqnorm2 v ->
  exists theta, Between2 eps (Some u) (Some v) = Ok (Radians theta)
    /\ 0 <= theta <= PI
    /\ cos theta = dot2 u v / (norm2 u * norm2 v)
    /\ (theta = 0 <-> same_direction2 u v)
    /\ (theta = PI <-> opposite_direction2 u v)
    /\ Between2 eps (Some v) (Some u) = Ok (Radians theta)
    /\ forall k, 0 < k -> eps <= sqnorm2 (scale2 k u) ->
        Between2 eps (Some (scale2 k u)) (Some v) = Ok (Radians theta).
Proof.
  intros He Hu Hv. exists (acos (dot2 u v / (norm2 u * norm2 v))).
  pose proof (cosine2_bound eps u v He Hu Hv) as B.
  split; [apply Between2_acos; assumption |].
  split; [apply acos_bound |]. split; [apply cos_acos, B |].
  split; [rewrite (same_direction2_iff eps) by assumption; apply acos_0_iff, B |].
  split; [rewrite (opposite_direction2_iff eps) by assumption; apply acos_PI_iff, B |].
  split.
  - rewrite Between2_acos by assumption. rewrite (dot2_sym v u), (Rmult_comm (norm2 v)). reflexivity.
  - intros k Hk Hku. rewrite Between2_acos by assumption. do 3 f_equal.
    rewrite dot2_scale_l, norm2_scale, Rabs_pos_eq by lra.
    assert (0 < norm2 u) by (apply norm2_pos; lra). assert (0 < norm2 v) by (apply norm2_pos; lra).
    field. lra.
Qed.

Lemma c20_between2_errors eps a b :
  (a = None \/ b = None -> Between2 eps a b = Err EUndefined)
  /\ (forall u v, a = Some u -> b = Some v -> sqnorm2 u < eps \/ sqnorm2 v < eps -> Between2 eps a b = Err ERuntime).
Proof.
  split.
  - intros [-> | ->]; [reflexivity | destruct a; reflexivity].
  - intros u v -> -> H. unfold Between2.
    destruct H as [H | H]; rewrite (Rltb_t _ _ H); rewrite ?orb_true_r; reflexivity.
Qed.

(** *** C21 *)
Lemma circular_reduced n1 n2 d : 0 <= n1 < 360 -> 0 <= n2 < 360 -> 0 <= d ->
  (Rabs (n2 - n1) <= d \/ 360 - Rabs (n2 - n1) <= d) <-> exists k : Z, Rabs (n1 - n2 + 360 * IZR k) <= d.
Proof.
  intros H1 H2 Hd. split.
  - intros [H | H].
    + exists 0%Z. simpl. rewrite Rmult_0_r, Rplus_0_r, Rabs_minus_sym. exact H.
    + destruct (Rle_dec n1 n2).
      * exists 1%Z. rewrite Rabs_pos_eq in H by lra. rewrite Rabs_pos_eq by lra. lra.
      * exists (-1)%Z. rewrite Rabs_left in H by lra. rewrite Rabs_left by lra. lra.
  - intros [k Hk].
    destruct (Z_lt_le_dec k 0) as [K | K].
    + assert (IZR k <= -1) by (apply IZR_le; lia). right.
      revert Hk. unfold Rabs. do 2 destruct Rcase_abs; lra.
    + destruct (Z.eq_dec k 0) as [-> | K'].
      * left. rewrite Rmult_0_r, Rplus_0_r, Rabs_minus_sym in Hk. exact Hk.
      * assert (1 <= IZR k) by (apply IZR_le; lia). right.
        revert Hk. unfold Rabs. do 2 destruct Rcase_abs; lra.
Qed.

Lemma c21_isNear a b tol s t d : turns a = Some s -> turns b = Some t -> turns tol = Some d ->
  exists r, returns (fun fuel => isNear fuel a b tol) r
    /\ (r = true <-> circularly_within s t (Rabs d)).
Proof.
  intros Ha Hb Ht.
  destruct (ReduceRange_spec (s * 360) 0 360 ltac:(lra)) as [n1 [[N1 F1] [R1 [k1 K1]]]].
  destruct (ReduceRange_spec (t * 360) 0 360 ltac:(lra)) as [n2 [[N2 F2] [R2 [k2 K2]]]].
  assert (HD : Rabs (d * 360) = Rabs d * 360) by (rewrite Rabs_mult, (Rabs_pos_eq 360) by lra; reflexivity).
  eexists. split.
  - exists (max N1 N2). intros fuel Hf. unfold isNear.
    rewrite (turns_defined _ _ Ha), (turns_defined _ _ Hb), (turns_defined _ _ Ht). simpl orb. cbv iota.
    simpl negb. cbv iota.
    rewrite !(in_unit_spec _ _ Degree Ha), !(in_unit_spec _ _ Degree Hb), !(in_unit_spec _ _ Degree Ht) by discriminate.
    cbn [bind units_per_turn]. rewrite (F1 fuel) by lia. cbn [bind]. rewrite (F2 fuel) by lia. cbn [bind].
    reflexivity.
  - pose proof (circular_reduced n1 n2 (Rabs (d * 360)) R1 R2 (Rabs_pos _)) as C.
    transitivity (Rabs (n2 - n1) <= Rabs (d * 360) \/ 360 - Rabs (n2 - n1) <= Rabs (d * 360)).
    { rewrite orb_true_iff, !negb_true_iff, !Rltb_false. reflexivity. }
    rewrite C, HD. unfold circularly_within.
    assert (HS : forall k, Rabs (n1 - n2 + 360 * IZR k) = Rabs (s - t + IZR (k1 - k2 + k)) * 360).
    { intros k. rewrite <- (Rabs_pos_eq 360) at 2 by lra. rewrite <- Rabs_mult. f_equal.
      rewrite K1, K2, plus_IZR, minus_IZR. ring. }
    split; intros [k Hk].
    + exists (k1 - k2 + k)%Z. rewrite HS in Hk. lra.
    + exists (k - (k1 - k2))%Z. rewrite HS. replace (k1 - k2 + (k - (k1 - k2)))%Z with k by lia. lra.
Qed.

Lemma circularly_within_sym s t d : circularly_within s t d <-> circularly_within t s d.
Proof.
  assert (H : forall s t, circularly_within s t d -> circularly_within t s d).
  { intros s' t' [k Hk]. exists (- k)%Z. rewrite opp_IZR.
    replace (t' - s' + - IZR k) with (- (s' - t' + IZR k)) by ring. rewrite Rabs_Ropp. exact Hk. }
  split; apply H.
Qed.
Lemma circularly_within_turns s s' t d : same_mod_turn s s' -> (circularly_within s t d <-> circularly_within s' t d).
Proof.
  intros [j ->]. split; intros [k Hk].
  - exists (j + k)%Z. rewrite plus_IZR. replace (s' - t + (IZR j + IZR k)) with (s' + IZR j - t + IZR k) by ring. exact Hk.
  - exists (k - j)%Z. rewrite minus_IZR. replace (s' + IZR j - t + (IZR k - IZR j)) with (s' - t + IZR k) by ring. exact Hk.
Qed.

Lemma c21_iff a b tol s t d : turns a = Some s -> turns b = Some t -> turns tol = Some d ->
  (returns (fun fuel => isNear fuel a b tol) true <-> circularly_within s t (Rabs d))
  /\ (returns (fun fuel => isNear fuel a b tol) false <-> ~ circularly_within s t (Rabs d)).
Proof.
  intros Ha Hb Ht. destruct (c21_isNear a b tol s t d Ha Hb Ht) as [r [Hr Hiff]].
  split; split.
  - intros H. apply Hiff. eapply returns_unique; eassumption.
  - intros H. apply Hiff in H. subst; exact Hr.
  - intros H. pose proof (returns_unique _ _ _ Hr H). subst. intros C. apply Hiff in C. discriminate.
  - intros H. destruct r; [exfalso; apply H, Hiff; reflexivity | exact Hr].
Qed.

Lemma c21_invariance a a' b tol s s' t d : turns a = Some s -> turns a' = Some s' -> turns b = Some t ->
  turns tol = Some d -> same_mod_turn s s' ->
  (returns (fun fuel => isNear fuel a b tol) true <-> returns (fun fuel => isNear fuel b a tol) true)
  /\ (returns (fun fuel => isNear fuel a b tol) true <-> returns (fun fuel => isNear fuel a' b tol) true).
Proof.
  intros Ha Ha' Hb Ht Hs.
  rewrite (proj1 (c21_iff a b tol s t d Ha Hb Ht)), (proj1 (c21_iff b a tol t s d Hb Ha Ht)),
    (proj1 (c21_iff a' b tol s' t d Ha' Hb Ht)).
  split; [apply circularly_within_sym | apply circularly_within_turns, Hs].
Qed.

Lemma c21_undefined fuel a b tol : turns a = None \/ turns b = None \/ turns tol = None ->
  isNear fuel a b tol = Err EUndefined.
Proof.
  intros H. unfold isNear. rewrite !turns_None in H.
  destruct H as [-> | [-> | ->]]; [reflexivity | rewrite orb_true_r; reflexivity |].
  destruct (negb (angle_isDefined a) || negb (angle_isDefined b)); reflexivity.
Qed.

(** *** C17: binary64 *)
(** 2^70, 0 and 360 as binary64 numbers. *)
Definition b64_2p70 : spec_float := S754_finite false 4503599627370496 18.
Definition b64_0 : spec_float := S754_zero false.
Definition b64_360 : spec_float := S754_finite false 6333186975989760 (-44).

Lemma c17_absorb fuel : down_turns64 fuel b64_2p70 b64_360 b64_360 = Err OutOfFuel.
Proof.
  induction fuel as [| f IH]; [reflexivity |].
  cbn [down_turns64]. replace (sf_geb b64_2p70 b64_360) with true by (vm_compute; reflexivity).
  replace (sf_sub b64_2p70 b64_360) with b64_2p70 by (vm_compute; reflexivity). exact IH.
Qed.

Lemma c17_diverges : diverges (fun fuel => ReduceRange64 fuel b64_2p70 b64_0 b64_360).
Proof.
  intros fuel. unfold ReduceRange64.
  replace (sf_geb b64_2p70 b64_0 && SFltb b64_2p70 b64_360) with false by (vm_compute; reflexivity).
  cbv zeta. replace (sf_sub b64_360 b64_0) with b64_360 by (vm_compute; reflexivity).
  destruct fuel as [| f]; [reflexivity |].
  cbn [up_turns64]. replace (SFltb b64_2p70 b64_0) with false by (vm_compute; reflexivity).
  cbn [bind]. apply c17_absorb.
Qed.

(** *** C17: termination with rounding *)
Section rnd.
Variable rnd : R -> R.
Hypothesis rnd_mono : forall x y, x <= y -> rnd x <= rnd y.
Hypothesis rnd_int : forall z : Z, (Z.abs z <= 2 ^ 53)%Z -> rnd (IZR z) = IZR z.

Lemma up_turns_rnd_int (l h : Z) : (l < h)%Z -> (Z.abs l <= 2 ^ 53)%Z -> (Z.abs h <= 2 ^ 53)%Z ->
  forall n v z, (Z.abs z <= 2 ^ 53)%Z -> IZR z <= v -> (l - z <= Z.of_nat n)%Z -> v <= IZR h \/ IZR l <= v ->
  exists r, (forall fuel, (n < fuel)%nat -> up_turns_rnd rnd fuel v (IZR (h - l)) (IZR l) = Ok r)
    /\ IZR l <= r /\ (r = v \/ r <= IZR h).
Proof.
  intros Hlh Hl Hh n. induction n as [| n IH]; intros v z Hz Hzv Hn Hv.
  - exists v. assert (IZR l <= IZR z) by (apply IZR_le; lia).
    split; [| split; [lra | left; reflexivity]].
    intros [| f]; [lia |]. intros _. cbn [up_turns_rnd]. rewrite Rltb_f by lra. reflexivity.
  - destruct (Rlt_le_dec v (IZR l)) as [H | H].
    + assert (Hzl : (z < l)%Z) by (apply lt_IZR; lra).
      assert (A1 : IZR (z + (h - l)) <= rnd (v + IZR (h - l))).
      { rewrite <- (rnd_int (z + (h - l))) by lia. apply rnd_mono. rewrite plus_IZR. lra. }
      assert (A2 : rnd (v + IZR (h - l)) <= IZR h).
      { rewrite <- (rnd_int h) by lia. apply rnd_mono. rewrite minus_IZR. lra. }
      destruct (IH (rnd (v + IZR (h - l))) (z + (h - l))%Z) as [r [F [B1 B2]]];
        [lia | exact A1 | lia | left; exact A2 |].
      exists r. split; [| split; [exact B1 | right; destruct B2; lra]].
      intros [| f]; [lia |]. intros Hf. cbn [up_turns_rnd]. rewrite Rltb_t by lra. apply F; lia.
    + exists v. split; [| split; [lra | left; reflexivity]].
      intros [| f]; [lia |]. intros _. cbn [up_turns_rnd]. rewrite Rltb_f by lra. reflexivity.
Qed.

Lemma down_turns_rnd_int (l h : Z) : (l < h)%Z -> (Z.abs l <= 2 ^ 53)%Z -> (Z.abs h <= 2 ^ 53)%Z ->
  forall n v z, (Z.abs z <= 2 ^ 53)%Z -> v <= IZR z -> (z - h < Z.of_nat n)%Z -> IZR l <= v ->
  exists r, (forall fuel, (n < fuel)%nat -> down_turns_rnd rnd fuel v (IZR (h - l)) (IZR h) = Ok r)
    /\ IZR l <= r < IZR h.
Proof.
  intros Hlh Hl Hh n. induction n as [| n IH]; intros v z Hz Hzv Hn Hv.
  - exists v. assert (IZR z < IZR h) by (apply IZR_lt; lia).
    split; [| lra].
    intros [| f]; [lia |]. intros _. cbn [down_turns_rnd]. rewrite Rltb_t by lra. reflexivity.
  - destruct (Rlt_le_dec v (IZR h)) as [H | H].
    + exists v. split; [| lra].
      intros [| f]; [lia |]. intros _. cbn [down_turns_rnd]. rewrite Rltb_t by lra. reflexivity.
    + assert (Hzl : (h <= z)%Z) by (apply le_IZR; lra).
      assert (A1 : rnd (v - IZR (h - l)) <= IZR (z - (h - l))).
      { rewrite <- (rnd_int (z - (h - l))) by lia. apply rnd_mono. rewrite (minus_IZR z). lra. }
      assert (A2 : IZR l <= rnd (v - IZR (h - l))).
      { rewrite <- (rnd_int l) by lia. apply rnd_mono. rewrite minus_IZR. lra. }
      destruct (IH (rnd (v - IZR (h - l))) (z - (h - l))%Z) as [r [F B]];
        [lia | exact A1 | lia | exact A2 |].
      exists r. split; [| exact B].
      intros [| f]; [lia |]. intros Hf. cbn [down_turns_rnd]. rewrite Rltb_f by lra. apply F; lia.
Qed.

Lemma c17_integer_range (l h : Z) v : (l < h)%Z -> (Z.abs l <= 2 ^ 53)%Z -> (Z.abs h <= 2 ^ 53)%Z ->
  (h - l <= 2 ^ 53)%Z -> Rabs v <= IZR (2 ^ 53) ->
  exists r, returns (fun fuel => ReduceRange_rnd rnd fuel v (IZR l) (IZR h)) r /\ IZR l <= r < IZR h.
Proof.
  intros Hlh Hl Hh Hr Hv.
  assert (Hb : - IZR (2 ^ 53) <= v <= IZR (2 ^ 53)) by (revert Hv; unfold Rabs; destruct Rcase_abs; lra).
  destruct Hb as [Hb1 Hb2].
  unfold ReduceRange_rnd.
  destruct (Rltb v (IZR l)) eqn:E1; [apply Rltb_true in E1 | apply Rltb_false in E1].
  2: destruct (Rltb v (IZR h)) eqn:E2; [apply Rltb_true in E2 | apply Rltb_false in E2].
  2: { exists v. split; [exists 0%nat; reflexivity | lra]. }
  - rewrite <- opp_IZR in Hb1.
    destruct (up_turns_rnd_int l h Hlh Hl Hh (Z.to_nat (l - - 2 ^ 53)) v (- 2 ^ 53)%Z)
      as [w [F [W1 W2]]]; [lia | exact Hb1 | lia | left; apply Rlt_le, Rlt_trans with (1 := E1), IZR_lt, Hlh |].
    assert (W3 : w <= IZR h) by (destruct W2; [subst w; lra | lra]).
    destruct (down_turns_rnd_int l h Hlh Hl Hh 1%nat w h) as [r [G B]]; [lia | exact W3 | lia | exact W1 |].
    exists r. split; [| exact B].
    exists (S (max (Z.to_nat (l - - 2 ^ 53)) 1)). intros fuel Hf. simpl negb. cbn [andb]. cbv iota zeta.
    rewrite <- minus_IZR, rnd_int by lia. rewrite F by lia. cbn [bind]. apply G; lia.
  - destruct (down_turns_rnd_int l h Hlh Hl Hh (S (Z.to_nat (2 ^ 53 - h))) v (2 ^ 53)%Z) as [r [G B]];
      [lia | exact Hb2 | lia | exact E1 |].
    exists r. split; [| exact B].
    exists (S (S (Z.to_nat (2 ^ 53 - h)))). intros fuel Hf. simpl negb. cbn [andb]. cbv iota zeta.
    rewrite <- minus_IZR, rnd_int by lia.
    destruct fuel; [lia |]. cbn [up_turns_rnd]. rewrite Rltb_f by lra. cbn [bind]. apply G; lia.
Qed.
End rnd.

Section rel.
Variable rnd : R -> R.
Hypothesis rnd_rel : forall x, Rabs (rnd x - x) <= / IZR (2 ^ 53) * Rabs x + / IZR (2 ^ 1075).

Lemma rnd_step (r x : R) : / IZR (2 ^ 1070) <= r -> Rabs x <= IZR (2 ^ 51) * r ->
  x - r / 2 <= rnd x <= x + r / 2.
Proof.
  intros Hr Hx. pose proof (rnd_rel x) as H.
  assert (P1 : 0 < / IZR (2 ^ 53)) by (apply Rinv_0_lt_compat, IZR_lt; reflexivity).
  assert (E : / IZR (2 ^ 53) * IZR (2 ^ 51) = / 4).
  { replace (2 ^ 53)%Z with (2 ^ 51 * 4)%Z by reflexivity. rewrite mult_IZR. field.
    apply not_0_IZR. discriminate. }
  assert (F : / IZR (2 ^ 1075) = / 32 * / IZR (2 ^ 1070)).
  { replace (2 ^ 1075)%Z with (2 ^ 1070 * 32)%Z by reflexivity. rewrite mult_IZR. field.
    apply not_0_IZR. discriminate. }
  rewrite F in H. clear F.
  assert (Hq : / IZR (2 ^ 53) * Rabs x <= / 4 * r).
  { rewrite <- E, Rmult_assoc. apply Rmult_le_compat_l; lra. }
  assert (P2 : 0 < / IZR (2 ^ 1070)) by (apply Rinv_0_lt_compat, IZR_lt; reflexivity).
  revert H Hq Hr P2. generalize (/ IZR (2 ^ 53) * Rabs x) as p. generalize (/ IZR (2 ^ 1070)) as q. intros q p H Hq Hr P2.
  revert H. unfold Rabs. destruct Rcase_abs; lra.
Qed.

Lemma up_turns_rnd_rel (B r lo : R) : / IZR (2 ^ 1070) <= r -> 0 <= B <= IZR (2 ^ 50) * r -> lo <= B ->
  forall n v, - B <= v -> lo - v < INR n * (r / 2) ->
  exists w, (forall fuel, (n < fuel)%nat -> up_turns_rnd rnd fuel v r lo = Ok w)
    /\ lo <= w /\ (w = v \/ w <= lo + 2 * r).
Proof.
  intros Hr HB Hlo.
  assert (Hr0 : 0 < r) by (eapply Rlt_le_trans; [| exact Hr]; apply Rinv_0_lt_compat, IZR_lt; reflexivity).
  assert (HB' : B <= IZR (2 ^ 50) * r) by lra.
  assert (E2 : IZR (2 ^ 51) = 2 * IZR (2 ^ 50)) by (rewrite <- mult_IZR; reflexivity).
  assert (P : 4 <= IZR (2 ^ 50)) by (apply IZR_le; discriminate).
  induction n as [| n IH]; intros v Hv Hn.
  - simpl in Hn. exists v. split; [| split; [lra | left; reflexivity]].
    intros [| f]; [lia |]. intros _. cbn [up_turns_rnd]. rewrite Rltb_f by lra. reflexivity.
  - destruct (Rlt_le_dec v lo) as [H | H].
    + assert (S := rnd_step r (v + r) Hr).
      assert (Hx : Rabs (v + r) <= IZR (2 ^ 51) * r).
      { rewrite E2. revert HB' P. generalize (IZR (2 ^ 50)). intros c HB' P.
        assert (4 * r <= c * r) by (apply Rmult_le_compat_r; lra).
        unfold Rabs. destruct Rcase_abs; lra. }
      specialize (S Hx). rewrite S_INR in Hn.
      destruct (IH (rnd (v + r))) as [w [F [W1 W2]]]; [lra | lra |].
      exists w. split; [| split; [exact W1 | right; destruct W2; lra]].
      intros [| f]; [lia |]. intros Hf. cbn [up_turns_rnd]. rewrite Rltb_t by lra. apply F; lia.
    + exists v. split; [| split; [lra | left; reflexivity]].
      intros [| f]; [lia |]. intros _. cbn [up_turns_rnd]. rewrite Rltb_f by lra. reflexivity.
Qed.

Lemma down_turns_rnd_rel (B r hi : R) : / IZR (2 ^ 1070) <= r -> 0 <= B <= IZR (2 ^ 50) * r -> - B <= hi ->
  forall n v, v <= B + 2 * r -> v - hi < INR n * (r / 2) ->
  exists w, (forall fuel, (n < fuel)%nat -> down_turns_rnd rnd fuel v r hi = Ok w)
    /\ w < hi /\ (w = v \/ hi - 2 * r <= w).
Proof.
  intros Hr HB Hhi.
  assert (Hr0 : 0 < r) by (eapply Rlt_le_trans; [| exact Hr]; apply Rinv_0_lt_compat, IZR_lt; reflexivity).
  assert (HB' : B <= IZR (2 ^ 50) * r) by lra.
  assert (E2 : IZR (2 ^ 51) = 2 * IZR (2 ^ 50)) by (rewrite <- mult_IZR; reflexivity).
  assert (P : 4 <= IZR (2 ^ 50)) by (apply IZR_le; discriminate).
  induction n as [| n IH]; intros v Hv Hn.
  - simpl in Hn. exists v. split; [| split; [lra | left; reflexivity]].
    intros [| f]; [lia |]. intros _. cbn [down_turns_rnd]. rewrite Rltb_t by lra. reflexivity.
  - destruct (Rlt_le_dec v hi) as [H | H].
    + exists v. split; [| split; [lra | left; reflexivity]].
      intros [| f]; [lia |]. intros _. cbn [down_turns_rnd]. rewrite Rltb_t by lra. reflexivity.
    + assert (S := rnd_step r (v - r) Hr).
      assert (Hx : Rabs (v - r) <= IZR (2 ^ 51) * r).
      { rewrite E2. revert HB' P. generalize (IZR (2 ^ 50)). intros c HB' P.
        assert (4 * r <= c * r) by (apply Rmult_le_compat_r; lra).
        unfold Rabs. destruct Rcase_abs; lra. }
      specialize (S Hx). rewrite S_INR in Hn.
      destruct (IH (rnd (v - r))) as [w [F [W1 W2]]]; [lra | lra |].
      exists w. split; [| split; [exact W1 | right; destruct W2; lra]].
      intros [| f]; [lia |]. intros Hf. cbn [down_turns_rnd]. rewrite Rltb_f by lra. apply F; lia.
Qed.

Lemma div_lt_nat x r : 0 < r -> exists n, x < INR n * r.
Proof.
  intros Hr. destruct (archimed_nat (x / r)) as [n Hn]. exists n.
  apply Rmult_lt_reg_r with (/ r); [apply Rinv_0_lt_compat; lra |].
  replace (INR n * r * / r) with (INR n) by (field; lra). exact Hn.
Qed.

Lemma c17_any_range (lo hi v : R) :
  let r := rnd (hi - lo) in
  lo < hi -> / IZR (2 ^ 1070) <= r ->
  Rabs v <= IZR (2 ^ 50) * r -> Rabs lo <= IZR (2 ^ 50) * r -> Rabs hi <= IZR (2 ^ 50) * r ->
  exists w, returns (fun fuel => ReduceRange_rnd rnd fuel v lo hi) w
    /\ (hi - 2 * r <= w \/ lo <= w) /\ w < hi.
Proof.
  intros r Hlh Hr Hv Hlo Hhi. set (B := IZR (2 ^ 50) * r) in *.
  assert (Hr0 : 0 < r) by (eapply Rlt_le_trans; [| exact Hr]; apply Rinv_0_lt_compat, IZR_lt; reflexivity).
  assert (P : 0 < IZR (2 ^ 50)) by (apply IZR_lt; reflexivity).
  assert (HB0 : 0 <= B) by (apply Rmult_le_pos; lra).
  assert (Bv : - B <= v <= B) by (revert Hv; unfold Rabs; destruct Rcase_abs; lra).
  assert (Blo : - B <= lo <= B) by (revert Hlo; unfold Rabs; destruct Rcase_abs; lra).
  assert (Bhi : - B <= hi <= B) by (revert Hhi; unfold Rabs; destruct Rcase_abs; lra).
  destruct (div_lt_nat (lo - v) (r / 2) ltac:(lra)) as [n Hn].
  destruct (up_turns_rnd_rel B r lo Hr (conj HB0 (Rle_refl _)) (proj2 Blo) n v (proj1 Bv) Hn) as [w [F [W1 W2]]].
  assert (W3 : w <= B + 2 * r) by (destruct W2; lra).
  destruct (div_lt_nat (w - hi) (r / 2) ltac:(lra)) as [m Hm].
  destruct (down_turns_rnd_rel B r hi Hr (conj HB0 (Rle_refl _)) (proj1 Bhi) m w W3 Hm) as [x [G [X1 X2]]].
  unfold ReduceRange_rnd. fold r.
  destruct (negb (Rltb v lo) && Rltb v hi) eqn:E.
  - exists v. split; [exists 0%nat; reflexivity |].
    apply andb_true_iff in E. destruct E as [E1 E2]. apply negb_true_iff in E1.
    apply Rltb_false in E1. apply Rltb_true in E2. lra.
  - exists x. split; [| split; [destruct X2 as [-> | X2]; lra | exact X1]].
    exists (S (max n m)). intros fuel Hf. cbv zeta. rewrite F by lia. cbn [bind]. apply G; lia.
Qed.
End rel.
