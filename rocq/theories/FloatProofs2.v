(** The operations of binary64 are correctly rounded: sums, differences, products, quotients and comparisons. *)

From Coq Require Import Bool ZArith Reals Lra Lia Floats.SpecFloat.
From Verif Require Import TextProofs FloatSpec FloatProofs.
Local Open Scope R_scope.

Lemma rval_sg s m e : rval (S754_finite s m e) = sg s * (IZR (Zpos m) * P2 e).
Proof. cbn [rval]. unfold sg, P2. destruct s; ring. Qed.
Lemma pos_pos p e : 0 < IZR (Zpos p) * P2 e.
Proof. apply Rmult_lt_0_compat; [apply IZR_lt; lia | apply P2_pos]. Qed.
Lemma exact_rounded x : finite64 x -> rounded64 (rval x) x.
Proof.
  intros F. unfold rounded64, nearest64. replace (rval x - rval x) with 0 by ring. rewrite Rabs_R0. split; [split; [exact F |] |].
  - intros w _. apply Rabs_pos.
  - left. apply Rmult_le_pos; [apply Rlt_le, (P2_pos (-53)) | apply Rabs_pos].
Qed.
Lemma shift_value d p : Zpos (shift_pos d p) = (Zpos p * 2 ^ Zpos d)%Z.
Proof. rewrite shift_pos_correct. change (Z.pow_pos 2 d) with (2 ^ Zpos d)%Z. ring. Qed.
Lemma align_value m e e' : (e' <= e)%Z -> Zpos (fst (shl_align m e e')) = (Zpos m * 2 ^ (e - e'))%Z /\ snd (shl_align m e e') = e'.
Proof.
  intros H. unfold shl_align. destruct (e' - e)%Z as [| d | d] eqn:Q; cbn [fst snd].
  - replace (e - e')%Z with 0%Z by lia. split; [ring_simplify; lia | lia].
  - lia.
  - rewrite shift_value. split; [do 2 f_equal; lia | reflexivity].
Qed.
Lemma round_rounded s p e : IZR (Zpos p) * P2 e <= P2 1023 -> rounded64 (sg s * (IZR (Zpos p) * P2 e)) (binary_round 53 1024 s p e).
Proof.
  intros U. unfold binary_round. change (Zpos (digits2_pos p)) with (Zdigits2 (Zpos p)).
  set (f := fexp 53 1024 (Zdigits2 (Zpos p) + e)).
  assert (L : P2 (Zdigits2 (Zpos p) - 1 + e) <= IZR (Zpos p) * P2 e).
  { rewrite P2_add. apply Rmult_le_compat_r; [apply Rlt_le, P2_pos |]. pose proof (rdigits2_pos (Zpos p) ltac:(lia)).
    rewrite <- P2_Z by lia. apply IZR_le. apply rdigits2_bounds. lia. }
  destruct (Z.le_gt_cases f e) as [C | C].
  - destruct (align_value p e f C) as [V1 V2]. destruct (shl_align p e f) as [mz ez]. cbn [fst snd] in *. subst ez.
    apply (round_nearest s (Zpos mz) f loc_Exact (IZR (Zpos mz))); [lia | reflexivity | | exact U |].
    + rewrite V1, mult_IZR, P2_Z, Rmult_assoc, <- P2_add by lia. do 2 f_equal. lia.
    + unfold f, fexp, emin in *. destruct (Z.max_spec (Zdigits2 (Zpos p) + e - 53) (3 - 1024 - 53)) as [[D ->] | [D ->]]; [left; lia | right].
      replace (Zdigits2 (Zpos p) + e - 53 + 52)%Z with (Zdigits2 (Zpos p) - 1 + e)%Z by lia. exact L.
  - unfold shl_align. destruct (f - e)%Z as [| d | d] eqn:Q; try lia.
    apply (round_nearest s (Zpos p) e loc_Exact (IZR (Zpos p))); [lia | reflexivity | reflexivity | exact U |].
    unfold f, fexp, emin in *. destruct (Z.max_spec (Zdigits2 (Zpos p) + e - 53) (3 - 1024 - 53)) as [[D E] | [D E]]; [left; lia | right].
    eapply Rle_trans; [apply P2_mono | exact L]. lia.
Qed.
Lemma normalize_rounded n e z : Rabs (IZR n * P2 e) <= P2 1023 -> rounded64 (IZR n * P2 e) (binary_normalize 53 1024 n e z).
Proof.
  intros U. destruct n as [| p | p]; cbn [binary_normalize].
  - rewrite Rmult_0_l. exact (exact_rounded (S754_zero z) I).
  - pose proof (pos_pos p e). rewrite Rabs_right in U by lra. replace (IZR (Zpos p) * P2 e) with (sg false * (IZR (Zpos p) * P2 e)) by (cbn; ring).
    apply round_rounded. exact U.
  - pose proof (pos_pos p e). replace (IZR (Zneg p)) with (- IZR (Zpos p)) in * by (rewrite <- opp_IZR; reflexivity).
    rewrite Rabs_left1 in U by lra. replace (- IZR (Zpos p) * P2 e) with (sg true * (IZR (Zpos p) * P2 e)) by (cbn; ring).
    apply round_rounded. lra.
Qed.
Lemma cond_opp_val s p e E : (E <= e)%Z -> IZR (cond_Zopp s (Zpos (fst (shl_align p e E)))) * P2 E = rval (S754_finite s p e).
Proof.
  intros H. destruct (align_value p e E H) as [V _]. rewrite rval_sg. replace (P2 e) with (P2 (e - E) * P2 E) by (rewrite <- P2_add; f_equal; lia).
  destruct s; cbn [cond_Zopp sg]; rewrite ?opp_IZR, V, mult_IZR, P2_Z by lia; ring.
Qed.
Lemma rval_zero s : rval (S754_zero s) = 0.
Proof. reflexivity. Qed.

Lemma SFopp_val x : rval (SFopp x) = - rval x.
Proof. destruct x as [s | s | | s m e]; cbn; try ring. destruct s; cbn; ring. Qed.
Lemma SFopp_finite x : finite64 x -> finite64 (SFopp x).
Proof. destruct x; cbn; auto. Qed.

(** Sums. *)
Lemma SFadd_rounded x y : finite64 x -> finite64 y -> Rabs (rval x + rval y) <= P2 1023 ->
  rounded64 (rval x + rval y) (SFadd 53 1024 x y).
Proof.
  intros Fx Fy U.
  destruct x as [s | s | | s m e], y as [s' | s' | | s' m' e']; try contradiction; cbn [SFadd].
  - rewrite !rval_zero, Rplus_0_l. destruct (Bool.eqb s s'); exact (exact_rounded (S754_zero _) I).
  - rewrite rval_zero, Rplus_0_l. apply exact_rounded. exact Fy.
  - rewrite rval_zero, Rplus_0_r. apply exact_rounded. exact Fx.
  - rewrite <- (cond_opp_val s m e (Z.min e e')) in * by lia. rewrite <- (cond_opp_val s' m' e' (Z.min e e')) in * by lia.
    rewrite <- Rmult_plus_distr_r, <- plus_IZR in *. apply normalize_rounded. exact U.
Qed.
(** Differences. *)
Lemma SFsub_rounded x y : finite64 x -> finite64 y -> Rabs (rval x - rval y) <= P2 1023 ->
  rounded64 (rval x - rval y) (SFsub 53 1024 x y).
Proof.
  intros Fx Fy U.
  destruct x as [s | s | | s m e], y as [s' | s' | | s' m' e']; try contradiction; cbn [SFsub].
  - rewrite !rval_zero, Rminus_0_r. destruct (Bool.eqb s (negb s')); exact (exact_rounded (S754_zero _) I).
  - rewrite rval_zero. replace (0 - rval (S754_finite s' m' e')) with (rval (S754_finite (negb s') m' e')).
    + apply exact_rounded. exact Fy.
    + destruct s'; cbn; ring.
  - rewrite rval_zero, Rminus_0_r. apply exact_rounded. exact Fx.
  - rewrite <- (cond_opp_val s m e (Z.min e e')) in * by lia. rewrite <- (cond_opp_val s' m' e' (Z.min e e')) in * by lia.
    replace (IZR (cond_Zopp s (Zpos (fst (shl_align m e (Z.min e e'))))) * P2 (Z.min e e') -
      IZR (cond_Zopp s' (Zpos (fst (shl_align m' e' (Z.min e e'))))) * P2 (Z.min e e')) with
      (IZR (cond_Zopp s (Zpos (fst (shl_align m e (Z.min e e')))) - cond_Zopp s' (Zpos (fst (shl_align m' e' (Z.min e e'))))) * P2 (Z.min e e')) in *
      by (rewrite minus_IZR; ring). apply normalize_rounded. exact U.
Qed.
Lemma sg_xorb s s' : sg (xorb s s') = sg s * sg s'.
Proof. destruct s, s'; cbn; ring. Qed.
(** Products. *)
Lemma SFmul_rounded x y : finite64 x -> finite64 y -> Rabs (rval x * rval y) <= P2 1023 ->
  rounded64 (rval x * rval y) (SFmul 53 1024 x y).
Proof.
  intros Fx Fy U.
  destruct x as [s | s | | s m e], y as [s' | s' | | s' m' e']; try contradiction; cbn [SFmul].
  - rewrite !rval_zero, Rmult_0_l. exact (exact_rounded (S754_zero _) I).
  - rewrite !rval_zero, Rmult_0_l. exact (exact_rounded (S754_zero _) I).
  - rewrite !rval_zero, Rmult_0_r. exact (exact_rounded (S754_zero _) I).
  - assert (V : rval (S754_finite s m e) * rval (S754_finite s' m' e') = sg (xorb s s') * (IZR (Zpos (m * m')) * P2 (e + e'))).
    { rewrite !rval_sg, sg_xorb, P2_add, Pos2Z.inj_mul, mult_IZR. ring. }
    rewrite V in *. pose proof (pos_pos (m * m') (e + e')). rewrite sg_abs in U by lra.
    apply (round_nearest _ (Zpos (m * m')) (e + e') loc_Exact (IZR (Zpos (m * m')))); [lia | reflexivity | reflexivity | exact U |].
    apply bounded_spec in Fx. apply bounded_spec in Fy. destruct Fx as (A1 & A2 & A3), Fy as (B1 & B2 & B3).
    assert (Q : (e + e' <= -1074)%Z \/ (2 ^ 52 <= Zpos (m * m'))%Z).
    { rewrite Pos2Z.inj_mul. destruct A3 as [-> | A3]; [destruct B3 as [-> | B3]; [left; lia | right; nia] | right; nia]. }
    destruct Q as [Q | Q]; [now left | right]. rewrite Z.add_comm, P2_add. apply Rmult_le_compat_r; [apply Rlt_le, P2_pos |].
    rewrite <- P2_Z by lia. apply IZR_le. exact Q.
Qed.
Lemma rlocation_in b q r : (0 < b)%Z -> (0 <= r < b)%Z -> rinloc q (new_location b r) (IZR (q * b + r) / IZR b).
Proof.
  intros B R. assert (B' : 0 < IZR b) by (apply (IZR_lt 0); exact B).
  assert (E : IZR (q * b + r) / IZR b = IZR q + IZR r / IZR b) by (rewrite plus_IZR, mult_IZR; field; lra).
  rewrite E. clear E.
  assert (F0 : r = 0%Z -> IZR r / IZR b = 0) by (intros ->; field; lra).
  assert (X : forall a, a * IZR b < IZR r -> a < IZR r / IZR b).
  { intros a H. apply Rmult_lt_reg_r with (IZR b); [exact B' |]. unfold Rdiv. rewrite Rmult_assoc, Rinv_l by lra. lra. }
  assert (Y : forall a, IZR r < a * IZR b -> IZR r / IZR b < a).
  { intros a H. apply Rmult_lt_reg_r with (IZR b); [exact B' |]. unfold Rdiv. rewrite Rmult_assoc, Rinv_l by lra. lra. }
  assert (F1 : r <> 0%Z -> 0 < IZR r / IZR b).
  { intros N. apply X. rewrite Rmult_0_l. apply IZR_lt. lia. }
  assert (F2 : IZR r / IZR b < 1) by (apply Y; rewrite Rmult_1_l; apply IZR_lt; lia).
  assert (F3 : (2 * r < b)%Z -> IZR r / IZR b < / 2).
  { intros N. apply Y. apply IZR_lt in N. rewrite mult_IZR in N. lra. }
  assert (F4 : (b < 2 * r)%Z -> / 2 < IZR r / IZR b).
  { intros N. apply X. apply IZR_lt in N. rewrite mult_IZR in N. lra. }
  assert (F5 : (2 * r = b)%Z -> IZR r / IZR b = / 2).
  { intros <-. rewrite mult_IZR in *. field. lra. }
  unfold new_location. destruct (Z.even b) eqn:EV.
  - unfold new_location_even. destruct (Zeq_bool r 0) eqn:Z0.
    + apply Zeq_bool_eq in Z0. cbn [rinloc]. rewrite (F0 Z0). ring.
    + apply Zeq_bool_neq in Z0. specialize (F1 Z0). destruct (Z.compare_spec (2 * r) b) as [C | C | C]; cbn [rinloc].
      * rewrite (F5 C). reflexivity.
      * specialize (F3 C). lra.
      * specialize (F4 C). lra.
  - unfold new_location_odd. destruct (Zeq_bool r 0) eqn:Z0.
    + apply Zeq_bool_eq in Z0. cbn [rinloc]. rewrite (F0 Z0). ring.
    + apply Zeq_bool_neq in Z0. specialize (F1 Z0).
      assert (O : (2 * r <> b)%Z) by (intros <-; rewrite Z.even_mul in EV; discriminate).
      destruct (Z.compare_spec (2 * r + 1) b) as [C | C | C]; cbn [rinloc].
      * specialize (F3 ltac:(lia)). lra.
      * specialize (F3 ltac:(lia)). lra.
      * specialize (F4 ltac:(lia)). lra.
Qed.
(** Quotients. *)
Lemma SFdiv_rounded x y : finite64 x -> finite64 y -> rval y <> 0 -> Rabs (rval x / rval y) <= P2 1023 ->
  rounded64 (rval x / rval y) (SFdiv 53 1024 x y).
Proof.
  intros Fx Fy N U.
  destruct x as [s | s | | s m e], y as [s' | s' | | s' m' e']; try contradiction; try (cbn in N; lra); cbn [SFdiv].
  - rewrite rval_zero. unfold Rdiv. rewrite Rmult_0_l. exact (exact_rounded (S754_zero _) I).
  - pose proof (pos_pos m e) as P1. pose proof (pos_pos m' e') as P3.
    assert (M0 : 0 < IZR (Zpos m)) by (apply IZR_lt; lia). assert (M0' : 0 < IZR (Zpos m')) by (apply IZR_lt; lia).
    set (t := IZR (Zpos m) * P2 e / (IZR (Zpos m') * P2 e')).
    assert (T : rval (S754_finite s m e) / rval (S754_finite s' m' e') = sg (xorb s s') * t).
    { rewrite !rval_sg, sg_xorb. unfold t. pose proof (P2_pos e'). destruct s, s'; cbn [sg]; field; lra. }
    assert (T0 : 0 < t) by (apply Rdiv_lt_0_compat; assumption).
    rewrite T in *. rewrite sg_abs in U by lra. unfold SFdiv_core_binary.
    set (d := (Zdigits2 (Zpos m) + e - (Zdigits2 (Zpos m') + e'))%Z). set (E := Z.min (fexp 53 1024 d) (e - e')).
    assert (E0 : (E <= e - e')%Z) by (unfold E; lia).
    assert (M : match (e - e' - E)%Z with 0%Z => Zpos m | Zpos _ => Z.shiftl (Zpos m) (e - e' - E) | Zneg _ => 0%Z end = (Zpos m * 2 ^ (e - e' - E))%Z).
    { destruct (e - e' - E)%Z as [| k | k] eqn:Q; try lia. now rewrite Z.shiftl_mul_pow2 by lia. }
    rewrite M. clear M.
    set (X := (Zpos m * 2 ^ (e - e' - E))%Z).
    assert (DE : Z.div_eucl X (Zpos m') = (X / Zpos m', X mod Zpos m')%Z).
    { unfold Z.div, Z.modulo. destruct (Z.div_eucl X (Zpos m')). reflexivity. }
    rewrite DE. clear DE.
    pose proof (Z.div_mod X (Zpos m') ltac:(lia)) as DM. pose proof (Z.mod_pos_bound X (Zpos m') ltac:(lia)) as MB.
    assert (X0 : (0 <= X)%Z) by (unfold X; pose proof (Z.pow_nonneg 2 (e - e' - E)); nia).
    assert (QN : (0 <= X / Zpos m')%Z) by (apply Z.div_pos; lia).
    set (A := (X / Zpos m')%Z) in *. set (R := (X mod Zpos m')%Z) in *.
    apply (round_nearest _ A E (new_location (Zpos m') R) (IZR (A * Zpos m' + R) / IZR (Zpos m')) t QN).
    + apply rlocation_in; lia.
    + replace (A * Zpos m' + R)%Z with X by lia. unfold X, t. rewrite mult_IZR, P2_Z by lia.
      replace (P2 (e - e' - E)) with (P2 e / P2 e' / P2 E).
      * pose proof (P2_pos e'). pose proof (P2_pos E). field. repeat split; lra.
      * pose proof (P2_pos e'). pose proof (P2_pos E). replace (P2 e) with (P2 (e - e' - E) * P2 e' * P2 E) by (rewrite <- !P2_add; f_equal; lia). field. split; lra.
    + exact U.
    + assert (TD : P2 (d - 1) <= t).
      { unfold t. apply Rmult_le_reg_r with (IZR (Zpos m') * P2 e'); [exact P3 |]. unfold Rdiv. rewrite (Rmult_assoc _ (/ _)), Rinv_l, Rmult_1_r by lra.
        destruct (rdigits2_bounds (Zpos m) ltac:(lia)) as [B1 _]. destruct (rdigits2_bounds (Zpos m') ltac:(lia)) as [_ B2].
        pose proof (rdigits2_pos (Zpos m) ltac:(lia)) as G1. pose proof (rdigits2_pos (Zpos m') ltac:(lia)) as G2.
        apply IZR_le in B1. apply IZR_lt in B2. rewrite P2_Z in B1, B2 by lia.
        apply Rle_trans with (P2 (d - 1) * (P2 (Zdigits2 (Zpos m')) * P2 e')).
        { apply Rmult_le_compat_l; [apply Rlt_le, P2_pos |]. apply Rmult_le_compat_r; [apply Rlt_le, P2_pos | lra]. }
        rewrite <- !P2_add. replace (d - 1 + (Zdigits2 (Zpos m') + e'))%Z with (Zdigits2 (Zpos m) - 1 + e)%Z by (unfold d; lia).
        rewrite P2_add. apply Rmult_le_compat_r; [apply Rlt_le, P2_pos | exact B1]. }
      unfold E, fexp, emin. destruct (Z.le_gt_cases (d - 53) (3 - 1024 - 53)) as [C | C]; [left; lia | right].
      eapply Rle_trans; [| exact TD]. apply P2_mono. lia.
Qed.

(** *** Comparisons *)
Lemma mag_lt m e m' e' : bounded 53 1024 m e = true -> bounded 53 1024 m' e' = true -> (e < e')%Z -> IZR (Zpos m) * P2 e < IZR (Zpos m') * P2 e'.
Proof.
  intros A B H. apply bounded_spec in A. apply bounded_spec in B. destruct A as (A1 & A2 & A3), B as (B1 & B2 & B3).
  replace e' with (e + 1 + (e' - e - 1))%Z by lia. rewrite P2_add, P2_succ. pose proof (P2_pos e) as Pe.
  pose proof (P2_mono 0 (e' - e - 1) ltac:(lia)) as Q. rewrite P2_0 in Q.
  assert (2 * IZR (Zpos m') > IZR (Zpos m)).
  { change 2 with (IZR 2). rewrite <- mult_IZR. apply IZR_lt. destruct B3 as [B3 | B3]; lia. }
  assert (0 < IZR (Zpos m')) by (apply IZR_lt; lia).
  apply Rlt_le_trans with (IZR (Zpos m') * (2 * P2 e)); [nra |]. apply Rmult_le_compat_l; [lra |]. nra.
Qed.
Definition cmp_spec (c : option comparison) (a b : R) : Prop :=
  match c with Some Lt => a < b | Some Eq => a = b | Some Gt => a > b | None => False end.
Lemma mag_cmp m e m' e' : bounded 53 1024 m e = true -> bounded 53 1024 m' e' = true ->
  cmp_spec (Some match Z.compare e e' with Lt => Lt | Gt => Gt | Eq => Pcompare m m' Eq end) (IZR (Zpos m) * P2 e) (IZR (Zpos m') * P2 e').
Proof.
  intros A B. destruct (Z.compare_spec e e') as [<- | C | C]; cbn [cmp_spec].
  - pose proof (P2_pos e). change (Pcompare m m' Eq) with (m ?= m')%positive. destruct (Pos.compare_spec m m') as [<- | C | C].
    + reflexivity.
    + assert (IZR (Zpos m) < IZR (Zpos m')) by (apply IZR_lt; lia). nra.
    + assert (IZR (Zpos m') < IZR (Zpos m)) by (apply IZR_lt; lia). nra.
  - apply mag_lt; assumption.
  - apply Rlt_gt, mag_lt; assumption.
Qed.
Lemma SFcompare_val x y : finite64 x -> finite64 y -> cmp_spec (SFcompare x y) (rval x) (rval y).
Proof.
  intros Fx Fy. destruct x as [s | s | | s m e], y as [s' | s' | | s' m' e']; try contradiction; cbn [SFcompare].
  - reflexivity.
  - rewrite rval_sg, rval_zero. pose proof (pos_pos m' e'). destruct s'; cbn [sg cmp_spec]; lra.
  - rewrite rval_sg, rval_zero. pose proof (pos_pos m e). destruct s; cbn [sg cmp_spec]; lra.
  - rewrite !rval_sg. pose proof (pos_pos m e). pose proof (pos_pos m' e'). pose proof (mag_cmp m e m' e' Fx Fy) as C.
    destruct s, s'; cbn [sg].
    + destruct (Z.compare e e'); cbn [cmp_spec] in *; try lra. destruct (Pcompare m m' Eq); cbn [CompOpp cmp_spec] in *; lra.
    + cbn [cmp_spec]. lra.
    + cbn [cmp_spec]. lra.
    + rewrite !Rmult_1_l. exact C.
Qed.
Lemma SFltb_val x y : finite64 x -> finite64 y -> (SFltb x y = true <-> rval x < rval y).
Proof.
  intros Fx Fy. pose proof (SFcompare_val x y Fx Fy) as C. unfold SFltb. destruct (SFcompare x y) as [[] |]; cbn in C; try contradiction; split; intros H; try lra; try discriminate; reflexivity.
Qed.
Lemma SFleb_val x y : finite64 x -> finite64 y -> (SFleb x y = true <-> rval x <= rval y).
Proof.
  intros Fx Fy. pose proof (SFcompare_val x y Fx Fy) as C. unfold SFleb. destruct (SFcompare x y) as [[] |]; cbn in C; try contradiction; split; intros H; try lra; try discriminate; reflexivity.
Qed.
Lemma SFeqb_val x y : finite64 x -> finite64 y -> (SFeqb x y = true <-> rval x = rval y).
Proof.
  intros Fx Fy. pose proof (SFcompare_val x y Fx Fy) as C. unfold SFeqb. destruct (SFcompare x y) as [[] |]; cbn in C; try contradiction; split; intros H; try lra; try discriminate; reflexivity.
Qed.

(** *** Consequences of being nearest *)
Lemma nearest_above t z w : nearest64 t z -> finite64 w -> t <= rval w -> rval z <= rval w.
Proof. intros [_ N] F H. specialize (N w F). revert N. unfold Rabs. repeat destruct Rcase_abs; lra. Qed.
Lemma nearest_below t z w : nearest64 t z -> finite64 w -> rval w <= t -> rval w <= rval z.
Proof. intros [_ N] F H. specialize (N w F). revert N. unfold Rabs. repeat destruct Rcase_abs; lra. Qed.
Lemma nearest_exact t z : nearest64 t z -> representable t -> rval z = t.
Proof. intros N (w & F & <-). apply Rle_antisym; [apply (nearest_above _ _ _ N F) | apply (nearest_below _ _ _ N F)]; lra. Qed.
Lemma nearest_mono t t' z z' : nearest64 t z -> nearest64 t' z' -> t < t' -> rval z <= rval z'.
Proof.
  intros [F N] [F' N'] H. specialize (N z' F'). specialize (N' z F). revert N N'. unfold Rabs. repeat destruct Rcase_abs; lra.
Qed.
(** Multiples of 2^E with at most 53 binary digits are binary64 numbers. *)
Lemma grid_representable (n E : Z) : (-1074 <= E <= 971)%Z -> (Z.abs n <= 2 ^ 53)%Z -> IZR (Z.abs n) * P2 E <= P2 1023 -> representable (IZR n * P2 E).
Proof.
  intros B N U.
  assert (V : Rabs (IZR n * P2 E) <= P2 1023).
  { rewrite Rabs_mult, <- abs_IZR, (Rabs_right (P2 E)) by (apply Rle_ge, Rlt_le, P2_pos). exact U. }
  (* it is the one the rounding of the integer finds *)
  destruct (Z.eq_dec n 0) as [-> | N0]; [exists (S754_zero false); split; [exact I | cbn; ring] |].
  assert (G : forall p, (Zpos p <= 2 ^ 53)%Z -> IZR (Zpos p) * P2 E <= P2 1023 -> exists m e, bounded 53 1024 m e = true /\ IZR (Zpos m) * P2 e = IZR (Zpos p) * P2 E).
  { clear - B. intros p Hp Up. pose proof (rdigits2_bounds (Zpos p) ltac:(lia)) as [D1 D2]. pose proof (rdigits2_pos (Zpos p) ltac:(lia)) as D3.
    set (d := Zdigits2 (Zpos p)) in *.
    destruct (Z.eq_dec (Zpos p) (2 ^ 53)) as [Q | Q].
    - exists (2 ^ 52)%positive, (E + 1)%Z. split.
      + apply bounded_spec. rewrite Q, P2_Z, <- P2_add in Up by lia. assert (53 + E < 1024)%Z.
        { apply P2_lt_inv. change (P2 1024) with (P2 (1023 + 1)). rewrite P2_succ. pose proof (P2_pos 1023). lra. }
        split; [lia |]. split; [reflexivity | right; discriminate].
      + rewrite P2_succ. rewrite Q. change (2 ^ 53)%Z with (2 * Zpos (2 ^ 52))%Z. rewrite mult_IZR. ring.
    - set (k := Z.min (53 - d) (E + 1074)). assert (d <= 53)%Z by (apply rdigits2_small; lia).
      assert (K : (0 <= k)%Z) by (unfold k; lia).
      assert (PP : (0 < Zpos p * 2 ^ k)%Z) by (pose proof (Z.pow_pos_nonneg 2 k); nia).
      exists (Z.to_pos (Zpos p * 2 ^ k)), (E - k)%Z. rewrite Z2Pos.id by exact PP. split.
      + apply bounded_spec. rewrite Z2Pos.id by exact PP. split; [unfold k; lia |]. split.
        * apply Z.lt_le_trans with (2 ^ d * 2 ^ k)%Z; [pose proof (Z.pow_pos_nonneg 2 k); nia |].
          rewrite <- Z.pow_add_r by lia. apply Z.pow_le_mono_r; unfold k; lia.
        * destruct (Z.le_gt_cases (53 - d) (E + 1074)) as [C | C]; [right | left; unfold k; lia].
          apply Z.le_trans with (2 ^ (d - 1) * 2 ^ k)%Z; [| pose proof (Z.pow_pos_nonneg 2 k); nia].
          rewrite <- Z.pow_add_r by lia. apply Z.pow_le_mono_r; unfold k; lia.
      + rewrite mult_IZR, P2_Z, Rmult_assoc, <- P2_add by lia. do 2 f_equal. lia. }
  destruct n as [| p | p]; [lia | |]; cbn [Z.abs] in *.
  - destruct (G p N U) as (m & e & Bm & Vm). exists (S754_finite false m e). split; [exact Bm |]. rewrite rval_sg, Vm. cbn. ring.
  - destruct (G p N U) as (m & e & Bm & Vm). exists (S754_finite true m e). split; [exact Bm |]. rewrite rval_sg, Vm.
    replace (IZR (Zneg p)) with (- IZR (Zpos p)) by (rewrite <- opp_IZR; reflexivity). cbn. ring.
Qed.
Lemma integer_representable n : (Z.abs n <= 2 ^ 53)%Z -> representable (IZR n).
Proof.
  intros H. replace (IZR n) with (IZR n * P2 0) by (rewrite P2_0; ring). apply grid_representable; [lia | exact H |].
  rewrite P2_0, Rmult_1_r. apply Rle_trans with (IZR (2 ^ 53)); [apply IZR_le; exact H |]. rewrite P2_Z by lia. apply P2_mono. lia.
Qed.
