(** Range reduction of angles in double precision. *)

From Coq Require Import List Bool ZArith Reals Lra Lia Floats.SpecFloat.
From Verif Require Import Result AngleModel AngleSpec FloatSpec FloatProofs FloatProofs2 FloatModel.
Local Open Scope R_scope.

(** *** Sums round to 53 digits *)
Lemma sum_error t z : rounded64 t z -> (exists n : Z, t = IZR n * P2 (-1074)) -> Rabs (rval z - t) <= P2 (-53) * Rabs t.
Proof.
  intros [N E] [n T]. destruct E as [E | [_ S]]; [exact E |].
  assert (NB : (Z.abs n < 2 ^ 53)%Z).
  { apply lt_IZR. rewrite P2_Z by lia. fold (P2 (-1021)) in S. rewrite T, Rabs_mult, <- abs_IZR, (Rabs_right (P2 (-1074))) in S by (apply Rle_ge, Rlt_le, P2_pos).
    change (P2 (-1021)) with (P2 (53 + -1074)) in S. rewrite P2_add in S. apply Rmult_lt_reg_r in S; [exact S | apply P2_pos]. }
  rewrite (nearest_exact t z N).
  - replace (t - t) with 0 by ring. rewrite Rabs_R0. apply Rmult_le_pos; [apply Rlt_le, P2_pos | apply Rabs_pos].
  - rewrite T. apply grid_representable; [lia | lia |].
    apply Rle_trans with (P2 53 * P2 (-1074)); [apply Rmult_le_compat_r; [apply Rlt_le, P2_pos |]; rewrite <- P2_Z by lia; apply IZR_le; lia |].
    rewrite <- P2_add. apply P2_mono. lia.
Qed.
Lemma add_err x y : finite64 x -> finite64 y -> Rabs (rval x + rval y) <= P2 1023 ->
  Rabs (rval (SFadd 53 1024 x y) - (rval x + rval y)) <= P2 (-53) * Rabs (rval x + rval y).
Proof.
  intros Fx Fy U. apply sum_error; [apply SFadd_rounded; assumption |].
  destruct (finite_small x Fx) as [n ->], (finite_small y Fy) as [m ->]. exists (n + m)%Z. rewrite plus_IZR. ring.
Qed.
Lemma sub_err x y : finite64 x -> finite64 y -> Rabs (rval x - rval y) <= P2 1023 ->
  Rabs (rval (SFsub 53 1024 x y) - (rval x - rval y)) <= P2 (-53) * Rabs (rval x - rval y).
Proof.
  intros Fx Fy U. apply sum_error; [apply SFsub_rounded; assumption |].
  destruct (finite_small x Fx) as [n ->], (finite_small y Fy) as [m ->]. exists (n - m)%Z. rewrite minus_IZR. ring.
Qed.
Lemma geb_val x y : finite64 x -> finite64 y -> (sf_geb x y = true <-> rval y <= rval x).
Proof. intros Fx Fy. unfold sf_geb. apply SFleb_val; assumption. Qed.
Lemma ltb_t x y : finite64 x -> finite64 y -> rval x < rval y -> SFltb x y = true.
Proof. intros Fx Fy. apply SFltb_val; assumption. Qed.
Lemma ltb_f x y : finite64 x -> finite64 y -> rval y <= rval x -> SFltb x y = false.
Proof. intros Fx Fy H. apply Bool.not_true_iff_false. intros E. apply SFltb_val in E; [lra | assumption..]. Qed.
Lemma geb_t x y : finite64 x -> finite64 y -> rval y <= rval x -> sf_geb x y = true.
Proof. intros Fx Fy. apply geb_val; assumption. Qed.
Lemma geb_f x y : finite64 x -> finite64 y -> rval x < rval y -> sf_geb x y = false.
Proof. intros Fx Fy H. apply Bool.not_true_iff_false. intros E. apply geb_val in E; [lra | assumption..]. Qed.
Lemma abs_le a b : Rabs a <= b -> - b <= a <= b.
Proof. unfold Rabs. destruct Rcase_abs; lra. Qed.
Lemma abs_of a b : - b <= a <= b -> Rabs a <= b.
Proof. unfold Rabs. destruct Rcase_abs; lra. Qed.

(** *** The loops, for an exact range *)
Lemma up64_step v range lo hi : finite64 v -> finite64 range -> finite64 lo -> finite64 hi -> 0 < rval range -> rval hi = rval lo + rval range ->
  Rabs (rval v) <= P2 1020 -> Rabs (rval range) <= P2 1020 -> rval v < rval lo ->
  finite64 (sf_add v range) /\ rval v <= rval (sf_add v range) <= rval hi.
Proof.
  intros Fv Fr Fl Fh R0 H Uv Ur L.
  assert (U : Rabs (rval v + rval range) <= P2 1023).
  { apply abs_le in Uv. apply abs_le in Ur. apply abs_of. change 1023%Z with (1020 + 1 + 1 + 1)%Z. rewrite !P2_succ. pose proof (P2_pos 1020). lra. }
  destruct (SFadd_rounded v range Fv Fr U) as [N _]. split; [exact (proj1 N) |].
  split; [apply (nearest_below _ _ v N Fv) | apply (nearest_above _ _ hi N Fh)]; lra.
Qed.
Lemma down64_step v range lo hi : finite64 v -> finite64 range -> finite64 lo -> finite64 hi -> 0 < rval range -> rval hi = rval lo + rval range ->
  Rabs (rval v) <= P2 1020 -> Rabs (rval range) <= P2 1020 -> rval hi <= rval v ->
  finite64 (sf_sub v range) /\ rval lo <= rval (sf_sub v range) <= rval v.
Proof.
  intros Fv Fr Fl Fh R0 H Uv Ur L.
  assert (U : Rabs (rval v - rval range) <= P2 1023).
  { apply abs_le in Uv. apply abs_le in Ur. apply abs_of. change 1023%Z with (1020 + 1 + 1 + 1)%Z. rewrite !P2_succ. pose proof (P2_pos 1020). lra. }
  destruct (SFsub_rounded v range Fv Fr U) as [N _]. split; [exact (proj1 N) |].
  split; [apply (nearest_below _ _ lo N Fl) | apply (nearest_above _ _ v N Fv)]; lra.
Qed.
(** If the loops end, they end in the range. *)
Lemma up64_lands range lo hi : finite64 range -> finite64 lo -> finite64 hi -> 0 < rval range -> rval hi = rval lo + rval range ->
  Rabs (rval hi) <= P2 1020 -> Rabs (rval range) <= P2 1020 ->
  forall fuel v w, finite64 v -> Rabs (rval v) <= P2 1020 -> up_turns64 fuel v range lo = Ok w ->
  finite64 w /\ rval lo <= rval w /\ Rabs (rval w) <= P2 1020.
Proof.
  intros Fr Fl Fh R0 H Uh Ur fuel. induction fuel as [| f IH]; intros v w Fv Uv E; [discriminate |]. cbn [up_turns64] in E.
  destruct (Rlt_le_dec (rval v) (rval lo)) as [L | L].
  - rewrite ltb_t in E by assumption. destruct (up64_step v range lo hi Fv Fr Fl Fh R0 H Uv Ur L) as [F' B].
    apply (IH (sf_add v range) w F'); [| exact E]. apply abs_le in Uv. apply abs_le in Uh. apply abs_of. lra.
  - rewrite ltb_f in E by assumption. injection E as <-. split; [exact Fv | split; assumption].
Qed.
Lemma down64_lands range lo hi : finite64 range -> finite64 lo -> finite64 hi -> 0 < rval range -> rval hi = rval lo + rval range ->
  Rabs (rval lo) <= P2 1020 -> Rabs (rval range) <= P2 1020 ->
  forall fuel v w, finite64 v -> rval lo <= rval v -> Rabs (rval v) <= P2 1020 -> down_turns64 fuel v range hi = Ok w ->
  finite64 w /\ rval lo <= rval w < rval hi.
Proof.
  intros Fr Fl Fh R0 H Ul Ur fuel. induction fuel as [| f IH]; intros v w Fv Lv Uv E; [discriminate |]. cbn [down_turns64] in E.
  destruct (Rlt_le_dec (rval v) (rval hi)) as [L | L].
  - rewrite geb_f in E by assumption. injection E as <-. split; [exact Fv | split; assumption].
  - rewrite geb_t in E by assumption. destruct (down64_step v range lo hi Fv Fr Fl Fh R0 H Uv Ur L) as [F' B].
    apply (IH (sf_sub v range) w F'); [lra | | exact E]. apply abs_le in Uv. apply abs_le in Ul. apply abs_of. lra.
Qed.
(** And they end, if the rounding of a step is at most half of the range. *)
Lemma up64_ends range lo hi : finite64 range -> finite64 lo -> finite64 hi -> 0 < rval range -> rval hi = rval lo + rval range ->
  P2 52 * rval range <= P2 1020 -> Rabs (rval hi) <= P2 52 * rval range ->
  forall n v, finite64 v -> - (P2 52 * rval range) <= rval v -> rval v <= P2 52 * rval range -> rval lo - rval v <= INR n * (rval range / 2) ->
  exists w, forall fuel, (n < fuel)%nat -> up_turns64 fuel v range lo = Ok w.
Proof.
  intros Fr Fl Fh R0 H Ur Uh.
  assert (Q52 : 1 <= P2 52) by (rewrite <- P2_0; apply P2_mono; lia).
  assert (Ur' : Rabs (rval range) <= P2 1020) by (rewrite Rabs_right by lra; nra).
  apply abs_le in Uh.
  induction n as [| n IH]; intros v Fv L U M.
  - exists v. intros [| f] K; [lia |]. cbn [up_turns64]. rewrite ltb_f; [reflexivity | assumption.. |]. cbn in M. lra.
  - destruct (Rlt_le_dec (rval v) (rval lo)) as [C | C].
    2: { exists v. intros [| f] K; [lia |]. cbn [up_turns64]. rewrite ltb_f; [reflexivity | assumption..]. }
    assert (Uv : Rabs (rval v) <= P2 1020) by (apply abs_of; lra).
    destruct (up64_step v range lo hi Fv Fr Fl Fh R0 H Uv Ur' C) as [F' B].
    assert (T : Rabs (rval v + rval range) <= P2 52 * rval range) by (apply abs_of; lra).
    assert (P : rval v + rval range / 2 <= rval (sf_add v range)).
    { assert (T' : Rabs (rval v + rval range) <= P2 1023) by (eapply Rle_trans; [exact T |]; eapply Rle_trans; [exact Ur | apply P2_mono; lia]).
      pose proof (add_err v range Fv Fr T') as Er. fold (sf_add v range) in Er. change (SFadd 53 1024 v range) with (sf_add v range) in Er. apply abs_le in Er.
      assert (P2 (-53) * Rabs (rval v + rval range) <= rval range / 2).
      { apply Rle_trans with (P2 (-53) * (P2 52 * rval range)); [apply Rmult_le_compat_l; [apply Rlt_le, P2_pos | exact T] |].
        rewrite <- Rmult_assoc, <- P2_add. change (-53 + 52)%Z with (-1)%Z. change (P2 (-1)) with (/ (2 * 1)). lra. }
      lra. }
    destruct (IH (sf_add v range) F') as [w W]; [lra | lra | rewrite S_INR in M; lra |].
    exists w. intros [| f] K; [lia |]. cbn [up_turns64]. rewrite ltb_t by assumption. apply W. lia.
Qed.
Lemma down64_ends range lo hi : finite64 range -> finite64 lo -> finite64 hi -> 0 < rval range -> rval hi = rval lo + rval range ->
  P2 52 * rval range <= P2 1020 -> Rabs (rval lo) <= P2 52 * rval range ->
  forall n v, finite64 v -> rval lo <= rval v -> rval v <= P2 52 * rval range -> rval v - rval hi < INR n * (rval range / 2) ->
  exists w, forall fuel, (n < fuel)%nat -> down_turns64 fuel v range hi = Ok w.
Proof.
  intros Fr Fl Fh R0 H Ur Ul.
  assert (Q52 : 1 <= P2 52) by (rewrite <- P2_0; apply P2_mono; lia).
  assert (Ur' : Rabs (rval range) <= P2 1020) by (rewrite Rabs_right by lra; nra).
  apply abs_le in Ul.
  induction n as [| n IH]; intros v Fv L U M.
  - exists v. intros [| f] K; [lia |]. cbn [down_turns64]. rewrite geb_f; [reflexivity | assumption.. |]. cbn in M. lra.
  - destruct (Rlt_le_dec (rval v) (rval hi)) as [C | C].
    { exists v. intros [| f] K; [lia |]. cbn [down_turns64]. rewrite geb_f; [reflexivity | assumption..]. }
    assert (Uv : Rabs (rval v) <= P2 1020) by (apply abs_of; lra).
    destruct (down64_step v range lo hi Fv Fr Fl Fh R0 H Uv Ur' C) as [F' B].
    assert (T : Rabs (rval v - rval range) <= P2 52 * rval range) by (apply abs_of; lra).
    assert (P : rval (sf_sub v range) <= rval v - rval range / 2).
    { assert (T' : Rabs (rval v - rval range) <= P2 1023) by (eapply Rle_trans; [exact T |]; eapply Rle_trans; [exact Ur | apply P2_mono; lia]).
      pose proof (sub_err v range Fv Fr T') as Er. change (SFsub 53 1024 v range) with (sf_sub v range) in Er. apply abs_le in Er.
      assert (P2 (-53) * Rabs (rval v - rval range) <= rval range / 2).
      { apply Rle_trans with (P2 (-53) * (P2 52 * rval range)); [apply Rmult_le_compat_l; [apply Rlt_le, P2_pos | exact T] |].
        rewrite <- Rmult_assoc, <- P2_add. change (-53 + 52)%Z with (-1)%Z. change (P2 (-1)) with (/ (2 * 1)). lra. }
      lra. }
    destruct (IH (sf_sub v range) F') as [w W]; [lra | lra | rewrite S_INR in M; lra |].
    exists w. intros [| f] K; [lia |]. cbn [down_turns64]. rewrite geb_t by assumption. apply W. lia.
Qed.
Lemma nat_above x : exists n : nat, x < INR n.
Proof.
  destruct (archimed x) as [A _]. exists (Z.to_nat (up x)). destruct (Z.le_gt_cases 0 (up x)) as [C | C].
  - rewrite INR_IZR_INZ, Z2Nat.id by exact C. lra.
  - apply (IZR_lt _ 0) in C. eapply Rlt_le_trans; [| apply pos_INR]. lra.
Qed.
Lemma exact_range lo hi : finite64 lo -> finite64 hi -> representable (rval hi - rval lo) -> Rabs (rval hi) <= P2 1020 -> Rabs (rval lo) <= P2 1020 ->
  finite64 (sf_sub hi lo) /\ rval (sf_sub hi lo) = rval hi - rval lo.
Proof.
  intros Fl Fh R Uh Ul. assert (U : Rabs (rval hi - rval lo) <= P2 1023).
  { apply abs_le in Uh. apply abs_le in Ul. apply abs_of. change 1023%Z with (1020 + 1 + 1 + 1)%Z. rewrite !P2_succ. pose proof (P2_pos 1020). lra. }
  destruct (SFsub_rounded hi lo Fh Fl U) as [N _]. split; [exact (proj1 N) | exact (nearest_exact _ _ N R)].
Qed.
(** Whatever is returned is in the range. *)
Lemma reduce64_lands fuel v lo hi w : finite64 v -> finite64 lo -> finite64 hi -> rval lo < rval hi -> representable (rval hi - rval lo) ->
  Rabs (rval v) <= P2 1000 -> Rabs (rval lo) <= P2 1000 -> Rabs (rval hi) <= P2 1000 ->
  ReduceRange64 fuel v lo hi = Ok w -> finite64 w /\ rval lo <= rval w < rval hi.
Proof.
  intros Fv Fl Fh L R Uv Ul Uh E. unfold ReduceRange64 in E.
  assert (Q : 8 * P2 1000 <= P2 1020).
  { apply Rle_trans with (P2 1003); [| apply P2_mono; lia]. change 1003%Z with (1000 + 1 + 1 + 1)%Z. rewrite !P2_succ. lra. }
  pose proof (P2_pos 1000) as Q0.
  assert (Uh' : Rabs (rval hi) <= P2 1020) by lra. assert (Ul' : Rabs (rval lo) <= P2 1020) by lra.
  destruct (exact_range lo hi Fl Fh R Uh' Ul') as [Fr Vr]. cbv zeta in E.
  destruct (sf_geb v lo && SFltb v hi) eqn:C.
  - injection E as <-. apply andb_prop in C. destruct C as [C1 C2]. apply geb_val in C1; [| assumption..]. apply SFltb_val in C2; [| assumption..].
    split; [exact Fv | split; assumption].
  - destruct (up_turns64 fuel v (sf_sub hi lo) lo) as [x | |] eqn:E1; cbn [bind] in E; try discriminate.
    assert (Ur : Rabs (rval (sf_sub hi lo)) <= P2 1020) by (rewrite Vr; apply abs_le in Uh; apply abs_le in Ul; apply abs_of; lra).
    destruct (up64_lands (sf_sub hi lo) lo hi Fr Fl Fh ltac:(lra) ltac:(lra) Uh' Ur fuel v x Fv ltac:(lra) E1) as (Fx & Lx & Ux).
    apply (down64_lands (sf_sub hi lo) lo hi Fr Fl Fh ltac:(lra) ltac:(lra) Ul' Ur fuel x w Fx Lx Ux E).
Qed.
Lemma IZR52 : IZR (2 ^ 52) = P2 52.
Proof. apply P2_Z. lia. Qed.
Lemma c17_double v lo hi : finite64 v -> finite64 lo -> finite64 hi -> rval lo < rval hi -> representable (rval hi - rval lo) ->
  Rabs (rval v) <= IZR (2 ^ 52) * (rval hi - rval lo) -> Rabs (rval lo) <= IZR (2 ^ 52) * (rval hi - rval lo) ->
  Rabs (rval hi) <= IZR (2 ^ 52) * (rval hi - rval lo) -> rval hi - rval lo <= IZR (2 ^ 900) ->
  exists w, returns (fun fuel => ReduceRange64 fuel v lo hi) w /\ finite64 w /\ rval lo <= rval w < rval hi.
Proof.
  rewrite IZR52. intros Fv Fl Fh L R Uv Ul Uh Ur. rewrite P2_Z in Ur by lia. set (r := rval hi - rval lo) in *.
  assert (B : P2 52 * r <= P2 1000).
  { apply Rle_trans with (P2 52 * P2 900); [apply Rmult_le_compat_l; [apply Rlt_le, P2_pos | exact Ur] |]. rewrite <- P2_add. apply P2_mono. lia. }
  pose proof (P2_mono 1000 1020 ltac:(lia)) as B'.
  assert (K : exists w, returns (fun fuel => ReduceRange64 fuel v lo hi) w).
  2: { destruct K as [w W]. exists w. split; [exact W |]. destruct W as [n W]. apply (reduce64_lands n v lo hi w Fv Fl Fh L R); try lra. apply W. lia. }
  destruct (exact_range lo hi Fl Fh R ltac:(lra) ltac:(lra)) as [Fr Vr]. fold r in Vr.
  assert (r0 : 0 < r) by (unfold r; lra).
  assert (Hh : rval hi = rval lo + rval (sf_sub hi lo)) by (unfold r in Vr; lra).
  apply abs_le in Uv.
  destruct (nat_above ((rval lo - rval v) / (r / 2))) as [n1 N1].
  destruct (up64_ends (sf_sub hi lo) lo hi Fr Fl Fh ltac:(lra) Hh ltac:(rewrite Vr; lra) ltac:(rewrite Vr; exact Uh) n1 v Fv) as [w1 W1].
  { rewrite Vr. lra. } { rewrite Vr. lra. }
  { rewrite Vr. apply Rmult_lt_compat_r with (r := r / 2) in N1; [| lra]. unfold Rdiv at 1 in N1. rewrite Rmult_assoc, Rinv_l in N1 by lra. lra. }
  assert (Lx : finite64 w1 /\ rval lo <= rval w1 /\ Rabs (rval w1) <= P2 1020).
  { apply (up64_lands (sf_sub hi lo) lo hi Fr Fl Fh ltac:(lra) Hh ltac:(lra) ltac:(rewrite Vr, Rabs_right by lra; pose proof (P2_mono 900 1020 ltac:(lia)); lra) (S n1) v w1 Fv).
    - apply abs_of. lra.
    - apply W1. lia. }
  assert (Lx2 : rval w1 <= P2 52 * r).
  { (* either v or at most hi *)
    assert (X : forall n x y, up_turns64 n x (sf_sub hi lo) lo = Ok y -> finite64 x -> - (P2 52 * r) <= rval x <= P2 52 * r -> rval y <= P2 52 * r).
    { induction n as [| n IH]; intros x y E Fx Ux; [discriminate |]. cbn [up_turns64] in E. destruct (Rlt_le_dec (rval x) (rval lo)) as [C | C].
      - rewrite ltb_t in E by assumption.
        destruct (up64_step x (sf_sub hi lo) lo hi Fx Fr Fl Fh ltac:(lra) Hh ltac:(apply abs_of; lra) ltac:(rewrite Vr, Rabs_right by lra; pose proof (P2_mono 900 1020 ltac:(lia)); lra) C) as [F' Bx].
        apply (IH _ _ E F'). apply abs_le in Uh. lra.
      - rewrite ltb_f in E by assumption. injection E as <-. lra. }
    apply (X (S n1) v w1); [apply W1; lia | exact Fv | lra]. }
  destruct Lx as (Fx & Lx & Ux).
  destruct (nat_above ((rval w1 - rval hi) / (r / 2))) as [n2 N2].
  destruct (down64_ends (sf_sub hi lo) lo hi Fr Fl Fh ltac:(lra) Hh ltac:(rewrite Vr; lra) ltac:(rewrite Vr; exact Ul) n2 w1 Fx Lx) as [w2 W2].
  { rewrite Vr. lra. }
  { rewrite Vr. apply Rmult_lt_compat_r with (r := r / 2) in N2; [| lra]. unfold Rdiv at 1 in N2. rewrite Rmult_assoc, Rinv_l in N2 by lra. lra. }
  unfold returns, ReduceRange64. destruct (sf_geb v lo && SFltb v hi).
  - exists v, 0%nat. reflexivity.
  - exists w2, (S n1 + S n2)%nat. intros fuel K. cbv zeta. rewrite W1 by lia. cbn [bind]. apply W2. lia.
Qed.
