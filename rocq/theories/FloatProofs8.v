(** Angles in double precision: how far the results are from the exact ones. *)

From Coq Require Import List Bool Arith ZArith Reals Lra Lia Floats.SpecFloat.
From Verif Require Import Result AngleModel AngleSpec FloatSpec FloatProofs FloatProofs2 FloatModel FloatProofs3 FloatProofs4 FloatProofs5.
Local Open Scope R_scope.

(** *** The loops *)
Lemma e53_pos : 0 < e53 <= / 1024.
Proof. unfold e53. lra. Qed.
Lemma up_once v r B : finite64 v -> finite64 r -> 0 <= rval r -> Rabs (rval v + rval r) <= B -> B <= P2 1023 ->
  finite64 (sf_add v r) /\ nearest64 (rval v + rval r) (sf_add v r) /\ rval v <= rval (sf_add v r) /\ Rabs (rval (sf_add v r) - (rval v + rval r)) <= e53 * B.
Proof.
  intros Fv Fr R0 HB U. assert (U' : Rabs (rval v + rval r) <= P2 1023) by lra.
  destruct (SFadd_rounded v r Fv Fr U') as [N _]. pose proof (add_err v r Fv Fr U') as E. rewrite e53_P2 in E. change (SFadd 53 1024 v r) with (sf_add v r) in *.
  split; [exact (proj1 N) |]. split; [exact N |]. split; [apply (nearest_below _ _ v N Fv); lra |]. eapply Rle_trans; [exact E |]. apply Rmult_le_compat_l; [pose proof e53_pos; lra | exact HB].
Qed.
Lemma down_once v r B : finite64 v -> finite64 r -> 0 <= rval r -> Rabs (rval v - rval r) <= B -> B <= P2 1023 ->
  finite64 (sf_sub v r) /\ nearest64 (rval v - rval r) (sf_sub v r) /\ rval (sf_sub v r) <= rval v /\ Rabs (rval (sf_sub v r) - (rval v - rval r)) <= e53 * B.
Proof.
  intros Fv Fr R0 HB U. assert (U' : Rabs (rval v - rval r) <= P2 1023) by lra.
  destruct (SFsub_rounded v r Fv Fr U') as [N _]. pose proof (sub_err v r Fv Fr U') as E. rewrite e53_P2 in E. change (SFsub 53 1024 v r) with (sf_sub v r) in *.
  split; [exact (proj1 N) |]. split; [exact N |]. split; [apply (nearest_above _ _ v N Fv); lra |]. eapply Rle_trans; [exact E |]. apply Rmult_le_compat_l; [pose proof e53_pos; lra | exact HB].
Qed.
(** [c]: what any value below [lo] is taken to by one step at most. *)
Lemma up_drift r lo hi B : finite64 r -> finite64 lo -> finite64 hi -> 0 <= rval r -> Rabs (rval lo) + rval r <= B -> B <= P2 1023 ->
  forall fuel v w, finite64 v -> Rabs (rval v) + rval r <= B -> up_turns64 fuel v r lo = Ok w ->
  finite64 w /\ exists n : nat, Rabs (rval w - (rval v + INR n * rval r)) <= INR n * (e53 * B) /\ (n = O -> w = v) /\ rval v <= rval w /\
    (n <> O -> rval w <= rval (sf_add lo r)).
Proof.
  intros Fr Fl Fh R0 BL BU fuel. induction fuel as [| f IH]; intros v w Fv BV E; [discriminate |]. cbn [up_turns64] in E.
  destruct (Rlt_le_dec (rval v) (rval lo)) as [C | C].
  - rewrite ltb_t in E by assumption.
    assert (SV : Rabs (rval v + rval r) <= B) by (eapply Rle_trans; [apply Rabs_triang |]; rewrite (Rabs_right (rval r)) by lra; exact BV).
    destruct (up_once v r B Fv Fr R0 SV BU) as (F1 & N1 & M1 & E1).
    assert (SL : Rabs (rval lo + rval r) <= B) by (eapply Rle_trans; [apply Rabs_triang |]; rewrite (Rabs_right (rval r)) by lra; exact BL).
    destruct (up_once lo r B Fl Fr R0 SL BU) as (F2 & N2 & M2 & E2).
    assert (TOP : rval (sf_add v r) <= rval (sf_add lo r)) by (apply (nearest_mono _ _ _ _ N1 N2); lra).
    destruct f as [| f]; [discriminate |].
    destruct (Rlt_le_dec (rval (sf_add v r)) (rval lo)) as [C2 | C2].
    + assert (BV' : Rabs (rval (sf_add v r)) + rval r <= B).
      { assert (Rabs (rval (sf_add v r)) <= Rmax (Rabs (rval v)) (Rabs (rval lo))).
        { pose proof (Rmax_l (Rabs (rval v)) (Rabs (rval lo))). pose proof (Rmax_r (Rabs (rval v)) (Rabs (rval lo))). apply abs_of.
          pose proof (Rle_abs (rval lo)). pose proof (Rle_abs (- rval v)) as Q. rewrite Rabs_Ropp in Q. lra. }
        assert (Rmax (Rabs (rval v)) (Rabs (rval lo)) + rval r <= B) by (apply Rmax_case; assumption). lra. }
      destruct (IH _ _ F1 BV' E) as [Fw (n & D & Z & M & T)]. split; [exact Fw |]. exists (S n). rewrite S_INR. split; [| split; [| split]].
      * apply abs_le in D. apply abs_le in E1. apply abs_of. lra.
      * discriminate.
      * lra.
      * intros _. destruct n as [| n]; [rewrite Z by reflexivity; exact TOP | apply T; discriminate].
    + cbn [up_turns64] in E. rewrite ltb_f in E by assumption. injection E as <-. split; [exact F1 |]. exists 1%nat. change (INR 1) with 1. split; [| split; [| split]].
      * rewrite !Rmult_1_l. exact E1.
      * discriminate.
      * exact M1.
      * intros _. exact TOP.
  - rewrite ltb_f in E by assumption. injection E as <-. split; [exact Fv |]. exists O. change (INR 0) with 0. rewrite !Rmult_0_l, Rplus_0_r. split; [| split; [| split]].
    + replace (rval v - rval v) with 0 by ring. rewrite Rabs_R0. lra.
    + reflexivity.
    + lra.
    + intros H. congruence.
Qed.
Lemma down_drift r hi B : finite64 r -> finite64 hi -> 0 <= rval r -> Rabs (rval hi) + rval r <= B -> B <= P2 1023 ->
  forall fuel v w, finite64 v -> Rabs (rval v) + rval r <= B -> down_turns64 fuel v r hi = Ok w ->
  finite64 w /\ exists n : nat, Rabs (rval w - (rval v - INR n * rval r)) <= INR n * (e53 * B) /\
    (rval v < rval hi -> n = O) /\ (rval hi <= rval v -> rval (sf_sub v r) < rval hi -> n = 1%nat).
Proof.
  intros Fr Fh R0 BH BU fuel. induction fuel as [| f IH]; intros v w Fv BV E; [discriminate |]. cbn [down_turns64] in E.
  destruct (Rlt_le_dec (rval v) (rval hi)) as [C | C].
  - rewrite geb_f in E by assumption. injection E as <-. split; [exact Fv |]. exists O. change (INR 0) with 0. rewrite !Rmult_0_l, Rminus_0_r. split; [| split].
    + replace (rval v - rval v) with 0 by ring. rewrite Rabs_R0. lra.
    + reflexivity.
    + intros. lra.
  - rewrite geb_t in E by assumption.
    assert (SV : Rabs (rval v - rval r) <= B) by (unfold Rminus; eapply Rle_trans; [apply Rabs_triang |]; rewrite Rabs_Ropp, (Rabs_right (rval r)) by lra; exact BV).
    destruct (down_once v r B Fv Fr R0 SV BU) as (F1 & N1 & M1 & E1).
    destruct f as [| f]; [discriminate |].
    destruct (Rlt_le_dec (rval (sf_sub v r)) (rval hi)) as [C2 | C2].
    + cbn [down_turns64] in E. rewrite geb_f in E by assumption. injection E as <-. split; [exact F1 |]. exists 1%nat. change (INR 1) with 1. split; [| split].
      * rewrite !Rmult_1_l. exact E1.
      * intros. lra.
      * reflexivity.
    + assert (BV' : Rabs (rval (sf_sub v r)) + rval r <= B).
      { assert (Rabs (rval (sf_sub v r)) <= Rmax (Rabs (rval v)) (Rabs (rval hi))).
        { pose proof (Rmax_l (Rabs (rval v)) (Rabs (rval hi))). pose proof (Rmax_r (Rabs (rval v)) (Rabs (rval hi))). apply abs_of.
          pose proof (Rle_abs (rval v)). pose proof (Rle_abs (- rval hi)) as Q. rewrite Rabs_Ropp in Q. lra. }
        assert (Rmax (Rabs (rval v)) (Rabs (rval hi)) + rval r <= B) by (apply Rmax_case; assumption). lra. }
      destruct (IH _ _ F1 BV' E) as [Fw (n & D & Z & _)]. split; [exact Fw |]. exists (S n). rewrite S_INR. split; [| split].
      * apply abs_le in D. apply abs_le in E1. apply abs_of. lra.
      * intros. lra.
      * intros _ H. lra.
Qed.

(** *** Range reduction keeps the angle *)
Lemma reduce64_drift fuel v lo hi w S : finite64 v -> finite64 lo -> finite64 hi -> rval lo < rval hi ->
  S = Rabs (rval v) + Rabs (rval lo) + Rabs (rval hi) -> S <= P2 1000 -> ReduceRange64 fuel v lo hi = Ok w ->
  finite64 w /\ exists k : Z, Rabs (rval w - (rval v + IZR k * (rval hi - rval lo))) <= (IZR (Z.abs k) + 2) * (6 * e53 * S).
Proof.
  intros Fv Fl Fh L ES SB E. pose proof e53_pos as e0.
  pose proof (Rabs_pos (rval v)) as A1. pose proof (Rabs_pos (rval lo)) as A2. pose proof (Rabs_pos (rval hi)) as A3.
  assert (S0 : 0 <= S) by lra. pose proof (P2_mono 1000 1021 ltac:(lia)) as MM. pose proof (P2_succ 1021) as X1. pose proof (P2_succ (1021 + 1)) as X2. change (1021 + 1 + 1)%Z with 1023%Z in X2.
  assert (D0 : 0 < rval hi - rval lo <= S).
  { split; [lra |]. pose proof (Rle_abs (rval hi)). pose proof (Rle_abs (- rval lo)) as Q. rewrite Rabs_Ropp in Q. lra. }
  assert (UD : Rabs (rval hi - rval lo) <= P2 1023) by (rewrite Rabs_right by lra; lra).
  pose proof (proj1 (proj1 (SFsub_rounded hi lo Fh Fl UD))) as Fr. pose proof (sub_err hi lo Fh Fl UD) as Er. rewrite e53_P2, (Rabs_right (rval hi - rval lo)) in Er by lra.
  change (SFsub 53 1024 hi lo) with (sf_sub hi lo) in *. set (r := sf_sub hi lo) in *. apply abs_le in Er as Er'.
  assert (ED : e53 * (rval hi - rval lo) <= (rval hi - rval lo) / 1024) by nra.
  assert (R0 : 0 < rval r <= 9 / 8 * S) by lra.
  set (B := 4 * S). assert (BB : B <= P2 1023) by (unfold B; lra).
  unfold ReduceRange64 in E. destruct (sf_geb v lo && SFltb v hi) eqn:IN.
  - injection E as <-. split; [exact Fv |]. exists 0%Z. rewrite Rmult_0_l, Rplus_0_r. replace (rval v - rval v) with 0 by ring. rewrite Rabs_R0. cbn [Z.abs].
    assert (0 <= 6 * e53 * S) by (apply Rmult_le_pos; lra). lra.
  - cbv zeta in E. fold r in E. destruct (up_turns64 fuel v r lo) as [x | |] eqn:E1; cbn [bind] in E; try discriminate.
    destruct (up_drift r lo hi B Fr Fl Fh ltac:(lra) ltac:(unfold B; lra) BB fuel v x Fv ltac:(unfold B; lra) E1) as [Fx (n & D1 & Z1 & M1 & T1)].
    (* where the first loop ends *)
    assert (SL : Rabs (rval lo + rval r) <= 5 / 2 * S) by (eapply Rle_trans; [apply Rabs_triang |]; rewrite (Rabs_right (rval r)) by lra; lra).
    destruct (up_once lo r (5 / 2 * S) Fl Fr ltac:(lra) SL ltac:(lra)) as (F2 & N2 & M2 & E2).
    assert (NH : Rabs (rval (sf_add lo r) - (rval lo + rval r)) <= e53 * (rval hi - rval lo)).
    { eapply Rle_trans; [apply (proj2 N2 hi Fh) |]. replace (rval hi - (rval lo + rval r)) with (- (rval r - (rval hi - rval lo))) by ring. rewrite Rabs_Ropp. exact Er. }
    apply abs_le in NH.
    assert (XB : Rabs (rval x) + rval r <= B).
    { destruct n as [| n]; [rewrite Z1 by reflexivity; unfold B; lra |]. specialize (T1 ltac:(discriminate)).
      pose proof (Rle_abs (rval lo)). pose proof (Rle_abs (- rval v)) as Q. rewrite Rabs_Ropp in Q.
      assert (Rabs (rval x) <= 5 / 2 * S) by (apply abs_of; lra). unfold B. lra. }
    destruct (down_drift r hi B Fr Fh ltac:(lra) ltac:(unfold B; lra) BB fuel x w Fx XB E) as [Fw (m & D2 & Z2 & O2)].
    split; [exact Fw |]. exists (Z.of_nat n - Z.of_nat m)%Z. rewrite minus_IZR, <- !INR_IZR_INZ.
    assert (NM : INR n + INR m <= IZR (Z.abs (Z.of_nat n - Z.of_nat m)) + 2).
    { destruct n as [| n].
      - rewrite Z.abs_neq by lia. rewrite opp_IZR, minus_IZR, <- !INR_IZR_INZ. change (INR 0) with 0. lra.
      - assert (M1' : (m <= 1)%nat).
        { specialize (T1 ltac:(discriminate)). destruct (Rlt_le_dec (rval x) (rval hi)) as [C | C]; [rewrite (Z2 C); lia |].
          rewrite O2; [lia | exact C |].
          assert (US : Rabs (rval x - rval r) <= P2 1023).
          { unfold Rminus. eapply Rle_trans; [apply Rabs_triang |]. rewrite Rabs_Ropp, (Rabs_right (rval r)) by lra. lra. }
          pose proof (proj2 (proj1 (SFsub_rounded x r Fx Fr US)) lo Fl) as Q. change (SFsub 53 1024 x r) with (sf_sub x r) in Q.
          assert (QB : Rabs (rval lo - (rval x - rval r)) <= (rval hi - rval lo) / 64) by (apply abs_of; lra).
          assert (Q' : Rabs (rval (sf_sub x r) - (rval x - rval r)) <= (rval hi - rval lo) / 64) by lra. apply abs_le in Q'. apply abs_le in QB. lra. }
        assert (INR m <= 1) by (apply (le_INR m 1); exact M1').
        rewrite Z.abs_eq by lia. rewrite minus_IZR, <- !INR_IZR_INZ. lra. }
    set (K := IZR (Z.abs (Z.of_nat n - Z.of_nat m)) + 2) in *.
    pose proof (pos_INR n) as n0. pose proof (pos_INR m) as m0.
    assert (T : Rabs (rval w - (rval v + (INR n - INR m) * (rval hi - rval lo))) <= (INR n + INR m) * (e53 * B + e53 * (rval hi - rval lo))).
    { set (d := rval hi - rval lo) in *. apply abs_le in D1. apply abs_le in D2.
      assert (En : Rabs (INR n * (rval r - d)) <= INR n * (e53 * d)) by (rewrite Rabs_mult, (Rabs_right (INR n)) by lra; apply Rmult_le_compat_l; assumption).
      assert (Em : Rabs (INR m * (rval r - d)) <= INR m * (e53 * d)) by (rewrite Rabs_mult, (Rabs_right (INR m)) by lra; apply Rmult_le_compat_l; assumption).
      apply abs_le in En. apply abs_le in Em. apply abs_of. lra. }
    eapply Rle_trans; [exact T |].
    assert (G : e53 * B + e53 * (rval hi - rval lo) <= 6 * e53 * S) by (unfold B; nra).
    apply Rmult_le_compat; [lra | | exact NM | exact G]. assert (0 <= e53 * B) by (unfold B; apply Rmult_le_pos; lra). assert (0 <= e53 * (rval hi - rval lo)) by (apply Rmult_le_pos; lra). lra.
Qed.
Lemma c120_congruent fuel v lo hi w : finite64 v -> finite64 lo -> finite64 hi -> rval lo < rval hi ->
  Rabs (rval v) <= powerRZ 2 900 -> Rabs (rval lo) <= powerRZ 2 900 -> Rabs (rval hi) <= powerRZ 2 900 -> ReduceRange64 fuel v lo hi = Ok w ->
  exists k : Z, Rabs (rval w - (rval v + IZR k * (rval hi - rval lo))) <=
    (IZR (Z.abs k) + 2) * (powerRZ 2 (-50) * (Rabs (rval v) + Rabs (rval lo) + Rabs (rval hi))).
Proof.
  intros Fv Fl Fh L Uv Ul Uh E. change (powerRZ 2) with P2 in *.
  destruct (reduce64_drift fuel v lo hi w _ Fv Fl Fh L eq_refl) as [_ [k K]]; [| exact E |].
  - pose proof (P2_succ 900) as X1. pose proof (P2_succ (900 + 1)) as X2. pose proof (P2_mono (900 + 1 + 1) 1000 ltac:(lia)). pose proof (P2_pos 900). lra.
  - exists k. eapply Rle_trans; [exact K |]. assert (0 <= IZR (Z.abs k)) by (apply (IZR_le 0); lia). apply Rmult_le_compat_l; [lra |]. apply Rmult_le_compat_r.
    { pose proof (Rabs_pos (rval v)). pose proof (Rabs_pos (rval lo)). pose proof (Rabs_pos (rval hi)). lra. }
    rewrite P2_m by lia. change (2 ^ (- -50))%Z with 1125899906842624%Z. unfold e53. lra.
Qed.

(** *** Equal angles are nearly congruent *)
Lemma turn64_rel u : u <> UUndefined -> exists t, turn64 u = Ok t /\ finite64 t /\ rel e53 (rval t) (units_per_turn u) /\ 1 <= units_per_turn u <= 2097152.
Proof.
  intros U. pose proof pi_digits. destruct u; try congruence; cbn [turn64 units_per_turn]; eexists; (split; [reflexivity |]).
  1: { destruct two_pi64_val as [F V]. split; [exact F |]. split; [| lra]. replace (rval two_pi64) with (2 * rval pi64) by (rewrite V, (proj2 pi64_val); field).
       eapply rel_weak; [| exact (rel_mul _ _ _ _ _ _ (rel_refl 2) pi64_rel)]. unfold e53. lra. }
  all: match goal with |- context [b64_of_Z ?z] => destruct (of_Z_val z ltac:(lia)) as [F V]; split; [exact F |]; split; [| lra]; rewrite V; eapply rel_weak; [| match goal with |- rel _ ?a ?b => replace b with a by lra; apply rel_refl end]; pose proof e53_pos; lra end.
Qed.
(** The comparison after the conversion. *)
Lemma sound_core u x y fuel w : u <> UUndefined -> finite64 x -> finite64 y -> Rabs (rval x) <= P2 950 -> Rabs (rval y) <= P2 950 ->
  (let! turn := turn64 u in let! r := ReduceRange64 fuel y x (sf_add x turn) in Ok (SFeqb x r)) = Ok w -> w = true ->
  exists k : Z, Rabs (rval x - (rval y + IZR k * units_per_turn u)) <= (IZR (Z.abs k) + 2) * (32 * e53 * (Rabs (rval x) + Rabs (rval y) + units_per_turn u)).
Proof.
  intros U Fx Fy Bx By E W. subst w. destruct (turn64_rel u U) as (t & T & Ft & Rt & Bt). rewrite T in E. cbn [bind] in E. pose proof e53_pos as e0.
  set (A := units_per_turn u) in *. destruct Rt as (dt & Vt & Dt). apply abs_le in Dt.
  assert (Tt : Rabs (rval t - A) <= e53 * A).
  { rewrite Vt. replace (A * (1 + dt) - A) with (A * dt) by ring. rewrite Rabs_mult, (Rabs_right A) by lra. rewrite Rmult_comm. apply Rmult_le_compat_r; [lra | apply abs_of; lra]. }
  assert (EA : e53 * A <= A / 1024) by nra. apply abs_le in Tt.
  pose proof (Rabs_pos (rval x)) as x0. pose proof (Rabs_pos (rval y)) as y0.
  assert (A21 : A <= P2 21) by (rewrite <- P2_Z by lia; change (IZR (2 ^ 21)) with 2097152; lra).
  assert (P9 : P2 950 + P2 21 * 2 <= P2 951).
  { pose proof (P2_succ 950) as X1. change (950 + 1)%Z with 951%Z in X1. pose proof (P2_succ 21) as X2. pose proof (P2_mono (21 + 1) 950 ltac:(lia)). lra. }
  assert (ST : Rabs (rval x + rval t) <= Rabs (rval x) + 2 * A) by (eapply Rle_trans; [apply Rabs_triang |]; rewrite (Rabs_right (rval t)) by lra; lra).
  pose proof (P2_mono 951 1023 ltac:(lia)) as M1.
  destruct (up_once x t (Rabs (rval x) + 2 * A) Fx Ft ltac:(lra) ST ltac:(lra)) as (Fh & Nh & Mh & Eh).
  set (hi := sf_add x t) in *.
  destruct (ReduceRange64 fuel y x hi) as [r | |] eqn:ER; cbn [bind] in E; try discriminate. injection E as E.
  destruct (Rle_lt_or_eq_dec _ _ Mh) as [L | L].
  - assert (HB : Rabs (rval hi) <= 2 * (Rabs (rval x) + 2 * A)).
    { apply abs_le in Eh. apply abs_le in ST. apply abs_of. assert (e53 * (Rabs (rval x) + 2 * A) <= (Rabs (rval x) + 2 * A) / 1024) by nra. lra. }
    destruct (reduce64_drift fuel y x hi r _ Fy Fx Fh L eq_refl) as [Fr [k K]]; [| exact ER |].
    { pose proof (P2_succ 951) as X1. pose proof (P2_succ (951 + 1)) as X2. pose proof (P2_mono (951 + 1 + 1) 1000 ltac:(lia)). lra. }
    apply SFeqb_val in E; [| assumption..]. rewrite <- E in K. exists k.
    assert (k0 : 0 <= IZR (Z.abs k)) by (apply (IZR_le 0); lia).
    assert (KA : Rabs (IZR k) = IZR (Z.abs k)) by (symmetry; apply abs_IZR).
    (* hi - x against the turn *)
    assert (DH : Rabs (rval hi - rval x - A) <= 3 * e53 * (Rabs (rval x) + A)).
    { apply abs_le in Eh. apply abs_of. assert (0 <= e53 * Rabs (rval x)) by (apply Rmult_le_pos; lra). lra. }
    assert (KD : Rabs (IZR k * (rval hi - rval x - A)) <= IZR (Z.abs k) * (3 * e53 * (Rabs (rval x) + A))).
    { rewrite Rabs_mult, KA. apply Rmult_le_compat_l; assumption. }
    set (q := IZR (Z.abs k)) in *. set (Sx := Rabs (rval x) + Rabs (rval y) + A) in *.
    assert (Sp : 0 <= Sx) by (unfold Sx; lra).
    assert (S1 : 6 * e53 * (Rabs (rval y) + Rabs (rval x) + Rabs (rval hi)) <= 24 * e53 * Sx).
    { assert (Rabs (rval y) + Rabs (rval x) + Rabs (rval hi) <= 4 * Sx) by (unfold Sx; lra). nra. }
    assert (S2 : 3 * e53 * (Rabs (rval x) + A) <= 3 * e53 * Sx) by (apply Rmult_le_compat_l; [lra | unfold Sx; lra]).
    assert (K1 : (q + 2) * (6 * e53 * (Rabs (rval y) + Rabs (rval x) + Rabs (rval hi))) <= (q + 2) * (24 * e53 * Sx)) by (apply Rmult_le_compat_l; lra).
    assert (K2 : q * (3 * e53 * (Rabs (rval x) + A)) <= (q + 2) * (3 * e53 * Sx)).
    { apply Rmult_le_compat; try lra. apply Rmult_le_pos; lra. }
    assert (K3 : 0 <= (q + 2) * (e53 * Sx)) by (apply Rmult_le_pos; [lra | apply Rmult_le_pos; lra]).
    apply abs_le in K. apply abs_le in KD. apply abs_of. lra.
  - exfalso. (* the range is empty: the loops never end *)
    assert (UD : Rabs (rval hi - rval x) <= P2 1023) by (rewrite L; replace (rval hi - rval hi) with 0 by ring; rewrite Rabs_R0; apply Rlt_le, P2_pos).
    destruct (SFsub_rounded hi x Fh Fx UD) as [Nr _]. pose proof (proj1 Nr) as Fr. change (SFsub 53 1024 hi x) with (sf_sub hi x) in *.
    assert (Vr : rval (sf_sub hi x) = 0).
    { apply (nearest_exact _ _) with (1 := eq_rect _ (fun z => nearest64 z (sf_sub hi x)) Nr 0 ltac:(lra)). exists (S754_zero false). split; [exact I | reflexivity]. }
    set (z := sf_sub hi x) in *.
    assert (STAY : forall v, finite64 v -> Rabs (rval v) <= P2 1023 -> finite64 (sf_add v z) /\ rval (sf_add v z) = rval v /\ finite64 (sf_sub v z) /\ rval (sf_sub v z) = rval v).
    { intros v Fv Bv. assert (Uv : Rabs (rval v + rval z) <= P2 1023) by (rewrite Vr, Rplus_0_r; exact Bv). assert (Uv' : Rabs (rval v - rval z) <= P2 1023) by (rewrite Vr, Rminus_0_r; exact Bv).
      destruct (SFadd_rounded v z Fv Fr Uv) as [N1 _]. destruct (SFsub_rounded v z Fv Fr Uv') as [N2 _]. rewrite Vr, Rplus_0_r in N1. rewrite Vr, Rminus_0_r in N2.
      assert (RV : representable (rval v)) by (exists v; split; [exact Fv | reflexivity]).
      split; [exact (proj1 N1) |]. split; [exact (nearest_exact _ _ N1 RV) |]. split; [exact (proj1 N2) | exact (nearest_exact _ _ N2 RV)]. }
    assert (UP : forall f v, finite64 v -> Rabs (rval v) <= P2 1023 -> rval v < rval x -> up_turns64 f v z x = Err OutOfFuel).
    { induction f as [| f IH]; intros v Fv Bv C; [reflexivity |]. cbn [up_turns64]. rewrite ltb_t by assumption. destruct (STAY v Fv Bv) as (F1 & V1 & _). apply IH; [exact F1 | rewrite V1; exact Bv | rewrite V1; exact C]. }
    assert (DN : forall f v, finite64 v -> Rabs (rval v) <= P2 1023 -> rval hi <= rval v -> down_turns64 f v z hi = Err OutOfFuel).
    { induction f as [| f IH]; intros v Fv Bv C; [reflexivity |]. cbn [down_turns64]. rewrite geb_t by assumption. destruct (STAY v Fv Bv) as (_ & _ & F1 & V1). apply IH; [exact F1 | rewrite V1; exact Bv | rewrite V1; exact C]. }
    assert (By' : Rabs (rval y) <= P2 1023) by (pose proof (P2_mono 950 1023 ltac:(lia)); lra).
    unfold ReduceRange64 in ER. destruct (Rlt_le_dec (rval y) (rval x)) as [C | C].
    + rewrite geb_f in ER by assumption. cbn [andb] in ER. cbv zeta in ER. fold z in ER. rewrite (UP fuel y Fy By' C) in ER. discriminate.
    + rewrite (ltb_f y hi) in ER by (assumption || lra). rewrite andb_false_r in ER. cbv zeta in ER. fold z in ER.
      destruct fuel as [| f]; [discriminate |]. cbn [up_turns64] in ER. rewrite ltb_f in ER by assumption. cbn [bind] in ER. rewrite (DN (S f) y Fy By' ltac:(lra)) in ER. discriminate.
Qed.
Lemma c121_sound fuel u x y : u <> UUndefined -> finite64 x -> finite64 y -> Rabs (rval x) <= powerRZ 2 900 -> Rabs (rval y) <= powerRZ 2 900 ->
  angle_eq64 fuel (mkA64 (Some x) u) (mkA64 (Some y) u) = Ok true ->
  exists k : Z, Rabs (rval x - (rval y + IZR k * units_per_turn u)) <=
    (IZR (Z.abs k) + 2) * (powerRZ 2 (-48) * (Rabs (rval x) + Rabs (rval y) + units_per_turn u)).
Proof.
  intros U Fx Fy Bx By E. change (powerRZ 2) with P2 in *. pose proof (P2_mono 900 950 ltac:(lia)). rewrite eq64_same in E by exact U.
  replace (P2 (-48)) with (32 * e53) by (rewrite P2_m by lia; change (2 ^ (- -48))%Z with 281474976710656%Z; unfold e53; lra).
  apply (sound_core u x y fuel true U Fx Fy ltac:(lra) ltac:(lra) E eq_refl).
Qed.
Lemma c121_sound_units fuel u u' x y : u <> UUndefined -> u' <> UUndefined -> u <> u' -> finite64 x -> finite64 y ->
  Rabs (rval x) <= powerRZ 2 900 -> powerRZ 2 (-900) <= Rabs (rval y) <= powerRZ 2 900 ->
  angle_eq64 fuel (mkA64 (Some x) u) (mkA64 (Some y) u') = Ok true ->
  exists k : Z, Rabs (rval x - (rval y * units_per_turn u / units_per_turn u' + IZR k * units_per_turn u)) <=
    (IZR (Z.abs k) + 2) * (powerRZ 2 (-47) * (Rabs (rval x) + Rabs (rval y * units_per_turn u / units_per_turn u') + units_per_turn u)).
Proof.
  intros U U' UU Fx Fy Bx By E. change (powerRZ 2) with P2 in *. pose proof e53_pos as e0.
  pose proof (P2_mono (-950) (-900) ltac:(lia)). pose proof (P2_mono 900 950 ltac:(lia)).
  destruct (in64_rel u' u y U' U Fy ltac:(lra)) as (w & W & Fw & R).
  unfold angle_eq64 in E. cbn [aunit64 aval64] in E. apply unit_eqb_undef in U as Ue. apply unit_eqb_undef in U' as Ue'. rewrite Ue, Ue' in E. cbn [orb] in E.
  unfold converted64 in E. cbn [aunit64] in E. replace (unit_eqb u u') with false in E by (destruct u, u'; try reflexivity; congruence).
  rewrite W in E. cbn [bind need64] in E.
  assert (E8 : 8 * e53 <= / 2) by (unfold e53; lra). pose proof (rel_size _ _ _ E8 R) as Sz. set (Y := rval y * units_per_turn u / units_per_turn u') in *.
  destruct (turn64_rel u U) as (t & T & Ft & Rt & Bt). destruct (turn64_rel u' U') as (t' & _ & _ & _ & Bt').
  assert (YB : Rabs Y <= P2 921).
  { unfold Y, Rdiv. rewrite Rabs_mult, Rabs_mult, Rabs_inv, (Rabs_right (units_per_turn u)), (Rabs_right (units_per_turn u')) by lra.
    assert (I1 : / units_per_turn u' <= 1) by (rewrite <- Rinv_1; apply Rinv_le_contravar; lra). assert (I0 : 0 < / units_per_turn u') by (apply Rinv_0_lt_compat; lra).
    pose proof (P2_pos 900). pose proof (P2_pos 21). assert (A21 : units_per_turn u <= P2 21) by (rewrite <- P2_Z by lia; change (IZR (2 ^ 21)) with 2097152; lra).
    change 921%Z with (900 + 21)%Z. rewrite P2_add, <- (Rmult_1_r (P2 900 * P2 21)). pose proof (Rabs_pos (rval y)).
    apply Rmult_le_compat; try lra; [apply Rmult_le_pos; lra | apply Rmult_le_compat; lra]. }
  assert (WB : Rabs (rval w) <= P2 950) by (pose proof (P2_succ 921) as X; pose proof (P2_mono (921 + 1) 950 ltac:(lia)); lra).
  destruct (sound_core u x w fuel true U Fx Fw ltac:(lra) WB) as [k K]; [exact E | reflexivity |]. exists k.
  replace (P2 (-47)) with (64 * e53) by (rewrite P2_m by lia; change (2 ^ (- -47))%Z with 140737488355328%Z; unfold e53; lra).
  apply rel_abs in R. assert (k0 : 0 <= IZR (Z.abs k)) by (apply (IZR_le 0); lia). set (q := IZR (Z.abs k)) in *.
  pose proof (Rabs_pos (rval x)) as x0. pose proof (Rabs_pos Y) as Y0.
  set (Sx := Rabs (rval x) + Rabs Y + units_per_turn u).
  assert (W1 : Rabs (rval w) <= 9 / 8 * Rabs Y).
  { replace (rval w) with ((rval w - Y) + Y) by ring. eapply Rle_trans; [apply Rabs_triang |]. assert (8 * e53 * Rabs Y <= Rabs Y / 8) by nra. lra. }
  assert (K1 : (q + 2) * (32 * e53 * (Rabs (rval x) + Rabs (rval w) + units_per_turn u)) <= (q + 2) * (36 * e53 * Sx)).
  { apply Rmult_le_compat_l; [lra |]. replace (36 * e53 * Sx) with (32 * e53 * (9 / 8 * Sx)) by field. apply Rmult_le_compat_l; [lra |]. unfold Sx. lra. }
  assert (K2 : 8 * e53 * Rabs Y <= (q + 2) * (4 * e53 * Sx)).
  { apply Rle_trans with (2 * (4 * e53 * Sx)); [| apply Rmult_le_compat_r; [| lra]].
    - replace (2 * (4 * e53 * Sx)) with (8 * e53 * Sx) by ring. apply Rmult_le_compat_l; [lra | unfold Sx; lra].
    - apply Rmult_le_pos; [lra | unfold Sx; lra]. }
  assert (K3 : 0 <= (q + 2) * (e53 * Sx)) by (apply Rmult_le_pos; [lra | apply Rmult_le_pos; unfold Sx; lra]).
  apply abs_le in K. apply abs_le in R. apply abs_of. lra.
Qed.

(** *** Near angles *)
Lemma c121_near_sound fuel a b tol x y t : in64 a Degree = Ok x -> in64 b Degree = Ok y -> in64 tol Degree = Ok t -> finite64 x -> finite64 y -> finite64 t ->
  Rabs (rval x) <= powerRZ 2 900 -> Rabs (rval y) <= powerRZ 2 900 -> Rabs (rval t) <= powerRZ 2 900 -> isNear64 fuel a b tol = Ok true ->
  exists k k' : Z, Rabs ((rval x + IZR k * 360) - (rval y + IZR k' * 360)) <=
    Rabs (rval t) + (IZR (Z.abs k) + IZR (Z.abs k') + 8) * (powerRZ 2 (-50) * (Rabs (rval x) + Rabs (rval y) + 360)).
Proof.
  intros A B T Fx Fy Ft Bx By Bt E. change (powerRZ 2) with P2 in *. pose proof e53_pos as e0.
  replace (P2 (-50)) with (8 * e53) by (rewrite P2_m by lia; unfold e53; change (2 ^ (- -50))%Z with 1125899906842624%Z; lra).
  assert (DA : isDefined64 a = true) by (unfold in64 in A; destruct (isDefined64 a); [reflexivity | discriminate]).
  assert (DB : isDefined64 b = true) by (unfold in64 in B; destruct (isDefined64 b); [reflexivity | discriminate]).
  assert (DT : isDefined64 tol = true) by (unfold in64 in T; destruct (isDefined64 tol); [reflexivity | discriminate]).
  unfold isNear64 in E. rewrite DA, DB, DT, A in E. cbn [negb orb bind] in E.
  destruct (of_Z_val 360 ltac:(lia)) as [F3 V3].
  destruct (ReduceRange64 fuel x zero64 (b64_of_Z 360)) as [n1 | |] eqn:E1; cbn [bind] in E; try discriminate. rewrite B in E. cbn [bind] in E.
  destruct (ReduceRange64 fuel y zero64 (b64_of_Z 360)) as [n2 | |] eqn:E2; cbn [bind] in E; try discriminate. rewrite T in E. cbn [bind] in E. apply (f_equal (fun r => match r with Ok c => c | _ => false end)) in E.
  assert (R0 : rval zero64 = 0) by reflexivity. assert (F0 : finite64 zero64) by exact I.
  assert (RP : representable (rval (b64_of_Z 360) - rval zero64)) by (rewrite V3, R0, Rminus_0_r; apply integer_representable; lia).
  assert (L : rval zero64 < rval (b64_of_Z 360)) by (rewrite V3, R0; lra).
  pose proof (P2_mono 900 999 ltac:(lia)) as M9. pose proof (P2_mono 9 999 ltac:(lia)) as M8. rewrite <- (P2_Z 9) in M8 by lia. change (IZR (2 ^ 9)) with 512 in M8.
  pose proof (P2_succ 999) as X9. change (999 + 1)%Z with 1000%Z in X9.
  assert (Z0 : Rabs (rval zero64) <= P2 1000) by (rewrite R0, Rabs_R0; lra). assert (Z3 : Rabs (rval (b64_of_Z 360)) <= P2 1000) by (rewrite V3, Rabs_right by lra; lra).
  destruct (reduce64_lands fuel x zero64 (b64_of_Z 360) n1 Fx F0 F3 L RP ltac:(lra) Z0 Z3 E1) as [Fn1 Bn1].
  destruct (reduce64_lands fuel y zero64 (b64_of_Z 360) n2 Fy F0 F3 L RP ltac:(lra) Z0 Z3 E2) as [Fn2 Bn2].
  destruct (reduce64_drift fuel x zero64 (b64_of_Z 360) n1 _ Fx F0 F3 L eq_refl) as [_ [k K]]; [rewrite V3, R0, Rabs_R0, (Rabs_right 360) by lra; lra | exact E1 |].
  destruct (reduce64_drift fuel y zero64 (b64_of_Z 360) n2 _ Fy F0 F3 L eq_refl) as [_ [k' K']]; [rewrite V3, R0, Rabs_R0, (Rabs_right 360) by lra; lra | exact E2 |].
  rewrite V3, R0 in *. rewrite Rabs_R0, (Rabs_right 360), Rminus_0_r in K, K' by lra.
  assert (UD : Rabs (rval n2 - rval n1) <= P2 1023) by (pose proof (P2_mono 1000 1023 ltac:(lia)); apply abs_of; lra).
  pose proof (proj1 (proj1 (SFsub_rounded n2 n1 Fn2 Fn1 UD))) as FD. pose proof (sub_err n2 n1 Fn2 Fn1 UD) as ED. rewrite e53_P2 in ED. change (SFsub 53 1024 n2 n1) with (sf_sub n2 n1) in *.
  destruct (abs_val _ FD) as [Fd Vd]. destruct (abs_val _ Ft) as [Ft' Vt]. set (d := SFabs (sf_sub n2 n1)) in *.
  assert (DD : Rabs (rval n2 - rval n1) <= 360) by (apply abs_of; lra).
  assert (Ed : Rabs (rval d - Rabs (rval n2 - rval n1)) <= 360 * e53).
  { rewrite Vd. eapply Rle_trans; [apply Rabs_triang_inv2 |]. eapply Rle_trans; [exact ED |]. rewrite (Rmult_comm 360). apply Rmult_le_compat_l; lra. }
  apply abs_le in Ed. pose proof (Rabs_pos (rval n2 - rval n1)) as D0.
  pose proof (Rabs_pos (rval x)) as x0. pose proof (Rabs_pos (rval y)) as y0.
  set (S := Rabs (rval x) + Rabs (rval y) + 360).
  assert (k0 : 0 <= IZR (Z.abs k)) by (apply (IZR_le 0); lia). assert (k0' : 0 <= IZR (Z.abs k')) by (apply (IZR_le 0); lia).
  assert (S3 : 360 <= S) by (unfold S; lra).
  assert (K1 : Rabs (rval n1 - (rval x + IZR k * 360)) <= (IZR (Z.abs k) + 2) * (8 * e53 * S)).
  { eapply Rle_trans; [exact K |]. apply Rmult_le_compat_l; [lra |]. assert (0 <= e53 * S) by (apply Rmult_le_pos; lra). assert (6 * e53 * (Rabs (rval x) + 0 + 360) <= 6 * e53 * S) by (apply Rmult_le_compat_l; [lra | unfold S; lra]). lra. }
  assert (K2 : Rabs (rval n2 - (rval y + IZR k' * 360)) <= (IZR (Z.abs k') + 2) * (8 * e53 * S)).
  { eapply Rle_trans; [exact K' |]. apply Rmult_le_compat_l; [lra |]. assert (0 <= e53 * S) by (apply Rmult_le_pos; lra). assert (6 * e53 * (Rabs (rval y) + 0 + 360) <= 6 * e53 * S) by (apply Rmult_le_compat_l; [lra | unfold S; lra]). lra. }
  assert (eS : 360 * e53 <= e53 * S) by nra. set (w := 8 * e53 * S) in *. assert (w0 : 8 * (360 * e53) <= w) by (unfold w; lra).
  apply abs_le in K1. apply abs_le in K2.
  apply orb_prop in E. destruct E as [E | E].
  - apply SFleb_val in E; [| assumption..]. rewrite Vt in E. exists k, k'.
    assert (N : Rabs (rval n2 - rval n1) <= Rabs (rval t) + 360 * e53) by lra. apply abs_le in N. apply abs_of. lra.
  - assert (UE : Rabs (rval (b64_of_Z 360) - rval d) <= P2 1023) by (rewrite V3; pose proof (P2_mono 1000 1023 ltac:(lia)); apply abs_of; lra).
    pose proof (proj1 (proj1 (SFsub_rounded _ d F3 Fd UE))) as FE. pose proof (sub_err _ d F3 Fd UE) as EE. rewrite e53_P2, V3 in EE. change (SFsub 53 1024 (b64_of_Z 360) d) with (sf_sub (b64_of_Z 360) d) in *.
    apply SFleb_val in E; [| assumption..]. rewrite Vt in E.
    assert (D361 : Rabs (360 - rval d) <= 720) by (apply abs_of; lra).
    assert (EE' : Rabs (rval (sf_sub (b64_of_Z 360) d) - (360 - rval d)) <= e53 * 720) by (eapply Rle_trans; [exact EE |]; apply Rmult_le_compat_l; lra).
    apply abs_le in EE'. assert (N : 360 - Rabs (rval n2 - rval n1) <= Rabs (rval t) + 3 * (360 * e53)) by lra.
    assert (ZP : IZR (Z.abs k) <= IZR (Z.abs (k + 1)) + 1) by (rewrite <- plus_IZR; apply IZR_le; lia).
    assert (ZM : IZR (Z.abs k) <= IZR (Z.abs (k - 1)) + 1) by (rewrite <- plus_IZR; apply IZR_le; lia).
    assert (kp : 0 <= IZR (Z.abs (k + 1))) by (apply (IZR_le 0); lia). assert (km : 0 <= IZR (Z.abs (k - 1))) by (apply (IZR_le 0); lia).
    assert (W0 : 0 <= w) by lra.
    destruct (Rle_lt_dec 0 (rval n2 - rval n1)) as [C | C].
    + rewrite Rabs_right in N by lra. exists (k + 1)%Z, k'. rewrite plus_IZR. assert (IZR (Z.abs k) * w <= (IZR (Z.abs (k + 1)) + 1) * w) by (apply Rmult_le_compat_r; lra). apply abs_of. lra.
    + rewrite Rabs_left in N by lra. exists (k - 1)%Z, k'. rewrite minus_IZR. assert (IZR (Z.abs k) * w <= (IZR (Z.abs (k - 1)) + 1) * w) by (apply Rmult_le_compat_r; lra). apply abs_of. lra.
Qed.

(** *** Sums *)
Lemma c125_one_unit u x y : u <> UUndefined -> finite64 x -> finite64 y -> Rabs (rval x) <= powerRZ 2 900 -> Rabs (rval y) <= powerRZ 2 900 ->
  (exists z, angle_add64 (mkA64 (Some x) u) (mkA64 (Some y) u) = Ok (mkA64 (Some z) u) /\ nearest64 (rval x + rval y) z) /\
  (exists z, angle_sub64 (mkA64 (Some x) u) (mkA64 (Some y) u) = Ok (mkA64 (Some z) u) /\ nearest64 (rval x - rval y) z).
Proof.
  intros U Fx Fy Bx By. change (powerRZ 2) with P2 in *. apply unit_eqb_undef in U as Ue.
  assert (U1 : Rabs (rval x + rval y) <= P2 1023 /\ Rabs (rval x - rval y) <= P2 1023).
  { apply abs_le in Bx. apply abs_le in By. pose proof (P2_succ 900) as X. pose proof (P2_mono (900 + 1) 1023 ltac:(lia)). split; apply abs_of; lra. }
  unfold angle_add64, angle_sub64, converted64. cbn [aunit64 aval64]. rewrite Ue, unit_eqb_refl. cbn [orb need64 bind]. split; eexists; (split; [reflexivity |]).
  - apply SFadd_rounded; tauto.
  - apply SFsub_rounded; tauto.
Qed.
Lemma sum_close s t B e : Rabs s <= B -> Rabs (t - s) <= e * B -> Rabs t <= B + e * B.
Proof. intros A C. replace t with ((t - s) + s) by ring. eapply Rle_trans; [apply Rabs_triang |]. lra. Qed.
Lemma c125_two_units u u' x y : u <> UUndefined -> u' <> UUndefined -> u <> u' -> finite64 x -> finite64 y -> Rabs (rval x) <= powerRZ 2 900 -> powerRZ 2 (-900) <= Rabs (rval y) <= powerRZ 2 900 ->
  let y' := rval y * units_per_turn u / units_per_turn u' in
  (exists z, angle_add64 (mkA64 (Some x) u) (mkA64 (Some y) u') = Ok (mkA64 (Some z) u) /\ finite64 z /\ Rabs (rval z - (rval x + y')) <= powerRZ 2 (-49) * (Rabs (rval x) + Rabs y')) /\
  (exists z, angle_sub64 (mkA64 (Some x) u) (mkA64 (Some y) u') = Ok (mkA64 (Some z) u) /\ finite64 z /\ Rabs (rval z - (rval x - y')) <= powerRZ 2 (-49) * (Rabs (rval x) + Rabs y')).
Proof.
  intros U U' UU Fx Fy Bx By Y. change (powerRZ 2) with P2 in *. pose proof e53_pos as e0. apply unit_eqb_undef in U as Ue. apply unit_eqb_undef in U' as Ue'.
  pose proof (P2_mono (-950) (-900) ltac:(lia)). pose proof (P2_mono 900 950 ltac:(lia)).
  destruct (in64_rel u' u y U' U Fy ltac:(lra)) as (w & W & Fw & R). fold Y in R.
  assert (E8 : 8 * e53 <= / 2) by (unfold e53; lra). pose proof (rel_size _ _ _ E8 R) as Sz. apply rel_abs in R.
  destruct (turn64_rel u U) as (t & _ & _ & _ & Bt). destruct (turn64_rel u' U') as (t' & _ & _ & _ & Bt').
  assert (YB : Rabs Y <= P2 921).
  { unfold Y, Rdiv. rewrite Rabs_mult, Rabs_mult, Rabs_inv, (Rabs_right (units_per_turn u)), (Rabs_right (units_per_turn u')) by lra.
    assert (I1 : / units_per_turn u' <= 1) by (rewrite <- Rinv_1; apply Rinv_le_contravar; lra). assert (I0 : 0 < / units_per_turn u') by (apply Rinv_0_lt_compat; lra).
    pose proof (P2_pos 900). pose proof (P2_pos 21). assert (A21 : units_per_turn u <= P2 21) by (rewrite <- P2_Z by lia; change (IZR (2 ^ 21)) with 2097152; lra).
    change 921%Z with (900 + 21)%Z. rewrite P2_add, <- (Rmult_1_r (P2 900 * P2 21)). pose proof (Rabs_pos (rval y)).
    apply Rmult_le_compat; try lra; [apply Rmult_le_pos; lra | apply Rmult_le_compat; lra]. }
  pose proof (Rabs_pos (rval x)) as x0. pose proof (Rabs_pos Y) as Y0.
  assert (SB : forall s, Rabs s <= Rabs (rval x) + 2 * Rabs Y -> Rabs s <= P2 1023).
  { intros s S. pose proof (P2_succ 921) as X1. pose proof (P2_succ (921 + 1)) as X2. pose proof (P2_mono 900 921 ltac:(lia)). pose proof (P2_mono (921 + 1 + 1) 1023 ltac:(lia)). lra. }
  assert (S1 : Rabs (rval x + rval w) <= Rabs (rval x) + 2 * Rabs Y) by (eapply Rle_trans; [apply Rabs_triang |]; lra).
  assert (S2 : Rabs (rval x - rval w) <= Rabs (rval x) + 2 * Rabs Y) by (unfold Rminus; eapply Rle_trans; [apply Rabs_triang |]; rewrite Rabs_Ropp; lra).
  replace (P2 (-49)) with (16 * e53) by (rewrite P2_m by lia; change (2 ^ (- -49))%Z with 562949953421312%Z; unfold e53; lra).
  assert (G : 8 * e53 * Rabs Y + e53 * (Rabs (rval x) + 2 * Rabs Y) <= 16 * e53 * (Rabs (rval x) + Rabs Y)).
  { assert (0 <= e53 * Rabs (rval x)) by (apply Rmult_le_pos; lra). assert (0 <= e53 * Rabs Y) by (apply Rmult_le_pos; lra). lra. }
  unfold angle_add64, angle_sub64, converted64. cbn [aunit64 aval64]. rewrite Ue, Ue'. replace (unit_eqb u u') with false by (destruct u, u'; try reflexivity; congruence).
  cbn [orb]. rewrite W. cbn [need64 bind]. split; eexists; (split; [reflexivity |]).
  - destruct (SFadd_rounded x w Fx Fw (SB _ S1)) as [N _]. pose proof (add_err x w Fx Fw (SB _ S1)) as E. rewrite e53_P2 in E. change (SFadd 53 1024 x w) with (sf_add x w) in *. split; [exact (proj1 N) |].
    assert (E' : Rabs (rval (sf_add x w) - (rval x + rval w)) <= e53 * (Rabs (rval x) + 2 * Rabs Y)) by (eapply Rle_trans; [exact E |]; apply Rmult_le_compat_l; lra).
    apply abs_le in E'. apply abs_le in R. apply abs_of. lra.
  - destruct (SFsub_rounded x w Fx Fw (SB _ S2)) as [N _]. pose proof (sub_err x w Fx Fw (SB _ S2)) as E. rewrite e53_P2 in E. change (SFsub 53 1024 x w) with (sf_sub x w) in *. split; [exact (proj1 N) |].
    assert (E' : Rabs (rval (sf_sub x w) - (rval x - rval w)) <= e53 * (Rabs (rval x) + 2 * Rabs Y)) by (eapply Rle_trans; [exact E |]; apply Rmult_le_compat_l; lra).
    apply abs_le in E'. apply abs_le in R. apply abs_of. lra.
Qed.
