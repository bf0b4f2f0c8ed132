(** Equality of Euler angles (C77). *)

From Coq Require Import List Bool Reals Lra Lia Psatz ZArith.
From Verif Require Import Result DOrder Vec VecProofs Mat3 AngleModel AngleSpec AngleProofs AngleProofs2 RotModel RotSpec
  RotProofs RotProofs2 RotProofs3 RotProofs4 RotProofs5 RotProofs6 RotProofs10.
Local Open Scope R_scope.

(** Angles (in turns) of an Euler angle. *)
Definition e_turns (e : euler) (a b c : R) : Prop :=
  turns (e_phi e) = Some a /\ turns (e_theta e) = Some b /\ turns (e_psi e) = Some c.
Lemma seq_eqb_iff a b : seq_eqb a b = true <-> a = b.
Proof. destruct a, b; cbn; split; congruence. Qed.

Lemma and3_true fuel (f g h : nat -> result bool) x y z : f fuel = Ok x -> g fuel = Ok y -> h fuel = Ok z ->
  and3 (f fuel) (g fuel) (h fuel) = Ok (x && y && z).
Proof. intros Hf Hg Hh. unfold and3. rewrite Hf, Hg, Hh. destruct x, y, z; reflexivity. Qed.

Lemma e_eq_spec d e a b c a' b' c' : e_turns d a b c -> e_turns e a' b' c' -> e_seq d <> SeqUndefined -> e_seq e <> SeqUndefined ->
  exists r, returns (fun fuel => e_eq fuel d e) r
    /\ (r = true <-> e_seq d = e_seq e
         /\ ((same_mod_turn a a' /\ same_mod_turn b b' /\ same_mod_turn c c')
             \/ (same_mod_turn (a + 1 / 2) a' /\ same_mod_turn (1 / 2 - b) b' /\ same_mod_turn (c + 1 / 2) c'))).
Proof.
  intros (Ha & Hb & Hc) (Ha' & Hb' & Hc') Sd Se.
  assert (TP : turns angle_Pi = Some (1 / 2)) by (cbn; f_equal; field; apply PI_neq0).
  destruct (c19_add _ _ _ _ Ha TP) as [(pa & Pa & _ & Ta) _]. destruct (c19_add _ _ _ _ TP Hb) as [_ (pb & Pb & _ & Tb)].
  destruct (c19_add _ _ _ _ Hc TP) as [(pc & Pc & _ & Tc) _].
  destruct (angle_eq_spec _ _ _ _ Ha Ha') as (e1 & [N1 R1] & E1). destruct (angle_eq_spec _ _ _ _ Hb Hb') as (e2 & [N2 R2] & E2).
  destruct (angle_eq_spec _ _ _ _ Hc Hc') as (e3 & [N3 R3] & E3). destruct (angle_eq_spec _ _ _ _ Ta Ha') as (e4 & [N4 R4] & E4).
  destruct (angle_eq_spec _ _ _ _ Tb Hb') as (e5 & [N5 R5] & E5). destruct (angle_eq_spec _ _ _ _ Tc Hc') as (e6 & [N6 R6] & E6).
  exists (seq_eqb (e_seq d) (e_seq e) && (e1 && e2 && e3 || e4 && e5 && e6)). split.
  - exists (N1 + N2 + N3 + N4 + N5 + N6)%nat. intros fuel Hf. unfold e_eq.
    assert (Dd : e_isDefined d = true).
    { unfold e_isDefined. rewrite (turns_defined _ _ Ha), (turns_defined _ _ Hb), (turns_defined _ _ Hc). destruct (e_seq d); [congruence |..]; reflexivity. }
    assert (De : e_isDefined e = true).
    { unfold e_isDefined. rewrite (turns_defined _ _ Ha'), (turns_defined _ _ Hb'), (turns_defined _ _ Hc'). destruct (e_seq e); [congruence |..]; reflexivity. }
    rewrite Dd, De. cbn [negb orb]. destruct (seq_eqb (e_seq d) (e_seq e)); [| reflexivity]. cbn [negb andb].
    rewrite Pa, Pb, Pc. cbn [bind]. rewrite R1, R2, R3, R4, R5, R6 by lia. destruct e1, e2, e3, e4, e5, e6; reflexivity.
  - rewrite andb_true_iff, orb_true_iff, !andb_true_iff, seq_eqb_iff, E1, E2, E3, E4, E5, E6. tauto.
Qed.

Lemma named_sequence_mod s a b c a' b' c' v : same_mod_turn a a' -> same_mod_turn b b' -> same_mod_turn c c' ->
  named_sequence s (a * (2 * PI)) (b * (2 * PI)) (c * (2 * PI)) v = named_sequence s (a' * (2 * PI)) (b' * (2 * PI)) (c' * (2 * PI)) v.
Proof.
  intros A B C. destruct s; cbn [named_sequence]; [reflexivity |..]; unfold frame_sequence;
    rewrite (frame_rotation_mod _ _ _ v A), (frame_rotation_mod _ _ _ _ B), (frame_rotation_mod _ _ _ _ C); reflexivity.
Qed.
Lemma seq_matrix_alt s a b c : seq_matrix s (a + PI) (PI - b) (c + PI) = seq_matrix s a b c.
Proof.
  assert (T : forall x, sin (x + PI) = - sin x /\ cos (x + PI) = - cos x)
    by (intros; split; [apply neg_sin | apply neg_cos]).
  assert (S : sin (PI - b) = sin b /\ cos (PI - b) = - cos b).
  { split; [apply sin_PI_x |]. rewrite cos_minus, cos_PI, sin_PI. ring. }
  destruct (T a) as [Sa Ca], (T c) as [Sc Cc], S as [Sb Cb]. clear T.
  destruct s; cbn [seq_matrix]; [reflexivity |..]; unfold mRX, mRY, mRZ; rewrite Sa, Ca, Sb, Cb, Sc, Cc;
    generalize (sin a) (cos a) (sin b) (cos b) (sin c) (cos c); clear; intros; qring.
Qed.
Lemma named_sequence_alt s a b c v : named_sequence s (a + PI) (PI - b) (c + PI) v = named_sequence s a b c v.
Proof. rewrite <- !seq_matrix_named, seq_matrix_alt. reflexivity. Qed.

Lemma euler_turns e a b c : euler_radians e a b c -> e_turns e (a / (2 * PI)) (b / (2 * PI)) (c / (2 * PI)).
Proof. intros (A & B & C). repeat split; assumption. Qed.
Lemma turn_back a : a / (2 * PI) * (2 * PI) = a.
Proof. field. pose proof PI_RGT_0; lra. Qed.

Lemma c77_sound d e a b c a' b' c' : euler_radians d a b c -> euler_radians e a' b' c' ->
  e_seq d <> SeqUndefined -> e_seq e <> SeqUndefined -> returns (fun fuel => e_eq fuel d e) true ->
  forall v, named_sequence (e_seq d) a b c v = named_sequence (e_seq e) a' b' c' v.
Proof.
  intros Hd He Sd Se E v.
  destruct (e_eq_spec d e _ _ _ _ _ _ (euler_turns _ _ _ _ Hd) (euler_turns _ _ _ _ He) Sd Se) as (r & R & Er).
  pose proof (returns_unique _ _ _ E R) as <-. destruct (proj1 Er eq_refl) as [S [(A & B & C) | (A & B & C)]]; rewrite S.
  - pose proof (named_sequence_mod (e_seq e) _ _ _ _ _ _ v A B C) as M. rewrite !turn_back in M. exact M.
  - pose proof (named_sequence_mod (e_seq e) _ _ _ _ _ _ v A B C) as M. rewrite !turn_back in M. rewrite <- M.
    rewrite <- named_sequence_alt. pose proof PI_RGT_0. f_equal; field; lra.
Qed.

(** Entries of the matrix of a sequence that determine the angles. *)
Lemma seq_entries s a b c a' b' c' : s <> SeqUndefined -> seq_matrix s a b c = seq_matrix s a' b' c' ->
  sin b = sin b' /\ cos b * cos a = cos b' * cos a' /\ cos b * sin a = cos b' * sin a'
  /\ cos b * cos c = cos b' * cos c' /\ cos b * sin c = cos b' * sin c'.
Proof.
  intros Hs E. destruct s; [congruence |..]; cbn [seq_matrix] in E; unfold mRX, mRY, mRZ in E; 
    revert E; generalize (sin a) (cos a) (sin b) (cos b) (sin c) (cos c) (sin a') (cos a') (sin b') (cos b') (sin c') (cos c'); clear;
    intros * E; qunfold; injection E; intros; repeat split; lra.
Qed.
Lemma trig_mod x y : cos x = cos y -> sin x = sin y -> same_mod_turn (x / (2 * PI)) (y / (2 * PI)).
Proof.
  intros C S. pose proof PI_RGT_0. pose proof (sc1 y) as Y.
  assert (Z : cos (x - y) = 1) by (rewrite cos_minus, C, S; lra).
  assert (Z2 : sin ((x - y) / 2) = 0).
  { replace (x - y) with (2 * ((x - y) / 2)) in Z by field. rewrite cos_2a_sin in Z. nra. }
  destruct (sin_eq_0_0 _ Z2) as [k K]. exists k. apply (Rmult_eq_reg_r (2 * PI)); [| lra].
  replace ((y / (2 * PI) + IZR k) * (2 * PI)) with (y + IZR k * (2 * PI)) by (field; lra).
  rewrite turn_back. lra.
Qed.
Lemma c77_complete_partial d e a b c a' b' c' : euler_radians d a b c -> euler_radians e a' b' c' ->
  e_seq d <> SeqUndefined -> e_seq e = e_seq d -> cos b <> 0 ->
  (forall v, named_sequence (e_seq d) a b c v = named_sequence (e_seq e) a' b' c' v) ->
  returns (fun fuel => e_eq fuel d e) true.
Proof.
  intros Hd He Sd Se Cb F. rewrite Se in F.
  assert (M : seq_matrix (e_seq d) a b c = seq_matrix (e_seq d) a' b' c')
    by (apply mulv3_ext; intros v; rewrite !seq_matrix_named; apply F).
  destruct (seq_entries _ _ _ _ _ _ _ Sd M) as (S & A1 & A2 & C1 & C2).
  destruct (e_eq_spec d e _ _ _ _ _ _ (euler_turns _ _ _ _ Hd) (euler_turns _ _ _ _ He) Sd ltac:(congruence)) as (r & R & Er).
  assert (r = true) as ->; [| exact R]. apply Er. split; [congruence |]. pose proof PI_RGT_0.
  pose proof (sc1 b). pose proof (sc1 b').
  assert (Q : (cos b - cos b') * (cos b + cos b') = 0).
  { transitivity (cos b * cos b - cos b' * cos b'); [ring |]. rewrite S in H0. lra. }
  apply Rmult_integral in Q. destruct Q as [Q | Q].
  - left. assert (E : cos b' = cos b) by lra. rewrite E in *.
    repeat split; apply trig_mod; try congruence; apply (Rmult_eq_reg_l (cos b)); assumption.
  - right. assert (E : cos b' = - cos b) by lra. rewrite E in *.
    assert (T : forall x, x / (2 * PI) + 1 / 2 = (x + PI) / (2 * PI)) by (intros; field; lra).
    assert (T' : 1 / 2 - b / (2 * PI) = (PI - b) / (2 * PI)) by (field; lra).
    rewrite !T, T'. repeat split; apply trig_mod; rewrite ?neg_cos, ?neg_sin.
    + apply (Rmult_eq_reg_l (cos b)); [lra | assumption].
    + apply (Rmult_eq_reg_l (cos b)); [lra | assumption].
    + rewrite cos_minus, cos_PI, sin_PI, E. ring.
    + rewrite sin_PI_x. congruence.
    + apply (Rmult_eq_reg_l (cos b)); [lra | assumption].
    + apply (Rmult_eq_reg_l (cos b)); [lra | assumption].
Qed.
(** At gimbal lock two descriptions of one rotation can be unequal. *)
Lemma c77_refuted : exists d e a b c a' b' c', euler_radians d a b c /\ euler_radians e a' b' c' /\ e_seq d = ZYX /\ e_seq e = ZYX
  /\ (forall v, named_sequence ZYX a b c v = named_sequence ZYX a' b' c' v)
  /\ returns (fun fuel => e_eq fuel d e) false.
Proof.
  pose proof PI_RGT_0.
  exists (mkE (Radians 0) (Radians (PI / 2)) (Radians 0) ZYX), (mkE (Radians (PI / 2)) (Radians (PI / 2)) (Radians (PI / 2)) ZYX),
    0, (PI / 2), 0, (PI / 2), (PI / 2), (PI / 2).
  assert (E1 : euler_radians (mkE (Radians 0) (Radians (PI / 2)) (Radians 0) ZYX) 0 (PI / 2) 0) by (repeat split).
  assert (E2 : euler_radians (mkE (Radians (PI / 2)) (Radians (PI / 2)) (Radians (PI / 2)) ZYX) (PI / 2) (PI / 2) (PI / 2)) by (repeat split).
  split; [exact E1 |]. split; [exact E2 |]. split; [reflexivity |]. split; [reflexivity |]. split.
  - intros v. rewrite <- !seq_matrix_named. f_equal. cbn [seq_matrix]. unfold mRX, mRY, mRZ. rewrite sin_0, cos_0, sin_PI2, cos_PI2. qring.
  - destruct (e_eq_spec _ _ _ _ _ _ _ _ (euler_turns _ _ _ _ E1) (euler_turns _ _ _ _ E2)) as (r & R & Er); [discriminate .. |].
    destruct r; [| exact R]. exfalso. destruct (proj1 Er eq_refl) as [_ [(_ & _ & [k K]) | (_ & _ & [k K])]].
    + assert (0 = 1 / 4 + IZR k) as Z.
      { transitivity (0 / (2 * PI)); [field; lra |]. rewrite K. field. lra. }
      assert (IZR (4 * k + 1) = 0) as Z2 by (rewrite plus_IZR, mult_IZR; lra). apply eq_IZR in Z2. lia.
    + assert (1 / 2 = 1 / 4 + IZR k) as Z.
      { transitivity (0 / (2 * PI) + 1 / 2); [field; lra |]. rewrite K. field. lra. }
      assert (IZR (4 * k - 1) = 0) as Z2 by (rewrite minus_IZR, mult_IZR; lra). apply eq_IZR in Z2. lia.
Qed.
