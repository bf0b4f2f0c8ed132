(** Proofs about the angle model. *)

From Coq Require Import List Reals Lra Lia ZArith Bool Psatz Floats.SpecFloat.
From Verif Require Import Result DOrder Vec VecProofs AngleModel AngleSpec.
Local Open Scope R_scope.

Lemma Rltb_t a b : a < b -> Rltb a b = true.
Proof. intros; apply Rltb_true; assumption. Qed.
Lemma Rltb_f a b : b <= a -> Rltb a b = false.
Proof. intros; apply Rltb_false; assumption. Qed.
Ltac rltb := match goal with
  | |- context [Rltb ?a ?b] =>
    let E := fresh "E" in destruct (Rltb a b) eqn:E;
    [apply Rltb_true in E | apply Rltb_false in E]
  | H : context [Rltb ?a ?b] |- _ =>
    let E := fresh "E" in destruct (Rltb a b) eqn:E;
    [apply Rltb_true in E | apply Rltb_false in E]
  end.

(** *** The loops *)
Lemma archimed_nat x : exists n, x < INR n.
Proof.
  destruct (Rle_lt_dec x 0) as [H | H].
  - exists 1%nat; simpl; lra.
  - destruct (archimed x) as [H1 _].
    exists (Z.to_nat (up x)). rewrite INR_IZR_INZ, Z2Nat.id; [lra |].
    apply le_IZR. lra.
Qed.

Lemma up_turns_spec range lower : 0 < range ->
  forall n v, lower - v < INR n * range ->
  exists k, (k <= n)%nat /\ lower <= v + INR k * range
    /\ (k = 0%nat \/ v + INR k * range < lower + range)
    /\ forall fuel, (k < fuel)%nat -> up_turns fuel v range lower = Ok (v + INR k * range).
Proof.
  intros Hr n. induction n as [| n IH]; intros v Hv.
  - simpl in Hv. exists 0%nat. simpl. repeat split; try lra; try lia.
    intros [| f]; [lia |]. intros _. simpl. rewrite Rltb_f by lra. f_equal; ring.
  - destruct (Rlt_le_dec v lower) as [H | H].
    + destruct (IH (v + range)) as [k [Hk [Hlo [Hhi Hf]]]].
      { rewrite S_INR in Hv. lra. }
      exists (S k). rewrite S_INR. repeat split; try lia; try lra.
      * right. destruct Hhi as [-> | Hhi]; [simpl; lra | lra].
      * intros [| f]; [lia |]. intros Hff. simpl. rewrite Rltb_t by lra.
        rewrite Hf by lia. f_equal; ring.
    + exists 0%nat. simpl. repeat split; try lra; try lia.
      intros [| f]; [lia |]. intros _. simpl. rewrite Rltb_f by lra. f_equal; ring.
Qed.

Lemma down_turns_spec range upper : 0 < range ->
  forall n v, v - upper < INR n * range ->
  exists k, (k <= n)%nat /\ v - INR k * range < upper
    /\ (k = 0%nat \/ upper - range <= v - INR k * range)
    /\ forall fuel, (k < fuel)%nat -> down_turns fuel v range upper = Ok (v - INR k * range).
Proof.
  intros Hr n. induction n as [| n IH]; intros v Hv.
  - simpl in Hv. exists 0%nat. simpl. repeat split; try lra; try lia.
    intros [| f]; [lia |]. intros _. simpl. rewrite Rltb_t by lra. f_equal; ring.
  - destruct (Rlt_le_dec v upper) as [H | H].
    + exists 0%nat. simpl. repeat split; try lra; try lia.
      intros [| f]; [lia |]. intros _. simpl. rewrite Rltb_t by lra. f_equal; ring.
    + destruct (IH (v - range)) as [k [Hk [Hlo [Hhi Hf]]]].
      { rewrite S_INR in Hv. lra. }
      exists (S k). rewrite S_INR. repeat split; try lia; try lra.
      * right. destruct Hhi as [-> | Hhi]; [simpl; lra | lra].
      * intros [| f]; [lia |]. intros Hff. simpl. rewrite Rltb_f by lra.
        rewrite Hf by lia. f_equal; ring.
Qed.

Lemma ReduceRange_spec v lo hi : lo < hi ->
  exists r, returns (fun fuel => ReduceRange fuel v lo hi) r
    /\ lo <= r < hi /\ exists k : Z, r = v + IZR k * (hi - lo).
Proof.
  intros Hr.
  destruct (Rlt_le_dec v lo) as [H1 | H1]; [| destruct (Rlt_le_dec v hi) as [H2 | H2]].
  - destruct (archimed_nat ((lo - v) / (hi - lo))) as [n Hn].
    destruct (up_turns_spec (hi - lo) lo ltac:(lra) n v) as [k [_ [Ha [Hb Hf]]]].
    { apply Rmult_lt_reg_r with (/ (hi - lo)); [apply Rinv_0_lt_compat; lra |].
      replace (INR n * (hi - lo) * / (hi - lo)) with (INR n) by (field; lra). exact Hn. }
    assert (Hb' : v + INR k * (hi - lo) < hi).
    { destruct Hb as [-> | Hb]; simpl; lra. }
    exists (v + INR k * (hi - lo)). split; [| split; [lra |]].
    + exists (S k). intros fuel Hfu. unfold ReduceRange. rewrite (Rltb_t v lo) by lra. simpl.
      rewrite Hf by lia. simpl. destruct fuel; [lia |]. simpl. rewrite Rltb_t by lra. reflexivity.
    + exists (Z.of_nat k). rewrite <- INR_IZR_INZ. reflexivity.
  - exists v. split; [| split; [lra |]].
    + exists 0%nat. intros. unfold ReduceRange. rewrite Rltb_f, Rltb_t by lra. reflexivity.
    + exists 0%Z. lra.
  - destruct (archimed_nat ((v - hi) / (hi - lo))) as [n Hn].
    destruct (down_turns_spec (hi - lo) hi ltac:(lra) n v) as [k [_ [Ha [Hb Hf]]]].
    { apply Rmult_lt_reg_r with (/ (hi - lo)); [apply Rinv_0_lt_compat; lra |].
      replace (INR n * (hi - lo) * / (hi - lo)) with (INR n) by (field; lra). exact Hn. }
    assert (Hb' : lo <= v - INR k * (hi - lo)).
    { destruct Hb as [-> | Hb]; simpl; lra. }
    exists (v - INR k * (hi - lo)). split; [| split; [lra |]].
    + exists (S k). intros fuel Hfu. unfold ReduceRange. rewrite (Rltb_f v lo), (Rltb_f v hi) by lra. simpl.
      destruct fuel; [lia |]. simpl. rewrite (Rltb_f v lo) by lra. simpl.
      specialize (Hf (S fuel) ltac:(lia)). simpl in Hf. exact Hf.
    + exists (- Z.of_nat k)%Z. rewrite opp_IZR, <- INR_IZR_INZ. ring.
Qed.

(** *** Units *)
Lemma unit_eqb_eq u v : unit_eqb u v = true <-> u = v.
Proof. destruct u, v; simpl; split; congruence. Qed.

Lemma per_turn_pos u : u <> UUndefined -> 0 < units_per_turn u.
Proof. pose proof PI_RGT_0. destruct u; simpl; intros; try congruence; lra. Qed.

Lemma SIRatio_spec u : u <> UUndefined -> SIRatio u = Ok (2 * PI / units_per_turn u).
Proof.
  pose proof PI_RGT_0. destruct u; simpl; intros; try congruence; f_equal; field; lra.
Qed.

Lemma turns_Some a t : turns a = Some t <->
  exists v, aval a = Some v /\ aunit a <> UUndefined /\ v = t * units_per_turn (aunit a).
Proof.
  unfold turns. destruct a as [[v |] u]; simpl; [| split; [congruence | intros [v [H _]]; congruence]].
  destruct u.
  1: split; [congruence | intros [v' [H [H' _]]]; congruence].
  all: pose proof (per_turn_pos _ (fun H : Radian = UUndefined => ltac:(discriminate H))) as Hr;
       split;
       [ intros H; injection H as <-; exists v; repeat split; try congruence;
         simpl in *; field; lra
       | intros [v' [H [_ H']]]; injection H as ->; f_equal; rewrite H'; simpl in *; field; lra ].
Qed.

Lemma turns_None a : turns a = None <-> angle_isDefined a = false.
Proof.
  unfold turns, angle_isDefined. destruct a as [[v |] u]; simpl; [destruct u; simpl; intuition congruence | tauto].
Qed.

Lemma turns_defined a t : turns a = Some t -> angle_isDefined a = true.
Proof.
  intros H. destruct (angle_isDefined a) eqn:E; [reflexivity |].
  apply turns_None in E. congruence.
Qed.

Lemma in_unit_spec a t u : turns a = Some t -> u <> UUndefined ->
  in_unit a u = Ok (t * units_per_turn u).
Proof.
  intros H Hu. unfold in_unit. rewrite (turns_defined _ _ H). simpl.
  apply turns_Some in H. destruct H as [v [-> [Ha ->]]]. simpl.
  destruct (unit_eqb (aunit a) u) eqn:E.
  - apply unit_eqb_eq in E. subst u. reflexivity.
  - rewrite !SIRatio_spec by assumption. simpl. f_equal.
    pose proof (per_turn_pos _ Ha). pose proof (per_turn_pos _ Hu). pose proof PI_RGT_0.
    field. repeat split; lra.
Qed.

Lemma in_unit_undefined a u : turns a = None -> in_unit a u = Err EUndefined.
Proof. intros H. apply turns_None in H. unfold in_unit. rewrite H. reflexivity. Qed.

Lemma in_unit_bad_unit a t : turns a = Some t -> in_unit a UUndefined = Err EWrong.
Proof.
  intros H. unfold in_unit. rewrite (turns_defined _ _ H). simpl.
  apply turns_Some in H. destruct H as [v [-> [Ha _]]]. simpl.
  destruct (unit_eqb (aunit a) UUndefined) eqn:E; [apply unit_eqb_eq in E; congruence |].
  rewrite SIRatio_spec by assumption. reflexivity.
Qed.

Lemma converted_spec u b t : turns b = Some t -> u <> UUndefined ->
  converted u b = Ok (t * units_per_turn u).
Proof.
  intros H Hu. unfold converted. destruct (unit_eqb u (aunit b)) eqn:E.
  - apply unit_eqb_eq in E. apply turns_Some in H. destruct H as [v [-> [Hb ->]]]. subst u. reflexivity.
  - apply in_unit_spec; assumption.
Qed.

Lemma undefined_value a : aunit a <> UUndefined -> turns a = None -> aval a = None.
Proof.
  intros Hu H. unfold turns in H. destruct (aval a); [destruct (aunit a); congruence | reflexivity].
Qed.
Lemma converted_undefined u b : aunit b <> UUndefined -> turns b = None -> converted u b = Err EUndefined.
Proof.
  intros Hu H. unfold converted. destruct (unit_eqb u (aunit b)).
  - rewrite (undefined_value b Hu H). reflexivity.
  - apply in_unit_undefined, H.
Qed.

Lemma defined_unit a t : turns a = Some t -> unit_eqb (aunit a) UUndefined = false.
Proof.
  intros H. apply turns_Some in H. destruct H as [v [_ [H _]]].
  destruct (unit_eqb (aunit a) UUndefined) eqn:E; [| reflexivity].
  apply unit_eqb_eq in E; congruence.
Qed.

(** *** C16 *)
Lemma in_range_reduces per u : u <> UUndefined -> per = units_per_turn u ->
  range_reduces (fun fuel => in_range fuel per u) per.
Proof.
  intros Hu Hp a t lo Ha.
  assert (Hpos : 0 < per) by (rewrite Hp; apply per_turn_pos, Hu).
  destruct (ReduceRange_spec (t * per) lo (lo + per) ltac:(lra)) as [r [[N HN] [Hr [k Hk]]]].
  exists r. split; [| split; [exact Hr |]].
  - exists N. intros fuel Hf. unfold in_range. simpl.
    destruct Req_EM_T as [_ | C]; [| exfalso; apply C; ring].
    rewrite (in_unit_spec a t u Ha Hu). simpl. rewrite <- Hp. exact (HN fuel Hf).
  - exists k. rewrite Hk. field. lra.
Qed.

Lemma in_range_rejects per u : u <> UUndefined -> range_rejects (fun fuel => in_range fuel per u) per.
Proof.
  intros Hu fuel a lo hi H. unfold in_range.
  destruct lo as [l |]; [| reflexivity]. destruct hi as [h |]; [| reflexivity]. simpl.
  destruct Req_EM_T as [E | E]; [| reflexivity].
  destruct H as [H | H]; [exfalso; apply (H l h); auto |].
  rewrite in_unit_undefined by assumption. reflexivity.
Qed.

Lemma c16_reduces :
  range_reduces inRadians (2 * PI) /\ range_reduces inDegrees 360
  /\ range_reduces inArcminutes (360 * 60) /\ range_reduces inArcseconds (360 * 3600).
Proof.
  repeat split; unfold inRadians, inDegrees, inArcminutes, inArcseconds.
  - apply in_range_reduces; [discriminate | reflexivity].
  - apply in_range_reduces; [discriminate | reflexivity].
  - replace 21600 with (360 * 60) by ring. apply in_range_reduces; [discriminate | reflexivity].
  - replace 1296000 with (360 * 3600) by ring. apply in_range_reduces; [discriminate | reflexivity].
Qed.

Lemma c16_rejects :
  range_rejects inRadians (2 * PI) /\ range_rejects inDegrees 360
  /\ range_rejects inArcminutes (360 * 60) /\ range_rejects inArcseconds (360 * 3600).
Proof.
  repeat split; unfold inRadians, inDegrees, inArcminutes, inArcseconds.
  - apply in_range_rejects; discriminate.
  - apply in_range_rejects; discriminate.
  - replace 21600 with (360 * 60) by ring. apply in_range_rejects; discriminate.
  - replace 1296000 with (360 * 3600) by ring. apply in_range_rejects; discriminate.
Qed.

(** *** C18 *)
Lemma returns_unique {A} (f : nat -> result A) v w : returns f v -> returns f w -> v = w.
Proof.
  intros [N HN] [M HM]. specialize (HN (max N M) ltac:(lia)). specialize (HM (max N M) ltac:(lia)). congruence.
Qed.

Lemma IZR_lt_1 k : -1 < IZR k < 1 -> k = 0%Z.
Proof.
  intros [H1 H2]. apply lt_IZR in H1. change (-1) with (IZR (-1)) in H1.
  apply lt_IZR in H2. lia.
Qed.

Lemma eq_mod_spec per v w : 0 < per ->
  exists r, returns (fun fuel => ReduceRange fuel w v (v + per)) r
    /\ (v = r <-> same_mod_turn (v / per) (w / per)).
Proof.
  intros Hp. destruct (ReduceRange_spec w v (v + per) ltac:(lra)) as [r [HN [Hr [k Hk]]]].
  exists r. split; [exact HN |]. replace (v + per - v) with per in Hk by ring. split.
  - intros ->. exists k. rewrite Hk. field. lra.
  - intros [j Hj].
    assert (Hv : v = w + IZR j * per).
    { replace v with (v / per * per) by (field; lra). rewrite Hj. field. lra. }
    assert (D : r - v = IZR (k - j) * per) by (rewrite minus_IZR; lra).
    assert (k - j = 0)%Z as Hz.
    { apply IZR_lt_1. split; apply Rmult_lt_reg_r with per; lra. }
    rewrite Hz in D. simpl in D. lra.
Qed.

Lemma same_mod_turn_dec s t : same_mod_turn s t \/ ~ same_mod_turn s t.
Proof.
  destruct (eq_mod_spec 1 s t ltac:(lra)) as [r [_ H]]. rewrite !Rdiv_1 in H || (unfold Rdiv in H; rewrite Rinv_1, !Rmult_1_r in H).
  destruct (Req_EM_T s r); tauto.
Qed.

Lemma angle_eq_spec a b s t : turns a = Some s -> turns b = Some t ->
  exists r, returns (fun fuel => angle_eq fuel a b) r /\ (r = true <-> same_mod_turn s t).
Proof.
  intros Ha Hb.
  pose proof (defined_unit _ _ Ha) as Ua. pose proof (defined_unit _ _ Hb) as Ub.
  pose proof (proj1 (turns_Some a s) Ha) as [v [Hv [Hu Hvt]]].
  set (per := units_per_turn (aunit a)) in *.
  assert (Hp : 0 < per) by (apply per_turn_pos, Hu).
  destruct (eq_mod_spec per v (t * per) Hp) as [r [[N HN] Hiff]].
  replace (v / per) with s in Hiff by (rewrite Hvt; field; lra).
  replace (t * per / per) with t in Hiff by (field; lra).
  exists (if Req_EM_T v r then true else false). split.
  - exists N. intros fuel Hf. unfold angle_eq. rewrite Ua, Ub. simpl orb. cbv iota.
    rewrite (converted_spec (aunit a) b t Hb Hu). fold per. rewrite Hv. cbn [need bind].
    specialize (HN fuel Hf). simpl in HN. subst per.
    destruct (aunit a); simpl units_per_turn in *; try congruence;
      try (rewrite HN; reflexivity).
    + replace 21600 with (360 * 60) by ring. rewrite HN. reflexivity.
    + replace 1296000 with (360 * 3600) by ring. rewrite HN. reflexivity.
  - destruct Req_EM_T; split; intros; try tauto; try congruence.
Qed.

Lemma same_mod_turn_refl s : same_mod_turn s s.
Proof. exists 0%Z. simpl; lra. Qed.
Lemma same_mod_turn_sym s t : same_mod_turn s t -> same_mod_turn t s.
Proof. intros [k ->]. exists (- k)%Z. rewrite opp_IZR. ring. Qed.
Lemma same_mod_turn_trans s t u : same_mod_turn s t -> same_mod_turn t u -> same_mod_turn s u.
Proof. intros [k ->] [j ->]. exists (j + k)%Z. rewrite plus_IZR. ring. Qed.

Lemma angle_equal_iff a b s t : turns a = Some s -> turns b = Some t ->
  (returns (fun fuel => angle_eq fuel a b) true <-> same_mod_turn s t)
  /\ (returns (fun fuel => angle_eq fuel a b) false <-> ~ same_mod_turn s t).
Proof.
  intros Ha Hb. destruct (angle_eq_spec a b s t Ha Hb) as [r [Hr Hiff]].
  split; split.
  - intros H. apply Hiff. eapply returns_unique; eassumption.
  - intros H. apply Hiff in H. subst; exact Hr.
  - intros H. pose proof (returns_unique _ _ _ Hr H). subst. intros C. apply Hiff in C. discriminate.
  - intros H. destruct r; [exfalso; apply H, Hiff; reflexivity | exact Hr].
Qed.

Lemma c18_equivalence a b c s t u : turns a = Some s -> turns b = Some t -> turns c = Some u ->
  returns (fun fuel => angle_eq fuel a a) true
  /\ (returns (fun fuel => angle_eq fuel a b) true -> returns (fun fuel => angle_eq fuel b a) true)
  /\ (returns (fun fuel => angle_eq fuel a b) true -> returns (fun fuel => angle_eq fuel b c) true ->
      returns (fun fuel => angle_eq fuel a c) true).
Proof.
  intros Ha Hb Hc.
  rewrite (proj1 (angle_equal_iff a a s s Ha Ha)), (proj1 (angle_equal_iff a b s t Ha Hb)),
    (proj1 (angle_equal_iff b a t s Hb Ha)), (proj1 (angle_equal_iff b c t u Hb Hc)),
    (proj1 (angle_equal_iff a c s u Ha Hc)).
  split; [apply same_mod_turn_refl | split].
  - apply same_mod_turn_sym.
  - apply same_mod_turn_trans.
Qed.

(** An undefined unit compares unequal to everything; a defined unit with an undefined
    value throws. *)
Lemma c18_undefined_unit fuel a b : aunit a = UUndefined \/ aunit b = UUndefined -> angle_eq fuel a b = Ok false.
Proof.
  unfold angle_eq. intros [-> | ->]; [reflexivity |]. rewrite orb_true_r. reflexivity.
Qed.
Lemma c18_undefined_value fuel a b : aunit a <> UUndefined -> aunit b <> UUndefined ->
  turns a = None \/ turns b = None -> angle_eq fuel a b = Err EUndefined.
Proof.
  intros Ha Hb H. unfold angle_eq.
  destruct (unit_eqb (aunit a) UUndefined) eqn:Ea; [apply unit_eqb_eq in Ea; congruence |].
  destruct (unit_eqb (aunit b) UUndefined) eqn:Eb; [apply unit_eqb_eq in Eb; congruence |].
  simpl orb. cbv iota.
  destruct (turns b) as [t |] eqn:Tb.
  - destruct H as [H | H]; [| discriminate].
    pose proof (undefined_value a Ha H) as Hv.
    rewrite (converted_spec _ _ _ Tb Ha), Hv. destruct (aunit a); simpl; congruence.
  - rewrite (converted_undefined (aunit a) b Hb Tb). destruct (aunit a); simpl; congruence.
Qed.

(** *** C19 *)
Lemma turns_mk x u : u <> UUndefined -> turns (mkA (Some x) u) = Some (x / units_per_turn u).
Proof. destruct u; intros H; [congruence | reflexivity ..]. Qed.

Lemma last_cons {A} (us : list A) : forall u' u, last (u' :: us) u = last us u'.
Proof.
  induction us as [| w us IH]; intros; [reflexivity |].
  change (last (u' :: w :: us) u) with (last (w :: us) u). rewrite !IH. reflexivity.
Qed.

Lemma convert_chain_spec us : forall x u, u <> UUndefined -> Forall (fun u => u <> UUndefined) us ->
  convert_chain x u us = Ok (x / units_per_turn u * units_per_turn (last us u)).
Proof.
  induction us as [| u' us IH]; intros x u Hu Hus.
  - simpl. f_equal. pose proof (per_turn_pos _ Hu). field. lra.
  - inversion Hus as [| ? ? Hu' Hus']; subst.
    cbn [convert_chain]. rewrite (in_unit_spec _ _ u' (turns_mk x u Hu) Hu'). cbn [bind].
    rewrite IH by assumption. pose proof (per_turn_pos _ Hu). pose proof (per_turn_pos _ Hu').
    f_equal. replace (last (u' :: us) u) with (last us u').
    + field. lra.
    + symmetry. apply last_cons.
Qed.

Lemma c19_add a b s t : turns a = Some s -> turns b = Some t ->
  (exists c, angle_add a b = Ok c /\ aunit c = aunit a /\ turns c = Some (s + t))
  /\ (exists c, angle_sub a b = Ok c /\ aunit c = aunit a /\ turns c = Some (s - t)).
Proof.
  intros Ha Hb. pose proof (defined_unit _ _ Ha) as Ua. pose proof (defined_unit _ _ Hb) as Ub.
  pose proof (proj1 (turns_Some a s) Ha) as [v [Hv [Hu Hvt]]].
  unfold angle_add, angle_sub. rewrite Ua, Ub. simpl orb. cbv iota.
  rewrite (converted_spec (aunit a) b t Hb Hu), Hv. cbn [need bind].
  pose proof (per_turn_pos _ Hu).
  split; eexists; (split; [reflexivity |]); (split; [reflexivity |]); rewrite turns_mk by assumption;
    f_equal; rewrite Hvt; field; lra.
Qed.

Lemma c19_mul a s x : turns a = Some s ->
  (exists c, angle_mul a (Some x) = Ok c /\ aunit c = aunit a /\ turns c = Some (s * x))
  /\ (x <> 0 -> exists c, angle_div a (Some x) = Ok c /\ aunit c = aunit a /\ turns c = Some (s / x))
  /\ (x = 0 -> angle_div a (Some x) = Err ERuntime)
  /\ (exists c, angle_opp a = Ok c /\ aunit c = aunit a /\ turns c = Some (- s)).
Proof.
  intros Ha. pose proof (defined_unit _ _ Ha) as Ua.
  pose proof (proj1 (turns_Some a s) Ha) as [v [Hv [Hu Hvt]]]. pose proof (per_turn_pos _ Hu).
  unfold angle_mul, angle_div, angle_opp. rewrite Ua, (turns_defined _ _ Ha), Hv. cbn [need bind].
  repeat split.
  - eexists; (split; [reflexivity |]); (split; [reflexivity |]); rewrite turns_mk by assumption;
      f_equal; rewrite Hvt; field; lra.
  - intros Hx. destruct Req_EM_T; [congruence |].
    eexists; (split; [reflexivity |]); (split; [reflexivity |]); rewrite turns_mk by assumption;
      f_equal; rewrite Hvt; field; lra.
  - intros ->. destruct Req_EM_T; [reflexivity | congruence].
  - eexists; (split; [reflexivity |]); (split; [reflexivity |]); rewrite turns_mk by assumption;
      f_equal; rewrite Hvt; field; lra.
Qed.

Lemma c19_undefined a b x u : turns a = None ->
  angle_add a b = Err EUndefined /\ angle_add b a = Err EUndefined
  /\ angle_sub a b = Err EUndefined /\ angle_sub b a = Err EUndefined
  /\ angle_mul a x = Err EUndefined /\ angle_opp a = Err EUndefined
  /\ (x <> Some 0 -> angle_div a x = Err EUndefined) /\ in_unit a u = Err EUndefined.
Proof.
  intros H. pose proof (proj1 (turns_None a) H) as Hd.
  assert (Hc : aunit a <> UUndefined -> forall u, converted u a = Err EUndefined).
  { intros Hu u'. apply converted_undefined; assumption. }
  assert (Hv : aunit a <> UUndefined -> aval a = None).
  { intros Hu. apply undefined_value; assumption. }
  unfold angle_add, angle_sub, angle_mul, angle_div, angle_opp.
  rewrite (in_unit_undefined _ _ H), Hd.
  destruct (unit_eqb (aunit a) UUndefined) eqn:E.
  - rewrite orb_true_r. simpl. tauto.
  - assert (Hu : aunit a <> UUndefined) by (intros C; rewrite C in E; discriminate).
    rewrite (Hv Hu), !(Hc Hu). simpl.
    assert (HX : unit_eqb (aunit b) UUndefined = false ->
       (let! _ := converted (aunit a) b in @Err angle EUndefined) = Err EUndefined).
    { intros Eb. destruct (turns b) as [t |] eqn:Tb.
      - rewrite (converted_spec _ _ _ Tb Hu). reflexivity.
      - rewrite converted_undefined; [reflexivity | intros C; rewrite C in Eb; discriminate | exact Tb]. }
    destruct (unit_eqb (aunit b) UUndefined) eqn:Eb; simpl.
    + repeat split; try reflexivity.
      * destruct x; reflexivity.
      * intros Hx. destruct x as [x |]; simpl; [| reflexivity]. destruct Req_EM_T; [subst; congruence | reflexivity].
    + repeat split; try reflexivity; try (apply (HX eq_refl)).
      * destruct x; reflexivity.
      * intros Hx. destruct x as [x |]; simpl; [| reflexivity]. destruct Req_EM_T; [subst; congruence | reflexivity].
Qed.
