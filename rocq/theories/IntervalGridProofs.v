(** Lemmas about the grid generators (C13, C14, C71). *)

From Coq Require Import List Bool Reals Lra Lia Sorted ZArith Floats.SpecFloat.
From Verif Require Import Result DOrder IntervalModel IntervalSpec IntervalProofs IntervalGridModel.
Import ListNotations.
Local Open Scope R_scope.

Lemma up_loop_spec s u : 0 < s -> forall n fuel v0, (n < fuel)%nat -> u <= v0 + INR n * s ->
  exists g, up_loop fuel s u v0 = Ok g /\ StronglySorted Rlt g /\
    (forall v, In v g <-> v < u /\ exists k, v = v0 + INR k * s).
Proof.
  intros Hs. induction n as [|n IH]; intros fuel v0 Hf Hu.
  - destruct fuel as [|f]; [lia|]. cbn [up_loop]. replace (Rltb v0 u) with false.
    2:{ symmetry. apply Rltb_false. simpl in Hu. lra. }
    exists []. split; auto. split; [constructor|]. intros v. split; [intros []|].
    intros [K [k ->]]. simpl in Hu. pose proof (pos_INR k). nra.
  - destruct fuel as [|f]; [lia|]. cbn [up_loop]. destruct (Rltb v0 u) eqn:E.
    + apply Rltb_true in E. destruct (IH f (v0 + s)) as (g & -> & Sg & Hg); [lia| |].
      { rewrite S_INR in Hu. lra. }
      exists (v0 :: g). split; auto.
      assert (Hk : forall v, In v g <-> v < u /\ exists k, v = v0 + INR (S k) * s).
      { intros v. rewrite Hg. split; intros [H [k ->]]; (split; [auto|]); exists k; rewrite S_INR; ring. }
      split.
      * constructor; auto. apply Forall_forall. intros v Hv. apply Hk in Hv. destruct Hv as [_ [k ->]].
        rewrite S_INR. pose proof (pos_INR k). nra.
      * intros v. cbn [In]. rewrite Hk. split.
        -- intros [<-|[H [k ->]]]; [split; auto; exists 0%nat; simpl; ring|]. split; auto. exists (S k); auto.
        -- intros [H [[|k] ->]]; [left; simpl; ring|]. right. split; auto. exists k; auto.
    + apply Rltb_false in E. exists []. split; auto. split; [constructor|]. intros v. split; [intros []|].
      intros [K [k ->]]. pose proof (pos_INR k). nra.
Qed.

Lemma down_loop_spec s l : s < 0 -> forall n fuel v0, (n < fuel)%nat -> v0 + INR n * s <= l ->
  exists g, down_loop fuel s l v0 = Ok g /\ StronglySorted Rgt g /\
    (forall v, In v g <-> l < v /\ exists k, v = v0 + INR k * s).
Proof.
  intros Hs. induction n as [|n IH]; intros fuel v0 Hf Hu.
  - destruct fuel as [|f]; [lia|]. cbn [down_loop]. replace (Rltb l v0) with false.
    2:{ symmetry. apply Rltb_false. simpl in Hu. lra. }
    exists []. split; auto. split; [constructor|]. intros v. split; [intros []|].
    intros [K [k ->]]. simpl in Hu. pose proof (pos_INR k). nra.
  - destruct fuel as [|f]; [lia|]. cbn [down_loop]. destruct (Rltb l v0) eqn:E.
    + apply Rltb_true in E. destruct (IH f (v0 + s)) as (g & -> & Sg & Hg); [lia| |].
      { rewrite S_INR in Hu. lra. }
      exists (v0 :: g). split; auto.
      assert (Hk : forall v, In v g <-> l < v /\ exists k, v = v0 + INR (S k) * s).
      { intros v. rewrite Hg. split; intros [H [k ->]]; (split; [auto|]); exists k; rewrite S_INR; ring. }
      split.
      * constructor; auto. apply Forall_forall. intros v Hv. apply Hk in Hv. destruct Hv as [_ [k ->]].
        rewrite S_INR. pose proof (pos_INR k). nra.
      * intros v. cbn [In]. rewrite Hk. split.
        -- intros [<-|[H [k ->]]]; [split; auto; exists 0%nat; simpl; ring|]. split; auto. exists (S k); auto.
        -- intros [H [[|k] ->]]; [left; simpl; ring|]. right. split; auto. exists k; auto.
    + apply Rltb_false in E. exists []. split; auto. split; [constructor|]. intros v. split; [intros []|].
      intros [K [k ->]]. pose proof (pos_INR k). nra.
Qed.

Lemma enough (d s : R) : 0 < s -> exists n, d <= INR n * s.
Proof.
  intros Hs. destruct (archimed_cor1 (s / (Rabs d + 1))) as (N & HN & HN0).
  { pose proof (Rabs_pos d). apply Rdiv_lt_0_compat; lra. }
  exists N. assert (0 < INR N) by (apply lt_0_INR; lia). pose proof (Rabs_pos d). pose proof (Rle_abs d).
  assert (/ INR N * INR N = 1) by (apply Rinv_l; lra).
  assert (s / (Rabs d + 1) * (Rabs d + 1) = s) by (field; lra).
  apply Rmult_lt_compat_r with (r := INR N) in HN; auto. rewrite H2 in HN.
  assert (Rabs d + 1 < s / (Rabs d + 1) * INR N * (Rabs d + 1)) by nra.
  replace (s / (Rabs d + 1) * INR N * (Rabs d + 1)) with (s * INR N) in H4 by (field; lra). lra.
Qed.

Lemma sorted_snoc (P : R -> R -> Prop) g u : StronglySorted P g -> (forall v, In v g -> P v u) ->
  StronglySorted P (g ++ [u]).
Proof.
  intros S H. induction S as [|a g S IH F]; cbn; [repeat constructor|].
  constructor; [apply IH; intros; apply H; simpl; auto|]. apply Forall_app. split; auto.
  constructor; auto. apply H; simpl; auto.
Qed.

Lemma R_mem t (l u v : R) : t <> TUndefined -> (mem (D := R_order) (mkI (D := R_order) t (Some l) (Some u)) v <->
  (if closed_left t then l <= v else l < v) /\ (if closed_right t then v <= u else v < u)).
Proof.
  intros Ht. rewrite (mem_iff (D := R_order)) by auto. cbn [ltb R_order car].
  destruct (closed_left t), (closed_right t); rewrite ?Rltb_true, ?Rltb_false; tauto.
Qed.

Lemma R_valid_inv (i : interval R_order) : valid i -> exists t (l u : R), i = mkI (D := R_order) t (Some l) (Some u) /\
  t <> TUndefined /\ (l < u \/ l = u /\ t = TClosed).
Proof.
  intros H. destruct (valid_inv i H) as (t & l & u & E & Ht & K). exists t, l, u. split; auto. split; auto.
  cbn [ltb R_order] in K. rewrite Rltb_true in K. auto.
Qed.

Lemma R_open t (l u : R) : t <> TUndefined ->
  @open_interval R_order (mkI (D := R_order) t (Some l) (Some u)) = Ok (t, l, u).
Proof. apply (open_interval_defined (D := R_order)). Qed.

Lemma withStep_pos (i : interval R_order) (l u s : R) : valid i -> ilb i = Some l -> iub i = Some u -> 0 < s ->
  exists N g, (forall fuel, (N <= fuel)%nat -> generateArrayWithStep fuel i (Some s) = Ok g) /\
    StronglySorted Rlt g /\
    (forall v : R, In v g <-> mem i v /\ ((exists k, v = l + INR k * s) \/ v = u)).
Proof.
  intros Hi El Eu Hs. destruct (R_valid_inv i Hi) as (t & l' & u' & -> & Ht & V).
  cbn in El, Eu. injection El as ->. injection Eu as ->.
  destruct (enough (u - l) s Hs) as [n Hn].
  assert (Hst : exists k0, (if open_left t then l + s else l) = l + INR k0 * s /\ (k0 = 0%nat <-> closed_left t = true) /\ (k0 <= 1)%nat).
  { destruct t; try congruence; cbn; [exists 0%nat|exists 1%nat|exists 1%nat|exists 0%nat];
      (split; [simpl; ring|split; [intuition (discriminate || lia)|lia]]). }
  destruct Hst as (k0 & Hst & Hk0 & Hk1).
  destruct (up_loop_spec s u Hs n (S n) (if open_left t then l + s else l)) as (g0 & Eg0 & Sg & Hg); [lia| |].
  { rewrite Hst. pose proof (pos_INR k0). nra. }
  exists (S n), (if closed_right t then g0 ++ [u] else g0). split; [|split].
  - intros fuel Hf. unfold generateArrayWithStep. rewrite R_open by auto. cbn [bind].
    destruct (Req_EM_T s 0); [lra|]. replace (Rltb 0 s) with true by (symmetry; apply Rltb_true; auto).
    assert (Mono : forall f v g, up_loop f s u v = Ok g -> forall f', (f <= f')%nat -> up_loop f' s u v = Ok g).
    { clear. induction f as [|f IH]; intros v g H f' L; [discriminate|].
      destruct f'; [lia|]. cbn in *. destruct (Rltb v u); auto.
      destruct (up_loop f s u (v + s)) eqn:E; cbn in *; try discriminate. rewrite (IH _ _ E) by lia. auto. }
    rewrite (Mono _ _ _ Eg0) by lia. auto.
  - destruct (closed_right t); auto. apply sorted_snoc; auto. intros v Hv. apply Hg in Hv. tauto.
  - intros v. rewrite R_mem by auto.
    assert (K : In v g0 <-> v < u /\ (if closed_left t then l <= v else l < v) /\ exists k, v = l + INR k * s).
    { rewrite Hg, Hst. split.
      - intros [H [k ->]]. split; auto. split; [|exists (k0 + k)%nat; rewrite plus_INR; ring].
        pose proof (pos_INR k). destruct (closed_left t) eqn:C.
        + pose proof (pos_INR k0). nra.
        + assert (k0 = 1)%nat as -> by (destruct k0 as [|[|]]; [|auto|lia]; exfalso; pose proof (proj1 Hk0 eq_refl); congruence). 
          simpl. nra.
      - intros (H & B & k & ->). split; auto. destruct (closed_left t) eqn:C.
        + assert (k0 = 0%nat) as -> by tauto. exists k. simpl. ring.
        + destruct k as [|k]; [simpl in B; lra|]. exists (S k - k0)%nat. rewrite minus_INR by lia. ring. }
    destruct (closed_right t) eqn:C.
    + rewrite in_app_iff. cbn [In]. rewrite K. split.
      * intros [(H & B & k & E)|[<-|[]]].
        -- split; [split; [auto|lra]|]. left; exists k; auto.
        -- split; auto. split; [|lra]. destruct (closed_left t) eqn:C'; [lra|].
           destruct V as [V|[V ->]]; [lra|discriminate].
      * intros [[B H] [E| ->]]; auto. destruct (Rlt_dec v u); [left; auto|]. right; left. lra.
    + rewrite K. split.
      * intros (H & B & k & E). split; auto. left; exists k; auto.
      * intros [[B H] [E|E]]; auto. lra.
Qed.

Lemma withStep_neg (i : interval R_order) (l u s : R) : valid i -> ilb i = Some l -> iub i = Some u -> s < 0 ->
  exists N g, (forall fuel, (N <= fuel)%nat -> generateArrayWithStep fuel i (Some s) = Ok g) /\
    StronglySorted Rgt g /\
    (forall v : R, In v g <-> mem i v /\ ((exists k, v = u + INR k * s) \/ v = l)).
Proof.
  intros Hi El Eu Hs. destruct (R_valid_inv i Hi) as (t & l' & u' & -> & Ht & V).
  cbn in El, Eu. injection El as ->. injection Eu as ->.
  destruct (enough (u - l) (- s)) as [n Hn]; [lra|].
  assert (Hst : exists k0, (if open_right t then u + s else u) = u + INR k0 * s /\ (k0 = 0%nat <-> closed_right t = true) /\ (k0 <= 1)%nat).
  { destruct t; try congruence; cbn; [exists 0%nat|exists 1%nat|exists 0%nat|exists 1%nat];
      (split; [simpl; ring|split; [intuition (discriminate || lia)|lia]]). }
  destruct Hst as (k0 & Hst & Hk0 & Hk1).
  destruct (down_loop_spec s l Hs n (S n) (if open_right t then u + s else u)) as (g0 & Eg0 & Sg & Hg); [lia| |].
  { rewrite Hst. pose proof (pos_INR k0). nra. }
  exists (S n), (if closed_left t then g0 ++ [l] else g0). split; [|split].
  - intros fuel Hf. unfold generateArrayWithStep. rewrite R_open by auto. cbn [bind].
    destruct (Req_EM_T s 0); [lra|]. replace (Rltb 0 s) with false by (symmetry; apply Rltb_false; lra).
    assert (Mono : forall f v g, down_loop f s l v = Ok g -> forall f', (f <= f')%nat -> down_loop f' s l v = Ok g).
    { clear. induction f as [|f IH]; intros v g H f' L; [discriminate|].
      destruct f'; [lia|]. cbn in *. destruct (Rltb l v); auto.
      destruct (down_loop f s l (v + s)) eqn:E; cbn in *; try discriminate. rewrite (IH _ _ E) by lia. auto. }
    rewrite (Mono _ _ _ Eg0) by lia. auto.
  - destruct (closed_left t); auto. apply sorted_snoc; auto. intros v Hv. apply Hg in Hv. unfold Rgt. tauto.
  - intros v. rewrite R_mem by auto.
    assert (K : In v g0 <-> l < v /\ (if closed_right t then v <= u else v < u) /\ exists k, v = u + INR k * s).
    { rewrite Hg, Hst. split.
      - intros [H [k ->]]. split; auto. split; [|exists (k0 + k)%nat; rewrite plus_INR; ring].
        pose proof (pos_INR k). destruct (closed_right t) eqn:C.
        + pose proof (pos_INR k0). nra.
        + assert (k0 = 1)%nat as -> by (destruct k0 as [|[|]]; [|auto|lia]; exfalso; pose proof (proj1 Hk0 eq_refl); congruence). 
          simpl. nra.
      - intros (H & B & k & ->). split; auto. destruct (closed_right t) eqn:C.
        + assert (k0 = 0%nat) as -> by tauto. exists k. simpl. ring.
        + destruct k as [|k]; [simpl in B; lra|]. exists (S k - k0)%nat. rewrite minus_INR by lia. ring. }
    destruct (closed_left t) eqn:C.
    + rewrite in_app_iff. cbn [In]. rewrite K. split.
      * intros [(H & B & k & E)|[<-|[]]].
        -- split; [split; [lra|auto]|]. left; exists k; auto.
        -- split; auto. split; [lra|]. destruct (closed_right t) eqn:C'; [lra|].
           destruct V as [V|[V ->]]; [lra|discriminate].
      * intros [[H B] [E| ->]]; auto. destruct (Rlt_dec l v); [left; auto|]. right; left. lra.
    + rewrite K. split.
      * intros (H & B & k & E). split; auto. left; exists k; auto.
      * intros [[H B] [E|E]]; auto. lra.
Qed.

Lemma withStep_errors fuel (i : interval R_order) :
  (undefined i -> forall s, generateArrayWithStep fuel i s = Err EUndefined) /\
  (valid i -> generateArrayWithStep fuel i None = Err EUndefined) /\
  (valid i -> generateArrayWithStep fuel i (Some 0) = Err ERuntime).
Proof.
  split; [|split].
  - intros H s. unfold generateArrayWithStep, open_interval, isDefined.
    destruct i as [t [l|] [u|]]; destruct t; cbn in *; auto; destruct H as [H|[H|H]]; discriminate.
  - intros H. destruct (R_valid_inv i H) as (t & l & u & -> & Ht & _). unfold generateArrayWithStep.
    rewrite R_open by auto. auto.
  - intros H. destruct (R_valid_inv i H) as (t & l & u & -> & Ht & _). unfold generateArrayWithStep.
    rewrite R_open by auto. cbn [bind]. destruct (Req_EM_T 0 0); auto. lra.
Qed.

Lemma fill_spec n : forall s v, length (fill n s v) = n /\
  (forall k, (k < n)%nat -> nth_error (fill n s v) k = Some (v + INR k * s)).
Proof.
  induction n as [|n IH]; intros s v; cbn [fill length]; [split; [auto|intros; lia]|].
  destruct (IH s (v + s)) as [H1 H2]. split; [auto|]. intros [|k] Hk.
  - cbn. f_equal. ring.
  - cbn [nth_error]. rewrite H2 by lia. rewrite S_INR. f_equal. ring.
Qed.

Lemma first_index_if t : first_index t = if closed_left t then 0%nat else 1%nat.
Proof. destruct t; reflexivity. Qed.
Lemma cells_if t n : cells t n = (n - 1 + (if closed_left t then 0 else 1) + (if closed_right t then 0 else 1))%nat.
Proof. destruct t; reflexivity. Qed.

Lemma withSize_spec t (l u : R) n : valid (mkI (D := R_order) t (Some l) (Some u)) -> (2 <= n)%nat ->
  exists g, generateArrayWithSize (mkI (D := R_order) t (Some l) (Some u)) n = Ok g /\ length g = n /\
    (forall k, (k < n)%nat ->
       nth_error g k = Some (l + INR (k + first_index t) * ((u - l) / INR (cells t n)))).
Proof.
  intros V Hn. pose proof V as [Ht _].
  unfold generateArrayWithSize. replace (Nat.ltb n 2) with false by (symmetry; apply Nat.ltb_ge; lia).
  rewrite R_open by auto. cbn [itp bind].
  destruct t; try congruence; eexists; (split; [reflexivity|]); (split; [apply fill_spec|]);
    intros k Hk; rewrite (proj2 (fill_spec _ _ _)) by auto; f_equal; rewrite ?first_index_if, ?cells_if; cbn [closed_left closed_right itype_eqb orb];
    rewrite (plus_INR k); change (INR 0) with 0; change (INR 1) with 1.
  - replace (n - 1 + 0 + 0)%nat with (n - 1)%nat by lia. ring.
  - replace (n - 1 + 1 + 1)%nat with (n + 1)%nat by lia. ring.
  - replace (n - 1 + 1 + 0)%nat with n by lia. ring.
  - replace (n - 1 + 0 + 1)%nat with n by lia. ring.
Qed.

Lemma withSize_mem t (l u : R) n : valid (mkI (D := R_order) t (Some l) (Some u)) -> l < u -> (2 <= n)%nat ->
  exists g, generateArrayWithSize (mkI (D := R_order) t (Some l) (Some u)) n = Ok g /\
    (forall v, In v g -> mem (D := R_order) (mkI (D := R_order) t (Some l) (Some u)) v) /\
    StronglySorted Rlt g /\
    (In l g <-> lower_included t) /\ (In u g <-> upper_included t).
Proof.
  intros V Hlu Hn. pose proof V as [Ht _]. destruct (withSize_spec t l u n V Hn) as (g & Eg & Lg & Ng).
  exists g. split; auto.
  assert (Hc : (0 < cells t n)%nat) by (rewrite cells_if; lia).
  assert (Hc' : 0 < INR (cells t n)) by (apply lt_0_INR; auto).
  set (s := (u - l) / INR (cells t n)) in *.
  assert (Hs : 0 < s) by (apply Rdiv_lt_0_compat; lra).
  assert (Hu : l + INR (cells t n) * s = u) by (unfold s; field; lra).
  assert (In_iff : forall v, In v g <-> exists k, (first_index t <= k)%nat /\ (k < n + first_index t)%nat /\ v = l + INR k * s).
  { intros v. split.
    - intros H. apply In_nth_error in H. destruct H as [k Hk].
      assert (k < n)%nat by (rewrite <- Lg; apply nth_error_Some; congruence).
      rewrite Ng in Hk by auto. injection Hk as <-. exists (k + first_index t)%nat. repeat split; auto; lia.
    - intros (k & K1 & K2 & ->). apply (nth_error_In g (k - first_index t)). rewrite Ng by lia.
      f_equal. f_equal. f_equal. f_equal. lia. }
  assert (Inj : forall k k', l + INR k * s = l + INR k' * s -> k = k').
  { intros k k' H. apply INR_eq. nra. }
  assert (B : closed_left t = negb (Nat.eqb (first_index t) 1)) by (rewrite first_index_if; destruct (closed_left t); auto).
  assert (Lt : forall k k', (k < k')%nat -> l + INR k * s < l + INR k' * s) by (intros k k' H; apply lt_INR in H; nra).
  split; [|split; [|split]].
  - intros v Hv. apply In_iff in Hv. destruct Hv as (k & K1 & K2 & ->). rewrite R_mem by auto. split.
    + assert (E0 : l = l + INR 0 * s) by (simpl; ring). rewrite first_index_if in K1.
      destruct (closed_left t); [|rewrite E0 at 1; apply Lt; lia]. pose proof (pos_INR k). nra.
    + assert (H : if closed_right t then (k <= cells t n)%nat else (k < cells t n)%nat)
        by (rewrite ?cells_if, ?first_index_if in *; destruct (closed_left t), (closed_right t); lia).
      destruct (closed_right t); [apply le_INR in H|apply lt_INR in H]; nra.
  - clear - Ng Lg Lt. assert (Hi : forall k k' x y, (k < k')%nat -> nth_error g k = Some x -> nth_error g k' = Some y -> x < y).
    { intros k k' x y H H1 H2. assert (k' < n)%nat by (rewrite <- Lg; apply nth_error_Some; congruence).
      rewrite Ng in H1 by lia. rewrite Ng in H2 by lia. injection H1 as <-. injection H2 as <-. apply Lt. lia. }
    clear - Hi. induction g as [|a g IH]; constructor.
    + apply IH. intros k k' x y H H1 H2. apply (Hi (S k) (S k')); auto. lia.
    + apply Forall_forall. intros y Hy. apply In_nth_error in Hy. destruct Hy as [k Hk].
      apply (Hi 0%nat (S k) a y); auto. lia.
  - rewrite In_iff. unfold lower_included. split.
    + intros (k & K1 & K2 & E). assert (k = 0)%nat as -> by (apply Inj; rewrite <- E; simpl; ring).
      rewrite first_index_if in K1. destruct t; cbn in *; auto; try lia; congruence.
    + intros H. exists 0%nat. assert (first_index t = 0)%nat as -> by (destruct H as [-> | ->]; auto).
      repeat split; auto; [lia|simpl; ring].
  - rewrite In_iff. unfold upper_included. split.
    + intros (k & K1 & K2 & E). assert (k = cells t n)%nat as -> by (apply Inj; rewrite <- E; auto).
      rewrite ?cells_if, ?first_index_if in *. destruct t; cbn in *; auto; try lia; congruence.
    + intros H. exists (cells t n). rewrite ?cells_if, ?first_index_if.
      destruct H as [-> | ->]; cbn; (split; [lia|split; [lia|]]); rewrite <- Hu at 1; reflexivity.
Qed.

Lemma withSize_errors (i : interval R_order) n :
  ((n < 2)%nat -> generateArrayWithSize i n = Err EWrong) /\
  (undefined i -> exists e, generateArrayWithSize i n = Err e).
Proof.
  unfold generateArrayWithSize. split.
  - intros H. apply Nat.ltb_lt in H. rewrite H. auto.
  - intros H. destruct (Nat.ltb n 2); [eauto|].
    destruct i as [t [l|] [u|]]; destruct t; cbn in *; eauto; destruct H as [H|[H|H]]; discriminate.
Qed.

(** Binary64: 2^53 + 1 rounds back to 2^53. *)
Definition f64_1 := S754_finite false 4503599627370496 (-52).
Definition f64_two53 := S754_finite false 4503599627370496 1.
Definition f64_two54 := S754_finite false 4503599627370496 2.

Lemma step_loop64_stuck fuel : step_loop64 fuel f64_1 f64_two54 f64_two53 = Err OutOfFuel.
Proof.
  induction fuel as [|f IH]; auto. cbn [step_loop64].
  replace (SFltb f64_two53 f64_two54) with true by (vm_compute; auto).
  replace (f64_add f64_two53 f64_1) with f64_two53 by (vm_compute; auto).
  rewrite IH. auto.
Qed.
