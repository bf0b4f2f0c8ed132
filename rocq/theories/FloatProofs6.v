(** Interval grids in double precision. *)

From Coq Require Import List Bool Arith ZArith Reals Lra Lia Floats.SpecFloat.
From Verif Require Import Result IntervalModel IntervalSpec IntervalGridModel AngleModel AngleSpec FloatSpec FloatProofs FloatProofs2 FloatModel FloatProofs3 FloatProofs4 FloatProofs5.
Import ListNotations.
Local Open Scope R_scope.

(** *** generateArrayWithStep *)
(** One rounded step. *)
Lemma step_up v s B : finite64 v -> finite64 s -> 0 < rval s -> P2 52 * rval s <= P2 1000 -> Rabs (rval v) <= P2 52 * rval s -> Rabs (rval v + rval s) <= B ->
  nearest64 (rval v + rval s) (f64_add v s) /\ rval v + rval s / 4 <= rval (f64_add v s) /\
  Rabs (rval (f64_add v s) - (rval v + rval s)) <= P2 (-53) * B.
Proof.
  intros Fv Fs S U V BB. apply abs_le in V as V'.
  pose proof (P2_mono 1 52 ltac:(lia)) as Q. rewrite <- (P2_Z 1) in Q by lia. change (IZR (2 ^ 1)) with 2 in Q.
  assert (S2 : Rabs (rval v + rval s) <= P2 52 * rval s + rval s) by (apply abs_of; lra).
  assert (UU : Rabs (rval v + rval s) <= P2 1023).
  { eapply Rle_trans; [exact S2 |]. pose proof (P2_mono 1000 1022 ltac:(lia)). pose proof (P2_succ 1022) as X. change (1022 + 1)%Z with 1023%Z in X. nra. }
  destruct (SFadd_rounded v s Fv Fs UU) as [N _]. pose proof (add_err v s Fv Fs UU) as E. unfold f64_add. split; [exact N |].
  pose proof (P2_pos (-53)) as P. split.
  - assert (P2 (-53) * Rabs (rval v + rval s) <= 3 / 4 * rval s).
    { apply Rle_trans with (P2 (-53) * (P2 52 * rval s + rval s)); [apply Rmult_le_compat_l; lra |].
      replace (P2 (-53) * (P2 52 * rval s + rval s)) with ((P2 (-53) * P2 52 + P2 (-53)) * rval s) by ring. apply Rmult_le_compat_r; [lra |].
      rewrite <- P2_add. change (-53 + 52)%Z with (-1)%Z. rewrite e53_P2, P2_m by lia. change (2 ^ (- -1))%Z with 2%Z. unfold e53. lra. }
    apply abs_le in E. lra.
  - eapply Rle_trans; [exact E |]. apply Rmult_le_compat_l; lra.
Qed.
Definition drifts (base s M : R) (j : nat) (g : list spec_float) : Prop :=
  forall k v, nth_error g k = Some v -> finite64 v /\ Rabs (rval v - (base + INR (j + k) * s)) <= INR (j + k) * (P2 (-53) * M).
Lemma drifts_cons base s M j v g : finite64 v -> Rabs (rval v - (base + INR j * s)) <= INR j * (P2 (-53) * M) -> drifts base s M (S j) g -> drifts base s M j (v :: g).
Proof.
  intros F H D [| k] w E; cbn in E.
  - injection E as <-. rewrite Nat.add_0_r. split; assumption.
  - replace (j + S k)%nat with (S j + k)%nat by lia. exact (D k w E).
Qed.
Lemma drift_next base s M j v v' : Rabs (rval v - (base + INR j * s)) <= INR j * (P2 (-53) * M) -> Rabs (rval v' - (rval v + s)) <= P2 (-53) * M ->
  Rabs (rval v' - (base + INR (S j) * s)) <= INR (S j) * (P2 (-53) * M).
Proof. rewrite S_INR. intros A B. apply abs_le in A. apply abs_le in B. apply abs_of. lra. Qed.
Lemma climb_loop s u base M lo : finite64 s -> finite64 u -> 0 < rval s -> P2 52 * rval s <= P2 1000 -> Rabs (rval u) <= P2 52 * rval s ->
  - (P2 52 * rval s) <= lo -> (forall x, lo <= x <= rval u -> Rabs (x + rval s) <= M) ->
  forall n v j, finite64 v -> lo <= rval v -> rval u - rval v < INR n * (rval s / 4) ->
  (rval v < rval u -> Rabs (rval v - (base + INR j * rval s)) <= INR j * (P2 (-53) * M)) ->
  exists g, (forall fuel, (n < fuel)%nat -> step_loop64 fuel s u v = Ok g) /\ climbs64 (rval s) (rval u) v g /\
    drifts base (rval s) M j g /\ Forall (fun x => rval v <= rval x < rval u) g.
Proof.
  intros Fs Fu S0 U Bu BL BM n. apply abs_le in Bu as Bu'. induction n as [| n IH]; intros v j Fv L N D.
  - change (INR 0) with 0 in N. exists []. split; [| split; [| split]].
    + intros [| f] H; [lia |]. cbn [step_loop64]. rewrite ltb_f by (assumption || lra). reflexivity.
    + constructor. lra.
    + intros [| k] w E; discriminate.
    + constructor.
  - destruct (Rlt_le_dec (rval v) (rval u)) as [C | C].
    + specialize (D C).
      destruct (step_up v s M Fv Fs S0 U ltac:(apply abs_of; lra) (BM (rval v) ltac:(lra))) as (N' & P & E).
      rewrite S_INR in N.
      destruct (IH (f64_add v s) (S j) (proj1 N') ltac:(lra) ltac:(lra)) as (g & G1 & G2 & G3 & G4).
      { intros _. apply (drift_next base _ M j v _ D E). }
      exists (v :: g). split; [| split; [| split]].
      * intros [| f] H; [lia |]. cbn [step_loop64]. rewrite ltb_t by assumption. rewrite G1 by lia. reflexivity.
      * apply climbs_more with (f64_add v s); [exact C | lra | exact N' | exact G2].
      * apply drifts_cons; assumption.
      * constructor; [lra |]. eapply Forall_impl; [| exact G4]. cbn. intros x X. lra.
    + exists []. split; [| split; [| split]].
      * intros [| f] H; [lia |]. cbn [step_loop64]. rewrite ltb_f by assumption. reflexivity.
      * constructor. exact C.
      * intros [| k] w E; discriminate.
      * constructor.
Qed.
Lemma fall_step v s B : finite64 v -> finite64 s -> rval s < 0 -> P2 52 * - rval s <= P2 1000 -> Rabs (rval v) <= P2 52 * - rval s -> Rabs (rval v + rval s) <= B ->
  nearest64 (rval v + rval s) (f64_add v s) /\ rval (f64_add v s) <= rval v + rval s / 4 /\
  Rabs (rval (f64_add v s) - (rval v + rval s)) <= P2 (-53) * B.
Proof.
  intros Fv Fs S U V BB. apply abs_le in V as V'.
  pose proof (P2_mono 1 52 ltac:(lia)) as Q. rewrite <- (P2_Z 1) in Q by lia. change (IZR (2 ^ 1)) with 2 in Q.
  assert (S2 : Rabs (rval v + rval s) <= P2 52 * - rval s - rval s) by (apply abs_of; lra).
  assert (UU : Rabs (rval v + rval s) <= P2 1023).
  { eapply Rle_trans; [exact S2 |]. pose proof (P2_mono 1000 1022 ltac:(lia)). pose proof (P2_succ 1022) as X. change (1022 + 1)%Z with 1023%Z in X. nra. }
  destruct (SFadd_rounded v s Fv Fs UU) as [N _]. pose proof (add_err v s Fv Fs UU) as E. unfold f64_add. split; [exact N |].
  pose proof (P2_pos (-53)) as P. split.
  - assert (P2 (-53) * Rabs (rval v + rval s) <= 3 / 4 * - rval s).
    { apply Rle_trans with (P2 (-53) * (P2 52 * - rval s - rval s)); [apply Rmult_le_compat_l; lra |].
      replace (P2 (-53) * (P2 52 * - rval s - rval s)) with ((P2 (-53) * P2 52 + P2 (-53)) * - rval s) by ring. apply Rmult_le_compat_r; [lra |].
      rewrite <- P2_add. change (-53 + 52)%Z with (-1)%Z. rewrite e53_P2, P2_m by lia. change (2 ^ (- -1))%Z with 2%Z. unfold e53. lra. }
    apply abs_le in E. lra.
  - eapply Rle_trans; [exact E |]. apply Rmult_le_compat_l; lra.
Qed.
Lemma fall_loop s l base M hi : finite64 s -> finite64 l -> rval s < 0 -> P2 52 * - rval s <= P2 1000 -> Rabs (rval l) <= P2 52 * - rval s ->
  hi <= P2 52 * - rval s -> (forall x, rval l <= x <= hi -> Rabs (x + rval s) <= M) ->
  forall n v j, finite64 v -> rval v <= hi -> rval v - rval l < INR n * (- rval s / 4) ->
  (rval l < rval v -> Rabs (rval v - (base + INR j * rval s)) <= INR j * (P2 (-53) * M)) ->
  exists g, (forall fuel, (n < fuel)%nat -> down_loop64 fuel s l v = Ok g) /\ falls64 (rval s) (rval l) v g /\
    drifts base (rval s) M j g /\ Forall (fun x => rval l < rval x <= rval v) g.
Proof.
  intros Fs Fl S0 U Bl BH BM n. apply abs_le in Bl as Bl'. induction n as [| n IH]; intros v j Fv L N D.
  - change (INR 0) with 0 in N. exists []. split; [| split; [| split]].
    + intros [| f] H; [lia |]. cbn [down_loop64]. rewrite ltb_f by (assumption || lra). reflexivity.
    + constructor. lra.
    + intros [| k] w E; discriminate.
    + constructor.
  - destruct (Rlt_le_dec (rval l) (rval v)) as [C | C].
    + specialize (D C).
      destruct (fall_step v s M Fv Fs S0 U ltac:(apply abs_of; lra) (BM (rval v) ltac:(lra))) as (N' & P & E).
      rewrite S_INR in N.
      destruct (IH (f64_add v s) (S j) (proj1 N') ltac:(lra) ltac:(lra)) as (g & G1 & G2 & G3 & G4).
      { intros _. apply (drift_next base _ M j v _ D E). }
      exists (v :: g). split; [| split; [| split]].
      * intros [| f] H; [lia |]. cbn [down_loop64]. rewrite ltb_t by assumption. rewrite G1 by lia. reflexivity.
      * apply falls_more with (f64_add v s); [exact C | lra | exact N' | exact G2].
      * apply drifts_cons; assumption.
      * constructor; [lra |]. eapply Forall_impl; [| exact G4]. cbn. intros x X. lra.
    + exists []. split; [| split; [| split]].
      * intros [| f] H; [lia |]. cbn [down_loop64]. rewrite ltb_f by assumption. reflexivity.
      * constructor. exact C.
      * intros [| k] w E; discriminate.
      * constructor.
Qed.
Lemma max_abs a b x : a <= x <= b -> Rabs x <= Rmax (Rabs a) (Rabs b).
Proof.
  intros H. pose proof (Rmax_l (Rabs a) (Rabs b)). pose proof (Rmax_r (Rabs a) (Rabs b)). apply abs_of.
  pose proof (Rle_abs b). pose proof (Rle_abs (- a)) as Q. rewrite Rabs_Ropp in Q. lra.
Qed.
Lemma big_step s : 0 < s -> s <= IZR (2 ^ 900) -> P2 52 * s <= P2 1000.
Proof.
  intros H B. rewrite P2_Z in B by lia. change 1000%Z with (52 + 948)%Z. rewrite P2_add. pose proof (P2_mono 900 948 ltac:(lia)).
  apply Rmult_le_compat_l; [apply Rlt_le, P2_pos | lra].
Qed.
(** Positive steps. *)
Lemma c71_positive t l u s : t <> TUndefined -> finite64 l -> finite64 u -> finite64 s -> rval l <= rval u ->
  0 < rval s <= IZR (2 ^ 900) -> Rabs (rval l) <= IZR (2 ^ 52) * rval s -> Rabs (rval u) <= IZR (2 ^ 52) * rval s ->
  exists first g z, returns (fun fuel => withStep64 fuel t l u s) (g ++ z) /\
    (upper_included t -> z = [u]) /\ (~ upper_included t -> z = []) /\
    (lower_included t -> first = l) /\ (~ lower_included t -> nearest64 (rval l + rval s) first) /\
    climbs64 (rval s) (rval u) first g /\
    (forall k v, nth_error g k = Some v -> finite64 v /\ rval l <= rval v < rval u /\
       Rabs (rval v - (rval l + INR (first_index t + k) * rval s)) <=
         INR (first_index t + k) * (powerRZ 2 (-53) * (Rmax (Rabs (rval l)) (Rabs (rval u)) + rval s))).
Proof.
  intros T Fl Fu Fs LU [S0 S9] Bl Bu. rewrite IZR52 in *. change (powerRZ 2) with P2. pose proof (big_step _ S0 S9) as U.
  set (M := Rmax (Rabs (rval l)) (Rabs (rval u)) + rval s).
  assert (BM : forall x, rval l <= x <= rval u -> Rabs (x + rval s) <= M).
  { intros x X. unfold M. pose proof (max_abs _ _ _ X) as A. apply abs_le in A. apply abs_of. lra. }
  assert (Z0 : SFeqb s zero64 = false) by (apply not_true_iff_false; intros E; apply SFeqb_val in E; [cbn in E; lra | assumption | exact I]).
  assert (ZP : SFltb zero64 s = true) by (apply ltb_t; [exact I | assumption | exact S0]).
  set (first := if open_left t then f64_add l s else l).
  assert (FF : finite64 first /\ rval l <= rval first /\ (rval first < rval u -> Rabs (rval first - (rval l + INR (first_index t) * rval s)) <= INR (first_index t) * (P2 (-53) * M)) /\
    (lower_included t -> first = l) /\ (~ lower_included t -> nearest64 (rval l + rval s) first)).
  { destruct (step_up l s M Fl Fs S0 U Bl (BM (rval l) ltac:(lra))) as (N' & P & E).
    unfold first. unfold lower_included. destruct t; try congruence; cbn [open_left itype_eqb orb first_index].
    - split; [exact Fl |]. split; [lra |]. split; [intros _; change (INR 0) with 0; rewrite !Rmult_0_l; replace (rval l - (rval l + 0)) with 0 by ring; rewrite Rabs_R0; lra |]. split; [reflexivity | intros H; exfalso; apply H; auto].
    - split; [exact (proj1 N') |]. split; [lra |]. split; [intros _; change (INR 1) with 1; rewrite !Rmult_1_l; exact E |]. split; [intros [H | H]; discriminate | intros _; exact N'].
    - split; [exact (proj1 N') |]. split; [lra |]. split; [intros _; change (INR 1) with 1; rewrite !Rmult_1_l; exact E |]. split; [intros [H | H]; discriminate | intros _; exact N'].
    - split; [exact Fl |]. split; [lra |]. split; [intros _; change (INR 0) with 0; rewrite !Rmult_0_l; replace (rval l - (rval l + 0)) with 0 by ring; rewrite Rabs_R0; lra |]. split; [reflexivity | intros H; exfalso; apply H; auto]. }
  destruct FF as (Ff & Lf & Df & I1 & I2).
  destruct (nat_above ((rval u - rval first) / (rval s / 4))) as [n Hn].
  assert (Hn' : rval u - rval first < INR n * (rval s / 4)).
  { apply Rmult_lt_reg_r with (/ (rval s / 4)); [apply Rinv_0_lt_compat; lra |]. rewrite Rmult_assoc, Rinv_r by lra. unfold Rdiv at 1 in Hn. lra. }
  apply abs_le in Bl as Bl'.
  destruct (climb_loop s u (rval l) M (rval l) Fs Fu S0 U Bu ltac:(lra) BM n first (first_index t) Ff Lf Hn' Df) as (g & G1 & G2 & G3 & G4).
  exists first, g, (if closed_right t then [u] else []). split.
  { exists (S n). intros fuel H. unfold withStep64. rewrite Z0, ZP. fold first. rewrite G1 by lia. cbn [bind]. destruct (closed_right t); [reflexivity | rewrite app_nil_r; reflexivity]. }
  split; [intros [-> | ->]; reflexivity |]. split; [intros H; unfold upper_included in H; destruct t; try reflexivity; exfalso; apply H; auto |].
  split; [exact I1 |]. split; [exact I2 |]. split; [exact G2 |].
  intros k v E. destruct (G3 k v E) as [Fv Dv]. split; [exact Fv |]. split; [| exact Dv].
  rewrite Forall_forall in G4. specialize (G4 v (nth_error_In _ _ E)). cbn in G4. lra.
Qed.
(** Negative steps. *)
Lemma c71_negative t l u s : t <> TUndefined -> finite64 l -> finite64 u -> finite64 s -> rval l <= rval u ->
  0 < - rval s <= IZR (2 ^ 900) -> Rabs (rval l) <= IZR (2 ^ 52) * - rval s -> Rabs (rval u) <= IZR (2 ^ 52) * - rval s ->
  exists first g z, returns (fun fuel => withStep64 fuel t l u s) (g ++ z) /\
    (lower_included t -> z = [l]) /\ (~ lower_included t -> z = []) /\
    (upper_included t -> first = u) /\ (~ upper_included t -> nearest64 (rval u + rval s) first) /\
    falls64 (rval s) (rval l) first g /\
    (forall k v, nth_error g k = Some v -> finite64 v /\ rval l < rval v <= rval u /\
       Rabs (rval v - (rval u + INR (last_gap t + k) * rval s)) <=
         INR (last_gap t + k) * (powerRZ 2 (-53) * (Rmax (Rabs (rval l)) (Rabs (rval u)) - rval s))).
Proof.
  intros T Fl Fu Fs LU [S0 S9] Bl Bu. rewrite IZR52 in *. change (powerRZ 2) with P2. pose proof (big_step _ S0 S9) as U.
  set (M := Rmax (Rabs (rval l)) (Rabs (rval u)) - rval s).
  assert (BM : forall x, rval l <= x <= rval u -> Rabs (x + rval s) <= M).
  { intros x X. unfold M. pose proof (max_abs _ _ _ X) as A. apply abs_le in A. apply abs_of. lra. }
  assert (Z0 : SFeqb s zero64 = false) by (apply not_true_iff_false; intros E; apply SFeqb_val in E; [cbn in E; lra | assumption | exact I]).
  assert (ZP : SFltb zero64 s = false) by (apply ltb_f; [exact I | assumption | cbn; lra]).
  set (first := if open_right t then f64_add u s else u).
  assert (FF : finite64 first /\ rval first <= rval u /\ (rval l < rval first -> Rabs (rval first - (rval u + INR (last_gap t) * rval s)) <= INR (last_gap t) * (P2 (-53) * M)) /\
    (upper_included t -> first = u) /\ (~ upper_included t -> nearest64 (rval u + rval s) first)).
  { destruct (fall_step u s M Fu Fs ltac:(lra) U Bu (BM (rval u) ltac:(lra))) as (N' & P & E).
    unfold first. unfold upper_included. destruct t; try congruence; cbn [open_right itype_eqb orb last_gap].
    - split; [exact Fu |]. split; [lra |]. split; [intros _; change (INR 0) with 0; rewrite !Rmult_0_l; replace (rval u - (rval u + 0)) with 0 by ring; rewrite Rabs_R0; lra |]. split; [reflexivity | intros H; exfalso; apply H; auto].
    - split; [exact (proj1 N') |]. split; [lra |]. split; [intros _; change (INR 1) with 1; rewrite !Rmult_1_l; exact E |]. split; [intros [H | H]; discriminate | intros _; exact N'].
    - split; [exact Fu |]. split; [lra |]. split; [intros _; change (INR 0) with 0; rewrite !Rmult_0_l; replace (rval u - (rval u + 0)) with 0 by ring; rewrite Rabs_R0; lra |]. split; [reflexivity | intros H; exfalso; apply H; auto].
    - split; [exact (proj1 N') |]. split; [lra |]. split; [intros _; change (INR 1) with 1; rewrite !Rmult_1_l; exact E |]. split; [intros [H | H]; discriminate | intros _; exact N']. }
  destruct FF as (Ff & Lf & Df & I1 & I2).
  destruct (nat_above ((rval first - rval l) / (- rval s / 4))) as [n Hn].
  assert (Hn' : rval first - rval l < INR n * (- rval s / 4)).
  { apply Rmult_lt_reg_r with (/ (- rval s / 4)); [apply Rinv_0_lt_compat; lra |]. rewrite Rmult_assoc, Rinv_r by lra. unfold Rdiv at 1 in Hn. lra. }
  apply abs_le in Bu as Bu'.
  destruct (fall_loop s l (rval u) M (rval u) Fs Fl ltac:(lra) U Bl ltac:(lra) BM n first (last_gap t) Ff Lf Hn' Df) as (g & G1 & G2 & G3 & G4).
  exists first, g, (if closed_left t then [l] else []). split.
  { exists (S n). intros fuel H. unfold withStep64. rewrite Z0, ZP. fold first. rewrite G1 by lia. cbn [bind]. destruct (closed_left t); [reflexivity | rewrite app_nil_r; reflexivity]. }
  split; [intros [-> | ->]; reflexivity |]. split; [intros H; unfold lower_included in H; destruct t; try reflexivity; exfalso; apply H; auto |].
  split; [exact I1 |]. split; [exact I2 |]. split; [exact G2 |].
  intros k v E. destruct (G3 k v E) as [Fv Dv]. split; [exact Fv |]. split; [| exact Dv].
  rewrite Forall_forall in G4. specialize (G4 v (nth_error_In _ _ E)). cbn in G4. lra.
Qed.
(** [0, 1] with the double nearest 0.1 as step: ten multiples lie below 1, the grid has an eleventh. *)
Lemma c71_count_refuted : exists l u s g, finite64 l /\ finite64 u /\ finite64 s /\ 0 < rval s /\
  returns (fun fuel => withStep64 fuel THalfOpenRight l u s) g /\ length g = 11%nat /\ rval u <= rval l + INR 10 * rval s.
Proof.
  set (s := b64_div (b64_of_Z 1) (b64_of_Z 10)). assert (ES : s = S754_finite false 7205759403792794 (-56)) by (vm_compute; reflexivity).
  assert (VS : rval s = 7205759403792794 / 72057594037927936).
  { rewrite ES, rval_sg, P2_m by lia. change (2 ^ (- -56))%Z with 72057594037927936%Z. cbn [sg]. unfold Rdiv. ring. }
  destruct (of_Z_val 1 ltac:(lia)) as [F1 V1].
  eexists zero64, (b64_of_Z 1), s, _. split; [exact I |]. split; [exact F1 |]. split; [rewrite ES; reflexivity |]. split; [rewrite VS; lra |].
  split; [exists 15%nat; intros fuel H; do 15 (destruct fuel as [| fuel]; [lia |]); vm_compute; reflexivity |].
  split; [reflexivity |]. rewrite V1, VS. cbn [rval zero64 INR]. lra.
Qed.

(** *** generateArrayWithSize *)
Lemma fill64_length n s v : length (fill64 n s v) = n.
Proof. revert v. induction n as [| n IH]; intros v; cbn; [reflexivity | rewrite IH; reflexivity]. Qed.
(** [h]: the exact step, [d]: the error of the computed one. *)
Lemma fill64_drift s h B base (c N : nat) : finite64 s -> 0 < B <= P2 1000 -> Rabs h <= 2 * B -> Rabs (rval s - h) <= 6 * e53 * B -> INR N <= P2 41 ->
  (forall j, (j <= N)%nat -> Rabs (base + INR j * h) <= B) ->
  forall n v j, finite64 v -> (n + j <= S N)%nat -> (j <= N)%nat -> Rabs (rval v - (base + INR j * h)) <= INR (j + c) * (8 * e53 * B) -> INR (N + c) <= P2 42 ->
  forall k, (k < n)%nat -> exists w, nth_error (fill64 n s v) k = Some w /\ finite64 w /\ Rabs (rval w - (base + INR (j + k) * h)) <= INR (j + k + c) * (8 * e53 * B).
Proof.
  intros Fs [B0 B1] Hh Hs HN HB. induction n as [| n IH]; intros v j Fv NJ JN D NC k K; [lia |]. destruct k as [| k].
  - exists v. rewrite Nat.add_0_r. split; [reflexivity |]. split; assumption.
  - cbn [fill64 nth_error]. assert (JN' : (S j <= N)%nat) by lia.
    assert (Q : INR (j + c) * (8 * e53 * B) <= B / 64).
    { assert (INR (j + c) <= P2 42) by (eapply Rle_trans; [apply le_INR | exact NC]; lia). rewrite <- P2_Z in * by lia. change (IZR (2 ^ 42)) with 4398046511104 in *.
      pose proof (pos_INR (j + c)). apply Rle_trans with (4398046511104 * (8 * e53 * B)); [apply Rmult_le_compat_r; [unfold e53; lra | assumption] |]. unfold e53. lra. }
    pose proof (HB (S j) JN') as B'. rewrite S_INR in B'.
    assert (SB : Rabs (rval v + rval s) <= 3 / 2 * B).
    { apply abs_le in D. apply abs_le in Hs. apply abs_le in B'. apply abs_of. unfold e53 in *. lra. }
    assert (UU : Rabs (rval v + rval s) <= P2 1023).
    { eapply Rle_trans; [exact SB |]. pose proof (P2_mono 1000 1022 ltac:(lia)). pose proof (P2_succ 1022) as X. change (1022 + 1)%Z with 1023%Z in X. lra. }
    destruct (SFadd_rounded v s Fv Fs UU) as [N' _]. pose proof (add_err v s Fv Fs UU) as E. rewrite e53_P2 in E.
    replace (j + S k)%nat with (S j + k)%nat by lia. apply (IH (f64_add v s) (S j)); [exact (proj1 N') | lia | lia | | exact NC | lia].
    rewrite Nat.add_succ_l, !S_INR. unfold f64_add.
    assert (E' : Rabs (rval (SFadd 53 1024 v s) - (rval v + rval s)) <= e53 * (3 / 2 * B)) by (eapply Rle_trans; [exact E |]; apply Rmult_le_compat_l; [unfold e53; lra | exact SB]).
    apply abs_le in D. apply abs_le in Hs. apply abs_le in E'. apply abs_of. unfold e53 in *. lra.
Qed.
Lemma span_over l u (c : nat) B : finite64 l -> finite64 u -> P2 (-900) <= rval u - rval l -> B = Rmax (Rabs (rval l)) (Rabs (rval u)) -> B <= P2 900 ->
  (1 <= c)%nat -> INR c <= P2 41 ->
  finite64 (b64_div (sf_sub u l) (b64_of_Z (Z.of_nat c))) /\ Rabs (rval (b64_div (sf_sub u l) (b64_of_Z (Z.of_nat c))) - (rval u - rval l) / INR c) <= 6 * e53 * B.
Proof.
  intros Fl Fu L EB B9 C1 C2.
  pose proof (Rmax_l (Rabs (rval l)) (Rabs (rval u))) as M1. pose proof (Rmax_r (Rabs (rval l)) (Rabs (rval u))) as M2. rewrite <- EB in M1, M2.
  pose proof (P2_pos (-900)) as P0. apply abs_le in M1. apply abs_le in M2.
  assert (D2 : rval u - rval l <= 2 * B) by lra.
  assert (U : Rabs (rval u - rval l) <= P2 1023).
  { rewrite Rabs_right by lra. pose proof (P2_succ 900) as X. pose proof (P2_mono (900 + 1) 1023 ltac:(lia)). lra. }
  destruct (SFsub_rounded u l Fu Fl U) as [Nd _]. pose proof (proj1 Nd) as Fd. pose proof (sub_err u l Fu Fl U) as Ed. rewrite e53_P2 in Ed.
  rewrite (Rabs_right (rval u - rval l)) in Ed by lra. change (SFsub 53 1024 u l) with (sf_sub u l) in *.
  assert (CZ : (Z.abs (Z.of_nat c) <= 2 ^ 53)%Z).
  { apply le_IZR. rewrite Z.abs_eq by lia. rewrite <- INR_IZR_INZ. eapply Rle_trans; [exact C2 |]. rewrite P2_Z by lia. apply P2_mono. lia. }
  destruct (of_Z_val (Z.of_nat c) CZ) as [Fc Vc]. rewrite <- INR_IZR_INZ in Vc.
  assert (C1' : 1 <= INR c) by (apply (le_INR 1); exact C1).
  assert (RD : rel e53 (rval (sf_sub u l)) (rval u - rval l)).
  { exists ((rval (sf_sub u l) - (rval u - rval l)) / (rval u - rval l)). split; [field; lra |]. unfold Rdiv. rewrite Rabs_mult, Rabs_inv, (Rabs_right (rval u - rval l)) by lra.
    apply Rmult_le_reg_r with (rval u - rval l); [lra |]. rewrite Rmult_assoc, Rinv_l by lra. lra. }
  assert (E1 : e53 <= / 2) by (unfold e53; lra). pose proof (rel_size _ _ _ E1 RD) as SZ. rewrite (Rabs_right (rval u - rval l)) in SZ by lra.
  assert (IC : P2 (-41) <= / INR c <= 1).
  { split; [| rewrite <- Rinv_1; apply Rinv_le_contravar; lra]. replace (P2 (-41)) with (/ P2 41); [apply Rinv_le_contravar; lra |]. rewrite <- P2_Z, P2_m by lia. reflexivity. }
  assert (LB : P2 (-1000) <= Rabs (rval (sf_sub u l) / INR c) <= P2 1000).
  { unfold Rdiv. rewrite Rabs_mult, (Rabs_right (/ INR c)) by (pose proof (P2_pos (-41)); lra). split.
    - apply Rle_trans with (P2 (-901) * P2 (-41)); [rewrite <- P2_add; apply P2_mono; lia |]. pose proof (P2_succ (-901)) as X. change (-901 + 1)%Z with (-900)%Z in X.
      apply Rmult_le_compat; [apply Rlt_le, P2_pos.. | lra | lra].
    - apply Rle_trans with (P2 902 * 1); [| rewrite Rmult_1_r; apply P2_mono; lia]. pose proof (P2_succ 900) as X. pose proof (P2_succ 901) as Y. change (900 + 1)%Z with 901%Z in X. change (901 + 1)%Z with 902%Z in Y.
      apply Rmult_le_compat; [apply Rabs_pos | pose proof (P2_pos (-41)); lra | lra | lra]. }
  assert (R2 : rounded64 (rval (sf_sub u l) / rval (b64_of_Z (Z.of_nat c))) (b64_div (sf_sub u l) (b64_of_Z (Z.of_nat c)))).
  { apply SFdiv_rounded; [assumption.. | rewrite Vc; lra |]. rewrite Vc. pose proof (P2_mono 1000 1023 ltac:(lia)). lra. }
  rewrite Vc in R2. pose proof (P2_mono (-1021) (-1000) ltac:(lia)) as ML. pose proof (rel_of _ _ R2 ltac:(lra)) as R3. rewrite e53_P2 in R3.
  split; [exact (proj1 (proj1 R2)) |].
  pose proof (rel_mul _ _ _ _ _ _ RD (rel_refl (/ INR c))) as R4. pose proof (rel_trans _ _ _ _ _ R3 R4) as R5. apply rel_abs in R5.
  change ((rval u - rval l) * / INR c) with ((rval u - rval l) / INR c) in R5. eapply Rle_trans; [exact R5 |].
  assert (H2 : Rabs ((rval u - rval l) / INR c) <= 2 * B).
  { unfold Rdiv. rewrite Rabs_mult, (Rabs_right (/ INR c)), (Rabs_right (rval u - rval l)) by (pose proof (P2_pos (-41)); lra).
    apply Rle_trans with ((rval u - rval l) * 1); [apply Rmult_le_compat_l; lra | lra]. }
  pose proof (Rabs_pos ((rval u - rval l) / INR c)). unfold e53 in *. nra.
Qed.
Lemma c123_size t l u (n : nat) : t <> TUndefined -> finite64 l -> finite64 u -> (2 <= n)%nat -> INR n <= IZR (2 ^ 40) ->
  powerRZ 2 (-900) <= rval u - rval l -> Rmax (Rabs (rval l)) (Rabs (rval u)) <= powerRZ 2 900 ->
  exists g, withSize64 t l u n = Ok g /\ length g = n /\ (lower_included t -> nth_error g 0 = Some l) /\
    forall k, (k < n)%nat -> exists v, nth_error g k = Some v /\ finite64 v /\
      Rabs (rval v - (rval l + INR (k + first_index t) * ((rval u - rval l) / INR (cells t n)))) <=
        INR (k + first_index t) * (powerRZ 2 (-50) * Rmax (Rabs (rval l)) (Rabs (rval u))).
Proof.
  intros T Fl Fu N2 N4 L B9. change (powerRZ 2) with P2 in *. remember (Rmax (Rabs (rval l)) (Rabs (rval u))) as B eqn:EB.
  replace (P2 (-50)) with (8 * e53) by (rewrite P2_m by lia; unfold e53; change (2 ^ (- -50))%Z with 1125899906842624%Z; lra).
  assert (CB : (1 <= cells t n <= n + 1)%nat) by (unfold cells; destruct t; cbn; lia).
  assert (C41 : INR (cells t n) <= P2 41).
  { apply Rle_trans with (INR (n + 1)); [apply le_INR; lia |]. rewrite plus_INR. cbn [INR]. rewrite <- P2_Z by lia. change (IZR (2 ^ 40)) with 1099511627776 in N4. change (IZR (2 ^ 41)) with 2199023255552. lra. }
  destruct (span_over l u (cells t n) B Fl Fu L EB B9 (proj1 CB) C41) as [Fs Es].
  set (s := b64_div (sf_sub u l) (b64_of_Z (Z.of_nat (cells t n)))) in *. set (h := (rval u - rval l) / INR (cells t n)) in *.
  pose proof (Rmax_l (Rabs (rval l)) (Rabs (rval u))) as M1. pose proof (Rmax_r (Rabs (rval l)) (Rabs (rval u))) as M2. rewrite <- EB in M1, M2.
  pose proof (P2_pos (-900)) as P0. apply abs_le in M1 as M1'. apply abs_le in M2 as M2'.
  assert (B0 : 0 < B) by lra. pose proof (P2_mono 900 1000 ltac:(lia)) as M9.
  assert (C1 : 1 <= INR (cells t n)) by (apply (le_INR 1); lia).
  assert (HC : INR (cells t n) * h = rval u - rval l) by (unfold h; field; lra).
  assert (H0 : 0 <= h) by nra. assert (Hh : Rabs h <= 2 * B) by (rewrite Rabs_right by lra; nra).
  assert (HB : forall j, (j <= cells t n)%nat -> Rabs (rval l + INR j * h) <= B).
  { intros j J. apply le_INR in J. pose proof (pos_INR j). rewrite EB. apply max_abs. split; nra. }
  assert (NC : INR (cells t n + 0) <= P2 42) by (rewrite Nat.add_0_r; pose proof (P2_mono 41 42 ltac:(lia)); lra).
  assert (FI : (first_index t <= cells t n)%nat /\ (n + first_index t <= S (cells t n))%nat) by (unfold cells; lia).
  assert (W : exists v0, withSize64 t l u n = Ok (fill64 n s v0) /\ finite64 v0 /\ (lower_included t -> v0 = l) /\
    Rabs (rval v0 - (rval l + INR (first_index t) * h)) <= INR (first_index t + 0) * (8 * e53 * B)).
  { unfold withSize64. replace (Nat.ltb n 2) with false by (symmetry; apply Nat.ltb_ge; lia).
    assert (SB : Rabs (rval l + rval s) <= 3 / 2 * B).
    { pose proof (HB 1%nat ltac:(lia)) as Q. change (INR 1) with 1 in Q. apply abs_le in Q. apply abs_le in Es. apply abs_of. unfold e53 in *. lra. }
    assert (UU : Rabs (rval l + rval s) <= P2 1023).
    { eapply Rle_trans; [exact SB |]. pose proof (P2_mono 1000 1022 ltac:(lia)). pose proof (P2_succ 1022) as X. change (1022 + 1)%Z with 1023%Z in X. lra. }
    destruct (SFadd_rounded l s Fl Fs UU) as [N' _]. pose proof (add_err l s Fl Fs UU) as E. rewrite e53_P2 in E.
    assert (EA : Rabs (rval (f64_add l s) - (rval l + 1 * h)) <= 1 * (8 * e53 * B)).
    { unfold f64_add. assert (E' : Rabs (rval (SFadd 53 1024 l s) - (rval l + rval s)) <= e53 * (3 / 2 * B)) by (eapply Rle_trans; [exact E |]; apply Rmult_le_compat_l; [unfold e53; lra | exact SB]).
      apply abs_le in E'. apply abs_le in Es. apply abs_of. unfold e53 in *. lra. }
    assert (EZ : Rabs (rval l - (rval l + 0 * h)) <= 0 * (8 * e53 * B)) by (replace (rval l - (rval l + 0 * h)) with 0 by ring; rewrite Rabs_R0; lra).
    unfold lower_included. destruct t; try congruence; cbn [first_index Nat.add].
    - exists l. change (INR 0) with 0. split; [unfold s, cells; cbn [first_index last_gap]; rewrite !Nat.add_0_r; reflexivity |]. split; [exact Fl |]. split; [reflexivity | exact EZ].
    - exists (f64_add l s). change (INR 1) with 1. split; [unfold s, cells; cbn [first_index last_gap]; replace (n - 1 + 1 + 1)%nat with (n + 1)%nat by lia; reflexivity |]. split; [exact (proj1 N') |]. split; [intros [H | H]; discriminate | exact EA].
    - exists (f64_add l s). change (INR 1) with 1. split; [unfold s, cells; cbn [first_index last_gap]; replace (n - 1 + 1 + 0)%nat with n by lia; reflexivity |]. split; [exact (proj1 N') |]. split; [intros [H | H]; discriminate | exact EA].
    - exists l. change (INR 0) with 0. split; [unfold s, cells; cbn [first_index last_gap]; replace (n - 1 + 0 + 1)%nat with n by lia; reflexivity |]. split; [exact Fl |]. split; [reflexivity | exact EZ]. }
  destruct W as (v0 & W & F0 & I0 & E0). exists (fill64 n s v0). split; [exact W |]. split; [apply fill64_length |].
  split; [intros H; rewrite (I0 H); destruct n; [lia | reflexivity] |].
  intros k K. destruct (fill64_drift s h B (rval l) 0 (cells t n) Fs ltac:(lra) Hh Es C41 HB n v0 (first_index t) F0 (proj2 FI) (proj1 FI) E0 NC k K) as (w & W1 & W2 & W3).
  exists w. split; [exact W1 |]. split; [exact W2 |]. rewrite Nat.add_0_r, (Nat.add_comm (first_index t)) in W3. exact W3.
Qed.
(** Ten values of [0, 1] end above 1, eleven below 1. *)
Lemma c123_ends_refuted : exists l u g g' a b, finite64 l /\ finite64 u /\ withSize64 TClosed l u 10 = Ok (g ++ [a]) /\ finite64 a /\ rval u < rval a /\
  withSize64 TClosed l u 11 = Ok (g' ++ [b]) /\ finite64 b /\ rval b < rval u.
Proof.
  assert (SP : forall n (g : list spec_float), nth_error (rev g) 0 = Some n -> exists h, g = h ++ [n]).
  { intros n g H. exists (rev (tl (rev g))). rewrite <- (rev_involutive g) at 1. destruct (rev g) as [| x r]; cbn in *; [discriminate |]. injection H as ->. reflexivity. }
  destruct (withSize64 TClosed zero64 (b64_of_Z 1) 10) as [g | |] eqn:E; [| vm_compute in E; discriminate..].
  destruct (withSize64 TClosed zero64 (b64_of_Z 1) 11) as [g' | |] eqn:E'; [| vm_compute in E'; discriminate..].
  vm_compute in E, E'. injection E as E. injection E' as E'.
  destruct (SP (S754_finite false 4503599627370497 (-52)) g) as [h H]; [subst g; reflexivity |].
  destruct (SP (S754_finite false 9007199254740991 (-53)) g') as [h' H']; [subst g'; reflexivity |].
  exists zero64, (b64_of_Z 1), h, h', (S754_finite false 4503599627370497 (-52)), (S754_finite false 9007199254740991 (-53)).
  rewrite <- H, <- H'. destruct (of_Z_val 1 ltac:(lia)) as [F1 V1].
  split; [exact I |]. split; [exact F1 |]. split; [subst g; vm_compute; reflexivity |]. split; [reflexivity |].
  split; [apply SFltb_val; [exact F1 | reflexivity | vm_compute; reflexivity] |].
  split; [subst g'; vm_compute; reflexivity |]. split; [reflexivity |]. apply SFltb_val; [reflexivity | exact F1 | vm_compute; reflexivity].
Qed.
