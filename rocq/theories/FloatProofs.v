(** The operations of binary64 are correctly rounded. *)

From Coq Require Import Bool ZArith Reals Lra Lia Floats.SpecFloat.
From Verif Require Import TextProofs FloatSpec.
Local Open Scope R_scope.

(** *** Powers *)
Definition P2 (e : Z) : R := powerRZ 2 e.
Lemma P2_pos e : 0 < P2 e.
Proof. apply powerRZ_lt. lra. Qed.
Lemma P2_add a b : P2 (a + b) = P2 a * P2 b.
Proof. apply powerRZ_add. lra. Qed.
Lemma P2_succ a : P2 (a + 1) = 2 * P2 a.
Proof. rewrite P2_add. replace (P2 1) with 2 by (unfold P2; rewrite powerRZ_1; reflexivity). ring. Qed.
Lemma P2_Z e : (0 <= e)%Z -> IZR (2 ^ e) = P2 e.
Proof.
  intros H. unfold P2. rewrite <- (Z2Nat.id e H). rewrite <- pow_powerRZ. rewrite <- pow_IZR. reflexivity.
Qed.
Lemma P2_0 : P2 0 = 1.
Proof. reflexivity. Qed.
Lemma P2_opp e : P2 (- e) * P2 e = 1.
Proof. rewrite <- P2_add. replace (- e + e)%Z with 0%Z by lia. reflexivity. Qed.
Lemma P2_mono a b : (a <= b)%Z -> P2 a <= P2 b.
Proof.
  intros H. replace b with (a + (b - a))%Z by lia. rewrite P2_add. pose proof (P2_pos a).
  assert (1 <= P2 (b - a)); [| nra]. rewrite <- P2_Z by lia. apply IZR_le.
  pose proof (Z.pow_pos_nonneg 2 (b - a)). lia.
Qed.
Lemma P2_lt_inv a b : P2 a < P2 b -> (a < b)%Z.
Proof. intros H. destruct (Z.lt_ge_cases a b) as [L | L]; [exact L |]. pose proof (P2_mono b a L). lra. Qed.

(** *** A number, its integer part and where it is in between *)
Definition rinloc (m : Z) (l : location) (v : R) : Prop :=
  match l with
  | loc_Exact => v = IZR m
  | loc_Inexact Lt => IZR m < v /\ v < IZR m + / 2
  | loc_Inexact Eq => v = IZR m + / 2
  | loc_Inexact Gt => IZR m + / 2 < v /\ v < IZR m + 1
  end.
Lemma rinloc_range m l v : rinloc m l v -> IZR m <= v /\ v < IZR m + 1.
Proof. destruct l as [| []]; cbn; intros H; lra. Qed.
Definition rinrec (r : shr_record) (v : R) : Prop := rinloc (shr_m r) (loc_of_shr_record r) v.
Lemma rshr_step r v : (0 <= shr_m r)%Z -> rinrec r v -> (0 <= shr_m (shr_1 r))%Z /\ rinrec (shr_1 r) (v * / 2).
Proof.
  intros M H. destruct r as [m r s]. unfold rinrec in *. cbn [shr_m] in M. destruct m as [| p | p]; [| | lia].
  - split; [cbn; lia |]. destruct r, s; cbn in *; lra.
  - destruct p as [p | p |].
    + split; [cbn; lia |]. assert (E : IZR (Zpos (xI p)) = 2 * IZR (Zpos p) + 1).
      { change (Zpos (xI p)) with (2 * Zpos p + 1)%Z. rewrite plus_IZR, mult_IZR. reflexivity. }
      destruct r, s; cbn [loc_of_shr_record rinloc shr_1 shr_m orb] in *; rewrite ?E in H; lra.
    + split; [cbn; lia |]. assert (E : IZR (Zpos (xO p)) = 2 * IZR (Zpos p)).
      { change (Zpos (xO p)) with (2 * Zpos p)%Z. rewrite mult_IZR. reflexivity. }
      destruct r, s; cbn [loc_of_shr_record rinloc shr_1 shr_m orb] in *; rewrite ?E in H; lra.
    + split; [cbn; lia |]. destruct r, s; cbn in *; lra.
Qed.
Lemma rshr_steps k : forall r v, (0 <= shr_m r)%Z -> rinrec r v ->
  (0 <= shr_m (Nat.iter k shr_1 r))%Z /\ rinrec (Nat.iter k shr_1 r) (v * P2 (- Z.of_nat k)).
Proof.
  induction k as [| k IH]; intros r v M H.
  - split; [exact M |]. cbn [Nat.iter nat_rect]. change (P2 (- Z.of_nat 0)) with 1. rewrite Rmult_1_r. exact H.
  - cbn [Nat.iter nat_rect]. destruct (IH r v M H) as [M' H']. destruct (rshr_step _ _ M' H') as [M'' H'']. split; [exact M'' |].
    replace (- Z.of_nat k)%Z with (- Z.of_nat (S k) + 1)%Z in H'' by lia. rewrite P2_succ in H''.
    replace (v * (2 * P2 (- Z.of_nat (S k))) * / 2) with (v * P2 (- Z.of_nat (S k))) in H'' by field. exact H''.
Qed.
Lemma rrecord_of_loc m l v : rinloc m l v -> rinrec (shr_record_of_loc m l) v.
Proof. unfold rinrec. destruct l as [| []]; trivial. Qed.
Lemma rrecord_of_loc_m m l : shr_m (shr_record_of_loc m l) = m.
Proof. destruct l as [| []]; reflexivity. Qed.
Lemma rshr_in r e n v : (0 <= shr_m r)%Z -> rinrec r v -> (0 <= shr_m (fst (shr r e n)))%Z /\
  rinrec (fst (shr r e n)) (v * P2 (- Z.max n 0)) /\ snd (shr r e n) = (e + Z.max n 0)%Z.
Proof.
  intros M H. unfold shr. destruct n as [| p | p]; cbn [fst snd].
  - split; [exact M |]. split; [| lia]. change (P2 (- Z.max 0 0)) with 1. rewrite Rmult_1_r. exact H.
  - rewrite iter_pos_add. destruct (rshr_steps (Pos.to_nat p) r v M H) as [M' H']. split; [exact M' |]. split; [| lia].
    replace (Z.of_nat (Pos.to_nat p)) with (Zpos p) in H' by lia. exact H'.
  - split; [exact M |]. split; [| lia]. change (P2 (- Z.max (Zneg p) 0)) with 1. rewrite Rmult_1_r. exact H.
Qed.
Lemma rnearest_even_near m l v : rinloc m l v ->
  (- / 2 <= IZR (round_nearest_even m l) - v <= / 2) /\ (m <= round_nearest_even m l <= m + 1)%Z.
Proof.
  intros H. split.
  - destruct l as [| []]; cbn in *; try lra.
    + destruct (Z.even m); rewrite ?plus_IZR; lra.
    + rewrite plus_IZR; lra.
  - destruct l as [| []]; cbn; try lia. destruct (Z.even m); lia.
Qed.
Lemma rdigits2_bounds n : (0 < n)%Z -> (2 ^ (Zdigits2 n - 1) <= n < 2 ^ Zdigits2 n)%Z.
Proof.
  intros H. rewrite digits2_log by exact H. pose proof (Z.log2_spec n H) as [A B]. replace (Z.log2 n + 1 - 1)%Z with (Z.log2 n) by lia.
  replace (Z.log2 n + 1)%Z with (Z.succ (Z.log2 n)) by lia. split; assumption.
Qed.
Lemma rdigits2_pos n : (0 < n)%Z -> (1 <= Zdigits2 n)%Z.
Proof. intros H. rewrite digits2_log by exact H. pose proof (Z.log2_nonneg n). lia. Qed.
Lemma rdigits2_nonneg n : (0 <= Zdigits2 n)%Z.
Proof. destruct n; cbn; lia. Qed.
Lemma rdigits2_small n k : (0 <= n < 2 ^ k)%Z -> (0 <= k)%Z -> (Zdigits2 n <= k)%Z.
Proof.
  intros [A B] K. destruct (Z.eq_dec n 0) as [-> | N]; [exact K |]. rewrite digits2_log by lia.
  assert (Z.log2 n < k)%Z by (apply Z.log2_lt_pow2; lia). lia.
Qed.
Lemma rdigits2_large n k : (2 ^ k <= n)%Z -> (0 <= k)%Z -> (k + 1 <= Zdigits2 n)%Z.
Proof.
  intros A K. assert (0 < n)%Z by (pose proof (Z.pow_pos_nonneg 2 k); lia). rewrite digits2_log by lia.
  assert (k <= Z.log2 n)%Z by (apply Z.log2_le_pow2; lia). lia.
Qed.

(** *** Where the binary64 numbers are *)
Definition sg (s : bool) : R := if s then - 1 else 1.
Lemma sg_abs s x : 0 <= x -> Rabs (sg s * x) = x.
Proof. intros H. destruct s; cbn; [rewrite Rabs_left1 by lra | rewrite Rabs_right by lra]; lra. Qed.
Lemma bounded_spec m e : bounded 53 1024 m e = true <->
  (-1074 <= e <= 971)%Z /\ (Zpos m < 2 ^ 53)%Z /\ (e = -1074 \/ 2 ^ 52 <= Zpos m)%Z.
Proof.
  unfold bounded, canonical_mantissa, fexp, emin. rewrite andb_true_iff. rewrite <- Zle_is_le_bool.
  change (Zpos (digits2_pos m)) with (Zdigits2 (Zpos m)). pose proof (rdigits2_bounds (Zpos m) ltac:(lia)) as [D1 D2].
  pose proof (rdigits2_pos (Zpos m) ltac:(lia)) as D3. set (d := Zdigits2 (Zpos m)) in *. split.
  - intros [C E]. apply Zeq_bool_eq in C. split; [lia |]. split.
    + eapply Z.lt_le_trans; [exact D2 |]. apply Z.pow_le_mono_r; lia.
    + destruct (Z.eq_dec e (-1074)) as [-> | N]; [now left | right]. replace 52%Z with (d - 1)%Z by lia. exact D1.
  - intros [E [M F]]. split; [| lia]. apply Zeq_is_eq_bool.
    assert (d <= 53)%Z by (apply (rdigits2_small (Zpos m) 53); lia).
    destruct F as [-> | F]; [lia |]. assert (53 <= d)%Z by (apply (rdigits2_large (Zpos m) 52); lia). lia.
Qed.
Lemma finite_grid w E : finite64 w -> (-1074 <= E)%Z ->
  (exists M : Z, rval w = IZR M * P2 E) \/ Rabs (rval w) <= P2 (E + 52).
Proof.
  intros F LE. destruct w as [s | s | | s m e]; cbn [finite64] in F; try contradiction.
  - left. exists 0%Z. cbn. ring.
  - apply bounded_spec in F. destruct F as (B1 & B2 & B3). destruct (Z.le_gt_cases E e) as [C | C].
    + left. exists ((if s then -1 else 1) * Zpos m * 2 ^ (e - E))%Z. cbn [rval]. rewrite !mult_IZR, P2_Z by lia.
      fold (P2 e). replace (P2 e) with (P2 (e - E) * P2 E) by (rewrite <- P2_add; f_equal; lia). destruct s; ring.
    + right. cbn [rval]. fold (sg s). rewrite Rmult_assoc, sg_abs.
      2: { pose proof (P2_pos e). assert (0 < IZR (Zpos m)) by (apply IZR_lt; lia). unfold P2 in *. nra. }
      fold (P2 e). assert (IZR (Zpos m) <= P2 53) by (rewrite <- P2_Z by lia; apply IZR_le; lia). pose proof (P2_pos e).
      apply Rle_trans with (P2 53 * P2 e); [nra |]. rewrite <- P2_add. apply P2_mono. lia.
Qed.
Lemma finite_small w : finite64 w -> exists M : Z, rval w = IZR M * P2 (-1074).
Proof.
  intros F. destruct w as [s | s | | s m e]; cbn [finite64] in F; try contradiction.
  - exists 0%Z. cbn. ring.
  - apply bounded_spec in F. destruct F as (B1 & B2 & B3).
    exists ((if s then -1 else 1) * Zpos m * 2 ^ (e + 1074))%Z. cbn [rval]. rewrite !mult_IZR, P2_Z by lia.
    fold (P2 e). replace (P2 e) with (P2 (e + 1074) * P2 (-1074)) by (rewrite <- P2_add; f_equal; lia). destruct s; ring.
Qed.
(** A multiple of 2^E that is at most half of 2^E away is the nearest. *)
Lemma nearest_grid (E K : Z) t z : (-1074 <= E)%Z -> E = (-1074)%Z \/ P2 (E + 52) <= Rabs t -> finite64 z -> rval z = IZR K * P2 E ->
  Rabs (rval z - t) <= P2 E * / 2 -> nearest64 t z.
Proof.
  intros LE C F V H. split; [exact F |]. intros w W.
  assert (G : forall M : Z, rval w = IZR M * P2 E -> Rabs (rval z - t) <= Rabs (rval w - t)).
  { intros M HM. destruct (Z.eq_dec M K) as [-> | N]; [rewrite HM, V; lra |].
    assert (A : P2 E <= Rabs (rval w - rval z)).
    { rewrite HM, V. replace (IZR M * P2 E - IZR K * P2 E) with (IZR (M - K) * P2 E) by (rewrite minus_IZR; ring).
      rewrite Rabs_mult, (Rabs_right (P2 E)) by (left; apply P2_pos). rewrite <- abs_IZR.
      assert (1 <= IZR (Z.abs (M - K))) by (apply (IZR_le 1); lia). pose proof (P2_pos E). nra. }
    revert A H. unfold Rabs. repeat destruct Rcase_abs; lra. }
  assert (GG : (exists M : Z, rval w = IZR M * P2 E) \/ Rabs (rval w) <= P2 (E + 52)) by (apply finite_grid; assumption).
  destruct GG as [[M HM] | S]; [exact (G M HM) |].
  destruct C as [-> | C].
  { destruct (finite_small w W) as [M HM]. exact (G M HM). }
  assert (A : Rabs (rval z - t) <= Rabs t - P2 (E + 52)).
  2: { revert A S C. unfold Rabs. repeat destruct Rcase_abs; lra. }
  (* compare with the multiple 2^52 of 2^E on the side of t *)
  assert (Q : P2 (E + 52) = IZR (2 ^ 52) * P2 E) by (rewrite P2_add, P2_Z by lia; ring).
  pose proof (P2_pos E) as PE.
  destruct (Rle_lt_dec 0 t) as [T | T].
  - rewrite (Rabs_right t) in * by lra.
    destruct (Z.lt_trichotomy K (2 ^ 52)) as [L | [L | L]].
    + assert (IZR K <= IZR (2 ^ 52) - 1) by (change 1 with (IZR 1); rewrite <- minus_IZR; apply IZR_le; lia).
      revert H. rewrite V. unfold Rabs. destruct Rcase_abs; nra.
    + rewrite V, L, <- Q. rewrite Rabs_left1; lra.
    + assert (IZR (2 ^ 52) + 1 <= IZR K) by (change 1 with (IZR 1); rewrite <- plus_IZR; apply IZR_le; lia).
      revert H. rewrite V. unfold Rabs. destruct Rcase_abs; nra.
  - rewrite (Rabs_left t) in * by lra.
    destruct (Z.lt_trichotomy K (- 2 ^ 52)) as [L | [L | L]].
    + assert (IZR K <= - IZR (2 ^ 52) - 1) by (rewrite <- opp_IZR; change 1 with (IZR 1); rewrite <- minus_IZR; apply IZR_le; lia).
      revert H. rewrite V. unfold Rabs. destruct Rcase_abs; nra.
    + rewrite V, L, opp_IZR. replace (- IZR (2 ^ 52) * P2 E) with (- P2 (E + 52)) by lra. rewrite Rabs_right; lra.
    + assert (- IZR (2 ^ 52) + 1 <= IZR K) by (rewrite <- opp_IZR; change 1 with (IZR 1); rewrite <- plus_IZR; apply IZR_le; lia).
      revert H. rewrite V. unfold Rabs. destruct Rcase_abs; nra.
Qed.

(** *** Rounding *)
Lemma round_nearest s m e l v t : (0 <= m)%Z -> rinloc m l v -> t = v * P2 e -> t <= P2 1023 ->
  (e <= -1074)%Z \/ P2 (e + 52) <= t -> rounded64 (sg s * t) (binary_round_aux 53 1024 s m e l).
Proof.
  intros M H T U L.
  assert (P : (0 < m)%Z -> P2 (Zdigits2 m - 1 + e) <= t).
  { intros M'. rewrite T, P2_add. apply Rmult_le_compat_r; [apply Rlt_le, P2_pos |].
    destruct (rinloc_range _ _ _ H) as [R _]. eapply Rle_trans; [| exact R]. pose proof (rdigits2_pos m M').
    rewrite <- P2_Z by lia. apply IZR_le. apply rdigits2_bounds. exact M'. }
  assert (Z0 : 0 <= t).
  { rewrite T. destruct (rinloc_range _ _ _ H) as [R _]. apply Rmult_le_pos; [| apply Rlt_le, P2_pos].
    eapply Rle_trans; [| exact R]. apply (IZR_le 0). exact M. }
  assert (LT1023 : P2 1023 < P2 1024) by (change 1024%Z with (1023 + 1)%Z; rewrite P2_succ; pose proof (P2_pos 1023); lra).
  assert (EB : (e + 52 < 1024)%Z \/ (e <= -1074)%Z).
  { destruct L as [L | L]; [right; exact L | left]. apply P2_lt_inv. lra. }
  assert (D0 : (m = 0 \/ 0 < m)%Z) by lia.
  assert (DB : (Zdigits2 m - 1 + e < 1024)%Z \/ m = 0%Z).
  { destruct D0 as [-> | D0]; [right; reflexivity | left]. apply P2_lt_inv. specialize (P D0). lra. }
  set (E := Z.max e (fexp 53 1024 (Zdigits2 m + e))).
  assert (B : (-1074 <= E <= 971)%Z).
  { unfold E, fexp, emin. destruct DB as [DB | ->]; [| change (Zdigits2 0) with 0%Z]; lia. }
  assert (C : E = (-1074)%Z \/ P2 (E + 52) <= t).
  { unfold E, fexp, emin in *. destruct (Z.max_spec e (Z.max (Zdigits2 m + e - 53) (3 - 1024 - 53))) as [[A ->] | [A ->]].
    - destruct (Z.max_spec (Zdigits2 m + e - 53) (3 - 1024 - 53)) as [[C ->] | [C ->]]; [left; lia |].
      destruct D0 as [-> | D0]; [change (Zdigits2 0) with 0%Z in *; lia |]. right.
      replace (Zdigits2 m + e - 53 + 52)%Z with (Zdigits2 m - 1 + e)%Z by lia. apply P, D0.
    - destruct L as [L | L]; [left; lia | right; exact L]. }
  assert (UP : t < P2 (E + 53)).
  { rewrite T. apply Rlt_le_trans with (P2 (Zdigits2 m) * P2 e).
    - apply Rmult_lt_compat_r; [apply P2_pos |]. destruct (rinloc_range _ _ _ H) as [_ R]. eapply Rlt_le_trans; [exact R |].
      rewrite <- P2_Z by apply rdigits2_nonneg. change 1 with (IZR 1). rewrite <- plus_IZR. apply IZR_le.
      destruct D0 as [-> | D0]; [reflexivity |]. pose proof (rdigits2_bounds m D0). lia.
    - rewrite <- P2_add. apply P2_mono. unfold E, fexp. lia. }
  unfold binary_round_aux, shr_fexp.
  destruct (rshr_in (shr_record_of_loc m l) e (fexp 53 1024 (Zdigits2 m + e) - e) v) as (M1 & H1 & E1).
  { rewrite rrecord_of_loc_m. exact M. } { apply rrecord_of_loc. exact H. }
  destruct (shr (shr_record_of_loc m l) e (fexp 53 1024 (Zdigits2 m + e) - e)) as [r e']. cbn [fst snd] in *.
  assert (EE : e' = E) by (unfold E; lia). subst e'. rewrite EE. clear EE.
  replace (- Z.max (fexp 53 1024 (Zdigits2 m + e) - e) 0)%Z with (e - E)%Z in H1 by (unfold E; lia).
  set (v' := v * P2 (e - E)) in *.
  destruct (rnearest_even_near _ _ _ H1) as [N1 N2]. set (k := round_nearest_even (shr_m r) (loc_of_shr_record r)) in *.
  assert (VE : t = v' * P2 E).
  { unfold v'. rewrite Rmult_assoc, <- P2_add, T. do 2 f_equal. lia. }
  assert (V53 : v' < P2 53).
  { rewrite VE, P2_add in UP. pose proof (P2_pos E). apply Rmult_lt_reg_r with (P2 E); lra. }
  assert (K : (0 <= k <= 2 ^ 53)%Z).
  { split; [lia |]. assert (C' : (shr_m r < 2 ^ 53)%Z); [| lia]. apply lt_IZR. rewrite P2_Z by lia.
    destruct (rinloc_range _ _ _ H1) as [R1 _]. lra. }
  assert (KT : IZR k * P2 E <= P2 1024 - P2 971).
  { pose proof (P2_pos E) as PE.
    assert (IZR k * P2 E <= t + P2 E * / 2) by (rewrite VE; nra).
    pose proof (P2_mono E 971 ltac:(lia)).
    replace (P2 1024) with (2 * P2 1023) by (rewrite <- P2_succ; reflexivity).
    replace (P2 1023) with (P2 52 * P2 971) in * by (rewrite <- P2_add; reflexivity).
    assert (4 <= P2 52) by (rewrite <- P2_Z by lia; apply IZR_le; lia). nra. }
  assert (GO : forall z, finite64 z -> rval z = IZR (if s then - k else k) * P2 E -> rounded64 (sg s * t) z).
  { intros z F V.
    assert (ER : Rabs (rval z - sg s * t) <= P2 E * / 2).
    { rewrite V, VE. pose proof (P2_pos E).
      replace (IZR (if s then - k else k) * P2 E - sg s * (v' * P2 E)) with ((IZR (if s then - k else k) - sg s * v') * P2 E) by ring.
      rewrite Rabs_mult, (Rabs_right (P2 E)) by lra. rewrite Rmult_comm. apply Rmult_le_compat_l; [lra |].
      unfold Rabs. destruct s; cbn [sg]; rewrite ?opp_IZR; destruct Rcase_abs; lra. }
    split.
    - apply (nearest_grid E (if s then - k else k)%Z); [lia | | exact F | exact V | exact ER].
      destruct C as [C | C]; [left; exact C | right]. rewrite sg_abs by lra. exact C.
    - rewrite (sg_abs s t) by lra. fold (P2 (-53)) (P2 (-1075)) (P2 (-1021)). destruct C as [C | C].
      + right. rewrite C in ER, UP. split; [| exact UP]. change (P2 (-1074)) with (P2 (-1075 + 1)) in ER. rewrite P2_succ in ER. lra.
      + left. assert (P2 E * / 2 = P2 (-53) * P2 (E + 52)); [| pose proof (P2_pos (-53)); nra].
        rewrite <- P2_add. replace (-53 + (E + 52))%Z with (E - 1)%Z by lia. replace E with (E - 1 + 1)%Z at 1 by lia. rewrite P2_succ. field. }
  assert (K1' : k = (2 ^ 53)%Z -> (E + 1 <= 971)%Z).
  { intros K1. rewrite K1, P2_Z, <- P2_add in KT by lia. pose proof (P2_pos 971). assert (53 + E < 1024)%Z by (apply P2_lt_inv; lra). lia. }
  destruct (Z.eq_dec k (2 ^ 53)) as [K1 | K1].
  - specialize (K1' K1). rewrite K1 in *. change (Zdigits2 (2 ^ 53)) with 54%Z.
    replace (fexp 53 1024 (54 + E) - E)%Z with 1%Z by (unfold fexp, emin, E; unfold fexp, emin; lia).
    cbn [shr_record_of_loc]. change (shr (Build_shr_record (2 ^ 53) false false) E 1) with (Build_shr_record (2 ^ 52) false false, E + 1)%Z.
    cbn [shr_m]. change (2 ^ 52)%Z with (Zpos (2 ^ 52)%positive). cbv iota.
    replace (Zle_bool (E + 1) (1024 - 53)) with true by (symmetry; apply Zle_imp_le_bool; lia).
    apply GO.
    + apply bounded_spec. split; [lia |]. split; [reflexivity | right; discriminate].
    + cbn [rval]. fold (P2 (E + 1)). rewrite P2_succ. destruct s.
      * rewrite opp_IZR. change (2 ^ 53)%Z with (2 * Zpos (2 ^ 52))%Z. rewrite mult_IZR. ring.
      * change (2 ^ 53)%Z with (2 * Zpos (2 ^ 52))%Z. rewrite mult_IZR. ring.
  - assert (D : (Zdigits2 k <= 53)%Z) by (apply rdigits2_small; lia).
    assert (SH : (fexp 53 1024 (Zdigits2 k + E) - E <= 0)%Z) by (unfold fexp, emin, E; unfold fexp, emin; lia).
    assert (SS : shr (shr_record_of_loc k loc_Exact) E (fexp 53 1024 (Zdigits2 k + E) - E) = (Build_shr_record k false false, E)).
    { unfold shr. destruct (fexp 53 1024 (Zdigits2 k + E) - E)%Z as [| p | p]; try reflexivity. lia. }
    rewrite SS. cbn [shr_m].
    assert (KL : (E = -1074 \/ 2 ^ 52 <= k)%Z).
    { destruct C as [C | C]; [left; exact C | right]. rewrite P2_add, VE in C. pose proof (P2_pos E).
      assert (P2 52 <= v') by (apply Rmult_le_reg_r with (P2 E); lra). rewrite <- P2_Z in H2 by lia.
      assert (2 ^ 52 < k + 1)%Z; [| lia]. apply lt_IZR. rewrite plus_IZR. lra. }
    destruct k as [| p | p]; [| | lia].
    + apply GO; [exact I |]. cbn [rval]. destruct s; cbn; ring.
    + replace (Zle_bool E (1024 - 53)) with true by (symmetry; apply Zle_imp_le_bool; lia).
      apply GO; [apply bounded_spec; lia |]. cbn [rval]. fold (P2 E). destruct s; [rewrite opp_IZR |]; ring.
Qed.
