(** Proofs about the texts of vectors, matrices and quaternions: how far a rounded number is from the exact one. *)

From Coq Require Import List Bool ZArith NArith QArith Qpower Qabs Lia Lqa String Ascii Floats.SpecFloat.
From Verif Require Import Result TextModel TextSpec TextProofs TextProofs2.
Import ListNotations.
Local Open Scope Z_scope.

(** *** Powers *)
Lemma p2_pos e : (0 < (2 # 1) ^ e)%Q.
Proof. apply Qpower_0_lt. reflexivity. Qed.
Lemma p2_add a b : ((2 # 1) ^ (a + b) == (2 # 1) ^ a * (2 # 1) ^ b)%Q.
Proof. apply Qpower_plus. discriminate. Qed.
Lemma p2_succ a : ((2 # 1) ^ (a + 1) == (2 # 1) * (2 # 1) ^ a)%Q.
Proof. rewrite p2_add. change ((2 # 1) ^ 1)%Q with (2 # 1)%Q. ring. Qed.
Lemma p2_Z e : 0 <= e -> (inject_Z (2 ^ e) == (2 # 1) ^ e)%Q.
Proof. intros H. rewrite Zpower_Qpower by exact H. reflexivity. Qed.
Lemma p2_mono a b : a <= b -> ((2 # 1) ^ a <= (2 # 1) ^ b)%Q.
Proof. intros H. apply Qpower_le_compat_l; [exact H | discriminate]. Qed.
Lemma p2_le_inv a b : ((2 # 1) ^ a < (2 # 1) ^ b)%Q -> a < b.
Proof. intros H. destruct (Z.lt_ge_cases a b) as [L | L]; [exact L |]. pose proof (p2_mono b a L). lra. Qed.
Lemma p10_pos e : (0 < (10 # 1) ^ e)%Q.
Proof. apply Qpower_0_lt. reflexivity. Qed.
Lemma p10_add a b : ((10 # 1) ^ (a + b) == (10 # 1) ^ a * (10 # 1) ^ b)%Q.
Proof. apply Qpower_plus. discriminate. Qed.
Lemma p10_Z e : 0 <= e -> (inject_Z (10 ^ e) == (10 # 1) ^ e)%Q.
Proof. intros H. rewrite Zpower_Qpower by exact H. reflexivity. Qed.
Lemma inject_le a b : a <= b -> (inject_Z a <= inject_Z b)%Q.
Proof. intros H. now rewrite <- Zle_Qle. Qed.
Lemma inject_lt a b : a < b -> (inject_Z a < inject_Z b)%Q.
Proof. intros H. now rewrite <- Zlt_Qlt. Qed.

(** *** A number, its integer part and where it is in between *)
Definition inloc (m : Z) (l : location) (v : Q) : Prop :=
  match l with
  | loc_Exact => (v == inject_Z m)%Q
  | loc_Inexact Lt => (inject_Z m < v /\ v < inject_Z m + (1 # 2))%Q
  | loc_Inexact Eq => (v == inject_Z m + (1 # 2))%Q
  | loc_Inexact Gt => (inject_Z m + (1 # 2) < v /\ v < inject_Z m + 1)%Q
  end.
Lemma inloc_range m l v : inloc m l v -> (inject_Z m <= v /\ v < inject_Z m + 1)%Q.
Proof. destruct l as [| []]; cbn; intros H; lra. Qed.
Lemma inloc_ext m l v w : (v == w)%Q -> inloc m l v -> inloc m l w.
Proof. intros E. destruct l as [| []]; cbn; intros H; rewrite <- E; exact H. Qed.
Definition inrec (r : shr_record) (v : Q) : Prop := inloc (shr_m r) (loc_of_shr_record r) v.
Lemma shr_step r v : 0 <= shr_m r -> inrec r v -> 0 <= shr_m (shr_1 r) /\ inrec (shr_1 r) (v * (1 # 2))%Q.
Proof.
  intros M H. destruct r as [m r s]. unfold inrec in *. cbn [shr_m] in M. destruct m as [| p | p]; [| | lia].
  - split; [cbn; lia |]. destruct r, s; cbn in *; change (inject_Z 0) with 0%Q in *; lra.
  - destruct p as [p | p |].
    + split; [cbn; lia |]. assert (E : (inject_Z (Zpos (xI p)) == (2 # 1) * inject_Z (Zpos p) + 1)%Q).
      { change (Zpos (xI p)) with (2 * Zpos p + 1). rewrite inject_Z_plus, inject_Z_mult. reflexivity. }
      destruct r, s; cbn [loc_of_shr_record inloc shr_1 shr_m orb] in *; rewrite ?E in H; lra.
    + split; [cbn; lia |]. assert (E : (inject_Z (Zpos (xO p)) == (2 # 1) * inject_Z (Zpos p))%Q).
      { change (Zpos (xO p)) with (2 * Zpos p). rewrite inject_Z_mult. reflexivity. }
      destruct r, s; cbn [loc_of_shr_record inloc shr_1 shr_m orb] in *; rewrite ?E in H; lra.
    + split; [cbn; lia |]. destruct r, s; cbn in *; change (inject_Z 1) with 1%Q in *; change (inject_Z 0) with 0%Q in *; lra.
Qed.
Lemma shr_steps k : forall r v, 0 <= shr_m r -> inrec r v ->
  0 <= shr_m (Nat.iter k shr_1 r) /\ inrec (Nat.iter k shr_1 r) (v * (2 # 1) ^ (- Z.of_nat k))%Q.
Proof.
  induction k as [| k IH]; intros r v M H.
  - split; [exact M |]. cbn [Nat.iter nat_rect]. eapply inloc_ext; [| exact H]. change (- Z.of_nat 0) with 0. cbn. ring.
  - cbn [Nat.iter nat_rect]. destruct (IH r v M H) as [M' H']. destruct (shr_step _ _ M' H') as [M'' H'']. split; [exact M'' |].
    eapply inloc_ext; [| exact H'']. replace (- Z.of_nat k) with (- Z.of_nat (S k) + 1) by lia. rewrite p2_succ. field.
Qed.
Lemma record_of_loc m l v : inloc m l v -> inrec (shr_record_of_loc m l) v.
Proof. unfold inrec. destruct l as [| []]; trivial. Qed.
Lemma record_of_loc_m m l : shr_m (shr_record_of_loc m l) = m.
Proof. destruct l as [| []]; reflexivity. Qed.
Lemma shr_in r e n v : 0 <= shr_m r -> inrec r v -> 0 <= shr_m (fst (shr r e n)) /\ inrec (fst (shr r e n)) (v * (2 # 1) ^ (- Z.max n 0))%Q /\
  snd (shr r e n) = e + Z.max n 0.
Proof.
  intros M H. unfold shr. destruct n as [| p | p]; cbn [fst snd].
  - split; [exact M |]. split; [| lia]. eapply inloc_ext; [| exact H]. cbn. ring.
  - rewrite iter_pos_add. destruct (shr_steps (Pos.to_nat p) r v M H) as [M' H']. split; [exact M' |]. split; [| lia].
    eapply inloc_ext; [| exact H']. replace (Z.of_nat (Pos.to_nat p)) with (Zpos p) by lia. reflexivity.
  - split; [exact M |]. split; [| lia]. eapply inloc_ext; [| exact H]. cbn. ring.
Qed.
Lemma nearest_even_near m l v : inloc m l v -> (Qabs (inject_Z (round_nearest_even m l) - v) <= 1 # 2)%Q /\ m <= round_nearest_even m l <= m + 1.
Proof.
  intros H. split.
  - apply Qabs_Qle_condition. destruct l as [| []]; cbn in *; try (split; lra).
    + destruct (Z.even m); rewrite ?inject_Z_plus; change (inject_Z 1) with 1%Q; split; lra.
    + rewrite inject_Z_plus; change (inject_Z 1) with 1%Q; split; lra.
  - destruct l as [| []]; cbn; try lia. destruct (Z.even m); lia.
Qed.

Lemma digits2_bounds n : 0 < n -> 2 ^ (Zdigits2 n - 1) <= n < 2 ^ Zdigits2 n.
Proof.
  intros H. rewrite digits2_log by exact H. pose proof (Z.log2_spec n H) as [A B]. replace (Z.log2 n + 1 - 1) with (Z.log2 n) by lia.
  replace (Z.log2 n + 1) with (Z.succ (Z.log2 n)) by lia. split; assumption.
Qed.
Lemma digits2_nonneg n : 0 <= Zdigits2 n.
Proof. destruct n; cbn; lia. Qed.
Lemma digits2_small n k : 0 <= n < 2 ^ k -> 0 <= k -> Zdigits2 n <= k.
Proof.
  intros [A B] K. destruct (Z.eq_dec n 0) as [-> | N]; [exact K |]. rewrite digits2_log by lia.
  assert (Z.log2 n < k) by (apply Z.log2_lt_pow2; lia). lia.
Qed.

Definition sgn (s : bool) : Q := if s then (- 1)%Q else 1%Q.
(** Rounding: a number w 2^E with E the exponent of the result, at most half a unit away. *)
Lemma rounded s m e l v : 0 <= m -> inloc m l v -> Z.max e (fexp 53 1024 (Zdigits2 m + e)) <= 970 ->
  exists w, means (binary_round_aux 53 1024 s m e l) (sgn s * w) /\ (0 <= w)%Q /\
    (Qabs (w - v * (2 # 1) ^ e) <= (2 # 1) ^ (Z.max e (fexp 53 1024 (Zdigits2 m + e)) - 1))%Q.
Proof.
  intros M H B. set (E := Z.max e (fexp 53 1024 (Zdigits2 m + e))) in *.
  unfold binary_round_aux, shr_fexp.
  destruct (shr_in (shr_record_of_loc m l) e (fexp 53 1024 (Zdigits2 m + e) - e) v) as (M1 & H1 & E1).
  { rewrite record_of_loc_m. exact M. } { apply record_of_loc. exact H. }
  destruct (shr (shr_record_of_loc m l) e (fexp 53 1024 (Zdigits2 m + e) - e)) as [r e']. cbn [fst snd] in *.
  assert (EE : e' = E) by (unfold E; lia). subst e'. rewrite EE. clear EE.
  replace (- Z.max (fexp 53 1024 (Zdigits2 m + e) - e) 0) with (e - E) in H1 by (unfold E; lia).
  set (v' := (v * (2 # 1) ^ (e - E))%Q) in *.
  destruct (nearest_even_near _ _ _ H1) as [N1 N2]. set (k := round_nearest_even (shr_m r) (loc_of_shr_record r)) in *.
  assert (K : 0 <= k <= 2 ^ 53).
  { split; [lia |]. assert (C : shr_m r < 2 ^ 53); [| lia].
    destruct (inloc_range _ _ _ H1) as [R1 _]. destruct (inloc_range _ _ _ H) as [_ R2].
    assert (G : m < 2 ^ Zdigits2 m).
    { destruct (Z.eq_dec m 0) as [-> | Z0]; [reflexivity |]. apply digits2_bounds. lia. }
    assert (V : (v < (2 # 1) ^ (Zdigits2 m))%Q).
    { rewrite <- p2_Z by apply digits2_nonneg. eapply Qlt_le_trans; [exact R2 |].
      change 1%Q with (inject_Z 1). rewrite <- inject_Z_plus. apply inject_le. lia. }
    assert (V' : (v' < (2 # 1) ^ 53)%Q).
    { unfold v'. eapply Qlt_le_trans with ((2 # 1) ^ Zdigits2 m * (2 # 1) ^ (e - E))%Q.
      - apply Qmult_lt_r; [apply p2_pos | exact V].
      - rewrite <- p2_add. apply p2_mono. unfold E, fexp. lia. }
    rewrite Zlt_Qlt. eapply Qle_lt_trans; [exact R1 |]. exact V'. }
  assert (VE : (v * (2 # 1) ^ e == v' * (2 # 1) ^ E)%Q).
  { unfold v'. rewrite <- Qmult_assoc, <- p2_add. replace (e - E + E) with e by lia. reflexivity. }
  exists (inject_Z k * (2 # 1) ^ E)%Q. split; [| split].
  2: { apply Qmult_le_0_compat; [change 0%Q with (inject_Z 0); apply inject_le; lia | apply Qlt_le_weak, p2_pos]. }
  2: { rewrite VE. setoid_replace (inject_Z k * (2 # 1) ^ E - v' * (2 # 1) ^ E)%Q with ((inject_Z k - v') * (2 # 1) ^ E)%Q by ring.
       rewrite Qabs_Qmult. rewrite (Qabs_pos ((2 # 1) ^ E)) by apply Qlt_le_weak, p2_pos.
       replace E with (E - 1 + 1) at 1 by lia. rewrite p2_succ. pose proof (p2_pos (E - 1)).
       setoid_replace ((2 # 1) ^ (E - 1))%Q with ((1 # 2) * ((2 # 1) * (2 # 1) ^ (E - 1)))%Q at 2 by field.
       apply Qmult_le_compat_r; [exact N1 | lra]. }
  destruct (Z.eq_dec k (2 ^ 53)) as [K1 | K1].
  - rewrite K1. change (Zdigits2 (2 ^ 53)) with 54. replace (fexp 53 1024 (54 + E) - E) with 1 by (unfold fexp, emin, E; unfold fexp, emin; lia).
    cbn [shr_record_of_loc]. change (shr (Build_shr_record (2 ^ 53) false false) E 1) with (Build_shr_record (2 ^ 52) false false, E + 1).
    cbn [shr_m]. change (2 ^ 52) with (Zpos (2 ^ 52)%positive). cbv iota.
    replace (Zle_bool (E + 1) (1024 - 53)) with true by (symmetry; apply Zle_imp_le_bool; lia).
    cbn [means]. rewrite p2_succ. change (inject_Z (2 ^ 53)) with ((2 # 1) * inject_Z (Zpos (2 ^ 52)))%Q. destruct s; cbn [sgn]; ring.
  - assert (D : Zdigits2 k <= 53) by (apply digits2_small; lia).
    assert (SH : fexp 53 1024 (Zdigits2 k + E) - E <= 0) by (unfold fexp, emin, E; unfold fexp, emin; lia).
    assert (SS : shr (shr_record_of_loc k loc_Exact) E (fexp 53 1024 (Zdigits2 k + E) - E) = (Build_shr_record k false false, E)).
    { unfold shr. destruct (fexp 53 1024 (Zdigits2 k + E) - E) as [| p | p]; try reflexivity. lia. }
    rewrite SS. cbn [shr_m]. destruct k as [| p | p]; [| | lia].
    + cbn [means]. change (inject_Z 0) with 0%Q. ring.
    + replace (Zle_bool E (1024 - 53)) with true by (symmetry; apply Zle_imp_le_bool; lia). cbn [means]. destruct s; cbn [sgn]; ring.
Qed.
(** The same, relative to the number. *)
Lemma rounded_near s m e l v t : 0 <= m -> inloc m l v -> (t == v * (2 # 1) ^ e)%Q -> (t < (2 # 1) ^ 1023)%Q ->
  (e <= -1074 \/ ((2 # 1) ^ (e + 52) <= t)%Q) ->
  exists w, means (binary_round_aux 53 1024 s m e l) (sgn s * w) /\ (0 <= w)%Q /\
    (Qabs (w - t) <= (2 # 1) ^ (-53) * t + (2 # 1) ^ (-1075))%Q.
Proof.
  intros M H T U L.
  assert (P : 0 < m -> ((2 # 1) ^ (Zdigits2 m - 1 + e) <= t)%Q).
  { intros M'. rewrite T, p2_add. apply Qmult_le_compat_r; [| apply Qlt_le_weak, p2_pos].
    destruct (inloc_range _ _ _ H) as [R _]. eapply Qle_trans; [| exact R].
    assert (0 <= Zdigits2 m - 1) by (rewrite digits2_log by lia; pose proof (Z.log2_nonneg m); lia).
    rewrite <- p2_Z by assumption. apply inject_le. apply digits2_bounds. exact M'. }
  assert (Z0 : (0 <= t)%Q).
  { rewrite T. destruct (inloc_range _ _ _ H) as [R _]. apply Qmult_le_0_compat; [| apply Qlt_le_weak, p2_pos].
    eapply Qle_trans; [| exact R]. change 0%Q with (inject_Z 0). apply inject_le. exact M. }
  assert (EB : e + 52 < 1023 \/ e <= -1074).
  { destruct L as [L | L]; [right; exact L | left]. apply p2_le_inv. eapply Qle_lt_trans; [exact L | exact U]. }
  assert (D0 : m = 0 \/ 0 < m) by lia.
  assert (DB : Zdigits2 m - 1 + e < 1023 \/ m = 0).
  { destruct D0 as [-> | D0]; [right; reflexivity | left]. apply p2_le_inv. eapply Qle_lt_trans; [exact (P D0) | exact U]. }
  assert (B : Z.max e (fexp 53 1024 (Zdigits2 m + e)) <= 970).
  { unfold fexp, emin. destruct DB as [DB | ->]; [| change (Zdigits2 0) with 0]; lia. }
  destruct (rounded s m e l v M H B) as (w & W1 & W2 & W3). exists w. split; [exact W1 |]. split; [exact W2 |].
  rewrite T. eapply Qle_trans; [exact W3 |]. rewrite <- T.
  pose proof (p2_pos (-1075)) as Q1. pose proof (p2_pos (-53)) as Q2.
  assert (Q3 : (0 <= (2 # 1) ^ (-53) * t)%Q) by (apply Qmult_le_0_compat; [apply Qlt_le_weak, p2_pos | exact Z0]).
  assert (C : Z.max e (fexp 53 1024 (Zdigits2 m + e)) <= -1074 \/ ((2 # 1) ^ (Z.max e (fexp 53 1024 (Zdigits2 m + e)) + 52) <= t)%Q).
  { destruct (Z.max_spec e (fexp 53 1024 (Zdigits2 m + e))) as [[A ->] | [A ->]].
    - unfold fexp, emin in *. destruct (Z.max_spec (Zdigits2 m + e - 53) (3 - 1024 - 53)) as [[C ->] | [C ->]]; [left; lia |].
      destruct D0 as [-> | D0]; [change (Zdigits2 0) with 0 in *; lia |]. right. replace (Zdigits2 m + e - 53 + 52) with (Zdigits2 m - 1 + e) by lia. apply P, D0.
    - exact L. }
  destruct C as [C | C].
  - pose proof (p2_mono (Z.max e (fexp 53 1024 (Zdigits2 m + e)) - 1) (-1075) ltac:(lia)). lra.
  - set (F := Z.max e (fexp 53 1024 (Zdigits2 m + e))) in *. replace (F - 1) with (-53 + (F + 52)) by lia. rewrite p2_add.
    assert ((2 # 1) ^ (-53) * (2 # 1) ^ (F + 52) <= (2 # 1) ^ (-53) * t)%Q by (apply Qmult_le_l; assumption). lra.
Qed.

(** *** The nearest binary64 number *)
Lemma location_in b q r : 0 < b -> 0 <= r < b -> inloc q (new_location b r) ((inject_Z (q * b + r)) / inject_Z b).
Proof.
  intros B R. assert (B' : (0 < inject_Z b)%Q) by (change 0%Q with (inject_Z 0); apply inject_lt; exact B).
  assert (E : ((inject_Z (q * b + r)) / inject_Z b == inject_Z q + inject_Z r / inject_Z b)%Q).
  { rewrite inject_Z_plus, inject_Z_mult. field. lra. }
  eapply inloc_ext; [symmetry; exact E |]. clear E.
  assert (F0 : r = 0 -> (inject_Z r / inject_Z b == 0)%Q) by (intros ->; change (inject_Z 0) with 0%Q; field; lra).
  assert (F1 : r <> 0 -> (0 < inject_Z r / inject_Z b)%Q).
  { intros N. apply Qlt_shift_div_l; [exact B' |]. setoid_replace (0 * inject_Z b)%Q with 0%Q by ring. change 0%Q with (inject_Z 0). apply inject_lt. lia. }
  assert (F2 : (inject_Z r / inject_Z b < 1)%Q).
  { apply Qlt_shift_div_r; [exact B' |]. rewrite Qmult_1_l. apply inject_lt. lia. }
  assert (F3 : 2 * r < b -> (inject_Z r / inject_Z b < 1 # 2)%Q).
  { intros N. apply Qlt_shift_div_r; [exact B' |]. apply inject_lt in N. rewrite inject_Z_mult in N. change (inject_Z 2) with (2 # 1)%Q in N. lra. }
  assert (F4 : b < 2 * r -> (1 # 2 < inject_Z r / inject_Z b)%Q).
  { intros N. apply Qlt_shift_div_l; [exact B' |]. apply inject_lt in N. rewrite inject_Z_mult in N. change (inject_Z 2) with (2 # 1)%Q in N. lra. }
  assert (F5 : 2 * r = b -> (inject_Z r / inject_Z b == 1 # 2)%Q).
  { intros <-. rewrite inject_Z_mult. change (inject_Z 2) with (2 # 1)%Q. field. rewrite inject_Z_mult in B'. change (inject_Z 2) with (2 # 1)%Q in B'. lra. }
  unfold new_location. destruct (Z.even b) eqn:EV.
  - unfold new_location_even. destruct (Zeq_bool r 0) eqn:Z0.
    + apply Zeq_bool_eq in Z0. cbn [inloc]. rewrite (F0 Z0). ring.
    + apply Zeq_bool_neq in Z0. specialize (F1 Z0). destruct (Z.compare_spec (2 * r) b) as [C | C | C]; cbn [inloc].
      * rewrite (F5 C). reflexivity.
      * specialize (F3 C). lra.
      * specialize (F4 C). lra.
  - unfold new_location_odd. destruct (Zeq_bool r 0) eqn:Z0.
    + apply Zeq_bool_eq in Z0. cbn [inloc]. rewrite (F0 Z0). ring.
    + apply Zeq_bool_neq in Z0. specialize (F1 Z0).
      assert (O : 2 * r <> b) by (intros <-; rewrite Z.even_mul in EV; discriminate).
      destruct (Z.compare_spec (2 * r + 1) b) as [C | C | C]; cbn [inloc].
      * specialize (F3 ltac:(lia)). lra.
      * specialize (F3 ltac:(lia)). lra.
      * specialize (F4 ltac:(lia)). lra.
Qed.

Definition near (w t : Q) : Prop := (Qabs (w - t) <= (2 # 1) ^ (-53) * t + (2 # 1) ^ (-1075))%Q.
Lemma near_quotient s p q t : (t == inject_Z (Zpos p) / inject_Z (Zpos q))%Q -> (t < (2 # 1) ^ 1023)%Q ->
  exists w, means (let '(m, e, l) := SFdiv_core_binary 53 1024 (Zpos p) 0 (Zpos q) 0 in binary_round_aux 53 1024 s m e l) (sgn s * w) /\
    (0 <= w)%Q /\ near w t.
Proof.
  intros T U. unfold SFdiv_core_binary.
  set (d := Zdigits2 (Zpos p) + 0 - (Zdigits2 (Zpos q) + 0)). set (e := Z.min (fexp 53 1024 d) (0 - 0)).
  assert (E0 : e <= 0) by (unfold e; lia).
  assert (M : match 0 - 0 - e with 0 => Zpos p | Zpos _ => Z.shiftl (Zpos p) (0 - 0 - e) | Zneg _ => 0 end = Zpos p * 2 ^ (- e)).
  { replace (0 - 0 - e) with (- e) by lia. destruct (- e) as [| k | k] eqn:Q; try lia. now rewrite Z.shiftl_mul_pow2 by lia. }
  rewrite M. clear M.
  assert (DE : Z.div_eucl (Zpos p * 2 ^ (- e)) (Zpos q) = ((Zpos p * 2 ^ (- e)) / Zpos q, (Zpos p * 2 ^ (- e)) mod Zpos q)).
  { unfold Z.div, Z.modulo. destruct (Z.div_eucl (Zpos p * 2 ^ (- e)) (Zpos q)). reflexivity. }
  rewrite DE. clear DE.
  pose proof (Z.div_mod (Zpos p * 2 ^ (- e)) (Zpos q) ltac:(lia)) as DM. pose proof (Z.mod_pos_bound (Zpos p * 2 ^ (- e)) (Zpos q) ltac:(lia)) as MB.
  assert (QN : 0 <= (Zpos p * 2 ^ (- e)) / Zpos q) by (apply Z.div_pos; lia).
  set (A := (Zpos p * 2 ^ (- e)) / Zpos q) in *. set (R := (Zpos p * 2 ^ (- e)) mod Zpos q) in *.
  assert (P2 : (0 < inject_Z (Zpos q))%Q) by reflexivity.
  assert (P1 : (0 < inject_Z (Zpos p))%Q) by reflexivity.
  apply (rounded_near s A e (new_location (Zpos q) R) (inject_Z (A * Zpos q + R) / inject_Z (Zpos q)) t QN).
  - apply location_in; lia.
  - replace (A * Zpos q + R) with (Zpos p * 2 ^ (- e)) by lia. rewrite T, inject_Z_mult, p2_Z by lia. rewrite Qpower_opp. pose proof (p2_pos e). field. lra.
  - exact U.
  - assert (TD : ((2 # 1) ^ (d - 1) <= t)%Q).
    { rewrite T. apply Qle_shift_div_l; [exact P2 |].
      destruct (digits2_bounds (Zpos p) ltac:(lia)) as [B1 _]. destruct (digits2_bounds (Zpos q) ltac:(lia)) as [_ B2].
      assert (G1 : 0 <= Zdigits2 (Zpos p) - 1) by (rewrite digits2_log by lia; pose proof (Z.log2_nonneg (Zpos p)); lia).
      pose proof (digits2_nonneg (Zpos q)) as G2.
      apply inject_le in B1. rewrite p2_Z in B1 by exact G1. eapply Qle_trans; [| exact B1].
      replace (Zdigits2 (Zpos p) - 1) with (d - 1 + Zdigits2 (Zpos q)) by (unfold d; lia). rewrite p2_add.
      apply Qmult_le_l; [apply p2_pos |]. rewrite <- p2_Z by exact G2. apply inject_le. lia. }
    unfold e, fexp, emin. destruct (Z.le_gt_cases (d - 53) (3 - 1024 - 53)) as [C | C]; [left; lia | right].
    eapply Qle_trans; [| exact TD]. apply p2_mono. lia.
Qed.
Lemma near_integer s n t : 0 < n -> (t == inject_Z n)%Q -> (t < (2 # 1) ^ 1023)%Q ->
  exists w, means (binary_normalize 53 1024 (cond_Zopp s n) 0 s) (sgn s * w) /\ (0 <= w)%Q /\ near w t.
Proof.
  intros N T U. destruct n as [| p | p]; try lia.
  assert (S : binary_normalize 53 1024 (cond_Zopp s (Zpos p)) 0 s = binary_round 53 1024 s p 0) by (destruct s; reflexivity).
  rewrite S. unfold binary_round, shl_align. clear S.
  set (D := Zpos (digits2_pos p) + 0). assert (DD : D = Zdigits2 (Zpos p)) by (unfold D; cbn [Zdigits2]; lia).
  destruct (digits2_bounds (Zpos p) N) as [B1 _]. rewrite <- DD in B1.
  assert (G : 0 <= D - 1) by (rewrite DD, digits2_log by lia; pose proof (Z.log2_nonneg (Zpos p)); lia).
  assert (TD : ((2 # 1) ^ (D - 1) <= t)%Q) by (rewrite T, <- p2_Z by exact G; apply inject_le; exact B1).
  destruct (fexp 53 1024 D - 0) as [| k | k] eqn:F.
  - apply (rounded_near s (Zpos p) 0 loc_Exact (inject_Z (Zpos p)) t); [lia | reflexivity | rewrite T; cbn; ring | exact U |].
    right. eapply Qle_trans; [| exact TD]. apply p2_mono. unfold fexp, emin in F. lia.
  - apply (rounded_near s (Zpos p) 0 loc_Exact (inject_Z (Zpos p)) t); [lia | reflexivity | rewrite T; cbn; ring | exact U |].
    right. eapply Qle_trans; [| exact TD]. apply p2_mono. unfold fexp, emin in F. lia.
  - assert (SP : Zpos (shift_pos k p) = Zpos p * 2 ^ Zpos k).
    { rewrite Zpower.shift_pos_correct. change (Zpower_pos 2 k) with (2 ^ Zpos k). ring. }
    replace (fexp 53 1024 D) with (Zneg k) by lia. rewrite SP.
    apply (rounded_near s (Zpos p * 2 ^ Zpos k) (Zneg k) loc_Exact (inject_Z (Zpos p * 2 ^ Zpos k)) t); [lia | reflexivity | | exact U |].
    + rewrite T, inject_Z_mult, p2_Z by lia. rewrite <- Qmult_assoc, <- p2_add. replace (Zpos k + Zneg k) with 0 by lia. cbn. ring.
    + unfold fexp, emin in F. destruct (Z.le_gt_cases (Zneg k) (-1074)) as [C | C]; [left; exact C | right].
      eapply Qle_trans; [| exact TD]. apply p2_mono. lia.
Qed.
Lemma near10 s n k t : 0 < n -> (t == inject_Z n * (10 # 1) ^ k)%Q -> (t < (2 # 1) ^ 1023)%Q ->
  exists w, means (nearest10 s n k) (sgn s * w) /\ (0 <= w)%Q /\ near w t.
Proof.
  intros N T U. unfold nearest10. destruct n as [| p | p]; try lia. destruct (Z.leb_spec 0 k) as [K | K].
  - apply near_integer; [lia | | exact U]. rewrite T, inject_Z_mult, p10_Z by exact K. reflexivity.
  - destruct (10 ^ (- k)) as [| q | q] eqn:Q; try lia.
    apply near_quotient; [| exact U]. rewrite T. rewrite <- Q, p10_Z by lia. rewrite Qpower_opp. pose proof (p10_pos k). field. lra.
Qed.
