From Coq Require Import List Bool Arith ZArith Reals Lra Lia Psatz Permutation Floats.SpecFloat.
From Verif Require Import Result AngleModel FloatModel FloatSpec FloatProofs FloatProofs2 FloatProofs3 FloatProofs4 FloatProofs5 FloatProofs7 FloatProofs8 FloatProofs10
  TransfModel Geo64Model Geo64Spec Geo64Proofs Geo64Proofs2 Geo64Proofs3 Geo64Proofs4 Geo64Proofs6 Geo64Proofs8 Rot64Model Rot64Proofs Rot64Proofs2 Rot64Proofs7 Mat64Model Mat64Spec Mat64Proofs2 Trf64Model Trf64Spec Trf64Proofs Trf64Proofs2 Trf64Proofs3 Trf64Proofs4 Trf64Proofs5 Trf64Proofs6 Trf64Proofs7.
Import ListNotations.
Local Open Scope R_scope.

(** *** The inverse in the plane *)
Lemma sub_zero_val x y : finite64 x -> finite64 y -> rval x = 0 \/ rval y = 0 -> Rabs (rval x - rval y) <= P2 1023 -> finite64 (sf_sub x y) /\ rval (sf_sub x y) = rval x - rval y.
Proof.
  intros Fx Fy Z U. destruct (SFsub_rounded x y Fx Fy U) as [[F N] _]. split; [exact F |]. apply nearest_exact; [split; [exact F | exact N] |]. destruct Z as [Z | Z]; [exists (SFopp y); split; [apply SFopp_finite; exact Fy | rewrite SFopp_val; lra] | exists x; split; [exact Fx | lra]].
Qed.
Lemma diff_near2 x y z w B : finite64 x -> finite64 y -> finite64 z -> finite64 w -> Rabs (rval x * rval y) <= B -> Rabs (rval z * rval w) <= B -> B <= P2 900 ->
  near64 (sf_sub (b64_mul x y) (b64_mul z w)) (rval x * rval y - rval z * rval w) (2.01 * e53 * (Rabs (rval x * rval y) + Rabs (rval z * rval w)) + 3 * tiny).
Proof.
  intros Fx Fy Fz Fw Bp Bq BB. assert (UP : P2 900 * 4 <= P2 1023) by (replace 4 with (P2 2) by (rewrite <- P2_Z by lia; reflexivity); rewrite <- P2_add; apply P2_mono; lia). pose proof (P2_pos 900). assert (P900 : 1 <= P2 900) by (rewrite <- P2_0; apply P2_mono; lia).
  destruct (mul_any x y Fx Fy ltac:(lra)) as [F1 N1]. destruct (mul_any z w Fz Fw ltac:(lra)) as [F2 N2]. set (p := rval x * rval y) in *. set (q := rval z * rval w) in *. set (p' := rval (b64_mul x y)) in *. set (q' := rval (b64_mul z w)) in *.
  pose proof e53_pos as PE. pose proof tiny_pos as PT. pose proof tiny_100 as T1. pose proof (Rabs_pos p) as Pp. pose proof (Rabs_pos q) as Pq. assert (e53 * Rabs p <= / 1024 * Rabs p) by (apply Rmult_le_compat_r; lra). assert (e53 * Rabs q <= / 1024 * Rabs q) by (apply Rmult_le_compat_r; lra).
  assert (D : Rabs (p' - q' - (p - q)) <= e53 * (Rabs p + Rabs q) + 2 * tiny) by (replace (p' - q' - (p - q)) with ((p' - p) + - (q' - q)) by ring; eapply Rle_trans; [apply Rabs_triang |]; rewrite Rabs_Ropp; lra).
  assert (SZ : Rabs (p' - q') <= 1.001 * (Rabs p + Rabs q) + 2 * tiny) by (replace (p' - q') with (p' - q' - (p - q) + (p + - q)) by ring; eapply Rle_trans; [apply Rabs_triang |]; pose proof (Rabs_triang p (- q)) as T; rewrite Rabs_Ropp in T; lra).
  destruct (sub_any _ _ F1 F2) as [F N]; [fold p' q'; lra |]. split; [exact F |]. fold p' q' in N. set (s := rval (sf_sub _ _)) in *. replace (s - (p - q)) with ((s - (p' - q')) + (p' - q' - (p - q))) by ring. eapply Rle_trans; [apply Rabs_triang |].
  assert (e53 * Rabs (p' - q') <= e53 * (1.001 * (Rabs p + Rabs q) + 2 * tiny)) by (apply Rmult_le_compat_l; lra). assert (e53 * tiny <= / 1024 * tiny) by (apply Rmult_le_compat_r; lra). assert (0 <= e53 * Rabs p) by (apply Rmult_le_pos; lra). assert (0 <= e53 * Rabs q) by (apply Rmult_le_pos; lra). lra.
Qed.
(** The cofactors of an affine matrix: exact but for the last row. *)
Lemma cofactors m B : 1 <= B -> B * B <= P2 900 -> matrix_within 3 B m -> affine 2 m ->
  (forall i j, (i < 3)%nat -> (j < 3)%nat -> finite64 (cofactor64 m i j)) /\
  rval (cofactor64 m 0 0) = cell m 1 1 /\ rval (cofactor64 m 0 1) = - cell m 1 0 /\ rval (cofactor64 m 0 2) = 0 /\
  rval (cofactor64 m 1 0) = - cell m 0 1 /\ rval (cofactor64 m 1 1) = cell m 0 0 /\ rval (cofactor64 m 1 2) = 0 /\
  near64 (cofactor64 m 2 0) (cell m 0 1 * cell m 1 2 - cell m 0 2 * cell m 1 1) (2.01 * e53 * (Rabs (cell m 0 1 * cell m 1 2) + Rabs (cell m 0 2 * cell m 1 1)) + 3 * tiny) /\
  near64 (cofactor64 m 2 1) (cell m 0 2 * cell m 1 0 - cell m 0 0 * cell m 1 2) (2.01 * e53 * (Rabs (cell m 0 2 * cell m 1 0) + Rabs (cell m 0 0 * cell m 1 2)) + 3 * tiny) /\
  near64 (cofactor64 m 2 2) (det2 m) (2.01 * e53 * det2_terms m + 3 * tiny).
Proof.
  intros B1 BB M AM. assert (UP : P2 900 <= P2 1023) by (apply P2_mono; lia). assert (BU : B <= P2 900) by (apply Rle_trans with (B * B); [rewrite <- (Rmult_1_l B) at 1; apply Rmult_le_compat_r; lra | exact BB]).
  assert (F : forall i j, (i < 3)%nat -> (j < 3)%nat -> finite64 (entry m i j)) by (intros i j I J; apply (entry_within 3 B m i j M I J)). assert (U : forall i j, (i < 3)%nat -> (j < 3)%nat -> Rabs (rval (entry m i j)) <= B) by (intros i j I J; apply (entry_within 3 B m i j M I J)).
  assert (PB : forall i j k l, (i < 3)%nat -> (j < 3)%nat -> (k < 3)%nat -> (l < 3)%nat -> Rabs (rval (entry m i j) * rval (entry m k l)) <= B * B) by (intros; rewrite Rabs_mult; apply Rmult_le_compat; try apply Rabs_pos; apply U; assumption).
  assert (V0 : rval (entry m 2 0) = 0) by exact (AM 0%nat ltac:(lia)). assert (V1 : rval (entry m 2 1) = 0) by exact (AM 1%nat ltac:(lia)). assert (V2 : rval (entry m 2 2) = 1) by exact (AM 2%nat ltac:(lia)).
  assert (L : forall i j, (i < 3)%nat -> (j < 3)%nat -> finite64 (b64_mul (entry m i j) (entry m 2 2)) /\ rval (b64_mul (entry m i j) (entry m 2 2)) = cell m i j /\ finite64 (b64_mul (entry m 2 2) (entry m i j)) /\ rval (b64_mul (entry m 2 2) (entry m i j)) = cell m i j).
  { intros i j I J. destruct (mul_by_one (entry m 2 2) (entry m i j) (F 2%nat 2%nat ltac:(lia) ltac:(lia)) (F i j I J) V2) as [[A1 A2] [A3 A4]]; [pose proof (U i j I J); lra |]. auto. }
  assert (K : forall x i j k, (k < 2)%nat -> (i < 3)%nat -> (j < 3)%nat -> x = entry m 2 k -> (finite64 (b64_mul (entry m i j) x) /\ rval (b64_mul (entry m i j) x) = 0) /\ finite64 (b64_mul x (entry m i j)) /\ rval (b64_mul x (entry m i j)) = 0).
  { intros x i j k Hk I J ->. assert (Z : rval (entry m 2 k) = 0) by (destruct k as [| [| k]]; [exact V0 | exact V1 | lia]). split; [apply mul_zero | apply mul_by_zero]; auto; apply F; lia. }
  assert (E00 : finite64 (cofactor64 m 0 0) /\ rval (cofactor64 m 0 0) = cell m 1 1).
  { destruct (L 1%nat 1%nat ltac:(lia) ltac:(lia)) as (A1 & A2 & _). destruct (K _ 1%nat 2%nat 1%nat ltac:(lia) ltac:(lia) ltac:(lia) eq_refl) as [[K1 K2] _]. change (cofactor64 m 0 0) with (sf_sub (b64_mul (entry m 1 1) (entry m 2 2)) (b64_mul (entry m 1 2) (entry m 2 1))). destruct (sub_zero_val _ _ A1 K1 (or_intror K2)) as [G1 G2]; [rewrite A2, K2, Rminus_0_r; pose proof (U 1%nat 1%nat ltac:(lia) ltac:(lia)); unfold cell; fold zero64; change (nth 1 (nth 1 m []) zero64) with (entry m 1 1); lra |]. rewrite A2, K2 in G2. split; [exact G1 | lra]. }
  assert (E01 : finite64 (cofactor64 m 0 1) /\ rval (cofactor64 m 0 1) = - cell m 1 0).
  { destruct (L 1%nat 0%nat ltac:(lia) ltac:(lia)) as (A1 & A2 & _). destruct (K _ 1%nat 2%nat 0%nat ltac:(lia) ltac:(lia) ltac:(lia) eq_refl) as [[K1 K2] _]. change (cofactor64 m 0 1) with (sf_sub (b64_mul (entry m 1 2) (entry m 2 0)) (b64_mul (entry m 1 0) (entry m 2 2))). destruct (sub_zero_val _ _ K1 A1 (or_introl K2)) as [G1 G2]; [rewrite A2, K2, Rminus_0_l, Rabs_Ropp; pose proof (U 1%nat 0%nat ltac:(lia) ltac:(lia)); rewrite cell_entry; lra |]. rewrite A2, K2 in G2. split; [exact G1 | lra]. }
  assert (E02 : finite64 (cofactor64 m 0 2) /\ rval (cofactor64 m 0 2) = 0).
  { destruct (K _ 1%nat 0%nat 1%nat ltac:(lia) ltac:(lia) ltac:(lia) eq_refl) as [[A1 A2] _]. destruct (K _ 1%nat 1%nat 0%nat ltac:(lia) ltac:(lia) ltac:(lia) eq_refl) as [[K1 K2] _]. change (cofactor64 m 0 2) with (sf_sub (b64_mul (entry m 1 0) (entry m 2 1)) (b64_mul (entry m 1 1) (entry m 2 0))). apply sub_zero; assumption. }
  assert (E10 : finite64 (cofactor64 m 1 0) /\ rval (cofactor64 m 1 0) = - cell m 0 1).
  { destruct (L 0%nat 1%nat ltac:(lia) ltac:(lia)) as (_ & _ & A1 & A2). destruct (K _ 0%nat 2%nat 1%nat ltac:(lia) ltac:(lia) ltac:(lia) eq_refl) as [_ [K1 K2]]. change (cofactor64 m 1 0) with (sf_sub (b64_mul (entry m 2 1) (entry m 0 2)) (b64_mul (entry m 2 2) (entry m 0 1))). destruct (sub_zero_val _ _ K1 A1 (or_introl K2)) as [G1 G2]; [rewrite A2, K2, Rminus_0_l, Rabs_Ropp; pose proof (U 0%nat 1%nat ltac:(lia) ltac:(lia)); rewrite cell_entry; lra |]. rewrite A2, K2 in G2. split; [exact G1 | lra]. }
  assert (E11 : finite64 (cofactor64 m 1 1) /\ rval (cofactor64 m 1 1) = cell m 0 0).
  { destruct (L 0%nat 0%nat ltac:(lia) ltac:(lia)) as (_ & _ & A1 & A2). destruct (K _ 0%nat 2%nat 0%nat ltac:(lia) ltac:(lia) ltac:(lia) eq_refl) as [_ [K1 K2]]. change (cofactor64 m 1 1) with (sf_sub (b64_mul (entry m 2 2) (entry m 0 0)) (b64_mul (entry m 2 0) (entry m 0 2))). destruct (sub_zero_val _ _ A1 K1 (or_intror K2)) as [G1 G2]; [rewrite A2, K2, Rminus_0_r; pose proof (U 0%nat 0%nat ltac:(lia) ltac:(lia)); rewrite cell_entry; lra |]. rewrite A2, K2 in G2. split; [exact G1 | lra]. }
  assert (E12 : finite64 (cofactor64 m 1 2) /\ rval (cofactor64 m 1 2) = 0).
  { destruct (K _ 0%nat 1%nat 0%nat ltac:(lia) ltac:(lia) ltac:(lia) eq_refl) as [_ [A1 A2]]. destruct (K _ 0%nat 0%nat 1%nat ltac:(lia) ltac:(lia) ltac:(lia) eq_refl) as [_ [K1 K2]]. change (cofactor64 m 1 2) with (sf_sub (b64_mul (entry m 2 0) (entry m 0 1)) (b64_mul (entry m 2 1) (entry m 0 0))). apply sub_zero; assumption. }
  assert (G : forall a b c d e f g h, (a < 3)%nat -> (b < 3)%nat -> (c < 3)%nat -> (d < 3)%nat -> (e < 3)%nat -> (f < 3)%nat -> (g < 3)%nat -> (h < 3)%nat -> near64 (sf_sub (b64_mul (entry m a b) (entry m c d)) (b64_mul (entry m e f) (entry m g h))) (cell m a b * cell m c d - cell m e f * cell m g h) (2.01 * e53 * (Rabs (cell m a b * cell m c d) + Rabs (cell m e f * cell m g h)) + 3 * tiny)) by (intros; apply (diff_near2 _ _ _ _ (B * B)); auto).
  assert (E20 := G 0%nat 1%nat 1%nat 2%nat 0%nat 2%nat 1%nat 1%nat ltac:(lia) ltac:(lia) ltac:(lia) ltac:(lia) ltac:(lia) ltac:(lia) ltac:(lia) ltac:(lia)). assert (E21 := G 0%nat 2%nat 1%nat 0%nat 0%nat 0%nat 1%nat 2%nat ltac:(lia) ltac:(lia) ltac:(lia) ltac:(lia) ltac:(lia) ltac:(lia) ltac:(lia) ltac:(lia)). assert (E22 := G 0%nat 0%nat 1%nat 1%nat 0%nat 1%nat 1%nat 0%nat ltac:(lia) ltac:(lia) ltac:(lia) ltac:(lia) ltac:(lia) ltac:(lia) ltac:(lia) ltac:(lia)).
  split; [| split; [apply E00 | split; [apply E01 | split; [apply E02 | split; [apply E10 | split; [apply E11 | split; [apply E12 | split; [exact E20 | split; [exact E21 | exact E22]]]]]]]]].
  intros i j I J. destruct i as [| [| [| i]]]; [| | | lia]; destruct j as [| [| [| j]]]; try lia; [apply E00 | apply E01 | apply E02 | apply E10 | apply E11 | apply E12 | apply E20 | apply E21 | apply E22].
Qed.
Lemma det_near t m B : adds_all t 3 -> 1 <= B -> B * B <= P2 900 -> matrix_within 3 B m -> affine 2 m -> near64 (det64 t m) (det2 m) (2.01 * e53 * det2_terms m + 3 * tiny).
Proof.
  intros A B1 BB M AM. destruct (cofactors m B B1 BB M AM) as (FC & C00 & _ & _ & C10 & _). assert (F : forall i j, (i < 3)%nat -> (j < 3)%nat -> finite64 (entry m i j)) by (intros i j I J; apply (entry_within 3 B m i j M I J)). assert (U : forall i j, (i < 3)%nat -> (j < 3)%nat -> Rabs (cell m i j) <= B) by (intros i j I J; apply (entry_within 3 B m i j M I J)).
  assert (UP : P2 900 * 4 <= P2 1023) by (replace 4 with (P2 2) by (rewrite <- P2_Z by lia; reflexivity); rewrite <- P2_add; apply P2_mono; lia). assert (P900 : 1 <= P2 900) by (rewrite <- P2_0; apply P2_mono; lia).
  assert (PB : forall i j k l, (i < 3)%nat -> (j < 3)%nat -> (k < 3)%nat -> (l < 3)%nat -> Rabs (cell m i j * cell m k l) <= B * B) by (intros; rewrite Rabs_mult; apply Rmult_le_compat; try apply Rabs_pos; apply U; assumption).
  pose proof (PB 0%nat 0%nat 1%nat 1%nat ltac:(lia) ltac:(lia) ltac:(lia) ltac:(lia)) as Bp. pose proof (PB 0%nat 1%nat 1%nat 0%nat ltac:(lia) ltac:(lia) ltac:(lia) ltac:(lia)) as Bq.
  destruct (mul_any (cofactor64 m 0 0) (entry m 0 0) (FC 0%nat 0%nat ltac:(lia) ltac:(lia)) (F 0%nat 0%nat ltac:(lia) ltac:(lia))) as [F1 N1]; [rewrite C00; change (rval (entry m 0 0)) with (cell m 0 0); rewrite Rmult_comm; lra |].
  destruct (mul_any (cofactor64 m 1 0) (entry m 1 0) (FC 1%nat 0%nat ltac:(lia) ltac:(lia)) (F 1%nat 0%nat ltac:(lia) ltac:(lia))) as [F2 N2]; [rewrite C10; change (rval (entry m 1 0)) with (cell m 1 0); rewrite <- Ropp_mult_distr_l, Rabs_Ropp; lra |].
  rewrite C00 in N1. rewrite C10 in N2. change (rval (entry m 0 0)) with (cell m 0 0) in N1. change (rval (entry m 1 0)) with (cell m 1 0) in N2. rewrite (Rmult_comm (cell m 1 1)) in N1. rewrite <- Ropp_mult_distr_l, Rabs_Ropp in N2.
  unfold det2, det2_terms. set (p := cell m 0 0 * cell m 1 1) in *. set (q := cell m 0 1 * cell m 1 0) in *. set (p' := rval (b64_mul (cofactor64 m 0 0) (entry m 0 0))) in *. set (q' := rval (b64_mul (cofactor64 m 1 0) (entry m 1 0))) in *.
  pose proof e53_pos as PE. pose proof tiny_pos as PT. pose proof tiny_100 as T1. pose proof (Rabs_pos p) as Pp. pose proof (Rabs_pos q) as Pq. assert (e53 * Rabs p <= / 1024 * Rabs p) by (apply Rmult_le_compat_r; lra). assert (e53 * Rabs q <= / 1024 * Rabs q) by (apply Rmult_le_compat_r; lra).
  assert (S1 : Rabs p' <= 1.001 * Rabs p + tiny) by (replace p' with (p' - p + p) by ring; eapply Rle_trans; [apply Rabs_triang |]; lra). assert (S2 : Rabs q' <= 1.001 * Rabs q + tiny) by (replace q' with (q' - - q + - q) by ring; eapply Rle_trans; [apply Rabs_triang |]; rewrite (Rabs_Ropp q); lra).
  assert (S3 : Rabs (p' + q') <= 1.001 * (Rabs p + Rabs q) + 2 * tiny) by (eapply Rle_trans; [apply Rabs_triang |]; lra).
  assert (R : rounded64 (p' + q') (det64 t m)).
  { unfold det64. apply (row_two 3 t (fun k => cofactor64 m k 0) (fun k => entry m k 0) 0 1 p' q'); [exact A | lia | lia | lia | | exact F1 | exact F2 | reflexivity | reflexivity | lra | lra | lra].
    intros k K N0 N1'. assert (k = 2)%nat as -> by lia. apply mul_zero; [apply FC; lia | apply F; lia | exact (AM 0%nat ltac:(lia))]. }
  assert (EX : exists x y, finite64 x /\ finite64 y /\ p' + q' = rval x + rval y) by (exists (b64_mul (cofactor64 m 0 0) (entry m 0 0)), (b64_mul (cofactor64 m 1 0) (entry m 1 0)); auto).
  split; [exact (rounded_val _ _ R) |]. pose proof (rounded_rel _ _ EX R ltac:(lra)) as N. set (s := rval (det64 t m)) in *. replace (s - (p - q)) with ((s - (p' + q')) + ((p' - p) + (q' - - q))) by ring. eapply Rle_trans; [apply Rabs_triang |]. pose proof (Rabs_triang (p' - p) (q' - - q)).
  assert (e53 * Rabs (p' + q') <= e53 * (1.001 * (Rabs p + Rabs q) + 2 * tiny)) by (apply Rmult_le_compat_l; lra). assert (e53 * tiny <= / 1024 * tiny) by (apply Rmult_le_compat_r; lra). assert (0 <= e53 * Rabs p) by (apply Rmult_le_pos; lra). assert (0 <= e53 * Rabs q) by (apply Rmult_le_pos; lra). lra.
Qed.
