From Coq Require Import List Bool Arith ZArith Reals Lra Lia Psatz Permutation Floats.SpecFloat.
From Verif Require Import Result AngleModel FloatModel FloatSpec FloatProofs FloatProofs2 FloatProofs3 FloatProofs4 FloatProofs5 FloatProofs7 FloatProofs8 FloatProofs10
  TransfModel Geo64Model Geo64Spec Geo64Proofs Geo64Proofs2 Geo64Proofs3 Geo64Proofs4 Geo64Proofs6 Geo64Proofs8 Rot64Model Rot64Proofs Rot64Proofs2 Rot64Proofs7 Mat64Model Mat64Spec Mat64Proofs2 Trf64Model Trf64Spec Trf64Proofs Trf64Proofs2 Trf64Proofs3 Trf64Proofs4 Trf64Proofs5 Trf64Proofs6 Trf64Proofs7 Trf64Proofs8.
Import ListNotations.
Local Open Scope R_scope.

(** *** Accuracy of the inverse in the plane *)
Definition regular (K : R) (m : m64) : Prop := matrix_within 3 (P2 100) m /\ affine 2 m /\ P2 (-100) <= Rabs (det2 m) /\ det2_terms m <= K * Rabs (det2 m).
Lemma P2_100 : 1 <= P2 100 /\ P2 100 * P2 100 = P2 200 /\ P2 100 * P2 100 <= P2 900 /\ P2 (-100) * P2 100 = 1.
Proof. split; [rewrite <- P2_0; apply P2_mono; lia |]. rewrite <- !P2_add. split; [reflexivity |]. split; [apply P2_mono; lia | reflexivity]. Qed.
Lemma tiny_eq : tiny = P2 (-1075).
Proof. pose proof tiny16 as T. replace (P2 (-1071)) with (16 * P2 (-1075)) in T by (replace 16 with (P2 4) by (rewrite <- P2_Z by lia; reflexivity); rewrite <- P2_add; reflexivity). lra. Qed.
Lemma P2_small a b k : (0 <= k)%Z -> (a + k <= b)%Z -> IZR (2 ^ k) * P2 a <= P2 b.
Proof. intros K H. rewrite P2_Z by exact K. rewrite <- P2_add. apply P2_mono. lia. Qed.
Lemma det2_size K m : regular K m -> 0 < Rabs (det2 m) /\ Rabs (det2 m) <= P2 201 /\ det2_terms m <= P2 201 /\ Rabs (det2 m) <= det2_terms m.
Proof.
  intros (M & AM & L & _). pose proof (P2_pos (-100)). destruct P2_100 as (_ & P200 & _ & _). assert (U : forall i j, (i < 3)%nat -> (j < 3)%nat -> Rabs (cell m i j) <= P2 100) by (intros i j I J; apply (entry_within 3 _ m i j M I J)).
  assert (PB : forall i j k l, (i < 3)%nat -> (j < 3)%nat -> (k < 3)%nat -> (l < 3)%nat -> Rabs (cell m i j * cell m k l) <= P2 200) by (intros; rewrite Rabs_mult, <- P200; apply Rmult_le_compat; try apply Rabs_pos; apply U; assumption).
  assert (T : det2_terms m <= P2 201) by (unfold det2_terms; replace (P2 201) with (2 * P2 200) by (rewrite <- P2_succ; reflexivity); pose proof (PB 0%nat 0%nat 1%nat 1%nat ltac:(lia) ltac:(lia) ltac:(lia) ltac:(lia)); pose proof (PB 0%nat 1%nat 1%nat 0%nat ltac:(lia) ltac:(lia) ltac:(lia) ltac:(lia)); lra).
  assert (D : Rabs (det2 m) <= det2_terms m) by (unfold det2, det2_terms; eapply Rle_trans; [apply Rabs_triang |]; rewrite Rabs_Ropp; lra). lra.
Qed.
(** The inverse of the determinant, times the determinant. *)
Lemma inv_det t K m : adds_all t 3 -> 1 <= K <= P2 40 -> regular K m -> let k := b64_div one_64 (det64 t m) in
  finite64 k /\ Rabs (rval k * det2 m - 1) <= 3.04 * (e53 * K) /\ Rabs (rval k) <= 2 * P2 100.
Proof.
  intros A HK R k. destruct (det2_size K m R) as (D0 & D1 & D2 & D3). destruct R as (M & AM & L & H). destruct P2_100 as (P1 & P200 & P900 & PI).
  destruct (det_near t m (P2 100) A P1 P900 M AM) as [FD ND]. set (x := rval (det64 t m)) in *. set (w := det2 m) in *. set (s := Rabs w) in *.
  pose proof e53_pos as PE. pose proof tiny_pos as PT.
  assert (UK : e53 * K <= / 1024) by (apply Rle_trans with (e53 * P2 40); [apply Rmult_le_compat_l; lra |]; rewrite <- e53_P2, <- P2_add; apply Rle_trans with (P2 (-10)); [apply P2_mono; lia |]; apply (Rmult_le_reg_r (P2 10)); [apply P2_pos |]; change (-10)%Z with (- (10))%Z; rewrite P2_opp, <- P2_Z by lia; change (2 ^ 10)%Z with 1024%Z; lra).
  assert (U1 : e53 <= e53 * K) by (rewrite <- (Rmult_1_r e53) at 1; apply Rmult_le_compat_l; lra).
  assert (TS : 1024 * tiny <= e53 * s).
  { apply Rle_trans with (e53 * P2 (-100)); [| apply Rmult_le_compat_l; lra]. rewrite <- e53_P2, <- P2_add, tiny_eq. apply (P2_small _ _ 10); lia. }
  assert (TS2 : 1024 * (tiny * s) <= e53).
  { apply Rle_trans with (1024 * (tiny * P2 201)); [apply Rmult_le_compat_l; [lra |]; apply Rmult_le_compat_l; lra |]. rewrite tiny_eq, <- P2_add, <- e53_P2. apply (P2_small _ _ 10); lia. }
  assert (ES : e53 * s <= e53 * K * s) by (apply Rmult_le_compat_r; lra). assert (ET : e53 * det2_terms m <= e53 * K * s) by (rewrite Rmult_assoc; apply Rmult_le_compat_l; lra). assert (KS : e53 * K * s <= / 1024 * s) by (apply Rmult_le_compat_r; lra).
  assert (N1 : Rabs (x - w) <= 2.015 * (e53 * K * s)) by lra. assert (X1 : 0.997 * s <= Rabs x) by (unfold s in *; pose proof (Rabs_triang (w - x) x) as T; replace (w - x + x) with w in T by ring; rewrite (Rabs_minus_sym w x) in T; lra).
  assert (Nx : x <> 0) by (intros E; rewrite E, Rabs_R0 in X1; lra). assert (Nw : w <> 0) by (intros E; unfold s in D0; rewrite E, Rabs_R0 in D0; lra). destruct one_val as [F1 V1]. assert (PX : 0 < Rabs x) by lra.
  assert (IX : / Rabs x <= 1.004 * / s) by (apply (Rmult_le_reg_r (Rabs x * s)); [apply Rmult_lt_0_compat; lra |]; replace (/ Rabs x * (Rabs x * s)) with s by (field; lra); replace (1.004 * / s * (Rabs x * s)) with (1.004 * Rabs x) by (field; lra); lra).
  assert (IS : / s <= P2 100) by (apply (Rmult_le_reg_r s); [lra |]; rewrite Rinv_l by lra; apply Rle_trans with (P2 100 * P2 (-100)); [rewrite Rmult_comm, PI; lra | apply Rmult_le_compat_l; lra]). assert (P0 : 0 < / s) by (apply Rinv_0_lt_compat; lra).
  assert (BD : Rabs (rval one_64 / rval (det64 t m)) <= 1.004 * P2 100) by (fold x; rewrite V1; unfold Rdiv; rewrite Rmult_1_l, Rabs_inv; lra).
  assert (UP : P2 100 * 4 <= P2 1023) by (replace 4 with (P2 2) by (rewrite <- P2_Z by lia; reflexivity); rewrite <- P2_add; apply P2_mono; lia).
  destruct (div_any one_64 (det64 t m) F1 FD Nx ltac:(lra)) as [Fk Nk]. fold k in Fk, Nk. fold x in Nk, BD. rewrite V1 in Nk, BD. unfold Rdiv in Nk, BD. rewrite Rmult_1_l in Nk, BD. split; [exact Fk |]. rewrite Rabs_inv in Nk, BD. split.
  - replace (rval k * w - 1) with ((rval k - / x) * w + (w - x) * / x) by (field; exact Nx). eapply Rle_trans; [apply Rabs_triang |]. rewrite !Rabs_mult, Rabs_inv, (Rabs_minus_sym w x). fold s.
    assert (G1 : Rabs (rval k - / x) * s <= (e53 * / Rabs x + tiny) * s) by (apply Rmult_le_compat_r; lra). assert (G2 : e53 * / Rabs x * s <= 1.004 * e53) by (rewrite Rmult_assoc; rewrite (Rmult_comm 1.004); apply Rmult_le_compat_l; [lra |]; apply Rle_trans with (1.004 * / s * s); [apply Rmult_le_compat_r; lra |]; right; field; lra).
    assert (G3 : Rabs (x - w) * / Rabs x <= 2.015 * (e53 * K * s) * (1.004 * / s)) by (apply Rmult_le_compat; [apply Rabs_pos | left; apply Rinv_0_lt_compat; exact PX | exact N1 | exact IX]). replace (2.015 * (e53 * K * s) * (1.004 * / s)) with (2.015 * 1.004 * (e53 * K)) in G3 by (field; lra). lra.
  - replace (rval k) with (rval k - / x + / x) by ring. eapply Rle_trans; [apply Rabs_triang |]. rewrite Rabs_inv. assert (e53 * / Rabs x <= / 1024 * / Rabs x) by (apply Rmult_le_compat_r; [left; apply Rinv_0_lt_compat; exact PX | lra]). pose proof tiny_100. lra.
Qed.
(** A cofactor times the inverse of the determinant. *)
Lemma quotient t K m C cof S : adds_all t 3 -> 1 <= K <= P2 40 -> regular K m -> finite64 C -> Rabs (rval C - cof) <= 2.01 * (e53 * K * S) + 3 * tiny -> Rabs cof <= S -> S <= P2 201 ->
  near64 (b64_mul C (b64_div one_64 (det64 t m))) (cof / det2 m) (7 * (e53 * K) * (S / Rabs (det2 m)) + P2 (-970)).
Proof.
  intros A HK R FC NC BC BS. destruct (inv_det t K m A HK R) as (Fk & Nk & Bk). destruct (det2_size K m R) as (D0 & D1 & _ & _). destruct R as (M & AM & L & _). destruct P2_100 as (P1 & _ & _ & PI). set (k := b64_div one_64 (det64 t m)) in *. set (w := det2 m) in *. set (s := Rabs w) in *. assert (Nw : w <> 0) by (intros E; unfold s in D0; rewrite E, Rabs_R0 in D0; lra).
  pose proof e53_pos as PE. pose proof tiny_pos as PT. pose proof tiny_100 as T1. pose proof (Rabs_pos cof) as PC.
  assert (UK : e53 * K <= / 8192) by (apply Rle_trans with (e53 * P2 40); [apply Rmult_le_compat_l; lra |]; rewrite <- e53_P2, <- P2_add; apply Rle_trans with (P2 (-13)); [apply P2_mono; lia |]; apply (Rmult_le_reg_r (P2 13)); [apply P2_pos |]; change (-13)%Z with (- (13))%Z; rewrite P2_opp, <- P2_Z by lia; change (2 ^ 13)%Z with 8192%Z; lra).
  assert (U1 : e53 <= e53 * K) by (rewrite <- (Rmult_1_r e53) at 1; apply Rmult_le_compat_l; lra). set (v := e53 * K) in *. assert (VS : v * S <= / 8192 * S) by (apply Rmult_le_compat_r; lra). assert (V0 : 0 <= v * S) by (apply Rmult_le_pos; lra).
  assert (SC : Rabs (rval C) <= 1.0003 * S + 3 * tiny) by (replace (rval C) with (rval C - cof + cof) by ring; eapply Rle_trans; [apply Rabs_triang |]; lra).
  assert (UP : P2 100 * P2 201 * 8 <= P2 1023) by (replace 8 with (P2 3) by (rewrite <- P2_Z by lia; reflexivity); rewrite <- !P2_add; apply P2_mono; lia). assert (P201 : 1 <= P2 201) by (rewrite <- P2_0; apply P2_mono; lia).
  assert (PP : 0 <= P2 100 * P2 201) by (apply Rmult_le_pos; lra).
  assert (BU : Rabs (rval C * rval k) <= P2 1023) by (rewrite Rabs_mult; apply Rle_trans with (2 * P2 201 * (2 * P2 100)); [apply Rmult_le_compat; try apply Rabs_pos; lra | lra]).
  destruct (mul_any C k FC Fk BU) as [Fz Nz]. split; [exact Fz |]. set (z := rval (b64_mul C k)) in *.
  (* everything times the determinant *)
  apply (Rmult_le_reg_r s); [exact D0 |]. replace (Rabs (z - cof / w) * s) with (Rabs (z * w - cof)) by (unfold s; rewrite <- Rabs_mult; f_equal; field; exact Nw). replace ((7 * v * (S / s) + P2 (-970)) * s) with (7 * (v * S) + P2 (-970) * s) by (field; lra).
  set (f := rval k * w - 1) in *. set (c := rval C) in *. replace (z * w - cof) with ((z - c * rval k) * w + ((c - cof) * (1 + f) + cof * f)) by (unfold f; ring). eapply Rle_trans; [apply Rabs_triang |]. eapply Rle_trans; [apply Rplus_le_compat_l, Rabs_triang |]. rewrite !Rabs_mult. fold s. change (Rabs f <= 3.04 * v) in Nk.
  assert (F1 : Rabs (1 + f) <= 1.0004) by (eapply Rle_trans; [apply Rabs_triang |]; rewrite Rabs_R1; lra).
  assert (G1 : Rabs (z - c * rval k) * s <= (e53 * Rabs (c * rval k) + tiny) * s) by (apply Rmult_le_compat_r; lra). assert (E1 : e53 * Rabs (c * rval k) * s = e53 * (Rabs c * Rabs (1 + f))) by (rewrite Rmult_assoc; f_equal; unfold s; rewrite <- !Rabs_mult; f_equal; unfold f; ring).
  assert (G2 : Rabs c * Rabs (1 + f) <= (1.0003 * S + 3 * tiny) * 1.0004) by (apply Rmult_le_compat; try apply Rabs_pos; assumption). assert (G3 : e53 * (Rabs c * Rabs (1 + f)) <= v * ((1.0003 * S + 3 * tiny) * 1.0004)) by (apply Rmult_le_compat; [lra | apply Rmult_le_pos; apply Rabs_pos | exact U1 | exact G2]).
  assert (G4 : Rabs (c - cof) * Rabs (1 + f) <= (2.01 * (v * S) + 3 * tiny) * 1.0004) by (apply Rmult_le_compat; try apply Rabs_pos; assumption). assert (G5 : Rabs cof * Rabs f <= S * (3.04 * v)) by (apply Rmult_le_compat; try apply Rabs_pos; assumption). assert (VT : v * tiny <= / 8192 * tiny) by (apply Rmult_le_compat_r; lra).
  assert (TT : 8 * tiny <= P2 (-970) / 2 * s).
  { apply Rle_trans with (P2 (-970) / 2 * P2 (-100)); [| apply Rmult_le_compat_l; [pose proof (P2_pos (-970)); lra | exact L]]. replace (P2 (-970) / 2 * P2 (-100)) with (P2 (-1070) / 2) by (change (-1070)%Z with (-970 + -100)%Z; rewrite P2_add; field). rewrite tiny_eq. pose proof (P2_small (-1075) (-1070) 4 ltac:(lia) ltac:(lia)) as T. change (IZR (2 ^ 4)) with 16 in T. lra. }
  assert (TT2 : tiny * s <= P2 (-970) / 2 * s) by (apply Rmult_le_compat_r; [lra |]; rewrite tiny_eq; pose proof (P2_small (-1075) (-970) 1 ltac:(lia) ltac:(lia)) as T; change (IZR (2 ^ 1)) with 2 in T; lra). lra.
Qed.
