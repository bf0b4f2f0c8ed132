From Coq Require Import List Bool Arith ZArith Reals Lra Lia Psatz Permutation Floats.SpecFloat.
From Verif Require Import Result AngleModel FloatModel FloatSpec FloatProofs FloatProofs2 FloatProofs3 FloatProofs4 FloatProofs5 FloatProofs7 FloatProofs8 FloatProofs10
  TransfModel Geo64Model Geo64Spec Geo64Proofs Geo64Proofs2 Geo64Proofs3 Geo64Proofs4 Geo64Proofs6 Geo64Proofs8 Rot64Model Rot64Proofs Rot64Proofs2 Rot64Proofs7 Mat64Model Mat64Spec Mat64Proofs2 Trf64Model Trf64Spec Trf64Proofs Trf64Proofs2 Trf64Proofs3 Trf64Proofs4 Trf64Proofs5 Trf64Proofs6 Trf64Proofs7 Trf64Proofs8 Trf64Proofs9.
Import ListNotations.
Local Open Scope R_scope.

Lemma c140_exact m p i : det2 m <> 0 -> (i < 2)%nat ->
  inverse2 m i 0 * image 2 m p 0 + inverse2 m i 1 * image 2 m p 1 + inverse2 m i 2 = p i /\
  image 2 m (fun k => inverse2 m k 0 * p 0%nat + inverse2 m k 1 * p 1%nat + inverse2 m k 2) i = p i.
Proof.
  intros D I. unfold image, inverse2. cbn [total]. unfold det2 in *. destruct i as [| [| i]]; [| | lia]; split; field; exact D.
Qed.
Lemma Rabs_quot x y : y <> 0 -> Rabs (x / y) = Rabs x / Rabs y.
Proof. intros N. unfold Rdiv. rewrite Rabs_mult, Rabs_inv. reflexivity. Qed.
Lemma inverse_near t K m i j : adds_all t 3 -> 1 <= K <= P2 40 -> regular K m -> (i < 3)%nat -> (j < 3)%nat ->
  near64 (entry (inverse64 t m) i j) (inverse2 m i j) (7 * (e53 * K) * inverse2_terms m i j + P2 (-970)) /\ ((j < i)%nat -> i = 2%nat -> cell (inverse64 t m) i j = 0) /\ inverse2_terms m i j <= P2 301.
Proof.
  intros A HK R I J. pose proof (det2_size K m R) as (D0 & D1 & D2 & D3). pose proof (inv_det t K m A HK R) as (Fk & _ & _). pose proof R as (M & AM & L & H). destruct P2_100 as (P1 & P200 & P900 & PI). destruct (cofactors m (P2 100) P1 P900 M AM) as (FC & C00 & C01 & C02 & C10 & C11 & C12 & C20 & C21 & C22).
  assert (Nw : det2 m <> 0) by (intros E; rewrite E, Rabs_R0 in D0; lra). pose proof e53_pos as PE. pose proof tiny_pos as PT. assert (U1 : e53 <= e53 * K) by (rewrite <- (Rmult_1_r e53) at 1; apply Rmult_le_compat_l; lra).
  assert (U : forall i j, (i < 3)%nat -> (j < 3)%nat -> Rabs (cell m i j) <= P2 100) by (intros i' j' I' J'; apply (entry_within 3 _ m i' j' M I' J')). assert (PB : forall i j k l, (i < 3)%nat -> (j < 3)%nat -> (k < 3)%nat -> (l < 3)%nat -> Rabs (cell m i j * cell m k l) <= P2 200) by (intros; rewrite Rabs_mult, <- P200; apply Rmult_le_compat; try apply Rabs_pos; apply U; assumption).
  assert (E201 : P2 201 = 2 * P2 200) by (rewrite <- P2_succ; reflexivity). assert (P12 : P2 100 <= P2 200) by (apply P2_mono; lia). assert (UP : P2 100 <= P2 201) by (apply P2_mono; lia).
  assert (IS : / Rabs (det2 m) <= P2 100) by (apply (Rmult_le_reg_r (Rabs (det2 m))); [lra |]; rewrite Rinv_l by lra; apply Rle_trans with (P2 100 * P2 (-100)); [rewrite Rmult_comm, PI; lra | apply Rmult_le_compat_l; lra]). assert (P0 : 0 < / Rabs (det2 m)) by (apply Rinv_0_lt_compat; lra).
  assert (E301 : P2 201 * P2 100 = P2 301) by (rewrite <- P2_add; reflexivity). assert (SZ : forall S, 0 <= S -> S <= P2 201 -> S / Rabs (det2 m) <= P2 301) by (intros S S0 S1; unfold Rdiv; rewrite <- E301; apply Rmult_le_compat; lra).
  (* a cofactor that is exact *)
  assert (X : forall i j c, (i < 3)%nat -> (j < 3)%nat -> rval (cofactor64 m j i) = c -> Rabs c <= P2 100 -> near64 (entry (inverse64 t m) i j) (c / det2 m) (7 * (e53 * K) * Rabs (c / det2 m) + P2 (-970)) /\ Rabs (c / det2 m) <= P2 301).
  { intros i' j' c I' J' E B. rewrite Rabs_quot by exact Nw. pose proof (Rabs_pos c). split; [| apply SZ; lra]. unfold inverse64. cbv zeta. rewrite entry_build by assumption. apply (quotient t K m _ c (Rabs c) A HK R); [apply FC; assumption | | lra | lra]. rewrite E, Rminus_diag_eq, Rabs_R0 by reflexivity. assert (0 <= e53 * K * Rabs c) by (apply Rmult_le_pos; lra). lra. }
  (* a cofactor that is rounded *)
  assert (Y : forall i j c S, (i < 3)%nat -> (j < 3)%nat -> near64 (cofactor64 m j i) c (2.01 * e53 * S + 3 * tiny) -> Rabs c <= S -> S <= P2 201 -> near64 (entry (inverse64 t m) i j) (c / det2 m) (7 * (e53 * K) * (S / Rabs (det2 m)) + P2 (-970)) /\ S / Rabs (det2 m) <= P2 301).
  { intros i' j' c S I' J' [_ E] B BS. pose proof (Rabs_pos c). split; [| apply SZ; lra]. unfold inverse64. cbv zeta. rewrite entry_build by assumption. apply (quotient t K m _ c S A HK R); [apply FC; assumption | | exact B | exact BS]. eapply Rle_trans; [exact E |]. assert (e53 * S <= e53 * K * S) by (apply Rmult_le_compat_r; lra). lra. }
  assert (Z : forall j, (j < 2)%nat -> rval (cofactor64 m j 2) = 0 -> cell (inverse64 t m) 2 j = 0).
  { intros j' J' E. rewrite cell_entry. unfold inverse64. cbv zeta. rewrite entry_build by lia. apply mul_by_zero; [apply FC; lia | exact Fk | exact E]. }
  assert (Q0 : Rabs 0 <= P2 100) by (rewrite Rabs_R0; lra).
  destruct i as [| [| [| i]]]; [| | | lia]; destruct j as [| [| [| j]]]; try lia.
  - destruct (X 0%nat 0%nat _ ltac:(lia) ltac:(lia) C00) as [G1 G2]; [apply U; lia |]. split; [exact G1 |]. split; [lia | exact G2].
  - destruct (X 0%nat 1%nat _ ltac:(lia) ltac:(lia) C10) as [G1 G2]; [rewrite Rabs_Ropp; apply U; lia |]. split; [exact G1 |]. split; [lia | exact G2].
  - destruct (Y 0%nat 2%nat _ _ ltac:(lia) ltac:(lia) C20) as [G1 G2]; [eapply Rle_trans; [apply Rabs_triang |]; rewrite Rabs_Ropp; lra | |]. { pose proof (PB 0%nat 1%nat 1%nat 2%nat ltac:(lia) ltac:(lia) ltac:(lia) ltac:(lia)). pose proof (PB 0%nat 2%nat 1%nat 1%nat ltac:(lia) ltac:(lia) ltac:(lia) ltac:(lia)). lra. } split; [exact G1 |]. split; [lia | exact G2].
  - destruct (X 1%nat 0%nat _ ltac:(lia) ltac:(lia) C01) as [G1 G2]; [rewrite Rabs_Ropp; apply U; lia |]. split; [exact G1 |]. split; [lia | exact G2].
  - destruct (X 1%nat 1%nat _ ltac:(lia) ltac:(lia) C11) as [G1 G2]; [apply U; lia |]. split; [exact G1 |]. split; [lia | exact G2].
  - destruct (Y 1%nat 2%nat _ _ ltac:(lia) ltac:(lia) C21) as [G1 G2]; [eapply Rle_trans; [apply Rabs_triang |]; rewrite Rabs_Ropp; lra | |]. { pose proof (PB 0%nat 2%nat 1%nat 0%nat ltac:(lia) ltac:(lia) ltac:(lia) ltac:(lia)). pose proof (PB 0%nat 0%nat 1%nat 2%nat ltac:(lia) ltac:(lia) ltac:(lia) ltac:(lia)). lra. } split; [exact G1 |]. split; [lia | exact G2].
  - destruct (X 2%nat 0%nat _ ltac:(lia) ltac:(lia) C02 Q0) as [G1 G2]. unfold Rdiv in G1, G2. rewrite Rmult_0_l in G1, G2. split; [exact G1 |]. split; [intros _ _; apply Z; [lia | exact C02] | exact G2].
  - destruct (X 2%nat 1%nat _ ltac:(lia) ltac:(lia) C12 Q0) as [G1 G2]. unfold Rdiv in G1, G2. rewrite Rmult_0_l in G1, G2. split; [exact G1 |]. split; [intros _ _; apply Z; [lia | exact C12] | exact G2].
  - split; [| split; [lia |]]; cbn [inverse2 inverse2_terms]; rewrite Rabs_R1; [| rewrite <- P2_0; apply P2_mono; lia]. unfold inverse64. cbv zeta. rewrite entry_build by lia. destruct C22 as [F22 N22]. pose proof (quotient t K m _ (det2 m) (Rabs (det2 m)) A HK R F22) as G. replace (det2 m / det2 m) with 1 in G by (field; exact Nw). replace (Rabs (det2 m) / Rabs (det2 m)) with 1 in G by (field; lra). apply G; [| lra | lra].
    eapply Rle_trans; [exact N22 |]. assert (e53 * det2_terms m <= e53 * K * Rabs (det2 m)) by (rewrite Rmult_assoc; apply Rmult_le_compat_l; lra). lra.
Qed.
Lemma c140_accurate t K f m : adds_all t 3 -> 1 <= K <= P2 40 -> f_isDefined f = true -> f_matrix f = Some m -> matrix_within 3 (P2 100) m -> affine 2 m -> P2 (-100) <= Rabs (det2 m) -> det2_terms m <= K * Rabs (det2 m) ->
  exists g w, f_getInverse2 t f = Ok g /\ f_type g = f_type f /\ f_matrix g = Some w /\ matrix_within 3 (P2 302) w /\ cell w 2 0 = 0 /\ cell w 2 1 = 0 /\
    forall i j, (i <= 2)%nat -> (j <= 2)%nat -> Rabs (cell w i j - inverse2 m i j) <= 7 * P2 (-53) * K * inverse2_terms m i j + P2 (-970).
Proof.
  intros A HK D E M AM L H. assert (R : regular K m) by (split; [exact M | split; [exact AM | split; assumption]]). exists (mkTrf64 (f_type f) (Some (inverse64 t m))), (inverse64 t m). split; [unfold f_getInverse2, f_defined; rewrite D, E; reflexivity |]. split; [reflexivity |]. split; [reflexivity |].
  pose proof (fun i j I J => inverse_near t K m i j A HK R I J) as N. pose proof e53_pos as PE.
  assert (UK : e53 * K <= / 8192) by (apply Rle_trans with (e53 * P2 40); [apply Rmult_le_compat_l; lra |]; rewrite <- e53_P2, <- P2_add; apply Rle_trans with (P2 (-13)); [apply P2_mono; lia |]; apply (Rmult_le_reg_r (P2 13)); [apply P2_pos |]; change (-13)%Z with (- (13))%Z; rewrite P2_opp, <- P2_Z by lia; change (2 ^ 13)%Z with 8192%Z; lra).
  assert (P301 : 1 <= P2 301) by (rewrite <- P2_0; apply P2_mono; lia). assert (P9 : P2 (-970) <= / 1024) by (apply Rle_trans with (P2 (-10)); [apply P2_mono; lia |]; apply (Rmult_le_reg_r (P2 10)); [apply P2_pos |]; change (-10)%Z with (- (10))%Z; rewrite P2_opp, <- P2_Z by lia; change (2 ^ 10)%Z with 1024%Z; lra). assert (E302 : P2 302 = 2 * P2 301) by (rewrite <- P2_succ; reflexivity).
  assert (VS : forall S, 0 <= S -> 0 <= e53 * K * S /\ e53 * K * S <= / 8192 * S) by (intros S S0; split; [apply Rmult_le_pos; [apply Rmult_le_pos |]; lra | apply Rmult_le_compat_r; assumption]).
  assert (T0 : forall i j, 0 <= inverse2_terms m i j /\ Rabs (inverse2 m i j) <= inverse2_terms m i j).
  { pose proof (det2_size K m R) as (D0 & _). assert (Nw : det2 m <> 0) by (intros Z; rewrite Z, Rabs_R0 in D0; lra). assert (P0 : 0 < / Rabs (det2 m)) by (apply Rinv_0_lt_compat; exact D0).
    intros i j. cut (Rabs (inverse2 m i j) <= inverse2_terms m i j); [pose proof (Rabs_pos (inverse2 m i j)); lra |].
    destruct i as [| [| [| i]]]; destruct j as [| [| [| j]]]; cbn [inverse2 inverse2_terms]; try lra; unfold Rdiv; rewrite Rabs_mult, Rabs_inv; (apply Rmult_le_compat_r; [lra |]); (eapply Rle_trans; [apply Rabs_triang |]); rewrite Rabs_Ropp; lra. }
  split.
  { apply build_within. intros i j I J. destruct (N i j I J) as ([F G] & _ & T). unfold inverse64 in F, G. cbv zeta in F, G. rewrite entry_build in F, G by assumption. split; [exact F |]. destruct (T0 i j) as [T1 T2]. destruct (VS _ T1). set (z := rval _) in *. replace z with (z - inverse2 m i j + inverse2 m i j) by ring. eapply Rle_trans; [apply Rabs_triang |]. lra. }
  split; [apply (N 2%nat 0%nat); lia |]. split; [apply (N 2%nat 1%nat); lia |]. intros i j I J. destruct (N i j ltac:(lia) ltac:(lia)) as ([_ G] & _). eapply Rle_trans; [exact G |]. rewrite e53_P2. right. ring.
Qed.
(** There and back. *)
Lemma c140_back t o o' K f m p : adds_all t 3 -> sums 3 o -> sums 3 o' -> 1 <= K <= P2 40 -> f_isDefined f = true -> f_matrix f = Some m -> matrix_within 3 (P2 60) m -> affine 2 m -> P2 (-60) <= Rabs (det2 m) -> det2_terms m <= K * Rabs (det2 m) -> point_within 2 (P2 60) p ->
  exists g q r, f_getInverse2 t f = Ok g /\ f_applyTo_point 2 o f (Some p) = Ok (Some q) /\ f_applyTo_point 2 o' g (Some q) = Ok (Some r) /\ length r = 2%nat /\
    forall i, (i < 2)%nat -> finite64 (nth i r zero64) /\
      Rabs (coord r i - coord p i) <= 33 * P2 (-53) * K * (Rabs (inverse2 m i 0) * terms 2 m (coord p) 0 + Rabs (inverse2 m i 1) * terms 2 m (coord p) 1) + P2 (-790).
Proof.
  intros A O O' HK D E M AM L H P. assert (L2 : P2 (-100) <= Rabs (det2 m)) by (apply Rle_trans with (P2 (-60)); [apply P2_mono; lia | exact L]). assert (M2 : matrix_within 3 (P2 100) m) by (apply (matrix_more _ (P2 60)); [apply P2_mono; lia | exact M]).
  destruct (c140_accurate t K f m A HK D E M2 AM L2 H) as (g & w & Eg & _ & Ew & W & _ & _ & N). exists g. do 2 eexists. split; [exact Eg |]. split; [unfold f_applyTo_point; cbn [need3 bind]; rewrite E; reflexivity |]. split; [unfold f_applyTo_point; cbn [need3 bind]; rewrite Ew; reflexivity |]. split; [apply length_first, length_mulv |].
  (* the coefficients of the inverse fit *)
  assert (R : regular K m) by (split; [exact M2 | split; [exact AM | split; assumption]]). destruct (det2_size K m R) as (D0 & _). assert (Nw : det2 m <> 0) by (intros Z; rewrite Z, Rabs_R0 in D0; lra). pose proof e53_pos as PE.
  assert (UK : e53 * K <= / 8192) by (apply Rle_trans with (e53 * P2 40); [apply Rmult_le_compat_l; lra |]; rewrite <- e53_P2, <- P2_add; apply Rle_trans with (P2 (-13)); [apply P2_mono; lia |]; apply (Rmult_le_reg_r (P2 13)); [apply P2_pos |]; change (-13)%Z with (- (13))%Z; rewrite P2_opp, <- P2_Z by lia; change (2 ^ 13)%Z with 8192%Z; lra).
  set (v := e53 * K) in *. assert (V0 : 0 <= v) by (unfold v; apply Rmult_le_pos; lra). assert (U1 : e53 <= v) by (unfold v; rewrite <- (Rmult_1_r e53) at 1; apply Rmult_le_compat_l; lra).
  assert (IS : / Rabs (det2 m) <= P2 60) by (apply (Rmult_le_reg_r (Rabs (det2 m))); [lra |]; rewrite Rinv_l by lra; apply Rle_trans with (P2 60 * P2 (-60)); [rewrite <- P2_add; right; reflexivity | apply Rmult_le_compat_l; [left; apply P2_pos | exact L]]). assert (P0 : 0 < / Rabs (det2 m)) by (apply Rinv_0_lt_compat; lra).
  assert (U : forall i j, (i < 3)%nat -> (j < 3)%nat -> Rabs (cell m i j) <= P2 60) by (intros i' j' I' J'; apply (entry_within 3 _ m i' j' M I' J')). assert (E120 : P2 60 * P2 60 = P2 120) by (rewrite <- P2_add; reflexivity). assert (PB : forall i j k l, (i < 3)%nat -> (j < 3)%nat -> (k < 3)%nat -> (l < 3)%nat -> Rabs (cell m i j * cell m k l) <= P2 120) by (intros; rewrite Rabs_mult, <- E120; apply Rmult_le_compat; try apply Rabs_pos; apply U; assumption).
  assert (E180 : 2 * P2 120 * P2 60 = P2 181) by (rewrite Rmult_assoc, <- P2_add, <- P2_succ; reflexivity). pose proof (P2_pos 60) as Q60. pose proof (P2_pos 120) as Q120. assert (Q1 : 1 <= P2 60) by (rewrite <- P2_0; apply P2_mono; lia). assert (Q2 : P2 60 <= P2 120) by (apply P2_mono; lia). assert (Q3 : 1 <= P2 181) by (rewrite <- P2_0; apply P2_mono; lia).
  assert (TB : forall i j, (i < 3)%nat -> (j < 3)%nat -> 0 <= inverse2_terms m i j <= P2 181 /\ Rabs (inverse2 m i j) <= inverse2_terms m i j).
  { assert (G : forall S, 0 <= S -> S <= 2 * P2 120 -> 0 <= S / Rabs (det2 m) <= P2 181) by (intros S S0 S1; unfold Rdiv; split; [apply Rmult_le_pos; lra | rewrite <- E180; apply Rmult_le_compat; lra]).
    assert (G1 : forall x, Rabs x <= P2 60 -> (0 <= Rabs (x / det2 m) <= P2 181) /\ Rabs (x / det2 m) <= Rabs (x / det2 m)) by (intros x X; rewrite Rabs_quot by exact Nw; split; [apply G; pose proof (Rabs_pos x); lra | lra]).
    assert (G2 : forall x y, Rabs x <= P2 120 -> Rabs y <= P2 120 -> (0 <= (Rabs x + Rabs y) / Rabs (det2 m) <= P2 181) /\ Rabs ((x - y) / det2 m) <= (Rabs x + Rabs y) / Rabs (det2 m)).
    { intros x y X Y. pose proof (Rabs_pos x). pose proof (Rabs_pos y). split; [apply G; lra |]. rewrite Rabs_quot by exact Nw. unfold Rdiv. apply Rmult_le_compat_r; [lra |]. eapply Rle_trans; [apply Rabs_triang |]. rewrite Rabs_Ropp. lra. }
    intros i j I J. destruct i as [| [| [| i]]]; [| | | lia]; destruct j as [| [| [| j]]]; try lia; cbn [inverse2 inverse2_terms]; rewrite ?Rabs_R0, ?Rabs_R1; try lra; try (apply G1; rewrite ?Rabs_Ropp; apply U; lia); apply G2; apply PB; lia. }
  set (z := P2 (-970)) in *. pose proof (P2_pos (-970)) as Z0. fold z in Z0. assert (Z1 : z <= / 1024) by (apply Rle_trans with (P2 (-10)); [apply P2_mono; lia |]; apply (Rmult_le_reg_r (P2 10)); [apply P2_pos |]; change (-10)%Z with (- (10))%Z; rewrite P2_opp, <- P2_Z by lia; change (2 ^ 10)%Z with 1024%Z; lra).
  assert (NN : forall i j, (i < 3)%nat -> (j < 3)%nat -> Rabs (cell w i j - inverse2 m i j) <= 7 * (v * inverse2_terms m i j) + z /\ Rabs (cell w i j) <= 1.001 * inverse2_terms m i j + z).
  { intros i j I J. pose proof (N i j ltac:(lia) ltac:(lia)) as G. rewrite e53_P2 in G. destruct (TB i j I J) as [[T0 T1] T2]. replace (7 * e53 * K * inverse2_terms m i j) with (7 * (v * inverse2_terms m i j)) in G by (unfold v; ring). split; [exact G |]. assert (v * inverse2_terms m i j <= / 8192 * inverse2_terms m i j) by (apply Rmult_le_compat_r; assumption). replace (cell w i j) with (cell w i j - inverse2 m i j + inverse2 m i j) by ring. eapply Rle_trans; [apply Rabs_triang |]. lra. }
  assert (E182 : P2 182 = 2 * P2 181) by (rewrite <- P2_succ; reflexivity). assert (P182 : P2 182 <= P2 200) by (apply P2_mono; lia).
  assert (W2 : matrix_within 3 (P2 200) w).
  { destruct W as [LW HW]. split; [exact LW |]. intros r I. destruct (HW r I) as [Lr Hr]. split; [exact Lr |]. intros x J. split; [apply Hr; exact J |]. destruct (In_nth w r [] I) as (i & Li & Ei). destruct (In_nth r x zero64 J) as (j & Lj & Ej). rewrite LW in Li. rewrite Lr in Lj. destruct (NN i j Li Lj) as [_ G]. unfold cell in G. fold zero64 in G. rewrite Ei, Ej in G. destruct (TB i j Li Lj). lra. }
  assert (M3 : matrix_within 3 (P2 200) m) by (apply (matrix_more _ (P2 60)); [apply P2_mono; lia | exact M]). assert (P3 : point_within 2 (P2 200) p) by (apply (within_more _ (P2 60)); [apply P2_mono; lia | exact P]).
  intros i I. destruct (twice_near 2 o o' w m p i ltac:(lia) O O' W2 M3 P3 I) as [F G]. split; [exact F |]. unfold coord at 1. fold zero64. set (r := rval _) in *.
  destruct (c140_exact m (coord p) i Nw I) as [X _]. set (T0 := terms 2 m (coord p) 0) in *. set (T1 := terms 2 m (coord p) 1) in *. set (x0 := image 2 m (coord p) 0) in *. set (x1 := image 2 m (coord p) 1) in *.
  assert (XT : forall k, Rabs (image 2 m (coord p) k) <= terms 2 m (coord p) k) by (intros k; rewrite image_total, terms_total; eapply Rle_trans; [apply total_abs |]; right; apply total_ext; intros; apply Rabs_mult). pose proof (XT 0%nat) as X0. pose proof (XT 1%nat) as X1. fold x0 T0 in X0. fold x1 T1 in X1.
  assert (PT : forall k, (k < 2)%nat -> Rabs (cell m k 2) <= terms 2 m (coord p) k /\ terms 2 m (coord p) k <= 3 * P2 120).
  { intros k K'. unfold terms. cbn [total]. assert (C : forall j, (j < 2)%nat -> 0 <= Rabs (cell m k j) * Rabs (coord p j) <= P2 120) by (intros j J; split; [apply Rmult_le_pos; apply Rabs_pos |]; rewrite <- E120; apply Rmult_le_compat; try apply Rabs_pos; [apply U; lia | apply (coord_within 2 _ p j P J)]). pose proof (C 0%nat ltac:(lia)). pose proof (C 1%nat ltac:(lia)). pose proof (U k 2%nat ltac:(lia) ltac:(lia)). pose proof (Rabs_pos (cell m k 2)). split; lra. }
  destruct (PT 0%nat ltac:(lia)) as [T0l T0u]. destruct (PT 1%nat ltac:(lia)) as [T1l T1u]. fold T0 in T0l, T0u. fold T1 in T1l, T1u. pose proof (Rabs_pos (cell m 0 2)) as c02. pose proof (Rabs_pos (cell m 1 2)) as c12.
  destruct (NN i 0%nat ltac:(lia) ltac:(lia)) as [N0 B0]. destruct (NN i 1%nat ltac:(lia) ltac:(lia)) as [N1 B1]. destruct (NN i 2%nat ltac:(lia) ltac:(lia)) as [N2 B2].
  set (a0 := inverse2 m i 0) in *. set (a1 := inverse2 m i 1) in *. set (a2 := inverse2 m i 2) in *. set (s2 := inverse2_terms m i 2) in *.
  assert (I0 : inverse2_terms m i 0 = Rabs a0) by (unfold a0; destruct i as [| [| i]]; [reflexivity | reflexivity | lia]). assert (I1 : inverse2_terms m i 1 = Rabs a1) by (unfold a1; destruct i as [| [| i]]; [reflexivity | reflexivity | lia]). rewrite I0 in N0, B0. rewrite I1 in N1, B1. pose proof (Rabs_pos a0) as A0. pose proof (Rabs_pos a1) as A1.
  assert (S2 : 0 <= s2 /\ s2 <= Rabs a0 * T0 + Rabs a1 * T1).
  { split; [apply TB; lia |]. assert (Q : s2 = Rabs a0 * Rabs (cell m 0 2) + Rabs a1 * Rabs (cell m 1 2)).
    { unfold s2, a0, a1. destruct i as [| [| i]]; [| | lia]; cbn [inverse2 inverse2_terms]; rewrite !Rabs_quot, !Rabs_mult by exact Nw; rewrite ?Rabs_Ropp; field; lra. }
    rewrite Q. apply Rplus_le_compat; apply Rmult_le_compat_l; assumption. }
  set (G0 := Rabs a0 * T0) in *. set (G1 := Rabs a1 * T1) in *. assert (G00 : 0 <= G0) by (apply Rmult_le_pos; lra). assert (G10 : 0 <= G1) by (apply Rmult_le_pos; lra).
  (* the terms of the second map *)
  assert (Y : terms 2 w (terms 2 m (coord p)) i <= 1.001 * (2 * (G0 + G1)) + z * (T0 + T1 + 1)).
  { unfold terms at 1. cbn [total]. fold T0 T1. rewrite (Rabs_pos_eq T0), (Rabs_pos_eq T1) by lra. assert (Rabs (cell w i 0) * T0 <= (1.001 * Rabs a0 + z) * T0) by (apply Rmult_le_compat_r; lra). assert (Rabs (cell w i 1) * T1 <= (1.001 * Rabs a1 + z) * T1) by (apply Rmult_le_compat_r; lra). unfold G0, G1 in *. lra. }
  assert (Y2 : Rabs (image 2 w (image 2 m (coord p)) i - coord p i) <= 14 * (v * (G0 + G1)) + z * (T0 + T1 + 1)).
  { unfold image at 1. cbn [total]. fold x0 x1. rewrite <- X. replace (0 + cell w i 0 * x0 + cell w i 1 * x1 + cell w i 2 - (a0 * x0 + a1 * x1 + a2)) with ((cell w i 0 - a0) * x0 + ((cell w i 1 - a1) * x1 + (cell w i 2 - a2))) by ring. eapply Rle_trans; [apply Rabs_triang |]. eapply Rle_trans; [apply Rplus_le_compat_l, Rabs_triang |]. rewrite !Rabs_mult.
    assert (Rabs (cell w i 0 - a0) * Rabs x0 <= (7 * (v * Rabs a0) + z) * T0) by (apply Rmult_le_compat; try apply Rabs_pos; assumption). assert (Rabs (cell w i 1 - a1) * Rabs x1 <= (7 * (v * Rabs a1) + z) * T1) by (apply Rmult_le_compat; try apply Rabs_pos; assumption). assert (v * s2 <= v * (G0 + G1)) by (apply Rmult_le_compat_l; lra). unfold G0, G1 in *. lra. }
  set (g0 := G0 + G1) in *. set (zz := z * (T0 + T1 + 1)) in *. assert (ZZ : 0 <= zz /\ 128 * zz <= P2 (-800)).
  { split; [unfold zz; apply Rmult_le_pos; lra |]. apply Rle_trans with (128 * (z * (8 * P2 120))); [unfold zz; apply Rmult_le_compat_l; [lra |]; apply Rmult_le_compat_l; lra |]. unfold z. replace (128 * (P2 (-970) * (8 * P2 120))) with (1024 * P2 (-850)) by (change (-850)%Z with (-970 + 120)%Z; rewrite P2_add; ring). apply (P2_small _ _ 10); lia. }
  assert (E790 : 1024 * P2 (-800) <= P2 (-790)) by (apply (P2_small _ _ 10); lia). pose proof (P2_pos (-800)) as P80.
  replace (r - coord p i) with (r - image 2 w (image 2 m (coord p)) i + (image 2 w (image 2 m (coord p)) i - coord p i)) by ring. eapply Rle_trans; [apply Rabs_triang |]. rewrite e53_P2. replace (33 * e53 * K * g0) with (33 * (v * g0)) by (unfold v; ring).
  set (Tw := terms 2 w (terms 2 m (coord p)) i) in *. assert (V2 : e53 * Tw <= v * (1.001 * (2 * g0) + zz)) by (apply Rmult_le_compat; [lra | apply terms_pos | exact U1 | exact Y]). assert (v * zz <= / 8192 * zz) by (apply Rmult_le_compat_r; lra). assert (0 <= v * g0) by (apply Rmult_le_pos; unfold g0; lra). lra.
Qed.
