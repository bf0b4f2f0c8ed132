From Coq Require Import List Bool Arith ZArith Reals Lra Lia Psatz Permutation Floats.SpecFloat.
From Verif Require Import Result AngleModel FloatModel FloatSpec FloatProofs FloatProofs2 FloatProofs3 FloatProofs4 FloatProofs5 FloatProofs7 FloatProofs8 FloatProofs10
  TransfModel Geo64Model Geo64Spec Geo64Proofs Geo64Proofs2 Geo64Proofs3 Geo64Proofs4 Geo64Proofs6 Geo64Proofs8 Rot64Model Rot64Proofs Rot64Proofs2 Rot64Proofs7 Mat64Model Mat64Spec Mat64Proofs2 Trf64Model Trf64Spec Trf64Proofs Trf64Proofs2 Trf64Proofs3 Trf64Proofs4 Trf64Proofs5 Trf64Proofs6 Trf64Proofs7 Trf64Proofs8 Trf64Proofs9 Trf64Proofs10.
Import ListNotations.
Local Open Scope R_scope.

Lemma div_one x : finite64 x -> rval x = 1 -> finite64 (b64_div one_64 x) /\ rval (b64_div one_64 x) = 1.
Proof.
  intros F V. destruct one_val as [F1 V1]. assert (E : rval one_64 / rval x = 1) by (rewrite V1, V; field). destruct (SFdiv_rounded one_64 x F1 F ltac:(rewrite V; lra)) as [N _]; [rewrite E, Rabs_R1, <- P2_0; apply P2_mono; lia |]. rewrite E in N. split; [exact (proj1 N) |]. apply (nearest_exact _ _ N). exists one_64. split; assumption.
Qed.
(** The inverse of a translation is the opposite translation, exactly. *)
Lemma c140_translation t v : adds_all t 3 -> point_within 2 (P2 400) v ->
  exists f g w, f_Translation 2 (Some v) = Ok f /\ f_getInverse2 t f = Ok g /\ f_type g = TTranslation /\ f_matrix g = Some w /\ matrix_within 3 (P2 400) w /\ affine 2 w /\
    forall i j, (i < 2)%nat -> (j < 2)%nat -> cell w i j = (if Nat.eqb i j then 1 else 0) /\ cell w i 2 = - coord v i.
Proof.
  intros A V. assert (P1 : 1 <= P2 400) by (rewrite <- P2_0; apply P2_mono; lia). assert (P8 : P2 400 * P2 400 <= P2 900) by (rewrite <- P2_add; apply P2_mono; lia). assert (UP : P2 400 <= P2 1023) by (apply P2_mono; lia).
  set (m := tmat 2 v). exists (mkTrf64 TTranslation (Some m)), (mkTrf64 TTranslation (Some (inverse64 t m))), (inverse64 t m). split; [reflexivity |]. split; [reflexivity |]. split; [reflexivity |]. split; [reflexivity |].
  assert (M : matrix_within 3 (P2 400) m) by (apply (tmat_within 2); assumption). assert (AM : affine 2 m) by apply tmat_affine. destruct (cofactors m (P2 400) P1 P8 M AM) as (FC & C00 & C01 & C02 & C10 & C11 & C12 & _ & _ & _).
  assert (F : forall i j, (i < 3)%nat -> (j < 3)%nat -> finite64 (entry m i j)) by (intros i j I J; apply (entry_within 3 _ m i j M I J)). assert (C : forall i j, (i < 3)%nat -> (j < 3)%nat -> rval (entry m i j) = if Nat.eqb i j then 1 else if Nat.eqb j 2 then coord v i else 0) by (intros i j I J; apply (tmat_cell 2); assumption).
  assert (VB : forall i, (i < 2)%nat -> Rabs (coord v i) <= P2 400) by (intros i I; apply (coord_within 2 _ v i V I)).
  assert (D00 : rval (cofactor64 m 0 0) = 1) by (rewrite C00, cell_entry; apply (C 1%nat 1%nat); lia). assert (D01 : rval (cofactor64 m 0 1) = 0) by (rewrite C01, cell_entry, (C 1%nat 0%nat) by lia; cbn; ring). assert (D10 : rval (cofactor64 m 1 0) = 0) by (rewrite C10, cell_entry, (C 0%nat 1%nat) by lia; cbn; ring). assert (D11 : rval (cofactor64 m 1 1) = 1) by (rewrite C11, cell_entry; apply (C 0%nat 0%nat); lia).
  assert (B1 : Rabs 1 <= P2 1023) by (rewrite Rabs_R1; lra).
  (* x * 1 - 0 * y and 0 * y - x * 1 *)
  assert (S1 : forall a b c d, finite64 a -> finite64 b -> finite64 c -> finite64 d -> rval a = 0 -> rval d = 1 -> Rabs (rval c) <= P2 1023 -> finite64 (sf_sub (b64_mul a b) (b64_mul c d)) /\ rval (sf_sub (b64_mul a b) (b64_mul c d)) = - rval c).
  { intros a b c d Fa Fb Fc Fd Va Vd Bc. destruct (mul_by_zero a b Fa Fb Va) as [Z1 Z2]. destruct (mul_by_one d c Fd Fc Vd Bc) as [_ [Y1 Y2]]. destruct (sub_zero_val _ _ Z1 Y1 (or_introl Z2)) as [G1 G2]; [rewrite Z2, Y2, Rminus_0_l, Rabs_Ropp; exact Bc |]. rewrite Z2, Y2 in G2. split; [exact G1 | lra]. }
  assert (S2 : forall a b c d, finite64 a -> finite64 b -> finite64 c -> finite64 d -> rval b = 0 -> rval c = 1 -> Rabs (rval d) <= P2 1023 -> finite64 (sf_sub (b64_mul a b) (b64_mul c d)) /\ rval (sf_sub (b64_mul a b) (b64_mul c d)) = - rval d).
  { intros a b c d Fa Fb Fc Fd Vb Vc Bd. destruct (mul_zero a b Fa Fb Vb) as [Z1 Z2]. destruct (mul_by_one c d Fc Fd Vc Bd) as [[Y1 Y2] _]. destruct (sub_zero_val _ _ Z1 Y1 (or_introl Z2)) as [G1 G2]; [rewrite Z2, Y2, Rminus_0_l, Rabs_Ropp; exact Bd |]. rewrite Z2, Y2 in G2. split; [exact G1 | lra]. }
  assert (D20 : rval (cofactor64 m 2 0) = - coord v 0).
  { change (cofactor64 m 2 0) with (sf_sub (b64_mul (entry m 0 1) (entry m 1 2)) (b64_mul (entry m 0 2) (entry m 1 1))). rewrite (proj2 (S1 _ _ _ _ (F 0%nat 1%nat ltac:(lia) ltac:(lia)) (F 1%nat 2%nat ltac:(lia) ltac:(lia)) (F 0%nat 2%nat ltac:(lia) ltac:(lia)) (F 1%nat 1%nat ltac:(lia) ltac:(lia)) (C 0%nat 1%nat ltac:(lia) ltac:(lia)) (C 1%nat 1%nat ltac:(lia) ltac:(lia)) ltac:(rewrite (C 0%nat 2%nat) by lia; cbn [Nat.eqb]; pose proof (VB 0%nat ltac:(lia)); lra))). rewrite (C 0%nat 2%nat) by lia. reflexivity. }
  assert (D21 : rval (cofactor64 m 2 1) = - coord v 1).
  { change (cofactor64 m 2 1) with (sf_sub (b64_mul (entry m 0 2) (entry m 1 0)) (b64_mul (entry m 0 0) (entry m 1 2))). rewrite (proj2 (S2 _ _ _ _ (F 0%nat 2%nat ltac:(lia) ltac:(lia)) (F 1%nat 0%nat ltac:(lia) ltac:(lia)) (F 0%nat 0%nat ltac:(lia) ltac:(lia)) (F 1%nat 2%nat ltac:(lia) ltac:(lia)) (C 1%nat 0%nat ltac:(lia) ltac:(lia)) (C 0%nat 0%nat ltac:(lia) ltac:(lia)) ltac:(rewrite (C 1%nat 2%nat) by lia; cbn [Nat.eqb]; pose proof (VB 1%nat ltac:(lia)); lra))). rewrite (C 1%nat 2%nat) by lia. reflexivity. }
  assert (D22 : rval (cofactor64 m 2 2) = 1).
  { change (cofactor64 m 2 2) with (sf_sub (b64_mul (entry m 0 0) (entry m 1 1)) (b64_mul (entry m 0 1) (entry m 1 0))). destruct (mul_by_one (entry m 0 0) (entry m 1 1)) as [[Y1 Y2] _]; [apply F; lia | apply F; lia | apply (C 0%nat 0%nat); lia | rewrite (C 1%nat 1%nat) by lia; exact B1 |]. destruct (mul_zero (entry m 0 1) (entry m 1 0)) as [Z1 Z2]; [apply F; lia | apply F; lia | apply (C 1%nat 0%nat); lia |]. rewrite (proj2 (sub_zero_val _ _ Y1 Z1 (or_intror Z2) ltac:(rewrite Y2, Z2, Rminus_0_r, (C 1%nat 1%nat) by lia; exact B1))). rewrite Y2, Z2, (C 1%nat 1%nat) by lia. cbn. ring. }
  assert (DD : finite64 (det64 t m) /\ rval (det64 t m) = 1).
  { unfold det64. destruct (mul_by_one (cofactor64 m 0 0) (entry m 0 0)) as [[Y1 Y2] _]; [apply FC; lia | apply F; lia | exact D00 | rewrite (C 0%nat 0%nat) by lia; exact B1 |]. rewrite (C 0%nat 0%nat) in Y2 by lia.
    apply (row_one 3 t (fun k => cofactor64 m k 0) (fun k => entry m k 0) 0 1); [exact A | lia | lia | | exact Y1 | exact Y2 | exact B1]. intros k K N. apply mul_zero; [apply FC; lia | apply F; lia |]. rewrite C by lia. destruct k as [| [| [| k]]]; [contradiction | reflexivity | reflexivity | lia]. }
  destruct (div_one _ (proj1 DD) (proj2 DD)) as [Fk Vk].
  assert (G : forall i j, (i < 3)%nat -> (j < 3)%nat -> finite64 (entry (inverse64 t m) i j) /\ rval (entry (inverse64 t m) i j) = rval (cofactor64 m j i)).
  { intros i j I J. unfold inverse64. cbv zeta. rewrite entry_build by assumption. apply (mul_by_one _ _ Fk (FC j i J I) Vk). pose proof (VB 0%nat ltac:(lia)). pose proof (VB 1%nat ltac:(lia)).
    destruct i as [| [| [| i]]]; [| | | lia]; destruct j as [| [| [| j]]]; try lia; rewrite ?D00, ?D01, ?D10, ?D11, ?D20, ?D21, ?D22, ?C02, ?C12, ?Rabs_Ropp, ?Rabs_R0, ?Rabs_R1; lra. }
  assert (WB : matrix_within 3 (P2 400) (inverse64 t m)).
  { apply build_within. intros i j I J. destruct (G i j I J) as [G1 G2]. unfold inverse64 in G1, G2. cbv zeta in G1, G2. rewrite entry_build in G1, G2 by assumption. split; [exact G1 |]. rewrite G2. pose proof (VB 0%nat ltac:(lia)). pose proof (VB 1%nat ltac:(lia)).
    destruct i as [| [| [| i]]]; [| | | lia]; destruct j as [| [| [| j]]]; try lia; rewrite ?D00, ?D01, ?D10, ?D11, ?D20, ?D21, ?D22, ?C02, ?C12, ?Rabs_Ropp, ?Rabs_R0, ?Rabs_R1; lra. }
  split; [exact WB |]. split.
  - intros j J. rewrite cell_entry, (proj2 (G 2%nat j ltac:(lia) ltac:(lia))). destruct j as [| [| [| j]]]; [exact C02 | exact C12 | exact D22 | lia].
  - intros i j I J. rewrite !cell_entry, (proj2 (G i j ltac:(lia) ltac:(lia))), (proj2 (G i 2%nat ltac:(lia) ltac:(lia))). destruct i as [| [| i]]; [| | lia]; destruct j as [| [| j]]; try lia; split; assumption.
Qed.
(** The inverse of a rotation is the rotation by the opposite angle, up to a few roundings. *)
Lemma c140_rotation t c s : adds_all t 3 -> finite64 c -> finite64 s -> Rabs (rval c) <= 1 -> Rabs (rval s) <= 1 -> Rabs (rval c * rval c + rval s * rval s - 1) <= P2 (-50) ->
  exists f g w, f_Rotation2 (Some (c, s)) = Ok f /\ f_getInverse2 t f = Ok g /\ f_type g = TRotation /\ f_matrix g = Some w /\ cell w 2 0 = 0 /\ cell w 2 1 = 0 /\ Rabs (cell w 0 2) <= P2 (-970) /\ Rabs (cell w 1 2) <= P2 (-970) /\
    Rabs (cell w 0 0 - rval c) <= 16 * P2 (-53) /\ Rabs (cell w 0 1 - rval s) <= 16 * P2 (-53) /\ Rabs (cell w 1 0 - - rval s) <= 16 * P2 (-53) /\ Rabs (cell w 1 1 - rval c) <= 16 * P2 (-53) /\ Rabs (cell w 2 2 - 1) <= 8 * P2 (-53).
Proof.
  intros A Fc Fs Bc Bs H. destruct (c139_rotation2 c s Fc Fs Bc Bs) as (f & m & Ef & Ty & Em & Wm & Am & Z0 & Z1 & C00 & C01 & C10 & C11). set (x := rval c) in *. set (y := rval s) in *.
  assert (D : det2 m = x * x + y * y) by (unfold det2; rewrite C00, C01, C10, C11; ring). assert (T : det2_terms m = x * x + y * y).
  { unfold det2_terms. rewrite C00, C01, C10, C11. rewrite <- Ropp_mult_distr_l, Rabs_Ropp, !Rabs_pos_eq by (apply Rle_0_sqr). reflexivity. }
  assert (E50 : P2 (-50) = 8 * e53) by (rewrite <- e53_P2; replace 8 with (P2 3) by (rewrite <- P2_Z by lia; reflexivity); rewrite <- P2_add; reflexivity). pose proof e53_pos as PE. assert (PE2 : e53 <= / 100000) by (unfold e53; lra). rewrite E50 in H. set (d := x * x + y * y) in *. assert (H2 : - (8 * e53) <= d - 1 <= 8 * e53) by (split; [pose proof (Rle_abs (- (d - 1))) as G; rewrite Rabs_Ropp in G; lra | pose proof (Rle_abs (d - 1)); lra]).
  assert (AD : Rabs (det2 m) = d) by (rewrite D; apply Rabs_pos_eq; lra). assert (L : P2 (-100) <= Rabs (det2 m)) by (rewrite AD; apply Rle_trans with (P2 (-1)); [apply P2_mono; lia |]; assert (E1 : 2 * P2 (-1) = 1) by (rewrite <- P2_succ; reflexivity); lra).
  destruct P2_100 as (P1 & _). assert (HK : 1 <= 1 <= P2 40) by (split; [lra | rewrite <- P2_0; apply P2_mono; lia]).
  destruct (c140_accurate t 1 f m A HK ltac:(unfold f_isDefined; rewrite Ty; reflexivity) Em (matrix_more _ 1 _ m P1 Wm) Am L ltac:(rewrite AD, T; lra)) as (g & w & Eg & Tg & Ew & _ & W0 & W1 & N). exists f, g, w. rewrite Tg, Ty. split; [exact Ef |]. split; [exact Eg |]. split; [reflexivity |]. split; [exact Ew |]. split; [exact W0 |]. split; [exact W1 |].
  rewrite e53_P2 in *. set (z := P2 (-970)) in *. assert (Z : z <= / 100 * e53).
  { apply Rle_trans with (P2 (-60)); [apply P2_mono; lia |]. rewrite <- e53_P2. pose proof (P2_small (-60) (-53) 7 ltac:(lia) ltac:(lia)) as G. change (IZR (2 ^ 7)) with 128 in G. pose proof (P2_pos (-60)). lra. }
  assert (Nd : d <> 0) by lra.
  assert (X : forall k i j, (i <= 2)%nat -> (j <= 2)%nat -> Rabs k <= 1 -> inverse2 m i j = k / d -> inverse2_terms m i j = Rabs (k / d) -> Rabs (cell w i j - k) <= 16 * e53).
  { intros k i j I J K E1 E2. pose proof (N i j I J) as G. rewrite E1, E2, Rabs_quot in G by exact Nd. rewrite (Rabs_pos_eq d) in G by lra. pose proof (Rabs_pos k) as K0. assert (ID : / d <= 1.001) by (apply (Rmult_le_reg_r d); [lra |]; rewrite Rinv_l by exact Nd; lra). assert (I0 : 0 < / d) by (apply Rinv_0_lt_compat; lra).
    assert (KD : Rabs k / d <= 1.001) by (unfold Rdiv; rewrite <- (Rmult_1_l 1.001); apply Rmult_le_compat; lra). assert (K1 : Rabs (k / d - k) <= 8.01 * e53).
    { replace (k / d - k) with (k / d * - (d - 1)) by (field; exact Nd). rewrite Rabs_mult, Rabs_Ropp, Rabs_quot, (Rabs_pos_eq d) by lra. apply Rle_trans with (1.001 * (8 * e53)); [| lra]. apply Rmult_le_compat; [unfold Rdiv; apply Rmult_le_pos; lra | apply Rabs_pos | exact KD | apply Rabs_le; lra]. }
    replace (cell w i j - k) with (cell w i j - k / d + (k / d - k)) by ring. eapply Rle_trans; [apply Rabs_triang |]. assert (e53 * (Rabs k / d) <= e53 * 1.001) by (apply Rmult_le_compat_l; lra). lra. }
  assert (O0 : Rabs (cell w 0 2) <= z).
  { pose proof (N 0%nat 2%nat ltac:(lia) ltac:(lia)) as G. cbn [inverse2 inverse2_terms] in G. rewrite Z0, Z1, Rmult_0_r, Rmult_0_l, Rminus_0_r, Rabs_R0 in G. unfold Rdiv in G. rewrite Rmult_0_l, Rminus_0_r in G. replace ((0 + 0) * / Rabs (det2 m)) with 0 in G by ring. rewrite Rmult_0_r, Rplus_0_l in G. exact G. }
  assert (O1 : Rabs (cell w 1 2) <= z).
  { pose proof (N 1%nat 2%nat ltac:(lia) ltac:(lia)) as G. cbn [inverse2 inverse2_terms] in G. rewrite Z0, Z1, Rmult_0_r, Rmult_0_l, Rminus_0_r, Rabs_R0 in G. unfold Rdiv in G. rewrite Rmult_0_l, Rminus_0_r in G. replace ((0 + 0) * / Rabs (det2 m)) with 0 in G by ring. rewrite Rmult_0_r, Rplus_0_l in G. exact G. }
  split; [exact O0 |]. split; [exact O1 |].
  split; [apply X; [lia | lia | exact Bc | |]; cbn [inverse2 inverse2_terms]; rewrite C11, D; reflexivity |].
  split; [apply X; [lia | lia | exact Bs | |]; cbn [inverse2 inverse2_terms]; rewrite C01, D, Ropp_involutive; reflexivity |].
  split; [apply X; [lia | lia | rewrite Rabs_Ropp; exact Bs | |]; cbn [inverse2 inverse2_terms]; rewrite C10, D; reflexivity |].
  split; [apply X; [lia | lia | exact Bc | |]; cbn [inverse2 inverse2_terms]; rewrite C00, D; reflexivity |].
  pose proof (N 2%nat 2%nat ltac:(lia) ltac:(lia)) as G. cbn [inverse2 inverse2_terms] in G. rewrite Rabs_R1 in G. lra.
Qed.
(** Singular matrices are inverted without an error; the corner of the inverse need not be 1. *)
Definition tree3 : sum_tree := Node (Node (Leaf 0) (Leaf 1)) (Leaf 2).
Lemma int_within B l : (forall x, In x l -> exists n, x = b64_of_Z n /\ (Z.abs n <= 8)%Z) -> length l = 3%nat -> 8 <= B -> point_within 3 B l.
Proof. intros H L B8. split; [exact L |]. intros x I. destruct (H x I) as (n & -> & N). destruct (of_Z_val n ltac:(lia)) as [F V]. split; [exact F |]. rewrite V, <- abs_IZR. apply Rle_trans with 8; [apply IZR_le; lia | exact B8]. Qed.
Lemma c140_singular_refuted : exists t f m g w, adds_all t 3 /\ f_isDefined f = true /\ f_matrix f = Some m /\ matrix_within 3 8 m /\ affine 2 m /\ det2 m = 0 /\ f_getInverse2 t f = Ok g /\ f_isDefined g = true /\ f_matrix g = Some w /\ ~ finite64 (nth 2 (nth 2 w []) zero64).
Proof.
  set (z := b64_of_Z). set (m := [[z 1%Z; z 1%Z; z 0%Z]; [z 1%Z; z 1%Z; z 0%Z]; [z 0%Z; z 0%Z; z 1%Z]]). exists tree3, (mkTrf64 TAffine (Some m)), m. do 2 eexists. split; [apply Permutation_refl |]. split; [reflexivity |]. split; [reflexivity |].
  assert (V : forall n, (-8 <= n <= 8)%Z -> rval (z n) = IZR n) by (intros n H; apply of_Z_val; lia).
  split. { split; [reflexivity |]. intros r I. unfold m in I. cbn [In] in I. apply int_within; [| repeat (destruct I as [<- | I]; [reflexivity |]); contradiction | lra]. intros x J. repeat (destruct I as [<- | I]; [cbn [In] in J; repeat (destruct J as [<- | J]; [eexists; split; [reflexivity | lia] |]); contradiction |]). contradiction. }
  split. { intros j J. destruct j as [| [| [| j]]]; [unfold cell; cbn [nth m]; fold z; rewrite V by lia; reflexivity .. | lia]. }
  split; [unfold det2, cell; cbn [nth m]; rewrite !V by lia; ring |]. split; [vm_compute; reflexivity |]. split; [reflexivity |]. split; [reflexivity |]. vm_compute. intros [].
Qed.
Lemma c140_corner_refuted : exists t f m g w, adds_all t 3 /\ f_isDefined f = true /\ f_matrix f = Some m /\ matrix_within 3 8 m /\ affine 2 m /\ det2 m = 49 /\ f_getInverse2 t f = Ok g /\ f_matrix g = Some w /\ cell w 2 2 < 1.
Proof.
  set (z := b64_of_Z). set (m := [[z 7%Z; z 0%Z; z 0%Z]; [z 0%Z; z 7%Z; z 0%Z]; [z 0%Z; z 0%Z; z 1%Z]]). exists tree3, (mkTrf64 TScaling (Some m)), m. do 2 eexists. split; [apply Permutation_refl |]. split; [reflexivity |]. split; [reflexivity |].
  assert (V : forall n, (-8 <= n <= 8)%Z -> rval (z n) = IZR n) by (intros n H; apply of_Z_val; lia).
  split. { split; [reflexivity |]. intros r I. unfold m in I. cbn [In] in I. apply int_within; [| repeat (destruct I as [<- | I]; [reflexivity |]); contradiction | lra]. intros x J. repeat (destruct I as [<- | I]; [cbn [In] in J; repeat (destruct J as [<- | J]; [eexists; split; [reflexivity | lia] |]); contradiction |]). contradiction. }
  split. { intros j J. destruct j as [| [| [| j]]]; [unfold cell; cbn [nth m]; fold z; rewrite V by lia; reflexivity .. | lia]. }
  split; [unfold det2, cell; cbn [nth m]; rewrite !V by lia; ring |]. split; [vm_compute; reflexivity |]. split; [reflexivity |]. unfold cell. cbn [nth rval]. rewrite Rmult_1_l. change (powerRZ 2 (-53)) with (P2 (-53)). rewrite e53_P2. unfold e53. lra.
Qed.
Lemma c140_errors t f : f_isDefined f = false -> f_getInverse2 t f = Err EUndefined.
Proof. intros D. unfold f_getInverse2, f_defined. rewrite D. reflexivity. Qed.
