From Coq Require Import List Bool Arith ZArith Reals Lra Lia Psatz Permutation Floats.SpecFloat.
From Verif Require Import Result AngleModel FloatModel FloatSpec FloatProofs FloatProofs2 FloatProofs3 FloatProofs4 FloatProofs5 FloatProofs7 FloatProofs8 FloatProofs10
  TransfModel Geo64Model Geo64Spec Geo64Proofs Geo64Proofs2 Geo64Proofs3 Geo64Proofs4 Geo64Proofs6 Geo64Proofs8 Rot64Model Rot64Proofs Rot64Proofs2 Rot64Proofs7 Mat64Model Mat64Spec Mat64Proofs2 Trf64Model Trf64Spec Trf64Proofs Trf64Proofs2 Trf64Proofs3 Trf64Proofs4 Trf64Proofs5 Trf64Proofs6.
Import ListNotations.
Local Open Scope R_scope.

(** *** The matrices of rotations *)
Lemma block_within d B l : 1 <= B -> matrix_within d B l -> matrix_within (S d) B (with_block64 d l).
Proof.
  intros B1 L. apply build_within. intros i j I J. destruct (Nat.ltb_spec i d) as [Hi | Hi], (Nat.ltb_spec j d) as [Hj | Hj]; cbn [andb]; [apply (entry_within d _ l i j L); assumption | | |].
  all: destruct (Nat.eqb i j); [destruct one_val as [F V]; split; [exact F | rewrite V, Rabs_R1; exact B1] | split; [reflexivity | cbn [rval zero64]; rewrite Rabs_R0; lra]].
Qed.
Lemma block_cell d l i j : (i < S d)%nat -> (j < S d)%nat -> cell (with_block64 d l) i j = if Nat.ltb i d && Nat.ltb j d then cell l i j else if Nat.eqb i j then 1 else 0.
Proof. intros I J. rewrite cell_entry. unfold with_block64. rewrite entry_build by assumption. destruct (Nat.ltb i d && Nat.ltb j d); [reflexivity |]. destruct (Nat.eqb i j); [apply one_val | reflexivity]. Qed.
Lemma block_affine d l : affine d (with_block64 d l) /\ forall i, (i < d)%nat -> cell (with_block64 d l) i d = 0.
Proof.
  split.
  - intros j J. rewrite block_cell by lia. rewrite Nat.ltb_irrefl. cbn [andb]. rewrite Nat.eqb_sym. reflexivity.
  - intros i I. rewrite block_cell by lia. rewrite Nat.ltb_irrefl, andb_false_r. destruct (Nat.eqb_spec i d); [lia | reflexivity].
Qed.
Lemma c139_rotation2 c s : finite64 c -> finite64 s -> Rabs (rval c) <= 1 -> Rabs (rval s) <= 1 ->
  exists r m, f_Rotation2 (Some (c, s)) = Ok r /\ f_type r = TRotation /\ f_matrix r = Some m /\ matrix_within 3 1 m /\ affine 2 m /\ cell m 0 2 = 0 /\ cell m 1 2 = 0 /\
    cell m 0 0 = rval c /\ cell m 0 1 = - rval s /\ cell m 1 0 = rval s /\ cell m 1 1 = rval c.
Proof.
  intros Fc Fs Bc Bs. do 2 eexists. split; [reflexivity |]. split; [reflexivity |]. split; [reflexivity |]. cbn [fst snd]. destruct (block_affine 2 [[c; SFopp s]; [s; c]]) as [A Z]. split.
  { apply block_within; [lra |]. assert (Bo : finite64 (SFopp s) /\ Rabs (rval (SFopp s)) <= 1) by (rewrite SFopp_val, Rabs_Ropp; split; [apply SFopp_finite |]; assumption).
    split; [reflexivity |]. intros r [<- | [<- | []]]; (split; [reflexivity |]); intros x [<- | [<- | []]]; try exact Bo; split; assumption. }
  split; [exact A |]. split; [apply Z; lia |]. split; [apply Z; lia |]. rewrite !block_cell by lia. cbn [Nat.ltb Nat.leb andb]. unfold cell. cbn [nth]. rewrite SFopp_val. auto.
Qed.
Lemma c139_rotation3 B M : 1 <= B -> (forall u, In u [c64_0 M; c64_1 M; c64_2 M] -> forall x, In x [fx u; fy u; fz u] -> finite64 x /\ Rabs (rval x) <= B) ->
  exists r m, f_Rotation3 (Some M) = Ok r /\ f_type r = TRotation /\ f_matrix r = Some m /\ matrix_within 4 B m /\ affine 3 m /\
    forall i, (i < 3)%nat -> cell m i 3 = 0 /\ cell m i 0 = rval (fx (nth i [c64_0 M; c64_1 M; c64_2 M] (c64_0 M))) /\ cell m i 1 = rval (fy (nth i [c64_0 M; c64_1 M; c64_2 M] (c64_0 M))) /\ cell m i 2 = rval (fz (nth i [c64_0 M; c64_1 M; c64_2 M] (c64_0 M))).
Proof.
  intros B1 H. do 2 eexists. split; [reflexivity |]. split; [reflexivity |]. split; [reflexivity |]. destruct (block_affine 3 [[fx (c64_0 M); fy (c64_0 M); fz (c64_0 M)]; [fx (c64_1 M); fy (c64_1 M); fz (c64_1 M)]; [fx (c64_2 M); fy (c64_2 M); fz (c64_2 M)]]) as [A Z]. split.
  { apply block_within; [exact B1 |]. split; [reflexivity |]. intros r [<- | [<- | [<- | []]]]; (split; [reflexivity |]); apply H; cbn; auto. }
  split; [exact A |]. intros i I. split; [apply Z; lia |]. rewrite !block_cell by lia. destruct i as [| [| [| i]]]; [auto | auto | auto | lia].
Qed.
(** Turning around a point of the plane. *)
Lemma c139_turn o o' o1 a b c s p x y : sums 3 o -> sums 3 o' -> sums 3 o1 -> point_within 2 (P2 200) [a; b] -> point_within 2 (P2 200) [x; y] -> finite64 c -> finite64 s -> Rabs (rval c) <= 1 -> Rabs (rval s) <= 1 -> p = [x; y] ->
  exists f u v, f_RotationAround 2 o o' (Some [a; b]) (f_Rotation2 (Some (c, s))) = Ok f /\ f_type f = TAffine /\ f_applyTo_point 2 o1 f (Some p) = Ok (Some [u; v]) /\ finite64 u /\ finite64 v /\
    let E := 18 * P2 (-53) * (Rabs (rval a) + Rabs (rval b)) + 5 * P2 (-53) * (Rabs (rval x) + Rabs (rval y)) + P2 (-1071) in
    Rabs (rval u - (rval a + (rval c * (rval x - rval a) - rval s * (rval y - rval b)))) <= E /\ Rabs (rval v - (rval b + (rval s * (rval x - rval a) + rval c * (rval y - rval b)))) <= E.
Proof.
  intros O O' O1 C P Fc Fs Bc Bs ->. destruct (c139_rotation2 c s Fc Fs Bc Bs) as (r & m & Er & Ty & Em & Wm & Am & Z0 & Z1 & C00 & C01 & C10 & C11). rewrite Er. pose proof P2_200_1 as P1.
  destruct (c139_point 2 o o' o1 [a; b] r m [x; y] ltac:(lia) O O' O1 Ty Em C (matrix_more _ 1 _ m P1 Wm) Am) as (f & q & Ef & Tf & Eq & Lq & H); [intros [| [| i]] I; [exact Z0 | exact Z1 | lia] | exact P |].
  destruct q as [| u [| v [| ? ?]]]; try discriminate Lq. exists f, u, v. split; [exact Ef |]. split; [exact Tf |]. split; [exact Eq |]. destruct (H 0%nat ltac:(lia)) as [F0 N0]. destruct (H 1%nat ltac:(lia)) as [F1 N1]. split; [exact F0 |]. split; [exact F1 |].
  cbv zeta. unfold linear, linear_terms in N0, N1. cbn [total] in N0, N1. rewrite C00, C01, Rabs_Ropp in N0. rewrite C10, C11 in N1. unfold coord in N0, N1. cbn [nth] in N0, N1. rewrite e53_P2 in *. pose proof e53_pos as PE.
  assert (G : forall k z, Rabs k <= 1 -> e53 * (Rabs k * Rabs z) <= e53 * Rabs z) by (intros k z K; apply Rmult_le_compat_l; [lra |]; pose proof (Rabs_pos z); rewrite <- (Rmult_1_l (Rabs z)) at 2; apply Rmult_le_compat_r; lra).
  pose proof (G _ (rval a) Bc). pose proof (G _ (rval a) Bs). pose proof (G _ (rval b) Bc). pose proof (G _ (rval b) Bs). pose proof (G _ (rval x) Bc). pose proof (G _ (rval x) Bs). pose proof (G _ (rval y) Bc). pose proof (G _ (rval y) Bs). assert (0 <= e53 * Rabs (rval a)) by (apply Rmult_le_pos; [lra | apply Rabs_pos]). assert (0 <= e53 * Rabs (rval b)) by (apply Rmult_le_pos; [lra | apply Rabs_pos]).
  split; [eapply Rle_trans; [| eapply Rle_trans; [exact N0 |]]; [right; f_equal; ring | lra] | eapply Rle_trans; [| eapply Rle_trans; [exact N1 |]]; [right; f_equal; ring | lra]].
Qed.
Definition c06_64 : spec_float := S754_finite false 5404319552844595 (-53).
Definition s08_64 : spec_float := S754_finite false 7205759403792794 (-53).
Lemma c139_center_refuted : exists o c s p f q, sums 3 o /\ finite64 c /\ finite64 s /\ Rabs (rval c * rval c + rval s * rval s - 1) <= P2 (-53) /\ point_within 2 5 p /\ f_RotationAround 2 o o (Some p) (f_Rotation2 (Some (c, s))) = Ok f /\ f_applyTo_point 2 o f (Some p) = Ok (Some q) /\ coord q 0 <> coord p 0.
Proof.
  exists seq3, c06_64, s08_64, [b64_of_Z 1; b64_of_Z 5]. do 2 eexists. destruct (of_Z_val 1 ltac:(lia)) as [F1 V1]. destruct (of_Z_val 5 ltac:(lia)) as [F5 V5].
  split; [intros i j _ _; apply Permutation_refl |]. split; [reflexivity |]. split; [reflexivity |]. split.
  { unfold c06_64, s08_64. cbn [rval]. rewrite !Rmult_1_l. change (powerRZ 2 (-53)) with (P2 (-53)). rewrite !e53_P2. unfold e53. apply Rabs_le. split; lra. }
  split. { split; [reflexivity |]. intros x [<- | [<- | []]]; split; try assumption; [rewrite V1, Rabs_R1; lra | rewrite V5, Rabs_pos_eq; lra]. }
  split; [vm_compute; reflexivity |]. split; [vm_compute; reflexivity |]. unfold coord. cbn [nth]. rewrite V1. cbn [rval]. rewrite Rmult_1_l. change (powerRZ 2 (-52)) with (P2 (-52)). intros E.
  assert (G : IZR 4503599627370498 * P2 (-52) * P2 52 = IZR 4503599627370498) by (rewrite Rmult_assoc, <- P2_add; change (P2 (-52 + 52)) with 1; apply Rmult_1_r). rewrite E, Rmult_1_l in G. rewrite <- P2_Z in G by lia. apply eq_IZR in G. discriminate G.
Qed.
Lemma c139_errors d o o' c r rot e : f_RotationAround d o o' None rot = Err EUndefined /\ (rot = Err e -> f_RotationAround d o o' (Some c) rot = Err e) /\ (f_isDefined r = false -> f_RotationAround d o o' (Some c) (Ok r) = Err EUndefined) /\ f_Rotation2 None = Err EUndefined /\ f_Rotation3 None = Err EUndefined.
Proof.
  split; [reflexivity |]. split; [intros ->; reflexivity |]. split; [| split; reflexivity]. intros D. unfold f_RotationAround, f_mul, f_defined. cbn [need3 f_Translation bind]. rewrite D. reflexivity.
Qed.
