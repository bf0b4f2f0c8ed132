From Coq Require Import List Bool ZArith Reals Lra Lia Psatz Floats.SpecFloat.
From Verif Require Import Result Vec Mat3 VecProofs AngleModel FloatModel FloatSpec FloatProofs FloatProofs2 FloatProofs3 FloatProofs4 FloatProofs5 FloatProofs7 FloatProofs8 FloatProofs10
  Geo3Spec Geo3Proofs Geo3Proofs2 Geo64Model Geo64Spec Geo64Proofs Geo64Proofs2 Geo64Proofs3 Geo64Proofs4 Geo64Proofs5 Geo64Proofs6 Geo64Proofs8 RotModel RotSpec RotProofs RotProofs2 Rot64Model Rot64Spec Rot64Spec2 Rot64Proofs Rot64Proofs2 Rot64Proofs3 Rot64Proofs4 Rot64Proofs5 Rot64Proofs6 Rot64Proofs7 Rot64Proofs8 Rot64Proofs9 Rot64Proofs10 Rot64Proofs11 Rot64Proofs12 Rot64Proofs13 Rot64Proofs14.
Import ListNotations.
Local Open Scope R_scope.

(** *** The matrix of a quaternion *)
Definition signed (b : bool) (x y : spec_float) : spec_float := if b then sf_add x y else sf_sub x y.
Definition rsigned (b : bool) (x y : R) : R := if b then x + y else x - y.
Lemma near_signed s x y a b E F A B : near64 x a E -> near64 y b F -> Rabs a <= A -> Rabs b <= B -> A + B + E + F <= P2 1023 -> near64 (signed s x y) (rsigned s a b) (E + F + e53 * (A + B + E + F)).
Proof. destruct s; [apply near_add | apply near_sub]. Qed.
Lemma rsigned_abs s a b A B : Rabs a <= A -> Rabs b <= B -> Rabs (rsigned s a b) <= A + B.
Proof. intros HA HB. apply abs_le in HA. apply abs_le in HB. apply abs_of. destruct s; cbn [rsigned]; lra. Qed.
Lemma chain4 s1 s2 s3 x y z w a b c d A B C D : near64 x a (e53 * A + tiny) -> near64 y b (e53 * B + tiny) -> near64 z c (e53 * C + tiny) -> near64 w d (e53 * D + tiny) ->
  Rabs a <= A -> Rabs b <= B -> Rabs c <= C -> Rabs d <= D -> A <= P2 900 -> B <= P2 900 -> C <= P2 900 -> D <= P2 900 ->
  near64 (signed s3 (signed s2 (signed s1 x y) z) w) (rsigned s3 (rsigned s2 (rsigned s1 a b) c) d) (4.02 * e53 * (A + B + C + D) + 5 * tiny).
Proof.
  intros N1 N2 N3 N4 HA HB HC HD P1 P2' P3 P4. pose proof (Rabs_pos a). pose proof (Rabs_pos b). pose proof (Rabs_pos c). pose proof (Rabs_pos d). pose proof P2_900 as [T1 T2]. pose proof tiny_1. pose proof tiny_pos.
  assert (S1 : near64 (signed s1 x y) (rsigned s1 a b) (2.005 * e53 * (A + B) + 2.1 * tiny)).
  { refine (near_le _ _ _ _ (near_signed _ _ _ _ _ _ _ A B N1 N2 HA HB _) _); unfold e53; lra. }
  assert (S2 : near64 (signed s2 (signed s1 x y) z) (rsigned s2 (rsigned s1 a b) c) (3.01 * e53 * (A + B + C) + 3.2 * tiny)).
  { refine (near_le _ _ _ _ (near_signed _ _ _ _ _ _ _ (A + B) C S1 N3 (rsigned_abs _ _ _ _ _ HA HB) HC _) _); unfold e53; lra. }
  refine (near_le _ _ _ _ (near_signed _ _ _ _ _ _ _ (A + B + C) D S2 N4 (rsigned_abs _ _ _ _ _ (rsigned_abs _ _ _ _ _ HA HB) HC) HD _) _); unfold e53; lra.
Qed.
Lemma two_val : finite64 two_64 /\ rval two_64 = 2.
Proof. exact (of_Z_val 2 ltac:(lia)). Qed.
Lemma twice2 s x y a b A B : near64 x a (e53 * A + tiny) -> near64 y b (e53 * B + tiny) -> Rabs a <= A -> Rabs b <= B -> A <= P2 900 -> B <= P2 900 ->
  near64 (b64_mul two_64 (signed s x y)) (2 * rsigned s a b) (6.02 * e53 * (A + B) + 6 * tiny).
Proof.
  intros N1 N2 HA HB P1 P2'. pose proof (Rabs_pos a). pose proof (Rabs_pos b). pose proof P2_900 as [T1 T2]. pose proof tiny_1. pose proof tiny_pos. destruct two_val as [F2 V2].
  assert (S1 : near64 (signed s x y) (rsigned s a b) (2.005 * e53 * (A + B) + 2.1 * tiny)).
  { refine (near_le _ _ _ _ (near_signed _ _ _ _ _ _ _ A B N1 N2 HA HB _) _); unfold e53; lra. }
  pose proof (near_exact two_64 F2) as NE. rewrite V2 in NE. refine (near_le _ _ _ _ (near_mul _ _ _ _ _ _ 2 (A + B) NE S1 _ (rsigned_abs _ _ _ _ _ HA HB) _) _).
  - rewrite Rabs_pos_eq; lra.
  - unfold e53; lra.
  - unfold e53; lra.
Qed.
Lemma fmatrix_near q : finite4 q -> within4 (P2 450) q -> finite33 (fmatrix q) /\ entries_within (4.02 * e53 * sq (val4 q) + 6 * tiny) (val33 (fmatrix q)) (q_matrix (val4 q)).
Proof.
  intros (F1 & F2 & F3 & F4) (B1 & B2 & B3 & B4). pose proof tiny_pos as PT. pose proof e53_pos as PE. unfold sq, val4; cbn [qx qy qz qs].
  set (x := q64x q) in *. set (y := q64y q) in *. set (z := q64z q) in *. set (s := q64s q) in *.
  assert (P : forall a b, finite64 a -> finite64 b -> Rabs (rval a) <= P2 450 -> Rabs (rval b) <= P2 450 -> near64 (b64_mul a b) (rval a * rval b) (e53 * Rabs (rval a * rval b) + tiny) /\ Rabs (rval a * rval b) <= P2 900) by (intros a b Fa Fb Ba Bb; split; [apply near_prod_450; assumption | apply prod_450; assumption]).
  assert (SQ : forall a, Rabs (rval a * rval a) = rval a * rval a) by (intros a; apply Rabs_pos_eq, VecProofs.sq_nonneg).
  destruct (P _ _ F1 F1 B1 B1) as [Nxx Pxx]. destruct (P _ _ F2 F2 B2 B2) as [Nyy Pyy]. destruct (P _ _ F3 F3 B3 B3) as [Nzz Pzz]. destruct (P _ _ F4 F4 B4 B4) as [Nss Pss].
  assert (Nxx' : near64 (b64_mul (SFopp x) x) (- (rval x * rval x)) (e53 * Rabs (rval x * rval x) + tiny)) by (rewrite mul_opp_l; apply near_opp; exact Nxx).
  assert (Axx : Rabs (- (rval x * rval x)) <= Rabs (rval x * rval x)) by (rewrite Rabs_Ropp; lra).
  destruct (chain4 false false true _ _ _ _ _ _ _ _ _ _ _ _ Nxx Nyy Nzz Nss (Rle_refl _) (Rle_refl _) (Rle_refl _) (Rle_refl _) Pxx Pyy Pzz Pss) as [G00 E00].
  destruct (chain4 true false true _ _ _ _ _ _ _ _ _ _ _ _ Nxx' Nyy Nzz Nss Axx (Rle_refl _) (Rle_refl _) (Rle_refl _) Pxx Pyy Pzz Pss) as [G11 E11].
  destruct (chain4 false true true _ _ _ _ _ _ _ _ _ _ _ _ Nxx' Nyy Nzz Nss Axx (Rle_refl _) (Rle_refl _) (Rle_refl _) Pxx Pyy Pzz Pss) as [G22 E22].
  assert (H2 : forall a b c d sg, finite64 a -> finite64 b -> finite64 c -> finite64 d -> Rabs (rval a) <= P2 450 -> Rabs (rval b) <= P2 450 -> Rabs (rval c) <= P2 450 -> Rabs (rval d) <= P2 450 ->
    rval a * rval a + rval b * rval b + rval c * rval c + rval d * rval d = rval x * rval x + rval y * rval y + rval z * rval z + rval s * rval s ->
    near64 (b64_mul two_64 (signed sg (b64_mul a b) (b64_mul c d))) (2 * rsigned sg (rval a * rval b) (rval c * rval d)) (4.02 * e53 * (rval x * rval x + rval y * rval y + rval z * rval z + rval s * rval s) + 6 * tiny)).
  { intros a b c d sg Fa Fb Fc Fd Ba Bb Bc Bd E. destruct (P _ _ Fa Fb Ba Bb) as [Nab Pab]. destruct (P _ _ Fc Fd Bc Bd) as [Ncd Pcd]. refine (near_le _ _ _ _ (twice2 sg _ _ _ _ _ _ Nab Ncd (Rle_refl _) (Rle_refl _) Pab Pcd) _). rewrite <- E.
    assert (T : forall u v, Rabs (u * v) <= (u * u + v * v) / 2) by (intros u v; apply abs_of; pose proof (VecProofs.sq_nonneg (u - v)); pose proof (VecProofs.sq_nonneg (u + v)); lra).
    pose proof (T (rval a) (rval b)) as Ta. pose proof (T (rval c) (rval d)) as Tc. pose proof (VecProofs.sq_nonneg (rval a)). pose proof (VecProofs.sq_nonneg (rval b)). pose proof (VecProofs.sq_nonneg (rval c)). pose proof (VecProofs.sq_nonneg (rval d)). unfold e53. lra. }
  assert (D : forall a b c d e f g h i, near64 a b c -> near64 d e f -> near64 g h i -> True) by (intros; exact I). clear D.
  destruct (H2 x y z s true F1 F2 F3 F4 B1 B2 B3 B4 ltac:(ring)) as [G01 E01]. destruct (H2 x z y s false F1 F3 F2 F4 B1 B3 B2 B4 ltac:(ring)) as [G02 E02]. destruct (H2 y x z s false F2 F1 F3 F4 B2 B1 B3 B4 ltac:(ring)) as [G10 E10].
  destruct (H2 y z x s true F2 F3 F1 F4 B2 B3 B1 B4 ltac:(ring)) as [G12 E12]. destruct (H2 z x y s true F3 F1 F2 F4 B3 B1 B2 B4 ltac:(ring)) as [G20 E20]. destruct (H2 z y x s false F3 F2 F1 F4 B3 B2 B1 B4 ltac:(ring)) as [G21 E21].
  rewrite !SQ in *. cbn [signed rsigned] in *.
  split; [unfold finite33, finite3, fmatrix; cbn [c64_0 c64_1 c64_2 fx fy fz]; fold x y z s; repeat split; assumption |].
  assert (K : 4.02 * e53 * (rval x * rval x + rval y * rval y + rval z * rval z + rval s * rval s) + 5 * tiny <= 4.02 * e53 * (rval x * rval x + rval y * rval y + rval z * rval z + rval s * rval s) + 6 * tiny) by lra.
  intros i Hi. destruct i as [| [| [| i]]]; try lia; unfold row3, val33, of_cols, fmatrix, q_matrix, val3; cbn [c64_0 c64_1 c64_2 fx fy fz vx vy vz qx qy qz qs m00 m01 m02 m10 m11 m12 m20 m21 m22]; fold x y z s; repeat split;
    first [exact E01 | exact E02 | exact E10 | exact E12 | exact E20 | exact E21 | refine (Rle_trans _ _ _ _ K); first [exact E00 | replace (- rval x * rval x) with (- (rval x * rval x)) by ring; first [exact E11 | exact E22]]].
Qed.
