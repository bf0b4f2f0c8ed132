From Coq Require Import List Bool ZArith Reals Lra Lia Psatz Floats.SpecFloat.
From Verif Require Import Result Vec Mat3 VecProofs AngleModel FloatModel FloatSpec FloatProofs FloatProofs2 FloatProofs3 FloatProofs4 FloatProofs5 FloatProofs7 FloatProofs8 FloatProofs10
  Geo3Spec Geo3Proofs Geo3Proofs2 Geo64Model Geo64Spec Geo64Proofs Geo64Proofs2 Geo64Proofs3 Geo64Proofs4 Geo64Proofs5 Geo64Proofs6 Geo64Proofs8 RotModel RotSpec RotProofs RotProofs2 Rot64Model Rot64Spec Rot64Spec2 Rot64Proofs Rot64Proofs2 Rot64Proofs3 Rot64Proofs4 Rot64Proofs5 Rot64Proofs6 Rot64Proofs7 Rot64Proofs8 Rot64Proofs9 Rot64Proofs10 Rot64Proofs11 Rot64Proofs12 Rot64Proofs13.
Import ListNotations.
Local Open Scope R_scope.

(** *** Unit matrix, equality, transposition, errors *)
Lemma pick_sum r x y z : finite64 x -> finite64 y -> finite64 z -> rval y = 0 -> rval z = 0 -> rval (sum64 r x y z) = rval x /\ rval (sum64 r y x z) = rval x /\ rval (sum64 r y z x) = rval x.
Proof.
  intros Fx Fy Fz Vy Vz. destruct r; cbn [sum64].
  - destruct (add_z_r x y Fx Fy Vy) as [A1 A2]. destruct (add_z_l y x Fy Fx Vy) as [B1 B2]. destruct (add_z_l y z Fy Fz Vy) as [C1 C2].
    rewrite (proj2 (add_z_r _ z A1 Fz Vz)), A2. rewrite (proj2 (add_z_r _ z B1 Fz Vz)), B2. rewrite (proj2 (add_z_l _ x C1 Fx ltac:(lra))). repeat split.
  - destruct (add_z_l y z Fy Fz Vy) as [C1 C2]. destruct (add_z_r x z Fx Fz Vz) as [A1 A2]. destruct (add_z_l z x Fz Fx Vz) as [B1 B2].
    rewrite (proj2 (add_z_r x _ Fx C1 ltac:(lra))). rewrite (proj2 (add_z_l y _ Fy A1 Vy)), A2. rewrite (proj2 (add_z_l y _ Fy B1 Vy)), B2. repeat split.
Qed.
Lemma id_mulv r v : finite3 v -> within3 (P2 450) v -> val3 (fmulv3 r id64 v) = val3 v.
Proof.
  intros (F1 & F2 & F3) (B1 & B2 & B3). destruct one_val as [O1 O2].
  assert (ML : forall y, finite64 y -> finite64 (b64_mul zero64 y) /\ rval (b64_mul zero64 y) = 0) by (intros; apply zero_mul; [exact I | assumption | reflexivity] || (intros; apply zero_mul; assumption)).
  destruct (mul_one one_64 (fx v) O1 F1 O2 B1) as [X1 X2]. destruct (mul_one one_64 (fy v) O1 F2 O2 B2) as [Y1 Y2]. destruct (mul_one one_64 (fz v) O1 F3 O2 B3) as [Z1 Z2].
  destruct (ML _ F1) as [LX LX']. destruct (ML _ F2) as [LY LY']. destruct (ML _ F3) as [LZ LZ'].
  unfold val3 at 1, fmulv3, fdot3, row64_0, row64_1, row64_2, id64; cbn [fx fy fz c64_0 c64_1 c64_2].
  destruct (pick_sum r _ _ _ X1 LY LZ LY' LZ') as (-> & _ & _). destruct (pick_sum r _ _ _ Y1 LX LZ LX' LZ') as (_ & -> & _). destruct (pick_sum r _ _ _ Z1 LX LY LX' LY') as (_ & _ & ->). rewrite X2, Y2, Z2. reflexivity.
Qed.
Lemma id_finite : finite33 id64 /\ whole33 1 id64 /\ val33 id64 = id3.
Proof.
  destruct one_val as [O1 O2]. assert (Z : finite64 zero64) by exact I. assert (W1 : whole64 1 one_64) by (exists 1%Z; split; [exact O2 | lia]). assert (W0 : whole64 1 zero64) by (exists 0%Z; split; [reflexivity | lia]).
  split; [repeat split; assumption || exact I |]. split; [repeat split; assumption |]. unfold val33, id64, val3, of_cols, id3; cbn [c64_0 c64_1 c64_2 fx fy fz vx vy vz]. rewrite O2. reflexivity.
Qed.
Lemma c134_unit r eps v : finite64 eps -> 0 <= rval eps -> finite3 v -> within3 (P2 450) v ->
  exists m w, rm64_Unit r eps = Ok m /\ val33 m = id3 /\ rm64_mulv r (Some m) (Some v) = Ok w /\ val3 w = val3 v.
Proof.
  intros Fe He Fv Wv. destruct id_finite as (F & W & V). exists id64, (fmulv3 r id64 v). split; [| split; [exact V | split; [reflexivity | exact (id_mulv r v Fv Wv)]]].
  unfold rm64_Unit, RotationMatrix64. rewrite (right_ok r eps id64 1 F W); [reflexivity | | exact Fe | exact He]. apply ortho_zero. rewrite V. unfold mul3, transpose3, of_cols, id3, mulv3, row3, col3, dot3; cbn [vx vy vz m00 m01 m02 m10 m11 m12 m20 m21 m22]. f_equal; ring.
Qed.
Lemma c134_equal m n : finite33 m -> finite33 n -> (rm64_eq (Some m) (Some n) = true <-> val33 m = val33 n).
Proof.
  intros ((A0 & A1 & A2) & (A3 & A4 & A5) & (A6 & A7 & A8)) ((B0 & B1 & B2) & (B3 & B4 & B5) & (B6 & B7 & B8)). unfold rm64_eq, feq3. rewrite !andb_true_iff, !SFeqb_val by assumption. unfold val33, of_cols, val3; cbn [vx vy vz]. split.
  - intros [[[[-> ->] ->] [[-> ->] ->]] [[-> ->] ->]]. reflexivity.
  - intros E. injection E as -> -> -> -> -> -> -> -> ->. repeat split.
Qed.
Lemma c134_transpose r eps m : exists t, rm64_transpose (Some m) = Ok t /\ val33 t = transpose3 (val33 m) /\ rm64_transpose (Some t) = Ok m /\ (forall t', rm64_toTransposed r eps (Some m) = Ok t' -> t' = t) /\ RotationMatrix64 r eps t = rm64_toTransposed r eps (Some m).
Proof.
  exists (ftranspose m). split; [reflexivity |]. split; [reflexivity |]. split; [unfold rm64_transpose; cbn [need3 bind]; rewrite ftranspose_twice; reflexivity |]. split; [| reflexivity].
  intros t'. unfold rm64_toTransposed. cbn [need3 bind]. unfold RotationMatrix64. destruct (rm64_ok r eps (ftranspose m)); [intros E; injection E as <-; reflexivity | discriminate].
Qed.
Lemma c134_errors r eps (m : option f33) (v : option f3) : rm64_mul r eps None m = Err EUndefined /\ rm64_mul r eps m None = Err EUndefined /\ rm64_mulv r None v = Err EUndefined /\ rm64_mulv r m None = Err EUndefined /\
  rm64_toTransposed r eps None = Err EUndefined /\ rm64_transpose None = Err EUndefined /\ rm64_eq None m = false /\ rm64_eq m None = false.
Proof. destruct m, v; repeat split. Qed.
(** The constructor does not ask for columns of length one, nor for orthogonal rows. *)
Definition half_64 : spec_float := S754_finite false (2 ^ 52) (-53).
Definition quarter64 : spec_float := S754_finite false (2 ^ 52) (-54).
Definition skew133 : f33 := F33 (F3 half_64 half_64 zero64) (F3 quarter64 (SFopp quarter64) zero64) (F3 zero64 zero64 one_64).
Lemma below_zero x : finite64 x -> SFltb zero64 x = false -> finite64 x /\ rval x <= 0.
Proof. intros F H. split; [exact F |]. assert (F0 : finite64 zero64) by exact I. destruct (Rle_lt_dec (rval x) (rval zero64)) as [L | L]; [change (rval zero64) with 0 in L; lra |]. rewrite (ltb_t zero64 _ F0 F L) in H. discriminate. Qed.
Lemma zero_checks r eps m : finite64 eps -> 0 <= rval eps -> Forall (fun x => finite64 x /\ SFltb zero64 x = false) (checks64 r m) -> rm64_ok r eps m = true.
Proof. intros Fe He H. apply checks_all; [exact Fe |]. eapply Forall_impl; [| exact H]. intros x [F L]. destruct (below_zero x F L) as [_ B]. split; [exact F | lra]. Qed.
Definition sixteenths64 : spec_float := S754_finite false (3 * 2 ^ 51) (-55).
Lemma sixteenths_val : finite64 sixteenths64 /\ rval sixteenths64 = 3 / 16.
Proof. split; [vm_compute; repeat split; reflexivity || discriminate |]. unfold sixteenths64. rewrite rval_sg. cbn [sg]. rewrite P2_m by lia. change (2 ^ (- -55))%Z with 36028797018963968%Z. change (Zpos (3 * 2 ^ 51)) with 6755399441055744%Z. lra. Qed.
Lemma c134_transposed_refuted : exists m, finite33 m /\ forall r eps, finite64 eps -> 0 <= rval eps < 3 / 16 -> RotationMatrix64 r eps m = Ok m /\ rm64_toTransposed r eps (Some m) = Err ERuntime.
Proof.
  exists skew133. split; [vm_compute; repeat split; reflexivity || discriminate |]. intros r eps Fe He.
  assert (K1 : rm64_ok r eps skew133 = true) by (apply zero_checks; [exact Fe | lra | destruct r; vm_compute; repeat constructor; discriminate || reflexivity]).
  assert (K2 : rm64_ok r eps (ftranspose skew133) = false). { destruct sixteenths_val as [F V]. apply (checks_some r eps _ sixteenths64 Fe F); [| lra]. replace sixteenths64 with (nth 3 (checks64 r (ftranspose skew133)) zero64) by (destruct r; vm_compute; reflexivity). apply nth_In. cbn [checks64 length]. lia. }
  unfold rm64_toTransposed. cbn [need3 bind]. unfold RotationMatrix64. rewrite K1, K2. split; reflexivity.
Qed.
Lemma c134_length_refuted : exists m, finite33 m /\ forall r eps, finite64 eps -> 0 <= rval eps -> RotationMatrix64 r eps m = Ok m /\ forall v, finite3 v -> exists w, rm64_mulv r (Some m) (Some v) = Ok w /\ val3 w = V3 0 0 0.
Proof.
  pose (z := F3 zero64 zero64 zero64). exists (F33 z z z). split; [repeat split; exact I |]. intros r eps Fe He. split.
  - unfold RotationMatrix64. rewrite zero_checks; [reflexivity | exact Fe | exact He | destruct r; vm_compute; repeat constructor; discriminate || reflexivity].
  - intros v Fv. exists (fmulv3 r (F33 z z z) v). split; [reflexivity |]. assert (Fz : finite3 z) by (repeat split; exact I). pose proof (zero3_dot r v z Fv Fz eq_refl) as [_ D].
    unfold val3, fmulv3, row64_0, row64_1, row64_2; cbn [fx fy fz c64_0 c64_1 c64_2 z]. fold z. rewrite (dot_comm64 r z v), D. reflexivity.
Qed.
