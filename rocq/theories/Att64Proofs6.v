(** Matrices of Euler angles (C144). *)

From Coq Require Import List Bool ZArith Reals Lra Lia Psatz Floats.SpecFloat.
From Verif Require Import Result Vec Mat3 VecProofs AngleModel FloatModel FloatSpec FloatProofs FloatProofs2 FloatProofs3 FloatProofs4 FloatProofs5 FloatProofs7 FloatProofs8 FloatProofs10
  Geo3Spec Geo3Proofs Geo3Proofs2 Geo64Model Geo64Spec Geo64Proofs Geo64Proofs2 Geo64Proofs3 Geo64Proofs4 Geo64Proofs5 Geo64Proofs6 Geo64Proofs7 Geo64Proofs8 RotModel RotSpec RotProofs RotProofs2 RotProofs3 RotProofs4 Rot64Model Rot64Spec Rot64Spec2 Rot64Proofs Rot64Proofs2 Rot64Proofs3 Rot64Proofs4 Rot64Proofs5 Rot64Proofs6 Rot64Proofs7 Rot64Proofs8 Rot64Proofs9 Rot64Proofs10 Rot64Proofs11 Rot64Proofs12 Rot64Proofs13 Rot64Proofs14 Rot64Proofs15 Rot64Proofs16 Rot64Proofs17 Att64Model Att64Spec Att64Proofs Att64Proofs2 Att64Proofs3 Att64Proofs4 Att64Proofs5.
Import ListNotations.
Local Open Scope R_scope.

Lemma product_near r m n M N x d d' : finite33 m -> finite33 n -> 0 <= x <= P2 (-26) -> orthonormal_up_to x (val33 m) -> orthonormal_up_to x (val33 n) -> orthonormal_up_to 0 M -> 0 <= d ->
  (forall j, (j < 3)%nat -> dist3 (col3 (val33 m) j) (col3 M j) <= d) -> (forall j, (j < 3)%nat -> dist3 (col3 (val33 n) j) (col3 N j) <= d') ->
  forall j, (j < 3)%nat -> dist3 (col3 (val33 (fmul33 r m n)) j) (col3 (mul3 M N) j) <= 1.734 * d + d' + 5.27 * e53.
Proof.
  intros F G Hx O1 O2 OM HD DM DN j J. destruct (fmul33_ortho r m n x F G Hx O1 O2) as (_ & _ & D). specialize (D j J). specialize (DN j J). pose proof (ortho_cols x _ j Hx O2 J) as NL.
  assert (K : forall A B, col3 (mul3 A B) j = mulv3 A (col3 B j)) by (intros A B; destruct j as [| [| [| j]]]; try lia; reflexivity). rewrite K in D. rewrite K.
  eapply Rle_trans; [apply (dist3_triangle _ (mulv3 (val33 m) (col3 (val33 n) j))) |]. eapply Rle_trans; [apply Rplus_le_compat_l, (dist3_triangle _ (mulv3 M (col3 (val33 n) j))) |].
  pose proof (cols_mulv d _ _ (col3 (val33 n) j) HD DM) as C1. assert (C2 : dist3 (mulv3 M (col3 (val33 n) j)) (mulv3 M (col3 N j)) <= d') by (unfold dist3; rewrite mulv_sub, (iso_mulv M _ OM); exact DN).
  assert (1.7321 * d * norm3 (col3 (val33 n) j) <= 1.7321 * d * 1.001) by (apply Rmult_le_compat_l; lra). lra.
Qed.
Lemma small_26 e : 0 <= e <= P2 (-32) -> 0 <= 15 * e + 11 * e53 <= P2 (-26) /\ 0 <= 3 * e <= P2 (-26) /\ e <= / 10000 /\ 75 * e + 66 * e53 <= P2 (-25).
Proof.
  intros H. pose proof e53_pos as PE. pose proof P2_26_small. assert (K : P2 (-26) = 64 * P2 (-32)) by (replace 64 with (P2 6) by (rewrite <- P2_Z by lia; reflexivity); rewrite <- P2_add; reflexivity). assert (E : 66 * e53 <= P2 (-32)). { rewrite <- e53_P2. apply Rle_trans with (P2 7 * P2 (-53)); [apply Rmult_le_compat_r; [left; apply P2_pos | rewrite <- P2_Z by lia; apply IZR_le; lia] | rewrite <- P2_add; apply P2_mono; lia]. }
  assert (K2 : P2 (-25) = 2 * P2 (-26)) by (rewrite <- P2_succ; reflexivity). lra.
Qed.
(** The three elementary rotations and their product. *)
Lemma three_near r eps cx sx cy sy cz sz a b c e : returns cx (cos a) e -> returns sx (sin a) e -> returns cy (cos b) e -> returns sy (sin b) e -> returns cz (cos c) e -> returns sz (sin c) e -> e <= P2 (-32) ->
  let X := m64_RX cx sx in let Y := m64_RY cy sy in let Z := m64_RZ cz sz in let XY := fmul33 r X Y in let P := fmul33 r XY Z in let M := matrix_of (frame_sequence 3 2 1 c b a) in
  finite33 P /\ entries_within (10 * e + 15 * e53) (val33 P) M /\ orthonormal_up_to 0 M /\ (forall v, mulv3 M v = frame_sequence 3 2 1 c b a v) /\ orthonormal_up_to (75 * e + 66 * e53) (val33 P) /\
  (finite64 eps -> 75 * e + 71 * e53 <= rval eps <= / 4 -> RotationMatrix64 r eps X = Ok X /\ RotationMatrix64 r eps Y = Ok Y /\ RotationMatrix64 r eps Z = Ok Z /\ RotationMatrix64 r eps XY = Ok XY /\ RotationMatrix64 r eps P = Ok P).
Proof.
  intros C1 S1 C2 S2 C3 S3 He. pose proof (returns_pos _ _ _ C1) as E0. pose proof e53_pos as PE. destruct (small_26 e ltac:(lra)) as (K15 & K3 & K4 & K75). cbv zeta.
  destruct (RX_facts r eps _ _ _ _ C1 S1 K4) as (FX & EX & OX & _ & _ & AX & _). destruct (RY_facts r eps _ _ _ _ C2 S2 K4) as (FY & EY & OY & _ & _ & AY & _). destruct (RZ_facts r eps _ _ _ _ C3 S3 K4) as (FZ & EZ & OZ & _ & _ & AZ & _).
  rewrite axis_angle_map in EX, EY, EZ. set (X := m64_RX cx sx) in *. set (Y := m64_RY cy sy) in *. set (Z := m64_RZ cz sz) in *. set (MX := axis_angle_matrix (axis_vector 1) a) in *. set (MY := axis_angle_matrix (axis_vector 2) b) in *. set (MZ := axis_angle_matrix (axis_vector 3) c) in *.
  assert (PX : orthonormal_up_to 0 MX) by (apply axis_angle_ortho, axis_unit). assert (PY : orthonormal_up_to 0 MY) by (apply axis_angle_ortho, axis_unit). assert (PZ : orthonormal_up_to 0 MZ) by (apply axis_angle_ortho, axis_unit).
  pose proof (fun j J => entries_cols e _ _ j E0 EX J) as DX. pose proof (fun j J => entries_cols e _ _ j E0 EY J) as DY. pose proof (fun j J => entries_cols e _ _ j E0 EZ J) as DZ.
  destruct (fmul33_ortho r X Y (3 * e) FX FY K3 OX OY) as (FP & OP & _). pose proof (product_near r X Y MX MY (3 * e) (1.7321 * e) (1.7321 * e) FX FY K3 OX OY PX ltac:(lra) DX DY) as DP. set (XY := fmul33 r X Y) in *.
  assert (OP' : orthonormal_up_to (15 * e + 11 * e53) (val33 XY)) by (apply (ortho_le _ _ _ OP); lra). assert (OZ' : orthonormal_up_to (15 * e + 11 * e53) (val33 Z)) by (apply (ortho_le _ _ _ OZ); lra).
  destruct (fmul33_ortho r XY Z _ FP FZ K15 OP' OZ') as (FQ & OQ & _). pose proof (ortho_mul _ _ PX PY) as PXY. pose proof (product_near r XY Z (mul3 MX MY) MZ (15 * e + 11 * e53) (1.734 * (1.7321 * e) + 1.7321 * e + 5.27 * e53) (1.7321 * e) FP FZ K15 OP' OZ' PXY ltac:(lra) DP DZ) as DQ.
  assert (ME : matrix_of (frame_sequence 3 2 1 c b a) = mul3 (mul3 MX MY) MZ). { apply map_matrix. intros v. rewrite !mulv3_mul. unfold MX, MY, MZ. rewrite !axis_angle_frame. reflexivity. }
  rewrite ME. split; [exact FQ |]. split; [apply col_entries; intros j J; specialize (DQ j J); lra |]. split; [apply ortho_mul; assumption |]. split; [intros v; rewrite !mulv3_mul; unfold MX, MY, MZ; rewrite !axis_angle_frame; reflexivity |]. split; [apply (ortho_le _ _ _ OQ); lra |].
  intros Fe HE. split; [apply AX; [exact Fe | lra] |]. split; [apply AY; [exact Fe | lra] |]. split; [apply AZ; [exact Fe | lra] |].
  split; unfold RotationMatrix64; [rewrite (ortho_ok r eps _ _ FP K15 OP' Fe ltac:(lra)); reflexivity |].
  assert (OQ' : orthonormal_up_to (75 * e + 66 * e53) (val33 (fmul33 r XY Z))) by (apply (ortho_le _ _ _ OQ); lra).
  destruct (Rle_lt_dec (75 * e + 66 * e53) (P2 (-26))) as [L | L]; [rewrite (ortho_ok r eps _ (75 * e + 66 * e53) FQ ltac:(lra) OQ' Fe ltac:(lra)); reflexivity |].
  assert (EQ : entries_within (10 * e + 15 * e53) (val33 (fmul33 r XY Z)) (mul3 (mul3 MX MY) MZ)) by (apply col_entries; intros j J; specialize (DQ j J); lra). change (RotationMatrix64 r eps (fmul33 r XY Z) = Ok (fmul33 r XY Z)). pose proof P2_26_small. apply (near_accepted r eps _ _ (10 * e + 15 * e53) FQ (ortho_mul _ _ PXY PZ) ltac:(lra) EQ Fe). lra.
Qed.
Lemma product_inv r eps a b c m : product64 r eps a b c = Ok m -> exists x y z, a = Ok x /\ b = Ok y /\ c = Ok z /\ m = fmul33 r (fmul33 r x y) z.
Proof.
  unfold product64, rm64_mul, RotationMatrix64. destruct a as [x | |]; try discriminate. destruct b as [y | |]; try discriminate. destruct c as [z | |]; try discriminate. cbn [bind need3]. destruct (rm64_ok r eps (fmul33 r x y)); [| discriminate]. cbn [bind need3]. destruct (rm64_ok r eps (fmul33 r (fmul33 r x y) z)); [| discriminate].
  intros E. injection E as <-. exists x, y, z. repeat split.
Qed.
Lemma product_ok r eps x y z : RotationMatrix64 r eps (fmul33 r x y) = Ok (fmul33 r x y) -> RotationMatrix64 r eps (fmul33 r (fmul33 r x y) z) = Ok (fmul33 r (fmul33 r x y) z) -> product64 r eps (Ok x) (Ok y) (Ok z) = Ok (fmul33 r (fmul33 r x y) z).
Proof. intros A B. unfold product64, rm64_mul. cbn [bind need3]. rewrite A. cbn [bind need3]. exact B. Qed.
Lemma euler_matrix fcos fsin r eps x y z seq a b c e : seq <> SeqUndefined -> trig_at fcos fsin x a e -> trig_at fcos fsin y b e -> trig_at fcos fsin z c e -> e <= P2 (-32) ->
  exists P, finite33 P /\ entries_within (10 * e + 15 * e53) (val33 P) (matrix_of (euler_map seq a b c)) /\ orthonormal_up_to 0 (matrix_of (euler_map seq a b c)) /\ (forall v, mulv3 (matrix_of (euler_map seq a b c)) v = euler_map seq a b c v) /\ orthonormal_up_to (75 * e + 66 * e53) (val33 P) /\
    (forall m, rm64_of_euler fcos fsin r eps (mkE64 (Some x) (Some y) (Some z) seq) = Ok m -> m = P) /\ (finite64 eps -> 75 * e + 71 * e53 <= rval eps <= / 4 -> rm64_of_euler fcos fsin r eps (mkE64 (Some x) (Some y) (Some z) seq) = Ok P).
Proof.
  intros NS [C1 S1] [C2 S2] [C3 S3] He. unfold rm64_of_euler, e64_get, RX64, RY64, RZ64. cbn [e64_phi e64_theta e64_psi e64_seq]. destruct seq; [congruence | | |]; cbn [bind fst snd euler_map];
  [destruct (three_near r eps _ _ _ _ _ _ a b c e C1 S1 C2 S2 C3 S3 He) as (FP & EP & OM & MM & OP & AP)
  |destruct (three_near r eps _ _ _ _ _ _ c a b e C3 S3 C1 S1 C2 S2 He) as (FP & EP & OM & MM & OP & AP)
  |destruct (three_near r eps _ _ _ _ _ _ c b a e C3 S3 C2 S2 C1 S1 He) as (FP & EP & OM & MM & OP & AP)];
  (eexists; split; [exact FP |]; split; [exact EP |]; split; [exact OM |]; split; [exact MM |]; split; [exact OP |]; split;
   [intros m Em; apply product_inv in Em; destruct Em as (x' & y' & z' & Ex & Ey & Ez & ->); apply elementary_inv in Ex; apply elementary_inv in Ey; apply elementary_inv in Ez; destruct Ex as [-> _], Ey as [-> _], Ez as [-> _]; reflexivity
   |intros Fe HE; destruct (AP Fe HE) as (A1 & A2 & A3 & A4 & A5); unfold elementary64; cbn [need3 bind]; rewrite A1, A2, A3; apply product_ok; assumption]).
Qed.

(** *** C144 *)
Lemma c144_matrix fcos fsin r eps x y z seq a b c e : seq <> SeqUndefined -> trig_at fcos fsin x a e -> trig_at fcos fsin y b e -> trig_at fcos fsin z c e -> e <= P2 (-32) -> finite64 eps -> 75 * e + P2 (-46) <= rval eps <= / 4 ->
  exists m, rm64_of_euler fcos fsin r eps (mkE64 (Some x) (Some y) (Some z) seq) = Ok m /\ finite33 m /\ entries_within (10 * e + P2 (-49)) (val33 m) (matrix_of (euler_map seq a b c)) /\ orthonormal_up_to (75 * e + P2 (-46)) (val33 m).
Proof.
  intros NS T1 T2 T3 He Fe HE. destruct (euler_matrix fcos fsin r eps x y z seq a b c e NS T1 T2 T3 He) as (P & FP & EP & _ & _ & OP & _ & AP). rewrite <- e46 in *. rewrite <- e49. pose proof e53_pos. exists P. split; [apply AP; [exact Fe | lra] |]. split; [exact FP |]. split; [apply (entries_le _ _ _ _ EP); lra | apply (ortho_le _ _ _ OP); lra].
Qed.
Lemma matrix_turn fcos fsin r eps x y z seq a b c e m v : seq <> SeqUndefined -> trig_at fcos fsin x a e -> trig_at fcos fsin y b e -> trig_at fcos fsin z c e -> e <= P2 (-32) -> rm64_of_euler fcos fsin r eps (mkE64 (Some x) (Some y) (Some z) seq) = Ok m -> finite3 v -> norm3 (val3 v) <= P2 440 ->
  finite33 m /\ entries_within (10 * e + 15 * e53) (val33 m) (matrix_of (euler_map seq a b c)) /\ exists w, rm64_mulv r (Some m) (Some v) = Ok w /\ finite3 w /\ dist3 (val3 w) (euler_map seq a b c (val3 v)) <= (30.1 * e + 51 * e53) * norm3 (val3 v) + 8 * tiny.
Proof.
  intros NS T1 T2 T3 He Em Fv Bv. destruct (euler_matrix fcos fsin r eps x y z seq a b c e NS T1 T2 T3 He) as (P & FP & EP & OM & MM & OP & IP & _). apply IP in Em. subst m. pose proof (returns_pos _ _ _ (proj1 T1)) as E0. pose proof e53_pos as PE. destruct (small_26 e ltac:(lra)) as (K15 & _ & K4 & _). pose proof P2_26_small.
  destruct (near_turn r P _ (10 * e + 15 * e53) v FP OM ltac:(lra) EP Fv Bv) as (w & Ew & Fw & Dw). split; [exact FP |]. split; [exact EP |]. exists w. split; [exact Ew |]. split; [exact Fw |]. rewrite MM in Dw. eapply Rle_trans; [exact Dw |]. apply Rplus_le_compat_r, Rmult_le_compat_r; [apply norm3_nonneg | lra].
Qed.
Lemma c144_matrix_turn fcos fsin r eps x y z seq a b c e m v : seq <> SeqUndefined -> trig_at fcos fsin x a e -> trig_at fcos fsin y b e -> trig_at fcos fsin z c e -> e <= P2 (-32) -> rm64_of_euler fcos fsin r eps (mkE64 (Some x) (Some y) (Some z) seq) = Ok m -> finite3 v -> norm3 (val3 v) <= P2 440 ->
  finite33 m /\ entries_within (10 * e + P2 (-49)) (val33 m) (matrix_of (euler_map seq a b c)) /\ exists w, rm64_mulv r (Some m) (Some v) = Ok w /\ finite3 w /\ dist3 (val3 w) (euler_map seq a b c (val3 v)) <= (31 * e + P2 (-47)) * norm3 (val3 v) + P2 (-1071).
Proof.
  intros NS T1 T2 T3 He Em Fv Bv. destruct (matrix_turn fcos fsin r eps x y z seq a b c e m v NS T1 T2 T3 He Em Fv Bv) as (Fm & EW & w & Ew & Fw & Dw). pose proof e53_pos. pose proof (returns_pos _ _ _ (proj1 T1)) as E0. rewrite <- e49, <- e47. split; [exact Fm |]. split; [apply (entries_le _ _ _ _ EW); lra |]. exists w. split; [exact Ew |]. split; [exact Fw |]. eapply Rle_trans; [exact Dw |].
  apply Rplus_le_compat; [apply Rmult_le_compat_r; [apply norm3_nonneg | lra] | exact tiny8].
Qed.
Lemma c144_agree fcos fsin r eps x y z a b c e m v tol : trig_at fcos fsin x a e -> trig_at fcos fsin y b e -> trig_at fcos fsin z c e -> trig_at fcos fsin (b64_div x two_64) (a / 2) e -> trig_at fcos fsin (b64_div y two_64) (b / 2) e -> trig_at fcos fsin (b64_div z two_64) (c / 2) e -> e <= P2 (-32) ->
  finite64 eps -> rval eps <= / 2 -> rm64_of_euler fcos fsin r eps (mkE64 (Some x) (Some y) (Some z) ZYX) = Ok m -> finite64 tol -> P2 (-50) <= rval tol -> finite3 v -> norm3 (val3 v) <= P2 440 ->
  exists q w w', q64_of_euler fcos fsin eps (mkE64 (Some x) (Some y) (Some z) ZYX) = Ok q /\ rm64_mulv r (Some m) (Some v) = Ok w /\ q64_rotateVector r (Some q) (Some v) (Some tol) = Ok w' /\ finite3 w /\ finite3 w' /\ dist3 (val3 w) (val3 w') <= (82 * e + P2 (-45)) * norm3 (val3 v) + P2 (-1068).
Proof.
  intros T1 T2 T3 H1 H2 H3 He Fe Hp Em Ft Ht Fv Bv. pose proof (returns_pos _ _ _ (proj1 T1)) as E0. pose proof e53_pos as PE. destruct (small_26 e ltac:(lra)) as (_ & _ & K4 & _). assert (NS : ZYX <> SeqUndefined) by discriminate.
  destruct (matrix_turn fcos fsin r eps x y z ZYX a b c e m v NS T1 T2 T3 He Em Fv Bv) as (Fm & EW & w & Ew & Fw & Dw). destruct (c144_turn fcos fsin r eps x y z ZYX a b c e tol v NS H1 H2 H3 K4 Fe Hp Ft Ht Fv Bv) as (q & w' & Eq & Ew' & Fw' & Dw'). exists q, w, w'. repeat (split; [assumption |]).
  eapply Rle_trans; [apply (dist3_triangle _ (euler_map ZYX a b c (val3 v))) |]. change (named_sequence ZYX a b c (val3 v)) with (euler_map ZYX a b c (val3 v)) in Dw'. rewrite (dist3_sym (euler_map _ _ _ _ _) (val3 w')). rewrite <- e46 in Dw'. rewrite <- e45.
  pose proof tiny64 as T64. assert (T68 : P2 (-1068) = 2 * P2 (-1069)) by (rewrite <- P2_succ; reflexivity). rewrite T68. pose proof tiny_pos. pose proof (norm3_nonneg (val3 v)). assert (0 <= e53 * norm3 (val3 v)) by (apply Rmult_le_pos; lra). assert (0 <= e * norm3 (val3 v)) by (apply Rmult_le_pos; lra). lra.
Qed.
Lemma quarter_1 a b c : frame_rotation (axis_vector 1) (PI / 2) (V3 a b c) = V3 a c (- b).
Proof. unfold frame_rotation, axis_vector. rewrite cos_PI2, sin_PI2. unfold dot3, sub3, add3, scale3, cross3. cbn [vx vy vz]. f_equal; ring. Qed.
Lemma quarter_2 a b c : frame_rotation (axis_vector 2) (PI / 2) (V3 a b c) = V3 (- c) b a.
Proof. unfold frame_rotation, axis_vector. rewrite cos_PI2, sin_PI2. unfold dot3, sub3, add3, scale3, cross3. cbn [vx vy vz]. f_equal; ring. Qed.
Lemma quarter_3 a b c : frame_rotation (axis_vector 3) (PI / 2) (V3 a b c) = V3 b (- a) c.
Proof. unfold frame_rotation, axis_vector. rewrite cos_PI2, sin_PI2. unfold dot3, sub3, add3, scale3, cross3. cbn [vx vy vz]. f_equal; ring. Qed.
Lemma c144_refuted fcos fsin r eps x e m tol seq : seq = XYZ \/ seq = ZXY -> trig_at fcos fsin x (PI / 2) e -> trig_at fcos fsin (b64_div x two_64) (PI / 4) e -> e <= P2 (-32) -> finite64 eps -> rval eps <= / 2 -> rm64_of_euler fcos fsin r eps (mkE64 (Some x) (Some x) (Some x) seq) = Ok m -> finite64 tol -> P2 (-50) <= rval tol ->
  exists q w w', q64_of_euler fcos fsin eps (mkE64 (Some x) (Some x) (Some x) seq) = Ok q /\ rm64_mulv r (Some m) (Some (axis64 0 1 0)) = Ok w /\ q64_rotateVector r (Some q) (Some (axis64 0 1 0)) (Some tol) = Ok w' /\ 1 <= dist3 (val3 w) (val3 w').
Proof.
  intros HS T H He Fe Hp Em Ft Ht. pose proof (returns_pos _ _ _ (proj1 T)) as E0. pose proof e53_pos as PE. destruct (small_26 e ltac:(lra)) as (_ & _ & K4 & _). assert (NS : seq <> SeqUndefined) by (destruct HS as [-> | ->]; discriminate). assert (H' : trig_at fcos fsin (b64_div x two_64) (PI / 2 / 2) e) by (replace (PI / 2 / 2) with (PI / 4) by lra; exact H).
  assert (AX : axis64 0 1 0 = F3 zero64 one_64 zero64) by reflexivity. rewrite AX. assert (V : val3 (F3 zero64 one_64 zero64) = V3 0 1 0) by (unfold val3; cbn [fx fy fz]; rewrite (proj2 one_val); reflexivity). assert (Fv : finite3 (F3 zero64 one_64 zero64)) by (split; [exact I | split; [exact (proj1 one_val) | exact I]]).
  assert (N1 : norm3 (V3 0 1 0) = 1) by (unfold norm3, sqnorm3, dot3; cbn [vx vy vz]; replace (0 * 0 + 1 * 1 + 0 * 0) with 1 by ring; apply sqrt_1). assert (BV : norm3 (val3 (F3 zero64 one_64 zero64)) <= P2 440) by (rewrite V, N1, <- P2_0; apply P2_mono; lia).
  destruct (matrix_turn fcos fsin r eps x x x seq _ _ _ e m (F3 zero64 one_64 zero64) NS T T T He Em Fv BV) as (Fm & EW & w & Ew & Fw & Dw). destruct (c144_turn fcos fsin r eps x x x seq _ _ _ e tol (F3 zero64 one_64 zero64) NS H' H' H' K4 Fe Hp Ft Ht Fv BV) as (q & w' & Eq & Ew' & Fw' & Dw'). exists q, w, w'. repeat (split; [assumption |]).
  rewrite V, N1 in Dw, Dw'. assert (D : 1.4 <= dist3 (euler_map seq (PI / 2) (PI / 2) (PI / 2) (V3 0 1 0)) (named_sequence seq (PI / 2) (PI / 2) (PI / 2) (V3 0 1 0))).
  { unfold dist3, norm3. replace 1.4 with (sqrt (1.4 * 1.4)) by (apply sqrt_square; lra). apply sqrt_le_1_alt. destruct HS as [-> | ->]; unfold euler_map, named_sequence, frame_sequence; repeat (first [rewrite quarter_1 | rewrite quarter_2 | rewrite quarter_3]); unfold sqnorm3, dot3, sub3; cbn [vx vy vz]; lra. }
  set (g := euler_map seq (PI / 2) (PI / 2) (PI / 2) (V3 0 1 0)) in *. set (f := named_sequence seq (PI / 2) (PI / 2) (PI / 2) (V3 0 1 0)) in *. pose proof (dist3_triangle g (val3 w) f) as D1. pose proof (dist3_triangle (val3 w) (val3 w') f) as D2. rewrite (dist3_sym g (val3 w)) in D1. rewrite <- e46 in Dw'. pose proof tiny64 as T64. pose proof tiny_e4. pose proof tiny_pos. assert (e53 <= / 100000000000) by (unfold e53; lra). lra.
Qed.
Lemma add01 x y a b : finite64 x -> finite64 y -> rval x = a -> rval y = b -> a = 0 \/ b = 0 -> finite64 (sf_add x y) /\ rval (sf_add x y) = a + b.
Proof. intros Fx Fy <- <- [V | V]; [destruct (add_z_l x y Fx Fy V) as [F W] | destruct (add_z_r x y Fx Fy V) as [F W]]; split; try assumption; lra. Qed.
Lemma mul3_01 x y z a b c : finite64 x -> finite64 y -> finite64 z -> rval x = a -> rval y = b -> rval z = c -> (a = 0 \/ a = 1) -> (b = 0 \/ b = 1) -> (c = 0 \/ c = 1) -> finite64 (mul64_3 x y z) /\ rval (mul64_3 x y z) = a * b * c.
Proof.
  intros Fx Fy Fz <- <- <- A B C. assert (M : forall x y, finite64 x -> finite64 y -> rval x = 0 \/ rval x = 1 -> rval y = 0 \/ rval y = 1 -> finite64 (b64_mul x y) /\ rval (b64_mul x y) = rval x * rval y).
  { intros u v Fu Fv [U | U] V; [destruct (zero_mul u v Fu Fv U) as [F W]; split; [exact F | rewrite W, U; ring] |]. destruct (mul_one u v Fu Fv U) as [F W]; [pose proof (P2_mono 0 450 ltac:(lia)) as PM; rewrite P2_0 in PM; destruct V as [-> | ->]; [rewrite Rabs_R0 | rewrite Rabs_R1]; lra |]. split; [exact F | rewrite W, U; ring]. }
  destruct (M x y Fx Fy A B) as [F W]. assert (AB : rval (b64_mul x y) = 0 \/ rval (b64_mul x y) = 1) by (rewrite W; destruct A as [-> | ->], B as [-> | ->]; (left; ring) || (right; ring)). destruct (M _ z F Fz AB C) as [F' W']. split; [exact F' | unfold mul64_3; rewrite W', W; ring].
Qed.
Lemma c144_zero fcos fsin r eps x y z seq : seq <> SeqUndefined -> (forall t, In t [x; y; z; b64_div x two_64; b64_div y two_64; b64_div z two_64] -> trig_at fcos fsin t 0 0) -> finite64 eps -> 0 <= rval eps <= 1 ->
  (exists q, q64_of_euler fcos fsin eps (mkE64 (Some x) (Some y) (Some z) seq) = Ok q /\ finite4 q /\ val4 q = one4) /\ exists m, rm64_of_euler fcos fsin r eps (mkE64 (Some x) (Some y) (Some z) seq) = Ok m /\ finite33 m /\ val33 m = id3.
Proof.
  intros NS T Fe He. assert (K : forall t, In t [x; y; z; b64_div x two_64; b64_div y two_64; b64_div z two_64] -> finite64 (fcos t) /\ finite64 (fsin t) /\ rval (fcos t) = 1 /\ rval (fsin t) = 0).
  { intros t I. destruct (T t I) as [[Fc Ec] [Fs Es]]. rewrite cos_0 in Ec. rewrite sin_0 in Es. apply abs_le in Ec. apply abs_le in Es. repeat split; try assumption; lra. }
  split.
  - destruct (K (b64_div x two_64) ltac:(cbn [In]; tauto)) as (Fc1 & Fs1 & C1 & S1). destruct (K (b64_div y two_64) ltac:(cbn [In]; tauto)) as (Fc2 & Fs2 & C2 & S2). destruct (K (b64_div z two_64) ltac:(cbn [In]; tauto)) as (Fc3 & Fs3 & C3 & S3).
    set (cf := fcos (b64_div x two_64)) in *. set (ct := fcos (b64_div y two_64)) in *. set (cp := fcos (b64_div z two_64)) in *. set (sf := fsin (b64_div x two_64)) in *. set (st := fsin (b64_div y two_64)) in *. set (sp := fsin (b64_div z two_64)) in *.
    assert (L0 : 0 = 0 \/ 0 = 1) by (left; reflexivity). assert (L1 : 1 = 0 \/ 1 = 1) by (right; reflexivity).
    pose proof (mul3_01 sf ct cp _ _ _ Fs1 Fc2 Fc3 S1 C2 C3 L0 L1 L1) as [F1 V1]. pose proof (mul3_01 cf st sp _ _ _ Fc1 Fs2 Fs3 C1 S2 S3 L1 L0 L0) as [F2 V2]. pose proof (mul3_01 cf st cp _ _ _ Fc1 Fs2 Fc3 C1 S2 C3 L1 L0 L1) as [F3' V3']. pose proof (mul3_01 sf ct sp _ _ _ Fs1 Fc2 Fs3 S1 C2 S3 L0 L1 L0) as [F4' V4'].
    pose proof (mul3_01 cf ct sp _ _ _ Fc1 Fc2 Fs3 C1 C2 S3 L1 L1 L0) as [F5 V5]. pose proof (mul3_01 sf st cp _ _ _ Fs1 Fs2 Fc3 S1 S2 C3 L0 L0 L1) as [F6 V6]. pose proof (mul3_01 cf ct cp _ _ _ Fc1 Fc2 Fc3 C1 C2 C3 L1 L1 L1) as [F7 V7]. pose proof (mul3_01 sf st sp _ _ _ Fs1 Fs2 Fs3 S1 S2 S3 L0 L0 L0) as [F8 V8].
    rewrite ?Rmult_0_l, ?Rmult_0_r, ?Rmult_1_l, ?Rmult_0_l, ?Rmult_0_r in *.
    assert (AD : forall u v, finite64 u -> finite64 v -> rval v = 0 -> finite64 (sf_add u v) /\ finite64 (sf_sub u v) /\ rval (sf_add u v) = rval u /\ rval (sf_sub u v) = rval u) by (intros u v Fu Fv V; destruct (add_z_r u v Fu Fv V); destruct (sub_z_r u v Fu Fv V); repeat split; assumption).
    pose proof (AD _ _ F1 F2 V2) as (P1 & M1 & Q1 & N1). pose proof (AD _ _ F2 F1 V1) as (P2' & M2 & Q2 & N2). pose proof (AD _ _ F3' F4' V4') as (P3 & M3 & Q3 & N3). pose proof (AD _ _ F5 F6 V6) as (P5 & M5 & Q5 & N5). pose proof (AD _ _ F7 F8 V8) as (P7 & M7 & Q7 & N7).
    rewrite V1 in Q1, N1. rewrite V2 in Q2, N2. rewrite V3' in Q3, N3. rewrite V5 in Q5, N5. rewrite V7 in Q7, N7.
    unfold q64_of_euler, e64_get. cbn [e64_phi e64_theta e64_psi e64_seq]. destruct seq; [congruence | | |]; cbn [bind fst snd q64_of_halves]; fold cf ct cp sf st sp;
      (apply normal_one; [repeat split; assumption | unfold val4, one4; cbn [q64x q64y q64z q64s]; rewrite ?Q1, ?N1, ?Q2, ?N2, ?Q3, ?N3, ?Q5, ?N5, ?Q7, ?N7; reflexivity | exact Fe | lra]).
  - assert (E : forall t, In t [x; y; z; b64_div x two_64; b64_div y two_64; b64_div z two_64] -> returns (fcos t) 1 0 /\ returns (fsin t) 0 0) by (intros t I; destruct (T t I) as [A B]; rewrite cos_0 in A; rewrite sin_0 in B; split; assumption).
    assert (W : forall n f t, In (n, f) [(1%nat, RX64); (2%nat, RY64); (3%nat, RZ64)] -> In t [x; y; z; b64_div x two_64; b64_div y two_64; b64_div z two_64] -> exists m, f fcos fsin r eps (Some t) = Ok m /\ finite33 m /\ whole33 1 m /\ orthonormal_up_to 0 (val33 m) /\ val33 m = id3).
    { intros n f t I J. destruct (E t J) as [A B]. destruct (c143_zero n f fcos fsin r eps t I A B Fe ltac:(lra)) as (m & Em & Fm & Vm). destruct (id_whole m Fm Vm) as [Wm Om]. exists m. repeat split; assumption || apply Wm || apply Fm. }
    assert (P : forall t1 t2 t3, In t1 [x; y; z; b64_div x two_64; b64_div y two_64; b64_div z two_64] -> In t2 [x; y; z; b64_div x two_64; b64_div y two_64; b64_div z two_64] -> In t3 [x; y; z; b64_div x two_64; b64_div y two_64; b64_div z two_64] ->
      exists m, product64 r eps (RX64 fcos fsin r eps (Some t1)) (RY64 fcos fsin r eps (Some t2)) (RZ64 fcos fsin r eps (Some t3)) = Ok m /\ finite33 m /\ val33 m = id3).
    { intros t1 t2 t3 I1 I2 I3. destruct (W 1%nat RX64 t1 ltac:(cbn [In]; tauto) I1) as (m1 & E1 & G1 & W1 & O1 & U1). destruct (W 2%nat RY64 t2 ltac:(cbn [In]; tauto) I2) as (m2 & E2 & G2 & W2 & O2 & U2). destruct (W 3%nat RZ64 t3 ltac:(cbn [In]; tauto) I3) as (m3 & E3 & G3 & W3 & O3 & U3).
      rewrite E1, E2, E3. destruct (right_mul r eps m1 m2 1 1 G1 G2 W1 W2 O1 O2 Fe ltac:(lra)) as (A & B & C). assert (U12 : val33 (fmul33 r m1 m2) = id3) by (rewrite B, U1, U2; apply mul3_id_l). destruct (id_whole _ C U12) as [W12 O12].
      destruct (right_mul r eps (fmul33 r m1 m2) m3 1 1 C G3 W12 W3 O12 O3 Fe ltac:(lra)) as (A' & B' & C'). exists (fmul33 r (fmul33 r m1 m2) m3). split; [unfold product64; cbn [bind]; rewrite A; cbn [bind]; exact A' |]. split; [exact C' |]. rewrite B', U12, U3. apply mul3_id_l. }
    unfold rm64_of_euler, e64_get. cbn [e64_phi e64_theta e64_psi e64_seq]. destruct seq; [congruence | | |]; cbn [bind fst snd]; apply P; cbn [In]; tauto.
Qed.
Lemma c144_errors fcos fsin r eps x y z seq : (x = None \/ y = None \/ z = None \/ seq = SeqUndefined) -> q64_of_euler fcos fsin eps (mkE64 x y z seq) = Err EUndefined /\ rm64_of_euler fcos fsin r eps (mkE64 x y z seq) = Err EUndefined.
Proof.
  intros H. assert (K : e64_get (mkE64 x y z seq) = Err EUndefined) by (destruct x, y, z, seq, H as [H | [H | [H | H]]]; discriminate H || reflexivity).
  unfold q64_of_euler, rm64_of_euler. rewrite K. split; reflexivity.
Qed.

(** Numbers of the examples. *)
Lemma eps50 : finite64 (S754_finite false 4503599627370496 (-102)) /\ rval (S754_finite false 4503599627370496 (-102)) = P2 (-50).
Proof. split; [reflexivity |]. unfold rval. cbn [Z.opp]. change (P2 (-50)) with (P2 (52 + -102)). rewrite P2_add, <- (P2_Z 52) by lia. change (2 ^ 52)%Z with 4503599627370496%Z. rewrite Rmult_1_l. reflexivity. Qed.
Lemma half_root : returns (S754_finite false 6369051672525773 (-53)) (1 / sqrt 2) (P2 (-53)).
Proof.
  split; [reflexivity |]. assert (V : rval (S754_finite false 6369051672525773 (-53)) = 6369051672525773 * e53) by (unfold rval; change (powerRZ 2 (-53)) with (P2 (-53)); rewrite e53_P2, Rmult_1_l; reflexivity). rewrite V, e53_P2. pose proof e53_pos as PE. assert (E : 9007199254740992 * e53 = 1) by (unfold e53; lra).
  assert (S2 : sqrt 2 * sqrt 2 = 2) by (apply sqrt_sqrt; lra). assert (SP : 0 < sqrt 2) by (apply sqrt_lt_R0; lra). replace (1 / sqrt 2) with (sqrt 2 / 2) by (apply (Rmult_eq_reg_r (sqrt 2)); [unfold Rdiv; rewrite (Rmult_assoc 1), Rinv_l by lra; lra | lra]).
  assert (L : sqrt 2 / 2 <= 6369051672525774 * e53) by (apply Rsqr_incr_0; [unfold Rsqr, e53; lra | lra | unfold e53; lra]). assert (G : 6369051672525772 * e53 <= sqrt 2 / 2) by (apply Rsqr_incr_0; [unfold Rsqr, e53; lra | unfold e53; lra | lra]). apply Rabs_le. lra.
Qed.
