(** Euler angles of rotation vectors, the label, gimbal lock and errors (C153). *)

From Coq Require Import List Bool ZArith Reals Lra Lia Psatz Floats.SpecFloat.
From Verif Require Import Result Vec Mat3 VecProofs AngleModel FloatModel FloatSpec FloatProofs FloatProofs2 FloatProofs3 FloatProofs4 FloatProofs5 FloatProofs7 FloatProofs8 FloatProofs10
  Geo3Spec Geo3Proofs Geo3Proofs2 Geo64Model Geo64Spec Geo64Proofs Geo64Proofs2 Geo64Proofs3 Geo64Proofs4 Geo64Proofs5 Geo64Proofs6 Geo64Proofs7 Geo64Proofs8 RotModel RotSpec RotProofs RotProofs2 RotProofs3 RotProofs4 RotProofs5 RotProofs7 RotProofs9 Rot64Model Rot64Spec Rot64Spec2 Rot64Proofs Rot64Proofs2 Rot64Proofs3 Rot64Proofs4 Rot64Proofs5 Rot64Proofs6 Rot64Proofs7 Rot64Proofs8 Rot64Proofs9 Rot64Proofs10 Rot64Proofs11 Rot64Proofs12 Rot64Proofs13 Rot64Proofs14 Rot64Proofs15 Rot64Proofs16 Rot64Proofs17 Att64Model Att64Spec Att64Proofs Att64Proofs2 Att64Proofs3 Att64Proofs4 Att64Proofs5 Att64Proofs7 Att64Proofs8 Att64Proofs9 Att64Proofs10 Pow64Model Pow64Spec Pow64Proofs Pow64Proofs2 Pow64Proofs3 Pow64Proofs4 Dif64Model Dif64Spec Dif64Proofs RotProofs6 Dif64Proofs2 Dif64Proofs3 Dif64Proofs4 Att64Proofs6 Dif64Proofs5 Eul64Model Eul64Spec Eul64Proofs Eul64Proofs2 Eul64Proofs3.
Import ListNotations.
Local Open Scope R_scope.

(** *** From a rotation vector *)
Lemma axis_entries f g e : (forall v, norm3 v = 1 -> dist3 (f v) (g v) <= e) -> entries_within e (matrix_of f) (matrix_of g).
Proof.
  intros H. assert (T : forall v, norm3 v = 1 -> Rabs (vx (f v) - vx (g v)) <= e /\ Rabs (vy (f v) - vy (g v)) <= e /\ Rabs (vz (f v) - vz (g v)) <= e).
  { intros v N. specialize (H v N). unfold dist3 in H. pose proof (coordinate_le (sub3 (f v) (g v))) as (X & Y & Z). cbn [sub3 vx vy vz] in X, Y, Z. repeat split; lra. }
  assert (N1 : norm3 (V3 1 0 0) = 1) by (unfold norm3, sqnorm3, dot3; cbn [vx vy vz]; replace (1 * 1 + 0 * 0 + 0 * 0) with 1 by ring; apply sqrt_1). assert (N2 : norm3 (V3 0 1 0) = 1) by (unfold norm3, sqnorm3, dot3; cbn [vx vy vz]; replace (0 * 0 + 1 * 1 + 0 * 0) with 1 by ring; apply sqrt_1). assert (N3 : norm3 (V3 0 0 1) = 1) by (unfold norm3, sqnorm3, dot3; cbn [vx vy vz]; replace (0 * 0 + 0 * 0 + 1 * 1) with 1 by ring; apply sqrt_1).
  destruct (T _ N1) as (A1 & A2 & A3). destruct (T _ N2) as (B1 & B2 & B3). destruct (T _ N3) as (C1 & C2 & C3). intros [|[|[|i]]] Hi; [..| lia]; unfold matrix_of, of_cols, row3; cbn [m00 m01 m02 m10 m11 m12 m20 m21 m22 vx vy vz]; auto.
Qed.
Lemma entries_triangle a b m n p : entries_within a m n -> entries_within b n p -> entries_within (a + b) m p.
Proof.
  intros H G i Hi. destruct (H i Hi) as (A & B & C). destruct (G i Hi) as (A' & B' & C'). assert (T : forall x y z, Rabs (x - y) <= a -> Rabs (y - z) <= b -> Rabs (x - z) <= a + b). { intros x y z X Y. replace (x - z) with ((x - y) + (y - z)) by ring. eapply Rle_trans; [apply Rabs_triang |]. lra. }
  split; [eapply T; eassumption |]. split; eapply T; eassumption.
Qed.
Lemma near_quaternion fatan2 fasin r eps q p e d : atan2_within fatan2 e -> asin_within fasin e -> e <= / 1000 -> finite4 q -> len4 p = 1 -> gap4 (val4 q) p <= d -> d <= / 1000 -> q64_isUnitary (Some q) (Some eps) = Ok true ->
  let h := middle_cosine ZYX (turned4 p) in 0 < h -> 50 * d + P2 (-45) <= h * h ->
  exists a b c, e64_of_quaternion fatan2 fasin r eps (Some q) ZYX = Ok (mkE64 (Some a) (Some b) (Some c) ZYX) /\ finite64 a /\ finite64 b /\ finite64 c /\ entries_within (5 * (e + (7 * d + P2 (-45)) / h)) (matrix_of (named_sequence ZYX (rval a) (rval b) (rval c))) (matrix_of (turned4 p)).
Proof.
  intros HA HI E1 FQ LP G D1 HU h HP HH. pose proof (gap4_len _ _ _ LP G) as HL. assert (D0 : 0 <= d) by (eapply Rle_trans; [apply Rabs_pos | exact HL]). pose proof (abs_le _ _ HL) as HL'. assert (L0 : 0 < len4 (val4 q)) by lra. set (u := versor (val4 q)) in *.
  assert (GU : gap4 u p <= 2 * d). { replace (2 * d) with (2 * (d / 1)) by field. apply (unit_gap _ _ 1 d LP ltac:(lra)); [| exact L0]. replace (times4 1 p) with p; [exact G |]. destruct p as [p1 p2 p3 p4]. unfold times4. cbn [qx qy qz qs]. rewrite !Rmult_1_l. reflexivity. }
  assert (G0 : 0 <= gap4 u p) by (rewrite gap4_sub; apply len4_pos).
  assert (ME : entries_within (4.01 * d) (matrix_of (turned4 u)) (matrix_of (turned4 p))). { apply axis_entries. intros v N. rewrite !turned_rot. eapply Rle_trans; [apply rot_gap; exact LP |]. rewrite N, Rmult_1_r. nra. }
  set (h' := middle_cosine ZYX (turned4 u)). assert (RP : is_rotation (q_matrix p)) by (apply q_matrix_rotation; unfold unit_q; rewrite <- len4_sq, LP; ring). assert (RU : is_rotation (q_matrix u)) by (apply q_matrix_rotation; unfold unit_q; rewrite <- len4_sq; unfold u; rewrite versor_len by exact L0; ring).
  assert (MF : forall w v, mulv3 (q_matrix w) v = turned4 w v). { intros w v. rewrite turned_rot. apply rot_matrix. } pose proof (middle_cosine_sq ZYX _ _ RP ltac:(discriminate) (MF p)) as HE. fold h in HE. pose proof (middle_cosine_sq ZYX _ _ RU ltac:(discriminate) (MF u)) as HE'. fold h' in HE'. assert (P0 : 0 < P2 (-46)) by apply P2_pos. assert (P45 : P2 (-45) = 2 * P2 (-46)) by (change 2 with (IZR (2 ^ 1)); rewrite P2_Z by lia; rewrite <- P2_add; reflexivity).
  assert (MM : Rabs (middle_entry ZYX (q_matrix u) - middle_entry ZYX (q_matrix p)) <= 4.01 * d). { rewrite (map_matrix _ _ (MF u)), (map_matrix _ _ (MF p)) in ME. apply entries_nine in ME. destruct ME as ((_ & _ & E) & _). cbn [middle_entry]. replace (- m02 (q_matrix u) - - m02 (q_matrix p)) with (- (m02 (q_matrix u) - m02 (q_matrix p))) by ring. rewrite Rabs_Ropp. exact E. }
  set (mu := middle_entry ZYX (q_matrix u)) in *. set (mp := middle_entry ZYX (q_matrix p)) in *. clearbody mu mp. apply abs_le in MM. assert (BU : -1 <= mu <= 1) by (assert (0 <= h' * h') by apply Rle_0_sqr; nra). assert (BP : -1 <= mp <= 1) by nra.
  assert (HH' : 0.83 * (h * h) <= h' * h'). { assert (mu * mu - mp * mp <= 8.02 * d) by (replace (mu * mu - mp * mp) with ((mu - mp) * (mu + mp)) by ring; nra). lra. }
  assert (H0 : 0 <= h') by apply sqrt_pos. assert (HQ : 0.9 * h <= h') by nra. assert (H1 : h <= 1) by nra.
  destruct (c153_quaternion fatan2 fasin r eps q e d HA HI E1 FQ HL D1 HU) as (a & b & c & HR & Fa & Fb & Fc & R); [fold u; fold h'; lra | fold u; fold h'; nra |]. fold u in R. fold h' in R.
  exists a, b, c. split; [exact HR |]. split; [exact Fa |]. split; [exact Fb |]. split; [exact Fc |]. eapply entries_mono; [| exact (entries_triangle _ _ _ _ _ R ME)].
  assert (I1 : / h' <= / 0.9 * / h) by (rewrite <- Rinv_mult; apply Rinv_le_contravar; lra). assert (I2 : 1 <= / h) by (rewrite <- Rinv_1 at 1; apply Rinv_le_contravar; lra). unfold Rdiv. assert (I3 : (5 * d + P2 (-46)) * / h' <= (5 * d + P2 (-46)) * (/ 0.9 * / h)) by (apply Rmult_le_compat_l; lra). rewrite P45. assert (I4 : 4.01 * d <= 4.01 * d * / h) by nra. assert (I5 : 0 <= P2 (-46) * / h) by (apply Rmult_le_pos; lra). assert (I6 : 0 <= d * / h) by (apply Rmult_le_pos; lra). lra.
Qed.
Lemma c153_rotvec fcos fsin fasin fatan2 r eps u t th e e' : atan2_within fatan2 e -> asin_within fasin e -> e <= / 1000 -> finite3 u -> Rabs (norm3 (val3 u) - 1) <= P2 (-50) -> finite64 eps -> P2 (-50) <= rval eps <= / 2 ->
  returns (fcos (b64_div t two_64)) (cos (th / 2)) e' -> returns (fsin (b64_div t two_64)) (sin (th / 2)) e' -> e' <= / 4000 ->
  let f := turned4 (polar 1 (direction (val3 u)) (th / 2)) in let h := middle_cosine ZYX f in 0 < h -> 150 * e' + P2 (-42) <= h * h ->
  exists a b c, e64_of_rotvec fcos fsin fasin fatan2 r eps (mkRV64 (Some u) (Some t)) ZYX = Ok (mkE64 (Some a) (Some b) (Some c) ZYX) /\ finite64 a /\ finite64 b /\ finite64 c /\ entries_within (5 * (e + (21 * e' + P2 (-44)) / h)) (matrix_of (named_sequence ZYX (rval a) (rval b) (rval c))) (matrix_of f).
Proof.
  intros HA HI E1 FU NU FE HEP RC RS E2 f h HP HH. destruct (c141_accurate fcos fsin eps u t th e' FU NU FE ltac:(lra) RC RS ltac:(lra)) as (q & HQ & FQ & G & HU). assert (E0 : 0 <= e') by (eapply Rle_trans; [apply Rabs_pos | exact (proj2 RC)]).
  assert (P48 : 0 < P2 (-48)) by apply P2_pos. assert (S48 : P2 (-48) <= / 1000000) by (rewrite P2_m by lia; apply Rinv_le_contravar; [lra | apply IZR_le; lia]). assert (P42 : P2 (-42) = 64 * P2 (-48)) by (change 64 with (IZR (2 ^ 6)); rewrite P2_Z by lia; rewrite <- P2_add; reflexivity). assert (P44 : P2 (-44) = 16 * P2 (-48)) by (change 16 with (IZR (2 ^ 4)); rewrite P2_Z by lia; rewrite <- P2_add; reflexivity). assert (P45 : P2 (-45) = 8 * P2 (-48)) by (change 8 with (IZR (2 ^ 3)); rewrite P2_Z by lia; rewrite <- P2_add; reflexivity).
  assert (LP : len4 (polar 1 (direction (val3 u)) (th / 2)) = 1). { apply polar_len; [| lra]. apply direction_norm. pose proof (abs_le _ _ NU) as N'. assert (P2 (-50) <= / 2) by (rewrite P2_m by lia; apply Rinv_le_contravar; [lra | apply IZR_le; lia]). lra. }
  destruct (near_quaternion fatan2 fasin r eps q _ e (3 * e' + P2 (-48)) HA HI E1 FQ LP G ltac:(lra) (HU eps FE ltac:(lra)) HP ltac:(fold f; fold h; lra)) as (a & b & c & HR & Fa & Fb & Fc & R).
  exists a, b, c. split; [unfold e64_of_rotvec; rewrite HQ; exact HR |]. split; [exact Fa |]. split; [exact Fb |]. split; [exact Fc |]. eapply entries_mono; [| exact R]. fold f. fold h. assert (I : 0 < / h) by (apply Rinv_0_lt_compat, HP). unfold Rdiv. assert ((7 * (3 * e' + P2 (-48)) + P2 (-45)) * / h <= (21 * e' + P2 (-44)) * / h) by (apply Rmult_le_compat_r; lra). lra.
Qed.
(** *** The label *)
Lemma adjust_label x y z : e64_seq (e64_adjust x y z) = ZYX.
Proof. unfold e64_adjust. destruct (SFltb x zero64); reflexivity. Qed.
Lemma of_matrix_ok fatan2 fasin m s E : e64_of_matrix fatan2 fasin m s = Ok E -> exists y1 x1 z y2 x2, E = e64_adjust (fatan2 y1 x1) (fasin z) (fatan2 y2 x2).
Proof. intros H. destruct m as [m |]; [| discriminate]. cbn [e64_of_matrix need3 bind] in H. destruct s; [discriminate |..]; injection H as <-; do 5 eexists; reflexivity. Qed.
Lemma of_quaternion_ok fatan2 fasin r eps q s E : e64_of_quaternion fatan2 fasin r eps q s = Ok E -> exists y1 x1 z y2 x2, E = e64_adjust (fatan2 y1 x1) (fasin z) (fatan2 y2 x2).
Proof.
  intros H. destruct q as [q |]; [| discriminate]. unfold e64_of_quaternion in H. cbn [need3 bind] in H. destruct (q64_isUnitary (Some q) (Some eps)) as [[|] | |]; cbn [bind negb] in H; try discriminate.
  destruct s; try (injection H as <-; do 5 eexists; reflexivity); (destruct (rm64_of_quaternion r eps (Some q)) as [m | |]; cbn [bind] in H; try discriminate; exact (of_matrix_ok _ _ _ _ _ H)).
Qed.
Lemma of_rotvec_ok fcos fsin fasin fatan2 r eps v s E : e64_of_rotvec fcos fsin fasin fatan2 r eps v s = Ok E -> exists y1 x1 z y2 x2, E = e64_adjust (fatan2 y1 x1) (fasin z) (fatan2 y2 x2).
Proof. intros H. unfold e64_of_rotvec in H. destruct (q64_of_rotvec fcos fsin eps v) as [q | |]; cbn [bind] in H; try discriminate. exact (of_quaternion_ok _ _ _ _ _ _ _ H). Qed.
Lemma c153_label fcos fsin fasin fatan2 r eps m q v s E : e64_of_matrix fatan2 fasin m s = Ok E \/ e64_of_quaternion fatan2 fasin r eps q s = Ok E \/ e64_of_rotvec fcos fsin fasin fatan2 r eps v s = Ok E -> e64_seq E = ZYX.
Proof. intros [H | [H | H]]; [apply of_matrix_ok in H | apply of_quaternion_ok in H | apply of_rotvec_ok in H]; destruct H as (y1 & x1 & z & y2 & x2 & ->); apply adjust_label. Qed.
Lemma c153_label_refuted : exists M m, is_rotation M /\ finite33 m /\ val33 m = M /\ forall fatan2 fasin e, atan2_within fatan2 e -> asin_within fasin e -> e <= / 1000 ->
  exists a b c, e64_of_matrix fatan2 fasin (Some m) XYZ = Ok (mkE64 (Some a) (Some b) (Some c) ZYX) /\ entries_within (6 * e + P2 (-40)) (matrix_of (named_sequence XYZ (rval a) (rval b) (rval c))) M /\ ~ entries_within (/ 2) (matrix_of (named_sequence ZYX (rval a) (rval b) (rval c))) M.
Proof.
  set (o := b64_of_Z 1). set (n := b64_of_Z (-1)). set (z := zero64). exists (M3 1 0 0 0 0 1 0 (-1) 0), (F33 (F3 o z z) (F3 z z n) (F3 z o z)). destruct (of_Z_val 1 ltac:(lia)) as [Fo Vo]. destruct (of_Z_val (-1) ltac:(lia)) as [Fn Vn]. fold o in Fo, Vo. fold n in Fn, Vn. assert (Fz : finite64 z) by exact I. assert (Vz : rval z = 0) by reflexivity.
  assert (RM : is_rotation (M3 1 0 0 0 0 1 0 (-1) 0)). { split; [qunfold; f_equal; ring | qunfold; ring]. }
  assert (FM : finite33 (F33 (F3 o z z) (F3 z z n) (F3 z o z))) by (repeat split; assumption). assert (VM : val33 (F33 (F3 o z z) (F3 z z n) (F3 z o z)) = M3 1 0 0 0 0 1 0 (-1) 0) by (unfold val33, of_cols, val3; cbn [c64_0 c64_1 c64_2 fx fy fz vx vy vz]; rewrite Vo, Vn, Vz; reflexivity).
  split; [exact RM |]. split; [exact FM |]. split; [exact VM |]. intros fatan2 fasin e HA HI E1. set (M := M3 1 0 0 0 0 1 0 (-1) 0) in *.
  assert (HH : middle_cosine XYZ (mulv3 M) = 1). { unfold middle_cosine. rewrite (middle_of XYZ M (mulv3 M) (fun v => eq_refl)). cbn [middle_entry M m20]. replace (1 - 0 * 0) with 1 by ring. apply sqrt_1. }
  destruct (c153_matrix fatan2 fasin e XYZ M _ 0 HA HI E1 ltac:(discriminate) RM FM) as (a & b & c & HQ & _ & _ & _ & R); [rewrite VM; intros i Hi; rewrite !Rminus_diag_eq, Rabs_R0 by reflexivity; lra | rewrite HH; lra | rewrite HH; lra |]. rewrite HH in R.
  assert (E0 : 0 <= e). { assert (P : 0 < rval one_64 * rval one_64 + rval one_64 * rval one_64) by (rewrite (proj2 one_val); lra). assert (B : Rabs (rval one_64) <= 2) by (rewrite (proj2 one_val); apply abs_of; lra). destruct (HA one_64 one_64 (proj1 one_val) (proj1 one_val) B B P) as (_ & _ & C & _). eapply Rle_trans; [apply Rabs_pos | exact C]. }
  assert (R' : entries_within (6 * e + P2 (-40)) (matrix_of (named_sequence XYZ (rval a) (rval b) (rval c))) M). { eapply entries_mono; [| exact R]. assert (P2 (-40) = 512 * P2 (-49)) by (change 512 with (IZR (2 ^ 9)); rewrite P2_Z by lia; rewrite <- P2_add; reflexivity). pose proof (P2_pos (-49)). replace (6 * 0 / 1) with 0 by field. lra. }
  exists a, b, c. split; [exact HQ |]. split; [exact R' |]. intros C. rewrite named_matrix in C, R'. apply entries_nine in C. apply entries_nine in R'. destruct C as ((C & _) & _). destruct R' as (_ & _ & (_ & _ & R')). clear - C R' E1. unfold M, seq_matrix, mRX, mRY, mRZ in C, R'. qunfold. assert (S40 : P2 (-40) <= / 1000000) by (rewrite P2_m by lia; apply Rinv_le_contravar; [lra | apply IZR_le; lia]). apply abs_le in C. apply abs_le in R'. lra.
Qed.
(** *** Gimbal lock *)
Lemma adjust_undefined x y : e64_get (e64_adjust x S754_nan y) = Err EUndefined.
Proof. unfold e64_adjust. destruct (SFltb x zero64); unfold e64_get; cbn [e64_phi e64_theta e64_psi e64_seq radians64]; [change (sf_sub pi64 S754_nan) with S754_nan; destruct (radians64 (sf_add x pi64)) | destruct (radians64 x)]; reflexivity. Qed.
Lemma c153_gimbal_refuted : exists q, finite4 q /\ Rabs (len4 (val4 q) - 1) <= P2 (-52) /\ forall fatan2 fasin r eps, asin_outside fasin -> finite64 eps -> 0 < rval eps ->
  q64_isUnitary (Some q) (Some eps) = Ok true /\ exists E, e64_of_quaternion fatan2 fasin r eps (Some q) ZYX = Ok E /\ e64_get E = Err EUndefined.
Proof.
  set (h := S754_finite false 6369051672525773 (-53)). exists (F4 zero64 h zero64 h). assert (Fh : finite64 h) by (vm_compute; reflexivity).
  assert (Vh : rval h = 6369051672525773 * P2 (-53)) by (unfold h; rewrite rval_sg; cbn [sg]; rewrite Rmult_1_l; reflexivity). split; [repeat split; exact I || exact Fh |].
  assert (N : fnorm4 (F4 zero64 h zero64 h) = one_64) by (vm_compute; reflexivity). split.
  - unfold len4, sq, val4. cbn [qx qy qz qs q64x q64y q64z q64s]. change (rval zero64) with 0. rewrite Vh. set (k := 6369051672525773). assert (P53 : P2 (-53) = / 9007199254740992) by (rewrite P2_m by lia; reflexivity). assert (P52 : P2 (-52) = / 4503599627370496) by (rewrite P2_m by lia; reflexivity). rewrite P53, P52.
    set (s := sqrt _). assert (S0 : 0 <= s) by apply sqrt_pos. assert (SS : s * s = 2 * (k * / 9007199254740992 * (k * / 9007199254740992))) by (unfold s; rewrite sqrt_sqrt; [ring |]; unfold k; lra). clearbody s. unfold k in SS. apply abs_of. split; nra.
  - intros fatan2 fasin r eps HO FE HE. pose proof (exact_unitary _ eps N FE HE) as HU. split; [exact HU |]. unfold e64_of_quaternion. cbn [need3 bind]. rewrite HU. cbn [bind negb q64x q64y q64z q64s]. eexists. split; [reflexivity |].
    set (w := b64_mul (b64_of_Z (-2)) (sf_sub (b64_mul zero64 zero64) (b64_mul h h))). assert (W : w = S754_finite false 4503599627370497 (-52)) by (vm_compute; reflexivity). rewrite HO; [apply adjust_undefined | rewrite W; vm_compute; reflexivity |].
    rewrite W. rewrite rval_sg. cbn [sg]. rewrite Rmult_1_l. rewrite P2_m by lia. change (2 ^ (- -52))%Z with 4503599627370496%Z. rewrite Rabs_pos_eq by lra. lra.
Qed.
(** *** The first angle *)
Lemma adjust_first x y z : finite64 x -> Rabs (rval x) <= rval pi64 -> exists f, e64_phi (e64_adjust x y z) = Some f /\ finite64 f /\ 0 <= rval f <= rval pi64.
Proof.
  intros F B. destruct pi64_close as (FP & _ & BP). pose proof (abs_le _ _ B) as B'. assert (Fz : finite64 zero64) by exact I. assert (Vz : rval zero64 = 0) by reflexivity. unfold e64_adjust. destruct (SFltb x zero64) eqn:L.
  - apply SFltb_val in L; [| exact F | exact Fz]. rewrite Vz in L. pose proof P2_big as PB. destruct (SFadd_rounded x pi64 F FP) as [N _]; [apply Rle_trans with 10; [apply abs_of |]; lra |]. destruct (shifted x F ltac:(lra)) as [[FS _] _]. exists (sf_add x pi64). cbn [e64_phi]. rewrite radians_finite by exact FS. split; [reflexivity |]. split; [exact FS |]. split.
    + rewrite <- Vz. apply (nearest_below _ _ zero64 N Fz). rewrite Vz. lra.
    + apply (nearest_above _ _ pi64 N FP). lra.
  - apply not_true_iff_false in L. assert (0 <= rval x). { apply Rnot_lt_le. intros C. apply L. apply SFltb_val; [exact F | exact Fz |]. rewrite Vz. exact C. } exists x. cbn [e64_phi]. rewrite radians_finite by exact F. split; [reflexivity |]. split; [exact F |]. lra.
Qed.
Lemma c153_first fcos fsin fasin fatan2 r eps m q v s E : (forall y x, finite64 (fatan2 y x) /\ Rabs (rval (fatan2 y x)) <= rval pi64) -> e64_of_matrix fatan2 fasin m s = Ok E \/ e64_of_quaternion fatan2 fasin r eps q s = Ok E \/ e64_of_rotvec fcos fsin fasin fatan2 r eps v s = Ok E ->
  exists f, e64_phi E = Some f /\ finite64 f /\ 0 <= rval f <= rval pi64.
Proof. intros HB [H | [H | H]]; [apply of_matrix_ok in H | apply of_quaternion_ok in H | apply of_rotvec_ok in H]; destruct H as (y1 & x1 & z & y2 & x2 & ->); apply adjust_first; apply HB. Qed.
(** *** Errors *)
Lemma c153_errors fcos fsin fasin fatan2 r eps m q v s : e64_of_matrix fatan2 fasin None s = Err EUndefined /\ e64_of_matrix fatan2 fasin (Some m) SeqUndefined = Err EToBeImplemented /\ e64_of_quaternion fatan2 fasin r eps None s = Err EUndefined /\
  (q64_isUnitary (Some q) (Some eps) = Ok false -> e64_of_quaternion fatan2 fasin r eps (Some q) s = Err ERuntime) /\ (rm64_of_quaternion r eps (Some q) = Ok m -> e64_of_quaternion fatan2 fasin r eps (Some q) SeqUndefined = Err EToBeImplemented) /\
  e64_of_rotvec fcos fsin fasin fatan2 r eps (mkRV64 None v) s = Err EUndefined /\ e64_of_rotvec fcos fsin fasin fatan2 r eps (mkRV64 (Some (c64_0 m)) None) s = Err EUndefined.
Proof.
  repeat split; try reflexivity.
  - intros H. unfold e64_of_quaternion. cbn [need3 bind]. rewrite H. reflexivity.
  - intros H. unfold e64_of_quaternion. cbn [need3 bind]. pose proof H as H'. unfold rm64_of_quaternion in H'. cbn [need3 bind] in H'. destruct (q64_isUnitary (Some q) (Some eps)) as [[|] | |]; try discriminate. cbn [bind negb]. rewrite H. reflexivity.
Qed.
(** *** Functions as asked for exist *)
(** The multiple of 2^-30 below a number. *)
Definition grid (t : R) : spec_float := b64_mul (b64_of_Z (up (t * 1073741824) - 1)) (S754_finite false 4503599627370496 (-82)).
Definition atan2_grid (y x : spec_float) : spec_float := grid (atan2 (rval y) (rval x)).
Definition asin_grid (x : spec_float) : spec_float := if Rle_dec (Rabs (rval x)) 1 then grid (asin (rval x)) else S754_nan.
Lemma grid_near t : Rabs t <= 3.5 -> finite64 (grid t) /\ Rabs (rval (grid t) - t) <= P2 (-29).
Proof.
  intros T. apply abs_le in T. set (c := S754_finite false 4503599627370496 (-82)). assert (Fc : finite64 c) by (vm_compute; reflexivity). assert (Vc : rval c = / 1073741824) by (unfold c; rewrite rval_sg; cbn [sg]; rewrite Rmult_1_l; replace (IZR 4503599627370496) with (P2 52) by (rewrite <- P2_Z by lia; reflexivity); rewrite <- P2_add; change (52 + -82)%Z with (-30)%Z; rewrite P2_m by lia; reflexivity).
  pose proof P2_big as PB. pose proof e53_pos as PE. assert (E9 : e53 <= / 1000000000000) by (unfold e53; lra). pose proof tiny_e4 as T4. assert (P29 : P2 (-29) = 2 * / 1073741824) by (rewrite P2_m by lia; change (2 ^ (- -29))%Z with 536870912%Z; lra).
  unfold grid. fold c. destruct (archimed (t * 1073741824)) as [A B]. set (z := up (t * 1073741824)) in *. assert (Z1 : (-4000000000 < z)%Z) by (apply lt_IZR; lra). assert (Z2 : (z < 4000000000)%Z) by (apply lt_IZR; lra). destruct (of_Z_val (z - 1) ltac:(lia)) as [Fz Vz]. rewrite minus_IZR in Vz.
  assert (ZB : Rabs (rval (b64_of_Z (z - 1)) * rval c) <= 4) by (rewrite Vz, Vc; apply abs_of; lra). destruct (mul_any (b64_of_Z (z - 1)) c Fz Fc ltac:(lra)) as [F E]. split; [exact F |]. assert (e53 * Rabs (rval (b64_of_Z (z - 1)) * rval c) <= e53 * 4) by (apply Rmult_le_compat_l; lra). apply abs_le in E. rewrite Vz, Vc in *. apply abs_of. lra.
Qed.
Lemma atan2_bounds y x : Rabs (atan2 y x) <= PI.
Proof.
  pose proof PI_RGT_0 as PP. unfold atan2. destruct (Rlt_dec 0 x); [pose proof (atan_bound (y / x)); apply abs_of; lra |]. destruct (Rlt_dec x 0).
  - pose proof (atan_bound (y / x)). destruct (Rlt_dec y 0).
    + assert (0 < y / x). { replace (y / x) with (- y * / - x) by (field; lra). apply Rmult_lt_0_compat; [lra | apply Rinv_0_lt_compat; lra]. } pose proof (atan_increasing 0 (y / x) ltac:(assumption)) as A. rewrite atan_0 in A. apply abs_of. lra.
    + assert (y / x <= 0). { replace (y / x) with (- (y * / - x)) by (field; lra). assert (0 <= y * / - x) by (apply Rmult_le_pos; [lra | left; apply Rinv_0_lt_compat; lra]). lra. } assert (A : atan (y / x) <= 0). { destruct (Req_dec (y / x) 0) as [-> | NE]; [rewrite atan_0; lra |]. rewrite <- atan_0. left. apply atan_increasing. lra. } apply abs_of. lra.
  - destruct (Rlt_dec 0 y); [apply abs_of; lra |]. destruct (Rlt_dec y 0); apply abs_of; lra.
Qed.
Lemma atan2_grid_within : atan2_within atan2_grid (P2 (-29)).
Proof.
  intros y x _ _ _ _ P. pose proof pi_digits as PD. pose proof (atan2_bounds (rval y) (rval x)) as B. assert (P29 : P2 (-29) <= / 1000) by (rewrite P2_m by lia; apply Rinv_le_contravar; [lra | apply IZR_le; lia]). destruct (grid_near (atan2 (rval y) (rval x)) ltac:(lra)) as [F E]. fold (atan2_grid y x) in F, E. destruct (atan2_sc (rval x) (rval y) P) as [C S]. set (n := sqrt _) in *. assert (N0 : 0 < n) by (apply sqrt_lt_R0, P).
  split; [exact F |]. split; [apply abs_le in B; apply abs_le in E; apply abs_of; lra |]. split.
  - rewrite <- C at 1. replace (n * cos (atan2 (rval y) (rval x)) / n) with (cos (atan2 (rval y) (rval x))) by (field; lra). eapply Rle_trans; [apply cos_close | exact E].
  - rewrite <- S at 1. replace (n * sin (atan2 (rval y) (rval x)) / n) with (sin (atan2 (rval y) (rval x))) by (field; lra). eapply Rle_trans; [apply sin_close | exact E].
Qed.
Lemma asin_grid_within : asin_within asin_grid (P2 (-29)) /\ asin_outside asin_grid.
Proof.
  split.
  - intros x _ B. unfold asin_grid. destruct (Rle_dec (Rabs (rval x)) 1) as [L | L]; [| exfalso; apply L, abs_of; lra]. pose proof pi_digits as PD. pose proof (asin_bound (rval x)) as AB. apply grid_near, abs_of. lra.
  - intros x _ B. unfold asin_grid. destruct (Rle_dec (Rabs (rval x)) 1) as [L | L]; [lra | reflexivity].
Qed.
(** *** There and back *)
Lemma c153_round_trip fcos fsin fasin fatan2 r eps q e d e' : atan2_within fatan2 e -> asin_within fasin e -> e <= / 1000 -> finite4 q -> Rabs (len4 (val4 q) - 1) <= d -> d <= / 1000 -> q64_isUnitary (Some q) (Some eps) = Ok true ->
  (forall x, finite64 x -> trig_at fcos fsin (b64_div x two_64) (rval x / 2) e') -> e' <= / 10000 -> finite64 eps -> rval eps <= / 2 ->
  let f := turned4 (versor (val4 q)) in let h := middle_cosine ZYX f in 0 < h -> 5 * d + P2 (-46) <= h * h ->
  exists E p, e64_of_quaternion fatan2 fasin r eps (Some q) ZYX = Ok E /\ q64_of_euler fcos fsin eps E = Ok p /\ finite4 p /\ (forall tol, finite64 tol -> P2 (-50) <= rval tol -> q64_isUnitary (Some p) (Some tol) = Ok true) /\ entries_within (5 * (e + (5 * d + P2 (-46)) / h) + 51 * e' + P2 (-46)) (matrix_of (turned4 (val4 p))) (matrix_of f).
Proof.
  intros HA HI E1 FQ HL D1 HU HT E2 FE HEP f h HP HH. destruct (c153_quaternion fatan2 fasin r eps q e d HA HI E1 FQ HL D1 HU HP HH) as (a & b & c & HR & Fa & Fb & Fc & R). destruct (c144_quaternion fcos fsin eps a b c ZYX _ _ _ e' ltac:(discriminate) (HT a Fa) (HT b Fb) (HT c Fc) E2 FE HEP) as (p & p0 & HQ & Fp & LP & TP & G & HU').
  exists (mkE64 (Some a) (Some b) (Some c) ZYX), p. split; [exact HR |]. split; [exact HQ |]. split; [exact Fp |]. split; [exact HU' |]. assert (E0 : 0 <= e') by (eapply Rle_trans; [apply Rabs_pos | exact (proj2 (proj1 (HT a Fa)))]). assert (P48 : 0 < P2 (-48)) by apply P2_pos. assert (S48 : P2 (-48) <= / 1000000) by (rewrite P2_m by lia; apply Rinv_le_contravar; [lra | apply IZR_le; lia]). assert (P46 : P2 (-46) = 4 * P2 (-48)) by (change 4 with (IZR (2 ^ 2)); rewrite P2_Z by lia; rewrite <- P2_add; reflexivity).
  assert (G0 : 0 <= gap4 (val4 p) p0) by (rewrite gap4_sub; apply len4_pos). replace (5 * (e + (5 * d + P2 (-46)) / h) + 51 * e' + P2 (-46)) with ((51 * e' + P2 (-46)) + 5 * (e + (5 * d + P2 (-46)) / h)) by ring. eapply entries_triangle; [| exact R]. apply axis_entries. intros v N. rewrite <- TP, !turned_rot. eapply Rle_trans; [apply rot_gap; exact LP |]. rewrite N, Rmult_1_r, P46. set (g := gap4 (val4 p) p0) in *. assert (g <= 0.003) by lra. nra.
Qed.
Lemma halved x : finite64 x -> Rabs (rval (b64_div x two_64) - rval x / 2) <= P2 (-29).
Proof.
  intros F. destruct two_val as [F2 V2]. pose proof e53_pos as PE. assert (E9 : e53 <= / 1000000000000) by (unfold e53; lra). pose proof tiny_e4 as T4. assert (P29 : P2 (-29) = 2 * / 1073741824) by (rewrite P2_m by lia; change (2 ^ (- -29))%Z with 536870912%Z; lra). pose proof P2_big as PB.
  assert (SMALL : Rabs (rval x) <= 2 -> Rabs (rval (b64_div x two_64) - rval x / 2) <= P2 (-29)).
  { intros B. apply abs_le in B. assert (B' : Rabs (rval x / rval two_64) <= 1) by (rewrite V2; apply abs_of; lra). destruct (div_any x two_64 F F2 ltac:(rewrite V2; lra) ltac:(lra)) as [_ E]. rewrite V2 in E, B'. assert (e53 * Rabs (rval x / 2) <= e53 * 1) by (apply Rmult_le_compat_l; lra). lra. }
  destruct x as [s | s | | s m e]; try contradiction F; [apply SMALL; change (rval (S754_zero s)) with 0; rewrite Rabs_R0; lra |]. cbn [finite64] in F. pose proof (proj1 (bounded_spec m e) F) as (HE & HM & HC). assert (M0 : 0 < IZR (Zpos m)) by (apply IZR_lt; lia). assert (M53 : IZR (Zpos m) <= P2 53) by (rewrite <- P2_Z by lia; apply IZR_le; lia). pose proof (P2_pos e) as PPe.
  assert (A : Rabs (rval (S754_finite s m e)) = IZR (Zpos m) * P2 e) by (rewrite rval_sg; apply sg_abs; apply Rmult_le_pos; lra).
  destruct (Z.eq_dec e (-1074)) as [-> | NE]; [apply SMALL; rewrite A; apply Rle_trans with (P2 53 * P2 (-1074)); [apply Rmult_le_compat_r; lra | rewrite <- P2_add; apply Rle_trans with (P2 1); [apply P2_mono; lia | rewrite <- P2_Z by lia; right; reflexivity]] |].
  set (w := S754_finite s m (e - 1)). assert (FW : finite64 w) by (apply bounded_spec; lia). assert (VW : rval w = rval (S754_finite s m e) / 2). { unfold w. rewrite !rval_sg. replace (P2 e) with (2 * P2 (e - 1)) by (change 2 with (IZR (2 ^ 1)); rewrite P2_Z by lia; rewrite <- P2_add; f_equal; lia). field. }
  destruct (SFdiv_rounded (S754_finite s m e) two_64 F F2 ltac:(rewrite V2; lra)) as [N _]. { rewrite V2. unfold Rdiv. rewrite Rabs_mult, A. rewrite (Rabs_pos_eq (/ 2)) by lra. assert (IZR (Zpos m) * P2 e <= P2 53 * P2 971) by (apply Rmult_le_compat; try lra; apply P2_mono; lia). rewrite <- P2_add in H. replace (P2 (53 + 971)) with (2 * P2 1023) in H by (change 2 with (IZR (2 ^ 1)); rewrite P2_Z by lia; rewrite <- P2_add; f_equal; lia). lra. }
  rewrite V2 in N. assert (EX : rval (b64_div (S754_finite s m e) two_64) = rval (S754_finite s m e) / 2) by (apply (nearest_exact _ _ N); exists w; split; assumption). rewrite EX. rewrite Rminus_diag_eq, Rabs_R0 by reflexivity. lra.
Qed.
Definition cos_half (x : spec_float) : spec_float := grid (cos (rval x)).
Definition sin_half (x : spec_float) : spec_float := grid (sin (rval x)).
Lemma half_within x : finite64 x -> trig_at cos_half sin_half (b64_div x two_64) (rval x / 2) (P2 (-28)).
Proof.
  intros F. destruct two_val as [F2 V2]. assert (D : Rabs (rval (b64_div x two_64) - rval x / 2) <= P2 (-29)). apply halved, F.
  assert (P28 : P2 (-28) = 2 * P2 (-29)) by (change 2 with (IZR (2 ^ 1)); rewrite P2_Z by lia; rewrite <- P2_add; reflexivity). pose proof (COS_bound (rval (b64_div x two_64))) as CB. pose proof (SIN_bound (rval (b64_div x two_64))) as SB. destruct (grid_near (cos (rval (b64_div x two_64))) ltac:(apply abs_of; lra)) as [F1 N1]. destruct (grid_near (sin (rval (b64_div x two_64))) ltac:(apply abs_of; lra)) as [F3 N3].
  pose proof (cos_close (rval (b64_div x two_64)) (rval x / 2)) as C. pose proof (sin_close (rval (b64_div x two_64)) (rval x / 2)) as S. split; (split; [assumption |]); unfold cos_half, sin_half; apply abs_le in N1; apply abs_le in N3; apply (Rle_trans _ _ _ C) in D as D1; apply (Rle_trans _ _ _ S) in D as D2; apply abs_le in D1; apply abs_le in D2; apply abs_of; lra.
Qed.
