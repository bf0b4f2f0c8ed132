From Coq Require Import List Bool Arith ZArith Reals Lra Lia Psatz Permutation Floats.SpecFloat.
From Verif Require Import Result AngleModel FloatModel FloatSpec FloatProofs FloatProofs2 FloatProofs3 FloatProofs4 FloatProofs5 FloatProofs7 FloatProofs8 FloatProofs10 TextModel TextProofs6
  Geo64Model Geo64Proofs Geo64Proofs5 Geo64Proofs8 Rot64Proofs Rot64Proofs6 Mat64Model Mat64Spec.
Import ListNotations.
Local Open Scope R_scope.

(** *** Exchanging the matrices *)
Lemma sq_opp x : b64_mul (SFopp x) (SFopp x) = b64_mul x x.
Proof. rewrite mul_opp_l, mul_opp_r. destruct (b64_mul x x) as [[] | [] | | [] m e]; reflexivity. Qed.
Lemma round_opp s m e : binary_round 53 1024 (negb s) m e = SFopp (binary_round 53 1024 s m e).
Proof.
  unfold binary_round. destruct (shl_align m e (fexp 53 1024 (Zpos (digits2_pos m) + e))) as [m' e']. unfold binary_round_aux. destruct (shr_fexp 53 1024 (Zpos m') e' loc_Exact) as [r e2]. destruct (shr_fexp 53 1024 (round_nearest_even (shr_m r) (loc_of_shr_record r)) e2 loc_Exact) as [r' e3]. destruct (shr_m r'); try reflexivity. destruct (Zle_bool e3 (1024 - 53)); reflexivity.
Qed.
Lemma sub_sq_swap x y : b64_mul (sf_sub x y) (sf_sub x y) = b64_mul (sf_sub y x) (sf_sub y x).
Proof.
  destruct x as [s | s | | s m e], y as [s' | s' | | s' m' e']; unfold sf_sub; cbn [SFsub]; try reflexivity; try (destruct s, s'; reflexivity); try (change (S754_finite (negb ?a) ?b ?c) with (SFopp (S754_finite a b c)); rewrite sq_opp; reflexivity); try (symmetry; change (S754_finite (negb ?a) ?b ?c) with (SFopp (S754_finite a b c)); rewrite sq_opp; reflexivity).
  rewrite (Z.min_comm e' e). set (a := cond_Zopp s _). set (b := cond_Zopp s' _). replace (b - a)%Z with (- (a - b))%Z by ring. destruct (a - b)%Z as [| p | p]; cbn [Z.opp binary_normalize]; [reflexivity | |];
    [change true with (negb false) | change true with (negb false)]; rewrite round_opp, sq_opp; reflexivity.
Qed.
Lemma diff_squares l k : map (fun x => b64_mul x x) (map (fun p => sf_sub (fst p) (snd p)) (combine l k)) = map (fun x => b64_mul x x) (map (fun p => sf_sub (fst p) (snd p)) (combine k l)).
Proof. revert k. induction l as [| x l IH]; intros [| y k]; cbn [combine map]; try reflexivity. cbn [fst snd]. f_equal; [apply sub_sq_swap | apply IH]. Qed.
Lemma norm_squares t l : mx_norm t l = b64_sqrt (match map (fun x => b64_mul x x) l with [] => zero64 | k => tree_sum t k end).
Proof. destruct l; reflexivity. Qed.
Lemma c136_symmetric t a b tol : mx_isNear t a b tol = mx_isNear t b a tol.
Proof.
  unfold mx_isNear. rewrite orb_comm, (Nat.eqb_sym (mx_size a)). unfold mx_same_shape. rewrite (Nat.eqb_sym (length (mx_rows a))), (Nat.eqb_sym (mx_cols a)). unfold mx_diff. rewrite !norm_squares, diff_squares. reflexivity.
Qed.
(** *** Errors *)
Lemma c136_errors t a b tol : (mx_isDefined a = false \/ mx_isDefined b = false \/ mx_size a <> mx_size b -> mx_isNear t a b tol = Err ERuntime) /\
  (mx_isNear t a b tol = Err ERuntime -> mx_isDefined a = false \/ mx_isDefined b = false \/ mx_size a <> mx_size b).
Proof.
  unfold mx_isNear. split.
  - intros [H | [H | H]]; [rewrite H; reflexivity | rewrite H, orb_true_r; reflexivity |]. destruct (negb (mx_isDefined a) || negb (mx_isDefined b)); [reflexivity |]. apply Nat.eqb_neq in H. rewrite H. reflexivity.
  - destruct (mx_isDefined a); [| tauto]. destruct (mx_isDefined b); [| tauto]. cbn [negb orb]. destruct (Nat.eqb_spec (mx_size a) (mx_size b)) as [E | E]; [| tauto]. cbn [negb]. destruct (mx_same_shape a b); cbn [negb]; discriminate.
Qed.
Lemma c136_shape_refuted : exists a b, well_shaped a /\ well_shaped b /\ mx_isDefined a = true /\ mx_isDefined b = true /\ mx_size a = mx_size b /\ forall t tol, mx_isNear t a b tol = UB.
Proof.
  exists (mkMatrix 2 [[zero64; zero64]]), (mkMatrix 1 [[zero64]; [zero64]]). do 2 (split; [intros r H; cbn in H; repeat destruct H as [<- | H]; try contradiction; reflexivity |]). repeat split.
Qed.
Lemma c136_zero_refuted : exists a b, well_shaped a /\ well_shaped b /\ elements a <> elements b /\ finite_elements 1 a /\ finite_elements 1 b /\ mx_isNear (Leaf 0) a b zero64 = Ok true.
Proof.
  exists (vector [zero64]), (vector [S754_finite false (2 ^ 52) (-652)]). do 2 (split; [intros r H; cbn in H; repeat destruct H as [<- | H]; try contradiction; reflexivity |]). split; [discriminate |].
  split; [intros x [<- | []]; split; [exact I | change (rval zero64) with 0; rewrite Rabs_R0; lra] |]. split.
  - intros x [<- | []]. split; [vm_compute; repeat split; reflexivity || discriminate |]. rewrite rval_sg. cbn [sg]. change (Zpos (2 ^ 52)) with (2 ^ 52)%Z. rewrite P2_Z by lia. rewrite Rmult_1_l, <- P2_add. rewrite Rabs_pos_eq by apply Rlt_le, P2_pos. rewrite <- P2_0. apply P2_mono. lia.
  - vm_compute. reflexivity.
Qed.
(** *** Factories *)
Lemma c136_filled rows cols : well_shaped (mx_NaN rows cols) /\ well_shaped (mx_Inf rows cols) /\ mx_size (mx_NaN rows cols) = (rows * cols)%nat /\ mx_size (mx_Inf rows cols) = (rows * cols)%nat /\
  ((0 < rows)%nat -> (0 < cols)%nat -> mx_isNaN (mx_NaN rows cols) = true /\ mx_isInf (mx_NaN rows cols) = false /\ mx_isInf (mx_Inf rows cols) = true /\ mx_isNaN (mx_Inf rows cols) = false /\ mx_isDefined (mx_Undefined rows cols) = false /\ mx_isDefined (mx_Inf rows cols) = false).
Proof.
  assert (W : forall x, well_shaped (mx_filled x rows cols)) by (intros x r H; apply repeat_spec in H; rewrite H; apply repeat_length). assert (Sz : forall x, mx_size (mx_filled x rows cols) = (rows * cols)%nat) by (intros x; unfold mx_size, mx_filled; cbn [mx_rows mx_cols]; rewrite repeat_length; reflexivity).
  do 4 (split; [apply W || apply Sz |]). intros R C.
  assert (E : forall f x, existsb (existsb f) (mx_rows (mx_filled x rows cols)) = f x).
  { intros f x. unfold mx_filled; cbn [mx_rows]. assert (I : forall A (g : A -> bool) y n, (0 < n)%nat -> existsb g (repeat y n) = g y) by (intros A g y n Hn; destruct n as [| n]; [lia |]; clear Hn; induction n as [| n IH]; [cbn; apply orb_false_r |]; change (repeat y (S (S n))) with (y :: repeat y (S n)); cbn [existsb]; rewrite IH; apply orb_diag).
    rewrite !I by assumption. reflexivity. }
  unfold mx_Undefined, mx_isDefined, mx_isNaN, mx_isInf, mx_NaN, mx_Inf. rewrite !E. repeat split.
Qed.
Lemma c136_empty_refuted : exists rows cols, mx_isDefined (mx_Undefined rows cols) = true.
Proof. exists 0%nat, 1%nat. reflexivity. Qed.
Lemma c136_axes i : (i < 3)%nat -> exists x y z, axis64 i = vector [x; y; z] /\ finite64 x /\ finite64 y /\ finite64 z /\ rval x = (if Nat.eqb i 0 then 1 else 0) /\ rval y = (if Nat.eqb i 1 then 1 else 0) /\ rval z = (if Nat.eqb i 2 then 1 else 0).
Proof.
  intros H. destruct (of_Z_val 1 ltac:(lia)) as [F V]. destruct i as [| [| [| i]]]; try lia; unfold axis64; cbn [map seq Nat.eqb]; do 3 eexists; (split; [reflexivity |]); repeat split; try exact I; try exact F; try exact V; reflexivity.
Qed.
