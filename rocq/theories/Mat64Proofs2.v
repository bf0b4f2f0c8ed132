From Coq Require Import List Bool Arith ZArith Reals Lra Lia Psatz Permutation Floats.SpecFloat.
From Verif Require Import Result AngleModel FloatModel FloatSpec FloatProofs FloatProofs2 FloatProofs3 FloatProofs4 FloatProofs5 FloatProofs7 FloatProofs8 FloatProofs10 TextModel TextProofs6
  Geo64Model Geo64Proofs Geo64Proofs2 Geo64Proofs3 Geo64Proofs4 Geo64Proofs5 Geo64Proofs6 Geo64Proofs3 Geo64Proofs8 Rot64Proofs Rot64Proofs6 Mat64Model Mat64Spec Mat64Proofs.
Import ListNotations.
Local Open Scope R_scope.

(** *** The same matrix *)
Lemma sub_self_zero x : finite64 x -> sf_sub x x = S754_zero false.
Proof.
  destruct x as [[] | s | | s m e]; intros F; try contradiction; try reflexivity. unfold sf_sub; cbn [SFsub]. rewrite Z.sub_diag. reflexivity.
Qed.
Lemma tree_zeros t l : (forall x, In x l -> x = S754_zero false) -> tree_sum t l = S754_zero false.
Proof.
  intros H. induction t as [i | a IHa b IHb]; cbn [tree_sum]; [| rewrite IHa, IHb; reflexivity].
  destruct (nth_in_or_default i l zero64) as [I | ->]; [apply H; exact I | reflexivity].
Qed.
Lemma combine_self {A} (l : list A) p : In p (combine l l) -> fst p = snd p /\ In (fst p) l.
Proof. induction l as [| x l IH]; cbn [combine]; intros H; [destruct H |]. destruct H as [<- | H]; [split; [reflexivity | left; reflexivity] |]. destruct (IH H) as [E I]. split; [exact E | right; exact I]. Qed.
Lemma defined_finite m : (forall x, In x (elements m) -> finite64 x) -> mx_isDefined m = true.
Proof.
  intros H. apply c113_defined. intros row x R X. assert (F : finite64 x) by (apply H; unfold elements; apply in_concat; exists row; split; assumption). repeat split; intros ->; exact F.
Qed.
Lemma c136_same t m tol : (forall x, In x (elements m) -> finite64 x) -> finite64 tol -> 0 <= rval tol -> mx_isNear t m m tol = Ok true.
Proof.
  intros H Ft Ht. unfold mx_isNear. rewrite (defined_finite m H), Nat.eqb_refl. unfold mx_same_shape. rewrite !Nat.eqb_refl. cbn [negb orb andb]. f_equal.
  assert (Z : mx_norm t (mx_diff m m) = S754_zero false).
  { rewrite norm_squares. assert (A : forall x, In x (map (fun x => b64_mul x x) (mx_diff m m)) -> x = S754_zero false).
    { intros x I. apply in_map_iff in I. destruct I as (d & <- & I). unfold mx_diff in I. apply in_map_iff in I. destruct I as (p & <- & I). destruct (combine_self _ _ I) as [E J]. rewrite E in J. rewrite E, sub_self_zero by (apply H; exact J). reflexivity. }
    destruct (map (fun x => b64_mul x x) (mx_diff m m)) as [| x l] eqn:E; [reflexivity |]. rewrite tree_zeros by exact A. reflexivity. }
  rewrite Z. apply SFleb_val; [exact I | exact Ft | exact Ht].
Qed.

(** *** Accuracy *)
Fixpoint tsum (f : nat -> R) (t : sum_tree) : R := match t with Leaf i => f i | Node a b => tsum f a + tsum f b end.
Definition rsum (l : list R) : R := fold_right Rplus 0 l.
Lemma rsum_app l k : rsum (l ++ k) = rsum l + rsum k.
Proof. unfold rsum. induction l as [| x l IH]; cbn [app fold_right]; [ring |]. rewrite IH. ring. Qed.
Lemma tsum_leaves f t : tsum f t = rsum (map f (leaves t)).
Proof. induction t as [i | a IHa b IHb]; cbn [tsum leaves map]; [unfold rsum; cbn [fold_right]; ring |]. rewrite IHa, IHb, map_app, rsum_app. reflexivity. Qed.
Lemma rsum_perm l k : Permutation l k -> rsum l = rsum k.
Proof. intros P. induction P as [| x l k P IH | x y l | l k m P1 IH1 P2 IH2]; unfold rsum in *; cbn [fold_right]; [reflexivity | rewrite IH; reflexivity | ring | congruence]. Qed.
Lemma rsum_seq (l : list R) : rsum (map (fun i => nth i l 0) (seq 0 (length l))) = rsum l.
Proof. f_equal. induction l as [| x l IH]; [reflexivity |]. cbn [length seq map nth]. f_equal. rewrite <- seq_shift, map_map. exact IH. Qed.
Lemma tsum_all t l : adds_all t (length l) -> tsum (fun i => nth i l 0) t = rsum l.
Proof. intros P. rewrite tsum_leaves, (rsum_perm _ _ (Permutation_map _ P)). apply rsum_seq. Qed.
Fixpoint count (t : sum_tree) : nat := match t with Leaf _ => 1%nat | Node a b => (count a + count b)%nat end.
Lemma count_leaves t : length (leaves t) = count t.
Proof. induction t as [i | a IHa b IHb]; cbn [leaves count length]; [reflexivity |]. rewrite app_length, IHa, IHb. reflexivity. Qed.
Lemma count_pos t : 1 <= INR (count t).
Proof. apply (le_INR 1). induction t as [i | a IHa b IHb]; cbn [count]; lia. Qed.
Lemma P2_902 : 8388608 * P2 902 <= P2 1023 /\ 1 <= P2 902.
Proof. split; [replace 8388608 with (P2 23) by (rewrite <- (P2_Z 23) by lia; reflexivity); rewrite <- P2_add; apply P2_mono; lia | rewrite <- P2_0; apply P2_mono; lia]. Qed.
Lemma add_nonneg x y : finite64 x -> finite64 y -> 0 <= rval x -> 0 <= rval y -> Rabs (rval x + rval y) <= P2 1023 -> 0 <= rval (sf_add x y).
Proof.
  intros Fx Fy Px Py U. destruct (SFadd_rounded x y Fx Fy U) as [[_ N] _]. specialize (N (S754_zero false) I). rewrite rval_zero in N. replace (0 - (rval x + rval y)) with (- (rval x + rval y)) in N by ring. rewrite Rabs_Ropp, (Rabs_pos_eq (rval x + rval y)) in N by lra. apply abs_le in N. unfold sf_add. lra.
Qed.
Lemma tree_near t l f : (forall i, In i (leaves t) -> 0 <= f i <= P2 902 /\ near64 (nth i l zero64) (f i) (3.1 * e53 * f i + tiny) /\ 0 <= rval (nth i l zero64)) -> INR (count t) <= 1048576 ->
  0 <= rval (tree_sum t l) /\ 0 <= tsum f t <= INR (count t) * P2 902 /\ near64 (tree_sum t l) (tsum f t) ((2.1 + 1.001 * INR (count t)) * e53 * tsum f t + (2 * INR (count t) - 1) * tiny).
Proof.
  pose proof tiny_pos as PT. pose proof P2_902 as [P9 P1]. pose proof tiny_1 as T1. pose proof e53_pos as PE. induction t as [i | a IHa b IHb]; intros H C; cbn [tsum tree_sum count] in *.
  - destruct (H i (or_introl eq_refl)) as (B & N & NN). cbn [INR]. split; [exact NN |]. split; [lra |]. refine (near_le _ _ _ _ N _). assert (0 <= e53 * f i) by (apply Rmult_le_pos; lra). lra.
  - rewrite plus_INR in *. pose proof (count_pos a) as Ca. pose proof (count_pos b) as Cb. set (p := INR (count a)) in *. set (q := INR (count b)) in *.
    destruct (IHa (fun i Hi => H i (in_or_app _ _ _ (or_introl Hi))) ltac:(lra)) as (Za & Ba & Na). destruct (IHb (fun i Hi => H i (in_or_app _ _ _ (or_intror Hi))) ltac:(lra)) as (Zb & Bb & Nb). set (A := tsum f a) in *. set (B := tsum f b) in *.
    set (Ea := (2.1 + 1.001 * p) * e53 * A + (2 * p - 1) * tiny) in *. set (Eb := (2.1 + 1.001 * q) * e53 * B + (2 * q - 1) * tiny) in *.
    assert (GA : Ea <= (1.099 + 1.001 * (p + q)) * e53 * A + (2 * p - 1) * tiny) by (unfold Ea; assert ((2.1 + 1.001 * p) * (e53 * A) <= (1.099 + 1.001 * (p + q)) * (e53 * A)) by (apply Rmult_le_compat_r; [apply Rmult_le_pos; lra | lra]); lra).
    assert (GB : Eb <= (1.099 + 1.001 * (p + q)) * e53 * B + (2 * q - 1) * tiny) by (unfold Eb; assert ((2.1 + 1.001 * q) * (e53 * B) <= (1.099 + 1.001 * (p + q)) * (e53 * B)) by (apply Rmult_le_compat_r; [apply Rmult_le_pos; lra | lra]); lra).
    set (c := 1.099 + 1.001 * (p + q)) in *. assert (Hc : 0 <= c * e53 <= / 10000) by (unfold c, e53; lra). assert (HT : 0 <= (2 * (p + q) - 2) * tiny <= 4000000) by (split; [apply Rmult_le_pos; lra |]; apply Rle_trans with (4000000 * 1); [apply Rmult_le_compat; lra | lra]).
    assert (S : Ea + Eb <= c * e53 * (A + B) + (2 * (p + q) - 2) * tiny) by lra.
    assert (SA : c * e53 * (A + B) <= / 10000 * (A + B)) by (apply Rmult_le_compat_r; lra).
    assert (TT : e53 * ((2 * (p + q) - 2) * tiny) <= tiny) by (replace (e53 * ((2 * (p + q) - 2) * tiny)) with (e53 * (2 * (p + q) - 2) * tiny) by ring; rewrite <- (Rmult_1_l tiny) at 2; apply Rmult_le_compat_r; [lra | unfold e53; lra]).
    assert (AB : A + B <= 1048576 * P2 902) by (apply Rle_trans with ((p + q) * P2 902); [lra | apply Rmult_le_compat_r; lra]).
    split; [apply add_nonneg; try assumption; [exact (proj1 Na) | exact (proj1 Nb) |]; pose proof (near_size _ _ _ A Na ltac:(rewrite Rabs_pos_eq; lra)) as Sa; pose proof (near_size _ _ _ B Nb ltac:(rewrite Rabs_pos_eq; lra)) as Sb; rewrite Rabs_pos_eq in Sa, Sb by assumption; rewrite Rabs_pos_eq by lra; lra |].
    split; [lra |]. refine (near_le _ _ _ _ (near_add _ _ _ _ _ _ A B Na Nb _ _ _) _); [rewrite Rabs_pos_eq; lra | rewrite Rabs_pos_eq; lra | lra |].
    assert (e53 * (A + B + Ea + Eb) <= e53 * (A + B + (/ 10000 * (A + B) + (2 * (p + q) - 2) * tiny))) by (apply Rmult_le_compat_l; lra). unfold c in *. assert (0 <= e53 * (A + B)) by (apply Rmult_le_pos; lra). lra.
Qed.
(** The square of a difference. *)
Lemma diff_near x y : finite64 x -> finite64 y -> Rabs (rval x) <= P2 450 -> Rabs (rval y) <= P2 450 -> let d := sf_sub x y in let s := (rval x - rval y) * (rval x - rval y) in
  0 <= s <= P2 902 /\ near64 (b64_mul d d) s (3.1 * e53 * s + tiny) /\ 0 <= rval (b64_mul d d).
Proof.
  intros Fx Fy Bx By d s. pose proof P2_902 as [P9 P1]. pose proof e53_pos as PE. pose proof tiny_pos as PT. pose proof P2_900 as [Q1 Q2].
  assert (B : Rabs (rval x - rval y) <= P2 451) by (replace (P2 451) with (2 * P2 450) by (replace 2 with (P2 1) by (rewrite <- (P2_Z 1) by lia; reflexivity); rewrite <- P2_add; reflexivity); apply abs_le in Bx; apply abs_le in By; apply abs_of; lra).
  set (D := rval x - rval y) in *. assert (S : s <= P2 902) by (unfold s; rewrite <- (Rabs_pos_eq (D * D)) by apply VecProofs.sq_nonneg; rewrite Rabs_mult; replace (P2 902) with (P2 451 * P2 451) by (rewrite <- P2_add; reflexivity); apply Rmult_le_compat; auto using Rabs_pos).
  assert (S0 : 0 <= s) by apply VecProofs.sq_nonneg. split; [lra |].
  destruct (sub_any x y Fx Fy ltac:(fold D; eapply Rle_trans; [exact B | apply P2_mono; lia])) as [Fd Ed]. fold d D in Fd, Ed.
  assert (AD : Rabs D * Rabs D = s) by (unfold s; rewrite <- Rabs_mult; apply Rabs_pos_eq; exact S0).
  assert (SQ : Rabs (rval d * rval d - s) <= 2.01 * e53 * s).
  { replace (rval d * rval d - s) with ((rval d - D) * (rval d - D) + 2 * (rval d - D) * D) by (unfold s; ring). eapply Rle_trans; [apply Rabs_triang |]. rewrite !Rabs_mult, (Rabs_pos_eq 2) by lra. pose proof (Rabs_pos D). pose proof (Rabs_pos (rval d - D)).
    assert (Rabs (rval d - D) * Rabs (rval d - D) <= e53 * Rabs D * (e53 * Rabs D)) by (apply Rmult_le_compat; lra). assert (2 * Rabs (rval d - D) * Rabs D <= 2 * (e53 * Rabs D) * Rabs D) by (apply Rmult_le_compat_r; lra).
    assert (e53 * (e53 * s) <= / 100 * (e53 * s)) by (apply Rmult_le_compat_r; [apply Rmult_le_pos; lra | unfold e53; lra]). rewrite <- AD in *. lra. }
  apply abs_le in SQ. assert (es : e53 * s <= / 1000 * s) by (apply Rmult_le_compat_r; [lra | unfold e53; lra]).
  destruct (mul_any d d Fd Fd) as [Fm Em]; [rewrite Rabs_pos_eq by apply VecProofs.sq_nonneg; lra |].
  assert (B2 : Rabs (rval d) <= P2 452).
  { replace (P2 452) with (2 * P2 451) by (replace 2 with (P2 1) by (rewrite <- (P2_Z 1) by lia; reflexivity); rewrite <- P2_add; reflexivity). assert (e53 * Rabs D <= Rabs D) by (rewrite <- (Rmult_1_l (Rabs D)) at 2; apply Rmult_le_compat_r; [apply Rabs_pos | unfold e53; lra]). replace (rval d) with (rval d - D + D) by ring. eapply Rle_trans; [apply Rabs_triang |]. lra. }
  split; [| apply (square_pos d 452 Fd B2); lia]. split; [exact Fm |]. rewrite (Rabs_pos_eq (rval d * rval d)) in Em by apply VecProofs.sq_nonneg. apply abs_le in Em.
  assert (e53 * (rval d * rval d) <= e53 * (1.01 * s)) by (apply Rmult_le_compat_l; lra). apply abs_of. lra.
Qed.
Lemma sqrt_sum a b : 0 <= a -> 0 <= b -> sqrt (a + b) <= sqrt a + sqrt b.
Proof.
  intros A B. pose proof (sqrt_pos a). pose proof (sqrt_pos b). apply Rsqr_incr_0_var; [| lra]. rewrite Rsqr_sqrt by lra. unfold Rsqr. pose proof (sqrt_sqrt a A). pose proof (sqrt_sqrt b B). assert (0 <= sqrt a * sqrt b) by (apply Rmult_le_pos; assumption). lra.
Qed.
Lemma root_near s T c h : near64 s T (c * e53 * T + h) -> 0 <= rval s -> 0 <= T -> 0 <= c -> c * e53 <= / 1000 -> 0 <= h ->
  finite64 (b64_sqrt s) /\ Rabs (rval (b64_sqrt s) - sqrt T) <= (0.51 * c + 1.01) * e53 * sqrt T + 1.01 * sqrt h.
Proof.
  intros [Fs E] P0 PT PC HC PH. pose proof e53_pos as PE. destruct (SFsqrt_rounded s Fs P0) as [[Fr _] _]. pose proof (sqrt_err s Fs P0) as ER. split; [exact Fr |]. rewrite e53_P2 in ER. change (SFsqrt 53 1024 s) with (b64_sqrt s) in ER. apply abs_le in E.
  set (D := sqrt T). pose proof (sqrt_pos T : 0 <= D) as PD. pose proof (sqrt_pos h) as PH'. set (x := c * e53) in *. assert (PX : 0 <= x) by (unfold x; apply Rmult_le_pos; lra).
  assert (DD : D * D = T) by (apply sqrt_sqrt; exact PT).
  assert (HH : sqrt h * sqrt h = h) by (apply sqrt_sqrt; exact PH). assert (U : sqrt (rval s) <= (1 + 0.51 * x) * D + sqrt h).
  { apply Rle_trans with (sqrt (T * (1 + x) + h)); [apply sqrt_le_1_alt; lra |]. eapply Rle_trans; [apply sqrt_sum; [apply Rmult_le_pos; lra | exact PH] |]. apply Rplus_le_compat_r. apply Rsqr_incr_0_var; [| apply Rmult_le_pos; lra]. rewrite Rsqr_sqrt by (apply Rmult_le_pos; lra). unfold Rsqr.
    replace ((1 + 0.51 * x) * D * ((1 + 0.51 * x) * D)) with ((1 + 0.51 * x) * (1 + 0.51 * x) * T) by (rewrite <- DD; ring). rewrite (Rmult_comm T). apply Rmult_le_compat_r; [exact PT |]. assert (0 <= x * x) by (apply Rmult_le_pos; exact PX). lra. }
  assert (L : (1 - 0.51 * x) * D <= sqrt (rval s) + sqrt h).
  { apply Rle_trans with (sqrt (rval s + h)); [| apply sqrt_sum; assumption]. apply Rsqr_incr_0_var; [| apply sqrt_pos]. rewrite Rsqr_sqrt by lra. unfold Rsqr. replace ((1 - 0.51 * x) * D * ((1 - 0.51 * x) * D)) with ((1 - 0.51 * x) * (1 - 0.51 * x) * T) by (rewrite <- DD; ring).
    assert ((1 - 0.51 * x) * (1 - 0.51 * x) <= 1 - x) by (assert (x * x <= / 1000 * x) by (apply Rmult_le_compat_r; assumption); lra). assert ((1 - 0.51 * x) * (1 - 0.51 * x) * T <= (1 - x) * T) by (apply Rmult_le_compat_r; assumption). lra. }
  apply abs_le in ER. assert (e53 * sqrt (rval s) <= e53 * ((1 + 0.51 * x) * D + sqrt h)) by (apply Rmult_le_compat_l; lra). assert (x * D <= / 1000 * D) by (apply Rmult_le_compat_r; lra). assert (e53 * (x * D) <= e53 * (/ 1000 * D)) by (apply Rmult_le_compat_l; lra).
  replace ((0.51 * c + 1.01) * e53 * D) with (0.51 * (x * D) + 1.01 * (e53 * D)) by (unfold x; ring). assert (0 <= e53 * D) by (apply Rmult_le_pos; lra). assert (e53 * sqrt h <= / 1000 * sqrt h) by (apply Rmult_le_compat_r; [lra | unfold e53; lra]). apply abs_of. lra.
Qed.
