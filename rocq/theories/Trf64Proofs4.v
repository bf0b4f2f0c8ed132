From Coq Require Import List Bool Arith ZArith Reals Lra Lia Psatz Permutation Floats.SpecFloat.
From Verif Require Import Result AngleModel FloatModel FloatSpec FloatProofs FloatProofs2 FloatProofs3 FloatProofs4 FloatProofs5 FloatProofs7 FloatProofs8 FloatProofs10
  TransfModel Geo64Model Geo64Spec Geo64Proofs Geo64Proofs2 Geo64Proofs3 Geo64Proofs4 Geo64Proofs6 Geo64Proofs8 Rot64Model Rot64Proofs Rot64Proofs2 Rot64Proofs7 Mat64Model Mat64Spec Mat64Proofs2 Trf64Model Trf64Spec Trf64Proofs Trf64Proofs2 Trf64Proofs3.
Import ListNotations.
Local Open Scope R_scope.

(** *** Products of matrices *)
Lemma entry_mul n o a b i j : (i < n)%nat -> (j < n)%nat -> entry (mul64 n o a b) i j = row_times n (o i j) (entry a i) (fun k => entry b k j).
Proof. intros I J. unfold mul64. rewrite entry_build by assumption. reflexivity. Qed.
Lemma f_mul_ok d o s t a b : f_isDefined s = true -> f_isDefined t = true -> f_matrix s = Some a -> f_matrix t = Some b ->
  f_mul d o s t = Ok (mkTrf64 (type_composition (f_type s) (f_type t)) (Some (mul64 (S d) o a b))).
Proof. intros Ds Dt Es Et. unfold f_mul, f_defined. rewrite Ds, Dt, Es, Et. reflexivity. Qed.
Lemma type_defined u v : u <> TUndefined -> v <> TUndefined -> type_composition u v <> TUndefined.
Proof. destruct u, v; intros H K; try congruence; cbn; discriminate. Qed.
Definition prod_cell (n : nat) (a b : m64) (i j : nat) : R := total n (fun k => cell a i k * cell b k j).
Definition prod_abs (n : nat) (a b : m64) (i j : nat) : R := total n (fun k => Rabs (cell a i k) * Rabs (cell b k j)).
Lemma prod_abs_pos n a b i j : 0 <= prod_abs n a b i j.
Proof. apply total_nonneg. intros. apply Rmult_le_pos; apply Rabs_pos. Qed.
Lemma P2_400 : P2 200 * P2 200 = P2 400.
Proof. rewrite <- P2_add. reflexivity. Qed.
Lemma prod_abs_le d a b i j : (d <= 3)%nat -> matrix_within (S d) (P2 200) a -> matrix_within (S d) (P2 200) b -> (i < S d)%nat -> (j < S d)%nat -> prod_abs (S d) a b i j <= 4 * P2 400.
Proof.
  intros D A B I J. pose proof (P2_pos 400). assert (G : forall n, (n <= S d)%nat -> total n (fun k => Rabs (cell a i k) * Rabs (cell b k j)) <= INR n * P2 400).
  { induction n as [| n IH]; intros L; [cbn; lra |]. rewrite S_INR. cbn [total]. pose proof (IH ltac:(lia)). assert (Rabs (cell a i n) * Rabs (cell b n j) <= P2 400) by (rewrite <- P2_400; apply Rmult_le_compat; try apply Rabs_pos; [apply (entry_within (S d) (P2 200) a i n A I ltac:(lia)) | apply (entry_within (S d) (P2 200) b n j B ltac:(lia) J)]). lra. }
  eapply Rle_trans; [apply G; lia |]. apply Rmult_le_compat_r; [lra |]. replace 4 with (INR 4) by (cbn; lra). apply le_INR. lia.
Qed.
Lemma mul_near d o a b i j : (d <= 3)%nat -> sums (S d) o -> matrix_within (S d) (P2 200) a -> matrix_within (S d) (P2 200) b -> (i < S d)%nat -> (j < S d)%nat ->
  near64 (entry (mul64 (S d) o a b) i j) (prod_cell (S d) a b i j) (err_of (S d) (prod_abs (S d) a b i j)).
Proof.
  intros D O A B I J. rewrite entry_mul by assumption. apply row_near; [lia | apply O; assumption |]. intros k K. destruct (entry_within (S d) _ a i k A I K) as [F1 B1]. destruct (entry_within (S d) _ b k j B K J) as [F2 B2]. split; [exact F1 |]. split; [exact F2 |].
  rewrite Rabs_mult. apply Rle_trans with (P2 400); [rewrite <- P2_400; apply Rmult_le_compat; try apply Rabs_pos; assumption | apply P2_mono; lia].
Qed.
Lemma err_S d s : (d <= 3)%nat -> 0 <= s -> err_of (S d) s <= 4.01 * e53 * s + 7 * tiny.
Proof.
  intros D P. unfold err_of. pose proof tiny_pos. pose proof e53_pos. assert (N : 1 <= INR (S d) <= 4) by (split; [apply (le_INR 1); lia |]; replace 4 with (INR 4) by (cbn; lra); apply le_INR; lia).
  assert (0 <= e53 * s) by (apply Rmult_le_pos; lra). assert (1.002 * INR (S d) * (e53 * s) <= 4.01 * (e53 * s)) by (apply Rmult_le_compat_r; lra). assert ((2 * INR (S d) - 1) * tiny <= 7 * tiny) by (apply Rmult_le_compat_r; lra). lra.
Qed.
Lemma tiny_100 : tiny <= / 100.
Proof. eapply Rle_trans; [apply tiny_small |]. apply Rle_trans with (P2 (-10)); [apply P2_mono; lia |]. apply (Rmult_le_reg_r (P2 10)); [apply P2_pos |]. change (-10)%Z with (- (10))%Z. rewrite (P2_opp 10), <- P2_Z by lia. change (2 ^ 10)%Z with 1024%Z. lra. Qed.
Lemma mul_within d o a b : (d <= 3)%nat -> sums (S d) o -> matrix_within (S d) (P2 200) a -> matrix_within (S d) (P2 200) b -> matrix_within (S d) (P2 403) (mul64 (S d) o a b).
Proof.
  intros D O A B. apply build_within. intros i j I J. pose proof (mul_near d o a b i j D O A B I J) as N. rewrite entry_mul in N by assumption. split; [exact (proj1 N) |]. pose proof (prod_abs_le d a b i j D A B I J) as L. pose proof (prod_abs_pos (S d) a b i j) as PP.
  pose proof (near_le _ _ _ _ N (err_S d _ D PP)) as N2. eapply Rle_trans; [apply (near_size _ _ _ (prod_abs (S d) a b i j) N2) |].
  - eapply Rle_trans; [apply total_abs |]. right. apply total_ext. intros. apply Rabs_mult.
  - pose proof tiny_100. assert (e53 * prod_abs (S d) a b i j <= / 1000 * prod_abs (S d) a b i j) by (apply Rmult_le_compat_r; [exact PP | unfold e53; lra]). assert (1 <= P2 400) by (rewrite <- P2_0; apply P2_mono; lia). replace (P2 403) with (8 * P2 400) by (replace 8 with (P2 3) by (rewrite <- P2_Z by lia; reflexivity); rewrite <- P2_add; reflexivity). lra.
Qed.

(** *** Affine maps *)
Lemma cell_mul_last d o a b j : (1 <= d <= 3)%nat -> sums (S d) o -> matrix_within (S d) (P2 200) a -> matrix_within (S d) (P2 200) b -> affine d a -> (j <= d)%nat -> cell (mul64 (S d) o a b) d j = cell b d j.
Proof.
  intros D O A B AF J. rewrite cell_entry, entry_mul by lia. destruct (entry_within (S d) _ b d j B ltac:(lia) ltac:(lia)) as [Fb Bb]. assert (Bq : Rabs (rval (entry b d j)) <= P2 1023) by (eapply Rle_trans; [exact Bb | apply P2_mono; lia]).
  assert (Ad : finite64 (entry a d d) /\ rval (entry a d d) = 1) by (split; [apply (entry_within (S d) (P2 200)); [exact A | lia | lia] |]; pose proof (AF d ltac:(lia)) as E; rewrite Nat.eqb_refl in E; exact E).
  destruct (mul_by_one _ _ (proj1 Ad) Fb (proj2 Ad) Bq) as [[Fm Vm] _].
  apply (row_one (S d) _ _ _ d); [apply O; lia | lia | lia | | exact Fm | exact Vm | exact Bq].
  intros k K N. apply mul_by_zero; [apply (entry_within (S d) (P2 200)); [exact A | lia | lia] | apply (entry_within (S d) (P2 200)); [exact B | lia | lia] |]. pose proof (AF k ltac:(lia)) as E. destruct (Nat.eqb_spec k d); [contradiction | exact E].
Qed.
Lemma mul_affine d o a b : (1 <= d <= 3)%nat -> sums (S d) o -> matrix_within (S d) (P2 200) a -> matrix_within (S d) (P2 200) b -> affine d a -> affine d b -> affine d (mul64 (S d) o a b).
Proof. intros D O A B AA AB j J. rewrite cell_mul_last by assumption. apply AB. exact J. Qed.

(** Sums over the rows of the second matrix. *)
Definition ext1 (d : nat) (p : nat -> R) (k : nat) : R := if Nat.eqb k d then 1 else p k.
Lemma image_total d m p i : image d m p i = total (S d) (fun k => cell m i k * ext1 d p k).
Proof. unfold image. cbn [total]. unfold ext1 at 2. rewrite Nat.eqb_refl, Rmult_1_r. f_equal. apply total_ext. intros k K. unfold ext1. destruct (Nat.eqb_spec k d); [lia | reflexivity]. Qed.
Lemma terms_total d m p i : terms d m p i = total (S d) (fun k => Rabs (cell m i k) * Rabs (ext1 d p k)).
Proof. unfold terms. cbn [total]. unfold ext1 at 2. rewrite Nat.eqb_refl, Rabs_R1, Rmult_1_r. f_equal. apply total_ext. intros k K. unfold ext1. destruct (Nat.eqb_spec k d); [lia | reflexivity]. Qed.
Lemma image_last d m p : affine d m -> image d m p d = 1.
Proof. intros A. unfold image. rewrite total_zero, (A d) by lia || (intros k K; rewrite (A k) by lia; destruct (Nat.eqb_spec k d); [lia | ring]). rewrite Nat.eqb_refl. ring. Qed.
Lemma terms_last d m p : affine d m -> terms d m p d = 1.
Proof. intros A. unfold terms. rewrite total_zero, (A d) by lia || (intros k K; rewrite (A k) by lia; destruct (Nat.eqb_spec k d); [lia | rewrite Rabs_R0; ring]). rewrite Nat.eqb_refl, Rabs_R1. ring. Qed.
Lemma image_compose d a b p i : affine d b -> image d a (image d b p) i = total (S d) (fun j => prod_cell (S d) a b i j * ext1 d p j).
Proof.
  intros A. rewrite image_total. unfold prod_cell. rewrite (total_ext (S d) (fun j => _ * ext1 d p j) (fun j => total (S d) (fun k => cell a i k * (cell b k j * ext1 d p j)))) by (intros j _; rewrite Rmult_comm, <- total_scale; apply total_ext; intros; ring).
  rewrite <- total_swap. apply total_ext. intros k K. rewrite total_scale. f_equal. unfold ext1 at 1. destruct (Nat.eqb_spec k d) as [-> | N]; [rewrite <- image_total; symmetry; apply image_last; exact A | apply image_total].
Qed.
Lemma terms_compose d a b p i : affine d b -> terms d a (terms d b p) i = total (S d) (fun j => prod_abs (S d) a b i j * Rabs (ext1 d p j)).
Proof.
  intros A. rewrite terms_total. unfold prod_abs. rewrite (total_ext (S d) (fun j => _ * Rabs (ext1 d p j)) (fun j => total (S d) (fun k => Rabs (cell a i k) * (Rabs (cell b k j) * Rabs (ext1 d p j))))) by (intros j _; rewrite Rmult_comm, <- total_scale; apply total_ext; intros; ring).
  rewrite <- total_swap. apply total_ext. intros k K. rewrite total_scale. f_equal. unfold ext1 at 1. destruct (Nat.eqb_spec k d) as [-> | N]; [rewrite Rabs_R1, <- terms_total; symmetry; apply terms_last; exact A | rewrite Rabs_pos_eq by apply terms_pos; apply terms_total].
Qed.
Lemma ext1_le d p k B : 1 <= B -> (forall i, (i < d)%nat -> Rabs (p i) <= B) -> (k < S d)%nat -> Rabs (ext1 d p k) <= B.
Proof. intros B1 H K. unfold ext1. destruct (Nat.eqb_spec k d); [rewrite Rabs_R1; exact B1 | apply H; lia]. Qed.
Lemma P2_200_1 : 1 <= P2 200.
Proof. rewrite <- P2_0. apply P2_mono. lia. Qed.
Lemma total_const n c f : (forall k, (k < n)%nat -> f k <= c) -> total n f <= INR n * c.
Proof. intros H. induction n as [| n IH]; [cbn; lra |]. rewrite S_INR. cbn [total]. pose proof (IH (fun k K => H k ltac:(lia))). pose proof (H n ltac:(lia)). lra. Qed.
Lemma tiny_800 k : 0 <= k <= 1000 -> k * tiny * P2 200 <= P2 (-800).
Proof.
  intros K. pose proof tiny_small as T. pose proof tiny_pos. pose proof (P2_pos 200). pose proof tiny16 as T16.
  assert (E : tiny = P2 (-1075)) by (replace (P2 (-1071)) with (16 * P2 (-1075)) in T16 by (replace 16 with (P2 4) by (rewrite <- P2_Z by lia; reflexivity); rewrite <- P2_add; reflexivity); lra). rewrite E.
  apply Rle_trans with (P2 10 * P2 (-1075) * P2 200); [| rewrite <- !P2_add; apply P2_mono; lia]. apply Rmult_le_compat_r; [lra |]. apply Rmult_le_compat_r; [left; apply P2_pos |]. rewrite <- P2_Z by lia. change (2 ^ 10)%Z with 1024%Z. lra.
Qed.
Lemma within_more n B C p : B <= C -> point_within n B p -> point_within n C p.
Proof. intros L [N H]. split; [exact N |]. intros x I. destruct (H x I). split; [assumption | lra]. Qed.
Lemma matrix_more n B C m : B <= C -> matrix_within n B m -> matrix_within n C m.
Proof. intros L [N H]. split; [exact N |]. intros r I. apply (within_more n B); [exact L | apply H; exact I]. Qed.
(** The image under the product. *)
Lemma product_near d o o' a b p i : (d <= 3)%nat -> sums (S d) o -> sums (S d) o' -> matrix_within (S d) (P2 200) a -> matrix_within (S d) (P2 200) b -> point_within d (P2 200) p -> affine d b -> (i < d)%nat ->
  near64 (nth i (firstn d (mulv64 (S d) o' (mul64 (S d) o a b) (p ++ [one_64]))) zero64) (image d a (image d b (coord p)) i) (9 * e53 * terms d a (terms d b (coord p)) i + P2 (-800)).
Proof.
  intros D O O' A B P AB I. pose proof (mul_within d o a b D O A B) as M. set (c := mul64 (S d) o a b) in *. set (P' := coord p).
  assert (M2 : matrix_within (S d) (P2 450) c) by (apply (matrix_more _ (P2 403)); [apply P2_mono; lia | exact M]). assert (Q2 : point_within d (P2 450) p) by (apply (within_more _ (P2 200)); [apply P2_mono; lia | exact P]).
  destruct (point_near d o' c p i D O' M2 Q2 I) as [F N]. split; [exact F |]. pose proof (Rle_trans _ _ _ N (err_S d _ D (terms_pos d c (coord p) i))) as N2. clear N. fold P' in N2 |- *. rewrite image_total, terms_total in N2.
  rewrite (image_compose d a b P' i AB), (terms_compose d a b P' i AB). pose proof tiny_pos as PT. pose proof e53_pos as PE. pose proof P2_200_1 as P1.
  assert (E : forall j, (j < S d)%nat -> Rabs (cell c i j - prod_cell (S d) a b i j) <= 4.01 * e53 * prod_abs (S d) a b i j + 7 * tiny) by (intros j J; destruct (mul_near d o a b i j D O A B ltac:(lia) J) as [_ N]; eapply Rle_trans; [exact N | apply err_S; [exact D | apply prod_abs_pos]]).
  assert (AC : forall j, (j < S d)%nat -> Rabs (cell c i j) <= (1 + 4.01 * e53) * prod_abs (S d) a b i j + 7 * tiny).
  { intros j J. replace (cell c i j) with (cell c i j - prod_cell (S d) a b i j + prod_cell (S d) a b i j) by ring. eapply Rle_trans; [apply Rabs_triang |]. pose proof (E j J). assert (Rabs (prod_cell (S d) a b i j) <= prod_abs (S d) a b i j) by (eapply Rle_trans; [apply total_abs |]; right; apply total_ext; intros; apply Rabs_mult). lra. }
  set (X := fun j => Rabs (ext1 d P' j)). assert (X0 : forall j, 0 <= X j) by (intros; apply Rabs_pos). assert (XB : forall j, (j < S d)%nat -> X j <= P2 200) by (intros j J; apply (ext1_le d P' j); [exact P1 | intros k K; apply (coord_within d (P2 200) p k P K) | exact J]).
  set (W := total (S d) (fun j => prod_abs (S d) a b i j * X j)). assert (W0 : 0 <= W) by (apply total_nonneg; intros; apply Rmult_le_pos; [apply prod_abs_pos | apply X0]).
  assert (N4 : INR (S d) <= 4) by (replace 4 with (INR 4) by (cbn; lra); apply le_INR; lia). assert (TX : total (S d) X <= 4 * P2 200) by (eapply Rle_trans; [apply (total_const _ (P2 200)); exact XB |]; apply Rmult_le_compat_r; lra). assert (TX0 : 0 <= total (S d) X) by (apply total_nonneg; intros; apply X0).
  assert (S1 : Rabs (total (S d) (fun k => cell c i k * ext1 d P' k) - total (S d) (fun j => prod_cell (S d) a b i j * ext1 d P' j)) <= 4.01 * e53 * W + 7 * tiny * total (S d) X).
  { replace (_ - _) with (total (S d) (fun k => (cell c i k - prod_cell (S d) a b i k) * ext1 d P' k)) by (rewrite (total_ext (S d) (fun k => (_ - _) * _) (fun k => cell c i k * ext1 d P' k + (-1) * (prod_cell (S d) a b i k * ext1 d P' k))) by (intros; ring); rewrite total_plus, total_scale; ring).
    eapply Rle_trans; [apply total_abs |]. unfold W. rewrite <- !total_scale, <- total_plus. apply total_le. intros j J. rewrite Rabs_mult. fold (X j). replace (4.01 * e53 * (prod_abs (S d) a b i j * X j) + 7 * tiny * X j) with ((4.01 * e53 * prod_abs (S d) a b i j + 7 * tiny) * X j) by ring. apply Rmult_le_compat_r; [apply X0 | apply E; exact J]. }
  assert (S2 : total (S d) (fun k => Rabs (cell c i k) * Rabs (ext1 d P' k)) <= (1 + 4.01 * e53) * W + 7 * tiny * total (S d) X).
  { unfold W. rewrite <- !total_scale, <- total_plus. apply total_le. intros j J. fold (X j). replace ((1 + 4.01 * e53) * (prod_abs (S d) a b i j * X j) + 7 * tiny * X j) with (((1 + 4.01 * e53) * prod_abs (S d) a b i j + 7 * tiny) * X j) by ring. apply Rmult_le_compat_r; [apply X0 | apply AC; exact J]. }
  set (T := total (S d) (fun k => cell c i k * ext1 d P' k)) in *. set (Y := total (S d) (fun j => prod_cell (S d) a b i j * ext1 d P' j)) in *. set (C := total (S d) (fun k => Rabs (cell c i k) * Rabs (ext1 d P' k))) in *.
  set (z := rval _) in *. replace (z - Y) with (z - T + (T - Y)) by ring. eapply Rle_trans; [apply Rabs_triang |].
  assert (tX : tiny * total (S d) X <= 4 * (tiny * P2 200)) by (replace (4 * (tiny * P2 200)) with (tiny * (4 * P2 200)) by ring; apply Rmult_le_compat_l; lra). pose proof (tiny_800 100 ltac:(lra)) as T8. assert (tP : tiny <= tiny * P2 200) by (rewrite <- (Rmult_1_r tiny) at 1; apply Rmult_le_compat_l; lra).
  assert (G1 : e53 * C <= e53 * ((1 + 4.01 * e53) * W + 7 * tiny * total (S d) X)) by (apply Rmult_le_compat_l; lra). assert (eW : 0 <= e53 * W) by (apply Rmult_le_pos; lra). assert (e53 * (e53 * W) <= / 1000 * (e53 * W)) by (apply Rmult_le_compat_r; [exact eW | unfold e53; lra]).
  assert (0 <= tiny * total (S d) X) by (apply Rmult_le_pos; lra). assert (e53 * (tiny * total (S d) X) <= / 1000 * (tiny * total (S d) X)) by (apply Rmult_le_compat_r; [assumption | unfold e53; lra]).
  change (total (S d) (fun j => prod_abs (S d) a b i j * Rabs (ext1 d P' j))) with W. lra.
Qed.
(** One after the other. *)
Lemma twice_near d o o' a b p i : (d <= 3)%nat -> sums (S d) o -> sums (S d) o' -> matrix_within (S d) (P2 200) a -> matrix_within (S d) (P2 200) b -> point_within d (P2 200) p -> (i < d)%nat ->
  near64 (nth i (firstn d (mulv64 (S d) o' a (firstn d (mulv64 (S d) o b (p ++ [one_64])) ++ [one_64]))) zero64) (image d a (image d b (coord p)) i) (9 * e53 * terms d a (terms d b (coord p)) i + P2 (-800)).
Proof.
  intros D O O' A B P I. set (q := firstn d (mulv64 (S d) o b (p ++ [one_64]))). assert (Q2 : point_within d (P2 450) p) by (apply (within_more _ (P2 200)); [apply P2_mono; lia | exact P]). assert (UP : P2 200 <= P2 450) by (apply P2_mono; lia).
  pose proof tiny_pos as PT. pose proof e53_pos as PE. pose proof P2_200_1 as P1. pose proof tiny_1 as T1. assert (N4 : INR (S d) <= 4) by (replace 4 with (INR 4) by (cbn; lra); apply le_INR; lia). assert (P400 : 1 <= P2 400) by (rewrite <- P2_0; apply P2_mono; lia).
  set (t := terms d b (coord p)). set (y := image d b (coord p)).
  assert (TB : forall k, (k < d)%nat -> 0 <= t k <= 4 * P2 400).
  { intros k K. split; [apply terms_pos |]. unfold t. rewrite terms_total. eapply Rle_trans; [apply (total_const _ (P2 400)) | apply Rmult_le_compat_r; lra]. intros j J. rewrite <- P2_400. apply Rmult_le_compat; try apply Rabs_pos; [apply (entry_within (S d) (P2 200) b k j B ltac:(lia) J) | apply (ext1_le d (coord p) j); [exact P1 | intros l L; apply (coord_within d (P2 200) p l P L) | exact J]]. }
  assert (YT : forall k, (k < d)%nat -> Rabs (y k) <= t k).
  { intros k K. unfold y, t. rewrite image_total, terms_total. eapply Rle_trans; [apply total_abs |]. right. apply total_ext. intros. apply Rabs_mult. }
  assert (NQ : forall k, (k < d)%nat -> near64 (nth k q zero64) (y k) (4.01 * e53 * t k + 7 * tiny)) by (intros k K; refine (near_le _ _ _ _ (point_near d o b p k D O (matrix_more _ _ _ _ UP B) Q2 K) _); apply err_S; [exact D | apply terms_pos]).
  assert (SQ : forall k, (k < d)%nat -> Rabs (coord q k) <= (1 + 4.01 * e53) * t k + 7 * tiny) by (intros k K; eapply Rle_trans; [apply (near_size _ _ _ (t k) (NQ k K)); apply YT; exact K | lra]).
  assert (PQ : point_within d (P2 450) q).
  { split; [apply length_first, length_mulv |]. intros x J. destruct (In_nth q x zero64 J) as (k & L & <-). unfold q in L. rewrite length_first in L by apply length_mulv. split; [exact (proj1 (NQ k L)) |]. eapply Rle_trans; [apply (SQ k L) |]. destruct (TB k L) as [T0 TB'].
    assert (e53 * t k <= / 1000 * t k) by (apply Rmult_le_compat_r; [exact T0 | unfold e53; lra]). replace (P2 450) with (P2 50 * P2 400) by (rewrite <- P2_add; reflexivity). assert (1024 <= P2 50) by (apply Rle_trans with (P2 10); [rewrite <- P2_Z by lia; apply IZR_le; lia | apply P2_mono; lia]). assert (1024 * P2 400 <= P2 50 * P2 400) by (apply Rmult_le_compat_r; lra). lra. }
  destruct (point_near d o' a q i D O' (matrix_more _ _ _ _ UP A) PQ I) as [F N]. split; [exact F |]. pose proof (Rle_trans _ _ _ N (err_S d _ D (terms_pos d a (coord q) i))) as N2. clear N.
  set (AI := fun k => Rabs (cell a i k)). assert (AI0 : forall k, 0 <= AI k) by (intros; apply Rabs_pos). assert (AB : forall k, (k < S d)%nat -> AI k <= P2 200) by (intros k K; apply (entry_within (S d) (P2 200) a i k A ltac:(lia) K)).
  assert (TA : total d AI <= 4 * P2 200) by (eapply Rle_trans; [apply (total_const _ (P2 200)); intros; apply AB; lia |]; apply Rmult_le_compat_r; [lra |]; rewrite S_INR in N4; lra). assert (TA0 : 0 <= total d AI) by (apply total_nonneg; intros; apply AI0).
  set (W := total d (fun k => AI k * t k) + AI d). assert (EW : terms d a t i = W) by (unfold terms, W; f_equal; apply total_ext; intros k K; rewrite (Rabs_pos_eq (t k)) by apply TB, K; reflexivity). rewrite EW.
  assert (PW : 0 <= total d (fun k => AI k * t k)) by (apply total_nonneg; intros; apply Rmult_le_pos; [apply AI0 | apply TB; assumption]).
  assert (S1 : Rabs (image d a (coord q) i - image d a y i) <= 4.01 * e53 * W + 7 * tiny * total d AI).
  { unfold image. replace (_ - _) with (total d (fun k => cell a i k * (coord q k - y k))) by (rewrite (total_ext d (fun k => cell a i k * (coord q k - y k)) (fun k => cell a i k * coord q k + (-1) * (cell a i k * y k))) by (intros; ring); rewrite total_plus, total_scale; ring).
    eapply Rle_trans; [apply total_abs |]. apply Rle_trans with (4.01 * e53 * total d (fun k => AI k * t k) + 7 * tiny * total d AI).
    - rewrite <- !total_scale, <- total_plus. apply total_le. intros k K. rewrite Rabs_mult. fold (AI k). destruct (NQ k K) as [_ E]. replace (4.01 * e53 * (AI k * t k) + 7 * tiny * AI k) with (AI k * (4.01 * e53 * t k + 7 * tiny)) by ring. apply Rmult_le_compat_l; [apply AI0 | exact E].
    - unfold W. assert (0 <= e53 * AI d) by (apply Rmult_le_pos; [lra | apply AI0]). lra. }
  assert (S2 : terms d a (coord q) i <= (1 + 4.01 * e53) * W + 7 * tiny * total d AI).
  { unfold terms. fold (AI d). apply Rle_trans with ((1 + 4.01 * e53) * total d (fun k => AI k * t k) + 7 * tiny * total d AI + AI d).
    - apply Rplus_le_compat_r. rewrite <- !total_scale, <- total_plus. apply total_le. intros k K. fold (AI k). replace ((1 + 4.01 * e53) * (AI k * t k) + 7 * tiny * AI k) with (AI k * ((1 + 4.01 * e53) * t k + 7 * tiny)) by ring. apply Rmult_le_compat_l; [apply AI0 | apply SQ; exact K].
    - unfold W. assert (0 <= e53 * AI d) by (apply Rmult_le_pos; [lra | apply AI0]). lra. }
  assert (W0 : 0 <= W) by (unfold W; pose proof (AI0 d); lra).
  set (z := rval _) in *. replace (z - image d a y i) with (z - image d a (coord q) i + (image d a (coord q) i - image d a y i)) by ring. eapply Rle_trans; [apply Rabs_triang |].
  assert (tX : tiny * total d AI <= 4 * (tiny * P2 200)) by (replace (4 * (tiny * P2 200)) with (tiny * (4 * P2 200)) by ring; apply Rmult_le_compat_l; lra). pose proof (tiny_800 100 ltac:(lra)) as T8. assert (tP : tiny <= tiny * P2 200) by (rewrite <- (Rmult_1_r tiny) at 1; apply Rmult_le_compat_l; lra).
  set (C := terms d a (coord q) i) in *. assert (G1 : e53 * C <= e53 * ((1 + 4.01 * e53) * W + 7 * tiny * total d AI)) by (apply Rmult_le_compat_l; lra). assert (eW : 0 <= e53 * W) by (apply Rmult_le_pos; lra). assert (e53 * (e53 * W) <= / 1000 * (e53 * W)) by (apply Rmult_le_compat_r; [exact eW | unfold e53; lra]).
  assert (0 <= tiny * total d AI) by (apply Rmult_le_pos; lra). assert (e53 * (tiny * total d AI) <= / 1000 * (tiny * total d AI)) by (apply Rmult_le_compat_r; [assumption | unfold e53; lra]). lra.
Qed.
Lemma c138_accurate d o o1 o2 o3 s t a b p : (1 <= d <= 3)%nat -> sums (S d) o -> sums (S d) o1 -> sums (S d) o2 -> sums (S d) o3 -> f_isDefined s = true -> f_isDefined t = true -> f_matrix s = Some a -> f_matrix t = Some b ->
  matrix_within (S d) (P2 200) a -> matrix_within (S d) (P2 200) b -> point_within d (P2 200) p -> affine d b ->
  exists w q y r, f_mul d o s t = Ok w /\ f_applyTo_point d o1 w (Some p) = Ok (Some q) /\ f_applyTo_point d o2 t (Some p) = Ok (Some y) /\ f_applyTo_point d o3 s (Some y) = Ok (Some r) /\ length q = d /\ length r = d /\
    forall i, (i < d)%nat -> let W := terms d a (terms d b (coord p)) i in
      finite64 (nth i q zero64) /\ finite64 (nth i r zero64) /\
      Rabs (coord q i - image d a (image d b (coord p)) i) <= 9 * P2 (-53) * W + P2 (-800) /\
      Rabs (coord r i - image d a (image d b (coord p)) i) <= 9 * P2 (-53) * W + P2 (-800).
Proof.
  intros D O O1 O2 O3 Ds Dt Es Et A B P AB. do 4 eexists. split; [apply f_mul_ok; eassumption |]. split; [reflexivity |]. split; [unfold f_applyTo_point; cbn [need3 bind]; rewrite Et; reflexivity |]. split; [unfold f_applyTo_point; cbn [need3 bind]; rewrite Es; reflexivity |]. split; [apply length_first, length_mulv |]. split; [apply length_first, length_mulv |].
  intros i I W. rewrite e53_P2. destruct (product_near d o o1 a b p i ltac:(lia) O O1 A B P AB I) as [F1 N1]. destruct (twice_near d o2 o3 a b p i ltac:(lia) O2 O3 A B P I) as [F2 N2]. split; [exact F1 |]. split; [exact F2 |]. split; [exact N1 | exact N2].
Qed.
