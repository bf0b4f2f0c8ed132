From Coq Require Import List Bool Arith ZArith Reals Lra Lia Psatz Permutation Floats.SpecFloat.
From Verif Require Import Result AngleModel FloatModel FloatSpec FloatProofs FloatProofs2 FloatProofs3 FloatProofs4 FloatProofs5 FloatProofs7 FloatProofs8 FloatProofs10
  TransfModel Geo64Model Geo64Spec Geo64Proofs Geo64Proofs2 Geo64Proofs3 Geo64Proofs4 Geo64Proofs6 Geo64Proofs8 Rot64Model Rot64Proofs Rot64Proofs2 Rot64Proofs7 Mat64Model Mat64Spec Mat64Proofs2 Trf64Model Trf64Spec Trf64Proofs.
Import ListNotations.
Local Open Scope R_scope.

(** *** Coefficients *)
Lemma entry_build n f i j : (i < n)%nat -> (j < n)%nat -> entry (build n f) i j = f i j.
Proof. intros Hi Hj. unfold entry, build. rewrite (nth_map_seq (fun i => map (f i) (seq 0 n))) by exact Hi. apply nth_map_seq. exact Hj. Qed.
Lemma cell_entry m i j : cell m i j = rval (entry m i j).
Proof. reflexivity. Qed.
Lemma build_within n B f : (forall i j, (i < n)%nat -> (j < n)%nat -> finite64 (f i j) /\ Rabs (rval (f i j)) <= B) -> matrix_within n B (build n f).
Proof.
  intros H. split; [unfold build; rewrite map_length, seq_length; reflexivity |]. intros r I. unfold build in I. apply in_map_iff in I. destruct I as (i & <- & I). apply in_seq in I. split; [rewrite map_length, seq_length; reflexivity |]. intros x J. apply in_map_iff in J. destruct J as (j & <- & J). apply in_seq in J. apply H; lia.
Qed.
Lemma coord_within d B p i : point_within d B p -> (i < d)%nat -> finite64 (nth i p zero64) /\ Rabs (rval (nth i p zero64)) <= B.
Proof. intros [L H] I. apply H, nth_In. lia. Qed.
Lemma entry_within n B m i j : matrix_within n B m -> (i < n)%nat -> (j < n)%nat -> finite64 (entry m i j) /\ Rabs (rval (entry m i j)) <= B.
Proof. intros [L H] I J. unfold entry. apply (coord_within n); [apply H, nth_In; lia | exact J]. Qed.
Lemma nth_mulv n o m v i : (i < n)%nat -> nth i (mulv64 n o m v) zero64 = row_times n (o i 0%nat) (entry m i) (fun k => nth k v zero64).
Proof. intros H. unfold mulv64. apply (nth_map_seq (fun i => row_times n (o i 0%nat) (entry m i) (fun k => nth k v zero64))). exact H. Qed.
Lemma nth_first {A} (l : list A) d i x : (i < d)%nat -> nth i (firstn d l) x = nth i l x.
Proof. revert l i. induction d as [| d IH]; intros l i H; [lia |]. destruct l as [| y l]; [destruct i; reflexivity |]. destruct i as [| i]; [reflexivity |]. cbn [firstn nth]. apply IH. lia. Qed.
Lemma length_mulv n o m v : length (mulv64 n o m v) = n.
Proof. unfold mulv64. rewrite map_length, seq_length. reflexivity. Qed.
Lemma length_first {A} (l : list A) d : length l = S d -> length (firstn d l) = d.
Proof. intros H. rewrite firstn_length, H. lia. Qed.
Definition extended (d : nat) (p : list spec_float) (w : spec_float) (k : nat) : spec_float := nth k (p ++ [w]) zero64.
Lemma extended_low d p w k : length p = d -> (k < d)%nat -> extended d p w k = nth k p zero64.
Proof. intros L H. unfold extended. apply app_nth1. lia. Qed.
Lemma extended_last d p w : length p = d -> extended d p w d = w.
Proof. intros L. unfold extended. rewrite app_nth2 by lia. rewrite L, Nat.sub_diag. reflexivity. Qed.
Lemma one_val : finite64 one_64 /\ rval one_64 = 1.
Proof. apply (of_Z_val 1). lia. Qed.
Lemma P2_450_1 : 1 <= P2 450.
Proof. rewrite <- P2_0. apply P2_mono. lia. Qed.
Lemma extended_within d p w k : point_within d (P2 450) p -> finite64 w -> Rabs (rval w) <= 1 -> (k < S d)%nat -> finite64 (extended d p w k) /\ Rabs (rval (extended d p w k)) <= P2 450.
Proof.
  intros P Fw Bw K. pose proof P2_450_1. destruct (Nat.eq_dec k d) as [-> | N]; [rewrite extended_last by apply P; split; [exact Fw | lra] |]. rewrite extended_low by (try lia; apply P). apply (coord_within d); [exact P | lia].
Qed.
(** A row of the matrix times the extended coordinates. *)
Definition err_of (n : nat) (s : R) : R := 1.002 * INR n * e53 * s + (2 * INR n - 1) * tiny.
Lemma applied_near d o m p w i : (d <= 3)%nat -> sums (S d) o -> matrix_within (S d) (P2 450) m -> point_within d (P2 450) p -> finite64 w -> Rabs (rval w) <= 1 -> (i < d)%nat ->
  near64 (nth i (firstn d (mulv64 (S d) o m (p ++ [w]))) zero64) (linear d m (coord p) i + cell m i d * rval w)
    (err_of (S d) (linear_terms d m (coord p) i + Rabs (cell m i d) * Rabs (rval w))).
Proof.
  intros D O M P Fw Bw I. rewrite nth_first, nth_mulv by lia.
  pose proof (row_near (S d) (o i 0%nat) (entry m i) (fun k => nth k (p ++ [w]) zero64) ltac:(lia) (O i 0%nat ltac:(lia) ltac:(lia))) as N.
  assert (A : forall k, (k < S d)%nat -> finite64 (entry m i k) /\ finite64 (nth k (p ++ [w]) zero64) /\ Rabs (rval (entry m i k) * rval (nth k (p ++ [w]) zero64)) <= P2 910).
  { intros k K. destruct (entry_within (S d) (P2 450) m i k M ltac:(lia) K) as [F1 B1]. destruct (extended_within d p w k P Fw Bw K) as [F2 B2]. split; [exact F1 |]. split; [exact F2 |]. eapply Rle_trans; [apply (prod_450 _ _ B1 B2) | apply P2_mono; lia]. }
  specialize (N A). clear A. cbn [total] in N.
  assert (E1 : forall g : R -> R -> R, total d (fun k => g (rval (entry m i k)) (rval (nth k (p ++ [w]) zero64))) = total d (fun k => g (cell m i k) (coord p k))).
  { intros g. apply total_ext. intros k K. pose proof (extended_low d p w k (proj1 P) K) as X. unfold extended in X. rewrite X. reflexivity. }
  pose proof (extended_last d p w (proj1 P)) as L. unfold extended in L. rewrite !L in N. rewrite (E1 (fun a b => a * b)) in N. rewrite (E1 (fun a b => Rabs a * Rabs b)) in N. exact N.
Qed.
Lemma err_4 d s : (d <= 3)%nat -> 0 <= s -> err_of (S d) s <= 5 * P2 (-53) * s + P2 (-1071).
Proof.
  intros D P. unfold err_of. pose proof tiny16 as T. pose proof tiny_pos. pose proof e53_P2 as E. pose proof e53_pos. assert (N : 1 <= INR (S d) <= 4) by (split; [apply (le_INR 1); lia |]; replace 4 with (INR 4) by (cbn; lra); apply le_INR; lia).
  assert (0 <= e53 * s) by (apply Rmult_le_pos; lra). rewrite E. assert (1.002 * INR (S d) * (e53 * s) <= 5 * (e53 * s)) by (apply Rmult_le_compat_r; lra). assert ((2 * INR (S d) - 1) * tiny <= 7 * tiny) by (apply Rmult_le_compat_r; lra). lra.
Qed.
Lemma linear_terms_pos d m v i : 0 <= linear_terms d m v i.
Proof. apply total_nonneg. intros. apply Rmult_le_pos; apply Rabs_pos. Qed.
Lemma terms_pos d m v i : 0 <= terms d m v i.
Proof. unfold terms. pose proof (linear_terms_pos d m v i) as L. unfold linear_terms in L. pose proof (Rabs_pos (cell m i d)). lra. Qed.
Lemma point_near d o m p i : (d <= 3)%nat -> sums (S d) o -> matrix_within (S d) (P2 450) m -> point_within d (P2 450) p -> (i < d)%nat ->
  near64 (nth i (firstn d (mulv64 (S d) o m (p ++ [one_64]))) zero64) (image d m (coord p) i) (err_of (S d) (terms d m (coord p) i)).
Proof.
  intros D O M P I. destruct one_val as [F V]. pose proof (applied_near d o m p one_64 i D O M P F ltac:(rewrite V, Rabs_R1; lra) I) as N. rewrite V, Rabs_R1, !Rmult_1_r in N. exact N.
Qed.
Lemma c137_accurate d o t m p : (d <= 3)%nat -> sums (S d) o -> matrix_within (S d) (P2 450) m -> point_within d (P2 450) p -> f_matrix t = Some m ->
  exists q, f_applyTo_point d o t (Some p) = Ok (Some q) /\ length q = d /\ forall i, (i < d)%nat -> finite64 (nth i q zero64) /\
    Rabs (coord q i - image d m (coord p) i) <= 5 * P2 (-53) * terms d m (coord p) i + P2 (-1071).
Proof.
  intros D O M P E. eexists. split; [unfold f_applyTo_point; cbn [need3 bind]; rewrite E; reflexivity |]. split; [apply length_first, length_mulv |]. intros i I. destruct (point_near d o m p i D O M P I) as [F N]. split; [exact F |]. eapply Rle_trans; [exact N |]. apply err_4; [exact D | apply terms_pos].
Qed.
Lemma c137_vector d o t m v : (d <= 3)%nat -> sums (S d) o -> matrix_within (S d) (P2 450) m -> point_within d (P2 450) v -> f_matrix t = Some m ->
  exists q, f_applyTo_vector d o t (Some v) = Some q /\ length q = d /\ forall i, (i < d)%nat -> finite64 (nth i q zero64) /\
    Rabs (coord q i - linear d m (coord v) i) <= 5 * P2 (-53) * linear_terms d m (coord v) i + P2 (-1071).
Proof.
  intros D O M P E. eexists. split; [unfold f_applyTo_vector; rewrite E; reflexivity |]. split; [apply length_first, length_mulv |]. intros i I. pose proof (applied_near d o m v zero64 i D O M P Logic.I ltac:(change (rval zero64) with 0; rewrite Rabs_R0; lra) I) as N. change (rval zero64) with 0 in N. rewrite Rabs_R0, !Rmult_0_r, !Rplus_0_r in N. destruct N as [F N]. split; [exact F |]. eapply Rle_trans; [exact N |]. apply err_4; [exact D | apply linear_terms_pos].
Qed.

(** *** Translations *)
Lemma mul_by_one x y : finite64 x -> finite64 y -> rval x = 1 -> Rabs (rval y) <= P2 1023 -> (finite64 (b64_mul x y) /\ rval (b64_mul x y) = rval y) /\ finite64 (b64_mul y x) /\ rval (b64_mul y x) = rval y.
Proof.
  intros Fx Fy V B. assert (G : forall u v, finite64 u -> finite64 v -> rval u * rval v = rval y -> finite64 (b64_mul u v) /\ rval (b64_mul u v) = rval y).
  { intros u v Fu Fv H. pose proof (SFmul_rounded u v Fu Fv ltac:(rewrite H; exact B)) as [N _]. split; [exact (proj1 N) |]. rewrite H in N. apply (nearest_exact _ _ N). exists y. split; [exact Fy | reflexivity]. }
  split; apply G; try assumption; rewrite V; ring.
Qed.
Lemma mul_by_zero x y : finite64 x -> finite64 y -> rval x = 0 -> finite64 (b64_mul x y) /\ rval (b64_mul x y) = 0.
Proof.
  intros Fx Fy V. pose proof (SFmul_rounded x y Fx Fy ltac:(rewrite V, Rmult_0_l, Rabs_R0; left; apply P2_pos)) as [N _]. split; [exact (proj1 N) |]. rewrite V, Rmult_0_l in N. apply (nearest_exact _ _ N). exists zero64. split; [exact I | reflexivity].
Qed.
(** A row of which only two products are not zero. *)
Lemma row_two n t f g i j x y : adds_all t n -> (i < n)%nat -> (j < n)%nat -> i <> j -> (forall k, (k < n)%nat -> k <> i -> k <> j -> finite64 (b64_mul (f k) (g k)) /\ rval (b64_mul (f k) (g k)) = 0) ->
  finite64 (b64_mul (f i) (g i)) -> finite64 (b64_mul (f j) (g j)) -> rval (b64_mul (f i) (g i)) = x -> rval (b64_mul (f j) (g j)) = y ->
  Rabs x <= P2 1023 -> Rabs y <= P2 1023 -> Rabs (x + y) <= P2 1023 -> rounded64 (x + y) (row_times n t f g).
Proof.
  intros A Hi Hj NE Z Fi Fj Vi Vj Bx By Bxy. subst x y. pose proof (tree_two t (map (fun k => b64_mul (f k) (g k)) (seq 0 n)) (fun k => rval (b64_mul (f k) (g k))) i j (adds_nodup t n A) NE) as T. cbn beta in T.
  destruct T as (F & R & _); [| | assumption | assumption | assumption |].
  - intros k K. apply (adds_leaf t n k A) in K. rewrite (nth_map_seq (fun k => b64_mul (f k) (g k))) by exact K. split; [| reflexivity]. destruct (Nat.eq_dec k i) as [-> | Ni]; [exact Fi |]. destruct (Nat.eq_dec k j) as [-> | Nj]; [exact Fj |]. exact (proj1 (Z k K Ni Nj)).
  - intros k K Ni Nj. apply (adds_leaf t n k A) in K. exact (proj2 (Z k K Ni Nj)).
  - apply R. apply andb_true_iff. split; apply within_tree_spec, (Permutation_in _ (Permutation_sym A)), in_seq; lia.
Qed.
Lemma rounded_exact x z w : rounded64 (rval x) z -> finite64 x -> w = rval x -> rval z = w.
Proof. intros [N _] F ->. apply (nearest_exact _ _ N). exists x. split; [exact F | reflexivity]. Qed.
(** A row of which only one product is not zero. *)
Lemma row_one n t f g i x : adds_all t n -> (i < n)%nat -> (2 <= n)%nat -> (forall k, (k < n)%nat -> k <> i -> finite64 (b64_mul (f k) (g k)) /\ rval (b64_mul (f k) (g k)) = 0) ->
  finite64 (b64_mul (f i) (g i)) -> rval (b64_mul (f i) (g i)) = x -> Rabs x <= P2 1023 -> finite64 (row_times n t f g) /\ rval (row_times n t f g) = x.
Proof.
  intros A Hi H2 Z Fi Vi Bx. set (j := if Nat.eqb i 0 then 1%nat else 0%nat). assert (Hj : (j < n)%nat /\ i <> j) by (unfold j; destruct (Nat.eqb_spec i 0); lia). destruct Hj as [Hj NE].
  destruct (Z j Hj ltac:(congruence)) as [Fj Vj].
  pose proof (row_two n t f g i j x 0 A Hi Hj NE (fun k K Ni _ => Z k K Ni) Fi Fj Vi Vj Bx ltac:(rewrite Rabs_R0; left; apply P2_pos) ltac:(rewrite Rplus_0_r; exact Bx)) as R.
  split; [exact (rounded_val _ _ R) |]. rewrite Rplus_0_r in R. apply (rounded_exact (b64_mul (f i) (g i))); [rewrite Vi; exact R | exact Fi | symmetry; exact Vi].
Qed.
Definition trans_entry (d : nat) (v : list spec_float) (i j : nat) : spec_float := if Nat.eqb i j then one_64 else if Nat.eqb j d then nth i v zero64 else zero64.
Lemma c137_translation d o v p : (d <= 3)%nat -> sums (S d) o -> point_within d (P2 1022) v -> point_within d (P2 1022) p ->
  exists t q u, f_Translation d (Some v) = Ok t /\ f_type t = TTranslation /\ f_applyTo_point d o t (Some p) = Ok (Some q) /\ f_applyTo_vector d o t (Some p) = Some u /\ length q = d /\ length u = d /\
    forall i, (i < d)%nat -> rounded64 (coord p i + coord v i) (nth i q zero64) /\ finite64 (nth i u zero64) /\ coord u i = coord p i.
Proof.
  intros D O V P. do 3 eexists. split; [reflexivity |]. split; [reflexivity |]. split; [reflexivity |]. split; [reflexivity |]. split; [apply length_first, length_mulv |]. split; [apply length_first, length_mulv |].
  intros i I. destruct one_val as [F1 V1]. pose proof (proj1 P) as LP. destruct (coord_within d _ p i P I) as [Fp Bp]. destruct (coord_within d _ v i V I) as [Fv Bv].
  assert (B23 : P2 1022 + P2 1022 <= P2 1023) by (replace (P2 1023) with (2 * P2 1022) by (rewrite <- P2_succ; reflexivity); lra). pose proof (P2_pos 1022) as PP.
  set (M := build (S d) _).
  assert (E : forall k, (k < S d)%nat -> entry M i k = trans_entry d v i k) by (intros k K; unfold M; rewrite entry_build by lia; reflexivity).
  assert (X : forall k w, (k < d)%nat -> nth k (p ++ [w]) zero64 = nth k p zero64) by (intros k w K; exact (extended_low d p w k LP K)).
  assert (XL : forall w, nth d (p ++ [w]) zero64 = w) by (intros w; exact (extended_last d p w LP)).
  assert (Z : forall w k, (k < S d)%nat -> k <> i -> k <> d -> finite64 (b64_mul (entry M i k) (nth k (p ++ [w]) zero64)) /\ rval (b64_mul (entry M i k) (nth k (p ++ [w]) zero64)) = 0).
  { intros w k K Ni Nd. rewrite E, X by lia. unfold trans_entry. destruct (Nat.eqb_spec i k) as [-> | _]; [contradiction |]. destruct (Nat.eqb_spec k d) as [-> | _]; [contradiction |]. apply mul_by_zero; [exact Logic.I | apply (coord_within d (P2 1022)); [exact P | lia] | reflexivity]. }
  assert (Ei : forall w, finite64 (b64_mul (entry M i i) (nth i (p ++ [w]) zero64)) /\ rval (b64_mul (entry M i i) (nth i (p ++ [w]) zero64)) = rval (nth i p zero64)).
  { intros w. rewrite E, X by lia. unfold trans_entry. rewrite Nat.eqb_refl. apply (mul_by_one one_64 (nth i p zero64) F1 Fp V1). lra. }
  assert (ED : entry M i d = nth i v zero64) by (rewrite E by lia; unfold trans_entry; destruct (Nat.eqb_spec i d) as [-> | _]; [lia |]; rewrite Nat.eqb_refl; reflexivity).
  split.
  - rewrite nth_first, nth_mulv by lia. apply (row_two (S d) _ _ _ i d); [apply O; lia | lia | lia | lia | apply Z | apply Ei | | apply Ei | | | | ].
    + rewrite ED, XL. apply (mul_by_one one_64 (nth i v zero64) F1 Fv V1). lra.
    + rewrite ED, XL. apply (mul_by_one one_64 (nth i v zero64) F1 Fv V1). lra.
    + unfold coord. fold zero64. lra.
    + unfold coord. fold zero64. lra.
    + eapply Rle_trans; [apply Rabs_triang |]. unfold coord. fold zero64. lra.
  - unfold coord at 1. fold zero64. rewrite nth_first, nth_mulv by lia. apply (row_one (S d) _ _ _ i); [apply O; lia | lia | lia | | apply Ei | apply Ei |].
    + intros k K Ni. destruct (Nat.eq_dec k d) as [-> | Nd]; [| apply Z; assumption]. rewrite ED, XL. split; [apply (mul_zero (nth i v zero64) zero64); [exact Fv | exact Logic.I | reflexivity] | apply (mul_zero (nth i v zero64) zero64); [exact Fv | exact Logic.I | reflexivity]].
    + unfold coord. fold zero64. lra.
Qed.
