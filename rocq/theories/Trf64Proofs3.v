From Coq Require Import List Bool Arith ZArith Reals Lra Lia Psatz Permutation Floats.SpecFloat.
From Verif Require Import Result AngleModel FloatModel FloatSpec FloatProofs FloatProofs2 FloatProofs3 FloatProofs4 FloatProofs5 FloatProofs7 FloatProofs8 FloatProofs10
  TransfModel Geo64Model Geo64Spec Geo64Proofs Geo64Proofs2 Geo64Proofs3 Geo64Proofs4 Geo64Proofs6 Geo64Proofs8 Rot64Model Rot64Proofs Rot64Proofs2 Rot64Proofs7 Mat64Model Mat64Spec Mat64Proofs2 Trf64Model Trf64Spec Trf64Proofs Trf64Proofs2.
Import ListNotations.
Local Open Scope R_scope.

(** *** The identity *)
Lemma c137_identity d o p : (1 <= d <= 3)%nat -> sums (S d) o -> point_within d (P2 1022) p ->
  exists q u, f_applyTo_point d o (f_Identity d) (Some p) = Ok (Some q) /\ f_applyTo_vector d o (f_Identity d) (Some p) = Some u /\ length q = d /\ length u = d /\
    forall i, (i < d)%nat -> finite64 (nth i q zero64) /\ finite64 (nth i u zero64) /\ coord q i = coord p i /\ coord u i = coord p i.
Proof.
  intros D O P. do 2 eexists. split; [reflexivity |]. split; [reflexivity |]. split; [apply length_first, length_mulv |]. split; [apply length_first, length_mulv |].
  intros i I. destruct one_val as [F1 V1]. pose proof (proj1 P) as LP. destruct (coord_within d _ p i P I) as [Fp Bp]. assert (Bq : Rabs (rval (nth i p zero64)) <= P2 1023) by (eapply Rle_trans; [exact Bp | apply P2_mono; lia]).
  set (M := build (S d) _).
  assert (G : forall w, finite64 w -> finite64 (nth i (firstn d (mulv64 (S d) o M (p ++ [w]))) zero64) /\ rval (nth i (firstn d (mulv64 (S d) o M (p ++ [w]))) zero64) = coord p i).
  { intros w Fw. rewrite nth_first, nth_mulv by lia.
    assert (E : forall k, (k < S d)%nat -> entry M i k = if Nat.eqb i k then one_64 else zero64) by (intros k K; unfold M; rewrite entry_build by lia; reflexivity).
    assert (X : forall k, (k < d)%nat -> nth k (p ++ [w]) zero64 = nth k p zero64) by (intros k K; exact (extended_low d p w k LP K)).
    assert (FX : forall k, (k < S d)%nat -> finite64 (nth k (p ++ [w]) zero64)) by (intros k K; destruct (Nat.eq_dec k d) as [-> | N]; [pose proof (extended_last d p w LP) as L; unfold extended in L; rewrite L; exact Fw | rewrite X by lia; apply (coord_within d (P2 1022)); [exact P | lia]]).
    apply (row_one (S d) _ _ _ i); [apply O; lia | lia | lia | | | |].
    - intros k K N. rewrite E by lia. destruct (Nat.eqb_spec i k) as [-> | _]; [contradiction |]. apply mul_by_zero; [exact Logic.I | apply FX; exact K | reflexivity].
    - rewrite E, X, Nat.eqb_refl by lia. apply (mul_by_one one_64 (nth i p zero64) F1 Fp V1 Bq).
    - rewrite E, X, Nat.eqb_refl by lia. apply (mul_by_one one_64 (nth i p zero64) F1 Fp V1 Bq).
    - exact Bq. }
  destruct (G one_64 F1) as [Fa Va]. destruct (G zero64 Logic.I) as [Fb Vb]. split; [exact Fa |]. split; [exact Fb |]. split; [exact Va | exact Vb].
Qed.

(** *** Whole numbers *)
Lemma tree_whole t l z : (count t <= 16)%nat -> (forall i, In i (leaves t) -> finite64 (nth i l zero64) /\ rval (nth i l zero64) = IZR (z i) /\ (Z.abs (z i) <= 2 ^ 48)%Z) ->
  exists s, finite64 (tree_sum t l) /\ rval (tree_sum t l) = IZR s /\ IZR s = tsum (fun i => IZR (z i)) t /\ (Z.abs s <= Z.of_nat (count t) * 2 ^ 48)%Z.
Proof.
  induction t as [i | a IHa b IHb]; intros C H; cbn [tree_sum tsum count] in *.
  - destruct (H i (or_introl eq_refl)) as (F & V & B). exists (z i). split; [exact F |]. split; [exact V |]. split; [reflexivity | lia].
  - destruct (IHa ltac:(lia) (fun i I => H i (in_or_app _ _ _ (or_introl I)))) as (s & Fa & Va & Sa & Ba). destruct (IHb ltac:(lia) (fun i I => H i (in_or_app _ _ _ (or_intror I)))) as (u & Fb & Vb & Sb & Bb).
    assert (B : (Z.abs (s + u) <= Z.of_nat (count a + count b) * 2 ^ 48)%Z) by lia. assert (R : representable (IZR (s + u))) by (apply integer_representable; lia).
    assert (U : Rabs (IZR s + IZR u) <= P2 1023) by (rewrite <- plus_IZR, <- abs_IZR; apply Rle_trans with (P2 53); [rewrite <- P2_Z by lia; apply IZR_le; lia | apply P2_mono; lia]).
    pose proof (SFadd_rounded _ _ Fa Fb ltac:(rewrite Va, Vb; exact U)) as [N _]. exists (s + u)%Z. split; [exact (proj1 N) |]. rewrite Va, Vb, <- plus_IZR in N. split; [exact (nearest_exact _ _ N R) |]. split; [rewrite plus_IZR, Sa, Sb; reflexivity | exact B].
Qed.
Lemma mul_whole x y a b : finite64 x -> finite64 y -> rval x = IZR a -> rval y = IZR b -> (Z.abs a <= 2 ^ 24)%Z -> (Z.abs b <= 2 ^ 24)%Z -> finite64 (b64_mul x y) /\ rval (b64_mul x y) = IZR (a * b) /\ (Z.abs (a * b) <= 2 ^ 48)%Z.
Proof.
  intros Fx Fy Vx Vy Ba Bb. assert (B : (Z.abs (a * b) <= 2 ^ 48)%Z) by (rewrite Z.abs_mul; change (2 ^ 48)%Z with (2 ^ 24 * 2 ^ 24)%Z; apply Z.mul_le_mono_nonneg; lia).
  assert (U : Rabs (rval x * rval y) <= P2 1023) by (rewrite Vx, Vy, <- mult_IZR, <- abs_IZR; apply Rle_trans with (P2 48); [rewrite <- P2_Z by lia; apply IZR_le; exact B | apply P2_mono; lia]).
  pose proof (SFmul_rounded x y Fx Fy U) as [N _]. rewrite Vx, Vy, <- mult_IZR in N. split; [exact (proj1 N) |]. split; [| exact B]. apply (nearest_exact _ _ N), integer_representable. lia.
Qed.
Lemma row_whole n t f g : (n <= 16)%nat -> adds_all t n -> (forall k, (k < n)%nat -> finite64 (f k) /\ finite64 (g k) /\ whole64 (2 ^ 24) (f k) /\ whole64 (2 ^ 24) (g k)) ->
  finite64 (row_times n t f g) /\ rval (row_times n t f g) = total n (fun k => rval (f k) * rval (g k)).
Proof.
  intros L A H. assert (E : exists z, forall k, (k < n)%nat -> finite64 (b64_mul (f k) (g k)) /\ rval (b64_mul (f k) (g k)) = IZR (z k) /\ IZR (z k) = rval (f k) * rval (g k) /\ (Z.abs (z k) <= 2 ^ 48)%Z).
  { clear A L t. induction n as [| n IH]; [exists (fun _ => 0%Z); intros; lia |]. destruct IH as [z Hz]; [intros; apply H; lia |]. destruct (H n ltac:(lia)) as (Ff & Fg & (a & Va & Ba) & (b & Vb & Bb)). destruct (mul_whole _ _ a b Ff Fg Va Vb Ba Bb) as (F & V & B).
    exists (fun k => if Nat.eqb k n then (a * b)%Z else z k). intros k K. destruct (Nat.eqb_spec k n) as [-> | N]; [| apply Hz; lia]. repeat split; try assumption. rewrite mult_IZR, Va, Vb. reflexivity. }
  destruct E as [z Hz]. destruct (tree_whole t (map (fun k => b64_mul (f k) (g k)) (seq 0 n)) z) as (s & F & V & S1 & _).
  { rewrite (adds_count t n A). exact L. }
  { intros i I. apply (adds_leaf t n i A) in I. rewrite (nth_map_seq (fun k => b64_mul (f k) (g k))) by exact I. destruct (Hz i I) as (F & V & _ & B). repeat split; assumption. }
  unfold row_times. split; [exact F |]. rewrite V, S1, (tsum_total t n _ A). apply total_ext. intros k K. apply Hz. exact K.
Qed.
Lemma entry_whole n B m i j N : matrix_within n B m -> whole_matrix N m -> (i < n)%nat -> (j < n)%nat -> whole64 N (entry m i j).
Proof.
  intros M W I J. assert (R : In (nth i m []) m) by (apply nth_In; rewrite (proj1 M); exact I). apply (W _ R). unfold entry. apply nth_In. rewrite (proj1 (proj2 M _ R)). exact J.
Qed.
Lemma c137_whole d o t m p : (1 <= d <= 3)%nat -> sums (S d) o -> matrix_within (S d) (P2 24) m -> whole_matrix (2 ^ 24) m -> point_within d (P2 24) p -> whole_list (2 ^ 24) p -> f_matrix t = Some m ->
  exists q u, f_applyTo_point d o t (Some p) = Ok (Some q) /\ f_applyTo_vector d o t (Some p) = Some u /\ length q = d /\ length u = d /\
    forall i, (i < d)%nat -> finite64 (nth i q zero64) /\ finite64 (nth i u zero64) /\ coord q i = image d m (coord p) i /\ coord u i = linear d m (coord p) i.
Proof.
  intros D O M WM P WP E. do 2 eexists. split; [unfold f_applyTo_point; cbn [need3 bind]; rewrite E; reflexivity |]. split; [unfold f_applyTo_vector; rewrite E; reflexivity |]. split; [apply length_first, length_mulv |]. split; [apply length_first, length_mulv |].
  intros i I. pose proof (proj1 P) as LP. assert (G : forall w, finite64 w -> whole64 (2 ^ 24) w -> finite64 (nth i (firstn d (mulv64 (S d) o m (p ++ [w]))) zero64) /\ rval (nth i (firstn d (mulv64 (S d) o m (p ++ [w]))) zero64) = linear d m (coord p) i + cell m i d * rval w).
  { intros w Fw Ww. rewrite nth_first, nth_mulv by lia. pose proof (extended_last d p w LP) as XL. unfold extended in XL.
    destruct (row_whole (S d) (o i 0%nat) (entry m i) (fun k => nth k (p ++ [w]) zero64) ltac:(lia) (O i 0%nat ltac:(lia) ltac:(lia))) as [F V].
    { intros k K. assert (I' : (i < S d)%nat) by lia. split; [exact (proj1 (entry_within (S d) (P2 24) m i k M I' K)) |]. assert (WE : whole64 (2 ^ 24) (entry m i k)) by exact (entry_whole (S d) (P2 24) m i k _ M WM I' K).
      destruct (Nat.eq_dec k d) as [-> | N]; [rewrite XL; repeat split; assumption |]. pose proof (extended_low d p w k LP ltac:(lia)) as XK. unfold extended in XK. rewrite XK. split; [apply (coord_within d (P2 24)); [exact P | lia] |]. split; [exact WE |]. apply WP, nth_In. lia. }
    split; [exact F |]. rewrite V. cbn [total]. rewrite XL. f_equal. apply total_ext. intros k K. pose proof (extended_low d p w k LP K) as XK. unfold extended in XK. rewrite XK. reflexivity. }
  destruct one_val as [F1 V1]. destruct (G one_64 F1) as [Fa Va]; [exists 1%Z; split; [exact V1 | lia] |]. destruct (G zero64 Logic.I) as [Fb Vb]; [exists 0%Z; split; [reflexivity | lia] |].
  split; [exact Fa |]. split; [exact Fb |]. split; [unfold coord at 1; fold zero64; rewrite Va, V1; unfold image, linear; ring | unfold coord at 1; fold zero64; rewrite Vb; change (rval zero64) with 0; ring].
Qed.

(** *** There and back *)
Lemma rounded_rel t z : (exists x y, finite64 x /\ finite64 y /\ t = rval x + rval y) -> rounded64 t z -> Rabs t <= P2 1023 -> Rabs (rval z - t) <= e53 * Rabs t.
Proof.
  intros (x & y & Fx & Fy & ->) R B. destruct (add_any x y Fx Fy B) as [F E]. destruct R as [[_ N] _]. eapply Rle_trans; [apply N; exact F | exact E].
Qed.
Lemma c137_back d o o' v p : (1 <= d <= 3)%nat -> sums (S d) o -> sums (S d) o' -> point_within d (P2 1020) v -> point_within d (P2 1020) p ->
  exists t s q r, f_Translation d (Some v) = Ok t /\ f_Translation d (Some (map SFopp v)) = Ok s /\ f_applyTo_point d o t (Some p) = Ok (Some q) /\ f_applyTo_point d o' s (Some q) = Ok (Some r) /\ length r = d /\
    forall i, (i < d)%nat -> finite64 (nth i r zero64) /\ Rabs (coord r i - coord p i) <= 3 * P2 (-53) * (Rabs (coord p i) + Rabs (coord v i)).
Proof.
  intros D O O' V P. assert (U : forall x, point_within d (P2 1020) x -> point_within d (P2 1022) x) by (intros x [L H]; split; [exact L |]; intros y I; destruct (H y I) as [F B]; split; [exact F | eapply Rle_trans; [exact B | apply P2_mono; lia]]).
  destruct (c137_translation d o v p ltac:(lia) O (U v V) (U p P)) as (t & q & u0 & Et & _ & Eq & _ & Lq & _ & Hq).
  assert (P21 : P2 1020 + P2 1020 = P2 1021) by (replace (P2 1021) with (2 * P2 1020) by (rewrite <- P2_succ; reflexivity); lra). assert (P22 : P2 1021 + P2 1021 = P2 1022) by (replace (P2 1022) with (2 * P2 1021) by (rewrite <- P2_succ; reflexivity); lra). pose proof (P2_pos 1020) as PP. pose proof e53_pos as PE.
  assert (S1 : forall i, (i < d)%nat -> Rabs (coord p i + coord v i) <= Rabs (coord p i) + Rabs (coord v i) /\ Rabs (coord p i) <= P2 1020 /\ Rabs (coord v i) <= P2 1020 /\ finite64 (nth i p zero64) /\ finite64 (nth i v zero64)).
  { intros i I. destruct (coord_within d _ p i P I) as [Fp Bp]. destruct (coord_within d _ v i V I) as [Fv Bv]. split; [apply Rabs_triang |]. repeat split; assumption. }
  assert (Q1 : forall i, (i < d)%nat -> finite64 (nth i q zero64) /\ Rabs (coord q i - (coord p i + coord v i)) <= e53 * (Rabs (coord p i) + Rabs (coord v i)) /\ Rabs (coord q i) <= P2 1022).
  { intros i I. destruct (S1 i I) as (T & Bp & Bv & Fp & Fv). destruct (Hq i I) as [R _]. split; [exact (rounded_val _ _ R) |]. assert (E : Rabs (coord q i - (coord p i + coord v i)) <= e53 * (Rabs (coord p i) + Rabs (coord v i))).
    { eapply Rle_trans; [apply (rounded_rel _ _ (ex_intro _ _ (ex_intro _ _ (conj Fp (conj Fv eq_refl)))) R) |]; [eapply Rle_trans; [exact T |]; pose proof (P2_mono 1021 1023 ltac:(lia)); lra | apply Rmult_le_compat_l; [lra | exact T]]. }
    split; [exact E |]. assert (e53 * (Rabs (coord p i) + Rabs (coord v i)) <= Rabs (coord p i) + Rabs (coord v i)) by (rewrite <- (Rmult_1_l (Rabs (coord p i) + Rabs (coord v i))) at 2; apply Rmult_le_compat_r; [pose proof (Rabs_pos (coord p i)); pose proof (Rabs_pos (coord v i)); lra | unfold e53; lra]).
    replace (coord q i) with (coord q i - (coord p i + coord v i) + (coord p i + coord v i)) by ring. eapply Rle_trans; [apply Rabs_triang |]. lra. }
  assert (PQ : point_within d (P2 1022) q). { split; [exact Lq |]. intros x I. destruct (In_nth q x zero64 I) as (i & L & <-). rewrite Lq in L. destruct (Q1 i L) as (F & _ & B). split; assumption. }
  assert (PV : point_within d (P2 1022) (map SFopp v)). { split; [rewrite map_length; apply V |]. intros x I. apply in_map_iff in I. destruct I as (y & <- & I). destruct (proj2 V y I) as [F B]. split; [destruct y; exact F |]. rewrite SFopp_val, Rabs_Ropp. eapply Rle_trans; [exact B | apply P2_mono; lia]. }
  destruct (c137_translation d o' (map SFopp v) q ltac:(lia) O' PV PQ) as (s & r & u1 & Es & _ & Er & _ & Lr & _ & Hr).
  exists t, s, q, r. split; [exact Et |]. split; [exact Es |]. split; [exact Eq |]. split; [exact Er |]. split; [exact Lr |]. intros i I. destruct (Hr i I) as [R _]. split; [exact (rounded_val _ _ R) |].
  destruct (S1 i I) as (T & Bp & Bv & Fp & Fv). destruct (Q1 i I) as (Fq & Eq' & Bq).
  assert (Cv : coord (map SFopp v) i = - coord v i) by (unfold coord; change (S754_zero false) with zero64; rewrite (nth_indep _ zero64 (SFopp zero64)) by (rewrite map_length, (proj1 V); exact I); rewrite map_nth; apply SFopp_val).
  assert (Fo : finite64 (nth i (map SFopp v) zero64)) by (apply (coord_within d (P2 1022)); [exact PV | exact I]).
  rewrite Cv in R. set (a := coord p i) in *. set (b := coord v i) in *. set (c := coord q i) in *. set (z := nth i r zero64) in *. change (coord r i) with (rval z).
  assert (Bc : Rabs (c + - b) <= P2 1023) by (eapply Rle_trans; [apply Rabs_triang |]; rewrite Rabs_Ropp; pose proof (P2_mono 1022 1023 ltac:(lia)); replace (P2 1023) with (2 * P2 1022) by (rewrite <- P2_succ; reflexivity); lra).
  assert (WQ : exists x y, finite64 x /\ finite64 y /\ c + - b = rval x + rval y) by (exists (nth i q zero64), (nth i (map SFopp v) zero64); split; [exact Fq |]; split; [exact Fo |]; rewrite <- Cv; reflexivity).
  pose proof (rounded_rel _ _ WQ R Bc) as E2.
  rewrite e53_P2.
  assert (Rabs (c + - b) <= Rabs a + e53 * (Rabs a + Rabs b)) by (replace (c + - b) with (a + (c - (a + b))) by ring; eapply Rle_trans; [apply Rabs_triang |]; lra).
  assert (e53 * Rabs (c + - b) <= e53 * (Rabs a + e53 * (Rabs a + Rabs b))) by (apply Rmult_le_compat_l; lra).
  replace (rval z - a) with (rval z - (c + - b) + (c - (a + b))) by ring. eapply Rle_trans; [apply Rabs_triang |].
  pose proof (Rabs_pos a) as Pa. pose proof (Rabs_pos b) as Pb. assert (0 <= e53 * Rabs b) by (apply Rmult_le_pos; lra). assert (e53 * (e53 * (Rabs a + Rabs b)) <= / 100 * (e53 * (Rabs a + Rabs b))) by (apply Rmult_le_compat_r; [apply Rmult_le_pos; lra | unfold e53; lra]).
  assert (0 <= e53 * Rabs a) by (apply Rmult_le_pos; lra). lra.
Qed.
(** A coordinate may be lost on the way. *)
Definition seq3 : orders := fun _ _ => Node (Node (Leaf 0) (Leaf 1)) (Leaf 2).
Lemma c137_back_refuted : exists v p o t s q r, sums 3 o /\ point_within 2 (P2 61) v /\ point_within 2 1 p /\
  f_Translation 2 (Some v) = Ok t /\ f_Translation 2 (Some (map SFopp v)) = Ok s /\ f_applyTo_point 2 o t (Some p) = Ok (Some q) /\ f_applyTo_point 2 o s (Some q) = Ok (Some r) /\ coord p 0 = 1 /\ coord r 0 = 0.
Proof.
  destruct one_val as [F1 V1]. assert (B : finite64 (S754_finite false (2 ^ 52) 8) /\ rval (S754_finite false (2 ^ 52) 8) = P2 60).
  { split; [reflexivity |]. cbn [rval]. rewrite Rmult_1_l. change (IZR (Z.pos (2 ^ 52))) with (IZR (2 ^ 52)). rewrite P2_Z by lia. fold (P2 8). rewrite <- P2_add. reflexivity. }
  destruct B as [FB VB]. exists [S754_finite false (2 ^ 52) 8; S754_finite false (2 ^ 52) 8], [one_64; one_64], seq3. do 4 eexists. split; [| split; [| split; [| split; [| split; [| split; [| split; [| split]]]]]]].
  - intros i j _ _. apply Permutation_refl.
  - split; [reflexivity |]. intros x I. repeat destruct I as [<- | I]; try contradiction; (split; [exact FB | rewrite VB, Rabs_pos_eq by (left; apply P2_pos); apply P2_mono; lia]).
  - split; [reflexivity |]. intros x I. repeat destruct I as [<- | I]; try contradiction; (split; [exact F1 | rewrite V1, Rabs_R1; lra]).
  - reflexivity.
  - reflexivity.
  - vm_compute. reflexivity.
  - vm_compute. reflexivity.
  - exact V1.
  - reflexivity.
Qed.
Lemma c137_errors d o t v w : f_applyTo_point d o t None = Err EUndefined /\ f_applyTo_vector d o t None = None /\
  f_applyTo_point d o f_Undefined (Some v) = Ok None /\ f_applyTo_vector d o f_Undefined w = None /\ f_Translation d None = Err EUndefined /\
  f_mulv d o t None = Err EUndefined /\ (f_isDefined t = false -> f_mulv d o t w = Err EUndefined).
Proof. repeat split; try reflexivity; try (destruct w; reflexivity). 2: { intros H. unfold f_mulv, f_defined. rewrite H. destruct w; reflexivity. } unfold f_applyTo_vector. destruct (f_matrix t); reflexivity. Qed.
