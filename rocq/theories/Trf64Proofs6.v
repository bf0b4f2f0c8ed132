From Coq Require Import List Bool Arith ZArith Reals Lra Lia Psatz Permutation Floats.SpecFloat.
From Verif Require Import Result AngleModel FloatModel FloatSpec FloatProofs FloatProofs2 FloatProofs3 FloatProofs4 FloatProofs5 FloatProofs7 FloatProofs8 FloatProofs10
  TransfModel Geo64Model Geo64Spec Geo64Proofs Geo64Proofs2 Geo64Proofs3 Geo64Proofs4 Geo64Proofs6 Geo64Proofs8 Rot64Model Rot64Proofs Rot64Proofs2 Rot64Proofs7 Mat64Model Mat64Spec Mat64Proofs2 Trf64Model Trf64Spec Trf64Proofs Trf64Proofs2 Trf64Proofs3 Trf64Proofs4 Trf64Proofs5.
Import ListNotations.
Local Open Scope R_scope.

(** *** Rotating around a point *)
Definition opposite (c : list spec_float) : list spec_float := map SFopp c.
Lemma opposite_within d B c : point_within d B c -> point_within d B (opposite c) /\ forall i, (i < d)%nat -> coord (opposite c) i = - coord c i.
Proof.
  intros P. split.
  - split; [unfold opposite; rewrite map_length; apply P |]. intros x I. apply in_map_iff in I. destruct I as (y & <- & I). destruct (proj2 P y I) as [F B']. split; [apply SFopp_finite; exact F |]. rewrite SFopp_val, Rabs_Ropp. exact B'.
  - intros i I. unfold coord, opposite. change (S754_zero false) with zero64. rewrite (nth_indep _ zero64 (SFopp zero64)) by (rewrite map_length, (proj1 P); exact I). rewrite map_nth. apply SFopp_val.
Qed.
Definition tmat (d : nat) (v : list spec_float) : m64 := build (S d) (trans_entry d v).
Lemma tmat_within d v B : point_within d B v -> 1 <= B -> matrix_within (S d) B (tmat d v).
Proof. intros V B1. apply build_within. intros i j I J. apply trans_finite; assumption. Qed.
Lemma tmat_cell d v i j : (i < S d)%nat -> (j < S d)%nat -> cell (tmat d v) i j = if Nat.eqb i j then 1 else if Nat.eqb j d then coord v i else 0.
Proof. intros I J. rewrite cell_entry. unfold tmat. rewrite entry_build by assumption. unfold trans_entry. destruct (Nat.eqb i j); [apply one_val |]. destruct (Nat.eqb j d); reflexivity. Qed.
Lemma tmat_affine d v : affine d (tmat d v).
Proof. intros j J. rewrite tmat_cell by lia. rewrite Nat.eqb_sym. destruct (Nat.eqb_spec j d) as [-> | N]; [reflexivity |]. reflexivity. Qed.
Lemma first_product d o c m i j : (1 <= d <= 3)%nat -> sums (S d) o -> point_within d (P2 200) c -> matrix_within (S d) (P2 200) m -> affine d m -> (forall i, (i < d)%nat -> cell m i d = 0) -> (i < S d)%nat -> (j < S d)%nat ->
  cell (mul64 (S d) o (tmat d c) m) i j = if Nat.eqb j d then (if Nat.eqb i d then 1 else coord c i) else cell m i j.
Proof.
  intros D O C M AM ZM I J. pose proof P2_200_1 as P1. assert (T : matrix_within (S d) (P2 200) (tmat d c)) by (apply tmat_within; assumption). assert (UP : P2 200 <= P2 1023) by (apply P2_mono; lia).
  destruct (Nat.eq_dec i d) as [-> | Ni].
  { rewrite cell_mul_last by (try assumption; try lia; apply tmat_affine). rewrite Nat.eqb_refl. rewrite (AM j) by lia. destruct (Nat.eqb j d); reflexivity. }
  destruct (Nat.eqb_spec i d) as [E | _]; [contradiction |].
  assert (FT : forall k, (k < S d)%nat -> finite64 (entry (tmat d c) i k)) by (intros k K; apply (entry_within (S d) _ _ i k T); lia). assert (FM : forall k, (k < S d)%nat -> finite64 (entry m k j)) by (intros k K; apply (entry_within (S d) _ _ k j M); lia).
  rewrite cell_entry, entry_mul by assumption.
  assert (Ti : rval (entry (tmat d c) i i) = 1) by (change (cell (tmat d c) i i = 1); rewrite tmat_cell, Nat.eqb_refl by lia; reflexivity).
  assert (Td : rval (entry (tmat d c) i d) = coord c i) by (change (cell (tmat d c) i d = coord c i); rewrite tmat_cell by lia; rewrite Nat.eqb_refl; destruct (Nat.eqb_spec i d); [contradiction | reflexivity]).
  assert (Tz : forall k, (k < S d)%nat -> k <> i -> k <> d -> rval (entry (tmat d c) i k) = 0) by (intros k K N1 N2; change (cell (tmat d c) i k = 0); rewrite tmat_cell by lia; destruct (Nat.eqb_spec i k); [congruence |]; destruct (Nat.eqb_spec k d); [contradiction | reflexivity]).
  destruct (Nat.eqb_spec j d) as [-> | Nj].
  - assert (Md : rval (entry m d d) = 1) by (pose proof (AM d ltac:(lia)) as E; rewrite Nat.eqb_refl in E; exact E). destruct (mul_by_one _ _ (FM d J) (FT d ltac:(lia)) Md) as [_ [Fm Vm]]; [rewrite Td; pose proof (proj2 (coord_within d _ c i C ltac:(lia))); unfold coord; fold zero64; lra |]. rewrite Td in Vm.
    apply (row_one (S d) _ _ _ d); [apply O; lia | lia | lia | | exact Fm | exact Vm | pose proof (proj2 (coord_within d _ c i C ltac:(lia))); unfold coord; fold zero64; lra].
    intros k K N. apply mul_zero; [apply FT; exact K | apply FM; exact K | exact (ZM k ltac:(lia))].
  - assert (Bm : Rabs (rval (entry m i j)) <= P2 1023) by (pose proof (proj2 (entry_within (S d) _ m i j M I J)); lra). destruct (mul_by_one _ _ (FT i I) (FM i I) Ti Bm) as [[Fm Vm] _].
    apply (row_one (S d) _ _ _ i); [apply O; lia | lia | lia | | exact Fm | exact Vm | exact Bm].
    intros k K N. destruct (Nat.eq_dec k d) as [-> | Nd].
    + apply mul_zero; [apply FT; exact K | apply FM; exact K |]. pose proof (AM j ltac:(lia)) as E. destruct (Nat.eqb_spec j d); [contradiction | exact E].
    + apply mul_by_zero; [apply FT; exact K | apply FM; exact K | apply Tz; assumption].
Qed.
Lemma first_within d o c m : (1 <= d <= 3)%nat -> sums (S d) o -> point_within d (P2 200) c -> matrix_within (S d) (P2 200) m -> affine d m -> (forall i, (i < d)%nat -> cell m i d = 0) -> matrix_within (S d) (P2 200) (mul64 (S d) o (tmat d c) m).
Proof.
  intros D O C M AM ZM. pose proof P2_200_1 as P1. assert (T : matrix_within (S d) (P2 200) (tmat d c)) by (apply tmat_within; assumption). pose proof (mul_within d o (tmat d c) m ltac:(lia) O T M) as W.
  apply build_within. intros i j I J. pose proof (entry_within (S d) _ _ i j W I J) as [F _]. rewrite entry_mul in F by assumption. split; [exact F |].
  pose proof (first_product d o c m i j D O C M AM ZM I J) as E. rewrite cell_entry, entry_mul in E by assumption. rewrite E. destruct (Nat.eqb_spec j d) as [-> | Nj]; [destruct (Nat.eqb_spec i d) as [-> | Ni]; [rewrite Rabs_R1; exact P1 | apply (coord_within d _ c i C); lia] | apply (entry_within (S d) _ m i j M I J)].
Qed.
(** The matrix of the rotation around [c]: the linear part is kept, the offset is rounded. *)
Lemma around_matrix d o o' c m : (1 <= d <= 3)%nat -> sums (S d) o -> sums (S d) o' -> point_within d (P2 200) c -> matrix_within (S d) (P2 200) m -> affine d m -> (forall i, (i < d)%nat -> cell m i d = 0) ->
  let w := mul64 (S d) o' (mul64 (S d) o (tmat d c) m) (tmat d (opposite c)) in
  affine d w /\ matrix_within (S d) (P2 403) w /\ forall i, (i < d)%nat -> (forall j, (j < d)%nat -> cell w i j = cell m i j) /\
    near64 (entry w i d) (coord c i - linear d m (coord c) i) (err_of (S d) (linear_terms d m (coord c) i + Rabs (coord c i))).
Proof.
  intros D O O' C M AM ZM w. pose proof P2_200_1 as P1. assert (UP : P2 200 <= P2 1023) by (apply P2_mono; lia). destruct (opposite_within d _ c C) as [C' OC]. set (a := mul64 (S d) o (tmat d c) m) in *.
  assert (A : matrix_within (S d) (P2 200) a) by (apply first_within; assumption). assert (T : matrix_within (S d) (P2 200) (tmat d (opposite c))) by (apply tmat_within; assumption).
  assert (CA : forall i j, (i < S d)%nat -> (j < S d)%nat -> cell a i j = if Nat.eqb j d then (if Nat.eqb i d then 1 else coord c i) else cell m i j) by (intros; apply first_product; assumption).
  assert (AA : affine d a) by (intros j J; rewrite CA by lia; rewrite Nat.eqb_refl; destruct (Nat.eqb_spec j d) as [-> | N]; [reflexivity |]; rewrite (AM j J); destruct (Nat.eqb_spec j d); [contradiction | reflexivity]).
  split; [apply mul_affine; try assumption; apply tmat_affine |]. split; [apply mul_within; try assumption; lia |]. intros i I. split.
  - intros j J. unfold w. rewrite cell_entry, entry_mul by lia. rewrite <- (CA i j ltac:(lia) ltac:(lia)) || idtac.
    assert (Ea : rval (entry a i j) = cell m i j) by (change (cell a i j = cell m i j); rewrite CA by lia; destruct (Nat.eqb_spec j d); [lia | reflexivity]).
    assert (Tj : rval (entry (tmat d (opposite c)) j j) = 1) by (change (cell (tmat d (opposite c)) j j = 1); rewrite tmat_cell, Nat.eqb_refl by lia; reflexivity).
    destruct (entry_within (S d) _ a i j A ltac:(lia) ltac:(lia)) as [Fa Ba]. destruct (entry_within (S d) _ _ j j T ltac:(lia) ltac:(lia)) as [Ft _]. destruct (mul_by_one _ _ Ft Fa Tj ltac:(lra)) as [_ [Fm Vm]]. rewrite <- Ea.
    apply (row_one (S d) _ _ _ j); [apply O'; lia | lia | lia | | exact Fm | exact Vm | lra].
    intros k K N. apply mul_zero; [apply (entry_within (S d) _ a i k A); lia | apply (entry_within (S d) _ _ k j T); lia |]. change (cell (tmat d (opposite c)) k j = 0). rewrite tmat_cell by lia. destruct (Nat.eqb_spec k j); [contradiction |]. destruct (Nat.eqb_spec j d); [lia | reflexivity].
  - pose proof (mul_near d o' a (tmat d (opposite c)) i d ltac:(lia) O' A T ltac:(lia) ltac:(lia)) as N.
    assert (AD : cell a i d = coord c i) by (rewrite CA by lia; rewrite Nat.eqb_refl; destruct (Nat.eqb_spec i d); [lia | reflexivity]). assert (TD : cell (tmat d (opposite c)) d d = 1) by (rewrite tmat_cell, Nat.eqb_refl by lia; reflexivity).
    assert (AK : forall k, (k < d)%nat -> cell a i k = cell m i k) by (intros k K; rewrite CA by lia; destruct (Nat.eqb_spec k d); [lia | reflexivity]). assert (TK : forall k, (k < d)%nat -> cell (tmat d (opposite c)) k d = - coord c k) by (intros k K; rewrite tmat_cell by lia; rewrite Nat.eqb_refl; destruct (Nat.eqb_spec k d); [lia |]; apply OC; exact K).
    assert (E1 : prod_cell (S d) a (tmat d (opposite c)) i d = coord c i - linear d m (coord c) i).
    { unfold prod_cell. cbn [total]. rewrite AD, TD. unfold linear. rewrite (total_ext d _ (fun k => (-1) * (cell m i k * coord c k))) by (intros k K; rewrite AK, TK by exact K; ring). rewrite total_scale. ring. }
    assert (E2 : prod_abs (S d) a (tmat d (opposite c)) i d = linear_terms d m (coord c) i + Rabs (coord c i)).
    { unfold prod_abs. cbn [total]. rewrite AD, TD, Rabs_R1, Rmult_1_r. f_equal. apply total_ext. intros k K. rewrite AK, TK by exact K. rewrite Rabs_Ropp. reflexivity. }
    rewrite E1, E2 in N. exact N.
Qed.
Lemma linear_le d m v i : Rabs (linear d m v i) <= linear_terms d m v i.
Proof. eapply Rle_trans; [apply total_abs |]. right. apply total_ext. intros. apply Rabs_mult. Qed.
Lemma linear_ext d m n v i : (forall j, (j < d)%nat -> cell m i j = cell n i j) -> linear d m v i = linear d n v i /\ linear_terms d m v i = linear_terms d n v i.
Proof. intros H. split; apply total_ext; intros k K; rewrite H by exact K; reflexivity. Qed.
Lemma around_near d o o' o1 c m p : (1 <= d <= 3)%nat -> sums (S d) o -> sums (S d) o' -> sums (S d) o1 -> point_within d (P2 200) c -> matrix_within (S d) (P2 200) m -> affine d m -> (forall i, (i < d)%nat -> cell m i d = 0) -> point_within d (P2 200) p ->
  let w := mul64 (S d) o' (mul64 (S d) o (tmat d c) m) (tmat d (opposite c)) in
  forall i, (i < d)%nat -> near64 (nth i (firstn d (mulv64 (S d) o1 w (p ++ [one_64]))) zero64) (coord c i + linear d m (fun k => coord p k - coord c k) i)
    (9 * e53 * (linear_terms d m (coord c) i + Rabs (coord c i)) + 5 * e53 * linear_terms d m (coord p) i + P2 (-1071)).
Proof.
  intros D O O' O1 C M AM ZM P w i I. destruct (around_matrix d o o' c m D O O' C M AM ZM) as (AW & W & H). fold w in AW, W, H. destruct (H i I) as [HL HO].
  assert (W2 : matrix_within (S d) (P2 450) w) by (apply (matrix_more _ (P2 403)); [apply P2_mono; lia | exact W]). assert (Q2 : point_within d (P2 450) p) by (apply (within_more _ (P2 200)); [apply P2_mono; lia | exact P]).
  destruct (point_near d o1 w p i ltac:(lia) O1 W2 Q2 I) as [F N]. split; [exact F |]. pose proof (Rle_trans _ _ _ N (err_S d _ ltac:(lia) (terms_pos d w (coord p) i))) as N2. clear N.
  pose proof (linear_terms_pos d m (coord c) i) as Lc. pose proof (linear_terms_pos d m (coord p) i) as Lp. pose proof (linear_le d m (coord c) i) as LL. pose proof (Rabs_pos (coord c i)) as Pc. set (V := linear_terms d m (coord c) i + Rabs (coord c i)) in *. assert (PV : 0 <= V) by (unfold V; lra).
  pose proof (near_le _ _ _ _ HO (err_S d V ltac:(lia) PV)) as [_ NO]. change (rval (entry w i d)) with (cell w i d) in NO. destruct (linear_ext d w m (coord p) i HL) as [E1 E2].
  unfold image, terms in N2. fold (linear d w (coord p) i) (linear_terms d w (coord p) i) in N2. rewrite E1, E2 in N2.
  assert (E3 : linear d m (fun k => coord p k - coord c k) i = linear d m (coord p) i - linear d m (coord c) i) by (unfold linear; rewrite (total_ext d _ (fun k => cell m i k * coord p k + (-1) * (cell m i k * coord c k))) by (intros; ring); rewrite total_plus, total_scale; ring). rewrite E3.
  pose proof tiny_pos as PT. pose proof e53_pos as PE. pose proof tiny16 as T16.
  assert (BO : Rabs (cell w i d) <= 1.001 * V + 7 * tiny).
  { replace (cell w i d) with (cell w i d - (coord c i - linear d m (coord c) i) + (coord c i - linear d m (coord c) i)) by ring. eapply Rle_trans; [apply Rabs_triang |]. assert (Rabs (coord c i - linear d m (coord c) i) <= V) by (unfold V; eapply Rle_trans; [apply Rabs_triang |]; rewrite Rabs_Ropp; lra). assert (e53 * V <= / 10000 * V) by (apply Rmult_le_compat_r; [exact PV | unfold e53; lra]). lra. }
  set (z := rval _) in *. set (lp := linear d m (coord p) i) in *. set (lc := linear d m (coord c) i) in *. replace (z - (coord c i + (lp - lc))) with (z - (lp + cell w i d) + (cell w i d - (coord c i - lc))) by ring. eapply Rle_trans; [apply Rabs_triang |].
  assert (e53 * Rabs (cell w i d) <= e53 * (1.001 * V + 7 * tiny)) by (apply Rmult_le_compat_l; lra). assert (e53 * tiny <= / 1000 * tiny) by (apply Rmult_le_compat_r; [lra | unfold e53; lra]). assert (0 <= e53 * linear_terms d m (coord p) i) by (apply Rmult_le_pos; lra). assert (0 <= e53 * V) by (apply Rmult_le_pos; lra). lra.
Qed.
Lemma around_ok d o o' c r m : f_type r = TRotation -> f_matrix r = Some m -> f_RotationAround d o o' (Some c) (Ok r) = Ok (mkTrf64 TAffine (Some (mul64 (S d) o' (mul64 (S d) o (tmat d c) m) (tmat d (opposite c))))).
Proof. destruct r as [ty mm]. cbn [f_type f_matrix]. intros -> ->. reflexivity. Qed.
Lemma c139_point d o o' o1 c r m p : (1 <= d <= 3)%nat -> sums (S d) o -> sums (S d) o' -> sums (S d) o1 -> f_type r = TRotation -> f_matrix r = Some m -> point_within d (P2 200) c -> matrix_within (S d) (P2 200) m -> affine d m -> (forall i, (i < d)%nat -> cell m i d = 0) -> point_within d (P2 200) p ->
  exists f q, f_RotationAround d o o' (Some c) (Ok r) = Ok f /\ f_type f = TAffine /\ f_applyTo_point d o1 f (Some p) = Ok (Some q) /\ length q = d /\
    forall i, (i < d)%nat -> finite64 (nth i q zero64) /\
      Rabs (coord q i - (coord c i + linear d m (fun k => coord p k - coord c k) i)) <= 9 * P2 (-53) * (linear_terms d m (coord c) i + Rabs (coord c i)) + 5 * P2 (-53) * linear_terms d m (coord p) i + P2 (-1071).
Proof.
  intros D O O' O1 Ty E C M AM ZM P. do 2 eexists. split; [apply around_ok; eassumption |]. split; [reflexivity |]. split; [reflexivity |]. split; [apply length_first, length_mulv |]. rewrite e53_P2. intros i I. exact (around_near d o o' o1 c m p D O O' O1 C M AM ZM P i I).
Qed.
Lemma c139_center d o o' o1 c r m : (1 <= d <= 3)%nat -> sums (S d) o -> sums (S d) o' -> sums (S d) o1 -> f_type r = TRotation -> f_matrix r = Some m -> point_within d (P2 200) c -> matrix_within (S d) (P2 200) m -> affine d m -> (forall i, (i < d)%nat -> cell m i d = 0) ->
  exists f q, f_RotationAround d o o' (Some c) (Ok r) = Ok f /\ f_applyTo_point d o1 f (Some c) = Ok (Some q) /\ length q = d /\
    forall i, (i < d)%nat -> finite64 (nth i q zero64) /\ Rabs (coord q i - coord c i) <= 14 * P2 (-53) * (linear_terms d m (coord c) i + Rabs (coord c i)) + P2 (-1071).
Proof.
  intros D O O' O1 Ty E C M AM ZM. destruct (c139_point d o o' o1 c r m c D O O' O1 Ty E C M AM ZM C) as (f & q & Ef & _ & Eq & Lq & H). exists f, q. split; [exact Ef |]. split; [exact Eq |]. split; [exact Lq |]. intros i I. destruct (H i I) as [F N]. split; [exact F |].
  assert (Z : linear d m (fun k => coord c k - coord c k) i = 0) by (apply total_zero; intros; ring). rewrite Z, Rplus_0_r in N. rewrite e53_P2 in *. pose proof e53_pos. pose proof (Rabs_pos (coord c i)). assert (0 <= e53 * Rabs (coord c i)) by (apply Rmult_le_pos; lra). lra.
Qed.
(** Directions are turned by the same matrix. *)
Lemma c139_matrix d o o' c r m : (1 <= d <= 3)%nat -> sums (S d) o -> sums (S d) o' -> f_type r = TRotation -> f_matrix r = Some m -> point_within d (P2 200) c -> matrix_within (S d) (P2 200) m -> affine d m -> (forall i, (i < d)%nat -> cell m i d = 0) ->
  exists f w, f_RotationAround d o o' (Some c) (Ok r) = Ok f /\ f_matrix f = Some w /\ affine d w /\ matrix_within (S d) (P2 403) w /\ (forall i j, (i < d)%nat -> (j < d)%nat -> cell w i j = cell m i j) /\
    forall i, (i < d)%nat -> Rabs (cell w i d - (coord c i - linear d m (coord c) i)) <= 5 * P2 (-53) * (linear_terms d m (coord c) i + Rabs (coord c i)) + P2 (-1071).
Proof.
  intros D O O' Ty E C M AM ZM. do 2 eexists. split; [apply around_ok; eassumption |]. split; [reflexivity |]. destruct (around_matrix d o o' c m D O O' C M AM ZM) as (AW & W & H). split; [exact AW |]. split; [exact W |]. split; [intros i j I J; apply H; assumption |].
  intros i I. destruct (H i I) as [_ [_ N]]. eapply Rle_trans; [exact N |]. apply err_4; [lia |]. pose proof (linear_terms_pos d m (coord c) i). pose proof (Rabs_pos (coord c i)). lra.
Qed.
