From Coq Require Import List Bool Arith ZArith Reals Lra Lia Psatz Permutation Floats.SpecFloat.
From Verif Require Import Result AngleModel FloatModel FloatSpec FloatProofs FloatProofs2 FloatProofs3 FloatProofs4 FloatProofs5 FloatProofs7 FloatProofs8 FloatProofs10
  TransfModel Geo64Model Geo64Spec Geo64Proofs Geo64Proofs2 Geo64Proofs3 Geo64Proofs4 Geo64Proofs6 Geo64Proofs8 Rot64Model Rot64Proofs Rot64Proofs2 Rot64Proofs7 Mat64Model Mat64Spec Mat64Proofs2 Trf64Model Trf64Spec Trf64Proofs Trf64Proofs2 Trf64Proofs3 Trf64Proofs4.
Import ListNotations.
Local Open Scope R_scope.

Lemma c138_affine d o s t a b : (1 <= d <= 3)%nat -> sums (S d) o -> f_isDefined s = true -> f_isDefined t = true -> f_matrix s = Some a -> f_matrix t = Some b ->
  matrix_within (S d) (P2 200) a -> matrix_within (S d) (P2 200) b -> affine d a -> affine d b ->
  exists w c, f_mul d o s t = Ok w /\ f_isDefined w = true /\ f_matrix w = Some c /\ affine d c /\ matrix_within (S d) (P2 403) c /\
    forall i j, (i <= d)%nat -> (j <= d)%nat -> Rabs (cell c i j - total (S d) (fun k => cell a i k * cell b k j)) <= 5 * P2 (-53) * total (S d) (fun k => Rabs (cell a i k) * Rabs (cell b k j)) + P2 (-1071).
Proof.
  intros D O Ds Dt Es Et A B AA AB. do 2 eexists. split; [apply f_mul_ok; eassumption |]. split; [| split; [reflexivity |]]; [| split; [apply mul_affine; assumption |]; split; [apply mul_within; try assumption; lia |]].
  - unfold f_isDefined in *. cbn [f_type]. assert (forall u, negb (ttype_eqb u TUndefined) = true <-> u <> TUndefined) as H by (intros u; destruct u; cbn; split; congruence). apply H. apply H in Ds, Dt. apply type_defined; assumption.
  - intros i j I J. destruct (mul_near d o a b i j ltac:(lia) O A B ltac:(lia) ltac:(lia)) as [_ N]. eapply Rle_trans; [exact N |]. apply err_4; [lia | exact (prod_abs_pos (S d) a b i j)].
Qed.
Definition id_entry (i j : nat) : spec_float := if Nat.eqb i j then one_64 else zero64.
Lemma id_finite i j : finite64 (id_entry i j) /\ rval (id_entry i j) = (if Nat.eqb i j then 1 else 0).
Proof. unfold id_entry. destruct (Nat.eqb i j); [exact one_val | split; [exact I | reflexivity]]. Qed.
Lemma c138_identity d o t m : (1 <= d <= 3)%nat -> sums (S d) o -> f_isDefined t = true -> f_matrix t = Some m -> matrix_within (S d) (P2 1022) m ->
  exists w w' c c', f_mul d o (f_Identity d) t = Ok w /\ f_mul d o t (f_Identity d) = Ok w' /\ f_type w = f_type t /\ f_type w' = f_type t /\ f_matrix w = Some c /\ f_matrix w' = Some c' /\ matrix_within (S d) (P2 1022) c /\ matrix_within (S d) (P2 1022) c' /\
    forall i j, (i <= d)%nat -> (j <= d)%nat -> cell c i j = cell m i j /\ cell c' i j = cell m i j.
Proof.
  intros D O Dt Et M. set (E := build (S d) id_entry). assert (EE : forall i j, (i < S d)%nat -> (j < S d)%nat -> entry E i j = id_entry i j) by (intros; apply entry_build; assumption).
  assert (UP : P2 1022 <= P2 1023) by (apply P2_mono; lia).
  assert (L : forall i j, (i < S d)%nat -> (j < S d)%nat -> finite64 (entry (mul64 (S d) o E m) i j) /\ rval (entry (mul64 (S d) o E m) i j) = cell m i j).
  { intros i j I J. rewrite entry_mul by assumption. destruct (entry_within (S d) _ m i j M I J) as [F B]. destruct (id_finite i i) as [F1 V1]. rewrite Nat.eqb_refl in V1. destruct (mul_by_one _ _ F1 F V1 ltac:(lra)) as [[Fm Vm] _].
    apply (row_one (S d) _ _ _ i); [apply O; assumption | exact I | lia | | rewrite EE by assumption; exact Fm | rewrite EE by assumption; exact Vm | change (cell m i j) with (rval (entry m i j)); lra].
    intros k K N. rewrite EE by assumption. destruct (id_finite i k) as [Fk Vk]. destruct (Nat.eqb_spec i k); [congruence |]. apply mul_by_zero; [exact Fk | apply (entry_within (S d) _ m k j M K J) | exact Vk]. }
  assert (R : forall i j, (i < S d)%nat -> (j < S d)%nat -> finite64 (entry (mul64 (S d) o m E) i j) /\ rval (entry (mul64 (S d) o m E) i j) = cell m i j).
  { intros i j I J. rewrite entry_mul by assumption. destruct (entry_within (S d) _ m i j M I J) as [F B]. destruct (id_finite j j) as [F1 V1]. rewrite Nat.eqb_refl in V1. destruct (mul_by_one _ _ F1 F V1 ltac:(lra)) as [_ [Fm Vm]].
    apply (row_one (S d) _ _ _ j); [apply O; assumption | exact J | lia | | rewrite EE by assumption; exact Fm | rewrite EE by assumption; exact Vm | change (cell m i j) with (rval (entry m i j)); lra].
    intros k K N. rewrite EE by assumption. destruct (id_finite k j) as [Fk Vk]. destruct (Nat.eqb_spec k j); [congruence |]. apply mul_zero; [apply (entry_within (S d) _ m i k M I K) | exact Fk | exact Vk]. }
  do 4 eexists. split; [apply f_mul_ok; [reflexivity | exact Dt | reflexivity | exact Et] |]. split; [apply f_mul_ok; [exact Dt | reflexivity | exact Et | reflexivity] |]. cbn [f_type f_matrix f_Identity].
  split; [destruct (f_type t); reflexivity |]. split; [destruct (f_type t); reflexivity |]. split; [reflexivity |]. split; [reflexivity |].
  split; [| split].
  - apply build_within. intros i j I J. pose proof (L i j I J) as H. rewrite entry_mul in H by assumption. destruct H as [F V]. split; [exact F |]. change (Rabs (rval (row_times (S d) (o i j) (entry E i) (fun k => entry m k j))) <= P2 1022). rewrite V. apply (entry_within (S d) _ m i j M I J).
  - apply build_within. intros i j I J. pose proof (R i j I J) as H. rewrite entry_mul in H by assumption. destruct H as [F V]. split; [exact F |]. change (Rabs (rval (row_times (S d) (o i j) (entry m i) (fun k => entry E k j))) <= P2 1022). rewrite V. apply (entry_within (S d) _ m i j M I J).
  - intros i j I J. split; [exact (proj2 (L i j ltac:(lia) ltac:(lia))) | exact (proj2 (R i j ltac:(lia) ltac:(lia)))].
Qed.
Lemma trans_finite d v i j B : point_within d B v -> 1 <= B -> (i < S d)%nat -> (j < S d)%nat -> finite64 (trans_entry d v i j) /\ Rabs (rval (trans_entry d v i j)) <= B.
Proof.
  intros V B1 I J. unfold trans_entry. destruct (Nat.eqb_spec i j) as [-> | N]; [destruct one_val as [F E]; split; [exact F | rewrite E, Rabs_R1; exact B1] |]. destruct (Nat.eqb_spec j d) as [-> | Nd]; [apply (coord_within d); [exact V | lia] | split; [exact Logic.I | change (rval zero64) with 0; rewrite Rabs_R0; lra]].
Qed.
Lemma c138_translations d o v w : (1 <= d <= 3)%nat -> sums (S d) o -> point_within d (P2 1022) v -> point_within d (P2 1022) w ->
  exists s t u c, f_Translation d (Some v) = Ok s /\ f_Translation d (Some w) = Ok t /\ f_mul d o s t = Ok u /\ f_type u = TTranslation /\ f_matrix u = Some c /\
    forall i j, (i <= d)%nat -> (j <= d)%nat -> ((i < d)%nat /\ j = d -> rounded64 (coord v i + coord w i) (nth j (nth i c []) zero64)) /\ ((j < d)%nat \/ i = d -> finite64 (nth j (nth i c []) zero64) /\ cell c i j = if Nat.eqb i j then 1 else 0).
Proof.
  intros D O V W. do 4 eexists. split; [reflexivity |]. split; [reflexivity |]. split; [reflexivity |]. split; [reflexivity |]. split; [reflexivity |]. intros i j I J.
  set (A := build (S d) (trans_entry d v)). set (B' := build (S d) (trans_entry d w)).
  enough (G : ((i < d)%nat /\ j = d -> rounded64 (coord v i + coord w i) (entry (mul64 (S d) o A B') i j)) /\ ((j < d)%nat \/ i = d -> finite64 (entry (mul64 (S d) o A B') i j) /\ rval (entry (mul64 (S d) o A B') i j) = if Nat.eqb i j then 1 else 0)) by exact G.
  assert (B23 : P2 1022 + P2 1022 <= P2 1023) by (replace (P2 1023) with (2 * P2 1022) by (rewrite <- P2_succ; reflexivity); lra). pose proof (P2_pos 1022) as PP. assert (P1 : 1 <= P2 1022) by (rewrite <- P2_0; apply P2_mono; lia). destruct one_val as [F1 V1].
  assert (EA : forall i j, (i < S d)%nat -> (j < S d)%nat -> entry A i j = trans_entry d v i j) by (intros; apply entry_build; assumption).
  assert (EB : forall i j, (i < S d)%nat -> (j < S d)%nat -> entry B' i j = trans_entry d w i j) by (intros; apply entry_build; assumption).
  rewrite entry_mul by lia.
  assert (FA : forall k, (k < S d)%nat -> finite64 (entry A i k)) by (intros k K; rewrite EA by lia; apply (trans_finite d v i k (P2 1022)); [exact V | exact P1 | lia | lia]). assert (FB : forall k, (k < S d)%nat -> finite64 (entry B' k j)) by (intros k K; rewrite EB by lia; apply (trans_finite d w k j (P2 1022)); [exact W | exact P1 | lia | lia]).
  assert (AZ : forall k, (k < S d)%nat -> k <> i -> k <> d -> rval (entry A i k) = 0) by (intros k K N Nd; rewrite EA by lia; unfold trans_entry; destruct (Nat.eqb_spec i k); [congruence |]; destruct (Nat.eqb_spec k d); [contradiction | reflexivity]).
  assert (AI : rval (entry A i i) = 1) by (rewrite EA by lia; unfold trans_entry; rewrite Nat.eqb_refl; exact V1).
  split.
  - intros [Id ->]. destruct (coord_within d _ v i V Id) as [Fv Bv]. destruct (coord_within d _ w i W Id) as [Fw Bw].
    assert (Bi : entry B' i d = nth i w zero64) by (rewrite EB by lia; unfold trans_entry; destruct (Nat.eqb_spec i d); [lia |]; rewrite Nat.eqb_refl; reflexivity). assert (Ad : entry A i d = nth i v zero64) by (rewrite EA by lia; unfold trans_entry; destruct (Nat.eqb_spec i d); [lia |]; rewrite Nat.eqb_refl; reflexivity).
    assert (Bd : rval (entry B' d d) = 1) by (rewrite EB by lia; unfold trans_entry; rewrite Nat.eqb_refl; exact V1).
    destruct (mul_by_one _ _ (FA i ltac:(lia)) Fw AI ltac:(lra)) as [[Fm Vm] _]. destruct (mul_by_one _ _ (FB d ltac:(lia)) Fv Bd ltac:(lra)) as [_ [Fn Vn]].
    apply (row_two (S d) _ _ _ d i); [apply O; lia | lia | lia | lia | | rewrite Ad; exact Fn | rewrite Bi; exact Fm | rewrite Ad; exact Vn | rewrite Bi; exact Vm | | |].
    + intros k K Nd N. apply mul_by_zero; [apply FA; exact K | apply FB; exact K | apply AZ; assumption].
    + unfold coord. fold zero64. lra.
    + unfold coord. fold zero64. lra.
    + eapply Rle_trans; [apply Rabs_triang |]. unfold coord. fold zero64. lra.
  - intros C. assert (BJ : forall k, (k < S d)%nat -> (k <> i \/ True) -> rval (entry B' k j) = (if Nat.eqb k j then 1 else if Nat.eqb j d then coord w k else 0)).
    { intros k K _. rewrite EB by lia. unfold trans_entry. destruct (Nat.eqb k j); [exact V1 |]. destruct (Nat.eqb j d); reflexivity. }
    assert (Bii : rval (entry B' i j) = if Nat.eqb i j then 1 else 0) by (rewrite BJ by (try lia; right; exact Logic.I); destruct (Nat.eqb_spec i j) as [E | N]; [reflexivity |]; destruct (Nat.eqb_spec j d) as [-> | Nj]; [lia | reflexivity]).
    assert (Bl : Rabs (rval (entry B' i j)) <= P2 1023) by (rewrite Bii; destruct (Nat.eqb i j); [rewrite Rabs_R1 | rewrite Rabs_R0]; lra).
    destruct (mul_by_one _ _ (FA i ltac:(lia)) (FB i ltac:(lia)) AI Bl) as [[Fm Vm] _]. rewrite <- Bii. apply (row_one (S d) _ _ _ i); [apply O; lia | lia | lia | | exact Fm | exact Vm | exact Bl].
    intros k K N. destruct (Nat.eq_dec k d) as [-> | Nd].
    + apply mul_zero; [apply FA; lia | apply FB; lia |]. rewrite BJ by (try lia; right; exact Logic.I). destruct (Nat.eqb_spec d j) as [<- | Nj]; [lia |]. destruct (Nat.eqb_spec j d); [lia | reflexivity].
    + apply mul_by_zero; [apply FA; exact K | apply FB; exact K | apply AZ; assumption].
Qed.
Lemma c138_equal d s t a b : f_matrix s = Some a -> f_matrix t = Some b -> matrix_within (S d) (P2 1023) a -> matrix_within (S d) (P2 1023) b ->
  f_eq d s t = true <-> f_isDefined s = true /\ f_isDefined t = true /\ forall i j, (i <= d)%nat -> (j <= d)%nat -> cell a i j = cell b i j.
Proof.
  intros Es Et A B. unfold f_eq, f_defined. rewrite Es, Et. cbn [need3]. destruct (f_isDefined s), (f_isDefined t); cbn [need3]; try (split; [discriminate | intros (? & ? & _); discriminate]).
  rewrite forallb_forall. split.
  - intros H. split; [reflexivity |]. split; [reflexivity |]. intros i j I J. specialize (H i ltac:(apply in_seq; lia)). rewrite forallb_forall in H. specialize (H j ltac:(apply in_seq; lia)). apply SFeqb_val in H; [exact H | apply (entry_within (S d) _ a i j A); lia | apply (entry_within (S d) _ b i j B); lia].
  - intros (_ & _ & H) i I. apply in_seq in I. apply forallb_forall. intros j J. apply in_seq in J. apply SFeqb_val; [apply (entry_within (S d) _ a i j A); lia | apply (entry_within (S d) _ b i j B); lia | apply H; lia].
Qed.
Lemma c138_errors d o s t : (f_isDefined s = false \/ f_isDefined t = false -> f_mul d o s t = Err EUndefined /\ f_eq d s t = false) /\
  (forall w, f_mul d o s t = Ok w -> f_type w = type_composition (f_type s) (f_type t)).
Proof.
  split.
  - intros [H | H]; unfold f_mul, f_eq, f_defined; rewrite H; cbn [bind]; [destruct (f_isDefined t), (f_matrix t); split; reflexivity | split; [reflexivity |]; destruct (f_isDefined s), (f_matrix s); reflexivity].
  - intros w. unfold f_mul. destruct (f_defined t); cbn [bind]; try discriminate. destruct (f_defined s); cbn [bind]; try discriminate. intros H. inversion H. reflexivity.
Qed.
(** Composing first may give another point, and the products depend on the brackets. *)
Definition far64 : spec_float := S754_finite false (2 ^ 52) 8.
Lemma far_val : finite64 far64 /\ rval far64 = P2 60.
Proof. split; [reflexivity |]. unfold far64. cbn [rval]. rewrite Rmult_1_l. change (IZR (Z.pos (2 ^ 52))) with (IZR (2 ^ 52)). rewrite P2_Z by lia. fold (P2 8). rewrite <- P2_add. reflexivity. Qed.
Lemma c138_agree_refuted : exists v w p o s t u q y r, sums 3 o /\ point_within 2 (P2 60) v /\ point_within 2 (P2 60) w /\ point_within 2 1 p /\ f_Translation 2 (Some v) = Ok s /\ f_Translation 2 (Some w) = Ok t /\ f_mul 2 o s t = Ok u /\
  f_applyTo_point 2 o u (Some p) = Ok (Some q) /\ f_applyTo_point 2 o t (Some p) = Ok (Some y) /\ f_applyTo_point 2 o s (Some y) = Ok (Some r) /\ coord q 0 = 1 /\ coord r 0 = 0.
Proof.
  destruct one_val as [F1 V1]. destruct far_val as [FF VF]. exists [SFopp far64; zero64], [far64; zero64], [one_64; zero64], seq3. do 6 eexists.
  assert (Z : forall B, 0 <= B -> finite64 zero64 /\ Rabs (rval zero64) <= B) by (intros B H; split; [exact I | change (rval zero64) with 0; rewrite Rabs_R0; exact H]). pose proof (P2_pos 60) as PP.
  split; [intros i j _ _; apply Permutation_refl |].
  split; [split; [reflexivity |]; intros x [<- | [<- | []]]; [split; [apply SFopp_finite; exact FF | rewrite SFopp_val, Rabs_Ropp, VF, Rabs_pos_eq; lra] | apply Z; lra] |].
  split; [split; [reflexivity |]; intros x [<- | [<- | []]]; [split; [exact FF | rewrite VF, Rabs_pos_eq; lra] | apply Z; lra] |].
  split; [split; [reflexivity |]; intros x [<- | [<- | []]]; [split; [exact F1 | rewrite V1, Rabs_R1; lra] | apply Z; lra] |].
  split; [reflexivity |]. split; [reflexivity |]. split; [vm_compute; reflexivity |]. split; [vm_compute; reflexivity |]. split; [vm_compute; reflexivity |]. split; [vm_compute; reflexivity |]. split; [exact V1 | reflexivity].
Qed.
Lemma c138_associative_refuted : exists o r s t a b x y, sums 3 o /\ f_isDefined r = true /\ f_isDefined s = true /\ f_isDefined t = true /\ f_mul 2 o r s = Ok a /\ f_mul 2 o a t = Ok x /\ f_mul 2 o s t = Ok b /\ f_mul 2 o r b = Ok y /\ f_eq 2 x y = false.
Proof.
  set (T := fun x => match f_Translation 2 (Some [x; zero64]) with Ok t => t | _ => f_Undefined end). exists seq3, (T one_64), (T far64), (T (SFopp far64)).
  do 4 eexists. split; [intros i j _ _; apply Permutation_refl |]. do 3 (split; [reflexivity |]). do 4 (split; [vm_compute; reflexivity |]). vm_compute. reflexivity.
Qed.
