(** Proofs about the log-Euclidean interpolator. *)

From Coq Require Import List Reals Lra Lia Arith Bool Psatz.
From Verif Require Import Result DOrder InterpModel MatN LogEuclidModel InterpSpec AngleProofs InterpProofs.
Import ListNotations.
Local Open Scope R_scope.

(** *** Positive definiteness *)
Lemma quadratic_conj n Q d v :
  quadratic_form n (conj_diag n Q d) v
  = msum n (fun k => d k * (msum n (fun i => v i * Q i k) * msum n (fun i => v i * Q i k))).
Proof.
  unfold quadratic_form.
  transitivity (msum n (fun i => msum n (fun j => msum n (fun k => d k * (v i * Q i k) * (v j * Q j k))))).
  { apply msum_ext; intros i _. apply msum_ext; intros j _. rewrite conj_diag_entry.
    rewrite <- msum_scale, <- msum_scale_r. apply msum_ext; intros; ring. }
  transitivity (msum n (fun k => msum n (fun i => msum n (fun j => d k * (v i * Q i k) * (v j * Q j k))))).
  { transitivity (msum n (fun i => msum n (fun k => msum n (fun j => d k * (v i * Q i k) * (v j * Q j k))))).
    - apply msum_ext; intros i _. apply msum_swap.
    - apply msum_swap. }
  apply msum_ext; intros k _.
  transitivity (msum n (fun i => d k * (v i * Q i k) * msum n (fun j => v j * Q j k))).
  { apply msum_ext; intros i _. apply msum_scale. }
  rewrite msum_scale_r, msum_scale. ring.
Qed.

Lemma quadratic_ext n A B v : meq n A B -> quadratic_form n A v = quadratic_form n B v.
Proof.
  intros H. apply msum_ext; intros i Hi. apply msum_ext; intros j Hj. rewrite H by assumption. reflexivity.
Qed.

Lemma msum_pos n f k : (k < n)%nat -> (forall i, (i < n)%nat -> 0 <= f i) -> 0 < f k -> 0 < msum n f.
Proof.
  induction n as [| n IH]; intros Hk H0 Hf; [lia |]. simpl.
  destruct (Nat.eq_dec k n) as [-> | N].
  - pose proof (msum_nonneg n f (fun i Hi => H0 i (Nat.lt_lt_succ_r _ _ Hi))). lra.
  - specialize (IH ltac:(lia) (fun i Hi => H0 i (Nat.lt_lt_succ_r _ _ Hi)) Hf).
    specialize (H0 n (Nat.lt_succ_diag_r n)). lra.
Qed.

Lemma positive_definite_iff n Q d M : orthogonal n Q -> meq n M (conj_diag n Q d) ->
  (positive_definite n M <-> forall k, (k < n)%nat -> 0 < d k).
Proof.
  intros [Q1 Q2] HM. split.
  - intros HP k Hk.
    assert (HQ : forall l, (l < n)%nat -> msum n (fun i => Q i k * Q i l) = if Nat.eqb k l then 1 else 0).
    { intros l Hl. exact (Q1 k l Hk Hl). }
    assert (Hv : exists i, (i < n)%nat /\ Q i k <> 0).
    { destruct (Classical_Prop.classic (exists i, (i < n)%nat /\ Q i k <> 0)) as [E | E]; [exact E | exfalso].
      specialize (HQ k Hk). rewrite Nat.eqb_refl in HQ.
      rewrite (msum_ext n _ (fun _ => 0)) in HQ; [rewrite msum_0 in HQ; lra |].
      intros i Hi. destruct (Req_EM_T (Q i k) 0) as [-> | N]; [ring |]. exfalso; apply E; exists i; auto. }
    specialize (HP (fun i => Q i k) Hv). rewrite (quadratic_ext n _ _ _ HM), quadratic_conj in HP.
    rewrite (msum_single n k) in HP; [| exact Hk |].
    + rewrite (HQ k Hk), Nat.eqb_refl in HP. lra.
    + intros l Hl N. rewrite (HQ l Hl). destruct (Nat.eqb_spec k l); [lia | ring].
  - intros Hd v [i0 [Hi0 Hv0]]. rewrite (quadratic_ext n _ _ _ HM), quadratic_conj.
    set (w := fun k => msum n (fun i => v i * Q i k)).
    assert (Hw : exists k, (k < n)%nat /\ w k <> 0).
    { destruct (Classical_Prop.classic (exists k, (k < n)%nat /\ w k <> 0)) as [E | E]; [exact E | exfalso].
      apply Hv0.
      (* v i0 = sum_k w k * Q i0 k *)
      transitivity (msum n (fun k => w k * Q i0 k)).
      - unfold w.
        transitivity (msum n (fun i => v i * mid i i0)).
        + rewrite (msum_single n i0); [unfold mid, mdiag; rewrite Nat.eqb_refl; ring | exact Hi0 |].
          intros i _ N. unfold mid, mdiag. destruct (Nat.eqb_spec i i0); [lia | ring].
        + transitivity (msum n (fun i => msum n (fun k => v i * Q i k * Q i0 k))).
          * apply msum_ext; intros i Hi. rewrite <- (Q2 i i0 Hi Hi0). unfold mmul, mtrans.
            rewrite <- msum_scale. apply msum_ext; intros; ring.
          * rewrite msum_swap. apply msum_ext; intros k _. apply msum_scale_r.
      - rewrite (msum_ext n _ (fun _ => 0)); [apply msum_0 |].
        intros k Hk. destruct (Req_EM_T (w k) 0) as [-> | N]; [ring |]. exfalso; apply E; exists k; auto. }
    destruct Hw as [k [Hk Hwk]].
    apply msum_pos with (k := k); [exact Hk | |].
    + intros i Hi. pose proof (Hd i Hi). apply Rmult_le_pos; [lra | nra].
    + pose proof (Hd k Hk). fold (w k). apply Rmult_lt_0_compat; [assumption |].
      destruct (Rtotal_order (w k) 0) as [C | [C | C]]; [nra | congruence | nra].
Qed.

(** *** The logarithm and the exponential *)
Lemma lower_sym_symmetric n M : symmetric n (lower_sym M).
Proof.
  intros i j _ _. unfold lower_sym. destruct (Nat.leb_spec i j), (Nat.leb_spec j i); try reflexivity; try lia.
  replace j with i by lia. reflexivity.
Qed.
Lemma lower_sym_of_symmetric n M : symmetric n M -> meq n (lower_sym M) M.
Proof.
  intros H i j Hi Hj. unfold lower_sym. destruct (Nat.leb j i); [reflexivity | apply H; assumption].
Qed.
Lemma conj_diag_symmetric n Q d : symmetric n (conj_diag n Q d).
Proof. intros i j _ _. apply conj_diag_sym. Qed.

Lemma all_positive_iff n d : all_positive n d = true <-> forall k, (k < n)%nat -> 0 < d k.
Proof.
  unfold all_positive. rewrite forallb_forall. split.
  - intros H k Hk. apply Rltb_true, H, in_seq. lia.
  - intros H k Hk. apply in_seq in Hk. apply Rltb_true, H. lia.
Qed.

Lemma is_exp_unique n L E E' : is_exp n L E -> is_exp n L E' -> meq n E E'.
Proof.
  intros [Q [d [HQ [HL HE]]]] [P [e [HP [HL' HE']]]].
  eapply meq_trans; [exact HE |]. eapply meq_trans; [| apply meq_sym, HE'].
  apply conj_diag_function with (f := exp); [assumption | assumption |].
  eapply meq_trans; [apply meq_sym, HL | exact HL'].
Qed.
Lemma is_exp_compat n L L' E E' : meq n L L' -> meq n E E' -> is_exp n L E -> is_exp n L' E'.
Proof.
  intros HL HE [Q [d [HQ [H1 H2]]]]. exists Q, d. split; [exact HQ |]. split.
  - eapply meq_trans; [apply meq_sym, HL | exact H1].
  - eapply meq_trans; [apply meq_sym, HE | exact H2].
Qed.
Lemma is_exp_positive n L E : is_exp n L E -> positive_definite n E.
Proof.
  intros [Q [d [HQ [_ HE]]]]. apply (positive_definite_iff n Q _ E HQ HE). intros; apply exp_pos.
Qed.
Lemma is_exp_symmetric n L E : is_exp n L E -> symmetric n L /\ symmetric n E.
Proof.
  intros [Q [d [HQ [HL HE]]]]. split; intros i j Hi Hj.
  - rewrite !HL by assumption. apply conj_diag_sym.
  - rewrite !HE by assumption. apply conj_diag_sym.
Qed.

(** The exponential is the sum of the series. *)
Lemma mpow_conj n Q d L m : orthogonal n Q -> meq n L (conj_diag n Q d) ->
  meq n (mpow n L m) (conj_diag n Q (fun k => d k ^ m)).
Proof.
  intros [Q1 Q2] HL. induction m as [| m IH]; intros i j Hi Hj; rewrite conj_diag_entry.
  - simpl. rewrite <- (Q2 i j Hi Hj). apply msum_ext; intros; unfold mtrans; ring.
  - simpl mpow. unfold mmul.
    transitivity (msum n (fun p => msum n (fun k => Q i k * d k * Q p k) * msum n (fun l => Q p l * d l ^ m * Q j l))).
    { apply msum_ext; intros p Hp. rewrite (HL i p Hi Hp), (IH p j Hp Hj), !conj_diag_entry. reflexivity. }
    transitivity (msum n (fun p => msum n (fun k => msum n (fun l => Q i k * d k * (d l ^ m * Q j l) * (Q p k * Q p l))))).
    { apply msum_ext; intros p _. rewrite <- msum_scale_r. apply msum_ext; intros k _.
      rewrite <- msum_scale. apply msum_ext; intros l _. ring. }
    rewrite msum_swap. apply msum_ext; intros k Hk. rewrite msum_swap.
    rewrite (msum_single n k); [| exact Hk |].
    + rewrite msum_scale. pose proof (Q1 k k Hk Hk) as E. unfold mmul, mtrans, mid, mdiag in E.
      rewrite Nat.eqb_refl in E. rewrite E. simpl pow. ring.
    + intros l Hl N. rewrite msum_scale. pose proof (Q1 k l Hk Hl) as E. unfold mmul, mtrans, mid, mdiag in E.
      destruct (Nat.eqb_spec k l); [lia |]. rewrite E. ring.
Qed.

Lemma infinite_sum_ext f g l : (forall m, f m = g m) -> infinite_sum f l -> infinite_sum g l.
Proof.
  intros H Hf e He. destruct (Hf e He) as [N HN]. exists N. intros m Hm.
  rewrite <- (sum_eq f g m) by (intros; apply H). apply HN, Hm.
Qed.
Lemma infinite_sum_cv f l : infinite_sum f l <-> Un_cv (fun m => sum_f_R0 f m) l.
Proof. unfold infinite_sum, Un_cv. tauto. Qed.
Lemma infinite_sum_plus f g a b : infinite_sum f a -> infinite_sum g b -> infinite_sum (fun m => f m + g m) (a + b).
Proof.
  rewrite !infinite_sum_cv. intros Ha Hb.
  assert (E : forall m, sum_f_R0 (fun m => f m + g m) m = sum_f_R0 f m + sum_f_R0 g m) by (intros; apply sum_plus).
  intros e He. destruct (CV_plus _ _ _ _ Ha Hb e He) as [N HN]. exists N. intros m Hm. rewrite E. apply HN, Hm.
Qed.
Lemma infinite_sum_scale f a k : infinite_sum f a -> infinite_sum (fun m => k * f m) (k * a).
Proof.
  rewrite !infinite_sum_cv. intros Ha.
  assert (E : forall m, sum_f_R0 (fun m => k * f m) m = k * sum_f_R0 f m).
  { intros m. rewrite scal_sum. apply sum_eq. intros; ring. }
  assert (Hk : Un_cv (fun _ => k) k).
  { intros e He. exists 0%nat. intros. rewrite R_dist_eq. exact He. }
  intros e He. destruct (CV_mult _ _ _ _ Hk Ha e He) as [N HN]. exists N. intros m Hm. rewrite E. apply HN, Hm.
Qed.
Lemma infinite_sum_msum n (f : nat -> nat -> R) a : (forall k, (k < n)%nat -> infinite_sum (f k) (a k)) ->
  infinite_sum (fun m => msum n (fun k => f k m)) (msum n a).
Proof.
  induction n as [| n IH]; intros H; simpl.
  - intros e He. exists 0%nat. intros m _. rewrite sum_cte. rewrite Rmult_0_l, R_dist_eq. exact He.
  - apply infinite_sum_plus; [apply IH; intros; apply H; lia | apply H; lia].
Qed.
Lemma is_exp_series n L E : is_exp n L E -> exp_series n L E.
Proof.
  intros [Q [d [HQ [HL HE]]]] i j Hi Hj. rewrite (HE i j Hi Hj), conj_diag_entry.
  apply infinite_sum_ext with (f := fun m => msum n (fun k => Q i k * Q j k * (/ INR (fact m) * d k ^ m))).
  - intros m. rewrite (mpow_conj n Q d L m HQ HL i j Hi Hj), conj_diag_entry.
    unfold Rdiv. rewrite <- msum_scale_r. apply msum_ext; intros; ring.
  - rewrite (msum_ext n _ (fun k => Q i k * Q j k * exp (d k))) by (intros; ring).
    apply infinite_sum_msum. intros k _. apply infinite_sum_scale.
    unfold exp. destruct (exist_exp (d k)) as [v Hv]. exact Hv.
Qed.

Section eig.
Variable eig : nat -> mat -> option ((nat -> R) * mat).
Hypothesis Heig : eig_contract eig.

Lemma MatrixLogSPD_spec M L : MatrixLogSPD eig M = Ok L ->
  rows L = rows M /\ cols L = rows M /\ is_exp (rows M) (entry L) (lower_sym (entry M)).
Proof.
  unfold MatrixLogSPD. destruct (eig _ _) as [[d Q] |] eqn:E; [| discriminate].
  destruct (Heig _ _ _ _ E) as [HQ HM].
  destruct (all_positive (rows M) d) eqn:P; [| discriminate]. intros H. injection H as <-.
  cbn [rows cols entry]. split; [reflexivity | split; [reflexivity |]].
  exists Q, (fun k => ln (d k)). split; [exact HQ |]. split; [apply meq_refl |].
  eapply meq_trans; [exact HM |].
  intros i j Hi Hj. rewrite !conj_diag_entry. apply msum_ext. intros k Hk.
  rewrite exp_ln; [reflexivity |]. apply (proj1 (all_positive_iff _ _) P k Hk).
Qed.

Lemma MatrixLogSPD_accepts M : eig (rows M) (entry M) <> None ->
  (is_ok (MatrixLogSPD eig M) = true <-> positive_definite (rows M) (lower_sym (entry M)))
  /\ (is_ok (MatrixLogSPD eig M) = false -> MatrixLogSPD eig M = Err ERuntime).
Proof.
  unfold MatrixLogSPD. destruct (eig _ _) as [[d Q] |] eqn:E; [| congruence]. intros _.
  destruct (Heig _ _ _ _ E) as [HQ HM].
  rewrite (positive_definite_iff _ _ _ _ HQ HM), <- all_positive_iff.
  destruct (all_positive (rows M) d); simpl; split; [tauto | discriminate | split; discriminate | reflexivity].
Qed.

Lemma MatrixExpSymmetric_spec M : symmetric (rows M) (entry M) ->
  (exists E, MatrixExpSymmetric eig M = Ok E /\ rows E = rows M /\ cols E = rows M
     /\ is_exp (rows M) (entry M) (entry E))
  \/ (MatrixExpSymmetric eig M = Err ERuntime /\ eig (rows M) (entry M) = None).
Proof.
  intros HS. unfold MatrixExpSymmetric. destruct (eig _ _) as [[d Q] |] eqn:E; [left | right; split; reflexivity].
  destruct (Heig _ _ _ _ E) as [HQ HM].
  eexists. split; [reflexivity |]. cbn [rows cols entry]. split; [reflexivity | split; [reflexivity |]].
  exists Q, d. split; [exact HQ |]. split; [| apply meq_refl].
  eapply meq_trans; [apply meq_sym, lower_sym_of_symmetric, HS | exact HM].
Qed.

(** *** The constructor *)
Lemma strictly_increasing_iff x : strictly_increasing x = true <-> increasing x.
Proof.
  split.
  - intros H.
    assert (S1 : forall i, (S i < length x)%nat -> x.[i] < x.[S i]).
    { induction x as [| a x IH]; intros i Hi; [simpl in Hi; lia |].
      destruct x as [| b x]; [simpl in Hi; lia |].
      simpl in H. apply andb_true_iff in H. destruct H as [H1 H2]. apply Rltb_true in H1.
      destruct i as [| i]; [exact H1 |]. apply (IH H2 i). simpl in *; lia. }
    intros i j Hij. induction j as [| j IHj]; [lia |].
    destruct (Nat.eq_dec i j) as [-> | N]; [apply S1; lia |].
    apply Rlt_trans with x.[j]; [apply IHj; lia | apply S1; lia].
  - induction x as [| a x IH]; intros H; [reflexivity |].
    destruct x as [| b x]; [reflexivity |].
    cbn [strictly_increasing]. apply andb_true_iff. split.
    + apply Rltb_true. exact (H 0%nat 1%nat ltac:(simpl; lia)).
    + apply IH. intros i j Hij. exact (H (S i) (S j) ltac:(simpl in *; lia)).
Qed.

Lemma constructor_rejects x ms : ~ (exists n, well_formed x ms n) ->
  LogEuclideanRiemannian eig x ms = Err EWrong.
Proof.
  intros H. unfold LogEuclideanRiemannian.
  destruct (Nat.ltb_spec (length x) 2); [reflexivity |].
  destruct (Nat.eqb_spec (length x) (length ms)) as [El |]; [| reflexivity].
  destruct ms as [| m0 ms]; [simpl in *; lia |]. change (at_ (m0 :: ms) 0) with (Ok m0). cbn [negb bind tl].
  destruct (Nat.eqb_spec (rows m0) (cols m0)) as [Er |]; [| reflexivity]. cbn [negb].
  destruct (forallb _ ms) eqn:F; [| reflexivity]. cbn [negb].
  destruct (strictly_increasing x) eqn:S; [| reflexivity].
  exfalso. apply H. exists (rows m0). split; [assumption |]. split; [exact El |]. split.
  - intros m [<- | Hm]; [auto |]. rewrite forallb_forall in F. specialize (F m Hm).
    apply andb_true_iff in F. destruct F as [F1 F2]. apply Nat.eqb_eq in F1, F2. split; congruence.
  - apply strictly_increasing_iff, S.
Qed.

Lemma constructor_accepts x ms n : well_formed x ms n ->
  LogEuclideanRiemannian eig x ms = let! logs := mapM (MatrixLogSPD eig) ms in Ok (mkL x ms logs).
Proof.
  intros [H1 [H2 [H3 H4]]]. unfold LogEuclideanRiemannian.
  destruct (Nat.ltb_spec (length x) 2); [lia |]. rewrite H2, Nat.eqb_refl. cbn [negb].
  destruct ms as [| m0 ms]; [simpl in *; lia |]. change (at_ (m0 :: ms) 0) with (Ok m0). cbn [negb bind tl].
  destruct (H3 m0 (or_introl eq_refl)) as [R0 C0]. rewrite R0, C0, Nat.eqb_refl. cbn [negb].
  replace (forallb _ ms) with true.
  2: { symmetry. apply forallb_forall. intros m Hm. destruct (H3 m (or_intror Hm)) as [-> ->].
       rewrite Nat.eqb_refl. reflexivity. }
  rewrite (proj2 (strictly_increasing_iff x) H4). reflexivity.
Qed.

Lemma mapM_inv {A B} (f : A -> result B) l r : mapM f l = Ok r ->
  length r = length l /\ forall i a, nth_error l i = Some a -> exists b, nth_error r i = Some b /\ f a = Ok b.
Proof.
  revert r. induction l as [| a l IH]; intros r H; simpl in H.
  - injection H as <-. split; [reflexivity |]. intros [|] ? ?; discriminate.
  - destruct (f a) as [b | |] eqn:E; try discriminate. cbn [bind] in H.
    destruct (mapM f l) as [bs | |] eqn:E'; try discriminate. cbn [bind] in H. injection H as <-.
    destruct (IH bs eq_refl) as [L N]. split; [simpl; congruence |].
    intros [| i] a' Ha; simpl in *; [injection Ha as <-; exists b; auto | apply N, Ha].
Qed.

Lemma constructor_inv x ms t : LogEuclideanRiemannian eig x ms = Ok t ->
  exists n, well_formed x ms n /\ lx t = x /\ lmats t = ms
    /\ mapM (MatrixLogSPD eig) ms = Ok (llogs t).
Proof.
  intros H.
  destruct (Classical_Prop.classic (exists n, well_formed x ms n)) as [[n W] | N].
  - exists n. split; [exact W |]. rewrite (constructor_accepts x ms n W) in H.
    destruct (mapM _ ms) as [logs | |]; try discriminate. injection H as <-. auto.
  - rewrite (constructor_rejects x ms N) in H. discriminate.
Qed.

Lemma mapM_all_ok {A B} (f : A -> result B) l : (forall a, In a l -> is_ok (f a) = true) -> exists r, mapM f l = Ok r.
Proof.
  induction l as [| a l IH]; intros H; simpl; [eauto |].
  pose proof (H a (or_introl eq_refl)) as Ha. destruct (f a); try discriminate. cbn [bind].
  destruct IH as [r ->]; [intros; apply H; right; assumption |]. eexists; reflexivity.
Qed.
Lemma mapM_some_err {A B} (f : A -> result B) e l : (forall a, In a l -> is_ok (f a) = true \/ f a = Err e) ->
  (exists a, In a l /\ is_ok (f a) = false) -> mapM f l = Err e.
Proof.
  induction l as [| a l IH]; intros H [b [Hb Ha]]; [destruct Hb |]. simpl.
  destruct (H a (or_introl eq_refl)) as [Hok | ->]; [| reflexivity].
  destruct (f a) eqn:E; try discriminate. cbn [bind].
  rewrite IH; [reflexivity | intros; apply H; right; assumption |].
  destruct Hb as [-> | Hb]; [rewrite E in Ha; discriminate | eauto].
Qed.

Lemma c26_constructor x ms :
  (~ (exists n, well_formed x ms n) -> LogEuclideanRiemannian eig x ms = Err EWrong)
  /\ (forall n, well_formed x ms n -> (forall m, In m ms -> eig n (entry m) <> None) ->
       (is_ok (LogEuclideanRiemannian eig x ms) = true
          <-> forall m, In m ms -> positive_definite n (lower_sym (entry m)))
       /\ (is_ok (LogEuclideanRiemannian eig x ms) = false -> LogEuclideanRiemannian eig x ms = Err ERuntime)).
Proof.
  split; [apply constructor_rejects |]. intros n W HE.
  rewrite (constructor_accepts x ms n W). destruct W as [W1 [W2 [W3 W4]]].
  assert (HA : forall m, In m ms ->
    (is_ok (MatrixLogSPD eig m) = true <-> positive_definite n (lower_sym (entry m)))
    /\ (is_ok (MatrixLogSPD eig m) = false -> MatrixLogSPD eig m = Err ERuntime)).
  { intros m Hm. destruct (W3 m Hm) as [R0 C0]. rewrite <- R0. apply MatrixLogSPD_accepts.
    rewrite R0. apply HE, Hm. }
  destruct (Classical_Prop.classic (exists m, In m ms /\ is_ok (MatrixLogSPD eig m) = false)) as [E | E].
  - rewrite (mapM_some_err _ ERuntime); [| | exact E].
    + simpl. split; [| reflexivity]. split; [discriminate |]. intros P. exfalso.
      destruct E as [m [Hm Hf]]. apply (HA m Hm) in P; [congruence | exact Hm].
    + intros m Hm. destruct (is_ok (MatrixLogSPD eig m)) eqn:Eo; [left; reflexivity | right; apply (HA m Hm), Eo].
  - assert (HO : forall m, In m ms -> is_ok (MatrixLogSPD eig m) = true).
    { intros m Hm. destruct (is_ok (MatrixLogSPD eig m)) eqn:Eo; [reflexivity |].
      exfalso; apply E; exists m; auto. }
    destruct (mapM_all_ok (MatrixLogSPD eig) ms HO) as [r ->]. simpl. split; [| discriminate].
    split; [| reflexivity]. intros _ m Hm. apply (HA m Hm), HO, Hm.
Qed.

(** *** Evaluation *)
Lemma lei_data x ms t i : LogEuclideanRiemannian eig x ms = Ok t -> (i < length x)%nat ->
  exists n L, well_formed x ms n /\ at_ (lmats t) i = Ok (nth i ms dummy)
    /\ rows (nth i ms dummy) = n /\ cols (nth i ms dummy) = n
    /\ at_ (llogs t) i = Ok L /\ rows L = n /\ cols L = n
    /\ is_exp n (entry L) (lower_sym (entry (nth i ms dummy))).
Proof.
  intros H Hi. destruct (constructor_inv x ms t H) as [n [W [Ex [Em El]]]].
  pose proof W as [W1 [W2 [W3 W4]]].
  destruct (mapM_inv _ _ _ El) as [Len N].
  assert (Hn : nth_error ms i = Some (nth i ms dummy)) by (apply nth_error_nth'; lia).
  destruct (N i _ Hn) as [L [HL HE]].
  destruct (MatrixLogSPD_spec _ _ HE) as [A [B C]].
  destruct (W3 (nth i ms dummy)) as [R0 C0]; [apply nth_In; lia |].
  exists n, L. rewrite R0 in *. rewrite Em. unfold at_. rewrite Hn, HL. auto 10.
Qed.

Lemma lei_clamped x ms t q : LogEuclideanRiemannian eig x ms = Ok t ->
  (q <= x.[0] -> lei_evaluate eig t q = Ok (nth 0 ms dummy))
  /\ (x.[length x - 1] < q -> lei_evaluate eig t q = Ok (nth (length x - 1) ms dummy)).
Proof.
  intros H. destruct (constructor_inv x ms t H) as [n [[W1 [W2 [W3 W4]]] [Ex [Em El]]]].
  pose proof (increasing_nondecreasing x W4) as Hs.
  unfold lei_evaluate. rewrite Ex, Em.
  destruct (findIndexRange_spec x q Hs ltac:(lia)) as [[E B] | [[E B] | [j [Hj [E B]]]]]; rewrite E; cbn [bind].
  - rewrite Nat.eqb_refl, (at_ok dummy) by lia. split; [reflexivity |].
    intros C. pose proof (Hs 0%nat (length x - 1)%nat ltac:(lia)). lra.
  - rewrite Nat.eqb_refl, (at_ok dummy) by lia. split; [| reflexivity].
    intros C. pose proof (Hs 0%nat (length x - 1)%nat ltac:(lia)). lra.
  - split; intros C; exfalso.
    + pose proof (Hs 0%nat j ltac:(lia)). lra.
    + pose proof (Hs (S j) (length x - 1)%nat ltac:(lia)). lra.
Qed.

Lemma lei_cell x ms t q i : LogEuclideanRiemannian eig x ms = Ok t -> (S i < length x)%nat ->
  x.[i] < q <= x.[S i] ->
  let r := (q - x.[i]) / (x.[S i] - x.[i]) in
  exists n L0 L1, well_formed x ms n
    /\ is_exp n L0 (lower_sym (entry (nth i ms dummy)))
    /\ is_exp n L1 (lower_sym (entry (nth (S i) ms dummy)))
    /\ ((exists M, lei_evaluate eig t q = Ok M /\ rows M = n /\ cols M = n
           /\ is_exp n (madd (mscale (1 - r) L0) (mscale r L1)) (entry M))
        \/ (lei_evaluate eig t q = Err ERuntime
           /\ eig n (madd (mscale (1 - r) L0) (mscale r L1)) = None)).
Proof.
  intros H Hi Hq r.
  destruct (lei_data x ms t i H ltac:(lia)) as [n [L0 [W [M0 [R0 [C0 [AL0 [RL0 [CL0 E0]]]]]]]]].
  destruct (lei_data x ms t (S i) H ltac:(lia)) as [n1 [L1 [_ [M1 [R1 [C1 [AL1 [RL1 [CL1 E1]]]]]]]]].
  assert (En : n1 = n).
  { destruct W as [W1 [W2 [W3 W4]]]. destruct (W3 (nth (S i) ms dummy)); [apply nth_In; lia | congruence]. }
  rewrite En in RL1, CL1, E1.
  destruct (constructor_inv x ms t H) as [_ [_ [Ex [Em El]]]].
  exists n, (entry L0), (entry L1). split; [exact W |]. split; [exact E0 |]. split; [exact E1 |].
  pose proof W as [W1 [W2 [W3 W4]]]. pose proof (increasing_nondecreasing x W4) as Hs.
  assert (EI : findIndexRange x q = Ok (i, S i)).
  { destruct (findIndexRange_spec x q Hs ltac:(lia)) as [[_ B] | [[_ B] | [j [Hj [E B]]]]].
    - pose proof (Hs 0%nat i ltac:(lia)). lra.
    - pose proof (Hs (S i) (length x - 1)%nat ltac:(lia)). lra.
    - assert (i = j) as ->; [| exact E].
      destruct (Nat.lt_trichotomy i j) as [C | [C | C]]; [| exact C |].
      + pose proof (Hs (S i) j ltac:(lia)). lra.
      + pose proof (Hs (S j) i ltac:(lia)). lra. }
  unfold lei_evaluate. rewrite Ex, EI. cbn [bind]. destruct (Nat.eqb_spec i (S i)); [lia |].
  rewrite !(at_ok 0) by lia. cbn [bind]. rewrite AL0. cbn [bind]. rewrite AL1. cbn [bind].
  fold r.
  set (B := mkM _ _ _).
  assert (HB : symmetric (rows B) (entry B)).
  { unfold B. cbn [rows entry]. rewrite RL0.
    destruct (is_exp_symmetric _ _ _ E0) as [S0 _]. destruct (is_exp_symmetric _ _ _ E1) as [S1 _].
    intros a b Ha Hb. unfold madd, mscale. rewrite (S0 a b), (S1 a b) by assumption. reflexivity. }
  destruct (MatrixExpSymmetric_spec B HB) as [[M [EM [RM [CM IM]]]] | [EM EN]].
  - left. exists M. unfold B in RM, CM, IM. cbn [rows entry] in *. rewrite RL0 in *. auto.
  - right. unfold B in EN. cbn [rows entry] in EN. rewrite RL0 in EN. auto.
Qed.

(** At a node other than the first: the lower triangle of the node matrix, symmetrised. *)
Lemma lei_node x ms t i : LogEuclideanRiemannian eig x ms = Ok t -> (i < length x)%nat ->
  (exists M, lei_evaluate eig t x.[i] = Ok M
     /\ rows M = rows (nth i ms dummy) /\ cols M = cols (nth i ms dummy)
     /\ (i = 0%nat -> M = nth i ms dummy)
     /\ (i <> 0%nat -> meq (rows M) (entry M) (lower_sym (entry (nth i ms dummy)))))
  \/ (lei_evaluate eig t x.[i] = Err ERuntime /\ exists n L, eig n L = None).
Proof.
  intros H Hi. destruct (constructor_inv x ms t H) as [n [[W1 [W2 [W3 W4]]] [Ex [Em El]]]].
  destruct i as [| i].
  - left. exists (nth 0 ms dummy). rewrite (proj1 (lei_clamped x ms t x.[0] H)) by lra. repeat split; congruence.
  - pose proof (W4 i (S i) ltac:(lia)) as Hlt.
    destruct (lei_cell x ms t x.[S i] i H Hi ltac:(lra)) as [n' [L0 [L1 [W' [E0 [E1 D]]]]]].
    assert (R : (x.[S i] - x.[i]) / (x.[S i] - x.[i]) = 1) by (field; lra). rewrite R in D.
    destruct D as [[M [EM [RM [CM IM]]]] | [EM EN]]; [left | right; split; [exact EM | eauto]].
    destruct W' as [_ [_ [W3' _]]]. destruct (W3' (nth (S i) ms dummy)) as [RR CC]; [apply nth_In; lia |].
    exists M. rewrite RR, CC. split; [exact EM |]. split; [exact RM |]. split; [exact CM |].
    split; [discriminate |]. intros _. rewrite RM.
    apply (is_exp_unique n' L1); [| exact E1].
    eapply is_exp_compat; [| apply meq_refl | exact IM].
    intros a b _ _. unfold madd, mscale. ring.
Qed.

Lemma lei_node_symmetric x ms t i : LogEuclideanRiemannian eig x ms = Ok t -> (i < length x)%nat ->
  symmetric (rows (nth i ms dummy)) (entry (nth i ms dummy)) ->
  (exists M, lei_evaluate eig t x.[i] = Ok M /\ same_matrix M (nth i ms dummy))
  \/ (lei_evaluate eig t x.[i] = Err ERuntime /\ exists n L, eig n L = None).
Proof.
  intros H Hi HS. destruct (lei_node x ms t i H Hi) as [[M [EM [RM [CM [H0 H1]]]]] | E]; [left | right; exact E].
  exists M. split; [exact EM |]. split; [exact RM | split; [exact CM |]].
  destruct (Nat.eq_dec i 0) as [-> | N]; [rewrite H0; reflexivity |].
  destruct (constructor_inv x ms t H) as [n [[W1 [W2 [W3 W4]]] _]].
  destruct (W3 (nth i ms dummy)) as [RR CC]; [apply nth_In; lia |].
  intros a b Ha Hb. rewrite (H1 N) by congruence. apply (lower_sym_of_symmetric (rows (nth i ms dummy)));
    [exact HS | congruence | congruence].
Qed.
End eig.

Lemma c26_cell eig : eig_contract eig -> forall x ms t q i, LogEuclideanRiemannian eig x ms = Ok t ->
  (S i < length x)%nat -> x.[i] < q <= x.[S i] ->
  let r := (q - x.[i]) / (x.[S i] - x.[i]) in
  exists n L0 L1, well_formed x ms n
    /\ symmetric n L0 /\ symmetric n L1
    /\ exp_series n L0 (lower_sym (entry (nth i ms dummy)))
    /\ exp_series n L1 (lower_sym (entry (nth (S i) ms dummy)))
    /\ ((exists M, lei_evaluate eig t q = Ok M /\ rows M = n /\ cols M = n
           /\ exp_series n (madd (mscale (1 - r) L0) (mscale r L1)) (entry M)
           /\ symmetric n (entry M) /\ positive_definite n (entry M))
        \/ (lei_evaluate eig t q = Err ERuntime
           /\ eig n (madd (mscale (1 - r) L0) (mscale r L1)) = None)).
Proof.
  intros He x ms t q i H Hi Hq r.
  destruct (lei_cell eig He x ms t q i H Hi Hq) as [n [L0 [L1 [W [E0 [E1 D]]]]]]. fold r in D.
  exists n, L0, L1. split; [exact W |].
  split; [apply (is_exp_symmetric _ _ _ E0) |]. split; [apply (is_exp_symmetric _ _ _ E1) |].
  split; [apply is_exp_series, E0 |]. split; [apply is_exp_series, E1 |].
  destruct D as [[M [EM [RM [CM IM]]]] | D]; [left | right; exact D].
  exists M. split; [exact EM |]. split; [exact RM |]. split; [exact CM |].
  split; [apply is_exp_series, IM |]. split; [apply (is_exp_symmetric _ _ _ IM) | apply (is_exp_positive _ _ _ IM)].
Qed.

(** A solver for matrices whose lower triangle is diagonal. *)
Definition diag_lower (n : nat) (M : mat) : bool :=
  forallb (fun i => forallb (fun j => if Req_EM_T (M i j) 0 then true else false) (seq 0 i)) (seq 0 n).
Definition diag_eig (n : nat) (M : mat) : option ((nat -> R) * mat) :=
  if diag_lower n M then Some (fun i => M i i, mid) else None.

Lemma diag_lower_iff n M : diag_lower n M = true <-> forall i j, (j < i < n)%nat -> M i j = 0.
Proof.
  unfold diag_lower. rewrite forallb_forall. split.
  - intros H i j Hij. specialize (H i ltac:(apply in_seq; lia)). rewrite forallb_forall in H.
    specialize (H j ltac:(apply in_seq; lia)). destruct (Req_EM_T (M i j) 0); [assumption | discriminate].
  - intros H i Hi. apply in_seq in Hi. apply forallb_forall. intros j Hj. apply in_seq in Hj.
    destruct (Req_EM_T (M i j) 0) as [| N]; [reflexivity | exfalso; apply N, H; lia].
Qed.

Lemma orthogonal_mid n : orthogonal n mid.
Proof.
  assert (T : meq n (mtrans mid) mid).
  { intros i j _ _. unfold mtrans, mid, mdiag. destruct (Nat.eqb_spec j i), (Nat.eqb_spec i j); congruence. }
  split.
  - eapply meq_trans; [apply mmul_compat; [exact T | apply meq_refl] | apply mmul_id_l].
  - eapply meq_trans; [apply mmul_id_l | exact T].
Qed.
Lemma conj_mid n d : meq n (conj_diag n mid d) (mdiag d).
Proof.
  intros i j Hi Hj. rewrite conj_diag_entry, (msum_single n i); [| exact Hi |].
  - unfold mid, mdiag. rewrite Nat.eqb_refl. destruct (Nat.eqb_spec j i), (Nat.eqb_spec i j); try congruence; ring.
  - intros k _ N. unfold mid, mdiag. destruct (Nat.eqb_spec i k); [congruence | ring].
Qed.

Lemma diag_eig_contract : eig_contract diag_eig.
Proof.
  intros n M d Q H. unfold diag_eig in H. destruct (diag_lower n M) eqn:E; [| discriminate].
  injection H as <- <-. split; [apply orthogonal_mid |].
  eapply meq_trans; [| apply meq_sym, conj_mid].
  intros i j Hi Hj. rewrite diag_lower_iff in E. unfold lower_sym, mdiag.
  destruct (Nat.eqb_spec i j) as [-> | N]; [rewrite Nat.leb_refl; reflexivity |].
  destruct (Nat.leb_spec j i); apply E; lia.
Qed.

Lemma diag_eig_lower n M : diag_lower n M = true -> diag_eig n M = Some (fun i => M i i, mid).
Proof. intros H. unfold diag_eig. rewrite H. reflexivity. Qed.
Lemma diag_lower_mdiag n d : diag_lower n (mdiag d) = true.
Proof. apply diag_lower_iff. intros i j H. unfold mdiag. destruct (Nat.eqb_spec i j); [lia | reflexivity]. Qed.
Lemma diag_lower_conj n d : diag_lower n (conj_diag n mid d) = true.
Proof.
  apply diag_lower_iff. intros i j H. rewrite conj_mid by lia. unfold mdiag. destruct (Nat.eqb_spec i j); [lia | reflexivity].
Qed.

(** *** A 2 x 2 upper triangular matrix is accepted and not returned *)
Definition ref_ms : list matrix := [mkM 2 2 mid; mkM 2 2 (fun i j => match i, j with 0%nat, 1%nat => 5 | _, _ => mid i j end)].

Lemma ref_wf : well_formed [0; 1] ref_ms 2.
Proof.
  split; [simpl; lia |]. split; [reflexivity |]. split.
  - intros m [<- | [<- | []]]; split; reflexivity.
  - apply strictly_increasing_iff. simpl. destruct (Rlt_dec 0 1); rewrite (proj2 (Rltb_true 0 1)) by lra; reflexivity.
Qed.

Lemma diag_lower_ref : diag_lower 2 (entry (nth 1 ref_ms dummy)) = true.
Proof.
  apply diag_lower_iff. intros i j H. assert (i = 1 /\ j = 0)%nat as [-> ->] by lia. reflexivity.
Qed.

Lemma Rltb_01 : Rltb 0 1 = true. Proof. apply Rltb_true. lra. Qed.

Lemma c26_nodes_refuted :
  exists x ms i,
  (exists eig t, eig_contract eig /\ LogEuclideanRiemannian eig x ms = Ok t
     /\ is_ok (lei_evaluate eig t x.[i]) = true)
  /\ (i < length x)%nat
  /\ forall eig t M, eig_contract eig -> LogEuclideanRiemannian eig x ms = Ok t ->
     lei_evaluate eig t x.[i] = Ok M -> ~ same_matrix M (nth i ms dummy).
Proof.
  exists [0; 1], ref_ms, 1%nat. split; [| split; [simpl; lia |]].
  - exists diag_eig.
    assert (C : exists t, LogEuclideanRiemannian diag_eig [0; 1] ref_ms = Ok t
      /\ llogs t = map (fun m => mkM 2 2 (conj_diag 2 mid (fun k => ln (entry m k k)))) ref_ms).
    { rewrite (constructor_accepts diag_eig [0; 1] ref_ms 2 ref_wf).
      rewrite mapM_ok with (g := fun m => mkM 2 2 (conj_diag 2 mid (fun k => ln (entry m k k)))).
      - cbn [bind]. eexists; split; reflexivity.
      - intros m [<- | [<- | []]]; unfold MatrixLogSPD; cbn [rows entry]; rewrite diag_eig_lower.
        + unfold all_positive. cbn. rewrite !Rltb_01. reflexivity.
        + apply diag_lower_mdiag.
        + unfold all_positive. cbn. rewrite !Rltb_01. reflexivity.
        + exact diag_lower_ref. }
    destruct C as [t [Ht El]]. exists t. split; [exact diag_eig_contract |]. split; [exact Ht |].
    destruct (constructor_inv diag_eig _ _ _ Ht) as [_ [_ [Ex [Em _]]]].
    unfold lei_evaluate. rewrite Ex.
    destruct (findIndexRange_spec [0; 1] 1 (increasing_nondecreasing _ (proj2 (proj2 (proj2 ref_wf)))) ltac:(simpl; lia))
      as [[E B] | [[E B] | [j [Hj [E B]]]]]; simpl in B; try lra.
    assert (j = 0)%nat as -> by (simpl in Hj; lia). change ([0; 1].[1]) with 1. rewrite E. cbn [bind Nat.eqb].
    rewrite El. unfold ref_ms. cbn [at_ nth_error bind map rows entry]. unfold MatrixExpSymmetric. cbn [rows entry].
    rewrite diag_eig_lower; [reflexivity |].
    apply diag_lower_iff. intros a b Hab. assert (a = 1 /\ b = 0)%nat as [-> ->] by lia.
    unfold madd, mscale. rewrite !conj_mid by lia. unfold mdiag. simpl. ring.
  - intros eig t M He Ht EM [S1 [S2 S3]].
    destruct (lei_node eig He [0; 1] ref_ms t 1 Ht ltac:(simpl; lia)) as [[M' [E [RM [CM [_ H]]]]] | [E _]]; [| congruence].
    rewrite EM in E. injection E as <-. cbn [nth ref_ms rows cols] in *.
    specialize (H ltac:(lia)). rewrite RM in H.
    specialize (H 0%nat 1%nat ltac:(lia) ltac:(lia)).
    specialize (S3 0%nat 1%nat ltac:(lia) ltac:(lia)). rewrite S3 in H.
    unfold lower_sym in H. simpl in H. unfold mid, mdiag in H. simpl in H. lra.
Qed.

Lemma c26_example :
  exists t, LogEuclideanRiemannian diag_eig [0; 1] [mkM 2 2 mid; mkM 2 2 (mdiag (fun k => exp (INR (S k))))] = Ok t
     /\ exists M, lei_evaluate diag_eig t (1 / 2) = Ok M /\ entry M 0%nat 0%nat = exp (1 / 2) /\ entry M 1%nat 1%nat = exp 1.
Proof.
  set (ms := [mkM 2 2 mid; mkM 2 2 (mdiag (fun k => exp (INR (S k))))]).
  assert (W : well_formed [0; 1] ms 2).
  { split; [simpl; lia |]. split; [reflexivity |]. split; [| exact (proj2 (proj2 (proj2 ref_wf)))].
    intros m [<- | [<- | []]]; split; reflexivity. }
  assert (C : exists t, LogEuclideanRiemannian diag_eig [0; 1] ms = Ok t
    /\ llogs t = map (fun m => mkM 2 2 (conj_diag 2 mid (fun k => ln (entry m k k)))) ms).
  { rewrite (constructor_accepts diag_eig [0; 1] ms 2 W).
    rewrite mapM_ok with (g := fun m => mkM 2 2 (conj_diag 2 mid (fun k => ln (entry m k k)))).
    - cbn [bind]. eexists; split; reflexivity.
    - intros m [<- | [<- | []]]; unfold MatrixLogSPD; cbn [rows entry]; rewrite diag_eig_lower by apply diag_lower_mdiag.
      + unfold all_positive. cbn. rewrite !Rltb_01. reflexivity.
      + replace (all_positive 2 _) with true; [reflexivity |]. symmetry. apply all_positive_iff.
        intros k _. unfold mdiag. rewrite Nat.eqb_refl. apply exp_pos. }
  destruct C as [t [Ht El]]. exists t. split; [exact Ht |].
  destruct (constructor_inv diag_eig _ _ _ Ht) as [_ [_ [Ex [Em _]]]].
  unfold lei_evaluate. rewrite Ex.
  destruct (findIndexRange_spec [0; 1] (1 / 2) (increasing_nondecreasing _ (proj2 (proj2 (proj2 ref_wf)))) ltac:(simpl; lia))
    as [[E B] | [[E B] | [j [Hj [E B]]]]]; simpl in B; try lra.
  assert (j = 0)%nat as -> by (simpl in Hj; lia). rewrite E. cbn [bind Nat.eqb].
  rewrite El. unfold ms. cbn [at_ nth_error bind map rows entry]. unfold MatrixExpSymmetric. cbn [rows entry].
  rewrite diag_eig_lower.
  2: { apply diag_lower_iff. intros a b Hab. assert (a = 1 /\ b = 0)%nat as [-> ->] by lia.
       unfold madd, mscale. rewrite !conj_mid by lia. unfold mdiag. simpl. ring. }
  eexists. split; [reflexivity |]. cbn [entry].
  split; rewrite conj_mid by lia; unfold mdiag at 1; cbn [Nat.eqb];
    unfold madd, mscale; rewrite !conj_mid by lia; unfold mid, mdiag; cbn [Nat.eqb];
    rewrite !ln_exp, ln_1; f_equal; simpl; field.
Qed.
