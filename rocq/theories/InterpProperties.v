(** Properties C22 to C26 and C72: interpolators. *)

From Coq Require Import List Reals Lra Lia Arith Bool.
From Verif Require Import Result DOrder AngleProofs MatN InterpModel LogEuclidModel InterpSpec InterpProofs LogEuclidProofs.
Import ListNotations.
Local Open Scope R_scope.

(** ** C22 Linear interpolation *)
Theorem C22_nodes :
  forall x y t i, Linear x y = Ok t -> increasing x -> (i < length x)%nat -> linear_evaluate t x.[i] = Ok y.[i].
Proof. exact linear_evaluate_node. Qed.
Print Assumptions C22_nodes.

Theorem C22_clamped :
  forall x y t q, Linear x y = Ok t -> nondecreasing x ->
  (q <= x.[0] -> linear_evaluate t q = Ok y.[0])
  /\ (x.[length x - 1] < q -> linear_evaluate t q = Ok y.[length x - 1]).
Proof.
  intros x y t q Ht Hs. split; [exact (linear_evaluate_left x y t q Ht Hs) | exact (linear_evaluate_right x y t q Ht Hs)].
Qed.
Print Assumptions C22_clamped.

Theorem C22_cell :
  forall x y t i q, Linear x y = Ok t -> increasing x -> (S i < length x)%nat -> x.[i] <= q <= x.[S i] ->
  exists v, linear_evaluate t q = Ok v /\ on_chord x.[i] y.[i] x.[S i] y.[S i] q v
    /\ Rmin y.[i] y.[S i] <= v <= Rmax y.[i] y.[S i].
Proof. exact linear_evaluate_cell. Qed.
Print Assumptions C22_cell.

(** With repeated abscissae the cell is half open: at a repeated abscissa the first of its
    ordinates is returned, and inside a cell the chord is still the one of that cell. *)
Theorem C22_repeated_abscissae :
  forall x y t i q, Linear x y = Ok t -> nondecreasing x -> (S i < length x)%nat -> x.[i] < q <= x.[S i] ->
  exists v, linear_evaluate t q = Ok v /\ on_chord x.[i] y.[i] x.[S i] y.[S i] q v
    /\ Rmin y.[i] y.[S i] <= v <= Rmax y.[i] y.[S i].
Proof. exact linear_evaluate_ties. Qed.
Print Assumptions C22_repeated_abscissae.

(** Evaluating a vector evaluates each entry. *)
Theorem C22_vector :
  forall x y t qs, Linear x y = Ok t ->
  exists vs, linear_evaluate_all t qs = Ok vs /\ length vs = length qs
    /\ forall i, (i < length qs)%nat -> linear_evaluate t qs.[i] = Ok vs.[i].
Proof. exact linear_evaluate_all_spec. Qed.
Print Assumptions C22_vector.

(** Three nodes; the hypotheses hold and the value at 2 is on the second chord. *)
Definition ex_t := mkT [0; 1; 3] [10; 20; 40].
Example C22_example : Linear [0; 1; 3] [10; 20; 40] = Ok ex_t /\ increasing [0; 1; 3]
  /\ linear_evaluate ex_t 2 = Ok 30 /\ linear_evaluate ex_t 1 = Ok 20 /\ linear_evaluate ex_t (-5) = Ok 10.
Proof.
  assert (H : Linear [0; 1; 3] [10; 20; 40] = Ok ex_t) by reflexivity.
  assert (I : increasing [0; 1; 3]).
  { apply strictly_increasing_iff. simpl. rewrite !Rltb_t by lra. reflexivity. }
  split; [exact H |]. split; [exact I |]. split; [| split].
  - destruct (linear_evaluate_cell _ _ _ 1 2 H I ltac:(simpl; lia) ltac:(simpl; lra)) as [v [E [C _]]].
    rewrite E. f_equal. unfold on_chord in C. simpl in C. lra.
  - exact (linear_evaluate_node _ _ _ 1 H I ltac:(simpl; lia)).
  - apply (linear_evaluate_left _ _ _ (-5) H (increasing_nondecreasing _ I)). simpl. lra.
Qed.

(** ** C23 Derivative of the linear interpolator *)
Theorem C23_derivative :
  forall x y t q, Linear x y = Ok t -> nondecreasing x -> not_a_node x q ->
  exists d, linear_derivative t q = Ok d /\ derivable_pt_lim (fun u => value (linear_evaluate t u)) q d.
Proof. exact c23_derivative. Qed.
Print Assumptions C23_derivative.

(** The values, including at the nodes: there the slope of the cell on the left, 0 at the
    first node. *)
Theorem C23_slopes :
  forall x y t q, Linear x y = Ok t -> nondecreasing x ->
  (q <= x.[0] -> linear_derivative t q = Ok 0)
  /\ (x.[length x - 1] < q -> linear_derivative t q = Ok 0)
  /\ (forall i, (S i < length x)%nat -> x.[i] < q <= x.[S i] ->
        linear_derivative t q = Ok ((y.[S i] - y.[i]) / (x.[S i] - x.[i]))).
Proof. exact c23_slope. Qed.
Print Assumptions C23_slopes.

Example C23_example : not_a_node [0; 1; 3] 2 /\ linear_derivative ex_t 2 = Ok 10.
Proof.
  split.
  - intros [| [| [|]]] Hi; simpl in *; try lra; lia.
  - destruct C22_example as [H [I _]].
    destruct (c23_slope _ _ _ 2 H (increasing_nondecreasing _ I)) as [_ [_ S]].
    rewrite (S 1%nat); [f_equal; simpl; field | simpl; lia | simpl; lra].
Qed.

(** ** C24 Zero-order interpolation *)
Theorem C24_previous_sample :
  forall x y t q, ZeroOrder x y = Ok t -> nondecreasing x ->
  (q < x.[0] -> zero_evaluate t q = Ok y.[0])
  /\ (forall i, (i < length x)%nat -> x.[i] <= q -> (forall j, (i < j < length x)%nat -> q < x.[j]) ->
      zero_evaluate t q = Ok y.[i])
  /\ (x.[0] <= q -> exists i, (i < length x)%nat /\ x.[i] <= q /\ (forall j, (i < j < length x)%nat -> q < x.[j])).
Proof. exact c24_zero_order. Qed.
Print Assumptions C24_previous_sample.

(** computeDerivative is the derivative of evaluate away from the nodes. *)
Theorem C24_derivative :
  forall x y t q, ZeroOrder x y = Ok t -> nondecreasing x -> not_a_node x q ->
  exists d, zero_derivative t q = Ok d /\ derivable_pt_lim (fun u => value (zero_evaluate t u)) q d.
Proof. exact c24_derivative. Qed.
Print Assumptions C24_derivative.

(** At a repeated abscissa the last of its ordinates is returned. *)
Example C24_example : ZeroOrder [0; 1; 1; 3] [10; 20; 25; 40] = Ok (mkT [0; 1; 1; 3] [10; 20; 25; 40])
  /\ nondecreasing [0; 1; 1; 3]
  /\ zero_evaluate (mkT [0; 1; 1; 3] [10; 20; 25; 40]) 1 = Ok 25.
Proof.
  assert (H : ZeroOrder [0; 1; 1; 3] [10; 20; 25; 40] = Ok (mkT [0; 1; 1; 3] [10; 20; 25; 40])) by reflexivity.
  assert (I : nondecreasing [0; 1; 1; 3]).
  { intros [| [| [| [|]]]] [| [| [| [|]]]] Hij; simpl in *; try lra; lia. }
  split; [exact H |]. split; [exact I |].
  destruct (c24_zero_order _ _ _ 1 H I) as [_ [E _]]. apply (E 2%nat); [simpl; lia | simpl; lra |].
  intros [| [| [| [|]]]] Hj; simpl in *; try lra; lia.
Qed.

(** ** C25 Constructors and data they cannot use *)
(** False for the barycentric interpolator: the sizes are compared after Boost has read one
    ordinate per abscissa, outside the ordinates if there are too few. *)
Theorem C25_reads_in_bounds_refuted :
  exists x y, GenerateInterpolator TBarycentric x y = UB.
Proof.
  exists [0; 1; 2; 3], [0]. unfold GenerateInterpolator.
  rewrite (proj1 (proj2 (Barycentric_outcome [0; 1; 2; 3] [0]))); [reflexivity | simpl; lia | simpl; lia].
Qed.
Print Assumptions C25_reads_in_bounds_refuted.

(** All outcomes of the barycentric constructor. *)
Theorem C25_barycentric_partial :
  forall x y,
  ((length x <= 3)%nat -> BarycentricRational x y = Err ERuntime)
  /\ ((3 < length x)%nat -> (length y < length x)%nat -> BarycentricRational x y = UB)
  /\ ((3 < length x < length y)%nat -> BarycentricRational x y = Err EWrong)
  /\ ((3 < length x)%nat -> length x = length y -> is_ok (BarycentricRational x y) = true).
Proof. exact Barycentric_outcome. Qed.
Print Assumptions C25_barycentric_partial.

(** The other three: never outside the arrays, rejected exactly when the sizes differ or are
    too small (and, for the cubic spline, when a step differs from the first one by more than
    a millionth). *)
Theorem C25_others_partial :
  forall x y,
  (is_ok (Linear x y) = true <-> (2 <= length y)%nat /\ length x = length y)
  /\ (is_ok (Linear x y) = false -> Linear x y = Err EWrong)
  /\ (is_ok (ZeroOrder x y) = true <-> (1 <= length y)%nat /\ length x = length y)
  /\ (is_ok (ZeroOrder x y) = false -> ZeroOrder x y = Err EWrong)
  /\ (is_ok (CubicSpline x y) = true <-> (5 <= length y)%nat /\ length x = length y
       /\ forall i, (S i < length x)%nat ->
          let c := x.[S i] - x.[i] in let h := x.[1] - x.[0] in
          Rabs (c - h) <= Rmin (Rabs c) (Rabs h) * / 1000000)
  /\ (is_ok (CubicSpline x y) = false -> CubicSpline x y = Err EWrong)
  /\ (forall x0 h, is_ok (CubicSplineUniform y x0 h) = true <-> (5 <= length y)%nat)
  /\ (forall x0 h, is_ok (CubicSplineUniform y x0 h) = false -> CubicSplineUniform y x0 h = Err EWrong).
Proof. exact c25_others. Qed.
Print Assumptions C25_others_partial.

(** Once built, evaluating never reads outside the arrays, whatever the abscissae (sorted or
    not) and the query. *)
Theorem C25_evaluation_in_bounds :
  forall x y q,
  (forall t, Linear x y = Ok t -> is_ok (linear_evaluate t q) = true /\ is_ok (linear_derivative t q) = true)
  /\ (forall t, ZeroOrder x y = Ok t -> is_ok (zero_evaluate t q) = true).
Proof.
  intros x y q. split; intros t Ht; [exact (linear_never_ub x y t q Ht) | exact (zero_never_ub x y t q Ht)].
Qed.
Print Assumptions C25_evaluation_in_bounds.

Example C25_example : is_ok (Linear [0; 1] [2; 3]) = true /\ Linear [0; 1] [2] = Err EWrong
  /\ is_ok (CubicSpline [0; 1; 2; 3; 4] [1; 2; 3; 4; 5]) = true
  /\ CubicSpline [0; 1; 2; 3; 5] [1; 2; 3; 4; 5] = Err EWrong.
Proof.
  split; [reflexivity |]. split; [reflexivity |].
  destruct (c25_others [0; 1; 2; 3; 4] [1; 2; 3; 4; 5]) as [_ [_ [_ [_ [H _]]]]].
  destruct (c25_others [0; 1; 2; 3; 5] [1; 2; 3; 4; 5]) as [_ [_ [_ [_ [H1 [H2 _]]]]]].
  split.
  - apply H. split; [simpl; lia |]. split; [reflexivity |].
    intros i Hi. cbv zeta.
    replace ([0; 1; 2; 3; 4].[S i] - [0; 1; 2; 3; 4].[i]) with 1.
    + simpl. replace (1 - (1 - 0)) with 0 by ring. replace (1 - 0) with 1 by ring. rewrite Rabs_R0, Rabs_R1.
      unfold Rmin; destruct Rle_dec; lra.
    + destruct i as [| [| [| [|]]]]; simpl in *; try lra; lia.
  - apply H2. apply not_true_is_false. intros E. apply H1 in E. destruct E as [_ [_ E]].
    specialize (E 3%nat ltac:(simpl; lia)). cbv zeta in E. simpl in E.
    revert E. unfold Rmin, Rabs. repeat destruct Rcase_abs; repeat destruct Rle_dec; lra.
Qed.

(** ** C26 Log-Euclidean matrix interpolation *)
(** [eig] is any solver that, when it succeeds, returns an orthonormal eigenbasis of the
    symmetric matrix it reads (Eigen reads the lower triangle). *)

Theorem C26_constructor :
  forall eig, eig_contract eig -> forall x ms,
  (~ (exists n, well_formed x ms n) -> LogEuclideanRiemannian eig x ms = Err EWrong)
  /\ (forall n, well_formed x ms n -> (forall m, In m ms -> eig n (entry m) <> None) ->
       (is_ok (LogEuclideanRiemannian eig x ms) = true
          <-> forall m, In m ms -> positive_definite n (lower_sym (entry m)))
       /\ (is_ok (LogEuclideanRiemannian eig x ms) = false -> LogEuclideanRiemannian eig x ms = Err ERuntime)).
Proof. exact c26_constructor. Qed.
Print Assumptions C26_constructor.

Theorem C26_clamped :
  forall eig, eig_contract eig -> forall x ms t q, LogEuclideanRiemannian eig x ms = Ok t ->
  (q <= x.[0] -> lei_evaluate eig t q = Ok (nth 0 ms dummy))
  /\ (x.[length x - 1] < q -> lei_evaluate eig t q = Ok (nth (length x - 1) ms dummy)).
Proof. intros eig _. exact (lei_clamped eig). Qed.
Print Assumptions C26_clamped.

(** False as stated at the nodes: a matrix that is not symmetric is accepted, but only its
    lower triangle is used, except at the first node. *)
Theorem C26_nodes_refuted :
  exists x ms i,
  (exists eig t, eig_contract eig /\ LogEuclideanRiemannian eig x ms = Ok t
     /\ is_ok (lei_evaluate eig t x.[i]) = true)
  /\ (i < length x)%nat
  /\ forall eig t M, eig_contract eig -> LogEuclideanRiemannian eig x ms = Ok t ->
     lei_evaluate eig t x.[i] = Ok M -> ~ same_matrix M (nth i ms dummy).
Proof. exact c26_nodes_refuted. Qed.
Print Assumptions C26_nodes_refuted.

(** True when the node matrix is symmetric (the last case is a failure of the solver, which
    the code turns into an exception). *)
Theorem C26_nodes_partial :
  forall eig, eig_contract eig -> forall x ms t i, LogEuclideanRiemannian eig x ms = Ok t -> (i < length x)%nat ->
  symmetric (rows (nth i ms dummy)) (entry (nth i ms dummy)) ->
  (exists M, lei_evaluate eig t x.[i] = Ok M /\ same_matrix M (nth i ms dummy))
  \/ (lei_evaluate eig t x.[i] = Err ERuntime /\ exists n L, eig n L = None).
Proof. exact lei_node_symmetric. Qed.
Print Assumptions C26_nodes_partial.

(** In general: the symmetric matrix with the same lower triangle. *)
Theorem C26_nodes_lower_triangle_partial :
  forall eig, eig_contract eig -> forall x ms t i, LogEuclideanRiemannian eig x ms = Ok t -> (i < length x)%nat ->
  (exists M, lei_evaluate eig t x.[i] = Ok M
     /\ rows M = rows (nth i ms dummy) /\ cols M = cols (nth i ms dummy)
     /\ (i = 0%nat -> M = nth i ms dummy)
     /\ (i <> 0%nat -> meq (rows M) (entry M) (lower_sym (entry (nth i ms dummy)))))
  \/ (lei_evaluate eig t x.[i] = Err ERuntime /\ exists n L, eig n L = None).
Proof. exact lei_node. Qed.
Print Assumptions C26_nodes_lower_triangle_partial.

(** Inside a cell: the exponential (sum of the series L^m / m!) of the blend of logarithms of
    the two node matrices; it is symmetric and positive definite. *)
Theorem C26_cell :
  forall eig, eig_contract eig -> forall x ms t q i, LogEuclideanRiemannian eig x ms = Ok t ->
  (S i < length x)%nat -> x.[i] < q <= x.[S i] ->
  let r := (q - x.[i]) / (x.[S i] - x.[i]) in
  exists n L0 L1, well_formed x ms n
    /\ symmetric n L0 /\ symmetric n L1
    /\ exp_series n L0 (lower_sym (entry (nth i ms dummy)))
    /\ exp_series n L1 (lower_sym (entry (nth (S i) ms dummy)))
    /\ ((exists M, lei_evaluate eig t q = Ok M /\ rows M = n /\ cols M = n
           /\ exp_series n (madd (mscale (1 - r) L0) (mscale r L1)) (entry M)
           /\ symmetric n (entry M) /\ positive_definite n (entry M))
        \/ (lei_evaluate eig t q = Err ERuntime
           /\ eig n (madd (mscale (1 - r) L0) (mscale r L1)) = None)).
Proof. exact c26_cell. Qed.
Print Assumptions C26_cell.

(** A solver for diagonal matrices, and data it accepts: the 2 x 2 identity, then
    diag(e, e^2).  Halfway the result is diag(e^(1/2), e). *)
Example C26_example :
  eig_contract diag_eig
  /\ exists t, LogEuclideanRiemannian diag_eig [0; 1] [mkM 2 2 mid; mkM 2 2 (mdiag (fun k => exp (INR (S k))))] = Ok t
     /\ exists M, lei_evaluate diag_eig t (1 / 2) = Ok M /\ entry M 0%nat 0%nat = exp (1 / 2) /\ entry M 1%nat 1%nat = exp 1.
Proof. split; [exact diag_eig_contract | exact c26_example]. Qed.

(** ** C72 The interpolator factory *)
Theorem C72_factory :
  forall ty x y,
  (forall i, GenerateInterpolator ty x y = Ok i -> getInterpolationType i = ty)
  /\ (ty = TInvalid -> GenerateInterpolator ty x y = Err EWrong)
  /\ (forall t, GenerateInterpolator TLinear x y = Ok (ILinear t) <-> Linear x y = Ok t)
  /\ (forall t, GenerateInterpolator TZeroOrder x y = Ok (IZeroOrder t) <-> ZeroOrder x y = Ok t)
  /\ (forall d, GenerateInterpolator TCubicSpline x y = Ok (ICubicSpline d) <-> CubicSpline x y = Ok d)
  /\ (forall d, GenerateInterpolator TBarycentric x y = Ok (IBarycentric d) <-> BarycentricRational x y = Ok d).
Proof. exact c72_factory. Qed.
Print Assumptions C72_factory.

Example C72_example : exists i, GenerateInterpolator TLinear [0; 1; 3] [10; 20; 40] = Ok i
  /\ getInterpolationType i = TLinear.
Proof. eexists. split; reflexivity. Qed.
