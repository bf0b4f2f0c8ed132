(** The properties of the numerical solver: C67 to C70, C96. *)

From Coq Require Import List Bool Reals Lra Lia Psatz.
From Verif Require Import Result DOrder RotModel RotProofs SolverModel SolverSpec SolverProofs SolverProofs2 SolverProofs3 SolverProofs4.
Import ListNotations.
Local Open Scope R_scope.

(** x' = 1 with Runge-Kutta 4 and with a controlled stepper, for the examples. *)
Definition clock : engine R := scalar_engine (fun _ _ => 1).
Definition rk4_solver : solver R := Solver NoLog RungeKutta4 (Some 1) (Some 1) (Some 1).
Definition dopri_solver (l : log_type) : solver R := Solver l RungeKuttaDopri5 (Some 1) (Some 1) (Some 1).

(** *** C67: integration over an array of times *)
(** Missing from C67: last times without the sign of the direction, for which the claim is false (below).  Runge-Kutta 4: one state per time, each reached by steps from the one before up to the tolerance of the time comparisons. *)
Theorem C67_rk4_partial :
  forall {X} e (g : engine X) so h s x start times, 0 <= e -> so_stepper so = RungeKutta4 -> so_step so = Some h -> 0 < h ->
  sense s -> times <> [] -> ordered s start times -> 0 < s * last times 0 ->
  exists N l so', (forall fuel, (N <= fuel)%nat -> so_integrate_times e fuel g so x start times = (so', Ok l))
    /\ map snd l = times /\ legs (accepts g RungeKutta4) s e x start l.
Proof. exact (@c67_rk4_partial). Qed.
Print Assumptions C67_rk4_partial.

(** The same with times that fit the steps: every state is integrated to its time exactly, so that steps which stay on a curve give its points. *)
Theorem C67_exact_partial :
  forall {X} e (g : engine X) so h s x start times, 0 <= e < h -> so_stepper so = RungeKutta4 -> so_step so = Some h ->
  sense s -> times <> [] -> all_fit s h e start times -> 0 < s * last times 0 ->
  exists N l so', (forall fuel, (N <= fuel)%nat -> so_integrate_times e fuel g so x start times = (so', Ok l))
    /\ map snd l = times /\ exact_legs (accepts g RungeKutta4) s x start l
    /\ forall c, follows (accepts g RungeKutta4) c -> x = c start -> forall y t, In (y, t) l -> y = c t.
Proof. exact (@c67_exact_partial). Qed.
Print Assumptions C67_exact_partial.

(** The other steppers, when they return a result (they may fail or not end). *)
Theorem C67_controlled_partial :
  forall {X} e fuel (g : engine X) so h s x start times so' l, 0 <= e -> controlled g -> so_stepper so <> RungeKutta4 ->
  so_step so = Some h -> 0 < h -> sense s -> ordered s start times -> 0 < s * last times 0 ->
  so_integrate_times e fuel g so x start times = (so', Ok l) ->
  map snd l = times /\ legs (accepts g (so_stepper so)) s e x start l.
Proof. exact (@c67_controlled_partial). Qed.
Print Assumptions C67_controlled_partial.

(** Whatever the times, a result has the requested times. *)
Theorem C67_tags :
  forall {X} e fuel (g : engine X) so x start times so' l, so_integrate_times e fuel g so x start times = (so', Ok l) -> map snd l = times.
Proof. exact (@c67_tags). Qed.
Print Assumptions C67_tags.

(** Forward to a last time that is not positive, or backward to a positive one, nothing is integrated: all the states are the initial one ... *)
Theorem C67_still :
  forall {X} e fuel (g : engine X) so h r a s x start times, 0 <= e -> so_step so = Some h -> so_rel so = Some r -> so_abs so = Some a -> 0 < h -> (0 < fuel)%nat ->
  sense s -> times <> [] -> ordered s start times -> (s = 1 /\ last times 0 <= 0) \/ (s = - 1 /\ 0 < last times 0) ->
  exists so', so_integrate_times e fuel g so x start times = (so', Ok (map (fun t => (x, t)) times)).
Proof. exact (@c67_still). Qed.
Print Assumptions C67_still.

(** ... also when the solution moves. *)
Theorem C67_direction_refuted :
  forall e k, 0 <= e -> exists (g : engine R) so x start times y t (c : R -> R), controlled g /\ so_stepper so = k /\ so_step so = Some 1
  /\ ordered 1 start times /\ follows (accepts g k) c /\ x = c start /\ y <> c t
  /\ forall fuel, (0 < fuel)%nat -> exists so', so_integrate_times e fuel g so x start times = (so', Ok [(y, t)]).
Proof. exact c67_direction_refuted. Qed.
Print Assumptions C67_direction_refuted.

(** Backward to the time 0, Runge-Kutta 4 never ends, whatever the fuel. *)
Theorem C67_stuck :
  forall {X} e (g : engine X) so h x start, 0 <= e -> so_stepper so = RungeKutta4 -> so_step so = Some h -> e < start ->
  forall fuel, exists so', so_integrate_times e fuel g so x start [0] = (so', Err OutOfFuel).
Proof. exact (@c67_stuck). Qed.
Print Assumptions C67_stuck.

Theorem C67_errors :
  forall {X} e fuel (g : engine X) so x start times, so_integrate_times e fuel g so x start [] = (mkSolver (so_log so) (so_stepper so) (so_step so) (so_rel so) (so_abs so) [], Err ERuntime)
  /\ (times <> [] -> times <> [start] -> so_isDefined so = false -> so_stepper so <> RungeKutta4 \/ so_step so = None -> snd (so_integrate_times e fuel g so x start times) = Err EUndefined).
Proof. exact (@c67_errors). Qed.
Print Assumptions C67_errors.

(** Forward from 0 to 1 and 5/2: the states of x' = 1. *)
Example C67_example : exists N l so', (forall fuel, (N <= fuel)%nat -> so_integrate_times (1 / 8) fuel clock rk4_solver 7 0 [1; 5 / 2] = (so', Ok l)) /\ l = [(8, 1); (19 / 2, 5 / 2)].
Proof.
  destruct (c67_exact_partial (1 / 8) clock rk4_solver 1 1 7 0 [1; 5 / 2]) as (N & l & so' & E & M & _ & F); try reflexivity; try lra; [left; reflexivity | discriminate | | cbn; lra |].
  - split; [exists 1%nat, 0; cbn; lra |]. split; [exists 1%nat, (1 / 2); cbn; lra | exact I].
  - exists N, l, so'. split; [exact E |]. specialize (F (fun t => t + 7) (one_follows RungeKutta4 7) ltac:(lra)).
    destruct l as [| [y t] [| [z u] [| p l]]]; try discriminate. cbn [map snd] in M. injection M as -> ->.
    pose proof (F y 1 (or_introl eq_refl)) as ->. pose proof (F z (5 / 2) (or_intror (or_introl eq_refl))) as ->. replace (1 + 7) with 8 by lra. replace (5 / 2 + 7) with (19 / 2) by lra. reflexivity.
Qed.
(** Backward to a negative time. *)
Example C67_example_backward : exists N l so', (forall fuel, (N <= fuel)%nat -> so_integrate_times (1 / 8) fuel clock rk4_solver 7 1 [-2] = (so', Ok l)) /\ l = [(4, -2)].
Proof.
  destruct (c67_exact_partial (1 / 8) clock rk4_solver 1 (- 1) 7 1 [-2]) as (N & l & so' & E & M & _ & F); try reflexivity; try lra; [right; reflexivity | discriminate | | cbn; lra |].
  - split; [exists 3%nat, 0; cbn; lra | exact I].
  - exists N, l, so'. split; [exact E |]. specialize (F (fun t => t + 6) (one_follows RungeKutta4 6) ltac:(lra)).
    destruct l as [| [y t] [| p l]]; try discriminate. cbn [map snd] in M. injection M as ->.
    pose proof (F y (- 2) (or_introl eq_refl)) as ->. replace (- 2 + 6) with 4 by lra. reflexivity.
Qed.
(** A controlled stepper. *)
Lemma clock_steps e (t : R) x : 0 <= e < 1 / 4 -> forall n, (2 <= n)%nat -> to_time_c e clock n 0 tt x t (t + 1) (1 * 1) = Ok (tt, x + 1, 1 * 1).
Proof.
  intros He n Hn. destruct n as [| [| n]]; [lia | lia |]. cbn [to_time_c clock scalar_engine try_step].
  replace (min_abs (1 * 1) (t + 1 - t)) with (1 * 1) by (unfold min_abs; rewrite (pos_true (1 * 1)) by lra; rewrite Rmin_left by lra; ring).
  replace (max_abs (1 * 1) (1 * 1)) with (1 * 1) by (unfold max_abs; destruct Rltb; [rewrite Rmax_left by lra | rewrite Rmin_left by lra]; reflexivity).
  unfold less_sign. rewrite (pos_true (1 * 1)) by lra. rewrite (proj2 (Rltb_true _ _)) by lra. rewrite (proj2 (Rltb_false _ _)) by lra. rewrite rk4_one. do 3 f_equal. ring.
Qed.
Example C67_example_controlled : exists so', so_integrate_times (1 / 8) 2 clock (dopri_solver NoLog) 7 0 [1] = (so', Ok [(8, 1)]).
Proof.
  unfold so_integrate_times. cbn [length Nat.eqb andb last]. rewrite (reqb_ne 1 0) by lra. unfold dopri_solver, Solver, made. cbn [so_step so_stepper so_abs so_rel to_double bind].
  rewrite (signed_step_sense 1 1) by (first [left; reflexivity | lra]). cbn [times_controlled].
  pose proof (clock_steps (1 / 8) 0 7 ltac:(lra) 2 ltac:(lia)) as E. rewrite Rplus_0_l in E. change (fresh clock RungeKuttaDopri5 1 1) with tt. rewrite E. eexists. unfold observing, seen. cbn [fst snd bind tl]. replace (7 + 1) with 8 by lra. reflexivity.
Qed.

(** *** C68: agreement of the scalar and array forms *)
(** Missing from C68: start times other than 0 of systems that depend on the time and the tag of the state, for which the claim is false (below); the other steppers. *)
Theorem C68_same_state_partial :
  forall {X} e (g : engine X) so h s x a b, 0 <= e < h -> so_stepper so = RungeKutta4 -> so_step so = Some h -> sense s ->
  0 < s * (b - a) -> 0 < s * b -> fits h e (s * (b - a)) -> a = 0 \/ autonomous g ->
  exists N y so1 so2, forall fuel, (N <= fuel)%nat -> so_integrate_time e fuel g so x a b = (so1 fuel, Ok (y, b - a)) /\ so_integrate_times e fuel g so x a [b] = (so2, Ok [(y, b)]).
Proof. exact (@c68_same_state_partial). Qed.
Print Assumptions C68_same_state_partial.

(** A list of durations is counted from the time 0.  Missing: the other steppers, and durations which are not whole numbers of steps apart. *)
Theorem C68_durations_partial :
  forall {X} e (g : engine X) so h s x ds, 0 <= e < h -> so_stepper so = RungeKutta4 -> so_step so = Some h ->
  sense s -> ds <> [] -> all_fit s h e 0 ds -> 0 < s * last ds 0 ->
  exists N l so', (forall fuel, (N <= fuel)%nat -> so_integrate_durations e fuel g so x ds = (so', Ok l))
    /\ map snd l = ds /\ forall c, follows (accepts g RungeKutta4) c -> x = c 0 -> forall y d, In (y, d) l -> y = c d.
Proof. exact (@c68_durations_partial). Qed.
Print Assumptions C68_durations_partial.

(** The scalar form always tags the state with the duration. *)
Theorem C68_tag :
  forall {X} e fuel (g : engine X) so x a b so' y t, so_integrate_time e fuel g so x a b = (so', Ok (y, t)) -> t = b - a.
Proof. exact (@c68_tag). Qed.
Print Assumptions C68_tag.

(** x' = t from the time 1 to the time 2: the array form gives the solution, the scalar form another state and another tag. *)
Theorem C68_refuted :
  forall e fuel, 0 <= e < 1 / 4 -> (4 <= fuel)%nat ->
  exists (g : engine R) so x a b so1 so2 y1 y2 t1 c, so_stepper so = RungeKutta4 /\ so_step so = Some 1 /\ follows (accepts g RungeKutta4) c /\ x = c a
    /\ so_integrate_times e fuel g so x a [b] = (so1, Ok [(y1, b)]) /\ y1 = c b /\ so_integrate_time e fuel g so x a b = (so2, Ok (y2, t1)) /\ t1 <> b /\ y2 <> y1.
Proof. exact c68_refuted. Qed.
Print Assumptions C68_refuted.

(** x' = 1 does not depend on the time: from 2 to 9/2. *)
Example C68_example : exists N y so1 so2, forall fuel, (N <= fuel)%nat ->
  so_integrate_time (1 / 8) fuel clock rk4_solver 7 2 (9 / 2) = (so1 fuel, Ok (y, 9 / 2 - 2)) /\ so_integrate_times (1 / 8) fuel clock rk4_solver 7 2 [9 / 2] = (so2, Ok [(y, 9 / 2)]).
Proof.
  apply (c68_same_state_partial (1 / 8) clock rk4_solver 1 1 7 2 (9 / 2)); try reflexivity; try lra; [left; reflexivity | exists 2%nat, (1 / 2); cbn; lra | right].
  intros x t t' dt. cbn [clock scalar_engine rk4_step]. rewrite !rk4_one. reflexivity.
Qed.

(** *** C69: integration over a duration *)
(** Runge-Kutta 4 with every log type. *)
Theorem C69_rk4 :
  forall {X} e (g : engine X) so h s x d, 0 <= e < h -> so_stepper so = RungeKutta4 -> so_step so = Some h -> sense s -> 0 <= s * d ->
  exists N y so', (forall fuel, (N <= fuel)%nat -> so_integrate_duration e fuel g so x d = (so', Ok (y, d)))
    /\ exists u, Rabs (d - u) <= e /\ run (accepts g RungeKutta4) s x 0 y u.
Proof. exact (@c69_rk4). Qed.
Print Assumptions C69_rk4.

(** The other steppers, when they return a result.  Missing from C69: constant logging, for which the claim is false (below). *)
Theorem C69_controlled_partial :
  forall {X} e fuel (g : engine X) so h s x d so' y t, 0 <= e -> controlled g -> so_stepper so <> RungeKutta4 -> so_log so <> LogConstant ->
  so_step so = Some h -> 0 < h -> sense s -> 0 <= s * d -> so_integrate_duration e fuel g so x d = (so', Ok (y, t)) ->
  t = d /\ exists u, Rabs (d - u) <= e /\ run (accepts g (so_stepper so)) s x 0 y u.
Proof. exact (@c69_controlled_partial). Qed.
Print Assumptions C69_controlled_partial.

(** With constant logging the state returned is the one at the last multiple of the time step, tagged with the duration. *)
Theorem C69_constant :
  forall {X} e fuel (g : engine X) so h s x d so' y t, 0 <= e < h -> controlled g -> so_stepper so <> RungeKutta4 -> so_log so = LogConstant ->
  so_step so = Some h -> sense s -> 0 < s * d -> so_integrate_duration e fuel g so x d = (so', Ok (y, t)) ->
  t = d /\ exists l n, so_observed so' = (x, 0) :: l /\ map snd l = map (fun a => INR a * (s * h)) (seq 1 n) /\ legs (accepts g (so_stepper so)) s e x 0 l
    /\ last (map fst l) x = y /\ - e <= s * (d - INR n * (s * h)) < h - e.
Proof. exact (@c69_constant). Qed.
Print Assumptions C69_constant.

Theorem C69_constant_refuted :
  forall k, k <> RungeKutta4 -> exists (g : engine R) so x d y (c : R -> R), controlled g /\ so_stepper so = k /\ so_step so = Some 1 /\ 0 < d
  /\ follows (accepts g k) c /\ x = c 0 /\ Rabs (y - c d) = 1 / 2
  /\ forall e fuel, 0 <= e < 1 / 4 -> (3 <= fuel)%nat -> exists so', so_integrate_duration e fuel g so x d = (so', Ok (y, d)).
Proof. exact c69_constant_refuted. Qed.
Print Assumptions C69_constant_refuted.

Theorem C69_zero :
  forall {X} e fuel (g : engine X) so x, exists so', so_integrate_duration e fuel g so x 0 = (so', Ok (x, 0)) /\ so_observed so' = [].
Proof. exact (@c69_zero). Qed.
Print Assumptions C69_zero.

Theorem C69_errors :
  forall {X} e fuel (g : engine X) so x d, d <> 0 -> so_isDefined so = false -> so_stepper so <> RungeKutta4 \/ so_step so = None ->
  snd (so_integrate_duration e fuel g so x d) = Err EUndefined.
Proof. exact (@c69_errors). Qed.
Print Assumptions C69_errors.

(** Runge-Kutta 4 over a duration that is not a number of steps. *)
Example C69_example : exists N y so', (forall fuel, (N <= fuel)%nat -> so_integrate_duration (1 / 8) fuel clock rk4_solver 7 (3 / 2) = (so', Ok (y, 3 / 2))) /\ Rabs (y - (7 + 3 / 2)) <= 1 / 8.
Proof.
  destruct (c69_rk4 (1 / 8) clock rk4_solver 1 1 7 (3 / 2)) as (N & y & so' & E & u & U & Ru); try reflexivity; try lra; [left; reflexivity |].
  exists N, y, so'. split; [exact E |]. assert (Y : y = u + 7) by (refine (run_follows _ _ _ _ _ _ _ (one_follows RungeKutta4 7) Ru _); lra). rewrite Y. rewrite Rabs_minus_sym. replace (7 + 3 / 2 - (u + 7)) with (3 / 2 - u) by ring. exact U.
Qed.
(** A controlled stepper without constant logging. *)
Example C69_example_controlled : exists so', so_integrate_duration (1 / 8) 2 clock (dopri_solver LogAdaptive) 7 1 = (so', Ok (8, 1)).
Proof.
  unfold so_integrate_duration. rewrite (reqb_ne 1 0) by lra. unfold dopri_solver, Solver, made. cbn [so_step so_stepper so_abs so_rel so_log to_double bind].
  rewrite (signed_step_sense 1 1) by (first [left; reflexivity | lra]). cbn [adaptive_controlled]. unfold less_sign. rewrite (pos_true (1 * 1)) by lra.
  rewrite (proj2 (Rltb_true (1 / 8) _)) by lra. rewrite (proj2 (Rltb_false (1 / 8) _)) by lra. unfold max_fails. cbn [tries clock scalar_engine try_step]. rewrite (pos_true (1 * 1)) by lra.
  rewrite (proj2 (Rltb_false (1 / 8) _)) by lra. rewrite rk4_one. eexists. unfold observing, seen. cbn [fst snd bind]. replace (7 + 1 * 1) with 8 by lra. reflexivity.
Qed.

(** *** C70: observations *)
(** Except for the start time alone ... *)
Theorem C70_array :
  forall {X} e fuel (g : engine X) so x start times so' l, times <> [start] -> so_integrate_times e fuel g so x start times = (so', Ok l) ->
  so_observed so' = (x, start) :: l.
Proof. exact (@c70_array). Qed.
Print Assumptions C70_array.

(** ... which leaves no observation. *)
Theorem C70_single_refuted :
  forall {X} e fuel (g : engine X) x start, exists so' : solver X, so_isDefined so' = true
  /\ so_integrate_times e fuel g so_Default x start [start] = (so', Ok [(x, start)]) /\ so_observations so' = Ok [].
Proof. exact (@c70_single_refuted). Qed.
Print Assumptions C70_single_refuted.

(** The observations of the previous call do not matter. *)
Theorem C70_fresh :
  forall {X} e fuel (g : engine X) l k h rel abs o o' x start times d stop, let so := mkSolver l k h rel abs o in let so' := mkSolver l k h rel abs o' in
  so_integrate_times e fuel g so x start times = so_integrate_times e fuel g so' x start times
  /\ so_integrate_duration e fuel g so x d = so_integrate_duration e fuel g so' x d
  /\ so_integrate_time e fuel g so x start stop = so_integrate_time e fuel g so' x start stop
  /\ so_integrate_durations e fuel g so x times = so_integrate_durations e fuel g so' x times.
Proof. exact (@c70_fresh). Qed.
Print Assumptions C70_fresh.

Theorem C70_kept :
  forall {X} e fuel (g : engine X) so x start times d, let same (s : solver X) := so_log s = so_log so /\ so_stepper s = so_stepper so /\ so_step s = so_step so /\ so_rel s = so_rel so /\ so_abs s = so_abs so in
  same (fst (so_integrate_times e fuel g so x start times)) /\ same (fst (so_integrate_duration e fuel g so x d)).
Proof. exact (@c70_kept). Qed.
Print Assumptions C70_kept.

Theorem C70_empty :
  forall {X} e fuel (g : engine X) so x start, exists so', so_integrate_times e fuel g so x start [] = (so', Err ERuntime) /\ so_observed so' = [].
Proof. exact (@c70_empty). Qed.
Print Assumptions C70_empty.

Theorem C70_duration :
  forall {X} e fuel (g : engine X) so x d so' y t, d <> 0 -> so_integrate_duration e fuel g so x d = (so', Ok (y, t)) ->
  exists l u, so_observed so' = (x, 0) :: l /\ last ((x, 0) :: l) (x, 0) = (y, u).
Proof. exact (@c70_duration). Qed.
Print Assumptions C70_duration.

Theorem C70_access :
  forall {X} (so : solver X), (so_isDefined so = true -> so_observations so = Ok (so_observed so)) /\ (so_isDefined so = false -> so_observations so = Err EUndefined).
Proof. exact (@c70_access). Qed.
Print Assumptions C70_access.

(** Integration from 0 to 1 observes both ends. *)
Example C70_example : exists so', so_integrate_times (1 / 8) 2 clock (dopri_solver NoLog) 7 0 [1] = (so', Ok [(8, 1)]) /\ so_observed so' = [(7, 0); (8, 1)].
Proof.
  destruct C67_example_controlled as [so' E]. exists so'. split; [exact E |]. refine (c70_array _ _ _ _ _ _ _ _ _ _ E). intros Z. assert (Z1 : 1 = 0) by exact (f_equal (hd 0) Z). lra.
Qed.
Example C70_example_duration : exists so' l u, so_integrate_duration (1 / 8) 2 clock (dopri_solver LogAdaptive) 7 1 = (so', Ok (8, 1)) /\ so_observed so' = (7, 0) :: l /\ last ((7, 0) :: l) (7, 0) = (8, u).
Proof.
  destruct C69_example_controlled as [so' E]. destruct (c70_duration _ _ _ _ _ _ _ _ _ R1_neq_R0 E) as (l & u & H). exists so', l, u. split; [exact E | exact H].
Qed.

(** *** C96: equality and accessors *)
Theorem C96_equality :
  forall {X} (s t : solver X), so_eq s t = true <->
  so_log s = so_log t /\ so_stepper s = so_stepper t
  /\ exists h r a, so_step s = Some h /\ so_step t = Some h /\ so_rel s = Some r /\ so_rel t = Some r /\ so_abs s = Some a /\ so_abs t = Some a.
Proof. exact (@c96_equality). Qed.
Print Assumptions C96_equality.

Theorem C96_equivalence :
  forall {X} (s t u : solver X), (so_eq s s = so_isDefined s) /\ so_eq s t = so_eq t s /\ (so_eq s t = true -> so_eq t u = true -> so_eq s u = true).
Proof. exact (@c96_equivalence). Qed.
Print Assumptions C96_equivalence.

Theorem C96_accessors :
  forall {X} l k h r a, let s : solver X := Solver l k h r a in
  (so_isDefined s = true <-> h <> None /\ r <> None /\ a <> None)
  /\ (so_isDefined s = true -> so_getLogType s = Ok l /\ so_getStepperType s = Ok k /\ so_getTimeStep s = Ok h /\ so_getRelativeTolerance s = Ok r /\ so_getAbsoluteTolerance s = Ok a /\ so_observations s = Ok [])
  /\ (so_isDefined s = false -> so_getLogType s = Err EUndefined /\ so_getStepperType s = Err EUndefined /\ so_getTimeStep s = Err EUndefined /\ so_getRelativeTolerance s = Err EUndefined
      /\ so_getAbsoluteTolerance s = Err EUndefined /\ so_observations s = Err EUndefined).
Proof. exact (@c96_accessors). Qed.
Print Assumptions C96_accessors.

(** The absolute tolerance is given to the stepper first, the relative one second: a run depends only on the memory made with them in this order. *)
Theorem C96_tolerances :
  forall {X} e fuel (g : engine X) (f : stepper_type -> R -> R -> memory g) (s : solver X) a r x start times d, so_abs s = Some a -> so_rel s = Some r -> f (so_stepper s) a r = fresh g (so_stepper s) a r ->
  let g' := mkEngine (rk4_step g) (memory g) f (try_step g) in
  so_integrate_times e fuel g' s x start times = so_integrate_times e fuel g s x start times /\ so_integrate_duration e fuel g' s x d = so_integrate_duration e fuel g s x d.
Proof. exact (@c96_tolerances). Qed.
Print Assumptions C96_tolerances.

Theorem C96_constants :
  forall {X}, so_isDefined (@so_Undefined X) = false /\ so_isDefined (@so_Default X) = true /\ so_eq (@so_Default X) so_Default = true
  /\ so_eq (@so_Undefined X) so_Undefined = false.
Proof. exact (@c96_constants). Qed.
Print Assumptions C96_constants.

(** Solvers with different observations are equal, with different log types not. *)
Example C96_example : so_eq (dopri_solver NoLog) (mkSolver NoLog RungeKuttaDopri5 (Some 1) (Some 1) (Some 1) [(7, 0)]) = true /\ so_eq (dopri_solver NoLog) (dopri_solver LogAdaptive) = false.
Proof.
  split; [| reflexivity]. apply c96_equality. split; [reflexivity |]. split; [reflexivity |]. exists 1, 1, 1. repeat split.
Qed.
