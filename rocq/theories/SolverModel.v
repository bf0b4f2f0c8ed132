(** Model of Solver/NumericalSolver.{hpp,cpp}.

    Times are mathematical reals (binary64 rounding is not modelled); a Real that may be undefined is an option.
    The state vectors are any type [X].  The integration loops are those of boost::numeric::odeint 1.82 (the version
    CMakeLists.txt 262 asks for), written out in this file because the repository only calls them; what one step of
    a stepper computes is left to the record [engine]. *)

From Coq Require Import List Bool Reals.
From Verif Require Import Result DOrder RotModel.
Import ListNotations.
Local Open Scope R_scope.

(** NumericalSolver.hpp 38-54: LogType and StepperType (values outside the enumerations are not modelled). *)
Inductive log_type := NoLog | LogConstant | LogAdaptive.
Inductive stepper_type := RungeKutta4 | RungeKuttaCashKarp54 | RungeKuttaFehlberg78 | RungeKuttaDopri5
  | AdamsBashforthMoulton5 | AdamsBashforthMoulton8 | BulirschStoer.

Section Solver.
Context {X : Type}.

(** What the steppers compute for a given system of equations: one step of runge_kutta4 from the state at a time over
    a step; one try of a controlled stepper, which may keep a memory, and which answers whether the step is accepted,
    the new state and time, and the next step to try.  The memory depends at first on the stepper, the absolute and the
    relative tolerance. *)
Record engine := mkEngine {
  rk4_step : X -> R -> R -> X;
  memory : Type;
  fresh : stepper_type -> R -> R -> memory;
  try_step : memory -> X -> R -> R -> bool * memory * X * R * R
}.
(** The states given to the observer, and the outcome of the call. *)
Definition traced (A : Type) : Type := (list (X * R) * result A)%type.
Definition seen {A} (o : X * R) (r : traced A) : traced A := (o :: fst r, snd r).
Definition failed {A} (e : error) : traced A := ([], Err e).
Definition then_ {A B} (r : traced A) (f : A -> traced B) : traced B :=
  match snd r with
  | Ok a => (fst r ++ fst (f a), snd (f a))
  | Err e => (fst r, Err e)
  | UB => (fst r, UB)
  end.

Section Loops.
(** [teps] is std::numeric_limits<double>::epsilon(); [fuel] bounds the number of steps taken by one loop. *)
Variable teps : R.
Variable fuel : nat.
Variable g : engine.

(** odeint/util/detail/less_with_sign.hpp *)
Definition less_sign (dt t1 t2 : R) : bool := if Rltb 0 dt then Rltb teps (t2 - t1) else Rltb teps (t1 - t2).
Definition less_eq_sign (dt t1 t2 : R) : bool := if Rltb 0 dt then Rleb (t1 - t2) teps else Rleb (t2 - t1) teps.
Definition min_abs (t1 t2 : R) : R := if Rltb 0 t1 then Rmin t1 t2 else Rmax t1 t2.
Definition max_abs (t1 t2 : R) : R := if Rltb 0 t1 then Rmax t1 t2 else Rmin t1 t2.

(** odeint/integrate/detail/integrate_times.hpp, stepper_tag: the inner loop towards the next time. *)
Fixpoint to_time (n : nat) (x : X) (t target dt current : R) : result (X * R) :=
  match n with
  | O => Err OutOfFuel
  | S n =>
    if less_sign current t target then
      let current := min_abs dt (target - t) in
      to_time n (rk4_step g x t current) (t + current) target dt current
    else Ok (x, current)
  end.
Fixpoint times_simple (x : X) (t : R) (times : list R) (dt current : R) : traced X :=
  match times with
  | [] => ([(x, t)], Ok x)
  | target :: times =>
    seen (x, t)
      (match to_time fuel x t target dt current with
       | Ok (x, current) => times_simple x target times dt current
       | Err e => ([], Err e)
       | UB => ([], UB)
       end)
  end.
(** the same, controlled_stepper_tag; failed_step_checker allows 500 failures in a row. *)
Definition max_fails : nat := 500.
Fixpoint to_time_c (n fails : nat) (s : memory g) (x : X) (t target dt : R) : result (memory g * X * R) :=
  match n with
  | O => Err OutOfFuel
  | S n =>
    if less_sign dt t target then
      match try_step g s x t (min_abs dt (target - t)) with
      | (true, s, x, t, current) => to_time_c n 0 s x t target (max_abs dt current)
      | (false, s, x, t, current) =>
        if Nat.leb max_fails fails then Err ERuntime else to_time_c n (S fails) s x t target current
      end
    else Ok (s, x, dt)
  end.
Fixpoint times_controlled (s : memory g) (x : X) (t : R) (times : list R) (dt : R) : traced X :=
  match times with
  | [] => ([(x, t)], Ok x)
  | target :: times =>
    seen (x, t)
      (match to_time_c fuel 0 s x t target dt with
       | Ok (s, x, dt) => times_controlled s x target times dt
       | Err e => ([], Err e)
       | UB => ([], UB)
       end)
  end.

(** odeint/integrate/detail/integrate_const.hpp, stepper_tag. *)
Fixpoint const_simple (n step : nat) (x : X) (start stop dt : R) : traced (X * nat) :=
  match n with
  | O => failed OutOfFuel
  | S n =>
    let time := start + INR step * dt in
    seen (x, time)
      (if less_eq_sign dt (time + dt) stop then const_simple n (S step) (rk4_step g x time dt) start stop dt
       else ([], Ok (x, step)))
  end.
(** odeint/integrate/detail/integrate_adaptive.hpp, stepper_tag. *)
Definition adaptive_simple (x : X) (start stop dt : R) : traced X :=
  then_ (const_simple fuel 0 x start stop dt) (fun r =>
    let '(x, step) := r in
    let last := start + dt * INR step in
    if less_sign dt last stop then
      let x := rk4_step g x last (stop - last) in ([(x, stop)], Ok x)
    else ([], Ok x)).
(** the same, controlled_stepper_tag: tries until a step is accepted ... *)
Fixpoint tries (n : nat) (s : memory g) (x : X) (t dt : R) : result (memory g * X * R * R) :=
  match n with
  | O => Err ERuntime
  | S n =>
    match try_step g s x t dt with
    | (true, s, x, t, dt) => Ok (s, x, t, dt)
    | (false, s, x, t, dt) => tries n s x t dt
    end
  end.
(** ... and steps until the end is reached. *)
Fixpoint adaptive_controlled (n : nat) (s : memory g) (x : X) (t stop dt : R) : traced X :=
  match n with
  | O => failed OutOfFuel
  | S n =>
    seen (x, t)
      (if less_sign dt t stop then
         match tries max_fails s x t (if less_sign dt stop (t + dt) then stop - t else dt) with
         | Ok (s, x, t, dt) => adaptive_controlled n s x t stop dt
         | Err e => ([], Err e)
         | UB => ([], UB)
         end
       else ([], Ok x))
  end.
(** integrate_const.hpp, controlled_stepper_tag: integrate_adaptive, with a copy of the stepper and without observer,
    over every interval. *)
Fixpoint const_controlled (n step : nat) (s : memory g) (x : X) (start stop dt : R) : traced X :=
  match n with
  | O => failed OutOfFuel
  | S n =>
    let time := start + INR step * dt in
    seen (x, time)
      (if less_eq_sign dt (time + dt) stop then
         match snd (adaptive_controlled fuel s x time (time + dt) dt) with
         | Ok x => const_controlled n (S step) s x start stop dt
         | Err e => ([], Err e)
         | UB => ([], UB)
         end
       else ([], Ok x))
  end.
End Loops.

(** NumericalSolver.hpp 317-326: the members. *)
Record solver := mkSolver {
  so_log : log_type;
  so_stepper : stepper_type;
  so_step : option R;
  so_rel : option R;
  so_abs : option R;
  so_observed : list (X * R)
}.
(** NumericalSolver.cpp 86-100: constructor. *)
Definition Solver (l : log_type) (k : stepper_type) (h rel abs : option R) : solver := mkSolver l k h rel abs [].
(** 126-129: isDefined *)
Definition so_isDefined (s : solver) : bool :=
  match so_step s, so_rel s, so_abs s with Some _, Some _, Some _ => true | _, _, _ => false end.
(** 102-112: operator== *)
Definition log_eqb (a b : log_type) : bool :=
  match a, b with NoLog, NoLog | LogConstant, LogConstant | LogAdaptive, LogAdaptive => true | _, _ => false end.
Definition stepper_eqb (a b : stepper_type) : bool :=
  match a, b with
  | RungeKutta4, RungeKutta4 | RungeKuttaCashKarp54, RungeKuttaCashKarp54 | RungeKuttaFehlberg78, RungeKuttaFehlberg78
  | RungeKuttaDopri5, RungeKuttaDopri5 | AdamsBashforthMoulton5, AdamsBashforthMoulton5
  | AdamsBashforthMoulton8, AdamsBashforthMoulton8 | BulirschStoer, BulirschStoer => true
  | _, _ => false
  end.
Definition real_eqb (a b : option R) : bool := match a, b with Some x, Some y => Reqb x y | _, _ => false end.
Definition so_eq (s t : solver) : bool :=
  if negb (so_isDefined s) || negb (so_isDefined t) then false
  else log_eqb (so_log s) (so_log t) && stepper_eqb (so_stepper s) (so_stepper t) && real_eqb (so_step s) (so_step t)
       && real_eqb (so_rel s) (so_rel t) && real_eqb (so_abs s) (so_abs t).
(** 151-159, 211-214: accessObservedStateVectors, getObservedStateVectors *)
Definition so_observations (s : solver) : result (list (X * R)) :=
  if so_isDefined s then Ok (so_observed s) else Err EUndefined.
(** 161-209: the other accessors *)
Definition so_getStepperType (s : solver) : result stepper_type := if so_isDefined s then Ok (so_stepper s) else Err EUndefined.
Definition so_getLogType (s : solver) : result log_type := if so_isDefined s then Ok (so_log s) else Err EUndefined.
Definition so_getTimeStep (s : solver) : result (option R) := if so_isDefined s then Ok (so_step s) else Err EUndefined.
Definition so_getRelativeTolerance (s : solver) : result (option R) := if so_isDefined s then Ok (so_rel s) else Err EUndefined.
Definition so_getAbsoluteTolerance (s : solver) : result (option R) := if so_isDefined s then Ok (so_abs s) else Err EUndefined.
(** Conversion of a Real to double: an undefined Real raises an error. *)
Definition to_double (x : option R) : result R := match x with Some x => Ok x | None => Err EUndefined end.
(** 754-758: getSignedTimeStep *)
Definition signed_step (h : option R) (x : R) : result R :=
  let! h := to_double h in
  Ok (h * ((if Rltb 0 x then 1 else 0) - (if Rltb x 0 then 1 else 0))).

Definition observing {A} (s : solver) (o : list (X * R)) (r : result A) : solver * result A :=
  (mkSolver (so_log s) (so_stepper s) (so_step s) (so_rel s) (so_abs s) o, r).
(** 269-330, 408-610: the tolerances are converted in the order they are written, the memory of the stepper made. *)
Definition made (g : engine) (s : solver) : result (memory g) :=
  let! a := to_double (so_abs s) in
  let! r := to_double (so_rel s) in
  Ok (fresh g (so_stepper s) a r).
(** 216-347: integrateTime(array).  The observer is observeNumericalIntegration (720-752), which stores the state and
    prints it according to the log type; printing is not modelled. *)
Definition so_integrate_times (teps : R) (fuel : nat) (g : engine) (s : solver) (x : X) (start : R) (times : list R)
  : solver * result (list (X * R)) :=
  match times with
  | [] => observing s [] (Err ERuntime)
  | t :: more =>
    if Nat.eqb (length times) 1 && Reqb t start then observing s [] (Ok [(x, start)])
    else
      match signed_step (so_step s) (last times t) with
      | Ok dt =>
        match so_stepper s with
        | RungeKutta4 =>
          let '(o, r) := times_simple teps fuel g x start times dt dt in observing s o (let! _ := r in Ok (tl o))
        | _ =>
          match made g s with
          | Ok m => let '(o, r) := times_controlled teps fuel g m x start times dt in observing s o (let! _ := r in Ok (tl o))
          | Err e => observing s [] (Err e)
          | UB => observing s [] UB
          end
        end
      | Err e => observing s [] (Err e)
      | UB => observing s [] UB
      end
  end.
(** 349-629: integrateDuration *)
Definition so_integrate_duration (teps : R) (fuel : nat) (g : engine) (s : solver) (x : X) (d : R) : solver * result (X * R) :=
  if Reqb d 0 then observing s [] (Ok (x, 0))
  else
    match signed_step (so_step s) d with
    | Ok dt =>
      match so_stepper s with
      | RungeKutta4 =>
        let '(o, r) := adaptive_simple teps fuel g x 0 d dt in observing s o (let! y := r in Ok (y, d))
      | _ =>
        match made g s with
        | Ok m =>
          let '(o, r) :=
            match so_log s with
            | LogConstant => const_controlled teps fuel g fuel 0 m x 0 d dt
            | NoLog | LogAdaptive => adaptive_controlled teps g fuel m x 0 d dt
            end in
          observing s o (let! y := r in Ok (y, d))
        | Err e => observing s [] (Err e)
        | UB => observing s [] UB
        end
      end
    | Err e => observing s [] (Err e)
    | UB => observing s [] UB
    end.
(** 631-639: integrateTime(scalar) *)
Definition so_integrate_time (teps : R) (fuel : nat) (g : engine) (s : solver) (x : X) (start stop : R) : solver * result (X * R) :=
  so_integrate_duration teps fuel g s x (stop - start).
(** 641-648: integrateDuration(array) *)
Definition so_integrate_durations (teps : R) (fuel : nat) (g : engine) (s : solver) (x : X) (ds : list R) : solver * result (list (X * R)) :=
  so_integrate_times teps fuel g s x 0 ds.
End Solver.
Arguments engine X : clear implicits.
Arguments solver X : clear implicits.
(** 698-707, 709-718: Undefined, Default *)
Definition so_Undefined {X} : solver X := Solver NoLog RungeKuttaCashKarp54 None None None.
Definition so_Default {X} : solver X := Solver NoLog RungeKuttaFehlberg78 (Some 5) (Some (1 / 10 ^ 12)) (Some (1 / 10 ^ 12)).
