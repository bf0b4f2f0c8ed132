(** What an integration is, independently of the loops computing it. *)

From Coq Require Import List Bool Reals.
From Verif Require Import Result SolverModel.
Import ListNotations.
Local Open Scope R_scope.

(** A direction of time. *)
Definition sense (s : R) : Prop := s = 1 \/ s = - 1.
(** One accepted step of the stepper of the given type, over [dt] from the state [x] at time [t]. *)
Definition accepts {X} (g : engine X) (k : stepper_type) (x : X) (t dt : R) (y : X) : Prop :=
  match k with
  | RungeKutta4 => y = rk4_step g x t dt
  | _ => exists m m' dt', try_step g m x t dt = (true, m', y, t + dt, dt')
  end.
(** From the state [x] at time [t] to the state [y] at time [t'] by accepted steps, each in the direction [s]. *)
Inductive run {X} (step : X -> R -> R -> X -> Prop) (s : R) : X -> R -> X -> R -> Prop :=
| run_here x t : run step s x t x t
| run_step x t dt y z t' : 0 < s * dt -> step x t dt y -> run step s y (t + dt) z t' -> run step s x t z t'.
(** Every state is reached from the one before, started at its tag, to its own tag up to the tolerance [e]. *)
Fixpoint legs {X} (step : X -> R -> R -> X -> Prop) (s e : R) (x : X) (t : R) (l : list (X * R)) : Prop :=
  match l with
  | [] => True
  | (y, t') :: l => (exists u, Rabs (t' - u) <= e /\ run step s x t y u) /\ legs step s e y t' l
  end.
(** The same, exactly. *)
Fixpoint exact_legs {X} (step : X -> R -> R -> X -> Prop) (s : R) (x : X) (t : R) (l : list (X * R)) : Prop :=
  match l with
  | [] => True
  | (y, t') :: l => run step s x t y t' /\ exact_legs step s y t' l
  end.
(** Times in order in the direction [s]. *)
Fixpoint ordered (s : R) (t : R) (l : list R) : Prop :=
  match l with [] => True | t' :: l => 0 <= s * (t' - t) /\ ordered s t' l end.
(** [d] is a number of steps [h], and a rest which is none or larger than the tolerance [e]. *)
Definition fits (h e d : R) : Prop := exists n r, d = INR n * h + r /\ (r = 0 \/ e < r < h - e).
Fixpoint all_fit (s h e : R) (t : R) (l : list R) : Prop :=
  match l with [] => True | t' :: l => fits h e (s * (t' - t)) /\ all_fit s h e t' l end.
(** What odeint's documentation promises of controlled steppers: an accepted step moves the time by the step, a rejected
    one changes nothing, and the next step to try keeps its direction, and is not larger after a rejection. *)
Definition keeps_sign (a b : R) : Prop := (0 < a -> 0 < b) /\ (a < 0 -> b < 0) /\ (a = 0 -> b = 0).
Definition controlled {X} (g : engine X) : Prop := forall m x t dt,
  match try_step g m x t dt with
  | (true, _, _, t', dt') => t' = t + dt /\ keeps_sign dt dt'
  | (false, _, x', t', dt') => x' = x /\ t' = t /\ keeps_sign dt dt' /\ Rabs dt' <= Rabs dt
  end.
(** The steps stay on the curve [c]. *)
Definition follows {X} (step : X -> R -> R -> X -> Prop) (c : R -> X) : Prop :=
  forall x t dt y, step x t dt y -> x = c t -> y = c (t + dt).
(** The steps do not depend on the time. *)
Definition autonomous {X} (g : engine X) : Prop := forall x t t' dt, rk4_step g x t dt = rk4_step g x t' dt.

(** The classical Runge-Kutta step for one equation x' = f(x, t). *)
Definition rk4 (f : R -> R -> R) (x t dt : R) : R :=
  let k1 := f x t in
  let k2 := f (x + dt / 2 * k1) (t + dt / 2) in
  let k3 := f (x + dt / 2 * k2) (t + dt / 2) in
  let k4 := f (x + dt * k3) (t + dt) in
  x + dt / 6 * (k1 + 2 * k2 + 2 * k3 + k4).
(** Steppers for one equation: runge_kutta4, and a controlled stepper taking its steps and accepting them all. *)
Definition scalar_engine (f : R -> R -> R) : engine R :=
  mkEngine (rk4 f) unit (fun _ _ _ => tt) (fun _ x t dt => (true, tt, rk4 f x t dt, t + dt, dt)).
