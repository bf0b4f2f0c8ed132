(** Model of the grid generators of [Interval<Real>]
    (/repo/src/OpenSpaceToolkit/Mathematics/Object/Interval.tpp).

    [Real] arithmetic is exact arithmetic on [R] in [generateArrayWithStep] and
    [generateArrayWithSize]; [step_loop64] is the same loop in binary64. *)

From Coq Require Import List Bool Reals ZArith Floats.SpecFloat.
From Verif Require Import Result DOrder IntervalModel.
Import ListNotations.
Local Open Scope R_scope.

(** Interval.tpp 404-409: the loop "while (value < upper) { add; value += step }". *)
Fixpoint up_loop (fuel : nat) (step upper value : R) : result (list R) :=
  match fuel with
  | O => Err OutOfFuel
  | S f =>
      if Rltb value upper then let! r := up_loop f step upper (value + step) in Ok (value :: r)
      else Ok []
  end.

(** Interval.tpp 425-430: the loop "while (value > lower) { add; value += step }". *)
Fixpoint down_loop (fuel : nat) (step lower value : R) : result (list R) :=
  match fuel with
  | O => Err OutOfFuel
  | S f =>
      if Rltb lower value then let! r := down_loop f step lower (value + step) in Ok (value :: r)
      else Ok []
  end.

(** Interval.tpp 374-440: generateArrayWithStep. *)
Definition generateArrayWithStep (fuel : nat) (i : interval R_order) (step : option R) : result (list R) :=
  let! (t, l, u) := @open_interval R_order i in
  match step with
  | None => Err EUndefined
  | Some s =>
      if Req_EM_T s 0 then Err ERuntime
      else if Rltb 0 s then
        let value := if open_left t then l + s else l in
        let! g := up_loop fuel s u value in
        Ok (if closed_right t then g ++ [u] else g)
      else
        let value := if open_right t then u + s else u in
        let! g := down_loop fuel s l value in
        Ok (if closed_left t then g ++ [l] else g)
  end.

(** Interval.tpp 481-487: "for (it = begin; it != end; ++it, value += step) *it = value". *)
Fixpoint fill (n : nat) (step value : R) : list R :=
  match n with
  | O => []
  | S m => value :: fill m step (value + step)
  end.

(** Interval.tpp 443-490: generateArrayWithSize.  accessLowerBound / accessUpperBound
    (165-185) throw Undefined on an undefined interval. *)
Definition generateArrayWithSize (i : interval R_order) (n : nat) : result (list R) :=
  if Nat.ltb n 2 then Err EWrong
  else
    match itp i with
    | TUndefined => Err EWrong
    | t =>
        let! (_, l, u) := @open_interval R_order i in
        let '(step, value) :=
          match t with
          | TClosed => let s := (u - l) / INR (n - 1) in (s, l)
          | TOpen => let s := (u - l) / INR (n + 1) in (s, l + s)
          | THalfOpenLeft => let s := (u - l) / INR n in (s, l + s)
          | _ => let s := (u - l) / INR n in (s, l)
          end in
        Ok (fill n step value)
    end.

(** *** The same loop in binary64 (lines 404-409). *)
Definition f64_add := SFadd 53 1024.
Fixpoint step_loop64 (fuel : nat) (step upper value : spec_float) : result (list spec_float) :=
  match fuel with
  | O => Err OutOfFuel
  | S f =>
      if SFltb value upper then
        let! r := step_loop64 f step upper (f64_add value step) in Ok (value :: r)
      else Ok []
  end.
