(** What binary64 numbers stand for, and what it means to be correctly rounded. *)

From Coq Require Import Bool ZArith Reals Floats.SpecFloat.
From Verif Require Import AngleModel.
Local Open Scope R_scope.

(** The real number a binary64 number stands for (0 for infinities and NaN). *)
Definition rval (x : spec_float) : R :=
  match x with
  | S754_finite s m e => (if s then - 1 else 1) * IZR (Zpos m) * powerRZ 2 e
  | _ => 0
  end.
(** A binary64 number that is neither an infinity nor NaN. *)
Definition finite64 (x : spec_float) : Prop :=
  match x with
  | S754_zero _ => True
  | S754_finite _ m e => bounded 53 1024 m e = true
  | _ => False
  end.
(** [z] is a binary64 number that none other is closer to [t] than. *)
Definition nearest64 (t : R) (z : spec_float) : Prop :=
  finite64 z /\ forall w, finite64 w -> Rabs (rval z - t) <= Rabs (rval w - t).
(** The real numbers that are binary64 numbers. *)
Definition representable (t : R) : Prop := exists w, finite64 w /\ rval w = t.
(** Rounding: the result is nearest, and within half a unit of the last of 53 digits
    (or, for numbers smaller than all normal numbers, half of the smallest number). *)
Definition rounded64 (t : R) (z : spec_float) : Prop :=
  nearest64 t z /\
  (Rabs (rval z - t) <= powerRZ 2 (-53) * Rabs t \/
   Rabs (rval z - t) <= powerRZ 2 (-1075) /\ Rabs t < powerRZ 2 (-1021)).
(** Units in one full turn, for the units of which a turn is a whole number. *)
Definition turn_count (u : unit) : Z :=
  match u with Degree => 360 | Arcminute => 21600 | Arcsecond => 1296000 | Revolution => 1 | _ => 0 end.
(** A list climbing from [v] by rounded steps to below [upper] ... *)
Inductive climbs64 (step upper : R) : spec_float -> list spec_float -> Prop :=
| climbs_end v : upper <= rval v -> climbs64 step upper v nil
| climbs_more v v' g : rval v < upper -> rval v < rval v' -> nearest64 (rval v + step) v' -> climbs64 step upper v' g -> climbs64 step upper v (v :: g).
(** ... and one falling from [v] to above [lower]. *)
Inductive falls64 (step lower : R) : spec_float -> list spec_float -> Prop :=
| falls_end v : rval v <= lower -> falls64 step lower v nil
| falls_more v v' g : lower < rval v -> rval v' < rval v -> nearest64 (rval v + step) v' -> falls64 step lower v' g -> falls64 step lower v (v :: g).
