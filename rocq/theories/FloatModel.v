(** Angles, interval grids and the linear interpolator in double precision.

    The other models compute with real numbers; here [Real] and [double] are binary64 numbers
    (the [spec_float] of Coq's standard library with precision 53 and exponents up to 1024,
    rounding to nearest, ties to even), so the functions below round where the code rounds.
    An undefined [Real] is [None].  [Real] raises no error of its own on finite operands
    (the dependency's source is not available; its conversions to infinity on overflow
    are those of binary64). *)

From Coq Require Import List Bool Arith ZArith Floats.SpecFloat.
From Verif Require Import Result IntervalModel IntervalGridModel AngleModel InterpModel.
Import ListNotations.

Definition b64_mul := SFmul 53 1024.
Definition b64_div := SFdiv 53 1024.
(** An integer literal converted to double. *)
Definition b64_of_Z (n : Z) : spec_float := binary_normalize 53 1024 n 0 false.
Definition zero64 : spec_float := S754_zero false.
(** M_PI = 0x1.921fb54442d18p+1 and twice it. *)
Definition pi64 : spec_float := S754_finite false 7074237752028440 (-51).
Definition two_pi64 : spec_float := b64_mul (b64_of_Z 2) pi64.

(** *** Angle.cpp *)
(** Angle.hpp: members value_, unit_. *)
Record angle64 := mkA64 { aval64 : option spec_float; aunit64 : unit }.
Definition need64 (x : option spec_float) : result spec_float :=
  match x with Some r => Ok r | None => Err EUndefined end.

(** Angle.cpp 620-645: SIRatio. *)
Definition SIRatio64 (u : unit) : result spec_float :=
  match u with
  | Radian => Ok (b64_of_Z 1)
  | Degree => Ok (b64_div pi64 (b64_of_Z 180))
  | Arcminute => Ok (b64_div pi64 (b64_of_Z 10800))
  | Arcsecond => Ok (b64_div pi64 (b64_of_Z 648000))
  | Revolution => Ok two_pi64
  | UUndefined => Err EWrong
  end.

(** Angle.cpp 248-251: isDefined. *)
Definition isDefined64 (a : angle64) : bool :=
  match aval64 a with Some _ => negb (unit_eqb (aunit64 a) UUndefined) | None => false end.

(** Angle.cpp 304-317: in. *)
Definition in64 (a : angle64) (u : unit) : result spec_float :=
  if negb (isDefined64 a) then Err EUndefined
  else
    let! v := need64 (aval64 a) in
    if unit_eqb (aunit64 a) u then Ok v
    else
      let! r1 := SIRatio64 (aunit64 a) in
      let! r2 := SIRatio64 u in
      Ok (b64_div (b64_mul v r1) r2).

(** "(unit_ == anAngle.unit_) ? anAngle.value_ : anAngle.in(unit_)". *)
Definition converted64 (u : unit) (b : angle64) : result spec_float :=
  if unit_eqb u (aunit64 b) then need64 (aval64 b) else in64 b u.

(** Angle.cpp 21-76: operator==; the literal added to value_ in each case. *)
Definition turn64 (u : unit) : result spec_float :=
  match u with
  | Radian => Ok two_pi64
  | Degree => Ok (b64_of_Z 360)
  | Arcminute => Ok (b64_of_Z 21600)
  | Arcsecond => Ok (b64_of_Z 1296000)
  | Revolution => Ok (b64_of_Z 1)
  | UUndefined => Err EWrong
  end.
Definition angle_eq64 (fuel : nat) (a b : angle64) : result bool :=
  if unit_eqb (aunit64 a) UUndefined || unit_eqb (aunit64 b) UUndefined then Ok false
  else
    let! turn := turn64 (aunit64 a) in
    let! w := converted64 (aunit64 a) b in
    let! v := need64 (aval64 a) in
    let! r := ReduceRange64 fuel w v (sf_add v turn) in
    Ok (SFeqb v r).

(** Angle.cpp 83-101: operator+ and operator-. *)
Definition angle_add64 (a b : angle64) : result angle64 :=
  if unit_eqb (aunit64 a) UUndefined || unit_eqb (aunit64 b) UUndefined then Err EUndefined
  else
    let! w := converted64 (aunit64 a) b in
    let! v := need64 (aval64 a) in
    Ok (mkA64 (Some (sf_add v w)) (aunit64 a)).
Definition angle_sub64 (a b : angle64) : result angle64 :=
  if unit_eqb (aunit64 a) UUndefined || unit_eqb (aunit64 b) UUndefined then Err EUndefined
  else
    let! w := converted64 (aunit64 a) b in
    let! v := need64 (aval64 a) in
    Ok (mkA64 (Some (sf_sub v w)) (aunit64 a)).

(** Angle.cpp 324-342, 349-367, 374-392, 399-417: inRadians, inDegrees, inArcminutes and
    inArcseconds with a range; the span they ask for is the turn of the unit. *)
Definition in_range64 (fuel : nat) (u : unit) (a : angle64) (lo hi : option spec_float) : result spec_float :=
  let! lo := need64 lo in
  let! hi := need64 hi in
  let! turn := turn64 u in
  if SFeqb (sf_sub hi lo) turn then
    let! v := in64 a u in ReduceRange64 fuel v lo hi
  else Err EUndefined.

(** Angle.cpp 273-292: isNear. *)
Definition isNear64 (fuel : nat) (a b tol : angle64) : result bool :=
  if negb (isDefined64 a) || negb (isDefined64 b) then Err EUndefined
  else if negb (isDefined64 tol) then Err EUndefined
  else
    let! da := in64 a Degree in
    let! n1 := ReduceRange64 fuel da zero64 (b64_of_Z 360) in
    let! db := in64 b Degree in
    let! n2 := ReduceRange64 fuel db zero64 (b64_of_Z 360) in
    let diff := SFabs (sf_sub n2 n1) in
    let! dt := in64 tol Degree in
    let tolerance := SFabs dt in
    Ok (SFleb diff tolerance || SFleb (sf_sub (b64_of_Z 360) diff) tolerance).

(** *** Interval.tpp, for Interval<Real> *)
(** Interval.tpp 425-430: the loop "while (value > lower) { add; value += step }";
    the loop of lines 404-409 is [step_loop64]. *)
Fixpoint down_loop64 (fuel : nat) (step lower value : spec_float) : result (list spec_float) :=
  match fuel with
  | O => Err OutOfFuel
  | S f =>
      if SFltb lower value then
        let! r := down_loop64 f step lower (f64_add value step) in Ok (value :: r)
      else Ok []
  end.

(** Interval.tpp 374-440: generateArrayWithStep of a defined interval of type [t] with bounds [l] and [u]. *)
Definition withStep64 (fuel : nat) (t : itype) (l u step : spec_float) : result (list spec_float) :=
  if SFeqb step zero64 then Err ERuntime
  else if SFltb zero64 step then
    let value := if open_left t then f64_add l step else l in
    let! g := step_loop64 fuel step u value in
    Ok (if closed_right t then g ++ [u] else g)
  else
    let value := if open_right t then f64_add u step else u in
    let! g := down_loop64 fuel step l value in
    Ok (if closed_left t then g ++ [l] else g).

(** Interval.tpp 481-487: "for (it = begin; it != end; ++it, value += step) *it = value". *)
Fixpoint fill64 (n : nat) (step value : spec_float) : list spec_float :=
  match n with
  | O => []
  | S m => value :: fill64 m step (f64_add value step)
  end.

(** Interval.tpp 443-490: generateArrayWithSize of a defined interval. *)
Definition withSize64 (t : itype) (l u : spec_float) (n : nat) : result (list spec_float) :=
  if Nat.ltb n 2 then Err EWrong
  else
    let span := sf_sub u l in
    let over (k : nat) := b64_div span (b64_of_Z (Z.of_nat k)) in
    match t with
    | TClosed => Ok (fill64 n (over (n - 1)%nat) l)
    | TOpen => Ok (fill64 n (over (n + 1)%nat) (f64_add l (over (n + 1)%nat)))
    | THalfOpenLeft => Ok (fill64 n (over n) (f64_add l (over n)))
    | THalfOpenRight => Ok (fill64 n (over n) l)
    | TUndefined => Err EWrong
    end.

(** *** Linear.cpp *)
(** std::lower_bound: the halving loop of [InterpModel.bound_loop] on doubles. *)
Fixpoint bound_loop64 (goRight : spec_float -> bool) (x : list spec_float) (fuel first len : nat) : result nat :=
  match len with
  | O => Ok first
  | _ =>
    match fuel with
    | O => Err OutOfFuel
    | S f =>
      let half := Nat.div2 len in
      let mid := (first + half)%nat in
      let! a := at_ x mid in
      if goRight a then bound_loop64 goRight x f (mid + 1) (len - half - 1)
      else bound_loop64 goRight x f first half
    end
  end.
Definition lower_bound64 (x : list spec_float) (q : spec_float) : result nat :=
  bound_loop64 (fun a => SFltb a q) x (length x) 0 (length x).

(** Linear.cpp 97-112: findIndexRange. *)
Definition findIndexRange64 (x : list spec_float) (q : spec_float) : result (nat * nat) :=
  let! index := lower_bound64 x q in
  if Nat.eqb index 0 then Ok (0, 0)%nat
  else if Nat.eqb index (length x) then Ok (index - 1, index - 1)%nat
  else Ok (index - 1, index)%nat.

(** Linear.cpp 48-68: evaluate. *)
Definition linear64 (x y : list spec_float) (q : spec_float) : result spec_float :=
  let! (p, n) := findIndexRange64 x q in
  if Nat.eqb p n then at_ y p
  else
    let! previousY := at_ y p in
    let! nextY := at_ y n in
    let! xp := at_ x p in
    let! xn := at_ x n in
    let ratio := b64_div (sf_sub q xp) (sf_sub xn xp) in
    Ok (sf_add previousY (b64_mul ratio (sf_sub nextY previousY))).
