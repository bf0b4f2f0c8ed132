(** Model of [Angle] (/repo/src/OpenSpaceToolkit/Mathematics/Geometry/Angle.cpp).

    [Real] is [option R] ([None] = undefined) with exact arithmetic.  The operators of
    ostk-core's Real throw Undefined on an undefined operand, except ==, which is false.
    The pi of the code (M_PI, Real::Pi, Real::TwoPi) is the real number [PI]. *)

From Coq Require Import List Bool Reals ZArith Floats.SpecFloat.
From Verif Require Import Result DOrder Vec.
Local Open Scope R_scope.

(** Angle.hpp, enum class Unit. *)
Inductive unit := UUndefined | Radian | Degree | Arcminute | Arcsecond | Revolution.

Definition unit_eqb (a b : unit) : bool :=
  match a, b with
  | UUndefined, UUndefined | Radian, Radian | Degree, Degree | Arcminute, Arcminute
  | Arcsecond, Arcsecond | Revolution, Revolution => true
  | _, _ => false
  end.

(** Angle.hpp: members value_, unit_. *)
Record angle := mkA { aval : option R; aunit : unit }.

(** Use of a Real in arithmetic or in an ordering comparison. *)
Definition need (x : option R) : result R :=
  match x with Some r => Ok r | None => Err EUndefined end.

(** Angle.cpp 620-645: SIRatio. *)
Definition SIRatio (u : unit) : result R :=
  match u with
  | Radian => Ok 1
  | Degree => Ok (PI / 180)
  | Arcminute => Ok (PI / 10800)
  | Arcsecond => Ok (PI / 648000)
  | Revolution => Ok (2 * PI)
  | UUndefined => Err EWrong
  end.

(** Angle.cpp 248-251: isDefined. *)
Definition angle_isDefined (a : angle) : bool :=
  match aval a with Some _ => negb (unit_eqb (aunit a) UUndefined) | None => false end.

(** Angle.cpp 304-317: in. *)
Definition in_unit (a : angle) (u : unit) : result R :=
  if negb (angle_isDefined a) then Err EUndefined
  else
    let! v := need (aval a) in
    if unit_eqb (aunit a) u then Ok v
    else
      let! r1 := SIRatio (aunit a) in
      let! r2 := SIRatio u in
      Ok (v * r1 / r2).

(** Angle.cpp 658-662 and 664-668: the two loops of ReduceRange. *)
Fixpoint up_turns (fuel : nat) (value range lower : R) : result R :=
  match fuel with
  | O => Err OutOfFuel
  | S f => if Rltb value lower then up_turns f (value + range) range lower else Ok value
  end.
Fixpoint down_turns (fuel : nat) (value range upper : R) : result R :=
  match fuel with
  | O => Err OutOfFuel
  | S f => if Rltb value upper then Ok value else down_turns f (value - range) range upper
  end.

(** Angle.cpp 647-671: ReduceRange. *)
Definition ReduceRange (fuel : nat) (v lower upper : R) : result R :=
  if negb (Rltb v lower) && Rltb v upper then Ok v
  else
    let range := upper - lower in
    let! w := up_turns fuel v range lower in
    down_turns fuel w range upper.

(** "(unit_ == anAngle.unit_) ? anAngle.value_ : anAngle.in(unit_)", an operand of an
    arithmetic operator or of ReduceRange. *)
Definition converted (u : unit) (b : angle) : result R :=
  if unit_eqb u (aunit b) then need (aval b) else in_unit b u.

(** Angle.cpp 21-76: operator==. *)
Definition angle_eq (fuel : nat) (a b : angle) : result bool :=
  if unit_eqb (aunit a) UUndefined || unit_eqb (aunit b) UUndefined then Ok false
  else
    let eq_mod (turn : R) : result bool :=
      let! w := converted (aunit a) b in
      let! v := need (aval a) in
      let! r := ReduceRange fuel w v (v + turn) in
      Ok (if Req_EM_T v r then true else false) in
    match aunit a with
    | Radian => eq_mod (2 * PI)
    | Degree => eq_mod 360
    | Arcminute => eq_mod 21600
    | Arcsecond => eq_mod 1296000
    | Revolution => eq_mod 1
    | UUndefined => Err EWrong
    end.

(** Angle.cpp 83-91, 93-101 (and += 138-148, -= 150-160, which store the same value). *)
Definition angle_add (a b : angle) : result angle :=
  if unit_eqb (aunit a) UUndefined || unit_eqb (aunit b) UUndefined then Err EUndefined
  else
    let! w := converted (aunit a) b in
    let! v := need (aval a) in
    Ok (mkA (Some (v + w)) (aunit a)).
Definition angle_sub (a b : angle) : result angle :=
  if unit_eqb (aunit a) UUndefined || unit_eqb (aunit b) UUndefined then Err EUndefined
  else
    let! w := converted (aunit a) b in
    let! v := need (aval a) in
    Ok (mkA (Some (v - w)) (aunit a)).

(** Angle.cpp 103-116 (and 162-177, 201-214), 118-136 (and 179-199). *)
Definition angle_mul (a : angle) (x : option R) : result angle :=
  if unit_eqb (aunit a) UUndefined then Err EUndefined
  else
    let! x := need x in
    let! v := need (aval a) in
    Ok (mkA (Some (v * x)) (aunit a)).
Definition angle_div (a : angle) (x : option R) : result angle :=
  if unit_eqb (aunit a) UUndefined then Err EUndefined
  else
    let! x := need x in
    if Req_EM_T x 0 then Err ERuntime
    else
      let! v := need (aval a) in
      Ok (mkA (Some (v / x)) (aunit a)).

(** Angle.cpp 226-234: unary minus. *)
Definition angle_opp (a : angle) : result angle :=
  if angle_isDefined a then let! v := need (aval a) in Ok (mkA (Some (- v)) (aunit a)) else Err EUndefined.

(** Angle.cpp 253-271: isZero, isNegative. *)
Definition angle_isZero (a : angle) : result bool :=
  if angle_isDefined a then let! v := need (aval a) in Ok (if Req_EM_T v 0 then true else false)
  else Err EUndefined.
Definition angle_isNegative (a : angle) : result bool :=
  if angle_isDefined a then let! v := need (aval a) in Ok (Rltb v 0) else Err EUndefined.

(** Angle.cpp 273-292: isNear. *)
Definition isNear (fuel : nat) (a b tol : angle) : result bool :=
  if negb (angle_isDefined a) || negb (angle_isDefined b) then Err EUndefined
  else if negb (angle_isDefined tol) then Err EUndefined
  else
    let! da := in_unit a Degree in
    let! n1 := ReduceRange fuel da 0 360 in
    let! db := in_unit b Degree in
    let! n2 := ReduceRange fuel db 0 360 in
    let diff := Rabs (n2 - n1) in
    let! dt := in_unit tol Degree in
    let tolerance := Rabs dt in
    Ok (negb (Rltb tolerance diff) || negb (Rltb tolerance (360 - diff))).

(** Angle.cpp 324-342, 349-367, 374-392, 399-417: inRadians, inDegrees, inArcminutes,
    inArcseconds with a range.  [turn] is the literal tested in each function
    (2 pi, 360, 21600, 1296000). *)
Definition in_range (fuel : nat) (turn : R) (u : unit) (a : angle) (lo hi : option R) : result R :=
  let! lo := need lo in
  let! hi := need hi in
  if Req_EM_T (hi - lo) turn then
    let! v := in_unit a u in ReduceRange fuel v lo hi
  else Err EUndefined.
Definition inRadians fuel := in_range fuel (2 * PI) Radian.
Definition inDegrees fuel := in_range fuel 360 Degree.
Definition inArcminutes fuel := in_range fuel 21600 Arcminute.
Definition inArcseconds fuel := in_range fuel 1296000 Arcsecond.

(** Angle.cpp 434-457: Zero, Pi; 459-462: Radians. *)
Definition angle_Undefined := mkA None UUndefined.
Definition angle_Zero := mkA (Some 0) Radian.
Definition angle_HalfPi := mkA (Some (PI / 2)) Radian.
Definition angle_Pi := mkA (Some PI) Radian.
Definition angle_TwoPi := mkA (Some (PI * 2)) Radian.
Definition Radians (x : R) := mkA (Some x) Radian.

(** Angle.cpp 489-524: Between, 2D.  A vector with an undefined coefficient is [None];
    [eps] is Real::Epsilon(). *)
Definition Between2 (eps : R) (a b : option v2) : result angle :=
  match a, b with
  | Some a, Some b =>
    if Rltb (sqnorm2 a) eps || Rltb (sqnorm2 b) eps then Err ERuntime
    else if v2_eq_dec a b then Ok angle_Zero
    else if v2_eq_dec a (opp2 b) then Ok angle_Pi
    else
      let dotProduct := dot2 (normalized2 a) (normalized2 b) in
      if Rle_dec 1 dotProduct then Ok angle_Zero
      else if Rle_dec dotProduct (-1) then Ok angle_Pi
      else Ok (Radians (acos dotProduct))
  | _, _ => Err EUndefined
  end.

(** Angle.cpp 526-561: Between, 3D. *)
Definition Between3 (eps : R) (a b : option v3) : result angle :=
  match a, b with
  | Some a, Some b =>
    if Rltb (sqnorm3 a) eps || Rltb (sqnorm3 b) eps then Err ERuntime
    else if v3_eq_dec a b then Ok angle_Zero
    else if v3_eq_dec a (opp3 b) then Ok angle_Pi
    else
      let dotProduct := dot3 (normalized3 a) (normalized3 b) in
      if Rle_dec 1 dotProduct then Ok angle_Zero
      else if Rle_dec dotProduct (-1) then Ok angle_Pi
      else Ok (Radians (acos dotProduct))
  | _, _ => Err EUndefined
  end.

(** *** ReduceRange in binary64 (647-671). *)
Definition sf_add := SFadd 53 1024.
Definition sf_sub := SFsub 53 1024.
Definition sf_geb (a b : spec_float) : bool := SFleb b a.

Fixpoint up_turns64 (fuel : nat) (value range lower : spec_float) : result spec_float :=
  match fuel with
  | O => Err OutOfFuel
  | S f => if SFltb value lower then up_turns64 f (sf_add value range) range lower else Ok value
  end.
Fixpoint down_turns64 (fuel : nat) (value range upper : spec_float) : result spec_float :=
  match fuel with
  | O => Err OutOfFuel
  | S f => if sf_geb value upper then down_turns64 f (sf_sub value range) range upper else Ok value
  end.
Definition ReduceRange64 (fuel : nat) (v lower upper : spec_float) : result spec_float :=
  if sf_geb v lower && SFltb v upper then Ok v
  else
    let range := sf_sub upper lower in
    let! w := up_turns64 fuel v range lower in
    down_turns64 fuel w range upper.

(** *** ReduceRange with rounded operations (647-671), for an arbitrary rounding [rnd]. *)
Fixpoint up_turns_rnd (rnd : R -> R) (fuel : nat) (value range lower : R) : result R :=
  match fuel with
  | O => Err OutOfFuel
  | S f => if Rltb value lower then up_turns_rnd rnd f (rnd (value + range)) range lower else Ok value
  end.
Fixpoint down_turns_rnd (rnd : R -> R) (fuel : nat) (value range upper : R) : result R :=
  match fuel with
  | O => Err OutOfFuel
  | S f => if Rltb value upper then Ok value else down_turns_rnd rnd f (rnd (value - range)) range upper
  end.
Definition ReduceRange_rnd (rnd : R -> R) (fuel : nat) (v lower upper : R) : result R :=
  if negb (Rltb v lower) && Rltb v upper then Ok v
  else
    let range := rnd (upper - lower) in
    let! w := up_turns_rnd rnd fuel v range lower in
    down_turns_rnd rnd fuel w range upper.
