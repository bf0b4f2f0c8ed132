(** What vectors of binary64 numbers stand for. *)

From Coq Require Import ZArith Reals Floats.SpecFloat.
From Verif Require Import Vec FloatSpec Geo64Model.
Local Open Scope R_scope.

Definition val3 (a : f3) : v3 := V3 (rval (fx a)) (rval (fy a)) (rval (fz a)).
Definition finite3 (a : f3) : Prop := finite64 (fx a) /\ finite64 (fy a) /\ finite64 (fz a).
(** All coordinates are at most [B] in magnitude. *)
Definition within3 (B : R) (a : f3) : Prop := Rabs (rval (fx a)) <= B /\ Rabs (rval (fy a)) <= B /\ Rabs (rval (fz a)) <= B.
(** All coordinates are whole numbers, at most [N] in magnitude. *)
Definition whole64 (N : Z) (x : spec_float) : Prop := exists n : Z, rval x = IZR n /\ (Z.abs n <= N)%Z.
Definition whole3 (N : Z) (a : f3) : Prop := whole64 N (fx a) /\ whole64 N (fy a) /\ whole64 N (fz a).
Definition val2 (a : f2) : v2 := V2 (rval (fx2 a)) (rval (fy2 a)).
Definition finite2 (a : f2) : Prop := finite64 (fx2 a) /\ finite64 (fy2 a).
