(** What a mathematical function should return, and directions of vectors. *)

From Coq Require Import Reals Floats.SpecFloat.
From Verif Require Import Vec Mat3 FloatSpec RotModel RotSpec.
Local Open Scope R_scope.

(** A finite number within [e] of [t]. *)
Definition returns (x : spec_float) (t e : R) : Prop := finite64 x /\ Rabs (rval x - t) <= e.
(** The unit vector in the direction of [v]. *)
Definition direction (v : v3) : v3 := scale3 (/ norm3 v) v.
(** The matrix of a map: the images of the coordinate axes are the columns. *)
Definition matrix_of (f : v3 -> v3) : m3 := of_cols (f (V3 1 0 0)) (f (V3 0 1 0)) (f (V3 0 0 1)).
(** Cosine and sine of an angle [th], computed from [x]. *)
Definition trig_at (fcos fsin : spec_float -> spec_float) (x : spec_float) (th e : R) : Prop := returns (fcos x) (cos th) e /\ returns (fsin x) (sin th) e.
(** The map that the matrix of Euler angles stands for. *)
Definition euler_map (seq : axis_sequence) (a b c : R) : v3 -> v3 :=
  match seq with XYZ => frame_sequence 3 2 1 c b a | ZXY => frame_sequence 3 2 1 b a c | _ => frame_sequence 3 2 1 a b c end.
(** The weighted mean of two quaternions. *)
Definition mix4 (k : R) (p q : quat) : quat :=
  Q4 ((1 - k) * qx p + k * qx q) ((1 - k) * qy p + k * qy q) ((1 - k) * qz p + k * qz q) ((1 - k) * qs p + k * qs q).
(** The sine of the angle between two vectors. *)
Definition sine (u w : v3) : R := norm3 (cross3 (direction u) (direction w)).
