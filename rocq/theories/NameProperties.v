(** The properties of the names of enumerated values and the texts of angles, rotations, intervals and 2D objects: C114 to C117. *)

From Coq Require Import List Bool ZArith String Ascii Lia Floats.SpecFloat.
From Verif Require Import Result AngleModel Geo3Types TextModel TextSpec TextProofs NameModel NameSpec NameProofs.
From Verif Require TransfModel SolverModel RotModel Poly2Model IntervalModel.
Import ListNotations.
Local Open Scope string_scope.
Local Open Scope Z_scope.

(** The texts of the natural numbers, for the examples. *)
Definition plain_number (n : N) : string := digits (Z.of_N n).
Lemma plain_number_marks : texts_without [","%char; "]"%char; ")"%char; " "%char; "["%char] plain_number.
Proof. intros n c I. apply all_digits_lacks; [| apply digits_all]. repeat (destruct I as [<- | I]; [reflexivity |]). destruct I. Qed.

(** *** C114: names of enumerated values *)
(** No two values of an enumeration have the same name. *)
Theorem C114_names :
  told_apart StringFromUnit /\ told_apart SymbolFromUnit /\ told_apart Interval_StringFromType /\
  told_apart Transformation_StringFromType /\ told_apart Intersection3_StringFromType /\ told_apart Intersection2_StringFromType /\
  told_apart StringFromLogType /\ told_apart StringFromStepperType /\ told_apart StringFromAxisSequence.
Proof. exact c114_names. Qed.
Print Assumptions C114_names.

(** All values have a name, except that undefined units have no symbol and undefined axis sequences no name. *)
Theorem C114_named :
  (forall u, exists t, StringFromUnit u = Ok t) /\ (forall u, (exists t, SymbolFromUnit u = Ok t) <-> u <> UUndefined) /\
  (forall u, exists t, Interval_StringFromType u = Ok t) /\ (forall u, exists t, Transformation_StringFromType u = Ok t) /\
  (forall u, exists t, Intersection2_StringFromType u = Ok t) /\ (forall u, exists t, StringFromLogType u = Ok t) /\
  (forall u, exists t, StringFromStepperType u = Ok t) /\ (forall u, (exists t, StringFromAxisSequence u = Ok t) <-> u <> RotModel.SeqUndefined).
Proof. exact c114_named. Qed.
Print Assumptions C114_named.

Theorem C114_intersections :
  forall t, t <> ICuboid -> exists n, Intersection3_StringFromType t = Ok n.
Proof. exact c114_intersections. Qed.
Print Assumptions C114_intersections.

(** That intersections of every type have a name is false: there is none for cuboids. *)
Theorem C114_cuboid_refuted :
  exists t, Intersection3_StringFromType t = Err EWrong /\ t = ICuboid.
Proof. exact c114_cuboid_refuted. Qed.
Print Assumptions C114_cuboid_refuted.

Example C114_example : StringFromUnit Degree = Ok "Degree" /\ SymbolFromUnit Degree = Ok "deg" /\ Degree <> UUndefined /\ IPoint <> ICuboid /\
  StringFromAxisSequence RotModel.ZYX = Ok "ZYX" /\ RotModel.ZYX <> RotModel.SeqUndefined.
Proof. repeat split; discriminate. Qed.

(** *** C115: texts of angles, rotations and points *)
(** Two angles of the same text have the same unit and the same number. *)
Theorem C115_angle :
  forall {A} (num : A -> string) v u w x t, texts_without [" "%char] num ->
  Angle_toString num v u = Ok t -> Angle_toString num w x = Ok t ->
  u = x /\ exists a b, v = Some a /\ w = Some b /\ num a = num b.
Proof. exact (@c115_angle). Qed.
Print Assumptions C115_angle.

Theorem C115_angle_defined :
  forall {A} (num : A -> string) v u, (exists t, Angle_toString num v u = Ok t) <-> v <> None /\ u <> UUndefined.
Proof. exact (@c115_angle_defined). Qed.
Print Assumptions C115_angle_defined.

Theorem C115_rotation_vector :
  forall {A} (num : A -> string) p l k v u w x t, texts_without [" "%char] num -> l <> [] -> k <> [] ->
  RotationVector_toString num p l v u = Ok t -> RotationVector_toString num p k w x = Ok t ->
  map (element (match p with Some p => p | None => -1 end)) l = map (element (match p with Some p => p | None => -1 end)) k /\
  u = x /\ exists a b, v = Some a /\ w = Some b /\ num a = num b.
Proof. exact (@c115_rotation_vector). Qed.
Print Assumptions C115_rotation_vector.

Theorem C115_euler_angle :
  forall {A} (num : A -> string) x y s r t, texts_without [","%char; "]"%char] num ->
  EulerAngle_toString num x s = Ok t -> EulerAngle_toString num y r = Ok t ->
  s = r /\ exists a b c d e f, x = Some (a, b, c) /\ y = Some (d, e, f) /\ num a = num d /\ num b = num e /\ num c = num f.
Proof. exact (@c115_euler_angle). Qed.
Print Assumptions C115_euler_angle.

Theorem C115_point :
  forall p a b t, Point3_toString p a = Ok t -> Point3_toString p b = Ok t ->
  exists x y z x' y' z', a = Some (x, y, z) /\ b = Some (x', y', z') /\
    map (element (match p with Some p => p | None => -1 end)) [x; y; z] = map (element (match p with Some p => p | None => -1 end)) [x'; y'; z'].
Proof. exact c115_point. Qed.
Print Assumptions C115_point.

Example C115_example : let e := S754_finite false 4503599627370496 (-52) in let z := S754_zero false in
  Angle_toString plain_number (Some 90%N) Degree = Ok "90 [deg]" /\
  EulerAngle_toString plain_number (Some (1, 2, 3)%N) RotModel.ZYX = Ok "[1, 2, 3] (ZYX)" /\
  RotationVector_toString plain_number None [z; z; e] (Some 90%N) Degree = Ok "[0.0, 0.0, 1.0] : 90 [deg]" /\
  Point3_toString None (Some (z, z, e)) = Ok "[0.0, 0.0, 1.0]" /\
  texts_without [" "%char] plain_number /\ texts_without [","%char; "]"%char] plain_number.
Proof.
  intros e z. do 4 (split; [vm_compute; reflexivity |]). split; intros x c I; apply plain_number_marks; cbn in *; tauto.
Qed.

(** *** C116: texts of intervals *)
Theorem C116_interval :
  forall {A} (num : A -> string) s r a b c d t, texts_without [","%char; "["%char; "]"%char] num ->
  Interval_toString num s a b = Ok t -> Interval_toString num r c d = Ok t ->
  s = r /\ exists w x y z, a = Some w /\ b = Some x /\ c = Some y /\ d = Some z /\ num w = num y /\ num x = num z.
Proof. exact (@c116_interval). Qed.
Print Assumptions C116_interval.

Theorem C116_defined :
  forall {A} (num : A -> string) s a b, (Interval_toString num s a b = Err EUndefined <-> s = IntervalModel.TUndefined \/ a = None \/ b = None) /\
  ((exists t, Interval_toString num s a b = Ok t) <-> s <> IntervalModel.TUndefined /\ a <> None /\ b <> None).
Proof. exact (@c116_defined). Qed.
Print Assumptions C116_defined.

Example C116_example : Interval_toString plain_number IntervalModel.THalfOpenLeft (Some 1%N) (Some 2%N) = Ok "]1, 2]" /\
  texts_without [","%char; "["%char; "]"%char] plain_number.
Proof. split; [reflexivity |]. intros x c I. apply plain_number_marks. cbn in *. tauto. Qed.

(** *** C117: texts of 2D objects *)
(** Two points of the same text have the same coordinates and are printed in the same format; likewise for the other objects. *)
Theorem C117_point :
  forall {A} (num : A -> string) f g a b t, texts_without [","%char; "]"%char; ")"%char; " "%char] num ->
  Point_toString num f a = Ok t -> Point_toString num g b = Ok t -> f = g /\ coordinates num a = coordinates num b.
Proof. exact (@c117_point). Qed.
Print Assumptions C117_point.

Theorem C117_point_set :
  forall {A} (num : A -> string) f g l k t, texts_without [","%char; "]"%char; ")"%char; " "%char] num ->
  PointSet_toString num f l = Ok t -> PointSet_toString num g k = Ok t -> f = g /\ map (coordinates num) l = map (coordinates num) k.
Proof. exact (@c117_point_set). Qed.
Print Assumptions C117_point_set.

Theorem C117_line_string :
  forall {A} (num : A -> string) f g l k t, texts_without [","%char; "]"%char; ")"%char; " "%char] num ->
  LineString_toString num f l = Ok t -> LineString_toString num g k = Ok t -> f = g /\ map (coordinates num) l = map (coordinates num) k.
Proof. exact (@c117_line_string). Qed.
Print Assumptions C117_line_string.

Theorem C117_segment :
  forall {A} (num : A -> string) f g a b c d t, texts_without [","%char; "]"%char; ")"%char; " "%char] num ->
  Segment_toString num f a b = Ok t -> Segment_toString num g c d = Ok t ->
  f = g /\ coordinates num a = coordinates num c /\ coordinates num b = coordinates num d.
Proof. exact (@c117_segment). Qed.
Print Assumptions C117_segment.

Theorem C117_line :
  forall {A} (num : A -> string) f g a b c d t, texts_without [","%char; "]"%char; ")"%char; " "%char] num ->
  Line_toString num f a b = Ok t -> Line_toString num g c d = Ok t ->
  f = g /\ coordinates num a = coordinates num c /\ coordinates num b = coordinates num d.
Proof. exact (@c117_line). Qed.
Print Assumptions C117_line.

(** What is printed: defined objects, in the formats that are implemented. *)
Theorem C117_printed :
  forall {A} (num : A -> string) f, (forall a, (exists t, Point_toString num f a = Ok t) <-> a <> None /\ f <> FUndefined) /\
  (forall l, (exists t, PointSet_toString num f l = Ok t) <-> ~ In None l /\ f = FStandard) /\
  (forall l, (exists t, LineString_toString num f l = Ok t) <-> ~ In None l /\ f <> FUndefined) /\
  (forall a b, (exists t, Segment_toString num f a b = Ok t) <-> a <> None /\ b <> None /\ f <> FUndefined) /\
  (forall a b, (exists t, Line_toString num f a b = Ok t) <-> a <> None /\ b <> None /\ f = FStandard) /\
  (forall w, (exists t, Polygon_toString f w = Ok t) <-> w <> None /\ f <> FUndefined) /\
  ((exists t, Composite_toString f = Ok t) <-> f = FStandard).
Proof. exact (@c117_printed). Qed.
Print Assumptions C117_printed.

(** Between objects of different classes this is false, and all composites have the same (empty) text. *)
Theorem C117_classes_refuted :
  forall {A} (num : A -> string) (o : A), exists t a b,
  Segment_toString num FStandard a b = Ok t /\ Line_toString num FStandard a b = Ok t /\ LineString_toString num FStandard [a; b] = Ok t /\
  (exists u, PointSet_toString num FStandard [] = Ok u /\ LineString_toString num FStandard [] = Ok u) /\
  (exists u, PointSet_toString num FStandard [a] = Ok u /\ LineString_toString num FStandard [a] = Ok u) /\
  (forall f g u v, Composite_toString f = Ok u -> Composite_toString g = Ok v -> u = v).
Proof. exact (@c117_classes_refuted). Qed.
Print Assumptions C117_classes_refuted.

Example C117_example : let a := Some (1, 2)%N in let b := Some (3, 4)%N in
  Point_toString plain_number FWKT a = Ok "POINT(1 2)" /\ PointSet_toString plain_number FStandard [a; b] = Ok "[[1, 2], [3, 4]]" /\
  LineString_toString plain_number FStandard [a; b; a] = Ok "[[1, 2] -> [3, 4] -> [1, 2]]" /\
  LineString_toString plain_number FWKT [a; b] = Ok "LINESTRING(1 2, 3 4)" /\
  Segment_toString plain_number FWKT a b = Ok "LINESTRING(1 2, 3 4)" /\ Line_toString plain_number FStandard a b = Ok "[[1, 2] -> [3, 4]]" /\
  texts_without [","%char; "]"%char; ")"%char; " "%char] plain_number.
Proof. intros a b. do 6 (split; [reflexivity |]). intros x c I. apply plain_number_marks. cbn in *. tauto. Qed.
