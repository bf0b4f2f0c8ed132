(** Model of the names of enumerated values and of the texts of intervals, angles, rotations and points, lines, segments and
    line strings.

    The text of a number is ostk-core's Real::toString (or its formatting by String::Format), which is not part of the
    repository: a function [num] here, for a given precision.  String::Format replaces every "{}" by the next text. *)

From Coq Require Import List Bool String Floats.SpecFloat ZArith.
From Verif Require Import Result DOrder AngleModel Geo3Types TextModel.
From Verif Require TransfModel SolverModel RotModel Poly2Model IntervalModel.
Import ListNotations.
Local Open Scope string_scope.

(** *** Names of enumerated values *)
(** Angle.cpp 563-591: StringFromUnit (values outside the enumerations are not modelled, here and below). *)
Definition StringFromUnit (u : unit) : result string :=
  match u with
  | UUndefined => Ok "Undefined"
  | Radian => Ok "Radian"
  | Degree => Ok "Degree"
  | Arcminute => Ok "Arcminute"
  | Arcsecond => Ok "Arcsecond"
  | Revolution => Ok "Revolution"
  end.
(** Angle.cpp 593-618: SymbolFromUnit. *)
Definition SymbolFromUnit (u : unit) : result string :=
  match u with
  | Radian => Ok "rad"
  | Degree => Ok "deg"
  | Arcminute => Ok "amin"
  | Arcsecond => Ok "asec"
  | Revolution => Ok "rev"
  | UUndefined => Err EWrong
  end.
(** Interval.tpp 900-924: StringFromType. *)
Definition Interval_StringFromType (t : IntervalModel.itype) : result string :=
  match t with
  | IntervalModel.TUndefined => Ok "Undefined"
  | IntervalModel.TClosed => Ok "Closed"
  | IntervalModel.TOpen => Ok "Open"
  | IntervalModel.THalfOpenLeft => Ok "Half Open Left"
  | IntervalModel.THalfOpenRight => Ok "Half Open Right"
  end.
(** 2D/Transformation.cpp 313-347, 3D/Transformation.cpp 308-342: StringFromType. *)
Definition Transformation_StringFromType (t : TransfModel.ttype) : result string :=
  match t with
  | TransfModel.TUndefined => Ok "Undefined"
  | TransfModel.TIdentity => Ok "Identity"
  | TransfModel.TTranslation => Ok "Translation"
  | TransfModel.TRotation => Ok "Rotation"
  | TransfModel.TScaling => Ok "Scaling"
  | TransfModel.TReflection => Ok "Reflection"
  | TransfModel.TShear => Ok "Shear"
  | TransfModel.TAffine => Ok "Affine"
  end.
(** 3D/Intersection.cpp 217-269: StringFromType (there is no case for Cuboid). *)
Definition Intersection3_StringFromType (t : itype) : result string :=
  match t with
  | IUndefined => Ok "Undefined"
  | IEmpty => Ok "Empty"
  | IPoint => Ok "Point"
  | IPointSet => Ok "PointSet"
  | ILine => Ok "Line"
  | IRay => Ok "Ray"
  | ISegment => Ok "Segment"
  | ILineString => Ok "LineString"
  | IPolygon => Ok "Polygon"
  | IPlane => Ok "Plane"
  | ISphere => Ok "Sphere"
  | IEllipsoid => Ok "Ellipsoid"
  | IPyramid => Ok "Pyramid"
  | IComplex => Ok "Complex"
  | ICuboid => Err EWrong
  end.
(** 2D/Intersection.cpp 217-254: StringFromType. *)
Definition Intersection2_StringFromType (t : Poly2Model.itype2) : result string :=
  match t with
  | Poly2Model.I2Undefined => Ok "Undefined"
  | Poly2Model.I2Empty => Ok "Empty"
  | Poly2Model.I2Point => Ok "Point"
  | Poly2Model.I2PointSet => Ok "PointSet"
  | Poly2Model.I2Line => Ok "Line"
  | Poly2Model.I2Segment => Ok "Segment"
  | Poly2Model.I2LineString => Ok "LineString"
  | Poly2Model.I2Polygon => Ok "Polygon"
  | Poly2Model.I2Complex => Ok "Complex"
  end.
(** NumericalSolver.cpp 650-666: StringFromLogType. *)
Definition StringFromLogType (l : SolverModel.log_type) : result string :=
  match l with
  | SolverModel.NoLog => Ok "NoLog"
  | SolverModel.LogConstant => Ok "LogConstant"
  | SolverModel.LogAdaptive => Ok "LogAdaptive"
  end.
(** NumericalSolver.cpp 668-696: StringFromStepperType. *)
Definition StringFromStepperType (s : SolverModel.stepper_type) : result string :=
  match s with
  | SolverModel.RungeKutta4 => Ok "RungeKutta4"
  | SolverModel.RungeKuttaCashKarp54 => Ok "RungeKuttaCashKarp54"
  | SolverModel.RungeKuttaFehlberg78 => Ok "RungeKuttaFehlberg78"
  | SolverModel.RungeKuttaDopri5 => Ok "RungeKuttaDopri5"
  | SolverModel.AdamsBashforthMoulton8 => Ok "AdamsBashforthMoulton8"
  | SolverModel.AdamsBashforthMoulton5 => Ok "AdamsBashforthMoulton5"
  | SolverModel.BulirschStoer => Ok "BulirschStoer"
  end.
(** EulerAngle.cpp 316-332: StringFromAxisSequence. *)
Definition StringFromAxisSequence (s : RotModel.axis_sequence) : result string :=
  match s with
  | RotModel.XYZ => Ok "XYZ"
  | RotModel.ZXY => Ok "ZXY"
  | RotModel.ZYX => Ok "ZYX"
  | RotModel.SeqUndefined => Err EWrong
  end.

(** 2D/Object.hpp 31-38: Format. *)
Inductive oformat := FUndefined | FStandard | FWKT.

Section Texts.
Context {A : Type} (num : A -> string).

(** *** Intervals *)
(** Interval.tpp 492-521: toString of an interval of a type and bounds that may be undefined. *)
Definition Interval_toString (t : IntervalModel.itype) (l u : option A) : result string :=
  match t, l, u with
  | IntervalModel.TUndefined, _, _ => Err EUndefined
  | _, Some l, Some u =>
    match t with
    | IntervalModel.TClosed => Ok ("[" ++ num l ++ ", " ++ num u ++ "]")
    | IntervalModel.TOpen => Ok ("]" ++ num l ++ ", " ++ num u ++ "[")
    | IntervalModel.THalfOpenLeft => Ok ("]" ++ num l ++ ", " ++ num u ++ "]")
    | IntervalModel.THalfOpenRight => Ok ("[" ++ num l ++ ", " ++ num u ++ "[")
    | IntervalModel.TUndefined => Err EWrong
    end
  | _, _, _ => Err EUndefined
  end.

(** *** Angles and rotations *)
(** Angle.cpp 424-432: toString. *)
Definition Angle_toString (v : option A) (u : unit) : result string :=
  match v with
  | Some v => if unit_eqb u UUndefined then Err EUndefined else let! s := SymbolFromUnit u in Ok (num v ++ " [" ++ s ++ "]")
  | None => Err EUndefined
  end.
(** RotationVector.cpp 126-136: toString, of a defined axis; [precision] as in the model of Quaternion::toString. *)
Definition RotationVector_toString (precision : option Z) (axis : list spec_float) (v : option A) (u : unit) : result string :=
  if mx_isDefined (vector axis) then
    let! a := Angle_toString v u in
    Ok (match precision with Some p => mx_toString p (vector axis) | None => mx_toString (-1) (vector axis) end ++ " : " ++ a)
  else Err EUndefined.
(** EulerAngle.cpp 165-179: toString, from the angles in the unit asked for. *)
Definition EulerAngle_toString (angles : option (A * A * A)) (s : RotModel.axis_sequence) : result string :=
  match angles, s with
  | Some _, RotModel.SeqUndefined => Err EUndefined
  | Some (a, b, c), _ => let! n := StringFromAxisSequence s in Ok ("[" ++ num a ++ ", " ++ num b ++ ", " ++ num c ++ "] (" ++ n ++ ")")
  | None, _ => Err EUndefined
  end.

(** *** 3D points *)
(** 3D/Object/Point.cpp 163-171: toString. *)
Definition Point3_toString (precision : option Z) (p : option (spec_float * spec_float * spec_float)) : result string :=
  match p with
  | Some (x, y, z) =>
    Ok (match precision with Some p => mx_toString p (vector [x; y; z]) | None => mx_toString (-1) (vector [x; y; z]) end)
  | None => Err EUndefined
  end.

(** *** 2D objects *)
(** Texts with a separator in between. *)
Fixpoint separated (sep : string) (l : list string) : string :=
  match l with
  | [] => ""
  | [s] => s
  | s :: r => s ++ sep ++ separated sep r
  end.
(** 2D/Object/Point.cpp 152-173: toString; [None] is an undefined point. *)
Definition Point_toString (f : oformat) (p : option (A * A)) : result string :=
  match p with
  | None => Err EUndefined
  | Some (x, y) =>
    match f with
    | FStandard => Ok ("[" ++ num x ++ ", " ++ num y ++ "]")
    | FWKT => Ok ("POINT(" ++ num x ++ " " ++ num y ++ ")")
    | FUndefined => Err EWrong
    end
  end.
(** 2D/Object/PointSet.cpp 161-198: toString, the points in the order of the set's iteration. *)
Definition PointSet_toString (f : oformat) (l : list (option (A * A))) : result string :=
  match f with
  | FStandard => let! t := mapM (Point_toString FStandard) l in Ok ("[" ++ separated ", " t ++ "]")
  | FWKT => Err ERuntime
  | FUndefined => Err EWrong
  end.
(** 2D/Object/Line.cpp 161-178: toString; Point::Vector of an undefined direction is an undefined point. *)
Definition Line_toString (f : oformat) (origin direction : option (A * A)) : result string :=
  match f with
  | FStandard =>
    let! o := Point_toString FStandard origin in
    let! d := Point_toString FStandard direction in
    Ok ("[" ++ o ++ " -> " ++ d ++ "]")
  | _ => Err EWrong
  end.
(** 2D/Object/LineString.cpp 163-222: toString. *)
Definition pair_text (p : option (A * A)) : result string :=
  match p with Some (x, y) => Ok (num x ++ " " ++ num y) | None => Err EUndefined end.
Definition LineString_toString (f : oformat) (l : list (option (A * A))) : result string :=
  match f with
  | FStandard => let! t := mapM (Point_toString FStandard) l in Ok ("[" ++ separated " -> " t ++ "]")
  | FWKT => let! t := mapM pair_text l in Ok ("LINESTRING(" ++ separated ", " t ++ ")")
  | FUndefined => Err EWrong
  end.
(** 2D/Object/Segment.cpp 239-261: toString; 2D/Object/LineString.cpp 269-277: LineString::Segment. *)
Definition Segment_toString (f : oformat) (a b : option (A * A)) : result string :=
  match f with
  | FStandard =>
    let! s := Point_toString FStandard a in
    let! t := Point_toString FStandard b in
    Ok ("[" ++ s ++ " -> " ++ t ++ "]")
  | FWKT => match a, b with Some _, Some _ => LineString_toString FWKT [a; b] | _, _ => Err EUndefined end
  | FUndefined => Err EWrong
  end.
(** 2D/Object/Polygon.cpp 1031-1039, 590-617, 2D/Object/MultiPolygon.cpp 463-471, 203-230: toString of a defined polygon or
    multi-polygon of boost's text [wkt] ([None]: undefined). *)
Definition Polygon_toString (f : oformat) (wkt : option string) : result string :=
  match wkt with
  | None => Err EUndefined
  | Some w => match f with FStandard | FWKT => Ok w | FUndefined => Err EWrong end
  end.
(** 2D/Object/Composite.cpp 486-501: toString. *)
Definition Composite_toString (f : oformat) : result string := match f with FStandard => Ok "" | _ => Err EWrong end.
End Texts.
