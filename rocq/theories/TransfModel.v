(** Model of the transformations:
    /repo/src/OpenSpaceToolkit/Mathematics/Geometry/3D/Transformation.cpp (T3D below) and
    /repo/src/OpenSpaceToolkit/Mathematics/Geometry/2D/Transformation.cpp (T2D below).

    Exact real arithmetic.  A matrix, vector or point with an undefined (NaN) coefficient is
    [None].  [eps] is Real::Epsilon() and [prec] the precision Eigen's isIdentity() uses when
    none is given.  The inverse of a singular matrix, which Eigen computes as infinities or NaN,
    is [UB]. *)

From Coq Require Import List Bool Reals.
From Verif Require Import Result DOrder Vec Mat3 Mat4 AngleModel RotModel.
Local Open Scope R_scope.

(** Transformation.hpp (2D 45-57, 3D 50-62), enum class Type. *)
Inductive ttype := TUndefined | TIdentity | TTranslation | TRotation | TScaling | TReflection | TShear | TAffine.
Definition ttype_eqb (a b : ttype) : bool :=
  match a, b with
  | TUndefined, TUndefined | TIdentity, TIdentity | TTranslation, TTranslation | TRotation, TRotation
  | TScaling, TScaling | TReflection, TReflection | TShear, TShear | TAffine, TAffine => true
  | _, _ => false
  end.

(** T3D 81-155, T2D 79-153: TypeCompositionMap. *)
Definition type_composition (a b : ttype) : ttype :=
  match a with
  | TUndefined => TUndefined
  | TIdentity =>
    match b with
    | TUndefined => TUndefined | TIdentity => TIdentity | TTranslation => TTranslation | TRotation => TRotation
    | TScaling => TScaling | TReflection => TReflection | TShear => TShear | TAffine => TAffine
    end
  | TTranslation =>
    match b with
    | TUndefined => TUndefined | TIdentity => TTranslation | TTranslation => TTranslation | TRotation => TAffine
    | TScaling => TAffine | TReflection => TAffine | TShear => TAffine | TAffine => TAffine
    end
  | TRotation =>
    match b with
    | TUndefined => TUndefined | TIdentity => TRotation | TTranslation => TAffine | TRotation => TRotation
    | TScaling => TAffine | TReflection => TAffine | TShear => TAffine | TAffine => TAffine
    end
  | TReflection =>
    match b with
    | TUndefined => TUndefined | TIdentity => TReflection | TTranslation => TAffine | TRotation => TAffine
    | TScaling => TAffine | TReflection => TAffine | TShear => TAffine | TAffine => TAffine
    end
  | TScaling =>
    match b with
    | TUndefined => TUndefined | TIdentity => TScaling | TTranslation => TAffine | TRotation => TAffine
    | TScaling => TScaling | TReflection => TAffine | TShear => TAffine | TAffine => TAffine
    end
  | TShear =>
    match b with
    | TUndefined => TUndefined | TIdentity => TShear | TTranslation => TAffine | TRotation => TAffine
    | TScaling => TAffine | TReflection => TAffine | TShear => TAffine | TAffine => TAffine
    end
  | TAffine =>
    match b with
    | TUndefined => TUndefined | TIdentity => TAffine | TTranslation => TAffine | TRotation => TAffine
    | TScaling => TAffine | TReflection => TAffine | TShear => TAffine | TAffine => TAffine
    end
  end.

(** *** Eigen's isIdentity(prec) *)
Definition approx_one (prec x : R) : bool := Rleb (Rabs (x - 1)) (Rmin (Rabs x) 1 * prec).
Definition much_smaller (prec x : R) : bool := Rleb (Rabs x) prec.
Definition isIdentity3 (prec : R) (m : m3) : bool :=
  approx_one prec (m00 m) && approx_one prec (m11 m) && approx_one prec (m22 m)
  && much_smaller prec (m01 m) && much_smaller prec (m02 m) && much_smaller prec (m10 m)
  && much_smaller prec (m12 m) && much_smaller prec (m20 m) && much_smaller prec (m21 m).
Definition isIdentity4 (prec : R) (m : m4) : bool :=
  isIdentity3 prec (lin4 m) && approx_one prec (a33 m)
  && much_smaller prec (a03 m) && much_smaller prec (a13 m) && much_smaller prec (a23 m)
  && much_smaller prec (a30 m) && much_smaller prec (a31 m) && much_smaller prec (a32 m).

(** *** Dimension 3 *)
(** Transformation.hpp: type_, matrix_, isRigid_. *)
Record t3_transf := mkT3 { t3_type : ttype; t3_matrix : option m4; t3_rigid : bool }.

(** T3D 344-361: TypeOfMatrix. *)
Definition t3_TypeOfMatrix (prec : R) (m : option m4) : result ttype :=
  match m with
  | None => Ok TUndefined
  | Some m => if isIdentity4 prec m then Ok TIdentity else Err ERuntime
  end.
(** T3D 363-381: IsRigid. *)
Definition t3_IsRigid (prec : R) (m : option m4) : bool :=
  match m with
  | None => false
  | Some m =>
    if negb (Reqb (a30 m) 0) || negb (Reqb (a31 m) 0) || negb (Reqb (a32 m) 0) || negb (Reqb (a33 m) 1) then false
    else isIdentity3 prec (mul3 (transpose3 (lin4 m)) (lin4 m))
  end.
(** T3D 20-25: from a matrix. *)
Definition t3_Transformation (prec : R) (m : option m4) : result t3_transf :=
  let! ty := t3_TypeOfMatrix prec m in Ok (mkT3 ty m (t3_IsRigid prec m)).

(** T3D 171-174: isDefined. *)
Definition t3_isDefined (t : t3_transf) : bool := negb (ttype_eqb (t3_type t) TUndefined).
(** A defined transformation with its matrix. *)
Definition t3_defined (t : t3_transf) : result m4 := if t3_isDefined t then needd (t3_matrix t) else Err EUndefined.

(** T3D 27-35: operator==. *)
Definition t3_eq (s t : t3_transf) : bool :=
  if negb (t3_isDefined s) || negb (t3_isDefined t) then false
  else match t3_matrix s, t3_matrix t with
       | Some a, Some b => if m4_eq_dec a b then true else false
       | _, _ => false
       end.
(** T3D 42-49, 66-162: operator*, operator*=. *)
Definition t3_mul (s t : t3_transf) : result t3_transf :=
  if negb (t3_isDefined t) then Err EUndefined
  else if negb (t3_isDefined s) then Err EUndefined
  else
    Ok (mkT3 (type_composition (t3_type s) (t3_type t))
            (match t3_matrix s, t3_matrix t with Some a, Some b => Some (mul4 a b) | _, _ => None end)
            (t3_rigid s && t3_rigid t)).
(** T3D 51-64: operator* with a vector. *)
Definition t3_mulv (t : t3_transf) (v : option v4) : result v4 :=
  let! v := needd v in
  let! m := t3_defined t in
  Ok (mulv4 m v).

(** T3D 176-214: isIdentity, isRigid, getType, getMatrix. *)
Definition t3_isIdentity (t : t3_transf) : result bool :=
  if t3_isDefined t then Ok (ttype_eqb (t3_type t) TIdentity) else Err EUndefined.
Definition t3_isRigid (t : t3_transf) : result bool := if t3_isDefined t then Ok (t3_rigid t) else Err EUndefined.
Definition t3_getType (t : t3_transf) : result ttype := if t3_isDefined t then Ok (t3_type t) else Err EUndefined.
Definition t3_getMatrix (t : t3_transf) : result m4 := t3_defined t.
(** T3D 216-224: getInverse. *)
Definition t3_getInverse (t : t3_transf) : result t3_transf :=
  let! m := t3_defined t in
  match inverse4 m with
  | Some n => Ok (mkT3 (t3_type t) (Some n) (t3_rigid t))
  | None => UB
  end.
(** T3D 226-229: applyTo a point; Point::x() throws on an undefined point (Point.cpp 108-116).
    An undefined matrix gives an undefined point. *)
Definition head3 (v : v4) : v3 := V3 (w0 v) (w1 v) (w2 v).
Definition t3_applyTo_point (t : t3_transf) (p : option v3) : result (option v3) :=
  let! p := needd p in
  Ok (match t3_matrix t with
      | Some m => Some (head3 (mulv4 m (V4 (vx p) (vy p) (vz p) 1)))
      | None => None
      end).
(** T3D 231-234: applyTo a vector. *)
Definition t3_applyTo_vector (t : t3_transf) (v : option v3) : option v3 :=
  match t3_matrix t, v with
  | Some m, Some v => Some (head3 (mulv4 m (V4 (vx v) (vy v) (vz v) 0)))
  | _, _ => None
  end.

(** T3D 249-272: Undefined, Identity, Translation. *)
Definition t3_Undefined : t3_transf := mkT3 TUndefined None false.
Definition t3_Identity : t3_transf := mkT3 TIdentity (Some id4) true.
Definition t3_Translation (v : option v3) : result t3_transf :=
  let! v := needd v in
  Ok (mkT3 TTranslation
        (Some (M4 1 0 0 (vx v) 0 1 0 (vy v) 0 0 1 (vz v) 0 0 0 1)) true).
(** block<3, 3>(0, 0) of the identity set to the given matrix. *)
Definition with_block (l : m3) : m4 := affine4 l zero3.
(** T3D 274-286: Rotation, from a rotation vector. *)
Definition t3_Rotation_rv (eps : R) (r : rotvec) : result t3_transf :=
  if negb (rv_isDefined r) then Err EUndefined
  else
    let! m := rm_of_rotvec eps r in
    Ok (mkT3 TRotation (Some (with_block (transpose3 m))) true).
(** T3D 288-300: Rotation, from a rotation matrix. *)
Definition t3_Rotation_rm (m : option m3) : result t3_transf :=
  let! m := needd m in
  Ok (mkT3 TRotation (Some (with_block (transpose3 m))) true).
(** T3D 302-306: RotationAround. *)
Definition t3_RotationAround (eps : R) (p : option v3) (r : rotvec) : result t3_transf :=
  let! c := needd p in
  let! t1 := t3_Translation (Some c) in
  let! rot := t3_Rotation_rv eps r in
  let! t2 := t3_Translation (Some (opp3 c)) in
  let! a := t3_mul t1 rot in
  t3_mul a t2.


(** *** Dimension 2 *)
(** Transformation.hpp: type_, matrix_. *)
Record t2_transf := mkT2 { t2_type : ttype; t2_matrix : option m3 }.

(** T2D 349-367: TypeOfMatrix. *)
Definition t2_TypeOfMatrix (m : option m3) : result ttype :=
  match m with
  | None => Ok TUndefined
  | Some m => if m3_eq_dec m id3 then Ok TIdentity else Err ERuntime
  end.
(** T2D 19-23: from a matrix. *)
Definition t2_Transformation (m : option m3) : result t2_transf :=
  let! ty := t2_TypeOfMatrix m in Ok (mkT2 ty m).

(** T2D 168-171: isDefined. *)
Definition t2_isDefined (t : t2_transf) : bool := negb (ttype_eqb (t2_type t) TUndefined).
Definition t2_defined (t : t2_transf) : result m3 := if t2_isDefined t then needd (t2_matrix t) else Err EUndefined.
(** T2D 25-33: operator==. *)
Definition t2_eq (s t : t2_transf) : bool :=
  if negb (t2_isDefined s) || negb (t2_isDefined t) then false
  else match t2_matrix s, t2_matrix t with
       | Some a, Some b => if m3_eq_dec a b then true else false
       | _, _ => false
       end.
(** T2D 40-47, 64-159: operator*, operator*=. *)
Definition t2_mul (s t : t2_transf) : result t2_transf :=
  if negb (t2_isDefined t) then Err EUndefined
  else if negb (t2_isDefined s) then Err EUndefined
  else
    Ok (mkT2 (type_composition (t2_type s) (t2_type t))
            (match t2_matrix s, t2_matrix t with Some a, Some b => Some (mul3 a b) | _, _ => None end)).
(** T2D 49-62: operator* with a vector. *)
Definition t2_mulv (t : t2_transf) (v : option v3) : result v3 :=
  let! v := needd v in
  let! m := t2_defined t in
  Ok (mulv3 m v).

(** T2D 173-197: isIdentity, isRigid. *)
Definition t2_isIdentity (t : t2_transf) : bool := ttype_eqb (t2_type t) TIdentity.
Definition t2_isRigid (t : t2_transf) : bool :=
  match t2_type t with
  | TIdentity | TTranslation | TRotation | TReflection => true
  | TUndefined | TScaling | TShear | TAffine => false
  end.
(** T2D 199-217: getType, getMatrix. *)
Definition t2_getType (t : t2_transf) : result ttype := if t2_isDefined t then Ok (t2_type t) else Err EUndefined.
Definition t2_getMatrix (t : t2_transf) : result m3 := t2_defined t.
(** T2D 219-227: getInverse. *)
Definition t2_getInverse (t : t2_transf) : result t2_transf :=
  let! m := t2_defined t in
  match inverse3 m with
  | Some n => Ok (mkT2 (t2_type t) (Some n))
  | None => UB
  end.
(** T2D 229-237: applyTo a point, a vector. *)
Definition head2 (v : v3) : v2 := V2 (vx v) (vy v).
Definition t2_applyTo_point (t : t2_transf) (p : option v2) : result (option v2) :=
  let! p := needd p in
  Ok (match t2_matrix t with
      | Some m => Some (head2 (mulv3 m (V3 (x2 p) (y2 p) 1)))
      | None => None
      end).
Definition t2_applyTo_vector (t : t2_transf) (v : option v2) : option v2 :=
  match t2_matrix t, v with
  | Some m, Some v => Some (head2 (mulv3 m (V3 (x2 v) (y2 v) 0)))
  | _, _ => None
  end.

(** T2D 263-285: Undefined, Identity, Translation. *)
Definition t2_Undefined : t2_transf := mkT2 TUndefined None.
Definition t2_Identity : t2_transf := mkT2 TIdentity (Some id3).
Definition t2_Translation (v : option v2) : result t2_transf :=
  let! v := needd v in
  Ok (mkT2 TTranslation (Some (M3 1 0 (x2 v) 0 1 (y2 v) 0 0 1))).
(** T2D 287-305: Rotation. *)
Definition t2_Rotation (a : angle) : result t2_transf :=
  if negb (angle_isDefined a) then Err EUndefined
  else
    let! t := in_unit a Radian in
    Ok (mkT2 TRotation (Some (M3 (cos t) (- sin t) 0 (sin t) (cos t) 0 0 0 1))).
(** T2D 307-311: RotationAround. *)
Definition t2_RotationAround (p : option v2) (a : angle) : result t2_transf :=
  let! c := needd p in
  let! t1 := t2_Translation (Some c) in
  let! rot := t2_Rotation a in
  let! t2 := t2_Translation (Some (opp2 c)) in
  let! b := t2_mul t1 rot in
  t2_mul b t2.

