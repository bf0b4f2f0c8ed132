(** What transformations should do, independently of the way the library computes them. *)

From Coq Require Import Reals.
From Verif Require Import Result Vec Mat3 Mat4 AngleModel AngleSpec RotModel RotSpec TransfModel.
Local Open Scope R_scope.

(** *** Dimension 3 *)
(** The transformations that can be made through the public interface.  [okr]: the rotation
    matrices given to Rotation; [ok4]: the matrices given to the constructor. *)
Inductive made3 (eps prec : R) (okr : m3 -> Prop) (ok4 : m4 -> Prop) : t3_transf -> Prop :=
| made3_identity : made3 eps prec okr ok4 t3_Identity
| made3_matrix m t : ok4 m -> t3_Transformation prec (Some m) = Ok t -> made3 eps prec okr ok4 t
| made3_translation v t : t3_Translation v = Ok t -> made3 eps prec okr ok4 t
| made3_rotation_vector r f t : rv_rotates r f -> t3_Rotation_rv eps r = Ok t -> made3 eps prec okr ok4 t
| made3_rotation_matrix m t : okr m -> t3_Rotation_rm (Some m) = Ok t -> made3 eps prec okr ok4 t
| made3_around p r f t : rv_rotates r f -> t3_RotationAround eps p r = Ok t -> made3 eps prec okr ok4 t
| made3_mul s t u : made3 eps prec okr ok4 s -> made3 eps prec okr ok4 t -> t3_mul s t = Ok u -> made3 eps prec okr ok4 u
| made3_inverse s t : made3 eps prec okr ok4 s -> t3_getInverse s = Ok t -> made3 eps prec okr ok4 t.

Definition any_m3 (m : m3) : Prop := True.
Definition exact_last_row (m : m4) : Prop := row4 m 3 = V4 0 0 0 1.
(** Made from proper rotations only. *)
Definition proper3 (eps prec : R) : t3_transf -> Prop := made3 eps prec is_rotation (fun m => m = id4).
(** Made from any accepted rotation matrix, and any matrix whose last row is exactly 0 0 0 1. *)
Definition affine3 (eps prec : R) : t3_transf -> Prop := made3 eps prec any_m3 exact_last_row.

(** [t] maps points (vectors) as [f] does. *)
Definition maps_points3 (t : t3_transf) (f : v3 -> v3) : Prop :=
  forall p, t3_applyTo_point t (Some p) = Ok (Some (f p)).
Definition maps_vectors3 (t : t3_transf) (f : v3 -> v3) : Prop :=
  forall v, t3_applyTo_vector t (Some v) = Some (f v).
Definition keeps_distances3 (t : t3_transf) : Prop :=
  exists f, maps_points3 t f /\ forall p q, norm3 (sub3 (f p) (f q)) = norm3 (sub3 p q).
(** Right-handed rotation of a vector by [t] about the unit axis [a] (Rodrigues). *)
Definition turn3 (a : v3) (t : R) (v : v3) : v3 :=
  add3 (add3 (scale3 (cos t) v) (scale3 ((1 - cos t) * dot3 a v) a)) (scale3 (sin t) (cross3 a v)).

(** What each type promises about the map. *)
Definition describes3 (ty : ttype) (t : t3_transf) : Prop :=
  match ty with
  | TIdentity => maps_points3 t (fun p => p)
  | TTranslation => exists d, maps_points3 t (fun p => add3 p d)
  | TRotation => exists a th, sqnorm3 a = 1 /\ maps_points3 t (turn3 a th)
  | TAffine => exists l d, maps_points3 t (fun p => add3 (mulv3 l p) d)
  | _ => False
  end.

(** *** Dimension 2 *)
Inductive made2 : t2_transf -> Prop :=
| made2_identity : made2 t2_Identity
| made2_matrix m t : t2_Transformation (Some m) = Ok t -> made2 t
| made2_translation v t : t2_Translation v = Ok t -> made2 t
| made2_rotation a t : t2_Rotation a = Ok t -> made2 t
| made2_around p a t : t2_RotationAround p a = Ok t -> made2 t
| made2_mul s t u : made2 s -> made2 t -> t2_mul s t = Ok u -> made2 u
| made2_inverse s t : made2 s -> t2_getInverse s = Ok t -> made2 t.

Definition maps_points2 (t : t2_transf) (f : v2 -> v2) : Prop :=
  forall p, t2_applyTo_point t (Some p) = Ok (Some (f p)).
Definition maps_vectors2 (t : t2_transf) (f : v2 -> v2) : Prop :=
  forall v, t2_applyTo_vector t (Some v) = Some (f v).
Definition keeps_distances2 (t : t2_transf) : Prop :=
  exists f, maps_points2 t f /\ forall p q, norm2 (sub2 (f p) (f q)) = norm2 (sub2 p q).
(** Counter-clockwise rotation by [t]. *)
Definition turn2 (t : R) (v : v2) : v2 := V2 (cos t * x2 v - sin t * y2 v) (sin t * x2 v + cos t * y2 v).

Definition describes2 (ty : ttype) (t : t2_transf) : Prop :=
  match ty with
  | TIdentity => maps_points2 t (fun p => p)
  | TTranslation => exists d, maps_points2 t (fun p => add2 p d)
  | TRotation => exists th, maps_points2 t (turn2 th)
  | TAffine => exists th d, maps_points2 t (fun p => add2 (turn2 th p) d)
  | _ => False
  end.
