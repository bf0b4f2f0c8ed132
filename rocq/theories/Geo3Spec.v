(** Point sets of R^3 and distances, independently of the way the library computes. *)

From Coq Require Import List Reals.
From Verif Require Import Result Vec Geo3Types.
Import ListNotations.
Local Open Scope R_scope.

Definition dist3 (p q : v3) : R := norm3 (sub3 p q).
(** The point [a + t (b - a)], the point [o + t d]. *)
Definition along (o : v3) (t : R) (d : v3) : v3 := add3 o (scale3 t d).
Definition on_line (o d : v3) (p : v3) : Prop := exists t, p = along o t d.
Definition on_ray (o d : v3) (p : v3) : Prop := exists t, 0 <= t /\ p = along o t d.
Definition on_segment (a b : v3) (p : v3) : Prop := exists t, 0 <= t <= 1 /\ p = along a t (sub3 b a).
Definition on_plane (q n : v3) (p : v3) : Prop := dot3 n (sub3 p q) = 0.

(** [d] is the least distance from [p] to the set [S]. *)
Definition least_distance (S : v3 -> Prop) (p : v3) (d : R) : Prop :=
  (exists q, S q /\ dist3 p q = d) /\ forall q, S q -> d <= dist3 p q.

(** The points of the linear objects. *)
Definition points_line (l : line) (p : v3) : Prop :=
  exists o d, l = mkLine (Some o) (Some d) /\ on_line o d p.
Definition points_ray (r : ray) (p : v3) : Prop :=
  exists o d, r = mkRay (Some o) (Some d) /\ on_ray o d p.
Definition points_segment (s : segment) (p : v3) : Prop :=
  exists a b, s = mkSeg (Some a) (Some b) /\ on_segment a b p.
Definition points_plane (pl : plane) (p : v3) : Prop :=
  exists q n, pl = mkPlane (Some q) (Some n) /\ on_plane q n p.
(** The points of an intersection made of linear objects, with a type that tells its content. *)
Definition points_obj (o : obj) (p : v3) : Prop :=
  match o with
  | OPoint q => q = Some p
  | OPointSet s => In p s
  | OLine l => points_line l p
  | ORay r => points_ray r p
  | OSegment s => points_segment s p
  | _ => False
  end.
Definition well_typed (i : inter) : Prop :=
  i_defined i = true /\
  match i_type i, i_objects i with
  | IEmpty, [] | IPoint, [OPoint _] | IPointSet, [OPointSet _] | ILine, [OLine _]
  | IRay, [ORay _] | ISegment, [OSegment _] => True
  | _, _ => False
  end.
Definition represents (i : inter) (S : v3 -> Prop) : Prop :=
  well_typed i /\ forall p, S p <-> exists o, In o (i_objects i) /\ points_obj o p.

(** Objects the constructors make and rigid transformations keep: unit direction (normal). *)
Definition good_line (l : line) (o d : v3) : Prop := l = mkLine (Some o) (Some d) /\ sqnorm3 d = 1.
Definition good_ray (r : ray) (o d : v3) : Prop := r = mkRay (Some o) (Some d) /\ sqnorm3 d = 1.
Definition good_plane (pl : plane) (q n : v3) : Prop := pl = mkPlane (Some q) (Some n) /\ sqnorm3 n = 1.

(** Two sets of points have the same points. *)
Definition same_points (S T : v3 -> Prop) : Prop := forall p, S p <-> T p.
(** The set [T] is the image of [S] by [f]. *)
Definition image_of (f : v3 -> v3) (S T : v3 -> Prop) : Prop := forall q, T q <-> exists p, S p /\ q = f p.
