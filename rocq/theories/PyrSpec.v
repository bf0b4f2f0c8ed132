(** Polygons in space and pyramids as sets of points, independently of the way the library computes. *)

From Coq Require Import List Bool Reals.
From Verif Require Import Result Vec Geo3Types Geo3Spec Poly2Model Poly2Spec.
Import ListNotations.
Local Open Scope R_scope.

(** The point of coordinates [v] in the plane with origin [o] and axes [x], [y]. *)
Definition lift (o x y : v3) (v : v2) : v3 := add3 o (add3 (scale3 (x2 v) x) (scale3 (y2 v) y)).
Definition frame (x y : v3) : Prop := sqnorm3 x = 1 /\ sqnorm3 y = 1 /\ dot3 x y = 0.
(** A polygon placed in space: the rings of the planar polygon, and the axes. *)
Definition placed (m : R) (p : polygon) (outer : list v2) (inner : list (list v2)) (o x y : v3) : Prop :=
  exists P, p = mkPolygon P (Some o) (Some x) (Some y) /\ polygon_of m P outer inner.
Definition lift_segment (o x y : v3) (e : v2 * v2) : segment := mkSeg (Some (lift o x y (fst e))) (Some (lift o x y (snd e))).
(** The points of a polygon placed in space. *)
Definition placed_region (P : poly2) (o x y : v3) (q : v3) : Prop := exists v, region P v /\ q = lift o x y v.
(** The points between the apex and the base ... *)
Definition solid_pyramid (S : v3 -> Prop) (a p : v3) : Prop := exists q t, S q /\ 0 <= t <= 1 /\ p = along a t (sub3 q a).
(** ... and the points on the half lines from the apex through the base. *)
Definition open_pyramid (S : v3 -> Prop) (a p : v3) : Prop := p = a \/ exists q t, S q /\ 0 <= t /\ p = along a t (sub3 q a).
(** The half lines from [a] between those through [v] and [w]. *)
Definition in_face (a v w d : v3) : Prop := exists s t, 0 <= s /\ 0 <= t /\ d = add3 (scale3 s (sub3 v a)) (scale3 t (sub3 w a)).
(** Unit directions spread evenly over the angle of a face, from the first edge to the second. *)
Definition face_spread (a v w : v3) (n : nat) (ds : list v3) : Prop :=
  exists t, 0 < t < PI /\ dist3 v a * dist3 w a * cos t = dot3 (sub3 v a) (sub3 w a) /\ length ds = Nat.max 1 n
    /\ forall i d, nth_error ds i = Some d -> sqnorm3 d = 1 /\ in_face a v w d /\ dot3 d (sub3 v a) = dist3 v a * cos (INR i * t / INR (n - 1)).
(** The same over all the faces of a pyramid whose base has the ring [outer]. *)
Definition faces_spread (a o x y : v3) (outer : list v2) (n : nat) (dss : list (list v3)) : Prop :=
  Forall2 (fun e ds => face_spread a (lift o x y (fst e)) (lift o x y (snd e)) (Nat.div n (length (cycle outer))) ds) (cycle outer) dss.
(** The apex is on the line of no edge. *)
Definition off_edges (a o x y : v3) (outer : list v2) : Prop :=
  forall v w, In (v, w) (cycle outer) -> cross3 (sub3 (lift o x y v) a) (sub3 (lift o x y w) a) <> zero3.
