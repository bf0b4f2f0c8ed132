(** Polygons as rings and as regions of the plane, and what boost::geometry answers about them. *)

From Coq Require Import List Bool Reals.
From Verif Require Import Result Vec TransfModel TransfSpec Geo3Types Geo2Model Geo2Spec Poly2Model.
Import ListNotations.
Local Open Scope R_scope.

(** *** Rings *)
(** The vertices, then the first one again. *)
Definition closed (vs : list v2) : list v2 := match vs with [] => [] | f :: _ => vs ++ [f] end.
(** The same ring in the other sense, from the same vertex. *)
Definition flip (vs : list v2) : list v2 := match vs with [] => [] | f :: t => f :: rev t end.
Definition same_ring (vs ws : list v2) : Prop := ws = vs \/ ws = flip vs.
Fixpoint consecutive (r : list v2) : list (v2 * v2) :=
  match r with
  | a :: (b :: _) as t => (a, b) :: consecutive t
  | _ => []
  end.
Definition cycle (vs : list v2) : list (v2 * v2) := consecutive (closed vs).
Definition sum (l : list R) : R := fold_right Rplus 0 l.
Definition cross2 (a b : v2) : R := x2 a * y2 b - y2 a * x2 b.
(** Positive for a counter-clockwise ring. *)
Definition signed_area (vs : list v2) : R := sum (map (fun e => cross2 (fst e) (snd e)) (cycle vs)) / 2.
(** Rings of three vertices or more, whose first vertex is not taken for one of its neighbours. *)
Definition proper_ring (m : R) (vs : list v2) : Prop :=
  exists f s mid z, vs = f :: s :: mid ++ [z] /\ bg_same_point m f s = false /\ bg_same_point m f z = false.
(** The polygon stored for an outer ring and inner rings: closed rings, the outer one clockwise and the others counter-clockwise. *)
Definition polygon_of (m : R) (p : poly2) (outer : list v2) (inner : list (list v2)) : Prop :=
  p = mkPoly2 (closed outer) (map closed inner)
  /\ proper_ring m outer /\ signed_area outer <= 0
  /\ Forall (fun r => proper_ring m r /\ 0 <= signed_area r) inner.
Definition segment_of (e : v2 * v2) : segment2 := mkSeg2 (Some (fst e)) (Some (snd e)).

(** *** Regions *)
(** The angle of the vector (x, y), in ]-pi, pi]. *)
Definition arg2 (x y : R) : R :=
  if Rlt_dec x 0 then if Req_EM_T y 0 then PI else 2 * atan (y / (x + sqrt (x * x + y * y))) else 2 * atan (y / (x + sqrt (x * x + y * y))).
(** The angle under which an edge is seen from a point. *)
Definition subtended (p : v2) (e : v2 * v2) : R :=
  arg2 (dot2 (sub2 (fst e) p) (sub2 (snd e) p)) (cross2 (sub2 (fst e) p) (sub2 (snd e) p)).
(** The ring goes round the point. *)
Definition encloses (r : list v2) (p : v2) : Prop := sum (map (subtended p) (consecutive r)) <> 0.
(** The region of a polygon, with its boundary. *)
Definition region (P : poly2) (p : v2) : Prop :=
  (on_string2 (p_outer P) p \/ encloses (p_outer P) p)
  /\ forall r, In r (p_inner P) -> on_string2 r p \/ ~ encloses r p.

(** *** Contracts for boost::geometry *)
Definition covers_regions (B : boost) : Prop :=
  forall P x, bg_valid B P = true -> exists b, bg_covered B x P = Some b /\ (b = true <-> region P x).
Definition covers_lines (B : boost) : Prop :=
  forall P l, bg_valid B P = true -> (2 <= length l)%nat ->
    exists b, bg_covered_line B l P = Some b /\ (b = true <-> forall x, on_string2 l x -> region P x).
Definition equal_regions (B : boost) : Prop :=
  forall P Q, bg_valid B P = true -> bg_valid B Q = true -> (bg_equals B P Q = true <-> forall x, region P x <-> region Q x).
Definition covers_multi (B : boost) : Prop :=
  forall a x, Forall (fun P => bg_valid B P = true) a ->
    exists b, bg_mcovered B x a = Some b /\ (b = true <-> exists P, In P a /\ region P x).
Definition equal_multi (B : boost) : Prop :=
  forall a b, Forall (fun P => bg_valid B P = true) a -> Forall (fun P => bg_valid B P = true) b ->
    (bg_mequals B a b = true <-> forall x, (exists P, In P a /\ region P x) <-> (exists P, In P b /\ region P x)).
(** Motions of the plane keep validity. *)
Definition valid_moves (B : boost) : Prop :=
  forall t P P', made2 t -> pg2_apply t P = Ok P' -> bg_valid B P = true -> bg_valid B P' = true.

(** *** Equality of objects *)
Definition kind_compared (o : obj2) : bool := match o with O2Point _ | O2Polygon _ | O2MultiPolygon _ => true | _ => false end.

(** *** Intersections *)
(** The kinds of object an intersection knows. *)
Definition kind_of (o : obj2) : option itype2 :=
  match o with
  | O2Point _ => Some I2Point
  | O2PointSet _ => Some I2PointSet
  | O2Line _ => Some I2Line
  | O2Segment _ => Some I2Segment
  | O2LineString _ => Some I2LineString
  | O2Polygon _ => Some I2Polygon
  | _ => None
  end.
