(** The properties of the 2D polygons, multi-polygons, composites and intersections: C64, C66, C100 to C105. *)

From Coq Require Import List Bool Reals Lra Lia.
From Verif Require Import Result DOrder Vec VecProofs Mat3 AngleModel RotModel RotProofs TransfModel TransfSpec Geo3Types Geo3Model Geo3Proofs Geo2Model Geo2Spec Geo2Proofs
  Poly2Model Poly2Spec Poly2Proofs Poly2Proofs2 Poly2Proofs3 Poly2Ref.
Import ListNotations.
Local Open Scope R_scope.

(** *** C64: equality of 2D objects *)
(** Polygons are equal exactly when they are the same region ... *)
Theorem C64_polygon :
  forall B P Q, equal_regions B -> bg_valid B P = true -> bg_valid B Q = true -> pg2_isDefined P = true -> pg2_isDefined Q = true ->
  (pg2_eq B P Q = true <-> forall x, region P x <-> region Q x).
Proof. exact c64_polygon. Qed.
Print Assumptions C64_polygon.

(** ... and multi-polygons too. *)
Theorem C64_multi :
  forall B a b, equal_multi B -> Forall (fun P => bg_valid B P = true) a -> Forall (fun P => bg_valid B P = true) b -> a <> [] -> b <> [] ->
  (mp2_eq B a b = true <-> forall x, (exists P, In P a /\ region P x) <-> (exists P, In P b /\ region P x)).
Proof. exact c64_multi. Qed.
Print Assumptions C64_multi.

(** Through the Object interface: points, polygons and multi-polygons.  Missing from C64: the other kinds, which are never equal to anything (below). *)
Theorem C64_reflexive_partial :
  forall B o, equal_regions B -> equal_multi B -> obj2_isDefined o = true ->
  match o with
  | O2Point _ => True
  | O2Polygon P => bg_valid B P = true
  | O2MultiPolygon a => Forall (fun P => bg_valid B P = true) a
  | _ => False
  end -> obj2_eq B o o = true.
Proof. exact c64_reflexive_partial. Qed.
Print Assumptions C64_reflexive_partial.

Theorem C64_never :
  forall B a b, kind_compared a = false -> obj2_eq B a b = false /\ obj2_eq B b a = false.
Proof. exact c64_never. Qed.
Print Assumptions C64_never.

Theorem C64_reflexive_refuted :
  forall B, exists ps l s ls c, Forall (fun o => obj2_isDefined o = true /\ obj2_eq B o o = false) [O2PointSet ps; O2Line l; O2Segment s; O2LineString ls; obj_of_composite2 c].
Proof. exact c64_reflexive_refuted. Qed.
Print Assumptions C64_reflexive_refuted.

Theorem C64_symmetric :
  forall B a b, (forall P Q, bg_equals B P Q = bg_equals B Q P) -> (forall p q, bg_mequals B p q = bg_mequals B q p) -> obj2_eq B a b = obj2_eq B b a.
Proof. exact c64_symmetric. Qed.
Print Assumptions C64_symmetric.

Theorem C64_composite :
  forall B c d, cs2_eq B c d = true <-> cs2_isDefined c = true /\ cs2_isDefined d = true /\ Forall2 (fun a b => obj2_eq B a b = true) (snd c) (snd d).
Proof. exact c64_composite. Qed.
Print Assumptions C64_composite.

(** So a composite with such an object is not equal to itself. *)
Theorem C64_composite_never :
  forall B c o, In o (snd c) -> kind_compared o = false -> cs2_eq B c c = false.
Proof. exact c64_composite_never. Qed.
Print Assumptions C64_composite_never.

(** A unit square is equal to itself and not to another one, whatever boost answers elsewhere. *)
Example C64_example : obj2_eq (ref_boost [] [] [] []) (O2Polygon (unit_square 0 0)) (O2Polygon (unit_square 0 0)) = true.
Proof.
  destruct (ref_contracts [] [] [] []) as (_ & _ & E & _ & M & _). apply c64_reflexive_partial; [exact E | exact M | reflexivity | reflexivity].
Qed.
Example C64_example_composite : cs2_eq (ref_boost [] [] [] []) (Composite2 [O2Point (Some (V2 1 2)); O2Polygon (unit_square 0 0)]) (Composite2 [O2Point (Some (V2 1 2)); O2Polygon (unit_square 0 0)]) = true.
Proof.
  apply c64_composite. split; [reflexivity |]. split; [reflexivity |]. constructor; [| constructor; [exact C64_example | constructor]]. cbn. apply (proj2 (v2_eqb_iff _ _)). reflexivity.
Qed.

(** *** C66: edges of 2D polygons *)
Theorem C66_count :
  forall m p outer inner, polygon_of m p outer inner -> pg2_getEdgeCount p = Ok (length (cycle outer ++ concat (map cycle inner))).
Proof. exact c66_count. Qed.
Print Assumptions C66_count.

(** Polygons without inner rings.  Missing from C66: the edges of inner rings, which are not implemented (below). *)
Theorem C66_edges_partial :
  forall m p outer, polygon_of m p outer [] -> pg2_getEdges p = Ok (map segment_of (cycle outer))
  /\ pg2_getEdgeCount p = Ok (length (cycle outer))
  /\ (forall i e, nth_error (cycle outer) i = Some e -> pg2_getEdgeAt p i = Ok (segment_of e))
  /\ (forall i, (length (cycle outer) <= i)%nat -> pg2_getEdgeAt p i = Err EWrong).
Proof. exact c66_edges_partial. Qed.
Print Assumptions C66_edges_partial.

(** The edges of the outer ring, whatever the inner rings. *)
Theorem C66_outer_edges_partial :
  forall m p outer inner, polygon_of m p outer inner ->
  (forall i e, nth_error (cycle outer) i = Some e -> pg2_getEdgeAt p i = Ok (segment_of e))
  /\ (forall i, (length (cycle outer) <= i < length (cycle outer ++ concat (map cycle inner)))%nat -> pg2_getEdgeAt p i = Err EToBeImplemented)
  /\ (forall i, (length (cycle outer ++ concat (map cycle inner)) <= i)%nat -> pg2_getEdgeAt p i = Err EWrong)
  /\ (inner <> [] -> pg2_getEdges p = Err EToBeImplemented).
Proof. exact c66_outer_edges_partial. Qed.
Print Assumptions C66_outer_edges_partial.

Theorem C66_hole_refuted :
  forall m, 0 <= m < 1 / 10 -> exists p outer inner, polygon_of m p outer inner /\ pg2_getEdgeCount p = Ok 8%nat
  /\ pg2_getEdgeAt p 4 = Err EToBeImplemented /\ pg2_getEdges p = Err EToBeImplemented.
Proof. exact c66_hole_refuted. Qed.
Print Assumptions C66_hole_refuted.

(** The four sides of a square. *)
Example C66_example : pg2_getEdges (unit_square 0 0) = Ok (map segment_of [(V2 0 0, V2 0 (0 + 1)); (V2 0 (0 + 1), V2 (0 + 1) (0 + 1)); (V2 (0 + 1) (0 + 1), V2 (0 + 1) 0); (V2 (0 + 1) 0, V2 0 0)]).
Proof. apply (c66_edges_partial 0 (unit_square 0 0) (square 0 0)). apply square_polygon; lra. Qed.
Example C66_example_hole : polygon_of 0 hole [V2 0 0; V2 0 3; V2 3 3; V2 3 0] [[V2 1 1; V2 2 1; V2 2 2; V2 1 2]] /\ pg2_getEdgeAt hole 1 = Ok (segment_of (V2 0 3, V2 3 3)).
Proof. split; [apply hole_polygon; lra |]. apply (c66_outer_edges_partial 0 hole _ _ (hole_polygon 0 ltac:(lra))). reflexivity. Qed.

(** *** C100: rings and vertices of 2D polygons *)
(** The rings given, closed, each in the sense boost wants. *)
Theorem C100_construct :
  forall m outer inner, 0 <= m -> proper_ring m outer -> Forall (proper_ring m) inner ->
  exists p outer' inner', Polygon2 m (map Some outer) (map (map Some) inner) = Ok p /\ polygon_of m p outer' inner'
    /\ same_ring outer outer' /\ Forall2 same_ring inner inner'.
Proof. exact c100_construct. Qed.
Print Assumptions C100_construct.

Theorem C100_again :
  forall m p outer inner, 0 <= m -> polygon_of m p outer inner -> Polygon2 m (map Some outer) (map (map Some) inner) = Ok p.
Proof. exact c100_again. Qed.
Print Assumptions C100_again.

(** Repeating the first vertex changes nothing. *)
Theorem C100_closed_input :
  forall m f t, 0 <= m -> proper_ring m (f :: t) -> Polygon2 m (map Some ((f :: t) ++ [f])) [] = Polygon2 m (map Some (f :: t)) [].
Proof. exact c100_closed_input. Qed.
Print Assumptions C100_closed_input.

Theorem C100_errors :
  forall m (l : list point2) inner p a b, In None l -> (3 <= length l)%nat ->
  Polygon2 m l inner = Err EUndefined /\ Polygon2 m [a] inner = Err ERuntime /\ Polygon2 m [a; b] inner = Err ERuntime
  /\ pg2_add_inner m p [[a; b]] = Err ERuntime /\ pg2_add_inner m p [l] = Err EUndefined.
Proof. exact c100_errors. Qed.
Print Assumptions C100_errors.

(** Three points are required, but the first and the last can be the same: a polygon with two vertices. *)
Theorem C100_degenerate_refuted :
  forall m, 0 <= m -> exists a b p, a <> b /\ Polygon2 m (map Some [a; b; a]) [] = Ok p /\ pg2_isDefined p = true
  /\ pg2_getVertices p = Ok [a; b] /\ pg2_getVertexCount p = Ok 2%nat.
Proof. exact c100_degenerate_refuted. Qed.
Print Assumptions C100_degenerate_refuted.

(** A last vertex close to the first one is dropped. *)
Theorem C100_near_refuted :
  forall m, 0 < m -> exists l p n, NoDup l /\ length l = 4%nat /\ Polygon2 m (map Some l) [] = Ok p /\ pg2_getVertexCount p = Ok n /\ n = 3%nat.
Proof. exact c100_near_refuted. Qed.
Print Assumptions C100_near_refuted.

Theorem C100_vertices :
  forall m p outer inner, polygon_of m p outer inner ->
  pg2_getVertices p = Ok (outer ++ concat inner)
  /\ pg2_getVertexCount p = Ok (length (outer ++ concat inner))
  /\ pg2_getOuterRing p = Ok (map Some (closed outer))
  /\ pg2_getInnerRingCount p = Ok (length inner)
  /\ (forall i r, nth_error inner i = Some r -> pg2_getInnerRingAt p i = Ok (map Some (closed r)))
  /\ (forall i, (length inner <= i)%nat -> pg2_getInnerRingAt p i = Err ERuntime)
  /\ (forall i v, nth_error outer i = Some v -> pg2_getVertexAt p i = Ok v).
Proof. exact c100_vertices. Qed.
Print Assumptions C100_vertices.

Theorem C100_vertex_at :
  forall m p outer inner i, polygon_of m p outer inner -> (length outer <= i)%nat ->
  pg2_getVertexAt p i = if Nat.ltb i (length (outer ++ concat inner) + length inner) then Err EToBeImplemented else Err EWrong.
Proof. exact c100_vertex_at. Qed.
Print Assumptions C100_vertex_at.

Theorem C100_near :
  forall m p outer inner q outer' inner' tol, polygon_of m p outer inner -> polygon_of m q outer' inner' ->
  exists b, pg2_isNear p q (Some tol) = Ok b /\ (b = true <-> Forall2 (fun x y => dist2 x y <= tol) (outer ++ concat inner) (outer' ++ concat inner')).
Proof. exact c100_near. Qed.
Print Assumptions C100_near.

(** A counter-clockwise square is stored clockwise. *)
Example C100_example : Polygon2 0 (map Some [V2 0 0; V2 1 0; V2 1 1; V2 0 1]) [] = Ok (mkPoly2 [V2 0 0; V2 0 1; V2 1 1; V2 1 0; V2 0 0] []).
Proof.
  assert (Q : proper_ring 0 [V2 0 0; V2 1 0; V2 1 1; V2 0 1]).
  { exists (V2 0 0), (V2 1 0), [V2 1 1], (V2 0 1). split; [reflexivity |]. unfold bg_same_point. cbn [x2 y2]. rewrite (apart 0 0 1) by lra. rewrite andb_false_r. split; reflexivity. }
  destruct (c100_construct 0 [V2 0 0; V2 1 0; V2 1 1; V2 0 1] [] ltac:(lra) Q (Forall_nil _)) as (p & o & i & E & (-> & _ & A & _) & S & I). inversion I; subst i. change (map (map Some) (@nil (list v2))) with (@nil (list point2)) in E. rewrite E.
  destruct S as [-> | ->]; [| reflexivity]. exfalso. unfold signed_area, cycle in A. cbn in A. unfold cross2 in A. cbn [x2 y2] in A. lra.
Qed.
Example C100_example_vertices : pg2_getVertices hole = Ok [V2 0 0; V2 0 3; V2 3 3; V2 3 0; V2 1 1; V2 2 1; V2 2 2; V2 1 2].
Proof. apply (c100_vertices 0 hole _ _ (hole_polygon 0 ltac:(lra))). Qed.

(** *** C101: containment in 2D polygons and their images *)
(** The region of a polygon: its boundary and the points its outer ring goes round, without those an inner ring goes round. *)
Theorem C101_contains :
  forall B P x, covers_regions B -> bg_valid B P = true -> pg2_isDefined P = true ->
  exists b, pg2_contains B P (Some x) = Ok b /\ (b = true <-> region P x).
Proof. exact c101_contains. Qed.
Print Assumptions C101_contains.

Theorem C101_sets :
  forall B P s, covers_regions B -> bg_valid B P = true -> pg2_isDefined P = true -> s <> [] ->
  exists b, pg2_contains_ps B P s = Ok b /\ (b = true <-> forall x, In x s -> region P x).
Proof. exact c101_sets. Qed.
Print Assumptions C101_sets.

Theorem C101_lines :
  forall B P l, covers_lines B -> bg_valid B P = true -> pg2_isDefined P = true -> (2 <= length l)%nat ->
  exists b, pg2_contains_ls B P (map Some l) = Ok b /\ (b = true <-> forall x, on_string2 l x -> region P x).
Proof. exact c101_lines. Qed.
Print Assumptions C101_lines.

Theorem C101_errors :
  forall B P x s l p, pg2_contains B P None = Err EUndefined /\ pg2_contains B pg2_Undefined (Some x) = Err EUndefined
  /\ pg2_contains_ps B P [] = Err EUndefined /\ pg2_contains_ls B P [] = Err EUndefined
  /\ (pg2_isDefined P = true -> pg2_contains_ls B P [p] = Err ERuntime)
  /\ (pg2_isDefined P = true -> bg_covered B x P = None -> pg2_contains B P (Some x) = Err ERuntime)
  /\ (s <> [] -> pg2_contains_ps B pg2_Undefined s = Err EUndefined) /\ (l <> [] -> pg2_contains_ls B pg2_Undefined l = Err EUndefined).
Proof. exact c101_errors. Qed.
Print Assumptions C101_errors.

(** The image of the region, with the same area and sense of the rings. *)
Theorem C101_transform :
  forall m t P outer inner, made2 t -> polygon_of m P outer inner -> exists f P', maps_points2 t f
  /\ (forall p q, dist2 (f p) (f q) = dist2 p q) /\ pg2_apply t P = Ok P'
  /\ P' = mkPoly2 (closed (map f outer)) (map closed (map (map f) inner))
  /\ signed_area (map f outer) = signed_area outer /\ map signed_area (map (map f) inner) = map signed_area inner
  /\ pg2_getVertices P' = Ok (map f (outer ++ concat inner))
  /\ image_of2 f (region P) (region P').
Proof. exact c101_transform. Qed.
Print Assumptions C101_transform.

Theorem C101_transform_contains :
  forall B m t P outer inner, made2 t -> polygon_of m P outer inner -> covers_regions B -> valid_moves B -> bg_valid B P = true ->
  exists f P', maps_points2 t f /\ pg2_apply t P = Ok P' /\ forall x, pg2_contains B P' (Some (f x)) = pg2_contains B P (Some x).
Proof. exact c101_transform_contains. Qed.
Print Assumptions C101_transform_contains.

Theorem C101_transform_errors :
  forall t P, pg2_apply t2_Undefined P = Err EUndefined /\ pg2_apply t pg2_Undefined = Err EUndefined.
Proof. exact c101_transform_errors. Qed.
Print Assumptions C101_transform_errors.

(** The centre and a corner of a square are in it. *)
Example C101_example : pg2_contains (ref_boost [] [] [] []) (unit_square 0 0) (Some (V2 (0 + 1 / 2) (0 + 1 / 2))) = Ok true
  /\ pg2_contains (ref_boost [] [] [] []) (unit_square 0 0) (Some (V2 (0 + 1) (0 + 1))) = Ok true.
Proof.
  destruct (ref_contracts [] [] [] []) as (R & _). split.
  - destruct (c101_contains _ (unit_square 0 0) (V2 (0 + 1 / 2) (0 + 1 / 2)) R eq_refl eq_refl) as (b & -> & I). f_equal. apply I, square_centre.
  - destruct (c101_contains _ (unit_square 0 0) (V2 (0 + 1) (0 + 1)) R eq_refl eq_refl) as (b & -> & I). f_equal. apply I, square_corner.
Qed.
(** A translated square. *)
Example C101_example_transform : exists t P, t2_Translation (Some (V2 2 0)) = Ok t /\ pg2_apply t (unit_square 0 0) = Ok P
  /\ pg2_contains (ref_boost [] [] [] []) P (Some (V2 (5 / 2) (1 / 2))) = Ok true.
Proof.
  destruct (ref_contracts [] [] [] []) as (R & _ & _ & _ & _ & V). eexists. assert (M : made2 (mkT2 TTranslation (Some (M3 1 0 2 0 1 0 0 0 1)))) by (apply (made2_translation (Some (V2 2 0))); reflexivity).
  destruct (c101_transform_contains (ref_boost [] [] [] []) 0 _ (unit_square 0 0) (square 0 0) [] M (square_polygon 0 0 0 ltac:(lra) ltac:(lra) ltac:(lra)) R V eq_refl) as (f & P & F & A & C).
  exists P. split; [reflexivity |]. split; [exact A |]. specialize (C (V2 (0 + 1 / 2) (0 + 1 / 2))). rewrite (proj1 C101_example) in C. rewrite <- C. do 2 f_equal.
  specialize (F (V2 (0 + 1 / 2) (0 + 1 / 2))). cbn in F. injection F as <-. unfold head2, mulv3, dot3, row3. cbn. apply V2_eq; field.
Qed.

(** *** C102: multi-polygons *)
Theorem C102_round_trip :
  forall m l, 0 <= m -> Forall (fun P => exists outer inner, polygon_of m P outer inner) l -> exists a, MultiPolygon2 m l = Ok a
  /\ (l <> [] -> mp2_isDefined a = true /\ mp2_getPolygonCount a = Ok (length l) /\ mp2_getPolygons m a = Ok l).
Proof. exact c102_round_trip. Qed.
Print Assumptions C102_round_trip.

Theorem C102_contains :
  forall B a x, covers_multi B -> Forall (fun P => bg_valid B P = true) a -> a <> [] ->
  exists b, mp2_contains B a (Some x) = Ok b /\ (b = true <-> exists P, In P a /\ region P x).
Proof. exact c102_contains. Qed.
Print Assumptions C102_contains.

(** Not implemented for sets of points. *)
Theorem C102_sets_unimplemented :
  forall a s, a <> [] -> s <> [] -> mp2_contains_ps a s = Err EToBeImplemented.
Proof. exact c102_sets_unimplemented. Qed.
Print Assumptions C102_sets_unimplemented.

Theorem C102_sets_refuted :
  exists a s, mp2_isDefined a = true /\ length s = 1%nat /\ mp2_contains_ps a s = Err EToBeImplemented.
Proof. exact c102_sets_refuted. Qed.
Print Assumptions C102_sets_refuted.

Theorem C102_transform :
  forall t a, made2 t -> a <> [] -> exists f a', maps_points2 t f /\ mp2_apply t a = Ok a'
  /\ image_of2 f (fun x => exists P, In P a /\ region P x) (fun x => exists P, In P a' /\ region P x).
Proof. exact c102_transform. Qed.
Print Assumptions C102_transform.

Theorem C102_union :
  forall B m P Q outer inner outer' inner', 0 <= m -> polygon_of m P outer inner -> polygon_of m Q outer' inner' ->
  pg2_unionWith B m P Q = attempt (bg_union B [P] [Q])
  /\ (forall a b, a <> [] -> b <> [] -> mp2_unionWith B a b = attempt (bg_union B a b)).
Proof. exact c102_union. Qed.
Print Assumptions C102_union.

Theorem C102_hull :
  forall B m P a h outer inner, 0 <= m -> polygon_of m h outer inner -> pg2_isDefined P = true -> a <> [] ->
  (bg_hull B P = Some h -> pg2_getConvexHull B m P = Ok h) /\ (bg_mhull B a = Some h -> mp2_getConvexHull B m a = Ok h)
  /\ (bg_hull B P = None -> pg2_getConvexHull B m P = Err ERuntime).
Proof. exact c102_hull. Qed.
Print Assumptions C102_hull.

(** A polygon with two vertices does not survive. *)
Theorem C102_degenerate_refuted :
  forall m, 0 <= m -> exists P a, Polygon2 m (map Some [V2 0 0; V2 1 0; V2 0 0]) [] = Ok P /\ MultiPolygon2 m [P] = Ok a /\ mp2_getPolygons m a = Err ERuntime.
Proof. exact c102_degenerate_refuted. Qed.
Print Assumptions C102_degenerate_refuted.

Theorem C102_errors :
  forall B m a b x s, mp2_contains B a None = Err EUndefined /\ mp2_contains B [] (Some x) = Err EUndefined /\ mp2_contains_ps a [] = Err EUndefined
  /\ (s <> [] -> mp2_contains_ps [] s = Err EUndefined) /\ mp2_getPolygonCount [] = Err EUndefined /\ mp2_getPolygons m [] = Err EUndefined
  /\ mp2_unionWith B a [] = Err EUndefined /\ mp2_unionWith B [] b = Err EUndefined /\ mp2_apply t2_Undefined a = Err EUndefined /\ mp2_eq B [] a = false /\ mp2_eq B a [] = false
  /\ MultiPolygon2 m [pg2_Undefined] = Err EUndefined.
Proof. exact c102_errors. Qed.
Print Assumptions C102_errors.

(** Two squares. *)
Example C102_example : exists a, MultiPolygon2 0 [unit_square 0 0; unit_square 5 5] = Ok a /\ mp2_getPolygons 0 a = Ok [unit_square 0 0; unit_square 5 5]
  /\ mp2_getPolygonCount a = Ok 2%nat.
Proof.
  destruct (c102_round_trip 0 [unit_square 0 0; unit_square 5 5]) as (a & A & D); [lra | |].
  - constructor; [exists (square 0 0), []; apply square_polygon; lra |]. constructor; [exists (square 5 5), []; apply square_polygon; lra | constructor].
  - exists a. split; [exact A |]. destruct (D ltac:(discriminate)) as (_ & C & P). split; assumption.
Qed.
Example C102_example_contains : mp2_contains (ref_boost [] [] [] []) [unit_square 0 0; unit_square 5 5] (Some (V2 (5 + 1 / 2) (5 + 1 / 2))) = Ok true.
Proof.
  destruct (ref_contracts [] [] [] []) as (_ & _ & _ & M & _). destruct (c102_contains _ [unit_square 0 0; unit_square 5 5] (V2 (5 + 1 / 2) (5 + 1 / 2)) M) as (b & -> & I); [repeat constructor | discriminate |].
  f_equal. apply I. exists (unit_square 5 5). split; [right; left; reflexivity | apply square_centre].
Qed.

(** *** C103: 2D composites *)
Theorem C103_defined :
  forall c, cs2_isDefined c = true <-> fst c = true /\ forall o, In o (snd c) -> obj2_isDefined o = true.
Proof. exact c103_defined. Qed.
Print Assumptions C103_defined.

Theorem C103_contains :
  forall B c o, cs2_isDefined c = true -> obj2_isDefined o = true -> snd c <> [] -> (forall x, In x (snd c) -> exists b, obj2_contains B x o = Ok b) ->
  exists b, cs2_contains B c o = Ok b /\ (b = true <-> forall x, In x (snd c) -> obj2_contains B x o = Ok true).
Proof. exact c103_contains. Qed.
Print Assumptions C103_contains.

Theorem C103_any_contains :
  forall B c o, cs2_isDefined c = true -> obj2_isDefined o = true -> snd c <> [] -> (forall x, In x (snd c) -> exists b, obj2_contains B x o = Ok b) ->
  exists b, cs2_anyContains B c o = Ok b /\ (b = true <-> exists x, In x (snd c) /\ obj2_contains B x o = Ok true).
Proof. exact c103_any_contains. Qed.
Print Assumptions C103_any_contains.

Theorem C103_contains_composite :
  forall B c d, cs2_isDefined c = true -> cs2_isDefined d = true -> snd c <> [] ->
  (forall x y, In x (snd c) -> In y (snd d) -> exists b, obj2_contains B x y = Ok b) ->
  exists b, cs2_contains_cs B c d = Ok b /\ (b = true <-> forall x y, In x (snd c) -> In y (snd d) -> obj2_contains B x y = Ok true).
Proof. exact c103_contains_composite. Qed.
Print Assumptions C103_contains_composite.

(** Some object of the argument is in all the objects ... *)
Theorem C103_any_contains_composite :
  forall B c d, cs2_isDefined c = true -> cs2_isDefined d = true -> snd c <> [] ->
  (forall x y, In x (snd c) -> In y (snd d) -> exists b, obj2_contains B x y = Ok b) ->
  exists b, cs2_anyContains_cs B c d = Ok b /\ (b = true <-> exists y, In y (snd d) /\ forall x, In x (snd c) -> obj2_contains B x y = Ok true).
Proof. exact c103_any_contains_composite. Qed.
Print Assumptions C103_any_contains_composite.

(** ... which is not what the documentation says (some object contains the composite). *)
Theorem C103_any_contains_refuted :
  exists c d x, (forall B, cs2_anyContains_cs B c d = Ok false) /\ In x (snd c) /\ forall B y, In y (snd d) -> obj2_contains B x y = Ok true.
Proof. exact c103_any_contains_refuted. Qed.
Print Assumptions C103_any_contains_refuted.

(** Intersects never answers true ... *)
Theorem C103_intersects_never :
  forall a, forall b, obj2_intersects a b <> Ok true.
Proof. exact c103_intersects_never. Qed.
Print Assumptions C103_intersects_never.

(** ... since no object implements it. *)
Theorem C103_intersects_refuted :
  exists o, obj2_isDefined o = true /\ cs2_intersects (Composite2 [o]) o = Err EToBeImplemented /\ cs2_intersects_cs (Composite2 [o]) (Composite2 [o]) = Err EToBeImplemented.
Proof. exact c103_intersects_refuted. Qed.
Print Assumptions C103_intersects_refuted.

Theorem C103_empty :
  forall B o d, obj2_isDefined o = true -> cs2_isDefined d = true ->
  cs2_contains B cs2_Empty o = Ok false /\ cs2_anyContains B cs2_Empty o = Ok false /\ cs2_intersects cs2_Empty o = Ok false
  /\ cs2_contains_cs B cs2_Empty d = Ok false /\ cs2_anyContains_cs B cs2_Empty d = Ok false /\ cs2_isEmpty cs2_Empty = Ok true /\ cs2_isDefined cs2_Empty = true.
Proof. exact c103_empty. Qed.
Print Assumptions C103_empty.

Theorem C103_add :
  forall c d, cs2_isDefined c = true -> cs2_isDefined d = true -> cs2_add c d = Ok (true, snd c ++ snd d) /\ cs2_add_assign c d = Ok (true, snd c ++ snd d) /\ cs2_isDefined (true, snd c ++ snd d) = true.
Proof. exact c103_add. Qed.
Print Assumptions C103_add.

Theorem C103_add_monoid :
  forall c d e, cs2_isDefined c = true -> cs2_isDefined d = true -> cs2_isDefined e = true ->
  (let! x := cs2_add c d in cs2_add x e) = (let! y := cs2_add d e in cs2_add c y) /\ cs2_add cs2_Empty c = Ok c /\ cs2_add c cs2_Empty = Ok c.
Proof. exact c103_add_monoid. Qed.
Print Assumptions C103_add_monoid.

Theorem C103_access :
  forall c i, cs2_isDefined c = true -> cs2_getObjectCount c = Ok (length (snd c)) /\ cs2_accessObjects c = Ok (snd c)
  /\ (forall o, nth_error (snd c) i = Some o -> cs2_accessObjectAt c i = Ok o) /\ ((length (snd c) <= i)%nat -> cs2_accessObjectAt c i = Err ERuntime).
Proof. exact c103_access. Qed.
Print Assumptions C103_access.

(** For any kind of object. *)
Theorem C103_is_as :
  forall {T} (cast : obj2 -> option T) c, cs2_isDefined c = true ->
  exists b, cs2_is cast c = Ok b /\ (b = true <-> exists o x, snd c = [o] /\ cast o = Some x)
    /\ (forall x, cs2_as cast c = Ok x <-> exists o, snd c = [o] /\ cast o = Some x) /\ (b = false -> cs2_as cast c = Err ERuntime).
Proof. exact (@c103_is_as). Qed.
Print Assumptions C103_is_as.

Theorem C103_apply :
  forall t c, t2_isDefined t = true -> cs2_isDefined c = true -> t2_isIdentity t = false -> (forall x, In x (snd c) -> exists y, obj2_apply t x = Ok y) ->
  exists l, cs2_apply t c = Ok (fst c, l) /\ Forall2 (fun x y => obj2_apply t x = Ok y) (snd c) l.
Proof. exact c103_apply. Qed.
Print Assumptions C103_apply.

Theorem C103_apply_identity :
  forall t c, t2_isDefined t = true -> cs2_isDefined c = true -> t2_isIdentity t = true -> cs2_apply t c = Ok c.
Proof. exact c103_apply_identity. Qed.
Print Assumptions C103_apply_identity.

Theorem C103_errors :
  forall B c d o t, cs2_isDefined d = true -> obj2_isDefined o = true ->
  cs2_add c cs2_Undefined = Err EUndefined /\ cs2_add cs2_Undefined d = Err EUndefined /\ cs2_contains B cs2_Undefined o = Err EUndefined /\ cs2_anyContains B cs2_Undefined o = Err EUndefined
  /\ cs2_contains B d (O2Point None) = Err EUndefined /\ cs2_accessObjects cs2_Undefined = Err EUndefined /\ cs2_apply t2_Undefined d = Err EUndefined /\ (t2_isDefined t = true -> cs2_apply t cs2_Undefined = Err EUndefined)
  /\ cs2_isDefined (Composite2 [O2Point None]) = false.
Proof. exact c103_errors. Qed.
Print Assumptions C103_errors.

(** Two line strings, one of which contains the point. *)
Example C103_example B : cs2_contains B (Composite2 [string_a; string_b]) (O2Point (Some (V2 1 0))) = Ok false
  /\ cs2_anyContains B (Composite2 [string_a; string_b]) (O2Point (Some (V2 1 0))) = Ok true.
Proof.
  assert (K : forall x, In x [string_a; string_b] -> exists b, obj2_contains B x (O2Point (Some (V2 1 0))) = Ok b) by (intros x [<- | [<- | []]]; eexists; first [apply in_a; lra | apply not_in_b]).
  split.
  - destruct (c103_contains B (Composite2 [string_a; string_b]) (O2Point (Some (V2 1 0))) eq_refl eq_refl ltac:(discriminate) K) as (b & -> & I). f_equal. destruct b; [| reflexivity].
    pose proof (proj1 I eq_refl string_b (or_intror (or_introl eq_refl))) as N. rewrite not_in_b in N. discriminate.
  - destruct (c103_any_contains B (Composite2 [string_a; string_b]) (O2Point (Some (V2 1 0))) eq_refl eq_refl ltac:(discriminate) K) as (b & -> & I). f_equal. apply I. exists string_a. split; [left; reflexivity | apply in_a; lra].
Qed.
Example C103_example_add : cs2_add (Composite2 [string_a]) (Composite2 [string_b; string_a]) = Ok (Composite2 [string_a; string_b; string_a]).
Proof. apply c103_add; reflexivity. Qed.

(** *** C104: 2D intersections *)
Theorem C104_type :
  forall l, (type_of_objects2 l = I2Empty <-> l = [])
  /\ (forall t, l <> [] -> (forall o, In o l -> kind_of o = Some t) -> type_of_objects2 l = t)
  /\ ((forall o, In o l -> kind_of o <> None) -> (exists o o', In o l /\ In o' l /\ kind_of o <> kind_of o') -> type_of_objects2 l = I2Complex)
  /\ (type_of_objects2 l = I2Undefined <-> l <> [] /\ forall o, In o l -> kind_of o = None).
Proof. exact c104_type. Qed.
Print Assumptions C104_type.

Theorem C104_factories :
  forall p s l li sg pg, i2_Point p = Intersection2 [O2Point p] /\ i2_PointSet s = Intersection2 [O2PointSet s] /\ i2_LineString l = Intersection2 [O2LineString l]
  /\ i2_Line li = Intersection2 [O2Line li] /\ i2_Segment sg = Intersection2 [O2Segment sg] /\ i2_Polygon pg = Intersection2 [O2Polygon pg] /\ i2_Empty = Intersection2 [].
Proof. exact c104_factories. Qed.
Print Assumptions C104_factories.

Theorem C104_add :
  forall l r, (forall o, In o l -> obj2_isDefined o = true) -> (forall o, In o r -> obj2_isDefined o = true) -> i2_isDefined (Intersection2 r) = true ->
  i2_add (Intersection2 l) (Intersection2 r) = Ok (Intersection2 (l ++ r)) /\ i2_add_assign (Intersection2 l) (Intersection2 r) = Ok (Intersection2 (l ++ r)).
Proof. exact c104_add. Qed.
Print Assumptions C104_add.

Theorem C104_associative :
  forall l r s, (forall o, In o (l ++ r ++ s) -> obj2_isDefined o = true) -> i2_isDefined (Intersection2 r) = true -> i2_isDefined (Intersection2 s) = true ->
  exists i, (let! x := i2_add (Intersection2 l) (Intersection2 r) in i2_add x (Intersection2 s)) = Ok i /\ (let! y := i2_add (Intersection2 r) (Intersection2 s) in i2_add (Intersection2 l) y) = Ok i.
Proof. exact c104_associative. Qed.
Print Assumptions C104_associative.

Theorem C104_neutral :
  forall l, (forall o, In o l -> obj2_isDefined o = true) -> i2_add (Intersection2 l) i2_Empty = Ok (Intersection2 l) /\ (i2_isDefined (Intersection2 l) = true -> i2_add i2_Empty (Intersection2 l) = Ok (Intersection2 l)).
Proof. exact c104_neutral. Qed.
Print Assumptions C104_neutral.

(** With an object of an unknown kind the type depends on the order ... *)
Theorem C104_order_refuted :
  exists a b, obj2_isDefined a = true /\ obj2_isDefined b = true /\ i2_getType (Intersection2 [a; b]) = Ok I2Point /\ i2_getType (Intersection2 [b; a]) = Ok I2Complex.
Proof. exact c104_order_refuted. Qed.
Print Assumptions C104_order_refuted.

(** ... and alone it makes an undefined intersection, which cannot be added. *)
Theorem C104_unknown_refuted :
  exists o, obj2_isDefined o = true /\ i2_isDefined (Intersection2 [o]) = false /\ forall i, i2_add i (Intersection2 [o]) = Err EUndefined.
Proof. exact c104_unknown_refuted. Qed.
Print Assumptions C104_unknown_refuted.

Theorem C104_equality :
  forall B l r, i2_eq B (Intersection2 l) (Intersection2 r) = true <->
  (forall o, In o (l ++ r) -> obj2_isDefined o = true) /\ i2_isDefined (Intersection2 l) = true /\ i2_isDefined (Intersection2 r) = true
  /\ type_of_objects2 l = type_of_objects2 r /\ Forall2 (fun a b => obj2_eq B a b = true) l r.
Proof. exact c104_equality. Qed.
Print Assumptions C104_equality.

Theorem C104_reflexive_refuted :
  forall B, exists o, obj2_isDefined o = true /\ i2_isDefined (Intersection2 [o]) = true /\ i2_eq B (Intersection2 [o]) (Intersection2 [o]) = false.
Proof. exact c104_reflexive_refuted. Qed.
Print Assumptions C104_reflexive_refuted.

Theorem C104_access :
  forall l, (forall o, In o l -> obj2_isDefined o = true) -> i2_isDefined (Intersection2 l) = true ->
  i2_accessComposite (Intersection2 l) = Ok (Composite2 l) /\ i2_isEmpty (Intersection2 l) = (match l with [] => true | _ => false end)
  /\ forall T (cast : obj2 -> option T), i2_is cast (Intersection2 l) = cs2_is cast (Composite2 l) /\ i2_as cast (Intersection2 l) = cs2_as cast (Composite2 l).
Proof. exact c104_access. Qed.
Print Assumptions C104_access.

Theorem C104_errors :
  forall i, i2_isDefined i2_Undefined = false /\ i2_add i i2_Undefined = Err EUndefined /\ (i2_isDefined i = true -> i2_add i2_Undefined i = Err EUndefined \/ cs2_isDefined (i2_composite i) = false)
  /\ i2_accessComposite i2_Undefined = Err EUndefined /\ i2_getType i2_Undefined = Err EUndefined.
Proof. exact c104_errors. Qed.
Print Assumptions C104_errors.

(** A point and a segment. *)
Example C104_example : exists i, i2_add (i2_Point (Some (V2 1 2))) (i2_Segment (mkSeg2 (Some (V2 0 0)) (Some (V2 1 0)))) = Ok i /\ i2_getType i = Ok I2Complex /\ i2_isEmpty i = false.
Proof. eexists. split; [apply (c104_add [O2Point (Some (V2 1 2))] [O2Segment (mkSeg2 (Some (V2 0 0)) (Some (V2 1 0)))]); [intros o [<- | []] | intros o [<- | []] |]; reflexivity |]. split; reflexivity. Qed.
Example C104_example_neutral : i2_add i2_Empty (i2_Point (Some (V2 1 2))) = Ok (i2_Point (Some (V2 1 2))).
Proof. apply (c104_neutral [O2Point (Some (V2 1 2))]); [intros o [<- | []]; reflexivity | reflexivity]. Qed.

(** *** C105: intersection and difference of 2D polygons *)
Theorem C105_difference :
  forall B m P Q ds, 0 <= m -> proper m P -> proper m Q -> bg_valid B P = true -> bg_valid B Q = true -> bg_difference B P Q = Some ds -> Forall (proper m) ds ->
  pg2_differenceWith B m P Q = Ok (Intersection2 (map O2Polygon ds)) /\ i2_getType (Intersection2 (map O2Polygon ds)) = Ok (match ds with [] => I2Empty | _ => I2Polygon end).
Proof. exact c105_difference. Qed.
Print Assumptions C105_difference.

(** Overlapping polygons: the line strings and points of the boundary are in the polygons and do not appear. *)
Theorem C105_overlap :
  forall B m P Q ds ls ps, 0 <= m -> proper m P -> proper m Q -> bg_valid B P = true -> bg_valid B Q = true -> covers_regions B -> covers_lines B ->
  bg_inter_polygons B P Q = Some ds -> bg_inter_lines B P Q = Some ls -> bg_inter_points B P Q = Some ps ->
  Forall (proper m) ds -> Forall (fun d => bg_valid B d = true) ds ->
  (forall s, In s ls -> (2 <= length s)%nat /\ exists d, In d ds /\ forall x, on_string2 s x -> region d x) -> (forall x, In x ps -> exists d, In d ds /\ region d x) ->
  pg2_intersectionWith B m P Q = Ok (Intersection2 (map O2Polygon ds)).
Proof. exact c105_overlap. Qed.
Print Assumptions C105_overlap.

Theorem C105_disjoint :
  forall B m P Q, proper m P -> proper m Q -> bg_valid B P = true -> bg_valid B Q = true ->
  bg_inter_polygons B P Q = Some [] -> bg_inter_lines B P Q = Some [] -> bg_inter_points B P Q = Some [] -> pg2_intersectionWith B m P Q = Ok i2_Empty.
Proof. exact c105_disjoint. Qed.
Print Assumptions C105_disjoint.

Theorem C105_touch_point :
  forall B m P Q x, proper m P -> proper m Q -> bg_valid B P = true -> bg_valid B Q = true ->
  bg_inter_polygons B P Q = Some [] -> bg_inter_lines B P Q = Some [] -> bg_inter_points B P Q = Some [x] -> pg2_intersectionWith B m P Q = Ok (i2_Point (Some x)).
Proof. exact c105_touch_point. Qed.
Print Assumptions C105_touch_point.

Theorem C105_touch_line :
  forall B m P Q s ps, proper m P -> proper m Q -> bg_valid B P = true -> bg_valid B Q = true ->
  bg_inter_polygons B P Q = Some [] -> bg_inter_lines B P Q = Some [s] -> bg_inter_points B P Q = Some ps -> bg_line_valid B s = true -> s <> [] -> (forall x, In x ps -> on_string2 s x) ->
  pg2_intersectionWith B m P Q = Ok (i2_LineString (map Some s)).
Proof. exact c105_touch_line. Qed.
Print Assumptions C105_touch_line.

(** Polygons that touch in two points or along two line strings: no answer. *)
Theorem C105_two_refuted :
  forall B m P Q, proper m P -> proper m Q -> bg_valid B P = true -> bg_valid B Q = true -> bg_inter_polygons B P Q = Some [] ->
  (forall x y, bg_inter_lines B P Q = Some [] -> bg_inter_points B P Q = Some [x; y] -> pg2_intersectionWith B m P Q = Err EToBeImplemented)
  /\ (forall s s' ps, bg_inter_lines B P Q = Some [s; s'] -> bg_inter_points B P Q = Some ps -> s <> [] -> s' <> [] -> bg_line_valid B s = true -> bg_line_valid B s' = true ->
       pg2_intersectionWith B m P Q = Err EToBeImplemented).
Proof. exact c105_two_refuted. Qed.
Print Assumptions C105_two_refuted.

Theorem C105_errors :
  forall B m P Q, (pg2_isDefined P = false \/ pg2_isDefined Q = false -> pg2_intersectionWith B m P Q = Err EUndefined /\ pg2_differenceWith B m P Q = Err EUndefined /\ pg2_unionWith B m P Q = Err EUndefined)
  /\ (pg2_isDefined P = true -> pg2_isDefined Q = true -> bg_valid B P = false \/ bg_valid B Q = false -> pg2_intersectionWith B m P Q = Err ERuntime /\ pg2_differenceWith B m P Q = Err ERuntime).
Proof. exact c105_errors. Qed.
Print Assumptions C105_errors.

(** Two squares that share a corner. *)
Example C105_example_touch : pg2_intersectionWith (ref_boost [] [] [V2 1 1] []) 0 (unit_square 0 0) (unit_square 1 1) = Ok (i2_Point (Some (V2 1 1))).
Proof. apply c105_touch_point; try reflexivity; eexists _, _; apply square_polygon; lra. Qed.
(** The same square twice: boost also finds its boundary and its corners. *)
Example C105_example_overlap : pg2_intersectionWith (ref_boost [unit_square 0 0] [] [V2 (0 + 1) (0 + 1)] []) 0 (unit_square 0 0) (unit_square 0 0) = Ok (i2_Polygon (unit_square 0 0)).
Proof.
  destruct (ref_contracts [unit_square 0 0] [] [V2 (0 + 1) (0 + 1)] []) as (R & L & _). assert (Q : proper 0 (unit_square 0 0)) by (eexists _, _; apply square_polygon; lra).
  apply (c105_overlap _ 0 _ _ [unit_square 0 0] [] [V2 (0 + 1) (0 + 1)]); try reflexivity; try assumption; try lra.
  - repeat constructor. exact Q.
  - repeat constructor.
  - intros s [].
  - intros x [<- | []]. exists (unit_square 0 0). split; [left; reflexivity | apply square_corner].
Qed.
(** The difference of distant squares is the first one. *)
Example C105_example_difference : pg2_differenceWith (ref_boost [] [] [] [unit_square 0 0]) 0 (unit_square 0 0) (unit_square 5 5) = Ok (i2_Polygon (unit_square 0 0)).
Proof.
  apply (c105_difference _ 0 _ _ [unit_square 0 0]); try reflexivity; try lra; try (eexists _, _; apply square_polygon; lra). constructor; [eexists _, _; apply square_polygon; lra | constructor].
Qed.
