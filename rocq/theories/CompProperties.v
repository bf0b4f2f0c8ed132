(** The properties of composites in space, of intersections and of the operations of Object: C61, C62, C108. *)

From Coq Require Import List Bool Reals Lra Lia Arith.
From Verif Require Import Result DOrder Vec VecProofs Mat3 AngleModel RotModel RotProofs TransfModel Geo3Types Geo3Model Geo3Spec Geo3Proofs GteModel GteSpec GteProofs SphereModel SphereSpec EllModel
  CuboidModel Poly2Model InterModel ConeModel Poly2Ref PyrModel PyrSpec PyrProofs PyrProofs2 CompModel CompSpec CompProofs CompProofs2 CompProofs3.
Import ListNotations.
Local Open Scope R_scope.

(** *** C61: composites *)
Theorem C61_defined :
  forall c, cs_isDefined c = true <-> fst c = true /\ forall o, In o (snd c) -> obj_isDefined o = true.
Proof. exact c61_defined. Qed.
Print Assumptions C61_defined.

(** An object is contained when it is contained by all the objects of the composite ... *)
Theorem C61_contains :
  forall v c o, cs_isDefined c = true -> obj_isDefined o = true -> (forall x, In x (snd c) -> exists b, obj_contains v x o = Ok b) ->
  exists b, cs_contains v c o = Ok b /\ (b = true <-> forall x, In x (snd c) -> obj_contains v x o = Ok true).
Proof. exact c61_contains. Qed.
Print Assumptions C61_contains.

(** ... and intersected when it is by one of them. *)
Theorem C61_intersects :
  forall v c o, cs_isDefined c = true -> obj_isDefined o = true -> (forall x, In x (snd c) -> exists b, obj_intersects v x o = Ok b) ->
  exists b, cs_intersects v c o = Ok b /\ (b = true <-> exists x, In x (snd c) /\ obj_intersects v x o = Ok true).
Proof. exact c61_intersects. Qed.
Print Assumptions C61_intersects.

(** Whatever the other elements answer. *)
Theorem C61_exact :
  forall v c o, cs_isDefined c = true -> obj_isDefined o = true ->
  (cs_contains v c o = Ok true <-> forall x, In x (snd c) -> obj_contains v x o = Ok true)
  /\ (cs_intersects v c o = Ok false <-> forall x, In x (snd c) -> obj_intersects v x o = Ok false)
  /\ (cs_intersects v c o = Ok true -> exists x, In x (snd c) /\ obj_intersects v x o = Ok true).
Proof. exact c61_exact. Qed.
Print Assumptions C61_exact.

Theorem C61_contains_composite :
  forall v c d, cs_isDefined c = true -> cs_isDefined d = true -> (forall x y, In x (snd c) -> In y (snd d) -> exists b, obj_contains v x y = Ok b) ->
  exists b, cs_contains_cs v c d = Ok b /\ (b = true <-> forall x y, In x (snd c) -> In y (snd d) -> obj_contains v x y = Ok true).
Proof. exact c61_contains_composite. Qed.
Print Assumptions C61_contains_composite.

Theorem C61_intersects_composite :
  forall v c d, cs_isDefined c = true -> cs_isDefined d = true -> (forall x y, In x (snd c) -> In y (snd d) -> exists b, obj_intersects v x y = Ok b) ->
  exists b, cs_intersects_cs v c d = Ok b /\ (b = true <-> exists x y, In x (snd c) /\ In y (snd d) /\ obj_intersects v x y = Ok true).
Proof. exact c61_intersects_composite. Qed.
Print Assumptions C61_intersects_composite.

(** Without objects everything is contained, nothing intersected. *)
Theorem C61_empty :
  forall v o, obj_isDefined o = true -> cs_contains v cs_Empty o = Ok true /\ cs_intersects v cs_Empty o = Ok false /\ (forall n, cs_inter n v cs_Empty o = Ok inter_empty) /\ cs_isEmpty cs_Empty = Ok true.
Proof. exact c61_empty. Qed.
Print Assumptions C61_empty.

(** "True if composite contains object": nothing is in no object. *)
Theorem C61_empty_refuted :
  exists c p, cs_isDefined c = true /\ (forall o, ~ In o (snd c)) /\ forall v, cs_contains v c (OPoint (Some p)) = Ok true.
Proof. exact c61_empty_refuted. Qed.
Print Assumptions C61_empty_refuted.

(** The examples of the comments of contains and intersects in Composite.hpp throw. *)
Theorem C61_documented_refuted :
  exists s p, obj_isDefined s = true /\ obj_isDefined p = true
  /\ (forall v, cs_contains v (Composite [s]) p = Err EToBeImplemented) /\ (forall v, cs_contains_cs v (Composite [s]) (Composite [p]) = Err EToBeImplemented)
  /\ (forall v, cs_intersects v (Composite [p]) p = Err EToBeImplemented) /\ (forall v, cs_intersects_cs v (Composite [p]) (Composite [p]) = Err EToBeImplemented).
Proof. exact c61_documented_refuted. Qed.
Print Assumptions C61_documented_refuted.

(** The objects of the intersections of the elements, in order. *)
Theorem C61_intersection :
  forall n v c o is, cs_isDefined c = true -> obj_isDefined o = true -> Forall2 (fun x i => obj_inter n v x o = Ok i) (snd c) is ->
  cs_inter n v c o = Ok (Intersection (concat (map i_objects is))).
Proof. exact c61_intersection. Qed.
Print Assumptions C61_intersection.

Theorem C61_intersection_composite :
  forall n v c d iss, cs_isDefined c = true -> cs_isDefined d = true -> Forall2 (fun y is => Forall2 (fun x i => obj_inter n v x y = Ok i) (snd c) is) (snd d) iss ->
  cs_inter_cs n v c d = Ok (Intersection (concat (map i_objects (concat iss)))).
Proof. exact c61_intersection_composite. Qed.
Print Assumptions C61_intersection_composite.

Theorem C61_add :
  forall c d, cs_isDefined c = true -> cs_isDefined d = true -> cs_add c d = Ok (true, snd c ++ snd d) /\ cs_add_assign c d = Ok (true, snd c ++ snd d) /\ cs_isDefined (true, snd c ++ snd d) = true.
Proof. exact c61_add. Qed.
Print Assumptions C61_add.

Theorem C61_add_monoid :
  forall c d e, cs_isDefined c = true -> cs_isDefined d = true -> cs_isDefined e = true ->
  (let! x := cs_add c d in cs_add x e) = (let! y := cs_add d e in cs_add c y) /\ cs_add cs_Empty c = Ok c /\ cs_add c cs_Empty = Ok c.
Proof. exact c61_add_monoid. Qed.
Print Assumptions C61_add_monoid.

Theorem C61_access :
  forall c i, cs_isDefined c = true -> cs_getObjectCount c = Ok (length (snd c)) /\ cs_accessObjects c = Ok (snd c)
  /\ (forall o, nth_error (snd c) i = Some o -> cs_accessObjectAt c i = Ok o) /\ ((length (snd c) <= i)%nat -> cs_accessObjectAt c i = Err ERuntime).
Proof. exact c61_access. Qed.
Print Assumptions C61_access.

Theorem C61_is_as :
  forall {T} (cast : obj -> option T) c, cs_isDefined c = true ->
  exists b, cs_is cast c = Ok b /\ (b = true <-> exists o x, snd c = [o] /\ cast o = Some x)
    /\ (forall x, cs_as cast c = Ok x <-> exists o, snd c = [o] /\ cast o = Some x) /\ (b = false -> cs_as cast c = Err ERuntime).
Proof. exact (@c61_is_as). Qed.
Print Assumptions C61_is_as.

Theorem C61_equal :
  forall v c d, cs_isDefined c = true -> cs_isDefined d = true -> (cs_eq v c d = Ok true <-> Forall2 (fun x y => obj_eq v x y = Ok true) (snd c) (snd d)).
Proof. exact c61_equal. Qed.
Print Assumptions C61_equal.

Theorem C61_apply :
  forall v t c, t3_isIdentity t = Ok false -> cs_isDefined c = true -> (forall x, In x (snd c) -> exists y, obj_apply v t x = Ok y) ->
  exists l, cs_apply v t c = Ok (fst c, l) /\ Forall2 (fun x y => obj_apply v t x = Ok y) (snd c) l /\ obj_apply v t (obj_of_composite c) = Ok (OComposite (fst c) l).
Proof. exact c61_apply. Qed.
Print Assumptions C61_apply.

Theorem C61_apply_identity :
  forall v t c, t3_isIdentity t = Ok true -> cs_isDefined c = true -> cs_apply v t c = Ok c.
Proof. exact c61_apply_identity. Qed.
Print Assumptions C61_apply_identity.

Theorem C61_errors :
  forall v n c d o t, cs_isDefined d = true -> obj_isDefined o = true -> obj_isDefined (OPoint None) = false /\
  cs_add c cs_Undefined = Err EUndefined /\ cs_add cs_Undefined d = Err EUndefined /\ cs_contains v cs_Undefined o = Err EUndefined /\ cs_intersects v cs_Undefined o = Err EUndefined /\ cs_inter n v cs_Undefined o = Err EUndefined
  /\ (forall x, obj_isDefined x = false -> cs_contains v d x = Err EUndefined /\ cs_intersects v d x = Err EUndefined /\ cs_inter n v d x = Err EUndefined)
  /\ cs_contains_cs v d cs_Undefined = Err EUndefined /\ cs_intersects_cs v d cs_Undefined = Err EUndefined /\ cs_inter_cs n v d cs_Undefined = Err EUndefined
  /\ cs_contains_cs v cs_Undefined d = Err EUndefined /\ cs_intersects_cs v cs_Undefined d = Err EUndefined /\ cs_inter_cs n v cs_Undefined d = Err EUndefined
  /\ cs_accessObjects cs_Undefined = Err EUndefined /\ (t3_isDefined t = false -> cs_apply v t d = Err EUndefined) /\ (t3_isDefined t = true -> cs_apply v t cs_Undefined = Err EUndefined)
  /\ cs_isDefined (Composite [OPoint None]) = false.
Proof. exact c61_errors. Qed.
Print Assumptions C61_errors.

(** The planes z = 0 and y = 0: both contain (1, 0, 0), one (1, 1, 0). *)
Definition ground : obj := OPlane (mkPlane (Some zero3) (Some (V3 0 0 1))).
Definition wall : obj := OPlane (mkPlane (Some zero3) (Some (V3 0 1 0))).
Example C61_example v : cs_isDefined (Composite [ground; wall]) = true /\ cs_contains v (Composite [ground; wall]) (OPoint (Some (V3 1 0 0))) = Ok true
  /\ cs_contains v (Composite [ground; wall]) (OPoint (Some (V3 1 1 0))) = Ok false /\ cs_intersects v (Composite [ground; wall]) (OPoint (Some (V3 1 1 0))) = Ok true.
Proof.
  assert (P : forall c x y z, obj_contains v (OPlane (mkPlane (Some zero3) (Some c))) (OPoint (Some (V3 x y z))) = Ok (Reqb (dot3 (V3 x y z) c) 0) /\ obj_intersects v (OPlane (mkPlane (Some zero3) (Some c))) (OPoint (Some (V3 x y z))) = Ok (Reqb (dot3 (V3 x y z) c) 0)).
  { intros c x y z. replace (V3 x y z) with (sub3 (V3 x y z) zero3) at 2 4 by (v3unfold; apply V3_eq; ring). split; reflexivity. }
  assert (A : Reqb (dot3 (V3 1 0 0) (V3 0 0 1)) 0 = true) by (apply Reqb_iff; v3unfold; ring). assert (B : Reqb (dot3 (V3 1 0 0) (V3 0 1 0)) 0 = true) by (apply Reqb_iff; v3unfold; ring).
  assert (C : Reqb (dot3 (V3 1 1 0) (V3 0 0 1)) 0 = true) by (apply Reqb_iff; v3unfold; ring). assert (D : Reqb (dot3 (V3 1 1 0) (V3 0 1 0)) 0 = false) by (apply Reqb_false; v3unfold; lra).
  split; [reflexivity |]. rewrite !contains_eq, intersects_eq by reflexivity. cbn [Composite snd allM anyM]. unfold ground, wall. rewrite !(proj1 (P _ _ _ _)), !(proj2 (P _ _ _ _)), A, B, C, D. repeat split.
Qed.
Example C61_example_as : cs_is (fun o => match o with OPoint p => Some p | _ => None end) (Composite [OPoint (Some zero3)]) = Ok true
  /\ cs_as (fun o => match o with OPoint p => Some p | _ => None end) (Composite [OPoint (Some zero3)]) = Ok (Some zero3)
  /\ cs_as (fun o => match o with OPoint p => Some p | _ => None end) (Composite [ground]) = Err ERuntime
  /\ cs_as (fun o => match o with OPoint p => Some p | _ => None end) (Composite [OPoint (Some zero3); OPoint (Some zero3)]) = Err ERuntime.
Proof. repeat split. Qed.
(** Two lines that cross the ground. *)
Example C61_example_intersection n v : cs_inter n v (Composite [OLine (mkLine (Some (V3 1 0 5)) (Some (V3 0 0 1))); OLine (mkLine (Some (V3 2 0 5)) (Some (V3 0 0 1)))]) ground
  = Ok (Intersection [OPoint (Some (V3 1 0 0)); OPoint (Some (V3 2 0 0))]).
Proof.
  assert (P : forall x, obj_inter n v (OLine (mkLine (Some (V3 x 0 5)) (Some (V3 0 0 1)))) ground = Ok (Intersection [OPoint (Some (V3 x 0 0))])).
  { intros x. assert (U : dot3 (V3 0 0 1) (V3 0 0 1) = 1) by (v3unfold; ring). cbn [obj_inter ground obj_isDefined is_ok pl_isDefined isSome pl_point pl_normal andb negb]. unfold l_inter_plane. cbn [l_data pl_data l_origin l_direction pl_point pl_normal bind]. rewrite U.
    destruct (Reqb 1 0) eqn:E; [apply Reqb_iff in E; lra |]. cbv zeta. change (Intersection [OPoint (Some (V3 x 0 0))]) with (inter_point (V3 x 0 0)). do 2 f_equal. v3unfold. apply V3_eq; field. }
  rewrite (c61_intersection n v _ ground [Intersection [OPoint (Some (V3 1 0 0))]; Intersection [OPoint (Some (V3 2 0 0))]]); [reflexivity | reflexivity | reflexivity |]. cbn [Composite snd]. constructor; [apply P |]. constructor; [apply P | constructor].
Qed.

(** *** C62: intersections *)
(** Empty without objects; the kind of the objects when they have one; Complex when they have several; undefined when all the kinds are unknown (cones, composites). *)
Theorem C62_type :
  forall l, (type_of_objects l = IEmpty <-> l = [])
  /\ (forall t, l <> [] -> (forall o, In o l -> kind_of o = Some t) -> type_of_objects l = t)
  /\ ((forall o, In o l -> kind_of o <> None) -> (exists o o', In o l /\ In o' l /\ kind_of o <> kind_of o') -> type_of_objects l = IComplex)
  /\ (type_of_objects l = IUndefined <-> l <> [] /\ forall o, In o l -> kind_of o = None).
Proof. exact c62_type. Qed.
Print Assumptions C62_type.

Theorem C62_factories :
  forall p s l r sg ls, inter_point p = Intersection [OPoint (Some p)] /\ inter_pointset s = Intersection [OPointSet s] /\ inter_line l = Intersection [OLine l]
  /\ inter_ray r = Intersection [ORay r] /\ inter_segment sg = Intersection [OSegment sg] /\ inter_linestring ls = Intersection [OLineString ls] /\ inter_empty = Intersection [].
Proof. exact c62_factories. Qed.
Print Assumptions C62_factories.

Theorem C62_add :
  forall l r, (forall o, In o l -> obj_isDefined o = true) -> (forall o, In o r -> obj_isDefined o = true) -> inter_isDefined (Intersection r) = true ->
  inter_add (Intersection l) (Intersection r) = Ok (Intersection (l ++ r)) /\ inter_add_assign (Intersection l) (Intersection r) = Ok (Intersection (l ++ r)).
Proof. exact c62_add. Qed.
Print Assumptions C62_add.

Theorem C62_associative :
  forall l r s, (forall o, In o (l ++ r ++ s) -> obj_isDefined o = true) -> inter_isDefined (Intersection r) = true -> inter_isDefined (Intersection s) = true ->
  exists i, (let! x := inter_add (Intersection l) (Intersection r) in inter_add x (Intersection s)) = Ok i /\ (let! y := inter_add (Intersection r) (Intersection s) in inter_add (Intersection l) y) = Ok i.
Proof. exact c62_associative. Qed.
Print Assumptions C62_associative.

Theorem C62_neutral :
  forall l, (forall o, In o l -> obj_isDefined o = true) -> inter_add (Intersection l) inter_empty = Ok (Intersection l) /\ (inter_isDefined (Intersection l) = true -> inter_add inter_empty (Intersection l) = Ok (Intersection l)).
Proof. exact c62_neutral. Qed.
Print Assumptions C62_neutral.

(** With an object of an unknown kind the type depends on the order ... *)
Theorem C62_order_refuted :
  exists a b, obj_isDefined a = true /\ obj_isDefined b = true /\ inter_getType (Intersection [a; b]) = Ok IPoint /\ inter_getType (Intersection [b; a]) = Ok IComplex.
Proof. exact c62_order_refuted. Qed.
Print Assumptions C62_order_refuted.

(** ... which alone makes an undefined intersection. *)
Theorem C62_unknown_refuted :
  exists o, obj_isDefined o = true /\ inter_isDefined (Intersection [o]) = false /\ forall i, inter_add i (Intersection [o]) = Err EUndefined.
Proof. exact c62_unknown_refuted. Qed.
Print Assumptions C62_unknown_refuted.

Theorem C62_names :
  forall t, type_has_name t = false <-> t = ICuboid.
Proof. exact c62_names. Qed.
Print Assumptions C62_names.

(** Printing the intersection throws for one known kind, Cuboid. *)
Theorem C62_nameless_refuted :
  exists o t, obj_isDefined o = true /\ inter_getType (Intersection [o]) = Ok t /\ type_has_name t = false.
Proof. exact c62_nameless_refuted. Qed.
Print Assumptions C62_nameless_refuted.

Theorem C62_access :
  forall l, inter_isDefined (Intersection l) = true ->
  inter_accessComposite (Intersection l) = Ok (OComposite true l) /\ inter_getType (Intersection l) = Ok (type_of_objects l) /\ inter_isEmpty (Intersection l) = (match l with [] => true | _ => false end)
  /\ forall T (cast : obj -> option T), inter_is cast (Intersection l) = cs_is cast (Composite l) /\ inter_as cast (Intersection l) = cs_as cast (Composite l).
Proof. exact c62_access. Qed.
Print Assumptions C62_access.

Theorem C62_equal :
  forall v l r, (forall o, In o (l ++ r) -> obj_isDefined o = true) -> inter_isDefined (Intersection l) = true -> inter_isDefined (Intersection r) = true ->
  (inter_eq v (Intersection l) (Intersection r) = Ok true <-> type_of_objects l = type_of_objects r /\ Forall2 (fun x y => obj_eq v x y = Ok true) l r).
Proof. exact c62_equal. Qed.
Print Assumptions C62_equal.

(** What Object::intersectionWith answers is made of defined objects of known kinds. *)
Theorem C62_results :
  forall n v a, forall b i, obj_inter n v a b = Ok i -> exists l, i = Intersection l /\ forall o, In o l -> obj_isDefined o = true /\ kind_of o <> None.
Proof. exact c62_results. Qed.
Print Assumptions C62_results.

Theorem C62_errors :
  forall i, inter_isDefined inter_undefined = false /\ inter_add i inter_undefined = Err EUndefined /\ inter_add inter_undefined i = Err EUndefined
  /\ inter_accessComposite inter_undefined = Err EUndefined /\ inter_getType inter_undefined = Err EUndefined.
Proof. exact c62_errors. Qed.
Print Assumptions C62_errors.

Example C62_example : let p := OPoint (Some zero3) in let s := OSegment (mkSeg (Some zero3) (Some (V3 1 0 0))) in
  inter_add (Intersection [p]) (Intersection [p]) = Ok (Intersection [p; p]) /\ inter_getType (Intersection [p; p]) = Ok IPoint
  /\ inter_add (Intersection [p]) (Intersection [s]) = Ok (Intersection [p; s]) /\ inter_getType (Intersection [p; s]) = Ok IComplex.
Proof. repeat split. Qed.

(** *** C108: operations of Object *)
(** Equality of objects is that of their points, for the kinds with exact equality. *)
Theorem C108_equal :
  forall v a, forall b, plain a -> plain b -> exists r, obj_eq v a b = Ok r /\ (r = true <-> same_obj a b).
Proof. exact c108_equal. Qed.
Print Assumptions C108_equal.

Theorem C108_equivalence :
  forall v a b c, plain a -> plain b -> plain c ->
  obj_eq v a a = Ok true /\ obj_eq v a b = obj_eq v b a /\ (obj_eq v a b = Ok true -> obj_eq v b c = Ok true -> obj_eq v a c = Ok true).
Proof. exact c108_equivalence. Qed.
Print Assumptions C108_equivalence.

Theorem C108_equal_undefined :
  forall v a b, obj_isDefined a = false \/ obj_isDefined b = false -> obj_eq v a b = Ok false.
Proof. exact c108_equal_undefined. Qed.
Print Assumptions C108_equal_undefined.

(** Object::intersects, when it is decided exactly: there is a common point. *)
Theorem C108_intersects :
  forall v a, forall b, sphere_queries (e3_gte v) -> plain a -> plain b -> decided a b ->
  exists r, obj_intersects v a b = Ok r /\ (r = true <-> exists p, body_of a p /\ body_of b p).
Proof. exact c108_intersects. Qed.
Print Assumptions C108_intersects.

(** Object::contains for planes, and composites of planes. *)
Theorem C108_contains :
  forall v a, forall b, plain a -> plain b -> planes a -> flat b ->
  exists r, obj_contains v a b = Ok r /\ (r = true <-> forall p, points_of b p -> common_of a p).
Proof. exact c108_contains. Qed.
Print Assumptions C108_contains.

(** Two answers agree ... *)
Theorem C108_symmetric :
  forall v a b r s, obj_intersects v a b = Ok r -> obj_intersects v b a = Ok s -> r = s.
Proof. exact c108_symmetric. Qed.
Print Assumptions C108_symmetric.

Theorem C108_inter_symmetric :
  forall n v a b i j, obj_inter n v a b = Ok i -> obj_inter n v b a = Ok j -> i = j.
Proof. exact c108_inter_symmetric. Qed.
Print Assumptions C108_inter_symmetric.

(** ... but one of them may be missing. *)
Theorem C108_one_way_refuted :
  exists a b, obj_isDefined a = true /\ obj_isDefined b = true /\ forall v, obj_intersects v a b = Ok true /\ obj_intersects v b a = Err EToBeImplemented.
Proof. exact c108_one_way_refuted. Qed.
Print Assumptions C108_one_way_refuted.

(** The intersection of two polygons calls itself for ever: no number of calls is enough. *)
Theorem C108_polygons_diverge :
  forall v p q, pg_isDefined p = true -> pg_isDefined q = true -> forall n, obj_inter n v (OPolygon p) (OPolygon q) = Err OutOfFuel.
Proof. exact c108_polygons_diverge. Qed.
Print Assumptions C108_polygons_diverge.

(** So intersectionWith does not answer for two triangles. *)
Theorem C108_polygons_refuted :
  exists p q, pg_isDefined p = true /\ pg_isDefined q = true /\ forall v n, obj_inter n v (OPolygon p) (OPolygon q) = Err OutOfFuel.
Proof. exact c108_polygons_refuted. Qed.
Print Assumptions C108_polygons_refuted.

(** Points in spheres, ellipsoids and cuboids are never looked at. *)
Theorem C108_solids_unimplemented :
  forall v p s e c, obj_contains v (OSphere s) (OPoint (Some p)) = Err EToBeImplemented /\ obj_contains v (OEllipsoid e) (OPoint (Some p)) = Err EToBeImplemented /\ obj_contains v (OCuboid c) (OPoint (Some p)) = Err EToBeImplemented.
Proof. exact c108_solids_unimplemented. Qed.
Print Assumptions C108_solids_unimplemented.

(** A point of a sphere, asked through Object::contains: not implemented. *)
Theorem C108_solids_refuted :
  exists s p, obj_isDefined s = true /\ obj_isDefined (OPoint p) = true /\ points_of s zero3 /\ p = Some zero3 /\ forall v, obj_contains v s (OPoint p) = Err EToBeImplemented.
Proof. exact c108_solids_refuted. Qed.
Print Assumptions C108_solids_refuted.

Theorem C108_undefined :
  forall n v a b, obj_isDefined b = false -> obj_intersects v a b = Err EUndefined /\ obj_contains v a b = Err EUndefined /\ obj_inter n v a b = Err EUndefined.
Proof. exact c108_undefined. Qed.
Print Assumptions C108_undefined.

(** Two composites of the same line and point, given differently; a ray from above meets the ground. *)
Example C108_example v : let a := OComposite true [OLine (mkLine (Some zero3) (Some (V3 1 0 0))); OPoint (Some (V3 0 0 1))] in let b := OComposite true [OLine (mkLine (Some (V3 3 0 0)) (Some (V3 (-1) 0 0))); OPoint (Some (V3 0 0 1))] in
  plain a /\ plain b /\ obj_eq v a b = Ok true.
Proof.
  cbv zeta. assert (A : plain (OComposite true [OLine (mkLine (Some zero3) (Some (V3 1 0 0))); OPoint (Some (V3 0 0 1))])).
  { split; [reflexivity |]. split; [exists zero3, (V3 1 0 0); split; [reflexivity | v3unfold; ring] |]. split; [exists (V3 0 0 1); reflexivity | exact I]. }
  assert (B : plain (OComposite true [OLine (mkLine (Some (V3 3 0 0)) (Some (V3 (-1) 0 0))); OPoint (Some (V3 0 0 1))])).
  { split; [reflexivity |]. split; [exists (V3 3 0 0), (V3 (-1) 0 0); split; [reflexivity | v3unfold; ring] |]. split; [exists (V3 0 0 1); reflexivity | exact I]. }
  split; [exact A |]. split; [exact B |]. destruct (c108_equal v _ _ A B) as (r & E & R). rewrite E. f_equal. apply R. split; [| split; [| exact I]].
  - intros p. split; intros (t & ->); exists (3 - t); unfold along; v3unfold; apply V3_eq; ring.
  - intros p. reflexivity.
Qed.
Example C108_example_intersects : let v := mkEnv3 ref_gte (ref_boost [] [] [] []) 1 1 (fun s => s) (fun _ => None) 10 in
  sphere_queries (e3_gte v) /\ obj_intersects v (OComposite true [ORay (mkRay (Some (V3 0 0 5)) (Some (V3 0 0 (-1))))]) ground = Ok true.
Proof.
  cbv zeta. split; [exact ref_sphere |]. match goal with |- obj_intersects ?v ?a ?b = _ => destruct (c108_intersects v a b) as (r & E & R) end.
  - exact ref_sphere.
  - split; [reflexivity |]. split; [exists (V3 0 0 5), (V3 0 0 (-1)); split; [reflexivity | v3unfold; ring] | exact I].
  - exists zero3, (V3 0 0 1). split; [reflexivity | v3unfold; ring].
  - split; exact I.
  - rewrite E. f_equal. apply R. exists zero3. split; [left; exists 5; split; [lra |]; unfold along; v3unfold; apply V3_eq; ring |]. unfold ground. cbn [body_of points_of]. unfold on_plane. v3unfold. ring.
Qed.
(** The unit square is a defined polygon. *)
Example C108_example_polygon v n : obj_inter n v (OPolygon flat_square) (OPolygon flat_square) = Err OutOfFuel.
Proof. apply c108_polygons_diverge; reflexivity. Qed.
