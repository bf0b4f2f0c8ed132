(** 3D composites, intersections and object dispatch (C61, C62, C108). *)

From Coq Require Import List Bool Reals Lra Lia Arith.
From Verif Require Poly2Proofs3.
From Verif Require Import Result DOrder Vec VecProofs Mat3 AngleModel RotModel TransfModel Geo3Types Geo3Model Geo3Spec Geo3Proofs Geo3Proofs2 GteModel SphereModel SphereSpec SphereProofs EllModel CuboidModel InterModel
  Poly2Model ConeModel PyrModel CompModel CompSpec.
Import ListNotations.
Local Open Scope R_scope.

(** *** C61 *)
Lemma cs_defined c : cs_isDefined c = true <-> fst c = true /\ forall o, In o (snd c) -> obj_isDefined o = true.
Proof. destruct c as [d l]. unfold cs_isDefined, obj_of_composite. cbn [fst snd obj_isDefined]. rewrite andb_true_iff, forallb_forall. reflexivity. Qed.
Lemma c61_defined c : cs_isDefined c = true <-> fst c = true /\ forall o, In o (snd c) -> obj_isDefined o = true.
Proof. apply cs_defined. Qed.
Lemma cs_ok c : cs_isDefined c = true -> cs_data c = Ok c.
Proof. intros H. unfold cs_data. rewrite H. reflexivity. Qed.
Lemma contains_eq v c o : cs_isDefined c = true -> obj_isDefined o = true -> cs_contains v c o = allM (fun x => obj_contains v x o) (snd c).
Proof.
  intros D O. unfold cs_contains. destruct c as [d l]. unfold cs_isDefined, obj_of_composite in *. cbn [fst snd] in *. cbn [obj_contains]. rewrite O, D. cbn [negb].
  rewrite <- (Poly2Proofs3.allM_map (fun x => obj_contains v x o)). reflexivity.
Qed.
Lemma intersects_eq v c o : cs_isDefined c = true -> obj_isDefined o = true -> cs_intersects v c o = anyM (fun x => obj_intersects v x o) (snd c).
Proof.
  intros D O. unfold cs_intersects. destruct c as [d l]. unfold cs_isDefined, obj_of_composite in *. cbn [fst snd] in *. cbn [obj_intersects]. rewrite O, D. cbn [negb].
  rewrite <- (Poly2Proofs3.anyM_map (fun x => obj_intersects v x o)). reflexivity.
Qed.
Lemma c61_contains v c o : cs_isDefined c = true -> obj_isDefined o = true -> (forall x, In x (snd c) -> exists b, obj_contains v x o = Ok b) ->
  exists b, cs_contains v c o = Ok b /\ (b = true <-> forall x, In x (snd c) -> obj_contains v x o = Ok true).
Proof. intros D O H. rewrite contains_eq by assumption. apply allM_ok, Poly2Proofs3.answered, H. Qed.
Lemma c61_intersects v c o : cs_isDefined c = true -> obj_isDefined o = true -> (forall x, In x (snd c) -> exists b, obj_intersects v x o = Ok b) ->
  exists b, cs_intersects v c o = Ok b /\ (b = true <-> exists x, In x (snd c) /\ obj_intersects v x o = Ok true).
Proof. intros D O H. rewrite intersects_eq by assumption. apply (anyM_ok (fun x => obj_intersects v x o) (fun x => obj_intersects v x o = Ok true)), Poly2Proofs3.answered, H. Qed.
Lemma c61_contains_composite v c d : cs_isDefined c = true -> cs_isDefined d = true -> (forall x y, In x (snd c) -> In y (snd d) -> exists b, obj_contains v x y = Ok b) ->
  exists b, cs_contains_cs v c d = Ok b /\ (b = true <-> forall x y, In x (snd c) -> In y (snd d) -> obj_contains v x y = Ok true).
Proof.
  intros D E H. unfold cs_contains_cs. rewrite (cs_ok d E), (cs_ok c D). cbn [bind].
  destruct (allM_ok (cs_contains v c) (fun y => forall x, In x (snd c) -> obj_contains v x y = Ok true) (snd d)) as (b & Eb & I).
  - intros y Y. apply c61_contains; try assumption; [apply (cs_defined d); assumption | intros x X; apply H; assumption].
  - exists b. split; [exact Eb |]. rewrite I. split; intros K x y X Y; apply K; assumption.
Qed.
Lemma c61_intersects_composite v c d : cs_isDefined c = true -> cs_isDefined d = true -> (forall x y, In x (snd c) -> In y (snd d) -> exists b, obj_intersects v x y = Ok b) ->
  exists b, cs_intersects_cs v c d = Ok b /\ (b = true <-> exists x y, In x (snd c) /\ In y (snd d) /\ obj_intersects v x y = Ok true).
Proof.
  intros D E H. unfold cs_intersects_cs. rewrite (cs_ok d E), (cs_ok c D). cbn [bind].
  destruct (anyM_ok (cs_intersects v c) (fun y => exists x, In x (snd c) /\ obj_intersects v x y = Ok true) (snd d)) as (b & Eb & I).
  - intros y Y. apply c61_intersects; try assumption; [apply (cs_defined d); assumption | intros x X; apply H; assumption].
  - exists b. split; [exact Eb |]. rewrite I. split; [intros (y & Y & x & X & K); exists x, y | intros (x & y & X & Y & K); exists y; split; [assumption | exists x]]; auto.
Qed.
Lemma c61_empty v o : obj_isDefined o = true -> cs_contains v cs_Empty o = Ok true /\ cs_intersects v cs_Empty o = Ok false /\ (forall n, cs_inter n v cs_Empty o = Ok inter_empty) /\ cs_isEmpty cs_Empty = Ok true.
Proof.
  intros O. rewrite contains_eq, intersects_eq by (assumption || reflexivity). unfold cs_inter. repeat split. intros n. cbn [obj_of_composite fst snd cs_Empty obj_inter]. rewrite O. destruct o; reflexivity.
Qed.
(** "True if composite contains object": nothing is in no object. *)
Lemma c61_empty_refuted : exists c p, cs_isDefined c = true /\ (forall o, ~ In o (snd c)) /\ forall v, cs_contains v c (OPoint (Some p)) = Ok true.
Proof. exists cs_Empty, zero3. split; [reflexivity |]. split; [intros o [] |]. intros v. apply c61_empty. reflexivity. Qed.
(** The examples of the comments in Composite.hpp: a sphere and its center, a point and itself. *)
Lemma c61_documented_refuted : exists s p, obj_isDefined s = true /\ obj_isDefined p = true
  /\ (forall v, cs_contains v (Composite [s]) p = Err EToBeImplemented) /\ (forall v, cs_contains_cs v (Composite [s]) (Composite [p]) = Err EToBeImplemented)
  /\ (forall v, cs_intersects v (Composite [p]) p = Err EToBeImplemented) /\ (forall v, cs_intersects_cs v (Composite [p]) (Composite [p]) = Err EToBeImplemented).
Proof. exists (OSphere (mkSphere (Some zero3) (Some 1))), (OPoint (Some zero3)). repeat split. Qed.
Lemma c61_add c d : cs_isDefined c = true -> cs_isDefined d = true -> cs_add c d = Ok (true, snd c ++ snd d) /\ cs_add_assign c d = Ok (true, snd c ++ snd d) /\ cs_isDefined (true, snd c ++ snd d) = true.
Proof.
  intros D E. unfold cs_add, cs_add_assign. rewrite (cs_ok c D), (cs_ok d E). cbn [bind]. split; [reflexivity |]. apply cs_defined in D. apply cs_defined in E. destruct D as [D D'], E as [E E'].
  rewrite D. split; [reflexivity |]. apply cs_defined. split; [reflexivity |]. cbn [snd]. intros o I. apply in_app_iff in I. destruct I; auto.
Qed.
Lemma c61_add_monoid c d e : cs_isDefined c = true -> cs_isDefined d = true -> cs_isDefined e = true ->
  (let! x := cs_add c d in cs_add x e) = (let! y := cs_add d e in cs_add c y) /\ cs_add cs_Empty c = Ok c /\ cs_add c cs_Empty = Ok c.
Proof.
  intros C D E. destruct (c61_add c d C D) as (A1 & _ & A2), (c61_add d e D E) as (B1 & _ & B2). rewrite A1, B1. cbn [bind].
  rewrite (proj1 (c61_add _ e A2 E)), (proj1 (c61_add c _ C B2)). cbn [snd]. rewrite app_assoc. split; [reflexivity |].
  rewrite (proj1 (c61_add cs_Empty c eq_refl C)), (proj1 (c61_add c cs_Empty C eq_refl)). apply cs_defined in C. destruct c as [b l]. destruct C as [Cb _]. cbn [fst] in Cb. subst b. cbn [snd cs_Empty app]. rewrite app_nil_r. split; reflexivity.
Qed.
Lemma c61_access c i : cs_isDefined c = true -> cs_getObjectCount c = Ok (length (snd c)) /\ cs_accessObjects c = Ok (snd c)
  /\ (forall o, nth_error (snd c) i = Some o -> cs_accessObjectAt c i = Ok o) /\ ((length (snd c) <= i)%nat -> cs_accessObjectAt c i = Err ERuntime).
Proof.
  intros D. unfold cs_getObjectCount, cs_accessObjects, cs_accessObjectAt. rewrite cs_ok by assumption. cbn [bind]. repeat split.
  - intros o ->. reflexivity.
  - intros H. apply nth_error_None in H. rewrite H. reflexivity.
Qed.
Lemma c61_is_as {T} (cast : obj -> option T) c : cs_isDefined c = true ->
  exists b, cs_is cast c = Ok b /\ (b = true <-> exists o x, snd c = [o] /\ cast o = Some x)
    /\ (forall x, cs_as cast c = Ok x <-> exists o, snd c = [o] /\ cast o = Some x) /\ (b = false -> cs_as cast c = Err ERuntime).
Proof.
  intros D. unfold cs_is, cs_as. rewrite cs_ok by assumption. cbn [bind]. destruct (snd c) as [| o [| o' l]].
  - exists false. split; [reflexivity |]. split; [split; [discriminate | intros (? & ? & ? & _); discriminate] |]. split; [split; [discriminate | intros (? & ? & _); discriminate] | reflexivity].
  - destruct (cast o) as [x |] eqn:E.
    + exists true. split; [reflexivity |]. split; [split; [intros _; exists o, x; split; [reflexivity | exact E] | reflexivity] |]. split; [| discriminate].
      intros y. split; [intros H; injection H as <-; exists o; split; [reflexivity | exact E] | intros (o' & H & K); injection H as <-; congruence].
    + exists false. split; [reflexivity |]. split; [split; [discriminate | intros (o' & x & H & K); injection H as <-; congruence] |]. split; [| reflexivity].
      intros y. split; [discriminate | intros (o' & H & K); injection H as <-; congruence].
  - exists false. split; [reflexivity |]. split; [split; [discriminate | intros (? & ? & ? & _); discriminate] |]. split; [split; [discriminate | intros (? & ? & _); discriminate] | reflexivity].
Qed.
Lemma c61_apply v t c : t3_isIdentity t = Ok false -> cs_isDefined c = true -> (forall x, In x (snd c) -> exists y, obj_apply v t x = Ok y) ->
  exists l, cs_apply v t c = Ok (fst c, l) /\ Forall2 (fun x y => obj_apply v t x = Ok y) (snd c) l /\ obj_apply v t (obj_of_composite c) = Ok (OComposite (fst c) l).
Proof.
  intros I C H. assert (D : t3_isDefined t = true) by (unfold t3_isIdentity in I; destruct (t3_isDefined t); congruence).
  assert (G : exists l, mapM (obj_apply v t) (snd c) = Ok l /\ Forall2 (fun x y => obj_apply v t x = Ok y) (snd c) l).
  { clear - H. induction (snd c) as [| x l IH]; [exists []; split; [reflexivity | constructor] |]. destruct (H x (or_introl eq_refl)) as (y & Y). destruct IH as (r & R & F); [intros z Z; apply H; right; exact Z |].
    exists (y :: r). cbn [mapM]. rewrite Y. cbn [bind]. rewrite R. split; [reflexivity | constructor; assumption]. }
  destruct G as (l & M & F). exists l. split; [| split; [exact F |]].
  - unfold cs_apply. rewrite D, cs_ok by assumption. cbn [negb bind]. rewrite I. cbn [bind]. rewrite M. reflexivity.
  - destruct c as [d k]. unfold obj_of_composite. cbn [fst snd] in *. cbn [obj_apply]. unfold cs_isDefined, obj_of_composite in C. cbn [fst snd] in C. rewrite D, C. cbn [negb]. rewrite I. cbn [bind].
    rewrite Poly2Proofs3.mapM_map, M. reflexivity.
Qed.
Lemma c61_apply_identity v t c : t3_isIdentity t = Ok true -> cs_isDefined c = true -> cs_apply v t c = Ok c.
Proof.
  intros I C. assert (D : t3_isDefined t = true) by (unfold t3_isIdentity in I; destruct (t3_isDefined t); congruence). unfold cs_apply. rewrite D, cs_ok by assumption. cbn [negb bind]. rewrite I. reflexivity.
Qed.
Lemma c61_errors v n c d o t : cs_isDefined d = true -> obj_isDefined o = true -> obj_isDefined (OPoint None) = false /\
  cs_add c cs_Undefined = Err EUndefined /\ cs_add cs_Undefined d = Err EUndefined /\ cs_contains v cs_Undefined o = Err EUndefined /\ cs_intersects v cs_Undefined o = Err EUndefined /\ cs_inter n v cs_Undefined o = Err EUndefined
  /\ (forall x, obj_isDefined x = false -> cs_contains v d x = Err EUndefined /\ cs_intersects v d x = Err EUndefined /\ cs_inter n v d x = Err EUndefined)
  /\ cs_contains_cs v d cs_Undefined = Err EUndefined /\ cs_intersects_cs v d cs_Undefined = Err EUndefined /\ cs_inter_cs n v d cs_Undefined = Err EUndefined
  /\ cs_contains_cs v cs_Undefined d = Err EUndefined /\ cs_intersects_cs v cs_Undefined d = Err EUndefined /\ cs_inter_cs n v cs_Undefined d = Err EUndefined
  /\ cs_accessObjects cs_Undefined = Err EUndefined /\ (t3_isDefined t = false -> cs_apply v t d = Err EUndefined) /\ (t3_isDefined t = true -> cs_apply v t cs_Undefined = Err EUndefined)
  /\ cs_isDefined (Composite [OPoint None]) = false.
Proof.
  intros D O. unfold cs_add, cs_contains, cs_intersects, cs_inter, cs_contains_cs, cs_intersects_cs, cs_inter_cs. rewrite (cs_ok d D). cbn [obj_of_composite fst snd cs_Undefined obj_contains obj_intersects obj_inter]. rewrite O.
  repeat split; try (unfold cs_apply; intros ->; reflexivity); try reflexivity; match goal with H : obj_isDefined ?x = false |- _ => rewrite H; reflexivity end.
Qed.

(** *** C62 *)
Lemma itype_eqb_iff a b : itype_eqb a b = true <-> a = b.
Proof. destruct a, b; cbn; split; congruence. Qed.
Lemma itype_eqb_false a b : itype_eqb a b = false <-> a <> b.
Proof. rewrite <- itype_eqb_iff. destruct (itype_eqb a b); split; congruence. Qed.
Lemma type_of_kind o : type_of_object o = match kind_of o with Some t => t | None => IUndefined end.
Proof. destruct o; reflexivity. Qed.
Lemma kind_defined o t : kind_of o = Some t -> t <> IUndefined /\ t <> IComplex /\ t <> IEmpty.
Proof. destruct o; cbn; intros H; try discriminate; injection H as <-; repeat split; discriminate. Qed.
Lemma type_loop_known t l : t <> IUndefined -> type_loop t l = if forallb (fun o => itype_eqb t (type_of_object o)) l then t else IComplex.
Proof.
  intros N. induction l as [| o l IH]; [reflexivity |]. cbn [type_loop forallb]. apply itype_eqb_false in N. rewrite N. destruct (itype_eqb t (type_of_object o)); cbn [negb andb]; [exact IH | reflexivity].
Qed.
Lemma c62_type l : (type_of_objects l = IEmpty <-> l = [])
  /\ (forall t, l <> [] -> (forall o, In o l -> kind_of o = Some t) -> type_of_objects l = t)
  /\ ((forall o, In o l -> kind_of o <> None) -> (exists o o', In o l /\ In o' l /\ kind_of o <> kind_of o') -> type_of_objects l = IComplex)
  /\ (type_of_objects l = IUndefined <-> l <> [] /\ forall o, In o l -> kind_of o = None).
Proof.
  assert (U : forall l, type_loop IUndefined l = IUndefined <-> forall o, In o l -> kind_of o = None).
  { induction l0 as [| o r IH]; [split; [intros _ ? [] | reflexivity] |]. cbn [type_loop]. replace (itype_eqb IUndefined IUndefined) with true by reflexivity. rewrite type_of_kind. destruct (kind_of o) as [t |] eqn:K.
    - destruct (kind_defined o t K) as (A & _ & _). rewrite type_loop_known by assumption. split; [destruct forallb; intros; congruence |]. intros H. specialize (H o (or_introl eq_refl)). congruence.
    - rewrite IH. split; [intros H x [<- | I]; [exact K | apply H, I] | intros H x I; apply H; right; exact I]. }
  assert (E : forall l, type_loop IUndefined l <> IEmpty).
  { induction l0 as [| o r IH]; [discriminate |]. cbn [type_loop]. replace (itype_eqb IUndefined IUndefined) with true by reflexivity. rewrite type_of_kind. destruct (kind_of o) as [t |] eqn:K; [| exact IH].
    destruct (kind_defined o t K) as (A & _ & C). rewrite type_loop_known by assumption. destruct forallb; congruence. }
  split; [| split; [| split]].
  - destruct l as [| o l]; [split; reflexivity |]. unfold type_of_objects. split; [intros H; destruct (E _ H) | discriminate].
  - intros t N H. destruct l as [| o l]; [congruence |]. unfold type_of_objects. cbn [type_loop]. replace (itype_eqb IUndefined IUndefined) with true by reflexivity. rewrite type_of_kind, (H o (or_introl eq_refl)).
    destruct (kind_defined o t (H o (or_introl eq_refl))) as (A & _). rewrite type_loop_known by assumption. rewrite (proj2 (forallb_forall _ _)); [reflexivity |]. intros x I. rewrite type_of_kind, (H x (or_intror I)). apply itype_eqb_iff. reflexivity.
  - intros H (o & o' & I & I' & D). destruct l as [| x l]; [destruct I |]. unfold type_of_objects. cbn [type_loop]. replace (itype_eqb IUndefined IUndefined) with true by reflexivity. rewrite type_of_kind.
    destruct (kind_of x) as [t |] eqn:K; [| destruct (H x (or_introl eq_refl) K)]. destruct (kind_defined x t K) as (A & _). rewrite type_loop_known by assumption.
    destruct (forallb (fun o0 => itype_eqb t (type_of_object o0)) l) eqn:F; [| reflexivity]. exfalso. rewrite forallb_forall in F.
    assert (G : forall y, In y (x :: l) -> kind_of y = Some t).
    { intros y [<- | Y]; [exact K |]. specialize (F y Y). apply itype_eqb_iff in F. rewrite type_of_kind in F. destruct (kind_of y); congruence. }
    apply D. rewrite (G o I), (G o' I'). reflexivity.
  - destruct l as [| o l]; [split; [discriminate | intros []; congruence] |]. unfold type_of_objects. rewrite U. split; [intros H; split; [discriminate | exact H] | intros []; assumption].
Qed.
Lemma c62_factories p s l r sg ls : inter_point p = Intersection [OPoint (Some p)] /\ inter_pointset s = Intersection [OPointSet s] /\ inter_line l = Intersection [OLine l]
  /\ inter_ray r = Intersection [ORay r] /\ inter_segment sg = Intersection [OSegment sg] /\ inter_linestring ls = Intersection [OLineString ls] /\ inter_empty = Intersection [].
Proof. repeat split. Qed.
Lemma defined_iff l : inter_isDefined (Intersection l) = true <-> l = [] \/ exists o, In o l /\ kind_of o <> None.
Proof.
  unfold inter_isDefined. cbn [Intersection i_type]. rewrite negb_true_iff, itype_eqb_false. destruct (c62_type l) as (_ & _ & _ & U). rewrite U. split.
  - intros H. destruct l as [| o l]; [left; reflexivity | right]. destruct (Exists_dec (fun o => kind_of o <> None) (o :: l)) as [E | E].
    + intros x. destruct (kind_of x); [left; discriminate | right; congruence].
    + apply Exists_exists in E. exact E.
    + exfalso. apply H. split; [discriminate |]. intros x I. destruct (kind_of x) eqn:K; [| reflexivity]. exfalso. apply E, Exists_exists. exists x. split; [exact I | congruence].
  - intros [-> | (o & I & K)] [N H]; [congruence |]. apply K, H, I.
Qed.
Lemma c62_add l r : (forall o, In o l -> obj_isDefined o = true) -> (forall o, In o r -> obj_isDefined o = true) -> inter_isDefined (Intersection r) = true ->
  inter_add (Intersection l) (Intersection r) = Ok (Intersection (l ++ r)) /\ inter_add_assign (Intersection l) (Intersection r) = Ok (Intersection (l ++ r)).
Proof.
  intros L R D. assert (Cl : cs_isDefined (true, l) = true) by (apply cs_defined; split; [reflexivity | exact L]). assert (Cr : cs_isDefined (true, r) = true) by (apply cs_defined; split; [reflexivity | exact R]). split.
  - unfold inter_add. rewrite D. unfold inter_composite. cbn [Intersection i_objects i_defined negb]. unfold cs_isDefined, obj_of_composite in Cl, Cr. cbn [fst snd] in Cl, Cr. rewrite Cl, Cr. reflexivity.
  - unfold inter_add_assign. rewrite D. unfold i_composite. cbn [Intersection i_objects i_defined negb]. destruct (c61_add (true, l) (true, r) Cl Cr) as (_ & A & A2). cbn [fst snd] in A, A2. rewrite A. cbn [bind]. unfold cs_accessObjects. rewrite (cs_ok _ A2). reflexivity.
Qed.
Lemma c62_associative l r s : (forall o, In o (l ++ r ++ s) -> obj_isDefined o = true) -> inter_isDefined (Intersection r) = true -> inter_isDefined (Intersection s) = true ->
  exists i, (let! x := inter_add (Intersection l) (Intersection r) in inter_add x (Intersection s)) = Ok i /\ (let! y := inter_add (Intersection r) (Intersection s) in inter_add (Intersection l) y) = Ok i.
Proof.
  intros H R S. exists (Intersection (l ++ r ++ s)). assert (Hl : forall o, In o l -> obj_isDefined o = true) by (intros; apply H; rewrite !in_app_iff; tauto).
  assert (Hr : forall o, In o r -> obj_isDefined o = true) by (intros; apply H; rewrite !in_app_iff; tauto). assert (Hs : forall o, In o s -> obj_isDefined o = true) by (intros; apply H; rewrite !in_app_iff; tauto).
  rewrite (proj1 (c62_add l r Hl Hr R)), (proj1 (c62_add r s Hr Hs S)). cbn [bind]. split.
  - destruct (c62_add (l ++ r) s) as [E _]; [intros o I; apply in_app_iff in I; destruct I; auto | assumption | assumption |]. rewrite E, app_assoc. reflexivity.
  - apply c62_add; [assumption | intros o I; apply in_app_iff in I; destruct I; auto |]. apply defined_iff. apply defined_iff in R. apply defined_iff in S.
    destruct R as [-> | (o & I & K)]; [cbn [app]; exact S |]. right. exists o. split; [apply in_app_iff; left; exact I | exact K].
Qed.
Lemma c62_neutral l : (forall o, In o l -> obj_isDefined o = true) -> inter_add (Intersection l) inter_empty = Ok (Intersection l) /\ (inter_isDefined (Intersection l) = true -> inter_add inter_empty (Intersection l) = Ok (Intersection l)).
Proof.
  intros H. split.
  - change inter_empty with (Intersection []). rewrite (proj1 (c62_add l [] H (fun o (K : In o []) => match K with end) eq_refl)). rewrite app_nil_r. reflexivity.
  - intros D. exact (proj1 (c62_add [] l (fun o (K : In o []) => match K with end) H D)).
Qed.
(** The type depends on the order when there is an object of an unknown kind ... *)
Lemma c62_order_refuted : exists a b, obj_isDefined a = true /\ obj_isDefined b = true /\ inter_getType (Intersection [a; b]) = Ok IPoint /\ inter_getType (Intersection [b; a]) = Ok IComplex.
Proof. exists (OComposite true []), (OPoint (Some zero3)). repeat split. Qed.
(** ... which alone makes an undefined intersection ... *)
Lemma c62_unknown_refuted : exists o, obj_isDefined o = true /\ inter_isDefined (Intersection [o]) = false /\ forall i, inter_add i (Intersection [o]) = Err EUndefined.
Proof. exists (OComposite true []). repeat split. Qed.
(** ... and a known one without a name. *)
Lemma c62_nameless_refuted : exists o t, obj_isDefined o = true /\ inter_getType (Intersection [o]) = Ok t /\ type_has_name t = false.
Proof. exists (OCuboid (mkCuboid (Some zero3) (Some (V3 1 0 0), Some (V3 0 1 0), Some (V3 0 0 1)) (Some 1, Some 1, Some 1))), ICuboid. repeat split. Qed.
Lemma c62_names t : type_has_name t = false <-> t = ICuboid.
Proof. destruct t; cbn; split; congruence. Qed.
Lemma c62_access l : inter_isDefined (Intersection l) = true ->
  inter_accessComposite (Intersection l) = Ok (OComposite true l) /\ inter_getType (Intersection l) = Ok (type_of_objects l) /\ inter_isEmpty (Intersection l) = (match l with [] => true | _ => false end)
  /\ forall T (cast : obj -> option T), inter_is cast (Intersection l) = cs_is cast (Composite l) /\ inter_as cast (Intersection l) = cs_as cast (Composite l).
Proof.
  intros D. unfold inter_accessComposite, inter_getType, inter_is, inter_as. rewrite D. split; [reflexivity |]. split; [reflexivity |]. split; [| intros; split; reflexivity].
  unfold inter_isEmpty. cbn [Intersection i_type]. destruct (c62_type l) as (E & _). destruct l as [| o l]; [reflexivity |]. apply itype_eqb_false. intros K. apply E in K. discriminate.
Qed.
Lemma c62_errors i : inter_isDefined inter_undefined = false /\ inter_add i inter_undefined = Err EUndefined /\ inter_add inter_undefined i = Err EUndefined
  /\ inter_accessComposite inter_undefined = Err EUndefined /\ inter_getType inter_undefined = Err EUndefined.
Proof.
  repeat split. unfold inter_add. destruct (negb (inter_isDefined i)); [reflexivity |]. replace (obj_isDefined (inter_composite inter_undefined)) with false by reflexivity. rewrite orb_true_r. reflexivity.
Qed.
