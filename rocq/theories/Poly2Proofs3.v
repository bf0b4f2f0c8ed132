(** 2D composites and intersections, intersection and difference of polygons (C103, C104, C105). *)

From Coq Require Import List Bool Reals Lra Lia Arith.
From Verif Require Import Result DOrder Vec VecProofs AngleModel RotModel TransfModel TransfSpec TransfProofs TransfProofs2 TransfProofs3
  Geo3Types Geo3Model Geo3Proofs Geo3Proofs2 Geo2Model Geo2Spec Geo2Proofs Geo2Proofs2 Poly2Model Poly2Spec Poly2Proofs Poly2Proofs2.
Import ListNotations.
Local Open Scope R_scope.

(** *** C103 *)
Lemma cs_defined c : cs2_isDefined c = true <-> fst c = true /\ forall o, In o (snd c) -> obj2_isDefined o = true.
Proof. destruct c as [d l]. unfold cs2_isDefined, obj_of_composite2. cbn [fst snd obj2_isDefined]. rewrite andb_true_iff, forallb_forall. reflexivity. Qed.
Lemma c103_defined c : cs2_isDefined c = true <-> fst c = true /\ forall o, In o (snd c) -> obj2_isDefined o = true.
Proof. apply cs_defined. Qed.
Lemma cs_ok c : cs2_isDefined c = true -> cs2_defined c = Ok c.
Proof. intros H. unfold cs2_defined. rewrite H. reflexivity. Qed.
Lemma allM_map {A} (f : A -> result bool) l : allM (fun r => r) (map f l) = allM f l.
Proof. induction l as [| a l IH]; [reflexivity |]. cbn [map allM]. rewrite IH. reflexivity. Qed.
Lemma anyM_map {A} (f : A -> result bool) l : anyM (fun r => r) (map f l) = anyM f l.
Proof. induction l as [| a l IH]; [reflexivity |]. cbn [map anyM]. rewrite IH. reflexivity. Qed.
Lemma mapM_map {A B} (f : A -> result B) l : mapM (fun r => r) (map f l) = mapM f l.
Proof. induction l as [| a l IH]; [reflexivity |]. cbn [map mapM]. rewrite IH. reflexivity. Qed.
Lemma answered {A} (f : A -> result bool) l : (forall x, In x l -> exists b, f x = Ok b) -> forall x, In x l -> exists b, f x = Ok b /\ (b = true <-> f x = Ok true).
Proof. intros H x I. destruct (H x I) as (b & E). exists b. split; [exact E |]. rewrite E. split; [intros ->; reflexivity | intros K; injection K; trivial]. Qed.
Lemma contains_eq B c o : cs2_isDefined c = true -> obj2_isDefined o = true -> snd c <> [] -> cs2_contains B c o = allM (fun x => obj2_contains B x o) (snd c).
Proof.
  intros D O N. unfold cs2_contains. destruct c as [d l]. unfold cs2_isDefined, obj_of_composite2 in *. cbn [fst snd] in *. cbn [obj2_contains]. rewrite O, D. cbn [negb].
  destruct l as [| a l]; [congruence |]. destruct o; rewrite <- (allM_map (fun x => obj2_contains B x _)); reflexivity.
Qed.
Lemma c103_contains B c o : cs2_isDefined c = true -> obj2_isDefined o = true -> snd c <> [] -> (forall x, In x (snd c) -> exists b, obj2_contains B x o = Ok b) ->
  exists b, cs2_contains B c o = Ok b /\ (b = true <-> forall x, In x (snd c) -> obj2_contains B x o = Ok true).
Proof. intros D O N H. rewrite contains_eq by assumption. apply allM_ok, answered, H. Qed.
Lemma not_empty c : cs2_isDefined c = true -> snd c <> [] -> cs2_isEmpty c = Ok false.
Proof. intros D N. unfold cs2_isEmpty. rewrite cs_ok by assumption. cbn [bind]. destruct (snd c); [congruence | reflexivity]. Qed.
Lemma c103_any_contains B c o : cs2_isDefined c = true -> obj2_isDefined o = true -> snd c <> [] -> (forall x, In x (snd c) -> exists b, obj2_contains B x o = Ok b) ->
  exists b, cs2_anyContains B c o = Ok b /\ (b = true <-> exists x, In x (snd c) /\ obj2_contains B x o = Ok true).
Proof.
  intros D O N H. unfold cs2_anyContains. rewrite O, cs_ok by assumption. cbn [negb bind]. rewrite not_empty by assumption. cbn [bind]. apply (anyM_ok (fun x => obj2_contains B x o) (fun x => obj2_contains B x o = Ok true)), answered, H.
Qed.
Lemma c103_contains_composite B c d : cs2_isDefined c = true -> cs2_isDefined d = true -> snd c <> [] ->
  (forall x y, In x (snd c) -> In y (snd d) -> exists b, obj2_contains B x y = Ok b) ->
  exists b, cs2_contains_cs B c d = Ok b /\ (b = true <-> forall x y, In x (snd c) -> In y (snd d) -> obj2_contains B x y = Ok true).
Proof.
  intros D E N H. unfold cs2_contains_cs. rewrite (cs_ok d E), (cs_ok c D). cbn [bind]. rewrite not_empty by assumption. cbn [bind].
  destruct (allM_ok (cs2_contains B c) (fun y => forall x, In x (snd c) -> obj2_contains B x y = Ok true) (snd d)) as (b & Eb & I).
  - intros y Y. apply c103_contains; try assumption; [apply (cs_defined d); assumption | intros x X; apply H; assumption].
  - exists b. split; [exact Eb |]. rewrite I. split; intros K x y X Y; apply K; assumption.
Qed.
(** Not what the comment in Composite.hpp says: some object of the argument is in all the objects. *)
Lemma c103_any_contains_composite B c d : cs2_isDefined c = true -> cs2_isDefined d = true -> snd c <> [] ->
  (forall x y, In x (snd c) -> In y (snd d) -> exists b, obj2_contains B x y = Ok b) ->
  exists b, cs2_anyContains_cs B c d = Ok b /\ (b = true <-> exists y, In y (snd d) /\ forall x, In x (snd c) -> obj2_contains B x y = Ok true).
Proof.
  intros D E N H. unfold cs2_anyContains_cs. rewrite (cs_ok d E), (cs_ok c D). cbn [bind]. rewrite not_empty by assumption. cbn [bind].
  apply (anyM_ok (cs2_contains B c) (fun y => forall x, In x (snd c) -> obj2_contains B x y = Ok true)).
  intros y Y. apply c103_contains; try assumption; [apply (cs_defined d); assumption | intros x X; apply H; assumption].
Qed.
(** "True if any objects in composite contains composite": a string that contains the two points of the argument, beside one that contains none. *)
Definition string_a : obj2 := O2LineString (map Some [V2 0 0; V2 2 0]).
Definition string_b : obj2 := O2LineString (map Some [V2 0 5; V2 2 5]).
Lemma in_a x : 0 <= x <= 2 -> forall B, obj2_contains B string_a (O2Point (Some (V2 x 0))) = Ok true.
Proof.
  intros H B. change (ls2_contains (map Some [V2 0 0; V2 2 0]) (Some (V2 x 0)) = Ok true). apply c65_segments; [cbn; lia |]. exists 0%nat, (V2 0 0), (V2 2 0). split; [reflexivity |]. split; [reflexivity |].
  exists (x / 2). split; [lra |]. unfold along2. v2unfold. apply V2_eq; field.
Qed.
Lemma not_in_b x : forall B, obj2_contains B string_b (O2Point (Some (V2 x 0))) = Ok false.
Proof.
  intros B. change (ls2_contains (map Some [V2 0 5; V2 2 5]) (Some (V2 x 0)) = Ok false). destruct (c65_contains [V2 0 5; V2 2 5] (V2 x 0)) as (b & -> & I); [discriminate |]. f_equal.
  destruct b; [| reflexivity]. exfalso. destruct (proj1 I eq_refl) as [(t & _ & E) | E]; apply (f_equal y2) in E; unfold along2 in E; v2unfold; lra.
Qed.
Lemma c103_any_contains_refuted : exists c d x, (forall B, cs2_anyContains_cs B c d = Ok false) /\ In x (snd c) /\ forall B y, In y (snd d) -> obj2_contains B x y = Ok true.
Proof.
  exists (Composite2 [string_a; string_b]), (Composite2 [O2Point (Some (V2 0 0)); O2Point (Some (V2 1 0))]), string_a. split; [| split].
  - intros B. destruct (c103_any_contains_composite B (Composite2 [string_a; string_b]) (Composite2 [O2Point (Some (V2 0 0)); O2Point (Some (V2 1 0))])) as (b & -> & I); try reflexivity; try discriminate.
    + intros x y [<- | [<- | []]] [<- | [<- | []]]; eexists; first [apply in_a; lra | apply not_in_b].
    + f_equal. destruct b; [| reflexivity]. destruct (proj1 I eq_refl) as (y & [<- | [<- | []]] & K); specialize (K string_b (or_intror (or_introl eq_refl))); rewrite not_in_b in K; discriminate.
  - left. reflexivity.
  - intros B y [<- | [<- | []]]; apply in_a; lra.
Qed.
(** Nothing intersects, as far as the answers go. *)
Fixpoint size (o : obj2) : nat := match o with O2Composite _ l => S (fold_right plus 0%nat (map size l)) | _ => 0%nat end.
Lemma size_in x d l : In x l -> (size x < size (O2Composite d l))%nat.
Proof. cbn [size]. induction l as [| y l IH]; [intros [] |]. cbn [map fold_right]. intros [-> | I]; [lia |]. specialize (IH I). lia. Qed.
Lemma c103_intersects_never a : forall b, obj2_intersects a b <> Ok true.
Proof.
  assert (G : forall (n : nat) a b, (size a <= n)%nat -> obj2_intersects a b <> Ok true).
  { induction n as [| n IH]; intros a0 b H.
    - destruct a0 as [| | | | | | | d l]; try (cbn; destruct (negb (obj2_isDefined b)); discriminate). cbn in H. lia.
    - destruct a0 as [| | | | | | | d l]; try (cbn; destruct (negb (obj2_isDefined b)); discriminate). cbn [obj2_intersects].
      destruct (negb (obj2_isDefined b)); [discriminate |]. destruct (negb (obj2_isDefined (O2Composite d l))); [discriminate |]. rewrite anyM_map.
      assert (K : forall x, In x l -> obj2_intersects x b <> Ok true).
      { intros x I. apply (IH x b). pose proof (size_in x d l I). lia. }
      clear - K. induction l as [| x l IH]; [discriminate |]. cbn [anyM]. pose proof (K x (or_introl eq_refl)) as Kx. destruct (obj2_intersects x b) as [[] | |]; cbn [bind]; try discriminate; [congruence |].
      apply IH. intros y Y. apply K. right. exact Y. }
  intros b. apply (G (size a)), Nat.le_refl.
Qed.
Lemma c103_intersects_refuted : exists o, obj2_isDefined o = true /\ cs2_intersects (Composite2 [o]) o = Err EToBeImplemented /\ cs2_intersects_cs (Composite2 [o]) (Composite2 [o]) = Err EToBeImplemented.
Proof. exists (O2Point (Some zero2)). repeat split. Qed.
Lemma c103_empty B o d : obj2_isDefined o = true -> cs2_isDefined d = true ->
  cs2_contains B cs2_Empty o = Ok false /\ cs2_anyContains B cs2_Empty o = Ok false /\ cs2_intersects cs2_Empty o = Ok false
  /\ cs2_contains_cs B cs2_Empty d = Ok false /\ cs2_anyContains_cs B cs2_Empty d = Ok false /\ cs2_isEmpty cs2_Empty = Ok true /\ cs2_isDefined cs2_Empty = true.
Proof.
  intros O D. unfold cs2_contains, cs2_anyContains, cs2_intersects, cs2_contains_cs, cs2_anyContains_cs. rewrite O, (cs_ok d D). cbn [obj2_contains obj2_intersects obj_of_composite2 fst snd cs2_Empty]. rewrite O.
  cbn [negb bind obj2_isDefined andb forallb]. destruct o; repeat split.
Qed.
Lemma c103_add c d : cs2_isDefined c = true -> cs2_isDefined d = true -> cs2_add c d = Ok (true, snd c ++ snd d) /\ cs2_add_assign c d = Ok (true, snd c ++ snd d) /\ cs2_isDefined (true, snd c ++ snd d) = true.
Proof.
  intros D E. unfold cs2_add, cs2_add_assign. rewrite (cs_ok c D), (cs_ok d E). cbn [bind]. split; [reflexivity |]. apply cs_defined in D. apply cs_defined in E. destruct D as [D D'], E as [E E'].
  rewrite D. split; [reflexivity |]. apply cs_defined. split; [reflexivity |]. cbn [snd]. intros o I. apply in_app_iff in I. destruct I; auto.
Qed.
Lemma c103_add_monoid c d e : cs2_isDefined c = true -> cs2_isDefined d = true -> cs2_isDefined e = true ->
  (let! x := cs2_add c d in cs2_add x e) = (let! y := cs2_add d e in cs2_add c y) /\ cs2_add cs2_Empty c = Ok c /\ cs2_add c cs2_Empty = Ok c.
Proof.
  intros C D E. destruct (c103_add c d C D) as (A1 & _ & A2), (c103_add d e D E) as (B1 & _ & B2). rewrite A1, B1. cbn [bind].
  rewrite (proj1 (c103_add _ e A2 E)), (proj1 (c103_add c _ C B2)). cbn [snd]. rewrite app_assoc. split; [reflexivity |].
  rewrite (proj1 (c103_add cs2_Empty c eq_refl C)), (proj1 (c103_add c cs2_Empty C eq_refl)). apply cs_defined in C. destruct c as [b l]. destruct C as [Cb _]. cbn [fst] in Cb. subst b. cbn [snd cs2_Empty app]. rewrite app_nil_r. split; reflexivity.
Qed.
Lemma c103_access c i : cs2_isDefined c = true -> cs2_getObjectCount c = Ok (length (snd c)) /\ cs2_accessObjects c = Ok (snd c)
  /\ (forall o, nth_error (snd c) i = Some o -> cs2_accessObjectAt c i = Ok o) /\ ((length (snd c) <= i)%nat -> cs2_accessObjectAt c i = Err ERuntime).
Proof.
  intros D. unfold cs2_getObjectCount, cs2_accessObjects, cs2_accessObjectAt. rewrite cs_ok by assumption. cbn [bind]. repeat split.
  - intros o ->. reflexivity.
  - intros H. apply nth_error_None in H. rewrite H. reflexivity.
Qed.
Lemma c103_is_as {T} (cast : obj2 -> option T) c : cs2_isDefined c = true ->
  exists b, cs2_is cast c = Ok b /\ (b = true <-> exists o x, snd c = [o] /\ cast o = Some x)
    /\ (forall x, cs2_as cast c = Ok x <-> exists o, snd c = [o] /\ cast o = Some x) /\ (b = false -> cs2_as cast c = Err ERuntime).
Proof.
  intros D. unfold cs2_is, cs2_as. rewrite cs_ok by assumption. cbn [bind]. destruct (snd c) as [| o [| o' l]].
  - exists false. split; [reflexivity |]. split; [split; [discriminate | intros (? & ? & ? & _); discriminate] |]. split; [split; [discriminate | intros (? & ? & _); discriminate] | reflexivity].
  - destruct (cast o) as [x |] eqn:E.
    + exists true. split; [reflexivity |]. split; [split; [intros _; exists o, x; split; [reflexivity | exact E] | reflexivity] |]. split; [| discriminate].
      intros y. split; [intros H; injection H as <-; exists o; split; [reflexivity | exact E] | intros (o' & H & K); injection H as <-; congruence].
    + exists false. split; [reflexivity |]. split; [split; [discriminate | intros (o' & x & H & K); injection H as <-; congruence] |]. split; [| reflexivity].
      intros y. split; [discriminate | intros (o' & H & K); injection H as <-; congruence].
  - exists false. split; [reflexivity |]. split; [split; [discriminate | intros (? & ? & ? & _); discriminate] |]. split; [split; [discriminate | intros (? & ? & _); discriminate] | reflexivity].
Qed.
Lemma c103_apply t c : t2_isDefined t = true -> cs2_isDefined c = true -> t2_isIdentity t = false -> (forall x, In x (snd c) -> exists y, obj2_apply t x = Ok y) ->
  exists l, cs2_apply t c = Ok (fst c, l) /\ Forall2 (fun x y => obj2_apply t x = Ok y) (snd c) l.
Proof.
  intros D C I H. unfold cs2_apply. rewrite D, I, cs_ok by assumption. cbn [negb bind]. assert (G : exists l, mapM (obj2_apply t) (snd c) = Ok l /\ Forall2 (fun x y => obj2_apply t x = Ok y) (snd c) l).
  { clear - H. induction (snd c) as [| x l IH]; [exists []; split; [reflexivity | constructor] |]. destruct (H x (or_introl eq_refl)) as (y & Y). destruct IH as (r & R & F); [intros z Z; apply H; right; exact Z |].
    exists (y :: r). cbn [mapM]. rewrite Y. cbn [bind]. rewrite R. split; [reflexivity | constructor; assumption]. }
  destruct G as (l & -> & F). exists l. split; [reflexivity | exact F].
Qed.
Lemma c103_apply_identity t c : t2_isDefined t = true -> cs2_isDefined c = true -> t2_isIdentity t = true -> cs2_apply t c = Ok c.
Proof. intros D C I. unfold cs2_apply. rewrite D, I, cs_ok by assumption. reflexivity. Qed.
Lemma c103_errors B c d o t : cs2_isDefined d = true -> obj2_isDefined o = true ->
  cs2_add c cs2_Undefined = Err EUndefined /\ cs2_add cs2_Undefined d = Err EUndefined /\ cs2_contains B cs2_Undefined o = Err EUndefined /\ cs2_anyContains B cs2_Undefined o = Err EUndefined
  /\ cs2_contains B d (O2Point None) = Err EUndefined /\ cs2_accessObjects cs2_Undefined = Err EUndefined /\ cs2_apply t2_Undefined d = Err EUndefined /\ (t2_isDefined t = true -> cs2_apply t cs2_Undefined = Err EUndefined)
  /\ cs2_isDefined (Composite2 [O2Point None]) = false.
Proof.
  intros D O. unfold cs2_add, cs2_contains, cs2_anyContains. rewrite (cs_ok d D), O. cbn [obj_of_composite2 fst snd cs2_Undefined obj2_contains]. rewrite O. destruct o; repeat split; intros T; unfold cs2_apply; rewrite T; reflexivity.
Qed.

(** *** C104 *)
Lemma itype_eqb_iff a b : itype2_eqb a b = true <-> a = b.
Proof. destruct a, b; cbn; split; congruence. Qed.
Lemma itype_eqb_false a b : itype2_eqb a b = false <-> a <> b.
Proof. rewrite <- itype_eqb_iff. destruct (itype2_eqb a b); split; congruence. Qed.
Lemma type_of_kind o : type_of_object2 o = match kind_of o with Some t => t | None => I2Undefined end.
Proof. destruct o; reflexivity. Qed.
Lemma kind_defined o t : kind_of o = Some t -> t <> I2Undefined /\ t <> I2Complex /\ t <> I2Empty.
Proof. destruct o; cbn; intros H; try discriminate; injection H as <-; repeat split; discriminate. Qed.
Lemma type_loop_known t l : t <> I2Undefined -> type_loop2 t l = if forallb (fun o => itype2_eqb t (type_of_object2 o)) l then t else I2Complex.
Proof.
  intros N. induction l as [| o l IH]; [reflexivity |]. cbn [type_loop2 forallb]. apply itype_eqb_false in N. rewrite N. destruct (itype2_eqb t (type_of_object2 o)); cbn [negb andb]; [exact IH | reflexivity].
Qed.
Lemma c104_type l : (type_of_objects2 l = I2Empty <-> l = [])
  /\ (forall t, l <> [] -> (forall o, In o l -> kind_of o = Some t) -> type_of_objects2 l = t)
  /\ ((forall o, In o l -> kind_of o <> None) -> (exists o o', In o l /\ In o' l /\ kind_of o <> kind_of o') -> type_of_objects2 l = I2Complex)
  /\ (type_of_objects2 l = I2Undefined <-> l <> [] /\ forall o, In o l -> kind_of o = None).
Proof.
  assert (U : forall l, type_loop2 I2Undefined l = I2Undefined <-> forall o, In o l -> kind_of o = None).
  { induction l0 as [| o r IH]; [split; [intros _ ? [] | reflexivity] |]. cbn [type_loop2]. replace (itype2_eqb I2Undefined I2Undefined) with true by reflexivity. rewrite type_of_kind. destruct (kind_of o) as [t |] eqn:K.
    - destruct (kind_defined o t K) as (A & _ & _). rewrite type_loop_known by assumption. split; [destruct forallb; intros; congruence |]. intros H. specialize (H o (or_introl eq_refl)). congruence.
    - rewrite IH. split; [intros H x [<- | I]; [exact K | apply H, I] | intros H x I; apply H; right; exact I]. }
  assert (E : forall l, type_loop2 I2Undefined l <> I2Empty).
  { induction l0 as [| o r IH]; [discriminate |]. cbn [type_loop2]. replace (itype2_eqb I2Undefined I2Undefined) with true by reflexivity. rewrite type_of_kind. destruct (kind_of o) as [t |] eqn:K; [| exact IH].
    destruct (kind_defined o t K) as (A & _ & C). rewrite type_loop_known by assumption. destruct forallb; congruence. }
  split; [| split; [| split]].
  - destruct l as [| o l]; [split; reflexivity |]. unfold type_of_objects2. split; [intros H; destruct (E _ H) | discriminate].
  - intros t N H. destruct l as [| o l]; [congruence |]. unfold type_of_objects2. cbn [type_loop2]. replace (itype2_eqb I2Undefined I2Undefined) with true by reflexivity. rewrite type_of_kind, (H o (or_introl eq_refl)).
    destruct (kind_defined o t (H o (or_introl eq_refl))) as (A & _). rewrite type_loop_known by assumption. rewrite (proj2 (forallb_forall _ _)); [reflexivity |]. intros x I. rewrite type_of_kind, (H x (or_intror I)). apply itype_eqb_iff. reflexivity.
  - intros H (o & o' & I & I' & D). destruct l as [| x l]; [destruct I |]. unfold type_of_objects2. cbn [type_loop2]. replace (itype2_eqb I2Undefined I2Undefined) with true by reflexivity. rewrite type_of_kind.
    destruct (kind_of x) as [t |] eqn:K; [| destruct (H x (or_introl eq_refl) K)]. destruct (kind_defined x t K) as (A & _). rewrite type_loop_known by assumption.
    destruct (forallb (fun o0 => itype2_eqb t (type_of_object2 o0)) l) eqn:F; [| reflexivity]. exfalso. rewrite forallb_forall in F.
    assert (G : forall y, In y (x :: l) -> kind_of y = Some t).
    { intros y [<- | Y]; [exact K |]. specialize (F y Y). apply itype_eqb_iff in F. rewrite type_of_kind in F. destruct (kind_of y); congruence. }
    apply D. rewrite (G o I), (G o' I'). reflexivity.
  - destruct l as [| o l]; [split; [discriminate | intros []; congruence] |]. unfold type_of_objects2. rewrite U. split; [intros H; split; [discriminate | exact H] | intros []; assumption].
Qed.
Lemma c104_factories p s l li sg pg : i2_Point p = Intersection2 [O2Point p] /\ i2_PointSet s = Intersection2 [O2PointSet s] /\ i2_LineString l = Intersection2 [O2LineString l]
  /\ i2_Line li = Intersection2 [O2Line li] /\ i2_Segment sg = Intersection2 [O2Segment sg] /\ i2_Polygon pg = Intersection2 [O2Polygon pg] /\ i2_Empty = Intersection2 [].
Proof. repeat split. Qed.
Lemma composite_defined l : (forall o, In o l -> obj2_isDefined o = true) -> cs2_isDefined (Composite2 l) = true.
Proof. intros H. apply cs_defined. split; [reflexivity | exact H]. Qed.
Lemma c104_add l r : (forall o, In o l -> obj2_isDefined o = true) -> (forall o, In o r -> obj2_isDefined o = true) -> i2_isDefined (Intersection2 r) = true ->
  i2_add (Intersection2 l) (Intersection2 r) = Ok (Intersection2 (l ++ r)) /\ i2_add_assign (Intersection2 l) (Intersection2 r) = Ok (Intersection2 (l ++ r)).
Proof.
  intros L R D. unfold i2_add, i2_add_assign, i2_defined. rewrite D. cbn [bind Intersection2 i2_composite].
  destruct (c103_add (Composite2 l) (Composite2 r) (composite_defined l L) (composite_defined r R)) as (A & A' & A2). rewrite A, A'. cbn [bind]. unfold cs2_accessObjects. rewrite (cs_ok _ A2). split; reflexivity.
Qed.
Lemma defined_iff l : i2_isDefined (Intersection2 l) = true <-> l = [] \/ exists o, In o l /\ kind_of o <> None.
Proof.
  unfold i2_isDefined. cbn [Intersection2 i2_type]. rewrite negb_true_iff, itype_eqb_false. destruct (c104_type l) as (_ & _ & _ & U). rewrite U. split.
  - intros H. destruct l as [| o l]; [left; reflexivity | right]. destruct (Exists_dec (fun o => kind_of o <> None) (o :: l)) as [E | E].
    + intros x. destruct (kind_of x); [left; discriminate | right; congruence].
    + apply Exists_exists in E. exact E.
    + exfalso. apply H. split; [discriminate |]. intros x I. destruct (kind_of x) eqn:K; [| reflexivity]. exfalso. apply E, Exists_exists. exists x. split; [exact I | congruence].
  - intros [-> | (o & I & K)] [N H]; [congruence |]. apply K, H, I.
Qed.
Lemma c104_associative l r s : (forall o, In o (l ++ r ++ s) -> obj2_isDefined o = true) -> i2_isDefined (Intersection2 r) = true -> i2_isDefined (Intersection2 s) = true ->
  exists i, (let! x := i2_add (Intersection2 l) (Intersection2 r) in i2_add x (Intersection2 s)) = Ok i /\ (let! y := i2_add (Intersection2 r) (Intersection2 s) in i2_add (Intersection2 l) y) = Ok i.
Proof.
  intros H R S. exists (Intersection2 (l ++ r ++ s)). assert (Hl : forall o, In o l -> obj2_isDefined o = true) by (intros; apply H; rewrite !in_app_iff; tauto).
  assert (Hr : forall o, In o r -> obj2_isDefined o = true) by (intros; apply H; rewrite !in_app_iff; tauto). assert (Hs : forall o, In o s -> obj2_isDefined o = true) by (intros; apply H; rewrite !in_app_iff; tauto).
  rewrite (proj1 (c104_add l r Hl Hr R)), (proj1 (c104_add r s Hr Hs S)). cbn [bind]. split.
  - destruct (c104_add (l ++ r) s) as [E _]; [intros o I; apply in_app_iff in I; destruct I; auto | assumption | assumption |]. rewrite E, app_assoc. reflexivity.
  - apply c104_add; [assumption | intros o I; apply in_app_iff in I; destruct I; auto |]. apply defined_iff. apply defined_iff in R. apply defined_iff in S.
    destruct R as [-> | (o & I & K)]; [cbn [app]; exact S |]. right. exists o. split; [apply in_app_iff; left; exact I | exact K].
Qed.
Lemma c104_neutral l : (forall o, In o l -> obj2_isDefined o = true) -> i2_add (Intersection2 l) i2_Empty = Ok (Intersection2 l) /\ (i2_isDefined (Intersection2 l) = true -> i2_add i2_Empty (Intersection2 l) = Ok (Intersection2 l)).
Proof.
  intros H. split.
  - unfold i2_Empty. rewrite (proj1 (c104_add l [] H (fun o (K : In o []) => match K with end) eq_refl)). rewrite app_nil_r. reflexivity.
  - intros D. exact (proj1 (c104_add [] l (fun o (K : In o []) => match K with end) H D)).
Qed.
(** The type depends on the order when there is an object of an unknown kind ... *)
Lemma c104_order_refuted : exists a b, obj2_isDefined a = true /\ obj2_isDefined b = true /\ i2_getType (Intersection2 [a; b]) = Ok I2Point /\ i2_getType (Intersection2 [b; a]) = Ok I2Complex.
Proof. exists (O2MultiPolygon [mkPoly2 [] []]), (O2Point (Some zero2)). repeat split. Qed.
(** ... which alone makes an undefined intersection. *)
Lemma c104_unknown_refuted : exists o, obj2_isDefined o = true /\ i2_isDefined (Intersection2 [o]) = false /\ forall i, i2_add i (Intersection2 [o]) = Err EUndefined.
Proof. exists (O2MultiPolygon [mkPoly2 [] []]). repeat split. Qed.
Lemma c104_equality B l r : i2_eq B (Intersection2 l) (Intersection2 r) = true <->
  (forall o, In o (l ++ r) -> obj2_isDefined o = true) /\ i2_isDefined (Intersection2 l) = true /\ i2_isDefined (Intersection2 r) = true
  /\ type_of_objects2 l = type_of_objects2 r /\ Forall2 (fun a b => obj2_eq B a b = true) l r.
Proof.
  unfold i2_eq. rewrite !andb_true_iff, itype_eqb_iff, c64_composite, !cs_defined. cbn [Intersection2 i2_type i2_composite Composite2 fst snd]. split.
  - intros [[D E] [T [[_ L] [[_ R] F]]]]. repeat split; try assumption. intros o I. apply in_app_iff in I. destruct I; auto.
  - intros (H & D & E & T & F). repeat split; try assumption; intros o I; apply H, in_app_iff; tauto.
Qed.
Lemma c104_reflexive_refuted B : exists o, obj2_isDefined o = true /\ i2_isDefined (Intersection2 [o]) = true /\ i2_eq B (Intersection2 [o]) (Intersection2 [o]) = false.
Proof. exists (O2LineString [Some zero2; Some (V2 1 0)]). repeat split. Qed.
Lemma c104_access l : (forall o, In o l -> obj2_isDefined o = true) -> i2_isDefined (Intersection2 l) = true ->
  i2_accessComposite (Intersection2 l) = Ok (Composite2 l) /\ i2_isEmpty (Intersection2 l) = (match l with [] => true | _ => false end)
  /\ forall T (cast : obj2 -> option T), i2_is cast (Intersection2 l) = cs2_is cast (Composite2 l) /\ i2_as cast (Intersection2 l) = cs2_as cast (Composite2 l).
Proof.
  intros H D. unfold i2_accessComposite, i2_is, i2_as, i2_defined. rewrite D. cbn [bind Intersection2 i2_composite]. split; [reflexivity |]. split; [| intros; split; reflexivity].
  unfold i2_isEmpty. cbn [i2_type]. destruct (c104_type l) as (E & _). destruct l as [| o l]; [reflexivity |]. apply itype_eqb_false. intros K. apply E in K. discriminate.
Qed.
Lemma c104_errors i : i2_isDefined i2_Undefined = false /\ i2_add i i2_Undefined = Err EUndefined /\ (i2_isDefined i = true -> i2_add i2_Undefined i = Err EUndefined \/ cs2_isDefined (i2_composite i) = false)
  /\ i2_accessComposite i2_Undefined = Err EUndefined /\ i2_getType i2_Undefined = Err EUndefined.
Proof.
  repeat split. intros D. destruct (cs2_isDefined (i2_composite i)) eqn:C; [left | right; reflexivity]. unfold i2_add, i2_defined. rewrite D. cbn [bind]. unfold cs2_add. rewrite cs_ok by assumption. reflexivity.
Qed.

(** *** C105 *)
Definition proper (m : R) (P : poly2) : Prop := exists outer inner, polygon_of m P outer inner.
Lemma add_polygons_ok m ds : 0 <= m -> Forall (proper m) ds -> forall pre, (forall o, In o pre -> obj2_isDefined o = true) -> add_polygons m (Intersection2 pre) ds = Ok (Intersection2 (pre ++ map O2Polygon ds)).
Proof.
  intros M F. induction F as [| P ds (o & i & PP) F IH]; intros pre H; cbn [add_polygons map]; [rewrite app_nil_r; reflexivity |].
  rewrite (from_boost_eq m P o i M PP). cbn [bind]. assert (D : obj2_isDefined (O2Polygon P) = true) by apply (polygon_defined m P o i PP).
  change (i2_Polygon P) with (Intersection2 [O2Polygon P]). rewrite (proj2 (c104_add pre [O2Polygon P] H (fun x K => match K with or_introl E => eq_ind _ (fun y => obj2_isDefined y = true) D _ E | or_intror K => match K with end end) eq_refl)).
  cbn [bind]. rewrite IH; [rewrite <- app_assoc; reflexivity |]. intros x I. apply in_app_iff in I. destruct I as [I | [<- | []]]; auto.
Qed.
Lemma guards B m P Q (k : result inter2) : proper m P -> proper m Q -> bg_valid B P = true -> bg_valid B Q = true ->
  (if negb (pg2_isDefined P) || negb (pg2_isDefined Q) then Err EUndefined else if negb (bg_valid B P) then Err ERuntime else if negb (bg_valid B Q) then Err ERuntime else k) = k.
Proof. intros (o & i & PP) (o' & i' & QQ) V W. rewrite (proj1 (polygon_defined m P o i PP)), (proj1 (polygon_defined m Q o' i' QQ)), V, W. reflexivity. Qed.
(** The polygons boost finds, all of them. *)
Lemma c105_difference B m P Q ds : 0 <= m -> proper m P -> proper m Q -> bg_valid B P = true -> bg_valid B Q = true -> bg_difference B P Q = Some ds -> Forall (proper m) ds ->
  pg2_differenceWith B m P Q = Ok (Intersection2 (map O2Polygon ds)) /\ i2_getType (Intersection2 (map O2Polygon ds)) = Ok (match ds with [] => I2Empty | _ => I2Polygon end).
Proof.
  intros M PP QQ V W E F. split.
  - unfold pg2_differenceWith. rewrite (guards B m) by assumption. rewrite E. cbn [attempt bind]. apply (add_polygons_ok m ds M F []). intros o [].
  - assert (T : type_of_objects2 (map O2Polygon ds) = match ds with [] => I2Empty | _ => I2Polygon end).
    { destruct ds as [| d ds]; [reflexivity |]. apply (c104_type (map O2Polygon (d :: ds))); [discriminate |]. intros o I. apply in_map_iff in I. destruct I as (x & <- & _). reflexivity. }
    unfold i2_getType, i2_defined, i2_isDefined. cbn [Intersection2 i2_type]. rewrite T. destruct ds; [reflexivity |]. cbn [negb itype2_eqb bind Intersection2 i2_type]. rewrite T. reflexivity.
Qed.
Lemma polygons_defined m ds : Forall (proper m) ds -> forall o, In o (map O2Polygon ds) -> obj2_isDefined o = true.
Proof. intros F o I. apply in_map_iff in I. destruct I as (d & <- & I). rewrite Forall_forall in F. destruct (F d I) as (x & y & PP). apply (polygon_defined m d x y PP). Qed.
Lemma polygons_answer B m ds o f (R : poly2 -> Prop) : Forall (proper m) ds -> ds <> [] -> obj2_isDefined o = true -> (forall d, In d ds -> obj2_contains B (O2Polygon d) o = f d) ->
  (forall d, In d ds -> exists b, f d = Ok b /\ (b = true <-> R d)) -> (exists d, In d ds /\ R d) -> cs2_anyContains B (Composite2 (map O2Polygon ds)) o = Ok true.
Proof.
  intros F N O E A (d & I & K). destruct (c103_any_contains B (Composite2 (map O2Polygon ds)) o) as (b & -> & Bi).
  - apply composite_defined, (polygons_defined m), F.
  - exact O.
  - destruct ds; [congruence | discriminate].
  - intros x X. cbn [snd Composite2] in X. apply in_map_iff in X. destruct X as (y & <- & Y). rewrite (E y Y). destruct (A y Y) as (b & -> & _). exists b. reflexivity.
  - f_equal. apply Bi. exists (O2Polygon d). split; [apply in_map, I |]. rewrite (E d I). destruct (A d I) as (b' & -> & Bi'). f_equal. apply Bi', K.
Qed.
Lemma defined_polygons ds : i2_isDefined (Intersection2 (map O2Polygon ds)) = true.
Proof. apply defined_iff. destruct ds as [| d ds]; [left; reflexivity | right]. exists (O2Polygon d). split; [left; reflexivity | discriminate]. Qed.
(** Overlapping polygons: when the line strings and points found are in the polygons found, only the polygons remain. *)
Lemma c105_overlap B m P Q ds ls ps : 0 <= m -> proper m P -> proper m Q -> bg_valid B P = true -> bg_valid B Q = true -> covers_regions B -> covers_lines B ->
  bg_inter_polygons B P Q = Some ds -> bg_inter_lines B P Q = Some ls -> bg_inter_points B P Q = Some ps ->
  Forall (proper m) ds -> Forall (fun d => bg_valid B d = true) ds ->
  (forall s, In s ls -> (2 <= length s)%nat /\ exists d, In d ds /\ forall x, on_string2 s x -> region d x) -> (forall x, In x ps -> exists d, In d ds /\ region d x) ->
  pg2_intersectionWith B m P Q = Ok (Intersection2 (map O2Polygon ds)).
Proof.
  intros M PP QQ V W CR CL EP EL EX F FV HL HX. unfold pg2_intersectionWith. rewrite (guards B m) by assumption. rewrite EP, EL, EX. cbn [attempt bind].
  change i2_Empty with (Intersection2 []). rewrite (add_polygons_ok m ds M F []) by (intros o []). cbn [bind app].
  assert (DV : forall d, In d ds -> pg2_isDefined d = true /\ bg_valid B d = true).
  { intros d I. rewrite Forall_forall in F, FV. split; [destruct (F d I) as (x & y & Pd); apply (polygon_defined m d x y Pd) | apply FV, I]. }
  assert (L : add_lines B (Intersection2 (map O2Polygon ds)) ls = Ok (Intersection2 (map O2Polygon ds))).
  { clear EL. induction ls as [| s ls IH]; [reflexivity |]. cbn [add_lines]. rewrite IH by (intros q I; apply HL; right; exact I). destruct (bg_line_valid B s); [| reflexivity].
    unfold i2_accessComposite, i2_defined. rewrite defined_polygons. cbn [bind Intersection2 i2_composite]. destruct (HL s (or_introl eq_refl)) as (Ls & d & I & K).
    rewrite (polygons_answer B m ds (O2LineString (map Some s)) (fun d => pg2_contains_ls B d (map Some s)) (fun d => forall x, on_string2 s x -> region d x)).
    - cbn [bind negb]. fold (Intersection2 (map O2Polygon ds)). exact (IH (fun q I => HL q (or_intror I))).
    - assumption.
    - destruct ds; [destruct I | discriminate].
    - destruct s; [cbn in Ls; lia | reflexivity].
    - intros e _. cbn [obj2_contains]. destruct s; [cbn in Ls; lia | reflexivity].
    - intros e Ie. destruct (DV e Ie). apply c101_lines; assumption.
    - exists d. split; assumption. }
  rewrite L. cbn [bind]. clear L EX. induction ps as [| x ps IH]; [reflexivity |]. cbn [add_points]. unfold i2_accessComposite, i2_defined. rewrite defined_polygons. cbn [bind Intersection2 i2_composite].
  destruct (HX x (or_introl eq_refl)) as (d & I & K). rewrite (polygons_answer B m ds (O2Point (Some x)) (fun d => pg2_contains B d (Some x)) (fun d => region d x)).
  - cbn [bind negb]. apply IH. intros y Y. apply HX. right. exact Y.
  - assumption.
  - destruct ds; [destruct I | discriminate].
  - reflexivity.
  - intros e _. reflexivity.
  - intros e Ie. destruct (DV e Ie). apply c101_contains; assumption.
  - exists d. split; assumption.
Qed.
(** Without polygons. *)
Lemma c105_disjoint B m P Q : proper m P -> proper m Q -> bg_valid B P = true -> bg_valid B Q = true ->
  bg_inter_polygons B P Q = Some [] -> bg_inter_lines B P Q = Some [] -> bg_inter_points B P Q = Some [] -> pg2_intersectionWith B m P Q = Ok i2_Empty.
Proof. intros PP QQ V W EP EL EX. unfold pg2_intersectionWith. rewrite (guards B m) by assumption. rewrite EP, EL, EX. reflexivity. Qed.
Lemma c105_touch_point B m P Q x : proper m P -> proper m Q -> bg_valid B P = true -> bg_valid B Q = true ->
  bg_inter_polygons B P Q = Some [] -> bg_inter_lines B P Q = Some [] -> bg_inter_points B P Q = Some [x] -> pg2_intersectionWith B m P Q = Ok (i2_Point (Some x)).
Proof. intros PP QQ V W EP EL EX. unfold pg2_intersectionWith. rewrite (guards B m) by assumption. rewrite EP, EL, EX. reflexivity. Qed.
Lemma c105_touch_line B m P Q s ps : proper m P -> proper m Q -> bg_valid B P = true -> bg_valid B Q = true ->
  bg_inter_polygons B P Q = Some [] -> bg_inter_lines B P Q = Some [s] -> bg_inter_points B P Q = Some ps -> bg_line_valid B s = true -> s <> [] -> (forall x, In x ps -> on_string2 s x) ->
  pg2_intersectionWith B m P Q = Ok (i2_LineString (map Some s)).
Proof.
  intros PP QQ V W EP EL EX Vs N H. unfold pg2_intersectionWith. rewrite (guards B m) by assumption. rewrite EP, EL, EX. cbn [attempt bind add_polygons add_lines]. rewrite Vs.
  assert (A : cs2_anyContains B cs2_Empty (O2LineString (map Some s)) = Ok false) by (unfold cs2_anyContains; destruct s; [congruence | reflexivity]).
  change (i2_accessComposite i2_Empty) with (Ok (A := composite2) cs2_Empty). cbn [bind]. rewrite A. cbn [bind negb].
  assert (G : i2_add_assign i2_Empty (i2_LineString (map Some s)) = Ok (i2_LineString (map Some s))).
  { change i2_Empty with (Intersection2 []). change (i2_LineString (map Some s)) with (Intersection2 [O2LineString (map Some s)]). apply c104_add; [intros o [] | | reflexivity]. intros o [<- | []]. destruct s; [congruence | reflexivity]. }
  rewrite G. cbn [bind]. clear EX. induction ps as [| x ps IH]; [reflexivity |]. cbn [add_points]. change (i2_accessComposite (i2_LineString (map Some s))) with (Ok (Composite2 [O2LineString (map Some s)])). cbn [bind].
  destruct (c103_any_contains B (Composite2 [O2LineString (map Some s)]) (O2Point (Some x))) as (b & -> & Bi).
  - apply composite_defined. intros o [<- | []]. destruct s; [congruence | reflexivity].
  - reflexivity.
  - discriminate.
  - intros o [<- | []]. cbn [obj2_contains obj2_isDefined negb]. destruct (c65_contains s x N) as (b & E & _). exists b. exact E.
  - replace b with true; [cbn [bind negb]; apply IH; intros y Y; apply H; right; exact Y |]. symmetry. apply Bi. eexists. split; [left; reflexivity |].
    cbn [obj2_contains obj2_isDefined negb]. destruct (c65_contains s x N) as (c & -> & Ci). f_equal. apply Ci, H. left. reflexivity.
Qed.
(** Two points in no polygon, or two line strings: not implemented, so there is no answer. *)
Lemma c105_two_refuted B m P Q : proper m P -> proper m Q -> bg_valid B P = true -> bg_valid B Q = true -> bg_inter_polygons B P Q = Some [] ->
  (forall x y, bg_inter_lines B P Q = Some [] -> bg_inter_points B P Q = Some [x; y] -> pg2_intersectionWith B m P Q = Err EToBeImplemented)
  /\ (forall s s' ps, bg_inter_lines B P Q = Some [s; s'] -> bg_inter_points B P Q = Some ps -> s <> [] -> s' <> [] -> bg_line_valid B s = true -> bg_line_valid B s' = true ->
       pg2_intersectionWith B m P Q = Err EToBeImplemented).
Proof.
  intros PP QQ V W EP. split.
  - intros x y EL EX. unfold pg2_intersectionWith. rewrite (guards B m) by assumption. rewrite EP, EL, EX. reflexivity.
  - intros s s' ps EL EX N N' Vs Vs'. unfold pg2_intersectionWith. rewrite (guards B m) by assumption. rewrite EP, EL, EX. cbn [attempt bind add_polygons add_lines]. rewrite Vs, Vs'.
    destruct s as [| a s]; [congruence |]. destruct s' as [| a' s']; [congruence |]. reflexivity.
Qed.
Lemma c105_errors B m P Q : (pg2_isDefined P = false \/ pg2_isDefined Q = false -> pg2_intersectionWith B m P Q = Err EUndefined /\ pg2_differenceWith B m P Q = Err EUndefined /\ pg2_unionWith B m P Q = Err EUndefined)
  /\ (pg2_isDefined P = true -> pg2_isDefined Q = true -> bg_valid B P = false \/ bg_valid B Q = false -> pg2_intersectionWith B m P Q = Err ERuntime /\ pg2_differenceWith B m P Q = Err ERuntime).
Proof.
  unfold pg2_intersectionWith, pg2_differenceWith, pg2_unionWith. split.
  - intros [-> | ->]; [repeat split |]. rewrite orb_true_r. repeat split.
  - intros -> -> [-> | ->]; [split; reflexivity |]. cbn [negb orb]. destruct (bg_valid B P); split; reflexivity.
Qed.
