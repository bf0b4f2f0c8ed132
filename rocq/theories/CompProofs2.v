(** Intersections of composites, and the operations of Object (C61, C62, C108). *)

From Coq Require Import List Bool Reals Lra Lia Arith.
From Verif Require Poly2Proofs3.
From Verif Require Import Result DOrder Vec VecProofs Mat3 AngleModel RotModel TransfModel Geo3Types Geo3Model Geo3Spec Geo3Proofs Geo3Proofs2 GteModel SphereModel SphereSpec SphereProofs EllModel CuboidModel InterModel
  Poly2Model ConeModel PyrModel CompModel CompSpec CompProofs.
Import ListNotations.
Local Open Scope R_scope.

(** *** Results of intersections *)
Definition known (o : obj) : Prop := obj_isDefined o = true /\ kind_of o <> None.
Definition sound (i : inter) : Prop := exists l, i = Intersection l /\ Forall known l.
Lemma known_defined l : Forall known l -> inter_isDefined (Intersection l) = true.
Proof. intros H. apply defined_iff. destruct H as [| o l [D K] _]; [left; reflexivity |]. right. exists o. split; [left; reflexivity | exact K]. Qed.
Lemma known_all l : Forall known l -> forall o, In o l -> obj_isDefined o = true.
Proof. intros H o I. rewrite Forall_forall in H. apply (H o I). Qed.
Lemma add_known l r : Forall known l -> Forall known r -> inter_add (Intersection l) (Intersection r) = Ok (Intersection (l ++ r)).
Proof. intros L R. apply c62_add; [apply known_all, L | apply known_all, R | apply known_defined, R]. Qed.
Lemma add_sound i j k : sound i -> sound j -> inter_add i j = Ok k -> sound k.
Proof. intros (l & -> & L) (r & -> & R) E. rewrite add_known in E by assumption. injection E as <-. exists (l ++ r). split; [reflexivity |]. apply Forall_app. split; assumption. Qed.
Lemma empty_known l : Forall known l -> inter_isEmpty (Intersection l) = match l with [] => true | _ => false end.
Proof. intros L. apply (c62_access l (known_defined l L)). Qed.
Lemma add_inters_ok rs : forall ls, Forall2 (fun r l => r = Ok (Intersection l) /\ Forall known l) rs ls -> forall l0, Forall known l0 -> add_inters (Intersection l0) rs = Ok (Intersection (l0 ++ concat ls)).
Proof.
  induction rs as [| r rs IH]; intros ls H l0 K; inversion H as [| r' l rs' ls' [-> L] F]; subst.
  - cbn. rewrite app_nil_r. reflexivity.
  - cbn [add_inters bind]. rewrite (known_defined l L), (empty_known l L). cbn [andb]. destruct l as [| o l]; cbn [negb].
    + cbn [bind]. rewrite (IH ls' F l0 K). reflexivity.
    + rewrite (add_known l0 (o :: l) K L). cbn [bind]. rewrite (IH ls' F); [| apply Forall_app; split; assumption]. cbn [concat]. rewrite app_assoc. reflexivity.
Qed.

Lemma intersection_eq n v c o ls : cs_isDefined c = true -> obj_isDefined o = true ->
  Forall2 (fun x l => obj_inter n v x o = Ok (Intersection l) /\ (forall y, In y l -> obj_isDefined y = true /\ kind_of y <> None)) (snd c) ls ->
  cs_inter n v c o = Ok (Intersection (concat ls)).
Proof.
  intros C O F. unfold cs_inter. destruct c as [d k]. unfold cs_isDefined, obj_of_composite in *. cbn [fst snd] in *. cbn [obj_inter]. rewrite O, C. cbn [negb].
  change (Ok (Intersection (concat ls))) with (Ok (Intersection ([] ++ concat ls))). change inter_empty with (Intersection []).
  rewrite <- (add_inters_ok (map (fun x => obj_inter n v x o) k) ls); [destruct o; reflexivity | | constructor].
  clear - F. induction F as [| x l k ls [E K] F IH]; constructor; [| exact IH]. split; [exact E |]. apply Forall_forall. exact K.
Qed.
Lemma intersection_composite_eq n v c d ls : cs_isDefined c = true -> cs_isDefined d = true ->
  Forall2 (fun y l => cs_inter n v c y = Ok (Intersection l) /\ (forall z, In z l -> obj_isDefined z = true /\ kind_of z <> None)) (snd d) ls ->
  cs_inter_cs n v c d = Ok (Intersection (concat ls)).
Proof.
  intros C D F. unfold cs_inter_cs. rewrite (cs_ok d D), (cs_ok c C). cbn [bind]. change inter_empty with (Intersection []).
  rewrite (add_inters_ok (map (cs_inter n v c) (snd d)) ls); [reflexivity | | constructor].
  clear - F. induction F as [| x l k ls [E K] F IH]; constructor; [| exact IH]. split; [exact E |]. apply Forall_forall. exact K.
Qed.

Lemma sound_empty : sound inter_empty.
Proof. exists []. split; [reflexivity | constructor]. Qed.
Lemma sound_one o : obj_isDefined o = true -> kind_of o <> None -> sound (mkInter (type_of_object o) true [o]).
Proof. intros D K. exists [o]. split; [destruct o; reflexivity |]. constructor; [split; assumption | constructor]. Qed.
Lemma sound_point p : sound (inter_point p).
Proof. apply (sound_one (OPoint (Some p))); [reflexivity | discriminate]. Qed.
Lemma insert_nonempty l s : s <> [] -> fold_left ps_insert l s <> [].
Proof. revert s. induction l as [| p l IH]; intros s N; [exact N |]. cbn [fold_left]. apply IH. unfold ps_insert. destruct (ps_mem p s); [exact N |]. destruct s; discriminate. Qed.
Lemma sound_two p q ps : PointSet [Some p; Some q] = Ok ps -> sound (inter_pointset ps).
Proof.
  intros E. apply (sound_one (OPointSet ps)); [| discriminate]. unfold PointSet in E. cbn [mapM needd bind fold_left] in E. injection E as <-.
  pose proof (insert_nonempty [q] [p] ltac:(discriminate)) as N. cbn [fold_left] in N. change (ps_isDefined (ps_insert [p] q) = true). unfold ps_isDefined.
  destruct (ps_insert [p] q); [congruence | reflexivity].
Qed.
Lemma sound_string a : a <> [] -> sound (inter_linestring (map Some a)).
Proof. intros N. apply (sound_one (OLineString (map Some a))); [destruct a; [congruence | reflexivity] | discriminate]. Qed.
Lemma strings_sound a b i : strings a b false = Ok i -> sound i.
Proof.
  unfold strings. destruct a as [| p a], b as [| q b]; intros E.
  - injection E as <-. apply sound_empty.
  - injection E as <-. apply (sound_string (q :: b)). discriminate.
  - injection E as <-. apply (sound_string (p :: a)). discriminate.
  - exact (add_sound _ _ _ (sound_string (p :: a) ltac:(discriminate)) (sound_string (q :: b) ltac:(discriminate)) E).
Qed.
Lemma bind_ok {A B} (r : result A) (f : A -> result B) y : bind r f = Ok y -> exists x, r = Ok x /\ f x = Ok y.
Proof. destruct r; cbn; intros H; try discriminate. eexists. split; [reflexivity | exact H]. Qed.
Ltac peel E := match type of E with bind ?r _ = Ok _ => let x := fresh "x" in let Ex := fresh "Ex" in apply bind_ok in E; destruct E as (x & Ex & E) end.
Ltac crack E := repeat (first [peel E | match type of E with (let (_, _) := ?c in _) = _ => destruct c end | match type of E with match ?c with _ => _ end = _ => destruct c eqn:? end | progress cbv zeta in E]; try discriminate).
Ltac shape E := try (injection E as <-); first [apply sound_empty | apply sound_point | eapply sound_two; eassumption | eapply strings_sound, E | idtac].
Lemma line_sound l p i : l_inter_plane l p = Ok i -> sound i.
Proof. unfold l_inter_plane. intros E. crack E; shape E. apply (sound_one (OLine l)); [cbn [obj_isDefined]; match goal with H : l_data l = _ |- _ => rewrite H end; reflexivity | discriminate]. Qed.
Lemma ray_sound l p i : r_inter_plane l p = Ok i -> sound i.
Proof. unfold r_inter_plane. intros E. crack E; shape E. apply (sound_one (ORay l)); [cbn [obj_isDefined]; match goal with H : r_data l = _ |- _ => rewrite H end; reflexivity | discriminate]. Qed.
Lemma segment_sound l p i : s_inter_plane l p = Ok i -> sound i.
Proof. unfold s_inter_plane. intros E. crack E; shape E. apply (sound_one (OSegment l)); [cbn [obj_isDefined]; match goal with H : s_data l = _ |- _ => rewrite H end; reflexivity | discriminate]. Qed.
Lemma sphere_ray_sound g eps s r i : sp_inter_ray g eps s r false = Ok i -> sound i.
Proof. unfold sp_inter_ray. intros E. crack E; shape E. Qed.
Lemma ellipsoid_ray_sound g eps e r i : e_inter_ray g eps e r false = Ok i -> sound i.
Proof. unfold e_inter_ray. intros E. crack E; shape E. Qed.
Lemma cone_sphere_sound g eps order c s n i : co_inter_sphere g eps order c s false n = Ok i -> sound i.
Proof. unfold co_inter_sphere. intros E. repeat peel E. match type of E with (let (_, _) := ?x in _) = _ => destruct x end. eapply strings_sound, E. Qed.
Lemma cone_ellipsoid_sound g eps order c s n i : co_inter_ellipsoid g eps order c s false n = Ok i -> sound i.
Proof. unfold co_inter_ellipsoid. intros E. repeat peel E. match type of E with (let (_, _) := ?x in _) = _ => destruct x end. eapply strings_sound, E. Qed.
Lemma pyramid_sphere_sound g eps order c s n i : py_inter_sphere g eps order c s false n = Ok i -> sound i.
Proof. unfold py_inter_sphere. intros E. repeat peel E. match type of E with (let (_, _) := ?x in _) = _ => destruct x end. eapply strings_sound, E. Qed.
Lemma pyramid_ellipsoid_sound g eps order c s n i : py_inter_ellipsoid g eps order c s false n = Ok i -> sound i.
Proof. unfold py_inter_ellipsoid. intros E. repeat peel E. match type of E with (let (_, _) := ?x in _) = _ => destruct x end. eapply strings_sound, E. Qed.
Lemma polygons_never n p q i : polygons_inter n p q <> Ok i.
Proof. induction n as [| n IH]; [discriminate |]. cbn [polygons_inter]. destruct (negb (pg_isDefined q)); [discriminate | exact IH]. Qed.
Lemma add_inters_sound l : (forall r i, In r l -> r = Ok i -> sound i) -> forall i j, sound i -> add_inters i l = Ok j -> sound j.
Proof.
  induction l as [| r l IH]; intros H i j S E; [injection E as <-; exact S |]. cbn [add_inters] in E. repeat peel E. refine (IH _ _ _ _ E); [intros r' i' I; apply H; right; exact I |].
  destruct (inter_isDefined x && negb (inter_isEmpty x)); [| injection Ex0 as <-; exact S]. exact (add_sound _ _ _ S (H r x (or_introl eq_refl) Ex) Ex0).
Qed.

(** Objects by the size of the composites in them. *)
Fixpoint size (o : obj) : nat := match o with OComposite _ l => S (fold_right plus 0%nat (map size l)) | _ => 0%nat end.
Lemma size_in x d l : In x l -> (size x < size (OComposite d l))%nat.
Proof. cbn [size]. induction l as [| y l IH]; [intros [] |]. cbn [map fold_right]. intros [-> | I]; [lia |]. specialize (IH I). lia. Qed.
Lemma obj_nested (P : obj -> Prop) : (forall o, leaf o -> P o) -> (forall d l, (forall x, In x l -> P x) -> P (OComposite d l)) -> forall o, P o.
Proof.
  intros L C. assert (G : forall n o, (size o <= n)%nat -> P o).
  { induction n as [| n IH]; intros o H; destruct o as [| | | | | | | | | | | | | d l]; try (apply L; exact I).
    - cbn [size] in H. lia.
    - apply C. intros x X. apply IH. pose proof (size_in x d l X). lia. }
  intros o. exact (G _ o (Nat.le_refl _)).
Qed.
Lemma c62_results n v a : forall b i, obj_inter n v a b = Ok i -> exists l, i = Intersection l /\ forall o, In o l -> obj_isDefined o = true /\ kind_of o <> None.
Proof.
  assert (G : forall b i, obj_inter n v a b = Ok i -> sound i).
  { induction a as [a La | d l IH] using obj_nested; intros b i E.
    - destruct a; try destruct La; cbn [obj_inter] in E; destruct (negb (obj_isDefined b)); try discriminate; destruct b; try discriminate;
        first [eapply line_sound, E | eapply ray_sound, E | eapply segment_sound, E | eapply sphere_ray_sound, E | eapply ellipsoid_ray_sound, E | eapply cone_sphere_sound, E | eapply cone_ellipsoid_sound, E
              | eapply pyramid_sphere_sound, E | eapply pyramid_ellipsoid_sound, E | destruct (polygons_never _ _ _ _ E)].
    - cbn [obj_inter] in E. destruct (negb (obj_isDefined b)); [discriminate |]. destruct (negb (obj_isDefined (OComposite d l))); [destruct b; discriminate |].
      assert (E' : add_inters inter_empty (map (fun x => obj_inter n v x b) l) = Ok i) by (destruct b; exact E).
      refine (add_inters_sound _ _ _ _ sound_empty E'). intros r j I R. apply in_map_iff in I. destruct I as (x & <- & X). exact (IH x X b j R). }
  intros b i E. destruct (G b i E) as (l & -> & K). exists l. split; [reflexivity |]. rewrite Forall_forall in K. exact K.
Qed.
(** The objects of the intersections of the elements, in order. *)
Lemma c61_intersection n v c o is : cs_isDefined c = true -> obj_isDefined o = true -> Forall2 (fun x i => obj_inter n v x o = Ok i) (snd c) is ->
  cs_inter n v c o = Ok (Intersection (concat (map i_objects is))).
Proof.
  intros C O F. apply intersection_eq; try assumption. clear - F. induction F as [| x i l is E F IH]; constructor; [| exact IH].
  destruct (c62_results n v x o i E) as (k & -> & K). split; [exact E | exact K].
Qed.
Lemma c61_intersection_composite n v c d iss : cs_isDefined c = true -> cs_isDefined d = true -> Forall2 (fun y is => Forall2 (fun x i => obj_inter n v x y = Ok i) (snd c) is) (snd d) iss ->
  cs_inter_cs n v c d = Ok (Intersection (concat (map i_objects (concat iss)))).
Proof.
  intros C D F. replace (concat (map i_objects (concat iss))) with (concat (map (fun is => concat (map i_objects is)) iss)) by (clear; induction iss as [| a l IH]; [reflexivity |]; cbn [map concat]; rewrite map_app, concat_app, IH; reflexivity).
  apply intersection_composite_eq; try assumption. apply cs_defined in D. destruct D as [_ D]. revert D. induction F as [| y is l iss E F IH]; intros D; constructor; [| apply IH; intros z Z; apply D; right; exact Z].
  assert (Y : obj_isDefined y = true) by (apply D; left; reflexivity). pose proof (c61_intersection n v c y is C Y E) as R. split; [exact R |].
  unfold cs_inter in R. destruct (c62_results n v _ y _ R) as (k & Ek & K). apply (f_equal i_objects) in Ek. cbn [Intersection i_objects] in Ek. rewrite Ek. exact K.
Qed.
