(** Proofs about cones: transformations, intersections with spheres and ellipsoids through lateral half lines. *)

From Coq Require Import List Bool Reals Lra Lia Psatz ZArith Permutation.
From Verif Require Import Result DOrder Vec VecProofs Mat3 Mat4 AngleModel AngleSpec AngleProofs AngleProofs2 RotModel RotSpec RotProofs RotProofs2 TransfModel TransfSpec
  TransfProofs TransfProofs2 Geo3Types Geo3Model Geo3Spec Geo3Proofs Geo3Proofs2 Geo3Proofs3 GteModel GteSpec ChordProofs SphereModel SphereSpec SphereProofs
  EllModel EllSpec EllProofs EllProofs2 EllProofs3 InterModel ConeModel ConeSpec ConeProofs ConeProofs2 ConeProofs3 ConeProofs4 ConeProofs5.
Import ListNotations.
Local Open Scope R_scope.

(** *** Transformations *)
Lemma c94_rigid eps prec t c a u k : 0 < eps <= 1 -> 0 < prec -> proper3 eps prec t -> good_cone eps c a u k ->
  exists f c' u', maps_points3 t f /\ co_apply t c = Ok c' /\ good_cone eps c' (f a) u' k /\ sqnorm3 u' = 1
    /\ image_of f (solid_cone a u k) (solid_cone (f a) u' k) /\ image_of f (on_cone a u k) (on_cone (f a) u' k).
Proof.
  intros He Hp H (k' & Ec & Hk & Hu). destruct (proper_shape eps prec t ltac:(lra) Hp H) as (ty & l & d & -> & Rl & N0).
  assert (N : ty <> TUndefined) by (intros ->; exact N0). assert (Qu : 0 < sqnorm3 u) by lra. pose proof (norm3_pos u Qu) as Pu.
  destruct (axis_unit u Qu) as (h & Eh & Hh & Eu).
  assert (E1 : mulv3 l u = scale3 (norm3 u) (mulv3 l h)) by (rewrite Eu at 1; clear; generalize (norm3 u); intros; destruct l, h; qunfold; f_equal; ring).
  assert (U1 : sqnorm3 (mulv3 l h) = 1) by (rewrite rotation_unit by exact Rl; exact Hh).
  assert (E2 : normalized3 (mulv3 l u) = mulv3 l h) by (rewrite E1; apply normalized_scaled; [exact Pu | exact U1]).
  exists (amap l d), (mkCone (Some (amap l d a)) (Some (mulv3 l h)) k'), (mulv3 l h). split; [apply apply_affine |]. split.
  { unfold co_apply. rewrite apply_defined by exact N. cbn [negb]. rewrite (co_data_ok eps c a u k k' Ec Hk Hu). cbn [bind]. rewrite pt_apply_affine by exact N. cbn [bind].
    rewrite (proj2 (apply_affine _ _ _ _)). cbn [option_map]. rewrite E2. reflexivity. }
  split; [exists k'; split; [reflexivity |]; split; [exact Hk | lra] |]. split; [exact U1 |].
  assert (E3 : mulv3 l h = scale3 (norm3 (mulv3 l h)) (mulv3 l h)) by (rewrite (norm_unit _ U1), scale3_1; reflexivity).
  assert (P1 : 0 < norm3 (mulv3 l h)) by (rewrite (norm_unit _ U1); lra).
  assert (Nm : forall v, norm3 (mulv3 l v) = norm3 v) by (intros v; unfold norm3; rewrite rotation_unit by exact Rl; reflexivity).
  assert (Inv : forall q, exists p, q = amap l d p) by (intros q; exists (amap (transpose3 l) (opp3 (mulv3 (transpose3 l) d)) q); symmetry; apply amap_inv_r, rotation_right, Rl).
  assert (Im : forall S T : v3 -> Prop, (forall p, T (amap l d p) <-> S p) -> image_of (amap l d) S T).
  { intros S T E q. split; [intros X; destruct (Inv q) as [p ->]; exists p; split; [apply E, X | reflexivity] | intros (p & X & ->); apply E, X]. }
  split; apply Im; intros p.
  - rewrite (solid_cone_unit _ _ _ _ _ P1 E3), (solid_cone_unit _ _ _ _ _ Pu Eu), amap_sub, Nm, rotation_dot by exact Rl. reflexivity.
  - rewrite (on_cone_unit _ _ _ _ _ P1 E3), (on_cone_unit _ _ _ _ _ Pu Eu), amap_sub, Nm, rotation_dot by exact Rl. reflexivity.
Qed.
(** A shear, close enough to the identity to be accepted, does not keep angles. *)
Lemma c94_transform_refuted eps prec : 0 < eps <= 1 -> 0 < prec -> exists t c a u k c' a' u' p p', affine3 eps prec t /\ good_cone eps c a u k /\ 0 <= k < PI / 2
  /\ co_apply t c = Ok c' /\ good_cone eps c' a' u' k /\ solid_cone a u k p /\ pt_apply t (Some p) = Ok (Some p') /\ ~ solid_cone a' u' k p'.
Proof.
  intros He Hp. pose proof PI_RGT_0. set (l := M3 1 prec 0 0 1 0 0 0 1).
  assert (I : isIdentity4 prec (affine4 l zero3) = true).
  { unfold isIdentity4, isIdentity3, approx_one, much_smaller, affine4, lin4, l. cbn. replace (1 - 1) with 0 by ring.
    rewrite Rabs_R0, Rabs_R1, (Rabs_right prec) by lra. rewrite Rmin_left by lra. rewrite !Rleb_t by lra. reflexivity. }
  pose proof (cone_z_good eps (PI / 4) ltac:(lra)) as G. pose proof G as (k & Ec & Hk & Hu).
  assert (C : 0 < cos (PI / 4)) by (apply cos_gt_0; lra). pose proof cos45 as Q.
  exists (mkT3 TIdentity (Some (affine4 l zero3)) (t3_IsRigid prec (Some (affine4 l zero3)))), (cone_z (Radians (PI / 4))), zero3, (V3 0 0 1), (PI / 4), (cone_z (Radians (PI / 4))),
    zero3, (V3 0 0 1), (V3 3 4 5), (V3 (3 + prec * 4) 4 5).
  split; [| split; [| split; [| split; [| split; [| split; [| split]]]]]].
  - apply (made3_matrix _ _ _ _ (affine4 l zero3)); [reflexivity |]. unfold t3_Transformation, t3_TypeOfMatrix. rewrite I. reflexivity.
  - exact G.
  - lra.
  - unfold co_apply. rewrite apply_defined by discriminate. cbn [negb]. rewrite (co_data_ok eps _ _ _ _ _ Ec Hk Hu). cbn [bind].
    rewrite pt_apply_affine by discriminate. cbn [bind]. rewrite (proj2 (apply_affine _ _ _ _)). cbn [option_map].
    replace (mulv3 l (V3 0 0 1)) with (scale3 1 (V3 0 0 1)) by (unfold l; qunfold; f_equal; ring). rewrite normalized_scaled; [| lra | v3unfold; ring].
    replace (amap l zero3 zero3) with zero3 by (unfold l, amap, zero3; qunfold; f_equal; ring). rewrite Ec. reflexivity.
  - exact G.
  - unfold solid_cone. rewrite sub_zero, (norm_axis 1) by lra. replace (dot3 (V3 3 4 5) (V3 0 0 1)) with 5 by (v3unfold; ring). rewrite Rmult_1_r.
    apply sqrt_le_sq; [lra | apply Rmult_le_pos; [apply norm3_nonneg | lra] |].
    replace (norm3 (V3 3 4 5) * cos (PI / 4) * (norm3 (V3 3 4 5) * cos (PI / 4))) with (norm3 (V3 3 4 5) * norm3 (V3 3 4 5) * (cos (PI / 4) * cos (PI / 4))) by ring.
    rewrite Q, norm3_sq. v3unfold. lra.
  - rewrite pt_apply_affine by discriminate. do 2 f_equal. unfold l, amap. qunfold. f_equal; ring.
  - unfold solid_cone. rewrite sub_zero, (norm_axis 1) by lra. set (p := V3 _ _ _). replace (dot3 p (V3 0 0 1)) with 5 by (unfold p; v3unfold; ring). rewrite Rmult_1_r. intros X.
    assert (Y : norm3 p * cos (PI / 4) * (norm3 p * cos (PI / 4)) <= 5 * 5) by (apply sq_mono; [apply Rmult_le_pos; [apply norm3_nonneg | lra] | exact X]).
    replace (norm3 p * cos (PI / 4) * (norm3 p * cos (PI / 4))) with (norm3 p * norm3 p * (cos (PI / 4) * cos (PI / 4))) in Y by ring. rewrite Q, norm3_sq in Y.
    unfold p in Y. v3unfold. nra.
Qed.
Lemma c94_errors t c : co_apply t3_Undefined c = Err EUndefined /\ (co_data c = Err EUndefined -> t3_isDefined t = true -> co_apply t c = Err EUndefined).
Proof. split; [reflexivity |]. intros D T. unfold co_apply. rewrite T, D. reflexivity. Qed.

(** *** Intersections through lateral half lines *)
(** The points of an intersection of a half line. *)
Definition shape (i : inter) : Prop :=
  i = inter_empty \/ (exists p, i = inter_point p) \/ (exists l, l <> [] /\ NoDup l /\ (length l <= 2)%nat /\ i = inter_pointset l).
Lemma pair_shape p q ps : PointSet [Some p; Some q] = Ok ps -> ps <> [] /\ NoDup ps /\ (length ps <= 2)%nat.
Proof.
  intros H. destruct (v3_eq_dec p q) as [-> | N].
  - unfold PointSet in H. simpl in H. apply ok_inj in H. subst ps. unfold ps_insert. simpl. unfold v3_eqb. destruct v3_eq_dec; [| congruence]. 
    split; [discriminate |]. split; [repeat constructor; intros [] | cbn; lia].
  - rewrite (pair_set p q N) in H. apply ok_inj in H. subst ps. split; [discriminate |]. split; [| cbn; lia].
    constructor; [intros [X | []]; congruence |]. constructor; [intros [] | constructor].
Qed.
Lemma sp_shape g eps s ry i : sp_inter_ray g eps s ry false = Ok i -> shape i.
Proof.
  unfold sp_inter_ray. destruct (r_data ry) as [[o d] | |]; [| discriminate | discriminate]. cbn [bind]. destruct (sp_data s) as [[c r] | |]; [| discriminate | discriminate]. cbn [bind].
  destruct (fi_ray_sphere g o d c r) as [[| p [| q [| z m]]] |]; try discriminate.
  - destruct (sp_contains eps s (Some p)) as [b | |]; [| discriminate | discriminate]; cbn [bind]. destruct (v3_eqb p o && negb b); intros H; apply ok_inj in H; subst i; [left; reflexivity | right; left; exists p; reflexivity].
  - destruct (PointSet [Some p; Some q]) as [ps | |] eqn:P; [| discriminate | discriminate]. cbn [bind].
    destruct (sp_contains eps s (Some p)) as [b | |]; [| discriminate | discriminate]; destruct (sp_contains eps s (Some q)) as [b0 | |]; [| discriminate | discriminate]; cbn [bind].
    destruct (v3_eqb p o && negb b); [| destruct (v3_eqb q o && negb b0)]; intros H; apply ok_inj in H; subst i.
    + right. left. exists q. reflexivity.
    + right. left. exists p. reflexivity.
    + right. right. exists ps. destruct (pair_shape p q ps P) as (A & B & C). repeat split; assumption.
  - intros H; apply ok_inj in H; subst i. left. reflexivity.
Qed.
Lemma e_shape g eps e ry i : e_inter_ray g eps e ry false = Ok i -> shape i.
Proof.
  unfold e_inter_ray. destruct (r_data ry) as [[o d] | |]; [| discriminate | discriminate]. cbn [bind]. destruct (e_data e) as [[[c k] x] | |]; [| discriminate | discriminate]. cbn [bind].
  destruct (e_axes eps e) as [u | |]; [| discriminate | discriminate]. cbn [bind].
  destruct (fi_ray_ellipsoid g o d c u k) as [[| p [| q [| z m]]] |]; try discriminate.
  - destruct (e_contains eps e (Some p)) as [b | |]; [| discriminate | discriminate]; cbn [bind]. destruct (v3_eqb p o && negb b); intros H; apply ok_inj in H; subst i; [left; reflexivity | right; left; exists p; reflexivity].
  - destruct (e_contains eps e (Some p)) as [b | |]; [| discriminate | discriminate]; destruct (e_contains eps e (Some q)) as [b0 | |]; [| discriminate | discriminate]; cbn [bind].
    destruct (v3_eqb p o && negb b); [intros H; apply ok_inj in H; subst i; right; left; exists q; reflexivity |].
    destruct (v3_eqb q o && negb b0); [intros H; apply ok_inj in H; subst i; right; left; exists p; reflexivity |].
    destruct (Rltb (norm3 (sub3 p q)) eps); [intros H; apply ok_inj in H; subst i; right; left; exists p; reflexivity |].
    destruct (PointSet [Some p; Some q]) as [ps | |] eqn:P; [| discriminate | discriminate]. cbn [bind].
    intros H; apply ok_inj in H; subst i. right. right. exists ps. destruct (pair_shape p q ps P) as (A & B & C). repeat split; assumption.
  - intros H; apply ok_inj in H; subst i. left. reflexivity.
Qed.

(** What is added to the arrays for one intersection. *)
Definition one (pick : pointset -> result (list v3 * list v3)) (i : inter) : result (list v3 * list v3) :=
  if inter_isEmpty i then Ok ([], [])
  else match i_objects i with
       | [OPoint (Some p)] => Ok ([p], [])
       | [OPointSet s] => pick s
       | _ => Ok ([], [])
       end.
Definition firsts pick i : list v3 := match one pick i with Ok (a, _) => a | _ => [] end.
Definition seconds pick i : list v3 := match one pick i with Ok (_, b) => b | _ => [] end.
Lemma gather_map {A} pick (I : A -> inter) l : (forall m, In m l -> exists a b, one pick (I m) = Ok (a, b)) ->
  gather pick (map I l) = Ok (flat_map (fun m => firsts pick (I m)) l, flat_map (fun m => seconds pick (I m)) l).
Proof.
  induction l as [| m l IH]; intros H; [reflexivity |]. cbn [map gather flat_map]. fold (one pick (I m)).
  destruct (H m (or_introl eq_refl)) as (a & b & E). unfold firsts at 1, seconds at 1. rewrite E. cbn [bind]. rewrite IH by (intros; apply H; right; assumption). reflexivity.
Qed.
Definition points_of (i : inter) (x : v3) : Prop := exists o, In o (i_objects i) /\ points_obj o x.
Lemma one_ok (P : list v3 -> list v3 -> Prop) pick i : shape i ->
  (forall s, s <> [] -> NoDup s -> (length s <= 2)%nat -> exists f g, pick s = Ok (f, g) /\ (forall x, In x (f ++ g) <-> In x s) /\ (length f <= 1)%nat /\ (length g <= 1)%nat /\ P f g) ->
  P [] [] -> (forall p, P [p] []) ->
  exists a b, one pick i = Ok (a, b) /\ (forall x, In x (a ++ b) <-> points_of i x) /\ (length a <= 1)%nat /\ (length b <= 1)%nat /\ P a b.
Proof.
  intros [-> | [(p & ->) | (l & L0 & L1 & L2 & ->)]] Hp P0 P1.
  - exists [], []. split; [reflexivity |]. split; [| split; [cbn; lia |]; split; [cbn; lia | exact P0]]. intros x. unfold points_of. cbn. firstorder.
  - exists [p], []. split; [reflexivity |]. split; [| split; [cbn; lia |]; split; [cbn; lia | apply P1]]. intros x. unfold points_of. cbn. split.
    + intros [-> | []]. exists (OPoint (Some x)). split; [left; reflexivity | reflexivity].
    + intros (o & [<- | []] & X). cbn in X. injection X as ->. left. reflexivity.
  - destruct (Hp l L0 L1 L2) as (f & g & E & X & R). exists f, g. split; [exact E |]. split; [| exact R]. intros x. rewrite X. unfold points_of. cbn. split.
    + intros Hx. exists (OPointSet l). split; [left; reflexivity | exact Hx].
    + intros (o & [<- | []] & Y). exact Y.
Qed.
Lemma pick_sphere_ok order s : (forall l, Permutation (order l) l) -> s <> [] -> NoDup s -> (length s <= 2)%nat ->
  exists f g, pick_sphere order s = Ok (f, g) /\ (forall x, In x (f ++ g) <-> In x s) /\ (length f <= 1)%nat /\ (length g <= 1)%nat /\ True.
Proof.
  intros Ho S0 S1 S2. unfold pick_sphere. pose proof (Ho s) as P. pose proof (Permutation_length P) as L. destruct (order s) as [| p r].
  - apply Permutation_nil in P. congruence.
  - exists r, [p]. split; [reflexivity |]. split; [| cbn in *; repeat split; lia]. intros x. rewrite <- (Permutation_in' (eq_refl x) P). rewrite in_app_iff. cbn. tauto.
Qed.
Lemma pick_ellipsoid_ok order a s : (forall l, Permutation (order l) l) -> s <> [] -> NoDup s -> (length s <= 2)%nat ->
  exists f g, pick_ellipsoid order (Some a) s = Ok (f, g) /\ (forall x, In x (f ++ g) <-> In x s) /\ (length f <= 1)%nat /\ (length g <= 1)%nat
    /\ forall x y, In x f -> In y g -> dist3 a x <= dist3 a y.
Proof.
  intros Ho S0 S1 S2. unfold pick_ellipsoid. pose proof (Ho s) as P. pose proof (Permutation_length P) as L.
  assert (O0 : order s <> []) by (intros E; rewrite E in P; apply Permutation_nil in P; congruence).
  assert (O1 : NoDup (order s)) by (apply (Permutation_NoDup (Permutation_sym P)); exact S1).
  destruct (c51_closest (order s) a O0) as (p & Ep & Ip & Cp). rewrite Ep. cbn [bind].
  eexists. eexists. split; [reflexivity |]. split; [| split; [cbn; lia |]; split; [destruct find; cbn; lia |]].
  - intros x. rewrite <- (Permutation_in' (eq_refl x) P). destruct (find (fun q => negb (v3_eqb q p)) (order s)) as [q |] eqn:F.
    + apply find_some in F. destruct F as [Iq Nq]. apply negb_true_iff, v3_eqb_false in Nq. split; [intros [<- | [<- | []]]; assumption |].
      intros Ix. destruct (v3_eq_dec x p) as [-> | Nx]; [left; reflexivity |]. right. left. 
      destruct (order s) as [| y [| z [| w m]]]; [destruct Ix | | | cbn in L; lia].
      * exfalso. destruct Iq as [-> | []], Ip as [-> | []]. congruence.
      * destruct Ix as [-> | [-> | []]], Iq as [-> | [-> | []]], Ip as [-> | [-> | []]]; congruence.
    + split; [intros [<- | []]; exact Ip |]. intros Ix. left. destruct (v3_eq_dec x p) as [-> | Nx]; [reflexivity |]. exfalso.
      pose proof (find_none _ _ F x Ix) as N. cbv beta in N. apply negb_false_iff, v3_eqb_iff in N. congruence.
  - intros x y [<- | []] Hy. apply Cp. destruct find as [q |] eqn:F; [| destruct Hy]. destruct Hy as [<- | []]. apply find_some in F. exact (proj1 F).
Qed.

Lemma strings_ok a b : exists i, strings a b false = Ok i /\ strings_of i (filter nonempty [a; b]).
Proof.
  destruct a as [| p a], b as [| q b]; (eexists; split; [reflexivity |]; split; reflexivity).
Qed.
Lemma strings_sight a : exists i, strings a [] true = Ok i /\ strings_of i (filter nonempty [a]).
Proof. destruct a as [| p a]; (eexists; split; [reflexivity |]; split; reflexivity). Qed.
Definition result_or {A} (d : A) (r : result A) : A := match r with Ok x => x | _ => d end.
Lemma mapM_or {A B} (f : A -> result B) d l : (forall x, In x l -> exists y, f x = Ok y) -> mapM f l = Ok (map (fun x => result_or d (f x)) l).
Proof. intros H. apply mapM_ok. intros x Hx. destruct (H x Hx) as (y & E). rewrite E. reflexivity. Qed.
Lemma represents_points i T x : represents i T -> (T x <-> points_of i x).
Proof. intros [_ H]. apply H. Qed.

Lemma c95_sphere g eps order c s a u k t n q r : 0 < eps < 1 / 2 -> sphere_queries g -> good_sphere s q r -> (forall l, Permutation (order l) l) ->
  c = mkCone (Some a) (Some u) k -> turns k = Some (t / (2 * PI)) -> Rabs (norm3 u - 1) <= eps -> (0 < n)%nat ->
  exists e (T : nat -> v3 -> Prop) F S N i j, sqnorm3 e = 1 /\ dot3 e u = 0
    /\ (forall m, (m < n)%nat -> hits (on_ray a (lateral (normalized3 u) e t n m)) (on_sphere q r) (near_sphere eps q r) (fun x => x = a) (T m))
    /\ co_inter_sphere g eps order c s false n = Ok i /\ strings_of i (filter nonempty [flat_map F (seq 0 n); flat_map S (seq 0 n)])
    /\ (forall m, (m < n)%nat -> (forall x, In x (F m ++ S m) <-> T m x) /\ (length (F m) <= 1)%nat /\ (length (S m) <= 1)%nat)
    /\ co_inter_sphere g eps order c s true n = Ok j /\ strings_of j (filter nonempty [flat_map N (seq 0 n)])
    /\ (forall m, (m < n)%nat -> (N m = [] /\ forall x, ~ T m x) \/ (exists p, N m = [p] /\ closest_of (T m) a p)).
Proof.
  intros He Gq G Ho -> Hk Hu Hn. destruct (c58_rays eps _ a u k t n He eq_refl Hk Hu Hn) as (e & Ue & De & Er).
  pose proof (unit_within u eps He Hu) as Qu. set (d := fun m => lateral (normalized3 u) e t n m) in *.
  assert (Ud : forall m, sqnorm3 (d m) = 1) by (intros m; apply (c58_on_cone u e t n m a 0); [lra | exact Ue | exact De]).
  set (I := fun m => result_or inter_empty (sp_inter_ray g eps s (mkRay (Some a) (Some (d m))) false)).
  set (J := fun m => result_or inter_empty (sp_inter_ray g eps s (mkRay (Some a) (Some (d m))) true)).
  set (pick := pick_sphere order).
  assert (R : forall m, exists T, sp_inter_ray g eps s (mkRay (Some a) (Some (d m))) false = Ok (I m) /\ represents (I m) T
    /\ hits (on_ray a (d m)) (on_sphere q r) (near_sphere eps q r) (fun x => x = a) T
    /\ sp_inter_ray g eps s (mkRay (Some a) (Some (d m))) true = Ok (J m)
    /\ ((J m = inter_empty /\ forall x, ~ T x) \/ (exists p, J m = inter_point p /\ closest_of T a p))).
  { intros m. destruct (c52_ray g eps s q r (mkRay (Some a) (Some (d m))) a (d m) ltac:(lra) Gq G (conj eq_refl (Ud m))) as (i & T & Ei & Ri & Hi & j & Ej & Hj).
    exists T. unfold I, J. rewrite Ei, Ej. cbn [result_or]. repeat (split; [first [reflexivity | assumption] |]). exact Hj. }
  assert (O1 : forall m, exists x y, one pick (I m) = Ok (x, y) /\ (forall z, In z (x ++ y) <-> points_of (I m) z) /\ (length x <= 1)%nat /\ (length y <= 1)%nat /\ True).
  { intros m. destruct (R m) as (T & Ei & _). apply (one_ok (fun _ _ => True)); [apply (sp_shape _ _ _ _ _ Ei) | | exact Logic.I | intros; exact Logic.I].
    intros l L0 L1 L2. apply pick_sphere_ok; assumption. }
  assert (O2 : forall m, exists x, one pick (J m) = Ok (x, [])).
  { intros m. destruct (R m) as (T & _ & _ & _ & _ & [(-> & _) | (p & -> & _)]); eexists; reflexivity. }
  exists e, (fun m => points_of (I m)), (fun m => firsts pick (I m)), (fun m => seconds pick (I m)), (fun m => firsts pick (J m)).
  destruct (strings_ok (flat_map (fun m => firsts pick (I m)) (seq 0 n)) (flat_map (fun m => seconds pick (I m)) (seq 0 n))) as (i & Ei & Si).
  destruct (strings_sight (flat_map (fun m => firsts pick (J m)) (seq 0 n))) as (j & Ej & Sj). exists i, j.
  destruct G as [-> Hr].
  assert (Dk : angle_isDefined k = true) by (apply (turns_defined _ _ Hk)).
  split; [exact Ue |]. split; [exact De |]. split; [| split; [| split; [exact Si |]; split; [| split; [| split; [exact Sj |]]]]].
  - intros m _. destruct (R m) as (T & _ & Ri & Hi & _). destruct Hi as [H1 H2]. split.
    + intros x A B. apply (represents_points (I m) T x Ri). apply H1; assumption.
    + intros x A. apply (represents_points (I m) T x Ri) in A. apply H2. exact A.
  - unfold co_inter_sphere. cbn [sp_data sp_center sp_radius bind co_data co_apex co_axis co_angle]. rewrite Dk. cbn [bind]. rewrite Er. cbn [bind].
    rewrite (mapM_or _ inter_empty), map_map.
    2: { intros x Hx. apply in_map_iff in Hx. destruct Hx as (m & <- & _). destruct (R m) as (T & E & _). eexists. exact E. }
    cbn [bind]. fold pick. change (map _ (seq 0 n)) with (map I (seq 0 n)). rewrite (gather_map pick I); [exact Ei |]. intros m _. destruct (O1 m) as (x & y & E & _). exists x, y. exact E.
  - intros m _. destruct (O1 m) as (x & y & E & X & Lx & Ly & _). unfold firsts, seconds. rewrite E. repeat split; try assumption; apply X.
  - unfold co_inter_sphere. cbn [sp_data sp_center sp_radius bind co_data co_apex co_axis co_angle]. rewrite Dk. cbn [bind]. rewrite Er. cbn [bind].
    rewrite (mapM_or _ inter_empty), map_map.
    2: { intros x Hx. apply in_map_iff in Hx. destruct Hx as (m & <- & _). destruct (R m) as (T & _ & _ & _ & E & _). eexists. exact E. }
    cbn [bind]. fold pick. change (map _ (seq 0 n)) with (map J (seq 0 n)). rewrite (gather_map pick J); [| intros m _; destruct (O2 m) as (x & E); exists x, []; exact E].
    cbn [bind]. replace (flat_map (fun m => seconds pick (J m)) (seq 0 n)) with (@nil v3); [exact Ej |].
    clear - O2. induction (seq 0 n) as [| m l IH]; [reflexivity |]. cbn [flat_map]. rewrite <- IH. unfold seconds. destruct (O2 m) as (x & ->). reflexivity.
  - intros m _. destruct (R m) as (T & _ & Ri & _ & _ & [(E & H) | (p & E & [H1 H2])]).
    + left. unfold firsts. rewrite E. split; [reflexivity |]. intros x A. apply (represents_points (I m) T x Ri) in A. exact (H x A).
    + right. exists p. unfold firsts. rewrite E. split; [reflexivity |]. split; [apply (represents_points (I m) T p Ri); exact H1 |].
      intros x A. apply (represents_points (I m) T x Ri) in A. exact (H2 x A).
Qed.
Lemma c95_ellipsoid_partial g eps order c s a u k t n q ax ks : 0 < eps < 1 / 2 -> ellipsoid_queries g -> good_ellipsoid eps s q ax ks -> (forall l, Permutation (order l) l) ->
  c = mkCone (Some a) (Some u) k -> turns k = Some (t / (2 * PI)) -> Rabs (norm3 u - 1) <= eps -> (0 < n)%nat ->
  exists e (T : nat -> v3 -> Prop) F S N i j, sqnorm3 e = 1 /\ dot3 e u = 0
    /\ (forall m, (m < n)%nat -> exists T0, merged eps T0 (T m)
        /\ hits_except (on_ray a (lateral (normalized3 u) e t n m)) (on_ellipsoid q ax ks) (fun x => e_contains eps s (Some x) = Ok true) (fun x => x = a) T0)
    /\ co_inter_ellipsoid g eps order c s false n = Ok i /\ strings_of i (filter nonempty [flat_map F (seq 0 n); flat_map S (seq 0 n)])
    /\ (forall m, (m < n)%nat -> (forall x, In x (F m ++ S m) <-> T m x) /\ (length (F m) <= 1)%nat /\ (length (S m) <= 1)%nat
        /\ forall x y, In x (F m) -> In y (S m) -> dist3 a x <= dist3 a y)
    /\ co_inter_ellipsoid g eps order c s true n = Ok j /\ strings_of j (filter nonempty [flat_map N (seq 0 n)])
    /\ (forall m, (m < n)%nat -> (N m = [] /\ forall x, ~ T m x) \/ (exists p, N m = [p] /\ closest_of (T m) a p)).
Proof.
  intros He Gq G Ho -> Hk Hu Hn. destruct (c58_rays eps _ a u k t n He eq_refl Hk Hu Hn) as (e & Ue & De & Er).
  pose proof (unit_within u eps He Hu) as Qu. set (d := fun m => lateral (normalized3 u) e t n m) in *.
  assert (Ud : forall m, sqnorm3 (d m) = 1) by (intros m; apply (c58_on_cone u e t n m a 0); [lra | exact Ue | exact De]).
  set (I := fun m => result_or inter_empty (e_inter_ray g eps s (mkRay (Some a) (Some (d m))) false)).
  set (J := fun m => result_or inter_empty (e_inter_ray g eps s (mkRay (Some a) (Some (d m))) true)).
  set (pick := pick_ellipsoid order (Some a)).
  set (H := fun m T => hits_except (on_ray a (d m)) (on_ellipsoid q ax ks) (fun x => e_contains eps s (Some x) = Ok true) (fun x => x = a) T).
  assert (R : forall m, exists T T', e_inter_ray g eps s (mkRay (Some a) (Some (d m))) false = Ok (I m) /\ represents (I m) T' /\ merged eps T T' /\ H m T
    /\ e_inter_ray g eps s (mkRay (Some a) (Some (d m))) true = Ok (J m)
    /\ ((J m = inter_empty /\ forall x, ~ T' x) \/ (exists p, J m = inter_point p /\ closest_of T' a p))).
  { intros m. destruct (c89_ray_partial g eps s q ax ks (mkRay (Some a) (Some (d m))) a (d m) ltac:(lra) Gq G (conj eq_refl (Ud m))) as (i & T & T' & Ei & Ri & Mi & Hi & j & Ej & Hj).
    exists T, T'. unfold I, J. rewrite Ei, Ej. cbn [result_or]. repeat (split; [first [reflexivity | assumption] |]). exact Hj. }
  assert (O1 : forall m, exists x y, one pick (I m) = Ok (x, y) /\ (forall z, In z (x ++ y) <-> points_of (I m) z) /\ (length x <= 1)%nat /\ (length y <= 1)%nat
    /\ forall p p', In p x -> In p' y -> dist3 a p <= dist3 a p').
  { intros m. destruct (R m) as (T & T' & Ei & _). apply (one_ok (fun x y => forall p p', In p x -> In p' y -> dist3 a p <= dist3 a p'));
      [apply (e_shape _ _ _ _ _ Ei) | | intros p p' [] | intros p p' p'' _ []].
    intros l L0 L1 L2. apply pick_ellipsoid_ok; assumption. }
  assert (O2 : forall m, exists x, one pick (J m) = Ok (x, [])).
  { intros m. destruct (R m) as (T & T' & _ & _ & _ & _ & _ & [(-> & _) | (p & -> & _)]); eexists; reflexivity. }
  exists e, (fun m => points_of (I m)), (fun m => firsts pick (I m)), (fun m => seconds pick (I m)), (fun m => firsts pick (J m)).
  destruct (strings_ok (flat_map (fun m => firsts pick (I m)) (seq 0 n)) (flat_map (fun m => seconds pick (I m)) (seq 0 n))) as (i & Ei & Si).
  destruct (strings_sight (flat_map (fun m => firsts pick (J m)) (seq 0 n))) as (j & Ej & Sj). exists i, j.
  destruct (good_data eps s q ax ks ltac:(lra) G) as [q0 D].
  assert (Dk : angle_isDefined k = true) by (apply (turns_defined _ _ Hk)).
  split; [exact Ue |]. split; [exact De |]. split; [| split; [| split; [exact Si |]; split; [| split; [| split; [exact Sj |]]]]].
  - intros m _. destruct (R m) as (T & T' & _ & Ri & [M1 M2] & Hi & _). exists T. split; [| exact Hi]. split.
    + intros x A. apply M1. apply (represents_points (I m) T' x Ri). exact A.
    + intros x A. destruct (M2 x A) as (y & Y1 & Y2). exists y. split; [apply (represents_points (I m) T' y Ri); exact Y1 | exact Y2].
  - unfold co_inter_ellipsoid. rewrite D. cbn [bind co_data co_apex co_axis co_angle]. rewrite Dk. cbn [bind]. rewrite Er. cbn [bind].
    rewrite (mapM_or _ inter_empty), map_map.
    2: { intros x Hx. apply in_map_iff in Hx. destruct Hx as (m & <- & _). destruct (R m) as (T & T' & E & _). eexists. exact E. }
    cbn [bind]. fold pick. change (map _ (seq 0 n)) with (map I (seq 0 n)). rewrite (gather_map pick I); [exact Ei |]. intros m _. destruct (O1 m) as (x & y & E & _). exists x, y. exact E.
  - intros m _. destruct (O1 m) as (x & y & E & X & Lx & Ly & C). unfold firsts, seconds. rewrite E. split; [exact X |]. split; [exact Lx |]. split; [exact Ly | exact C].
  - unfold co_inter_ellipsoid. rewrite D. cbn [bind co_data co_apex co_axis co_angle]. rewrite Dk. cbn [bind]. rewrite Er. cbn [bind].
    rewrite (mapM_or _ inter_empty), map_map.
    2: { intros x Hx. apply in_map_iff in Hx. destruct Hx as (m & <- & _). destruct (R m) as (T & T' & _ & _ & _ & _ & E & _). eexists. exact E. }
    cbn [bind]. fold pick. change (map _ (seq 0 n)) with (map J (seq 0 n)). rewrite (gather_map pick J); [| intros m _; destruct (O2 m) as (x & E); exists x, []; exact E].
    cbn [bind]. replace (flat_map (fun m => seconds pick (J m)) (seq 0 n)) with (@nil v3); [exact Ej |].
    clear - O2. induction (seq 0 n) as [| m l IH]; [reflexivity |]. cbn [flat_map]. rewrite <- IH. unfold seconds. destruct (O2 m) as (x & ->). reflexivity.
  - intros m _. destruct (R m) as (T & T' & _ & Ri & _ & _ & _ & [(E & C) | (p & E & [H1 H2])]).
    + left. unfold firsts. rewrite E. split; [reflexivity |]. intros x A. apply (represents_points (I m) T' x Ri) in A. exact (C x A).
    + right. exists p. unfold firsts. rewrite E. split; [reflexivity |]. split; [apply (represents_points (I m) T' p Ri); exact H1 |].
      intros x A. apply (represents_points (I m) T' x Ri) in A. exact (H2 x A).
Qed.

Lemma some_inj {A} (x y : A) : Some x = Some y -> x = y.
Proof. intros H. injection H as H. exact H. Qed.
(** *** Intersection with ellipsoids: tested on the lateral half lines only *)
Lemma c95_intersects g eps c s a u k t n q ax ks : 0 < eps < 1 / 2 -> ellipsoid_queries g -> good_ellipsoid eps s q ax ks ->
  c = mkCone (Some a) (Some u) k -> turns k = Some (t / (2 * PI)) -> Rabs (norm3 u - 1) <= eps -> (0 < n)%nat ->
  exists e b, sqnorm3 e = 1 /\ dot3 e u = 0 /\ co_intersects_ellipsoid g eps c s n = Ok b
    /\ (b = true <-> exists m p, (m < n)%nat /\ on_ray a (lateral (normalized3 u) e t n m) p /\ solid_ellipsoid q ax ks p)
    /\ (b = true -> exists p, on_cone a u t p /\ solid_ellipsoid q ax ks p).
Proof.
  intros He Gq G -> Hk Hu Hn. destruct (c58_rays eps _ a u k t n He eq_refl Hk Hu Hn) as (e & Ue & De & Er).
  pose proof (unit_within u eps He Hu) as Qu. set (d := fun m => lateral (normalized3 u) e t n m) in *.
  assert (Ud : forall m, sqnorm3 (d m) = 1) by (intros m; apply (c58_on_cone u e t n m a 0); [lra | exact Ue | exact De]).
  destruct (good_data eps s q ax ks ltac:(lra) G) as [q0 D]. assert (Dk : angle_isDefined k = true) by (apply (turns_defined _ _ Hk)).
  destruct (anyM_ok (fun r => e_intersects_ray g eps s r) (fun r => exists m p, r = mkRay (Some a) (Some (d m)) /\ on_ray a (d m) p /\ solid_ellipsoid q ax ks p)
    (map (fun m => mkRay (Some a) (Some (d m))) (seq 0 n))) as (b & Eb & Hb).
  { intros x Hx. apply in_map_iff in Hx. destruct Hx as (m & <- & _).
    destruct (c88_intersects g eps s q ax ks ltac:(lra) Gq G) as (_ & C & _). destruct (C _ a (d m) (conj eq_refl (Ud m))) as (b & Eb & Hb). exists b. split; [exact Eb |].
    unfold decides in Hb. rewrite Hb. split; [intros (p & P); exists m, p; split; [reflexivity | exact P] |]. intros (m' & p & E & P). apply (f_equal r_direction), some_inj in E. rewrite <- E in P. exists p. exact P. }
  assert (X : b = true <-> exists m p, (m < n)%nat /\ on_ray a (d m) p /\ solid_ellipsoid q ax ks p).
  { rewrite Hb. split.
    - intros (x & Hx & (m & p & -> & P)). apply in_map_iff in Hx. destruct Hx as (m' & E & I). apply (f_equal r_direction), some_inj in E. exists m', p. apply in_seq in I. rewrite E. split; [lia | exact P].
    - intros (m & p & Hm & P). exists (mkRay (Some a) (Some (d m))). split; [apply (in_map (fun m => mkRay (Some a) (Some (d m)))), in_seq; lia |]. exists m, p. split; [reflexivity | exact P]. }
  exists e, b. split; [exact Ue |]. split; [exact De |]. split; [| split; [exact X |]].
  - unfold co_intersects_ellipsoid. rewrite D. cbn [bind co_data co_apex co_axis co_angle]. rewrite Dk. cbn [bind]. rewrite Er. exact Eb.
  - intros B. apply X in B. destruct B as (m & p & _ & (s' & Hs & ->) & P). exists (along a s' (d m)). split; [| exact P]. apply (c58_on_cone u e t n m a s'); [lra | exact Ue | exact De | exact Hs].
Qed.
(** An ellipsoid in the middle of the cone is missed, however many half lines are used. *)
Lemma c95_intersects_refuted g eps : 0 < eps < 1 / 2 -> ellipsoid_queries g ->
  exists c a u t s q ax ks p, good_cone eps c a u t /\ 0 < t < PI / 2 /\ norm3 u = 1 /\ good_ellipsoid eps s q ax ks
    /\ (forall x, solid_ellipsoid q ax ks x -> solid_cone a u t x) /\ solid_ellipsoid q ax ks p /\ solid_cone a u t p
    /\ forall n, (0 < n)%nat -> co_intersects_ellipsoid g eps c s n = Ok false.
Proof.
  intros He Gq. pose proof PI_RGT_0. pose proof (unit_ball_good eps ltac:(lra)) as G.
  set (k := Radians (PI / 4)). set (a := V3 0 0 (-2)). set (z := V3 0 0 1).
  assert (Nz : norm3 z = 1) by (apply norm_unit; unfold z; v3unfold; ring).
  assert (Tk : turns k = Some (PI / 4 / (2 * PI))) by (reflexivity).
  assert (Cc : 0 < cos (PI / 4) /\ cos (PI / 4) * cos (PI / 4) = 1 / 2).
  { split; [apply cos_gt_0; lra | exact cos45]. }
  destruct Cc as [Cp Cq].
  assert (In : forall x, solid_ellipsoid zero3 unit_axes (1, 1, 1) x -> solid_cone a z (PI / 4) x).
  { intros x Hx. unfold solid_ellipsoid in Hx. rewrite unit_ball_form in Hx. unfold solid_cone. rewrite Nz, Rmult_1_r.
    replace (dot3 (sub3 x a) z) with (vz x + 2) by (unfold z, a; v3unfold; ring). destruct x as [x y w]. unfold a in *. unfold sqnorm3, dot3, sub3, zero3 in Hx. cbn [vx vy vz] in Hx. cbn [vz].
    assert (Q : x * x + y * y + w * w <= 1) by lra. clear Hx. apply sqrt_le_sq; [nra | apply Rmult_le_pos; [apply norm3_nonneg | lra] |].
    replace (norm3 (sub3 (V3 x y w) (V3 0 0 (-2))) * cos (PI / 4) * (norm3 (sub3 (V3 x y w) (V3 0 0 (-2))) * cos (PI / 4)))
      with (norm3 (sub3 (V3 x y w) (V3 0 0 (-2))) * norm3 (sub3 (V3 x y w) (V3 0 0 (-2))) * (cos (PI / 4) * cos (PI / 4))) by ring.
    rewrite norm3_sq, Cq. v3unfold. nra. }
  assert (Zi : solid_ellipsoid zero3 unit_axes (1, 1, 1) zero3) by (unfold solid_ellipsoid; rewrite unit_ball_form; v3unfold; lra).
  exists (mkCone (Some a) (Some z) k), a, z, (PI / 4), unit_ball, zero3, unit_axes, (1, 1, 1), zero3.
  split; [exists k; split; [reflexivity |]; split; [exact Tk |]; unfold z; v3unfold; lra |]. split; [lra |]. split; [exact Nz |]. split; [exact G |].
  split; [exact In |]. split; [exact Zi |]. split; [apply In, Zi |]. intros n Hn.
  destruct (c95_intersects g eps (mkCone (Some a) (Some z) k) unit_ball a z k (PI / 4) n _ _ _ He Gq G eq_refl Tk) as (e & b & _ & _ & E & _ & B).
  { rewrite Nz, Rminus_eq_0, Rabs_R0. lra. } { exact Hn. }
  rewrite E. f_equal. destruct b; [exfalso | reflexivity]. destruct (B eq_refl) as (p & O & S). unfold solid_ellipsoid in S. rewrite unit_ball_form in S.
  unfold on_cone in O. rewrite Nz, Rmult_1_r in O. assert (O2 : sqnorm3 (sub3 p a) * (1 / 2) = dot3 (sub3 p a) z * dot3 (sub3 p a) z) by (rewrite <- O, <- Cq, <- norm3_sq; ring).
  clear O. destruct p as [x y w]. unfold a, z in O2. unfold sqnorm3, dot3, sub3, zero3 in O2. cbn [vx vy vz] in O2. unfold sqnorm3, dot3, sub3, zero3 in S. cbn [vx vy vz] in S. nra.
Qed.
Lemma c95_errors g eps order c s e b n :
  (sp_data s = Err EUndefined -> co_inter_sphere g eps order c s b n = Err EUndefined)
  /\ (e_data e = Err EUndefined -> co_inter_ellipsoid g eps order c e b n = Err EUndefined /\ co_intersects_ellipsoid g eps c e n = Err EUndefined).
Proof.
  split; intros H; [| split]; unfold co_inter_sphere, co_inter_ellipsoid, co_intersects_ellipsoid; rewrite H; reflexivity.
Qed.
