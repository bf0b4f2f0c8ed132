(** The half lines of all the faces of a pyramid, and its intersections (C107). *)

From Coq Require Import List Bool Reals Lra Lia Arith Psatz Permutation.
From Verif Require IntervalModel IntervalSpec RotProofs4 RotProofs9 CuboidProofs2.
From Verif Require Import Result DOrder Vec VecProofs Mat3 Mat4 AngleModel AngleSpec AngleProofs AngleProofs2 RotModel RotSpec RotProofs RotProofs2 RotProofs3 IntervalGridModel IntervalGridProofs
  TransfModel TransfSpec TransfProofs TransfProofs2 Geo3Types Geo3Model Geo3Spec Geo3Proofs Geo3Proofs2 Geo3Proofs3 GteModel GteSpec ChordProofs SphereModel SphereSpec SphereProofs
  EllModel EllSpec EllProofs EllProofs2 EllProofs3 Geo2Model Geo2Spec Geo2Proofs Poly2Model Poly2Spec Poly2Proofs Poly2Proofs2 Poly2Ref
  InterModel ConeModel ConeSpec ConeProofs ConeProofs2 ConeProofs3 ConeProofs4 ConeProofs5 ConeProofs6 PyrModel PyrSpec PyrProofs PyrProofs2 PyrProofs3.
Import ListNotations.
Local Open Scope R_scope.

Definition edges_at (o x y : v3) (outer : list v2) : list (v3 * v3) := map (fun e => (lift o x y (fst e), lift o x y (snd e))) (cycle outer).
Lemma mapM_forall2 {A B C} (f : nat -> result B) (R : A -> C -> Prop) (g : C -> B) l : (forall i e, nth_error l i = Some e -> exists c, f i = Ok (g c) /\ R e c) ->
  exists cs, mapM f (seq 0 (length l)) = Ok (map g cs) /\ Forall2 R l cs.
Proof.
  intros H. assert (G : forall pre r, l = pre ++ r -> exists cs, mapM f (seq (length pre) (length r)) = Ok (map g cs) /\ Forall2 R r cs).
  { intros pre r. revert pre. induction r as [| e r IH]; intros pre E; [exists []; split; [reflexivity | constructor] |]. cbn [length seq mapM].
    destruct (H (length pre) e) as (c & Ec & Rc); [rewrite E, nth_error_app2, Nat.sub_diag by lia; reflexivity |]. rewrite Ec. cbn [bind].
    destruct (IH (pre ++ [e])) as (cs & Ecs & Rcs); [rewrite <- app_assoc; exact E |]. rewrite app_length, Nat.add_1_r in Ecs. rewrite Ecs. exists (c :: cs). split; [reflexivity | constructor; assumption]. }
  exact (G [] l eq_refl).
Qed.
Lemma c107_rays eps m b a outer o x y n : 0 < eps < 1 / 2 -> placed m b outer [] o x y ->
  off_edges a o x y outer -> (length (cycle outer) <= n)%nat ->
  exists dss, py_rays eps (mkPyramid b (Some a)) n = Ok (map (fun d => mkRay (Some a) (Some d)) (concat dss))
    /\ faces_spread a o x y outer n dss.
Proof.
  intros He HB N L. unfold py_rays. rewrite (proj1 (c59_count _ _ _ _ _ _ _ _ HB)). cbn [map concat bind]. rewrite app_nil_r. rewrite (proj2 (Nat.ltb_ge _ _) L).
  destruct (mapM_forall2 (fun i => py_face_rays eps (mkPyramid b (Some a)) i (n / length (cycle outer))) (fun e ds => face_spread a (lift o x y (fst e)) (lift o x y (snd e)) (n / length (cycle outer)) ds)
    (rays_from a) (cycle outer)) as (dss & E & F).
  - intros i [v w] Hi. apply (c107_face eps m b a outer [] o x y i v w); try assumption. apply N, (nth_error_In _ _ Hi).
  - rewrite E. cbn [bind]. exists dss. split; [| exact F]. f_equal. unfold rays_from. symmetry. apply concat_map.
Qed.
Lemma spread_units a v w n ds : face_spread a v w n ds -> forall d, In d ds -> sqnorm3 d = 1 /\ in_face a v w d.
Proof. intros (t & _ & _ & _ & H) d Hd. apply In_nth_error in Hd. destruct Hd as (i & Hi). destruct (H i d Hi) as (A & B & _). split; assumption. Qed.
Lemma spread_all {A} (P : A -> list v3 -> Prop) l dss d : Forall2 P l dss -> In d (concat dss) -> exists e ds, In e l /\ P e ds /\ In d ds.
Proof.
  intros F. induction F as [| e ds l dss H F IH]; cbn [concat]; [intros [] |]. intros Hd. apply in_app_or in Hd. destruct Hd as [Hd | Hd].
  - exists e, ds. split; [left; reflexivity |]. split; assumption.
  - destruct (IH Hd) as (e' & ds' & A1 & A2 & A3). exists e', ds'. split; [right; exact A1 |]. split; assumption.
Qed.
(** Fewer rays than faces, and bases with holes. *)
Lemma c107_few eps m b a outer inner o x y n : placed m b outer inner o x y -> (n < length (cycle outer ++ concat (map cycle inner)))%nat -> py_rays eps (mkPyramid b (Some a)) n = Err ERuntime.
Proof. intros HB L. unfold py_rays. rewrite (proj1 (c59_count _ _ _ _ _ _ _ _ HB)). cbn [bind]. rewrite (proj2 (Nat.ltb_lt _ _) L). reflexivity. Qed.
Lemma mapM_stops {A B} (f : A -> result B) l e : (exists x, In x l /\ f x = Err e) -> (forall x, In x l -> (exists y, f x = Ok y) \/ f x = Err e) -> mapM f l = Err e.
Proof.
  intros (x & Hx & E) H. induction l as [| z l IH]; [destruct Hx |]. cbn [mapM]. destruct (H z (or_introl eq_refl)) as [(y & Ey) | Ez]; [| rewrite Ez; reflexivity].
  rewrite Ey. cbn [bind]. destruct Hx as [-> | Hx]; [congruence |]. rewrite IH; [reflexivity | exact Hx | intros; apply H; right; assumption].
Qed.
Lemma c107_holes eps m b a outer inner o x y n : 0 < eps < 1 / 2 -> placed m b outer inner o x y -> inner <> [] ->
  off_edges a o x y outer -> (length (cycle outer ++ concat (map cycle inner)) <= n)%nat ->
  py_rays eps (mkPyramid b (Some a)) n = Err EToBeImplemented.
Proof.
  intros He HB Ni N L. unfold py_rays. rewrite (proj1 (c59_count _ _ _ _ _ _ _ _ HB)). cbn [bind]. rewrite (proj2 (Nat.ltb_ge _ _) L).
  assert (M : (length (cycle outer) < length (cycle outer ++ concat (map cycle inner)))%nat).
  { rewrite app_length. destruct inner as [| r inner]; [congruence |]. destruct HB as (P & _ & _ & _ & _ & Fi). inversion Fi as [| ? ? [(f & s & mid & z & -> & _) _] _]. cbn [map concat]. rewrite app_length.
    assert (1 <= length (cycle (f :: s :: mid ++ [z])))%nat by (unfold cycle; cbn [closed app consecutive length]; lia). lia. }
  destruct (c60_edge_at _ _ _ _ _ _ _ HB) as (_ & T & _).
  assert (K : forall i, (length (cycle outer) <= i < length (cycle outer ++ concat (map cycle inner)))%nat -> py_face_rays eps (mkPyramid b (Some a)) i (n / length (cycle outer ++ concat (map cycle inner))) = Err EToBeImplemented).
  { intros i Hi. unfold py_face_rays. cbn [py_base]. rewrite (T i Hi). reflexivity. }
  rewrite (mapM_stops _ _ EToBeImplemented); [reflexivity | exists (length (cycle outer)); split; [apply in_seq; lia | apply K; lia] |].
  intros i Hi. apply in_seq in Hi. destruct (Nat.lt_ge_cases i (length (cycle outer))) as [Li | Li]; [left | right; apply K; lia].
  destruct (nth_error (cycle outer) i) as [[v w] |] eqn:E; [| apply nth_error_None in E; lia].
  destruct (c107_face eps m b a outer inner o x y i v w (n / length (cycle outer ++ concat (map cycle inner))) He HB E) as (ds & Eds & _); [apply N, (nth_error_In _ _ E) |]. eexists. exact Eds.
Qed.
(** *** Intersections: those of the half lines *)
Lemma rays_sphere g eps order s a ds q r : 0 < eps < 1 / 2 -> sphere_queries g -> good_sphere s q r -> (forall l, Permutation (order l) l) -> (forall d, In d ds -> sqnorm3 d = 1) ->
  exists (T : v3 -> v3 -> Prop) F S N i j,
    (forall d, In d ds -> hits (on_ray a d) (on_sphere q r) (near_sphere eps q r) (fun x => x = a) (T d))
    /\ (let! l := mapM (fun r => sp_inter_ray g eps s r false) (rays_from a ds) in let! (p, p') := gather (pick_sphere order) l in strings p p' false) = Ok i
    /\ strings_of i (filter nonempty [flat_map F ds; flat_map S ds])
    /\ (forall d, In d ds -> (forall x, In x (F d ++ S d) <-> T d x) /\ (length (F d) <= 1)%nat /\ (length (S d) <= 1)%nat)
    /\ (let! l := mapM (fun r => sp_inter_ray g eps s r true) (rays_from a ds) in let! (p, p') := gather (pick_sphere order) l in strings p p' true) = Ok j
    /\ strings_of j (filter nonempty [flat_map N ds])
    /\ (forall d, In d ds -> (N d = [] /\ forall x, ~ T d x) \/ (exists p, N d = [p] /\ closest_of (T d) a p)).
Proof.
  intros He Gq G Ho Ud.
  set (I := fun d => result_or inter_empty (sp_inter_ray g eps s (mkRay (Some a) (Some d)) false)).
  set (J := fun d => result_or inter_empty (sp_inter_ray g eps s (mkRay (Some a) (Some d)) true)).
  set (pick := pick_sphere order).
  assert (R : forall d, In d ds -> exists T, sp_inter_ray g eps s (mkRay (Some a) (Some d)) false = Ok (I d) /\ represents (I d) T
    /\ hits (on_ray a d) (on_sphere q r) (near_sphere eps q r) (fun x => x = a) T
    /\ sp_inter_ray g eps s (mkRay (Some a) (Some d)) true = Ok (J d)
    /\ ((J d = inter_empty /\ forall x, ~ T x) \/ (exists p, J d = inter_point p /\ closest_of T a p))).
  { intros d Hd. destruct (c52_ray g eps s q r (mkRay (Some a) (Some d)) a d ltac:(lra) Gq G (conj eq_refl (Ud d Hd))) as (i & T & Ei & Ri & Hi & j & Ej & Hj).
    exists T. unfold I, J. rewrite Ei, Ej. cbn [result_or]. repeat (split; [first [reflexivity | assumption] |]). exact Hj. }
  assert (O1 : forall d, In d ds -> exists x y, one pick (I d) = Ok (x, y) /\ (forall z, In z (x ++ y) <-> points_of (I d) z) /\ (length x <= 1)%nat /\ (length y <= 1)%nat /\ True).
  { intros d Hd. destruct (R d Hd) as (T & Ei & _). apply (one_ok (fun _ _ => True)); [apply (sp_shape _ _ _ _ _ Ei) | | exact Logic.I | intros; exact Logic.I].
    intros l L0 L1 L2. apply pick_sphere_ok; assumption. }
  assert (O2 : forall d, In d ds -> exists x, one pick (J d) = Ok (x, [])).
  { intros d Hd. destruct (R d Hd) as (T & _ & _ & _ & _ & [(-> & _) | (p & -> & _)]); eexists; reflexivity. }
  exists (fun d => points_of (I d)), (fun d => firsts pick (I d)), (fun d => seconds pick (I d)), (fun d => firsts pick (J d)).
  destruct (strings_ok (flat_map (fun d => firsts pick (I d)) ds) (flat_map (fun d => seconds pick (I d)) ds)) as (i & Ei & Si).
  destruct (strings_sight (flat_map (fun d => firsts pick (J d)) ds)) as (j & Ej & Sj). exists i, j.
  split; [| split; [| split; [exact Si |]; split; [| split; [| split; [exact Sj |]]]]].
  - intros d Hd. destruct (R d Hd) as (T & _ & Ri & Hi & _). destruct Hi as [H1 H2]. split.
    + intros x A B. apply (represents_points (I d) T x Ri). apply H1; assumption.
    + intros x A. apply (represents_points (I d) T x Ri) in A. apply H2. exact A.
  - unfold rays_from. rewrite (mapM_or _ inter_empty), map_map.
    2: { intros x Hx. apply in_map_iff in Hx. destruct Hx as (d & <- & Hd). destruct (R d Hd) as (T & E & _). eexists. exact E. }
    cbn [bind]. fold pick. change (map _ ds) with (map I ds). rewrite (gather_map pick I); [exact Ei |]. intros d Hd. destruct (O1 d Hd) as (x & y & E & _). exists x, y. exact E.
  - intros d Hd. destruct (O1 d Hd) as (x & y & E & X & Lx & Ly & _). unfold firsts, seconds. rewrite E. repeat split; try assumption; apply X.
  - unfold rays_from. rewrite (mapM_or _ inter_empty), map_map.
    2: { intros x Hx. apply in_map_iff in Hx. destruct Hx as (d & <- & Hd). destruct (R d Hd) as (T & _ & _ & _ & E & _). eexists. exact E. }
    cbn [bind]. fold pick. change (map _ ds) with (map J ds). rewrite (gather_map pick J); [| intros d Hd; destruct (O2 d Hd) as (x & E); exists x, []; exact E].
    cbn [bind]. replace (flat_map (fun d => seconds pick (J d)) ds) with (@nil v3); [exact Ej |].
    clear - O2. induction ds as [| d l IH]; [reflexivity |]. cbn [flat_map]. rewrite <- IH by (intros; apply O2; right; assumption). unfold seconds. destruct (O2 d (or_introl eq_refl)) as (x & ->). reflexivity.
  - intros d Hd. destruct (R d Hd) as (T & _ & Ri & _ & _ & [(E & H) | (p & E & [H1 H2])]).
    + left. unfold firsts. rewrite E. split; [reflexivity |]. intros x A. apply (represents_points (I d) T x Ri) in A. exact (H x A).
    + right. exists p. unfold firsts. rewrite E. split; [reflexivity |]. split; [apply (represents_points (I d) T p Ri); exact H1 |].
      intros x A. apply (represents_points (I d) T x Ri) in A. exact (H2 x A).
Qed.
Lemma rays_ellipsoid g eps order s a ds q ax ks : 0 < eps < 1 / 2 -> ellipsoid_queries g -> good_ellipsoid eps s q ax ks -> (forall l, Permutation (order l) l) -> (forall d, In d ds -> sqnorm3 d = 1) ->
  exists (T : v3 -> v3 -> Prop) F S N i j,
    (forall d, In d ds -> exists T0, merged eps T0 (T d) /\ hits_except (on_ray a d) (on_ellipsoid q ax ks) (fun x => e_contains eps s (Some x) = Ok true) (fun x => x = a) T0)
    /\ (let! l := mapM (fun r => e_inter_ray g eps s r false) (rays_from a ds) in let! (p, p') := gather (pick_ellipsoid order (Some a)) l in strings p p' false) = Ok i
    /\ strings_of i (filter nonempty [flat_map F ds; flat_map S ds])
    /\ (forall d, In d ds -> (forall x, In x (F d ++ S d) <-> T d x) /\ (length (F d) <= 1)%nat /\ (length (S d) <= 1)%nat /\ forall x y, In x (F d) -> In y (S d) -> dist3 a x <= dist3 a y)
    /\ (let! l := mapM (fun r => e_inter_ray g eps s r true) (rays_from a ds) in let! (p, p') := gather (pick_ellipsoid order (Some a)) l in strings p p' true) = Ok j
    /\ strings_of j (filter nonempty [flat_map N ds])
    /\ (forall d, In d ds -> (N d = [] /\ forall x, ~ T d x) \/ (exists p, N d = [p] /\ closest_of (T d) a p)).
Proof.
  intros He Gq G Ho Ud.
  set (I := fun d => result_or inter_empty (e_inter_ray g eps s (mkRay (Some a) (Some d)) false)).
  set (J := fun d => result_or inter_empty (e_inter_ray g eps s (mkRay (Some a) (Some d)) true)).
  set (pick := pick_ellipsoid order (Some a)).
  set (H := fun d T => hits_except (on_ray a d) (on_ellipsoid q ax ks) (fun x => e_contains eps s (Some x) = Ok true) (fun x => x = a) T).
  assert (R : forall d, In d ds -> exists T T', e_inter_ray g eps s (mkRay (Some a) (Some d)) false = Ok (I d) /\ represents (I d) T' /\ merged eps T T' /\ H d T
    /\ e_inter_ray g eps s (mkRay (Some a) (Some d)) true = Ok (J d)
    /\ ((J d = inter_empty /\ forall x, ~ T' x) \/ (exists p, J d = inter_point p /\ closest_of T' a p))).
  { intros d Hd. destruct (c89_ray_partial g eps s q ax ks (mkRay (Some a) (Some d)) a d ltac:(lra) Gq G (conj eq_refl (Ud d Hd))) as (i & T & T' & Ei & Ri & Mi & Hi & j & Ej & Hj).
    exists T, T'. unfold I, J. rewrite Ei, Ej. cbn [result_or]. repeat (split; [first [reflexivity | assumption] |]). exact Hj. }
  assert (O1 : forall d, In d ds -> exists x y, one pick (I d) = Ok (x, y) /\ (forall z, In z (x ++ y) <-> points_of (I d) z) /\ (length x <= 1)%nat /\ (length y <= 1)%nat
    /\ forall p p', In p x -> In p' y -> dist3 a p <= dist3 a p').
  { intros d Hd. destruct (R d Hd) as (T & T' & Ei & _). apply (one_ok (fun x y => forall p p', In p x -> In p' y -> dist3 a p <= dist3 a p'));
      [apply (e_shape _ _ _ _ _ Ei) | | intros p p' [] | intros p p' p'' _ []].
    intros l L0 L1 L2. apply pick_ellipsoid_ok; assumption. }
  assert (O2 : forall d, In d ds -> exists x, one pick (J d) = Ok (x, [])).
  { intros d Hd. destruct (R d Hd) as (T & T' & _ & _ & _ & _ & _ & [(-> & _) | (p & -> & _)]); eexists; reflexivity. }
  exists (fun d => points_of (I d)), (fun d => firsts pick (I d)), (fun d => seconds pick (I d)), (fun d => firsts pick (J d)).
  destruct (strings_ok (flat_map (fun d => firsts pick (I d)) ds) (flat_map (fun d => seconds pick (I d)) ds)) as (i & Ei & Si).
  destruct (strings_sight (flat_map (fun d => firsts pick (J d)) ds)) as (j & Ej & Sj). exists i, j.
  split; [| split; [| split; [exact Si |]; split; [| split; [| split; [exact Sj |]]]]].
  - intros d Hd. destruct (R d Hd) as (T & T' & _ & Ri & [M1 M2] & Hi & _). exists T. split; [| exact Hi]. split.
    + intros x A. apply M1. apply (represents_points (I d) T' x Ri). exact A.
    + intros x A. destruct (M2 x A) as (y & Y1 & Y2). exists y. split; [apply (represents_points (I d) T' y Ri); exact Y1 | exact Y2].
  - unfold rays_from. rewrite (mapM_or _ inter_empty), map_map.
    2: { intros x Hx. apply in_map_iff in Hx. destruct Hx as (d & <- & Hd). destruct (R d Hd) as (T & T' & E & _). eexists. exact E. }
    cbn [bind]. fold pick. change (map _ ds) with (map I ds). rewrite (gather_map pick I); [exact Ei |]. intros d Hd. destruct (O1 d Hd) as (x & y & E & _). exists x, y. exact E.
  - intros d Hd. destruct (O1 d Hd) as (x & y & E & X & Lx & Ly & C). unfold firsts, seconds. rewrite E. split; [exact X |]. split; [exact Lx |]. split; [exact Ly | exact C].
  - unfold rays_from. rewrite (mapM_or _ inter_empty), map_map.
    2: { intros x Hx. apply in_map_iff in Hx. destruct Hx as (d & <- & Hd). destruct (R d Hd) as (T & T' & _ & _ & _ & _ & E & _). eexists. exact E. }
    cbn [bind]. fold pick. change (map _ ds) with (map J ds). rewrite (gather_map pick J); [| intros d Hd; destruct (O2 d Hd) as (x & E); exists x, []; exact E].
    cbn [bind]. replace (flat_map (fun d => seconds pick (J d)) ds) with (@nil v3); [exact Ej |].
    clear - O2. induction ds as [| d l IH]; [reflexivity |]. cbn [flat_map]. rewrite <- IH by (intros; apply O2; right; assumption). unfold seconds. destruct (O2 d (or_introl eq_refl)) as (x & ->). reflexivity.
  - intros d Hd. destruct (R d Hd) as (T & T' & _ & Ri & _ & _ & _ & [(E & C) | (p & E & [H1 H2])]).
    + left. unfold firsts. rewrite E. split; [reflexivity |]. intros x A. apply (represents_points (I d) T' x Ri) in A. exact (C x A).
    + right. exists p. unfold firsts. rewrite E. split; [reflexivity |]. split; [apply (represents_points (I d) T' p Ri); exact H1 |].
      intros x A. apply (represents_points (I d) T' x Ri) in A. exact (H2 x A).
Qed.
