(** Proofs about containment, intersection, vertices and transformation of cuboids (C91, C92, C93). *)

From Coq Require Import List Bool Reals Lra Lia Psatz Permutation.
From Verif Require Import Result DOrder Vec VecProofs Mat3 Mat4 AngleModel AngleProofs RotModel RotSpec RotProofs RotProofs2 TransfModel TransfSpec
  TransfProofs TransfProofs2 Geo3Types Geo3Model Geo3Spec Geo3Proofs Geo3Proofs2 Geo3Proofs3 GteModel GteSpec ChordProofs SphereSpec SphereProofs GteProofs
  CuboidModel CuboidSpec.
Import ListNotations.
Local Open Scope R_scope.

Lemma dot_comm a b : dot3 a b = dot3 b a.
Proof. v3ring. Qed.
Lemma okb_inj (a b : bool) : Ok a = Ok b -> a = b.
Proof. congruence. Qed.

(** *** C91 *)
(** A query built from a total containment test. *)
Lemma total_sets (f : v3 -> result bool) : (forall p, exists b, f p = Ok b) -> forall l,
  exists x y, allM f l = Ok x /\ anyM f l = Ok y
    /\ (x = true <-> forall p, In p l -> f p = Ok true) /\ (y = true <-> exists p, In p l /\ f p = Ok true).
Proof.
  intros T l. assert (C : forall p, In p l -> exists b, f p = Ok b /\ (b = true <-> f p = Ok true)).
  { intros p _. destruct (T p) as [b E]. exists b. split; [exact E |]. rewrite E. split; congruence. }
  destruct (allM_ok f _ l C) as (x & Ex & Hx). destruct (anyM_ok f _ l C) as (y & Ey & Hy). exists x, y. tauto.
Qed.
(** Moving a point along an axis onto a face. *)
Lemma push u0 u1 u2 c k p : sqnorm3 u0 = 1 -> dot3 u1 u0 = 0 -> dot3 u2 u0 = 0 -> 0 < k ->
  exists s, Rabs (dot3 u0 (sub3 s c)) = k /\ dot3 u1 (sub3 s c) = dot3 u1 (sub3 p c) /\ dot3 u2 (sub3 s c) = dot3 u2 (sub3 p c)
    /\ dist3 p s = Rabs (Rabs (dot3 u0 (sub3 p c)) - k).
Proof.
  intros U O1 O2 K. set (x := dot3 u0 (sub3 p c)).
  assert (G : exists y, Rabs y = k /\ Rabs (y - x) = Rabs (Rabs x - k)).
  { destruct (Rle_or_lt 0 x) as [X | X].
    - exists k. rewrite (Rabs_right k), (Rabs_right x) by lra. split; [reflexivity |]. apply Rabs_minus_sym.
    - exists (- k). rewrite Rabs_Ropp, (Rabs_right k), (Rabs_left x) by lra. split; [reflexivity |]. f_equal. ring. }
  destruct G as (y & Y & D). exists (add3 p (scale3 (y - x) u0)).
  assert (E : forall v, dot3 v (sub3 (add3 p (scale3 (y - x) u0)) c) = dot3 v (sub3 p c) + (y - x) * dot3 v u0) by (clear; intros; v3ring).
  rewrite !E, O1, O2. fold x. change (dot3 u0 u0) with (sqnorm3 u0). rewrite U. split; [replace (x + (y - x) * 1) with y by ring; exact Y |].
  split; [ring |]. split; [ring |]. unfold dist3. replace (sub3 p (add3 p (scale3 (y - x) u0))) with (scale3 (x - y) u0) by (clear; v3ring).
  rewrite norm3_scale, norm3_1 by exact U. rewrite Rabs_minus_sym, D. ring.
Qed.
Lemma coordinate_near u p s c : sqnorm3 u = 1 -> Rabs (Rabs (dot3 u (sub3 p c)) - Rabs (dot3 u (sub3 s c))) <= dist3 p s.
Proof.
  intros U. eapply Rle_trans; [apply Rabs_triang_inv2 |]. replace (dot3 u (sub3 p c) - dot3 u (sub3 s c)) with (dot3 u (sub3 p s)) by (clear; v3ring).
  eapply Rle_trans; [apply cauchy3_norm |]. rewrite norm3_1 by exact U. unfold dist3. lra.
Qed.
Lemma c91_contains eps b c u k p : 0 < eps -> good_cuboid b c u k -> exists r, cu_contains eps b (Some p) = Ok r
  /\ (r = true -> exists s, on_box c u k s /\ dist3 p s < eps)
  /\ (solid_box c u k p -> (exists s, on_box c u k s /\ dist3 p s < eps) -> r = true).
Proof.
  intros He. destruct u as [[u0 u1] u2], k as [[k0 k1] k2]. intros (-> & O & P). pose proof O as (A0 & A1 & A2 & O01 & O12 & O20). destruct P as (P0 & P1 & P2).
  unfold cu_contains. cbn [needd bind cu_data cu_center cu_axes cu_extent]. rewrite !(dot_comm (sub3 p c)).
  set (x := dot3 u0 (sub3 p c)). set (y := dot3 u1 (sub3 p c)). set (z := dot3 u2 (sub3 p c)).
  assert (O10 : dot3 u1 u0 = 0) by (rewrite dot_comm; exact O01). assert (O21 : dot3 u2 u1 = 0) by (rewrite dot_comm; exact O12).
  assert (O02 : dot3 u0 u2 = 0) by (rewrite dot_comm; exact O20).
  assert (D : forall s, on_box c (u0, u1, u2) (k0, k1, k2) s -> dist3 p s < eps ->
     Rabs (Rabs x - k0) < eps \/ Rabs (Rabs y - k1) < eps \/ Rabs (Rabs z - k2) < eps).
  { intros s [_ [X | [X | X]]] L; [left | right; left | right; right]; rewrite <- X; (eapply Rle_lt_trans; [apply coordinate_near; assumption | exact L]). }
  destruct (Rltb (Rabs (Rabs x - k0)) eps) eqn:E0; [| destruct (Rltb (Rabs (Rabs y - k1)) eps) eqn:E1; [| destruct (Rltb (Rabs (Rabs z - k2)) eps) eqn:E2]];
    (eexists; split; [reflexivity |]); split.
  - rewrite andb_true_iff, !Rleb_iff. intros [H1 H2]. apply Rltb_true in E0. destruct (push u0 u1 u2 c k0 p A0 O10 O20 P0) as (s & S0 & S1 & S2 & L).
    exists s. fold x in L. rewrite L. split; [| exact E0]. split; [| left; exact S0]. split; [lra |]. rewrite S1, S2. tauto.
  - intros (H0 & H1 & H2) _. rewrite andb_true_iff, !Rleb_iff. tauto.
  - rewrite andb_true_iff, !Rleb_iff. intros [H1 H2]. apply Rltb_true in E1. destruct (push u1 u0 u2 c k1 p A1 O01 O21 P1) as (s & S0 & S1 & S2 & L).
    exists s. fold y in L. rewrite L. split; [| exact E1]. split; [| right; left; exact S0]. split; [rewrite S1; tauto |]. rewrite S2. split; [lra | tauto].
  - intros (H0 & H1 & H2) _. rewrite andb_true_iff, !Rleb_iff. tauto.
  - rewrite andb_true_iff, !Rleb_iff. intros [H1 H2]. apply Rltb_true in E2. destruct (push u2 u0 u1 c k2 p A2 O02 O12 P2) as (s & S0 & S1 & S2 & L).
    exists s. fold z in L. rewrite L. split; [| exact E2]. split; [| right; right; exact S0]. split; [rewrite S1; tauto |]. rewrite S2. split; [tauto | lra].
  - intros (H0 & H1 & H2) _. rewrite andb_true_iff, !Rleb_iff. tauto.
  - discriminate.
  - intros _ (s & S & L). apply Rltb_false in E0, E1, E2. destruct (D s S L) as [X | [X | X]]; lra.
Qed.
Lemma c91_surface eps b c u k p : 0 < eps -> good_cuboid b c u k -> on_box c u k p -> cu_contains eps b (Some p) = Ok true.
Proof.
  intros He G H. destruct (c91_contains eps b c u k p He G) as (r & -> & _ & X). f_equal. apply X; [apply H |]. exists p. split; [exact H |].
  unfold dist3. replace (sub3 p p) with zero3 by (clear; v3ring). unfold norm3. replace (sqnorm3 zero3) with 0 by (v3unfold; ring). rewrite sqrt_0. exact He.
Qed.
Lemma c91_sets eps b c u k ps x y : 0 < eps -> good_cuboid b c u k ->
  exists r s t, cu_contains_ps eps b ps = Ok r /\ cu_intersects_ps eps b ps = Ok s /\ cu_contains_segment eps b (mkSeg (Some x) (Some y)) = Ok t
    /\ (r = true <-> ps <> [] /\ forall p, In p ps -> cu_contains eps b (Some p) = Ok true)
    /\ (s = true <-> exists p, In p ps /\ cu_contains eps b (Some p) = Ok true)
    /\ (t = true <-> cu_contains eps b (Some x) = Ok true /\ cu_contains eps b (Some y) = Ok true).
Proof.
  intros He G. assert (T : forall p, exists r, cu_contains eps b (Some p) = Ok r) by (intros p; destruct (c91_contains eps b c u k p He G) as (r & E & _); exists r; exact E).
  assert (D : cu_data b = Ok (c, u, k)) by (destruct u as [[? ?] ?], k as [[? ?] ?], G as (-> & _); reflexivity).
  destruct (total_sets (fun p => cu_contains eps b (Some p)) T ps) as (r & s & Er & Es & Hr & Hs). destruct (T x) as [tx Ex]. destruct (T y) as [ty Ey].
  assert (Z : cu_contains_segment eps b (mkSeg (Some x) (Some y)) = Ok (tx && ty)).
  { unfold cu_contains_segment. cbn [s_data s_first s_second bind]. rewrite Ex. cbn [bind]. destruct tx; [exact Ey | reflexivity]. }
  assert (Hz : tx && ty = true <-> cu_contains eps b (Some x) = Ok true /\ cu_contains eps b (Some y) = Ok true).
  { rewrite Ex, Ey, andb_true_iff. split; intros [A B]; split; congruence. }
  unfold cu_contains_ps, cu_intersects_ps. rewrite D. cbn [bind]. destruct ps as [| p ps].
  - exists false, false, (tx && ty). cbn [ps_isEmpty]. split; [reflexivity |]. split; [reflexivity |]. split; [exact Z |]. split; [| split; [| exact Hz]].
    + split; [discriminate | intros [X _]; congruence].
    + split; [discriminate | intros (p & [] & _)].
  - exists r, s, (tx && ty). cbn [ps_isEmpty]. split; [exact Er |]. split; [exact Es |]. split; [exact Z |]. split; [| split; [exact Hs | exact Hz]].
    rewrite Hr. split; [intros X; split; [discriminate | exact X] | tauto].
Qed.
Lemma c91_errors eps b p s : cu_contains eps b None = Err EUndefined
  /\ (cu_data b = Err EUndefined -> cu_contains eps b (Some p) = Err EUndefined /\ cu_contains_ps eps b s = Err EUndefined
      /\ cu_intersects_ps eps b s = Err EUndefined /\ cu_getVertices b = Err EUndefined).
Proof.
  split; [reflexivity |]. intros D. unfold cu_contains, cu_contains_ps, cu_intersects_ps, cu_getVertices. rewrite D. repeat split.
Qed.

(** *** C92 *)
Lemma c92_intersects g b c u k : box_queries g -> good_cuboid b c u k ->
  (forall l o d, good_line l o d -> exists r, cu_intersects_line g b l = Ok r /\ decides r (fun p => on_line o d p /\ solid_box c u k p))
  /\ (forall b' c' u' k', good_cuboid b' c' u' k' -> exists r, cu_intersects_cuboid g b b' = Ok r /\ decides r (fun p => solid_box c u k p /\ solid_box c' u' k' p)).
Proof.
  intros Q. destruct u as [[u0 u1] u2], k as [[k0 k1] k2]. intros (-> & O & P). split.
  - intros l o d [-> U]. eexists. split; [reflexivity |]. apply (bq_ti_line g Q); assumption.
  - intros b' c' [[v0 v1] v2] [[j0 j1] j2] (-> & O' & P'). eexists. split; [reflexivity |]. apply (bq_ti_box g Q); assumption.
Qed.
Lemma coordinates_eq u0 u1 u2 p q c : orthonormal (u0, u1, u2) ->
  dot3 u0 (sub3 p c) = dot3 u0 (sub3 q c) -> dot3 u1 (sub3 p c) = dot3 u1 (sub3 q c) -> dot3 u2 (sub3 p c) = dot3 u2 (sub3 q c) -> p = q.
Proof.
  intros O H0 H1 H2. apply sub3_0. destruct (v3_eq_dec (sub3 p q) zero3) as [E | N]; [exact E | exfalso].
  apply sqnorm3_pos in N. unfold sqnorm3 in N. rewrite (parseval u0 u1 u2 _ _ O) in N.
  assert (E : forall u, dot3 u (sub3 p q) = dot3 u (sub3 p c) - dot3 u (sub3 q c)) by (clear; intros; v3ring). rewrite !E, H0, H1, H2 in N. lra.
Qed.
(** The point with given coordinates. *)
Definition at_ (c u0 u1 u2 : v3) (x y z : R) : v3 := add3 (add3 (add3 c (scale3 x u0)) (scale3 y u1)) (scale3 z u2).
Lemma at_coordinates c u0 u1 u2 x y z : orthonormal (u0, u1, u2) ->
  dot3 u0 (sub3 (at_ c u0 u1 u2 x y z) c) = x /\ dot3 u1 (sub3 (at_ c u0 u1 u2 x y z) c) = y /\ dot3 u2 (sub3 (at_ c u0 u1 u2 x y z) c) = z.
Proof.
  intros (A0 & A1 & A2 & O01 & O12 & O20). unfold at_.
  assert (E : forall v, dot3 v (sub3 (add3 (add3 (add3 c (scale3 x u0)) (scale3 y u1)) (scale3 z u2)) c) = x * dot3 v u0 + y * dot3 v u1 + z * dot3 v u2) by (clear; intros; v3ring).
  rewrite !E. change (dot3 u0 u0) with (sqnorm3 u0). change (dot3 u1 u1) with (sqnorm3 u1). change (dot3 u2 u2) with (sqnorm3 u2).
  rewrite (dot_comm u1 u0), (dot_comm u0 u2), (dot_comm u2 u1), A0, A1, A2, O01, O12, O20. repeat split; ring.
Qed.
Lemma at_any c u0 u1 u2 p : orthonormal (u0, u1, u2) -> p = at_ c u0 u1 u2 (dot3 u0 (sub3 p c)) (dot3 u1 (sub3 p c)) (dot3 u2 (sub3 p c)).
Proof.
  intros O. destruct (at_coordinates c u0 u1 u2 (dot3 u0 (sub3 p c)) (dot3 u1 (sub3 p c)) (dot3 u2 (sub3 p c)) O) as (X & Y & Z).
  apply (coordinates_eq u0 u1 u2 _ _ c O); congruence.
Qed.
Definition corners (c u0 u1 u2 : v3) (x y z : R) : list v3 :=
  [ at_ c u0 u1 u2 x y z; at_ c u0 u1 u2 x y (- z); at_ c u0 u1 u2 x (- y) (- z); at_ c u0 u1 u2 x (- y) z;
    at_ c u0 u1 u2 (- x) y z; at_ c u0 u1 u2 (- x) y (- z); at_ c u0 u1 u2 (- x) (- y) (- z); at_ c u0 u1 u2 (- x) (- y) z ].
Lemma vertices_eq c u0 u1 u2 k0 k1 k2 :
  cu_getVertices (mkCuboid (Some c) (Some u0, Some u1, Some u2) (Some k0, Some k1, Some k2)) = Ok (map Some (corners c u0 u1 u2 (k0 / 2) (k1 / 2) (k2 / 2))).
Proof.
  unfold cu_getVertices. cbn [cu_data cu_center cu_axes cu_extent bind]. f_equal. f_equal. unfold corners, at_.
  assert (E : forall p t w, sub3 p (scale3 t w) = add3 p (scale3 (- t) w)) by (clear; intros; v3ring). rewrite !E. reflexivity.
Qed.
Lemma abs_eq x k : 0 < k -> Rabs x = k <-> x = k \/ x = - k.
Proof. intros K. unfold Rabs. destruct Rcase_abs; split; intros; lra. Qed.
Lemma corners_in c u0 u1 u2 x y z p : orthonormal (u0, u1, u2) -> positive (x, y, z) ->
  In p (corners c u0 u1 u2 x y z) <-> corner c (u0, u1, u2) (x, y, z) p.
Proof.
  intros O (X & Y & Z). unfold corner. rewrite !abs_eq by assumption. split.
  - intros H. simpl in H. decompose [or] H; try contradiction; subst p;
      match goal with |- context [at_ c u0 u1 u2 ?a ?b ?d] => destruct (at_coordinates c u0 u1 u2 a b d O) as (E0 & E1 & E2) end; rewrite E0, E1, E2; tauto.
  - intros (H0 & H1 & H2). rewrite (at_any c u0 u1 u2 p O). simpl. destruct H0 as [-> | ->], H1 as [-> | ->], H2 as [-> | ->]; tauto.
Qed.
Lemma corners_nodup c u0 u1 u2 x y z : orthonormal (u0, u1, u2) -> positive (x, y, z) -> NoDup (corners c u0 u1 u2 x y z).
Proof.
  intros O (X & Y & Z). unfold corners.
  assert (D : forall a b d a' b' d', at_ c u0 u1 u2 a b d = at_ c u0 u1 u2 a' b' d' -> a = a' /\ b = b' /\ d = d').
  { intros a b d a' b' d' E. destruct (at_coordinates c u0 u1 u2 a b d O) as (E0 & E1 & E2). destruct (at_coordinates c u0 u1 u2 a' b' d' O) as (F0 & F1 & F2). rewrite E in E0, E1, E2. repeat split; congruence. }
  repeat (apply NoDup_cons; [simpl; intros H; decompose [or] H; try contradiction; match goal with E : at_ _ _ _ _ _ _ _ = _ |- _ => apply D in E; destruct E as (? & ? & ?); lra end |]).
  apply NoDup_nil.
Qed.
Lemma half_positive k : positive k -> positive (half k).
Proof. destruct k as [[a b] c]. unfold positive, half. lra. Qed.
Lemma c92_vertices b c u k : good_cuboid b c u k ->
  exists l, cu_getVertices b = Ok (map Some l) /\ length l = 8%nat /\ NoDup l /\ forall p, In p l <-> corner c u (half k) p.
Proof.
  destruct u as [[u0 u1] u2], k as [[k0 k1] k2]. intros (-> & O & P). apply half_positive in P. exists (corners c u0 u1 u2 (k0 / 2) (k1 / 2) (k2 / 2)).
  split; [apply vertices_eq |]. split; [reflexivity |]. split; [apply corners_nodup; assumption |]. intros p. apply corners_in; assumption.
Qed.
Lemma c92_vertices_inside eps b c u k k0 k1 k2 v l : 0 < eps -> good_cuboid b c u k -> k = (k0, k1, k2) -> 2 * eps <= k0 -> 2 * eps <= k1 -> 2 * eps <= k2 ->
  cu_getVertices b = Ok l -> In (Some v) l -> ~ on_box c u k v /\ cu_contains eps b (Some v) = Ok false.
Proof.
  intros He. destruct u as [[u0 u1] u2]. intros G -> H0 H1 H2. pose proof G as (-> & O & P). rewrite vertices_eq. intros E I. apply (f_equal (fun r => match r with Ok x => x | _ => [] end)) in E. cbv beta iota in E. rewrite <- E in I.
  apply (in_map_iff Some) in I. destruct I as (p & E' & I). injection E' as ->. apply corners_in in I; [| assumption | apply (half_positive (k0, k1, k2)), P].
  destruct I as (X & Y & Z). split.
  - intros [_ [W | [W | W]]]; lra.
  - unfold cu_contains. cbn [needd bind cu_data cu_center cu_axes cu_extent]. rewrite !(dot_comm (sub3 v c)), X, Y, Z.
    assert (B : forall k, 2 * eps <= k -> Rltb (Rabs (k / 2 - k)) eps = false).
    { intros k K. apply Rltb_f. rewrite Rabs_minus_sym, Rabs_right; lra. }
    rewrite !B by assumption. reflexivity.
Qed.
Lemma c92_vertices_refuted eps : 0 < eps -> exists b c u k l v, good_cuboid b c u k /\ cu_getVertices b = Ok l /\ In (Some v) l
  /\ ~ on_box c u k v /\ cu_contains eps b (Some v) = Ok false.
Proof.
  intros He. set (k := 2 * eps). assert (O : orthonormal (V3 1 0 0, V3 0 1 0, V3 0 0 1)) by (repeat split; v3unfold; ring).
  assert (P : positive (k, k, k)) by (unfold k; repeat split; lra).
  set (b := mkCuboid (Some zero3) (Some (V3 1 0 0), Some (V3 0 1 0), Some (V3 0 0 1)) (Some k, Some k, Some k)).
  assert (G : good_cuboid b zero3 (V3 1 0 0, V3 0 1 0, V3 0 0 1) (k, k, k)) by (split; [reflexivity | tauto]).
  do 6 eexists. split; [exact G |]. split; [apply vertices_eq |]. split; [left; reflexivity |].
  eapply c92_vertices_inside; [exact He | exact G | reflexivity | unfold k; lra | unfold k; lra | unfold k; lra | apply vertices_eq | left; reflexivity].
Qed.

(** *** Nearness *)
Lemma permutation_sets {A} (l l' : list A) : NoDup l -> NoDup l' -> (forall p, In p l <-> In p l') -> Permutation l l'.
Proof. intros. apply NoDup_Permutation; assumption. Qed.
Lemma corners_apart c u k p q t : orthonormal u -> positive k -> corner c u k p -> corner c u k q -> p <> q ->
  (let '(a, b, d) := k in t < a /\ t < b /\ t < d) -> 2 * t < dist3 p q.
Proof.
  destruct u as [[u0 u1] u2], k as [[a b] d]. intros O (A & B & D) (P0 & P1 & P2) (Q0 & Q1 & Q2) N (T0 & T1 & T2).
  pose proof O as (U0 & U1 & U2 & _). rewrite abs_eq in P0, P1, P2, Q0, Q1, Q2 by assumption.
  assert (F : forall u, sqnorm3 u = 1 -> Rabs (dot3 u (sub3 p c) - dot3 u (sub3 q c)) <= dist3 p q).
  { intros u U. replace (dot3 u (sub3 p c) - dot3 u (sub3 q c)) with (dot3 u (sub3 p q)) by (clear; v3ring). eapply Rle_trans; [apply cauchy3_norm |].
    rewrite norm3_1 by exact U. unfold dist3. lra. }
  pose proof (F u0 U0) as F0. pose proof (F u1 U1) as F1. pose proof (F u2 U2) as F2.
  destruct (Req_dec (dot3 u0 (sub3 p c)) (dot3 u0 (sub3 q c))) as [E0 | E0]; [destruct (Req_dec (dot3 u1 (sub3 p c)) (dot3 u1 (sub3 q c))) as [E1 | E1]; [destruct (Req_dec (dot3 u2 (sub3 p c)) (dot3 u2 (sub3 q c))) as [E2 | E2] |] |].
  - exfalso. apply N. apply (coordinates_eq u0 u1 u2 p q c O); assumption.
  - unfold Rabs in F2; destruct Rcase_abs; lra.
  - unfold Rabs in F1; destruct Rcase_abs; lra.
  - unfold Rabs in F0; destruct Rcase_abs; lra.
Qed.
Lemma c92_near order b c u k b' c' u' k' tol : good_cuboid b c u k -> good_cuboid b' c' u' k' -> (forall l, Permutation (order l) l) ->
  exists r, cu_isNear order b b' (Some tol) = Ok r
  /\ (r = true -> exists l l', NoDup l /\ NoDup l' /\ (forall p, In p l <-> corner c u (half k) p) /\ (forall p, In p l' <-> corner c' u' (half k') p)
        /\ Forall2 (fun p q => dist3 p q <= tol) l l')
  /\ ((let '(x, y, z) := half k' in tol < x /\ tol < y /\ tol < z) ->
      (exists l l', NoDup l /\ NoDup l' /\ (forall p, In p l <-> corner c u (half k) p) /\ (forall p, In p l' <-> corner c' u' (half k') p)
        /\ Forall2 (fun p q => dist3 p q <= tol) l l') -> r = true).
Proof.
  intros G G' Hor. destruct (c92_vertices b c u k G) as (v & Ev & Lv & Nv & Hv). destruct (c92_vertices b' c' u' k' G') as (w & Ew & Lw & Nw & Hw).
  assert (O' : orthonormal u' /\ positive (half k')) by (destruct u' as [[? ?] ?], k' as [[? ?] ?], G' as (_ & ? & Q); split; [assumption | apply half_positive, Q]).
  assert (D : cu_data b = Ok (c, u, k)) by (destruct u as [[? ?] ?], k as [[? ?] ?], G as (-> & _); reflexivity).
  assert (D' : cu_data b' = Ok (c', u', k')) by (destruct u' as [[? ?] ?], k' as [[? ?] ?], G' as (-> & _); reflexivity).
  destruct (c51_construct v) as (s & Es & Ns & Hs). destruct (c51_construct w) as (t & Et & Nt & Ht).
  unfold cu_isNear. rewrite D, D'. cbn [bind needd]. rewrite Ev. cbn [bind]. rewrite Es. cbn [bind]. rewrite Ew. cbn [bind]. rewrite Et. cbn [bind].
  destruct u as [[u0 u1] u2], k as [[k0 k1] k2], u' as [[v0 v1] v2], k' as [[j0 j1] j2]. cbn [bind].
  destruct (c51_near_answers (order s) (order t) tol) as [r Er]. exists r. split; [exact Er |].
  assert (In1 : forall p, In p (order s) <-> In p v).
  { intros p. rewrite <- Hs. split; apply Permutation_in; [apply Hor | symmetry; apply Hor]. }
  assert (In2 : forall p, In p (order t) <-> In p w).
  { intros p. rewrite <- Ht. split; apply Permutation_in; [apply Hor | symmetry; apply Hor]. }
  assert (N1 : NoDup (order s)) by (eapply Permutation_NoDup; [symmetry; apply Hor | exact Ns]).
  assert (N2 : NoDup (order t)) by (eapply Permutation_NoDup; [symmetry; apply Hor | exact Nt]).
  split.
  - intros ->. destruct (c51_near_sound _ _ _ Er) as (_ & t' & Pt & F). exists (order s), t'. split; [exact N1 |].
    split; [eapply Permutation_NoDup; [exact Pt | exact N2] |]. split; [intros p; rewrite In1; apply Hv |]. split; [| exact F].
    intros p. rewrite <- Hw, <- In2. split; apply Permutation_in; [symmetry; exact Pt | exact Pt].
  - intros T (l & l' & Nl & Nl' & Hl & Hl' & F).
    assert (P1 : Permutation l (order s)) by (apply permutation_sets; [assumption | assumption |]; intros p; rewrite Hl, In1, Hv; reflexivity).
    assert (P2 : Permutation l' (order t)) by (apply permutation_sets; [assumption | assumption |]; intros p; rewrite Hl', In2, Hw; reflexivity).
    destruct (Permutation_Forall2 P1 F) as (t' & Pt & F').
    assert (X : ps_isNear (order s) (order t) (Some tol) = Ok true).
    { apply (c51_near_complete_partial _ _ t'); [| exact N2 | | |].
      - intros E. assert (Pv : Permutation (order s) v) by (apply permutation_sets; assumption). apply Permutation_length in Pv. rewrite E, Lv in Pv. discriminate.
      - intros q q' Q Q' N. eapply corners_apart; [apply O' | apply O' | apply Hw, In2, Q | apply Hw, In2, Q' | exact N | exact T].
      - rewrite <- P2. exact Pt.
      - exact F'. }
    congruence.
Qed.
