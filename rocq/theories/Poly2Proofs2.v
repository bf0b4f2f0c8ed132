(** Regions, transformations and equality of 2D polygons and multi-polygons (C64, C101, C102). *)

From Coq Require Import List Bool Reals Lra Lia Arith.
From Verif Require Import Result DOrder Vec VecProofs Mat3 AngleModel AngleProofs RotModel RotProofs RotProofs2 TransfModel TransfSpec TransfProofs TransfProofs2 TransfProofs3
  Geo3Types Geo3Model Geo3Proofs Geo3Proofs2 Geo2Model Geo2Spec Geo2Proofs Geo2Proofs2 Poly2Model Poly2Spec Poly2Proofs.
Import ListNotations.
Local Open Scope R_scope.

(** *** Containment *)
Lemma defined_ok P : pg2_isDefined P = true -> pg2_defined P = Ok P.
Proof. intros H. unfold pg2_defined. rewrite H. reflexivity. Qed.
Lemma c101_contains B P x : covers_regions B -> bg_valid B P = true -> pg2_isDefined P = true ->
  exists b, pg2_contains B P (Some x) = Ok b /\ (b = true <-> region P x).
Proof.
  intros C V D. destruct (C P x V) as (b & E & I). exists b. split; [| exact I]. unfold pg2_contains. cbn [needd bind]. rewrite defined_ok by assumption. cbn [bind]. rewrite E. reflexivity.
Qed.
Lemma c101_sets B P s : covers_regions B -> bg_valid B P = true -> pg2_isDefined P = true -> s <> [] ->
  exists b, pg2_contains_ps B P s = Ok b /\ (b = true <-> forall x, In x s -> region P x).
Proof.
  intros C V D N. unfold pg2_contains_ps. replace (ps2_isEmpty s) with false by (destruct s; [congruence | reflexivity]). rewrite defined_ok by assumption. cbn [bind].
  apply (allM_ok (fun x => pg2_contains B P (Some x)) (region P)). intros x _. apply c101_contains; assumption.
Qed.
Lemma c101_lines B P l : covers_lines B -> bg_valid B P = true -> pg2_isDefined P = true -> (2 <= length l)%nat ->
  exists b, pg2_contains_ls B P (map Some l) = Ok b /\ (b = true <-> forall x, on_string2 l x -> region P x).
Proof.
  intros C V D L. destruct (C P l V L) as (b & E & I). exists b. split; [| exact I]. unfold pg2_contains_ls.
  replace (ls2_isDefined (map Some l)) with true by (destruct l; [cbn in L; lia | reflexivity]). cbn [negb]. rewrite defined_ok by assumption. cbn [bind].
  unfold point2. rewrite map_length, (proj2 (Nat.ltb_ge _ _)) by lia. change (list (option v2)) with linestring2. rewrite mapM_needd_some, E. reflexivity.
Qed.
Lemma c101_errors B P x s l p : pg2_contains B P None = Err EUndefined /\ pg2_contains B pg2_Undefined (Some x) = Err EUndefined
  /\ pg2_contains_ps B P [] = Err EUndefined /\ pg2_contains_ls B P [] = Err EUndefined
  /\ (pg2_isDefined P = true -> pg2_contains_ls B P [p] = Err ERuntime)
  /\ (pg2_isDefined P = true -> bg_covered B x P = None -> pg2_contains B P (Some x) = Err ERuntime)
  /\ (s <> [] -> pg2_contains_ps B pg2_Undefined s = Err EUndefined) /\ (l <> [] -> pg2_contains_ls B pg2_Undefined l = Err EUndefined).
Proof.
  repeat split.
  - intros D. unfold pg2_contains_ls. cbn [ls2_isDefined ls2_isEmpty negb]. rewrite defined_ok by assumption. reflexivity.
  - intros D E. unfold pg2_contains. cbn [needd bind]. rewrite defined_ok by assumption. cbn [bind]. rewrite E. reflexivity.
  - intros N. destruct s; [congruence | reflexivity].
  - intros N. destruct l; [congruence | reflexivity].
Qed.

(** *** Transformations *)
Lemma consecutive_map f r : consecutive (map f r) = map (fun e => (f (fst e), f (snd e))) (consecutive r).
Proof.
  induction r as [| a r IH]; [reflexivity |]. destruct r as [| b r]; [reflexivity |]. cbn [map] in *.
  change (consecutive (f a :: f b :: map f r)) with ((f a, f b) :: consecutive (f b :: map f r)). rewrite IH. reflexivity.
Qed.
Lemma closed_map f vs : closed (map f vs) = map f (closed vs).
Proof. destruct vs; [reflexivity |]. cbn. rewrite map_app. reflexivity. Qed.
Lemma turn2_dot th a b : dot2 (turn2 th a) (turn2 th b) = dot2 a b.
Proof.
  pose proof (sc1 th) as S. destruct a as [a1 a2], b as [b1 b2]. unfold turn2. v2unfold.
  transitivity ((cos th * cos th + sin th * sin th) * (a1 * b1 + a2 * b2)); [ring |]. rewrite S. ring.
Qed.
Lemma turn2_cross th a b : cross2 (turn2 th a) (turn2 th b) = cross2 a b.
Proof.
  pose proof (sc1 th) as S. destruct a as [a1 a2], b as [b1 b2]. unfold turn2, cross2. v2unfold.
  transitivity ((cos th * cos th + sin th * sin th) * (a1 * b2 - a2 * b1)); [ring |]. rewrite S. ring.
Qed.
Lemma encloses_map th d r x : encloses (map (map2 th d) r) (map2 th d x) <-> encloses r x.
Proof.
  unfold encloses. rewrite consecutive_map, map_map. rewrite (map_ext _ (subtended x)); [reflexivity |].
  intros [a b]. unfold subtended. cbn [fst snd]. rewrite !map2_sub, turn2_dot, turn2_cross. reflexivity.
Qed.
Lemma on_string_map th d r x : on_string2 (map (map2 th d) r) (map2 th d x) <-> on_string2 r x.
Proof.
  rewrite (image_string2 th d r (map2 th d x)). split; [intros (p & P & E); apply map2_injective in E; subst; exact P | intros P; exists x; split; [exact P | reflexivity]].
Qed.
Lemma region_map th d P x : region (mkPoly2 (map (map2 th d) (p_outer P)) (map (map (map2 th d)) (p_inner P))) (map2 th d x) <-> region P x.
Proof.
  unfold region. cbn [p_outer p_inner]. rewrite on_string_map, encloses_map. split; intros [A C]; (split; [exact A |]).
  - intros r I. rewrite <- (on_string_map th d), <- (encloses_map th d). apply C, in_map, I.
  - intros r I. apply in_map_iff in I. destruct I as (q & <- & I). rewrite on_string_map, encloses_map. apply C, I.
Qed.
Lemma transform_eq th d : forall p, bg_transform (mat2 th d) p = map2 th d p.
Proof. intros [a b]. destruct d as [c e]. unfold bg_transform, mat2, map2, turn2, row3. v2unfold. cbn. apply V2_eq; ring. Qed.
Lemma transform_polygon_eq th d P : bg_transform_polygon (mat2 th d) P = mkPoly2 (map (map2 th d) (p_outer P)) (map (map (map2 th d)) (p_inner P)).
Proof.
  unfold bg_transform_polygon. f_equal; [apply map_ext, transform_eq |]. apply map_ext. intros r. apply map_ext, transform_eq.
Qed.
Lemma sum_ext_app l r : sum (l ++ r) = sum l + sum r.
Proof. induction l as [| a l IH]; cbn [app sum fold_right]; [unfold sum; lra |]. fold (sum (l ++ r)). fold (sum l). rewrite IH. ring. Qed.
Definition crosses (r : list v2) : R := sum (map (fun e => cross2 (fst e) (snd e)) (consecutive r)).
Lemma crosses_cons a b r : crosses (a :: b :: r) = cross2 a b + crosses (b :: r).
Proof. reflexivity. Qed.
Lemma last_cons {A} (b : A) r a : last (b :: r) a = last r b.
Proof. revert b a. induction r as [| c r IH]; intros b a; [reflexivity |]. change (last (c :: r) a = last (c :: r) b). rewrite !IH. reflexivity. Qed.
Lemma sum_cross_map th d r a : crosses (map2 th d a :: map (map2 th d) r) = crosses (a :: r) + cross2 d (sub2 (turn2 th (last r a)) (turn2 th a)).
Proof.
  revert a. induction r as [| b r IH]; intros a.
  - cbn. unfold crosses, cross2. cbn. v2unfold. ring.
  - cbn [map]. rewrite !crosses_cons, IH, last_cons. rewrite <- (turn2_cross th a b). unfold map2. generalize (turn2 th a) (turn2 th b) (turn2 th (last r b)). clear.
    intros [a1 a2] [b1 b2] [c1 c2]. destruct d as [d1 d2]. unfold cross2. v2unfold. ring.
Qed.
Lemma signed_area_map th d vs : signed_area (map (map2 th d) vs) = signed_area vs.
Proof.
  unfold signed_area, cycle. destruct vs as [| f t]; [reflexivity |]. rewrite closed_map, closed_cons. cbn [map]. fold (crosses (map2 th d f :: map (map2 th d) (t ++ [f]))). fold (crosses (f :: t ++ [f])). rewrite sum_cross_map, last_last.
  f_equal. replace (sub2 (turn2 th f) (turn2 th f)) with zero2 by v2ring. unfold cross2. v2unfold. ring.
Qed.
(** A transformed polygon has the transformed vertices, the same senses and the transformed region. *)
Lemma c101_transform m t P outer inner : made2 t -> polygon_of m P outer inner -> exists f P', maps_points2 t f
  /\ (forall p q, dist2 (f p) (f q) = dist2 p q) /\ pg2_apply t P = Ok P'
  /\ P' = mkPoly2 (closed (map f outer)) (map closed (map (map f) inner))
  /\ signed_area (map f outer) = signed_area outer /\ map signed_area (map (map f) inner) = map signed_area inner
  /\ pg2_getVertices P' = Ok (map f (outer ++ concat inner))
  /\ image_of2 f (region P) (region P').
Proof.
  intros H PP. destruct (shaped2_type _ (made2_shaped _ H)) as (ty & th & d & -> & N). destruct (apply_mat2 ty th d) as [A _].
  pose proof (polygon_defined m P _ _ PP) as [D D']. destruct PP as (-> & PR & _ & F).
  exists (map2 th d), (mkPoly2 (closed (map (map2 th d) outer)) (map closed (map (map (map2 th d)) inner))). split; [exact A |]. split; [intros; apply map2_norm |].
  assert (E : pg2_apply (mkT2 ty (Some (mat2 th d))) (mkPoly2 (closed outer) (map closed inner)) = Ok (mkPoly2 (closed (map (map2 th d) outer)) (map closed (map (map (map2 th d)) inner)))).
  { unfold pg2_apply. rewrite isDefined2_type by assumption. cbn [negb]. rewrite D'. cbn [bind]. replace (t2_getMatrix (mkT2 ty (Some (mat2 th d)))) with (Ok (mat2 th d)) by (destruct ty; first [congruence | reflexivity]). cbn [bind].
    rewrite transform_polygon_eq. cbn [p_outer p_inner]. rewrite closed_map. do 2 f_equal. rewrite !map_map. apply map_ext. intros r. symmetry. apply closed_map. }
  split; [exact E |]. split; [reflexivity |]. split; [apply signed_area_map |]. split; [rewrite map_map; apply map_ext; intros; apply signed_area_map |]. split.
  - unfold pg2_getVertices. rewrite defined_ok.
    + cbn [bind]. rewrite (vertices_concat (mkPoly2 (closed (map (map2 th d) outer)) (map closed (map (map (map2 th d)) inner))) (map (map (map2 th d)) inner) eq_refl). cbn [bind p_outer].
      rewrite ring_closed, map_app, concat_map. reflexivity.
    + unfold pg2_isDefined in *. cbn [p_outer] in *. rewrite closed_map, map_length. exact D.
  - assert (G : forall x, region (mkPoly2 (closed (map (map2 th d) outer)) (map closed (map (map (map2 th d)) inner))) (map2 th d x) <-> region (mkPoly2 (closed outer) (map closed inner)) x).
    { intros x. rewrite <- (region_map th d (mkPoly2 (closed outer) (map closed inner))). cbn [p_outer p_inner]. rewrite closed_map. replace (map closed (map (map (map2 th d)) inner)) with (map (map (map2 th d)) (map closed inner)); [reflexivity |].
      rewrite !map_map. apply map_ext. intros r. symmetry. apply closed_map. }
    intros q. split.
    + intros Q. exists (map2 (- th) (opp2 (turn2 (- th) d)) q). assert (M : q = map2 th d (map2 (- th) (opp2 (turn2 (- th) d)) q)) by (symmetry; apply map2_inv_r).
      split; [apply G; rewrite <- M; exact Q | exact M].
    + intros (p & Q & ->). apply G, Q.
Qed.
(** Containment is kept. *)
Lemma c101_transform_contains B m t P outer inner : made2 t -> polygon_of m P outer inner -> covers_regions B -> valid_moves B -> bg_valid B P = true ->
  exists f P', maps_points2 t f /\ pg2_apply t P = Ok P' /\ forall x, pg2_contains B P' (Some (f x)) = pg2_contains B P (Some x).
Proof.
  intros H PP C M V. destruct (c101_transform m t P outer inner H PP) as (f & P' & A & I & E & -> & _ & _ & _ & G). exists f. eexists. split; [exact A |]. split; [exact E |].
  intros x. pose proof (M t P _ H E V) as V'. pose proof (polygon_defined m P _ _ PP) as [D _].
  assert (D' : pg2_isDefined (mkPoly2 (closed (map f outer)) (map closed (map (map f) inner))) = true).
  { destruct PP as (-> & _). unfold pg2_isDefined in *. cbn [p_outer] in *. rewrite closed_map, map_length. exact D. }
  destruct (c101_contains B _ (f x) C V' D') as (b & -> & Bi), (c101_contains B P x C V D) as (c & -> & Ci). f_equal.
  assert (Q : region (mkPoly2 (closed (map f outer)) (map closed (map (map f) inner))) (f x) <-> region P x).
  { rewrite (G (f x)). split; [| intros R; exists x; split; [exact R | reflexivity]]. intros (p & R & Z). replace x with p; [exact R |].
    assert (K : dist2 p x = 0) by (rewrite <- I, <- Z; unfold dist2; replace (sub2 (f x) (f x)) with zero2 by v2ring; unfold norm2; replace (sqnorm2 zero2) with 0 by (v2unfold; ring); apply sqrt_0).
    apply norm2_0, sub2_0 in K. exact K. }
  destruct b, c; try reflexivity; exfalso; [assert (false = true) by (apply Ci, Q, Bi; reflexivity) | assert (false = true) by (apply Bi, Q, Ci; reflexivity)]; discriminate.
Qed.
Lemma c101_transform_errors t P : pg2_apply t2_Undefined P = Err EUndefined /\ pg2_apply t pg2_Undefined = Err EUndefined.
Proof. unfold pg2_apply. destruct (t2_isDefined t); split; reflexivity. Qed.

(** *** C64: equality *)
Lemma c64_polygon B P Q : equal_regions B -> bg_valid B P = true -> bg_valid B Q = true -> pg2_isDefined P = true -> pg2_isDefined Q = true ->
  (pg2_eq B P Q = true <-> forall x, region P x <-> region Q x).
Proof. intros C V W D E. unfold pg2_eq. rewrite D, E. apply C; assumption. Qed.
Lemma c64_multi B a b : equal_multi B -> Forall (fun P => bg_valid B P = true) a -> Forall (fun P => bg_valid B P = true) b -> a <> [] -> b <> [] ->
  (mp2_eq B a b = true <-> forall x, (exists P, In P a /\ region P x) <-> (exists P, In P b /\ region P x)).
Proof.
  intros C V W N M. unfold mp2_eq. replace (mp2_isDefined a) with true by (destruct a; [congruence | reflexivity]). replace (mp2_isDefined b) with true by (destruct b; [congruence | reflexivity]).
  apply C; assumption.
Qed.
(** Points, valid polygons and valid multi-polygons. *)
Lemma c64_reflexive_partial B o : equal_regions B -> equal_multi B -> obj2_isDefined o = true ->
  match o with
  | O2Point _ => True
  | O2Polygon P => bg_valid B P = true
  | O2MultiPolygon a => Forall (fun P => bg_valid B P = true) a
  | _ => False
  end -> obj2_eq B o o = true.
Proof.
  intros C M D V. unfold obj2_eq. rewrite D. destruct o as [p | | | | | P | a |]; try contradiction; cbn [andb].
  - destruct p; [apply v2_eqb_refl | discriminate].
  - cbn in D. apply c64_polygon; try assumption. reflexivity.
  - apply c64_multi; try assumption; try reflexivity; destruct a; try discriminate.
Qed.
(** The other kinds are equal to nothing. *)
Lemma c64_never B a b : kind_compared a = false -> obj2_eq B a b = false /\ obj2_eq B b a = false.
Proof. unfold obj2_eq. destruct a; try discriminate; intros _; destruct b; split; apply andb_false_r. Qed.
Lemma c64_reflexive_refuted B : exists ps l s ls c, Forall (fun o => obj2_isDefined o = true /\ obj2_eq B o o = false) [O2PointSet ps; O2Line l; O2Segment s; O2LineString ls; obj_of_composite2 c].
Proof.
  exists [zero2], (mkLine2 (Some zero2) (Some (V2 1 0))), (mkSeg2 (Some zero2) (Some (V2 1 0))), [Some zero2], (Composite2 [O2Point (Some zero2)]).
  repeat constructor.
Qed.
Lemma c64_symmetric B a b : (forall P Q, bg_equals B P Q = bg_equals B Q P) -> (forall p q, bg_mequals B p q = bg_mequals B q p) -> obj2_eq B a b = obj2_eq B b a.
Proof.
  intros C M. unfold obj2_eq. rewrite (andb_comm (obj2_isDefined a)). f_equal. destruct a, b; try reflexivity.
  - destruct p as [p |], p0 as [q |]; try reflexivity. cbn. destruct (v2_eqb p q) eqn:E, (v2_eqb q p) eqn:F; try reflexivity; [apply v2_eqb_iff in E; apply v2_eqb_false in F | apply v2_eqb_iff in F; apply v2_eqb_false in E]; congruence.
  - unfold pg2_eq. rewrite C, (andb_comm (pg2_isDefined p)). reflexivity.
  - unfold mp2_eq. rewrite M, (andb_comm (mp2_isDefined a)). reflexivity.
Qed.
Lemma objs2_eq_iff B l : forall r, length l = length r -> (objs2_eq B l r = true <-> Forall2 (fun a b => obj2_eq B a b = true) l r).
Proof.
  induction l as [| a l IH]; intros [| b r] L; try discriminate; cbn [objs2_eq]; [split; [constructor | reflexivity] |].
  destruct (obj2_eq B a b) eqn:E; cbn [negb].
  - rewrite IH by (cbn in L; lia). split; [intros; constructor; assumption | intros F; inversion F; assumption].
  - split; [discriminate |]. intros F. inversion F. congruence.
Qed.
Lemma c64_composite B c d : cs2_eq B c d = true <-> cs2_isDefined c = true /\ cs2_isDefined d = true /\ Forall2 (fun a b => obj2_eq B a b = true) (snd c) (snd d).
Proof.
  unfold cs2_eq. destruct (cs2_isDefined c), (cs2_isDefined d); cbn [negb orb]; try (split; [discriminate | intros (? & ? & _); discriminate]).
  destruct (Nat.eqb_spec (length (snd c)) (length (snd d))) as [E | E]; cbn [negb].
  - rewrite objs2_eq_iff by assumption. tauto.
  - split; [discriminate |]. intros (_ & _ & F). apply Forall2_len in F. contradiction.
Qed.
(** A composite with an element of one of the other kinds is not equal to itself. *)
Lemma c64_composite_never B c o : In o (snd c) -> kind_compared o = false -> cs2_eq B c c = false.
Proof.
  intros I K. destruct (cs2_eq B c c) eqn:E; [| reflexivity]. apply c64_composite in E. destruct E as (_ & _ & F). exfalso.
  revert F I. generalize (snd c). intros l F I. assert (G : forall l r, Forall2 (fun a b => obj2_eq B a b = true) l r -> In o l -> False); [| apply (G _ _ F I)].
  clear - K. induction 1 as [| a b l r E F IH]; [intros [] |]. intros [<- | I].
  - rewrite (proj1 (c64_never B a b K)) in E. discriminate.
  - apply IH, I.
Qed.

(** *** C102: multi-polygons *)
Lemma correct_twice m r : 0 <= m -> (3 <= length r)%nat -> 0 <= signed_area r -> bg_correct_inner m (bg_correct_outer m (closed r)) = closed r.
Proof.
  intros M L A. rewrite (correct_outer_of m r) by (first [apply close_closed; [assumption | lia] | assumption]).
  assert (L' : (3 <= length (turned true r))%nat) by (rewrite (same_ring_length _ _ (turned_same true r)); assumption).
  rewrite (correct_inner_of m (turned true r)) by (first [apply close_closed; [assumption | lia] | assumption]). f_equal.
  unfold turned at 2. rewrite (proj2 (Rltb_false (signed_area r) 0)) by lra. cbn [orb]. destruct (Reqb (signed_area r) 0) eqn:E.
  - apply (turned_done false). exact A.
  - apply Reqb_false in E. unfold turned. rewrite signed_area_flip by assumption. rewrite (proj2 (Rltb_true _ _)) by lra. apply flip_flip.
Qed.
Lemma multi_polygon_eq m P outer inner : 0 <= m -> polygon_of m P outer inner -> exists Q, mp2_polygon m P = Ok Q /\ bg_correct m Q = P.
Proof.
  intros M PP. destruct (c100_vertices m P outer inner PP) as (_ & _ & O & N & R & _). unfold mp2_polygon. rewrite O, N. cbn [bind].
  unfold points_of_string. rewrite mapM_needd_some. cbn [bind].
  rewrite (mapM_nth (fun r => bg_correct_outer m (closed r))); [| intros i r I; rewrite (R i r I); cbn [bind]; rewrite mapM_needd_some; reflexivity]. cbn [bind].
  eexists. split; [reflexivity |]. destruct PP as (-> & PR0 & A & F). unfold bg_correct. cbn [p_outer p_inner]. pose proof (proper_length m _ PR0) as L.
  rewrite (correct_outer_of m outer), (turned_done true) by (first [exact A | assumption | apply close_closed; [assumption | lia]]). f_equal. rewrite map_map. apply map_ext_in.
  intros r I. rewrite Forall_forall in F. destruct (F r I) as [PR AR]. apply correct_twice; [assumption | apply (proper_length m), PR | assumption].
Qed.
Lemma from_boost_eq m P outer inner : 0 <= m -> polygon_of m P outer inner -> pg2_from_boost m P = Ok P.
Proof.
  intros M PP. rewrite <- (c100_again m P outer inner M PP). destruct PP as (-> & PR0 & _ & F). unfold pg2_from_boost. cbn [p_outer p_inner].
  assert (G : forall r, r <> [] -> bg_open (closed r) = Ok (map Some r)).
  { intros r N. pose proof (ring_closed r) as E. unfold ring_vertices in E. unfold bg_open. destruct (closed r); [cbn in E; congruence |]. rewrite E. reflexivity. }
  rewrite G by (apply (proper_nonempty m), PR0). cbn [bind]. rewrite (mapM_ok bg_open (fun r => map Some (removelast r))).
  - cbn [bind]. rewrite map_map. rewrite (map_ext (fun x => map Some (removelast (closed x))) (map Some)); [reflexivity |]. intros r. f_equal. apply (ring_closed r).
  - intros r I. apply in_map_iff in I. destruct I as (q & <- & I). rewrite Forall_forall in F. pose proof (proper_nonempty m q (proj1 (F q I))) as N. rewrite (G q N). f_equal. f_equal. symmetry. apply ring_closed.
Qed.
(** The polygons come back. *)
Lemma c102_round_trip m l : 0 <= m -> Forall (fun P => exists outer inner, polygon_of m P outer inner) l -> exists a, MultiPolygon2 m l = Ok a
  /\ (l <> [] -> mp2_isDefined a = true /\ mp2_getPolygonCount a = Ok (length l) /\ mp2_getPolygons m a = Ok l).
Proof.
  intros M F. exists l. split.
  - unfold MultiPolygon2. assert (G : exists q, mapM (mp2_polygon m) l = Ok q /\ map (bg_correct m) q = l).
    { induction F as [| P l (o & i & PP) F IH]; [exists []; split; reflexivity |]. destruct IH as (q & Q & E). destruct (multi_polygon_eq m P o i M PP) as (Z & EZ & CZ).
      exists (Z :: q). cbn [mapM]. rewrite EZ. cbn [bind]. rewrite Q. split; [reflexivity |]. cbn [map]. rewrite CZ, E. reflexivity. }
    destruct G as (q & -> & E). cbn [bind]. rewrite E. reflexivity.
  - intros N. assert (D : mp2_isDefined l = true) by (destruct l; [congruence | reflexivity]). split; [exact D |]. unfold mp2_getPolygonCount, mp2_getPolygons, mp2_defined. rewrite D. cbn [bind].
    split; [reflexivity |]. rewrite (mapM_ok _ (fun P => P)); [rewrite map_id; reflexivity |]. intros P I. rewrite Forall_forall in F. destruct (F P I) as (o & i & PP). apply (from_boost_eq m P o i M PP).
Qed.
Lemma c102_contains B a x : covers_multi B -> Forall (fun P => bg_valid B P = true) a -> a <> [] ->
  exists b, mp2_contains B a (Some x) = Ok b /\ (b = true <-> exists P, In P a /\ region P x).
Proof.
  intros C V N. destruct (C a x V) as (b & E & I). exists b. split; [| exact I]. unfold mp2_contains, mp2_defined. cbn [needd bind].
  replace (mp2_isDefined a) with true by (destruct a; [congruence | reflexivity]). cbn [bind]. rewrite E. reflexivity.
Qed.
(** Sets of points are not implemented. *)
Lemma c102_sets_unimplemented a s : a <> [] -> s <> [] -> mp2_contains_ps a s = Err EToBeImplemented.
Proof. intros N M. destruct a, s; try congruence. reflexivity. Qed.
Lemma c102_sets_refuted : exists a s, mp2_isDefined a = true /\ length s = 1%nat /\ mp2_contains_ps a s = Err EToBeImplemented.
Proof. exists [mkPoly2 [V2 0 0; V2 0 1; V2 1 0; V2 0 0] []], [V2 0 0]. repeat split. Qed.
Lemma c102_transform t a : made2 t -> a <> [] -> exists f a', maps_points2 t f /\ mp2_apply t a = Ok a'
  /\ image_of2 f (fun x => exists P, In P a /\ region P x) (fun x => exists P, In P a' /\ region P x).
Proof.
  intros H N. destruct (shaped2_type _ (made2_shaped _ H)) as (ty & th & d & -> & T). destruct (apply_mat2 ty th d) as [A _].
  exists (map2 th d), (map (bg_transform_polygon (mat2 th d)) a). split; [exact A |]. split.
  - unfold mp2_apply, mp2_defined. replace (t2_getMatrix (mkT2 ty (Some (mat2 th d)))) with (Ok (mat2 th d)) by (destruct ty; first [congruence | reflexivity]). rewrite isDefined2_type by assumption. replace (mp2_isDefined a) with true by (destruct a; [congruence | reflexivity]). reflexivity.
  - intros q. split.
    + intros (P & I & R). apply in_map_iff in I. destruct I as (Q & <- & I). exists (map2 (- th) (opp2 (turn2 (- th) d)) q). assert (M : q = map2 th d (map2 (- th) (opp2 (turn2 (- th) d)) q)) by (symmetry; apply map2_inv_r).
      split; [| exact M]. exists Q. split; [exact I |]. rewrite transform_polygon_eq in R. apply (region_map th d). rewrite <- M. exact R.
    + intros (p & (P & I & R) & ->). exists (bg_transform_polygon (mat2 th d) P). split; [apply in_map, I |]. rewrite transform_polygon_eq. apply region_map, R.
Qed.
Lemma c102_union B m P Q outer inner outer' inner' : 0 <= m -> polygon_of m P outer inner -> polygon_of m Q outer' inner' ->
  pg2_unionWith B m P Q = attempt (bg_union B [P] [Q])
  /\ (forall a b, a <> [] -> b <> [] -> mp2_unionWith B a b = attempt (bg_union B a b)).
Proof.
  intros M PP QQ. split.
  - unfold pg2_unionWith. rewrite (proj1 (polygon_defined m P _ _ PP)), (proj1 (polygon_defined m Q _ _ QQ)). cbn [negb orb]. unfold mp2_Polygon.
    destruct (c102_round_trip m [P] M) as (a & A & _); [constructor; [exists outer, inner; exact PP | constructor] |]. destruct (c102_round_trip m [Q] M) as (b & E & _); [constructor; [exists outer', inner'; exact QQ | constructor] |].
    assert (a = [P]).
    { unfold MultiPolygon2 in A. cbn [mapM] in A. destruct (multi_polygon_eq m P outer inner M PP) as (Z & EZ & CZ). rewrite EZ in A. cbn [bind map] in A. rewrite CZ in A. apply ok2_inj in A. congruence. }
    assert (b = [Q]).
    { unfold MultiPolygon2 in E. cbn [mapM] in E. destruct (multi_polygon_eq m Q outer' inner' M QQ) as (Z & EZ & CZ). rewrite EZ in E. cbn [bind map] in E. rewrite CZ in E. apply ok2_inj in E. congruence. }
    subst. rewrite A, E. cbn [bind]. unfold mp2_unionWith, mp2_defined. cbn [mp2_isDefined bind]. reflexivity.
  - intros a b N K. unfold mp2_unionWith, mp2_defined. destruct a, b; try congruence. reflexivity.
Qed.
(** Hulls: the polygon boost answers. *)
Lemma c102_hull B m P a h outer inner : 0 <= m -> polygon_of m h outer inner -> pg2_isDefined P = true -> a <> [] ->
  (bg_hull B P = Some h -> pg2_getConvexHull B m P = Ok h) /\ (bg_mhull B a = Some h -> mp2_getConvexHull B m a = Ok h)
  /\ (bg_hull B P = None -> pg2_getConvexHull B m P = Err ERuntime).
Proof.
  intros M H D N. pose proof (from_boost_eq m h outer inner M H) as E. unfold pg2_getConvexHull, mp2_getConvexHull, mp2_defined. rewrite defined_ok by assumption.
  replace (mp2_isDefined a) with true by (destruct a; [congruence | reflexivity]). cbn [bind]. split; [intros ->; exact E |]. split; intros ->; [exact E | reflexivity].
Qed.
(** A degenerate polygon cannot be taken out of a multi-polygon. *)
Lemma c102_degenerate_refuted m : 0 <= m -> exists P a, Polygon2 m (map Some [V2 0 0; V2 1 0; V2 0 0]) [] = Ok P /\ MultiPolygon2 m [P] = Ok a /\ mp2_getPolygons m a = Err ERuntime.
Proof.
  intros M. set (r := closed [V2 0 0; V2 1 0]).
  assert (C : bg_correct_outer m r = r).
  { unfold bg_correct_outer. cbn zeta. unfold r. rewrite close_closed by (first [assumption | cbn; lia]). unfold bg_area. cbn [closed app length Nat.ltb Nat.leb]. rewrite (proj2 (Rltb_false _ _)) by lra. reflexivity. }
  exists (mkPoly2 r []), [mkPoly2 r []]. split; [| split].
  - unfold Polygon2, pg2_from_points. cbn [map ls2_isEmpty negb andb length Nat.ltb Nat.leb mapM needd bind pg2_add_inner]. do 2 f_equal. unfold bg_correct. cbn [p_outer p_inner map]. f_equal. exact C.
  - unfold MultiPolygon2. cbn [mapM]. unfold mp2_polygon. replace (pg2_getOuterRing (mkPoly2 r [])) with (Ok (map Some r)) by reflexivity. cbn [bind]. unfold points_of_string. rewrite mapM_needd_some. cbn [bind].
    replace (pg2_getInnerRingCount (mkPoly2 r [])) with (Ok 0%nat) by reflexivity. cbn [bind seq mapM map]. unfold bg_correct. cbn [p_outer p_inner map]. rewrite C. reflexivity.
  - reflexivity.
Qed.
Lemma c102_errors B m a b x s : mp2_contains B a None = Err EUndefined /\ mp2_contains B [] (Some x) = Err EUndefined /\ mp2_contains_ps a [] = Err EUndefined
  /\ (s <> [] -> mp2_contains_ps [] s = Err EUndefined) /\ mp2_getPolygonCount [] = Err EUndefined /\ mp2_getPolygons m [] = Err EUndefined
  /\ mp2_unionWith B a [] = Err EUndefined /\ mp2_unionWith B [] b = Err EUndefined /\ mp2_apply t2_Undefined a = Err EUndefined /\ mp2_eq B [] a = false /\ mp2_eq B a [] = false
  /\ MultiPolygon2 m [pg2_Undefined] = Err EUndefined.
Proof.
  unfold mp2_unionWith, mp2_defined, mp2_eq. rewrite andb_false_r. repeat split.
  - destruct s; [congruence | reflexivity].
  - destruct b; reflexivity.
Qed.
