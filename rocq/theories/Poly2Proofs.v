(** Rings, construction, vertices and edges of 2D polygons (C66, C100). *)

From Coq Require Import List Bool Reals Lra Lia Psatz Arith.
From Verif Require Import Result DOrder Vec VecProofs AngleModel AngleProofs RotModel RotProofs TransfModel Geo3Types Geo3Model Geo3Proofs Geo3Proofs2
  Geo2Model Geo2Spec Geo2Proofs Poly2Model Poly2Spec.
Import ListNotations.
Local Open Scope R_scope.

(** *** Lists *)
Lemma ok2_inj {A} (a b : A) : Ok a = Ok b -> a = b.
Proof. intros H. injection H. trivial. Qed.
Lemma mapM_nth {A B} (f : A -> B) (g : nat -> result B) l : (forall i a, nth_error l i = Some a -> g i = Ok (f a)) -> mapM g (seq 0 (length l)) = Ok (map f l).
Proof.
  intros H. assert (G : forall pre r, l = pre ++ r -> mapM g (seq (length pre) (length r)) = Ok (map f r)).
  { intros pre r. revert pre. induction r as [| a r IH]; intros pre E; [reflexivity |]. cbn [length seq mapM map].
    rewrite (H (length pre) a); [| rewrite E, nth_error_app2, Nat.sub_diag by lia; reflexivity]. cbn [bind].
    specialize (IH (pre ++ [a])). rewrite app_length, Nat.add_1_r in IH. rewrite IH; [reflexivity |]. rewrite <- app_assoc. exact E. }
  exact (G [] l eq_refl).
Qed.
Lemma fold_add {A} (f : A -> nat) l k : fold_left (fun n r => n + f r)%nat l k = (k + list_sum (map f l))%nat.
Proof. revert k. induction l as [| a l IH]; intros k; cbn [fold_left map list_sum fold_right]; [lia |]. rewrite IH. unfold list_sum. lia. Qed.
Lemma closed_cons f t : closed (f :: t) = f :: t ++ [f].
Proof. reflexivity. Qed.
Lemma closed_app vs : vs <> [] -> exists f t, vs = f :: t /\ closed vs = vs ++ [f].
Proof. destruct vs as [| f t]; [congruence |]. intros _. exists f, t. split; reflexivity. Qed.
Lemma closed_length vs : vs <> [] -> length (closed vs) = S (length vs).
Proof. intros H. destruct (closed_app vs H) as (f & t & -> & ->). rewrite app_length. cbn. lia. Qed.
Lemma ring_closed vs : ring_vertices (closed vs) = vs.
Proof. unfold ring_vertices. destruct vs as [| f t]; [reflexivity |]. unfold closed. apply removelast_last. Qed.
Lemma closed_flip vs : rev (closed vs) = closed (flip vs).
Proof. destruct vs as [| f t]; [reflexivity |]. cbn. rewrite rev_app_distr. reflexivity. Qed.
Lemma flip_length vs : length (flip vs) = length vs.
Proof. destruct vs; cbn; [reflexivity |]. rewrite rev_length. reflexivity. Qed.
Lemma flip_flip vs : flip (flip vs) = vs.
Proof. destruct vs; cbn; [reflexivity |]. rewrite rev_involutive. reflexivity. Qed.
Lemma same_ring_length vs ws : same_ring vs ws -> length ws = length vs.
Proof. intros [-> | ->]; [reflexivity | apply flip_length]. Qed.
Lemma consecutive_nth d r : consecutive r = map (fun i => (nth i r d, nth (S i) r d)) (seq 0 (length r - 1)).
Proof.
  induction r as [| a r IH]; [reflexivity |]. destruct r as [| b r]; [reflexivity |]. change (consecutive (a :: b :: r)) with ((a, b) :: consecutive (b :: r)). rewrite IH.
  replace (length (a :: b :: r) - 1)%nat with (S (length (b :: r) - 1)) by (cbn; lia). cbn [seq map]. f_equal.
  rewrite <- seq_shift, map_map. reflexivity.
Qed.
Lemma consecutive_length r : length (consecutive r) = (length r - 1)%nat.
Proof. rewrite (consecutive_nth zero2), map_length, seq_length. reflexivity. Qed.

(** *** Areas *)
Lemma area_sum_app l a b : bg_area_sum (l ++ [a; b]) = bg_area_sum (l ++ [a]) + (x2 a + x2 b) * (y2 a - y2 b).
Proof.
  induction l as [| c l IH]; [cbn; ring |]. destruct l as [| d l]; [cbn; ring |]. cbn [app] in *.
  change (bg_area_sum (c :: d :: l ++ [a; b])) with ((x2 c + x2 d) * (y2 c - y2 d) + bg_area_sum (d :: l ++ [a; b])).
  change (bg_area_sum (c :: d :: l ++ [a])) with ((x2 c + x2 d) * (y2 c - y2 d) + bg_area_sum (d :: l ++ [a])). rewrite IH. ring.
Qed.
Lemma area_sum_rev r : bg_area_sum (rev r) = - bg_area_sum r.
Proof.
  induction r as [| a r IH]; [cbn; ring |]. destruct r as [| b r]; [cbn; ring |].
  cbn [rev] in *. rewrite <- app_assoc. cbn [app]. rewrite area_sum_app, IH. change (bg_area_sum (a :: b :: r)) with ((x2 a + x2 b) * (y2 a - y2 b) + bg_area_sum (b :: r)). ring.
Qed.
Lemma area_rev r : bg_area (rev r) = - bg_area r.
Proof. unfold bg_area. rewrite rev_length, area_sum_rev. destruct Nat.ltb; field. Qed.
Lemma area_sum_cross a r : bg_area_sum (a :: r) = x2 a * y2 a - x2 (last r a) * y2 (last r a) - sum (map (fun e => cross2 (fst e) (snd e)) (consecutive (a :: r))).
Proof.
  revert a. induction r as [| b r IH]; intros a; [cbn; ring |].
  change (bg_area_sum (a :: b :: r)) with ((x2 a + x2 b) * (y2 a - y2 b) + bg_area_sum (b :: r)). rewrite IH.
  assert (L : last (b :: r) a = last r b) by (destruct r as [| c r]; [reflexivity |]; clear; revert b c; induction r as [| d r IH]; intros; [reflexivity |]; cbn in *; apply (IH b)).
  rewrite L. change (consecutive (a :: b :: r)) with ((a, b) :: consecutive (b :: r)). cbn [map fst snd]. change (sum (cross2 a b :: map (fun e => cross2 (fst e) (snd e)) (consecutive (b :: r)))) with (cross2 a b + sum (map (fun e => cross2 (fst e) (snd e)) (consecutive (b :: r)))). replace (cross2 a b) with (x2 a * y2 b - y2 a * x2 b) by reflexivity. ring.
Qed.
Lemma area_closed vs : (3 <= length vs)%nat -> bg_area (closed vs) = - signed_area vs.
Proof.
  intros L. unfold bg_area. assert (N : vs <> []) by (destruct vs; [cbn in L; lia | discriminate]). rewrite closed_length by assumption.
  rewrite (proj2 (Nat.ltb_ge _ _)) by lia. unfold signed_area, cycle. destruct vs as [| f t]; [congruence |]. rewrite closed_cons, area_sum_cross, last_last. field.
Qed.
Lemma signed_area_flip vs : (3 <= length vs)%nat -> signed_area (flip vs) = - signed_area vs.
Proof.
  intros L. assert (E : - signed_area (flip vs) = - bg_area (closed vs)) by (rewrite <- area_closed, <- closed_flip, area_rev by (rewrite ?flip_length; assumption); reflexivity).
  rewrite area_closed in E by assumption. lra.
Qed.

(** *** correct *)
Lemma same_refl m a : 0 <= m -> bg_same_point m a a = true.
Proof.
  intros H. assert (S : forall x, bg_same m x x = true).
  { intros x. unfold bg_same. apply Rleb_iff. replace (x - x) with 0 by ring. rewrite Rabs_R0. apply Rmult_le_pos; [assumption |].
    apply (Rle_trans _ 1); [lra | apply Rmax_l]. }
  unfold bg_same_point. rewrite !S. reflexivity.
Qed.
Lemma proper_length m vs : proper_ring m vs -> (3 <= length vs)%nat.
Proof. intros (f & s & mid & z & -> & _). cbn. rewrite app_length. cbn. lia. Qed.
Lemma proper_nonempty m vs : proper_ring m vs -> vs <> [].
Proof. intros (f & s & mid & z & -> & _). discriminate. Qed.
Lemma proper_flip m vs : proper_ring m vs -> proper_ring m (flip vs).
Proof.
  intros (f & s & mid & z & -> & A & B). exists f, z, (rev mid), s. split; [| split; assumption]. cbn. rewrite rev_app_distr. reflexivity.
Qed.
Lemma close_closed m vs : 0 <= m -> (2 <= length vs)%nat -> bg_close m (closed vs) = closed vs.
Proof.
  intros M L. destruct vs as [| f [| s t]]; [cbn in L; lia | cbn in L; lia |]. cbn [closed app].
  assert (E : exists c r, t ++ [f] = c :: r) by (destruct t; do 2 eexists; reflexivity). destruct E as (c & r & E).
  unfold bg_close. rewrite E at 1. replace (last (f :: s :: t ++ [f]) f) with f by (change (f :: s :: t ++ [f]) with ((f :: s :: t) ++ [f]); rewrite last_last; reflexivity).
  rewrite same_refl by assumption. reflexivity.
Qed.
Lemma close_proper m vs : proper_ring m vs -> bg_close m vs = closed vs.
Proof.
  intros (f & s & mid & z & -> & _ & B). unfold bg_close, closed.
  assert (E : exists c r, mid ++ [z] = c :: r) by (destruct mid; do 2 eexists; reflexivity). destruct E as (c & r & E).
  rewrite E at 1. replace (last (f :: s :: mid ++ [z]) f) with z by (change (f :: s :: mid ++ [z]) with ((f :: s :: mid) ++ [z]); rewrite last_last; reflexivity).
  rewrite B. reflexivity.
Qed.
(** Correcting a closed ring turns it. *)
Definition turned (out : bool) (vs : list v2) : list v2 :=
  if out then if Rltb (signed_area vs) 0 || Reqb (signed_area vs) 0 then vs else flip vs
  else if Rltb (signed_area vs) 0 then flip vs else vs.
Lemma turned_same out vs : same_ring vs (turned out vs).
Proof. unfold turned. destruct out; [destruct (_ || _) | destruct Rltb]; first [left; reflexivity | right; reflexivity]. Qed.
Lemma turned_area (out : bool) vs : (3 <= length vs)%nat -> if out then signed_area (turned out vs) <= 0 else 0 <= signed_area (turned out vs).
Proof.
  intros L. unfold turned. destruct out.
  - destruct (Rltb (signed_area vs) 0) eqn:E; [apply Rltb_true in E; cbn [orb]; lra |]. apply Rltb_false in E. cbn [orb].
    destruct (Reqb (signed_area vs) 0) eqn:F; [apply Reqb_iff in F; lra |]. rewrite signed_area_flip by assumption. lra.
  - destruct (Rltb (signed_area vs) 0) eqn:E; [apply Rltb_true in E; rewrite signed_area_flip by assumption; lra | apply Rltb_false in E; lra].
Qed.
Lemma correct_outer_of m vs r : bg_close m r = closed vs -> (3 <= length vs)%nat -> bg_correct_outer m r = closed (turned true vs).
Proof.
  intros C L. unfold bg_correct_outer, turned. cbn zeta. rewrite C, area_closed by assumption.
  destruct (Rltb (- signed_area vs) 0) eqn:E.
  - apply Rltb_true in E. rewrite (proj2 (Rltb_false _ _)) by lra. rewrite (proj2 (Reqb_false _ _)) by lra. apply closed_flip.
  - apply Rltb_false in E. destruct (Rltb (signed_area vs) 0) eqn:F; [reflexivity |]. apply Rltb_false in F. rewrite (proj2 (Reqb_iff _ _)) by lra. reflexivity.
Qed.
Lemma correct_inner_of m vs r : bg_close m r = closed vs -> (3 <= length vs)%nat -> bg_correct_inner m r = closed (turned false vs).
Proof.
  intros C L. unfold bg_correct_inner, turned. cbn zeta. rewrite C, area_closed by assumption.
  destruct (Rltb 0 (- signed_area vs)) eqn:E.
  - apply Rltb_true in E. rewrite (proj2 (Rltb_true _ _)) by lra. apply closed_flip.
  - apply Rltb_false in E. rewrite (proj2 (Rltb_false _ _)) by lra. reflexivity.
Qed.
Lemma turned_done (out : bool) vs : (if out then signed_area vs <= 0 else 0 <= signed_area vs) -> turned out vs = vs.
Proof.
  intros H. unfold turned. destruct out.
  - destruct (Rltb (signed_area vs) 0) eqn:E; [reflexivity |]. apply Rltb_false in E. rewrite (proj2 (Reqb_iff _ _)) by lra. reflexivity.
  - rewrite (proj2 (Rltb_false _ _)) by lra. reflexivity.
Qed.

(** *** Construction *)
Lemma proper_points m vs : proper_ring m vs -> negb (ls2_isEmpty (map Some vs)) && Nat.ltb (@length point2 (map Some vs)) 3 = false /\ Nat.ltb (@length point2 (map Some vs)) 3 = false.
Proof. intros H. apply proper_length in H. unfold point2. rewrite map_length, (proj2 (Nat.ltb_ge _ _)) by lia. split; [apply andb_false_r | reflexivity]. Qed.
Lemma add_inner_ok m outer done : forall rings, 0 <= m -> (3 <= length outer)%nat -> signed_area outer <= 0
  -> Forall (fun r => (3 <= length r)%nat /\ 0 <= signed_area r) done -> Forall (proper_ring m) rings ->
  pg2_add_inner m (mkPoly2 (closed outer) (map closed done)) (map (map Some) rings) = Ok (mkPoly2 (closed outer) (map closed (done ++ map (turned false) rings))).
Proof.
  intros rings M. revert done. induction rings as [| r rings IH]; intros done Lo Ao D P; cbn [map pg2_add_inner].
  - rewrite app_nil_r. reflexivity.
  - inversion P as [| ? ? Pr P']; subst. rewrite (proj2 (proper_points m r Pr)), mapM_needd_some. cbn [bind p_outer p_inner]. unfold bg_correct. cbn [p_outer p_inner].
    rewrite (correct_outer_of m outer), turned_done by (try apply close_closed; first [assumption | lia]).
    assert (E : map (bg_correct_inner m) (map closed done ++ [r]) = map closed (done ++ [turned false r])).
    { rewrite !map_app, map_map. f_equal.
      - apply map_ext_in. intros q Q. rewrite Forall_forall in D. destruct (D q Q) as [Lq Aq].
        rewrite (correct_inner_of m q), turned_done by (try apply close_closed; first [assumption | lia]). reflexivity.
      - cbn [map]. f_equal. apply correct_inner_of; [apply close_proper, Pr | apply (proper_length m), Pr]. }
    rewrite E, IH; try assumption.
    + rewrite <- app_assoc. reflexivity.
    + apply Forall_app. split; [exact D |]. constructor; [| constructor]. pose proof (proper_length m r Pr) as L. split; [rewrite (same_ring_length _ _ (turned_same false r)); exact L | apply (turned_area false r L)].
Qed.
Lemma polygon_made m outer inner : 0 <= m -> proper_ring m outer -> Forall (proper_ring m) inner ->
  Polygon2 m (map Some outer) (map (map Some) inner) = Ok (mkPoly2 (closed (turned true outer)) (map closed (map (turned false) inner))).
Proof.
  intros M P Q. unfold Polygon2, pg2_from_points. rewrite (proj1 (proper_points m outer P)), mapM_needd_some. cbn [bind]. unfold bg_correct. cbn [p_outer p_inner map].
  pose proof (proper_length m outer P) as L. rewrite (correct_outer_of m outer) by (first [apply close_proper, P | assumption]).
  apply (add_inner_ok m (turned true outer) []); [assumption | rewrite (same_ring_length _ _ (turned_same true outer)); exact L | apply (turned_area true outer L) | constructor | assumption].
Qed.
Lemma proper_turned m out vs : proper_ring m vs -> proper_ring m (turned out vs).
Proof. intros P. destruct (turned_same out vs) as [-> | ->]; [exact P | apply proper_flip, P]. Qed.
Lemma c100_construct m outer inner : 0 <= m -> proper_ring m outer -> Forall (proper_ring m) inner ->
  exists p outer' inner', Polygon2 m (map Some outer) (map (map Some) inner) = Ok p /\ polygon_of m p outer' inner'
    /\ same_ring outer outer' /\ Forall2 same_ring inner inner'.
Proof.
  intros M P Q. do 3 eexists. split; [apply polygon_made; assumption |]. split; [split; [reflexivity |] | split; [apply turned_same |]].
  - split; [apply proper_turned, P |]. split; [apply (turned_area true), (proper_length m), P |].
    rewrite Forall_map. eapply Forall_impl; [| exact Q]. intros r R. split; [apply proper_turned, R | apply (turned_area false), (proper_length m), R].
  - clear Q. induction inner; cbn [map]; constructor; [apply turned_same | assumption].
Qed.
(** A polygon made from the rings of a polygon is the same. *)
Lemma c100_again m p outer inner : 0 <= m -> polygon_of m p outer inner -> Polygon2 m (map Some outer) (map (map Some) inner) = Ok p.
Proof.
  intros M (-> & P & A & F). rewrite polygon_made; [| assumption | assumption | eapply Forall_impl; [| exact F]; intros r R; apply R].
  rewrite (turned_done true) by exact A. do 3 f_equal. rewrite <- (map_id inner) at 2. apply map_ext_in. intros r R. rewrite Forall_forall in F. apply (turned_done false), F, R.
Qed.
(** The first vertex given again at the end changes nothing. *)
Lemma c100_closed_input m f t : 0 <= m -> proper_ring m (f :: t) -> Polygon2 m (map Some ((f :: t) ++ [f])) [] = Polygon2 m (map Some (f :: t)) [].
Proof.
  intros M P. pose proof (proper_length m _ P) as L. unfold Polygon2, pg2_from_points. rewrite (proj1 (proper_points m _ P)).
  rewrite (proj2 (Nat.ltb_ge _ _)) by (unfold point2; rewrite map_length, app_length; lia). rewrite andb_false_r, !mapM_needd_some. cbn [bind pg2_add_inner]. f_equal.
  unfold bg_correct. cbn [p_outer p_inner map]. f_equal.
  rewrite (correct_outer_of m (f :: t)) by (first [exact L | apply (close_closed m (f :: t)); [assumption | cbn in *; lia]]).
  rewrite (correct_outer_of m (f :: t)) by (first [exact L | apply close_proper, P]). reflexivity.
Qed.
Lemma c100_errors m (l : list point2) inner p a b : In None l -> (3 <= length l)%nat ->
  Polygon2 m l inner = Err EUndefined /\ Polygon2 m [a] inner = Err ERuntime /\ Polygon2 m [a; b] inner = Err ERuntime
  /\ pg2_add_inner m p [[a; b]] = Err ERuntime /\ pg2_add_inner m p [l] = Err EUndefined.
Proof.
  intros H L. pose proof (proj2 (Nat.ltb_ge (length l) 3) L) as T. unfold Polygon2, pg2_from_points. rewrite T, andb_false_r, mapM_needd_none by assumption.
  cbn [bind]. repeat split. cbn [pg2_add_inner]. rewrite T, mapM_needd_none by assumption. reflexivity.
Qed.
(** Three points are accepted when the last one closes the ring: two vertices remain. *)
Lemma c100_degenerate_refuted m : 0 <= m -> exists a b p, a <> b /\ Polygon2 m (map Some [a; b; a]) [] = Ok p /\ pg2_isDefined p = true
  /\ pg2_getVertices p = Ok [a; b] /\ pg2_getVertexCount p = Ok 2%nat.
Proof.
  intros M. exists (V2 0 0), (V2 1 0), (mkPoly2 (closed [V2 0 0; V2 1 0]) []). split; [intros E; injection E; lra |]. split; [| repeat split].
  unfold Polygon2, pg2_from_points. cbn [map ls2_isEmpty negb andb length Nat.ltb Nat.leb mapM needd bind pg2_add_inner]. do 2 f_equal. unfold bg_correct. cbn [p_outer p_inner map].
  f_equal. unfold bg_correct_outer. cbn zeta. change [V2 0 0; V2 1 0; V2 0 0] with (closed [V2 0 0; V2 1 0]). rewrite close_closed by (first [assumption | cbn; lia]).
  unfold bg_area. cbn [closed app length Nat.ltb Nat.leb]. rewrite (proj2 (Rltb_false _ _)) by lra. reflexivity.
Qed.
(** A last vertex taken for the first one is lost. *)
Lemma c100_near_refuted m : 0 < m -> exists l p n, NoDup l /\ length l = 4%nat /\ Polygon2 m (map Some l) [] = Ok p /\ pg2_getVertexCount p = Ok n /\ n = 3%nat.
Proof.
  intros M. set (l := [V2 0 0; V2 0 1; V2 2 2; V2 m 0]). exists l. unfold Polygon2, pg2_from_points.
  assert (C : bg_close m l = l).
  { unfold bg_close, l. cbn [last]. replace (bg_same_point m (V2 0 0) (V2 m 0)) with true; [reflexivity |]. symmetry. unfold bg_same_point. cbn [x2 y2]. apply andb_true_iff.
    unfold bg_same. rewrite !Rleb_iff. replace (0 - m) with (- m) by ring. rewrite Rabs_Ropp, (Rabs_right m) by lra. replace (0 - 0) with 0 by ring. rewrite Rabs_R0. split.
    - rewrite <- (Rmult_1_r m) at 1. apply Rmult_le_compat_l; [lra | apply Rmax_l].
    - apply Rmult_le_pos; [lra |]. apply (Rle_trans _ 1); [lra | apply Rmax_l]. }
  replace (negb (ls2_isEmpty (map Some l)) && Nat.ltb (length (map Some l)) 3) with false by reflexivity. rewrite mapM_needd_some. cbn [bind pg2_add_inner].
  do 2 eexists. split; [| split; [reflexivity |]; split; [reflexivity |]; split; [| reflexivity]].
  - unfold l. repeat constructor; cbn; intros H; repeat (destruct H as [H | H]; [injection H; intros; lra |]); exact H.
  - unfold bg_correct, pg2_getVertexCount, pg2_defined, pg2_isDefined, bg_num_points. cbn [p_outer p_inner map fold_left length].
    unfold bg_correct_outer. cbn zeta. rewrite C. destruct (Rltb (bg_area l) 0); reflexivity.
Qed.

(** *** Vertices *)
Lemma polygon_defined m p outer inner : polygon_of m p outer inner -> pg2_isDefined p = true /\ pg2_defined p = Ok p.
Proof.
  intros (-> & P & _). pose proof (proper_length m _ P) as L. assert (E : pg2_isDefined (mkPoly2 (closed outer) (map closed inner)) = true).
  { unfold pg2_isDefined. cbn [p_outer]. rewrite closed_length by (apply (proper_nonempty m), P). apply Nat.leb_le. lia. }
  split; [exact E |]. unfold pg2_defined. rewrite E. reflexivity.
Qed.
Lemma vertices_concat p inner : p_inner p = map closed inner -> mapM (pg2_inner_at p) (seq 0 (length (p_inner p))) = Ok inner.
Proof.
  intros E. rewrite E. rewrite (mapM_nth ring_vertices).
  - rewrite map_map. f_equal. rewrite <- (map_id inner) at 2. apply map_ext. apply ring_closed.
  - intros i a H. unfold pg2_inner_at. rewrite E, H. reflexivity.
Qed.
Lemma inner_nonempty m inner : Forall (fun r => proper_ring m r /\ 0 <= signed_area r) inner -> Forall (fun r => r <> []) inner.
Proof. apply Forall_impl. intros r R. apply (proper_nonempty m), R. Qed.
Lemma count_closed inner : Forall (fun r : list v2 => r <> []) inner -> list_sum (map (@length v2) (map closed inner)) = (list_sum (map (@length v2) inner) + length inner)%nat.
Proof.
  intros F. induction F as [| r inner R F IH]; [reflexivity |]. unfold list_sum in *. cbn [map fold_right length]. rewrite IH, closed_length by assumption. lia.
Qed.
Lemma num_points_eq outer inner : outer <> [] -> Forall (fun r : list v2 => r <> []) inner ->
  bg_num_points (mkPoly2 (closed outer) (map closed inner)) = (length outer + list_sum (map (@length v2) inner) + (1 + length inner))%nat.
Proof.
  intros O F. unfold bg_num_points. cbn [p_outer p_inner]. rewrite fold_add, closed_length by assumption. rewrite (count_closed inner F). lia.
Qed.
Lemma length_concat_sum {A} (l : list (list A)) : length (concat l) = list_sum (map (@length A) l).
Proof. induction l as [| a l IH]; [reflexivity |]. unfold list_sum in *. cbn [concat map fold_right]. rewrite app_length, IH. reflexivity. Qed.
Lemma c100_vertices m p outer inner : polygon_of m p outer inner ->
  pg2_getVertices p = Ok (outer ++ concat inner)
  /\ pg2_getVertexCount p = Ok (length (outer ++ concat inner))
  /\ pg2_getOuterRing p = Ok (map Some (closed outer))
  /\ pg2_getInnerRingCount p = Ok (length inner)
  /\ (forall i r, nth_error inner i = Some r -> pg2_getInnerRingAt p i = Ok (map Some (closed r)))
  /\ (forall i, (length inner <= i)%nat -> pg2_getInnerRingAt p i = Err ERuntime)
  /\ (forall i v, nth_error outer i = Some v -> pg2_getVertexAt p i = Ok v).
Proof.
  intros H. pose proof (polygon_defined m p _ _ H) as [_ D]. destruct H as (-> & P & _ & F). apply inner_nonempty in F. pose proof (proper_nonempty m _ P) as N.
  unfold pg2_getVertices, pg2_getVertexCount, pg2_getOuterRing, pg2_getInnerRingCount, pg2_getInnerRingAt, pg2_getVertexAt. rewrite !D. cbn [bind].
  rewrite (vertices_concat (mkPoly2 (closed outer) (map closed inner)) inner eq_refl). cbn [bind]. rewrite num_points_eq by assumption. cbn [p_outer p_inner]. rewrite ring_closed, map_length, app_length, length_concat_sum.
  split; [reflexivity |]. split; [f_equal; lia |]. split; [reflexivity |]. split; [reflexivity |]. split; [| split].
  - intros i r E. unfold pg2_inner_at. cbn [p_inner]. rewrite nth_error_map, E. cbn [option_map bind]. rewrite ring_closed. reflexivity.
  - intros i E. unfold pg2_inner_at. cbn [p_inner]. rewrite nth_error_map. apply nth_error_None in E. rewrite E. reflexivity.
  - intros i v E. unfold pg2_vertex_at. rewrite num_points_eq by assumption. cbn [p_outer]. rewrite closed_length by assumption.
    assert (L : (i < length outer)%nat) by (apply nth_error_Some; congruence). rewrite !(proj2 (Nat.leb_gt _ _)) by lia.
    destruct (closed_app outer N) as (f & t & -> & ->). rewrite nth_error_app1 by assumption. rewrite E. reflexivity.
Qed.
(** Past the outer ring: never the vertices of the inner rings, and an index past the last vertex is not always detected. *)
Lemma c100_vertex_at m p outer inner i : polygon_of m p outer inner -> (length outer <= i)%nat ->
  pg2_getVertexAt p i = if Nat.ltb i (length (outer ++ concat inner) + length inner) then Err EToBeImplemented else Err EWrong.
Proof.
  intros H L. pose proof (polygon_defined m p _ _ H) as [_ D]. destruct H as (-> & P & _ & F). apply inner_nonempty in F. pose proof (proper_nonempty m _ P) as N.
  unfold pg2_getVertexAt. rewrite D. cbn [bind]. unfold pg2_vertex_at. rewrite num_points_eq by assumption. cbn [p_outer]. rewrite closed_length, app_length, length_concat_sum by assumption.
  destruct (Nat.ltb_spec i (length outer + list_sum (map (length (A:=v2)) inner) + length inner)).
  - rewrite (proj2 (Nat.leb_gt _ _)) by lia. rewrite (proj2 (Nat.leb_le _ _)) by lia. reflexivity.
  - rewrite (proj2 (Nat.leb_le _ _)) by lia. reflexivity.
Qed.
Lemma all_near_ok tol l : forall r, length l = length r -> exists b, pg2_all_near l r (Some tol) = Ok b /\ (b = true <-> Forall2 (fun p q => dist2 p q <= tol) l r).
Proof.
  induction l as [| p l IH]; intros [| q r] L; try discriminate; cbn [pg2_all_near]; [exists true; split; [reflexivity | split; [constructor | reflexivity]] |].
  unfold p2_isNear. cbn [need bind p2_distanceTo needd]. fold (dist2 p q). destruct (Rleb (dist2 p q) tol) eqn:E.
  - destruct (IH r) as (b & B & Bi); [cbn in L; lia |]. exists b. split; [exact B |]. rewrite Bi. apply Rleb_iff in E. split; [intros; constructor; assumption | intros F; inversion F; assumption].
  - exists false. split; [reflexivity |]. apply Rleb_false in E. split; [discriminate |]. intros F. inversion F. lra.
Qed.
Lemma c100_near m p outer inner q outer' inner' tol : polygon_of m p outer inner -> polygon_of m q outer' inner' ->
  exists b, pg2_isNear p q (Some tol) = Ok b /\ (b = true <-> Forall2 (fun x y => dist2 x y <= tol) (outer ++ concat inner) (outer' ++ concat inner')).
Proof.
  intros H H'. destruct (c100_vertices m p _ _ H) as (V & C & _), (c100_vertices m q _ _ H') as (V' & C' & _).
  unfold pg2_isNear. rewrite (proj2 (polygon_defined m p _ _ H)), (proj2 (polygon_defined m q _ _ H')). cbn [bind need]. rewrite C, C'. cbn [bind].
  destruct (Nat.eqb_spec (length (outer ++ concat inner)) (length (outer' ++ concat inner'))) as [E | E]; cbn [negb].
  - rewrite V, V'. cbn [bind]. apply all_near_ok, E.
  - exists false. split; [reflexivity |]. split; [discriminate |]. intros F. apply Forall2_len in F. contradiction.
Qed.

(** *** C66 *)
Lemma c66_count m p outer inner : polygon_of m p outer inner -> pg2_getEdgeCount p = Ok (length (cycle outer ++ concat (map cycle inner))).
Proof.
  intros H. unfold pg2_getEdgeCount. rewrite (proj2 (polygon_defined m p _ _ H)). cbn [bind]. f_equal. destruct H as (-> & P & _ & F). apply inner_nonempty in F.
  unfold pg2_edge_count, ring_edges. cbn [p_outer p_inner]. rewrite fold_add, app_length, length_concat_sum. unfold cycle. rewrite consecutive_length. f_equal. rewrite !map_map. f_equal.
  apply map_ext. intros r. rewrite consecutive_length. reflexivity.
Qed.
Lemma vertex_closed m p outer inner i : polygon_of m p outer inner -> (i < length outer)%nat -> pg2_vertex_at p i = Ok (nth i (closed outer) zero2).
Proof.
  intros H L. pose proof (c100_vertices m p _ _ H) as (_ & _ & _ & _ & _ & _ & V). unfold pg2_getVertexAt in V. rewrite (proj2 (polygon_defined m p _ _ H)) in V. cbn [bind] in V.
  apply V. destruct H as (_ & P & _). destruct (closed_app outer (proper_nonempty m _ P)) as (f & t & E & ->). rewrite app_nth1 by assumption. apply nth_error_nth'. exact L.
Qed.
Lemma edge_closed m p outer inner i : polygon_of m p outer inner -> (i < length outer)%nat ->
  pg2_edge_at p i = Ok (segment_of (nth i (closed outer) zero2, nth (S i) (closed outer) zero2)).
Proof.
  intros H L. pose proof (c66_count m p _ _ H) as C. unfold pg2_getEdgeCount in C. rewrite (proj2 (polygon_defined m p _ _ H)) in C. cbn [bind] in C. apply ok2_inj in C.
  pose proof (vertex_closed m p _ _ i H L) as V. unfold pg2_edge_at. rewrite C. destruct H as (-> & P & A & F). pose proof (proper_nonempty m _ P) as N.
  assert (E : (length (cycle outer) = length outer)%nat) by (unfold cycle; rewrite consecutive_length, closed_length by assumption; lia).
  rewrite app_length, E. unfold ring_edges. cbn [p_outer]. rewrite closed_length by assumption. rewrite !(proj2 (Nat.leb_gt _ _)) by lia. rewrite V. cbn [bind].
  destruct (Nat.eqb_spec i (S (length outer) - 1 - 1)) as [K | K]; cbn [negb].
  - rewrite (vertex_closed m _ outer inner 0 (conj eq_refl (conj P (conj A F)))) by lia. cbn [bind]. unfold segment_of. cbn [fst snd]. do 3 f_equal.
    destruct (closed_app outer N) as (f & t & E' & ->). replace (S i) with (length outer + 0)%nat by lia. rewrite app_nth2_plus. rewrite E'. reflexivity.
  - rewrite (vertex_closed m _ outer inner (i + 1) (conj eq_refl (conj P (conj A F)))) by lia. cbn [bind]. rewrite Nat.add_1_r. reflexivity.
Qed.
(** Without inner rings: all the edges. *)
Lemma c66_edges_partial m p outer : polygon_of m p outer [] -> pg2_getEdges p = Ok (map segment_of (cycle outer))
  /\ pg2_getEdgeCount p = Ok (length (cycle outer))
  /\ (forall i e, nth_error (cycle outer) i = Some e -> pg2_getEdgeAt p i = Ok (segment_of e))
  /\ (forall i, (length (cycle outer) <= i)%nat -> pg2_getEdgeAt p i = Err EWrong).
Proof.
  intros H. pose proof (proj2 (polygon_defined m p _ _ H)) as D. pose proof (c66_count m p _ _ H) as C. cbn [map concat] in C. rewrite app_nil_r in C.
  assert (N : outer <> []) by (destruct H as (_ & P & _); apply (proper_nonempty m), P).
  assert (E : (length (cycle outer) = length outer)%nat) by (unfold cycle; rewrite consecutive_length, closed_length by assumption; lia).
  assert (K : pg2_edge_count p = length outer) by (unfold pg2_getEdgeCount in C; rewrite D in C; cbn [bind] in C; apply ok2_inj in C; lia).
  unfold pg2_getEdges, pg2_getEdgeAt. rewrite D. cbn [bind]. split; [| split; [exact C | split]].
  - rewrite K. rewrite (mapM_ok _ (fun i => segment_of (nth i (closed outer) zero2, nth (S i) (closed outer) zero2))).
    + f_equal. unfold cycle. rewrite (consecutive_nth zero2), map_map, closed_length by assumption. replace (S (length outer) - 1)%nat with (length outer) by lia. reflexivity.
    + intros i I. apply in_seq in I. apply (edge_closed m p outer []); [exact H | lia].
  - intros i e I. assert (L : (i < length outer)%nat) by (rewrite <- E; apply nth_error_Some; congruence). rewrite (edge_closed m p outer []) by assumption. do 2 f_equal.
    unfold cycle in I. rewrite (consecutive_nth zero2), nth_error_map in I. destruct (nth_error (seq 0 (length (closed outer) - 1)) i) eqn:S; cbn [option_map] in I; [| discriminate].
    assert (n = i) by (apply (nth_error_nth _ _ 0%nat) in S; rewrite seq_nth in S by (rewrite closed_length by assumption; lia); lia). subst. injection I as <-. reflexivity.
  - intros i I. unfold pg2_edge_at. rewrite K. rewrite (proj2 (Nat.leb_le _ _)) by lia. reflexivity.
Qed.
(** With inner rings: the edges of the outer ring only, one by one; never the list. *)
Lemma c66_outer_edges_partial m p outer inner : polygon_of m p outer inner ->
  (forall i e, nth_error (cycle outer) i = Some e -> pg2_getEdgeAt p i = Ok (segment_of e))
  /\ (forall i, (length (cycle outer) <= i < length (cycle outer ++ concat (map cycle inner)))%nat -> pg2_getEdgeAt p i = Err EToBeImplemented)
  /\ (forall i, (length (cycle outer ++ concat (map cycle inner)) <= i)%nat -> pg2_getEdgeAt p i = Err EWrong)
  /\ (inner <> [] -> pg2_getEdges p = Err EToBeImplemented).
Proof.
  intros H. pose proof (proj2 (polygon_defined m p _ _ H)) as D. pose proof (c66_count m p _ _ H) as C.
  assert (N : outer <> []) by (destruct H as (_ & P & _); apply (proper_nonempty m), P).
  assert (E : (length (cycle outer) = length outer)%nat) by (unfold cycle; rewrite consecutive_length, closed_length by assumption; lia).
  assert (K : pg2_edge_count p = length (cycle outer ++ concat (map cycle inner))) by (unfold pg2_getEdgeCount in C; rewrite D in C; cbn [bind] in C; apply ok2_inj in C; exact C).
  assert (T : forall i, (length (cycle outer) <= i < length (cycle outer ++ concat (map cycle inner)))%nat -> pg2_edge_at p i = Err EToBeImplemented).
  { intros i I. unfold pg2_edge_at. rewrite K. rewrite (proj2 (Nat.leb_gt _ _)) by lia. destruct H as (-> & P & _). unfold ring_edges. cbn [p_outer]. rewrite closed_length by assumption.
    rewrite (proj2 (Nat.leb_le _ _)) by lia. reflexivity. }
  unfold pg2_getEdges, pg2_getEdgeAt. rewrite D. cbn [bind]. split; [| split; [exact T | split]].
  - intros i e I. assert (L : (i < length outer)%nat) by (rewrite <- E; apply nth_error_Some; congruence). rewrite (edge_closed m p outer inner) by assumption. do 2 f_equal.
    unfold cycle in I. rewrite (consecutive_nth zero2), nth_error_map in I. destruct (nth_error (seq 0 (length (closed outer) - 1)) i) eqn:S; cbn [option_map] in I; [| discriminate].
    assert (n = i) by (apply (nth_error_nth _ _ 0%nat) in S; rewrite seq_nth in S by (rewrite closed_length by assumption; lia); lia). subst. injection I as <-. reflexivity.
  - intros i I. unfold pg2_edge_at. rewrite K. rewrite (proj2 (Nat.leb_le _ _)) by lia. reflexivity.
  - intros I. rewrite K. set (n := length (cycle outer)) in *. assert (Q : exists k, length (cycle outer ++ concat (map cycle inner)) = (n + S k)%nat).
    { rewrite app_length. fold n. destruct inner as [| r inner]; [congruence |]. cbn [map concat]. rewrite app_length. destruct H as (_ & _ & _ & F). inversion F as [| ? ? [R _] _]; subst.
      pose proof (proper_length m r R) as L. unfold cycle at 1. rewrite consecutive_length, closed_length by (apply (proper_nonempty m), R).
      exists (S (length r) - 1 - 1 + length (concat (map cycle inner)))%nat. lia. }
    destruct Q as (k & Q). rewrite Q, seq_app.
    assert (G : forall l r e, (forall i, In i l -> exists s, pg2_edge_at p i = Ok s) -> mapM (pg2_edge_at p) r = Err e -> mapM (pg2_edge_at p) (l ++ r) = Err e).
    { clear. intros l r e O R. induction l as [| i l IH]; [exact R |]. cbn [app mapM]. destruct (O i) as (s & ->); [left; reflexivity |]. cbn [bind]. rewrite IH; [reflexivity |]. intros j J. apply O. right. exact J. }
    apply G.
    + intros i J. apply in_seq in J. eexists. apply (edge_closed m p outer inner); [exact H | lia].
    + cbn [seq mapM]. rewrite T by lia. reflexivity.
Qed.
