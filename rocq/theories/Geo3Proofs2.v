(** Point sets, equality, containment in planes, line strings (C51, C84, C86, C87). *)

From Coq Require Import List Bool Reals Lra Lia Psatz Permutation.
From Verif Require Import Result DOrder Vec VecProofs AngleModel AngleProofs RotModel RotProofs TransfModel Geo3Types Geo3Model Geo3Spec Geo3Proofs.
Import ListNotations.
Local Open Scope R_scope.

(** *** C51 *)
Lemma ps_mem_iff p s : ps_mem p s = true <-> In p s.
Proof.
  unfold ps_mem. rewrite existsb_exists. split.
  - intros (x & H & E). apply v3_eqb_iff in E. subst. exact H.
  - intros H. exists p. split; [exact H | apply v3_eqb_refl].
Qed.
Lemma ps_insert_in s p q : In q (ps_insert s p) <-> In q s \/ q = p.
Proof.
  unfold ps_insert. destruct (ps_mem p s) eqn:E.
  - apply ps_mem_iff in E. split; [tauto |]. intros [H | ->]; assumption.
  - rewrite in_app_iff. cbn. intuition congruence.
Qed.
Lemma ps_insert_nodup s p : NoDup s -> NoDup (ps_insert s p).
Proof.
  intros H. unfold ps_insert. destruct (ps_mem p s) eqn:E; [exact H |].
  apply (Permutation_NoDup (l := p :: s)); [apply Permutation_cons_append |]. constructor; [| exact H].
  intros K. apply ps_mem_iff in K. congruence.
Qed.
Lemma ps_fold l s : NoDup s -> NoDup (fold_left ps_insert l s) /\ forall q, In q (fold_left ps_insert l s) <-> In q s \/ In q l.
Proof.
  revert s. induction l as [| p l IH]; intros s H; cbn [fold_left].
  - split; [exact H |]. cbn. tauto.
  - destruct (IH (ps_insert s p) (ps_insert_nodup s p H)) as [A B]. split; [exact A |]. intros q. rewrite B, ps_insert_in. cbn. intuition congruence.
Qed.
Lemma mapM_needd_some {A} (l : list A) : mapM needd (map Some l) = Ok l.
Proof. induction l as [| x l IH]; [reflexivity |]. cbn. rewrite IH. reflexivity. Qed.
Lemma mapM_needd_none {A} (l : list (option A)) : In None l -> mapM needd l = Err EUndefined.
Proof. induction l as [| [x |] l IH]; cbn; [tauto | | reflexivity]. intros [H | H]; [discriminate |]. rewrite IH by assumption. reflexivity. Qed.
Lemma c51_construct l : exists s, PointSet (map Some l) = Ok s /\ NoDup s /\ (forall p, In p s <-> In p l).
Proof.
  unfold PointSet. rewrite mapM_needd_some. cbn [bind]. eexists. split; [reflexivity |].
  destruct (ps_fold l [] (NoDup_nil _)) as [A B]. split; [exact A |]. intros p. rewrite B. cbn. tauto.
Qed.
Lemma c51_construct_undefined l : In None l -> PointSet l = Err EUndefined.
Proof. intros H. unfold PointSet. rewrite mapM_needd_none by assumption. reflexivity. Qed.
Lemma c51_equal s t : NoDup s -> NoDup t -> (ps_eq s t = true <-> forall p, In p s <-> In p t).
Proof.
  intros Hs Ht. unfold ps_eq. rewrite andb_true_iff, Nat.eqb_eq, forallb_forall. split.
  - intros [L H] p. assert (I : incl s t) by (intros x Hx; apply ps_mem_iff, H, Hx). split; [apply I |].
    apply (NoDup_length_incl Hs); [lia | exact I].
  - intros H. split.
    + apply Permutation_length, NoDup_Permutation; assumption.
    + intros p Hp. apply ps_mem_iff, H, Hp.
Qed.
Lemma closest_from_spec p l best : exists q, closest_from p best (sqnorm3 (sub3 best p)) l = q /\ (q = best \/ In q l)
  /\ sqnorm3 (sub3 q p) <= sqnorm3 (sub3 best p) /\ forall x, In x l -> sqnorm3 (sub3 q p) <= sqnorm3 (sub3 x p).
Proof.
  revert best. induction l as [| y l IH]; intros best; cbn [closest_from].
  - exists best. split; [reflexivity |]. split; [left; reflexivity |]. split; [lra | intros _ []].
  - destruct (Rltb (sqnorm3 (sub3 y p)) (sqnorm3 (sub3 best p))) eqn:E.
    + apply Rltb_true in E. destruct (IH y) as (q & Q & A & B & C). exists q. split; [exact Q |]. split.
      * right. destruct A as [-> | A]; [left; reflexivity | right; exact A].
      * split; [lra |]. intros x [<- | H]; [exact B | apply C, H].
    + apply Rltb_false in E. destruct (IH best) as (q & Q & A & B & C). exists q. split; [exact Q |]. split.
      * destruct A as [-> | A]; [left; reflexivity | right; right; exact A].
      * split; [exact B |]. intros x [<- | H]; [lra | apply C, H].
Qed.
Lemma c51_closest s p : s <> [] -> exists q, ps_getPointClosestTo s (Some p) = Ok q /\ In q s /\ forall x, In x s -> dist3 p q <= dist3 p x.
Proof.
  destruct s as [| b l]; [congruence |]. intros _. destruct (closest_from_spec p l b) as (q & Q & A & B & C).
  exists q. cbn. rewrite Q. split; [reflexivity |]. split; [destruct A as [-> | A]; [left; reflexivity | right; exact A] |].
  intros x H. rewrite !(dist3_sym p). apply norm3_le. destruct H as [<- | H]; [exact B | apply C, H].
Qed.
Lemma c51_closest_errors s p : ps_getPointClosestTo [] (Some p) = Err EUndefined /\ ps_getPointClosestTo s None = Err EUndefined.
Proof. split; reflexivity. Qed.
Lemma take_near_some p tol t t' : ps_take_near p (Some tol) t = Ok (Some t') ->
  exists l q r, t = l ++ q :: r /\ t' = l ++ r /\ dist3 p q <= tol.
Proof.
  revert t'. induction t as [| q r IH]; intros t'; cbn; [discriminate |].
  destruct (Rleb (norm3 (sub3 p q)) tol) eqn:E.
  - intros H. injection H as <-. apply Rleb_iff in E. exists [], q, r. repeat split. exact E.
  - destruct (ps_take_near p (Some tol) r) as [[r' |] | |]; cbn [bind]; try discriminate.
    intros H. injection H as <-. destruct (IH r' eq_refl) as (l & x & y & -> & -> & D). exists (q :: l), x, y. repeat split. exact D.
Qed.
Lemma take_near_ok p tol t : exists o, ps_take_near p (Some tol) t = Ok o /\ (o = None -> forall q, In q t -> tol < dist3 p q).
Proof.
  induction t as [| q r IH]; cbn; [eexists; split; [reflexivity | intros _ _ []] |].
  destruct (Rleb (norm3 (sub3 p q)) tol) eqn:E; [eexists; split; [reflexivity | discriminate] |].
  destruct IH as (o & O & N). rewrite O. cbn [bind]. destruct o as [r' |]; eexists; (split; [reflexivity |]); [discriminate |].
  intros _ x [<- | H]; [apply Rleb_false in E; exact E | apply N; [reflexivity | exact H]].
Qed.
Lemma match_near_sound tol s : forall t, length s = length t -> ps_match_near s (Some tol) t = Ok true ->
  exists t', Permutation t t' /\ Forall2 (fun p q => dist3 p q <= tol) s t'.
Proof.
  induction s as [| p r IH]; intros t L; cbn [ps_match_near].
  - intros _. destruct t; [| discriminate]. exists []. split; constructor.
  - destruct (take_near_ok p tol t) as (o & O & _). rewrite O. cbn [bind]. destruct o as [t1 |]; [| discriminate].
    destruct (take_near_some _ _ _ _ O) as (l & q & x & -> & -> & D). intros H.
    assert (L' : length r = length (l ++ x)) by (rewrite app_length in L |- *; cbn in L; lia). destruct (IH _ L' H) as (t' & P & F).
    exists (q :: t'). split; [| constructor; assumption]. rewrite <- Permutation_middle. apply perm_skip, P.
Qed.
Lemma c51_near_sound s t tol : ps_isNear s t (Some tol) = Ok true ->
  s <> [] /\ exists t', Permutation t t' /\ Forall2 (fun p q => dist3 p q <= tol) s t'.
Proof.
  unfold ps_isNear. destruct s as [| p r]; [discriminate |]. destruct t as [| q u]; [discriminate |]. cbn [ps_isEmpty orb].
  destruct (Nat.eqb (length (p :: r)) (length (q :: u))) eqn:E; [| discriminate]. cbn [negb]. apply Nat.eqb_eq in E. intros H.
  split; [discriminate |]. apply (match_near_sound tol _ _ E H).
Qed.
Lemma c51_near_answers s t tol : exists b, ps_isNear s t (Some tol) = Ok b.
Proof.
  unfold ps_isNear. destruct (_ || _); [eexists; reflexivity |]. destruct (negb _); [eexists; reflexivity |]. clear. revert t.
  induction s as [| p r IH]; intros t; cbn [ps_match_near]; [eexists; reflexivity |].
  destruct (take_near_ok p tol t) as (o & O & _). rewrite O. cbn [bind]. destruct o; [apply IH | eexists; reflexivity].
Qed.
(** Complete when no two points of the second set are within twice the tolerance. *)
Lemma dist3_triangle p q r : dist3 p r <= dist3 p q + dist3 q r.
Proof. unfold dist3. replace (sub3 p r) with (add3 (sub3 p q) (sub3 q r)) by v3ring. apply norm3_triangle. Qed.
Lemma NoDup_remove' {A} (l : list A) q r : NoDup (l ++ q :: r) -> NoDup (l ++ r).
Proof. apply NoDup_remove_1. Qed.
Lemma match_near_complete tol s : forall t t', NoDup t -> (forall q q', In q t -> In q' t -> q <> q' -> 2 * tol < dist3 q q') ->
  Permutation t t' -> Forall2 (fun p q => dist3 p q <= tol) s t' -> ps_match_near s (Some tol) t = Ok true.
Proof.
  induction s as [| p r IH]; intros t t' N S P F; cbn [ps_match_near]; [reflexivity |].
  inversion F as [| ? q ? t1 D F1]; subst. assert (Q : In q t) by (apply (Permutation_in q (Permutation_sym P)); left; reflexivity).
  destruct (take_near_ok p tol t) as (o & O & Z). rewrite O. cbn [bind]. destruct o as [u |].
  - destruct (take_near_some _ _ _ _ O) as (l & x & y & -> & -> & Dx).
    assert (x = q).
    { destruct (v3_eq_dec x q) as [| E]; [assumption | exfalso]. assert (X : In x (l ++ x :: y)) by (apply in_app_iff; right; left; reflexivity).
      pose proof (S x q X Q E). pose proof (dist3_triangle x p q). rewrite (dist3_sym x p) in *. lra. }
    subst x. apply (IH _ t1).
    + apply NoDup_remove_1 in N. exact N.
    + intros a b Ha Hb. apply S; apply in_app_iff; [apply in_app_iff in Ha | apply in_app_iff in Hb]; cbn; tauto.
    + apply (Permutation_cons_inv (a := q)). rewrite Permutation_middle. exact P.
    + exact F1.
  - specialize (Z eq_refl q Q). lra.
Qed.
Lemma Forall2_len {A B} (P : A -> B -> Prop) l m : Forall2 P l m -> length l = length m.
Proof. induction 1; cbn; congruence. Qed.
Lemma c51_near_complete_partial s t t' tol : s <> [] -> NoDup t -> (forall q q', In q t -> In q' t -> q <> q' -> 2 * tol < dist3 q q') ->
  Permutation t t' -> Forall2 (fun p q => dist3 p q <= tol) s t' -> ps_isNear s t (Some tol) = Ok true.
Proof.
  intros Hs N S P F. unfold ps_isNear. assert (L : length s = length t) by (rewrite (Permutation_length P); apply (Forall2_len _ _ _ F)).
  destruct s as [| p r]; [congruence |]. destruct t as [| q u]; [discriminate |]. cbn [ps_isEmpty orb]. rewrite L, Nat.eqb_refl. cbn [negb].
  apply (match_near_complete tol _ _ t' N S P F).
Qed.
(** The first near point is taken, so the answer depends on the iteration order. *)
Lemma dist3_x a b : dist3 (V3 a 0 0) (V3 b 0 0) = Rabs (a - b).
Proof. unfold dist3, norm3. v3unfold. rewrite <- sqrt_Rsqr_abs. f_equal. unfold Rsqr. ring. Qed.
Lemma c51_near_refuted : exists s s' t t' tol, NoDup s /\ NoDup t /\ Permutation s s' /\ Permutation t t'
  /\ Forall2 (fun p q => dist3 p q <= tol) s t' /\ ps_isNear s t (Some tol) = Ok false /\ ps_isNear s' t (Some tol) = Ok true.
Proof.
  exists [V3 0 0 0; V3 2 0 0], [V3 2 0 0; V3 0 0 0], [V3 1 0 0; V3 (-1) 0 0], [V3 (-1) 0 0; V3 1 0 0], 1.
  assert (N : forall a b, a <> b -> NoDup [V3 a 0 0; V3 b 0 0]).
  { intros a b H. constructor; [intros [E | []]; congruence |]. constructor; [intros [] | constructor]. }
  split; [apply N; lra |]. split; [apply N; lra |]. split; [apply perm_swap |]. split; [apply perm_swap |].
  assert (E : forall a b, norm3 (sub3 (V3 a 0 0) (V3 b 0 0)) = Rabs (a - b)) by apply dist3_x.
  assert (T : forall a b, Rabs (a - b) <= 1 -> Rleb (norm3 (sub3 (V3 a 0 0) (V3 b 0 0))) 1 = true) by (intros; rewrite E; apply Rleb_t; assumption).
  assert (G : forall a b, 1 < Rabs (a - b) -> Rleb (norm3 (sub3 (V3 a 0 0) (V3 b 0 0))) 1 = false) by (intros; rewrite E; apply Rleb_f; assumption).
  split; [repeat constructor; rewrite dist3_x; unfold Rabs; destruct Rcase_abs; lra |]. 
  assert (NT : forall a b, Rabs (a - b) <= 1 -> pt_isNear (Some (V3 a 0 0)) (Some (V3 b 0 0)) (Some 1) = Ok true)
    by (intros a b H; unfold pt_isNear, pt_distanceTo; cbn [needd need bind]; rewrite (T a b H); reflexivity).
  assert (NF : forall a b, 1 < Rabs (a - b) -> pt_isNear (Some (V3 a 0 0)) (Some (V3 b 0 0)) (Some 1) = Ok false)
    by (intros a b H; unfold pt_isNear, pt_distanceTo; cbn [needd need bind]; rewrite (G a b H); reflexivity).
  unfold ps_isNear. cbn [ps_isEmpty orb length Nat.eqb negb ps_match_near ps_take_near].
  rewrite (NT 0 1), (NT 2 1) by (unfold Rabs; destruct Rcase_abs; lra). cbn [bind ps_take_near ps_match_near].
  rewrite (NT 0 (-1)), (NF 2 (-1)) by (unfold Rabs; destruct Rcase_abs; lra). split; reflexivity.
Qed.

(** *** C84 *)
Lemma scale3_0 k d : scale3 k d = zero3 -> k = 0 \/ d = zero3.
Proof.
  intros H. destruct (Req_dec k 0) as [| K]; [left; assumption | right]. apply (f_equal (scale3 (/ k))) in H.
  rewrite scale3_scale, Rinv_l, scale3_1 in H by assumption. rewrite H. v3ring.
Qed.
Lemma unit_nonzero d : sqnorm3 d = 1 -> d <> zero3.
Proof. intros U. apply sqnorm3_pos. lra. Qed.
Lemma unit_parallel d d' k : sqnorm3 d = 1 -> sqnorm3 d' = 1 -> d' = scale3 k d -> d = d' \/ d = opp3 d'.
Proof.
  intros U U' ->. rewrite sqnorm3_scale, U in U'. assert (K : (k - 1) * (k + 1) = 0) by lra. apply Rmult_integral in K. destruct K as [K | K].
  - left. assert (k = 1) by lra. subst. rewrite scale3_1. reflexivity.
  - right. assert (k = -1) by lra. subst. rewrite opp3_scale, scale3_scale. replace (-1 * -1) with 1 by ring. rewrite scale3_1. reflexivity.
Qed.
Lemma c84_line a b o d o' d' : good_line a o d -> good_line b o' d' ->
  exists r, l_eq a b = Ok r /\ (r = true <-> same_points (on_line o d) (on_line o' d')).
Proof.
  intros [-> U] [-> U']. unfold l_eq, l_data. cbn [l_origin l_direction].
  destruct (c50_line (mkLine (Some o) (Some d)) o d o' eq_refl (unit_nonzero d U)) as (c & C & Ci).
  destruct (v3_eqb d d' || v3_eqb d (opp3 d')) eqn:E.
  - exists c. split; [exact C |]. rewrite Ci. apply orb_true_iff in E. rewrite !v3_eqb_iff in E.
    assert (K : exists k, k * k = 1 /\ d = scale3 k d').
    { destruct E as [-> | ->]; [exists 1; split; [ring | rewrite scale3_1; reflexivity] | exists (-1); split; [ring | apply opp3_scale]]. }
    destruct K as (k & K2 & K). split.
    + intros (u & Hu). intros p. split; intros (t & ->).
      * exists (k * (t - u)). rewrite Hu. unfold along. rewrite K. v3ring.
      * exists (u + k * t). rewrite Hu. unfold along. rewrite K.
        replace (scale3 (u + k * t) (scale3 k d')) with (add3 (scale3 (u * k) d') (scale3 (k * k * t) d')) by v3ring. rewrite K2. v3ring.
    + intros S. apply S. exists 0. rewrite along_0. reflexivity.
  - exists false. split; [reflexivity |]. split; [discriminate |]. intros S. exfalso.
    destruct (proj2 (S o')) as (t & T); [exists 0; rewrite along_0; reflexivity |].
    destruct (proj2 (S (along o' 1 d'))) as (t1 & T1); [exists 1; reflexivity |].
    assert (K : d' = scale3 (t1 - t) d).
    { transitivity (sub3 (along o' 1 d') o'); [unfold along; v3ring |]. rewrite T1. rewrite T at 1. unfold along. v3ring. }
    apply (unit_parallel d d') in K; [| assumption | assumption]. apply orb_false_iff in E. rewrite !v3_eqb_false in E. tauto.
Qed.
Lemma c84_ray a b o d o' d' : good_ray a o d -> good_ray b o' d' -> (r_eq a b = true <-> same_points (on_ray o d) (on_ray o' d')).
Proof.
  intros [-> U] [-> U']. cbn. rewrite andb_true_iff, !v3_eqb_iff. split.
  - intros [-> ->]. intros p. reflexivity.
  - intros S. destruct (proj2 (S o')) as (t & Ht & T); [exists 0; rewrite along_0; split; [lra | reflexivity] |].
    destruct (proj1 (S o)) as (u & Hu & V); [exists 0; rewrite along_0; split; [lra | reflexivity] |].
    destruct (proj2 (S (along o' 1 d'))) as (t1 & Ht1 & T1); [exists 1; split; [lra | reflexivity] |].
    assert (K : d' = scale3 (t1 - t) d).
    { transitivity (sub3 (along o' 1 d') o'); [unfold along; v3ring |]. rewrite T1. rewrite T at 1. unfold along. v3ring. }
    assert (Z : scale3 (t + u * (t1 - t)) d = zero3).
    { transitivity (sub3 (along (along o t d) u d') o); [unfold along; rewrite K; v3ring |]. rewrite <- T, <- V. v3ring. }
    apply scale3_0 in Z. destruct Z as [Z | Z]; [| destruct (unit_nonzero d U Z)].
    assert (N : (t1 - t) * (t1 - t) = 1) by (rewrite K, sqnorm3_scale, U in U'; lra).
    assert (Ex : exists t2, 0 <= t2 /\ along o' (t + 1) d' = along o t2 d) by (apply (proj2 (S _)); exists (t + 1); split; [lra | reflexivity]).
    destruct Ex as (t2 & Ht2 & T2).
    assert (Z2 : scale3 (t2 - t - (t + 1) * (t1 - t)) d = zero3).
    { transitivity (sub3 (along o t2 d) (along (along o t d) (t + 1) d')); [unfold along; rewrite K; v3ring |]. rewrite <- T, <- T2. v3ring. }
    apply scale3_0 in Z2. destruct Z2 as [Z2 | Z2]; [| destruct (unit_nonzero d U Z2)].
    assert (k1 : t1 - t = 1). { assert (Q : (t1 - t - 1) * (t1 - t + 1) = 0) by lra. apply Rmult_integral in Q. destruct Q as [Q | Q]; [lra |]. exfalso. replace (t1 - t) with (-1) in Z2 by lra. lra. }
    rewrite k1 in *. assert (t = 0) by lra. subst t. rewrite T, along_0, K, scale3_1. split; reflexivity.
Qed.
Lemma on_segment_point a p : on_segment a a p <-> p = a.
Proof.
  split; [intros (t & _ & ->); unfold along; v3ring |]. intros ->. exists 0. rewrite along_0. split; [lra | reflexivity].
Qed.
Lemma on_segment_ends a b : on_segment a b a /\ on_segment a b b.
Proof. split; [exists 0 | exists 1]; (split; [lra |]); unfold along; v3ring. Qed.
Lemma on_segment_swap a b p : on_segment a b p -> on_segment b a p.
Proof. intros (t & Ht & ->). exists (1 - t). split; [lra |]. unfold along. v3ring. Qed.
(** An end point of a segment is extreme. *)
Lemma segment_extreme a b a' b' : on_segment a b a' -> on_segment a b b' -> on_segment a' b' a -> on_segment a' b' b -> a = a' \/ a = b'.
Proof.
  intros (u & Hu & A') (w & Hw & B') (t & Ht & A) Sb.
  destruct (v3_eq_dec a b) as [E | E].
  - left. subst b. rewrite A'. unfold along. v3ring.
  - assert (D : sub3 b a <> zero3) by (intros H; apply sub3_0 in H; congruence).
    assert (Z : scale3 ((1 - t) * u + t * w) (sub3 b a) = zero3).
    { transitivity (sub3 (along (along a u (sub3 b a)) t (sub3 (along a w (sub3 b a)) (along a u (sub3 b a)))) a); [unfold along; v3ring |].
      rewrite <- A', <- B', <- A. v3ring. }
    apply scale3_0 in Z. destruct Z as [Z | Z]; [| contradiction].
    assert (P : (1 - t) * u = 0 /\ t * w = 0) by (split; nra). destruct P as [P Q].
    apply Rmult_integral in P. apply Rmult_integral in Q. destruct P as [P | P].
    + right. rewrite A. replace t with 1 by lra. unfold along. v3ring.
    + left. rewrite A', P, along_0. reflexivity.
Qed.
Lemma c84_segment s t a b a' b' : s = mkSeg (Some a) (Some b) -> t = mkSeg (Some a') (Some b') ->
  (s_eq s t = true <-> same_points (on_segment a b) (on_segment a' b')).
Proof.
  intros -> ->. cbn. rewrite orb_true_iff, !andb_true_iff, !v3_eqb_iff. split.
  - intros [[-> ->] | [-> ->]] p; [reflexivity |]. split; apply on_segment_swap.
  - intros S. destruct (on_segment_ends a b) as [Ea Eb], (on_segment_ends a' b') as [Ea' Eb'].
    pose proof (proj2 (S _) Ea') as A1. pose proof (proj2 (S _) Eb') as B1. pose proof (proj1 (S _) Ea) as C1. pose proof (proj1 (S _) Eb) as D1.
    pose proof (segment_extreme a b a' b' A1 B1 C1 D1) as X.
    pose proof (segment_extreme b a a' b' (on_segment_swap _ _ _ A1) (on_segment_swap _ _ _ B1) D1 C1) as Y.
    destruct X as [X | X], Y as [Y | Y]; try (left; split; assumption); try (right; split; assumption).
    + subst a b. apply on_segment_point in B1. subst b'. left. split; reflexivity.
    + subst a b. apply on_segment_point in A1. subst a'. left. split; reflexivity.
Qed.
Lemma c84_plane a b q n q' n' : good_plane a q n -> good_plane b q' n' ->
  exists r, pl_eq a b = Ok r /\ (r = true <-> same_points (on_plane q n) (on_plane q' n')).
Proof.
  intros [-> U] [-> U']. unfold pl_eq, pl_data. cbn [pl_point pl_normal].
  assert (C : pl_contains (mkPlane (Some q) (Some n)) (Some q') = Ok (Reqb (dot3 (sub3 q' q) n) 0)) by reflexivity.
  assert (Ci : Reqb (dot3 (sub3 q' q) n) 0 = true <-> on_plane q n q') by (rewrite Reqb_iff, dot3_sym; reflexivity).
  assert (Q' : on_plane q' n' q') by (unfold on_plane; destruct q', n'; v3unfold; ring).
  destruct (v3_eqb n n' || v3_eqb n (opp3 n')) eqn:E.
  - assert (K : exists k, k * k = 1 /\ n = scale3 k n').
    { apply orb_true_iff in E. rewrite !v3_eqb_iff in E.
      destruct E as [-> | ->]; [exists 1; split; [ring | rewrite scale3_1; reflexivity] | exists (-1); split; [ring | apply opp3_scale]]. }
    destruct K as (k & K2 & K).
    assert (G : on_plane q n q' <-> same_points (on_plane q n) (on_plane q' n')).
    { split; [| intros S; apply S, Q']. intros H p. unfold on_plane in *.
      replace (dot3 n (sub3 p q)) with (k * dot3 n' (sub3 p q') + dot3 n (sub3 q' q)) by (rewrite K; destruct n', p, q, q'; v3unfold; ring).
      rewrite H, Rplus_0_r. split; intros L; [| rewrite L; ring]. apply Rmult_integral in L. destruct L as [-> | L]; [lra | exact L]. }
    destruct (v3_eqb q q') eqn:F.
    + apply v3_eqb_iff in F. subst q'. exists true. split; [reflexivity |]. rewrite <- G. split; [intros _; unfold on_plane; destruct q, n; v3unfold; ring | reflexivity].
    + eexists. split; [exact C |]. rewrite Ci. exact G.
  - exists false. split; [reflexivity |]. split; [discriminate |]. intros S. exfalso.
    pose proof (proj2 (S _) Q') as H. set (v := sub3 n' (scale3 (dot3 n n') n)).
    assert (V : dot3 n v = 0). { unfold v. transitivity (dot3 n n' - dot3 n n' * sqnorm3 n); [destruct n, n'; v3unfold; ring | rewrite U; ring]. }
    assert (P : on_plane q n (add3 q' v)).
    { unfold on_plane in *. transitivity (dot3 n (sub3 q' q) + dot3 n v); [clearbody v; destruct n, v, q, q'; v3unfold; ring | rewrite H, V; ring]. }
    apply S in P. unfold on_plane in P. assert (W : dot3 n' v = 0) by (rewrite <- P; clearbody v; destruct n', v, q'; v3unfold; ring).
    assert (Z : sqnorm3 v = 0).
    { unfold v at 1. rewrite sqnorm3_sub, sqnorm3_scale, dot3_scale_r, U, U', (dot3_sym n' n).
      unfold v in W. replace (dot3 n' (sub3 n' (scale3 (dot3 n n') n))) with (sqnorm3 n' - dot3 n n' * dot3 n n') in W by (destruct n, n'; v3unfold; ring). lra. }
    apply sqnorm3_0, sub3_0 in Z. apply (unit_parallel n n') in Z; [| assumption | assumption]. apply orb_false_iff in E. rewrite !v3_eqb_false in E. tauto.
Qed.
Lemma c84_undefined p q l r s pl : pt_eq None q = false /\ pt_eq p None = false
  /\ l_eq (mkLine None (Some zero3)) l = Ok false /\ r_eq (mkRay None (Some zero3)) r = false
  /\ s_eq (mkSeg None (Some zero3)) s = false /\ pl_eq (mkPlane None (Some zero3)) pl = Ok false.
Proof. destruct p; repeat split. Qed.
(** Centre, direction and length of a segment. *)
Lemma c84_center a b : exists c, s_getCenter (mkSeg (Some a) (Some b)) = Ok c /\ on_segment a b c /\ dist3 c a = dist3 c b
  /\ s_getLength (mkSeg (Some a) (Some b)) = Ok (dist3 a b)
  /\ (a <> b -> exists d, s_getDirection (mkSeg (Some a) (Some b)) = Ok d /\ sqnorm3 d = 1 /\ b = along a (dist3 a b) d)
  /\ (a = b -> s_getDirection (mkSeg (Some a) (Some b)) = Err ERuntime).
Proof.
  eexists. split; [reflexivity |]. split; [exists (1 / 2); split; [lra | reflexivity] |]. split; [apply norm3_eq; destruct a, b; v3unfold; field |].
  unfold s_getLength, s_getDirection, s_isDegenerate, s_data. cbn [s_first s_second bind].
  split; [fold (dist3 b a); rewrite dist3_sym; reflexivity |]. split.
  - intros H. rewrite (proj2 (v3_eqb_false a b) H). eexists. split; [reflexivity |].
    assert (D : sub3 b a <> zero3) by (intros E; apply sub3_0 in E; congruence). destruct (normalized3_unit _ D) as [U E]. split; [exact U |].
    assert (P : 0 < norm3 (sub3 b a)) by (apply norm3_pos, sqnorm3_pos, D).
    rewrite E, dist3_sym. unfold along, dist3. rewrite scale3_scale, Rinv_r, scale3_1 by lra. v3ring.
  - intros ->. rewrite v3_eqb_refl. reflexivity.
Qed.

(** *** C86 *)
Lemma allM_ok {A} (f : A -> result bool) (P : A -> Prop) l : (forall x, In x l -> exists b, f x = Ok b /\ (b = true <-> P x)) ->
  exists b, allM f l = Ok b /\ (b = true <-> forall x, In x l -> P x).
Proof.
  induction l as [| x l IH]; intros H; cbn [allM].
  - exists true. split; [reflexivity |]. split; [intros _ _ [] | reflexivity].
  - destruct (H x (or_introl eq_refl)) as (b & B & Bi). rewrite B. cbn [bind]. destruct b.
    + destruct IH as (c & C & Ci); [intros; apply H; right; assumption |]. exists c. split; [exact C |]. rewrite Ci. split.
      * intros K y [<- | Hy]; [apply Bi; reflexivity | apply K, Hy].
      * intros K y Hy. apply K. right. exact Hy.
    + exists false. split; [reflexivity |]. split; [discriminate |]. intros K. exfalso. assert (false = true) by (apply Bi, K; left; reflexivity). discriminate.
Qed.
Lemma anyM_ok {A} (f : A -> result bool) (P : A -> Prop) l : (forall x, In x l -> exists b, f x = Ok b /\ (b = true <-> P x)) ->
  exists b, anyM f l = Ok b /\ (b = true <-> exists x, In x l /\ P x).
Proof.
  induction l as [| x l IH]; intros H; cbn [anyM].
  - exists false. split; [reflexivity |]. split; [discriminate | intros (x & [] & _)].
  - destruct (H x (or_introl eq_refl)) as (b & B & Bi). rewrite B. cbn [bind]. destruct b.
    + exists true. split; [reflexivity |]. split; [intros _ | reflexivity]. exists x. split; [left; reflexivity | apply Bi; reflexivity].
    + destruct IH as (c & C & Ci); [intros; apply H; right; assumption |]. exists c. split; [exact C |]. rewrite Ci. split.
      * intros (y & Hy & K). exists y. split; [right; exact Hy | exact K].
      * intros (y & [<- | Hy] & K); [apply Bi in K; discriminate |]. exists y. split; assumption.
Qed.
Lemma plane_contains q n p : exists b, pl_contains (mkPlane (Some q) (Some n)) (Some p) = Ok b /\ (b = true <-> on_plane q n p).
Proof. eexists. split; [reflexivity |]. rewrite Reqb_iff, dot3_sym. reflexivity. Qed.
Lemma c86_pointset q n s : s <> [] -> exists b c,
  pl_contains_ps (mkPlane (Some q) (Some n)) s = Ok b /\ (b = true <-> forall p, In p s -> on_plane q n p)
  /\ pl_intersects_ps (mkPlane (Some q) (Some n)) s = Ok c /\ (c = true <-> exists p, In p s /\ on_plane q n p).
Proof.
  intros H. destruct (allM_ok (fun p => pl_contains (mkPlane (Some q) (Some n)) (Some p)) (on_plane q n) s) as (b & B & Bi); [intros; apply plane_contains |].
  destruct (anyM_ok (fun p => pl_contains (mkPlane (Some q) (Some n)) (Some p)) (on_plane q n) s) as (c & C & Ci); [intros; apply plane_contains |].
  exists b, c. unfold pl_contains_ps, pl_intersects_ps. replace (ps_isDefined s) with true by (destruct s; [congruence | reflexivity]).
  cbn [negb pl_data pl_point pl_normal bind]. repeat split; try assumption; try apply Bi; try apply Ci.
Qed.
Lemma pl_filter_spec q n s : exists l, pl_filter (mkPlane (Some q) (Some n)) s = Ok l /\ forall p, In p l <-> In p s /\ on_plane q n p.
Proof.
  induction s as [| x s (l & L & Li)]; [exists []; split; [reflexivity |]; cbn; tauto |].
  destruct (plane_contains q n x) as (b & B & Bi). cbn [pl_filter]. rewrite B. cbn [bind]. rewrite L. cbn [bind]. eexists. split; [reflexivity |].
  intros p. destruct b; cbn; rewrite Li; split.
  - intros [<- | [K M]]; [split; [left; reflexivity | apply Bi; reflexivity] | split; [right; exact K | exact M]].
  - intros [[<- | K] M]; [left; reflexivity | right; split; assumption].
  - intros [K M]. split; [right; exact K | exact M].
  - intros [[<- | K] M]; [apply Bi in M; discriminate | split; assumption].
Qed.
Lemma c86_pointset_intersection q n s : exists i, pl_inter_ps (mkPlane (Some q) (Some n)) s = Ok i
  /\ represents i (fun p => In p s /\ on_plane q n p).
Proof.
  unfold pl_inter_ps. cbn [pl_data pl_point pl_normal bind]. destruct (pl_filter_spec q n s) as (l & L & Li). rewrite L. cbn [bind].
  destruct l as [| x [| y l]].
  - eexists. split; [reflexivity |]. apply represents_empty. intros p H. apply Li in H. exact H.
  - eexists. split; [reflexivity |]. apply represents_point. intros p. rewrite <- Li. cbn. split; [intros [-> | []]; reflexivity | intros ->; left; reflexivity].
  - destruct (c51_construct (x :: y :: l)) as (t & T & _ & Ti). rewrite T. cbn [bind]. eexists. split; [reflexivity |].
    apply represents_one; [repeat split |]. intros p. cbn. rewrite Ti. symmetry. apply Li.
Qed.
Lemma c86_point q n p : exists i, pl_inter_point (mkPlane (Some q) (Some n)) (Some p) = Ok i /\ represents i (fun x => x = p /\ on_plane q n x).
Proof.
  unfold pl_inter_point. destruct (plane_contains q n p) as (b & B & Bi). rewrite B. cbn [bind needd]. eexists. split; [reflexivity |]. destruct b.
  - apply represents_point. intros x. split; [intros [-> _]; reflexivity | intros ->; split; [reflexivity | apply Bi; reflexivity]].
  - apply represents_empty. intros x [-> H]. apply Bi in H. discriminate.
Qed.
Lemma c86_line q n o d : exists b, pl_contains_line (mkPlane (Some q) (Some n)) (mkLine (Some o) (Some d)) = Ok b
  /\ (b = true <-> forall p, on_line o d p -> on_plane q n p).
Proof.
  unfold pl_contains_line. cbn [l_data l_origin l_direction pl_data pl_point pl_normal bind]. destruct (plane_contains q n o) as (b & B & Bi). rewrite B. cbn [bind].
  eexists. split; [reflexivity |]. rewrite andb_true_iff, Reqb_iff, Bi.
  assert (O : forall t, on_plane q n (along o t d) <-> dot3 n (sub3 o q) + t * dot3 n d = 0).
  { intros t. unfold on_plane. replace (dot3 n (sub3 (along o t d) q)) with (dot3 n (sub3 o q) + t * dot3 n d); [reflexivity |]. unfold along. destruct n, o, d, q; v3unfold; ring. }
  unfold on_plane at 1. split.
  - intros [H K] p (t & ->). apply O. rewrite H, K. ring.
  - intros H. pose proof (proj1 (O 0) (H _ (ex_intro _ 0 eq_refl))). pose proof (proj1 (O 1) (H _ (ex_intro _ 1 eq_refl))). split; lra.
Qed.
Lemma c86_ray q n o d : exists b, pl_contains_ray (mkPlane (Some q) (Some n)) (mkRay (Some o) (Some d)) = Ok b
  /\ (b = true <-> forall p, on_ray o d p -> on_plane q n p).
Proof.
  unfold pl_contains_ray. cbn [r_data r_origin r_direction pl_data pl_point pl_normal bind]. destruct (plane_contains q n o) as (b & B & Bi). rewrite B. cbn [bind].
  eexists. split; [reflexivity |]. rewrite andb_true_iff, Reqb_iff, Bi.
  assert (O : forall t, on_plane q n (along o t d) <-> dot3 n (sub3 o q) + t * dot3 n d = 0).
  { intros t. unfold on_plane. replace (dot3 n (sub3 (along o t d) q)) with (dot3 n (sub3 o q) + t * dot3 n d); [reflexivity |]. unfold along. destruct n, o, d, q; v3unfold; ring. }
  unfold on_plane at 1. split.
  - intros [H K] p (t & _ & ->). apply O. rewrite H, K. ring.
  - intros H. pose proof (proj1 (O 0) (H _ (ex_intro _ 0 (conj (Rle_refl 0) eq_refl)))). pose proof (proj1 (O 1) (H _ (ex_intro _ 1 (conj Rle_0_1 eq_refl)))). split; lra.
Qed.
Lemma c86_segment q n a c : exists b, pl_contains_segment (mkPlane (Some q) (Some n)) (mkSeg (Some a) (Some c)) = Ok b
  /\ (b = true <-> forall p, on_segment a c p -> on_plane q n p).
Proof.
  unfold pl_contains_segment. cbn [s_data s_first s_second pl_data pl_point pl_normal bind].
  destruct (plane_contains q n a) as (b & B & Bi), (plane_contains q n c) as (b' & B' & Bi'). rewrite B. cbn [bind]. rewrite B'.
  destruct (on_segment_ends a c) as [Ea Ec]. destruct b.
  - exists b'. split; [reflexivity |]. rewrite Bi'. split; [| intros H; apply H, Ec]. intros H p (t & _ & ->).
    assert (A : on_plane q n a) by (apply Bi; reflexivity). unfold on_plane in *.
    replace (dot3 n _) with ((1 - t) * dot3 n (sub3 a q) + t * dot3 n (sub3 c q)) by (unfold along; destruct n, a, c, q; v3unfold; ring). rewrite A, H. ring.
  - exists false. split; [reflexivity |]. split; [discriminate |]. intros H. apply Bi, H, Ea.
Qed.
(** Point sets on lines and rays. *)
Lemma c86_line_set o d s : d <> zero3 -> s <> [] -> exists b c,
  l_contains_ps (mkLine (Some o) (Some d)) s = Ok b /\ (b = true <-> forall p, In p s -> on_line o d p)
  /\ r_contains_ps (mkRay (Some o) (Some d)) s = Ok c /\ (c = true <-> forall p, In p s -> on_ray o d p).
Proof.
  intros Hd H. destruct (allM_ok (fun p => l_contains (mkLine (Some o) (Some d)) (Some p)) (on_line o d) s) as (b & B & Bi); [intros; apply c50_line; [reflexivity | exact Hd] |].
  destruct (allM_ok (fun p => r_contains (mkRay (Some o) (Some d)) (Some p)) (on_ray o d) s) as (c & C & Ci); [intros; apply c50_ray; [reflexivity | exact Hd] |].
  exists b, c. unfold l_contains_ps, r_contains_ps. replace (ps_isDefined s) with true by (destruct s; [congruence | reflexivity]).
  replace (ps_isEmpty s) with false by (destruct s; [congruence | reflexivity]).
  cbn [negb l_data l_origin l_direction r_data r_origin r_direction bind]. repeat split; try assumption; try apply Bi; try apply Ci.
Qed.
Lemma c86_empty l r pl : l_contains_ps l [] = Err EUndefined /\ r_contains_ps r [] = Err EUndefined
  /\ pl_contains_ps pl [] = Err EUndefined /\ pl_intersects_ps pl [] = Err EUndefined.
Proof. unfold l_contains_ps, l_data. destruct l as [[] []]; repeat split. Qed.

(** *** C87 *)
Lemma pts_eq_iff l m : pts_eq (map Some l) (map Some m) = true <-> l = m.
Proof.
  revert m. induction l as [| p l IH]; intros [| q m]; cbn [map pts_eq pt_eq]; try (split; congruence).
  rewrite andb_true_iff, v3_eqb_iff, IH. split; [intros [-> ->]; reflexivity | intros H; injection H as -> ->; split; reflexivity].
Qed.
Lemma c87_equal l m : ls_eq (map Some l) (map Some m) = true <-> l = m.
Proof. apply pts_eq_iff. Qed.
Lemma c87_undefined_point l : In None l -> ls_eq l l = false.
Proof. unfold ls_eq. induction l as [| [p |] l IH]; cbn; [tauto | | reflexivity]. intros [H | H]; [discriminate |]. rewrite IH, andb_false_r by assumption. reflexivity. Qed.
Lemma c87_access l i : (forall p, nth_error l i = Some p -> ls_accessPointAt l i = Ok p) /\ ((length l <= i)%nat -> ls_accessPointAt l i = Err ERuntime).
Proof.
  unfold ls_accessPointAt. split.
  - intros p ->. reflexivity.
  - intros H. apply nth_error_None in H. rewrite H. reflexivity.
Qed.
Lemma ls_closest_eq p best dmin l : ls_closest p best dmin (map Some l) = Ok (closest_from p best dmin l).
Proof. revert best dmin. induction l as [| q l IH]; intros best dmin; cbn; [reflexivity |]. rewrite !IH. destruct Rltb; reflexivity. Qed.
Lemma c87_closest l p : l <> [] -> exists q, ls_getPointClosestTo (map Some l) (Some p) = Ok q /\ In q l /\ forall x, In x l -> dist3 p q <= dist3 p x.
Proof.
  intros H. destruct (c51_closest l p H) as (q & Q & R). exists q. split; [| exact R]. destruct l as [| b l]; [congruence |].
  cbn in *. rewrite ls_closest_eq. exact Q.
Qed.
Lemma c87_near l m tol : exists b, ls_isNear (map Some l) (map Some m) (Some tol) = Ok b
  /\ (b = true <-> l <> [] /\ Forall2 (fun p q => dist3 p q <= tol) l m).
Proof.
  assert (G : forall l m, length l = length m -> exists b, ls_all_near (map Some l) (map Some m) (Some tol) = Ok b /\ (b = true <-> Forall2 (fun p q => dist3 p q <= tol) l m)).
  { clear. induction l as [| p l IH]; intros [| q m] L; try discriminate; cbn [map ls_all_near]; [exists true; split; [reflexivity | split; [constructor | reflexivity]] |].
    unfold pt_isNear. cbn [need bind pt_distanceTo needd]. fold (dist3 p q). destruct (Rleb (dist3 p q) tol) eqn:E.
    - destruct (IH m) as (b & B & Bi); [cbn in L; lia |]. exists b. split; [exact B |]. rewrite Bi. apply Rleb_iff in E. split; [intros; constructor; assumption | intros F; inversion F; assumption].
    - exists false. split; [reflexivity |]. apply Rleb_false in E. split; [discriminate |]. intros F. inversion F. lra. }
  unfold ls_isNear. destruct l as [| p l].
  - exists false. split; [reflexivity |]. split; [discriminate | intros [H _]; congruence].
  - destruct m as [| q m].
    + exists false. split; [reflexivity |]. split; [discriminate | intros [_ H]; inversion H].
    + cbn [map ls_isEmpty orb]. rewrite <- !map_cons, !map_length. destruct (Nat.eqb (length (p :: l)) (length (q :: m))) eqn:E; cbn [negb].
      * apply Nat.eqb_eq in E. destruct (G (p :: l) (q :: m) E) as (b & B & Bi). exists b. split; [exact B |]. rewrite Bi. split; [intros; split; [discriminate | assumption] | intros []; assumption].
      * apply Nat.eqb_neq in E. exists false. split; [reflexivity |]. split; [discriminate |]. intros [_ F]. apply Forall2_len in F. contradiction.
Qed.
Lemma c87_segment a b : ls_Segment (mkSeg (Some a) (Some b)) = Ok [Some a; Some b].
Proof. reflexivity. Qed.
Lemma c87_errors l p : ls_getPointClosestTo l None = Err EUndefined /\ ls_getPointClosestTo [] (Some p) = Err EUndefined
  /\ ls_getPointClosestTo [None] (Some p) = Err EUndefined.
Proof. repeat split. Qed.
