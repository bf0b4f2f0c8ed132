(** Transformations of the 2D linear objects (C99). *)

From Coq Require Import List Bool Reals Lra Lia.
From Verif Require Import Result DOrder Vec VecProofs AngleModel AngleProofs RotModel RotProofs RotProofs2 TransfModel TransfSpec TransfProofs TransfProofs2 TransfProofs3
  Geo3Types Geo3Model Geo3Proofs Geo3Proofs2 Geo2Model Geo2Spec Geo2Proofs.
Import ListNotations.
Local Open Scope R_scope.

Lemma map2_along th d o t v : map2 th d (along2 o t v) = along2 (map2 th d o) t (turn2 th v).
Proof. unfold map2, turn2, along2. destruct o as [o1 o2], d as [d1 d2], v as [v1 v2]. v2unfold. apply V2_eq; ring. Qed.
Lemma map2_sub th d p q : sub2 (map2 th d p) (map2 th d q) = turn2 th (sub2 p q).
Proof. unfold map2, turn2. destruct p as [p1 p2], q as [q1 q2], d as [d1 d2]. v2unfold. apply V2_eq; ring. Qed.
Lemma turn2_unit th v : sqnorm2 (turn2 th v) = sqnorm2 v.
Proof.
  pose proof (sc1 th) as S. destruct v as [a b]. unfold turn2. v2unfold.
  replace ((cos th * a - sin th * b) * (cos th * a - sin th * b) + (sin th * a + cos th * b) * (sin th * a + cos th * b))
    with ((sin th * sin th + cos th * cos th) * (a * a + b * b)) by ring. replace (sin th * sin th + cos th * cos th) with 1 by lra. ring.
Qed.
Lemma image_line2 th d o v : image_of2 (map2 th d) (on_line2 o v) (on_line2 (map2 th d o) (turn2 th v)).
Proof.
  intros q. split.
  - intros (t & ->). exists (along2 o t v). split; [exists t; reflexivity | symmetry; apply map2_along].
  - intros (p & (t & ->) & ->). exists t. apply map2_along.
Qed.
Lemma image_segment2 th d a b : image_of2 (map2 th d) (on_segment2 a b) (on_segment2 (map2 th d a) (map2 th d b)).
Proof.
  intros q. unfold on_segment2. rewrite map2_sub. split.
  - intros (t & Ht & ->). exists (along2 a t (sub2 b a)). split; [exists t; split; [exact Ht | reflexivity] | symmetry; apply map2_along].
  - intros (p & (t & Ht & ->) & ->). exists t. split; [exact Ht |]. apply map2_along.
Qed.
Lemma map2_injective th d p q : map2 th d p = map2 th d q -> p = q.
Proof. intros H. rewrite <- (map2_inv th d p), H. apply map2_inv. Qed.
Lemma image_string2 th d l : image_of2 (map2 th d) (on_string2 l) (on_string2 (map (map2 th d) l)).
Proof.
  induction l as [| a l IH]; intros q; [split; [intros [] | intros (? & [] & _)] |]. destruct l as [| b l].
  - cbn. split; [intros ->; exists a; split; reflexivity | intros (? & -> & ->); reflexivity].
  - cbn [map]. change (on_segment2 (map2 th d a) (map2 th d b) q \/ on_string2 (map (map2 th d) (b :: l)) q <-> exists p, (on_segment2 a b p \/ on_string2 (b :: l) p) /\ q = map2 th d p).
    rewrite (IH q), (image_segment2 th d a b q). split.
    + intros [(p & P & ->) | (p & P & ->)]; exists p; split; try reflexivity; [left | right]; exact P.
    + intros (p & [P | P] & ->); [left | right]; exists p; split; try reflexivity; exact P.
Qed.
Lemma p2_apply_map ty th d p : ty <> TUndefined -> p2_apply (mkT2 ty (Some (mat2 th d))) (Some p) = Ok (Some (map2 th d p)).
Proof. intros N. unfold p2_apply. rewrite isDefined2_type by assumption. cbn [negb needd bind]. apply apply_mat2. Qed.

(** Every 2D transformation the library makes is a motion, and each object becomes its image. *)
Lemma c99_images t : made2 t -> exists f, maps_points2 t f
  /\ (forall p q, dist2 (f p) (f q) = dist2 p q)
  /\ (forall p, p2_apply t (Some p) = Ok (Some (f p)))
  /\ (forall s, s <> [] -> exists s', ps2_apply t s = Ok s' /\ NoDup s' /\ forall q, In q s' <-> exists p, In p s /\ q = f p)
  /\ (forall a b, s2_apply t (mkSeg2 (Some a) (Some b)) = Ok (mkSeg2 (Some (f a)) (Some (f b))) /\ image_of2 f (on_segment2 a b) (on_segment2 (f a) (f b)))
  /\ (forall l, l <> [] -> ls2_apply t (map Some l) = Ok (map Some (map f l)) /\ image_of2 f (on_string2 l) (on_string2 (map f l)))
  /\ (forall l o d, good_line2 l o d -> exists l' d', l2_apply t l = Ok l' /\ good_line2 l' (f o) d' /\ image_of2 f (on_line2 o d) (on_line2 (f o) d')).
Proof.
  intros H. destruct (shaped2_type _ (made2_shaped _ H)) as (ty & th & d & -> & N). destruct (apply_mat2 ty th d) as [A V].
  exists (map2 th d). split; [exact A |]. split; [intros; apply map2_norm |]. split; [intros p; apply p2_apply_map, N |]. split; [| split; [| split]].
  - intros s Hs. unfold ps2_apply. rewrite isDefined2_type by assumption. replace (ps2_isDefined s) with true by (destruct s; [congruence | reflexivity]). cbn [negb].
    assert (E : mapM (fun p => t2_applyTo_point (mkT2 ty (Some (mat2 th d))) (Some p)) s = Ok (map Some (map (map2 th d) s))).
    { clear Hs. induction s as [| p s IH]; [reflexivity |]. cbn [mapM map]. rewrite A. cbn [bind]. rewrite IH. reflexivity. }
    rewrite E. cbn [bind]. destruct (c98_construct (map (map2 th d) s)) as (s' & S & D & I). exists s'. split; [exact S |]. split; [exact D |].
    intros q. rewrite I, in_map_iff. split; intros (p & X & Y); exists p; split; congruence.
  - intros a b. split; [| apply image_segment2]. unfold s2_apply. rewrite isDefined2_type by assumption. cbn [negb s2_data s2_first s2_second bind].
    rewrite !p2_apply_map by assumption. reflexivity.
  - intros s Hs. split; [| apply image_string2]. unfold ls2_apply. rewrite isDefined2_type by assumption.
    replace (ls2_isDefined (map Some s)) with true by (destruct s; [congruence | reflexivity]). cbn [negb].
    clear Hs. induction s as [| p s IH]; [reflexivity |]. cbn [mapM map]. rewrite A. cbn [bind]. rewrite IH. reflexivity.
  - intros l o v [-> U]. exists (mkLine2 (Some (map2 th d o)) (Some (turn2 th v))), (turn2 th v).
    split; [| split; [split; [reflexivity | rewrite turn2_unit; exact U] | apply image_line2]].
    unfold l2_apply. rewrite isDefined2_type by assumption. cbn [negb l2_data l2_origin l2_direction bind]. rewrite p2_apply_map, V by assumption. reflexivity.
Qed.
Lemma c99_errors l s ps ls p t :
  p2_apply t2_Undefined p = Err EUndefined /\ l2_apply t2_Undefined l = Err EUndefined
  /\ s2_apply t2_Undefined s = Err EUndefined /\ ps2_apply t2_Undefined ps = Err EUndefined
  /\ ls2_apply t2_Undefined ls = Err EUndefined /\ p2_apply t None = Err EUndefined /\ ps2_apply t [] = Err EUndefined /\ ls2_apply t [] = Err EUndefined.
Proof. unfold p2_apply, ps2_apply, ls2_apply. destruct (t2_isDefined t); repeat split. Qed.
