(** Lines, rays and segments against a solid given by a definite quadratic form. *)

From Coq Require Import List Bool Reals Lra Lia Psatz.
From Verif Require Import Result DOrder Vec VecProofs AngleModel RotModel Geo3Types Geo3Model Geo3Spec Geo3Proofs2 GteModel GteSpec.
Import ListNotations.
Local Open Scope R_scope.

Lemma along_sub o t d c : sub3 (along o t d) c = add3 (sub3 o c) (scale3 t d).
Proof. unfold along. v3ring. Qed.
Lemma sub_move p q c : sub3 q c = add3 (sub3 p c) (scale3 1 (sub3 q p)).
Proof. v3ring. Qed.
Lemma along_0 o d : along o 0 d = o. Proof. unfold along. destruct o. v3ring. Qed.
Lemma along_1 a b : along a 1 (sub3 b a) = b. Proof. unfold along. destruct b. v3ring. Qed.
Lemma along_along o t s d : along (along o t d) s d = along o (t + s) d.
Proof. unfold along. v3ring. Qed.
Lemma along_inj o t s d : d <> zero3 -> along o t d = along o s d -> t = s.
Proof.
  intros N E. assert (K : scale3 (t - s) d = zero3).
  { pose proof (f_equal vx E) as A. pose proof (f_equal vy E) as B. pose proof (f_equal vz E) as C.
    revert A B C. unfold along, scale3, add3, zero3; simpl; intros. apply V3_eq; lra. }
  destruct (scale3_0 _ _ K); [lra | contradiction].
Qed.

(** An end of a segment is between no two other points of it. *)
Lemma end_extreme p q d s : d <> zero3 -> 0 < s -> on_segment p q (along p s d) -> on_segment p q (along p (- s) d) -> False.
Proof.
  intros N S (t & T & E) (u & U & F).
  assert (K : scale3 (t + u) (sub3 q p) = zero3).
  { pose proof (f_equal vx E) as A. pose proof (f_equal vy E) as B. pose proof (f_equal vz E) as C.
    pose proof (f_equal vx F) as A'. pose proof (f_equal vy F) as B'. pose proof (f_equal vz F) as C'.
    revert A B C A' B' C'. unfold along, scale3, add3, sub3, zero3; simpl; intros. apply V3_eq; lra. }
  assert (Z : scale3 s d = zero3).
  { destruct (scale3_0 _ _ K) as [H | H].
    - assert (t = 0) by lra. subst t. rewrite along_0 in E.
      pose proof (f_equal vx E) as A. pose proof (f_equal vy E) as B. pose proof (f_equal vz E) as C.
      revert A B C. unfold along, scale3, add3, sub3, zero3; simpl; intros. apply V3_eq; lra.
    - rewrite H in E. pose proof (f_equal vx E) as A. pose proof (f_equal vy E) as B. pose proof (f_equal vz E) as C.
      revert A B C. unfold along, scale3, add3, sub3, zero3; simpl; intros. apply V3_eq; lra. }
  destruct (scale3_0 _ _ Z); [lra | contradiction].
Qed.
Lemma end_extreme' p q d s : d <> zero3 -> 0 < s -> on_segment p q (along q s d) -> on_segment p q (along q (- s) d) -> False.
Proof. intros N S A B. apply (end_extreme q p d s N S); apply on_segment_swap; assumption. Qed.

Section Form.
Variable F : v3 -> R.
Variable B : v3 -> v3 -> R.
Hypothesis F_expand : forall v t w, F (add3 v (scale3 t w)) = F v + 2 * t * B v w + t * t * F w.
Hypothesis F_pos : forall w, w <> zero3 -> 0 < F w.
Variable c : v3.
Variable K : R.
Definition fsolid (p : v3) : Prop := F (sub3 p c) <= K.
Definition fsurface (p : v3) : Prop := F (sub3 p c) = K.

(** The ends are the only points of a chord on the surface. *)
Lemma chord_surface p q x : fsolid p -> fsolid q -> p <> q -> on_segment p q x -> fsurface x -> x = p \/ x = q.
Proof.
  intros Hp Hq N (t & T & ->) S. unfold fsolid, fsurface in *.
  assert (W : sub3 q p <> zero3) by (intro H; apply N; symmetry; apply sub3_0, H).
  pose proof (F_pos _ W) as P.
  pose proof (F_expand (sub3 p c) 1 (sub3 q p)) as E1.
  rewrite <- (sub_move p q c) in E1.
  rewrite along_sub, F_expand in S.
  destruct (Req_dec t 0) as [-> | T0]; [left; apply along_0 |].
  destruct (Req_dec t 1) as [-> | T1]; [right; apply along_1 |].
  exfalso. set (b := B (sub3 p c) (sub3 q p)) in *. set (f := F (sub3 q p)) in *. set (a := F (sub3 p c)) in *.
  assert (t * (1 - t) * f > 0) by (apply Rmult_gt_0_compat; [apply Rmult_gt_0_compat; lra | exact P]).
  assert ((1 - t) * a <= (1 - t) * K) by (apply Rmult_le_compat_l; lra).
  assert (t * F (sub3 q c) <= t * K) by (apply Rmult_le_compat_l; lra).
  rewrite E1 in *. nra.
Qed.

(** A point strictly inside can be moved a little both ways. *)
Lemma room p d m : F (sub3 p c) < K -> 0 < m -> exists s, 0 < s <= m /\ fsolid (along p s d) /\ fsolid (along p (- s) d).
Proof.
  intros H M. set (a := F (sub3 p c)) in *. set (b := B (sub3 p c) d). set (f := F d).
  set (D := 2 * Rabs b + Rabs f + 1).
  assert (D1 : 1 <= D) by (unfold D; pose proof (Rabs_pos b); pose proof (Rabs_pos f); lra).
  set (s := Rmin 1 (Rmin m ((K - a) / D))).
  assert (Q : 0 < (K - a) / D) by (apply Rdiv_lt_0_compat; lra).
  assert (S0 : 0 < s) by (unfold s; repeat apply Rmin_glb_lt; lra).
  assert (S1 : s <= 1) by apply Rmin_l.
  assert (Sm : s <= m) by (unfold s; eapply Rle_trans; [apply Rmin_r | apply Rmin_l]).
  assert (Sq : s * D <= K - a).
  { apply Rle_trans with ((K - a) / D * D); [| right; field; lra].
    apply Rmult_le_compat_r; [lra |]. unfold s; eapply Rle_trans; [apply Rmin_r | apply Rmin_r]. }
  exists s. split; [lra |].
  pose proof (Rle_abs b). pose proof (Rle_abs (- b)) as B'. rewrite Rabs_Ropp in B'.
  pose proof (Rle_abs f).
  assert (s * s * f <= s * Rabs f).
  { apply Rle_trans with (s * (s * Rabs f)); [rewrite Rmult_assoc; apply Rmult_le_compat_l; [lra | apply Rmult_le_compat_l; lra] |].
    apply Rmult_le_compat_l; [lra |]. rewrite <- (Rmult_1_l (Rabs f)) at 2. apply Rmult_le_compat_r; [apply Rabs_pos | lra]. }
  unfold fsolid. rewrite !along_sub, !F_expand. fold a b f. unfold D in Sq. split; nra.
Qed.

(** The ends of the common part are on the surface, unless they are ends of the object. *)
Definition extends (S : v3 -> Prop) (d p : v3) : Prop :=
  exists m, 0 < m /\ forall s, - m <= s <= m -> S (along p s d).
Lemma chord_end S p q d : d <> zero3 -> (forall x, both S fsolid x <-> on_segment p q x) -> extends S d p -> fsurface p.
Proof.
  intros N C (m & M & X).
  assert (P : both S fsolid p) by (apply C, on_segment_ends).
  destruct P as [_ P]. unfold fsolid in P. destruct (Rle_lt_or_eq_dec _ _ P) as [L | E]; [exfalso | exact E].
  destruct (room p d m L M) as (s & Hs & A & A').
  apply (end_extreme p q d s N (proj1 Hs)); apply C; split; try assumption; apply X; lra.
Qed.
Lemma chord_end' S p q d : d <> zero3 -> (forall x, both S fsolid x <-> on_segment p q x) -> extends S d q -> fsurface q.
Proof.
  intros N C X. apply (chord_end S q p d N); [| exact X].
  intro x. rewrite C. split; apply on_segment_swap.
Qed.
Lemma single_end S p d : d <> zero3 -> (forall x, both S fsolid x <-> x = p) -> extends S d p -> fsurface p.
Proof.
  intros N C X. apply (chord_end S p p d N); [| exact X].
  intro x. rewrite C. symmetry. apply on_segment_point.
Qed.

(** The points found for an object [S]: those of the surface, and ends of the object. *)
Definition found (f : option (list v3)) : list v3 := match f with Some l => l | None => [] end.
Lemma found_complete f S x : chord f (both S fsolid) -> S x -> fsurface x -> In x (found f).
Proof.
  intros C Sx Fx. assert (H : both S fsolid x) by (split; [exact Sx | unfold fsolid; rewrite Fx; lra]).
  destruct f as [l |]; [| exfalso; exact (C x H)].
  destruct l as [| p [| q [| z l]]]; simpl in C; try contradiction.
  - left. symmetry. apply C, H.
  - destruct C as [N C]. pose proof (proj1 (C x) H) as G.
    destruct (chord_surface p q x) as [-> | ->]; try (simpl; tauto); try assumption;
      [apply (C p), on_segment_ends | apply (C q), on_segment_ends].
Qed.
Lemma found_sound f S d x : d <> zero3 -> chord f (both S fsolid) -> In x (found f) ->
  S x /\ fsolid x /\ (extends S d x -> fsurface x).
Proof.
  intros N C I. destruct f as [l |]; [| destruct I].
  destruct l as [| p [| q [| z l]]]; simpl in C; try contradiction.
  - destruct I as [<- | []]. destruct (proj2 (C p) eq_refl) as [A A']. split; [exact A | split; [exact A' |]].
    apply (single_end S p d N C).
  - destruct C as [Npq C]. destruct I as [<- | [<- | []]].
    + destruct (proj2 (C p) (proj1 (on_segment_ends p q))) as [A A']. split; [exact A | split; [exact A' |]].
      apply (chord_end S p q d N C).
    + destruct (proj2 (C q) (proj2 (on_segment_ends p q))) as [A A']. split; [exact A | split; [exact A' |]].
      apply (chord_end' S p q d N C).
Qed.
End Form.

Lemma extends_line o d x : on_line o d x -> extends (on_line o d) d x.
Proof.
  intros [t ->]. exists 1. split; [lra |]. intros s _. exists (t + s). apply along_along.
Qed.
Lemma extends_ray o d x : on_ray o d x -> x <> o -> extends (on_ray o d) d x.
Proof.
  intros (t & T & ->) N. destruct (Req_dec t 0) as [-> | T0]; [exfalso; apply N, along_0 |].
  exists t. split; [lra |]. intros s S. exists (t + s). split; [lra | apply along_along].
Qed.
Lemma extends_segment a b x : on_segment a b x -> x <> a -> x <> b -> extends (on_segment a b) (sub3 b a) x.
Proof.
  intros (t & T & ->) N M. destruct (Req_dec t 0) as [-> | T0]; [exfalso; apply N, along_0 |].
  destruct (Req_dec t 1) as [-> | T1]; [exfalso; apply M, along_1 |].
  exists (Rmin t (1 - t)). split; [apply Rmin_glb_lt; lra |]. intros s S. exists (t + s).
  pose proof (Rmin_l t (1 - t)). pose proof (Rmin_r t (1 - t)). split; [lra | apply along_along].
Qed.

(** *** From the points found to the intersection returned *)
Lemma represents_empty S : (forall x, ~ S x) -> represents inter_empty S.
Proof. intros H. split; [split; [reflexivity | exact I] |]. intro p. split; [intro X; destruct (H _ X) | intros (o & [] & _)]. Qed.
Lemma represents_point p S : (forall x, S x <-> x = p) -> represents (inter_point p) S.
Proof.
  intros H. split; [split; [reflexivity | exact I] |]. intro x. rewrite H. split.
  - intros ->. exists (OPoint (Some p)). split; [left; reflexivity | reflexivity].
  - intros (o & [<- | []] & E). simpl in E. congruence.
Qed.
Lemma represents_pointset l S : (forall x, S x <-> In x l) -> represents (inter_pointset l) S.
Proof.
  intros H. split; [split; [reflexivity | exact I] |]. intro x. rewrite H. split.
  - intros X. exists (OPointSet l). split; [left; reflexivity | exact X].
  - intros (o & [<- | []] & E). exact E.
Qed.
Lemma pair_set p q : p <> q -> PointSet [Some p; Some q] = Ok [p; q].
Proof.
  intros N. unfold PointSet. simpl. f_equal. unfold ps_insert at 1. simpl. unfold v3_eqb.
  destruct (v3_eq_dec q p); [congruence | reflexivity].
Qed.
Lemma eqb_true a b : v3_eqb a b = true <-> a = b.
Proof. unfold v3_eqb. destruct (v3_eq_dec a b); split; congruence. Qed.
Lemma eqb_false a b : v3_eqb a b = false <-> a <> b.
Proof. unfold v3_eqb. destruct (v3_eq_dec a b); split; congruence. Qed.
