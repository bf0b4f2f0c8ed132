(** Proofs about spheres (C52). *)

From Coq Require Import List Bool Reals Lra Lia Psatz.
From Verif Require Import Result DOrder Vec VecProofs Mat3 Mat4 AngleModel AngleProofs RotModel RotSpec RotProofs RotProofs2 TransfModel TransfSpec
  TransfProofs TransfProofs2 Geo3Types Geo3Model Geo3Spec Geo3Proofs Geo3Proofs2 Geo3Proofs3 GteModel GteSpec ChordProofs SphereModel SphereSpec.
Import ListNotations.
Local Open Scope R_scope.

(** *** The post-processing of the points found, for any solid with a definite form. *)
Section Keep.
Variable near : v3 -> bool.

(** What is kept for a ray from [o]: the origin only when it is near the surface. *)
Definition kept (E : v3 -> Prop) (l : list v3) (x : v3) : Prop := In x l /\ (E x -> near x = true).

Lemma kept_hits F B (Fe : forall v t w, F (add3 v (scale3 t w)) = F v + 2 * t * B v w + t * t * F w)
  (Fp : forall w, w <> zero3 -> 0 < F w) c K (S : v3 -> Prop) d (E : v3 -> Prop) f (nearP : v3 -> Prop) :
  d <> zero3 -> (forall x, near x = true <-> nearP x) -> (forall x, fsurface F c K x -> nearP x) ->
  (forall x, S x -> ~ E x -> extends S d x) -> (forall x, E x \/ ~ E x) ->
  chord f (both S (fsolid F c K)) -> hits S (fsurface F c K) nearP E (kept E (found f)).
Proof.
  intros N Hn Hs He Dec C. split.
  - intros x Sx Fx. split; [exact (found_complete F B Fe Fp c K f S x C Sx Fx) | intros _; apply Hn, Hs, Fx].
  - intros x [I Hx]. destruct (found_sound F B Fe c K f S d x N C I) as (Sx & _ & X). split; [exact Sx |].
    destruct (Dec x) as [Ex | Ex]; [right; split; [exact Ex | apply Hn, Hx, Ex] | left; apply X, He; assumption].
Qed.
End Keep.

(** *** Spheres *)
Lemma sphere_form v t w : sqnorm3 (add3 v (scale3 t w)) = sqnorm3 v + 2 * t * dot3 v w + t * t * sqnorm3 w.
Proof. v3ring. Qed.
Lemma sphere_pos w : w <> zero3 -> 0 < sqnorm3 w.
Proof. apply sqnorm3_pos. Qed.
Lemma ball_form c r p : 0 <= r -> ball c r p <-> fsolid sqnorm3 c (r * r) p.
Proof.
  intros R. unfold ball, fsolid, dist3. pose proof (norm3_nonneg (sub3 p c)). pose proof (norm3_sq (sub3 p c)). split; intros; nra.
Qed.
Lemma sphere_form_surface c r p : 0 <= r -> on_sphere c r p <-> fsurface sqnorm3 c (r * r) p.
Proof.
  intros R. unfold on_sphere, fsurface, dist3. pose proof (norm3_nonneg (sub3 p c)) as N. pose proof (norm3_sq (sub3 p c)) as Q. split; intros H.
  - rewrite <- Q, H. reflexivity.
  - rewrite H in Q. apply Rsqr_inj; assumption.
Qed.
Lemma chord_ext f S T : (forall x, S x <-> T x) -> chord f S -> chord f T.
Proof.
  intros E. destruct f as [[| p [| q [| z l]]] |]; simpl; try tauto.
  - intros H x. rewrite <- E. apply H.
  - intros [N H]. split; [exact N |]. intros x. rewrite <- E. apply H.
  - intros H x X. apply (H x), E, X.
Qed.
Lemma chord_ball f S c r : 0 <= r -> chord f (both S (ball c r)) -> chord f (both S (fsolid sqnorm3 c (r * r))).
Proof. intros R. apply chord_ext. intros x. unfold both. rewrite (ball_form c r x R). reflexivity. Qed.

Lemma sphere_contains eps s c r p : s = mkSphere (Some c) (Some r) ->
  exists b, sp_contains eps s (Some p) = Ok b /\ (b = true <-> near_sphere eps c r p).
Proof.
  intros ->. exists (Rltb (Rabs (sqnorm3 (sub3 p c) - r * r)) eps). split; [reflexivity |].
  unfold near_sphere, dist3. rewrite norm3_sq. unfold Rltb. destruct (Rlt_dec _ _); split; try discriminate; tauto.
Qed.
Lemma on_sphere_near eps c r p : 0 < eps -> on_sphere c r p -> near_sphere eps c r p.
Proof. intros E H. unfold near_sphere. rewrite H. replace (r * r - r * r) with 0 by ring. rewrite Rabs_R0. exact E. Qed.

Lemma c52_contains eps s c r p : 0 < eps -> good_sphere s c r ->
  exists b, sp_contains eps s (Some p) = Ok b /\ (b = true <-> near_sphere eps c r p)
    /\ (on_sphere c r p -> b = true) /\ (b = true -> 0 < r -> Rabs (dist3 p c - r) < eps / r).
Proof.
  intros He [-> R]. destruct (sphere_contains eps _ c r p eq_refl) as (b & E & H). exists b. split; [exact E |]. split; [exact H |]. split.
  - intros O. apply H, on_sphere_near; assumption.
  - intros B R0. apply H in B. unfold near_sphere in B. set (d := dist3 p c) in *. assert (D : 0 <= d) by apply norm3_nonneg.
    replace (d * d - r * r) with ((d - r) * (d + r)) in B by ring. rewrite Rabs_mult, (Rabs_right (d + r)) in B by lra.
    apply Rmult_lt_reg_r with r; [exact R0 |]. replace (eps / r * r) with eps by (field; lra). pose proof (Rabs_pos (d - r)). nra.
Qed.
Lemma c52_sets eps s c r ps : good_sphere s c r ->
  exists a b, sp_contains_ps eps s ps = Ok a /\ sp_intersects_ps eps s ps = Ok b
    /\ (a = true <-> ps <> [] /\ forall p, In p ps -> near_sphere eps c r p)
    /\ (b = true <-> exists p, In p ps /\ near_sphere eps c r p).
Proof.
  intros [-> R]. unfold sp_contains_ps, sp_intersects_ps. cbn [sp_data sp_center sp_radius bind]. set (s := mkSphere (Some c) (Some r)).
  destruct ps as [| p ps].
  - exists false, false. cbn [ps_isEmpty]. repeat split; try discriminate; intros H; [destruct H; congruence | destruct H as (p & [] & _)].
  - cbn [ps_isEmpty].
    destruct (allM_ok (fun x => sp_contains eps s (Some x)) (near_sphere eps c r) (p :: ps)) as (a & A & Ha); [intros x _; apply sphere_contains; reflexivity |].
    destruct (anyM_ok (fun x => sp_contains eps s (Some x)) (near_sphere eps c r) (p :: ps)) as (b & B & Hb); [intros x _; apply sphere_contains; reflexivity |].
    exists a, b. split; [exact A |]. split; [exact B |]. split; [| exact Hb]. rewrite Ha. split; [intros H; split; [discriminate | exact H] | tauto].
Qed.
Lemma c52_errors g eps s p ps l ry sg pl b :
  sp_data s = Err EUndefined ->
  sp_contains eps s (Some p) = Err EUndefined /\ sp_contains eps s None = Err EUndefined
  /\ sp_contains_ps eps s ps = Err EUndefined /\ sp_intersects_ps eps s ps = Err EUndefined
  /\ sp_intersects_line g s l = Err EUndefined /\ sp_intersects_ray g s ry = Err EUndefined
  /\ sp_intersects_segment g s sg = Err EUndefined /\ sp_intersects_plane g s pl = Err EUndefined
  /\ sp_inter_line g s l = Err EUndefined /\ sp_inter_ray g eps s ry b = Err EUndefined /\ sp_inter_segment g eps s sg = Err EUndefined.
Proof.
  intros E. unfold sp_contains, sp_contains_ps, sp_intersects_ps, sp_intersects_line, sp_intersects_ray, sp_intersects_segment, sp_intersects_plane, sp_inter_line, sp_inter_ray, sp_inter_segment.
  rewrite E. destruct l as [[] []], ry as [[] []], sg as [[] []], pl as [[] []]; repeat split.
Qed.
Lemma c52_intersects g s c r : sphere_queries g -> good_sphere s c r ->
  (forall l o d, good_line l o d -> exists b, sp_intersects_line g s l = Ok b /\ decides b (fun p => on_line o d p /\ dist3 p c <= r))
  /\ (forall ry o d, good_ray ry o d -> exists b, sp_intersects_ray g s ry = Ok b /\ decides b (fun p => on_ray o d p /\ dist3 p c <= r))
  /\ (forall pl q n, good_plane pl q n -> exists b, sp_intersects_plane g s pl = Ok b /\ decides b (fun p => on_plane q n p /\ dist3 p c <= r)).
Proof.
  intros G [-> R]. split; [| split].
  - intros l o d [-> U]. eexists. split; [reflexivity |]. apply (sq_ti_line g G); assumption.
  - intros l o d [-> U]. eexists. split; [reflexivity |]. apply (sq_ti_ray g G); assumption.
  - intros l o d [-> U]. eexists. split; [reflexivity |]. apply (sq_ti_plane g G); assumption.
Qed.
Lemma c52_intersects_segment_partial g s c r a b : sphere_queries g -> good_sphere s c r -> a <> b ->
  (exists x, on_segment a b x /\ r < dist3 x c) ->
  exists k, sp_intersects_segment g s (mkSeg (Some a) (Some b)) = Ok k /\ decides k (fun p => on_segment a b p /\ dist3 p c <= r).
Proof.
  intros G [-> R] N (x & X & H). eexists. split; [reflexivity |]. apply (sq_ti_segment g G); try assumption.
  exists x. split; [exact X |]. unfold ball. lra.
Qed.

(** The line: exactly the common points. *)
Lemma c52_line g s c r l o d : sphere_queries g -> good_sphere s c r -> good_line l o d ->
  exists i, sp_inter_line g s l = Ok i /\ represents i (fun p => on_line o d p /\ on_sphere c r p).
Proof.
  intros G [-> R] [-> U]. unfold sp_inter_line. cbn [l_data l_origin l_direction sp_data sp_center sp_radius bind].
  pose proof (sq_fi_line g G o d c r U R) as C. apply chord_ball in C; [| exact R]. set (f := fi_line_sphere g o d c r) in *.
  assert (H : forall x, on_line o d x /\ on_sphere c r x <-> In x (found f)).
  { intros x. rewrite (sphere_form_surface c r x R). split.
    - intros [A B]. apply (found_complete _ _ sphere_form sphere_pos c (r * r) f (on_line o d) x C A B).
    - intros I. destruct (found_sound _ _ sphere_form c (r * r) f (on_line o d) d x (unit_nonzero d U) C I) as (A & _ & B).
      split; [exact A | apply B, extends_line, A]. }
  destruct f as [[| p [| q [| z m]]] |]; cbn [chord] in C; try contradiction.
  - eexists. split; [reflexivity |]. apply represents_point. intros x. rewrite H. simpl. intuition congruence.
  - destruct C as [N _]. rewrite (pair_set p q N). eexists. split; [reflexivity |]. apply represents_pointset. exact H.
  - eexists. split; [reflexivity |]. apply represents_empty. intros x X. apply H in X. exact X.
Qed.

(** The ray. *)
Definition nearb eps c r (x : v3) : bool := Rltb (Rabs (sqnorm3 (sub3 x c) - r * r)) eps.
Lemma nearb_iff eps c r x : nearb eps c r x = true <-> near_sphere eps c r x.
Proof. unfold nearb, near_sphere, dist3. rewrite norm3_sq. unfold Rltb. destruct (Rlt_dec _ _); split; try discriminate; tauto. Qed.
Lemma eq_dec_or (E x : v3) : x = E \/ x <> E.
Proof. destruct (v3_eq_dec x E); tauto. Qed.

Lemma kept_single near (E : v3 -> Prop) (e : bool) p : (e = true <-> E p) ->
  represents (if e && negb (near p) then inter_empty else inter_point p) (kept near E [p]).
Proof.
  intros He. destruct e, (near p) eqn:Hn; cbn [andb negb]; try (apply represents_point; intros x; unfold kept; simpl; split; [intros [[<- | []] _]; reflexivity | intros ->]).
  - tauto.
  - apply represents_empty. intros x [[<- | []] X]. rewrite X in Hn by (apply He; reflexivity). discriminate.
  - tauto.
  - split; [tauto |]. intros X. apply He in X. discriminate.
Qed.
Lemma kept_both near (E : v3 -> Prop) p q : p <> q -> (E p -> near p = true) -> (E q -> near q = true) ->
  represents (inter_pointset [p; q]) (kept near E [p; q]).
Proof.
  intros N Hp Hq. apply represents_pointset. intros x. unfold kept. split; [tauto |].
  intros I. split; [exact I |]. destruct I as [<- | [<- | []]]; assumption.
Qed.
Lemma kept_second near (E : v3 -> Prop) p q : p <> q -> E p -> near p = false -> (E q -> near q = true) ->
  represents (inter_point q) (kept near E [p; q]).
Proof.
  intros N Hp Np Hq. apply represents_point. intros x. unfold kept. simpl. split.
  - intros [[<- | [<- | []]] X]; [rewrite X in Np by assumption; discriminate | reflexivity].
  - intros ->. tauto.
Qed.
Lemma kept_first near (E : v3 -> Prop) p q : p <> q -> E q -> near q = false -> (E p -> near p = true) ->
  represents (inter_point p) (kept near E [p; q]).
Proof.
  intros N Hp Np Hq. apply represents_point. intros x. unfold kept. simpl. split.
  - intros [[<- | [<- | []]] X]; [reflexivity | rewrite X in Np by assumption; discriminate].
  - intros ->. tauto.
Qed.
Lemma kept_none near (E : v3 -> Prop) p q : E p -> E q -> near p = false -> near q = false ->
  represents inter_empty (kept near E [p; q]).
Proof.
  intros Hp Hq Np Nq. apply represents_empty. intros x [[<- | [<- | []]] X]; rewrite X in * by assumption; discriminate.
Qed.

Lemma c52_ray g eps s c r ry o d : 0 < eps -> sphere_queries g -> good_sphere s c r -> good_ray ry o d ->
  exists i T, sp_inter_ray g eps s ry false = Ok i /\ represents i T
    /\ hits (on_ray o d) (on_sphere c r) (near_sphere eps c r) (fun x => x = o) T
    /\ exists j, sp_inter_ray g eps s ry true = Ok j
       /\ ((j = inter_empty /\ forall x, ~ T x) \/ (exists p, j = inter_point p /\ closest_of T o p)).
Proof.
  intros He G [-> R] [-> U].
  pose proof (sq_fi_ray g G o d c r U R) as C. apply chord_ball in C; [| exact R].
  unfold sp_inter_ray. cbn [r_data r_origin r_direction sp_data sp_center sp_radius bind].
  set (f := fi_ray_sphere g o d c r) in *. set (T := kept (nearb eps c r) (fun x => x = o) (found f)).
  assert (Hh : hits (on_ray o d) (on_sphere c r) (near_sphere eps c r) (fun x => x = o) T).
  { assert (K := kept_hits (nearb eps c r) _ _ sphere_form sphere_pos c (r * r) (on_ray o d) d (fun x => x = o) f (near_sphere eps c r)
      (unit_nonzero d U) (nearb_iff eps c r)).
    destruct K as [K1 K2].
    - intros x X. apply on_sphere_near; [exact He |]. apply sphere_form_surface; assumption.
    - intros x X Y. apply extends_ray; assumption.
    - intros x. apply eq_dec_or.
    - exact C.
    - split; [intros x A B; apply K1; [exact A | apply sphere_form_surface; assumption] |].
      intros x X. destruct (K2 x X) as [A [B | B]]; split; try assumption; [left; apply sphere_form_surface; assumption | right; exact B]. }
  assert (Cn : forall x, sp_contains eps (mkSphere (Some c) (Some r)) (Some x) = Ok (nearb eps c r x)) by reflexivity.
  assert (One : forall i (p : v3) b, represents (if b : bool then inter_empty else inter_point p) i -> 
     ((if b then inter_empty else inter_point p) = inter_empty /\ forall x, ~ i x) \/ (exists q, (if b then inter_empty else inter_point p) = inter_point q /\ closest_of i o q)).
  { intros S p b [_ H]. destruct b.
    - left. split; [reflexivity |]. intros x X. apply H in X. destruct X as (z & [] & _).
    - right. exists p. split; [reflexivity |]. split; [apply H; exists (OPoint (Some p)); split; [left; reflexivity | reflexivity] |].
      intros x X. apply H in X. destruct X as (z & [<- | []] & Z). simpl in Z. injection Z as ->. lra. }
  destruct f as [[| p [| q [| z m]]] |]; cbn [chord] in C; try contradiction; cbn [found] in T.
  - rewrite Cn. cbn [bind]. assert (Rp : represents (if v3_eqb p o && negb (nearb eps c r p) then inter_empty else inter_point p) T)
      by (apply kept_single, eqb_true).
    assert (Eq : (if v3_eqb p o && negb (nearb eps c r p) then Ok inter_empty else Ok (inter_point p))
      = Ok (if v3_eqb p o && negb (nearb eps c r p) then inter_empty else inter_point p)) by (destruct (v3_eqb p o && negb (nearb eps c r p)); reflexivity).
    rewrite Eq. do 2 eexists. split; [reflexivity |]. split; [exact Rp |]. split; [exact Hh |]. eexists. split; [reflexivity |]. apply One, Rp.
  - destruct C as [N _]. rewrite (pair_set p q N), !Cn. cbn [bind].
    destruct (v3_eqb p o && negb (nearb eps c r p)) eqn:B1; [| destruct (v3_eqb q o && negb (nearb eps c r q)) eqn:B2].
    + apply andb_true_iff in B1. destruct B1 as [E1 N1]. apply eqb_true in E1. apply negb_true_iff in N1.
      assert (Rp : represents (inter_point q) T) by (apply kept_second; try assumption; intros ->; congruence).
      do 2 eexists. split; [reflexivity |]. split; [exact Rp |]. split; [exact Hh |]. eexists. split; [reflexivity |]. apply (One T q false Rp).
    + apply andb_true_iff in B2. destruct B2 as [E2 N2]. apply eqb_true in E2. apply negb_true_iff in N2.
      assert (Rp : represents (inter_point p) T) by (apply kept_first; try assumption; intros ->; congruence).
      do 2 eexists. split; [reflexivity |]. split; [exact Rp |]. split; [exact Hh |]. eexists. split; [reflexivity |]. apply (One T p false Rp).
    + assert (Hp : p = o -> nearb eps c r p = true) by (intros X; apply eqb_true in X; rewrite X in B1; destruct (nearb eps c r p); [reflexivity | discriminate]).
      assert (Hq : q = o -> nearb eps c r q = true) by (intros X; apply eqb_true in X; rewrite X in B2; destruct (nearb eps c r q); [reflexivity | discriminate]).
      assert (Rp : represents (inter_pointset [p; q]) T) by (apply kept_both; assumption).
      do 2 eexists. split; [reflexivity |]. split; [exact Rp |]. split; [exact Hh |].
      destruct (c51_closest [p; q] o ltac:(discriminate)) as (x & Ex & Ix & Cx). rewrite Ex. cbn [bind]. eexists. split; [reflexivity |].
      right. exists x. split; [reflexivity |]. split.
      * split; [exact Ix |]. destruct Ix as [<- | [<- | []]]; assumption.
      * intros y [Iy _]. apply Cx, Iy.
  - assert (Rp : represents inter_empty T) by (apply represents_empty; intros x [[] _]).
    do 2 eexists. split; [reflexivity |]. split; [exact Rp |]. split; [exact Hh |]. eexists. split; [reflexivity |]. apply (One T o true Rp).
Qed.

(** The segment. *)
Lemma c52_segment g eps s c r a b : 0 < eps -> sphere_queries g -> good_sphere s c r -> a <> b ->
  exists i T, sp_inter_segment g eps s (mkSeg (Some a) (Some b)) = Ok i /\ represents i T
    /\ hits (on_segment a b) (on_sphere c r) (near_sphere eps c r) (fun x => x = a \/ x = b) T.
Proof.
  intros He G [-> R] Nab.
  pose proof (sq_fi_segment g G a b c r Nab R) as C. apply chord_ball in C; [| exact R].
  unfold sp_inter_segment. cbn [s_data s_first s_second sp_data sp_center sp_radius bind].
  set (f := fi_segment_sphere g a b c r) in *. set (T := kept (nearb eps c r) (fun x => x = a \/ x = b) (found f)).
  assert (Hh : hits (on_segment a b) (on_sphere c r) (near_sphere eps c r) (fun x => x = a \/ x = b) T).
  { assert (D : sub3 b a <> zero3) by (intros X; apply Nab; symmetry; apply sub3_0, X).
    assert (K := kept_hits (nearb eps c r) _ _ sphere_form sphere_pos c (r * r) (on_segment a b) (sub3 b a) (fun x => x = a \/ x = b) f (near_sphere eps c r)
      D (nearb_iff eps c r)).
    destruct K as [K1 K2].
    - intros x X. apply on_sphere_near; [exact He |]. apply sphere_form_surface; assumption.
    - intros x X Y. apply extends_segment; tauto.
    - intros x. destruct (eq_dec_or a x), (eq_dec_or b x); tauto.
    - exact C.
    - split; [intros x A B; apply K1; [exact A | apply sphere_form_surface; assumption] |].
      intros x X. destruct (K2 x X) as [A [B | B]]; split; try assumption; [left; apply sphere_form_surface; assumption | right; exact B]. }
  assert (Cn : forall x, sp_contains eps (mkSphere (Some c) (Some r)) (Some x) = Ok (nearb eps c r x)) by reflexivity.
  destruct f as [[| p [| q [| z m]]] |]; cbn [chord] in C; try contradiction; cbn [found] in T.
  - rewrite Cn. cbn [bind]. exists (if (v3_eqb p a || v3_eqb p b) && negb (nearb eps c r p) then inter_empty else inter_point p), T.
    split; [destruct ((v3_eqb p a || v3_eqb p b) && negb (nearb eps c r p)); reflexivity |]. split; [| exact Hh].
    apply kept_single. rewrite orb_true_iff, !eqb_true. reflexivity.
  - destruct C as [N _]. rewrite (pair_set p q N), !Cn. cbn [bind].
    assert (E : exists i, represents i T /\ (if v3_eqb p a && negb (nearb eps c r p) then if v3_eqb q b && negb (nearb eps c r q) then Ok inter_empty else Ok (inter_point q)
       else if v3_eqb p b && negb (nearb eps c r p) then if v3_eqb q a && negb (nearb eps c r q) then Ok inter_empty else Ok (inter_point q)
       else if v3_eqb q a && negb (nearb eps c r q) then if v3_eqb p b && negb (nearb eps c r p) then Ok inter_empty else Ok (inter_point p)
       else if v3_eqb q b && negb (nearb eps c r q) then if v3_eqb p a && negb (nearb eps c r p) then Ok inter_empty else Ok (inter_point p)
       else Ok (inter_pointset [p; q])) = Ok i).
    { destruct (nearb eps c r p) eqn:Kp, (nearb eps c r q) eqn:Kq; cbn [negb]; rewrite ?andb_false_r, ?andb_true_r.
      - eexists. split; [| reflexivity]. apply kept_both; auto.
      - destruct (v3_eqb q a) eqn:Qa; [| destruct (v3_eqb q b) eqn:Qb].
        + eexists. split; [| reflexivity]. apply eqb_true in Qa. apply kept_first; auto.
        + eexists. split; [| reflexivity]. apply eqb_true in Qb. apply kept_first; auto.
        + eexists. split; [| reflexivity]. apply eqb_false in Qa, Qb. apply kept_both; auto. tauto.
      - destruct (v3_eqb p a) eqn:Pa; [| destruct (v3_eqb p b) eqn:Pb].
        + eexists. split; [| reflexivity]. apply eqb_true in Pa. apply kept_second; auto.
        + eexists. split; [| reflexivity]. apply eqb_true in Pb. apply kept_second; auto.
        + eexists. split; [| reflexivity]. apply eqb_false in Pa, Pb. apply kept_both; auto. tauto.
      - destruct (v3_eqb p a) eqn:Pa; [| destruct (v3_eqb p b) eqn:Pb].
        + apply eqb_true in Pa. destruct (v3_eqb q b) eqn:Qb.
          * apply eqb_true in Qb. eexists. split; [| reflexivity]. apply kept_none; auto.
          * apply eqb_false in Qb. eexists. split; [| reflexivity]. apply kept_second; auto. intros [X | X]; congruence.
        + apply eqb_true in Pb. destruct (v3_eqb q a) eqn:Qa.
          * apply eqb_true in Qa. eexists. split; [| reflexivity]. apply kept_none; auto.
          * apply eqb_false in Qa. eexists. split; [| reflexivity]. apply kept_second; auto. intros [X | X]; congruence.
        + apply eqb_false in Pa, Pb. destruct (v3_eqb q a) eqn:Qa; [| destruct (v3_eqb q b) eqn:Qb].
          * apply eqb_true in Qa. eexists. split; [| reflexivity]. apply kept_first; auto. tauto.
          * apply eqb_true in Qb. eexists. split; [| reflexivity]. apply kept_first; auto. tauto.
          * apply eqb_false in Qa, Qb. eexists. split; [| reflexivity]. apply kept_both; auto; tauto. }
    destruct E as (i & Ri & Ei). exists i, T. split; [exact Ei |]. split; [exact Ri | exact Hh].
  - exists inter_empty, T. split; [reflexivity |]. split; [| exact Hh]. apply represents_empty. intros x [[] _].
Qed.

(** Equality. *)
Lemma sphere_same_center c r c' r' : 0 < r -> (forall p, on_sphere c r p -> on_sphere c' r' p) -> c = c' /\ r = r' \/ r' < 0.
Proof.
  intros R H. destruct (Rlt_dec r' 0) as [L | L]; [right; exact L | left].
  assert (P : forall u, sqnorm3 u = 1 -> 2 * r * dot3 u (sub3 c c') + sqnorm3 (sub3 c c') + r * r = r' * r').
  { intros u U. assert (O : on_sphere c r (add3 c (scale3 r u))).
    { unfold on_sphere, dist3. replace (sub3 (add3 c (scale3 r u)) c) with (scale3 r u) by v3ring. rewrite norm3_scale, Rabs_right by lra.
      unfold norm3. rewrite U, sqrt_1. ring. }
    apply H in O. apply sphere_form_surface in O; [| lra]. unfold fsurface in O. rewrite <- O.
    replace (sub3 (add3 c (scale3 r u)) c') with (add3 (sub3 c c') (scale3 r u)) by v3ring. rewrite sphere_form, U, (dot3_sym (sub3 c c') u). ring. }
  assert (X := P (V3 1 0 0) ltac:(v3unfold; ring)). assert (X' := P (V3 (-1) 0 0) ltac:(v3unfold; ring)).
  assert (Y := P (V3 0 1 0) ltac:(v3unfold; ring)). assert (Y' := P (V3 0 (-1) 0) ltac:(v3unfold; ring)).
  assert (Z := P (V3 0 0 1) ltac:(v3unfold; ring)). assert (Z' := P (V3 0 0 (-1)) ltac:(v3unfold; ring)).
  assert (E : c = c').
  { destruct c as [x y z], c' as [x' y' z']. v3unfold. clear P H. 
    assert (A : r * (x - x') = 0) by lra. assert (B : r * (y - y') = 0) by lra. assert (D : r * (z - z') = 0) by lra.
    apply Rmult_integral in A, B, D. apply V3_eq; destruct A, B, D; lra. }
  split; [exact E |]. subst c'. replace (sub3 c c) with zero3 in X by v3ring. v3unfold. apply Rsqr_inj; unfold Rsqr; lra.
Qed.
Lemma c52_equal s t c r c' r' : good_sphere s c r -> good_sphere t c' r' -> (sp_eq s t = true <-> same_points (on_sphere c r) (on_sphere c' r')).
Proof.
  intros [-> R] [-> R']. unfold sp_eq. cbn [sp_data sp_center sp_radius]. rewrite andb_true_iff, eqb_true, Reqb_iff. split.
  - intros [-> ->] p. reflexivity.
  - intros H. destruct (Rle_lt_or_eq_dec _ _ R) as [P | <-].
    + destruct (sphere_same_center c r c' r' P) as [X | X]; [intros p; apply H | exact X | lra].
    + destruct (Rle_lt_or_eq_dec _ _ R') as [P | <-].
      * destruct (sphere_same_center c' r' c 0 P) as [[X Y] | X]; [intros p; apply H | lra | lra].
      * assert (O : on_sphere c 0 c) by (unfold on_sphere, dist3; apply norm3_0; v3ring). apply H in O. unfold on_sphere, dist3 in O. apply norm3_0, sub3_0 in O. tauto.
Qed.
Lemma c52_negative_radius_refuted : exists s t eps, 0 < eps /\ (forall p, sp_contains eps s (Some p) = sp_contains eps t (Some p))
  /\ sp_eq s s = true /\ sp_eq s t = false /\ exists p, sp_contains eps t (Some p) = Ok true.
Proof.
  exists (mkSphere (Some zero3) (Some 1)), (mkSphere (Some zero3) (Some (-1))), 1. split; [lra |]. split; [| split; [| split]].
  - intros p. unfold sp_contains. cbn [needd bind sp_data sp_center sp_radius]. replace (-1 * -1) with (1 * 1) by ring. reflexivity.
  - unfold sp_eq. cbn [sp_data sp_center sp_radius]. rewrite (proj2 (eqb_true _ _) eq_refl), (proj2 (Reqb_iff _ _) eq_refl). reflexivity.
  - unfold sp_eq. cbn [sp_data sp_center sp_radius]. rewrite (proj2 (Reqb_false 1 (-1))) by lra. apply andb_false_r.
  - exists (V3 1 0 0). unfold sp_contains. cbn [needd bind sp_data sp_center sp_radius]. f_equal. unfold Rltb. destruct (Rlt_dec _ _) as [H | H]; [reflexivity |].
    exfalso. apply H. replace (sqnorm3 (sub3 (V3 1 0 0) zero3) - -1 * -1) with 0 by (v3unfold; ring). rewrite Rabs_R0. lra.
Qed.

(** Transformations. *)
Lemma c52_rigid eps prec t s c r : 0 < eps -> 0 < prec -> proper3 eps prec t -> good_sphere s c r ->
  exists f s', maps_points3 t f /\ sp_apply t s = Ok s' /\ good_sphere s' (f c) r /\ image_of f (on_sphere c r) (on_sphere (f c) r)
    /\ forall p, sp_contains eps s' (Some (f p)) = sp_contains eps s (Some p).
Proof.
  intros He Hp H [-> R]. destruct (proper_shape eps prec t He Hp H) as (ty & l & d & -> & Rl & N0).
  assert (N : ty <> TUndefined) by (intros ->; exact N0). clear N0.
  exists (amap l d), (mkSphere (Some (amap l d c)) (Some r)). split; [apply apply_affine |]. split; [| split; [split; [reflexivity | exact R] | split]].
  - unfold sp_apply, t3_isRigid. rewrite apply_defined by assumption. cbn [negb sp_data sp_center sp_radius bind t3_rigid].
    rewrite pt_apply_affine by assumption. reflexivity.
  - intros q. unfold on_sphere, dist3. split.
    + intros X. exists (amap (transpose3 l) (opp3 (mulv3 (transpose3 l) d)) q).
      assert (E : q = amap l d (amap (transpose3 l) (opp3 (mulv3 (transpose3 l) d)) q)) by (symmetry; apply amap_inv_r, rotation_right, Rl).
      split; [| exact E]. rewrite E, amap_sub in X. unfold norm3 in *. rewrite rotation_unit in X by assumption. exact X.
    + intros (p & X & ->). rewrite amap_sub. unfold norm3 in *. rewrite rotation_unit by assumption. exact X.
  - intros p. unfold sp_contains. cbn [needd bind sp_data sp_center sp_radius]. rewrite amap_sub, rotation_unit by assumption. reflexivity.
Qed.
Lemma c52_not_rigid t s c r : t3_isRigid t = Ok false -> s = mkSphere (Some c) (Some r) -> sp_apply t s = Err ERuntime.
Proof.
  intros H ->. unfold sp_apply. unfold t3_isRigid in *. destruct (t3_isDefined t); [| discriminate]. cbn [negb sp_data sp_center sp_radius bind].
  injection H as ->. reflexivity.
Qed.
