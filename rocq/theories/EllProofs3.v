(** Proofs about the points ellipsoids share with lines, rays and segments (C89). *)

From Coq Require Import List Bool Reals Lra Lia Psatz.
From Verif Require Import Result DOrder Vec VecProofs Mat3 Mat4 AngleModel AngleProofs RotModel RotSpec RotProofs RotProofs2 RotProofs10 TransfModel TransfSpec
  TransfProofs TransfProofs2 Geo3Types Geo3Model Geo3Spec Geo3Proofs Geo3Proofs2 Geo3Proofs3 GteModel GteSpec ChordProofs SphereSpec SphereProofs GteProofs
  EllModel EllSpec EllProofs EllProofs2.
Import ListNotations.
Local Open Scope R_scope.

Section Found.
Variables (eps : R) (e : ellipsoid) (c : v3) (u : v3 * v3 * v3) (k : R * R * R).
Hypothesis He : 0 < eps.
Hypothesis G : good_ellipsoid eps e c u k.
Let F := ellipsoid_form u k.
Lemma found_form v t w : F (add3 v (scale3 t w)) = F v + 2 * t * ell_bilinear u k v w + t * t * F w.
Proof. apply ell_expand. Qed.
Lemma found_pos w : w <> zero3 -> 0 < F w.
Proof. apply ell_pos; [apply (c53_axes eps e c u k He G) | apply (good_positive eps e c u k G)]. Qed.
Definition enear (x : v3) : bool := match e_contains eps e (Some x) with Ok b => b | _ => false end.
Lemma enear_eq x : e_contains eps e (Some x) = Ok (enear x).
Proof.
  unfold enear. destruct (c53_contains eps e c u k x He G) as (b & f & w1 & w2 & w3 & E & _). rewrite E. reflexivity.
Qed.
Lemma enear_iff x : enear x = true <-> e_contains eps e (Some x) = Ok true.
Proof. rewrite enear_eq. split; [intros ->; reflexivity | apply ok_inj]. Qed.

Lemma kept_except (S : v3 -> Prop) d (E : v3 -> Prop) f :
  d <> zero3 -> (forall x, S x -> ~ E x -> extends S d x) -> (forall x, E x \/ ~ E x) ->
  chord f (both S (solid_ellipsoid c u k)) ->
  hits_except S (on_ellipsoid c u k) (fun x => e_contains eps e (Some x) = Ok true) E (kept enear E (found f)).
Proof.
  intros N Hx Dec C. split.
  - intros x Sx Fx Nx. split; [exact (found_complete F (ell_bilinear u k) found_form found_pos c 1 f S x C Sx Fx) | intros X; apply enear_iff, Nx, X].
  - intros x [I Kx]. destruct (found_sound F (ell_bilinear u k) found_form c 1 f S d x N C I) as (Sx & _ & X). split; [exact Sx |].
    destruct (Dec x) as [Ex | Ex]; [right; split; [exact Ex | apply enear_iff, Kx, Ex] | left; apply X, Hx; assumption].
Qed.
End Found.

Lemma c89_line g eps e c u k l o d : 0 < eps -> ellipsoid_queries g -> good_ellipsoid eps e c u k -> good_line l o d ->
  exists i, e_inter_line g eps e l = Ok i /\ represents i (fun p => on_line o d p /\ on_ellipsoid c u k p).
Proof.
  intros He Gq G [-> U]. destruct (c53_axes eps e c u k He G) as (O & A & _). destruct (good_data eps e c u k He G) as [q D]. pose proof (good_positive eps e c u k G) as P.
  unfold e_inter_line. rewrite D, A. destruct k as [[k1 k2] k3]. cbn [l_data l_origin l_direction bind].
  pose proof (eq_fi_line g Gq o d c u (k1, k2, k3) U O P) as C. set (f := fi_line_ellipsoid g o d c u (k1, k2, k3)) in *.
  assert (H : forall x, on_line o d x /\ on_ellipsoid c u (k1, k2, k3) x <-> In x (found f)).
  { intros x. split.
    - intros [X Y]. exact (found_complete _ _ (found_form u (k1, k2, k3)) (found_pos eps e c u (k1, k2, k3) He G) c 1 f (on_line o d) x C X Y).
    - intros I. destruct (found_sound _ _ (found_form u (k1, k2, k3)) c 1 f (on_line o d) d x (unit_nonzero d U) C I) as (X & _ & Y).
      split; [exact X | apply Y, extends_line, X]. }
  destruct f as [[| p [| r [| z m]]] |]; cbn [chord] in C; try contradiction.
  - eexists. split; [reflexivity |]. apply represents_point. intros x. rewrite H. simpl. intuition congruence.
  - destruct C as [N _]. rewrite (pair_set p r N). eexists. split; [reflexivity |]. apply represents_pointset. exact H.
  - eexists. split; [reflexivity |]. apply represents_empty. intros x X. apply H in X. exact X.
Qed.

Lemma merged_same eps T : merged eps T T.
Proof. split; [tauto |]. intros x X. exists x. split; [exact X | left; reflexivity]. Qed.
Lemma one_point (S : v3 -> Prop) (o p : v3) (b : bool) : represents (if b then inter_empty else inter_point p) S -> 
     ((if b then inter_empty else inter_point p) = inter_empty /\ forall x, ~ S x) \/ (exists q, (if b then inter_empty else inter_point p) = inter_point q /\ closest_of S o q).
Proof.
  intros [_ H]. destruct b.
  - left. split; [reflexivity |]. intros x X. apply H in X. destruct X as (z & [] & _).
  - right. exists p. split; [reflexivity |]. split; [apply H; exists (OPoint (Some p)); split; [left; reflexivity | reflexivity] |].
    intros x X. apply H in X. destruct X as (z & [<- | []] & Z). simpl in Z. injection Z as ->. lra.
Qed.

Lemma c89_ray_partial g eps e c u k ry o d : 0 < eps -> ellipsoid_queries g -> good_ellipsoid eps e c u k -> good_ray ry o d ->
  exists i T T', e_inter_ray g eps e ry false = Ok i /\ represents i T' /\ merged eps T T'
    /\ hits_except (on_ray o d) (on_ellipsoid c u k) (fun x => e_contains eps e (Some x) = Ok true) (fun x => x = o) T
    /\ exists j, e_inter_ray g eps e ry true = Ok j
       /\ ((j = inter_empty /\ forall x, ~ T' x) \/ (exists p, j = inter_point p /\ closest_of T' o p)).
Proof.
  intros He Gq G [-> U]. destruct (c53_axes eps e c u k He G) as (O & A & _). destruct (good_data eps e c u k He G) as [q0 D]. pose proof (good_positive eps e c u k G) as P.
  pose proof (enear_eq eps e c u k He G) as En.
  unfold e_inter_ray. rewrite D, A. destruct k as [[k1 k2] k3]. cbn [r_data r_origin r_direction bind]. set (k := (k1, k2, k3)) in *.
  pose proof (eq_fi_ray g Gq o d c u k U O P) as C. set (f := fi_ray_ellipsoid g o d c u k) in *.
  set (near := enear eps e) in *. set (T := kept near (fun x => x = o) (found f)).
  assert (Hh : hits_except (on_ray o d) (on_ellipsoid c u k) (fun x => e_contains eps e (Some x) = Ok true) (fun x => x = o) T).
  { apply (kept_except eps e c u k He G _ d); [apply unit_nonzero, U | | | exact C].
    - intros x X Y. apply extends_ray; assumption.
    - intros x. apply eq_dec_or. }
  destruct f as [[| p [| q [| z m]]] |]; cbn [chord] in C; try contradiction; cbn [found] in T.
  - rewrite En. cbn [bind]. assert (Rp : represents (if v3_eqb p o && negb (near p) then inter_empty else inter_point p) T)
      by (apply kept_single, eqb_true).
    assert (Eq : (if v3_eqb p o && negb (near p) then Ok inter_empty else Ok (inter_point p))
      = Ok (if v3_eqb p o && negb (near p) then inter_empty else inter_point p)) by (destruct (v3_eqb p o && negb (near p)); reflexivity).
    rewrite Eq. exists (if v3_eqb p o && negb (near p) then inter_empty else inter_point p), T, T.
    split; [reflexivity |]. split; [exact Rp |]. split; [apply merged_same |]. split; [exact Hh |]. eexists. split; [reflexivity |]. apply one_point, Rp.
  - destruct C as [N _]. rewrite (pair_set p q N), !En. cbn [bind].
    destruct (v3_eqb p o && negb (near p)) eqn:B1; [| destruct (v3_eqb q o && negb (near q)) eqn:B2].
    + apply andb_true_iff in B1. destruct B1 as [E1 N1]. apply eqb_true in E1. apply negb_true_iff in N1.
      assert (Rp : represents (inter_point q) T) by (apply kept_second; try assumption; intros ->; congruence).
      exists (inter_point q), T, T. split; [reflexivity |]. split; [exact Rp |]. split; [apply merged_same |]. split; [exact Hh |].
      eexists. split; [reflexivity |]. apply (one_point T o q false Rp).
    + apply andb_true_iff in B2. destruct B2 as [E2 N2]. apply eqb_true in E2. apply negb_true_iff in N2.
      assert (Rp : represents (inter_point p) T) by (apply kept_first; try assumption; intros ->; congruence).
      exists (inter_point p), T, T. split; [reflexivity |]. split; [exact Rp |]. split; [apply merged_same |]. split; [exact Hh |].
      eexists. split; [reflexivity |]. apply (one_point T o p false Rp).
    + assert (Hp : p = o -> near p = true) by (intros X; apply eqb_true in X; rewrite X in B1; destruct (near p); [reflexivity | discriminate]).
      assert (Hq : q = o -> near q = true) by (intros X; apply eqb_true in X; rewrite X in B2; destruct (near q); [reflexivity | discriminate]).
      assert (Rp : represents (inter_pointset [p; q]) T) by (apply kept_both; assumption).
      unfold Rltb. destruct (Rlt_dec (norm3 (sub3 p q)) eps) as [Cl | Cl].
      * assert (R1 : represents (inter_point p) (fun x => x = p)) by (apply represents_point; reflexivity).
        exists (inter_point p), T, (fun x => x = p). split; [reflexivity |]. split; [exact R1 |]. split; [| split; [exact Hh |]].
        -- split; [intros x ->; split; [left; reflexivity | exact Hp] |]. intros x [[<- | [<- | []]] X]; exists p; (split; [reflexivity |]); [left; reflexivity | right; exact Cl].
        -- eexists. split; [reflexivity |]. apply (one_point _ o p false R1).
      * exists (inter_pointset [p; q]), T, T. split; [reflexivity |]. split; [exact Rp |]. split; [apply merged_same |]. split; [exact Hh |].
        destruct (c51_closest [p; q] o ltac:(discriminate)) as (x & Ex & Ix & Cx). cbn [bind]. rewrite Ex. cbn [bind]. eexists. split; [reflexivity |].
        right. exists x. split; [reflexivity |]. split.
        -- split; [exact Ix |]. destruct Ix as [<- | [<- | []]]; assumption.
        -- intros y [Iy _]. apply Cx, Iy.
  - assert (Rp : represents inter_empty T) by (apply represents_empty; intros x [[] _]).
    exists inter_empty, T, T. split; [reflexivity |]. split; [exact Rp |]. split; [apply merged_same |]. split; [exact Hh |].
    eexists. split; [reflexivity |]. apply (one_point T o o true Rp).
Qed.

Lemma c89_segment_partial g eps e c u k a b : 0 < eps -> ellipsoid_queries g -> good_ellipsoid eps e c u k -> a <> b ->
  exists i T, e_inter_segment g eps e (mkSeg (Some a) (Some b)) = Ok i /\ represents i T
    /\ hits_except (on_segment a b) (on_ellipsoid c u k) (fun x => e_contains eps e (Some x) = Ok true) (fun x => x = a \/ x = b) T.
Proof.
  intros He Gq G Nab. destruct (c53_axes eps e c u k He G) as (O & A & _). destruct (good_data eps e c u k He G) as [q0 D]. pose proof (good_positive eps e c u k G) as P.
  pose proof (enear_eq eps e c u k He G) as En.
  unfold e_inter_segment. rewrite D, A. destruct k as [[k1 k2] k3]. cbn [s_data s_first s_second bind s_isDegenerate]. set (k := (k1, k2, k3)) in *.
  rewrite (proj2 (eqb_false a b) Nab), En. cbn [bind andb].
  pose proof (eq_fi_segment g Gq a b c u k Nab O P) as C. set (f := fi_segment_ellipsoid g a b c u k) in *.
  set (near := enear eps e) in *. set (T := kept near (fun x => x = a \/ x = b) (found f)).
  assert (Hh : hits_except (on_segment a b) (on_ellipsoid c u k) (fun x => e_contains eps e (Some x) = Ok true) (fun x => x = a \/ x = b) T).
  { apply (kept_except eps e c u k He G _ (sub3 b a)); [intros X; apply Nab; symmetry; apply sub3_0, X | | | exact C].
    - intros x X Y. apply extends_segment; tauto.
    - intros x. destruct (eq_dec_or a x), (eq_dec_or b x); tauto. }
  destruct f as [[| p [| q [| z m]]] |]; cbn [chord] in C; try contradiction; cbn [found] in T.
  - rewrite En. cbn [bind]. fold near. exists (if (v3_eqb p a || v3_eqb p b) && negb (near p) then inter_empty else inter_point p), T.
    split; [destruct ((v3_eqb p a || v3_eqb p b) && negb (near p)); reflexivity |]. split; [| exact Hh].
    apply kept_single. rewrite orb_true_iff, !eqb_true. reflexivity.
  - destruct C as [N _]. rewrite (pair_set p q N), !En. cbn [bind]. fold near.
    assert (E : exists i, represents i T /\ (if v3_eqb p a && negb (near p) then if v3_eqb q b && negb (near q) then Ok inter_empty else Ok (inter_point q)
       else if v3_eqb p b && negb (near p) then if v3_eqb q a && negb (near q) then Ok inter_empty else Ok (inter_point q)
       else if v3_eqb q a && negb (near q) then if v3_eqb p b && negb (near p) then Ok inter_empty else Ok (inter_point p)
       else if v3_eqb q b && negb (near q) then if v3_eqb p a && negb (near p) then Ok inter_empty else Ok (inter_point p)
       else Ok (inter_pointset [p; q])) = Ok i).
    { destruct (near p) eqn:Kp, (near q) eqn:Kq; cbn [negb]; rewrite ?andb_false_r, ?andb_true_r.
      - eexists. split; [| reflexivity]. apply kept_both; auto.
      - destruct (v3_eqb q a) eqn:Qa; [| destruct (v3_eqb q b) eqn:Qb].
        + eexists. split; [| reflexivity]. apply eqb_true in Qa. apply kept_first; auto.
        + eexists. split; [| reflexivity]. apply eqb_true in Qb. apply kept_first; auto.
        + eexists. split; [| reflexivity]. apply eqb_false in Qa, Qb. apply kept_both; auto. tauto.
      - destruct (v3_eqb p a) eqn:Pa; [| destruct (v3_eqb p b) eqn:Pb].
        + eexists. split; [| reflexivity]. apply eqb_true in Pa. apply kept_second; auto.
        + eexists. split; [| reflexivity]. apply eqb_true in Pb. apply kept_second; auto.
        + eexists. split; [| reflexivity]. apply eqb_false in Pa, Pb. apply kept_both; auto. tauto.
      - destruct (v3_eqb p a) eqn:Pa; [| destruct (v3_eqb p b) eqn:Pb].
        + apply eqb_true in Pa. destruct (v3_eqb q b) eqn:Qb.
          * apply eqb_true in Qb. eexists. split; [| reflexivity]. apply kept_none; auto.
          * apply eqb_false in Qb. eexists. split; [| reflexivity]. apply kept_second; auto. intros [X | X]; congruence.
        + apply eqb_true in Pb. destruct (v3_eqb q a) eqn:Qa.
          * apply eqb_true in Qa. eexists. split; [| reflexivity]. apply kept_none; auto.
          * apply eqb_false in Qa. eexists. split; [| reflexivity]. apply kept_second; auto. intros [X | X]; congruence.
        + apply eqb_false in Pa, Pb. destruct (v3_eqb q a) eqn:Qa; [| destruct (v3_eqb q b) eqn:Qb].
          * apply eqb_true in Qa. eexists. split; [| reflexivity]. apply kept_first; auto. tauto.
          * apply eqb_true in Qb. eexists. split; [| reflexivity]. apply kept_first; auto. tauto.
          * apply eqb_false in Qa, Qb. eexists. split; [| reflexivity]. apply kept_both; auto; tauto. }
    destruct E as (i & Ri & Ei). exists i, T. split; [exact Ei |]. split; [exact Ri | exact Hh].
  - exists inter_empty, T. split; [reflexivity |]. split; [| exact Hh]. apply represents_empty. intros x [[] _].
Qed.

(** A degenerate segment is tested as a point, without the query of the library when the point is accepted. *)
Lemma c89_degenerate g eps e c u k a : 0 < eps -> good_ellipsoid eps e c u k ->
  (e_contains eps e (Some a) = Ok true -> e_inter_segment g eps e (mkSeg (Some a) (Some a)) = Ok (inter_point a))
  /\ (e_contains eps e (Some a) = Ok false -> fi_segment_ellipsoid g a a c u k = None \/ fi_segment_ellipsoid g a a c u k = Some [a] ->
      e_inter_segment g eps e (mkSeg (Some a) (Some a)) = Ok inter_empty).
Proof.
  intros He G. destruct (c53_axes eps e c u k He G) as (_ & A & _). destruct (good_data eps e c u k He G) as [q0 D]. pose proof (proj2 (eqb_true a a) eq_refl) as E.
  unfold e_inter_segment. rewrite D, A. destruct k as [[k1 k2] k3]. cbn [s_data s_first s_second bind s_isDegenerate]. rewrite E. split; intros K.
  - rewrite K. reflexivity.
  - rewrite K. cbn [bind andb]. intros [-> | ->]; [reflexivity |]. rewrite K. cbn [bind]. rewrite E. reflexivity.
Qed.

(** A ray leaving the surface from the end of a semi-axis: its origin is missed. *)
Lemma chord_single f (S : v3 -> Prop) p : chord f S -> (forall x, S x <-> x = p) -> f = Some [p].
Proof.
  intros C H. pose proof (proj2 (H p) eq_refl) as Sp. destruct f as [[| a [| b [| z m]]] |]; cbn [chord] in C; try contradiction.
  - apply C in Sp. subst. reflexivity.
  - exfalso. destruct C as [N C]. apply N. rewrite (proj1 (H a) (proj2 (C a) (proj1 (on_segment_ends a b)))), (proj1 (H b) (proj2 (C b) (proj2 (on_segment_ends a b)))). reflexivity.
  - exfalso. apply (C p Sp).
Qed.
Lemma c89_origin_refuted g eps : 0 < eps -> eps <= 1 / 2 -> ellipsoid_queries g -> exists e c u k ry o d,
  good_ellipsoid eps e c u k /\ good_ray ry o d /\ on_ellipsoid c u k o /\ e_inter_ray g eps e ry false = Ok inter_empty.
Proof.
  intros He H1 Gq.
  assert (U : unit_q (Q4 0 0 (3 / 5) (4 / 5))) by (unfold unit_q; qunfold; field).
  assert (Ps : positive (2, 1, 1)) by (split; [lra | split; lra]).
  set (q := Q4 0 0 (3 / 5) (4 / 5)) in *.
  set (u := (rot (qconj q) (V3 1 0 0), rot (qconj q) (V3 0 1 0), rot (qconj q) (V3 0 0 1))).
  set (e := mkEll (Some zero3) (Some 2) (Some 1) (Some 1) (Some q)).
  set (d := V3 (7 / 25) (24 / 25) 0). set (o := scale3 2 d).
  assert (G : good_ellipsoid eps e zero3 u (2, 1, 1)) by (apply (good_make eps zero3 q); assumption).
  exists e, zero3, u, (2, 1, 1), (mkRay (Some o) (Some d)), o, d. split; [exact G |].
  assert (Ud : sqnorm3 d = 1) by (unfold d; v3unfold; field). split; [split; [reflexivity | exact Ud] |].
  assert (Fm : forall w, ellipsoid_form (V3 1 0 0, V3 0 1 0, V3 0 0 1) (2, 1, 1) w = (vx w / 2) ^ 2 + vy w ^ 2 + vz w ^ 2).
  { intros w. unfold ellipsoid_form. v3unfold. field. }
  assert (Z : forall v, sub3 v zero3 = v) by (intros; v3ring).
  assert (V : forall t, ellipsoid_form u (2, 1, 1) (sub3 (along o t d) zero3) = (1 + t / 2) ^ 2).
  { intros t. unfold u. rewrite Z, form_turned, Fm by assumption. unfold q. rewrite rot_z. unfold along, o, d. v3unfold. field. }
  assert (Oe : on_ellipsoid zero3 u (2, 1, 1) o) by (unfold on_ellipsoid; rewrite <- (along_0 o d), V; field).
  split; [exact Oe |].
  assert (S : forall x, both (on_ray o d) (solid_ellipsoid zero3 u (2, 1, 1)) x <-> x = o).
  { intros x. split.
    - intros [(t & T & ->) X]. unfold solid_ellipsoid in X. rewrite V in X. destruct (Req_dec t 0) as [-> | T0]; [apply along_0 |]. exfalso. nra.
    - intros ->. split; [exists 0; split; [lra | symmetry; apply along_0] |]. unfold solid_ellipsoid. unfold on_ellipsoid in Oe. lra. }
  destruct (c53_axes eps e zero3 u (2, 1, 1) He G) as (O & A & _).
  pose proof (chord_single _ _ o (eq_fi_ray g Gq o d zero3 u (2, 1, 1) Ud O Ps) S) as Ef.
  unfold e_inter_ray. rewrite A. cbn [r_data r_origin r_direction bind e_data e_center e_a e_b e_c e_q e]. rewrite Ef.
  assert (Cn : e_contains eps e (Some o) = Ok false).
  { unfold e. rewrite contains_eq, form_tested, Z, Fm by assumption. f_equal. apply Rltb_f. unfold q, qconj; cbn [qx qy qz qs]. rewrite !Ropp_0, rot_z. unfold o, d. v3unfold.
    rewrite Rabs_right; lra. }
  change (mkEll (Some zero3) (Some 2) (Some 1) (Some 1) (Some q)) with e. rewrite Cn. cbn [bind]. rewrite (proj2 (eqb_true o o) eq_refl). reflexivity.
Qed.
