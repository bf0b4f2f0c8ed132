(** Double precision: points of cuboids. *)

From Coq Require Import List Bool Arith ZArith Reals Lra Lia Psatz Floats.SpecFloat.
From Verif Require Import Result Vec AngleModel FloatSpec FloatProofs FloatProofs2 FloatModel FloatProofs3 FloatProofs4 FloatProofs5 FloatProofs7
  VecProofs Geo3Types Geo3Model Geo3Spec Geo3Proofs Geo64Model Geo64Spec Geo64Proofs Geo64Proofs2 Geo64Proofs3 Geo64Proofs4 Geo64Proofs7
  Dst64Model Dst64Proofs Dst64Proofs2 Box64Model Box64Spec.
Import ListNotations.
Local Open Scope R_scope.

Lemma coordinate_val r p o u : finite3 p -> finite3 o -> finite3 u -> within3 (P2 200) p -> within3 (P2 200) o -> within3 (P2 200) u ->
  finite64 (SFabs (fdot3 r (fsub3 p o) u)) /\ Rabs (rval (SFabs (fdot3 r (fsub3 p o) u))) <= P2 500 /\
  Rabs (rval (SFabs (fdot3 r (fsub3 p o) u)) - coordinate (val3 p) (val3 o) (val3 u)) <= coordinate_error (val3 p) (val3 o) (val3 u).
Proof.
  intros Fp Fo Fu Bp Bo Bu. destruct (sub3_approx p o 200 Fp Fo Bp Bo ltac:(lia)) as (FP & BP & AP).
  destruct (dot_err' r _ _ _ _ (200 + 2) FP Fu BP (within_weaken 200 (200 + 2) _ ltac:(lia) Bu) AP (exact_approx u) ltac:(lia)) as [Fs Es].
  pose proof (cauchy3_norm (sub3 (val3 p) (val3 o)) (val3 u)) as SC. pose proof (norm_sub_le (val3 p) (val3 o)) as NP. pose proof (within_norm _ _ Bp) as Wp. pose proof (within_norm _ _ Bo) as Wo. pose proof (within_norm _ _ Bu) as Wu.
  unfold coordinate, coordinate_error, dist3. change (powerRZ 2 (-50)) with (P2 (-50)). change (powerRZ 2 (-500)) with (P2 (-500)). destruct (abs_val _ Fs) as [Fa Va]. rewrite Va. set (s := rval (fdot3 r (fsub3 p o) u)) in *. set (S := dot3 (sub3 (val3 p) (val3 o)) (val3 u)) in *.
  pose proof (norm3_nonneg (sub3 (val3 p) (val3 o))) as PP. pose proof (norm3_nonneg (val3 u)) as PU. set (nP := norm3 (sub3 (val3 p) (val3 o))) in *. set (nu := norm3 (val3 u)) in *.
  pose proof (P2_pos (-500)) as P5. pose proof (P2_pos 200) as P200. split; [exact Fa |]. split.
  - rewrite Rabs_Rabsolu. pose proof (Rabs_triang (s - S) S) as T. replace (s - S + S) with s in T by ring.
    assert (U : nP * nu <= 6 * P2 200 * (3 * P2 200)) by (apply Rmult_le_compat; lra). replace (6 * P2 200 * (3 * P2 200)) with (18 * P2 400) in U by (replace 400%Z with (200 + 200)%Z by lia; rewrite P2_add; ring).
    assert (V : 64 * P2 400 <= P2 500) by (replace 64 with (P2 6) by (rewrite <- P2_Z by lia; reflexivity); rewrite <- P2_add; apply P2_mono; lia). assert (P2 (-500) <= P2 400) by (apply P2_mono; lia).
    assert (P2 (-50) * (nP * nu) <= nP * nu) by (rewrite <- (Rmult_1_l (nP * nu)) at 2; apply Rmult_le_compat_r; [apply Rmult_le_pos; assumption |]; rewrite <- P2_0; apply P2_mono; lia). lra.
  - pose proof (Rabs_triang_inv2 s S) as T. lra.
Qed.
Lemma face_val a e eps : finite64 a -> finite64 e -> finite64 eps -> Rabs (rval a) <= P2 500 -> Rabs (rval e) <= P2 500 ->
  (SFltb (SFabs (sf_sub a e)) eps = true -> Rabs (rval a - rval e) <= rval eps * (1 + P2 (-51))) /\ (Rabs (rval a - rval e) * (1 + P2 (-53)) < rval eps -> SFltb (SFabs (sf_sub a e)) eps = true).
Proof.
  intros Fa Fe Fp Ba Be. destruct (sub_rel a e 500 Fa Fe Ba Be ltac:(lia)) as (Fd & Ed & _). destruct (abs_val _ Fd) as [Fw Vw]. rewrite (SFltb_val _ _ Fw Fp), Vw. set (x := rval a - rval e) in *. set (w := rval (sf_sub a e)) in *.
  assert (Q : P2 (-51) = 4 * e53) by (rewrite <- e53_P2; replace 4 with (P2 2) by (rewrite <- P2_Z by lia; reflexivity); rewrite <- P2_add; reflexivity). rewrite Q, e53_P2.
  pose proof (Rabs_triang (x - w) w) as T1. replace (x - w + w) with x in T1 by ring. rewrite (Rabs_minus_sym x w) in T1. pose proof (Rabs_triang (w - x) x) as T2. replace (w - x + x) with w in T2 by ring. pose proof (Rabs_pos x) as Px.
  split; intros H; [| unfold e53 in *; lra]. assert (K : Rabs x * (1 - e53) < rval eps) by lra. pose proof (Rabs_pos w) as Pw. unfold e53 in *. lra.
Qed.
(** *** Points said to belong to the surface *)
Lemma c160_sound r eps o u0 u1 u2 e0 e1 e2 p : finite64 eps -> finite3 o -> finite3 p -> Forall finite3 [u0; u1; u2] -> Forall finite64 [e0; e1; e2] ->
  within3 (P2 200) o -> within3 (P2 200) p -> Forall (within3 (P2 200)) [u0; u1; u2] -> Forall (fun e => Rabs (rval e) <= P2 500) [e0; e1; e2] ->
  cu64_contains r eps (mkCu64 (Some o) (Some u0, Some u1, Some u2) (Some e0, Some e1, Some e2)) (Some p) = Ok true ->
  let near u e := Rabs (coordinate (val3 p) (val3 o) (val3 u) - rval e) <= rval eps * (1 + P2 (-51)) + coordinate_error (val3 p) (val3 o) (val3 u) in
  let inside u e := coordinate (val3 p) (val3 o) (val3 u) <= rval e + coordinate_error (val3 p) (val3 o) (val3 u) in
  (near u0 e0 /\ inside u1 e1 /\ inside u2 e2) \/ (inside u0 e0 /\ near u1 e1 /\ inside u2 e2) \/ (inside u0 e0 /\ inside u1 e1 /\ near u2 e2).
Proof.
  intros Fe Fo Fp FU FE Bo Bp BU BE H near inside. inversion_clear FU as [| ? ? Fu0 FU']. inversion_clear FU' as [| ? ? Fu1 FU'']. inversion_clear FU'' as [| ? ? Fu2 _]. inversion_clear FE as [| ? ? Fe0 FE']. inversion_clear FE' as [| ? ? Fe1 FE'']. inversion_clear FE'' as [| ? ? Fe2 _].
  inversion_clear BU as [| ? ? Bu0 BU']. inversion_clear BU' as [| ? ? Bu1 BU'']. inversion_clear BU'' as [| ? ? Bu2 _]. inversion_clear BE as [| ? ? Be0 BE']. inversion_clear BE' as [| ? ? Be1 BE'']. inversion_clear BE'' as [| ? ? Be2 _].
  destruct (coordinate_val r p o u0 Fp Fo Fu0 Bp Bo Bu0) as (Fa & Ba & Ea). destruct (coordinate_val r p o u1 Fp Fo Fu1 Bp Bo Bu1) as (Fb & Bb & Eb). destruct (coordinate_val r p o u2 Fp Fo Fu2 Bp Bo Bu2) as (Fc & Bc & Ec).
  unfold cu64_contains in H. cbn [need3 bind cu64_data cu64_center cu64_axes cu64_extent] in H. unfold near, inside.
  set (a := SFabs (fdot3 r (fsub3 p o) u0)) in *. set (b := SFabs (fdot3 r (fsub3 p o) u1)) in *. set (c := SFabs (fdot3 r (fsub3 p o) u2)) in *.
  set (A := coordinate _ _ (val3 u0)) in *. set (B := coordinate _ _ (val3 u1)) in *. set (C := coordinate _ _ (val3 u2)) in *.
  set (EA := coordinate_error _ _ (val3 u0)) in *. set (EB := coordinate_error _ _ (val3 u1)) in *. set (EC := coordinate_error _ _ (val3 u2)) in *.
  assert (N : forall x X E e, Rabs (rval x - X) <= E -> Rabs (rval x - rval e) <= rval eps * (1 + P2 (-51)) -> Rabs (X - rval e) <= rval eps * (1 + P2 (-51)) + E) by (intros x X E e U V; apply abs_le in U; apply abs_le in V; apply abs_of; lra).
  assert (I0 : forall x X E e, Rabs (rval x - X) <= E -> rval x <= rval e -> X <= rval e + E) by (intros x X E e U V; apply abs_le in U; lra).
  destruct (SFltb (SFabs (sf_sub a e0)) eps) eqn:L0; [left | right; destruct (SFltb (SFabs (sf_sub b e1)) eps) eqn:L1; [left | right; destruct (SFltb (SFabs (sf_sub c e2)) eps) eqn:L2; [| discriminate]]]; injection H as H; apply andb_prop in H; destruct H as [H1 H2].
  - apply (SFleb_val _ _ Fb Fe1) in H1. apply (SFleb_val _ _ Fc Fe2) in H2. apply (face_val a e0 eps Fa Fe0 Fe Ba Be0) in L0. split; [eapply N; eassumption |]. split; eapply I0; eassumption.
  - apply (SFleb_val _ _ Fa Fe0) in H1. apply (SFleb_val _ _ Fc Fe2) in H2. apply (face_val b e1 eps Fb Fe1 Fe Bb Be1) in L1. split; [eapply I0; eassumption |]. split; [eapply N | eapply I0]; eassumption.
  - apply (SFleb_val _ _ Fa Fe0) in H1. apply (SFleb_val _ _ Fb Fe1) in H2. apply (face_val c e2 eps Fc Fe2 Fe Bc Be2) in L2. split; [eapply I0; eassumption |]. split; [eapply I0 | eapply N]; eassumption.
Qed.
(** *** Points inside and next to the surface *)
Lemma c160_complete r eps o u0 u1 u2 e0 e1 e2 p : finite64 eps -> finite3 o -> finite3 p -> Forall finite3 [u0; u1; u2] -> Forall finite64 [e0; e1; e2] ->
  within3 (P2 200) o -> within3 (P2 200) p -> Forall (within3 (P2 200)) [u0; u1; u2] -> Forall (fun e => Rabs (rval e) <= P2 500) [e0; e1; e2] ->
  let near u e := (rval e - coordinate (val3 p) (val3 o) (val3 u) + coordinate_error (val3 p) (val3 o) (val3 u)) * (1 + P2 (-53)) < rval eps in
  let inside u e := coordinate (val3 p) (val3 o) (val3 u) + coordinate_error (val3 p) (val3 o) (val3 u) <= rval e in
  inside u0 e0 -> inside u1 e1 -> inside u2 e2 -> near u0 e0 \/ near u1 e1 \/ near u2 e2 ->
  cu64_contains r eps (mkCu64 (Some o) (Some u0, Some u1, Some u2) (Some e0, Some e1, Some e2)) (Some p) = Ok true.
Proof.
  intros Fe Fo Fp FU FE Bo Bp BU BE near inside. inversion_clear FU as [| ? ? Fu0 FU']. inversion_clear FU' as [| ? ? Fu1 FU'']. inversion_clear FU'' as [| ? ? Fu2 _]. inversion_clear FE as [| ? ? Fe0 FE']. inversion_clear FE' as [| ? ? Fe1 FE'']. inversion_clear FE'' as [| ? ? Fe2 _].
  inversion_clear BU as [| ? ? Bu0 BU']. inversion_clear BU' as [| ? ? Bu1 BU'']. inversion_clear BU'' as [| ? ? Bu2 _]. inversion_clear BE as [| ? ? Be0 BE']. inversion_clear BE' as [| ? ? Be1 BE'']. inversion_clear BE'' as [| ? ? Be2 _].
  destruct (coordinate_val r p o u0 Fp Fo Fu0 Bp Bo Bu0) as (Fa & Ba & Ea). destruct (coordinate_val r p o u1 Fp Fo Fu1 Bp Bo Bu1) as (Fb & Bb & Eb). destruct (coordinate_val r p o u2 Fp Fo Fu2 Bp Bo Bu2) as (Fc & Bc & Ec).
  unfold cu64_contains. cbn [need3 bind cu64_data cu64_center cu64_axes cu64_extent]. unfold near, inside.
  set (a := SFabs (fdot3 r (fsub3 p o) u0)) in *. set (b := SFabs (fdot3 r (fsub3 p o) u1)) in *. set (c := SFabs (fdot3 r (fsub3 p o) u2)) in *.
  set (A := coordinate _ _ (val3 u0)) in *. set (B := coordinate _ _ (val3 u1)) in *. set (C := coordinate _ _ (val3 u2)) in *.
  set (EA := coordinate_error _ _ (val3 u0)) in *. set (EB := coordinate_error _ _ (val3 u1)) in *. set (EC := coordinate_error _ _ (val3 u2)) in *. intros I0 I1 I2 H.
  assert (J : forall x X E e, finite64 x -> finite64 e -> Rabs (rval x - X) <= E -> X + E <= rval e -> SFleb x e = true) by (intros x X E e U V W K; apply (SFleb_val _ _ U V); apply abs_le in W; lra).
  assert (N : forall x X E e, finite64 x -> finite64 e -> Rabs (rval x) <= P2 500 -> Rabs (rval e) <= P2 500 -> Rabs (rval x - X) <= E -> X + E <= rval e -> (rval e - X + E) * (1 + P2 (-53)) < rval eps -> SFltb (SFabs (sf_sub x e)) eps = true).
  { intros x X E e U V Bx Be W K L. apply (face_val x e eps U V Fe Bx Be). eapply Rle_lt_trans; [| exact L]. apply Rmult_le_compat_r; [pose proof (P2_pos (-53)); lra |]. apply abs_le in W. apply abs_of. lra. }
  rewrite (J a A EA e0 Fa Fe0 Ea I0), (J b B EB e1 Fb Fe1 Eb I1), (J c C EC e2 Fc Fe2 Ec I2). cbn [andb].
  destruct (SFltb (SFabs (sf_sub a e0)) eps) eqn:L0; [reflexivity |]. destruct (SFltb (SFabs (sf_sub b e1)) eps) eqn:L1; [reflexivity |]. destruct (SFltb (SFabs (sf_sub c e2)) eps) eqn:L2; [reflexivity |]. exfalso.
  destruct H as [H | [H | H]]; [rewrite (N a A EA e0 Fa Fe0 Ba Be0 Ea I0 H) in L0 | rewrite (N b B EB e1 Fb Fe1 Bb Be1 Eb I1 H) in L1 | rewrite (N c C EC e2 Fc Fe2 Bc Be2 Ec I2 H) in L2]; discriminate.
Qed.
Lemma c160_total r eps o u0 u1 u2 e0 e1 e2 p : exists t, cu64_contains r eps (mkCu64 (Some o) (Some u0, Some u1, Some u2) (Some e0, Some e1, Some e2)) (Some p) = Ok t.
Proof.
  unfold cu64_contains. cbn [need3 bind cu64_data cu64_center cu64_axes cu64_extent]. destruct (SFltb _ eps); [eexists; reflexivity |]. destruct (SFltb _ eps); [eexists; reflexivity |]. destruct (SFltb _ eps); eexists; reflexivity.
Qed.
(** The corner at the extents from the center, computed in double precision, may be left out: center (0.1, 0.1, 0.1) and extents 0.2, with the axes of space. *)
Lemma c160_corner_refuted : exists o e, finite3 o /\ finite64 e /\ forall r eps,
  cu64_contains r eps (mkCu64 (Some o) (Some (F3 (b64_of_Z 1) zero64 zero64), Some (F3 zero64 (b64_of_Z 1) zero64), Some (F3 zero64 zero64 (b64_of_Z 1))) (Some e, Some e, Some e)) (Some (fadd3 o (F3 e e e))) = Ok false.
Proof.
  set (x := S754_finite false 7205759403792794 (-56)). exists (F3 x x x), (S754_finite false 7205759403792794 (-55)). split; [repeat split; vm_compute; reflexivity |]. split; [vm_compute; reflexivity |].
  intros r eps. unfold cu64_contains. cbn [need3 bind cu64_data cu64_center cu64_axes cu64_extent].
  set (e := S754_finite false 7205759403792794 (-55)). set (d := fsub3 _ _).
  assert (L : forall u, u = F3 (b64_of_Z 1) zero64 zero64 \/ u = F3 zero64 (b64_of_Z 1) zero64 \/ u = F3 zero64 zero64 (b64_of_Z 1) -> SFleb (SFabs (fdot3 r d u)) e = false) by (intros u [-> | [-> | ->]]; destruct r; vm_compute; reflexivity).
  rewrite !L by auto. cbn [andb]. repeat match goal with |- context [if ?b then _ else _] => destruct b end; reflexivity.
Qed.
Lemma c160_errors r eps c o u e u0 u1 u2 e0 e1 e2 p : cu64_contains r eps c None = Err EUndefined /\ cu64_contains r eps (mkCu64 None u e) p = Err EUndefined /\
  cu64_contains r eps (mkCu64 o (None, u1, u2) e) p = Err EUndefined /\ cu64_contains r eps (mkCu64 o (u0, None, u2) e) p = Err EUndefined /\ cu64_contains r eps (mkCu64 o (u0, u1, None) e) p = Err EUndefined /\
  cu64_contains r eps (mkCu64 o u (None, e1, e2)) p = Err EUndefined /\ cu64_contains r eps (mkCu64 o u (e0, None, e2)) p = Err EUndefined /\ cu64_contains r eps (mkCu64 o u (e0, e1, None)) p = Err EUndefined.
Proof.
  unfold cu64_contains, cu64_data. cbn [cu64_center cu64_axes cu64_extent]. repeat split; repeat (match goal with |- context [match ?x with _ => _ end] => is_var x; destruct x end; cbn [need3 bind]; try reflexivity); destruct p; reflexivity.
Qed.
