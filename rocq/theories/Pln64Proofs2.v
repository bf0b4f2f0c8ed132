(** Double precision: distances to segments of the plane. *)

From Coq Require Import List Bool Arith ZArith Reals Lra Lia Psatz Floats.SpecFloat.
From Verif Require Import Result Vec DOrder RotModel AngleModel FloatSpec FloatProofs FloatProofs2 FloatModel FloatProofs3 FloatProofs4 FloatProofs5 FloatProofs7 FloatProofs10
  VecProofs Geo3Types Geo3Model Geo3Spec Geo3Proofs Geo3Proofs2 Geo2Model Geo2Spec Geo2Proofs Geo64Model Geo64Spec Geo64Proofs Geo64Proofs2 Geo64Proofs3 Geo64Proofs4 Geo64Proofs5 Geo64Proofs6 Geo64Proofs7 Geo64Proofs8
  Rot64Model Dst64Model Dst64Proofs Dst64Proofs2 Pln64Model Pln64Spec Pln64Proofs.
Import ListNotations.
Local Open Scope R_scope.

Lemma length_pos r a b : finite3 a -> finite3 b -> within3 (P2 200) a -> within3 (P2 200) b -> P2 (-200) <= dist3 (val3 b) (val3 a) -> finite64 (fsqnorm3 r (fsub3 b a)) /\ 0 < rval (fsqnorm3 r (fsub3 b a)).
Proof.
  intros Fa Fb Ba Bb LB. pose proof (P2_pos (-200)) as P200. destruct (sub3_approx b a 200 Fb Fa Bb Ba ltac:(lia)) as (FB & BB & AB).
  destruct (dot_err r _ _ _ _ (200 + 2) FB FB BB BB AB AB ltac:(lia)) as [Fl El]. rewrite absdot_sq in El. fold (fsqnorm3 r (fsub3 b a)) in *. unfold dist3 in LB.
  change (dot3 (sub3 (val3 b) (val3 a)) (sub3 (val3 b) (val3 a))) with (sqnorm3 (sub3 (val3 b) (val3 a))) in El. rewrite <- norm3_sq in El.
  set (B := sub3 (val3 b) (val3 a)) in *. set (l := fsqnorm3 r (fsub3 b a)) in *. set (nB := norm3 B) in *.
  assert (BB' : P2 (-400) <= nB * nB) by (replace (-400)%Z with (-200 + -200)%Z by lia; rewrite P2_add; apply Rmult_le_compat; lra). pose proof (P2_pos (-400)).
  assert (T4 : 4 * tiny <= e53 * (nB * nB)).
  { apply Rle_trans with (e53 * P2 (-400)); [| apply Rmult_le_compat_l; [unfold e53; lra | exact BB']]. rewrite <- e53_P2, <- P2_add. replace 4 with (P2 2) by (rewrite <- P2_Z by lia; reflexivity). unfold tiny. rewrite <- P2_add. apply P2_mono. lia. }
  apply abs_le in El. split; [exact Fl |]. unfold e53 in *. lra.
Qed.
Lemma positive_form l : finite64 l -> 0 < rval l -> exists m e, l = S754_finite false m e.
Proof.
  destruct l as [s | s | | s m e]; intros F P; try contradiction; [cbn in P; lra |]. destruct s; [| exists m, e; reflexivity]. rewrite rval_sg in P. cbn [sg] in P. pose proof (pos_pos m e). lra.
Qed.
Lemma clamp_zero m t : t = std_max64 zero64 m -> finite64 t -> b64_mul t zero64 = zero64.
Proof.
  unfold std_max64. destruct (SFltb zero64 m) eqn:E; intros -> F; [| reflexivity]. apply (SFltb_val zero64 m I F) in E. destruct (positive_form m F E) as (k & e & ->). reflexivity.
Qed.
(** The segment of the plane and that of the plane z = 0 of space give the same distance. *)
Lemma emb_segment a b p x : finite2 a -> finite2 b -> finite64 (fsqnorm3 FirstTwo (fsub3 (emb b) (emb a))) /\ 0 < rval (fsqnorm3 FirstTwo (fsub3 (emb b) (emb a))) ->
  finite64 (b64_div (fdot3 FirstTwo (fsub3 (emb p) (emb a)) (fsub3 (emb b) (emb a))) (fsqnorm3 FirstTwo (fsub3 (emb b) (emb a)))) ->
  s64_distanceTo FirstTwo (mkS64 (Some (emb a)) (Some (emb b))) (Some (emb p)) = Ok x -> finite64 x ->
  exists y, ps64_distanceTo (mkPS64 (Some a) (Some b)) (Some p) = Ok y /\ finite64 y /\ rval y = rval x.
Proof.
  intros Fa Fb [Fl Pl] Fq. unfold s64_distanceTo, ps64_distanceTo. cbn [need3 bind s64_data s64_first s64_second ps64_data ps64_first ps64_second]. replace (feq3 (emb a) (emb b)) with (feq2 a b) by (unfold feq3, feq2; cbn [emb fx fy fz]; rewrite (andb_true_r); reflexivity).
  destruct (feq2 a b); [apply emb_distance |]. rewrite !emb_sub in *. rewrite emb_sqnorm in *. rewrite emb_dot in *.
  assert (Z : sf_add (fsqnorm2 (fsub2 b a)) zero64 = fsqnorm2 (fsub2 b a)) by (destruct (add0 (fsqnorm2 (fsub2 b a))) as [E | [_ E]]; [exact E | rewrite E in Pl; cbn in Pl; lra]). rewrite Z in *.
  destruct (positive_form _ Fl Pl) as (m & e & El). set (l := fsqnorm2 (fsub2 b a)) in *. set (s := fdot2 (fsub2 p a) (fsub2 b a)) in *.
  assert (T : std_max64 zero64 (std_min64 (b64_of_Z 1) (b64_div (sf_add s zero64) l)) = std_max64 zero64 (std_min64 (b64_of_Z 1) (b64_div s l))).
  { destruct (add0 s) as [-> | [-> ->]]; [reflexivity |]. rewrite El. reflexivity. }
  pose proof (clamp_val _ Fq) as [Ft _]. rewrite T in *. set (t := std_max64 zero64 (std_min64 (b64_of_Z 1) (b64_div s l))) in *.
  replace (fadd3 (emb a) (fscale3 t (emb (fsub2 b a)))) with (emb (fadd2 a (fscale2 t (fsub2 b a)))) by (unfold emb, fadd3, fadd2, fscale3, fscale2; cbn [fx fy fz fx2 fy2]; rewrite (clamp_zero _ t eq_refl Ft); reflexivity).
  apply emb_distance.
Qed.
Lemma ratio_finite r a b p : finite3 a -> finite3 b -> finite3 p -> within3 (P2 200) a -> within3 (P2 200) b -> within3 (P2 200) p -> P2 (-200) <= dist3 (val3 b) (val3 a) ->
  finite64 (b64_div (fdot3 r (fsub3 p a) (fsub3 b a)) (fsqnorm3 r (fsub3 b a))).
Proof.
  intros Fa Fb Fp Ba Bb Bp LB. pose proof (P2_pos (-200)) as P200. destruct (sub3_approx p a 200 Fp Fa Bp Ba ltac:(lia)) as (FP & BP & AP). destruct (sub3_approx b a 200 Fb Fa Bb Ba ltac:(lia)) as (FB & BB & AB).
  destruct (dot_err r _ _ _ _ (200 + 2) FP FB BP BB AP AB ltac:(lia)) as [Fs Es]. destruct (dot_err r _ _ _ _ (200 + 2) FB FB BB BB AB AB ltac:(lia)) as [Fl El]. rewrite absdot_sq in El. fold (fsqnorm3 r (fsub3 b a)) in *.
  pose proof (absdot_cauchy (sub3 (val3 p) (val3 a)) (sub3 (val3 b) (val3 a))) as AC. pose proof (cauchy3_norm (sub3 (val3 p) (val3 a)) (sub3 (val3 b) (val3 a))) as SC.
  pose proof (norm_sub_le (val3 p) (val3 a)) as NP. pose proof (norm_sub_le (val3 b) (val3 a)) as NB. pose proof (within_norm _ _ Ba) as Wa. pose proof (within_norm _ _ Bb) as Wb. pose proof (within_norm _ _ Bp) as Wp.
  unfold dist3 in LB. change (dot3 (sub3 (val3 b) (val3 a)) (sub3 (val3 b) (val3 a))) with (sqnorm3 (sub3 (val3 b) (val3 a))) in El. rewrite <- norm3_sq in El.
  set (P := sub3 (val3 p) (val3 a)) in *. set (B := sub3 (val3 b) (val3 a)) in *. set (s := fdot3 r (fsub3 p a) (fsub3 b a)) in *. set (l := fsqnorm3 r (fsub3 b a)) in *. set (S := dot3 P B) in *.
  pose proof (norm3_nonneg P) as PP. pose proof tiny_pos as PT. set (nB := norm3 B) in *. set (nP := norm3 P) in *. set (na := norm3 (val3 a)) in *. set (nb := norm3 (val3 b)) in *. set (np := norm3 (val3 p)) in *.
  assert (PB : 0 < nB) by lra. assert (BB' : P2 (-400) <= nB * nB) by (replace (-400)%Z with (-200 + -200)%Z by lia; rewrite P2_add; apply Rmult_le_compat; lra).
  assert (T4 : 4 * tiny <= e53 * (nB * nB)).
  { apply Rle_trans with (e53 * P2 (-400)); [| apply Rmult_le_compat_l; [unfold e53; lra | exact BB']]. rewrite <- e53_P2, <- P2_add. replace 4 with (P2 2) by (rewrite <- P2_Z by lia; reflexivity). unfold tiny. rewrite <- P2_add. apply P2_mono. lia. }
  assert (Pl : P2 (-401) <= rval l).
  { apply abs_le in El. assert (P2 (-400) = 2 * P2 (-401)) by (replace 2 with (P2 1) by (rewrite <- P2_Z by lia; reflexivity); rewrite <- P2_add; reflexivity). pose proof (P2_pos (-401)). unfold e53 in *. lra. }
  assert (Es' : Rabs (rval s - S) <= 6 * e53 * (nP * nB) + 4 * tiny) by (unfold e53 in *; lra).
  pose proof (P2_pos (-401)) as P401. assert (DQ : Rabs (rval s / rval l) <= P2 1023).
  { assert (Bs : Rabs (rval s) <= P2 500).
    { pose proof (Rabs_triang (rval s - S) S) as T. replace (rval s - S + S) with (rval s) in T by ring. pose proof (P2_pos 200).
      assert (U : nP * nB <= 6 * P2 200 * (6 * P2 200)) by (apply Rmult_le_compat; lra). replace (6 * P2 200 * (6 * P2 200)) with (36 * P2 400) in U by (replace 400%Z with (200 + 200)%Z by lia; rewrite P2_add; ring).
      assert (V : 64 * P2 400 <= P2 500) by (replace 64 with (P2 6) by (rewrite <- P2_Z by lia; reflexivity); rewrite <- P2_add; apply P2_mono; lia). assert (tiny <= P2 400) by (apply P2_mono; lia). unfold e53 in *. lra. }
    unfold Rdiv. rewrite Rabs_mult, (Rabs_right (/ rval l)) by (apply Rle_ge, Rlt_le, Rinv_0_lt_compat; lra). apply Rle_trans with (P2 500 * / P2 (-401)).
    - apply Rmult_le_compat; [apply Rabs_pos | apply Rlt_le, Rinv_0_lt_compat; lra | exact Bs | apply Rinv_le_contravar; lra].
    - replace (-401)%Z with (- (401))%Z by lia. rewrite P2_le_abs by lia. rewrite Rinv_inv. rewrite <- P2_add. apply P2_mono. lia. }
  apply (div_any s l Fs Fl ltac:(lra) DQ).
Qed.
Lemma plane_segment a b q : on_segment (in_plane a) (in_plane b) q <-> exists q', q = in_plane q' /\ on_segment2 a b q'.
Proof.
  assert (E : forall t, along (in_plane a) t (sub3 (in_plane b) (in_plane a)) = in_plane (along2 a t (sub2 b a))) by (intros t; rewrite plane_sub; unfold along, along2, add3, add2, scale3, scale2, in_plane; cbn [vx vy vz x2 y2]; f_equal; ring).
  split; [intros (t & Ht & ->); exists (along2 a t (sub2 b a)); split; [apply E | exists t; split; [exact Ht | reflexivity]] | intros (q' & -> & t & Ht & ->); exists t; split; [exact Ht | symmetry; apply E]].
Qed.
Lemma plane_least a b p L : least_distance2 (on_segment2 a b) p L -> least_distance (on_segment (in_plane a) (in_plane b)) (in_plane p) L.
Proof.
  intros [(q & Sq & <-) H]. split; [exists (in_plane q); split; [apply plane_segment; exists q; split; [reflexivity | exact Sq] | apply plane_dist] |]. intros q' Sq'. apply plane_segment in Sq'. destruct Sq' as (q2 & -> & S2). rewrite plane_dist. apply H, S2.
Qed.
Lemma c158_segment a b p L : finite2 a -> finite2 b -> finite2 p -> within2 (P2 200) a -> within2 (P2 200) b -> within2 (P2 200) p -> P2 (-200) <= dist2 (val2 b) (val2 a) ->
  least_distance2 (on_segment2 (val2 a) (val2 b)) (val2 p) L ->
  exists x, ps64_distanceTo (mkPS64 (Some a) (Some b)) (Some p) = Ok x /\ finite64 x /\ Rabs (rval x - L) <= P2 (-47) * (norm2 (val2 a) + norm2 (val2 b) + norm2 (val2 p)) + P2 (-500).
Proof.
  intros Fa Fb Fp Ba Bb Bp LB H. rewrite <- plane_dist, <- !emb_val in LB. apply plane_least in H. rewrite <- !emb_val in H.
  pose proof (emb_finite _ Fa) as Fa'. pose proof (emb_finite _ Fb) as Fb'. pose proof (emb_finite _ Fp) as Fp'. pose proof (emb_within _ _ Ba) as Ba'. pose proof (emb_within _ _ Bb) as Bb'. pose proof (emb_within _ _ Bp) as Bp'.
  destruct (c157_segment FirstTwo _ _ _ L Fa' Fb' Fp' Ba' Bb' Bp' LB H) as (x & Ex & Fx & Dx). rewrite !emb_val, !plane_norm in Dx.
  destruct (emb_segment a b p x Fa Fb (length_pos _ _ _ Fa' Fb' Ba' Bb' LB) (ratio_finite _ _ _ _ Fa' Fb' Fp' Ba' Bb' Bp' LB) Ex Fx) as (y & Ey & Fy & Vy). exists y. split; [exact Ey |]. split; [exact Fy |]. rewrite Vy. exact Dx.
Qed.
Lemma c158_first a b : finite2 a -> finite2 b -> within2 (P2 200) a -> within2 (P2 200) b -> P2 (-200) <= dist2 (val2 b) (val2 a) ->
  exists x, ps64_distanceTo (mkPS64 (Some a) (Some b)) (Some a) = Ok x /\ finite64 x /\ rval x = 0.
Proof.
  intros Fa Fb Ba Bb LB. rewrite <- plane_dist, <- !emb_val in LB.
  pose proof (emb_finite _ Fa) as Fa'. pose proof (emb_finite _ Fb) as Fb'. pose proof (emb_within _ _ Ba) as Ba'. pose proof (emb_within _ _ Bb) as Bb'.
  destruct (c157_first FirstTwo _ _ Fa' Fb' Ba' Bb' LB) as (x & Ex & Fx & Vx).
  destruct (emb_segment a b a x Fa Fb (length_pos _ _ _ Fa' Fb' Ba' Bb' LB) (ratio_finite _ _ _ _ Fa' Fb' Fa' Ba' Bb' Ba' LB) Ex Fx) as (y & Ey & Fy & Vy). exists y. split; [exact Ey |]. split; [exact Fy |]. rewrite Vy. exact Vx.
Qed.
Lemma c158_degenerate a p : finite2 a -> ps64_distanceTo (mkPS64 (Some a) (Some a)) (Some p) = pt64_distanceTo2 (Some a) (Some p).
Proof.
  intros [Fx Fy]. unfold ps64_distanceTo. cbn [need3 bind ps64_data ps64_first ps64_second]. unfold feq2. rewrite (proj2 (SFeqb_val _ _ Fx Fx) eq_refl), (proj2 (SFeqb_val _ _ Fy Fy) eq_refl). reflexivity.
Qed.
Lemma c158_set a b ps : ps <> [] -> (forall p, In p ps -> exists y, ps64_distanceTo (mkPS64 (Some a) (Some b)) (Some p) = Ok y /\ finite64 y) ->
  exists x, ps64_distanceTo_ps (mkPS64 (Some a) (Some b)) ps = Ok x /\ finite64 x /\
    (exists p, In p ps /\ ps64_distanceTo (mkPS64 (Some a) (Some b)) (Some p) = Ok x) /\
    forall p y, In p ps -> ps64_distanceTo (mkPS64 (Some a) (Some b)) (Some p) = Ok y -> rval x <= rval y.
Proof.
  intros N H. destruct ps as [| p l]; [congruence |]. unfold ps64_distanceTo_ps. cbn [ps64_data ps64_first ps64_second bind]. set (D := fun q => ps64_distanceTo (mkPS64 (Some a) (Some b)) (Some q)) in *.
  set (g := fun q => match D q with Ok y => y | _ => zero64 end). assert (G : forall q, In q (p :: l) -> D q = Ok (g q) /\ finite64 (g q)) by (intros q I0; destruct (H q I0) as (y & E & F); unfold g; fold (D q) in E; rewrite E; split; [reflexivity | exact F]).
  fold (D p). rewrite (proj1 (G p (or_introl eq_refl))). cbn [bind]. change (mapM (fun q => ps64_distanceTo (mkPS64 (Some a) (Some b)) (Some q)) l) with (mapM D l).
  rewrite (mapM_ok D g l) by (intros q I0; apply (G q (or_intror I0))). cbn [bind].
  assert (FL : Forall finite64 (map g l)) by (apply Forall_forall; intros x I0; apply in_map_iff in I0; destruct I0 as (q & <- & I0); apply (G q (or_intror I0))).
  destruct (min_element_spec (map g l) (g p) (proj2 (G p (or_introl eq_refl))) FL) as (F & I0 & L & A). eexists. split; [reflexivity |]. split; [exact F |]. split.
  - destruct I0 as [E | I0]; [exists p; split; [left; reflexivity |]; fold (D p); rewrite E; apply (G p (or_introl eq_refl)) |].
    apply in_map_iff in I0. destruct I0 as (q & E & I0). exists q. split; [right; exact I0 |]. fold (D q). rewrite <- E. apply (G q (or_intror I0)).
  - intros q y [<- | Iq] E; fold (D q) in E || fold (D p) in E.
    + rewrite (proj1 (G p (or_introl eq_refl))) in E. injection E as <-. exact L.
    + rewrite (proj1 (G q (or_intror Iq))) in E. injection E as <-. apply A, in_map, Iq.
Qed.
Lemma c158_second_refuted : exists a b, finite2 a /\ finite2 b /\ exists x, ps64_distanceTo (mkPS64 (Some a) (Some b)) (Some b) = Ok x /\ 0 < rval x.
Proof.
  exists (F2 (b64_of_Z 1) zero64), (F2 (S754_finite false 4503599627370496 (-112)) zero64). split; [split; [vm_compute; reflexivity | exact I] |]. split; [split; [vm_compute; reflexivity | exact I] |].
  exists (S754_finite false 4503599627370496 (-112)). split; [vm_compute; reflexivity |]. rewrite rval_sg; cbn [sg]; pose proof (pos_pos 4503599627370496 (-112)); lra.
Qed.
(** The distance of the origin of a line is 0. *)
Lemma c158_origin o d : finite2 o -> finite2 d -> exists x, pl64_distanceTo (mkPL64 (Some o) (Some d)) (Some o) = Ok x /\ finite64 x /\ rval x = 0.
Proof.
  intros Fo Fd. destruct (self_sub (emb o) (emb_finite _ Fo)) as [Fs Vs]. rewrite emb_sub in Fs, Vs. unfold pl64_distanceTo. cbn [pl64_data pl64_origin pl64_direction bind pt64_sub2 need3].
  set (v := fsub2 o o) in *. destruct (zero3_dot FirstTwo (emb d) _ (emb_finite _ Fd) Fs Vs) as [Ft Vt]. rewrite dot_comm64, emb_dot in Ft, Vt. destruct (add0_val _ Ft) as [Ft' Vt']. rewrite Vt in Vt'.
  destruct Fs as (Fx & Fy & _). injection Vs as Vx Vy. destruct Fd as [Dx Dy]. set (s := fdot2 v d) in *.
  assert (Z : forall c y, finite64 c -> rval c = 0 -> finite64 y -> finite64 (sf_sub c (b64_mul s y)) /\ rval (sf_sub c (b64_mul s y)) = 0).
  { intros c y Fc Vc Fy'. destruct (mul_zero y s Fy' Ft' Vt') as [Fm Vm]. rewrite mul_comm64 in Fm, Vm. apply sub_zero; assumption. }
  destruct (Z _ _ Fx Vx Dx) as [G1 H1]. destruct (Z _ _ Fy Vy Dy) as [G2 H2]. eexists. split; [reflexivity |]. unfold fnorm2, fsqnorm2, fdot2, fsub2, fscale2. cbn [fx2 fy2 emb fx fy] in *. apply sqrt_zero.
  - destruct (mul_zero _ _ G1 G1 H1) as [A1 B1]. destruct (mul_zero _ _ G2 G2 H2) as [A2 B2]. apply (add_zero _ _ A1 A2 B1 B2).
  - destruct (mul_zero _ _ G1 G1 H1) as [A1 B1]. destruct (mul_zero _ _ G2 G2 H2) as [A2 B2]. apply (add_zero _ _ A1 A2 B1 B2).
Qed.
Lemma c158_zero_vector o v : finite2 v -> val2 v = V2 0 0 -> PLine64 o (Some v) = Err EWrong.
Proof.
  intros F V. assert (W : val3 (emb v) = V3 0 0 0) by (rewrite emb_val, V; reflexivity). pose proof (c130_zero FirstTwo None _ (emb_finite _ F) W) as C. unfold Line64 in C. rewrite emb_sqnorm in C. unfold PLine64.
  destruct (add0 (fsqnorm2 v)) as [E | [E E']]; [rewrite E in C; destruct (negb _); [destruct (SFeqb (fsqnorm2 v) zero64); [reflexivity | discriminate] | discriminate] | rewrite E; reflexivity].
Qed.
Lemma c158_errors p q o d a b tol : pt64_distanceTo2 None q = Err EUndefined /\ pt64_distanceTo2 p None = Err EUndefined /\ pt64_isNear2 p q None = Err EUndefined /\ pt64_isNear2 None q tol = Err EUndefined /\ pt64_isNear2 p None tol = Err EUndefined /\
  pl64_distanceTo (mkPL64 None d) p = Err EUndefined /\ pl64_distanceTo (mkPL64 o None) p = Err EUndefined /\ pl64_distanceTo (mkPL64 o d) None = Err EUndefined /\
  ps64_getLength (mkPS64 None b) = Err EUndefined /\ ps64_getLength (mkPS64 a None) = Err EUndefined /\
  ps64_distanceTo (mkPS64 None b) p = Err EUndefined /\ ps64_distanceTo (mkPS64 a None) p = Err EUndefined /\ ps64_distanceTo (mkPS64 a b) None = Err EUndefined.
Proof. destruct p, q, o, d, a, b, tol; repeat split. Qed.
Lemma c158_set_errors s a b ps : ps64_distanceTo_ps s [] = Err EUndefined /\ ps64_distanceTo_ps (mkPS64 None b) ps = Err EUndefined /\ ps64_distanceTo_ps (mkPS64 a None) ps = Err EUndefined.
Proof. destruct ps, a, b; repeat split. Qed.
Lemma c158_undefined_line o : exists l, PLine64 o None = Ok l /\ forall p, pl64_distanceTo l p = Err EUndefined.
Proof. exists (mkPL64 o None). split; [reflexivity |]. intros p. destruct o; reflexivity. Qed.
