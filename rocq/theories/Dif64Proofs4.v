(** The properties of nearness (C152). *)

From Coq Require Import List Bool ZArith Reals Lra Lia Psatz Floats.SpecFloat.
From Verif Require Import Result Vec Mat3 VecProofs AngleModel FloatModel FloatSpec FloatProofs FloatProofs2 FloatProofs3 FloatProofs4 FloatProofs5 FloatProofs7 FloatProofs8 FloatProofs10
  Geo3Spec Geo3Proofs Geo3Proofs2 Geo64Model Geo64Spec Geo64Proofs Geo64Proofs2 Geo64Proofs3 Geo64Proofs4 Geo64Proofs5 Geo64Proofs6 Geo64Proofs7 Geo64Proofs8 RotModel RotSpec RotProofs RotProofs2 RotProofs3 RotProofs4 RotProofs5 RotProofs7 RotProofs9 Rot64Model Rot64Spec Rot64Spec2 Rot64Proofs Rot64Proofs2 Rot64Proofs3 Rot64Proofs4 Rot64Proofs5 Rot64Proofs6 Rot64Proofs7 Rot64Proofs8 Rot64Proofs9 Rot64Proofs10 Rot64Proofs11 Rot64Proofs12 Rot64Proofs13 Rot64Proofs14 Rot64Proofs15 Rot64Proofs16 Rot64Proofs17 Att64Model Att64Spec Att64Proofs Att64Proofs2 Att64Proofs3 Att64Proofs4 Att64Proofs5 Att64Proofs7 Att64Proofs8 Att64Proofs9 Att64Proofs10 Pow64Model Pow64Spec Pow64Proofs Pow64Proofs2 Pow64Proofs3 Pow64Proofs4 Dif64Model Dif64Spec Dif64Proofs RotProofs6 Dif64Proofs2 Dif64Proofs3.
Import ListNotations.
Local Open Scope R_scope.

(** *** C152 *)
Lemma two_pi_val : finite64 two_pi64 /\ 6.28 < rval two_pi64 <= 6.29.
Proof. replace two_pi64 with (S754_finite false 7074237752028440 (-50)) by (vm_compute; reflexivity). split; [vm_compute; reflexivity |]. rewrite rval_sg. cbn [sg]. rewrite P2_m by lia. change (2 ^ (- -50))%Z with 1125899906842624%Z. lra. Qed.
Lemma turn_check : SFeqb (sf_sub two_pi64 zero64) two_pi64 = true.
Proof. vm_compute. reflexivity. Qed.
Lemma range_radian fuel v : in_range64 fuel Radian (mkA64 (Some v) Radian) (Some zero64) (Some two_pi64) = ReduceRange64 fuel v zero64 two_pi64.
Proof. unfold in_range64. cbn [need64 bind turn64]. rewrite turn_check. reflexivity. Qed.
Lemma in_now fuel v : finite64 v -> 0 <= rval v < rval two_pi64 -> in_range64 fuel Radian (mkA64 (Some v) Radian) (Some zero64) (Some two_pi64) = Ok v.
Proof.
  intros Fv Bv. rewrite range_radian. unfold ReduceRange64, sf_geb. destruct two_pi_val as [FT _]. rewrite (ltb_t _ _ Fv FT) by lra. replace (SFleb zero64 v) with true by (symmetry; apply SFleb_val; [exact I | exact Fv | change (rval zero64) with 0; lra]). reflexivity.
Qed.
Lemma range_whole fuel : in_range64 (S (S fuel)) Radian (mkA64 (Some two_pi64) Radian) (Some zero64) (Some two_pi64) = Ok zero64.
Proof. rewrite range_radian. vm_compute. reflexivity. Qed.
Lemma range_negative fuel : exists y, in_range64 (S (S fuel)) Radian (mkA64 (Some (b64_of_Z (-1))) Radian) (Some zero64) (Some two_pi64) = Ok y /\ finite64 y /\ 5 <= rval y.
Proof.
  exists (sf_add (b64_of_Z (-1)) two_pi64). rewrite range_radian. split; [vm_compute; reflexivity |].
  replace (sf_add (b64_of_Z (-1)) two_pi64) with (S754_finite false 5948337845185816 (-50)) by (vm_compute; reflexivity). split; [vm_compute; reflexivity |]. rewrite rval_sg. cbn [sg]. rewrite P2_m by lia. change (2 ^ (- -50))%Z with 1125899906842624%Z. lra.
Qed.
Lemma near_def facos fuel r eps p q tol t y : isDefined64 tol = true -> q64_angularDifferenceWith facos r eps p q = Ok (mkA64 (Some t) Radian) -> finite64 t -> 0 <= rval t <= 3.2 -> in_range64 fuel Radian tol (Some zero64) (Some two_pi64) = Ok y -> q64_isNear facos fuel r eps p q tol = Ok (SFleb t y).
Proof. intros D HT Ft Bt HY. destruct two_pi_val as [_ B]. unfold q64_isNear. rewrite D, HT. cbn [negb bind]. rewrite (in_now fuel t Ft ltac:(lra)). cbn [bind]. rewrite HY. reflexivity. Qed.
Lemma leb_f x y : finite64 x -> finite64 y -> rval y < rval x -> SFleb x y = false.
Proof. intros Fx Fy H. apply not_true_is_false. intros C. apply SFleb_val in C; [lra | assumption..]. Qed.
Lemma c152_near facos fuel r eps p q e v : acos_within facos e -> e <= / 1000 -> finite4 p -> finite4 q -> Rabs (len4 (val4 p) - 1) <= / 1000 -> Rabs (len4 (val4 q) - 1) <= / 1000 -> finite64 eps -> rval eps <= / 32 -> q64_isUnitary (Some p) (Some eps) = Ok true -> q64_isUnitary (Some q) (Some eps) = Ok true ->
  finite64 v -> 0 <= rval v <= 6.28 ->
  exists sg d th b, (sg = 1 \/ sg = -1) /\ norm3 d = 1 /\ 0 <= th <= PI / 2 /\ times4 sg (versor (val4 q)) = hamilton (polar 1 d th) (versor (val4 p)) /\
    q64_isNear facos fuel r eps (Some p) (Some q) (mkA64 (Some v) Radian) = Ok b /\
    (2 * th + 2 * e + P2 (-20) <= rval v -> b = true) /\ (b = true -> 2 * th <= rval v + 2 * e + P2 (-20)).
Proof.
  intros HF E1 Fp Fq Lp Lq Fe He UP UQ Fv Bv. destruct (difference_near facos r eps p q e HF E1 Fp Fq Lp Lq Fe He UP UQ) as (t & c & HT & Ft & Bt & _).
  destruct (c151_accurate facos r eps p q e HF E1 Fp Fq Lp Lq Fe He UP UQ) as (sg & d & th & t' & HS & D & T & Z & HT' & _ & _ & _ & A & _). rewrite HT in HT'. injection HT' as <-. destruct two_pi_val as [_ B].
  exists sg, d, th, (SFleb t v). split; [exact HS |]. split; [exact D |]. split; [exact T |]. split; [exact Z |]. split; [apply (near_def _ _ _ _ _ _ _ t v); [reflexivity | exact HT | exact Ft | exact Bt | apply in_now; [exact Fv | lra]] |].
    apply abs_le in A. split; [intros H; apply SFleb_val; [exact Ft | exact Fv | lra] | intros H; apply SFleb_val in H; [lra | exact Ft | exact Fv]].
Qed.
Lemma c152_threshold facos fuel r eps p q t v : q64_angularDifferenceWith facos r eps p q = Ok (mkA64 (Some t) Radian) -> finite64 t -> 0 <= rval t <= 6.28 -> finite64 v -> 0 <= rval v <= 6.28 ->
  exists b, q64_isNear facos fuel r eps p q (mkA64 (Some v) Radian) = Ok b /\ (b = true <-> rval t <= rval v).
Proof.
  intros HT Ft Bt Fv Bv. destruct two_pi_val as [_ K].
  exists (SFleb t v). split; [| apply SFleb_val; assumption]. unfold q64_isNear. cbn [isDefined64 aval64 aunit64 unit_eqb negb]. rewrite HT. cbn [bind]. rewrite !in_now by (try assumption; lra). reflexivity.
Qed.
Lemma c152_same facos fuel r eps p q v : finite64 (facos one_64) -> rval (facos one_64) = 0 -> finite4 p -> finite4 q -> Rabs (len4 (val4 p) - 1) <= / 1000 -> val4 q = val4 p \/ val4 q = times4 (-1) (val4 p) -> finite64 eps -> rval eps <= / 32 -> q64_isUnitary (Some p) (Some eps) = Ok true -> q64_isUnitary (Some q) (Some eps) = Ok true ->
  finite64 v -> 0 <= rval v <= 6.28 -> q64_isNear facos fuel r eps (Some p) (Some q) (mkA64 (Some v) Radian) = Ok true.
Proof.
  intros FO VO Fp Fq Lp HQ Fe He UP UQ Fv Bv. destruct (c151_same facos r eps p q FO VO Fp Fq Lp HQ Fe He UP UQ) as (t & HT & Ft & Vt).
  destruct (c152_threshold facos fuel r eps _ _ t v HT Ft ltac:(lra) Fv Bv) as (b & HB & IB). rewrite HB. f_equal. apply IB. lra.
Qed.
Lemma c152_order facos fuel r eps e : acos_within facos e -> e <= P2 (-28) -> rval (facos one_64) = 0 -> finite64 eps -> 0 < rval eps <= / 32 ->
  q64_isNear facos fuel r eps (Some dif_q) (Some dif_p) (mkA64 (Some (S754_finite false 4503599627370496 (-79))) Radian) = Ok true /\ q64_isNear facos fuel r eps (Some dif_p) (Some dif_q) (mkA64 (Some (S754_finite false 4503599627370496 (-79))) Radian) = Ok false.
Proof.
  set (v := S754_finite false 4503599627370496 (-79)). assert (Fv : finite64 v) by (vm_compute; reflexivity). assert (Vv : rval v = P2 (-27)). { unfold v. rewrite rval_sg. cbn [sg]. change (-27)%Z with (52 + -79)%Z. rewrite P2_add, <- (P2_Z 52) by lia. change (2 ^ 52)%Z with 4503599627370496%Z. ring. }
  pose proof (P2_pos (-27)) as PV. assert (P26 : P2 (-26) = 2 * P2 (-27)) by (change (-26)%Z with (1 + -27)%Z; rewrite P2_add; f_equal; rewrite <- P2_Z by lia; reflexivity). assert (PS : P2 (-27) <= 1) by (rewrite P2_m by lia; change (2 ^ (- -27))%Z with 134217728%Z; lra).
  intros HF E1 O Fe He. destruct (c151_order facos r eps e HF E1 O Fe He) as (_ & _ & s & t & HS & Fs & Vs & HT & Ft & Bt). destruct two_pi_val as [FT VT].
  unfold q64_isNear. cbn [isDefined64 aval64 aunit64 unit_eqb negb]. rewrite HS, HT. cbn [bind]. rewrite (in_now fuel s Fs) by lra. rewrite (in_now fuel v Fv) by lra. cbn [bind]. split; [f_equal; apply SFleb_val; [exact Fs | exact Fv | lra] |].
  rewrite (in_now fuel t Ft) by lra. cbn [bind]. f_equal. apply leb_f; [exact Ft | exact Fv | lra].
Qed.
Lemma c152_symmetric_refuted : exists p q v, finite64 v /\ 0 < rval v /\ forall facos fuel r eps e, acos_within facos e -> e <= P2 (-28) -> rval (facos one_64) = 0 -> finite64 eps -> 0 < rval eps <= / 32 ->
  q64_isUnitary (Some p) (Some eps) = Ok true /\ q64_isUnitary (Some q) (Some eps) = Ok true /\
  q64_isNear facos fuel r eps (Some q) (Some p) (mkA64 (Some v) Radian) = Ok true /\ q64_isNear facos fuel r eps (Some p) (Some q) (mkA64 (Some v) Radian) = Ok false.
Proof.
  exists dif_p, dif_q, (S754_finite false 4503599627370496 (-79)). split; [vm_compute; reflexivity |]. split; [rewrite rval_sg; cbn [sg]; pose proof (P2_pos (-79)); lra |].
  intros facos fuel r eps e HF E1 O Fe He. destruct (c151_order facos r eps e HF E1 O Fe He) as (UP & UQ & _). split; [exact UP |]. split; [exact UQ |]. apply (c152_order facos fuel r eps e HF E1 O Fe He).
Qed.
Lemma c152_monotone_refuted : exists p q v w, finite64 v /\ finite64 w /\ 0 < rval v < rval w /\ forall facos fuel r eps e, acos_within facos e -> e <= P2 (-28) -> rval (facos one_64) = 0 -> finite64 eps -> 0 < rval eps <= / 32 ->
  q64_isNear facos (S (S fuel)) r eps (Some p) (Some q) (mkA64 (Some v) Radian) = Ok true /\ q64_isNear facos (S (S fuel)) r eps (Some p) (Some q) (mkA64 (Some w) Radian) = Ok false.
Proof.
  destruct c151_symmetric_refuted as (p & q & _ & _ & H). destruct two_pi_val as [FT VT]. assert (F4 : finite64 (b64_of_Z 4)) by (vm_compute; reflexivity). assert (V4 : rval (b64_of_Z 4) = 4). { replace (b64_of_Z 4) with (S754_finite false 4503599627370496 (-50)) by (vm_compute; reflexivity). rewrite rval_sg. cbn [sg]. rewrite P2_m by lia. change (2 ^ (- -50))%Z with 1125899906842624%Z. lra. }
  exists p, q, (b64_of_Z 4), two_pi64. split; [exact F4 |]. split; [exact FT |]. split; [lra |]. intros facos fuel r eps e HF E1 O Fe He. destruct (H facos r eps e HF E1 O Fe He) as (_ & _ & s & t & _ & _ & _ & HT & Ft & Bt). pose proof (P2_pos (-26)) as PV. split.
  - rewrite (near_def facos (S (S fuel)) r eps _ _ (mkA64 (Some (b64_of_Z 4)) Radian) t (b64_of_Z 4) eq_refl HT Ft ltac:(lra)); [| apply in_now; [exact F4 | lra]]. f_equal. apply SFleb_val; [exact Ft | exact F4 | lra].
  - rewrite (near_def facos (S (S fuel)) r eps _ _ (mkA64 (Some two_pi64) Radian) t zero64 eq_refl HT Ft ltac:(lra) (range_whole fuel)). f_equal. apply leb_f; [exact Ft | exact I | change (rval zero64) with 0; lra].
Qed.
Lemma c152_negative facos fuel r eps p q e : acos_within facos e -> e <= / 1000 -> finite4 p -> finite4 q -> Rabs (len4 (val4 p) - 1) <= / 1000 -> Rabs (len4 (val4 q) - 1) <= / 1000 -> finite64 eps -> rval eps <= / 32 -> q64_isUnitary (Some p) (Some eps) = Ok true -> q64_isUnitary (Some q) (Some eps) = Ok true ->
  q64_isNear facos (S (S fuel)) r eps (Some p) (Some q) (mkA64 (Some (b64_of_Z (-1))) Radian) = Ok true.
Proof.
  intros HF E1 Fp Fq Lp Lq Fe He UP UQ. destruct (difference_near facos r eps p q e HF E1 Fp Fq Lp Lq Fe He UP UQ) as (t & c & HT & Ft & Bt & _). destruct (range_negative fuel) as (y & HY & Fy & By).
  rewrite (near_def facos (S (S fuel)) r eps _ _ (mkA64 (Some (b64_of_Z (-1))) Radian) t y eq_refl HT Ft Bt HY). f_equal. apply SFleb_val; [exact Ft | exact Fy | lra].
Qed.
Lemma c152_errors facos fuel r eps p q :
  (forall x, q64_isNear facos fuel r eps p q (mkA64 None x) = Err EUndefined) /\ (forall v, q64_isNear facos fuel r eps p q (mkA64 v UUndefined) = Err EUndefined) /\
  (forall tol x, isDefined64 tol = true -> q64_angularDifferenceWith facos r eps p q = Err x -> q64_isNear facos fuel r eps p q tol = Err x).
Proof.
  split; [| split].
  - intros x. reflexivity.
  - intros [v |]; reflexivity.
  - intros tol x D H. unfold q64_isNear. rewrite D, H. reflexivity.
Qed.
