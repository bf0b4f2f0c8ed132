(** Properties C16 to C21: angles. *)

From Coq Require Import List Reals Lra Lia ZArith Bool Floats.SpecFloat.
From Verif Require Import Result DOrder Vec VecProofs AngleModel AngleSpec AngleProofs AngleProofs2.
Import ListNotations.
Local Open Scope R_scope.

(** ** C16 Range reduction lands in the range and preserves the angle *)
Theorem C16_reduction :
  range_reduces inRadians (2 * PI) /\ range_reduces inDegrees 360
  /\ range_reduces inArcminutes (360 * 60) /\ range_reduces inArcseconds (360 * 3600).
Proof. exact c16_reduces. Qed.
Print Assumptions C16_reduction.

Theorem C16_other_ranges_rejected :
  range_rejects inRadians (2 * PI) /\ range_rejects inDegrees 360
  /\ range_rejects inArcminutes (360 * 60) /\ range_rejects inArcseconds (360 * 3600).
Proof. exact c16_rejects. Qed.
Print Assumptions C16_other_ranges_rejected.

(** 725 degrees is an angle; in [-180, 180[ it is 5 degrees. *)
Example C16_example : turns (mkA (Some 725) Degree) = Some (725 / 360)
  /\ inDegrees 10 (mkA (Some 725) Degree) (Some (-180)) (Some 180) = Ok 5.
Proof.
  split; [reflexivity |]. unfold inDegrees, in_range. simpl need. cbn [bind].
  destruct Req_EM_T as [_ | C]; [| exfalso; apply C; lra]. change (in_unit (mkA (Some 725) Degree) Degree) with (Ok 725).
  cbn [bind]. unfold ReduceRange. rewrite (Rltb_f 725 (-180)), (Rltb_f 725 180) by lra. cbn [negb andb].
  cbn [up_turns]. rewrite (Rltb_f 725 (-180)) by lra. cbn [bind down_turns].
  rewrite (Rltb_f 725 180) by lra. rewrite (Rltb_f (725 - (180 - -180)) 180) by lra.
  rewrite (Rltb_t (725 - (180 - -180) - (180 - -180)) 180) by lra. f_equal; lra.
Qed.

(** ** C17 Range reduction terminates in double precision *)
(** False: on 2^70, reduced to [0, 360[, subtracting 360 changes nothing and the loop
    never ends, whatever the fuel. *)
Theorem C17_terminates_refuted :
  exists v lo hi : spec_float,
    valid_binary 53 1024 v = true /\ valid_binary 53 1024 lo = true /\ valid_binary 53 1024 hi = true
    /\ diverges (fun fuel => ReduceRange64 fuel v lo hi).
Proof.
  exists b64_2p70, b64_0, b64_360.
  split; [reflexivity | split; [reflexivity | split; [reflexivity | exact c17_diverges]]].
Qed.
Print Assumptions C17_terminates_refuted.

(** What remains true, for any rounding of the additions and subtractions that is monotone
    and leaves the integers up to 2^53 alone: integer ranges and values up to 2^53. *)
Theorem C17_integer_range_partial :
  forall rnd : R -> R,
  (forall x y, x <= y -> rnd x <= rnd y) ->
  (forall z : Z, (Z.abs z <= 2 ^ 53)%Z -> rnd (IZR z) = IZR z) ->
  forall (l h : Z) v, (l < h)%Z -> (Z.abs l <= 2 ^ 53)%Z -> (Z.abs h <= 2 ^ 53)%Z ->
  (h - l <= 2 ^ 53)%Z -> Rabs v <= IZR (2 ^ 53) ->
  exists r, returns (fun fuel => ReduceRange_rnd rnd fuel v (IZR l) (IZR h)) r /\ IZR l <= r < IZR h.
Proof. exact c17_integer_range. Qed.
Print Assumptions C17_integer_range_partial.

(** Rounding down to an integer is such a rounding. *)
Example C17_integer_range_example :
  let rnd x := IZR (Int_part x) in
  (forall x y, x <= y -> rnd x <= rnd y) /\ (forall z : Z, (Z.abs z <= 2 ^ 53)%Z -> rnd (IZR z) = IZR z).
Proof.
  split.
  - intros x y H. apply IZR_le.
    destruct (base_Int_part x) as [X1 X2]. destruct (base_Int_part y) as [Y1 Y2].
    assert (H' : IZR (Int_part x) < IZR (Int_part y + 1)) by (rewrite plus_IZR; lra).
    apply lt_IZR in H'. lia.
  - intros z _. apply f_equal. destruct (base_Int_part (IZR z)) as [X1 X2].
    apply le_IZR in X1. assert (H' : IZR z < IZR (Int_part (IZR z) + 1)) by (rewrite plus_IZR; lra).
    apply lt_IZR in H'. lia.
Qed.

(** And for any rounding with the relative error of binary64: any range, and values up to
    2^50 times the width of the range. *)
Theorem C17_any_range_partial :
  forall rnd : R -> R,
  (forall x, Rabs (rnd x - x) <= / IZR (2 ^ 53) * Rabs x + / IZR (2 ^ 1075)) ->
  forall lo hi v : R,
  let r := rnd (hi - lo) in
  lo < hi -> / IZR (2 ^ 1070) <= r ->
  Rabs v <= IZR (2 ^ 50) * r -> Rabs lo <= IZR (2 ^ 50) * r -> Rabs hi <= IZR (2 ^ 50) * r ->
  exists w, returns (fun fuel => ReduceRange_rnd rnd fuel v lo hi) w
    /\ (hi - 2 * r <= w \/ lo <= w) /\ w < hi.
Proof. exact c17_any_range. Qed.
Print Assumptions C17_any_range_partial.

(** A rounding that is off by one part in 2^53 everywhere. *)
Example C17_any_range_example : forall x : R,
  let rnd x := x + / IZR (2 ^ 53) * x in
  Rabs (rnd x - x) <= / IZR (2 ^ 53) * Rabs x + / IZR (2 ^ 1075).
Proof.
  intros x rnd. unfold rnd. replace (x + / IZR (2 ^ 53) * x - x) with (/ IZR (2 ^ 53) * x) by ring.
  assert (0 < / IZR (2 ^ 53)) by (apply Rinv_0_lt_compat, IZR_lt; reflexivity).
  assert (0 < / IZR (2 ^ 1075)) by (apply Rinv_0_lt_compat, IZR_lt; reflexivity).
  rewrite Rabs_mult, (Rabs_pos_eq (/ _)) by lra. lra.
Qed.

(** ** C18 Angle equality is an equivalence relation independent of units *)
Theorem C18_equal_iff_whole_turns :
  forall a b s t, turns a = Some s -> turns b = Some t ->
  (returns (fun fuel => angle_eq fuel a b) true <-> same_mod_turn s t)
  /\ (returns (fun fuel => angle_eq fuel a b) false <-> ~ same_mod_turn s t).
Proof. exact angle_equal_iff. Qed.
Print Assumptions C18_equal_iff_whole_turns.

Theorem C18_equivalence :
  forall a b c s t u, turns a = Some s -> turns b = Some t -> turns c = Some u ->
  returns (fun fuel => angle_eq fuel a a) true
  /\ (returns (fun fuel => angle_eq fuel a b) true -> returns (fun fuel => angle_eq fuel b a) true)
  /\ (returns (fun fuel => angle_eq fuel a b) true -> returns (fun fuel => angle_eq fuel b c) true ->
      returns (fun fuel => angle_eq fuel a c) true).
Proof. exact c18_equivalence. Qed.
Print Assumptions C18_equivalence.

(** The comparison always gives an answer for defined angles. *)
Theorem C18_total :
  forall a b s t, turns a = Some s -> turns b = Some t ->
  exists r, returns (fun fuel => angle_eq fuel a b) r.
Proof.
  intros a b s t Ha Hb. destruct (angle_eq_spec a b s t Ha Hb) as [r [H _]]. exists r; exact H.
Qed.
Print Assumptions C18_total.

(** Outside the defined angles: false if a unit is undefined, an exception if only the
    value is. *)
Theorem C18_undefined :
  forall fuel a b,
  (aunit a = UUndefined \/ aunit b = UUndefined -> angle_eq fuel a b = Ok false)
  /\ (aunit a <> UUndefined -> aunit b <> UUndefined -> turns a = None \/ turns b = None ->
      angle_eq fuel a b = Err EUndefined).
Proof. intros; split; [apply c18_undefined_unit | apply c18_undefined_value]. Qed.
Print Assumptions C18_undefined.

(** 90 degrees, -3/4 of a revolution and 5400 arcminutes are defined and the same direction;
    91 degrees is not. *)
Example C18_example :
  turns (mkA (Some 90) Degree) = Some (90 / 360)
  /\ turns (mkA (Some (- 3 / 4)) Revolution) = Some (- 3 / 4 / 1)
  /\ turns (mkA (Some 5400) Arcminute) = Some (5400 / (360 * 60))
  /\ same_mod_turn (90 / 360) (- 3 / 4 / 1)
  /\ same_mod_turn (90 / 360) (5400 / (360 * 60))
  /\ ~ same_mod_turn (91 / 360) (90 / 360).
Proof.
  split; [reflexivity |]. split; [reflexivity |]. split; [reflexivity |].
  split; [exists 1%Z; simpl; lra |]. split; [exists 0%Z; simpl; lra |].
  intros [k Hk]. assert (IZR k * 360 = 1) by lra.
  assert (H' : IZR (k * 360) = IZR 1) by (rewrite mult_IZR; lra). apply eq_IZR in H'. lia.
Qed.

(** ** C19 Angle arithmetic and unit conversion are exact over the reals *)
Theorem C19_conversion :
  forall a t u, turns a = Some t -> u <> UUndefined -> in_unit a u = Ok (t * units_per_turn u).
Proof. exact in_unit_spec. Qed.
Print Assumptions C19_conversion.

Theorem C19_chain :
  forall us x u, u <> UUndefined -> Forall (fun u => u <> UUndefined) us ->
  convert_chain x u us = in_unit (mkA (Some x) u) (last us u).
Proof.
  intros us x u Hu Hus. rewrite convert_chain_spec by assumption.
  rewrite (in_unit_spec _ _ _ (turns_mk x u Hu)); [reflexivity |].
  revert u Hu. induction us as [| w us IH]; intros u Hu; [exact Hu |].
  rewrite last_cons. inversion Hus; subst. apply IH; assumption.
Qed.
Print Assumptions C19_chain.

Theorem C19_sum_and_difference :
  forall a b s t, turns a = Some s -> turns b = Some t ->
  (exists c, angle_add a b = Ok c /\ aunit c = aunit a /\ turns c = Some (s + t))
  /\ (exists c, angle_sub a b = Ok c /\ aunit c = aunit a /\ turns c = Some (s - t)).
Proof. exact c19_add. Qed.
Print Assumptions C19_sum_and_difference.

Theorem C19_scaling :
  forall a s x, turns a = Some s ->
  (exists c, angle_mul a (Some x) = Ok c /\ aunit c = aunit a /\ turns c = Some (s * x))
  /\ (x <> 0 -> exists c, angle_div a (Some x) = Ok c /\ aunit c = aunit a /\ turns c = Some (s / x))
  /\ (x = 0 -> angle_div a (Some x) = Err ERuntime)
  /\ (exists c, angle_opp a = Ok c /\ aunit c = aunit a /\ turns c = Some (- s)).
Proof. exact c19_mul. Qed.
Print Assumptions C19_scaling.

Theorem C19_undefined :
  forall a b x u, turns a = None ->
  angle_add a b = Err EUndefined /\ angle_add b a = Err EUndefined
  /\ angle_sub a b = Err EUndefined /\ angle_sub b a = Err EUndefined
  /\ angle_mul a x = Err EUndefined /\ angle_opp a = Err EUndefined
  /\ (x <> Some 0 -> angle_div a x = Err EUndefined) /\ in_unit a u = Err EUndefined.
Proof. exact c19_undefined. Qed.
Print Assumptions C19_undefined.

(** 90 degrees + 0.25 revolution = 180 degrees. *)
Example C19_example :
  exists c, angle_add (mkA (Some 90) Degree) (mkA (Some (1 / 4)) Revolution) = Ok c
    /\ aunit c = Degree /\ turns c = Some (1 / 2).
Proof.
  destruct (C19_sum_and_difference (mkA (Some 90) Degree) (mkA (Some (1 / 4)) Revolution) (90 / 360) (1 / 4 / 1)
              eq_refl eq_refl) as [[c [H1 [H2 H3]]] _].
  exists c. split; [exact H1 | split; [exact H2 |]]. rewrite H3. f_equal. lra.
Qed.

(** ** C20 Angle::Between is the unsigned angle between directions *)
Theorem C20_between_3d :
  forall eps u v, 0 < eps -> eps <= sqnorm3 u -> eps <= sqnorm3 v ->
  exists theta, Between3 eps (Some u) (Some v) = Ok (Radians theta)
    /\ 0 <= theta <= PI
    /\ cos theta = dot3 u v / (norm3 u * norm3 v)
    /\ (theta = 0 <-> same_direction3 u v)
    /\ (theta = PI <-> opposite_direction3 u v)
    /\ Between3 eps (Some v) (Some u) = Ok (Radians theta)
    /\ forall k, 0 < k -> eps <= sqnorm3 (scale3 k u) ->
        Between3 eps (Some (scale3 k u)) (Some v) = Ok (Radians theta).
Proof. exact c20_between3. Qed.
Print Assumptions C20_between_3d.

Theorem C20_between_2d :
  forall eps u v, 0 < eps -> eps <= sqnorm2 u -> eps <= sqnorm2 v ->
  exists theta, Between2 eps (Some u) (Some v) = Ok (Radians theta)
    /\ 0 <= theta <= PI
    /\ cos theta = dot2 u v / (norm2 u * norm2 v)
    /\ (theta = 0 <-> same_direction2 u v)
    /\ (theta = PI <-> opposite_direction2 u v)
    /\ Between2 eps (Some v) (Some u) = Ok (Radians theta)
    /\ forall k, 0 < k -> eps <= sqnorm2 (scale2 k u) ->
        Between2 eps (Some (scale2 k u)) (Some v) = Ok (Radians theta).
Proof. exact c20_between2. Qed.
Print Assumptions C20_between_2d.

Theorem C20_errors :
  forall eps a b c d,
  (a = None \/ b = None -> Between3 eps a b = Err EUndefined)
  /\ (forall u v, a = Some u -> b = Some v -> sqnorm3 u < eps \/ sqnorm3 v < eps -> Between3 eps a b = Err ERuntime)
  /\ (c = None \/ d = None -> Between2 eps c d = Err EUndefined)
  /\ (forall u v, c = Some u -> d = Some v -> sqnorm2 u < eps \/ sqnorm2 v < eps -> Between2 eps c d = Err ERuntime).
Proof.
  intros. destruct (c20_between3_errors eps a b). destruct (c20_between2_errors eps c d). auto.
Qed.
Print Assumptions C20_errors.

Example C20_example : 1 / 100 <= sqnorm3 (V3 1 2 2) /\ 1 / 100 <= sqnorm3 (V3 0 3 4)
  /\ 1 / 100 <= sqnorm2 (V2 1 1) /\ 1 / 100 <= sqnorm2 (V2 0 (-2)) /\ sqnorm3 (V3 (1 / 100) 0 0) < 1 / 100.
Proof. repeat split; unfold sqnorm3, sqnorm2, dot3, dot2; simpl; lra. Qed.

(** ** C21 Angle::isNear is circular distance *)
Theorem C21_is_near :
  forall a b tol s t d, turns a = Some s -> turns b = Some t -> turns tol = Some d ->
  (returns (fun fuel => isNear fuel a b tol) true <-> circularly_within s t (Rabs d))
  /\ (returns (fun fuel => isNear fuel a b tol) false <-> ~ circularly_within s t (Rabs d)).
Proof. exact c21_iff. Qed.
Print Assumptions C21_is_near.

Theorem C21_total :
  forall a b tol s t d, turns a = Some s -> turns b = Some t -> turns tol = Some d ->
  exists r, returns (fun fuel => isNear fuel a b tol) r.
Proof.
  intros a b tol s t d Ha Hb Ht. destruct (c21_isNear a b tol s t d Ha Hb Ht) as [r [H _]]. exists r; exact H.
Qed.
Print Assumptions C21_total.

Theorem C21_symmetric_and_periodic :
  forall a a' b tol s s' t d, turns a = Some s -> turns a' = Some s' -> turns b = Some t ->
  turns tol = Some d -> same_mod_turn s s' ->
  (returns (fun fuel => isNear fuel a b tol) true <-> returns (fun fuel => isNear fuel b a tol) true)
  /\ (returns (fun fuel => isNear fuel a b tol) true <-> returns (fun fuel => isNear fuel a' b tol) true).
Proof. exact c21_invariance. Qed.
Print Assumptions C21_symmetric_and_periodic.

Theorem C21_undefined :
  forall fuel a b tol, turns a = None \/ turns b = None \/ turns tol = None ->
  isNear fuel a b tol = Err EUndefined.
Proof. exact c21_undefined. Qed.
Print Assumptions C21_undefined.

(** 359 degrees is within 2 degrees of 0.5 degrees + 1 turn, across the wrap-around, and
    the tolerance -2 degrees counts as 2. *)
Example C21_example :
  turns (mkA (Some 359) Degree) = Some (359 / 360)
  /\ turns (mkA (Some (360 + 1 / 2)) Degree) = Some ((360 + 1 / 2) / 360)
  /\ turns (mkA (Some (-2)) Degree) = Some (-2 / 360)
  /\ circularly_within (359 / 360) ((360 + 1 / 2) / 360) (Rabs (-2 / 360))
  /\ ~ circularly_within 0 (1 / 2) (1 / 4).
Proof.
  split; [reflexivity | split; [reflexivity | split; [reflexivity | split]]].
  - exists 0%Z. unfold Rabs. do 2 destruct Rcase_abs; lra.
  - intros [k Hk]. assert (H : -1 <= -1/2 + IZR k <= 1 /\ (Rabs (-1/2 + IZR k) <= 1/4)).
    { replace (0 - 1 / 2 + IZR k) with (-1 / 2 + IZR k) in Hk by lra.
      split; [| exact Hk]. revert Hk. unfold Rabs. destruct Rcase_abs; lra. }
    destruct H as [_ H]. assert (B : 1 / 4 <= IZR k <= 3 / 4) by (revert H; unfold Rabs; destruct Rcase_abs; lra).
    assert (0 < k)%Z by (apply lt_IZR; lra). assert (k < 1)%Z by (apply lt_IZR; lra). lia.
Qed.
