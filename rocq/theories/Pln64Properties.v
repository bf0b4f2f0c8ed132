(** The properties of distances in the plane in double precision: C158. *)

From Coq Require Import List Bool Arith ZArith Reals Lra Lia Psatz Floats.SpecFloat.
From Verif Require Import Result Vec AngleModel FloatModel FloatSpec FloatProofs FloatProofs2 FloatProofs3 FloatProofs4 Geo2Spec Geo64Model Geo64Spec Dst64Model Pln64Model Pln64Spec Pln64Proofs Pln64Proofs2.
Import ListNotations.
Local Open Scope R_scope.

(** *** C158: Distances in the plane in double precision *)
(** The distance between two points is the Euclidean distance, within 2^-50 of it. *)
Theorem C158_point :
  forall p q, finite2 p -> finite2 q -> within2 (powerRZ 2 450) p -> within2 (powerRZ 2 450) q ->
  exists d, pt64_distanceTo2 (Some p) (Some q) = Ok d /\ finite64 d /\ Rabs (rval d - dist2 (val2 p) (val2 q)) <= powerRZ 2 (-50) * dist2 (val2 p) (val2 q) + powerRZ 2 (-530).
Proof. exact c158_point. Qed.
Print Assumptions C158_point.

(** Points said to be near are, up to rounding, and points nearer than the tolerance by more than rounding are said to be near. *)
Theorem C158_near :
  forall p q tol, finite2 p -> finite2 q -> finite64 tol -> within2 (powerRZ 2 450) p -> within2 (powerRZ 2 450) q ->
  exists t, pt64_isNear2 (Some p) (Some q) (Some tol) = Ok t /\
    (t = true -> dist2 (val2 p) (val2 q) <= rval tol * (1 + powerRZ 2 (-49)) + powerRZ 2 (-529)) /\
    (dist2 (val2 p) (val2 q) * (1 + powerRZ 2 (-50)) + powerRZ 2 (-530) <= rval tol -> t = true).
Proof. exact c158_near. Qed.
Print Assumptions C158_near.

(** The length of a segment is the distance between its points, within 2^-50 of it. *)
Theorem C158_length :
  forall a b, finite2 a -> finite2 b -> within2 (powerRZ 2 450) a -> within2 (powerRZ 2 450) b ->
  exists d, ps64_getLength (mkPS64 (Some a) (Some b)) = Ok d /\ finite64 d /\ Rabs (rval d - dist2 (val2 a) (val2 b)) <= powerRZ 2 (-50) * dist2 (val2 a) (val2 b) + powerRZ 2 (-530).
Proof. exact c158_length. Qed.
Print Assumptions C158_length.

(** The direction of a line made from any vector that is not tiny or huge is that of the vector, within 2^-47. *)
Theorem C158_direction :
  forall o v, finite2 v -> within2 (powerRZ 2 450) v -> powerRZ 2 (-450) <= norm2 (val2 v) ->
  exists d, PLine64 o (Some v) = Ok (mkPL64 o (Some d)) /\ finite2 d /\ dist2 (val2 d) (scale2 (/ norm2 (val2 v)) (val2 v)) <= powerRZ 2 (-47).
Proof. exact c158_direction. Qed.
Print Assumptions C158_direction.

(** The zero vector, with either sign, is refused. *)
Theorem C158_zero_vector :
  forall o v, finite2 v -> val2 v = V2 0 0 -> PLine64 o (Some v) = Err EWrong.
Proof. exact c158_zero_vector. Qed.
Print Assumptions C158_zero_vector.

(** The distance to such a line is the least distance to its points, within 2^-45 of the distance to the origin of the line. *)
Theorem C158_line :
  forall o v p L, finite2 o -> finite2 v -> finite2 p -> within2 (powerRZ 2 200) o -> within2 (powerRZ 2 200) p -> within2 (powerRZ 2 450) v -> powerRZ 2 (-450) <= norm2 (val2 v) ->
  least_distance2 (on_line2 (val2 o) (val2 v)) (val2 p) L ->
  exists l x, PLine64 (Some o) (Some v) = Ok l /\ pl64_distanceTo l (Some p) = Ok x /\ finite64 x /\ Rabs (rval x - L) <= powerRZ 2 (-45) * dist2 (val2 p) (val2 o) + powerRZ 2 (-500).
Proof. exact c158_line. Qed.
Print Assumptions C158_line.

(** The origin of a line is at distance 0, exactly. *)
Theorem C158_origin :
  forall o d, finite2 o -> finite2 d -> exists x, pl64_distanceTo (mkPL64 (Some o) (Some d)) (Some o) = Ok x /\ finite64 x /\ rval x = 0.
Proof. exact c158_origin. Qed.
Print Assumptions C158_origin.

(** The distance to a segment is the least distance to its points, within 2^-47 of the sizes of the points. *)
Theorem C158_segment :
  forall a b p L, finite2 a -> finite2 b -> finite2 p -> within2 (powerRZ 2 200) a -> within2 (powerRZ 2 200) b -> within2 (powerRZ 2 200) p -> powerRZ 2 (-200) <= dist2 (val2 b) (val2 a) ->
  least_distance2 (on_segment2 (val2 a) (val2 b)) (val2 p) L ->
  exists x, ps64_distanceTo (mkPS64 (Some a) (Some b)) (Some p) = Ok x /\ finite64 x /\ Rabs (rval x - L) <= powerRZ 2 (-47) * (norm2 (val2 a) + norm2 (val2 b) + norm2 (val2 p)) + powerRZ 2 (-500).
Proof. exact c158_segment. Qed.
Print Assumptions C158_segment.

(** A segment of one point is as far as the point. *)
Theorem C158_degenerate :
  forall a p, finite2 a -> ps64_distanceTo (mkPS64 (Some a) (Some a)) (Some p) = pt64_distanceTo2 (Some a) (Some p).
Proof. exact c158_degenerate. Qed.
Print Assumptions C158_degenerate.

(** The first point of a segment is at distance 0, exactly. *)
Theorem C158_first :
  forall a b, finite2 a -> finite2 b -> within2 (powerRZ 2 200) a -> within2 (powerRZ 2 200) b -> powerRZ 2 (-200) <= dist2 (val2 b) (val2 a) ->
  exists x, ps64_distanceTo (mkPS64 (Some a) (Some b)) (Some a) = Ok x /\ finite64 x /\ rval x = 0.
Proof. exact c158_first. Qed.
Print Assumptions C158_first.

(** The second point need not be: the segment from (1, 0) to (2^-60, 0). *)
Theorem C158_second_refuted :
  exists a b, finite2 a /\ finite2 b /\ exists x, ps64_distanceTo (mkPS64 (Some a) (Some b)) (Some b) = Ok x /\ 0 < rval x.
Proof. exact c158_second_refuted. Qed.
Print Assumptions C158_second_refuted.

(** The distance to a set of points is the least of the distances to its points. *)
Theorem C158_set :
  forall a b ps, ps <> [] -> (forall p, In p ps -> exists y, ps64_distanceTo (mkPS64 (Some a) (Some b)) (Some p) = Ok y /\ finite64 y) ->
  exists x, ps64_distanceTo_ps (mkPS64 (Some a) (Some b)) ps = Ok x /\ finite64 x /\
    (exists p, In p ps /\ ps64_distanceTo (mkPS64 (Some a) (Some b)) (Some p) = Ok x) /\
    forall p y, In p ps -> ps64_distanceTo (mkPS64 (Some a) (Some b)) (Some p) = Ok y -> rval x <= rval y.
Proof. exact c158_set. Qed.
Print Assumptions C158_set.

(** Undefined points, lines, segments and tolerances are errors. *)
Theorem C158_errors :
  forall p q o d a b tol, pt64_distanceTo2 None q = Err EUndefined /\ pt64_distanceTo2 p None = Err EUndefined /\ pt64_isNear2 p q None = Err EUndefined /\ pt64_isNear2 None q tol = Err EUndefined /\ pt64_isNear2 p None tol = Err EUndefined /\
  pl64_distanceTo (mkPL64 None d) p = Err EUndefined /\ pl64_distanceTo (mkPL64 o None) p = Err EUndefined /\ pl64_distanceTo (mkPL64 o d) None = Err EUndefined /\
  ps64_getLength (mkPS64 None b) = Err EUndefined /\ ps64_getLength (mkPS64 a None) = Err EUndefined /\
  ps64_distanceTo (mkPS64 None b) p = Err EUndefined /\ ps64_distanceTo (mkPS64 a None) p = Err EUndefined /\ ps64_distanceTo (mkPS64 a b) None = Err EUndefined.
Proof. exact c158_errors. Qed.
Print Assumptions C158_errors.

(** A line with an undefined direction can be made, and is undefined. *)
Theorem C158_undefined_line :
  forall o, exists l, PLine64 o None = Ok l /\ forall p, pl64_distanceTo l p = Err EUndefined.
Proof. exact c158_undefined_line. Qed.
Print Assumptions C158_undefined_line.

(** So are empty sets of points. *)
Theorem C158_set_errors :
  forall s a b ps, ps64_distanceTo_ps s [] = Err EUndefined /\ ps64_distanceTo_ps (mkPS64 None b) ps = Err EUndefined /\ ps64_distanceTo_ps (mkPS64 a None) ps = Err EUndefined.
Proof. exact c158_set_errors. Qed.
Print Assumptions C158_set_errors.

(** The point (-5, 12) is at distance 12 of the first axis, and 13 of the segment from (0, 0) to (4, 0). *)
Definition C158_at (x y : Z) : f2 := F2 (b64_of_Z x) (b64_of_Z y).
Example C158_example : let o := C158_at 0 0 in let v := C158_at 4 0 in let p := C158_at (-5) 12 in
  (finite2 o /\ finite2 v /\ finite2 p) /\ (within2 (powerRZ 2 200) o /\ within2 (powerRZ 2 200) v /\ within2 (powerRZ 2 200) p) /\ norm2 (val2 v) = 4 /\ dist2 (val2 v) (val2 o) = 4 /\
  least_distance2 (on_line2 (val2 o) (val2 v)) (val2 p) 12 /\ least_distance2 (on_segment2 (val2 o) (val2 v)) (val2 p) 13 /\
  PLine64 (Some o) (Some v) = Ok (mkPL64 (Some o) (Some (C158_at 1 0))) /\ pl64_distanceTo (mkPL64 (Some o) (Some (C158_at 1 0))) (Some p) = Ok (b64_of_Z 12) /\
  pt64_distanceTo2 (Some o) (Some p) = Ok (b64_of_Z 13) /\ pt64_isNear2 (Some o) (Some p) (Some (b64_of_Z 13)) = Ok true /\ pt64_isNear2 (Some o) (Some p) (Some (b64_of_Z 12)) = Ok false /\
  ps64_getLength (mkPS64 (Some o) (Some v)) = Ok (b64_of_Z 4) /\
  ps64_distanceTo (mkPS64 (Some o) (Some v)) (Some p) = Ok (b64_of_Z 13) /\ ps64_distanceTo (mkPS64 (Some o) (Some v)) (Some (C158_at 2 3)) = Ok (b64_of_Z 3) /\ ps64_distanceTo (mkPS64 (Some o) (Some v)) (Some (C158_at 7 (-4))) = Ok (b64_of_Z 5) /\
  ps64_distanceTo_ps (mkPS64 (Some o) (Some v)) [p; C158_at 2 3; C158_at 7 (-4)] = Ok (b64_of_Z 3).
Proof.
  intros o v p. assert (Z : forall n, (Z.abs n <= 2 ^ 53)%Z -> finite64 (b64_of_Z n) /\ rval (b64_of_Z n) = IZR n) by (intros n H; apply of_Z_val; lia).
  destruct (Z 0%Z ltac:(lia)) as [F0 V0]. destruct (Z 4%Z ltac:(lia)) as [F4 V4]. destruct (Z (-5)%Z ltac:(lia)) as [F5 V5]. destruct (Z 12%Z ltac:(lia)) as [F12 V12].
  assert (W : forall n, (Z.abs n <= 1024)%Z -> Rabs (rval (b64_of_Z n)) <= powerRZ 2 200).
  { intros n H. rewrite (proj2 (Z n ltac:(lia))), <- abs_IZR. apply Rle_trans with (IZR (2 ^ 10)); [apply IZR_le; lia |]. change (powerRZ 2 200) with (P2 200). rewrite P2_Z by lia. apply P2_mono. lia. }
  split; [unfold o, v, p, C158_at, finite2; cbn [fx2 fy2]; repeat split; assumption |]. split; [unfold o, v, p, C158_at, within2; cbn [fx2 fy2]; repeat split; apply W; lia |].
  assert (Eo : val2 o = V2 0 0) by (unfold o, C158_at, val2; cbn [fx2 fy2]; rewrite V0; reflexivity). assert (Ev : val2 v = V2 4 0) by (unfold v, C158_at, val2; cbn [fx2 fy2]; rewrite V0, V4; reflexivity).
  assert (Ep : val2 p = V2 (-5) 12) by (unfold p, C158_at, val2; cbn [fx2 fy2]; rewrite V5, V12; reflexivity). rewrite Eo, Ev, Ep.
  assert (S : forall x y, 0 <= y -> x = y * y -> sqrt x = y) by (intros x y H ->; apply sqrt_square, H).
  split; [unfold norm2; apply S; [lra |]; unfold sqnorm2, dot2; cbn [x2 y2]; ring |]. split; [unfold dist2, norm2; apply S; [lra |]; unfold sqnorm2, dot2, sub2; cbn [x2 y2]; ring |].
  split. { split; [exists (V2 (-5) 0); split; [exists (-5 / 4); unfold along2, add2, scale2; cbn [x2 y2]; f_equal; field |]; unfold dist2, norm2; apply S; [lra |]; unfold sqnorm2, dot2, sub2; cbn [x2 y2]; ring |].
    intros q (t & ->). unfold dist2, norm2. apply Rle_trans with (sqrt 144); [rewrite (S 144 12) by lra; lra |]. apply sqrt_le_1_alt. unfold sqnorm2, dot2, sub2, along2, add2, scale2. cbn [x2 y2]. pose proof (Rle_0_sqr (-5 - t * 4)) as Q. unfold Rsqr in Q. lra. }
  split. { split; [exists (V2 0 0); split; [exists 0; split; [lra |]; unfold along2, add2, scale2, sub2; cbn [x2 y2]; f_equal; ring |]; unfold dist2, norm2; apply S; [lra |]; unfold sqnorm2, dot2, sub2; cbn [x2 y2]; ring |].
    intros q (t & Ht & ->). unfold dist2, norm2. apply Rle_trans with (sqrt 169); [rewrite (S 169 13) by lra; lra |]. apply sqrt_le_1_alt. unfold sqnorm2, dot2, sub2, along2, add2, scale2. cbn [x2 y2]. pose proof (Rmult_le_pos t (40 + 16 * t) (proj1 Ht) ltac:(lra)) as Q. lra. }
  repeat split; vm_compute; reflexivity.
Qed.
