(** The properties of distances to lines, rays and segments in double precision: C157. *)

From Coq Require Import List Bool Arith ZArith Reals Lra Lia Psatz Floats.SpecFloat.
From Verif Require Import Result Vec AngleModel FloatModel FloatSpec FloatProofs FloatProofs2 FloatProofs3 FloatProofs4 Geo3Spec Geo64Model Geo64Spec Dst64Model Dst64Proofs Dst64Proofs2.
Import ListNotations.
Local Open Scope R_scope.

(** *** C157: Distances to lines, rays and segments in double precision *)
(** The distance to a line made from any vector that is not tiny or huge is the least distance to the points of the line, within 2^-46 of the distance to the origin of the line. *)
Theorem C157_line :
  forall r o v p L, finite3 o -> finite3 v -> finite3 p -> within3 (powerRZ 2 200) o -> within3 (powerRZ 2 200) p -> within3 (powerRZ 2 450) v -> powerRZ 2 (-450) <= norm3 (val3 v) ->
  least_distance (on_line (val3 o) (val3 v)) (val3 p) L ->
  exists l x, Line64 r (Some o) (Some v) = Ok l /\ l64_distanceTo r l (Some p) = Ok x /\ finite64 x /\ Rabs (rval x - L) <= powerRZ 2 (-46) * dist3 (val3 p) (val3 o) + powerRZ 2 (-500).
Proof. exact c157_line. Qed.
Print Assumptions C157_line.

(** The distance to a ray is the least distance to the points of the ray, within 2^-45 of the distance to its origin: a wrong side of the origin chosen by rounding does no harm. *)
Theorem C157_ray :
  forall r o v p L, finite3 o -> finite3 v -> finite3 p -> within3 (powerRZ 2 200) o -> within3 (powerRZ 2 200) p -> within3 (powerRZ 2 450) v -> powerRZ 2 (-450) <= norm3 (val3 v) ->
  least_distance (on_ray (val3 o) (val3 v)) (val3 p) L ->
  exists l x, Line64 r (Some o) (Some v) = Ok l /\ r64_distanceTo r l (Some p) = Ok x /\ finite64 x /\ Rabs (rval x - L) <= powerRZ 2 (-45) * dist3 (val3 p) (val3 o) + powerRZ 2 (-500).
Proof. exact c157_ray. Qed.
Print Assumptions C157_ray.

(** The origin is at distance 0, exactly. *)
Theorem C157_origin :
  forall r o d, finite3 o -> finite3 d ->
  (exists x, l64_distanceTo r (mkL64 (Some o) (Some d)) (Some o) = Ok x /\ finite64 x /\ rval x = 0) /\
  r64_distanceTo r (mkL64 (Some o) (Some d)) (Some o) = Ok zero64.
Proof. exact c157_origin. Qed.
Print Assumptions C157_origin.

(** The distance to a segment is the least distance to its points, within 2^-47 of the sizes of the points. *)
Theorem C157_segment :
  forall r a b p L, finite3 a -> finite3 b -> finite3 p -> within3 (powerRZ 2 200) a -> within3 (powerRZ 2 200) b -> within3 (powerRZ 2 200) p -> powerRZ 2 (-200) <= dist3 (val3 b) (val3 a) ->
  least_distance (on_segment (val3 a) (val3 b)) (val3 p) L ->
  exists x, s64_distanceTo r (mkS64 (Some a) (Some b)) (Some p) = Ok x /\ finite64 x /\ Rabs (rval x - L) <= powerRZ 2 (-47) * (norm3 (val3 a) + norm3 (val3 b) + norm3 (val3 p)) + powerRZ 2 (-500).
Proof. exact c157_segment. Qed.
Print Assumptions C157_segment.

(** A segment of one point is as far as the point. *)
Theorem C157_degenerate :
  forall r a p, finite3 a -> s64_distanceTo r (mkS64 (Some a) (Some a)) (Some p) = pt64_distanceTo r (Some a) (Some p).
Proof. exact c157_degenerate. Qed.
Print Assumptions C157_degenerate.

(** The first point of a segment is at distance 0, exactly. *)
Theorem C157_first :
  forall r a b, finite3 a -> finite3 b -> within3 (powerRZ 2 200) a -> within3 (powerRZ 2 200) b -> powerRZ 2 (-200) <= dist3 (val3 b) (val3 a) ->
  exists x, s64_distanceTo r (mkS64 (Some a) (Some b)) (Some a) = Ok x /\ finite64 x /\ rval x = 0.
Proof. exact c157_first. Qed.
Print Assumptions C157_first.

(** The second point of a segment, which the segment contains, need not be at distance 0: the segment from (1, 0, 0) to (2^-60, 0, 0). *)
Theorem C157_second_refuted :
  exists a b, finite3 a /\ finite3 b /\ forall r, exists x, s64_distanceTo r (mkS64 (Some a) (Some b)) (Some b) = Ok x /\ 0 < rval x /\ s64_contains r (mkS64 (Some a) (Some b)) (Some b) = Ok true.
Proof. exact c157_second_refuted. Qed.
Print Assumptions C157_second_refuted.

(** The distance to a set of points is the least of the distances to its points. *)
Theorem C157_set :
  forall r a b ps, ps <> [] -> (forall p, In p ps -> exists y, s64_distanceTo r (mkS64 (Some a) (Some b)) (Some p) = Ok y /\ finite64 y) ->
  exists x, s64_distanceTo_ps r (mkS64 (Some a) (Some b)) ps = Ok x /\ finite64 x /\
    (exists p, In p ps /\ s64_distanceTo r (mkS64 (Some a) (Some b)) (Some p) = Ok x) /\
    forall p y, In p ps -> s64_distanceTo r (mkS64 (Some a) (Some b)) (Some p) = Ok y -> rval x <= rval y.
Proof. exact c157_set. Qed.
Print Assumptions C157_set.

(** Undefined lines, rays, segments and points are errors. *)
Theorem C157_errors :
  forall r p o d a b, l64_distanceTo r (mkL64 None d) p = Err EUndefined /\ l64_distanceTo r (mkL64 o None) p = Err EUndefined /\ l64_distanceTo r (mkL64 o d) None = Err EUndefined /\
  r64_distanceTo r (mkL64 None d) p = Err EUndefined /\ r64_distanceTo r (mkL64 o None) p = Err EUndefined /\ r64_distanceTo r (mkL64 o d) None = Err EUndefined /\
  s64_distanceTo r (mkS64 None b) p = Err EUndefined /\ s64_distanceTo r (mkS64 a None) p = Err EUndefined /\ s64_distanceTo r (mkS64 a b) None = Err EUndefined.
Proof. exact c157_errors. Qed.
Print Assumptions C157_errors.

(** So are empty sets of points. *)
Theorem C157_set_errors :
  forall r s a b ps, s64_distanceTo_ps r s [] = Err EUndefined /\ s64_distanceTo_ps r (mkS64 None b) ps = Err EUndefined /\ s64_distanceTo_ps r (mkS64 a None) ps = Err EUndefined.
Proof. exact c157_set_errors. Qed.
Print Assumptions C157_set_errors.

(** The point (0, 3, 4) is at distance 5 of the first axis, and of the origin of a ray that goes away. *)
Definition C157_at (x y z : Z) : f3 := F3 (b64_of_Z x) (b64_of_Z y) (b64_of_Z z).
Example C157_example : let o := C157_at 0 0 0 in let v := C157_at 4 0 0 in let p := C157_at (-12) 3 4 in
  (finite3 o /\ finite3 v /\ finite3 p) /\ (within3 (powerRZ 2 200) o /\ within3 (powerRZ 2 200) v /\ within3 (powerRZ 2 200) p) /\ norm3 (val3 v) = 4 /\ dist3 (val3 v) (val3 o) = 4 /\
  least_distance (on_line (val3 o) (val3 v)) (val3 p) 5 /\ least_distance (on_ray (val3 o) (val3 v)) (val3 p) 13 /\
  forall r, Line64 r (Some o) (Some v) = Ok (mkL64 (Some o) (Some (C157_at 1 0 0))) /\ l64_distanceTo r (mkL64 (Some o) (Some (C157_at 1 0 0))) (Some p) = Ok (b64_of_Z 5) /\
    r64_distanceTo r (mkL64 (Some o) (Some (C157_at 1 0 0))) (Some p) = Ok (b64_of_Z 13) /\ r64_distanceTo r (mkL64 (Some o) (Some (C157_at 1 0 0))) (Some (C157_at 12 3 4)) = Ok (b64_of_Z 5) /\
    s64_distanceTo r (mkS64 (Some o) (Some v)) (Some (C157_at 2 3 4)) = Ok (b64_of_Z 5) /\ s64_distanceTo r (mkS64 (Some o) (Some v)) (Some (C157_at 16 3 4)) = Ok (b64_of_Z 13) /\
    s64_distanceTo_ps r (mkS64 (Some o) (Some v)) [C157_at 16 3 4; C157_at 2 3 4; p] = Ok (b64_of_Z 5).
Proof.
  intros o v p. assert (Z : forall n, (Z.abs n <= 2 ^ 53)%Z -> finite64 (b64_of_Z n) /\ rval (b64_of_Z n) = IZR n) by (intros n H; apply of_Z_val; lia).
  destruct (Z 0%Z ltac:(lia)) as [F0 V0]. destruct (Z 4%Z ltac:(lia)) as [F4 V4]. destruct (Z 3%Z ltac:(lia)) as [F3' V3']. destruct (Z (-12)%Z ltac:(lia)) as [F12 V12].
  assert (W : forall n, (Z.abs n <= 1024)%Z -> Rabs (rval (b64_of_Z n)) <= powerRZ 2 200).
  { intros n H. rewrite (proj2 (Z n ltac:(lia))), <- abs_IZR. apply Rle_trans with (IZR (2 ^ 10)); [apply IZR_le; lia |]. change (powerRZ 2 200) with (P2 200). rewrite P2_Z by lia. apply P2_mono. lia. }
  split; [unfold o, v, p, C157_at, finite3; cbn [fx fy fz]; repeat split; assumption |]. split; [unfold o, v, p, C157_at, within3; cbn [fx fy fz]; repeat split; apply W; lia |].
  assert (Eo : val3 o = V3 0 0 0) by (unfold o, C157_at, val3; cbn [fx fy fz]; rewrite V0; reflexivity). assert (Ev : val3 v = V3 4 0 0) by (unfold v, C157_at, val3; cbn [fx fy fz]; rewrite V0, V4; reflexivity).
  assert (Ep : val3 p = V3 (-12) 3 4) by (unfold p, C157_at, val3; cbn [fx fy fz]; rewrite V12, V3', V4; reflexivity). rewrite Eo, Ev, Ep.
  assert (S : forall x y, 0 <= y -> x = y * y -> sqrt x = y) by (intros x y H ->; apply sqrt_square, H).
  split; [unfold norm3; apply S; [lra |]; unfold sqnorm3, dot3; cbn [vx vy vz]; ring |]. split; [unfold dist3, norm3; apply S; [lra |]; unfold sqnorm3, dot3, sub3; cbn [vx vy vz]; ring |].
  split. { split; [exists (V3 (-12) 0 0); split; [exists (-3); unfold along, add3, scale3; cbn [vx vy vz]; f_equal; ring |]; unfold dist3, norm3; apply S; [lra |]; unfold sqnorm3, dot3, sub3; cbn [vx vy vz]; ring |].
    intros q (t & ->). unfold dist3, norm3. rewrite <- (S 25 5) by lra. apply sqrt_le_1_alt. unfold sqnorm3, dot3, sub3, along, add3, scale3. cbn [vx vy vz]. pose proof (Rle_0_sqr (-12 - t * 4)) as Q. unfold Rsqr in Q. lra. }
  split. { split; [exists (V3 0 0 0); split; [exists 0; split; [lra |]; unfold along, add3, scale3; cbn [vx vy vz]; f_equal; ring |]; unfold dist3, norm3; apply S; [lra |]; unfold sqnorm3, dot3, sub3; cbn [vx vy vz]; ring |].
    intros q (t & Ht & ->). unfold dist3, norm3. rewrite <- (S 169 13) by lra. apply sqrt_le_1_alt. unfold sqnorm3, dot3, sub3, along, add3, scale3. cbn [vx vy vz]. pose proof (Rmult_le_pos t (96 + 16 * t) Ht ltac:(lra)) as Q. lra. }
  intros []; repeat split; vm_compute; reflexivity.
Qed.
