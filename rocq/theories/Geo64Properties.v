(** The properties of containment, distances and directions in double precision: C126 to C130. *)

From Coq Require Import List Bool Arith ZArith Reals Lra Lia Floats.SpecFloat.
From Verif Require Import Result Vec AngleModel FloatSpec FloatProofs FloatProofs2 FloatModel FloatProofs3 FloatProofs4 VecProofs Geo3Types Geo3Model Geo3Spec Geo2Model Geo2Spec
  Geo64Model Geo64Spec Geo64Proofs Geo64Proofs2 Geo64Proofs3 Geo64Proofs4 Geo64Proofs5 Geo64Proofs6 Geo64Proofs7 Geo64Proofs8.
Import ListNotations.
Local Open Scope R_scope.

(** *** C126: containment in lines, rays, segments and planes in double precision *)
(** A line, a ray and a plane contain the point they start from. *)
Theorem C126_origin :
  forall r o d, finite3 o -> finite3 d ->
  l64_contains r (mkL64 (Some o) (Some d)) (Some o) = Ok true /\ r64_contains r (mkL64 (Some o) (Some d)) (Some o) = Ok true /\
  p64_contains r (mkP64 (Some o) (Some d)) (Some o) = Ok true.
Proof. exact c126_origin. Qed.
Print Assumptions C126_origin.

(** A segment contains its two end points. *)
Theorem C126_ends :
  forall r a b, finite3 a -> finite3 b -> within3 (IZR (2 ^ 400)) a -> within3 (IZR (2 ^ 400)) b ->
  s64_contains r (mkS64 (Some a) (Some b)) (Some a) = Ok true /\ s64_contains r (mkS64 (Some a) (Some b)) (Some b) = Ok true.
Proof. exact c126_ends. Qed.
Print Assumptions C126_ends.

(** For whole coordinates up to 2^24 the test is exact. *)
Theorem C126_whole :
  forall r a b p, finite3 a -> finite3 b -> finite3 p -> whole3 (2 ^ 24) a -> whole3 (2 ^ 24) b -> whole3 (2 ^ 24) p ->
  exists t, s64_contains r (mkS64 (Some a) (Some b)) (Some p) = Ok t /\ (t = true <-> on_segment (val3 a) (val3 b) (val3 p)).
Proof. exact c126_whole. Qed.
Print Assumptions C126_whole.

(** An accepted point is close to the line: the sine of the angle with the direction is at most about 2^-49.  A point accepted by a ray is not behind its origin, up to rounding. *)
Theorem C126_line_near :
  forall r o d p, finite3 o -> finite3 d -> finite3 p -> within3 (powerRZ 2 200) o -> within3 (powerRZ 2 200) d -> within3 (powerRZ 2 200) p ->
  (l64_contains r (mkL64 (Some o) (Some d)) (Some p) = Ok true ->
    norm3 (cross3 (val3 d) (sub3 (val3 p) (val3 o))) <= powerRZ 2 (-49) * (norm3 (val3 d) * dist3 (val3 p) (val3 o)) + powerRZ 2 (-500)) /\
  (r64_contains r (mkL64 (Some o) (Some d)) (Some p) = Ok true ->
    norm3 (cross3 (val3 d) (sub3 (val3 p) (val3 o))) <= powerRZ 2 (-49) * (norm3 (val3 d) * dist3 (val3 p) (val3 o)) + powerRZ 2 (-500) /\
    - (powerRZ 2 (-50) * (norm3 (val3 d) * dist3 (val3 p) (val3 o)) + powerRZ 2 (-500)) <= dot3 (val3 d) (sub3 (val3 p) (val3 o))).
Proof. exact c126_line_near. Qed.
Print Assumptions C126_line_near.

(** An accepted point is close to the plane. *)
Theorem C126_plane_near :
  forall r q n p, finite3 q -> finite3 n -> finite3 p -> within3 (powerRZ 2 200) q -> within3 (powerRZ 2 200) n -> within3 (powerRZ 2 200) p ->
  p64_contains r (mkP64 (Some q) (Some n)) (Some p) = Ok true ->
  Rabs (dot3 (sub3 (val3 p) (val3 q)) (val3 n)) <= powerRZ 2 (-50) * (dist3 (val3 p) (val3 q) * norm3 (val3 n)) + powerRZ 2 (-500).
Proof. exact c126_plane_near. Qed.
Print Assumptions C126_plane_near.

(** An accepted point is close to the line of the segment and, up to rounding, between its ends. *)
Theorem C126_segment_near :
  forall r a b p, finite3 a -> finite3 b -> finite3 p -> within3 (powerRZ 2 200) a -> within3 (powerRZ 2 200) b -> within3 (powerRZ 2 200) p ->
  s64_contains r (mkS64 (Some a) (Some b)) (Some p) = Ok true ->
  norm3 (cross3 (sub3 (val3 b) (val3 a)) (sub3 (val3 p) (val3 a))) <= powerRZ 2 (-49) * (dist3 (val3 b) (val3 a) * dist3 (val3 p) (val3 a)) + powerRZ 2 (-500) /\
  - (powerRZ 2 (-50) * (dist3 (val3 b) (val3 a) * dist3 (val3 p) (val3 a)) + powerRZ 2 (-500)) <= dot3 (sub3 (val3 b) (val3 a)) (sub3 (val3 p) (val3 a)) /\
  dot3 (sub3 (val3 b) (val3 a)) (sub3 (val3 p) (val3 a)) <= sqnorm3 (sub3 (val3 b) (val3 a)) + powerRZ 2 (-50) * (dist3 (val3 b) (val3 a) * (dist3 (val3 p) (val3 a) + dist3 (val3 b) (val3 a))) + powerRZ 2 (-500).
Proof. exact c126_segment_near. Qed.
Print Assumptions C126_segment_near.

(** The line through two points may reject the second of them. *)
Theorem C126_through_refuted :
  exists p q, whole3 3 p /\ whole3 3 q /\
  forall r, exists l, l64_Through r (Some p) (Some q) = Ok l /\ l64_contains r l (Some q) = Ok false.
Proof. exact c126_through_refuted. Qed.
Print Assumptions C126_through_refuted.

(** The center of a segment is accurate to 2^-49. *)
Theorem C126_center :
  forall a b, finite3 a -> finite3 b -> within3 (powerRZ 2 900) a -> within3 (powerRZ 2 900) b ->
  exists c, s64_getCenter (mkS64 (Some a) (Some b)) = Ok c /\ finite3 c /\
    dist3 (val3 c) (scale3 (/ 2) (add3 (val3 a) (val3 b))) <= powerRZ 2 (-49) * (norm3 (val3 a) + norm3 (val3 b)) + powerRZ 2 (-1000).
Proof. exact c126_center. Qed.
Print Assumptions C126_center.

(** A segment may reject its own center. *)
Theorem C126_center_refuted :
  exists a b, finite3 a /\ finite3 b /\ forall r, exists c, s64_getCenter (mkS64 (Some a) (Some b)) = Ok c /\ finite3 c /\
  s64_contains r (mkS64 (Some a) (Some b)) (Some c) = Ok false.
Proof. exact c126_center_refuted. Qed.
Print Assumptions C126_center_refuted.

(** Undefined objects and points. *)
Theorem C126_errors :
  forall r l s pl p, (p = None \/ l64_origin l = None \/ l64_direction l = None -> l64_contains r l p = Err EUndefined /\ r64_contains r l p = Err EUndefined) /\
  (p = None \/ s64_first s = None \/ s64_second s = None -> s64_contains r s p = Err EUndefined) /\
  (p = None \/ p64_point pl = None \/ p64_normal pl = None -> p64_contains r pl p = Err EUndefined).
Proof. exact c126_errors. Qed.
Print Assumptions C126_errors.

(** The segment from (0, 0, 0) to (2, 4, 6) contains its ends and (1, 2, 3), and not (1, 2, 4). *)
Definition C126_at (i j k : Z) : f3 := F3 (b64_of_Z i) (b64_of_Z j) (b64_of_Z k).
Example C126_example : let a := C126_at 0 0 0 in let b := C126_at 2 4 6 in
  (forall r, s64_contains r (mkS64 (Some a) (Some b)) (Some (C126_at 1 2 3)) = Ok true /\ s64_contains r (mkS64 (Some a) (Some b)) (Some (C126_at 1 2 4)) = Ok false) /\
  finite3 a /\ finite3 b /\ within3 (powerRZ 2 200) a /\ within3 (powerRZ 2 200) b /\ whole3 (2 ^ 24) a /\ whole3 (2 ^ 24) b.
Proof.
  intros a b. split; [intros []; split; vm_compute; reflexivity |].
  destruct (of_Z_val 0 ltac:(lia)) as [F0 V0]. destruct (of_Z_val 2 ltac:(lia)) as [F2' V2']. destruct (of_Z_val 4 ltac:(lia)) as [F4 V4]. destruct (of_Z_val 6 ltac:(lia)) as [F6 V6].
  change (powerRZ 2) with P2. pose proof (P2_mono 3 200 ltac:(lia)) as Q. rewrite <- (P2_Z 3) in Q by lia. change (IZR (2 ^ 3)) with 8 in Q.
  assert (W : forall n, (0 <= n <= 6)%Z -> whole64 (2 ^ 24) (b64_of_Z n)) by (intros n H; exists n; split; [apply of_Z_val; lia | lia]).
  unfold a, b, C126_at, finite3, within3, whole3. cbn [fx fy fz]. rewrite V0, V2', V4, V6, Rabs_R0, !Rabs_right by lra.
  repeat split; try assumption; try lra; apply W; lia.
Qed.

(** *** C127: distances in double precision *)
(** Distances are accurate to 2^-50. *)
Theorem C127_accurate :
  forall r p q, finite3 p -> finite3 q -> within3 (powerRZ 2 450) p -> within3 (powerRZ 2 450) q ->
  exists d, pt64_distanceTo r (Some p) (Some q) = Ok d /\ finite64 d /\ Rabs (rval d - dist3 (val3 p) (val3 q)) <= powerRZ 2 (-50) * dist3 (val3 p) (val3 q) + powerRZ 2 (-530).
Proof. exact c127_accurate. Qed.
Print Assumptions C127_accurate.

(** Distances are the same both ways, bit by bit. *)
Theorem C127_symmetric :
  forall r p q tol, pt64_distanceTo r p q = pt64_distanceTo r q p /\ pt64_isNear r p q tol = pt64_isNear r q p tol.
Proof. exact c127_symmetric. Qed.
Print Assumptions C127_symmetric.

(** A point is at distance zero from itself. *)
Theorem C127_same :
  forall r p, finite3 p -> exists z, pt64_distanceTo r (Some p) (Some p) = Ok z /\ finite64 z /\ rval z = 0.
Proof. exact c127_same. Qed.
Print Assumptions C127_same.

(** The triangle inequality, up to rounding. *)
Theorem C127_triangle :
  forall r a b c, finite3 a -> finite3 b -> finite3 c -> within3 (powerRZ 2 450) a -> within3 (powerRZ 2 450) b -> within3 (powerRZ 2 450) c ->
  exists x y z, pt64_distanceTo r (Some a) (Some c) = Ok x /\ pt64_distanceTo r (Some a) (Some b) = Ok y /\ pt64_distanceTo r (Some b) (Some c) = Ok z /\
    rval x <= (rval y + rval z) * (1 + powerRZ 2 (-48)) + powerRZ 2 (-500).
Proof. exact c127_triangle. Qed.
Print Assumptions C127_triangle.

(** The length of a segment is the distance of its ends. *)
Theorem C127_length :
  forall r a b, s64_getLength r (mkS64 a b) = (match a, b with Some a, Some b => pt64_distanceTo r (Some a) (Some b) | _, _ => Err EUndefined end).
Proof. exact c127_length. Qed.
Print Assumptions C127_length.

(** Nearness agrees with the exact distance, up to rounding. *)
Theorem C127_near :
  forall r p q tol, finite3 p -> finite3 q -> finite64 tol -> within3 (powerRZ 2 450) p -> within3 (powerRZ 2 450) q ->
  exists t, pt64_isNear r (Some p) (Some q) (Some tol) = Ok t /\
    (t = true -> dist3 (val3 p) (val3 q) <= rval tol * (1 + powerRZ 2 (-49)) + powerRZ 2 (-529)) /\
    (dist3 (val3 p) (val3 q) * (1 + powerRZ 2 (-50)) + powerRZ 2 (-530) <= rval tol -> t = true).
Proof. exact c127_near. Qed.
Print Assumptions C127_near.

(** Two different points may be at distance zero. *)
Theorem C127_separate_refuted :
  exists p q, finite3 p /\ finite3 q /\ val3 p <> val3 q /\
  forall r, pt64_distanceTo r (Some p) (Some q) = Ok zero64 /\ pt64_isNear r (Some p) (Some q) (Some zero64) = Ok true.
Proof. exact c127_separate_refuted. Qed.
Print Assumptions C127_separate_refuted.

(** Undefined points and tolerances. *)
Theorem C127_errors :
  forall r p q tol, (p = None \/ q = None -> pt64_distanceTo r p q = Err EUndefined /\ pt64_isNear r p q tol = Err EUndefined) /\
  pt64_isNear r p q None = Err EUndefined.
Proof. exact c127_errors. Qed.
Print Assumptions C127_errors.

(** The points (1, 2, 3) and (4, 6, 3) are five apart. *)
Example C127_example : let a := C126_at 1 2 3 in let b := C126_at 4 6 3 in
  (forall r, pt64_distanceTo r (Some a) (Some b) = Ok (b64_of_Z 5)) /\ finite3 a /\ finite3 b /\ within3 (powerRZ 2 450) a /\ within3 (powerRZ 2 450) b /\
  exists r d, pt64_distanceTo r (Some a) (Some b) = Ok d /\ finite64 d /\ Rabs (rval d - dist3 (val3 a) (val3 b)) <= powerRZ 2 (-50) * dist3 (val3 a) (val3 b) + powerRZ 2 (-530).
Proof.
  intros a b. split; [intros []; vm_compute; reflexivity |].
  assert (H : (finite3 a /\ finite3 b) /\ within3 (powerRZ 2 450) a /\ within3 (powerRZ 2 450) b).
  { destruct (of_Z_val 1 ltac:(lia)) as [F1 V1]. destruct (of_Z_val 2 ltac:(lia)) as [F2' V2']. destruct (of_Z_val 3 ltac:(lia)) as [F3' V3']. destruct (of_Z_val 4 ltac:(lia)) as [F4 V4]. destruct (of_Z_val 6 ltac:(lia)) as [F6 V6].
    change (powerRZ 2) with P2. pose proof (P2_mono 3 450 ltac:(lia)) as Q. rewrite <- (P2_Z 3) in Q by lia. change (IZR (2 ^ 3)) with 8 in Q.
    unfold a, b, C126_at, finite3, within3. cbn [fx fy fz]. rewrite V1, V2', V3', V4, V6, !Rabs_right by lra. repeat split; try assumption; lra. }
  destruct H as [[Fa Fb] [Wa Wb]]. repeat (split; [assumption |]). exists FirstTwo. exact (C127_accurate FirstTwo a b Fa Fb Wa Wb).
Qed.

(** *** C128: containment in spheres in double precision *)
(** For whole coordinates the test is exact. *)
Theorem C128_whole :
  forall r eps c R p, finite3 c -> finite64 R -> finite3 p -> whole3 (2 ^ 24) c -> whole64 (2 ^ 25) R -> whole3 (2 ^ 24) p -> 0 <= rval R -> finite64 eps -> 0 < rval eps <= 1 ->
  exists t, sp64_contains r eps (mkSp64 (Some c) (Some R)) (Some p) = Ok t /\ (t = true <-> dist3 (val3 p) (val3 c) = rval R).
Proof. exact c128_whole. Qed.
Print Assumptions C128_whole.

(** An accepted point is close to the sphere: the squares of distance and radius differ by the tolerance and a relative 2^-49. *)
Theorem C128_near :
  forall r eps c R p, finite3 c -> finite64 R -> finite3 p -> within3 (powerRZ 2 200) c -> Rabs (rval R) <= powerRZ 2 200 -> within3 (powerRZ 2 200) p -> finite64 eps ->
  sp64_contains r eps (mkSp64 (Some c) (Some R)) (Some p) = Ok true ->
  Rabs (dist3 (val3 p) (val3 c) * dist3 (val3 p) (val3 c) - rval R * rval R) <= rval eps + powerRZ 2 (-49) * (dist3 (val3 p) (val3 c) * dist3 (val3 p) (val3 c) + rval R * rval R) + powerRZ 2 (-500).
Proof. exact c128_near. Qed.
Print Assumptions C128_near.

(** A point exactly on a sphere may be rejected, as the tolerance is absolute: (3v, 4v, 0) and radius 5v, about 2^22 units. *)
Theorem C128_on_refuted :
  exists p R, finite3 p /\ finite64 R /\ 0 < rval R /\ dist3 (val3 p) (V3 0 0 0) = rval R /\
  forall r eps, finite64 eps -> rval eps <= / 16 -> sp64_contains r eps (mkSp64 (Some (F3 zero64 zero64 zero64)) (Some R)) (Some p) = Ok false.
Proof. exact c128_on_refuted. Qed.
Print Assumptions C128_on_refuted.

(** Undefined spheres and points. *)
Theorem C128_errors :
  forall r eps s p, p = None \/ sp64_center s = None \/ sp64_radius s = None -> sp64_contains r eps s p = Err EUndefined.
Proof. exact c128_errors. Qed.
Print Assumptions C128_errors.

(** (1, 2, 2) is on the sphere of radius 3 about the origin, (1, 2, 3) is not. *)
Example C128_example : let eps := S754_finite false (2 ^ 52) (-102) in let s := mkSp64 (Some (C126_at 0 0 0)) (Some (b64_of_Z 3)) in
  (forall r, sp64_contains r eps s (Some (C126_at 1 2 2)) = Ok true /\ sp64_contains r eps s (Some (C126_at 1 2 3)) = Ok false) /\
  finite64 eps /\ 0 < rval eps <= 1 /\ whole64 (2 ^ 25) (b64_of_Z 3).
Proof.
  intros eps s. split; [intros []; split; vm_compute; reflexivity |]. split; [vm_compute; reflexivity |]. split.
  - unfold eps. rewrite rval_sg. cbn [sg]. replace (Zpos (2 ^ 52)) with (2 ^ 52)%Z by reflexivity. rewrite P2_Z, <- P2_add by lia. pose proof (P2_pos (52 + -102)). pose proof (P2_mono (52 + -102) 0 ltac:(lia)) as M. rewrite P2_0 in M. lra.
  - exists 3%Z. split; [apply of_Z_val; lia | lia].
Qed.

(** *** C129: containment in lines of the plane in double precision *)
(** A line contains its origin. *)
Theorem C129_origin :
  forall o d, finite2 o -> l64_contains2 (Some o) (Some d) (Some o) = Ok true.
Proof. exact c129_origin. Qed.
Print Assumptions C129_origin.

(** For vertical lines the test is exact. *)
Theorem C129_vertical :
  forall o d p, finite2 o -> finite2 d -> finite2 p -> rval (fx2 d) = 0 -> rval (fy2 d) <> 0 ->
  exists t, l64_contains2 (Some o) (Some d) (Some p) = Ok t /\ (t = true <-> on_line2 (val2 o) (val2 d) (val2 p)).
Proof. exact c129_vertical. Qed.
Print Assumptions C129_vertical.

(** For horizontal lines with an origin of at most 2^52 the test is exact. *)
Theorem C129_horizontal :
  forall o d p, finite2 o -> finite2 d -> finite2 p -> Rabs (rval (fx2 o)) <= powerRZ 2 52 -> Rabs (rval (fx2 p)) <= powerRZ 2 1000 ->
  rval (fx2 d) = 1 \/ rval (fx2 d) = -1 -> rval (fy2 d) = 0 ->
  exists t, l64_contains2 (Some o) (Some d) (Some p) = Ok t /\ (t = true <-> on_line2 (val2 o) (val2 d) (val2 p)).
Proof. exact c129_horizontal. Qed.
Print Assumptions C129_horizontal.

(** For lines that are not steep, a point accepted is close to the line: within 2^-46 times the square of the largest coordinate. *)
Theorem C129_near :
  forall o d p B, finite2 o -> finite2 d -> finite2 p -> 1 <= B <= 1048576 -> Rabs (rval (fx2 o)) <= B -> Rabs (rval (fy2 o)) <= B -> Rabs (rval (fx2 p)) <= B -> Rabs (rval (fy2 p)) <= B ->
  / 2 <= Rabs (rval (fx2 d)) <= 1 -> Rabs (rval (fy2 d)) <= 1 -> l64_contains2 (Some o) (Some d) (Some p) = Ok true ->
  Rabs ((rval (fy2 p) - rval (fy2 o)) * rval (fx2 d) - (rval (fx2 p) - rval (fx2 o)) * rval (fy2 d)) <= powerRZ 2 (-46) * (B * B).
Proof. exact c129_near. Qed.
Print Assumptions C129_near.

(** Far from zero a line accepts points that are not on it: at x = 2^60 the horizontal axis accepts a point at height 5. *)
Theorem C129_accept_refuted :
  exists o d p, finite2 o /\ finite2 d /\ finite2 p /\ sqnorm2 (val2 d) = 1 /\ l64_contains2 (Some o) (Some d) (Some p) = Ok true /\ ~ on_line2 (val2 o) (val2 d) (val2 p).
Proof. exact c129_accept_refuted. Qed.
Print Assumptions C129_accept_refuted.

(** The line through zero along (1, 7) rejects the end of its own direction. *)
Theorem C129_reject_refuted :
  exists d, finite2 d /\ let o := F2 zero64 zero64 in
  val2 (fadd2 o d) = val2 d /\ on_line2 (val2 o) (val2 d) (val2 d) /\ l64_contains2 (Some o) (Some d) (Some d) = Ok false.
Proof. exact c129_reject_refuted. Qed.
Print Assumptions C129_reject_refuted.

(** Undefined lines and points. *)
Theorem C129_errors :
  forall o d p, o = None \/ d = None \/ p = None -> l64_contains2 o d p = Err EUndefined.
Proof. exact c129_errors. Qed.
Print Assumptions C129_errors.

(** The vertical line through (1, 0) and the horizontal one through (0, 1). *)
Example C129_example : let up := F2 zero64 (b64_of_Z 1) in let right := F2 (b64_of_Z 1) zero64 in
  l64_contains2 (Some right) (Some up) (Some (F2 (b64_of_Z 1) (b64_of_Z 7))) = Ok true /\ l64_contains2 (Some right) (Some up) (Some (F2 (b64_of_Z 2) (b64_of_Z 7))) = Ok false /\
  l64_contains2 (Some up) (Some right) (Some (F2 (b64_of_Z 7) (b64_of_Z 1))) = Ok true /\ l64_contains2 (Some up) (Some right) (Some (F2 (b64_of_Z 7) (b64_of_Z 2))) = Ok false /\
  finite2 up /\ finite2 right /\ rval (fx2 up) = 0 /\ rval (fy2 up) <> 0 /\ rval (fx2 right) = 1 /\ rval (fy2 right) = 0.
Proof.
  intros up right. destruct (of_Z_val 1 ltac:(lia)) as [F V]. repeat (split; [vm_compute; reflexivity |]). unfold up, right, finite2. cbn [fx2 fy2].
  split; [split; [exact I | exact F] |]. split; [split; [exact F | exact I] |]. rewrite V. change (rval zero64) with 0. repeat split; lra.
Qed.

(** *** C130: directions in double precision *)
(** The constructor of lines keeps a direction within 2^-47 of the exact unit vector. *)
Theorem C130_direction :
  forall r o v, finite3 v -> within3 (powerRZ 2 450) v -> powerRZ 2 (-450) <= norm3 (val3 v) ->
  exists d, Line64 r o (Some v) = Ok (mkL64 o (Some d)) /\ finite3 d /\ dist3 (val3 d) (scale3 (/ norm3 (val3 v)) (val3 v)) <= powerRZ 2 (-47).
Proof. exact c130_direction. Qed.
Print Assumptions C130_direction.

(** The constructor of planes keeps a normal within 2^-47 of the exact unit vector. *)
Theorem C130_plane :
  forall r q n, finite3 n -> within3 (powerRZ 2 450) n -> powerRZ 2 (-450) <= norm3 (val3 n) ->
  exists d, Plane64 r q (Some n) = mkP64 q (Some d) /\ finite3 d /\ dist3 (val3 d) (scale3 (/ norm3 (val3 n)) (val3 n)) <= powerRZ 2 (-47).
Proof. exact c130_plane. Qed.
Print Assumptions C130_plane.

(** The direction of a segment. *)
Theorem C130_segment :
  forall r a b, finite3 a -> finite3 b -> within3 (powerRZ 2 440) a -> within3 (powerRZ 2 440) b -> powerRZ 2 (-440) <= dist3 (val3 b) (val3 a) ->
  exists d, s64_getDirection r (mkS64 (Some a) (Some b)) = Ok d /\ finite3 d /\ dist3 (val3 d) (scale3 (/ dist3 (val3 b) (val3 a)) (sub3 (val3 b) (val3 a))) <= powerRZ 2 (-46).
Proof. exact c130_segment. Qed.
Print Assumptions C130_segment.

(** The direction of the line through two points. *)
Theorem C130_through :
  forall r p q, finite3 p -> finite3 q -> within3 (powerRZ 2 440) p -> within3 (powerRZ 2 440) q -> powerRZ 2 (-440) <= dist3 (val3 q) (val3 p) ->
  exists d, l64_Through r (Some p) (Some q) = Ok (mkL64 (Some p) (Some d)) /\ finite3 d /\ dist3 (val3 d) (scale3 (/ dist3 (val3 q) (val3 p)) (sub3 (val3 q) (val3 p))) <= powerRZ 2 (-45).
Proof. exact c130_through. Qed.
Print Assumptions C130_through.

(** Equal points have no direction. *)
Theorem C130_same :
  forall r p q, finite3 p -> finite3 q -> val3 p = val3 q ->
  l64_Through r (Some p) (Some q) = Err ERuntime /\ s64_getDirection r (mkS64 (Some p) (Some q)) = Err ERuntime.
Proof. exact c130_same. Qed.
Print Assumptions C130_same.

(** The zero vector is refused. *)
Theorem C130_zero :
  forall r o v, finite3 v -> val3 v = V3 0 0 0 -> Line64 r o (Some v) = Err EWrong.
Proof. exact c130_zero. Qed.
Print Assumptions C130_zero.

(** A line equals itself and its opposite. *)
Theorem C130_equal :
  forall r o d, finite3 o -> finite3 d -> l64_eq r (mkL64 (Some o) (Some d)) (mkL64 (Some o) (Some d)) = Ok true /\
  l64_eq r (mkL64 (Some o) (Some d)) (mkL64 (Some o) (Some (fopp3 d))) = Ok true.
Proof. exact c130_equal. Qed.
Print Assumptions C130_equal.

(** Small directions are refused although they are not zero, as the square underflows. *)
Theorem C130_small_refuted :
  exists v, finite3 v /\ val3 v <> V3 0 0 0 /\ forall r o, Line64 r o (Some v) = Err EWrong.
Proof. exact c130_small_refuted. Qed.
Print Assumptions C130_small_refuted.

(** Large directions are replaced by the zero vector, as the square overflows; the line then contains every point. *)
Theorem C130_large_refuted :
  exists v d, finite3 v /\ val3 d = V3 0 0 0 /\ (forall r o, Line64 r o (Some v) = Ok (mkL64 o (Some d))) /\
  forall r o p, finite3 o -> finite3 p -> within3 (powerRZ 2 1000) o -> within3 (powerRZ 2 1000) p -> l64_contains r (mkL64 (Some o) (Some d)) (Some p) = Ok true.
Proof. exact c130_large_refuted. Qed.
Print Assumptions C130_large_refuted.

(** A line built again from its own origin and direction may differ from itself. *)
Theorem C130_again_refuted :
  exists v, finite3 v /\ forall r o, exists l l', Line64 r o (Some v) = Ok l /\ Line64 r (l64_origin l) (l64_direction l) = Ok l' /\ l64_eq r l l' = Ok false.
Proof. exact c130_again_refuted. Qed.
Print Assumptions C130_again_refuted.

(** Undefined points, segments and directions. *)
Theorem C130_errors :
  forall r p q s, (p = None \/ q = None -> l64_Through r p q = Err EUndefined) /\
  (s64_first s = None \/ s64_second s = None -> s64_getDirection r s = Err EUndefined /\ s64_getCenter s = Err EUndefined /\ s64_getLength r s = Err EUndefined) /\
  Line64 r p None = Ok (mkL64 p None) /\ Plane64 r p None = mkP64 p None.
Proof. exact c130_errors. Qed.
Print Assumptions C130_errors.

(** A line along (3, 4, 0) is accepted, and its direction is within 2^-47 of (3/5, 4/5, 0). *)
Example C130_example : let v := C126_at 3 4 0 in finite3 v /\ within3 (powerRZ 2 450) v /\ powerRZ 2 (-450) <= norm3 (val3 v) /\
  exists d, Line64 FirstTwo (Some (C126_at 0 0 0)) (Some v) = Ok (mkL64 (Some (C126_at 0 0 0)) (Some d)) /\ dist3 (val3 d) (V3 (3 / 5) (4 / 5) 0) <= powerRZ 2 (-47).
Proof.
  intros v. destruct (of_Z_val 0 ltac:(lia)) as [F0 V0]. destruct (of_Z_val 3 ltac:(lia)) as [F3' V3']. destruct (of_Z_val 4 ltac:(lia)) as [F4 V4].
  assert (Fv : finite3 v) by (repeat split; assumption). assert (Ev : val3 v = V3 3 4 0) by (unfold val3, v, C126_at; cbn [fx fy fz]; rewrite V0, V3', V4; reflexivity).
  assert (N : norm3 (val3 v) = 5) by (rewrite Ev; unfold norm3, sqnorm3, dot3; cbn [vx vy vz]; replace (3 * 3 + 4 * 4 + 0 * 0) with (5 * 5) by ring; apply sqrt_square; lra).
  change (powerRZ 2) with P2. assert (Wv : within3 (P2 450) v).
  { pose proof (P2_mono 3 450 ltac:(lia)) as Q. rewrite <- (P2_Z 3) in Q by lia. change (IZR (2 ^ 3)) with 8 in Q. unfold v, C126_at, within3. cbn [fx fy fz]. rewrite V0, V3', V4, Rabs_R0, !Rabs_right by lra. repeat split; lra. }
  assert (Lv : P2 (-450) <= norm3 (val3 v)) by (rewrite N; pose proof (P2_mono (-450) 0 ltac:(lia)) as Q; rewrite P2_0 in Q; lra).
  split; [exact Fv |]. split; [exact Wv |]. split; [exact Lv |].
  destruct (C130_direction FirstTwo (Some (C126_at 0 0 0)) v Fv Wv Lv) as (d & E & _ & D). exists d. split; [exact E |]. rewrite N, Ev in D. unfold scale3 in D. cbn [vx vy vz] in D.
  replace (V3 (3 / 5) (4 / 5) 0) with (V3 (/ 5 * 3) (/ 5 * 4) (/ 5 * 0)) by (f_equal; field). exact D.
Qed.
