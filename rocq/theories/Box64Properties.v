(** The properties of the points of cuboids in double precision: C160. *)

From Coq Require Import List Bool Arith ZArith Reals Lra Lia Psatz Floats.SpecFloat.
From Verif Require Import Result Vec AngleModel FloatModel FloatSpec FloatProofs FloatProofs2 FloatProofs3 FloatProofs4 FloatProofs5 Geo3Types Geo3Model Geo3Spec Geo64Model Geo64Spec Box64Model Box64Spec Box64Proofs.
Import ListNotations.
Local Open Scope R_scope.

(** *** C160: Points of cuboids in double precision *)
(** A point said to be in a cuboid is next to one of its faces: within the tolerance of the plane of the face, and between the other planes, up to rounding. *)
Theorem C160_sound :
  forall r eps o u0 u1 u2 e0 e1 e2 p, finite64 eps -> finite3 o -> finite3 p -> Forall finite3 [u0; u1; u2] -> Forall finite64 [e0; e1; e2] ->
  within3 (powerRZ 2 200) o -> within3 (powerRZ 2 200) p -> Forall (within3 (powerRZ 2 200)) [u0; u1; u2] -> Forall (fun e => Rabs (rval e) <= powerRZ 2 500) [e0; e1; e2] ->
  cu64_contains r eps (mkCu64 (Some o) (Some u0, Some u1, Some u2) (Some e0, Some e1, Some e2)) (Some p) = Ok true ->
  let near u e := Rabs (coordinate (val3 p) (val3 o) (val3 u) - rval e) <= rval eps * (1 + powerRZ 2 (-51)) + coordinate_error (val3 p) (val3 o) (val3 u) in
  let inside u e := coordinate (val3 p) (val3 o) (val3 u) <= rval e + coordinate_error (val3 p) (val3 o) (val3 u) in
  (near u0 e0 /\ inside u1 e1 /\ inside u2 e2) \/ (inside u0 e0 /\ near u1 e1 /\ inside u2 e2) \/ (inside u0 e0 /\ inside u1 e1 /\ near u2 e2).
Proof. exact c160_sound. Qed.
Print Assumptions C160_sound.

(** A point inside by more than rounding, and nearer to the plane of a face than the tolerance by more than rounding, is said to be in the cuboid. *)
Theorem C160_complete :
  forall r eps o u0 u1 u2 e0 e1 e2 p, finite64 eps -> finite3 o -> finite3 p -> Forall finite3 [u0; u1; u2] -> Forall finite64 [e0; e1; e2] ->
  within3 (powerRZ 2 200) o -> within3 (powerRZ 2 200) p -> Forall (within3 (powerRZ 2 200)) [u0; u1; u2] -> Forall (fun e => Rabs (rval e) <= powerRZ 2 500) [e0; e1; e2] ->
  let near u e := (rval e - coordinate (val3 p) (val3 o) (val3 u) + coordinate_error (val3 p) (val3 o) (val3 u)) * (1 + powerRZ 2 (-53)) < rval eps in
  let inside u e := coordinate (val3 p) (val3 o) (val3 u) + coordinate_error (val3 p) (val3 o) (val3 u) <= rval e in
  inside u0 e0 -> inside u1 e1 -> inside u2 e2 -> near u0 e0 \/ near u1 e1 \/ near u2 e2 ->
  cu64_contains r eps (mkCu64 (Some o) (Some u0, Some u1, Some u2) (Some e0, Some e1, Some e2)) (Some p) = Ok true.
Proof. exact c160_complete. Qed.
Print Assumptions C160_complete.

(** There is always an answer for a defined cuboid and a defined point. *)
Theorem C160_total :
  forall r eps o u0 u1 u2 e0 e1 e2 p, exists t, cu64_contains r eps (mkCu64 (Some o) (Some u0, Some u1, Some u2) (Some e0, Some e1, Some e2)) (Some p) = Ok t.
Proof. exact c160_total. Qed.
Print Assumptions C160_total.

(** The corner computed in double precision may be left out, whatever the tolerance: center (0.1, 0.1, 0.1) and extents 0.2. *)
Theorem C160_corner_refuted :
  exists o e, finite3 o /\ finite64 e /\ forall r eps,
  cu64_contains r eps (mkCu64 (Some o) (Some (F3 (b64_of_Z 1) zero64 zero64), Some (F3 zero64 (b64_of_Z 1) zero64), Some (F3 zero64 zero64 (b64_of_Z 1))) (Some e, Some e, Some e)) (Some (fadd3 o (F3 e e e))) = Ok false.
Proof. exact c160_corner_refuted. Qed.
Print Assumptions C160_corner_refuted.

(** Undefined points and cuboids are errors. *)
Theorem C160_errors :
  forall r eps c o u e u0 u1 u2 e0 e1 e2 p, cu64_contains r eps c None = Err EUndefined /\ cu64_contains r eps (mkCu64 None u e) p = Err EUndefined /\
  cu64_contains r eps (mkCu64 o (None, u1, u2) e) p = Err EUndefined /\ cu64_contains r eps (mkCu64 o (u0, None, u2) e) p = Err EUndefined /\ cu64_contains r eps (mkCu64 o (u0, u1, None) e) p = Err EUndefined /\
  cu64_contains r eps (mkCu64 o u (None, e1, e2)) p = Err EUndefined /\ cu64_contains r eps (mkCu64 o u (e0, None, e2)) p = Err EUndefined /\ cu64_contains r eps (mkCu64 o u (e0, e1, None)) p = Err EUndefined.
Proof. exact c160_errors. Qed.
Print Assumptions C160_errors.

(** The cuboid with center (1, 1, 1) and extents 20, 30 and 40: the point (20, 1, 1) is inside, one unit from a face. *)
Definition C160_at (x y z : Z) : f3 := F3 (b64_of_Z x) (b64_of_Z y) (b64_of_Z z).
Definition C160_box : cuboid64 := mkCu64 (Some (C160_at 1 1 1)) (Some (C160_at 1 0 0), Some (C160_at 0 1 0), Some (C160_at 0 0 1)) (Some (b64_of_Z 20), Some (b64_of_Z 30), Some (b64_of_Z 40)).
Example C160_example : let o := C160_at 1 1 1 in let p := C160_at 20 1 1 in let us := [C160_at 1 0 0; C160_at 0 1 0; C160_at 0 0 1] in let es := [b64_of_Z 20; b64_of_Z 30; b64_of_Z 40] in let eps := b64_of_Z 2 in
  finite64 eps /\ finite3 o /\ finite3 p /\ Forall finite3 us /\ Forall finite64 es /\ within3 (powerRZ 2 200) o /\ within3 (powerRZ 2 200) p /\ Forall (within3 (powerRZ 2 200)) us /\ Forall (fun e => Rabs (rval e) <= powerRZ 2 500) es /\
  Forall2 (fun u e => coordinate (val3 p) (val3 o) (val3 u) + coordinate_error (val3 p) (val3 o) (val3 u) <= rval e) us es /\
  (rval (b64_of_Z 20) - coordinate (val3 p) (val3 o) (val3 (C160_at 1 0 0)) + coordinate_error (val3 p) (val3 o) (val3 (C160_at 1 0 0))) * (1 + powerRZ 2 (-53)) < rval eps /\
  forall r, cu64_contains r eps C160_box (Some p) = Ok true /\ cu64_contains r (b64_of_Z 1) C160_box (Some p) = Ok false /\ cu64_contains r (b64_of_Z 1) C160_box (Some (C160_at 21 (-29) 41)) = Ok true /\
    cu64_contains r (b64_of_Z 1) C160_box (Some (C160_at 21 1 42)) = Ok false /\ cu64_contains r (b64_of_Z 1) C160_box (Some (C160_at 21 32 1)) = Ok false /\ cu64_contains r (b64_of_Z 1) C160_box (Some (C160_at 1 31 1)) = Ok true /\
    cu64_contains r (b64_of_Z 1) C160_box (Some (C160_at 23 31 1)) = Ok false /\ cu64_contains r (b64_of_Z 1) C160_box (Some (C160_at 1 31 43)) = Ok false /\ cu64_contains r (b64_of_Z 1) C160_box (Some (C160_at 1 1 (-39))) = Ok true /\
    cu64_contains r (b64_of_Z 1) C160_box (Some (C160_at 23 1 41)) = Ok false /\ cu64_contains r (b64_of_Z 1) C160_box (Some (C160_at 1 33 41)) = Ok false /\ cu64_contains r (b64_of_Z 1) C160_box (Some (C160_at 1 1 1)) = Ok false.
Proof.
  intros o p us es eps. assert (Z : forall n, (Z.abs n <= 2 ^ 53)%Z -> finite64 (b64_of_Z n) /\ rval (b64_of_Z n) = IZR n) by (intros n H; apply of_Z_val; lia).
  assert (W : forall k n, (10 <= k)%Z -> (Z.abs n <= 1024)%Z -> Rabs (rval (b64_of_Z n)) <= powerRZ 2 k).
  { intros k n K H. rewrite (proj2 (Z n ltac:(lia))), <- abs_IZR. apply Rle_trans with (IZR (2 ^ 10)); [apply IZR_le; lia |]. change (powerRZ 2 k) with (P2 k). rewrite P2_Z by lia. apply P2_mono. lia. }
  assert (A : forall x y z, (Z.abs x <= 1024)%Z -> (Z.abs y <= 1024)%Z -> (Z.abs z <= 1024)%Z -> finite3 (C160_at x y z) /\ within3 (powerRZ 2 200) (C160_at x y z)) by (intros x y z X Y U; split; (split; [| split]); (apply Z; lia) || (apply W; lia)).
  split; [apply Z; lia |]. split; [apply A; lia |]. split; [apply A; lia |]. split; [apply Forall_forall; intros q [<- | [<- | [<- | []]]]; apply A; lia |]. split; [apply Forall_forall; intros q [<- | [<- | [<- | []]]]; apply Z; lia |].
  split; [apply A; lia |]. split; [apply A; lia |]. split; [apply Forall_forall; intros q [<- | [<- | [<- | []]]]; apply A; lia |]. split; [apply Forall_forall; intros q [<- | [<- | [<- | []]]]; apply W; lia |].
  assert (E : forall x y z, (Z.abs x <= 1024)%Z -> (Z.abs y <= 1024)%Z -> (Z.abs z <= 1024)%Z -> val3 (C160_at x y z) = V3 (IZR x) (IZR y) (IZR z)) by (intros x y z X Y U; unfold val3, C160_at; cbn [fx fy fz]; rewrite (proj2 (Z x ltac:(lia))), (proj2 (Z y ltac:(lia))), (proj2 (Z z ltac:(lia))); reflexivity).
  assert (S : forall x y, 0 <= y -> x = y * y -> sqrt x = y) by (intros x y H ->; apply sqrt_square, H).
  assert (P50 : powerRZ 2 (-50) <= / 1048576) by (change (powerRZ 2 (-50)) with (P2 (-50)); rewrite <- P2_10; apply P2_mono; lia). assert (P500 : powerRZ 2 (-500) <= / 1048576) by (change (powerRZ 2 (-500)) with (P2 (-500)); rewrite <- P2_10; apply P2_mono; lia). assert (P53 : powerRZ 2 (-53) <= / 1048576) by (change (powerRZ 2 (-53)) with (P2 (-53)); rewrite <- P2_10; apply P2_mono; lia).
  assert (D : dist3 (V3 20 1 1) (V3 1 1 1) = 19) by (unfold dist3, norm3; apply S; [lra |]; unfold sqnorm3, dot3, sub3; cbn [vx vy vz]; ring).
  assert (N : norm3 (V3 1 0 0) = 1 /\ norm3 (V3 0 1 0) = 1 /\ norm3 (V3 0 0 1) = 1) by (unfold norm3; repeat split; apply S; try lra; unfold sqnorm3, dot3; cbn [vx vy vz]; ring). destruct N as (N0 & N1 & N2).
  assert (C0 : coordinate (V3 20 1 1) (V3 1 1 1) (V3 1 0 0) = 19) by (unfold coordinate, dot3, sub3; cbn [vx vy vz]; rewrite Rabs_right; lra).
  assert (C1 : coordinate (V3 20 1 1) (V3 1 1 1) (V3 0 1 0) = 0) by (unfold coordinate, dot3, sub3; cbn [vx vy vz]; rewrite Rabs_right; lra).
  assert (C2 : coordinate (V3 20 1 1) (V3 1 1 1) (V3 0 0 1) = 0) by (unfold coordinate, dot3, sub3; cbn [vx vy vz]; rewrite Rabs_right; lra).
  assert (K : forall u, norm3 u = 1 -> coordinate_error (V3 20 1 1) (V3 1 1 1) u <= / 1000) by (intros u H; unfold coordinate_error; rewrite D, H; lra).
  pose proof (K _ N0) as K0. pose proof (K _ N1) as K1. pose proof (K _ N2) as K2. unfold o, p, us, es, eps. rewrite !(E 20 1 1)%Z, !(E 1 1 1)%Z by lia.
  split; [repeat apply Forall2_cons; [rewrite (E 1 0 0)%Z by lia; rewrite C0, (proj2 (Z 20%Z ltac:(lia))); lra | rewrite (E 0 1 0)%Z by lia; rewrite C1, (proj2 (Z 30%Z ltac:(lia))); lra | rewrite (E 0 0 1)%Z by lia; rewrite C2, (proj2 (Z 40%Z ltac:(lia))); lra | apply Forall2_nil] |].
  split; [rewrite (E 1 0 0)%Z by lia; rewrite C0, (proj2 (Z 20%Z ltac:(lia))), (proj2 (Z 2%Z ltac:(lia))); apply Rle_lt_trans with ((20 - 19 + / 1000) * (1 + / 1048576)); [apply Rmult_le_compat; try lra; [| pose proof (P2_pos (-53)) as Q; change (P2 (-53)) with (powerRZ 2 (-53)) in Q; lra] | lra] |].
  { unfold coordinate_error. rewrite D, N0. pose proof (P2_pos (-50)) as Q. pose proof (P2_pos (-500)) as Q'. change (P2 (-50)) with (powerRZ 2 (-50)) in Q. change (P2 (-500)) with (powerRZ 2 (-500)) in Q'. lra. }
  intros []; repeat split; vm_compute; reflexivity.
Qed.
