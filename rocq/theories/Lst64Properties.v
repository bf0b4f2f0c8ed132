(** The properties of sets of points and line strings in double precision: C159. *)

From Coq Require Import List Permutation Bool Arith ZArith Reals Lra Lia Psatz Floats.SpecFloat.
From Verif Require Import Result Vec AngleModel FloatModel FloatSpec FloatProofs FloatProofs2 FloatProofs3 FloatProofs4 Geo3Types Geo3Model Geo3Spec Geo2Spec Geo64Model Geo64Spec Dst64Model Pln64Model Pln64Spec Lst64Model Lst64Proofs.
Import ListNotations.
Local Open Scope R_scope.

(** *** C159: Sets of points and line strings in double precision *)
(** The point of a line string or of a set said to be the closest is one of its points, and no other is closer by more than 2^-49 of its distance. *)
Theorem C159_closest :
  forall r l p, l <> [] -> finite3 p -> within3 (powerRZ 2 200) p -> Forall (fun q => finite3 q /\ within3 (powerRZ 2 200) q) l ->
  exists q, ls64_getPointClosestTo r (map Some l) (Some p) = Ok q /\ pset64_getPointClosestTo r l (Some p) = Ok q /\ In q l /\
    forall q', In q' l -> dist3 (val3 q) (val3 p) <= (1 + powerRZ 2 (-49)) * dist3 (val3 q') (val3 p) + powerRZ 2 (-249).
Proof. exact c159_closest. Qed.
Print Assumptions C159_closest.

(** The same in the plane. *)
Theorem C159_closest_plane :
  forall l p, l <> [] -> finite2 p -> within2 (powerRZ 2 200) p -> Forall (fun q => finite2 q /\ within2 (powerRZ 2 200) q) l ->
  exists q, ls64_getPointClosestTo2 (map Some l) (Some p) = Ok q /\ pset64_getPointClosestTo2 l (Some p) = Ok q /\ In q l /\
    forall q', In q' l -> dist2 (val2 q) (val2 p) <= (1 + powerRZ 2 (-49)) * dist2 (val2 q') (val2 p) + powerRZ 2 (-249).
Proof. exact c159_closest_plane. Qed.
Print Assumptions C159_closest_plane.

(** The distance to a set of points is that of one of them, and no other is closer, within 2^-50. *)
Theorem C159_distance :
  forall r l p, l <> [] -> finite3 p -> within3 (powerRZ 2 450) p -> Forall (fun q => finite3 q /\ within3 (powerRZ 2 450) q) l ->
  exists x, pset64_distanceTo r l (Some p) = Ok x /\ finite64 x /\
    (exists q, In q l /\ Rabs (rval x - dist3 (val3 p) (val3 q)) <= powerRZ 2 (-50) * dist3 (val3 p) (val3 q) + powerRZ 2 (-530)) /\
    forall q, In q l -> rval x <= (1 + powerRZ 2 (-50)) * dist3 (val3 p) (val3 q) + powerRZ 2 (-530).
Proof. exact c159_distance. Qed.
Print Assumptions C159_distance.

(** The same in the plane. *)
Theorem C159_distance_plane :
  forall l p, l <> [] -> finite2 p -> within2 (powerRZ 2 450) p -> Forall (fun q => finite2 q /\ within2 (powerRZ 2 450) q) l ->
  exists x, pset64_distanceTo2 l (Some p) = Ok x /\ finite64 x /\
    (exists q, In q l /\ Rabs (rval x - dist2 (val2 p) (val2 q)) <= powerRZ 2 (-50) * dist2 (val2 p) (val2 q) + powerRZ 2 (-530)) /\
    forall q, In q l -> rval x <= (1 + powerRZ 2 (-50)) * dist2 (val2 p) (val2 q) + powerRZ 2 (-530).
Proof. exact c159_distance_plane. Qed.
Print Assumptions C159_distance_plane.

(** Line strings of the same size are near when their points are, one by one, up to rounding. *)
Theorem C159_near :
  forall r l m tol, l <> [] -> length l = length m -> finite64 tol -> Forall (fun q => finite3 q /\ within3 (powerRZ 2 450) q) (l ++ m) ->
  exists t, ls64_isNear r (map Some l) (map Some m) (Some tol) = Ok t /\
    (t = true -> Forall2 (fun p q => dist3 (val3 p) (val3 q) <= rval tol * (1 + powerRZ 2 (-49)) + powerRZ 2 (-529)) l m) /\
    (Forall2 (fun p q => dist3 (val3 p) (val3 q) * (1 + powerRZ 2 (-50)) + powerRZ 2 (-530) <= rval tol) l m -> t = true).
Proof. exact c159_near. Qed.
Print Assumptions C159_near.

(** The same in the plane. *)
Theorem C159_near_plane :
  forall l m tol, l <> [] -> length l = length m -> finite64 tol -> Forall (fun q => finite2 q /\ within2 (powerRZ 2 450) q) (l ++ m) ->
  exists t, ls64_isNear2 (map Some l) (map Some m) (Some tol) = Ok t /\
    (t = true -> Forall2 (fun p q => dist2 (val2 p) (val2 q) <= rval tol * (1 + powerRZ 2 (-49)) + powerRZ 2 (-529)) l m) /\
    (Forall2 (fun p q => dist2 (val2 p) (val2 q) * (1 + powerRZ 2 (-50)) + powerRZ 2 (-530) <= rval tol) l m -> t = true).
Proof. exact c159_near_plane. Qed.
Print Assumptions C159_near_plane.

(** Line strings of different sizes, or empty, are not near: the tolerance and the points are not looked at. *)
Theorem C159_sizes :
  forall r l m l' m' tol, length l <> length m \/ l = [] -> length l' <> length m' \/ l' = [] -> ls64_isNear r l m tol = Ok false /\ ls64_isNear2 l' m' tol = Ok false.
Proof. exact c159_sizes. Qed.
Print Assumptions C159_sizes.

(** Sets said to be near match point by point in some order, up to rounding; sets whose points are near one by one in their order are said to be near. *)
Theorem C159_set_near :
  forall r l m tol, l <> [] -> length l = length m -> finite64 tol -> Forall (fun q => finite3 q /\ within3 (powerRZ 2 450) q) (l ++ m) ->
  exists t, pset64_isNear r l m (Some tol) = Ok t /\
    (t = true -> exists m', Permutation m m' /\ Forall2 (fun p q => dist3 (val3 p) (val3 q) <= rval tol * (1 + powerRZ 2 (-49)) + powerRZ 2 (-529)) l m') /\
    (Forall2 (fun p q => dist3 (val3 p) (val3 q) * (1 + powerRZ 2 (-50)) + powerRZ 2 (-530) <= rval tol) l m -> t = true).
Proof. exact c159_set_near. Qed.
Print Assumptions C159_set_near.

(** The same in the plane. *)
Theorem C159_set_near_plane :
  forall l m tol, l <> [] -> length l = length m -> finite64 tol -> Forall (fun q => finite2 q /\ within2 (powerRZ 2 450) q) (l ++ m) ->
  exists t, pset64_isNear2 l m (Some tol) = Ok t /\
    (t = true -> exists m', Permutation m m' /\ Forall2 (fun p q => dist2 (val2 p) (val2 q) <= rval tol * (1 + powerRZ 2 (-49)) + powerRZ 2 (-529)) l m') /\
    (Forall2 (fun p q => dist2 (val2 p) (val2 q) * (1 + powerRZ 2 (-50)) + powerRZ 2 (-530) <= rval tol) l m -> t = true).
Proof. exact c159_set_near_plane. Qed.
Print Assumptions C159_set_near_plane.

(** Sets of different sizes, or empty, are not near. *)
Theorem C159_set_sizes :
  forall r l m l' m' tol, length l <> length m \/ l = [] -> length l' <> length m' \/ l' = [] -> pset64_isNear r l m tol = Ok false /\ pset64_isNear2 l' m' tol = Ok false.
Proof. exact c159_set_sizes. Qed.
Print Assumptions C159_set_sizes.

(** An undefined tolerance is an error for sets of the same size. *)
Theorem C159_set_near_errors :
  forall r p q s t p' q' s' t', length s = length t -> length s' = length t' -> pset64_isNear r (p :: s) (q :: t) None = Err EUndefined /\ pset64_isNear2 (p' :: s') (q' :: t') None = Err EUndefined.
Proof. exact c159_set_near_errors. Qed.
Print Assumptions C159_set_near_errors.

(** The answer depends on the order of the points in the sets, which is that of a hash table: 0 and 2 against 1 and -1 with tolerance 1. *)
Theorem C159_set_matching_refuted :
  exists l m m' tol, Permutation m m' /\ forall r, pset64_isNear r l m (Some tol) = Ok false /\ pset64_isNear r l m' (Some tol) = Ok true.
Proof. exact c159_set_matching_refuted. Qed.
Print Assumptions C159_set_matching_refuted.

(** Undefined points, empty sets and empty line strings are errors. *)
Theorem C159_errors :
  forall r s s' l l' p p', pset64_distanceTo r s None = Err EUndefined /\ pset64_distanceTo r [] p = Err EUndefined /\ pset64_getPointClosestTo r s None = Err EUndefined /\ pset64_getPointClosestTo r [] p = Err EUndefined /\
  ls64_getPointClosestTo r l None = Err EUndefined /\ ls64_getPointClosestTo r [] p = Err EUndefined /\
  pset64_distanceTo2 s' None = Err EUndefined /\ pset64_distanceTo2 [] p' = Err EUndefined /\ pset64_getPointClosestTo2 s' None = Err EUndefined /\ pset64_getPointClosestTo2 [] p' = Err EUndefined /\
  ls64_getPointClosestTo2 l' None = Err EUndefined /\ ls64_getPointClosestTo2 [] p' = Err EUndefined.
Proof. exact c159_errors. Qed.
Print Assumptions C159_errors.

(** A line string with an undefined vertex has no closest point. *)
Theorem C159_undefined_point :
  forall r l1 l2 p l1' l2' p', ls64_getPointClosestTo r (map Some l1 ++ None :: l2) p = Err EUndefined /\ ls64_getPointClosestTo2 (map Some l1' ++ None :: l2') p' = Err EUndefined.
Proof. exact c159_undefined_point. Qed.
Print Assumptions C159_undefined_point.

(** Undefined first points and tolerances are errors for line strings of the same size. *)
Theorem C159_near_errors :
  forall r p l m p' l' m' tol, length l = length m -> length l' = length m' ->
  ls64_isNear r (None :: l) (p :: m) tol = Err EUndefined /\ ls64_isNear r (p :: l) (None :: m) tol = Err EUndefined /\ ls64_isNear r (p :: l) (p :: m) None = Err EUndefined /\
  ls64_isNear2 (None :: l') (p' :: m') tol = Err EUndefined /\ ls64_isNear2 (p' :: l') (None :: m') tol = Err EUndefined /\ ls64_isNear2 (p' :: l') (p' :: m') None = Err EUndefined.
Proof. exact c159_near_errors. Qed.
Print Assumptions C159_near_errors.

(** The points (3, 4, 0) and (0, 0, 5) are as close to the origin: the first is returned. *)
Definition C159_at (x y z : Z) : f3 := F3 (b64_of_Z x) (b64_of_Z y) (b64_of_Z z).
Definition C159_at2 (x y : Z) : f2 := F2 (b64_of_Z x) (b64_of_Z y).
Example C159_example : let l := [C159_at 9 9 9; C159_at 3 4 0; C159_at 0 0 5; C159_at 6 8 0] in let m := [C159_at 9 9 8; C159_at 4 4 0; C159_at 0 1 5; C159_at 6 8 1] in
  let l2 := [C159_at2 9 9; C159_at2 3 4; C159_at2 0 5] in let m2 := [C159_at2 9 8; C159_at2 3 3; C159_at2 1 5] in
  Forall (fun q => finite3 q /\ within3 (powerRZ 2 200) q) (l ++ m) /\ Forall (fun q => finite2 q /\ within2 (powerRZ 2 200) q) (l2 ++ m2) /\
  (forall r, ls64_getPointClosestTo r (map Some l) (Some (C159_at 0 0 0)) = Ok (C159_at 3 4 0) /\ pset64_getPointClosestTo r l (Some (C159_at 5 8 0)) = Ok (C159_at 6 8 0) /\ pset64_distanceTo r l (Some (C159_at 0 0 0)) = Ok (b64_of_Z 5) /\
    pset64_isNear r l m (Some (b64_of_Z 1)) = Ok true /\ pset64_isNear r l m (Some (b64_of_Z 0)) = Ok false /\ ls64_isNear r (map Some l) (map Some m) (Some (b64_of_Z 1)) = Ok true /\ ls64_isNear r (map Some l) (map Some m) (Some (b64_of_Z 0)) = Ok false) /\
  ls64_getPointClosestTo2 (map Some l2) (Some (C159_at2 0 0)) = Ok (C159_at2 3 4) /\ pset64_getPointClosestTo2 l2 (Some (C159_at2 8 8)) = Ok (C159_at2 9 9) /\ pset64_distanceTo2 l2 (Some (C159_at2 0 0)) = Ok (b64_of_Z 5) /\
  pset64_isNear2 l2 m2 (Some (b64_of_Z 1)) = Ok true /\ pset64_isNear2 l2 m2 (Some (b64_of_Z 0)) = Ok false /\ ls64_isNear2 (map Some l2) (map Some m2) (Some (b64_of_Z 1)) = Ok true /\ ls64_isNear2 (map Some l2) (map Some m2) (Some (b64_of_Z 0)) = Ok false.
Proof.
  intros l m l2 m2. assert (Z : forall n, (Z.abs n <= 2 ^ 53)%Z -> finite64 (b64_of_Z n) /\ rval (b64_of_Z n) = IZR n) by (intros n H; apply of_Z_val; lia).
  assert (W : forall n, (Z.abs n <= 1024)%Z -> Rabs (rval (b64_of_Z n)) <= powerRZ 2 200).
  { intros n H. rewrite (proj2 (Z n ltac:(lia))), <- abs_IZR. apply Rle_trans with (IZR (2 ^ 10)); [apply IZR_le; lia |]. change (powerRZ 2 200) with (P2 200). rewrite P2_Z by lia. apply P2_mono. lia. }
  assert (A : forall x y z, (Z.abs x <= 1024)%Z -> (Z.abs y <= 1024)%Z -> (Z.abs z <= 1024)%Z -> finite3 (C159_at x y z) /\ within3 (powerRZ 2 200) (C159_at x y z)) by (intros x y z X Y U; split; (split; [| split]); (apply Z; lia) || (apply W; lia)).
  assert (B : forall x y, (Z.abs x <= 1024)%Z -> (Z.abs y <= 1024)%Z -> finite2 (C159_at2 x y) /\ within2 (powerRZ 2 200) (C159_at2 x y)) by (intros x y X Y; split; split; (apply Z; lia) || (apply W; lia)).
  split; [apply Forall_forall; intros q [<- | [<- | [<- | [<- | [<- | [<- | [<- | [<- | []]]]]]]]]; apply A; lia |]. split; [apply Forall_forall; intros q [<- | [<- | [<- | [<- | [<- | [<- | []]]]]]]; apply B; lia |].
  split; [intros []; repeat split; vm_compute; reflexivity |]. repeat split; vm_compute; reflexivity.
Qed.
