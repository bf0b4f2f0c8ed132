(** The properties of transformations in double precision: C137 to C140. *)

From Coq Require Import List Bool Arith ZArith Reals Lra Lia Permutation Floats.SpecFloat.
From Verif Require Import Result AngleModel FloatSpec FloatProofs FloatProofs2 FloatModel FloatProofs3 FloatProofs4 FloatProofs5 TransfModel Geo64Model Geo64Spec Geo64Proofs
  Rot64Model Mat64Model Mat64Spec Trf64Model Trf64Spec Trf64Proofs Trf64Proofs2 Trf64Proofs3 Trf64Proofs4 Trf64Proofs5 Trf64Proofs6 Trf64Proofs7 Trf64Proofs8 Trf64Proofs9 Trf64Proofs10 Trf64Proofs11.
Import ListNotations.
Local Open Scope R_scope.

(** *** C137: applying transformations in double precision *)
(** Applying a matrix to a point gives the exact image within 5 * 2^-53 times the size of the terms, in any order of the sums. *)
Theorem C137_accurate :
  forall d o t m p, (d <= 3)%nat -> sums (S d) o -> matrix_within (S d) (powerRZ 2 450) m -> point_within d (powerRZ 2 450) p -> f_matrix t = Some m ->
  exists q, f_applyTo_point d o t (Some p) = Ok (Some q) /\ length q = d /\ forall i, (i < d)%nat -> finite64 (nth i q zero64) /\
    Rabs (coord q i - image d m (coord p) i) <= 5 * powerRZ 2 (-53) * terms d m (coord p) i + powerRZ 2 (-1071).
Proof. exact c137_accurate. Qed.
Print Assumptions C137_accurate.

(** Applying it to a direction gives the exact linear image with the same relative error, and the offset does not enter. *)
Theorem C137_vector :
  forall d o t m v, (d <= 3)%nat -> sums (S d) o -> matrix_within (S d) (powerRZ 2 450) m -> point_within d (powerRZ 2 450) v -> f_matrix t = Some m ->
  exists q, f_applyTo_vector d o t (Some v) = Some q /\ length q = d /\ forall i, (i < d)%nat -> finite64 (nth i q zero64) /\
    Rabs (coord q i - linear d m (coord v) i) <= 5 * powerRZ 2 (-53) * linear_terms d m (coord v) i + powerRZ 2 (-1071).
Proof. exact c137_vector. Qed.
Print Assumptions C137_vector.

(** A translation rounds each sum of coordinates correctly, and leaves directions as they are. *)
Theorem C137_translation :
  forall d o v p, (d <= 3)%nat -> sums (S d) o -> point_within d (powerRZ 2 1022) v -> point_within d (powerRZ 2 1022) p ->
  exists t q u, f_Translation d (Some v) = Ok t /\ f_type t = TTranslation /\ f_applyTo_point d o t (Some p) = Ok (Some q) /\ f_applyTo_vector d o t (Some p) = Some u /\ length q = d /\ length u = d /\
    forall i, (i < d)%nat -> rounded64 (coord p i + coord v i) (nth i q zero64) /\ finite64 (nth i u zero64) /\ coord u i = coord p i.
Proof. exact c137_translation. Qed.
Print Assumptions C137_translation.

(** The identity leaves points and directions as they are. *)
Theorem C137_identity :
  forall d o p, (1 <= d <= 3)%nat -> sums (S d) o -> point_within d (powerRZ 2 1022) p ->
  exists q u, f_applyTo_point d o (f_Identity d) (Some p) = Ok (Some q) /\ f_applyTo_vector d o (f_Identity d) (Some p) = Some u /\ length q = d /\ length u = d /\
    forall i, (i < d)%nat -> finite64 (nth i q zero64) /\ finite64 (nth i u zero64) /\ coord q i = coord p i /\ coord u i = coord p i.
Proof. exact c137_identity. Qed.
Print Assumptions C137_identity.

(** For whole numbers up to 2^24 the image is exact. *)
Theorem C137_whole :
  forall d o t m p, (1 <= d <= 3)%nat -> sums (S d) o -> matrix_within (S d) (powerRZ 2 24) m -> whole_matrix (2 ^ 24) m -> point_within d (powerRZ 2 24) p -> whole_list (2 ^ 24) p -> f_matrix t = Some m ->
  exists q u, f_applyTo_point d o t (Some p) = Ok (Some q) /\ f_applyTo_vector d o t (Some p) = Some u /\ length q = d /\ length u = d /\
    forall i, (i < d)%nat -> finite64 (nth i q zero64) /\ finite64 (nth i u zero64) /\ coord q i = image d m (coord p) i /\ coord u i = linear d m (coord p) i.
Proof. exact c137_whole. Qed.
Print Assumptions C137_whole.

(** Translating there and back comes back within 3 * 2^-53 times the sizes of the point and of the shift. *)
Theorem C137_back :
  forall d o o' v p, (1 <= d <= 3)%nat -> sums (S d) o -> sums (S d) o' -> point_within d (powerRZ 2 1020) v -> point_within d (powerRZ 2 1020) p ->
  exists t s q r, f_Translation d (Some v) = Ok t /\ f_Translation d (Some (map SFopp v)) = Ok s /\ f_applyTo_point d o t (Some p) = Ok (Some q) /\ f_applyTo_point d o' s (Some q) = Ok (Some r) /\ length r = d /\
    forall i, (i < d)%nat -> finite64 (nth i r zero64) /\ Rabs (coord r i - coord p i) <= 3 * powerRZ 2 (-53) * (Rabs (coord p i) + Rabs (coord v i)).
Proof. exact c137_back. Qed.
Print Assumptions C137_back.

(** But not to the point itself: a shift by 2^60 and back takes 1 to 0. *)
Theorem C137_back_refuted :
  exists v p o t s q r, sums 3 o /\ point_within 2 (powerRZ 2 61) v /\ point_within 2 1 p /\
  f_Translation 2 (Some v) = Ok t /\ f_Translation 2 (Some (map SFopp v)) = Ok s /\ f_applyTo_point 2 o t (Some p) = Ok (Some q) /\ f_applyTo_point 2 o s (Some q) = Ok (Some r) /\ coord p 0 = 1 /\ coord r 0 = 0.
Proof. exact c137_back_refuted. Qed.
Print Assumptions C137_back_refuted.

(** Undefined points and vectors are errors, an undefined transformation has an undefined image. *)
Theorem C137_errors :
  forall d o t v w, f_applyTo_point d o t None = Err EUndefined /\ f_applyTo_vector d o t None = None /\
  f_applyTo_point d o f_Undefined (Some v) = Ok None /\ f_applyTo_vector d o f_Undefined w = None /\ f_Translation d None = Err EUndefined /\
  f_mulv d o t None = Err EUndefined /\ (f_isDefined t = false -> f_mulv d o t w = Err EUndefined).
Proof. exact c137_errors. Qed.
Print Assumptions C137_errors.

(** A quarter turn followed by a shift by (3, 4), applied to (1, 2): the point (1, 5) and the direction (-2, 1); the products of a row are added last first. *)
Example C137_example : let z n := b64_of_Z n in let o : orders := fun _ _ => Node (Leaf 2) (Node (Leaf 0) (Leaf 1)) in let m := [[z 0%Z; z (-1)%Z; z 3%Z]; [z 1%Z; z 0%Z; z 4%Z]; [z 0%Z; z 0%Z; z 1%Z]] in
  let t := mkTrf64 TAffine (Some m) in let p := [z 1%Z; z 2%Z] in
  sums 3 o /\ matrix_within 3 (powerRZ 2 200) m /\ point_within 2 (powerRZ 2 200) p /\ affine 2 m /\ image 2 m (coord p) 0 = 1 /\ image 2 m (coord p) 1 = 5 /\ f_applyTo_point 2 o t (Some p) = Ok (Some [z 1%Z; z 5%Z]) /\ f_applyTo_vector 2 o t (Some p) = Some [z (-2)%Z; z 1%Z].
Proof.
  intros z o m t p. unfold z in *.
  assert (W : forall n, (-8 <= n <= 8)%Z -> finite64 (b64_of_Z n) /\ Rabs (rval (b64_of_Z n)) <= powerRZ 2 200).
  { intros n H. change (powerRZ 2) with P2. destruct (of_Z_val n ltac:(lia)) as [F V]. split; [exact F |]. rewrite V, <- abs_IZR. apply Rle_trans with (P2 3); [rewrite <- P2_Z by lia; apply IZR_le; lia | apply P2_mono; lia]. }
  assert (V : forall n, (-8 <= n <= 8)%Z -> rval (b64_of_Z n) = IZR n) by (intros n H; apply of_Z_val; lia).
  assert (O : sums 3 o) by (intros i j _ _; unfold adds_all, o; cbn [leaves app seq]; apply Permutation_sym; apply (Permutation_trans (l' := [0; 2; 1]%nat)); [apply perm_skip, perm_swap | apply perm_swap]).
  split; [exact O |]. split; [split; [reflexivity | intros r H; unfold m in H; cbn [In] in H; repeat (destruct H as [<- | H]; [split; [reflexivity | intros w H; cbn [In] in H; repeat (destruct H as [<- | H]; [apply W; lia |]); contradiction] |]); contradiction] |]. split; [split; [reflexivity | intros w H; unfold p in H; cbn [In] in H; repeat (destruct H as [<- | H]; [apply W; lia |]); contradiction] |].
  split; [intros j J; destruct j as [| [| [| j]]]; [unfold cell; cbn [nth m]; rewrite V by lia; reflexivity .. | lia] |].
  split; [unfold image, cell, coord; cbn [total nth m p]; rewrite !V by lia; ring |]. split; [unfold image, cell, coord; cbn [total nth m p]; rewrite !V by lia; ring |]. split; vm_compute; reflexivity.
Qed.

(** *** C138: composing transformations in double precision *)
(** The composition applied to a point and the two transformations applied one after the other are both within 9 * 2^-53 times the size of the terms of the exact image. *)
Theorem C138_accurate :
  forall d o o1 o2 o3 s t a b p, (1 <= d <= 3)%nat -> sums (S d) o -> sums (S d) o1 -> sums (S d) o2 -> sums (S d) o3 -> f_isDefined s = true -> f_isDefined t = true -> f_matrix s = Some a -> f_matrix t = Some b ->
  matrix_within (S d) (powerRZ 2 200) a -> matrix_within (S d) (powerRZ 2 200) b -> point_within d (powerRZ 2 200) p -> affine d b ->
  exists w q y r, f_mul d o s t = Ok w /\ f_applyTo_point d o1 w (Some p) = Ok (Some q) /\ f_applyTo_point d o2 t (Some p) = Ok (Some y) /\ f_applyTo_point d o3 s (Some y) = Ok (Some r) /\ length q = d /\ length r = d /\
    forall i, (i < d)%nat -> let W := terms d a (terms d b (coord p)) i in
      finite64 (nth i q zero64) /\ finite64 (nth i r zero64) /\
      Rabs (coord q i - image d a (image d b (coord p)) i) <= 9 * powerRZ 2 (-53) * W + powerRZ 2 (-800) /\
      Rabs (coord r i - image d a (image d b (coord p)) i) <= 9 * powerRZ 2 (-53) * W + powerRZ 2 (-800).
Proof. exact c138_accurate. Qed.
Print Assumptions C138_accurate.

(** The product of the matrices of affine maps is one, and its coefficients are the exact ones within 5 * 2^-53 of their terms. *)
Theorem C138_affine :
  forall d o s t a b, (1 <= d <= 3)%nat -> sums (S d) o -> f_isDefined s = true -> f_isDefined t = true -> f_matrix s = Some a -> f_matrix t = Some b ->
  matrix_within (S d) (powerRZ 2 200) a -> matrix_within (S d) (powerRZ 2 200) b -> affine d a -> affine d b ->
  exists w c, f_mul d o s t = Ok w /\ f_isDefined w = true /\ f_matrix w = Some c /\ affine d c /\ matrix_within (S d) (powerRZ 2 403) c /\
    forall i j, (i <= d)%nat -> (j <= d)%nat -> Rabs (cell c i j - total (S d) (fun k => cell a i k * cell b k j)) <= 5 * powerRZ 2 (-53) * total (S d) (fun k => Rabs (cell a i k) * Rabs (cell b k j)) + powerRZ 2 (-1071).
Proof. exact c138_affine. Qed.
Print Assumptions C138_affine.

(** Composing with the identity on either side keeps the type and all coefficients. *)
Theorem C138_identity :
  forall d o t m, (1 <= d <= 3)%nat -> sums (S d) o -> f_isDefined t = true -> f_matrix t = Some m -> matrix_within (S d) (powerRZ 2 1022) m ->
  exists w w' c c', f_mul d o (f_Identity d) t = Ok w /\ f_mul d o t (f_Identity d) = Ok w' /\ f_type w = f_type t /\ f_type w' = f_type t /\ f_matrix w = Some c /\ f_matrix w' = Some c' /\ matrix_within (S d) (powerRZ 2 1022) c /\ matrix_within (S d) (powerRZ 2 1022) c' /\
    forall i j, (i <= d)%nat -> (j <= d)%nat -> cell c i j = cell m i j /\ cell c' i j = cell m i j.
Proof. exact c138_identity. Qed.
Print Assumptions C138_identity.

(** Composing translations adds the shifts, each sum correctly rounded. *)
Theorem C138_translations :
  forall d o v w, (1 <= d <= 3)%nat -> sums (S d) o -> point_within d (powerRZ 2 1022) v -> point_within d (powerRZ 2 1022) w ->
  exists s t u c, f_Translation d (Some v) = Ok s /\ f_Translation d (Some w) = Ok t /\ f_mul d o s t = Ok u /\ f_type u = TTranslation /\ f_matrix u = Some c /\
    forall i j, (i <= d)%nat -> (j <= d)%nat -> ((i < d)%nat /\ j = d -> rounded64 (coord v i + coord w i) (nth j (nth i c []) zero64)) /\ ((j < d)%nat \/ i = d -> finite64 (nth j (nth i c []) zero64) /\ cell c i j = if Nat.eqb i j then 1 else 0).
Proof. exact c138_translations. Qed.
Print Assumptions C138_translations.

(** Equality is that of all coefficients of defined transformations. *)
Theorem C138_equal :
  forall d s t a b, f_matrix s = Some a -> f_matrix t = Some b -> matrix_within (S d) (powerRZ 2 1023) a -> matrix_within (S d) (powerRZ 2 1023) b ->
  f_eq d s t = true <-> f_isDefined s = true /\ f_isDefined t = true /\ forall i j, (i <= d)%nat -> (j <= d)%nat -> cell a i j = cell b i j.
Proof. exact c138_equal. Qed.
Print Assumptions C138_equal.

(** Undefined operands are errors, and the type is that of the table. *)
Theorem C138_errors :
  forall d o s t, (f_isDefined s = false \/ f_isDefined t = false -> f_mul d o s t = Err EUndefined /\ f_eq d s t = false) /\
  (forall w, f_mul d o s t = Ok w -> f_type w = type_composition (f_type s) (f_type t)).
Proof. exact c138_errors. Qed.
Print Assumptions C138_errors.

(** The composition and the two applications in turn may differ by 1. *)
Theorem C138_agree_refuted :
  exists v w p o s t u q y r, sums 3 o /\ point_within 2 (powerRZ 2 60) v /\ point_within 2 (powerRZ 2 60) w /\ point_within 2 1 p /\ f_Translation 2 (Some v) = Ok s /\ f_Translation 2 (Some w) = Ok t /\ f_mul 2 o s t = Ok u /\
  f_applyTo_point 2 o u (Some p) = Ok (Some q) /\ f_applyTo_point 2 o t (Some p) = Ok (Some y) /\ f_applyTo_point 2 o s (Some y) = Ok (Some r) /\ coord q 0 = 1 /\ coord r 0 = 0.
Proof. exact c138_agree_refuted. Qed.
Print Assumptions C138_agree_refuted.

(** Composition is not associative in double precision. *)
Theorem C138_associative_refuted :
  exists o r s t a b x y, sums 3 o /\ f_isDefined r = true /\ f_isDefined s = true /\ f_isDefined t = true /\ f_mul 2 o r s = Ok a /\ f_mul 2 o a t = Ok x /\ f_mul 2 o s t = Ok b /\ f_mul 2 o r b = Ok y /\ f_eq 2 x y = false.
Proof. exact c138_associative_refuted. Qed.
Print Assumptions C138_associative_refuted.

(** A shift by (3, 4) composed with a quarter turn, in space the same; the product of (1, 2) is (1, 5). *)
Example C138_example : let z n := b64_of_Z n in let o : orders := fun _ _ => Node (Leaf 2) (Node (Leaf 0) (Leaf 1)) in
  let a := [[z 1%Z; z 0%Z; z 3%Z]; [z 0%Z; z 1%Z; z 4%Z]; [z 0%Z; z 0%Z; z 1%Z]] in let b := [[z 0%Z; z (-1)%Z; z 0%Z]; [z 1%Z; z 0%Z; z 0%Z]; [z 0%Z; z 0%Z; z 1%Z]] in let s := mkTrf64 TTranslation (Some a) in let t := mkTrf64 TRotation (Some b) in
  exists w, sums 3 o /\ f_isDefined s = true /\ f_isDefined t = true /\ matrix_within 3 (powerRZ 2 200) a /\ matrix_within 3 (powerRZ 2 200) b /\ affine 2 a /\ affine 2 b /\ f_mul 2 o s t = Ok w /\ f_type w = TAffine /\ f_applyTo_point 2 o w (Some [z 1%Z; z 2%Z]) = Ok (Some [z 1%Z; z 5%Z]) /\ f_eq 2 s t = false.
Proof.
  intros z o a b s t. unfold z in *. eexists.
  assert (W : forall n, (-8 <= n <= 8)%Z -> finite64 (b64_of_Z n) /\ Rabs (rval (b64_of_Z n)) <= powerRZ 2 200).
  { intros n H. change (powerRZ 2) with P2. destruct (of_Z_val n ltac:(lia)) as [F V]. split; [exact F |]. rewrite V, <- abs_IZR. apply Rle_trans with (P2 3); [rewrite <- P2_Z by lia; apply IZR_le; lia | apply P2_mono; lia]. }
  assert (V : forall n, (-8 <= n <= 8)%Z -> rval (b64_of_Z n) = IZR n) by (intros n H; apply of_Z_val; lia).
  assert (O : sums 3 o) by (intros i j _ _; unfold adds_all, o; cbn [leaves app seq]; apply Permutation_sym; apply (Permutation_trans (l' := [0; 2; 1]%nat)); [apply perm_skip, perm_swap | apply perm_swap]).
  split; [exact O |]. split; [reflexivity |]. split; [reflexivity |]. split; [split; [reflexivity | intros r H; unfold a in H; cbn [In] in H; repeat (destruct H as [<- | H]; [split; [reflexivity | intros w H; cbn [In] in H; repeat (destruct H as [<- | H]; [apply W; lia |]); contradiction] |]); contradiction] |]. split; [split; [reflexivity | intros r H; unfold b in H; cbn [In] in H; repeat (destruct H as [<- | H]; [split; [reflexivity | intros w H; cbn [In] in H; repeat (destruct H as [<- | H]; [apply W; lia |]); contradiction] |]); contradiction] |].
  do 2 (split; [intros j J; destruct j as [| [| [| j]]]; [unfold cell; cbn [nth a b]; rewrite V by lia; reflexivity .. | lia] |]). split; [vm_compute; reflexivity |]. repeat split; vm_compute; reflexivity.
Qed.

(** *** C139: rotations around a point in double precision *)
(** The rotation of the plane has the matrix of the cosine and the sine given. *)
Theorem C139_rotation2 :
  forall c s, finite64 c -> finite64 s -> Rabs (rval c) <= 1 -> Rabs (rval s) <= 1 ->
  exists r m, f_Rotation2 (Some (c, s)) = Ok r /\ f_type r = TRotation /\ f_matrix r = Some m /\ matrix_within 3 1 m /\ affine 2 m /\ cell m 0 2 = 0 /\ cell m 1 2 = 0 /\
    cell m 0 0 = rval c /\ cell m 0 1 = - rval s /\ cell m 1 0 = rval s /\ cell m 1 1 = rval c.
Proof. exact c139_rotation2. Qed.
Print Assumptions C139_rotation2.

(** The rotation of space has the columns of the rotation matrix as its rows. *)
Theorem C139_rotation3 :
  forall B M, 1 <= B -> (forall u, In u [c64_0 M; c64_1 M; c64_2 M] -> forall x, In x [fx u; fy u; fz u] -> finite64 x /\ Rabs (rval x) <= B) ->
  exists r m, f_Rotation3 (Some M) = Ok r /\ f_type r = TRotation /\ f_matrix r = Some m /\ matrix_within 4 B m /\ affine 3 m /\
    forall i, (i < 3)%nat -> cell m i 3 = 0 /\ cell m i 0 = rval (fx (nth i [c64_0 M; c64_1 M; c64_2 M] (c64_0 M))) /\ cell m i 1 = rval (fy (nth i [c64_0 M; c64_1 M; c64_2 M] (c64_0 M))) /\ cell m i 2 = rval (fz (nth i [c64_0 M; c64_1 M; c64_2 M] (c64_0 M))).
Proof. exact c139_rotation3. Qed.
Print Assumptions C139_rotation3.

(** Rotating around a point keeps the linear part of the rotation exactly; only the offset is rounded. *)
Theorem C139_matrix :
  forall d o o' c r m, (1 <= d <= 3)%nat -> sums (S d) o -> sums (S d) o' -> f_type r = TRotation -> f_matrix r = Some m -> point_within d (powerRZ 2 200) c -> matrix_within (S d) (powerRZ 2 200) m -> affine d m -> (forall i, (i < d)%nat -> cell m i d = 0) ->
  exists f w, f_RotationAround d o o' (Some c) (Ok r) = Ok f /\ f_matrix f = Some w /\ affine d w /\ matrix_within (S d) (powerRZ 2 403) w /\ (forall i j, (i < d)%nat -> (j < d)%nat -> cell w i j = cell m i j) /\
    forall i, (i < d)%nat -> Rabs (cell w i d - (coord c i - linear d m (coord c) i)) <= 5 * powerRZ 2 (-53) * (linear_terms d m (coord c) i + Rabs (coord c i)) + powerRZ 2 (-1071).
Proof. exact c139_matrix. Qed.
Print Assumptions C139_matrix.

(** The image of a point is c + L (p - c) within 9 * 2^-53 times the terms of the center and 5 * 2^-53 times those of the point. *)
Theorem C139_point :
  forall d o o' o1 c r m p, (1 <= d <= 3)%nat -> sums (S d) o -> sums (S d) o' -> sums (S d) o1 -> f_type r = TRotation -> f_matrix r = Some m -> point_within d (powerRZ 2 200) c -> matrix_within (S d) (powerRZ 2 200) m -> affine d m -> (forall i, (i < d)%nat -> cell m i d = 0) -> point_within d (powerRZ 2 200) p ->
  exists f q, f_RotationAround d o o' (Some c) (Ok r) = Ok f /\ f_type f = TAffine /\ f_applyTo_point d o1 f (Some p) = Ok (Some q) /\ length q = d /\
    forall i, (i < d)%nat -> finite64 (nth i q zero64) /\
      Rabs (coord q i - (coord c i + linear d m (fun k => coord p k - coord c k) i)) <= 9 * powerRZ 2 (-53) * (linear_terms d m (coord c) i + Rabs (coord c i)) + 5 * powerRZ 2 (-53) * linear_terms d m (coord p) i + powerRZ 2 (-1071).
Proof. exact c139_point. Qed.
Print Assumptions C139_point.

(** The center stays where it is within 14 * 2^-53 of its terms. *)
Theorem C139_center :
  forall d o o' o1 c r m, (1 <= d <= 3)%nat -> sums (S d) o -> sums (S d) o' -> sums (S d) o1 -> f_type r = TRotation -> f_matrix r = Some m -> point_within d (powerRZ 2 200) c -> matrix_within (S d) (powerRZ 2 200) m -> affine d m -> (forall i, (i < d)%nat -> cell m i d = 0) ->
  exists f q, f_RotationAround d o o' (Some c) (Ok r) = Ok f /\ f_applyTo_point d o1 f (Some c) = Ok (Some q) /\ length q = d /\
    forall i, (i < d)%nat -> finite64 (nth i q zero64) /\ Rabs (coord q i - coord c i) <= 14 * powerRZ 2 (-53) * (linear_terms d m (coord c) i + Rabs (coord c i)) + powerRZ 2 (-1071).
Proof. exact c139_center. Qed.
Print Assumptions C139_center.

(** But not exactly: turning by the angle of the triangle 3, 4, 5 around (1, 5) moves the center. *)
Theorem C139_center_refuted :
  exists o c s p f q, sums 3 o /\ finite64 c /\ finite64 s /\ Rabs (rval c * rval c + rval s * rval s - 1) <= powerRZ 2 (-53) /\ point_within 2 5 p /\ f_RotationAround 2 o o (Some p) (f_Rotation2 (Some (c, s))) = Ok f /\ f_applyTo_point 2 o f (Some p) = Ok (Some q) /\ coord q 0 <> coord p 0.
Proof. exact c139_center_refuted. Qed.
Print Assumptions C139_center_refuted.

(** In the plane: the image in terms of the cosine and the sine. *)
Theorem C139_turn :
  forall o o' o1 a b c s p x y, sums 3 o -> sums 3 o' -> sums 3 o1 -> point_within 2 (powerRZ 2 200) [a; b] -> point_within 2 (powerRZ 2 200) [x; y] -> finite64 c -> finite64 s -> Rabs (rval c) <= 1 -> Rabs (rval s) <= 1 -> p = [x; y] ->
  exists f u v, f_RotationAround 2 o o' (Some [a; b]) (f_Rotation2 (Some (c, s))) = Ok f /\ f_type f = TAffine /\ f_applyTo_point 2 o1 f (Some p) = Ok (Some [u; v]) /\ finite64 u /\ finite64 v /\
    let E := 18 * powerRZ 2 (-53) * (Rabs (rval a) + Rabs (rval b)) + 5 * powerRZ 2 (-53) * (Rabs (rval x) + Rabs (rval y)) + powerRZ 2 (-1071) in
    Rabs (rval u - (rval a + (rval c * (rval x - rval a) - rval s * (rval y - rval b)))) <= E /\ Rabs (rval v - (rval b + (rval s * (rval x - rval a) + rval c * (rval y - rval b)))) <= E.
Proof. exact c139_turn. Qed.
Print Assumptions C139_turn.

(** The errors are those of an undefined center or rotation. *)
Theorem C139_errors :
  forall d o o' c r rot e, f_RotationAround d o o' None rot = Err EUndefined /\ (rot = Err e -> f_RotationAround d o o' (Some c) rot = Err e) /\ (f_isDefined r = false -> f_RotationAround d o o' (Some c) (Ok r) = Err EUndefined) /\ f_Rotation2 None = Err EUndefined /\ f_Rotation3 None = Err EUndefined.
Proof. exact c139_errors. Qed.
Print Assumptions C139_errors.

(** A quarter turn around (1, 1) takes (3, 1) to (1, 3). *)
Example C139_example : let z n := b64_of_Z n in let o : orders := fun _ _ => Node (Leaf 2) (Node (Leaf 0) (Leaf 1)) in
  exists f, sums 3 o /\ point_within 2 (powerRZ 2 200) [z 1%Z; z 1%Z] /\ point_within 2 (powerRZ 2 200) [z 3%Z; z 1%Z] /\ Rabs (rval (z 0%Z)) <= 1 /\ Rabs (rval (z 1%Z)) <= 1 /\
    f_RotationAround 2 o o (Some [z 1%Z; z 1%Z]) (f_Rotation2 (Some (z 0%Z, z 1%Z))) = Ok f /\ f_applyTo_point 2 o f (Some [z 3%Z; z 1%Z]) = Ok (Some [z 1%Z; z 3%Z]).
Proof.
  intros z o. unfold z in *. eexists.
  assert (W : forall n, (-8 <= n <= 8)%Z -> finite64 (b64_of_Z n) /\ Rabs (rval (b64_of_Z n)) <= powerRZ 2 200).
  { intros n H. change (powerRZ 2) with P2. destruct (of_Z_val n ltac:(lia)) as [F V]. split; [exact F |]. rewrite V, <- abs_IZR. apply Rle_trans with (P2 3); [rewrite <- P2_Z by lia; apply IZR_le; lia | apply P2_mono; lia]. }
  assert (V : forall n, (-8 <= n <= 8)%Z -> rval (b64_of_Z n) = IZR n) by (intros n H; apply of_Z_val; lia).
  assert (O : sums 3 o) by (intros i j _ _; unfold adds_all, o; cbn [leaves app seq]; apply Permutation_sym; apply (Permutation_trans (l' := [0; 2; 1]%nat)); [apply perm_skip, perm_swap | apply perm_swap]).
  split; [exact O |]. split; [split; [reflexivity | intros w H; cbn [In] in H; repeat (destruct H as [<- | H]; [apply W; lia |]); contradiction] |]. split; [split; [reflexivity | intros w H; cbn [In] in H; repeat (destruct H as [<- | H]; [apply W; lia |]); contradiction] |].
  split; [rewrite V, Rabs_R0 by lia; lra |]. split; [rewrite V, Rabs_R1 by lia; lra |]. split; [vm_compute; reflexivity |]. vm_compute; reflexivity.
Qed.

(** *** C140: inverse transformations of the plane in double precision *)
(** The coefficients of the specification are those of the inverse map, on both sides. *)
Theorem C140_exact :
  forall m p i, det2 m <> 0 -> (i < 2)%nat ->
  inverse2 m i 0 * image 2 m p 0 + inverse2 m i 1 * image 2 m p 1 + inverse2 m i 2 = p i /\
  image 2 m (fun k => inverse2 m k 0 * p 0%nat + inverse2 m k 1 * p 1%nat + inverse2 m k 2) i = p i.
Proof. exact c140_exact. Qed.
Print Assumptions C140_exact.

(** The inverse computed from cofactors has the exact coefficients within 7 * 2^-53 times the condition number of the determinant. *)
Theorem C140_accurate :
  forall t K f m, adds_all t 3 -> 1 <= K <= powerRZ 2 40 -> f_isDefined f = true -> f_matrix f = Some m -> matrix_within 3 (powerRZ 2 100) m -> affine 2 m -> powerRZ 2 (-100) <= Rabs (det2 m) -> det2_terms m <= K * Rabs (det2 m) ->
  exists g w, f_getInverse2 t f = Ok g /\ f_type g = f_type f /\ f_matrix g = Some w /\ matrix_within 3 (powerRZ 2 302) w /\ cell w 2 0 = 0 /\ cell w 2 1 = 0 /\
    forall i j, (i <= 2)%nat -> (j <= 2)%nat -> Rabs (cell w i j - inverse2 m i j) <= 7 * powerRZ 2 (-53) * K * inverse2_terms m i j + powerRZ 2 (-970).
Proof. exact c140_accurate. Qed.
Print Assumptions C140_accurate.

(** Applying a transformation and then its inverse comes back to the point, within 33 * 2^-53 times the condition number and the size of the terms. *)
Theorem C140_back :
  forall t o o' K f m p, adds_all t 3 -> sums 3 o -> sums 3 o' -> 1 <= K <= powerRZ 2 40 -> f_isDefined f = true -> f_matrix f = Some m -> matrix_within 3 (powerRZ 2 60) m -> affine 2 m -> powerRZ 2 (-60) <= Rabs (det2 m) -> det2_terms m <= K * Rabs (det2 m) -> point_within 2 (powerRZ 2 60) p ->
  exists g q r, f_getInverse2 t f = Ok g /\ f_applyTo_point 2 o f (Some p) = Ok (Some q) /\ f_applyTo_point 2 o' g (Some q) = Ok (Some r) /\ length r = 2%nat /\
    forall i, (i < 2)%nat -> finite64 (nth i r zero64) /\
      Rabs (coord r i - coord p i) <= 33 * powerRZ 2 (-53) * K * (Rabs (inverse2 m i 0) * terms 2 m (coord p) 0 + Rabs (inverse2 m i 1) * terms 2 m (coord p) 1) + powerRZ 2 (-790).
Proof. exact c140_back. Qed.
Print Assumptions C140_back.

(** The inverse of a translation is the opposite translation, exactly. *)
Theorem C140_translation :
  forall t v, adds_all t 3 -> point_within 2 (powerRZ 2 400) v ->
  exists f g w, f_Translation 2 (Some v) = Ok f /\ f_getInverse2 t f = Ok g /\ f_type g = TTranslation /\ f_matrix g = Some w /\ matrix_within 3 (powerRZ 2 400) w /\ affine 2 w /\
    forall i j, (i < 2)%nat -> (j < 2)%nat -> cell w i j = (if Nat.eqb i j then 1 else 0) /\ cell w i 2 = - coord v i.
Proof. exact c140_translation. Qed.
Print Assumptions C140_translation.

(** The inverse of a rotation is the rotation by the opposite angle within 16 * 2^-53. *)
Theorem C140_rotation :
  forall t c s, adds_all t 3 -> finite64 c -> finite64 s -> Rabs (rval c) <= 1 -> Rabs (rval s) <= 1 -> Rabs (rval c * rval c + rval s * rval s - 1) <= powerRZ 2 (-50) ->
  exists f g w, f_Rotation2 (Some (c, s)) = Ok f /\ f_getInverse2 t f = Ok g /\ f_type g = TRotation /\ f_matrix g = Some w /\ cell w 2 0 = 0 /\ cell w 2 1 = 0 /\ Rabs (cell w 0 2) <= powerRZ 2 (-970) /\ Rabs (cell w 1 2) <= powerRZ 2 (-970) /\
    Rabs (cell w 0 0 - rval c) <= 16 * powerRZ 2 (-53) /\ Rabs (cell w 0 1 - rval s) <= 16 * powerRZ 2 (-53) /\ Rabs (cell w 1 0 - - rval s) <= 16 * powerRZ 2 (-53) /\ Rabs (cell w 1 1 - rval c) <= 16 * powerRZ 2 (-53) /\ Rabs (cell w 2 2 - 1) <= 8 * powerRZ 2 (-53).
Proof. exact c140_rotation. Qed.
Print Assumptions C140_rotation.

(** A singular matrix is inverted without an error, to coefficients that are not numbers. *)
Theorem C140_singular_refuted :
  exists t f m g w, adds_all t 3 /\ f_isDefined f = true /\ f_matrix f = Some m /\ matrix_within 3 8 m /\ affine 2 m /\ det2 m = 0 /\ f_getInverse2 t f = Ok g /\ f_isDefined g = true /\ f_matrix g = Some w /\ ~ finite64 (nth 2 (nth 2 w []) zero64).
Proof. exact c140_singular_refuted. Qed.
Print Assumptions C140_singular_refuted.

(** The inverse of an affine matrix need not be affine: scaling by 7 gets a last coefficient below 1. *)
Theorem C140_corner_refuted :
  exists t f m g w, adds_all t 3 /\ f_isDefined f = true /\ f_matrix f = Some m /\ matrix_within 3 8 m /\ affine 2 m /\ det2 m = 49 /\ f_getInverse2 t f = Ok g /\ f_matrix g = Some w /\ cell w 2 2 < 1.
Proof. exact c140_corner_refuted. Qed.
Print Assumptions C140_corner_refuted.

(** The inverse of an undefined transformation is an error. *)
Theorem C140_errors :
  forall t f, f_isDefined f = false -> f_getInverse2 t f = Err EUndefined.
Proof. exact c140_errors. Qed.
Print Assumptions C140_errors.

(** The map with the linear part 2 1 1 1 and the shift (3, 4), of determinant 1: the inverse has the linear part 1 -1 -1 2 and the shift (1, -5). *)
Example C140_example : let z n := b64_of_Z n in let t := Node (Leaf 2) (Node (Leaf 0) (Leaf 1)) in let m := [[z 2%Z; z 1%Z; z 3%Z]; [z 1%Z; z 1%Z; z 4%Z]; [z 0%Z; z 0%Z; z 1%Z]] in let f := mkTrf64 TAffine (Some m) in
  exists g w, adds_all t 3 /\ f_isDefined f = true /\ matrix_within 3 (powerRZ 2 60) m /\ affine 2 m /\ det2 m = 1 /\ det2_terms m <= 3 * Rabs (det2 m) /\ f_getInverse2 t f = Ok g /\ f_matrix g = Some w /\ map (map (fun x => sf_sub x (z 0%Z))) w = [[z 1%Z; z (-1)%Z; z 1%Z]; [z (-1)%Z; z 2%Z; z (-5)%Z]; [z 0%Z; z 0%Z; z 1%Z]].
Proof.
  intros z t m f. unfold z in *. do 2 eexists.
  assert (W : forall n, (-8 <= n <= 8)%Z -> finite64 (b64_of_Z n) /\ Rabs (rval (b64_of_Z n)) <= powerRZ 2 60).
  { intros n H. change (powerRZ 2) with P2. destruct (of_Z_val n ltac:(lia)) as [F V]. split; [exact F |]. rewrite V, <- abs_IZR. apply Rle_trans with (P2 3); [rewrite <- P2_Z by lia; apply IZR_le; lia | apply P2_mono; lia]. }
  assert (V : forall n, (-8 <= n <= 8)%Z -> rval (b64_of_Z n) = IZR n) by (intros n H; apply of_Z_val; lia).
  split; [unfold adds_all, t; cbn [leaves app seq]; apply Permutation_sym; apply (Permutation_trans (l' := [0; 2; 1]%nat)); [apply perm_skip, perm_swap | apply perm_swap] |].
  split; [reflexivity |]. split; [split; [reflexivity | intros r H; unfold m in H; cbn [In] in H; repeat (destruct H as [<- | H]; [split; [reflexivity | intros w H; cbn [In] in H; repeat (destruct H as [<- | H]; [apply W; lia |]); contradiction] |]); contradiction] |].
  split; [intros j J; destruct j as [| [| [| j]]]; [unfold cell; cbn [nth m]; rewrite V by lia; reflexivity .. | lia] |].
  assert (D : det2 m = 1) by (unfold det2, cell; cbn [nth m]; rewrite !V by lia; ring). split; [exact D |]. split; [rewrite D, Rabs_R1; unfold det2_terms, cell; cbn [nth m]; rewrite !V by lia; rewrite !Rabs_pos_eq by lra; lra |].
  split; [vm_compute; reflexivity |]. split; [reflexivity |]. vm_compute; reflexivity.
Qed.
