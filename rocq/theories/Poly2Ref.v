(** Answers that meet the contracts of Poly2Spec, and unit squares, for the examples. *)

From Coq Require Import List Bool Reals Lra Lia ClassicalDescription.
From Verif Require Import Result DOrder Vec VecProofs AngleModel RotModel RotProofs TransfModel TransfSpec Geo3Types Geo3Model Geo3Proofs Geo2Model Geo2Spec Geo2Proofs Poly2Model Poly2Spec Poly2Proofs Poly2Proofs2 Poly2Proofs3.
Import ListNotations.
Local Open Scope R_scope.

Definition answer (P : Prop) : bool := if excluded_middle_informative P then true else false.
Lemma answer_iff P : answer P = true <-> P.
Proof. unfold answer. destruct (excluded_middle_informative P); split; intros; auto; discriminate. Qed.
(** Every polygon is valid, queries are answered from the regions; intersections and differences are given. *)
Definition ref_boost (ds : list poly2) (ls : list (list v2)) (ps : list v2) (us : list poly2) : boost :=
  mkBoost (fun x P => Some (answer (region P x))) (fun l P => Some (answer (forall x, on_string2 l x -> region P x)))
    (fun P Q => answer (forall x, region P x <-> region Q x)) (fun P Q => Some (answer (exists x, region P x /\ region Q x)))
    (fun _ => true) (fun _ => true) (fun _ _ => Some ds) (fun _ _ => Some ls) (fun _ _ => Some ps) (fun _ _ => Some us) (fun P => Some P)
    (fun x a => Some (answer (exists P, In P a /\ region P x)))
    (fun a b => answer (forall x, (exists P, In P a /\ region P x) <-> (exists P, In P b /\ region P x))) (fun _ => None) (fun _ _ => Some us).
Lemma ref_contracts ds ls ps us : let B := ref_boost ds ls ps us in
  covers_regions B /\ covers_lines B /\ equal_regions B /\ covers_multi B /\ equal_multi B /\ valid_moves B.
Proof.
  cbn zeta. split; [| split; [| split; [| split; [| split]]]].
  - intros P x _. eexists. split; [reflexivity | apply answer_iff].
  - intros P l _ _. eexists. split; [reflexivity | apply answer_iff].
  - intros P Q _ _. apply answer_iff.
  - intros a x _. eexists. split; [reflexivity | apply answer_iff].
  - intros a b _ _. apply answer_iff.
  - intros t P P' _ _ _. reflexivity.
Qed.

(** The unit square with a given corner, clockwise. *)
Definition square (x y : R) : list v2 := [V2 x y; V2 x (y + 1); V2 (x + 1) (y + 1); V2 (x + 1) y].
Definition unit_square (x y : R) : poly2 := mkPoly2 (closed (square x y)) [].
Lemma apart m a b : 0 <= m < 1 / 10 -> 1 <= a - b \/ 1 <= b - a -> -9 <= a <= 9 -> -9 <= b <= 9 -> bg_same m a b = false.
Proof.
  intros M D A B. unfold bg_same. destruct (Rleb (Rabs (a - b)) (m * Rmax 1 (Rmax (Rabs a) (Rabs b)))) eqn:E; [| reflexivity]. exfalso. apply Rleb_iff in E.
  assert (Z : 1 <= Rabs (a - b)) by (destruct D; [rewrite Rabs_right | rewrite Rabs_left]; lra).
  assert (X : Rmax 1 (Rmax (Rabs a) (Rabs b)) <= 9) by (repeat apply Rmax_lub; try (apply Rabs_le); lra). nra.
Qed.
Lemma square_proper m x y : 0 <= m < 1 / 10 -> -8 <= x <= 8 -> -8 <= y <= 8 -> proper_ring m (square x y).
Proof.
  intros M X Y. exists (V2 x y), (V2 x (y + 1)), [V2 (x + 1) (y + 1)], (V2 (x + 1) y). split; [reflexivity |]. unfold bg_same_point. cbn [x2 y2].
  assert (A : bg_same m y (y + 1) = false) by (apply apart; lra). assert (B : bg_same m x (x + 1) = false) by (apply apart; lra).
  rewrite A, B. split; [apply andb_false_r | reflexivity].
Qed.
Lemma square_area x y : signed_area (square x y) = -1.
Proof. unfold signed_area, cycle, square. cbn. unfold cross2. cbn [x2 y2]. field. Qed.
Lemma square_polygon m x y : 0 <= m < 1 / 10 -> -8 <= x <= 8 -> -8 <= y <= 8 -> polygon_of m (unit_square x y) (square x y) [].
Proof. intros M X Y. split; [reflexivity |]. split; [apply square_proper; assumption |]. split; [rewrite square_area; lra | constructor]. Qed.
Lemma square_corner x y : region (unit_square x y) (V2 (x + 1) (y + 1)).
Proof.
  split; [| intros r []]. left. apply on_string_nth; [cbn; lia |]. exists 1%nat, (V2 x (y + 1)), (V2 (x + 1) (y + 1)). split; [reflexivity |]. split; [reflexivity |]. exists 1. split; [lra |]. unfold along2. v2unfold. apply V2_eq; ring.
Qed.
Lemma square_centre x y : region (unit_square x y) (V2 (x + 1 / 2) (y + 1 / 2)).
Proof.
  split; [| intros r []]. right. unfold encloses, unit_square. cbn [p_outer square closed app consecutive map sum fold_right].
  assert (Q : forall a b, dot2 (sub2 a (V2 (x + 1 / 2) (y + 1 / 2))) (sub2 b (V2 (x + 1 / 2) (y + 1 / 2))) = 0 ->
    cross2 (sub2 a (V2 (x + 1 / 2) (y + 1 / 2))) (sub2 b (V2 (x + 1 / 2) (y + 1 / 2))) = - (1 / 2) -> subtended (V2 (x + 1 / 2) (y + 1 / 2)) (a, b) = - (PI / 2)).
  { intros a b D C. unfold subtended. cbn [fst snd]. rewrite D, C. unfold arg2. destruct (Rlt_dec 0 0); [lra |].
    replace (0 * 0 + - (1 / 2) * - (1 / 2)) with ((1 / 2) * (1 / 2)) by ring. rewrite sqrt_square by lra. replace (- (1 / 2) / (0 + 1 / 2)) with (-1) by field.
    replace (-1) with (- (1)) by ring. rewrite atan_opp, atan_1. field. }
  rewrite !Q; try (unfold cross2; v2unfold; cbn [x2 y2]; field). pose proof PI_RGT_0. unfold cycle, sum. cbn [fold_right]. lra.
Qed.

(** *** C66: a square with a hole *)
Definition hole : poly2 := mkPoly2 (closed [V2 0 0; V2 0 3; V2 3 3; V2 3 0]) [closed [V2 1 1; V2 2 1; V2 2 2; V2 1 2]].
Lemma hole_polygon m : 0 <= m < 1 / 10 -> polygon_of m hole [V2 0 0; V2 0 3; V2 3 3; V2 3 0] [[V2 1 1; V2 2 1; V2 2 2; V2 1 2]].
Proof.
  intros M. split; [reflexivity |].
  assert (A : forall a b c d, bg_same m a c = false \/ bg_same m b d = false -> bg_same_point m (V2 a b) (V2 c d) = false).
  { intros a b c d. unfold bg_same_point. cbn [x2 y2]. intros [-> | ->]; [reflexivity | apply andb_false_r]. }
  split; [| split; [| constructor; [split | constructor]]].
  - exists (V2 0 0), (V2 0 3), [V2 3 3], (V2 3 0). split; [reflexivity |]. split; apply A; [right | left]; apply apart; lra.
  - unfold signed_area, cycle. cbn. unfold cross2. cbn [x2 y2]. lra.
  - exists (V2 1 1), (V2 2 1), [V2 2 2], (V2 1 2). split; [reflexivity |]. split; apply A; [left | right]; apply apart; lra.
  - unfold signed_area, cycle. cbn. unfold cross2. cbn [x2 y2]. lra.
Qed.
Lemma c66_hole_refuted m : 0 <= m < 1 / 10 -> exists p outer inner, polygon_of m p outer inner /\ pg2_getEdgeCount p = Ok 8%nat
  /\ pg2_getEdgeAt p 4 = Err EToBeImplemented /\ pg2_getEdges p = Err EToBeImplemented.
Proof.
  intros M. eexists _, _, _. split; [apply hole_polygon, M |]. repeat split.
Qed.
