(** Point sets of R^2 and distances, independently of the way the library computes. *)

From Coq Require Import List Reals.
From Verif Require Import Result Vec Geo2Model.
Import ListNotations.
Local Open Scope R_scope.

Definition dist2 (p q : v2) : R := norm2 (sub2 p q).
(** The point [o + t d]. *)
Definition along2 (o : v2) (t : R) (d : v2) : v2 := add2 o (scale2 t d).
Definition on_line2 (o d : v2) (p : v2) : Prop := exists t, p = along2 o t d.
Definition on_segment2 (a b : v2) (p : v2) : Prop := exists t, 0 <= t <= 1 /\ p = along2 a t (sub2 b a).
(** On the broken line with the given vertices. *)
Fixpoint on_string2 (l : list v2) (p : v2) : Prop :=
  match l with
  | [] => False
  | [a] => p = a
  | a :: (b :: _) as r => on_segment2 a b p \/ on_string2 r p
  end.
(** [d] is the least distance from [p] to the set [S]. *)
Definition least_distance2 (S : v2 -> Prop) (p : v2) (d : R) : Prop :=
  (exists q, S q /\ dist2 p q = d) /\ forall q, S q -> d <= dist2 p q.
(** Lines the constructors make and transformations keep: unit direction. *)
Definition good_line2 (l : line2) (o d : v2) : Prop := l = mkLine2 (Some o) (Some d) /\ sqnorm2 d = 1.
Definition same_points2 (S T : v2 -> Prop) : Prop := forall p, S p <-> T p.
Definition image_of2 (f : v2 -> v2) (S T : v2 -> Prop) : Prop := forall q, T q <-> exists p, S p /\ q = f p.
