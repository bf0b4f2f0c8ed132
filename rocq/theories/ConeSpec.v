(** Cones as sets of points, independently of the way the library computes. *)

From Coq Require Import List Bool Reals.
From Verif Require Import Result Vec AngleModel AngleSpec Geo3Types Geo3Spec.
Import ListNotations.
Local Open Scope R_scope.

(** The direction from the apex [a] makes with the axis [u] an angle of at most [t] (of [t]). *)
Definition solid_cone (a u : v3) (t : R) (p : v3) : Prop := norm3 (sub3 p a) * norm3 u * cos t <= dot3 (sub3 p a) u.
Definition on_cone (a u : v3) (t : R) (p : v3) : Prop := norm3 (sub3 p a) * norm3 u * cos t = dot3 (sub3 p a) u.
(** A defined cone with angle [t] in radians; the axis is long enough for Angle::Between. *)
Definition good_cone (eps : R) (c : cone) (a u : v3) (t : R) : Prop :=
  exists k, c = mkCone (Some a) (Some u) k /\ turns k = Some (t / (2 * PI)) /\ eps <= sqnorm3 u.
(** The apex itself, or a point not too close to it for Angle::Between. *)
Definition clear_of (eps : R) (a p : v3) : Prop := p = a \/ eps <= sqnorm3 (sub3 p a).

(** Unit vectors spread evenly around [u]: [e] and its images by the multiples of the [n]-th of a turn. *)
Definition around (u e : v3) (s : R) : v3 := add3 (scale3 (cos s) e) (scale3 (sin s) (cross3 u e)).
(** The [i]-th of the [n] half lines spread evenly on the cone, starting next to [e]. *)
Definition lateral (u e : v3) (t : R) (n i : nat) : v3 :=
  add3 (scale3 (cos t) u) (scale3 (sin t) (around u e (2 * PI * INR i / INR n))).

(** The points of the line strings of an intersection. *)
Definition strings_of (i : inter) (l : list (list v3)) : Prop := i_defined i = true /\ i_objects i = map (fun s => OLineString (map Some s)) l.
(** Lists with a point. *)
Definition nonempty (l : list v3) : bool := match l with [] => false | _ => true end.
