(** What the angle functions should compute, stated without the model's helpers. *)

From Coq Require Import List Reals ZArith.
From Verif Require Import Result AngleModel Vec.
Local Open Scope R_scope.

(** Number of units in one full turn. *)
Definition units_per_turn (u : unit) : R :=
  match u with
  | Radian => 2 * PI
  | Degree => 360
  | Arcminute => 360 * 60
  | Arcsecond => 360 * 3600
  | Revolution => 1
  | UUndefined => 0
  end.

(** The angle an object stands for, counted in turns; [None] if it stands for none. *)
Definition turns (a : angle) : option R :=
  match aval a, aunit a with
  | None, _ | _, UUndefined => None
  | Some v, u => Some (v / units_per_turn u)
  end.

(** Two angles (in turns) are the same direction. *)
Definition same_mod_turn (s t : R) : Prop := exists k : Z, s = t + IZR k.

(** A call returns [v] once it has enough fuel: the loop terminates with that value. *)
Definition returns {A} (f : nat -> result A) (v : A) : Prop :=
  exists N, forall fuel, (N <= fuel)%nat -> f fuel = Ok v.
(** No amount of fuel is enough. *)
Definition diverges {A} (f : nat -> result A) : Prop :=
  forall fuel, f fuel = Err OutOfFuel.

(** Reduction of an angle, measured with [per_turn] units per turn, to [lo, lo + per_turn[. *)
Definition range_reduces (f : nat -> angle -> option R -> option R -> result R) (per_turn : R) : Prop :=
  forall a t lo, turns a = Some t ->
    exists r, returns (fun fuel => f fuel a (Some lo) (Some (lo + per_turn))) r
      /\ lo <= r < lo + per_turn
      /\ same_mod_turn (r / per_turn) t.
(** ... and every other range, an undefined bound or an undefined angle is an error. *)
Definition range_rejects (f : nat -> angle -> option R -> option R -> result R) (per_turn : R) : Prop :=
  forall fuel a lo hi,
    (forall l h, lo = Some l -> hi = Some h -> h - l <> per_turn) \/ turns a = None ->
    f fuel a lo hi = Err EUndefined.

(** A value [x] in unit [u] converted to each unit of a list in turn. *)
Fixpoint convert_chain (x : R) (u : unit) (us : list unit) : result R :=
  match us with
  | nil => Ok x
  | cons u' us' => let! y := in_unit (mkA (Some x) u) u' in convert_chain y u' us'
  end.

(** Circular distance between two angles in turns is at most [d]. *)
Definition circularly_within (s t d : R) : Prop := exists k : Z, Rabs (s - t + IZR k) <= d.

(** [u] points in the direction of [v]. *)
Definition same_direction3 (u v : v3) : Prop := exists k, 0 < k /\ v = scale3 k u.
Definition opposite_direction3 (u v : v3) : Prop := exists k, 0 < k /\ v = scale3 (- k) u.
Definition same_direction2 (u v : v2) : Prop := exists k, 0 < k /\ v = scale2 k u.
Definition opposite_direction2 (u v : v2) : Prop := exists k, 0 < k /\ v = scale2 (- k) u.
