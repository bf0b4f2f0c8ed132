(** Vocabulary for the interval properties: sets of values. *)

From Coq Require Import List Bool Permutation Sorted.
From Verif Require Import Result DOrder IntervalModel.
Import ListNotations.

Section Spec.
  Context {D : DOrder}.
  Notation T := (car D).

  (** Which bounds belong to an interval of each type. *)
  Definition lower_included (t : itype) : Prop := t = TClosed \/ t = THalfOpenRight.
  Definition upper_included (t : itype) : Prop := t = TClosed \/ t = THalfOpenLeft.

  (** The set of values denoted by (type, lower, upper). *)
  Definition in_set (t : itype) (l u v : T) : Prop :=
    (lt l v \/ (l = v /\ lower_included t)) /\ (lt v u \/ (v = u /\ upper_included t)).

  (** The set of values of an interval; an undefined one has none. *)
  Definition mem (i : interval D) (v : T) : Prop :=
    match i with
    | mkI t (Some l) (Some u) => t <> TUndefined /\ in_set t l u v
    | _ => False
    end.

  (** An interval with an undefined type or bound. *)
  Definition undefined (i : interval D) : Prop := itp i = TUndefined \/ ilb i = None \/ iub i = None.

  (** What the constructor is documented to accept, on defined bounds:
      lower < upper, or lower = upper and closed. *)
  Definition valid (i : interval D) : Prop :=
    match i with
    | mkI t (Some l) (Some u) => t <> TUndefined /\ (lt l u \/ (l = u /\ t = TClosed))
    | _ => False
    end.

  (** A value is covered by an array of intervals. *)
  Definition covered (l : list (interval D)) (v : T) : Prop := exists i, In i l /\ mem i v.

  (** No value is missing between two members. *)
  Definition convex (S : T -> Prop) : Prop :=
    forall x y z, S x -> S z -> lt x y -> lt y z -> S y.

  (** [s] separates the two sets: everything in [a] is below, everything in [b] above. *)
  Definition separated_by (a b : interval D) (s : T) : Prop :=
    (forall x, mem a x -> lt x s) /\ (forall y, mem b y -> lt s y).

  (** There is a value strictly between the two intervals. *)
  Definition gap_between (a b : interval D) : Prop := exists s, separated_by a b s.

  (** The contract of std::sort ([alg.sorting]): for a comparator inducing a strict weak order
      on the elements, the result is a permutation in which no element compares less
      than an earlier one.  Nothing is promised on the order of equivalent elements. *)
  Definition strict_weak_on (cmp : interval D -> interval D -> bool) (l : list (interval D)) : Prop :=
    (forall a, In a l -> cmp a a = false) /\
    (forall a b c, In a l -> In b l -> In c l -> cmp a b = true -> cmp b c = true -> cmp a c = true) /\
    (forall a b c, In a l -> In b l -> In c l -> cmp a b = false -> cmp b c = false -> cmp a c = false).

  Definition std_sort_contract (srt : sorter D) : Prop :=
    forall cmp l, strict_weak_on cmp l ->
      Permutation l (srt cmp l) /\ StronglySorted (fun a b => cmp b a = false) (srt cmp l).

  (** No two elements start at the same value with different inclusion. *)
  Definition no_tie (l : list (interval D)) : Prop :=
    forall a b, In a l -> In b l -> ilb a = ilb b -> (lower_included (itp a) <-> lower_included (itp b)).

  (** [v] is the least element of [S] (resp. greatest). *)
  Definition least (S : T -> Prop) (v : T) : Prop := S v /\ forall x, S x -> le v x.
  Definition greatest (S : T -> Prop) (v : T) : Prop := S v /\ forall x, S x -> le x v.

  (** [C] starts immediately above [v] inside [S] (resp. stops immediately below). *)
  Definition starts_after (S C : T -> Prop) (v : T) : Prop :=
    exists w, lt v w /\ S w /\ forall x, lt v x -> le x w -> C x.
  Definition stops_before (S C : T -> Prop) (v : T) : Prop :=
    exists w, lt w v /\ S w /\ forall x, lt x v -> le w x -> C x.

  (** The end points of the span that the code does not see as gaps. *)
  Definition lost_end (S C : T -> Prop) (v : T) : Prop :=
    (least S v /\ starts_after S C v) \/ (greatest S v /\ stops_before S C v).

  (** An isolated end of the union of the two covered sets, lost by LogicalAnd. *)
  Definition lost_point (A B : T -> Prop) (v : T) : Prop :=
    let U := fun x => A x \/ B x in
    (least U v /\ exists w, lt v w /\ (exists z, U z /\ le w z) /\
       forall x, lt v x -> le x w -> ~ (A x /\ B x)) \/
    (greatest U v /\ exists w, lt w v /\ (exists z, U z /\ le z w) /\
       forall x, lt x v -> le w x -> ~ (A x /\ B x)).

  (** An interval with a single value. *)
  Definition degenerate (i : interval D) : Prop := exists v, forall x, mem i x <-> x = v.

End Spec.

(** The evenly spaced points: index of the first one, how many indices are left out
    at the end, and the number of cells. *)
Definition first_index (t : itype) : nat := match t with TClosed | THalfOpenRight => 0 | _ => 1 end.
Definition last_gap (t : itype) : nat := match t with TClosed | THalfOpenLeft => 0 | _ => 1 end.
Definition cells (t : itype) (n : nat) : nat := n - 1 + first_index t + last_gap t.
