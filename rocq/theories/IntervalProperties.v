(** The interval properties C01-C15 and C71. *)

From Coq Require Import List Bool Permutation Sorted Reals Lra Lia QArith Qcanon Floats.SpecFloat.
From Verif Require Import Result DOrder OrderTac IntervalModel IntervalSpec IntervalSort
  IntervalProofs IntervalArrayProofs IntervalGapProofs IntervalAndProofs
  IntervalGridModel IntervalGridProofs IntervalMisc.
Import ListNotations.
Close Scope Q_scope.
Close Scope Qc_scope.
Close Scope R_scope.

(** ** C01 *)
Theorem C01_contains_value : forall (D : DOrder) (i : interval D) v, valid i ->
  exists r, contains_value i (Some v) = Ok r /\ (r = true <-> mem i v).
Proof. exact @contains_value_spec. Qed.
Print Assumptions C01_contains_value.

Theorem C01_contains_value_undefined : forall (D : DOrder) (i : interval D) v,
  undefined i \/ v = None -> contains_value i v = Err EUndefined.
Proof. exact @contains_value_undefined. Qed.
Print Assumptions C01_contains_value_undefined.

Example C01_ex : valid (qi THalfOpenLeft 0 1) /\
  contains_value (qi THalfOpenLeft 0 1) (Some (q 1)) = Ok true /\
  contains_value (qi THalfOpenLeft 0 1) (Some (q 0)) = Ok false.
Proof. split; [qvalid|split; vm_compute; reflexivity]. Qed.
Example C01_undefined_ex : undefined (@UndefinedI Qc_order).
Proof. left; reflexivity. Qed.

(** ** C02 *)
Theorem C02_intersects : forall (D : DOrder) (a b : interval D), valid a -> valid b ->
  exists r, intersects a b = Ok r /\ (r = true <-> exists v, mem a v /\ mem b v).
Proof. exact @intersects_spec. Qed.
Print Assumptions C02_intersects.

Theorem C02_intersects_sym : forall (D : DOrder) (a b : interval D), valid a -> valid b ->
  intersects a b = intersects b a.
Proof. exact @intersects_sym. Qed.
Print Assumptions C02_intersects_sym.

Theorem C02_intersects_undefined : forall (D : DOrder) (a b : interval D),
  undefined a \/ undefined b -> intersects a b = Err EUndefined.
Proof. exact @intersects_undefined. Qed.
Print Assumptions C02_intersects_undefined.

Example C02_ex : valid (qi TClosed 0 1) /\ valid (qi TOpen 1 2) /\
  intersects (qi TClosed 0 1) (qi TOpen 1 2) = Ok false /\
  intersects (qi TClosed 0 1) (qi THalfOpenRight 1 2) = Ok true.
Proof. split; [qvalid|split; [qvalid|split; vm_compute; reflexivity]]. Qed.

(** ** C03 *)
Theorem C03_contains_interval : forall (D : DOrder) (a b : interval D), valid a -> valid b ->
  exists r, contains_interval a b = Ok r /\ (r = true <-> forall v, mem b v -> mem a v).
Proof. exact @contains_interval_spec. Qed.
Print Assumptions C03_contains_interval.

Theorem C03_contains_interval_undefined : forall (D : DOrder) (a b : interval D),
  undefined a \/ undefined b -> contains_interval a b = Err EUndefined.
Proof. exact @contains_interval_undefined. Qed.
Print Assumptions C03_contains_interval_undefined.

Example C03_ex : valid (qi TOpen 0 2) /\ valid (qi TClosed 0 1) /\
  contains_interval (qi TOpen 0 2) (qi TClosed 0 1) = Ok false /\
  contains_interval (qi TOpen 0 2) (qi TOpen 0 1) = Ok true.
Proof. split; [qvalid|split; [qvalid|split; vm_compute; reflexivity]]. Qed.

(** ** C04 *)
Theorem C04_intersection : forall (D : DOrder) (a b : interval D), valid a -> valid b ->
  exists i, getIntersectionWith a b = Ok i /\ (i = UndefinedI \/ valid i) /\
    (forall v, mem i v <-> mem a v /\ mem b v).
Proof. exact @getIntersectionWith_spec. Qed.
Print Assumptions C04_intersection.

Theorem C04_intersection_undefined : forall (D : DOrder) (a b : interval D),
  undefined a \/ undefined b -> getIntersectionWith a b = Err EUndefined.
Proof. exact @getIntersectionWith_undefined. Qed.
Print Assumptions C04_intersection_undefined.

Example C04_ex : valid (qi TOpen 0 2) /\ valid (qi TClosed 0 1) /\
  getIntersectionWith (qi TOpen 0 2) (qi TClosed 0 1) = Ok (qi THalfOpenLeft 0 1) /\
  getIntersectionWith (qi TOpen 1 2) (qi TClosed 0 1) = Ok UndefinedI.
Proof. split; [qvalid|split; [qvalid|split; vm_compute; reflexivity]]. Qed.

(** ** C05 *)
Theorem C05_union : forall (D : DOrder) (a b : interval D), valid a -> valid b ->
  exists i, getUnionWith a b = Ok i /\
    ((valid i /\ convex (fun v => mem a v \/ mem b v) /\ (forall v, mem i v <-> mem a v \/ mem b v)) \/
     (i = UndefinedI /\ ~ convex (fun v => mem a v \/ mem b v))).
Proof. exact @getUnionWith_spec. Qed.
Print Assumptions C05_union.

Theorem C05_union_undefined : forall (D : DOrder) (a b : interval D),
  undefined a \/ undefined b -> getUnionWith a b = Err EUndefined.
Proof. exact @getUnionWith_undefined. Qed.
Print Assumptions C05_union_undefined.

Example C05_ex : valid (qi THalfOpenRight 0 1) /\ valid (qi THalfOpenRight 1 2) /\
  getUnionWith (qi THalfOpenRight 0 1) (qi THalfOpenRight 1 2) = Ok (qi THalfOpenRight 0 2) /\
  getUnionWith (qi TOpen 0 1) (qi TOpen 1 2) = Ok UndefinedI.
Proof. split; [qvalid|split; [qvalid|split; vm_compute; reflexivity]]. Qed.

(** ** C06 *)
Theorem C06_clip : forall (D : DOrder) (l : list (interval D)) c, Forall valid l -> valid c ->
  exists r, Clip l c = Ok r /\ Forall valid r /\
    (forall v, covered r v <-> mem c v /\ covered l v).
Proof. exact @Clip_cover. Qed.
Print Assumptions C06_clip.

(** The pieces come in the order of the input: dropping the empty ones from a list
    that matches the input element by element. *)
Theorem C06_clip_order : forall (D : DOrder) (l : list (interval D)) c, Forall valid l -> valid c ->
  exists r pieces, Clip l c = Ok r /\
    Forall2 (fun i x => forall v, mem x v <-> mem i v /\ mem c v) l pieces /\
    (exists keep, (forall x, In x pieces -> (keep x = true <-> exists v, mem x v)) /\ r = filter keep pieces).
Proof. exact @Clip_order. Qed.
Print Assumptions C06_clip_order.

Theorem C06_clip_undefined : forall (D : DOrder) (l : list (interval D)) c,
  undefined c \/ (valid c /\ Forall (fun i => undefined i \/ valid i) l /\ Exists undefined l) ->
  Clip l c = Err EUndefined.
Proof. exact @Clip_undefined. Qed.
Print Assumptions C06_clip_undefined.

Example C06_ex : Forall valid [qi TOpen 0 2; qi TClosed 5 6; qi TClosed 1 1] /\ valid (qi TClosed 1 3) /\
  Clip [qi TOpen 0 2; qi TClosed 5 6; qi TClosed 1 1] (qi TClosed 1 3)
    = Ok [qi THalfOpenRight 1 2; qi TClosed 1 1].
Proof. split; [qvalids|split; [qvalid|vm_compute; reflexivity]]. Qed.

(** ** C07 *)
Theorem C07_merge_cover : forall (D : DOrder) (srt : sorter D) l, std_sort_contract srt -> Forall valid l ->
  exists r, Merge srt l = Ok r /\ Forall valid r /\ (forall v, covered r v <-> covered l v).
Proof. exact @Merge_cover'. Qed.
Print Assumptions C07_merge_cover.

Theorem C07_merge_undefined : forall (D : DOrder) (srt : sorter D) l,
  Exists undefined l -> Merge srt l = Err EUndefined.
Proof. exact @Merge_undefined. Qed.
Print Assumptions C07_merge_undefined.

(** Sort: a permutation of the input, ordered by the requested bound in the requested direction. *)
Theorem C07_sort : forall (D : DOrder) (srt : sorter D) l byLower ascending,
  std_sort_contract srt -> Forall valid l ->
  exists r, SortBy srt l byLower ascending = Ok r /\ Permutation l r /\
    StronglySorted (fun a b => forall x y,
      (if byLower then ilb a else iub a) = Some x -> (if byLower then ilb b else iub b) = Some y ->
      if ascending then le x y else le y x) r.
Proof. exact @SortBy_spec. Qed.
Print Assumptions C07_sort.

Example C07_sorter_ex : std_sort_contract (@isort Qc_order) /\ std_sort_contract (@isort' Qc_order).
Proof. split; [apply isort_contract|apply isort'_contract]. Qed.
Example C07_ex : Forall valid [qi TOpen 1 2; qi TClosed 5 6; qi TClosed 0 1] /\
  Merge isort [qi TOpen 1 2; qi TClosed 5 6; qi TClosed 0 1]
    = Ok [qi THalfOpenRight 0 2; qi TClosed 5 6].
Proof. split; [qvalids|vm_compute; reflexivity]. Qed.

(** ** C08 *)
(** Full statement (every two different returned intervals have a gap between them, and the
    result does not depend on the order of the input): true when no two input intervals start
    at the same value one including it, the other not. *)
Theorem C08_merge_separated_partial : forall (D : DOrder) (srt : sorter D) l,
  std_sort_contract srt -> Forall valid l -> no_tie l ->
  exists r, Merge srt l = Ok r /\ Forall valid r /\ (forall v, covered r v <-> covered l v) /\
    StronglySorted gap_between r.
Proof. exact @Merge_sep'. Qed.
Print Assumptions C08_merge_separated_partial.

Theorem C08_merge_canonical_partial : forall (D : DOrder) (srt srt' : sorter D) l l',
  std_sort_contract srt -> std_sort_contract srt' -> Forall valid l -> Forall valid l' ->
  no_tie l -> no_tie l' -> (forall v, covered l v <-> covered l' v) -> Merge srt l = Merge srt' l'.
Proof. exact @Merge_canonical. Qed.
Print Assumptions C08_merge_canonical_partial.

(** In general only the lower bounds are guaranteed to be different... *)
Theorem C08_merge_twice : forall (D : DOrder) (srt : sorter D) l,
  std_sort_contract srt -> Forall valid l ->
  exists r, (let! m := Merge srt l in Merge srt m) = Ok r /\ Forall valid r /\
    (forall v, covered r v <-> covered l v) /\ StronglySorted gap_between r.
Proof. exact @Merge_twice. Qed.
Print Assumptions C08_merge_twice.

(** ... and the full statement is false: [0,1[ and [1,2] are left unmerged. *)
Theorem C08_merge_separated_refuted : exists (l : list (interval Qc_order)) r,
  std_sort_contract (@isort Qc_order) /\ Forall valid l /\ Merge isort l = Ok r /\
  exists a b, r = [a; b] /\ convex (fun v => mem a v \/ mem b v).
Proof. exact Merge_tie. Qed.
Print Assumptions C08_merge_separated_refuted.

(** The result also depends on the order of the input. *)
Theorem C08_merge_order_refuted : exists l l' : list (interval Qc_order),
  std_sort_contract (@isort Qc_order) /\ Forall valid l /\ Permutation l l' /\
  Merge isort l <> Merge isort l'.
Proof. exact Merge_tie_order. Qed.
Print Assumptions C08_merge_order_refuted.

Example C08_ex : no_tie [qi TOpen 1 2; qi TClosed 5 6; qi TClosed 0 1].
Proof.
  intros a b [<-|[<-|[<-|[]]]] [<-|[<-|[<-|[]]]]; cbn [ilb qi]; intros E;
    try reflexivity; exfalso; injection E as E; vm_compute in E; discriminate.
Qed.

(** ** C09 *)
(** Exact description of what GetGaps returns: the uncovered part of the span, except an
    included end of the span that is itself uncovered while everything next to it is covered. *)
Theorem C09_gaps_span_partial : forall (D : DOrder) (srt : sorter D) l span,
  std_sort_contract srt -> Forall valid l -> no_tie l -> valid span ->
  exists r, GetGaps srt l span = Ok r /\ Forall valid r /\
    (forall v, covered r v <->
       mem span v /\ ~ covered l v /\ ~ lost_end (mem span) (covered l) v).
Proof. exact @GetGaps_span_spec. Qed.
Print Assumptions C09_gaps_span_partial.

Theorem C09_gaps_nospan_partial : forall (D : DOrder) (srt : sorter D) l span,
  std_sort_contract srt -> Forall valid l -> no_tie l -> undefined span ->
  exists r, GetGaps srt l span = Ok r /\ Forall valid r /\
    (forall v, covered r v <->
       ~ covered l v /\ (exists x, covered l x /\ lt x v) /\ (exists y, covered l y /\ lt v y)).
Proof. exact @GetGaps_undefined_span. Qed.
Print Assumptions C09_gaps_nospan_partial.

(** The full statement is false: the gaps of {]0,1]} in [0,1] miss 0 ... *)
Theorem C09_gaps_refuted : exists (l : list (interval Qc_order)) span r v,
  std_sort_contract (@isort Qc_order) /\ Forall valid l /\ no_tie l /\ valid span /\
  GetGaps isort l span = Ok r /\ mem span v /\ ~ covered l v /\ ~ covered r v.
Proof. exact GetGaps_missed. Qed.
Print Assumptions C09_gaps_refuted.

(** ... and on intervals starting at the same value GetGaps may throw. *)
Theorem C09_gaps_throws_refuted : exists (l : list (interval Qc_order)) span,
  std_sort_contract (@isort Qc_order) /\ Forall valid l /\ valid span /\
  GetGaps isort l span = Err ERuntime.
Proof. exact GetGaps_throws. Qed.
Print Assumptions C09_gaps_throws_refuted.

Example C09_ex : GetGaps isort [qi TOpen 1 2; qi TClosed 5 6; qi TClosed 0 1] (qi TClosed (-1) 6)
   = Ok [qi THalfOpenRight (-1) 0; qi THalfOpenRight 2 5].
Proof. vm_compute; reflexivity. Qed.

(** ** C10 *)
Theorem C10_logical_or : forall (D : DOrder) (srt : sorter D) a b,
  std_sort_contract srt -> Forall valid a -> Forall valid b ->
  exists r, LogicalOr srt a b = Ok r /\ Forall valid r /\
    (forall v, covered r v <-> covered a v \/ covered b v).
Proof. exact @LogicalOr_spec. Qed.
Print Assumptions C10_logical_or.

Example C10_ex : LogicalOr isort [qi TOpen 1 2] [qi TClosed 5 6; qi TClosed 0 1]
    = Ok [qi THalfOpenRight 0 2; qi TClosed 5 6].
Proof. vm_compute; reflexivity. Qed.

(** ** C11 *)
(** Exact description of what LogicalAnd returns: the common values except isolated common
    values at an end of the union. *)
Theorem C11_logical_and_partial : forall (D : DOrder) (srt : sorter D) a b,
  std_sort_contract srt -> Forall valid a -> Forall valid b ->
  exists r, LogicalAnd srt a b = Ok r /\ Forall valid r /\
    (forall v, covered r v <->
       covered a v /\ covered b v /\ ~ lost_point (covered a) (covered b) v).
Proof. exact @LogicalAnd_spec. Qed.
Print Assumptions C11_logical_and_partial.

Theorem C11_logical_and_exact_partial : forall (D : DOrder) (srt : sorter D) a b,
  std_sort_contract srt -> Forall valid a -> Forall valid b ->
  (forall i, In i (a ++ b) -> ~ degenerate i) ->
  exists r, LogicalAnd srt a b = Ok r /\ Forall valid r /\
    (forall v, covered r v <-> covered a v /\ covered b v).
Proof. exact @LogicalAnd_exact. Qed.
Print Assumptions C11_logical_and_exact_partial.

(** The full statement is false: {[0,0],[2,3]} and {[0,3]} give {[2,3]}. *)
Theorem C11_logical_and_refuted : exists (a b : list (interval Qc_order)) r v,
  std_sort_contract (@isort Qc_order) /\ Forall valid a /\ Forall valid b /\
  LogicalAnd isort a b = Ok r /\ covered a v /\ covered b v /\ ~ covered r v.
Proof. exact LogicalAnd_lost. Qed.
Print Assumptions C11_logical_and_refuted.

Example C11_ex : LogicalAnd isort [qi TOpen 0 2; qi TClosed 5 6] [qi TClosed 1 5]
    = Ok [qi THalfOpenRight 1 2; qi TClosed 5 5] /\
  (forall i, In i ([qi TOpen 0 2; qi TClosed 5 6] ++ [qi TClosed 1 5]) -> ~ degenerate i).
Proof.
  split; [vm_compute; reflexivity|]. intros i Hi [v Hv].
  assert (K : forall t l u, valid (qi t l u) -> ltb (d := Qc_order) (q l) (q u) = true ->
     ~ (forall x, mem (qi t l u) x <-> x = v)).
  { intros t l u V L H. destruct (valid_nonempty _ V) as [x Hx].
    assert (x = v) as -> by (apply H; auto).
    destruct (ltb (d := Qc_order) (q l) v) eqn:E1.
    - destruct (mem_near_low (D := Qc_order) _ _ _ v V E1) as (y & Y1 & Y2). apply H in Y1. subst.
      unfold lt in Y2. rewrite ltb_irrefl in Y2. discriminate.
    - assert (E2 : ltb (d := Qc_order) v (q u) = true) by (apply (le_lt_trans v (q l) (q u)); auto).
      destruct (mem_near_high (D := Qc_order) _ _ _ v V E2) as (y & Y1 & Y2). apply H in Y1. subst.
      unfold lt in Y2. rewrite ltb_irrefl in Y2. discriminate. }
  destruct Hi as [<-|[<-|[<-|[]]]]; eapply K; try exact Hv; try qvalid; vm_compute; reflexivity.
Qed.

(** ** C12 *)
(** False: setType and the bound setters accept values the constructor rejects. *)
Theorem C12_mutators_refuted : exists i j k : interval Qc_order,
  valid i /\ setType (qi TClosed 1 1) TOpen = Ok j /\ valid (qi TClosed 1 1) /\ ~ valid j /\
  setLowerBound i (Some (q 1)) = Ok k /\ ~ valid k.
Proof. exact setters_break. Qed.
Print Assumptions C12_mutators_refuted.

(** What does hold: the bounds stay ordered and the setters reject crossed bounds. *)
Theorem C12_mutators_partial : forall (D : DOrder) (i j : interval D) x,
  valid i -> (setLowerBound i (Some x) = Ok j \/ setUpperBound i (Some x) = Ok j) ->
  exists l u, ilb j = Some l /\ iub j = Some u /\ le l u /\ itp j = itp i.
Proof. exact @setters_order. Qed.
Print Assumptions C12_mutators_partial.

Example C12_ex : valid (qi TOpen 0 1) /\ setLowerBound (qi TOpen (-1) 1) (Some (q 0)) = Ok (qi TOpen 0 1) /\
  setLowerBound (qi TOpen 0 1) (Some (q 2)) = Err ERuntime.
Proof. split; [qvalid|split; vm_compute; reflexivity]. Qed.

(** The constructor accepts exactly the valid intervals. *)
Theorem C12_constructor : forall (D : DOrder) (l u : car D) t i, t <> TUndefined ->
  (construct (Some l) (Some u) t = Ok i <-> i = mkI t (Some l) (Some u) /\ valid i).
Proof. exact @construct_ok_iff. Qed.
Print Assumptions C12_constructor.

(** ** C13 *)
Theorem C13_with_step_positive : forall (i : interval R_order) (l u s : R),
  valid i -> ilb i = Some l -> iub i = Some u -> (0 < s)%R ->
  exists N g, (forall fuel, N <= fuel -> generateArrayWithStep fuel i (Some s) = Ok g) /\
    StronglySorted Rlt g /\
    (forall v : R, In v g <-> mem i v /\ ((exists k, v = (l + INR k * s)%R) \/ v = u)).
Proof. exact withStep_pos. Qed.
Print Assumptions C13_with_step_positive.

Theorem C13_with_step_negative : forall (i : interval R_order) (l u s : R),
  valid i -> ilb i = Some l -> iub i = Some u -> (s < 0)%R ->
  exists N g, (forall fuel, N <= fuel -> generateArrayWithStep fuel i (Some s) = Ok g) /\
    StronglySorted Rgt g /\
    (forall v : R, In v g <-> mem i v /\ ((exists k, v = (u + INR k * s)%R) \/ v = l)).
Proof. exact withStep_neg. Qed.
Print Assumptions C13_with_step_negative.

Theorem C13_with_step_errors : forall fuel (i : interval R_order),
  (undefined i -> forall s, generateArrayWithStep fuel i s = Err EUndefined) /\
  (valid i -> generateArrayWithStep fuel i None = Err EUndefined) /\
  (valid i -> generateArrayWithStep fuel i (Some 0%R) = Err ERuntime).
Proof. exact withStep_errors. Qed.
Print Assumptions C13_with_step_errors.

Definition ri (t : itype) (l u : R) : interval R_order := mkI (D := R_order) t (Some l) (Some u).
Example C13_ex : valid (ri THalfOpenRight 0 1) /\ ilb (ri THalfOpenRight 0 1) = Some 0%R /\ (0 < / 4)%R.
Proof. split; [split; [discriminate|left; apply Rltb_true; lra]|split; [reflexivity|lra]]. Qed.

(** ** C14 *)
Theorem C14_with_size_values : forall t (l u : R) n, valid (ri t l u) -> 2 <= n ->
  exists g, generateArrayWithSize (ri t l u) n = Ok g /\ length g = n /\
    (forall k, k < n ->
       nth_error g k = Some (l + INR (k + first_index t) * ((u - l) / INR (cells t n)))%R).
Proof. exact withSize_spec. Qed.
Print Assumptions C14_with_size_values.

Theorem C14_with_size_inside : forall t (l u : R) n, valid (ri t l u) -> (l < u)%R -> 2 <= n ->
  exists g, generateArrayWithSize (ri t l u) n = Ok g /\
    (forall v, In v g -> mem (ri t l u) v) /\ StronglySorted Rlt g /\
    (In l g <-> lower_included t) /\ (In u g <-> upper_included t).
Proof. exact withSize_mem. Qed.
Print Assumptions C14_with_size_inside.

Theorem C14_with_size_errors : forall (i : interval R_order) n,
  (n < 2 -> generateArrayWithSize i n = Err EWrong) /\
  (undefined i -> exists e, generateArrayWithSize i n = Err e).
Proof. exact withSize_errors. Qed.
Print Assumptions C14_with_size_errors.

Example C14_ex : valid (ri TOpen 0 1) /\ (0 < 1)%R /\ 2 <= 3.
Proof. split; [split; [discriminate|left; apply Rltb_true; lra]|split; [lra|lia]]. Qed.

(** ** C15 *)
Theorem C15_equality : forall (D : DOrder) (a b : interval D), valid a -> valid b ->
  (interval_eq a b = true <-> forall v, mem a v <-> mem b v).
Proof. exact @interval_eq_spec. Qed.
Print Assumptions C15_equality.

Theorem C15_equality_undefined : forall (D : DOrder) (a b : interval D),
  undefined a \/ undefined b -> interval_eq a b = false.
Proof. exact @interval_eq_undef. Qed.
Print Assumptions C15_equality_undefined.

Example C15_ex : interval_eq (qi TOpen 0 1) (qi TOpen 0 1) = true /\
  interval_eq (qi TOpen 0 1) (qi THalfOpenLeft 0 1) = false.
Proof. split; vm_compute; reflexivity. Qed.

(** ** C71 *)
(** Full statement: for a positive step the loop of generateArrayWithStep terminates in
    binary64.  False: from 2^53 with step 1 the loop variable never changes. *)
Theorem C71_with_step_terminates_refuted : exists value upper step : spec_float,
  SFltb (S754_zero false) step = true /\ SFltb value upper = true /\
  forall fuel, step_loop64 fuel step upper value = Err OutOfFuel.
Proof. exact step_loop64_diverges. Qed.
Print Assumptions C71_with_step_terminates_refuted.
