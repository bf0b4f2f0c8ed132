(** Model of [Interval<T>]
    (/repo/src/OpenSpaceToolkit/Mathematics/Object/Interval.tpp).

    Bounds are [option T]; [None] is an undefined value of [T].  The comparison
    operators of an ostk type throw on undefined operands; in the modelled code
    they are only reached once [isDefined()] has been checked, except in the
    constructor and the setters, which test definedness explicitly. *)

From Coq Require Import List Bool Permutation Sorted.
From Verif Require Import Result DOrder.
Import ListNotations.

(** Interval.hpp, enum class Type. *)
Inductive itype := TUndefined | TClosed | TOpen | THalfOpenLeft | THalfOpenRight.

Definition itype_eqb (a b : itype) : bool :=
  match a, b with
  | TUndefined, TUndefined | TClosed, TClosed | TOpen, TOpen
  | THalfOpenLeft, THalfOpenLeft | THalfOpenRight, THalfOpenRight => true
  | _, _ => false
  end.

Section Model.
  Context {D : DOrder}.
  Notation T := (car D).

  (** Interval.hpp: members type_, lowerBound_, upperBound_. *)
  Record interval := mkI { itp : itype; ilb : option T; iub : option T }.

  (** Type tests written out in the code as disjunctions. *)
  (* type_ == Open || type_ == HalfOpenLeft *)
  Definition open_left (t : itype) : bool := itype_eqb t TOpen || itype_eqb t THalfOpenLeft.
  (* type_ == Open || type_ == HalfOpenRight *)
  Definition open_right (t : itype) : bool := itype_eqb t TOpen || itype_eqb t THalfOpenRight.
  (* type_ == Closed || type_ == HalfOpenRight *)
  Definition closed_left (t : itype) : bool := itype_eqb t TClosed || itype_eqb t THalfOpenRight.
  (* type_ == Closed || type_ == HalfOpenLeft *)
  Definition closed_right (t : itype) : bool := itype_eqb t TClosed || itype_eqb t THalfOpenLeft.

  (** Interval.tpp 19-36: constructor. *)
  Definition construct (l u : option T) (t : itype) : result interval :=
    match l, u with
    | Some l', Some u' =>
        if gtb l' u' then Err ERuntime
        else if eqb l' u' && negb (itype_eqb t TClosed) then Err ERuntime
        else Ok (mkI t l u)
    | _, _ => Ok (mkI t l u)
    end.

  (** Interval.tpp 71-74: isDefined. *)
  Definition isDefined (i : interval) : bool :=
    match itp i, ilb i, iub i with
    | TUndefined, _, _ => false
    | _, Some _, Some _ => true
    | _, _, _ => false
    end.

  (** The checked access pattern "if (!isDefined()) throw Undefined" followed by
      reads of type_, lowerBound_, upperBound_. *)
  Definition open_interval (i : interval) : result (itype * T * T) :=
    if isDefined i then
      match ilb i, iub i with
      | Some l, Some u => Ok (itp i, l, u)
      | _, _ => Err EUndefined
      end
    else Err EUndefined.

  (** Interval.tpp 39-48: operator==. *)
  Definition interval_eq (a b : interval) : bool :=
    match open_interval a, open_interval b with
    | Ok (ta, la, ua), Ok (tb, lb, ub) => itype_eqb ta tb && eqb la lb && eqb ua ub
    | _, _ => false
    end.

  (** Interval.tpp 77-85: isDegenerate. *)
  Definition isDegenerate (i : interval) : result bool :=
    let! (_, l, u) := open_interval i in Ok (eqb l u).

  (** Interval.tpp 927-953: checkAgainstLowerBound (the switch throws Wrong on
      Type::Undefined). *)
  Definition checkAgainstLowerBound (t : itype) (l : T) (v : T) (isOpen isUpperBound : bool)
    : result bool :=
    match t with
    | TClosed | THalfOpenRight =>
        if isOpen && isUpperBound then Ok (ltb l v) else Ok (leb l v)
    | THalfOpenLeft | TOpen =>
        if isOpen && negb isUpperBound then Ok (leb l v) else Ok (ltb l v)
    | TUndefined => Err EWrong
    end.

  (** Interval.tpp 956-982: checkAgainstUpperBound. *)
  Definition checkAgainstUpperBound (t : itype) (u : T) (v : T) (isOpen isLowerBound : bool)
    : result bool :=
    match t with
    | TClosed | THalfOpenLeft =>
        if isOpen && isLowerBound then Ok (gtb u v) else Ok (geb u v)
    | THalfOpenRight | TOpen =>
        if isOpen && negb isLowerBound then Ok (geb u v) else Ok (gtb u v)
    | TUndefined => Err EWrong
    end.

  (** Interval.tpp 88-122: intersects.  (The short-circuit evaluation of || and &&
      does not matter: on a defined interval the checks do not throw.) *)
  Definition intersects (a b : interval) : result bool :=
    let! (ta, la, ua) := open_interval a in
    let! (tb, lb, ub) := open_interval b in
    let! c1 := checkAgainstLowerBound ta la lb (open_left tb) false in
    let! c2 := checkAgainstLowerBound ta la ub (open_right tb) true in
    let! c3 := checkAgainstUpperBound ta ua lb (open_left tb) true in
    let! c4 := checkAgainstUpperBound ta ua ub (open_right tb) false in
    Ok ((c1 || c2) && (c3 || c4)).

  (** Interval.tpp 125-138: contains(value). *)
  Definition contains_value (i : interval) (v : option T) : result bool :=
    match v with
    | None => Err EUndefined
    | Some v =>
        let! (t, l, u) := open_interval i in
        let! c1 := checkAgainstLowerBound t l v false false in
        let! c2 := checkAgainstUpperBound t u v false false in
        Ok (c1 && c2)
    end.

  (** Interval.tpp 141-163: contains(interval). *)
  Definition contains_interval (a b : interval) : result bool :=
    let! (ta, la, ua) := open_interval a in
    let! (tb, lb, ub) := open_interval b in
    let! c1 := checkAgainstLowerBound ta la lb (open_left tb) false in
    let! c2 := checkAgainstUpperBound ta ua ub (open_right tb) false in
    Ok (c1 && c2).

  (** Interval.tpp 567-594: factories. *)
  Definition UndefinedI : interval := mkI TUndefined None None.
  Definition Closed (l u : T) := construct (Some l) (Some u) TClosed.
  Definition Open (l u : T) := construct (Some l) (Some u) TOpen.
  Definition HalfOpenLeft (l u : T) := construct (Some l) (Some u) THalfOpenLeft.
  Definition HalfOpenRight (l u : T) := construct (Some l) (Some u) THalfOpenRight.

  (** Interval.tpp 221-306: getIntersectionWith. *)
  Definition getIntersectionWith (a b : interval) : result interval :=
    let! (ta, la, ua) := open_interval a in
    let! (tb, lb, ub) := open_interval b in
    let lowerBound := std_max la lb in
    let upperBound := std_min ua ub in
    if gtb lowerBound upperBound then Ok UndefinedI
    else
      let openLowerBound :=
        let o := if eqb lowerBound la then (if open_left ta then true else false) else false in
        if negb o && eqb lowerBound lb then (if open_left tb then true else o) else o in
      let openUpperBound :=
        let o := if eqb upperBound ua then (if open_right ta then true else false) else false in
        if negb o && eqb upperBound ub then (if open_right tb then true else o) else o in
      if openLowerBound && openUpperBound then
        if eqb lowerBound upperBound then Ok UndefinedI else Open lowerBound upperBound
      else if openLowerBound then
        if eqb lowerBound upperBound then Ok UndefinedI else HalfOpenLeft lowerBound upperBound
      else if openUpperBound then
        if eqb lowerBound upperBound then Ok UndefinedI else HalfOpenRight lowerBound upperBound
      else Closed lowerBound upperBound.

  (** Interval.tpp 985-1005: buildInterval. *)
  Definition buildInterval (l : T) (ol : bool) (u : T) (ou : bool) : result interval :=
    if ol && ou then Open l u
    else if ol then HalfOpenLeft l u
    else if ou then HalfOpenRight l u
    else Closed l u.

  (** Interval.tpp 309-370: getUnionWith. *)
  Definition getUnionWith (a b : interval) : result interval :=
    let! (ta, la, ua) := open_interval a in
    let! (tb, lb, ub) := open_interval b in
    if interval_eq a b then construct (Some la) (Some ua) ta
    else
      let! c1 := contains_value a (Some lb) in
      let! c2 := contains_value a (Some ub) in
      let! c3 := contains_value b (Some la) in
      let! c4 := contains_value b (Some ua) in
      if c1 || c2 || c3 || c4 then
        let lowerBound := std_min la lb in
        let upperBound := std_max ua ub in
        let openLowerBound :=
          let o := if eqb lowerBound la then (if closed_left ta then false else true) else true in
          if o && eqb lowerBound lb then (if closed_left tb then false else o) else o in
        let openUpperBound :=
          let o := if eqb upperBound ua then (if closed_right ta then false else true) else true in
          if o && eqb upperBound ub then (if closed_right tb then false else o) else o in
        buildInterval lowerBound openLowerBound upperBound openUpperBound
      else Ok UndefinedI.

  (** Interval.tpp 524-532, 535-548, 551-564: setType, setLowerBound, setUpperBound. *)
  Definition setType (i : interval) (t : itype) : result interval :=
    if isDefined i then Ok (mkI t (ilb i) (iub i)) else Err EUndefined.

  Definition setLowerBound (i : interval) (l : option T) : result interval :=
    if isDefined i then
      match l, iub i with
      | Some l', Some u' => if gtb l' u' then Err ERuntime else Ok (mkI (itp i) l (iub i))
      | _, _ => Ok (mkI (itp i) l (iub i))
      end
    else Err EUndefined.

  Definition setUpperBound (i : interval) (u : option T) : result interval :=
    if isDefined i then
      match u, ilb i with
      | Some u', Some l' => if ltb u' l' then Err ERuntime else Ok (mkI (itp i) (ilb i) u)
      | _, _ => Ok (mkI (itp i) (ilb i) u)
      end
    else Err EUndefined.

  (** Interval.tpp 597-618: Clip. *)
  Fixpoint clip_loop (l : list interval) (c : interval) : result (list interval) :=
    match l with
    | [] => Ok []
    | i :: r =>
        let! x := getIntersectionWith i c in
        let! rest := clip_loop r c in
        Ok (if isDefined x then x :: rest else rest)
    end.

  Definition Clip (l : list interval) (c : interval) : result (list interval) :=
    if isDefined c then clip_loop l c else Err EUndefined.

  (** [std::sort].  An unstable sort: all that is known of the result is the
      contract below.  The whole array model is parameterised by the function. *)
  Definition sorter := (interval -> interval -> bool) -> list interval -> list interval.

  (** Interval.tpp 632-647: comparator of Sort, on defined intervals. *)
  Definition sort_cmp (byLower ascending : bool) (a b : interval) : bool :=
    match open_interval a, open_interval b with
    | Ok (_, la, ua), Ok (_, lb, ub) =>
        if byLower then (if ascending then ltb la lb else gtb la lb)
        else (if ascending then ltb ua ub else gtb ua ub)
    | _, _ => false
    end.

  (** Interval.tpp 621-652: Sort.  With one element the definedness is tested
      explicitly; with two or more, std::sort applies the comparator to every
      element at least once, and the comparator throws on an undefined interval. *)
  Definition SortBy (srt : sorter) (l : list interval) (byLower ascending : bool)
    : result (list interval) :=
    if forallb isDefined l then Ok (srt (sort_cmp byLower ascending) l) else Err EUndefined.

  (** Default arguments of Sort (Interval.hpp): byLowerBound = true, ascending = true. *)
  Definition Sort (srt : sorter) (l : list interval) := SortBy srt l true true.

  (** Interval.tpp 667-681: loop of Merge. *)
  Fixpoint merge_loop (nextUnion : interval) (l : list interval) : result (list interval) :=
    match l with
    | [] => Ok [nextUnion]
    | i :: r =>
        let! checkUnion := getUnionWith nextUnion i in
        if isDefined checkUnion then merge_loop checkUnion r
        else let! rest := merge_loop i r in Ok (nextUnion :: rest)
    end.

  (** Interval.tpp 655-684: Merge. *)
  Definition Merge (srt : sorter) (l : list interval) : result (list interval) :=
    match l with
    | [] => Ok []
    | _ =>
        let! sorted := Sort srt l in
        match sorted with
        | [] => UB                      (* sorted[0] on an empty array: not reached *)
        | i :: r => merge_loop i r
        end
    end.

  (** Interval.tpp 731-751: intermediate gaps. *)
  Fixpoint middle_gaps (prev : interval) (l : list interval) : result (list interval) :=
    match l with
    | [] => Ok []
    | i :: r =>
        let! (tp, _, up) := open_interval prev in
        let! (ti, li, _) := open_interval i in
        let! g := buildInterval up (closed_right tp) li (closed_left ti) in
        let! rest := middle_gaps i r in
        Ok (g :: rest)
    end.

  (** Interval.tpp 687-776: GetGaps. *)
  Definition GetGaps (srt : sorter) (l : list interval) (span : interval) : result (list interval) :=
    let! merged := Merge srt l in
    let! sanitized := (if isDefined span then Clip merged span else Ok merged) in
    match sanitized with
    | [] => Ok (if isDefined span then [span] else [])
    | first :: rest =>
        let! (tf, lf, _) := open_interval first in
        (* 708-728 leading gap *)
        let! leading :=
          (match open_interval span with
           | Ok (ts, ls, _) =>
               if gtb lf ls then
                 rmap (fun g => [g])
                   (buildInterval ls (if closed_left ts then false else true)
                                  lf (if closed_left tf then true else false))
               else Ok []
           | _ => Ok []
           end) in
        (* 730-751 intermediate gaps *)
        let! middle := middle_gaps first rest in
        (* 753-773 trailing gap *)
        let! (tz, _, uz) := open_interval (List.last rest first) in
        let! trailing :=
          (match open_interval span with
           | Ok (ts, _, us) =>
               if ltb uz us then
                 rmap (fun g => [g])
                   (buildInterval uz (if closed_right tz then true else false)
                                  us (if closed_right ts then false else true))
               else Ok []
           | _ => Ok []
           end) in
        Ok (leading ++ middle ++ trailing)
    end.

  (** Interval.tpp 779-796: LogicalOr. *)
  Definition LogicalOr (srt : sorter) (a b : list interval) : result (list interval) :=
    Merge srt (a ++ b).

  (** Interval.tpp 799-892: LogicalAnd. *)
  Definition LogicalAnd (srt : sorter) (a b : list interval) : result (list interval) :=
    let! sa := Merge srt a in
    let! sb := Merge srt b in
    match sa, sb with
    | [], _ | _, [] => Ok []
    | fa :: ra, fb :: rb =>
        let! (tfa, lfa, _) := open_interval fa in
        let! (tfb, lfb, _) := open_interval fb in
        (* 811-844 *)
        let '(lowerBound, openLowerBound) :=
          if ltb lfa lfb then (lfa, if closed_left tfa then false else true)
          else if gtb lfa lfb then (lfb, if closed_left tfb then false else true)
          else (lfa, if closed_left tfa && closed_left tfb then false else true) in
        let! (tza, _, uza) := open_interval (List.last ra fa) in
        let! (tzb, _, uzb) := open_interval (List.last rb fb) in
        (* 846-882 *)
        let '(upperBound, openUpperBound) :=
          if gtb uza uzb then (uza, if closed_right tza then false else true)
          else if ltb uza uzb then (uzb, if closed_right tzb then false else true)
          else (uza, if closed_right tza && closed_right tzb then false else true) in
        (* 884-891 *)
        let! span := buildInterval lowerBound openLowerBound upperBound openUpperBound in
        let! ga := GetGaps srt sa span in
        let! gb := GetGaps srt sb span in
        let! o := LogicalOr srt ga gb in
        GetGaps srt o span
    end.
End Model.

Arguments interval D : clear implicits.
Arguments sorter D : clear implicits.
