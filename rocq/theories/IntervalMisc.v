(** Error branches, corollaries and counterexamples for the interval properties. *)

From Coq Require Import List Bool Permutation Sorted QArith Qcanon Floats.SpecFloat.
From Verif Require Import Result DOrder OrderTac IntervalModel IntervalSpec IntervalSort
  IntervalProofs IntervalArrayProofs IntervalGapProofs IntervalAndProofs
  IntervalGridModel IntervalGridProofs.
Import ListNotations.
Close Scope Q_scope.
Close Scope Qc_scope.

Section Misc.
  Context {D : DOrder}.
  Notation T := (car D).
  Notation interval := (interval D).
  Implicit Types (i j a b c span : interval) (l r : list interval) (srt : sorter D).

  Lemma undefined_iff i : undefined i <-> isDefined i = false.
  Proof.
    destruct i as [t [lo|] [up|]]; destruct t; cbn; unfold undefined; cbn; intuition congruence.
  Qed.

  Lemma open_undefined i : undefined i -> open_interval i = Err EUndefined.
  Proof. intros H. apply undefined_iff in H. unfold open_interval. rewrite H. auto. Qed.

  Lemma open_result i : (exists x, open_interval i = Ok x) \/ open_interval i = Err EUndefined.
  Proof.
    unfold open_interval. destruct i as [t [lo|] [up|]]; cbn; destruct (isDefined _); eauto.
  Qed.

  Lemma contains_value_undefined i v : undefined i \/ v = None -> contains_value i v = Err EUndefined.
  Proof.
    intros [H| ->]; auto. destruct v; auto. unfold contains_value. rewrite open_undefined by auto. auto.
  Qed.

  Lemma two_open {A} a b (f : itype * T * T -> itype * T * T -> result A) :
    undefined a \/ undefined b ->
    bind (open_interval a) (fun x => bind (open_interval b) (fun y => f x y)) = Err EUndefined.
  Proof.
    intros H. destruct (open_result a) as [[x E]|E]; rewrite E; auto. cbn.
    destruct H as [H|H]; [rewrite (open_undefined _ H) in E; discriminate|].
    rewrite (open_undefined _ H). auto.
  Qed.

  Lemma intersects_undefined a b : undefined a \/ undefined b -> intersects a b = Err EUndefined.
  Proof.
    intros H. unfold intersects. destruct (open_result a) as [[[[t x] y] E]|E]; rewrite E; auto. cbn [bind].
    destruct H as [H|H]; [rewrite (open_undefined _ H) in E; discriminate|]. rewrite (open_undefined _ H). auto.
  Qed.
  Lemma contains_interval_undefined a b : undefined a \/ undefined b -> contains_interval a b = Err EUndefined.
  Proof.
    intros H. unfold contains_interval. destruct (open_result a) as [[[[t x] y] E]|E]; rewrite E; auto. cbn [bind].
    destruct H as [H|H]; [rewrite (open_undefined _ H) in E; discriminate|]. rewrite (open_undefined _ H). auto.
  Qed.
  Lemma getIntersectionWith_undefined a b : undefined a \/ undefined b -> getIntersectionWith a b = Err EUndefined.
  Proof.
    intros H. unfold getIntersectionWith. destruct (open_result a) as [[[[t x] y] E]|E]; rewrite E; auto. cbn [bind].
    destruct H as [H|H]; [rewrite (open_undefined _ H) in E; discriminate|]. rewrite (open_undefined _ H). auto.
  Qed.
  Lemma getUnionWith_undefined a b : undefined a \/ undefined b -> getUnionWith a b = Err EUndefined.
  Proof.
    intros H. unfold getUnionWith. destruct (open_result a) as [[[[t x] y] E]|E]; rewrite E; auto. cbn [bind].
    destruct H as [H|H]; [rewrite (open_undefined _ H) in E; discriminate|]. rewrite (open_undefined _ H). auto.
  Qed.
  Lemma interval_eq_undef a b : undefined a \/ undefined b -> interval_eq a b = false.
  Proof. rewrite !undefined_iff. apply interval_eq_undefined. Qed.

  Lemma intersects_sym a b : valid a -> valid b -> intersects a b = intersects b a.
  Proof.
    intros Ha Hb. destruct (intersects_spec a b Ha Hb) as (r & -> & H).
    destruct (intersects_spec b a Hb Ha) as (r' & -> & H'). f_equal.
    apply eq_true_iff_eq. rewrite H, H'. split; intros (v & ? & ?); exists v; auto.
  Qed.

  Lemma Clip_cover l c : Forall valid l -> valid c ->
    exists r, Clip l c = Ok r /\ Forall valid r /\ (forall v, covered r v <-> mem c v /\ covered l v).
  Proof.
    intros Hl Hc. unfold Clip. rewrite (valid_defined c Hc).
    destruct (clip_loop_spec l c Hl Hc) as (r & xs & E & V & F & K). exists r. split; auto. split; auto.
    eapply clip_cover; eauto.
  Qed.

  Lemma Clip_order l c : Forall valid l -> valid c ->
    exists r pieces, Clip l c = Ok r /\
      Forall2 (fun i j => forall v, mem j v <-> mem i v /\ mem c v) l pieces /\
      (exists keep, (forall j, In j pieces -> (keep j = true <-> exists v, mem j v)) /\ r = filter keep pieces).
  Proof.
    intros Hl Hc. unfold Clip. rewrite (valid_defined c Hc).
    destruct (clip_loop_spec' l c Hl Hc) as (r & xs & E & V & F & K). exists r, xs. split; auto. split; auto.
    exists isDefined. split; auto. intros j Hj. rewrite Forall_forall in V. destruct (V j Hj) as [-> |Vj].
    - cbn. split; [discriminate|]. intros [v []].
    - rewrite (valid_defined j Vj). split; auto. intros _. apply valid_nonempty; auto.
  Qed.

  Lemma Clip_undefined l c : undefined c \/
    (valid c /\ Forall (fun i => undefined i \/ valid i) l /\ Exists undefined l) ->
    Clip l c = Err EUndefined.
  Proof.
    intros H. unfold Clip. destruct (isDefined c) eqn:E; auto.
    destruct H as [H|(Hc & F & H)]; [apply undefined_iff in H; congruence|].
    induction H as [i l Hi|i l Hl IH]; cbn [clip_loop].
    - rewrite getIntersectionWith_undefined by auto; auto.
    - inversion F as [|? ? Fi Fl]; subst. destruct Fi as [Fi|Fi].
      + rewrite getIntersectionWith_undefined by auto; auto.
      + destruct (getIntersectionWith_spec i c Fi Hc) as (x & -> & _). cbn [bind]. rewrite IH; auto.
  Qed.

  Lemma Merge_cover' srt l : std_sort_contract srt -> Forall valid l ->
    exists r, Merge srt l = Ok r /\ Forall valid r /\ (forall v, covered r v <-> covered l v).
  Proof.
    intros Hs Hl. destruct (Merge_cover srt l Hs Hl) as (r & E & V & _ & C). exists r; auto.
  Qed.

  Lemma Merge_undefined srt l : Exists undefined l -> Merge srt l = Err EUndefined.
  Proof.
    intros H. assert (K : forallb isDefined l = false).
    { induction H as [i l Hi|i l Hl IH]; cbn.
      - apply undefined_iff in Hi. rewrite Hi. auto.
      - rewrite IH, andb_false_r. auto. }
    destruct l as [|i l]; [inversion H|]. unfold Merge, Sort, SortBy. rewrite K. auto.
  Qed.

  Lemma SortBy_spec srt l byl asc : std_sort_contract srt -> Forall valid l ->
    exists r, SortBy srt l byl asc = Ok r /\ Permutation l r /\
      StronglySorted (fun a b => forall x y,
        (if byl then ilb a else iub a) = Some x -> (if byl then ilb b else iub b) = Some y ->
        if asc then le x y else le y x) r.
  Proof.
    intros Hs Hl. unfold SortBy. rewrite valid_forallb by auto.
    destruct (Hs (sort_cmp byl asc) l (sort_cmp_swo _ _ _ Hl)) as [P S].
    eexists; split; [reflexivity|]. split; auto. rewrite Forall_forall in Hl.
    eapply StronglySorted_weaken; [|exact S]. intros a b Ha Hb.
    apply (Permutation_in _ (Permutation_sym P)) in Ha, Hb. cbn beta.
    destruct (valid_inv a (Hl a Ha)) as (ta & la & ua & -> & Hta & _).
    destruct (valid_inv b (Hl b Hb)) as (tb & lb & ub & -> & Htb & _).
    unfold sort_cmp. rewrite !open_interval_defined by auto. unfold gtb, le.
    destruct byl, asc; cbn; intros K x y E1 E2; injection E1 as <-; injection E2 as <-; auto.
  Qed.

  Lemma Merge_sep' srt l : std_sort_contract srt -> Forall valid l -> no_tie l ->
    exists r, Merge srt l = Ok r /\ Forall valid r /\ (forall v, covered r v <-> covered l v) /\
      StronglySorted gap_between r.
  Proof.
    intros Hs Hl Hn. destruct (Merge_sep srt l Hs Hl Hn) as (r & E & V & _ & C & S). exists r; auto.
  Qed.

  Lemma Merge_twice srt l : std_sort_contract srt -> Forall valid l ->
    exists r, (let! m := Merge srt l in Merge srt m) = Ok r /\ Forall valid r /\
      (forall v, covered r v <-> covered l v) /\ StronglySorted gap_between r.
  Proof.
    intros Hs Hl. destruct (Merge_before srt l Hs Hl) as (m & -> & Vm & _ & Cm & Sm). cbn [bind].
    destruct (Merge_sep srt m Hs Vm (before_no_tie _ Sm)) as (r & E & V & _ & C & S).
    exists r. repeat split; auto; intros H; [apply Cm, C|apply C, Cm]; auto.
  Qed.

  Lemma GetGaps_undefined_span srt l span : std_sort_contract srt -> Forall valid l -> no_tie l ->
    undefined span ->
    exists r, GetGaps srt l span = Ok r /\ Forall valid r /\
      (forall v, covered r v <->
         ~ covered l v /\ (exists x, covered l x /\ lt x v) /\ (exists y, covered l y /\ lt v y)).
  Proof. intros Hs Hl Hn H. apply undefined_iff in H. apply GetGaps_nospan_spec; auto. Qed.

  Lemma LogicalOr_spec srt l l' : std_sort_contract srt -> Forall valid l -> Forall valid l' ->
    exists r, LogicalOr srt l l' = Ok r /\ Forall valid r /\
      (forall v, covered r v <-> covered l v \/ covered l' v).
  Proof.
    intros Hs H H'. unfold LogicalOr. destruct (Merge_cover' srt (l ++ l') Hs) as (r & E & V & C).
    { apply Forall_app; auto. }
    exists r. split; auto. split; auto. intros v. rewrite C. apply covered_app.
  Qed.

  Lemma setters_order i j x : valid i -> (setLowerBound i (Some x) = Ok j \/ setUpperBound i (Some x) = Ok j) ->
    exists lo up, ilb j = Some lo /\ iub j = Some up /\ le lo up /\ itp j = itp i.
  Proof.
    intros Hi H. destruct (valid_inv i Hi) as (t & lo & up & -> & Ht & _).
    unfold setLowerBound, setUpperBound in H. rewrite (valid_defined _ Hi) in H. cbn in H. unfold gtb in H.
    destruct H as [H|H].
    - destruct (ltb up x) eqn:E; [discriminate|]. injection H as <-. exists x, up. auto.
    - destruct (ltb x lo) eqn:E; [discriminate|]. injection H as <-. exists lo, x. auto.
  Qed.
End Misc.

(** *** Counterexamples over the rationals *)
Definition q (n : Z) : Qc := Q2Qc (inject_Z n).
Definition qi (t : itype) (l u : Z) : interval Qc_order := mkI (D := Qc_order) t (Some (q l)) (Some (q u)).
Ltac qvalid := split; [discriminate|first [left; vm_compute; reflexivity|right; split; reflexivity]].
Ltac qvalids := repeat (constructor; [qvalid|]); constructor.

Lemma qmem t l u v : t <> TUndefined ->
  (mem (qi t l u) v <-> abv (D := Qc_order) (closed_left t) (q l) v = true /\
                        blw (D := Qc_order) (closed_right t) (q u) v = true).
Proof. intros; apply (mem_cuts (D := Qc_order)); auto. Qed.

Ltac qmem := rewrite ?qmem by discriminate; vm_compute.

Lemma Merge_tie : exists (l : list (interval Qc_order)) r,
  std_sort_contract (@isort Qc_order) /\ Forall valid l /\ Merge isort l = Ok r /\
  exists a b, r = [a; b] /\ convex (fun v => mem a v \/ mem b v).
Proof.
  exists [qi THalfOpenRight 0 1; qi THalfOpenLeft 1 2; qi TClosed 1 1],
         [qi THalfOpenRight 0 1; qi TClosed 1 2].
  split; [apply isort_contract|]. split; [qvalids|]. split; [vm_compute; reflexivity|].
  exists (qi THalfOpenRight 0 1), (qi TClosed 1 2). split; auto.
  destruct (getUnionWith_spec (D := Qc_order) (qi THalfOpenRight 0 1) (qi TClosed 1 2)) as (u & Eu & [(_ & C & _)|(-> & _)]).
  - qvalid.
  - qvalid.
  - exact C.
  - vm_compute in Eu. discriminate.
Qed.

Lemma Merge_tie_order : exists l l' : list (interval Qc_order),
  std_sort_contract (@isort Qc_order) /\ Forall valid l /\ Permutation l l' /\
  Merge isort l <> Merge isort l'.
Proof.
  exists [qi THalfOpenRight 0 1; qi THalfOpenLeft 1 2; qi TClosed 1 1],
         [qi THalfOpenRight 0 1; qi TClosed 1 1; qi THalfOpenLeft 1 2].
  split; [apply isort_contract|]. split; [qvalids|]. split; [constructor; apply perm_swap|].
  vm_compute. discriminate.
Qed.

Lemma GetGaps_missed : exists (l : list (interval Qc_order)) span r v,
  std_sort_contract (@isort Qc_order) /\ Forall valid l /\ no_tie l /\ valid span /\
  GetGaps isort l span = Ok r /\ mem span v /\ ~ covered l v /\ ~ covered r v.
Proof.
  exists [qi THalfOpenLeft 0 1], (qi TClosed 0 1), [], (q 0).
  split; [apply isort_contract|]. split; [qvalids|]. split; [intros a b [<-|[]] [<-|[]]; reflexivity|].
  split; [qvalid|]. split; [vm_compute; reflexivity|]. split; [qmem; auto|]. split.
  - intros (i & [<-|[]] & H). revert H. qmem. intros [H _]; discriminate.
  - intros (i & [] & _).
Qed.

Lemma GetGaps_throws : exists (l : list (interval Qc_order)) span,
  std_sort_contract (@isort Qc_order) /\ Forall valid l /\ valid span /\
  GetGaps isort l span = Err ERuntime.
Proof.
  exists [qi THalfOpenRight 0 1; qi THalfOpenLeft 1 2; qi TClosed 1 1], (qi TClosed 0 3).
  split; [apply isort_contract|]. split; [qvalids|]. split; [qvalid|]. vm_compute. reflexivity.
Qed.

Lemma LogicalAnd_lost : exists (a b : list (interval Qc_order)) r v,
  std_sort_contract (@isort Qc_order) /\ Forall valid a /\ Forall valid b /\
  LogicalAnd isort a b = Ok r /\ covered a v /\ covered b v /\ ~ covered r v.
Proof.
  exists [qi TClosed 0 0; qi TClosed 2 3], [qi TClosed 0 3], [qi TClosed 2 3], (q 0).
  split; [apply isort_contract|]. split; [qvalids|]. split; [qvalids|]. split; [vm_compute; reflexivity|].
  split; [exists (qi TClosed 0 0); split; [left; auto|qmem; auto]|].
  split; [exists (qi TClosed 0 3); split; [left; auto|qmem; auto]|].
  intros (i & [<-|[]] & H). revert H. qmem. intros [H _]; discriminate.
Qed.

Lemma setters_break : exists i j k : interval Qc_order,
  valid i /\ setType (qi TClosed 1 1) TOpen = Ok j /\ valid (qi TClosed 1 1) /\ ~ valid j /\
  setLowerBound i (Some (q 1)) = Ok k /\ ~ valid k.
Proof.
  exists (qi TOpen 0 1), (qi TOpen 1 1), (qi TOpen 1 1).
  split; [qvalid|]. split; [reflexivity|]. split; [qvalid|].
  assert (K : ~ valid (qi TOpen 1 1)).
  { intros [_ [H|[_ H]]]; [vm_compute in H|]; discriminate. }
  auto.
Qed.

Lemma step_loop64_diverges : exists value upper step : spec_float,
  SFltb (S754_zero false) step = true /\ SFltb value upper = true /\
  forall fuel, step_loop64 fuel step upper value = Err OutOfFuel.
Proof.
  exists f64_two53, f64_two54, f64_1. split; [reflexivity|]. split; [reflexivity|]. apply step_loop64_stuck.
Qed.
