(** A stable insertion sort: a function meeting the std::sort contract, used to show
    that the contract is satisfiable and to compute examples.  (libstdc++'s std::sort is
    an insertion sort on fewer than 17 elements.) *)

From Coq Require Import List Bool Permutation Sorted.
From Verif Require Import Result DOrder IntervalModel IntervalSpec.
Import ListNotations.

Section Insertion.
  Context {D : DOrder}.

  Fixpoint insert (cmp : interval D -> interval D -> bool) (x : interval D) (l : list (interval D)) :=
    match l with
    | [] => [x]
    | y :: r => if cmp y x then y :: insert cmp x r else x :: y :: r
    end.

  Definition isort : sorter D := fun cmp l => fold_right (insert cmp) [] l.

  (** Same, leaving equivalent elements in the opposite order. *)
  Fixpoint insert' (cmp : interval D -> interval D -> bool) (x : interval D) (l : list (interval D)) :=
    match l with
    | [] => [x]
    | y :: r => if cmp x y then x :: y :: r else y :: insert' cmp x r
    end.

  Definition isort' : sorter D := fun cmp l => fold_right (insert' cmp) [] l.

  Lemma insert_perm cmp x l : Permutation (x :: l) (insert cmp x l).
  Proof.
    induction l as [|y l IH]; cbn; auto. destruct (cmp y x); auto.
    eapply Permutation_trans; [apply perm_swap|]. auto.
  Qed.
  Lemma insert'_perm cmp x l : Permutation (x :: l) (insert' cmp x l).
  Proof.
    induction l as [|y l IH]; cbn; auto. destruct (cmp x y); auto.
    eapply Permutation_trans; [apply perm_swap|]. auto.
  Qed.
  Lemma isort_perm cmp l : Permutation l (isort cmp l).
  Proof.
    induction l as [|x l IH]; cbn; auto. eapply Permutation_trans; [|apply insert_perm]. auto.
  Qed.
  Lemma isort'_perm cmp l : Permutation l (isort' cmp l).
  Proof.
    induction l as [|x l IH]; cbn; auto. eapply Permutation_trans; [|apply insert'_perm]. auto.
  Qed.

  Section Sorted.
    Variable cmp : interval D -> interval D -> bool.
    Variable L : list (interval D).
    Hypothesis SW : strict_weak_on cmp L.
    Notation P := (fun a b => cmp b a = false).

    Lemma cmp_asym a b : In a L -> In b L -> cmp a b = true -> cmp b a = false.
    Proof.
      intros Ha Hb H. destruct (cmp b a) eqn:E; auto. destruct SW as (I & Tr & _).
      rewrite <- (I a Ha). symmetry. apply (Tr a b a); auto.
    Qed.

    Lemma insert_sorted x l : In x L -> incl l L -> StronglySorted P l -> StronglySorted P (insert cmp x l).
    Proof.
      intros Hx Hl S. induction S as [|y l S IH F]; cbn; [repeat constructor|].
      assert (Hy : In y L) by (apply Hl; simpl; auto).
      assert (Hl' : incl l L) by (intros z Hz; apply Hl; simpl; auto).
      rewrite Forall_forall in F. destruct (cmp y x) eqn:E.
      - constructor; auto. rewrite Forall_forall. intros z Hz.
        eapply Permutation_in in Hz; [|apply Permutation_sym, insert_perm]. destruct Hz as [<-|Hz]; auto.
        apply cmp_asym; auto.
      - constructor; [constructor; auto; apply Forall_forall; auto|]. constructor; auto.
        rewrite Forall_forall. intros z Hz. destruct SW as (_ & _ & N). apply (N z y x); auto.
    Qed.

    Lemma insert'_sorted x l : In x L -> incl l L -> StronglySorted P l -> StronglySorted P (insert' cmp x l).
    Proof.
      intros Hx Hl S. induction S as [|y l S IH F]; cbn; [repeat constructor|].
      assert (Hy : In y L) by (apply Hl; simpl; auto).
      assert (Hl' : incl l L) by (intros z Hz; apply Hl; simpl; auto).
      rewrite Forall_forall in F. destruct (cmp x y) eqn:E.
      - constructor; [constructor; auto; apply Forall_forall; auto|]. pose proof (cmp_asym x y Hx Hy E).
        constructor; auto.
        rewrite Forall_forall. intros z Hz. destruct SW as (_ & _ & N). apply (N z y x); auto.
      - constructor; auto. rewrite Forall_forall. intros z Hz.
        eapply Permutation_in in Hz; [|apply Permutation_sym, insert'_perm]. destruct Hz as [<-|Hz]; auto.
    Qed.

    Lemma isort_sorted l : incl l L -> StronglySorted P (isort cmp l).
    Proof.
      induction l as [|x l IH]; intros H; cbn; [constructor|].
      assert (Hl : incl l L) by (intros z Hz; apply H; simpl; auto).
      apply insert_sorted; auto; [apply H; simpl; auto|].
      intros z Hz. apply Hl. eapply Permutation_in; [apply Permutation_sym, isort_perm|]; eauto.
    Qed.
    Lemma isort'_sorted l : incl l L -> StronglySorted P (isort' cmp l).
    Proof.
      induction l as [|x l IH]; intros H; cbn; [constructor|].
      assert (Hl : incl l L) by (intros z Hz; apply H; simpl; auto).
      apply insert'_sorted; auto; [apply H; simpl; auto|].
      intros z Hz. apply Hl. eapply Permutation_in; [apply Permutation_sym, isort'_perm|]; eauto.
    Qed.
  End Sorted.

  Lemma isort_contract : std_sort_contract isort.
  Proof.
    intros cmp l SW. split; [apply isort_perm|]. apply (isort_sorted cmp l); auto. apply incl_refl.
  Qed.
  Lemma isort'_contract : std_sort_contract isort'.
  Proof.
    intros cmp l SW. split; [apply isort'_perm|]. apply (isort'_sorted cmp l); auto. apply incl_refl.
  Qed.
End Insertion.
