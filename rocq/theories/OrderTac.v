(** Small facts about the order and tactics for deciding comparisons. *)

From Coq Require Import List Bool.
From Verif Require Import DOrder.

Section Facts.
  Context {D : DOrder}.
  Notation T := (car D).

  Lemma eqb_refl (x : T) : eqb x x = true.
  Proof. unfold eqb. rewrite ltb_irrefl. auto. Qed.
  Lemma eqb_true (x y : T) : eqb x y = true <-> x = y.
  Proof.
    unfold eqb. rewrite andb_true_iff, !negb_true_iff. split.
    - intros [H K]. apply ltb_total; auto.
    - intros ->. rewrite ltb_irrefl; auto.
  Qed.
  Lemma eqb_false (x y : T) : eqb x y = false <-> x <> y.
  Proof. rewrite <- not_true_iff_false, eqb_true. tauto. Qed.
  Lemma ltb_neq (x y : T) : ltb x y = true -> x <> y.
  Proof. intros H ->. rewrite ltb_irrefl in H. discriminate. Qed.

  (** Three-way case analysis on two points. *)
  Lemma tri (x y : T) :
    (ltb x y = true /\ ltb y x = false /\ eqb x y = false /\ eqb y x = false) \/
    x = y \/
    (ltb y x = true /\ ltb x y = false /\ eqb x y = false /\ eqb y x = false).
  Proof.
    destruct (ltb x y) eqn:E.
    - left. rewrite (ltb_asym _ _ E). repeat split; apply eqb_false; apply ltb_neq in E; auto.
    - destruct (ltb y x) eqn:F.
      + right; right. repeat split; apply eqb_false; apply ltb_neq in F; auto.
      + right; left. apply ltb_total; auto.
  Qed.

  Lemma lt_le_trans (x y z : T) : ltb x y = true -> ltb z y = false -> ltb x z = true.
  Proof.
    intros H K. destruct (ltb x z) eqn:E; auto.
    rewrite (ltb_neg_trans _ _ _ K E) in H. discriminate.
  Qed.
  Lemma le_lt_trans (x y z : T) : ltb y x = false -> ltb y z = true -> ltb x z = true.
  Proof.
    intros H K. destruct (ltb x z) eqn:E; auto.
    rewrite (ltb_neg_trans z x y E H) in K. discriminate.
  Qed.

End Facts.

(** Saturation: prove order facts by transitivity. *)
Ltac ord :=
  solve [ auto
        | match goal with
          | |- ltb ?x ?x = false => apply ltb_irrefl
          | H : ltb ?x ?y = true |- ltb ?y ?x = false => exact (ltb_asym _ _ H)
          | H : ltb ?x ?x = true |- _ => rewrite ltb_irrefl in H; discriminate
          | H : ltb ?x ?y = true, K : ltb ?y ?x = true |- _ =>
              rewrite (ltb_asym _ _ H) in K; discriminate
          | H : ltb ?x ?y = true, K : ltb ?x ?y = false |- _ =>
              rewrite H in K; discriminate
          | H : ltb ?x ?y = true, K : ltb ?y ?z = true |- ltb ?x ?z = true =>
              exact (ltb_trans _ _ _ _ H K)
          | H : ltb ?x ?y = true, K : ltb ?y ?z = true |- ltb ?z ?x = false =>
              exact (ltb_asym _ _ (ltb_trans _ _ _ _ H K))
          | H : ltb ?x ?y = true, K : ltb ?z ?y = false |- ltb ?x ?z = true =>
              exact (lt_le_trans _ _ _ H K)
          | H : ltb ?x ?y = true, K : ltb ?z ?y = false |- ltb ?z ?x = false =>
              exact (ltb_asym _ _ (lt_le_trans _ _ _ H K))
          | H : ltb ?y ?x = false, K : ltb ?y ?z = true |- ltb ?x ?z = true =>
              exact (le_lt_trans _ _ _ H K)
          | H : ltb ?y ?x = false, K : ltb ?y ?z = true |- ltb ?z ?x = false =>
              exact (ltb_asym _ _ (le_lt_trans _ _ _ H K))
          | H : ltb ?y ?x = false, K : ltb ?z ?y = false |- ltb ?z ?x = false =>
              exact (ltb_neg_trans _ _ _ H K)
          end ].

Ltac know P := lazymatch goal with _ : P |- _ => fail | _ => idtac end.
(** Contradiction by saturation under transitivity. *)
Ltac ordc := exfalso; repeat match goal with
  | H : ltb ?x ?x = true |- _ => rewrite ltb_irrefl in H; discriminate
  | H : ltb ?x ?y = true, K : ltb ?x ?y = false |- _ => rewrite H in K; discriminate
  | H : ltb ?x ?y = true, K : ltb ?y ?z = true |- _ =>
      know (ltb x z = true); pose proof (ltb_trans _ _ _ _ H K)
  | H : ltb ?x ?y = true, K : ltb ?z ?y = false |- _ =>
      know (ltb x z = true); pose proof (lt_le_trans _ _ _ H K)
  | H : ltb ?y ?x = false, K : ltb ?y ?z = true |- _ =>
      know (ltb x z = true); pose proof (le_lt_trans _ _ _ H K)
  | H : ltb ?y ?x = false, K : ltb ?z ?y = false |- _ =>
      know (ltb z x = false); pose proof (ltb_neg_trans _ _ _ H K)
  end.
Ltac use_facts := repeat match goal with
  | H : ltb ?x ?y = _ |- context [ltb ?x ?y] => rewrite H
  | H : eqb ?x ?y = _ |- context [eqb ?x ?y] => rewrite H
  | |- context [ltb ?x ?x] => rewrite ltb_irrefl
  | |- context [eqb ?x ?x] => rewrite eqb_refl
  end.
Ltac trich x y :=
  let E1 := fresh "E" in let E2 := fresh "E" in let E3 := fresh "E" in let E4 := fresh "E" in
  destruct (tri x y) as [(E1 & E2 & E3 & E4)|[E1|(E1 & E2 & E3 & E4)]]; [|subst|].

