(** Dense total orders, the carriers of [Interval<T>].

    [Interval<T>] (include/OpenSpaceToolkit/Mathematics/Object/Interval.hpp) is a
    template; its algorithms use only the comparison operators of [T].  They are
    modelled over an arbitrary dense total order with a computable comparison. *)

From Coq Require Import List Bool Arith Lia ZArith Reals QArith Qcanon.
Import ListNotations.

Record DOrder := {
  car : Type;
  ltb : car -> car -> bool;
  ltb_irrefl : forall a, ltb a a = false;
  ltb_trans : forall a b c, ltb a b = true -> ltb b c = true -> ltb a c = true;
  ltb_total : forall a b, ltb a b = false -> ltb b a = false -> a = b;
  ltb_dense : forall a b, ltb a b = true -> exists c, ltb a c = true /\ ltb c b = true
}.

Arguments ltb {d} _ _.

(** Operators [>], [<=], [>=], [==] of [T]. *)
Definition gtb {D : DOrder} (a b : car D) : bool := ltb b a.
Definition leb {D : DOrder} (a b : car D) : bool := negb (ltb b a).
Definition geb {D : DOrder} (a b : car D) : bool := negb (ltb a b).
Definition eqb {D : DOrder} (a b : car D) : bool := negb (ltb a b) && negb (ltb b a).

(** [std::max(a, b)] is [(a < b) ? b : a]; [std::min(a, b)] is [(b < a) ? b : a]. *)
Definition std_max {D : DOrder} (a b : car D) : car D := if ltb a b then b else a.
Definition std_min {D : DOrder} (a b : car D) : car D := if ltb b a then b else a.

(** Propositional order used in specifications. *)
Definition lt {D : DOrder} (a b : car D) : Prop := ltb a b = true.
Definition le {D : DOrder} (a b : car D) : Prop := ltb b a = false.

(** ** Instances *)

Definition Rltb (a b : R) : bool := if Rlt_dec a b then true else false.

Lemma Rltb_true a b : Rltb a b = true <-> (a < b)%R.
Proof. unfold Rltb; destruct (Rlt_dec a b); split; intros; auto; discriminate. Qed.
Lemma Rltb_false a b : Rltb a b = false <-> (b <= a)%R.
Proof.
  unfold Rltb; destruct (Rlt_dec a b) as [H|H]; split; intros K; auto; try discriminate.
  - exfalso; apply (Rlt_not_le _ _ H K).
  - apply Rnot_lt_le; auto.
Qed.

Lemma Rltb_irrefl a : Rltb a a = false.
Proof. apply Rltb_false; apply Rle_refl. Qed.
Lemma Rltb_trans a b c : Rltb a b = true -> Rltb b c = true -> Rltb a c = true.
Proof. rewrite !Rltb_true; apply Rlt_trans. Qed.
Lemma Rltb_total a b : Rltb a b = false -> Rltb b a = false -> a = b.
Proof. rewrite !Rltb_false; intros H K; apply Rle_antisym; auto. Qed.
Lemma Rltb_dense a b : Rltb a b = true -> exists c, Rltb a c = true /\ Rltb c b = true.
Proof.
  rewrite Rltb_true; intros H; exists ((a + b) / 2)%R; rewrite !Rltb_true.
  split; apply (Rmult_lt_reg_r 2); try apply Rlt_0_2; unfold Rdiv;
    rewrite ?Rmult_assoc, ?Rinv_l, ?Rmult_1_r by (apply Rgt_not_eq, Rlt_0_2).
  - replace (a * 2)%R with (a + a)%R by ring. apply Rplus_lt_compat_l; auto.
  - replace (b * 2)%R with (b + b)%R by ring. apply Rplus_lt_compat_r; auto.
Qed.

Definition R_order : DOrder :=
  Build_DOrder R Rltb Rltb_irrefl Rltb_trans Rltb_total Rltb_dense.

(** Canonical rationals: computable, with Leibniz equality. *)
Definition Qcltb (a b : Qc) : bool :=
  match (a ?= b)%Qc with Lt => true | _ => false end.

Lemma Qcltb_true a b : Qcltb a b = true <-> (a < b)%Qc.
Proof.
  unfold Qcltb. rewrite Qclt_alt. destruct (a ?= b)%Qc; split; intros; auto; discriminate.
Qed.
Lemma Qcltb_false a b : Qcltb a b = false <-> (b <= a)%Qc.
Proof.
  split; intros H.
  - apply Qcnot_lt_le. intros K. apply Qcltb_true in K. rewrite K in H. discriminate.
  - destruct (Qcltb a b) eqn:E; auto. apply Qcltb_true in E.
    exfalso; apply (Qclt_not_le _ _ E H).
Qed.

Lemma Qcltb_irrefl a : Qcltb a a = false.
Proof. apply Qcltb_false; apply Qcle_refl. Qed.
Lemma Qcltb_trans a b c : Qcltb a b = true -> Qcltb b c = true -> Qcltb a c = true.
Proof. rewrite !Qcltb_true; apply Qclt_trans. Qed.
Lemma Qcltb_total a b : Qcltb a b = false -> Qcltb b a = false -> a = b.
Proof. rewrite !Qcltb_false; intros H K; apply Qcle_antisym; auto. Qed.
Lemma Qcltb_dense a b : Qcltb a b = true -> exists c, Qcltb a c = true /\ Qcltb c b = true.
Proof.
  rewrite Qcltb_true; intros H. exists (Q2Qc ((a + b) / 2)); rewrite !Qcltb_true.
  unfold Qclt in *. cbn [this Q2Qc]. split; rewrite Qred_correct.
  - apply Qlt_shift_div_l; [reflexivity|].
    setoid_replace (a * 2)%Q with (a + a)%Q by ring. apply Qplus_lt_r; auto.
  - apply Qlt_shift_div_r; [reflexivity|].
    setoid_replace (b * 2)%Q with (b + b)%Q by ring. apply Qplus_lt_l; auto.
Qed.

Definition Qc_order : DOrder :=
  Build_DOrder Qc Qcltb Qcltb_irrefl Qcltb_trans Qcltb_total Qcltb_dense.

(** ** Deciding order facts: the rank of a point in a finite list of points. *)

Local Close Scope Qc_scope.
Local Close Scope Q_scope.
Local Open Scope nat_scope.

Section Rank.
  Context {D : DOrder}.
  Notation T := (car D).

  Fixpoint rank (l : list T) (x : T) : nat :=
    match l with
    | [] => 0
    | y :: r => (if ltb y x then 1 else 0) + rank r x
    end.

  Lemma ltb_asym (a b : T) : ltb a b = true -> ltb b a = false.
  Proof.
    intros H. destruct (ltb b a) eqn:E; auto.
    pose proof (ltb_trans D _ _ _ H E) as K. rewrite ltb_irrefl in K. discriminate.
  Qed.

  Lemma ltb_neg_trans (a b c : T) : ltb b a = false -> ltb c b = false -> ltb c a = false.
  Proof.
    intros H K. destruct (ltb c a) eqn:E; auto.
    destruct (ltb a b) eqn:F.
    - rewrite (ltb_trans D _ _ _ E F) in K. discriminate.
    - pose proof (ltb_total D _ _ F H); subst. congruence.
  Qed.

  Lemma rank_mono l (x y : T) : ltb y x = false -> rank l x <= rank l y.
  Proof.
    intros H. induction l as [|z l IH]; simpl; [lia|].
    destruct (ltb z x) eqn:E; [|lia].
    destruct (ltb z y) eqn:F; [lia|].
    rewrite (ltb_neg_trans _ _ _ H F) in E. discriminate.
  Qed.

  Lemma rank_strict l (x y : T) : In x l -> ltb x y = true -> rank l x < rank l y.
  Proof.
    intros Hin H. induction l as [|z l IH]; simpl in *; [tauto|].
    pose proof (rank_mono l x y (ltb_asym _ _ H)) as M.
    destruct Hin as [->|Hin].
    - rewrite ltb_irrefl, H. lia.
    - specialize (IH Hin). destruct (ltb z x) eqn:E; [|destruct (ltb z y); lia].
      rewrite (ltb_trans D _ _ _ E H). lia.
  Qed.

  Lemma ltb_rank l (x y : T) : In x l -> In y l -> ltb x y = Nat.ltb (rank l x) (rank l y).
  Proof.
    intros Hx Hy. destruct (ltb x y) eqn:E.
    - symmetry. apply Nat.ltb_lt. apply rank_strict; auto.
    - symmetry. apply Nat.ltb_ge. apply rank_mono; auto.
  Qed.

  Lemma eq_rank l (x y : T) : In x l -> In y l -> (x = y <-> rank l x = rank l y).
  Proof.
    intros Hx Hy. split; [intros ->; auto|]. intros H.
    apply ltb_total; rewrite (ltb_rank l) by auto; apply Nat.ltb_ge; lia.
  Qed.
End Rank.

Ltac in_list := simpl; tauto.

(** [rank_solve l]: decide a goal made of comparisons of points of [l]. *)
Ltac rank_rewrite l :=
  repeat match goal with
  | |- context [@ltb ?D ?x ?y] => rewrite (@ltb_rank D l x y) by in_list
  | H : context [@ltb ?D ?x ?y] |- _ => rewrite (@ltb_rank D l x y) in H by in_list
  | H : context [@eq (car _) ?x ?y] |- _ => rewrite (eq_rank l x y) in H by in_list
  | |- context [@eq (car _) ?x ?y] => rewrite (eq_rank l x y) by in_list
  end.
