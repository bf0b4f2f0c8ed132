(** Proofs about the interpolators. *)

From Coq Require Import List Reals Lra Lia Arith Bool Psatz.
From Verif Require Import Result DOrder InterpModel InterpSpec.
From Verif Require Import AngleProofs.
Import ListNotations.
Local Open Scope R_scope.

(** *** Element access and binary search *)
Lemma at_ok {A} (d : A) l i : (i < length l)%nat -> at_ l i = Ok (nth i l d).
Proof.
  intros H. unfold at_. rewrite (nth_error_nth' l d H). reflexivity.
Qed.
Lemma at_UB {A} (l : list A) i : (length l <= i)%nat -> at_ l i = UB.
Proof. intros H. unfold at_. apply nth_error_None in H. rewrite H. reflexivity. Qed.

Lemma div2_lt n : (0 < n)%nat -> (Nat.div2 n < n)%nat.
Proof. apply Nat.lt_div2. Qed.

Lemma bound_loop_safe g x : forall fuel first len, (len <= fuel)%nat -> (first + len <= length x)%nat ->
  exists p, bound_loop g x fuel first len = Ok p /\ (first <= p <= first + len)%nat.
Proof.
  induction fuel as [| f IH]; intros first len Hf Hl.
  - assert (len = 0)%nat by lia. subst. exists first. simpl. split; [reflexivity | lia].
  - destruct len as [| m]; [exists first; simpl; split; [reflexivity | lia] |].
    cbn [bound_loop]. set (half := Nat.div2 (S m)).
    assert (Hh : (half < S m)%nat) by (apply div2_lt; lia).
    rewrite (at_ok 0) by lia. cbn [bind].
    destruct (g _).
    + destruct (IH (first + half + 1)%nat (S m - half - 1)%nat) as [p [E P]]; [lia | lia |].
      exists p. split; [exact E | lia].
    + destruct (IH first half) as [p [E P]]; [lia | lia |].
      exists p. split; [exact E | lia].
Qed.

Lemma bound_loop_spec g x p : (p <= length x)%nat ->
  (forall i, (i < p)%nat -> g x.[i] = true) ->
  (forall i, (p <= i < length x)%nat -> g x.[i] = false) ->
  forall fuel first len, (len <= fuel)%nat -> (first <= p <= first + len)%nat -> (first + len <= length x)%nat ->
  bound_loop g x fuel first len = Ok p.
Proof.
  intros Hp Ht Hf. induction fuel as [| f IH]; intros first len Hfl Hpl Hl.
  - assert (len = 0)%nat by lia. subst. simpl. f_equal. lia.
  - destruct len as [| m]; [simpl; f_equal; lia |].
    cbn [bound_loop]. set (half := Nat.div2 (S m)).
    assert (Hh : (half < S m)%nat) by (apply div2_lt; lia).
    rewrite (at_ok 0) by lia. cbn [bind].
    destruct (Nat.lt_ge_cases (first + half) p) as [C | C].
    + rewrite Ht by exact C. apply IH; lia.
    + rewrite Hf by lia. apply IH; lia.
Qed.

Lemma partition_point (g : R -> bool) x :
  (forall i j, (i <= j < length x)%nat -> g x.[j] = true -> g x.[i] = true) ->
  exists p, (p <= length x)%nat /\ (forall i, (i < p)%nat -> g x.[i] = true)
    /\ (forall i, (p <= i < length x)%nat -> g x.[i] = false).
Proof.
  intros M.
  assert (H : forall k, (k <= length x)%nat ->
    exists p, (p <= k)%nat /\ (forall i, (i < p)%nat -> g x.[i] = true)
      /\ (forall i, (p <= i < k)%nat -> g x.[i] = false)).
  { induction k as [| k IH]; intros Hk.
    - exists 0%nat. repeat split; intros; lia.
    - destruct IH as [p [P1 [P2 P3]]]; [lia |].
      destruct (g x.[k]) eqn:E.
      + exists (S k). repeat split; [lia | | intros; lia].
        intros i Hi. apply (M i k); [lia | exact E].
      + exists p. repeat split; [lia | exact P2 |].
        intros i Hi. destruct (Nat.eq_dec i k) as [-> | N]; [exact E | apply P3; lia]. }
  destruct (H (length x) (le_n _)) as [p [P1 [P2 P3]]]. exists p. auto.
Qed.

Lemma lower_bound_spec x q : nondecreasing x ->
  exists p, lower_bound x q = Ok p /\ (p <= length x)%nat
    /\ (forall i, (i < p)%nat -> x.[i] < q) /\ (forall i, (p <= i < length x)%nat -> q <= x.[i]).
Proof.
  intros Hs. destruct (partition_point (fun a => Rltb a q) x) as [p [P1 [P2 P3]]].
  { intros i j Hij E. apply Rltb_true in E. apply Rltb_true. pose proof (Hs i j Hij). lra. }
  exists p. split; [| split; [exact P1 | split]].
  - unfold lower_bound. apply bound_loop_spec with (p := p); auto; lia.
  - intros i Hi. apply Rltb_true, P2, Hi.
  - intros i Hi. apply Rltb_false, P3, Hi.
Qed.

Lemma upper_bound_spec x q : nondecreasing x ->
  exists p, upper_bound x q = Ok p /\ (p <= length x)%nat
    /\ (forall i, (i < p)%nat -> x.[i] <= q) /\ (forall i, (p <= i < length x)%nat -> q < x.[i]).
Proof.
  intros Hs. destruct (partition_point (fun a => negb (Rltb q a)) x) as [p [P1 [P2 P3]]].
  { intros i j Hij E. apply negb_true_iff, Rltb_false in E. apply negb_true_iff, Rltb_false.
    pose proof (Hs i j Hij). lra. }
  exists p. split; [| split; [exact P1 | split]].
  - unfold upper_bound. apply bound_loop_spec with (p := p); auto; lia.
  - intros i Hi. specialize (P2 i Hi). apply negb_true_iff, Rltb_false in P2. exact P2.
  - intros i Hi. specialize (P3 i Hi). apply negb_false_iff, Rltb_true in P3. exact P3.
Qed.

Lemma lower_bound_safe x q : exists p, lower_bound x q = Ok p /\ (p <= length x)%nat.
Proof.
  destruct (bound_loop_safe (fun a => Rltb a q) x (length x) 0 (length x)) as [p [E P]]; [lia | lia |].
  exists p. split; [exact E | lia].
Qed.
Lemma upper_bound_safe x q : exists p, upper_bound x q = Ok p /\ (p <= length x)%nat.
Proof.
  destruct (bound_loop_safe (fun a => negb (Rltb q a)) x (length x) 0 (length x)) as [p [E P]]; [lia | lia |].
  exists p. split; [exact E | lia].
Qed.

Lemma increasing_nondecreasing x : increasing x -> nondecreasing x.
Proof.
  intros H i j Hij. destruct (Nat.eq_dec i j) as [-> | N]; [lra |]. apply Rlt_le, H. lia.
Qed.

(** *** Constructors *)
Lemma Linear_ok x y t : Linear x y = Ok t <-> t = mkT x y /\ (2 <= length y)%nat /\ length x = length y.
Proof.
  unfold Linear. destruct (Nat.ltb_spec (length y) 2); [split; [discriminate | intros [_ [? _]]; lia] |].
  destruct (Nat.eqb_spec (length x) (length y)); simpl; split; intros E; try discriminate.
  - injection E as <-. auto.
  - destruct E as [-> _]. reflexivity.
  - destruct E as [_ [_ ?]]. congruence.
Qed.
Lemma ZeroOrder_ok x y t : ZeroOrder x y = Ok t <-> t = mkT x y /\ (1 <= length y)%nat /\ length x = length y.
Proof.
  unfold ZeroOrder. destruct (Nat.ltb_spec (length y) 1); [split; [discriminate | intros [_ [? _]]; lia] |].
  destruct (Nat.eqb_spec (length x) (length y)); simpl; split; intros E; try discriminate.
  - injection E as <-. auto.
  - destruct E as [-> _]. reflexivity.
  - destruct E as [_ [_ ?]]. congruence.
Qed.

(** *** C22 *)
(** The cell: the index before and at the first abscissa >= q. *)
Lemma findIndexRange_spec x q : nondecreasing x -> (0 < length x)%nat ->
  (findIndexRange x q = Ok (0, 0)%nat /\ q <= x.[0])
  \/ (findIndexRange x q = Ok (length x - 1, length x - 1)%nat /\ x.[length x - 1] < q)
  \/ (exists i, (S i < length x)%nat /\ findIndexRange x q = Ok (i, S i) /\ x.[i] < q <= x.[S i]).
Proof.
  intros Hs Hn. destruct (lower_bound_spec x q Hs) as [p [E [P1 [P2 P3]]]].
  unfold findIndexRange. rewrite E. cbn [bind].
  destruct (Nat.eqb_spec p 0) as [-> | N0]; [left; split; [reflexivity | apply P3; lia] |].
  destruct (Nat.eqb_spec p (length x)) as [-> | N1].
  - right; left. split; [reflexivity | apply P2; lia].
  - right; right. exists (p - 1)%nat. split; [lia |]. split.
    + replace (S (p - 1)) with p by lia. reflexivity.
    + split; [apply P2; lia |]. replace (S (p - 1)) with p by lia. apply P3; lia.
Qed.

Lemma linear_cell x y q i : length x = length y -> (S i < length x)%nat ->
  findIndexRange x q = Ok (i, S i) ->
  linear_evaluate (mkT x y) q = Ok (y.[i] + (q - x.[i]) / (x.[S i] - x.[i]) * (y.[S i] - y.[i]))
  /\ linear_derivative (mkT x y) q = Ok ((y.[S i] - y.[i]) / (x.[S i] - x.[i])).
Proof.
  intros Hl Hi E. unfold linear_evaluate, linear_derivative. cbn [tx ty]. rewrite E. cbn [bind].
  destruct (Nat.eqb_spec i (S i)); [lia |].
  rewrite !(at_ok 0) by lia. split; reflexivity.
Qed.
Lemma linear_clamped x y q i : length x = length y -> (i < length x)%nat ->
  findIndexRange x q = Ok (i, i) ->
  linear_evaluate (mkT x y) q = Ok y.[i] /\ linear_derivative (mkT x y) q = Ok 0.
Proof.
  intros Hl Hi E. unfold linear_evaluate, linear_derivative. cbn [tx ty]. rewrite E. cbn [bind].
  rewrite Nat.eqb_refl. rewrite !(at_ok 0) by lia. split; reflexivity.
Qed.

Lemma linear_evaluate_left x y t q : Linear x y = Ok t -> nondecreasing x -> q <= x.[0] ->
  linear_evaluate t q = Ok y.[0].
Proof.
  intros Ht Hs Hq. apply Linear_ok in Ht. destruct Ht as [-> [Hy Hl]].
  destruct (findIndexRange_spec x q Hs ltac:(lia)) as [[E _] | [[E H] | [i [Hi [E H]]]]].
  - apply (linear_clamped x y q 0); [assumption | lia | assumption].
  - pose proof (Hs 0%nat (length x - 1)%nat ltac:(lia)). lra.
  - pose proof (Hs 0%nat i ltac:(lia)). lra.
Qed.

Lemma linear_evaluate_right x y t q : Linear x y = Ok t -> nondecreasing x -> x.[length x - 1] < q ->
  linear_evaluate t q = Ok y.[length x - 1].
Proof.
  intros Ht Hs Hq. apply Linear_ok in Ht. destruct Ht as [-> [Hy Hl]].
  destruct (findIndexRange_spec x q Hs ltac:(lia)) as [[E H] | [[E _] | [i [Hi [E H]]]]].
  - pose proof (Hs 0%nat (length x - 1)%nat ltac:(lia)). lra.
  - apply (linear_clamped x y q (length x - 1)); [assumption | lia | assumption].
  - pose proof (Hs (S i) (length x - 1)%nat ltac:(lia)). lra.
Qed.

Lemma linear_evaluate_node x y t i : Linear x y = Ok t -> increasing x -> (i < length x)%nat ->
  linear_evaluate t x.[i] = Ok y.[i].
Proof.
  intros Ht Hs Hi. pose proof (increasing_nondecreasing x Hs) as Hs'.
  pose proof Ht as Ht'. apply Linear_ok in Ht'. destruct Ht' as [-> [Hy Hl]].
  destruct (findIndexRange_spec x x.[i] Hs' ltac:(lia)) as [[E H] | [[E H] | [j [Hj [E H]]]]].
  - assert (i = 0)%nat.
    { destruct i; [reflexivity |]. pose proof (Hs 0%nat (S i) ltac:(lia)). lra. }
    subst i. apply (linear_clamped x y _ 0); [assumption | lia | assumption].
  - pose proof (Hs' i (length x - 1)%nat ltac:(lia)). lra.
  - assert (i = S j).
    { destruct (Nat.lt_trichotomy i (S j)) as [C | [C | C]]; [| exact C |].
      - pose proof (Hs' i j ltac:(lia)). lra.
      - pose proof (Hs (S j) i ltac:(lia)). lra. }
    subst i. rewrite (proj1 (linear_cell x y _ j Hl Hj E)). f_equal. field. lra.
Qed.

Lemma chord_between xa ya xb yb q v : xa < xb -> xa <= q <= xb ->
  v = ya + (q - xa) / (xb - xa) * (yb - ya) ->
  on_chord xa ya xb yb q v /\ Rmin ya yb <= v <= Rmax ya yb.
Proof.
  intros Hx Hq ->. set (r := (q - xa) / (xb - xa)).
  assert (Hr : r * (xb - xa) = q - xa) by (unfold r; field; lra).
  assert (R0 : 0 <= r <= 1).
  { unfold r. split.
    - apply Rmult_le_reg_r with (xb - xa); [lra |]. fold r. rewrite Hr. lra.
    - apply Rmult_le_reg_r with (xb - xa); [lra |]. fold r. rewrite Hr. lra. }
  split.
  - unfold on_chord. rewrite <- Hr. ring.
  - unfold Rmin, Rmax. destruct (Rle_dec ya yb); nra.
Qed.

Lemma linear_evaluate_cell x y t i q : Linear x y = Ok t -> increasing x -> (S i < length x)%nat ->
  x.[i] <= q <= x.[S i] ->
  exists v, linear_evaluate t q = Ok v /\ on_chord x.[i] y.[i] x.[S i] y.[S i] q v
    /\ Rmin y.[i] y.[S i] <= v <= Rmax y.[i] y.[S i].
Proof.
  intros Ht Hs Hi Hq. pose proof (Hs i (S i) ltac:(lia)) as Hlt.
  destruct (Req_EM_T x.[i] q) as [<- | N].
  - exists y.[i]. split; [apply (linear_evaluate_node x y t i); auto; lia |].
    apply chord_between; [exact Hlt | lra |]. field. lra.
  - pose proof (increasing_nondecreasing x Hs) as Hs'.
    pose proof Ht as Ht'. apply Linear_ok in Ht'. destruct Ht' as [-> [Hy Hl]].
    destruct (findIndexRange_spec x q Hs' ltac:(lia)) as [[E H] | [[E H] | [j [Hj [E H]]]]].
    + pose proof (Hs' 0%nat i ltac:(lia)). lra.
    + pose proof (Hs' (S i) (length x - 1)%nat ltac:(lia)). lra.
    + assert (i = j).
      { destruct (Nat.lt_trichotomy i j) as [C | [C | C]]; [| exact C |].
        - pose proof (Hs' (S i) j ltac:(lia)). lra.
        - pose proof (Hs' (S j) i ltac:(lia)). lra. }
      subst j. exists (y.[i] + (q - x.[i]) / (x.[S i] - x.[i]) * (y.[S i] - y.[i])).
      split; [exact (proj1 (linear_cell x y q i Hl Hi E)) |]. apply chord_between; [exact Hlt | exact Hq | reflexivity].
Qed.

(** With repeated abscissae: the cell ending at the first abscissa >= q. *)
Lemma linear_evaluate_ties x y t i q : Linear x y = Ok t -> nondecreasing x -> (S i < length x)%nat ->
  x.[i] < q <= x.[S i] ->
  exists v, linear_evaluate t q = Ok v /\ on_chord x.[i] y.[i] x.[S i] y.[S i] q v
    /\ Rmin y.[i] y.[S i] <= v <= Rmax y.[i] y.[S i].
Proof.
  intros Ht Hs' Hi Hq.
  pose proof Ht as Ht'. apply Linear_ok in Ht'. destruct Ht' as [-> [Hy Hl]].
  destruct (findIndexRange_spec x q Hs' ltac:(lia)) as [[E H] | [[E H] | [j [Hj [E H]]]]].
  - pose proof (Hs' 0%nat i ltac:(lia)). lra.
  - pose proof (Hs' (S i) (length x - 1)%nat ltac:(lia)). lra.
  - assert (i = j).
    { destruct (Nat.lt_trichotomy i j) as [C | [C | C]]; [| exact C |].
      - pose proof (Hs' (S i) j ltac:(lia)). lra.
      - pose proof (Hs' (S j) i ltac:(lia)). lra. }
    subst j. exists (y.[i] + (q - x.[i]) / (x.[S i] - x.[i]) * (y.[S i] - y.[i])).
    split; [exact (proj1 (linear_cell x y q i Hl Hi E)) |].
    apply chord_between; [lra | lra | reflexivity].
Qed.

(** *** C23 *)
Lemma derivable_pt_lim_local f g q d eps : 0 < eps -> (forall t, Rabs (t - q) < eps -> f t = g t) ->
  derivable_pt_lim g q d -> derivable_pt_lim f q d.
Proof.
  intros He Hfg Hg e Hep. destruct (Hg e Hep) as [[del Hd] Hdel].
  assert (Hm : 0 < Rmin del eps) by (apply Rmin_pos; assumption).
  exists (mkposreal _ Hm). intros h Hh Hhd. simpl in Hhd.
  rewrite !Hfg.
  - apply Hdel; [exact Hh |]. simpl. eapply Rlt_le_trans; [exact Hhd | apply Rmin_l].
  - rewrite Rminus_diag_eq by reflexivity. rewrite Rabs_R0. exact He.
  - replace (q + h - q) with h by ring. eapply Rlt_le_trans; [exact Hhd | apply Rmin_r].
Qed.
Lemma derivable_pt_lim_affine a b q : derivable_pt_lim (fun t => a + b * t) q b.
Proof.
  intros e He. exists (mkposreal e He). intros h Hh _.
  replace ((a + b * (q + h) - (a + b * q)) / h - b) with 0 by (field; exact Hh).
  rewrite Rabs_R0. exact He.
Qed.

Lemma c23_derivative x y t q : Linear x y = Ok t -> nondecreasing x -> not_a_node x q ->
  exists d, linear_derivative t q = Ok d /\ derivable_pt_lim (fun u => value (linear_evaluate t u)) q d.
Proof.
  intros Ht Hs Hq. pose proof Ht as Ht'. apply Linear_ok in Ht'. destruct Ht' as [-> [Hy Hl]].
  destruct (findIndexRange_spec x q Hs ltac:(lia)) as [[E H] | [[E H] | [i [Hi [E H]]]]].
  - exists 0. split; [apply (linear_clamped x y q 0); [assumption | lia | assumption] |].
    assert (Hlt : q < x.[0]) by (pose proof (Hq 0%nat ltac:(lia)); lra).
    apply derivable_pt_lim_local with (g := fun t => y.[0] + 0 * t) (eps := x.[0] - q);
      [lra | | apply derivable_pt_lim_affine].
    intros u Hu. rewrite (linear_evaluate_left x y _ u Ht Hs); [simpl; ring |].
    revert Hu. unfold Rabs. destruct Rcase_abs; lra.
  - exists 0. split; [apply (linear_clamped x y q (length x - 1)); [assumption | lia | assumption] |].
    apply derivable_pt_lim_local with (g := fun t => y.[length x - 1] + 0 * t) (eps := q - x.[length x - 1]);
      [lra | | apply derivable_pt_lim_affine].
    intros u Hu. rewrite (linear_evaluate_right x y _ u Ht Hs); [simpl; ring |].
    revert Hu. unfold Rabs. destruct Rcase_abs; lra.
  - destruct (linear_cell x y q i Hl Hi E) as [_ D]. exists ((y.[S i] - y.[i]) / (x.[S i] - x.[i])).
    split; [exact D |].
    assert (Hlt : q < x.[S i]) by (pose proof (Hq (S i) ltac:(lia)); lra).
    set (s := (y.[S i] - y.[i]) / (x.[S i] - x.[i])).
    apply derivable_pt_lim_local with (g := fun t => (y.[i] - s * x.[i]) + s * t)
      (eps := Rmin (q - x.[i]) (x.[S i] - q)); [apply Rmin_pos; lra | | apply derivable_pt_lim_affine].
    intros u Hu.
    assert (Hu1 : Rabs (u - q) < q - x.[i]) by (eapply Rlt_le_trans; [exact Hu | apply Rmin_l]).
    assert (Hu2 : Rabs (u - q) < x.[S i] - q) by (eapply Rlt_le_trans; [exact Hu | apply Rmin_r]).
    assert (Hb : x.[i] < u < x.[S i]) by (revert Hu1 Hu2; unfold Rabs; destruct Rcase_abs; lra).
    assert (Eu : findIndexRange x u = Ok (i, S i)).
    { destruct (findIndexRange_spec x u Hs ltac:(lia)) as [[_ B] | [[_ B] | [j [Hj [B1 B2]]]]].
      - pose proof (Hs 0%nat i ltac:(lia)). lra.
      - pose proof (Hs (S i) (length x - 1)%nat ltac:(lia)). lra.
      - assert (i = j) as ->; [| exact B1].
        destruct (Nat.lt_trichotomy i j) as [C | [C | C]]; [| exact C |].
        + pose proof (Hs (S i) j ltac:(lia)). lra.
        + pose proof (Hs (S j) i ltac:(lia)). lra. }
    rewrite (proj1 (linear_cell x y u i Hl Hi Eu)). simpl. unfold s. field. lra.
Qed.

(** The slope returned, stated explicitly, nodes included (a node belongs to the cell it ends). *)
Lemma c23_slope x y t q : Linear x y = Ok t -> nondecreasing x ->
  (q <= x.[0] -> linear_derivative t q = Ok 0)
  /\ (x.[length x - 1] < q -> linear_derivative t q = Ok 0)
  /\ (forall i, (S i < length x)%nat -> x.[i] < q <= x.[S i] ->
        linear_derivative t q = Ok ((y.[S i] - y.[i]) / (x.[S i] - x.[i]))).
Proof.
  intros Ht Hs. pose proof Ht as Ht'. apply Linear_ok in Ht'. destruct Ht' as [-> [Hy Hl]].
  destruct (findIndexRange_spec x q Hs ltac:(lia)) as [[E H] | [[E H] | [j [Hj [E H]]]]].
  - assert (D := proj2 (linear_clamped x y q 0 Hl ltac:(lia) E)).
    split; [auto | split; [auto |]]. intros i Hi B. pose proof (Hs 0%nat i ltac:(lia)). lra.
  - assert (D := proj2 (linear_clamped x y q (length x - 1) Hl ltac:(lia) E)).
    split; [auto | split; [auto |]]. intros i Hi B. pose proof (Hs (S i) (length x - 1)%nat ltac:(lia)). lra.
  - split; [| split].
    + intros B. pose proof (Hs 0%nat j ltac:(lia)). lra.
    + intros B. pose proof (Hs (S j) (length x - 1)%nat ltac:(lia)). lra.
    + intros i Hi B. assert (i = j) as ->; [| exact (proj2 (linear_cell x y q j Hl Hj E))].
      destruct (Nat.lt_trichotomy i j) as [C | [C | C]]; [| exact C |].
      * pose proof (Hs (S i) j ltac:(lia)). lra.
      * pose proof (Hs (S j) i ltac:(lia)). lra.
Qed.

(** *** C24 *)
Lemma c24_zero_order x y t q : ZeroOrder x y = Ok t -> nondecreasing x ->
  (q < x.[0] -> zero_evaluate t q = Ok y.[0])
  /\ (forall i, (i < length x)%nat -> x.[i] <= q -> (forall j, (i < j < length x)%nat -> q < x.[j]) ->
      zero_evaluate t q = Ok y.[i])
  /\ (x.[0] <= q -> exists i, (i < length x)%nat /\ x.[i] <= q /\ (forall j, (i < j < length x)%nat -> q < x.[j])).
Proof.
  intros Ht Hs. apply ZeroOrder_ok in Ht. destruct Ht as [-> [Hy Hl]].
  destruct (upper_bound_spec x q Hs) as [p [E [P1 [P2 P3]]]].
  unfold zero_evaluate, findPreviousIndex. cbn [tx ty]. rewrite E. cbn [bind].
  split; [| split].
  - intros H. assert (p = 0)%nat as ->.
    { destruct p; [reflexivity |]. pose proof (P2 0%nat ltac:(lia)). lra. }
    simpl. rewrite (at_ok 0) by lia. reflexivity.
  - intros i Hi Hle Hgt. assert (p = S i) as ->.
    { destruct (Nat.lt_trichotomy p (S i)) as [C | [C | C]]; [| exact C |].
      - pose proof (P3 i ltac:(lia)). lra.
      - pose proof (P2 (S i) ltac:(lia)). pose proof (Hgt (S i) ltac:(lia)). lra. }
    simpl. rewrite Nat.sub_0_r, (at_ok 0) by lia. reflexivity.
  - intros H. assert (p <> 0)%nat by (intros ->; pose proof (P3 0%nat ltac:(lia)); lra).
    exists (p - 1)%nat. split; [lia |]. split; [apply P2; lia |]. intros j Hj. apply P3; lia.
Qed.

Lemma c24_derivative x y t q : ZeroOrder x y = Ok t -> nondecreasing x -> not_a_node x q ->
  exists d, zero_derivative t q = Ok d /\ derivable_pt_lim (fun u => value (zero_evaluate t u)) q d.
Proof.
  intros Ht Hs Hq. exists 0. split; [reflexivity |].
  pose proof (fun u => c24_zero_order x y t u Ht Hs) as Z.
  destruct (Rlt_le_dec q x.[0]) as [C | C].
  - apply derivable_pt_lim_local with (g := fun t => y.[0] + 0 * t) (eps := x.[0] - q);
      [lra | | apply derivable_pt_lim_affine].
    intros u Hu. destruct (Z u) as [Z1 _]. rewrite Z1; [simpl; ring |].
    revert Hu. unfold Rabs. destruct Rcase_abs; lra.
  - destruct (Z q) as [_ [_ Z3]]. destruct (Z3 C) as [i [Hi [Hle Hgt]]].
    assert (Hlt : x.[i] < q) by (pose proof (Hq i Hi); lra).
    set (r := if Nat.ltb (S i) (length x) then x.[S i] - q else 1).
    assert (Hr : 0 < r).
    { unfold r. destruct (Nat.ltb_spec (S i) (length x)); [pose proof (Hgt (S i) ltac:(lia)); lra | lra]. }
    apply derivable_pt_lim_local with (g := fun t => y.[i] + 0 * t) (eps := Rmin (q - x.[i]) r);
      [apply Rmin_pos; lra | | apply derivable_pt_lim_affine].
    intros u Hu.
    assert (Hu1 : Rabs (u - q) < q - x.[i]) by (eapply Rlt_le_trans; [exact Hu | apply Rmin_l]).
    assert (Hu2 : Rabs (u - q) < r) by (eapply Rlt_le_trans; [exact Hu | apply Rmin_r]).
    destruct (Z u) as [_ [Z2 _]]. rewrite (Z2 i Hi); [simpl; ring | |].
    + revert Hu1. unfold Rabs. destruct Rcase_abs; lra.
    + intros j Hj. pose proof (Hs (S i) j ltac:(lia)). revert Hu2. unfold r.
      destruct (Nat.ltb_spec (S i) (length x)); [| lia]. unfold Rabs. destruct Rcase_abs; lra.
Qed.

(** *** C25 *)
Lemma linear_never_ub x y t q : Linear x y = Ok t ->
  is_ok (linear_evaluate t q) = true /\ is_ok (linear_derivative t q) = true.
Proof.
  intros Ht. apply Linear_ok in Ht. destruct Ht as [-> [Hy Hl]].
  destruct (lower_bound_safe x q) as [p [E P]].
  unfold linear_evaluate, linear_derivative, findIndexRange. cbn [tx ty]. rewrite E. cbn [bind].
  destruct (Nat.eqb_spec p 0); [simpl; rewrite (at_ok 0) by lia; auto |].
  destruct (Nat.eqb_spec p (length x)); cbn [bind].
  - rewrite Nat.eqb_refl, (at_ok 0) by lia. auto.
  - destruct (Nat.eqb_spec (p - 1) p); [lia |]. rewrite !(at_ok 0) by lia. auto.
Qed.
Lemma zero_never_ub x y t q : ZeroOrder x y = Ok t -> is_ok (zero_evaluate t q) = true.
Proof.
  intros Ht. apply ZeroOrder_ok in Ht. destruct Ht as [-> [Hy Hl]].
  destruct (upper_bound_safe x q) as [p [E P]].
  unfold zero_evaluate, findPreviousIndex. cbn [tx ty]. rewrite E. cbn [bind].
  destruct (Nat.eqb_spec p 0); cbn [bind]; rewrite (at_ok 0) by lia; reflexivity.
Qed.

Lemma diffs_spec x : forall i, (S i < length x)%nat -> In (x.[S i] - x.[i]) (diffs x).
Proof.
  induction x as [| a x IH]; intros i Hi; [simpl in Hi; lia |].
  destruct x as [| b x]; [simpl in Hi; lia |].
  destruct i as [| i]; [left; reflexivity |].
  right. apply (IH i). simpl in *. lia.
Qed.
Lemma diffs_inv x c : In c (diffs x) -> exists i, (S i < length x)%nat /\ c = x.[S i] - x.[i].
Proof.
  induction x as [| a x IH]; [simpl; tauto |].
  destruct x as [| b x]; [simpl; tauto |].
  intros [<- | H]; [exists 0%nat; split; [simpl; lia | reflexivity] |].
  destruct (IH H) as [i [Hi Hc]]. exists (S i). split; [simpl in *; lia | exact Hc].
Qed.

(** Steps equal to the first one up to a relative difference of [prec]. *)
Lemma CubicSpline_ok x y r : CubicSpline x y = Ok r <->
  r = (x.[0], x.[1] - x.[0], y) /\ (5 <= length y)%nat /\ length x = length y
  /\ forall i, (S i < length x)%nat ->
      let c := x.[S i] - x.[i] in let h := x.[1] - x.[0] in
      Rabs (c - h) <= Rmin (Rabs c) (Rabs h) * / 1000000.
Proof.
  unfold CubicSpline. destruct (Nat.ltb_spec (length y) 5); [split; [discriminate | intros [_ [? _]]; lia] |].
  destruct (Nat.eqb_spec (length x) (length y)); simpl negb; cbv iota.
  2: split; [discriminate | intros [_ [_ [? _]]]; congruence].
  rewrite !(at_ok 0) by lia. cbn [bind].
  destruct (forallb _ (diffs x)) eqn:F; split; intros E.
  - injection E as <-. split; [reflexivity | split; [assumption | split; [assumption |]]].
    intros i Hi. cbv zeta. rewrite forallb_forall in F. specialize (F _ (diffs_spec x i Hi)).
    unfold is_approx in F. apply negb_true_iff, Rltb_false in F. exact F.
  - destruct E as [-> _]. reflexivity.
  - discriminate.
  - exfalso. destruct E as [_ [_ [_ E]]].
    assert (F' : forallb (fun c => is_approx c (x.[1] - x.[0]) (/ 1000000)) (diffs x) = true).
    { apply forallb_forall. intros c Hc. apply diffs_inv in Hc. destruct Hc as [i [Hi ->]].
      unfold is_approx. apply negb_true_iff, Rltb_false. exact (E i Hi). }
    congruence.
Qed.

Lemma CubicSpline_outcome x y : is_ok (CubicSpline x y) = true \/ CubicSpline x y = Err EWrong.
Proof.
  unfold CubicSpline. destruct (Nat.ltb_spec (length y) 5); [auto |].
  destruct (Nat.eqb_spec (length x) (length y)); simpl negb; cbv iota; [| auto].
  rewrite !(at_ok 0) by lia. cbn [bind]. destruct (forallb _ _); auto.
Qed.

Lemma mapM_ok {A B} (f : A -> result B) (g : A -> B) l : (forall a, In a l -> f a = Ok (g a)) ->
  mapM f l = Ok (map g l).
Proof.
  induction l as [| a l IH]; intros H; simpl; [reflexivity |].
  rewrite H by (left; reflexivity). cbn [bind]. rewrite IH by (intros; apply H; right; assumption). reflexivity.
Qed.
Lemma mapM_UB {A B} (f : A -> result B) l1 a l2 : (forall b, In b l1 -> is_ok (f b) = true) -> f a = UB ->
  mapM f (l1 ++ a :: l2) = UB.
Proof.
  intros H Ha. induction l1 as [| b l1 IH]; simpl; [rewrite Ha; reflexivity |].
  specialize (IH (fun c Hc => H c (or_intror Hc))).
  specialize (H b (or_introl eq_refl)). destruct (f b); try discriminate. cbn [bind]. rewrite IH. reflexivity.
Qed.

Lemma Barycentric_outcome x y :
  ((length x <= 3)%nat -> BarycentricRational x y = Err ERuntime)
  /\ ((3 < length x)%nat -> (length y < length x)%nat -> BarycentricRational x y = UB)
  /\ ((3 < length x < length y)%nat -> BarycentricRational x y = Err EWrong)
  /\ ((3 < length x)%nat -> length x = length y -> is_ok (BarycentricRational x y) = true).
Proof.
  unfold BarycentricRational, boost_barycentric.
  destruct (Nat.leb_spec (length x) 3).
  { split; [auto | split; [lia | split; lia]]. }
  split; [lia |].
  assert (HS : (length x <= length y)%nat -> exists d,
    mapM (fun i => let! a := at_ x i in let! b := at_ y i in Ok (a, b)) (seq 0 (length x)) = Ok d).
  { intros Hl. eexists. apply mapM_ok with (g := fun i => (x.[i], y.[i])).
    intros i Hi. apply in_seq in Hi. rewrite !(at_ok 0) by lia. reflexivity. }
  split; [| split].
  - intros _ Hl.
    assert (Hseq : seq 0 (length x) = seq 0 (length y) ++ length y :: seq (S (length y)) (length x - length y - 1)).
    { replace (length x) with (length y + S (length x - length y - 1))%nat at 1 by lia.
      rewrite seq_app. reflexivity. }
    rewrite Hseq, mapM_UB; [reflexivity | |].
    + intros i Hi. apply in_seq in Hi. rewrite !(at_ok 0) by lia. reflexivity.
    + rewrite (at_ok 0 x) by lia. cbn [bind]. rewrite at_UB by lia. reflexivity.
  - intros Hl. destruct HS as [d ->]; [lia |]. cbn [bind].
    destruct (Nat.eqb_spec (length x) (length y)); [lia | reflexivity].
  - intros _ Hl. destruct HS as [d ->]; [lia |]. cbn [bind].
    destruct (Nat.eqb_spec (length x) (length y)); [reflexivity | lia].
Qed.

Lemma c25_others x y :
  (is_ok (Linear x y) = true <-> (2 <= length y)%nat /\ length x = length y)
  /\ (is_ok (Linear x y) = false -> Linear x y = Err EWrong)
  /\ (is_ok (ZeroOrder x y) = true <-> (1 <= length y)%nat /\ length x = length y)
  /\ (is_ok (ZeroOrder x y) = false -> ZeroOrder x y = Err EWrong)
  /\ (is_ok (CubicSpline x y) = true <-> (5 <= length y)%nat /\ length x = length y
       /\ forall i, (S i < length x)%nat ->
          let c := x.[S i] - x.[i] in let h := x.[1] - x.[0] in
          Rabs (c - h) <= Rmin (Rabs c) (Rabs h) * / 1000000)
  /\ (is_ok (CubicSpline x y) = false -> CubicSpline x y = Err EWrong)
  /\ (forall x0 h, is_ok (CubicSplineUniform y x0 h) = true <-> (5 <= length y)%nat)
  /\ (forall x0 h, is_ok (CubicSplineUniform y x0 h) = false -> CubicSplineUniform y x0 h = Err EWrong).
Proof.
  split; [| split; [| split; [| split; [| split; [| split; [| split]]]]]].
  - destruct (Linear x y) eqn:E; simpl; split; try discriminate; intros H; try reflexivity;
      try (apply Linear_ok in E; tauto); exfalso;
      assert (Linear x y = Ok (mkT x y)) by (apply Linear_ok; tauto); congruence.
  - unfold Linear. destruct (Nat.ltb _ _); [reflexivity |]. destruct (Nat.eqb _ _); [discriminate | reflexivity].
  - destruct (ZeroOrder x y) eqn:E; simpl; split; try discriminate; intros H; try reflexivity;
      try (apply ZeroOrder_ok in E; tauto); exfalso;
      assert (ZeroOrder x y = Ok (mkT x y)) by (apply ZeroOrder_ok; tauto); congruence.
  - unfold ZeroOrder. destruct (Nat.ltb _ _); [reflexivity |]. destruct (Nat.eqb _ _); [discriminate | reflexivity].
  - destruct (CubicSpline x y) eqn:E; simpl is_ok; split; try discriminate; intros H; try reflexivity;
      try (apply CubicSpline_ok in E; tauto); exfalso;
      assert (CubicSpline x y = Ok (x.[0], x.[1] - x.[0], y)) by (apply CubicSpline_ok; split; [reflexivity | exact H]);
      congruence.
  - intros H. destruct (CubicSpline_outcome x y) as [C | C]; [congruence | exact C].
  - intros x0 h. unfold CubicSplineUniform. destruct (Nat.ltb_spec (length y) 5); simpl; split; try discriminate; try lia; auto.
  - intros x0 h. unfold CubicSplineUniform. destruct (Nat.ltb _ _); [reflexivity | discriminate].
Qed.

Lemma linear_evaluate_all_spec x y t qs : Linear x y = Ok t ->
  exists vs, linear_evaluate_all t qs = Ok vs /\ length vs = length qs
    /\ forall i, (i < length qs)%nat -> linear_evaluate t qs.[i] = Ok vs.[i].
Proof.
  intros Ht. exists (map (fun q => value (linear_evaluate t q)) qs).
  assert (E : forall q, linear_evaluate t q = Ok (value (linear_evaluate t q))).
  { intros q. pose proof (proj1 (linear_never_ub x y t q Ht)) as O. destruct (linear_evaluate t q); try discriminate. reflexivity. }
  split; [apply mapM_ok; intros; apply E |]. split; [apply map_length |].
  intros i Hi. rewrite E. f_equal. symmetry.
  transitivity (nth i (map (fun q => value (linear_evaluate t q)) qs) (value (linear_evaluate t 0))).
  - apply nth_indep. rewrite map_length. exact Hi.
  - apply (map_nth (fun q => value (linear_evaluate t q))).
Qed.

Lemma c72_factory ty x y :
  (forall i, GenerateInterpolator ty x y = Ok i -> getInterpolationType i = ty)
  /\ (ty = TInvalid -> GenerateInterpolator ty x y = Err EWrong)
  /\ (forall t, GenerateInterpolator TLinear x y = Ok (ILinear t) <-> Linear x y = Ok t)
  /\ (forall t, GenerateInterpolator TZeroOrder x y = Ok (IZeroOrder t) <-> ZeroOrder x y = Ok t)
  /\ (forall d, GenerateInterpolator TCubicSpline x y = Ok (ICubicSpline d) <-> CubicSpline x y = Ok d)
  /\ (forall d, GenerateInterpolator TBarycentric x y = Ok (IBarycentric d) <-> BarycentricRational x y = Ok d).
Proof.
  assert (P : forall A B (f : A -> B) r b, rmap f r = Ok b -> exists a, r = Ok a /\ b = f a).
  { intros A B f r b H. destruct r; try discriminate. injection H as <-. eauto. }
  split; [| split; [intros ->; reflexivity |]].
  - intros i H. destruct ty; unfold GenerateInterpolator in H; try discriminate;
      apply P in H; destruct H as [a [_ ->]]; reflexivity.
  - unfold GenerateInterpolator.
    split; [| split; [| split]]; intros a; (split; [intros H; apply P in H; destruct H as [b [-> E]]; injection E as ->; reflexivity
      | intros ->; reflexivity]).
Qed.
