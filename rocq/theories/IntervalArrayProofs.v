(** Lemmas about arrays of intervals (C06-C11). *)

From Coq Require Import List Bool Permutation Sorted Lia.
From Verif Require Import Result DOrder OrderTac IntervalModel IntervalSpec IntervalProofs.
Import ListNotations.

Section Arrays.
  Context {D : DOrder}.
  Notation T := (car D).
  Notation interval := (interval D).
  Implicit Types (i j n c a b span : interval) (l r xs : list interval) (v x y w : T) (srt : sorter D).

  Lemma lt_irrefl (x : T) : ~ lt x x.
  Proof. unfold lt. rewrite ltb_irrefl. discriminate. Qed.
  Lemma lt_trans (x y z : T) : lt x y -> lt y z -> lt x z.
  Proof. unfold lt. apply ltb_trans. Qed.
  Lemma lt_asym' (x y : T) : lt x y -> lt y x -> False.
  Proof. intros H K. apply (lt_irrefl x). eapply lt_trans; eauto. Qed.
  Lemma le_iff (x y : T) : le x y <-> lt x y \/ x = y.
  Proof.
    unfold le, lt. split.
    - intros H. trich x y; auto. congruence.
    - intros [H| ->]; [apply ltb_asym; auto|apply ltb_irrefl].
  Qed.
  Lemma not_lt_le (x y : T) : ~ lt x y <-> le y x.
  Proof. unfold le, lt. destruct (ltb x y); split; intros; auto; congruence. Qed.

  (** Position of a value relative to an interval. *)
  Definition Above (i : interval) (v : T) : Prop := forall x, mem i x -> lt x v.
  Definition Below (i : interval) (v : T) : Prop := forall x, mem i x -> lt v x.

  Lemma gap_iff (a b : interval) : gap_between a b <-> exists s, Above a s /\ Below b s.
  Proof. unfold gap_between, separated_by, Above, Below. tauto. Qed.

  Lemma position i v : valid i -> Above i v \/ mem i v \/ Below i v.
  Proof.
    intros Hi. destruct (valid_inv i Hi) as (t & l & u & -> & Ht & _).
    destruct (abv (closed_left t) l v) eqn:A.
    - destruct (blw (closed_right t) u v) eqn:B.
      + right; left. apply mem_cuts; auto.
      + left. intros x Hx. apply mem_cuts in Hx; auto. destruct Hx as [_ Hx].
        unfold blw, lt in *. destruct (closed_right t); rewrite ?negb_true_iff, ?negb_false_iff in *; ord.
    - right; right. intros x Hx. apply mem_cuts in Hx; auto. destruct Hx as [Hx _].
      unfold abv, lt in *. destruct (closed_left t); rewrite ?negb_true_iff, ?negb_false_iff in *; ord.
  Qed.

  Lemma above_below i v : valid i -> Above i v -> Below i v -> False.
  Proof.
    intros Hi H K. destruct (valid_nonempty i Hi) as [x Hx].
    apply (lt_asym' x v); auto.
  Qed.
  Lemma above_mem (i : interval) v : Above i v -> mem i v -> False.
  Proof. intros H K. apply H in K. apply (lt_irrefl _ K). Qed.
  Lemma below_mem (i : interval) v : Below i v -> mem i v -> False.
  Proof. intros H K. apply H in K. apply (lt_irrefl _ K). Qed.

  (** Cut forms of [Above] and [Below]. *)
  Lemma Above_cut t (l u : T) v : valid (mkI t (Some l) (Some u)) ->
    (Above (mkI t (Some l) (Some u)) v <-> abv (negb (closed_right t)) u v = true).
  Proof.
    intros V. pose proof V as [Ht _]. apply valid_cuts in V; auto. split.
    - intros H. unfold Above in H. unfold abv, lt in *.
      destruct (closed_right t) eqn:C; cbn [negb].
      + assert (M : mem (mkI t (Some l) (Some u)) u).
        { apply mem_cuts; auto. rewrite C. unfold abv, blw. rewrite ltb_irrefl. split; auto.
          destruct V as [V|(-> & -> & _)]; [|rewrite ltb_irrefl; auto].
          rewrite V, (ltb_asym _ _ V). destruct (closed_left t); auto. }
        apply H in M. auto.
      + apply negb_true_iff. destruct (ltb v u) eqn:E; auto. exfalso.
        destruct V as [V|(_ & _ & K)]; [|congruence].
        destruct (ltb_dense D (std_max l v) u) as (c & C1 & C2).
        { unfold std_max. destruct (ltb l v); auto. }
        assert (ltb l c = true /\ ltb v c = true) as [C3 C4].
        { unfold std_max in C1. destruct (ltb l v) eqn:E'; split; ord. }
        assert (M : mem (mkI t (Some l) (Some u)) c).
        { apply mem_cuts; auto. rewrite C. unfold abv, blw. rewrite C2, C3, (ltb_asym _ _ C3).
          destruct (closed_left t); auto. }
        apply H in M. ordc.
    - intros H x Hx. apply mem_cuts in Hx; auto. destruct Hx as [_ Hx]. unfold abv, blw, lt in *.
      destruct (closed_right t); cbn [negb] in *; rewrite ?negb_true_iff in *; ord.
  Qed.

  Lemma Below_cut t (l u : T) v : valid (mkI t (Some l) (Some u)) ->
    (Below (mkI t (Some l) (Some u)) v <-> blw (negb (closed_left t)) l v = true).
  Proof.
    intros V. pose proof V as [Ht _]. apply valid_cuts in V; auto. split.
    - intros H. unfold Below in H. unfold blw, lt in *.
      destruct (closed_left t) eqn:C; cbn [negb].
      + assert (M : mem (mkI t (Some l) (Some u)) l).
        { apply mem_cuts; auto. rewrite C. unfold abv, blw. rewrite ltb_irrefl. split; auto.
          destruct V as [V|(-> & _ & ->)]; [|rewrite ltb_irrefl; auto].
          rewrite V, (ltb_asym _ _ V). destruct (closed_right t); auto. }
        apply H in M. auto.
      + apply negb_true_iff. destruct (ltb l v) eqn:E; auto. exfalso.
        destruct V as [V|(_ & K & _)]; [|congruence].
        destruct (ltb_dense D l (std_min v u)) as (c & C1 & C2).
        { unfold std_min. destruct (ltb u v); auto. }
        assert (ltb c v = true /\ ltb c u = true) as [C3 C4].
        { unfold std_min in C2. destruct (ltb u v) eqn:E'; split; ord. }
        assert (M : mem (mkI t (Some l) (Some u)) c).
        { apply mem_cuts; auto. rewrite C. unfold abv, blw. rewrite C1, C4, (ltb_asym _ _ C4).
          destruct (closed_right t); auto. }
        apply H in M. ordc.
    - intros H x Hx. apply mem_cuts in Hx; auto. destruct Hx as [Hx _]. unfold abv, blw, lt in *.
      destruct (closed_left t); cbn [negb] in *; rewrite ?negb_true_iff in *; ord.
  Qed.

  Lemma covered_nil (v : T) : covered (D := D) [] v <-> False.
  Proof. split; [intros (i & [] & _)|tauto]. Qed.
  Lemma covered_cons (i : interval) l v : covered (i :: l) v <-> mem i v \/ covered l v.
  Proof.
    split.
    - intros (j & [->|Hj] & Hv); [auto|right; exists j; auto].
    - intros [H|(j & Hj & Hv)]; [exists i; simpl; auto|exists j; simpl; auto].
  Qed.
  Lemma covered_app (l1 l2 : list interval) v : covered (l1 ++ l2) v <-> covered l1 v \/ covered l2 v.
  Proof.
    induction l1 as [|i l1 IH]; cbn [app]; rewrite ?covered_nil, ?covered_cons, ?IH; tauto.
  Qed.
  Lemma covered_perm (l1 l2 : list interval) v : Permutation l1 l2 -> (covered l1 v <-> covered l2 v).
  Proof.
    intros P. split; intros (i & Hi & Hv); exists i; split; auto.
    - eapply Permutation_in; eauto.
    - eapply Permutation_in; [apply Permutation_sym|]; eauto.
  Qed.

  (** *** C06 Clip *)
  Lemma clip_loop_spec l c : Forall valid l -> valid c ->
    exists r (xs : list interval), clip_loop l c = Ok r /\ Forall valid r /\
      Forall2 (fun i j => forall v, mem j v <-> mem i v /\ mem c v) l xs /\
      r = filter isDefined xs.
  Proof.
    intros Hl Hc. induction Hl as [|i l Hi Hl IH].
    - exists [], []. repeat split; constructor.
    - destruct IH as (r & xs & E & Vr & F2 & Er).
      destruct (getIntersectionWith_spec i c Hi Hc) as (x & Ex & Vx & Mx).
      exists (if isDefined x then x :: r else r), (x :: xs). cbn [clip_loop]. rewrite Ex, E. cbn [bind].
      split; auto. split; [|split].
      + destruct Vx as [-> |Vx]; [cbn; auto|]. rewrite (valid_defined x Vx). constructor; auto.
      + constructor; auto.
      + cbn [filter]. rewrite Er. auto.
  Qed.

  Lemma clip_loop_spec' l c : Forall valid l -> valid c ->
    exists r (xs : list interval), clip_loop l c = Ok r /\ Forall (fun j => j = UndefinedI \/ valid j) xs /\
      Forall2 (fun i j => forall v, mem j v <-> mem i v /\ mem c v) l xs /\
      r = filter isDefined xs.
  Proof.
    intros Hl Hc. induction Hl as [|i l Hi Hl IH].
    - exists [], []. repeat split; constructor.
    - destruct IH as (r & xs & E & Vr & F2 & Er).
      destruct (getIntersectionWith_spec i c Hi Hc) as (x & Ex & Vx & Mx).
      exists (if isDefined x then x :: r else r), (x :: xs). cbn [clip_loop]. rewrite Ex, E. cbn [bind].
      split; auto. split; [constructor; auto|]. split; [constructor; auto|]. cbn [filter]. rewrite Er. auto.
  Qed.

  Lemma clip_cover (l : list interval) (c : interval) (r xs : list interval) :
    Forall2 (fun i j => forall v, mem j v <-> mem i v /\ mem c v) l xs ->
    r = filter isDefined xs ->
    forall v, covered r v <-> mem c v /\ covered l v.
  Proof.
    intros F2. revert r. induction F2 as [|i x l xs Hx F2 IH]; intros r -> v.
    - cbn. rewrite covered_nil. tauto.
    - cbn [filter]. rewrite covered_cons. specialize (IH _ eq_refl v).
      destruct (isDefined x) eqn:Dx.
      + rewrite covered_cons, IH, Hx. tauto.
      + rewrite IH. assert (~ mem x v).
        { destruct x as [t [lx|] [ux|]]; cbn; auto. destruct t; cbn in Dx; try discriminate. intros [K _]; auto. }
        rewrite Hx in H. tauto.
  Qed.

  (** *** Sort *)
  Lemma sort_cmp_swo byl asc (l : list interval) : Forall valid l -> strict_weak_on (sort_cmp byl asc) l.
  Proof.
    intros Hl. rewrite Forall_forall in Hl. unfold strict_weak_on, sort_cmp.
    split; [|split].
    - intros a Ha. destruct (valid_inv a (Hl a Ha)) as (t & x & y & -> & Ht & _).
      rewrite open_interval_defined by auto. unfold gtb. destruct byl, asc; apply ltb_irrefl.
    - intros a b c Ha Hb Hc.
      destruct (valid_inv a (Hl a Ha)) as (ta & la & ua & -> & Hta & _).
      destruct (valid_inv b (Hl b Hb)) as (tb & lb & ub & -> & Htb & _).
      destruct (valid_inv c (Hl c Hc)) as (tc & lc & uc & -> & Htc & _).
      rewrite !open_interval_defined by auto. unfold gtb. destruct byl, asc; intros; ord.
    - intros a b c Ha Hb Hc.
      destruct (valid_inv a (Hl a Ha)) as (ta & la & ua & -> & Hta & _).
      destruct (valid_inv b (Hl b Hb)) as (tb & lb & ub & -> & Htb & _).
      destruct (valid_inv c (Hl c Hc)) as (tc & lc & uc & -> & Htc & _).
      rewrite !open_interval_defined by auto. unfold gtb. destruct byl, asc; intros; ord.
  Qed.

  Definition lb_le (a b : interval) : Prop :=
    exists la lb, ilb a = Some la /\ ilb b = Some lb /\ ltb lb la = false.
  Definition lb_lt (a b : interval) : Prop :=
    exists la lb, ilb a = Some la /\ ilb b = Some lb /\ ltb la lb = true.

  Lemma valid_forallb (l : list interval) : Forall valid l -> forallb isDefined l = true.
  Proof.
    intros H. apply forallb_forall. intros x Hx. rewrite Forall_forall in H. apply valid_defined; auto.
  Qed.

  Lemma StronglySorted_weaken {A} (P Q : A -> A -> Prop) (l : list A) :
    (forall a b : A, In a l -> In b l -> P a b -> Q a b) -> StronglySorted P l -> StronglySorted Q l.
  Proof.
    intros H S. induction S as [|a l S IH Ha]; constructor.
    - apply IH. intros; apply H; simpl; auto.
    - rewrite Forall_forall in *. intros b Hb. apply H; simpl; auto.
  Qed.

  Lemma Sort_spec srt l : std_sort_contract srt -> Forall valid l ->
    exists s, Sort srt l = Ok s /\ Permutation l s /\ Forall valid s /\ StronglySorted lb_le s.
  Proof.
    intros Hs Hl. unfold Sort, SortBy. rewrite valid_forallb by auto.
    destruct (Hs (sort_cmp true true) l (sort_cmp_swo _ _ _ Hl)) as [P S].
    eexists; split; [reflexivity|]. split; auto.
    assert (V : Forall valid (srt (sort_cmp true true) l)).
    { rewrite Forall_forall in *. intros x Hx. apply Hl. eapply Permutation_in; [apply Permutation_sym|]; eauto. }
    split; auto. rewrite Forall_forall in V. eapply StronglySorted_weaken; [|exact S].
    intros a b Ha Hb. cbn beta.
    destruct (valid_inv a (V a Ha)) as (ta & la & ua & -> & Hta & _).
    destruct (valid_inv b (V b Hb)) as (tb & lb & ub & -> & Htb & _).
    unfold sort_cmp. rewrite !open_interval_defined by auto. intros K. exists la, lb. auto.
  Qed.

  (** *** Merge: coverage *)
  Lemma merge_loop_cover l : forall n, valid n -> Forall valid l ->
    exists r, merge_loop n l = Ok r /\ Forall valid r /\ r <> [] /\
      (forall v, covered r v <-> covered (n :: l) v).
  Proof.
    induction l as [|i l IH]; intros n Hn Hl; cbn [merge_loop].
    - exists [n]. repeat split; auto; try discriminate; tauto.
    - inversion Hl as [|? ? Hi Hl']; subst.
      destruct (getUnionWith_sep n i Hn Hi) as (u & -> & [(Vu & Mu & _)|(-> & _)]); cbn [bind].
      + rewrite (valid_defined u Vu). destruct (IH u Vu Hl') as (r & E & Vr & Nr & C).
        exists r. repeat split; auto; intros K; rewrite ?C, ?covered_cons, ?Mu in *; tauto.
      + cbn [isDefined UndefinedI itp]. destruct (IH i Hi Hl') as (r & E & Vr & Nr & C).
        rewrite E. cbn [bind]. exists (n :: r). split; auto. split; [constructor; auto|]. split; [discriminate|].
        intros v. rewrite covered_cons, C, !covered_cons. tauto.
  Qed.

  Lemma Merge_cover srt l : std_sort_contract srt -> Forall valid l ->
    exists r, Merge srt l = Ok r /\ Forall valid r /\ (l <> [] -> r <> []) /\
      (forall v, covered r v <-> covered l v).
  Proof.
    intros Hs Hl. destruct l as [|i l].
    - exists []. split; [reflexivity|]. split; [constructor|]. split; tauto.
    - destruct (Sort_spec srt (i :: l) Hs Hl) as (s & Es & P & Vs & _).
      cbn [Merge]. rewrite Es. cbn [bind].
      destruct s as [|j s]; [apply Permutation_sym, Permutation_nil in P; discriminate|].
      inversion Vs; subst.
      destruct (merge_loop_cover s j) as (r & E & Vr & Nr & C); auto.
      exists r. repeat split; auto; intros K; rewrite C, ?(covered_perm _ _ v P) in *; auto;
        apply C; apply (covered_perm _ _ v P); auto.
  Qed.

  (** *** Merge: separation *)

  (** The lower cut of [a] is at or before the lower cut of [b]. *)
  Definition lc_le (a b : interval) : Prop := forall v, Below a v -> Below b v.

  Lemma merge_loop_sep l : forall n, valid n -> Forall valid l -> StronglySorted lc_le (n :: l) ->
    forall r, merge_loop n l = Ok r ->
    StronglySorted gap_between r /\ (forall j, In j r -> lc_le n j).
  Proof.
    induction l as [|i l IH]; intros n Hn Hl S r; cbn [merge_loop].
    - intros E; injection E as <-. split; [repeat constructor|].
      intros j [<-|[]] v; auto.
    - inversion Hl as [|? ? Hi Hl']; subst.
      inversion S as [|? ? Sl Fn]; subst. inversion Sl as [|? ? Sl' Fi]; subst.
      inversion Fn as [|? ? Hni Fn']; subst.
      destruct (getUnionWith_sep n i Hn Hi) as (u & -> & [(Vu & Mu & _)|(-> & G)]); cbn [bind].
      + rewrite (valid_defined u Vu). intros E.
        assert (Hun : forall v, Below u v <-> Below n v).
        { intros v. unfold Below. setoid_rewrite Mu. split; [auto|].
          intros H x [Hx|Hx]; auto. apply (Hni v); auto. }
        destruct (IH u Vu Hl') with (r := r) as (G & Hr); auto.
        { constructor; auto. rewrite Forall_forall in *. intros j Hj v Hv. apply (Fn' j Hj). apply Hun; auto. }
        split; auto. intros j Hj v Hv. apply (Hr j Hj). apply Hun. auto.
      + cbn [isDefined UndefinedI itp].
        destruct (merge_loop i l) as [r'| |] eqn:E; cbn [bind]; try discriminate.
        intros E'; injection E' as <-.
        destruct (IH i Hi Hl' Sl r' E) as (G' & Hr').
        assert (Gni : gap_between n i).
        { destruct G as [G|G]; auto. exfalso. apply gap_iff in G. destruct G as (s & G1 & G2).
          apply Hni in G2. apply (above_below i s); auto. }
        split.
        * constructor; auto. rewrite Forall_forall. intros j Hj. apply gap_iff in Gni.
          destruct Gni as (s & G1 & G2). exists s. split; auto. apply (Hr' j Hj); auto.
        * intros j [<-|Hj] v Hv; auto. apply (Hr' j Hj). apply Hni. auto.
  Qed.

  Lemma lower_included_iff t : t <> TUndefined -> (lower_included t <-> closed_left t = true).
  Proof. unfold lower_included. destruct t; cbn; intuition congruence. Qed.

  Lemma lc_le_of_lb_le a b : valid a -> valid b -> lb_le a b ->
    (ilb a = ilb b -> (lower_included (itp a) <-> lower_included (itp b))) -> lc_le a b.
  Proof.
    intros Ha Hb Hab Ht v.
    destruct (valid_inv a Ha) as (ta & la & ua & -> & Hta & _).
    destruct (valid_inv b Hb) as (tb & lb & ub & -> & Htb & _).
    rewrite !Below_cut by auto. destruct Hab as (la' & lb' & E1 & E2 & E3). cbn in *.
    injection E1 as <-; injection E2 as <-.
    destruct (ltb la lb) eqn:E.
    - apply blw_weaken; auto.
    - assert (la = lb) as -> by (apply ltb_total; auto).
      specialize (Ht eq_refl). rewrite !lower_included_iff in Ht by auto.
      destruct (closed_left ta), (closed_left tb); cbn; auto; exfalso; intuition congruence.
  Qed.

  Lemma no_tie_perm l l' : Permutation l l' -> no_tie l -> no_tie l'.
  Proof.
    intros P H a b Ha Hb. apply H; eapply Permutation_in; try (apply Permutation_sym; exact P); auto.
  Qed.

  Lemma sorted_lc l : Forall valid l -> no_tie l -> StronglySorted lb_le l -> StronglySorted lc_le l.
  Proof.
    intros V N. rewrite Forall_forall in V. apply StronglySorted_weaken.
    intros a b Ha Hb H. apply lc_le_of_lb_le; auto.
  Qed.

  (** Without ties Merge yields separated intervals, in order. *)
  Lemma Merge_sep srt l : std_sort_contract srt -> Forall valid l -> no_tie l ->
    exists r, Merge srt l = Ok r /\ Forall valid r /\ (l <> [] -> r <> []) /\
      (forall v, covered r v <-> covered l v) /\ StronglySorted gap_between r.
  Proof.
    intros Hs Hl Hn. destruct (Merge_cover srt l Hs Hl) as (r & E & Vr & Nr & C).
    exists r. repeat (split; auto). destruct l as [|i l].
    - cbn in E. injection E as <-. constructor.
    - destruct (Sort_spec srt (i :: l) Hs Hl) as (s & Es & P & Vs & S).
      cbn [Merge] in E. rewrite Es in E. cbn [bind] in E. destruct s as [|j s]; [discriminate|].
      inversion Vs; subst. apply (merge_loop_sep s j) in E; auto; [tauto|].
      apply sorted_lc; auto. eapply no_tie_perm; eauto.
  Qed.

  (** *** Uniqueness of separated representations *)
  Lemma interval_ext a b : valid a -> valid b -> (forall v, mem a v <-> mem b v) -> a = b.
  Proof.
    intros Ha Hb H. apply (interval_eq_spec a b Ha Hb) in H. unfold interval_eq in H.
    destruct (valid_inv a Ha) as (ta & la & ua & -> & Hta & _).
    destruct (valid_inv b Hb) as (tb & lb & ub & -> & Htb & _).
    rewrite !open_interval_defined in H by auto. rewrite !andb_true_iff, !eqb_true in H.
    destruct H as [[H1 ->] ->]. f_equal. destruct ta, tb; auto; discriminate.
  Qed.

  Lemma gap_below a b v : valid a -> gap_between a b -> Below a v -> Below b v.
  Proof.
    intros Ha (s & S1 & S2) H x Hx. destruct (valid_nonempty a Ha) as [y Hy].
    eapply lt_trans; [apply H; eauto|]. eapply lt_trans; [apply S1; auto|apply S2; auto].
  Qed.
  Lemma gap_above a b v : valid b -> gap_between a b -> Above b v -> Above a v.
  Proof.
    intros Hb (s & S1 & S2) H x Hx. destruct (valid_nonempty b Hb) as [y Hy].
    eapply lt_trans; [|apply H; eauto]. eapply lt_trans; [apply S1; auto|apply S2; auto].
  Qed.

  Lemma head_gap a l : Forall valid l -> StronglySorted gap_between (a :: l) -> l <> [] ->
    exists s, Above a s /\ (forall j, In j l -> Below j s).
  Proof.
    intros V S N. destruct l as [|b l]; [congruence|]. inversion S as [|? ? S' F]; subst.
    inversion F as [|? ? G _]; subst. destruct G as (s & G1 & G2). exists s. split; auto.
    inversion S' as [|? ? _ F']; subst. inversion V; subst. rewrite Forall_forall in F'.
    intros j [<-|Hj]; auto. apply (gap_below b); auto.
  Qed.

  Lemma sep_head_incl a l b m v :
    valid b -> Forall valid (a :: l) -> Forall valid m ->
    StronglySorted gap_between (a :: l) -> StronglySorted gap_between (b :: m) ->
    (forall v, covered (a :: l) v <-> covered (b :: m) v) -> mem a v -> mem b v.
  Proof.
    intros Vb Va Vm Sa Sb C Hv. inversion Va as [|? ? Va1 Va2]; subst.
    inversion Sa as [|? ? Sa1 Sa2]; subst. rewrite Forall_forall in Sa2.
    assert (K : covered (b :: m) v) by (apply C; apply covered_cons; auto).
    apply covered_cons in K. destruct K as [K|K]; auto. exfalso.
    destruct (head_gap b m Vm Sb) as (s & S1 & S2). { intros ->. apply covered_nil in K. auto. }
    destruct K as (j & Hj & Hjv). destruct (valid_nonempty b Vb) as [y Hy].
    assert (L1 : lt y s) by (apply S1; auto). assert (L2 : lt s v) by (apply (S2 j); auto).
    assert (Ky : covered (a :: l) y) by (apply C; apply covered_cons; auto).
    apply covered_cons in Ky. destruct Ky as [Ky|(i & Hi & Ky)].
    - assert (mem a s) by (apply (mem_convex a y s v); auto).
      assert (Ks : covered (b :: m) s) by (apply C; apply covered_cons; auto).
      apply covered_cons in Ks. destruct Ks as [Ks|(j' & Hj' & Ks)].
      + apply (above_mem b s); auto.
      + apply (below_mem j' s); auto.
    - destruct (Sa2 i Hi) as (s' & G1 & G2). apply (lt_asym' y v).
      + eapply lt_trans; eauto.
      + eapply lt_trans; [apply G1|apply G2]; auto.
  Qed.

  Lemma sep_unique l : forall m, Forall valid l -> Forall valid m ->
    StronglySorted gap_between l -> StronglySorted gap_between m ->
    (forall v, covered l v <-> covered m v) -> l = m.
  Proof.
    induction l as [|a l IH]; intros m Vl Vm Sl Sm C.
    - destruct m as [|b m]; auto. exfalso. inversion Vm; subst.
      destruct (valid_nonempty b) as [y Hy]; auto. apply (covered_nil y). apply C. apply covered_cons; auto.
    - destruct m as [|b m].
      + exfalso. inversion Vl; subst.
        destruct (valid_nonempty a) as [y Hy]; auto. apply (covered_nil y). apply C. apply covered_cons; auto.
      + pose proof (Forall_inv Vl) as Va. pose proof (Forall_inv Vm) as Vb.
        pose proof (Forall_inv_tail Vl) as Vl'. pose proof (Forall_inv_tail Vm) as Vm'.
        assert (a = b) as <-.
        { apply interval_ext; auto. intros v. split; intros H.
          - eapply (sep_head_incl a l b m); eauto.
          - eapply (sep_head_incl b m a l); eauto. intros; symmetry; auto. }
        f_equal. inversion Sl as [|? ? Sl1 Sl2]; subst. inversion Sm as [|? ? Sm1 Sm2]; subst.
        rewrite Forall_forall in Sl2, Sm2.
        apply IH; auto. intros v.
        assert (Ex : forall k, Forall valid k -> (forall j, In j k -> gap_between a j) -> covered k v -> ~ mem a v).
        { intros k _ G (j & Hj & Hv) Ha. destruct (G j Hj) as (s & G1 & G2).
          apply (lt_asym' v s); auto. }
        pose proof (Ex l Vl' Sl2). pose proof (Ex m Vm' Sm2).
        specialize (C v). rewrite !covered_cons in C. tauto.
  Qed.

  (** Without ties the merged array depends only on the covered set. *)
  Lemma Merge_canonical srt srt' l l' : std_sort_contract srt -> std_sort_contract srt' ->
    Forall valid l -> Forall valid l' -> no_tie l -> no_tie l' ->
    (forall v, covered l v <-> covered l' v) -> Merge srt l = Merge srt' l'.
  Proof.
    intros Hs Hs' V V' N N' C.
    destruct (Merge_sep srt l Hs V N) as (r & -> & Vr & _ & Cr & Sr).
    destruct (Merge_sep srt' l' Hs' V' N') as (r' & -> & Vr' & _ & Cr' & Sr').
    f_equal. apply sep_unique; auto. intros v. rewrite Cr, Cr'. auto.
  Qed.

  (** *** Merge in general: distinct lower bounds *)
  Definition ub_lt (a b : interval) : Prop := exists y, mem b y /\ Above a y.
  Definition before (a b : interval) : Prop := lb_lt a b /\ ub_lt a b.

  Lemma lb_le_mem t (l u : T) x : t <> TUndefined -> mem (mkI t (Some l) (Some u)) x -> ltb x l = false.
  Proof.
    intros Ht H. apply mem_cuts in H; auto. destruct H as [H _]. unfold abv in H.
    destruct (closed_left t); rewrite ?negb_true_iff in H; ord.
  Qed.

  Lemma below_lb t (l u : T) v : valid (mkI t (Some l) (Some u)) ->
    Below (mkI t (Some l) (Some u)) v -> ltb l v = false.
  Proof.
    intros V H. rewrite Below_cut in H by auto. unfold blw in H.
    destruct (closed_left t); cbn in H; rewrite ?negb_true_iff in H; ord.
  Qed.

  Lemma gap_lb_lt a b : valid a -> valid b -> gap_between a b -> lb_lt a b.
  Proof.
    intros Ha Hb (s & G1 & G2). destruct (valid_nonempty a Ha) as [x Hx].
    destruct (valid_inv a Ha) as (ta & la & ua & -> & Hta & _).
    destruct (valid_inv b Hb) as (tb & lb & ub & -> & Htb & _).
    exists la, lb. repeat split; auto.
    pose proof (lb_le_mem _ _ _ _ Hta Hx) as K1.
    assert (K2 : ltb x s = true) by (apply G1; auto).
    pose proof (below_lb _ _ _ _ Hb G2) as K3. trich la lb; auto; ordc.
  Qed.

  Lemma merge_loop_before l : forall n, valid n -> Forall valid l -> StronglySorted lb_le (n :: l) ->
    forall r, merge_loop n l = Ok r ->
    StronglySorted before r /\
    (forall j, In j r -> lb_le n j) /\
    (exists k, In k r /\ forall v, Above k v -> Above n v) /\
    (exists h r', r = h :: r' /\ ilb h = ilb n /\ forall v, mem n v -> mem h v).
  Proof.
    induction l as [|i l IH]; intros n Hn Hl S r; cbn [merge_loop].
    - intros E; injection E as <-. split; [repeat constructor|]. split; [|split].
      + intros j [<-|[]]. destruct (valid_inv n Hn) as (tn & ln & un & -> & _ & _).
        exists ln, ln. rewrite ltb_irrefl. auto.
      + exists n. simpl; auto.
      + exists n, []. auto.
    - inversion Hl as [|? ? Hi Hl']; subst.
      inversion S as [|? ? Sl Fn]; subst. inversion Sl as [|? ? Sl' Fi]; subst.
      inversion Fn as [|? ? Hni Fn']; subst.
      destruct Hni as (ln & li & En & Ei & Hni).
      destruct (getUnionWith_sep n i Hn Hi) as (u & -> & [(Vu & Mu & Lu)|(-> & G)]); cbn [bind].
      + rewrite (valid_defined u Vu). intros E.
        specialize (Lu _ _ En Ei). unfold std_min in Lu. rewrite Hni in Lu.
        destruct (IH u Vu Hl') with (r := r) as (G & Hr & Hk & h & r' & -> & Hh & Hm); auto.
        { constructor; auto. rewrite Forall_forall in *. intros j Hj. destruct (Fn' j Hj) as (x & y & E1 & E2 & E3).
          exists x, y. rewrite Lu, <- En. auto. }
        split; auto. split; [|split].
        * intros j Hj. destruct (Hr j Hj) as (x & y & E1 & E2 & E3). exists x, y. rewrite En, <- Lu; auto.
        * destruct Hk as (k & Hk & K). exists k. split; auto. intros v Hv x Hx. apply (K v Hv). apply Mu; auto.
        * exists h, r'. rewrite Hh, Lu, En. split; auto. split; auto. intros v Hv. apply Hm. apply Mu; auto.
      + cbn [isDefined UndefinedI itp].
        destruct (merge_loop i l) as [r'| |] eqn:E; cbn [bind]; try discriminate.
        intros E'; injection E' as <-.
        destruct (IH i Hi Hl' Sl r' E) as (G' & Hr' & Hk & h & r'' & -> & Hh & Hm).
        assert (Gni : gap_between n i).
        { destruct G as [G|G]; auto. exfalso. apply (gap_lb_lt i n) in G; auto.
          destruct G as (x & y & E1 & E2 & E3). rewrite E1 in Ei; rewrite E2 in En.
          injection Ei as ->; injection En as ->. congruence. }
        destruct (gap_lb_lt n i Hn Hi Gni) as (ln' & li' & En' & Ei' & Hlt).
        assert (UB1 : forall j, In j (h :: r'') -> ub_lt n j).
        { assert (H0 : ub_lt n h).
          { destruct (valid_nonempty i Hi) as [y Hy]. exists y. split; auto. intros x Hx.
            destruct Gni as (s & G1 & G2). apply (lt_trans _ s); auto. }
          inversion G' as [|? ? _ F]; subst. rewrite Forall_forall in F.
          intros j [<-|Hj]; auto. destruct (F j Hj) as [_ (z & Hz & Az)].
          destruct H0 as (y & Hy & Ay). exists z. split; auto. intros x Hx. apply (lt_trans _ y); auto. }
        assert (LB1 : forall j, In j (h :: r'') -> lb_lt n j).
        { intros j Hj. destruct (Hr' j Hj) as (x & y & E1 & E2 & E3). exists ln', y. repeat split; auto.
          rewrite E1 in Ei'. injection Ei' as ->. ord. }
        split; [|split; [|split]].
        * constructor; auto. rewrite Forall_forall. intros j Hj. split; auto.
        * intros j [<-|Hj].
          -- exists ln', ln'. rewrite ltb_irrefl. auto.
          -- destruct (LB1 j Hj) as (x & y & E1 & E2 & E3). exists x, y. repeat split; auto. ord.
        * exists n. simpl. auto.
        * exists n, (h :: r''). auto.
  Qed.

  Lemma Merge_before srt l : std_sort_contract srt -> Forall valid l ->
    exists r, Merge srt l = Ok r /\ Forall valid r /\ (l <> [] -> r <> []) /\
      (forall v, covered r v <-> covered l v) /\ StronglySorted before r.
  Proof.
    intros Hs Hl. destruct (Merge_cover srt l Hs Hl) as (r & E & Vr & Nr & C).
    exists r. repeat (split; auto). destruct l as [|i l].
    - cbn in E. injection E as <-. constructor.
    - destruct (Sort_spec srt (i :: l) Hs Hl) as (s & Es & P & Vs & S).
      cbn [Merge] in E. rewrite Es in E. cbn [bind] in E. destruct s as [|j s]; [discriminate|].
      inversion Vs; subst. apply (merge_loop_before s j) in E; auto; tauto.
  Qed.

  Lemma before_no_tie l : StronglySorted before l -> no_tie l.
  Proof.
    induction 1 as [|a l S IH F]; intros x y; [intros []|].
    rewrite Forall_forall in F.
    assert (K : forall z, In z l -> ilb a = ilb z -> False).
    { intros z Hz E. destruct (F z Hz) as [(p & q & E1 & E2 & E3) _]. rewrite E1, E2 in E.
      injection E as ->. rewrite ltb_irrefl in E3. discriminate. }
    intros [<-|Hx] [<-|Hy]; try tauto; intros E.
    - exfalso; eapply K; eauto.
    - exfalso; eapply K; eauto.
    - apply IH; auto.
  Qed.
End Arrays.
