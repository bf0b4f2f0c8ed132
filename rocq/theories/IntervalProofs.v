(** Lemmas about single intervals (C01-C05, C12, C15). *)

From Coq Require Import List Bool Arith Lia ZArith ZifyBool ZifyNat.
From Verif Require Import Result DOrder OrderTac IntervalModel IntervalSpec.
Import ListNotations.

Section Proofs.
  Context {D : DOrder}.
  Notation T := (car D).
  Notation interval := (interval D).

  Implicit Types (t : itype) (l u v : T) (a b i : interval).

  Lemma in_set_iff t l u v :
    in_set t l u v <->
    (if closed_left t then ltb v l = false else ltb l v = true) /\
    (if closed_right t then ltb u v = false else ltb v u = true).
  Proof.
    unfold in_set, lt, lower_included, upper_included.
    assert (E : forall x y : T, (ltb x y = true \/ x = y) <-> ltb y x = false).
    { intros x y; split.
      - intros [H| ->]; [apply ltb_asym; auto | apply ltb_irrefl].
      - intros H. destruct (ltb x y) eqn:K; auto. right; apply ltb_total; auto. }
    pose proof (E l v). pose proof (E v u).
    destruct t; cbn [closed_left closed_right itype_eqb orb]; intuition (try discriminate).
  Qed.

  Lemma open_interval_defined t l u :
    t <> TUndefined -> open_interval (mkI t (Some l) (Some u)) = Ok (t, l, u).
  Proof. destruct t; intros H; try reflexivity; congruence. Qed.

  Lemma valid_inv i : valid i ->
    exists t l u, i = mkI t (Some l) (Some u) /\ t <> TUndefined /\
      (ltb l u = true \/ (l = u /\ t = TClosed)).
  Proof.
    destruct i as [t [l|] [u|]]; simpl; try tauto.
    intros [H K]. exists t, l, u. auto.
  Qed.

  Lemma valid_defined i : valid i -> isDefined i = true.
  Proof.
    intros H. destruct (valid_inv i H) as (t & l & u & -> & Ht & _).
    destruct t; try reflexivity; congruence.
  Qed.

  Lemma mem_iff t l u v : t <> TUndefined ->
    (mem (mkI t (Some l) (Some u)) v <->
    (if closed_left t then ltb v l = false else ltb l v = true) /\
    (if closed_right t then ltb u v = false else ltb v u = true)).
  Proof. intros H. unfold mem. rewrite in_set_iff. tauto. Qed.

  (** The constructor accepts exactly the valid intervals. *)
  Lemma construct_ok_iff l u t i : t <> TUndefined ->
    (construct (Some l) (Some u) t = Ok i <-> i = mkI t (Some l) (Some u) /\ valid i).
  Proof.
    intros Ht. unfold construct, gtb, eqb.
    destruct (ltb u l) eqn:E1; [|destruct (ltb l u) eqn:E2]; cbn [negb andb].
    - split; [discriminate|]. intros [-> [_ [H|[-> H]]]].
      + unfold lt in H. rewrite (ltb_asym _ _ H) in E1. discriminate.
      + rewrite ltb_irrefl in E1. discriminate.
    - split.
      + intros H; injection H as <-. split; auto. split; auto.
      + intros [-> _]. reflexivity.
    - pose proof (ltb_total D _ _ E1 E2); subst.
      destruct t; cbn [negb itype_eqb]; split; intros H; try discriminate; try congruence;
        try (destruct H as [-> [_ [K|[_ K]]]]; [unfold lt in K; congruence | discriminate]).
      + injection H as <-. split; auto. split; auto.
      + destruct H as [-> _]; auto.
  Qed.

  Lemma buildInterval_spec l ol u ou :
    (ltb l u = true \/ (l = u /\ ol = false /\ ou = false)) ->
    exists t, buildInterval l ol u ou = Ok (mkI t (Some l) (Some u)) /\ t <> TUndefined /\
      closed_left t = negb ol /\ closed_right t = negb ou /\
      valid (mkI t (Some l) (Some u)).
  Proof.
    intros H.
    assert (K : forall t, t <> TUndefined -> (ltb l u = true \/ t = TClosed) -> (ltb l u = true \/ l = u) ->
       construct (Some l) (Some u) t = Ok (mkI t (Some l) (Some u)) /\ valid (mkI t (Some l) (Some u))).
    { intros t Ht H1 H2.
      assert (V : valid (mkI t (Some l) (Some u))).
      { split; auto. unfold lt. tauto. }
      split; auto. apply construct_ok_iff; auto. }
    unfold buildInterval, Open, HalfOpenLeft, HalfOpenRight, Closed.
    destruct ol, ou; cbn [andb];
      [exists TOpen|exists THalfOpenLeft|exists THalfOpenRight|exists TClosed];
      (edestruct K as [E V]; [| | |split; [exact E|repeat split; try discriminate; apply V]]);
      try discriminate; try tauto; intuition congruence.
  Qed.

  Lemma buildInterval_throws l ol u ou :
    ltb l u = false -> ol || ou = true -> exists e, buildInterval l ol u ou = Err e.
  Proof.
    intros H K. unfold buildInterval, Open, HalfOpenLeft, HalfOpenRight, construct, gtb, eqb.
    rewrite H. destruct ol, ou; try discriminate; cbn [andb];
      destruct (ltb u l) eqn:E; cbn; eauto.
  Qed.

  (** *** C01 *)
  Lemma contains_value_spec i v : valid i ->
    exists r, contains_value i (Some v) = Ok r /\ (r = true <-> mem i v).
  Proof.
    intros H. destruct (valid_inv i H) as (t & l & u & -> & Ht & _).
    unfold contains_value. rewrite open_interval_defined by auto. cbn [bind].
    destruct t; try congruence; cbn [checkAgainstLowerBound checkAgainstUpperBound andb negb bind];
      eexists; (split; [reflexivity|]); rewrite mem_iff by auto;
      unfold leb, geb, gtb; cbn [closed_left closed_right itype_eqb orb];
      rewrite ?andb_true_iff, ?negb_true_iff; tauto.
  Qed.

  (** Every valid interval has a member (density). *)
  Lemma valid_nonempty i : valid i -> exists v, mem i v.
  Proof.
    intros H. destruct (valid_inv i H) as (t & l & u & -> & Ht & [Hlu|[-> ->]]).
    - destruct (ltb_dense D _ _ Hlu) as (c & H1 & H2). exists c.
      apply mem_iff; auto. rewrite (ltb_asym _ _ H1), (ltb_asym _ _ H2), H1, H2.
      destruct (closed_left t), (closed_right t); auto.
    - exists u. apply mem_iff; auto. cbn. rewrite ltb_irrefl. auto.
  Qed.


  (** Cuts: [abv c l v] says that [v] satisfies the lower cut at [l] (closed if
      [c]), [blw c u v] that it satisfies the upper cut at [u]. *)
  Definition abv (c : bool) (l v : T) : bool := if c then negb (ltb v l) else ltb l v.
  Definition blw (c : bool) (u v : T) : bool := if c then negb (ltb u v) else ltb v u.

  Lemma mem_cuts t l u v : t <> TUndefined ->
    (mem (mkI t (Some l) (Some u)) v <->
     abv (closed_left t) l v = true /\ blw (closed_right t) u v = true).
  Proof.
    intros H. rewrite mem_iff by auto. unfold abv, blw.
    destruct (closed_left t), (closed_right t); rewrite ?negb_true_iff; tauto.
  Qed.

  Lemma open_left_neg t : t <> TUndefined -> open_left t = negb (closed_left t).
  Proof. destruct t; intros; try reflexivity; congruence. Qed.
  Lemma open_right_neg t : t <> TUndefined -> open_right t = negb (closed_right t).
  Proof. destruct t; intros; try reflexivity; congruence. Qed.

  (** A lower cut at a smaller point is weaker. *)
  Lemma abv_weaken c c' l l' v : ltb l l' = true -> abv c' l' v = true -> abv c l v = true.
  Proof.
    unfold abv. destruct c, c'; rewrite ?negb_true_iff; intros H K; ord.
  Qed.
  Lemma blw_weaken c c' u u' v : ltb u' u = true -> blw c' u' v = true -> blw c u v = true.
  Proof.
    unfold blw. destruct c, c'; rewrite ?negb_true_iff; intros H K; ord.
  Qed.

  Definition isect_open (m la lb : T) (oa ob : bool) : bool :=
    let o := if eqb m la then (if oa then true else false) else false in
    if negb o && eqb m lb then (if ob then true else o) else o.

  Lemma abv_isect ca cb la lb v :
    abv (negb (isect_open (std_max la lb) la lb (negb ca) (negb cb))) (std_max la lb) v =
    abv ca la v && abv cb lb v.
  Proof.
    unfold isect_open, std_max, abv.
    trich la lb; use_facts; destruct ca, cb; cbn [negb andb orb]; use_facts; cbn [negb andb orb];
      try trich la v; try trich lb v; use_facts; cbn; auto; ordc.
  Qed.

  Lemma blw_isect ca cb ua ub v :
    blw (negb (isect_open (std_min ua ub) ua ub (negb ca) (negb cb))) (std_min ua ub) v =
    blw ca ua v && blw cb ub v.
  Proof.
    unfold isect_open, std_min, blw.
    trich ua ub; use_facts; destruct ca, cb; cbn [negb andb orb]; use_facts; cbn [negb andb orb];
      try trich ua v; try trich ub v; use_facts; cbn; auto; ordc.
  Qed.

  Definition union_open (m la lb : T) (ca cb : bool) : bool :=
    let o := if eqb m la then (if ca then false else true) else true in
    if o && eqb m lb then (if cb then false else o) else o.

  Lemma abv_union ca cb la lb v :
    abv (negb (union_open (std_min la lb) la lb ca cb)) (std_min la lb) v =
    abv ca la v || abv cb lb v.
  Proof.
    unfold union_open, std_min, abv.
    trich la lb; use_facts; destruct ca, cb; cbn [negb andb orb]; use_facts; cbn [negb andb orb];
      try trich la v; try trich lb v; use_facts; cbn; auto; ordc.
  Qed.

  Lemma blw_union ca cb ua ub v :
    blw (negb (union_open (std_max ua ub) ua ub ca cb)) (std_max ua ub) v =
    blw ca ua v || blw cb ub v.
  Proof.
    unfold union_open, std_max, blw.
    trich ua ub; use_facts; destruct ca, cb; cbn [negb andb orb]; use_facts; cbn [negb andb orb];
      try trich ua v; try trich ub v; use_facts; cbn; auto; ordc.
  Qed.

  (** An interval with lower cut (l, cl) and upper cut (u, cu) is valid iff it has a member. *)
  Lemma cuts_nonempty l cl u cu :
    (exists v, abv cl l v = true /\ blw cu u v = true) <->
    (ltb l u = true \/ (l = u /\ cl = true /\ cu = true)).
  Proof.
    unfold abv, blw. split.
    - intros (v & H1 & H2). trich l u; auto; destruct cl, cu; rewrite ?negb_true_iff in *; auto; ordc.
    - intros [H|(-> & -> & ->)].
      + destruct (ltb_dense D _ _ H) as (c & H1 & H2). exists c.
        rewrite H1, H2, (ltb_asym _ _ H1), (ltb_asym _ _ H2). destruct cl, cu; auto.
      + exists u. rewrite ltb_irrefl. auto.
  Qed.

  Lemma valid_cuts t l u : t <> TUndefined ->
    (valid (mkI t (Some l) (Some u)) <->
     (ltb l u = true \/ (l = u /\ closed_left t = true /\ closed_right t = true))).
  Proof.
    intros Ht. unfold valid, lt. destruct t; cbn; intuition congruence.
  Qed.

  Lemma buildInterval_cuts l ol u ou :
    (exists v, abv (negb ol) l v = true /\ blw (negb ou) u v = true) ->
    exists i, buildInterval l ol u ou = Ok i /\ valid i /\
      (forall v, mem i v <-> abv (negb ol) l v = true /\ blw (negb ou) u v = true).
  Proof.
    intros H. apply cuts_nonempty in H.
    destruct (buildInterval_spec l ol u ou) as (t & E & Ht & E1 & E2 & V).
    { destruct H as [H|(-> & H1 & H2)]; auto. right. destruct ol, ou; auto; discriminate. }
    exists (mkI t (Some l) (Some u)). split; [auto|]. split; [auto|].
    intros v. rewrite mem_cuts, E1, E2 by auto. tauto.
  Qed.

  (** *** C04 *)
  Lemma getIntersectionWith_spec a b : valid a -> valid b ->
    exists i, getIntersectionWith a b = Ok i /\ (i = UndefinedI \/ valid i) /\
      (forall v, mem i v <-> mem a v /\ mem b v).
  Proof.
    intros Ha Hb.
    destruct (valid_inv a Ha) as (ta & la & ua & -> & Hta & Va).
    destruct (valid_inv b Hb) as (tb & lb & ub & -> & Htb & Vb).
    unfold getIntersectionWith. rewrite !open_interval_defined by auto. cbn [bind].
    fold (isect_open (std_max la lb) la lb (open_left ta) (open_left tb)).
    fold (isect_open (std_min ua ub) ua ub (open_right ta) (open_right tb)).
    rewrite !open_left_neg, !open_right_neg by auto.
    pose proof (abv_isect (closed_left ta) (closed_left tb) la lb) as Hol.
    pose proof (blw_isect (closed_right ta) (closed_right tb) ua ub) as Hou.
    set (ol := isect_open (std_max la lb) la lb _ _) in *.
    set (ou := isect_open (std_min ua ub) ua ub _ _) in *.
    set (m := std_max la lb) in *. set (M := std_min ua ub) in *. cbv zeta.
    assert (HH : forall v, mem (mkI ta (Some la) (Some ua)) v /\ mem (mkI tb (Some lb) (Some ub)) v <->
       abv (negb ol) m v = true /\ blw (negb ou) M v = true).
    { intros v. rewrite !mem_cuts, Hol, Hou, !andb_true_iff by auto. tauto. }
    assert (HU : ~ (ltb m M = true \/ (m = M /\ negb ol = true /\ negb ou = true)) ->
      forall v, mem (UndefinedI) v <-> mem (mkI ta (Some la) (Some ua)) v /\ mem (mkI tb (Some lb) (Some ub)) v).
    { intros Hn v. split; [intros []|]. intros K. apply HH in K. exfalso. apply Hn, cuts_nonempty. eauto. }
    unfold gtb. trich m M.
    - rewrite E0, E1.
      destruct (buildInterval_cuts m ol M ou) as (i & Ei & Vi & Hi); [apply cuts_nonempty; auto|].
      exists i. split; [|split; [auto|intros v; rewrite Hi, HH; tauto]].
      exact Ei.
    - replace M with m in *. rewrite ltb_irrefl, eqb_refl.
      destruct (ol || ou) eqn:Eo.
      + exists UndefinedI. split; [destruct ol, ou; auto; discriminate|]. split; auto.
        apply HU. intros [K|(_ & K1 & K2)]; [rewrite ltb_irrefl in K; discriminate|].
        destruct ol, ou; discriminate.
      + apply orb_false_iff in Eo. destruct Eo as [-> ->].
        destruct (buildInterval_cuts m false m false) as (i & Ei & Vi & Hi); [apply cuts_nonempty; auto|].
        exists i. split; [exact Ei|split; auto]. intros v. rewrite Hi, HH. tauto.
    - rewrite E. exists UndefinedI. split; auto. split; auto. apply HU.
      intros [K|(K & _)]; [congruence|]. rewrite K, ltb_irrefl in E. discriminate.
  Qed.

  (** *** C02 *)
  Lemma intersects_spec a b : valid a -> valid b ->
    exists r, intersects a b = Ok r /\ (r = true <-> exists v, mem a v /\ mem b v).
  Proof.
    intros Ha Hb.
    destruct (valid_inv a Ha) as (ta & la & ua & -> & Hta & _).
    destruct (valid_inv b Hb) as (tb & lb & ub & -> & Htb & _).
    apply valid_cuts in Ha, Hb; auto.
    unfold intersects. rewrite !open_interval_defined by auto. cbn [bind].
    set (ca := closed_left ta) in *. set (cb := closed_left tb) in *.
    set (da := closed_right ta) in *. set (db := closed_right tb) in *.
    assert (Hex : (exists v, mem (mkI ta (Some la) (Some ua)) v /\ mem (mkI tb (Some lb) (Some ub)) v) <->
      (ltb la ub = true \/ (la = ub /\ ca = true /\ db = true)) /\
      (ltb lb ua = true \/ (lb = ua /\ cb = true /\ da = true))).
    { setoid_rewrite mem_cuts; auto. fold ca cb da db.
      rewrite <- !(cuts_nonempty _ _ _ _). split.
      - intros (v & [H1 H2] & [H3 H4]). split; exists v; auto.
      - intros [H1 H2]. apply cuts_nonempty in H1, H2.
        pose proof (abv_isect ca cb la lb) as Hol.
        pose proof (blw_isect da db ua ub) as Hou.
        assert (K : exists v, abv (negb (isect_open (std_max la lb) la lb (negb ca) (negb cb))) (std_max la lb) v = true /\
          blw (negb (isect_open (std_min ua ub) ua ub (negb da) (negb db))) (std_min ua ub) v = true).
        { apply cuts_nonempty. clear Hol Hou.
          unfold isect_open, std_max, std_min.
          trich la lb; trich ua ub; use_facts; cbn [negb andb];
          use_facts; cbn [negb andb];
          rewrite ?andb_false_r; use_facts; cbn [negb andb];
          destruct ca, cb, da, db; cbn [negb andb orb] in *; use_facts; cbn [negb andb orb];
          intuition (try discriminate); auto; try (subst; auto; fail); try (subst; ordc). }
        destruct K as [v [K1 K2]]. rewrite Hol in K1. rewrite Hou in K2.
        apply andb_true_iff in K1, K2. exists v. tauto. }
    rewrite (open_left_neg tb), (open_right_neg tb) by auto. fold cb db.
    assert (C1 : checkAgainstLowerBound ta la lb (negb cb) false = Ok (if ca then leb la lb else if cb then ltb la lb else leb la lb)).
    { subst ca cb. destruct ta; try congruence; destruct (closed_left tb); reflexivity. }
    assert (C2 : checkAgainstLowerBound ta la ub (negb db) true = Ok (if ca && db then leb la ub else ltb la ub)).
    { subst ca db. destruct ta; try congruence; destruct (closed_right tb); reflexivity. }
    assert (C3 : checkAgainstUpperBound ta ua lb (negb cb) true = Ok (if da && cb then geb ua lb else gtb ua lb)).
    { subst da cb. destruct ta; try congruence; destruct (closed_left tb); reflexivity. }
    assert (C4 : checkAgainstUpperBound ta ua ub (negb db) false = Ok (if da then geb ua ub else if db then gtb ua ub else geb ua ub)).
    { subst da db. destruct ta; try congruence; destruct (closed_right tb); reflexivity. }
    rewrite C1, C2, C3, C4. cbn [bind]. eexists. split; [reflexivity|]. rewrite Hex.
    clear Hex C1 C2 C3 C4. clearbody ca cb da db.
    unfold leb, geb, gtb. rewrite andb_true_iff, !orb_true_iff. 
    split.
    - intros [[K1|K1] [K2|K2]]; split; destruct ca, cb, da, db; cbn [andb] in *; rewrite ?negb_true_iff in *;
        trich la ub; trich lb ua; auto; exfalso; intuition (try discriminate); subst; ordc.
    - intros [K1 K2]; split; right + left; destruct ca, cb, da, db; cbn [andb]; rewrite ?negb_true_iff;
        destruct K1 as [K1|(K1 & K3 & K4)]; destruct K2 as [K2|(K2 & K5 & K6)]; try discriminate; subst;
        solve [ord].
  Qed.

  (** *** C03 *)
  Lemma contains_interval_spec a b : valid a -> valid b ->
    exists r, contains_interval a b = Ok r /\ (r = true <-> forall v, mem b v -> mem a v).
  Proof.
    intros Ha Hb.
    destruct (valid_inv a Ha) as (ta & la & ua & -> & Hta & _).
    destruct (valid_inv b Hb) as (tb & lb & ub & -> & Htb & _).
    apply valid_cuts in Ha, Hb; auto.
    unfold contains_interval. rewrite !open_interval_defined by auto. cbn [bind].
    rewrite (open_left_neg tb), (open_right_neg tb) by auto.
    set (ca := closed_left ta) in *. set (cb := closed_left tb) in *.
    set (da := closed_right ta) in *. set (db := closed_right tb) in *.
    assert (C1 : checkAgainstLowerBound ta la lb (negb cb) false = Ok (if ca then leb la lb else if cb then ltb la lb else leb la lb)).
    { subst ca cb. destruct ta; try congruence; destruct (closed_left tb); reflexivity. }
    assert (C4 : checkAgainstUpperBound ta ua ub (negb db) false = Ok (if da then geb ua ub else if db then gtb ua ub else geb ua ub)).
    { subst da db. destruct ta; try congruence; destruct (closed_right tb); reflexivity. }
    rewrite C1, C4. cbn [bind]. eexists. split; [reflexivity|].
    setoid_rewrite mem_cuts; auto. fold ca cb da db.
    clear C1 C4. clearbody ca cb da db.
    rewrite andb_true_iff. split.
    - intros [K1 K2] v [H1 H2]. unfold abv, blw, leb, geb, gtb in *.
      destruct ca, cb, da, db; rewrite ?negb_true_iff in *; split; ord.
    - intros H.
      assert (HL : (if ca then leb la lb else if cb then ltb la lb else leb la lb) = true).
      { unfold leb. trich la lb.
        - use_facts. destruct ca, cb; auto.
        - destruct ca, cb; use_facts; auto. exfalso.
          destruct (proj2 (cuts_nonempty lb true ub db)) as (v & V1 & V2); [tauto|].
          assert (W : abv true lb lb = true /\ blw db ub lb = true).
          { unfold abv, blw. rewrite ltb_irrefl. split; auto.
            destruct Hb as [Hb|(-> & _ & ->)]; [|rewrite ltb_irrefl; auto].
            rewrite Hb, (ltb_asym _ _ Hb). destruct db; auto. }
          apply H in W. destruct W as [W _]. cbn in W. rewrite ltb_irrefl in W. discriminate.
        - exfalso.
          (* a point of b below la *)
          assert (K : exists v, abv cb lb v = true /\ blw db ub v = true /\ ltb v la = true).
          { destruct Hb as [Hb|(-> & -> & ->)].
            - destruct (ltb_dense D lb (std_min la ub)) as (c & K1 & K2).
              { unfold std_min. destruct (ltb ub la); auto. }
              exists c. assert (ltb c la = true /\ ltb c ub = true) as [K3 K4].
              { unfold std_min in K2. destruct (ltb ub la) eqn:E'; split; ord. }
              unfold abv, blw. use_facts. rewrite (ltb_asym _ _ K1), (ltb_asym _ _ K4).
              destruct cb, db; auto.
            - exists ub. unfold abv, blw. use_facts. auto. }
          destruct K as (v & V1 & V2 & V3). destruct (H v) as [W _]; auto.
          unfold abv in W. destruct ca; rewrite ?negb_true_iff in *; ordc. }
      split; [exact HL|].
      unfold geb, gtb. trich ua ub.
      + exfalso.
        assert (K : exists v, abv cb lb v = true /\ blw db ub v = true /\ ltb ua v = true).
        { destruct Hb as [Hb|(-> & -> & ->)].
          - destruct (ltb_dense D (std_max ua lb) ub) as (c & K1 & K2).
            { unfold std_max. destruct (ltb ua lb); auto. }
            exists c. assert (ltb ua c = true /\ ltb lb c = true) as [K3 K4].
            { unfold std_max in K1. destruct (ltb ua lb) eqn:E'; split; ord. }
            unfold abv, blw. use_facts. rewrite (ltb_asym _ _ K2), (ltb_asym _ _ K4).
            destruct cb, db; auto.
          - exists ub. unfold abv, blw. use_facts. auto. }
        destruct K as (v & V1 & V2 & V3). destruct (H v) as [_ W]; auto.
        unfold blw in W. destruct da; rewrite ?negb_true_iff in *; ordc.
      + destruct da, db; use_facts; auto. exfalso.
        assert (W : abv cb lb ub = true /\ blw true ub ub = true).
        { unfold abv, blw. rewrite ltb_irrefl. split; auto.
          destruct Hb as [Hb|(-> & -> & _)]; [|rewrite ltb_irrefl; auto].
          rewrite Hb, (ltb_asym _ _ Hb). destruct cb; auto. }
        apply H in W. destruct W as [_ W]. cbn in W. rewrite ltb_irrefl in W. discriminate.
      + use_facts. destruct da, db; auto.
  Qed.

  (** *** C15 *)
  Lemma interval_eq_spec a b : valid a -> valid b ->
    (interval_eq a b = true <-> forall v, mem a v <-> mem b v).
  Proof.
    intros Ha Hb. split.
    - destruct (valid_inv a Ha) as (ta & la & ua & -> & Hta & _).
      destruct (valid_inv b Hb) as (tb & lb & ub & -> & Htb & _).
      unfold interval_eq. rewrite !open_interval_defined by auto.
      rewrite !andb_true_iff, !eqb_true. intros [[H ->] ->].
      assert (ta = tb) as -> by (destruct ta, tb; auto; discriminate). tauto.
    - intros H.
      destruct (contains_interval_spec a b Ha Hb) as (r1 & R1 & E1).
      destruct (contains_interval_spec b a Hb Ha) as (r2 & R2 & E2).
      assert (r1 = true) as -> by (apply E1; intros; apply H; auto).
      assert (r2 = true) as -> by (apply E2; intros; apply H; auto).
      clear E1 E2.
      destruct (valid_inv a Ha) as (ta & la & ua & -> & Hta & _).
      destruct (valid_inv b Hb) as (tb & lb & ub & -> & Htb & _).
      unfold contains_interval, interval_eq in *. rewrite !open_interval_defined in * by auto. cbn [bind] in *.
      unfold leb, geb, gtb in *.
      destruct ta, tb; try congruence; cbn in R1, R2; injection R1 as R1; injection R2 as R2;
        rewrite !andb_true_iff, ?negb_true_iff in *; destruct R1, R2; cbn [itype_eqb andb];
        unfold leb, geb, gtb in *; rewrite ?negb_true_iff in *;
        solve [repeat split; apply eqb_true; apply ltb_total; auto | ordc].
  Qed.

  Lemma interval_eq_undefined a b :
    isDefined a = false \/ isDefined b = false -> interval_eq a b = false.
  Proof.
    intros [H|H]; unfold interval_eq, open_interval; rewrite H; auto.
    destruct (isDefined a); auto. destruct (ilb a), (iub a); auto.
  Qed.

  Lemma sep_point la ca ua da lb cb ub db va vb :
    abv ca la va = true -> blw da ua va = true -> abv cb lb vb = true -> blw db ub vb = true ->
    (ltb lb ub = true \/ (lb = ub /\ cb = true /\ db = true)) ->
    ltb la lb = true ->
    ~ (abv ca la lb = true /\ blw da ua lb = true) ->
    ~ (abv cb lb ua = true /\ blw db ub ua = true) ->
    exists s, ~ (abv ca la s = true /\ blw da ua s = true) /\
              ~ (abv cb lb s = true /\ blw db ub s = true) /\ 
              ((lt va s /\ lt s vb) \/ (lt vb s /\ lt s va)).
  Proof.
    intros A1 A2 B1 B2 Hb Hlt N1 N4.
    assert (K : blw da ua lb = false).
    { destruct (blw da ua lb); auto. exfalso. apply N1. unfold abv. use_facts.
      rewrite (ltb_asym _ _ Hlt). destruct ca; auto. }
    trich ua lb.
    - destruct (ltb_dense D _ _ E) as (s & S1 & S2). exists s. split; [|split].
      + unfold blw. intros [_ W]. destruct da; rewrite ?negb_true_iff in W; ordc.
      + unfold abv. intros [W _]. destruct cb; rewrite ?negb_true_iff in W; ordc.
      + left. unfold abv, blw, lt in *. destruct cb, da; rewrite ?negb_true_iff in *; split; ord.
    - destruct da; cbn in K; rewrite ltb_irrefl in K; [discriminate|].
      assert (cb = false) as ->.
      { destruct cb; auto. exfalso. apply N4. unfold abv, blw. use_facts. split; auto.
        destruct Hb as [Hb|(-> & _ & ->)]; use_facts; auto. rewrite (ltb_asym _ _ Hb); destruct db; auto. }
      exists lb. unfold abv, blw, lt in *. rewrite ltb_irrefl. split; [intuition discriminate|].
      split; [intuition discriminate|]. auto.
    - unfold blw in K. destruct da; rewrite ?E1, ?E0, ?E, ?negb_true_iff in K; try discriminate;
        rewrite ?negb_false_iff in K; ordc.
  Qed.

  (** *** C05 *)
  Lemma mem_convex i : forall x y z, mem i x -> mem i z -> lt x y -> lt y z -> mem i y.
  Proof.
    intros x y z Hx Hz Hxy Hyz.
    destruct i as [t [l|] [u|]]; try (destruct Hx; fail).
    pose proof Hx as [Ht _].
    rewrite mem_cuts in * by auto. unfold abv, blw, lt in *. destruct Hx as [X1 X2], Hz as [Z1 Z2].
    destruct (closed_left t), (closed_right t); rewrite ?negb_true_iff in *; split; ord.
  Qed.

  Lemma getUnionWith_sep a b : valid a -> valid b ->
    exists i, getUnionWith a b = Ok i /\
      ((valid i /\ (forall v, mem i v <-> mem a v \/ mem b v) /\
        (forall la lb, ilb a = Some la -> ilb b = Some lb -> ilb i = Some (std_min la lb))) \/
       (i = UndefinedI /\ (gap_between a b \/ gap_between b a))).
  Proof.
    intros Ha Hb.
    pose proof (contains_value_spec a) as CA. pose proof (contains_value_spec b) as CB.
    destruct (valid_inv a Ha) as (ta & la & ua & Ea & Hta & Va').
    destruct (valid_inv b Hb) as (tb & lb & ub & Eb & Htb & Vb').
    pose proof Ha as Va. pose proof Hb as Vb.
    unfold getUnionWith.
    replace (open_interval a) with (Ok (ta, la, ua)) by (subst; symmetry; apply open_interval_defined; auto).
    replace (open_interval b) with (Ok (tb, lb, ub)) by (subst; symmetry; apply open_interval_defined; auto).
    cbn [bind].
    destruct (interval_eq a b) eqn:Eq.
    - pose proof (proj1 (interval_eq_spec a b Ha Hb) Eq) as Hab.
      exists a. split.
      + rewrite Ea. apply construct_ok_iff; auto. split; auto. rewrite <- Ea. auto.
      + left. split; auto. split.
        * intros v. rewrite Hab. tauto.
        * intros la' lb' E1 E2. rewrite Ea in E1 |- *. rewrite Eb in E2. cbn in *.
          injection E1 as <-. injection E2 as <-.
          unfold interval_eq in Eq. rewrite Ea, Eb, !open_interval_defined, !andb_true_iff in Eq by auto.
          destruct Eq as [[_ Eq] _]. apply eqb_true in Eq. subst.
          unfold std_min. rewrite ltb_irrefl. auto.
    - assert (Hne : ~ (forall v, mem a v <-> mem b v)).
      { intros K. apply interval_eq_spec in K; auto. congruence. }
      destruct (CA lb Ha) as (c1 & -> & H1). destruct (CA ub Ha) as (c2 & -> & H2).
      destruct (CB la Hb) as (c3 & -> & H3). destruct (CB ua Hb) as (c4 & -> & H4).
      cbn [bind]. clear CA CB.
      rewrite Ea in H1, H2. rewrite Eb in H3, H4. rewrite mem_cuts in H1, H2, H3, H4 by auto.
      assert (Hmem : forall v, mem a v <-> abv (closed_left ta) la v = true /\ blw (closed_right ta) ua v = true).
      { intros v. rewrite Ea. apply mem_cuts; auto. }
      assert (Hmem' : forall v, mem b v <-> abv (closed_left tb) lb v = true /\ blw (closed_right tb) ub v = true).
      { intros v. rewrite Eb. apply mem_cuts; auto. }
      rewrite Ea in Ha. rewrite Eb in Hb. apply valid_cuts in Ha, Hb; auto.
      fold (union_open (std_min la lb) la lb (closed_left ta) (closed_left tb)).
      fold (union_open (std_max ua ub) ua ub (closed_right ta) (closed_right tb)).
      set (ca := closed_left ta) in *. set (cb := closed_left tb) in *.
      set (da := closed_right ta) in *. set (db := closed_right tb) in *.
      destruct (c1 || c2 || c3 || c4) eqn:Ec.
      + assert (Hc : c1 = true \/ c2 = true \/ c3 = true \/ c4 = true).
        { destruct c1, c2, c3, c4; auto; discriminate. }
        rewrite H1, H2, H3, H4 in Hc. clear H1 H2 H3 H4 Ec.
        (* the hull has no point outside the union *)
        assert (Hfill : forall v, (abv ca la v || abv cb lb v) = true -> (blw da ua v || blw db ub v) = true ->
           (abv ca la v = true /\ blw da ua v = true) \/ (abv cb lb v = true /\ blw db ub v = true)).
        { intros v G1 G2.
          destruct (abv ca la v) eqn:A1, (blw da ua v) eqn:B1, (abv cb lb v) eqn:A2, (blw db ub v) eqn:B2;
            auto; try discriminate; exfalso; clear G1 G2;
            clearbody ca cb da db; clear - Ha Hb Hc A1 A2 B1 B2; unfold abv, blw in *;
            destruct ca, cb, da, db; rewrite ?negb_true_iff, ?negb_false_iff in *;
            destruct Hc as [[? ?]|[[? ?]|[[? ?]|[? ?]]]]; rewrite ?negb_true_iff, ?negb_false_iff in *; ordc. }
        destruct (buildInterval_cuts (std_min la lb) (union_open (std_min la lb) la lb ca cb)
                    (std_max ua ub) (union_open (std_max ua ub) ua ub da db)) as (i & Ei & Vi & Hi).
        { destruct (valid_nonempty a Va) as [v Hv]. exists v. apply Hmem in Hv.
          rewrite abv_union, blw_union. destruct Hv as [-> ->]. auto. }
        exists i. split; auto. left. split; auto.
        assert (Hiff : forall v, mem i v <-> mem a v \/ mem b v).
        { intros v. rewrite Hi, abv_union, blw_union, Hmem, Hmem'. split.
          - intros [G1 G2]. apply Hfill; auto.
          - intros [[-> ->]|[-> ->]]; rewrite ?orb_true_r; auto. }
        split; auto. intros la' lb' E1 E2. rewrite Ea in E1. rewrite Eb in E2. cbn in *.
        injection E1 as <-. injection E2 as <-.
        revert Ei. unfold buildInterval, Open, HalfOpenLeft, HalfOpenRight, Closed, construct.
        destruct (union_open _ _ _ _ _), (union_open _ _ _ _ _); cbn [andb];
          destruct (gtb _ _); try discriminate;
          destruct (_ && _); try discriminate; intros Ei; injection Ei as <-; reflexivity.
      + exists UndefinedI. split; auto. right. split; auto.
        assert (N1 : ~ (abv ca la lb = true /\ blw da ua lb = true)) by (rewrite <- H1; destruct c1; auto; discriminate).
        assert (N2 : ~ (abv ca la ub = true /\ blw da ua ub = true)) by (rewrite <- H2; destruct c2; auto; rewrite ?orb_true_r in Ec; discriminate).
        assert (N3 : ~ (abv cb lb la = true /\ blw db ub la = true)) by (rewrite <- H3; destruct c3; auto; rewrite ?orb_true_r in Ec; discriminate).
        assert (N4 : ~ (abv cb lb ua = true /\ blw db ub ua = true)) by (rewrite <- H4; destruct c4; auto; rewrite ?orb_true_r in Ec; discriminate).
        clear H1 H2 H3 H4 Ec c1 c2 c3 c4.
        destruct (valid_nonempty a Va) as [va Hva]. destruct (valid_nonempty b Vb) as [vb Hvb].
        clearbody ca cb da db.
        assert (S : exists s, ~ mem a s /\ ~ mem b s /\ ((lt va s /\ lt s vb) \/ (lt vb s /\ lt s va))).
        { trich la lb.
          - destruct (sep_point la ca ua da lb cb ub db va vb) as (s & G1 & G2 & G3);
              try (apply Hmem; auto); try (apply Hmem'; auto); auto.
            exists s. rewrite Hmem, Hmem'. auto.
          - exfalso.
            assert (Ka : ltb lb ua = true /\ ca = false).
            { destruct Ha as [Ha|(-> & -> & ->)]; [split; auto|].
              - destruct ca; auto. exfalso. apply N1. unfold abv, blw. use_facts.
                rewrite (ltb_asym _ _ Ha). destruct da; auto.
              - exfalso. apply N1. unfold abv, blw. use_facts. auto. }
            assert (Kb : ltb lb ub = true /\ cb = false).
            { destruct Hb as [Hb|(-> & -> & ->)]; [split; auto|].
              - destruct cb; auto. exfalso. apply N3. unfold abv, blw. use_facts.
                rewrite (ltb_asym _ _ Hb). destruct db; auto.
              - exfalso. apply N3. unfold abv, blw. use_facts. auto. }
            destruct Ka as [Ka ->], Kb as [Kb ->]. trich ua ub.
            + apply N4. unfold abv, blw. use_facts. destruct db; auto.
            + destruct da; [exfalso; apply N2; unfold abv, blw; use_facts; auto|].
              destruct db; [exfalso; apply N4; unfold abv, blw; use_facts; auto|].
              apply Hne. intros v. rewrite Hmem, Hmem'. tauto.
            + apply N2. unfold abv, blw. use_facts. destruct da; auto.
          - destruct (sep_point lb cb ub db la ca ua da vb va) as (s & G1 & G2 & G3);
              try (apply Hmem; auto); try (apply Hmem'; auto); auto.
            exists s. rewrite Hmem, Hmem'. tauto. }
        destruct S as (s & Sa & Sb & [[S1 S2]|[S1 S2]]); [left|right]; exists s; split; intros x Hx;
          unfold lt; trich x s; auto; exfalso; try tauto;
          first [ solve [apply Sa; apply (mem_convex a va s x); auto]
                | solve [apply Sa; apply (mem_convex a x s va); auto]
                | solve [apply Sb; apply (mem_convex b vb s x); auto]
                | solve [apply Sb; apply (mem_convex b x s vb); auto] ].
  Qed.

  Lemma getUnionWith_spec a b : valid a -> valid b ->
    exists i, getUnionWith a b = Ok i /\
      ((valid i /\ convex (fun v => mem a v \/ mem b v) /\ forall v, mem i v <-> mem a v \/ mem b v) \/
       (i = UndefinedI /\ ~ convex (fun v => mem a v \/ mem b v))).
  Proof.
    intros Ha Hb. destruct (getUnionWith_sep a b Ha Hb) as (i & Ei & [(Vi & Hi & _)|(-> & Hs)]);
      exists i || exists UndefinedI; split; auto.
    - left. split; auto. split; auto. intros x y z Hx Hz. rewrite <- Hi in *. apply mem_convex; auto.
    - right. split; auto. intros Hc.
      destruct (valid_nonempty a Ha) as [va Hva]. destruct (valid_nonempty b Hb) as [vb Hvb].
      destruct Hs as [[s [H1 H2]]|[s [H1 H2]]].
      + destruct (Hc va s vb) as [K|K]; auto.
        * apply H1 in K. unfold lt in K. rewrite ltb_irrefl in K. discriminate.
        * apply H2 in K. unfold lt in K. rewrite ltb_irrefl in K. discriminate.
      + destruct (Hc vb s va) as [K|K]; auto.
        * apply H2 in K. unfold lt in K. rewrite ltb_irrefl in K. discriminate.
        * apply H1 in K. unfold lt in K. rewrite ltb_irrefl in K. discriminate.
  Qed.
End Proofs.
