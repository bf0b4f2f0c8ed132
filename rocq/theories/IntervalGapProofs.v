(** Lemmas about GetGaps and LogicalAnd (C09, C11). *)

From Coq Require Import List Bool Permutation Sorted Lia.
From Verif Require Import Result DOrder OrderTac IntervalModel IntervalSpec IntervalProofs
  IntervalArrayProofs.
Import ListNotations.

Section Gaps.
  Context {D : DOrder}.
  Notation T := (car D).
  Notation interval := (interval D).
  Implicit Types (i j n c a b span : interval) (l r xs : list interval) (v x y w : T) (srt : sorter D).

  Lemma middle_gaps_spec l : forall n, valid n -> Forall valid l -> StronglySorted gap_between (n :: l) ->
    exists r, middle_gaps n l = Ok r /\ Forall valid r /\
      (forall v, covered r v <-> Above n v /\ ~ covered l v /\ exists i, In i l /\ Below i v).
  Proof.
    induction l as [|i l IH]; intros n Hn Hl S.
    - exists []. split; [reflexivity|]. split; [constructor|]. intros v. rewrite covered_nil.
      split; [tauto|]. intros (_ & _ & k & [] & _).
    - pose proof (Forall_inv Hl) as Hi. pose proof (Forall_inv_tail Hl) as Hl'.
      inversion S as [|? ? S' F]; subst. pose proof (Forall_inv F) as G.
      inversion S' as [|? ? _ F']; subst. rewrite Forall_forall in F'.
      destruct (IH i Hi Hl' S') as (r & Er & Vr & Cr).
      assert (B : exists g, (let! (tp, _, up) := open_interval n in
               let! (ti, li, _) := open_interval i in
               buildInterval up (closed_right tp) li (closed_left ti)) = Ok g /\ valid g /\
               forall v, mem g v <-> Above n v /\ Below i v).
      { destruct (valid_inv n Hn) as (tn & ln & un & -> & Htn & _).
        destruct (valid_inv i Hi) as (ti & li & ui & -> & Hti & _).
        rewrite !open_interval_defined by auto. cbn [bind].
        destruct (buildInterval_cuts un (closed_right tn) li (closed_left ti)) as (g & Eg & Vg & Mg).
        { destruct G as (s & G1 & G2). exists s. split.
          - apply (proj1 (Above_cut tn ln un s Hn)); auto.
          - apply (proj1 (Below_cut ti li ui s Hi)); auto. }
        exists g. split; auto. split; auto. intros v. rewrite Mg, Above_cut, Below_cut by auto. tauto. }
      destruct B as (g & Eg & Vg & Mg).
      exists (g :: r). split; [|split].
      + cbn [middle_gaps]. destruct (open_interval n) as [[[tn ln] un]| |]; try discriminate.
        destruct (open_interval i) as [[[ti li] ui]| |]; try discriminate. cbn [bind] in *.
        rewrite Eg, Er. reflexivity.
      + constructor; auto.
      + intros v. rewrite covered_cons, Mg, Cr, covered_cons. split.
        * intros [[H K]|(H & K1 & k & Hk & K2)].
          -- split; auto. split.
             ++ intros [M|(k & Hk & M)]; [apply (below_mem i v); auto|].
                apply (below_mem k v); auto. apply (gap_below i); auto.
             ++ exists i. simpl; auto.
          -- split; [apply (gap_above n i); auto|]. split.
             ++ intros [M|M]; auto. apply (above_mem i v); auto.
             ++ exists k. simpl; auto.
        * intros (H & K1 & k & Hk & K2).
          destruct (position i v Hi) as [P|[P|P]]; [|tauto|left; auto].
          right. split; auto. split; [tauto|]. destruct Hk as [<-|Hk]; [|exists k; auto].
          exfalso. apply (above_below i v); auto.
  Qed.

  Lemma StronglySorted_filter {A} (P : A -> A -> Prop) f (l : list A) :
    StronglySorted P l -> StronglySorted P (filter f l).
  Proof.
    induction 1 as [|a l S IH F]; cbn; [constructor|]. destruct (f a); auto. constructor; auto.
    rewrite Forall_forall in *. intros y Hy. apply filter_In in Hy. apply F. tauto.
  Qed.

  Lemma Forall2_gap l xs c : Forall2 (fun i j => forall v, mem j v <-> mem i v /\ mem c v) l xs ->
    StronglySorted gap_between l -> StronglySorted gap_between xs.
  Proof.
    induction 1 as [|i j l xs H F2 IH]; intros S; [constructor|].
    inversion S as [|? ? S' F]; subst. constructor; auto. clear IH S S'.
    induction F2 as [|i' j' l xs H' F2 IH]; constructor.
    - destruct (Forall_inv F) as (s & G1 & G2). exists s. split; intros x Hx.
      + apply G1. apply H in Hx. tauto.
      + apply G2. apply H' in Hx. tauto.
    - apply IH. apply (Forall_inv_tail F).
  Qed.

  Lemma last_cons {A} (l : list A) : forall a b : A, last (b :: l) a = last l b.
  Proof.
    induction l as [|c l IH]; intros a b; auto.
    change (last (c :: l) a = last (c :: l) b). rewrite !IH. auto.
  Qed.

  Lemma last_in {A} (l : list A) : forall a : A, In (last l a) (a :: l).
  Proof.
    induction l as [|b l IH]; intros a; [left; auto|]. rewrite last_cons. right. apply IH.
  Qed.

  Lemma last_strong {A} (P : A -> A -> Prop) (l : list A) : forall a : A, StronglySorted P (a :: l) ->
    forall x : A, In x (a :: l) -> x = last l a \/ P x (last l a).
  Proof.
    induction l as [|b l IH]; intros a S x Hx.
    - destruct Hx as [<-|[]]. left; reflexivity.
    - rewrite last_cons. inversion S as [|? ? S' F]; subst. destruct Hx as [<-|Hx].
      + right. rewrite Forall_forall in F. apply F. apply last_in.
      + apply IH; auto.
  Qed.

  Lemma abv_up cc (l : T) x y : abv cc l x = true -> lt x y -> abv cc l y = true.
  Proof. unfold abv, lt. destruct cc; rewrite ?negb_true_iff; intros; ord. Qed.
  Lemma blw_down cc (u : T) x y : blw cc u y = true -> lt x y -> blw cc u x = true.
  Proof. unfold blw, lt. destruct cc; rewrite ?negb_true_iff; intros; ord. Qed.

  Lemma least_abv t (ls us : T) v : valid (mkI t (Some ls) (Some us)) ->
    (least (mem (mkI t (Some ls) (Some us))) v <-> v = ls /\ closed_left t = true).
  Proof.
    intros V. pose proof V as [Ht _]. pose proof (proj1 (valid_cuts t ls us Ht) V) as V'. split.
    - intros [M H].
      assert (K : closed_left t = true -> mem (mkI t (Some ls) (Some us)) ls).
      { intros C. apply mem_cuts; auto. rewrite C. unfold abv, blw. rewrite ltb_irrefl. split; auto.
        destruct V' as [V'|(-> & _ & ->)]; [|rewrite ltb_irrefl; auto].
        rewrite V', (ltb_asym _ _ V'). destruct (closed_right t); auto. }
      destruct (closed_left t) eqn:C.
      + split; auto. specialize (H ls (K eq_refl)). apply lb_le_mem in M; auto. unfold le in H.
        symmetry. apply ltb_total; auto.
      + exfalso. pose proof M as M'. apply mem_cuts in M'; auto. rewrite C in M'. destruct M' as [M1 M2].
        cbn in M1. destruct (ltb_dense D ls v M1) as (z & Z1 & Z2).
        assert (mem (mkI t (Some ls) (Some us)) z).
        { apply mem_cuts; auto. rewrite C. split; auto. eapply blw_down; eauto. }
        apply H in H0. unfold le in H0. congruence.
    - intros [-> C]. split.
      + apply mem_cuts; auto. rewrite C. unfold abv, blw. rewrite ltb_irrefl. split; auto.
        destruct V' as [V'|(-> & _ & ->)]; [|rewrite ltb_irrefl; auto].
        rewrite V', (ltb_asym _ _ V'). destruct (closed_right t); auto.
      + intros x Hx. apply lb_le_mem in Hx; auto.
  Qed.

  Lemma ub_ge_mem t (l u : T) x : t <> TUndefined -> mem (mkI t (Some l) (Some u)) x -> ltb u x = false.
  Proof.
    intros Ht H. apply mem_cuts in H; auto. destruct H as [_ H]. unfold blw in H.
    destruct (closed_right t); rewrite ?negb_true_iff in H; ord.
  Qed.

  Lemma greatest_blw t (ls us : T) v : valid (mkI t (Some ls) (Some us)) ->
    (greatest (mem (mkI t (Some ls) (Some us))) v <-> v = us /\ closed_right t = true).
  Proof.
    intros V. pose proof V as [Ht _]. pose proof (proj1 (valid_cuts t ls us Ht) V) as V'. split.
    - intros [M H].
      assert (K : closed_right t = true -> mem (mkI t (Some ls) (Some us)) us).
      { intros C. apply mem_cuts; auto. rewrite C. unfold abv, blw. rewrite ltb_irrefl. split; auto.
        destruct V' as [V'|(-> & -> & _)]; [|rewrite ltb_irrefl; auto].
        rewrite V', (ltb_asym _ _ V'). destruct (closed_left t); auto. }
      destruct (closed_right t) eqn:C.
      + split; auto. specialize (H us (K eq_refl)). apply ub_ge_mem in M; auto. unfold le in H.
        symmetry. apply ltb_total; auto.
      + exfalso. pose proof M as M'. apply mem_cuts in M'; auto. rewrite C in M'. destruct M' as [M1 M2].
        cbn in M2. destruct (ltb_dense D v us M2) as (z & Z1 & Z2).
        assert (mem (mkI t (Some ls) (Some us)) z).
        { apply mem_cuts; auto. rewrite C. split; auto. eapply abv_up; eauto. }
        apply H in H0. unfold le in H0. congruence.
    - intros [-> C]. split.
      + apply mem_cuts; auto. rewrite C. unfold abv, blw. rewrite ltb_irrefl. split; auto.
        destruct V' as [V'|(-> & -> & _)]; [|rewrite ltb_irrefl; auto].
        rewrite V', (ltb_asym _ _ V'). destruct (closed_left t); auto.
      + intros x Hx. apply ub_ge_mem in Hx; auto.
  Qed.

  Lemma leading_spec span first : valid span -> valid first -> (forall v, mem first v -> mem span v) ->
    exists lead, (match open_interval span with
           | Ok (ts, ls, _) => match open_interval first with
             | Ok (tf, lf, _) =>
               if gtb lf ls then
                 rmap (fun g => [g])
                   (buildInterval ls (if closed_left ts then false else true)
                                  lf (if closed_left tf then true else false))
               else Ok []
             | _ => Ok [] end
           | _ => Ok []
           end) = Ok lead /\ Forall valid lead /\
      (forall v, covered lead v <->
         mem span v /\ Below first v /\ ~ (least (mem span) v /\ starts_after (mem span) (mem first) v)).
  Proof.
    intros Hs Hf Hsub.
    destruct (valid_inv span Hs) as (ts & ls & us & -> & Hts & _).
    destruct (valid_inv first Hf) as (tf & lf & uf & -> & Htf & _).
    rewrite !open_interval_defined by auto. unfold gtb.
    assert (Hup : forall v, Below (mkI tf (Some lf) (Some uf)) v -> blw (closed_right ts) us v = true).
    { intros v B. destruct (valid_nonempty _ Hf) as [x Hx]. apply (blw_down _ _ v x); [|apply B; auto].
      apply Hsub in Hx. apply mem_cuts in Hx; auto. tauto. }
    destruct (ltb ls lf) eqn:E.
    - destruct (buildInterval_cuts ls (if closed_left ts then false else true) lf
                  (if closed_left tf then true else false)) as (g & Eg & Vg & Mg).
      { destruct (ltb_dense D _ _ E) as (z & Z1 & Z2). exists z. unfold abv, blw.
        rewrite Z1, Z2, (ltb_asym _ _ Z1), (ltb_asym _ _ Z2).
        destruct (closed_left ts), (closed_left tf); auto. }
      rewrite Eg. exists [g]. split; [reflexivity|]. split; [auto|].
      intros v. rewrite covered_cons, covered_nil, Mg, Below_cut, mem_cuts by auto.
      replace (negb (if closed_left ts then false else true)) with (closed_left ts) by (destruct (closed_left ts); auto).
      replace (if closed_left tf then true else false) with (closed_left tf) by (destruct (closed_left tf); auto).
      split.
      + intros [[A B]|[]]. split; [split; auto; apply Hup; apply Below_cut; auto|]. split; auto.
        intros [L (w & W1 & W2 & W3)]. apply least_abv in L; auto. destruct L as [-> _].
        destruct (ltb_dense D ls (std_min lf w)) as (z & Z1 & Z2).
        { unfold std_min. destruct (ltb w lf); auto. }
        assert (Z3 : ltb z lf = true /\ ltb z w = true).
        { unfold std_min in Z2. destruct (ltb w lf) eqn:E'; split; ord. }
        destruct Z3 as [Z3 Z4].
        assert (M : mem (mkI tf (Some lf) (Some uf)) z) by (apply W3; unfold lt, le; auto; ord).
        apply lb_le_mem in M; auto. congruence.
      + intros ([A _] & B & _). auto.
    - exists []. split; [reflexivity|]. split; [constructor|]. intros v. rewrite covered_nil.
      split; [tauto|]. intros (M & B & N). apply N.
      assert (Bv : ltb lf v = false) by (eapply below_lb; eauto).
      pose proof (lb_le_mem _ _ _ _ Hts M) as Mv.
      assert (v = ls /\ lf = ls) as [-> ->].
      { trich v ls; [congruence| |].
        - split; auto. apply ltb_total; auto. 
        - exfalso. ordc. }
      split.
      + apply least_abv; auto. split; auto. apply mem_cuts in M; auto. destruct M as [M _].
        unfold abv in M. destruct (closed_left ts); auto. rewrite ltb_irrefl in M. discriminate.
      + destruct (valid_nonempty _ Hf) as [w Hw]. exists w. split; [apply B; auto|]. split; [auto|].
        intros x X1 X2. apply mem_cuts; auto. apply mem_cuts in Hw; auto. destruct Hw as [_ Hw]. split.
        * unfold abv. rewrite X1. destruct (closed_left tf); auto. rewrite (ltb_asym _ _ X1). auto.
        * apply le_iff in X2. destruct X2 as [X2| ->]; auto. eapply blw_down; eauto.
  Qed.

  Lemma trailing_spec span z : valid span -> valid z -> (forall v, mem z v -> mem span v) ->
    exists trail, (match open_interval span with
           | Ok (ts, _, us) => match open_interval z with
             | Ok (tz, _, uz) =>
               if ltb uz us then
                 rmap (fun g => [g])
                   (buildInterval uz (if closed_right tz then true else false)
                                  us (if closed_right ts then false else true))
               else Ok []
             | _ => Ok [] end
           | _ => Ok []
           end) = Ok trail /\ Forall valid trail /\
      (forall v, covered trail v <->
         mem span v /\ Above z v /\ ~ (greatest (mem span) v /\ stops_before (mem span) (mem z) v)).
  Proof.
    intros Hs Hf Hsub.
    destruct (valid_inv span Hs) as (ts & ls & us & -> & Hts & _).
    destruct (valid_inv z Hf) as (tf & lf & uf & -> & Htf & _).
    rewrite !open_interval_defined by auto.
    assert (Hlow : forall v, Above (mkI tf (Some lf) (Some uf)) v -> abv (closed_left ts) ls v = true).
    { intros v B. destruct (valid_nonempty _ Hf) as [x Hx]. apply (abv_up _ _ x v); [|apply B; auto].
      apply Hsub in Hx. apply mem_cuts in Hx; auto. tauto. }
    destruct (ltb uf us) eqn:E.
    - destruct (buildInterval_cuts uf (if closed_right tf then true else false) us
                  (if closed_right ts then false else true)) as (g & Eg & Vg & Mg).
      { destruct (ltb_dense D _ _ E) as (y & Z1 & Z2). exists y. unfold abv, blw.
        rewrite Z1, Z2, (ltb_asym _ _ Z1), (ltb_asym _ _ Z2).
        destruct (closed_right ts), (closed_right tf); auto. }
      rewrite Eg. exists [g]. split; [reflexivity|]. split; [auto|].
      intros v. rewrite covered_cons, covered_nil, Mg, Above_cut, mem_cuts by auto.
      replace (negb (if closed_right ts then false else true)) with (closed_right ts) by (destruct (closed_right ts); auto).
      replace (if closed_right tf then true else false) with (closed_right tf) by (destruct (closed_right tf); auto).
      split.
      + intros [[A B]|[]]. split; [split; auto; apply Hlow; apply Above_cut; auto|]. split; auto.
        intros [L (w & W1 & W2 & W3)]. apply greatest_blw in L; auto. destruct L as [-> _].
        destruct (ltb_dense D (std_max uf w) us) as (y & Z1 & Z2).
        { unfold std_max. destruct (ltb uf w); auto. }
        assert (Z3 : ltb uf y = true /\ ltb w y = true).
        { unfold std_max in Z1. destruct (ltb uf w) eqn:E'; split; ord. }
        destruct Z3 as [Z3 Z4].
        assert (M : mem (mkI tf (Some lf) (Some uf)) y) by (apply W3; unfold lt, le; auto; ord).
        apply ub_ge_mem in M; auto. congruence.
      + intros ([_ A] & B & _). auto.
    - exists []. split; [reflexivity|]. split; [constructor|]. intros v. rewrite covered_nil.
      split; [tauto|]. intros (M & B & N). apply N.
      assert (Bv : ltb v uf = false).
      { apply Above_cut in B; auto. unfold abv in B.
        destruct (closed_right tf); cbn in B; rewrite ?negb_true_iff in B; ord. }
      pose proof (ub_ge_mem _ _ _ _ Hts M) as Mv.
      assert (v = us /\ uf = us) as [-> ->].
      { trich v us; [|  |congruence].
        - exfalso. ordc.
        - split; auto. apply ltb_total; auto. }
      split.
      + apply greatest_blw; auto. split; auto. apply mem_cuts in M; auto. destruct M as [_ M].
        unfold blw in M. destruct (closed_right ts); auto. rewrite ltb_irrefl in M. discriminate.
      + destruct (valid_nonempty _ Hf) as [w Hw]. exists w. split; [apply B; auto|]. split; [auto|].
        intros x X1 X2. apply mem_cuts; auto. apply mem_cuts in Hw; auto. destruct Hw as [Hw _]. split.
        * apply le_iff in X2. destruct X2 as [X2| <-]; auto. eapply abv_up; eauto.
        * unfold blw. rewrite X1. destruct (closed_right tf); auto. rewrite (ltb_asym _ _ X1). auto.
  Qed.

  Lemma min_le x y : le (std_min x y) x /\ le (std_min x y) y /\ (std_min x y = x \/ std_min x y = y).
  Proof.
    unfold std_min, le. destruct (ltb y x) eqn:E; repeat split; auto; try apply ltb_irrefl. ord.
  Qed.
  Lemma max_le x y : le x (std_max x y) /\ le y (std_max x y) /\ (std_max x y = x \/ std_max x y = y).
  Proof.
    unfold std_max, le. destruct (ltb x y) eqn:E; repeat split; auto; try apply ltb_irrefl. ord.
  Qed.
  Lemma le_trans x y w : le x y -> le y w -> le x w.
  Proof. unfold le. intros H K. ord. Qed.

  Lemma GetGaps_span srt l m span : Merge srt l = Ok m -> Forall valid m ->
    StronglySorted gap_between m -> valid span ->
    exists r, GetGaps srt l span = Ok r /\ Forall valid r /\
      (forall v, covered r v <->
         mem span v /\ ~ covered m v /\ ~ lost_end (mem span) (covered m) v).
  Proof.
    intros Em Vm Sm Hs. unfold GetGaps. rewrite Em. cbn [bind]. rewrite (valid_defined span Hs).
    destruct (clip_loop_spec m span Vm Hs) as (s & xs & Es & Vs & F2 & Exs).
    pose proof (clip_cover m span s xs F2 Exs) as Cs.
    assert (Ss : StronglySorted gap_between s).
    { rewrite Exs. apply StronglySorted_filter. eapply Forall2_gap; eauto. }
    unfold Clip. rewrite (valid_defined span Hs), Es. cbn [bind].
    destruct s as [|f rest].
    - exists [span]. split; auto. split; auto. intros v. rewrite covered_cons, covered_nil.
      assert (N : forall x, mem span x -> ~ covered m x) by (intros x H K; apply (covered_nil x); apply Cs; auto).
      split; [|tauto]. intros [H|[]]. split; auto. split; auto.
      intros [[_ (w & W1 & W2 & W3)]|[_ (w & W1 & W2 & W3)]];
        apply (N w W2); apply W3; auto; unfold le; apply ltb_irrefl.
    - pose proof (Forall_inv Vs) as Vf. pose proof (Forall_inv_tail Vs) as Vrest.
      assert (Sub : forall i, In i (f :: rest) -> forall v, mem i v -> mem span v /\ covered m v).
      { intros i Hi v Hv. apply Cs. exists i; auto. }
      pose proof (last_in rest f) as Lin. set (z := last rest f) in *.
      assert (Vz : valid z) by (rewrite Forall_forall in Vs; auto).
      pose proof (fun v H => proj1 (Sub f (or_introl eq_refl) v H)) as Subf.
      pose proof (fun v H => proj1 (Sub z Lin v H)) as Subz.
      destruct (leading_spec span f Hs Vf Subf) as (lead & El & Vl & Cl).
      destruct (trailing_spec span z Hs Vz Subz) as (trail & Et & Vt & Ct).
      destruct (middle_gaps_spec rest f Vf Vrest Ss) as (mid & Emid & Vmid & Cmid).
      exists (lead ++ mid ++ trail).
      assert (Ef : exists tf lf uf, open_interval f = Ok (tf, lf, uf)).
      { destruct (valid_inv f Vf) as (tf & lf & uf & E & Htf & _). exists tf, lf, uf. rewrite E.
        apply open_interval_defined; auto. }
      assert (Ez : exists tz lz uz, open_interval z = Ok (tz, lz, uz)).
      { destruct (valid_inv z Vz) as (tf & lf & uf & E & Htf & _). exists tf, lf, uf. rewrite E.
        apply open_interval_defined; auto. }
      destruct Ef as (tf & lf & uf & Ef). destruct Ez as (tz & lz & uz & Ez).
      rewrite Ef in El |- *. rewrite Ez in Et |- *. cbn [bind]. cbn beta in El, Et.
      rewrite El. cbn [bind]. rewrite Emid. cbn [bind]. rewrite Et. cbn [bind].
      split; [reflexivity|]. split; [apply Forall_app; split; auto; apply Forall_app; auto|].
      intros v. rewrite !covered_app, Cl, Cmid, Ct.
      assert (Spos : forall i, In i (f :: rest) -> Below f v -> Below i v).
      { intros i [<-|Hi]; auto. apply gap_below; auto. inversion Ss as [|? ? _ F]; subst.
        rewrite Forall_forall in F; auto. }
      assert (Zpos : forall i, In i (f :: rest) -> Above z v -> Above i v).
      { intros i Hi. destruct (last_strong _ _ _ Ss i Hi) as [->|G]; auto. apply gap_above; auto. }
      assert (Ncov : mem span v -> (covered (f :: rest) v <-> covered m v)) by (intros; rewrite Cs; tauto).
      (* conversions between the element and the covered set *)
      assert (Slow : least (mem span) v -> Below f v ->
                (starts_after (mem span) (mem f) v <-> starts_after (mem span) (covered m) v)).
      { intros Lv Bv. split; intros (w & W1 & W2 & W3).
        - exists w. split; auto. split; auto. intros x X1 X2. apply (Sub f); [left; auto|]. auto.
        - destruct (valid_nonempty f Vf) as [y Hy]. destruct (min_le w y) as (M1 & M2 & M3).
          exists (std_min w y). split; [destruct M3 as [-> | ->]; auto|].
          split; [destruct M3 as [-> | ->]; auto|]. intros x X1 X2.
          assert (Sx : mem span x).
          { pose proof (le_trans _ _ _ X2 M1) as L. apply le_iff in L. destruct L as [L| ->]; auto.
            apply (mem_convex span v x w); auto. apply Lv. }
          assert (Cx : covered (f :: rest) x).
          { apply Cs. split; auto. apply W3; auto. eapply le_trans; eauto. }
          destruct Cx as (i & [<-|Hi] & Mi); auto. exfalso.
          inversion Ss as [|? ? _ F]; subst. rewrite Forall_forall in F. destruct (F i Hi) as (q & Q1 & Q2).
          apply Q1 in Hy. apply Q2 in Mi. pose proof (lt_trans _ _ _ Hy Mi) as K.
          pose proof (le_trans _ _ _ X2 M2) as K2. unfold le, lt in *. congruence. }
      assert (Shigh : greatest (mem span) v -> Above z v ->
                (stops_before (mem span) (mem z) v <-> stops_before (mem span) (covered m) v)).
      { intros Lv Bv. split; intros (w & W1 & W2 & W3).
        - exists w. split; auto. split; auto. intros x X1 X2. apply (Sub z); auto.
        - destruct (valid_nonempty z Vz) as [y Hy]. destruct (max_le w y) as (M1 & M2 & M3).
          exists (std_max w y). split; [destruct M3 as [-> | ->]; auto|].
          split; [destruct M3 as [-> | ->]; auto|]. intros x X1 X2.
          assert (Sx : mem span x).
          { pose proof (le_trans _ _ _ M1 X2) as L. apply le_iff in L. destruct L as [L| <-]; auto.
            apply (mem_convex span w x v); auto. apply Lv. }
          assert (Cx : covered (f :: rest) x).
          { apply Cs. split; auto. apply W3; auto. eapply le_trans; eauto. }
          destruct Cx as (i & Hi & Mi); auto.
          destruct (last_strong _ _ _ Ss i Hi) as [E|(q & Q1 & Q2)]; [fold z in E; subst i; auto|].
          exfalso. fold z in Q2. apply Q1 in Mi. apply Q2 in Hy. pose proof (lt_trans _ _ _ Mi Hy) as K.
          pose proof (le_trans _ _ _ M2 X2) as K2. unfold le, lt in *. congruence. }
      destruct (valid_nonempty f Vf) as [yf Hyf]. destruct (valid_nonempty z Vz) as [yz Hyz].
      split.
      + intros [(M & B & N)|[(A & N & k & Hk & B)|(M & A & N)]].
        * split; auto. split.
          -- rewrite <- Ncov by auto. intros (i & Hi & Mi). apply (below_mem i v); auto.
          -- intros [[L S]|[L S]].
             ++ apply N. split; auto. apply Slow; auto.
             ++ destruct L as [_ L]. specialize (L yf (Subf _ Hyf)). apply B in Hyf.
                unfold le, lt in *. congruence.
        * assert (Vk : valid k) by (rewrite Forall_forall in Vrest; auto).
          destruct (valid_nonempty k Vk) as [yk Hyk].
          assert (Mk : mem span yk) by (apply (Sub k); simpl; auto).
          assert (Mv : mem span v) by (apply (mem_convex span yf v yk); auto).
          split; auto. split.
          -- rewrite <- Ncov by auto. rewrite covered_cons. intros [K|K]; auto. apply (above_mem f v); auto.
          -- intros [[[_ L] _]|[[_ L] _]].
             ++ specialize (L yf (Subf _ Hyf)). apply A in Hyf. unfold le, lt in *. congruence.
             ++ specialize (L yk Mk). apply B in Hyk. unfold le, lt in *. congruence.
        * split; auto. split.
          -- rewrite <- Ncov by auto. intros (i & Hi & Mi). apply (above_mem i v); auto.
          -- intros [[L S]|[L S]].
             ++ destruct L as [_ L]. specialize (L yz (Subz _ Hyz)). apply A in Hyz.
                unfold le, lt in *. congruence.
             ++ apply N. split; auto. apply Shigh; auto.
      + intros (M & N & NL). rewrite <- Ncov in N by auto.
        destruct (position f v Vf) as [A|[K|B]].
        * destruct (position z v Vz) as [A'|[K|B]].
          -- right; right. split; auto. split; auto. intros [L S]. apply NL. right. split; auto.
             apply Shigh; auto.
          -- exfalso. apply N. exists z; auto.
          -- right; left. split; auto. rewrite covered_cons in N. split; [tauto|].
             exists z. split; auto. destruct Lin as [E|]; auto. exfalso. rewrite <- E in B.
             apply (above_below f v); auto.
        * exfalso. apply N. exists f; simpl; auto.
        * left. split; auto. split; auto. intros [L S]. apply NL. left. split; auto. apply Slow; auto.
  Qed.

  Lemma GetGaps_nospan srt l m span : Merge srt l = Ok m -> Forall valid m ->
    StronglySorted gap_between m -> isDefined span = false ->
    exists r, GetGaps srt l span = Ok r /\ Forall valid r /\
      (forall v, covered r v <->
         ~ covered m v /\ (exists x, covered m x /\ lt x v) /\ (exists y, covered m y /\ lt v y)).
  Proof.
    intros Em Vm Sm Hs. unfold GetGaps. rewrite Em. cbn [bind]. rewrite Hs. cbn [bind].
    destruct m as [|f rest].
    - exists []. split; auto. split; auto. intros v. rewrite !covered_nil.
      split; [tauto|]. intros (_ & (x & K & _) & _). apply covered_nil in K. auto.
    - pose proof (Forall_inv Vm) as Vf. pose proof (Forall_inv_tail Vm) as Vrest.
      pose proof (last_in rest f) as Lin. set (z := last rest f) in *.
      assert (Vz : valid z) by (rewrite Forall_forall in Vm; auto).
      destruct (middle_gaps_spec rest f Vf Vrest Sm) as (mid & Emid & Vmid & Cmid).
      exists mid.
      assert (Esp : open_interval span = Err EUndefined) by (unfold open_interval; rewrite Hs; auto).
      rewrite Esp.
      assert (Ef : exists tf lf uf, open_interval f = Ok (tf, lf, uf)).
      { destruct (valid_inv f Vf) as (tf & lf & uf & E & Htf & _). exists tf, lf, uf. rewrite E.
        apply open_interval_defined; auto. }
      assert (Ez : exists tz lz uz, open_interval z = Ok (tz, lz, uz)).
      { destruct (valid_inv z Vz) as (tf & lf & uf & E & Htf & _). exists tf, lf, uf. rewrite E.
        apply open_interval_defined; auto. }
      destruct Ef as (tf & lf & uf & Ef). destruct Ez as (tz & lz & uz & Ez).
      rewrite Ef. cbn [bind]. rewrite Emid. cbn [bind]. rewrite Ez. cbn [bind app]. rewrite app_nil_r.
      split; auto. split; auto. intros v. rewrite Cmid, covered_cons.
      inversion Sm as [|? ? Sr F]; subst. rewrite Forall_forall in F, Vrest.
      split.
      + intros (A & N & k & Hk & B). split; [|split].
        * intros [K|K]; auto. apply (above_mem f v); auto.
        * destruct (valid_nonempty f Vf) as [x Hx]. exists x. split; [apply covered_cons; auto|apply A; auto].
        * destruct (valid_nonempty k) as [x Hx]; auto. exists x. split; [apply covered_cons; right; exists k; auto|apply B; auto].
      + intros (N & (x & Kx & Hx) & (y & Ky & Hy)). split; [|split]; auto.
        * destruct (position f v Vf) as [A|[K|B]]; auto; [tauto|]. exfalso.
          destruct Kx as (i & [<-|Hi] & Mi).
          -- apply B in Mi. apply (lt_asym' x v); auto.
          -- apply (gap_below f i) in B; auto. apply B in Mi. apply (lt_asym' x v); auto.
        * destruct Ky as (i & Hi & Mi). 
          destruct (position z v Vz) as [A|[K|B]].
          -- exfalso. assert (A' : Above i v).
             { destruct (last_strong _ _ _ Sm i Hi) as [->|G]; auto. apply (gap_above i z); auto. }
             apply A' in Mi. apply (lt_asym' y v); auto.
          -- exfalso. apply N. destruct Lin as [<-|Lin]; auto. right. exists z; auto.
          -- destruct Lin as [Lz|Lin]; [|exists z; auto].
             exfalso. rewrite <- Lz in B. destruct Kx as (k & Hk & Mk).
             assert (Bk : Below k v) by (destruct Hk as [<-|Hk]; auto; apply (gap_below f k); auto).
             apply Bk in Mk. apply (lt_asym' x v); auto.
  Qed.

  Lemma lost_end_ext (S C C' : T -> Prop) v : (forall x, C x <-> C' x) -> lost_end S C v -> lost_end S C' v.
  Proof.
    intros H [[L (w & W1 & W2 & W3)]|[L (w & W1 & W2 & W3)]]; [left|right]; (split; [auto|]); exists w;
      (split; [auto|]); (split; [auto|]); intros; apply H; auto.
  Qed.

  Lemma GetGaps_span_spec srt l span : std_sort_contract srt -> Forall valid l -> no_tie l -> valid span ->
    exists r, GetGaps srt l span = Ok r /\ Forall valid r /\
      (forall v, covered r v <->
         mem span v /\ ~ covered l v /\ ~ lost_end (mem span) (covered l) v).
  Proof.
    intros Hs Hl Hn Hsp. destruct (Merge_sep srt l Hs Hl Hn) as (m & Em & Vm & _ & Cm & Sm).
    destruct (GetGaps_span srt l m span Em Vm Sm Hsp) as (r & Er & Vr & Cr).
    exists r. split; auto. split; auto. intros v. rewrite Cr, Cm.
    assert (lost_end (mem span) (covered m) v <-> lost_end (mem span) (covered l) v).
    { split; apply lost_end_ext; intros x; rewrite Cm; tauto. }
    tauto.
  Qed.

  Lemma GetGaps_nospan_spec srt l span : std_sort_contract srt -> Forall valid l -> no_tie l ->
    isDefined span = false ->
    exists r, GetGaps srt l span = Ok r /\ Forall valid r /\
      (forall v, covered r v <->
         ~ covered l v /\ (exists x, covered l x /\ lt x v) /\ (exists y, covered l y /\ lt v y)).
  Proof.
    intros Hs Hl Hn Hsp. destruct (Merge_sep srt l Hs Hl Hn) as (m & Em & Vm & _ & Cm & Sm).
    destruct (GetGaps_nospan srt l m span Em Vm Sm Hsp) as (r & Er & Vr & Cr).
    exists r. split; auto. split; auto. intros v. rewrite Cr, Cm. setoid_rewrite Cm. tauto.
  Qed.

  (** *** LogicalAnd *)
  Lemma hull_low a l v : Forall valid (a :: l) -> StronglySorted before (a :: l) -> covered (a :: l) v ->
    exists t lo up, a = mkI t (Some lo) (Some up) /\ abv (closed_left t) lo v = true.
  Proof.
    intros V S (i & Hi & Mi). pose proof (Forall_inv V) as Va.
    destruct (valid_inv a Va) as (t & lo & up & E & Ht & _). exists t, lo, up. split; auto.
    destruct Hi as [<-|Hi].
    - rewrite E in Mi. apply mem_cuts in Mi; tauto.
    - inversion S as [|? ? _ F]; subst. rewrite Forall_forall in F. destruct (F i Hi) as [(p & q & E1 & E2 & E3) _].
      cbn in E1. injection E1 as <-. pose proof (Forall_inv_tail V) as Vl. rewrite Forall_forall in Vl.
      destruct (valid_inv i (Vl i Hi)) as (ti & li & ui & -> & Hti & _). cbn in E2. injection E2 as ->.
      apply lb_le_mem in Mi; auto. unfold abv. assert (ltb lo v = true) as K by ord.
      rewrite K, (ltb_asym _ _ K). destruct (closed_left t); auto.
  Qed.

  Lemma hull_high a l v : Forall valid (a :: l) -> StronglySorted before (a :: l) -> covered (a :: l) v ->
    exists t lo up, last l a = mkI t (Some lo) (Some up) /\ blw (closed_right t) up v = true.
  Proof.
    intros V S (i & Hi & Mi).
    assert (Va : valid (last l a)) by (rewrite Forall_forall in V; apply V; apply last_in).
    destruct (valid_inv _ Va) as (t & lo & up & E & Ht & _). exists t, lo, up. split; auto.
    destruct (last_strong _ _ _ S i Hi) as [->|[_ (y & My & Ay)]].
    - rewrite E in Mi. apply mem_cuts in Mi; tauto.
    - rewrite E in My. apply mem_cuts in My; auto. apply (blw_down _ _ v y); [tauto|]. apply Ay; auto.
  Qed.

End Gaps.
