(** LogicalAnd (C11). *)

From Coq Require Import List Bool Permutation Sorted Lia.
From Verif Require Import Result DOrder OrderTac IntervalModel IntervalSpec IntervalProofs
  IntervalArrayProofs IntervalGapProofs.
Import ListNotations.

Section And.
  Context {D : DOrder}.
  Notation T := (car D).
  Notation interval := (interval D).
  Implicit Types (i j n c a b span : interval) (l r xs : list interval) (v x y w z : T) (srt : sorter D).

  Lemma covered_dec l v : Forall valid l -> covered l v \/ ~ covered l v.
  Proof.
    induction 1 as [|i l Hi Hl IH]; rewrite ?covered_nil, ?covered_cons; [tauto|].
    destruct IH as [IH|IH]; [auto|]. destruct (position i v Hi) as [P|[P|P]]; auto; right; intros [K|K]; auto.
    - apply (above_mem i v); auto.
    - apply (below_mem i v); auto.
  Qed.

  Lemma mem_near_low t (lo up : T) v : valid (mkI t (Some lo) (Some up)) -> ltb lo v = true ->
    exists y, mem (mkI t (Some lo) (Some up)) y /\ lt y v.
  Proof.
    intros V H. pose proof V as [Ht _]. destruct (position _ v V) as [P|[P|P]].
    - destruct (valid_nonempty _ V) as [y Hy]. exists y. split; auto.
    - destruct (ltb_dense D lo v H) as (y & Y1 & Y2). exists y. split; auto.
      apply mem_cuts in P; auto. apply mem_cuts; auto. split; [|apply (blw_down _ _ y v); tauto].
      unfold abv. rewrite Y1, (ltb_asym _ _ Y1). destruct (closed_left t); auto.
    - apply below_lb in P; auto. congruence.
  Qed.

  Lemma mem_near_high t (lo up : T) v : valid (mkI t (Some lo) (Some up)) -> ltb v up = true ->
    exists y, mem (mkI t (Some lo) (Some up)) y /\ lt v y.
  Proof.
    intros V H. pose proof V as [Ht _]. destruct (position _ v V) as [P|[P|P]].
    - exfalso. apply Above_cut in P; auto. unfold abv in P.
      destruct (closed_right t); cbn in P; rewrite ?negb_true_iff in P; ordc.
    - destruct (ltb_dense D v up H) as (y & Y1 & Y2). exists y. split; auto.
      apply mem_cuts in P; auto. apply mem_cuts; auto. split; [apply (abv_up _ _ v y); tauto|].
      unfold blw. rewrite Y2, (ltb_asym _ _ Y2). destruct (closed_right t); auto.
    - destruct (valid_nonempty _ V) as [y Hy]. exists y. split; auto.
  Qed.

  (** Summary of one merged, non-empty array: lower and upper cut of its hull. *)
  Definition hull (C : T -> Prop) (lo : T) (cl : bool) (up : T) (cu : bool) : Prop :=
    (forall x, C x -> abv cl lo x = true /\ blw cu up x = true) /\
    (forall v, ltb lo v = true -> exists y, C y /\ lt y v) /\
    (forall v, ltb v up = true -> exists y, C y /\ lt v y) /\
    (cl = true -> C lo) /\ (cu = true -> C up) /\ exists x, C x.

  Lemma merged_hull a l : Forall valid (a :: l) -> StronglySorted before (a :: l) ->
    exists t lo u t' lo' up, open_interval a = Ok (t, lo, u) /\ open_interval (last l a) = Ok (t', lo', up) /\
      hull (covered (a :: l)) lo (closed_left t) up (closed_right t').
  Proof.
    intros V S. pose proof (Forall_inv V) as Va.
    pose proof (last_in l a) as Li.
    assert (Vz : valid (last l a)) by (rewrite Forall_forall in V; auto).
    destruct (valid_inv a Va) as (t & lo & u & E & Ht & _).
    destruct (valid_inv _ Vz) as (t' & lo' & up & E' & Ht' & _).
    exists t, lo, u, t', lo', up.
    split; [rewrite E; apply open_interval_defined; auto|].
    split; [rewrite E'; apply open_interval_defined; auto|].
    assert (La : forall v, mem (mkI t (Some lo) (Some u)) v -> covered (a :: l) v)
      by (intros v M; exists a; split; [left; auto|rewrite E; auto]).
    assert (Lz : forall v, mem (mkI t' (Some lo') (Some up)) v -> covered (a :: l) v)
      by (intros v M; exists (last l a); split; [auto|rewrite E'; auto]).
    rewrite E in Va. rewrite E' in Vz.
    split; [|split; [|split; [|split; [|split]]]].
    - intros x Hx. split.
      + destruct (hull_low a l x V S Hx) as (t0 & lo0 & u0 & E0 & H0). rewrite E in E0.
        injection E0 as -> -> ->. auto.
      + destruct (hull_high a l x V S Hx) as (t0 & lo0 & u0 & E0 & H0). rewrite E' in E0.
        injection E0 as -> -> ->. auto.
    - intros v H. destruct (mem_near_low _ _ _ v Va H) as (y & Y1 & Y2). exists y; auto.
    - intros v H. destruct (mem_near_high _ _ _ v Vz H) as (y & Y1 & Y2). exists y; auto.
    - intros C. apply La. apply (least_abv t lo u); auto.
    - intros C. apply Lz. apply (greatest_blw t' lo' up); auto.
    - destruct (valid_nonempty _ Va) as [x Hx]. exists x; auto.
  Qed.

  Lemma hull_ge C lo cl up cu x : hull C lo cl up cu -> C x -> ltb x lo = false.
  Proof.
    intros H K. apply H in K. destruct K as [K _]. unfold abv in K.
    destruct cl; rewrite ?negb_true_iff in K; ord.
  Qed.
  Lemma hull_le C lo cl up cu x : hull C lo cl up cu -> C x -> ltb up x = false.
  Proof.
    intros H K. apply H in K. destruct K as [_ K]. unfold blw in K.
    destruct cu; rewrite ?negb_true_iff in K; ord.
  Qed.

  (** Ends of the span computed by LogicalAnd. *)
  Lemma low_end (A B : T -> Prop) la ca ua da lb cb ub db :
    hull A la ca ua da -> hull B lb cb ub db ->
    exists lo ol,
      (if ltb la lb then (la, if ca then false else true)
       else if gtb la lb then (lb, if cb then false else true)
       else (la, if ca && cb then false else true)) = (lo, ol) /\
      (forall x, A x -> B x -> abv (negb ol) lo x = true) /\
      (forall x, A x \/ B x -> ltb x lo = false) /\
      (ol = false -> la = lo -> ca = true) /\ (ol = false -> lb = lo -> cb = true) /\
      (ltb la lo = false) /\ (ltb lb lo = false) /\
      (forall v, ltb lo v = true -> exists y, (A y \/ B y) /\ lt y v).
  Proof.
    intros HA HB. unfold gtb.
    pose proof (fun x => hull_ge _ _ _ _ _ x HA) as GA. pose proof (fun x => hull_ge _ _ _ _ _ x HB) as GB.
    destruct HA as (A1 & A2 & _). destruct HB as (B1 & B2 & _).
    trich la lb; use_facts; eexists; eexists; (split; [reflexivity|]).
    - repeat split; use_facts; auto.
      + intros x Hx _. apply A1 in Hx. destruct ca; cbn; tauto.
      + intros x [Hx|Hx]; [auto|]. apply GB in Hx. ord.
      + destruct ca; auto; discriminate.
      + intros _ ->. rewrite ltb_irrefl in *. discriminate.
      + intros v Hv. destruct (A2 v Hv) as (y & Y1 & Y2). exists y; auto.
    - repeat split; use_facts; auto.
      + intros x Hx Hx'. apply A1 in Hx. apply B1 in Hx'. destruct ca, cb; cbn in *; tauto.
      + intros x [Hx|Hx]; auto.
      + destruct ca; auto; discriminate.
      + destruct ca, cb; auto; discriminate.
      + intros v Hv. destruct (A2 v Hv) as (y & Y1 & Y2). exists y; auto.
    - repeat split; use_facts; auto.
      + intros x _ Hx. apply B1 in Hx. destruct cb; cbn; tauto.
      + intros x [Hx|Hx]; [|auto]. apply GA in Hx. ord.
      + intros _ ->. rewrite ltb_irrefl in *. discriminate.
      + destruct cb; auto; discriminate.
      + intros v Hv. destruct (B2 v Hv) as (y & Y1 & Y2). exists y; auto.
  Qed.

  Lemma high_end (A B : T -> Prop) la ca ua da lb cb ub db :
    hull A la ca ua da -> hull B lb cb ub db ->
    exists up ou,
      (if gtb ua ub then (ua, if da then false else true)
       else if ltb ua ub then (ub, if db then false else true)
       else (ua, if da && db then false else true)) = (up, ou) /\
      (forall x, A x -> B x -> blw (negb ou) up x = true) /\
      (forall x, A x \/ B x -> ltb up x = false) /\
      (ou = false -> ua = up -> da = true) /\ (ou = false -> ub = up -> db = true) /\
      (ltb up ua = false) /\ (ltb up ub = false) /\
      (forall v, ltb v up = true -> exists y, (A y \/ B y) /\ lt v y).
  Proof.
    intros HA HB. unfold gtb.
    pose proof (fun x => hull_le _ _ _ _ _ x HA) as GA. pose proof (fun x => hull_le _ _ _ _ _ x HB) as GB.
    destruct HA as (A1 & _ & A2 & _). destruct HB as (B1 & _ & B2 & _).
    trich ub ua; use_facts; eexists; eexists; (split; [reflexivity|]).
    - repeat split; use_facts; auto.
      + intros x Hx _. apply A1 in Hx. destruct da; cbn; tauto.
      + intros x [Hx|Hx]; [auto|]. apply GB in Hx. ord.
      + destruct da; auto; discriminate.
      + intros _ ->. rewrite ltb_irrefl in *. discriminate.
      + intros v Hv. destruct (A2 v Hv) as (y & Y1 & Y2). exists y; auto.
    - repeat split; use_facts; auto.
      + intros x Hx Hx'. apply A1 in Hx. apply B1 in Hx'. destruct da, db; cbn in *; tauto.
      + intros x [Hx|Hx]; auto.
      + destruct da; auto; discriminate.
      + destruct da, db; auto; discriminate.
      + intros v Hv. destruct (A2 v Hv) as (y & Y1 & Y2). exists y; auto.
    - repeat split; use_facts; auto.
      + intros x _ Hx. apply B1 in Hx. destruct db; cbn; tauto.
      + intros x [Hx|Hx]; [|auto]. apply GA in Hx. ord.
      + intros _ ->. rewrite ltb_irrefl in *. discriminate.
      + destruct db; auto; discriminate.
      + intros v Hv. destruct (B2 v Hv) as (y & Y1 & Y2). exists y; auto.
  Qed.

  (** No end of the computed span is lost when taking the gaps of one array. *)
  Lemma no_lost C lo cl up cu t (slo sup : T) v :
    hull C lo cl up cu -> valid (mkI t (Some slo) (Some sup)) ->
    ltb lo slo = false -> ltb sup up = false ->
    (closed_left t = true -> lo = slo -> cl = true) ->
    (closed_right t = true -> up = sup -> cu = true) ->
    ~ C v -> ~ lost_end (mem (mkI t (Some slo) (Some sup))) C v.
  Proof.
    intros H V Hlo Hup Kl Ku Nv. 
    pose proof (fun x => hull_ge _ _ _ _ _ x H) as GL. pose proof (fun x => hull_le _ _ _ _ _ x H) as GU.
    destruct H as (H1 & H2 & H3 & H4 & H5 & _).
    intros [[L (w & W1 & W2 & W3)]|[L (w & W1 & W2 & W3)]].
    - apply least_abv in L; auto. destruct L as [-> Cl].
      destruct (ltb slo lo) eqn:E.
      + destruct (ltb_dense D slo (std_min lo w)) as (z & Z1 & Z2).
        { unfold std_min. destruct (ltb w lo); auto. }
        assert (Z3 : ltb z lo = true /\ ltb z w = true).
        { unfold std_min in Z2. destruct (ltb w lo) eqn:E'; split; ord. }
        destruct Z3 as [Z3 Z4].
        assert (K : C z) by (apply W3; auto; unfold le; ord). apply GL in K. congruence.
      + assert (lo = slo) as -> by (apply ltb_total; auto). auto.
    - apply greatest_blw in L; auto. destruct L as [-> Cl].
      destruct (ltb up sup) eqn:E.
      + destruct (ltb_dense D (std_max up w) sup) as (z & Z1 & Z2).
        { unfold std_max. destruct (ltb up w); auto. }
        assert (Z3 : ltb up z = true /\ ltb w z = true).
        { unfold std_max in Z1. destruct (ltb up w) eqn:E'; split; ord. }
        destruct Z3 as [Z3 Z4].
        assert (K : C z) by (apply W3; auto; unfold le; ord). apply GU in K. congruence.
      + assert (up = sup) as -> by (apply ltb_total; auto). auto.
  Qed.

  Lemma LogicalAnd_spec srt la lb : std_sort_contract srt -> Forall valid la -> Forall valid lb ->
    exists r, LogicalAnd srt la lb = Ok r /\ Forall valid r /\
      (forall v, covered r v <->
         covered la v /\ covered lb v /\ ~ lost_point (covered la) (covered lb) v).
  Proof.
    intros Hs HA HB.
    destruct (Merge_before srt la Hs HA) as (sa & Ea & Va & Na & Ca & Sa).
    destruct (Merge_before srt lb Hs HB) as (sb & Eb & Vb & Nb & Cb & Sb).
    unfold LogicalAnd. rewrite Ea, Eb. cbn [bind].
    destruct sa as [|fa ra].
    { exists []. split; auto. split; auto. intros v. rewrite <- (Ca v), !covered_nil. tauto. }
    destruct sb as [|fb rb].
    { exists []. split; auto. split; auto. intros v. rewrite <- (Cb v), !covered_nil. tauto. }
    destruct (merged_hull fa ra Va Sa) as (tfa & lfa & ufa & tza & lza & uza & Efa & Eza & HullA).
    destruct (merged_hull fb rb Vb Sb) as (tfb & lfb & ufb & tzb & lzb & uzb & Efb & Ezb & HullB).
    rewrite Efa, Efb, Eza, Ezb. cbn [bind].
    destruct (low_end _ _ _ _ _ _ _ _ _ _ HullA HullB) as (lo & ol & -> & L1 & L2 & L3 & L4 & L5 & L6 & L7).
    destruct (high_end _ _ _ _ _ _ _ _ _ _ HullA HullB) as (up & ou & -> & U1 & U2 & U3 & U4 & U5 & U6 & U7).
    set (A := covered (fa :: ra)) in *. set (B := covered (fb :: rb)) in *.
    assert (NA : exists x, A x) by (apply HullA). assert (NB : exists x, B x) by (apply HullB).
    assert (Hne : ltb lo up = true \/ lo = up /\ ol = false /\ ou = false).
    { destruct NA as [x Hx]. destruct NB as [y Hy].
      pose proof (L2 x (or_introl Hx)) as X1. pose proof (U2 x (or_introl Hx)) as X2.
      pose proof (L2 y (or_intror Hy)) as Y1. pose proof (U2 y (or_intror Hy)) as Y2.
      destruct (ltb lo up) eqn:E; auto. right.
      assert (lo = up) as -> by (apply ltb_total; auto; ord).
      assert (x = up) as -> by (apply ltb_total; auto). assert (y = up) as -> by (apply ltb_total; auto).
      pose proof (L1 up Hx Hy) as K1. pose proof (U1 up Hx Hy) as K2. unfold abv, blw in *.
      rewrite !ltb_irrefl in *. split; auto. destruct ol, ou; auto; discriminate. }
    destruct (buildInterval_spec lo ol up ou) as (t & Et & Ht & Cl & Cu & Vs); auto.
    rewrite Et. cbn [bind]. set (span := mkI t (Some lo) (Some up)) in *.
    assert (Ms : forall v, mem span v <-> abv (negb ol) lo v = true /\ blw (negb ou) up v = true).
    { intros v. unfold span. rewrite mem_cuts, Cl, Cu by auto. tauto. }
    (* gaps of each array *)
    destruct (GetGaps_span_spec srt (fa :: ra) span Hs Va (before_no_tie _ Sa) Vs) as (ga & Ega & Vga & Cga).
    destruct (GetGaps_span_spec srt (fb :: rb) span Hs Vb (before_no_tie _ Sb) Vs) as (gb & Egb & Vgb & Cgb).
    assert (Xga : forall v, covered ga v <-> mem span v /\ ~ A v).
    { intros v. rewrite Cga. fold A. split; [tauto|]. intros [M N]. split; auto. split; auto.
      unfold span. refine (no_lost _ _ _ _ _ _ _ _ _ HullA Vs _ _ _ _ N); auto.
      - rewrite Cl. destruct ol; auto; discriminate.
      - rewrite Cu. destruct ou; auto; discriminate. }
    assert (Xgb : forall v, covered gb v <-> mem span v /\ ~ B v).
    { intros v. rewrite Cgb. fold B. split; [tauto|]. intros [M N]. split; auto. split; auto.
      unfold span. refine (no_lost _ _ _ _ _ _ _ _ _ HullB Vs _ _ _ _ N); auto.
      - rewrite Cl. destruct ol; auto; discriminate.
      - rewrite Cu. destruct ou; auto; discriminate. }
    rewrite Ega, Egb. cbn [bind]. unfold LogicalOr.
    destruct (Merge_before srt (ga ++ gb) Hs) as (o & Eo & Vo & No & Co & So); [apply Forall_app; auto|].
    rewrite Eo. cbn [bind].
    destruct (GetGaps_span_spec srt o span Hs Vo (before_no_tie _ So) Vs) as (r & Er & Vr & Cr).
    exists r. split; auto. split; auto. intros v. rewrite Cr, <- Ca, <- Cb.
    assert (DA : forall v, A v \/ ~ A v) by (intros; apply covered_dec; auto).
    assert (DB : forall v, B v \/ ~ B v) by (intros; apply covered_dec; auto).
    assert (Xo : forall v, covered o v <-> mem span v /\ ~ (A v /\ B v)).
    { intros x. rewrite Co, covered_app, Xga, Xgb. specialize (DA x). specialize (DB x). clear - DA DB. tauto. }
    assert (Span : forall x, A x -> B x -> mem span x) by (intros x Hx Hy; apply Ms; split; auto).
    assert (Lost : A v -> B v -> (lost_end (mem span) (covered o) v <-> lost_point (covered la) (covered lb) v)).
    { intros Av Bv. unfold lost_point.
      assert (RU : forall x, (covered la x \/ covered lb x) <-> (A x \/ B x)) by (intros; rewrite Ca, Cb; reflexivity).
      assert (RI : forall x, (covered la x /\ covered lb x) <-> (A x /\ B x)) by (intros; rewrite Ca, Cb; reflexivity).
      assert (Mv : mem span v) by auto.
      split.
      - intros [[L (w & W1 & W2 & W3)]|[L (w & W1 & W2 & W3)]].
        + left. split.
          * split; [apply RU; auto|]. intros x Hx. apply RU in Hx. apply L2 in Hx.
            apply (proj1 (least_abv t lo up v Vs)) in L. destruct L as [-> _]. auto.
          * exists w. split; auto. split.
            -- pose proof W2 as W2'. apply Ms in W2. destruct W2 as [_ W2].
               destruct (ltb w up) eqn:Ew.
               ++ destruct (U7 w Ew) as (z & Z1 & Z2). exists z. split; [apply RU; auto|]. apply le_iff; auto.
               ++ unfold blw in W2. destruct ou; cbn in W2; [congruence|]. apply negb_true_iff in W2.
                  assert (w = up) as -> by (apply ltb_total; auto).
                  assert (K : A up \/ B up).
                  { pose proof HullA as (_ & _ & _ & _ & HA5 & _). pose proof HullB as (_ & _ & _ & _ & HB5 & _).
                    destruct (ltb uza up) eqn:K1; [destruct (ltb uzb up) eqn:K2|].
                    - exfalso. destruct (ltb_dense D _ _ W1) as (m & M1 & M2).
                      destruct (ltb_dense D (std_max uza uzb) up) as (q & Q1 & Q2).
                      { unfold std_max. destruct (ltb uza uzb); auto. }
                      destruct (U7 q Q2) as (y & Y1 & Y2). 
                      assert (ltb uza q = true /\ ltb uzb q = true) as [Q3 Q4].
                      { unfold std_max in Q1. destruct (ltb uza uzb) eqn:E'; split; ord. }
                      destruct Y1 as [Y1|Y1].
                      + apply (hull_le _ _ _ _ _ _ HullA) in Y1. unfold lt in *. ordc.
                      + apply (hull_le _ _ _ _ _ _ HullB) in Y1. unfold lt in *. ordc.
                    - right. assert (uzb = up) as E0 by (apply ltb_total; auto). rewrite <- E0 at 1. auto.
                    - left. assert (uza = up) as E0 by (apply ltb_total; auto). rewrite <- E0 at 1. auto. }
                  exists up. split; [apply RU; auto|]. unfold le. apply ltb_irrefl.
            -- intros x X1 X2. rewrite RI. apply Xo. apply W3; auto.
        + right. split.
          * split; [apply RU; auto|]. intros x Hx. apply RU in Hx. apply U2 in Hx.
            apply (proj1 (greatest_blw t lo up v Vs)) in L. destruct L as [-> _]. auto.
          * exists w. split; auto. split.
            -- pose proof W2 as W2'. apply Ms in W2. destruct W2 as [W2 _].
               destruct (ltb lo w) eqn:Ew.
               ++ destruct (L7 w Ew) as (z & Z1 & Z2). exists z. split; [apply RU; auto|]. apply le_iff; auto.
               ++ unfold abv in W2. destruct ol; cbn in W2; [congruence|]. apply negb_true_iff in W2.
                  assert (w = lo) as -> by (apply ltb_total; auto).
                  assert (K : A lo \/ B lo).
                  { pose proof HullA as (_ & _ & _ & HA5 & _). pose proof HullB as (_ & _ & _ & HB5 & _).
                    destruct (ltb lo lfa) eqn:K1; [destruct (ltb lo lfb) eqn:K2|].
                    - exfalso.
                      destruct (ltb_dense D lo (std_min lfa lfb)) as (q & Q1 & Q2).
                      { unfold std_min. destruct (ltb lfb lfa); auto. }
                      destruct (L7 q Q1) as (y & Y1 & Y2). 
                      assert (ltb q lfa = true /\ ltb q lfb = true) as [Q3 Q4].
                      { unfold std_min in Q2. destruct (ltb lfb lfa) eqn:E'; split; ord. }
                      destruct Y1 as [Y1|Y1].
                      + apply (hull_ge _ _ _ _ _ _ HullA) in Y1. unfold lt in *. ordc.
                      + apply (hull_ge _ _ _ _ _ _ HullB) in Y1. unfold lt in *. ordc.
                    - right. assert (lfb = lo) as E0 by (apply ltb_total; auto). rewrite <- E0 at 1. auto.
                    - left. assert (lfa = lo) as E0 by (apply ltb_total; auto). rewrite <- E0 at 1. auto. }
                  exists lo. split; [apply RU; auto|]. unfold le. apply ltb_irrefl.
            -- intros x X1 X2. rewrite RI. apply Xo. apply W3; auto.
      - intros [[[_ L] (w & W1 & (z & Z1 & Z2) & W3)]|[[_ L] (w & W1 & (z & Z1 & Z2) & W3)]].
        + assert (v = lo) as ->.
          { pose proof (L2 v (or_introl Av)) as K. destruct (ltb lo v) eqn:E; [|apply ltb_total; auto].
            exfalso. destruct (L7 v E) as (y & Y1 & Y2). apply RU in Y1. apply L in Y1. unfold le, lt in *. congruence. }
          left. split.
          * unfold span. apply least_abv; auto. split; auto. rewrite Cl.
            specialize (L1 lo Av Bv). unfold abv in L1. destruct ol; auto. cbn in L1. rewrite ltb_irrefl in L1. discriminate.
          * destruct (ltb_dense D _ _ W1) as (m & M1 & M2).
            assert (Sp : forall x, lt lo x -> le x m -> mem span x).
            { intros x X1 X2. apply Ms. split; [apply (abv_up _ _ lo x); auto; apply L1; auto|].
              apply RU in Z1. apply U2 in Z1. unfold lt, le in *.
              assert (K1 : ltb x w = true) by ord. assert (K2 : ltb x z = true) by ord. assert (K3 : ltb x up = true) by ord.
              unfold blw. rewrite K3, (ltb_asym _ _ K3). destruct (negb ou); auto. }
            exists m. split; auto. split; [apply Sp; auto; unfold le; apply ltb_irrefl|].
            intros x X1 X2. apply Xo. split; auto. rewrite <- RI. apply W3; auto. unfold le, lt in *. ord.
        + assert (v = up) as ->.
          { pose proof (U2 v (or_introl Av)) as K. destruct (ltb v up) eqn:E; [|apply ltb_total; auto].
            exfalso. destruct (U7 v E) as (y & Y1 & Y2). apply RU in Y1. apply L in Y1. unfold le, lt in *. congruence. }
          right. split.
          * unfold span. apply greatest_blw; auto. split; auto. rewrite Cu.
            specialize (U1 up Av Bv). unfold blw in U1. destruct ou; auto. cbn in U1. rewrite ltb_irrefl in U1. discriminate.
          * destruct (ltb_dense D _ _ W1) as (m & M1 & M2).
            assert (Sp : forall x, lt x up -> le m x -> mem span x).
            { intros x X1 X2. apply Ms. split; [|apply (blw_down _ _ x up); auto; apply U1; auto].
              apply RU in Z1. apply L2 in Z1. unfold lt, le in *.
              assert (K1 : ltb w x = true) by ord. assert (K2 : ltb z x = true) by ord. assert (K3 : ltb lo x = true) by ord.
              unfold abv. rewrite K3, (ltb_asym _ _ K3). destruct (negb ol); auto. }
            exists m. split; auto. split; [apply Sp; auto; unfold le; apply ltb_irrefl|].
            intros x X1 X2. apply Xo. split; auto. rewrite <- RI. apply W3; auto. unfold le, lt in *. ord. }
    rewrite Xo. specialize (DA v). specialize (DB v). specialize (Span v).
    assert (DAB : (A v /\ B v) \/ ~ (A v /\ B v)) by (clear - DA DB; tauto).
    split.
    - intros (M & N & NL). assert (A v /\ B v) as [Av Bv] by tauto. rewrite <- Lost by auto. auto.
    - intros (Av & Bv & NL). rewrite <- Lost in NL by auto. tauto.
  Qed.

  (** Without degenerate input intervals nothing is lost. *)
  Lemma LogicalAnd_exact srt la lb : std_sort_contract srt -> Forall valid la -> Forall valid lb ->
    (forall i, In i (la ++ lb) -> ~ degenerate i) ->
    exists r, LogicalAnd srt la lb = Ok r /\ Forall valid r /\
      (forall v, covered r v <-> covered la v /\ covered lb v).
  Proof.
    intros Hs HA HB ND. destruct (LogicalAnd_spec srt la lb Hs HA HB) as (r & Er & Vr & Cr).
    exists r. split; auto. split; auto. intros v. rewrite Cr. split; [tauto|].
    intros [(a & Ha & Ma) (b & Hb & Mb)]. split; [exists a; auto|]. split; [exists b; auto|].
    assert (Two : forall i, valid i -> ~ degenerate i -> forall x, mem i x -> exists y, mem i y /\ (lt x y \/ lt y x)).
    { intros i Vi Nd x Hx. destruct (valid_inv i Vi) as (t & lo & up & -> & Ht & [K|[-> ->]]).
      - destruct (ltb lo x) eqn:E1.
        + destruct (mem_near_low t lo up x Vi E1) as (y & Y1 & Y2). exists y; auto.
        + assert (K2 : ltb x up = true) by ord.
          destruct (mem_near_high t lo up x Vi K2) as (y & Y1 & Y2). exists y; auto.
      - exfalso. apply Nd. exists up. intros y. rewrite mem_cuts by auto. cbn. rewrite !negb_true_iff. split.
        + intros [H1 H2]. apply ltb_total; auto.
        + intros ->. rewrite ltb_irrefl. auto. }
    rewrite Forall_forall in HA, HB.
    destruct (Two a (HA a Ha) (ND a (in_or_app _ _ _ (or_introl Ha))) v Ma) as (ya & Ya & Oa).
    destruct (Two b (HB b Hb) (ND b (in_or_app _ _ _ (or_intror Hb))) v Mb) as (yb & Yb & Ob).
    intros [[[_ L] (w & W1 & _ & W3)]|[[_ L] (w & W1 & _ & W3)]].
    - assert (lt v ya) as La.
      { destruct Oa as [|Oa]; auto. assert (K : le v ya) by (apply L; left; exists a; auto). unfold le, lt in *. congruence. }
      assert (lt v yb) as Lb.
      { destruct Ob as [|Ob]; auto. assert (K : le v yb) by (apply L; right; exists b; auto). unfold le, lt in *. congruence. }
      destruct (min_le ya yb) as (M1 & M2 & M3). destruct (min_le w (std_min ya yb)) as (M4 & M5 & M6).
      set (m := std_min w (std_min ya yb)) in *.
      assert (Lm : lt v m) by (destruct M6 as [-> | ->]; auto; destruct M3 as [-> | ->]; auto).
      apply (W3 m); auto. split; [exists a|exists b]; (split; [auto|]).
      + pose proof (le_trans _ _ _ M5 M1) as K. apply le_iff in K. destruct K as [K| ->]; auto.
        apply (mem_convex a v m ya); auto.
      + pose proof (le_trans _ _ _ M5 M2) as K. apply le_iff in K. destruct K as [K| ->]; auto.
        apply (mem_convex b v m yb); auto.
    - assert (lt ya v) as La.
      { destruct Oa as [Oa|]; auto. assert (K : le ya v) by (apply L; left; exists a; auto). unfold le, lt in *. congruence. }
      assert (lt yb v) as Lb.
      { destruct Ob as [Ob|]; auto. assert (K : le yb v) by (apply L; right; exists b; auto). unfold le, lt in *. congruence. }
      destruct (max_le ya yb) as (M1 & M2 & M3). destruct (max_le w (std_max ya yb)) as (M4 & M5 & M6).
      set (m := std_max w (std_max ya yb)) in *.
      assert (Lm : lt m v) by (destruct M6 as [-> | ->]; auto; destruct M3 as [-> | ->]; auto).
      apply (W3 m); auto. split; [exists a|exists b]; (split; [auto|]).
      + pose proof (le_trans _ _ _ M1 M5) as K. apply le_iff in K. destruct K as [K| <-]; auto.
        apply (mem_convex a ya m v); auto.
      + pose proof (le_trans _ _ _ M2 M5) as K. apply le_iff in K. destruct K as [K| <-]; auto.
        apply (mem_convex b yb m v); auto.
  Qed.
End And.
