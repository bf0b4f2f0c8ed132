(** Proofs about the numerical solver: integration over arrays of times. *)

From Coq Require Import List Bool Reals Lra Lia Psatz.
From Verif Require Import Result DOrder RotModel RotProofs SolverModel SolverSpec.
Import ListNotations.
Local Open Scope R_scope.

Lemma sense_sq s : sense s -> s * s = 1.
Proof. intros [-> | ->]; ring. Qed.
Lemma sense_mul s a : sense s -> s * (s * a) = a.
Proof. intros H. rewrite <- Rmult_assoc, (sense_sq s H). ring. Qed.
Lemma pos_true x : 0 < x -> Rltb 0 x = true.
Proof. intros H. apply Rltb_true. exact H. Qed.
Lemma pos_false x : x <= 0 -> Rltb 0 x = false.
Proof. intros H. apply Rltb_false. exact H. Qed.
Lemma less_sign_sense e s dt t1 t2 : sense s -> 0 < s * dt -> less_sign e dt t1 t2 = Rltb e (s * (t2 - t1)).
Proof.
  intros [-> | ->] H; unfold less_sign; [rewrite pos_true by lra | rewrite pos_false by lra]; f_equal; ring.
Qed.
Lemma less_eq_sign_sense e s dt t1 t2 : sense s -> 0 < s * dt -> less_eq_sign e dt t1 t2 = Rleb (s * (t1 - t2)) e.
Proof.
  intros [-> | ->] H; unfold less_eq_sign; [rewrite pos_true by lra | rewrite pos_false by lra]; f_equal; ring.
Qed.
Lemma Rmax_opp a b : Rmax (- a) (- b) = - Rmin a b.
Proof. unfold Rmax, Rmin. destruct (Rle_dec (- a) (- b)), (Rle_dec a b); lra. Qed.
Lemma Rmin_opp a b : Rmin (- a) (- b) = - Rmax a b.
Proof. unfold Rmax, Rmin. destruct (Rle_dec (- a) (- b)), (Rle_dec a b); lra. Qed.
Lemma min_abs_sense s h d : sense s -> 0 < h -> min_abs (s * h) d = s * Rmin h (s * d).
Proof.
  intros [-> | ->] H; unfold min_abs; [rewrite pos_true by lra; rewrite !Rmult_1_l; reflexivity |].
  rewrite pos_false by lra. replace d with (- - d) at 1 by ring. replace (- 1 * h) with (- h) by ring. rewrite Rmax_opp.
  replace (- 1 * d) with (- d) by ring. ring.
Qed.
Lemma max_abs_pos s a b : sense s -> 0 < s * a -> 0 < s * b -> 0 < s * max_abs a b.
Proof.
  intros [-> | ->] A B; unfold max_abs; [rewrite pos_true by lra; pose proof (Rmax_l a b); lra |].
  rewrite pos_false by lra. pose proof (Rmin_l a b). lra.
Qed.
Lemma min_abs_pos s a d : sense s -> 0 < s * a -> 0 < s * d -> 0 < s * min_abs a d <= s * d.
Proof.
  intros H A D. rewrite <- (sense_mul s a H), min_abs_sense by assumption. rewrite sense_mul by assumption.
  split; [unfold Rmin; destruct Rle_dec; lra | apply Rmin_r].
Qed.
Lemma keeps_sense s a b : sense s -> keeps_sign a b -> 0 < s * a -> 0 < s * b.
Proof. intros [-> | ->] (P & N & _) H; [pose proof (P ltac:(lra)); lra | pose proof (N ltac:(lra)); lra]. Qed.

Lemma sense_abs s a : sense s -> Rabs a = Rabs (s * a).
Proof. intros [-> | ->]; rewrite Rabs_mult; [rewrite Rabs_R1 | rewrite (Rabs_left (- 1)) by lra]; ring. Qed.
Lemma sense_within s a e : sense s -> 0 <= s * a <= e -> Rabs a <= e.
Proof. intros H A. rewrite (sense_abs s a H). apply Rabs_le. lra. Qed.
Lemma reqb_ne a b : a <> b -> Reqb a b = false.
Proof. intros H. unfold Reqb. destruct Req_EM_T; [contradiction | reflexivity]. Qed.
Section Runs.
Context {X : Type} (step : X -> R -> R -> X -> Prop) (s : R).
Lemma run_trans x t y u z v : run step s x t y u -> run step s y u z v -> run step s x t z v.
Proof. intros H. induction H; intros K; [exact K |]. eapply run_step; eauto. Qed.
Lemma run_one x t dt y : 0 < s * dt -> step x t dt y -> run step s x t y (t + dt).
Proof. intros A B. eapply run_step; [exact A | exact B | apply run_here]. Qed.
Lemma run_cast x t y u v : run step s x t y u -> u = v -> run step s x t y v.
Proof. intros H <-. exact H. Qed.
Lemma run_follows c x t y u : follows step c -> run step s x t y u -> x = c t -> y = c u.
Proof. intros F H. induction H; intros E; [exact E |]. apply IHrun. apply (F x t); assumption. Qed.
Lemma exact_legs_follow c : follows step c -> forall l x t, exact_legs step s x t l -> x = c t -> forall y u, In (y, u) l -> y = c u.
Proof.
  intros F. induction l as [| [y u] l IH]; intros x t H E y' u' I; [destruct I |]. destruct H as [H1 H2].
  pose proof (run_follows c x t y u F H1 E) as E'. destruct I as [I | I]; [congruence |]. apply (IH y u H2 E' y' u' I).
Qed.
End Runs.

(** *** runge_kutta4 towards a time *)
Section Simple.
Context {X : Type} (e : R) (g : engine X) (s h : R).
Hypothesis He : 0 <= e.
Hypothesis Hs : sense s.
Hypothesis Hh : 0 < h.
Let step := accepts g RungeKutta4.
Lemma to_time_run n x t target c : 0 < s * c -> 0 <= s * (target - t) -> s * (target - t) <= INR n * h ->
  exists y c', 0 < s * c' /\ (forall m, (n + 1 <= m)%nat -> to_time e g m x t target (s * h) c = Ok (y, c'))
    /\ exists u, 0 <= s * (target - u) <= e /\ run step s x t y u.
Proof.
  revert x t c. induction n as [| n IH]; intros x t c Hc Hd Hn.
  - exists x, c. split; [exact Hc |]. cbn in Hn. split; [| exists t; split; [lra | apply run_here]].
    intros m Hm. destruct m as [| m]; [lia |]. cbn [to_time]. rewrite (less_sign_sense e s c) by assumption.
    rewrite (proj2 (Rltb_false _ _)) by lra. reflexivity.
  - destruct (Rlt_dec e (s * (target - t))) as [L | L].
    + set (c1 := min_abs (s * h) (target - t)).
      assert (E : c1 = s * Rmin h (s * (target - t))) by (apply min_abs_sense; assumption).
      assert (E' : s * c1 = Rmin h (s * (target - t))) by (rewrite E; apply sense_mul; assumption).
      assert (P : 0 < s * c1) by (rewrite E'; unfold Rmin; destruct Rle_dec; lra).
      assert (D : s * (target - (t + c1)) = s * (target - t) - s * c1) by ring.
      rewrite S_INR in Hn. assert (Pn := pos_INR n).
      destruct (IH (rk4_step g x t c1) (t + c1) c1 P) as (y & c' & Hc' & F & u & U & Ru).
      { rewrite D, E'. pose proof (Rmin_r h (s * (target - t))). lra. }
      { rewrite D, E'. unfold Rmin. destruct Rle_dec; [lra |]. nra. }
      exists y, c'. split; [exact Hc' |]. split; [| exists u; split; [exact U |]; eapply run_step; [exact P | reflexivity | exact Ru]].
      intros m Hm. destruct m as [| m]; [lia |]. cbn [to_time]. rewrite (less_sign_sense e s c) by assumption.
      rewrite (proj2 (Rltb_true _ _)) by lra. fold c1. apply F. lia.
    + exists x, c. split; [exact Hc |]. split; [| exists t; split; [lra | apply run_here]].
      intros m Hm. destruct m as [| m]; [lia |]. cbn [to_time]. rewrite (less_sign_sense e s c) by assumption.
      rewrite (proj2 (Rltb_false _ _)) by lra. reflexivity.
Qed.
Lemma enough d : exists n, d <= INR n * h.
Proof.
  destruct (archimed (d / h)) as [A _]. exists (Z.to_nat (up (d / h))). rewrite INR_IZR_INZ.
  destruct (Z_le_gt_dec 0 (up (d / h))) as [P | P].
  - rewrite Z2Nat.id by assumption. assert (E : d = d / h * h) by (field; lra). apply (Rmult_gt_compat_r h) in A; [| exact Hh]. lra.
  - replace (Z.to_nat (up (d / h))) with O by lia. cbn. apply Z.gt_lt, IZR_lt in P. assert (E : d = d / h * h) by (field; lra).
    assert (N : d / h < 0) by lra. apply (Rmult_lt_compat_r h) in N; [| exact Hh]. lra.
Qed.
Lemma times_run : forall times x t c, 0 < s * c -> ordered s t times ->
  exists N l y, (forall fuel, (N <= fuel)%nat -> times_simple e fuel g x t times (s * h) c = ((x, t) :: l, Ok y)) /\ map snd l = times /\ legs step s e x t l.
Proof.
  induction times as [| target times IH]; intros x t c Hc Ho.
  - exists 0%nat, [], x. split; [reflexivity |]. split; [reflexivity | exact I].
  - destruct Ho as [O1 O2]. destruct (enough (s * (target - t))) as [n Hn].
    destruct (to_time_run n x t target c Hc O1 Hn) as (y & c' & Hc' & F & u & U & Ru).
    destruct (IH y target c' Hc' O2) as (N & l & z & G & M & L).
    exists (Nat.max N (n + 1)), ((y, target) :: l), z. split; [| split; [cbn; rewrite M; reflexivity | split; [exists u; split; [apply (sense_within s); assumption | assumption] | exact L]]].
    intros fuel Hf. cbn [times_simple]. rewrite F by lia. rewrite G by lia. reflexivity.
Qed.
(** When the rest is none or larger than the tolerance, the time is reached exactly. *)
Lemma to_time_exact r target : r = 0 \/ e < r < h -> forall n x t c, 0 < s * c -> s * (target - t) = INR n * h + r -> e < h ->
  exists y c', 0 < s * c' /\ (forall m, (n + 2 <= m)%nat -> to_time e g m x t target (s * h) c = Ok (y, c')) /\ run step s x t y target.
Proof.
  intros Hr. induction n as [| n IH]; intros x t c Hc D Hl.
  - cbn in D. destruct Hr as [-> | Hr].
    + exists x, c. split; [exact Hc |]. split.
      * intros m Hm. destruct m as [| m]; [lia |]. cbn [to_time]. rewrite (less_sign_sense e s c) by assumption. rewrite (proj2 (Rltb_false _ _)) by lra. reflexivity.
      * apply (run_cast _ _ _ _ _ t); [apply run_here |]. apply (f_equal (Rmult s)) in D. rewrite sense_mul in D by assumption. lra.
    + set (c1 := min_abs (s * h) (target - t)).
      assert (E : c1 = target - t). { unfold c1. rewrite min_abs_sense by assumption. rewrite Rmin_right by lra. apply sense_mul. exact Hs. }
      assert (P : 0 < s * c1) by (rewrite E; lra). exists (rk4_step g x t c1), c1. split; [exact P |]. split.
      * intros m Hm. destruct m as [| [| m]]; [lia | lia |]. cbn [to_time]. rewrite (less_sign_sense e s c) by assumption. rewrite (proj2 (Rltb_true _ _)) by lra. fold c1.
        rewrite (less_sign_sense e s c1) by assumption. rewrite (proj2 (Rltb_false _ _)); [reflexivity |]. rewrite E. replace (s * (target - (t + (target - t)))) with 0 by ring. exact He.
      * apply (run_cast _ _ _ _ _ (t + c1)); [apply run_one; [exact P | reflexivity] | rewrite E; ring].
  - rewrite S_INR in D. assert (Pn := pos_INR n). assert (Pr : 0 <= r) by lra. assert (Pm : 0 <= INR n * h) by (apply Rmult_le_pos; lra).
    set (c1 := min_abs (s * h) (target - t)).
    assert (E : c1 = s * h). { unfold c1. rewrite min_abs_sense by assumption. rewrite Rmin_left by lra. reflexivity. }
    assert (E' : s * c1 = h) by (rewrite E; apply sense_mul; exact Hs).
    destruct (IH (rk4_step g x t c1) (t + c1) c1) as (y & c' & Hc' & F & Ru); [lra | | exact Hl |].
    { replace (s * (target - (t + c1))) with (s * (target - t) - s * c1) by ring. rewrite D, E'. ring. }
    exists y, c'. split; [exact Hc' |]. split; [| eapply run_step; [| reflexivity | exact Ru]; lra].
    intros m Hm. destruct m as [| m]; [lia |]. cbn [to_time]. rewrite (less_sign_sense e s c) by assumption. rewrite (proj2 (Rltb_true _ _)) by lra. fold c1. apply F. lia.
Qed.
Lemma times_exact : e < h -> forall times x t c, 0 < s * c -> all_fit s h e t times ->
  exists N l y, (forall fuel, (N <= fuel)%nat -> times_simple e fuel g x t times (s * h) c = ((x, t) :: l, Ok y)) /\ map snd l = times /\ exact_legs step s x t l.
Proof.
  intros Hl. induction times as [| target times IH]; intros x t c Hc Ho.
  - exists 0%nat, [], x. split; [reflexivity |]. split; [reflexivity | exact I].
  - destruct Ho as [(n & r & D & Hr) O2].
    destruct (to_time_exact r target ltac:(lra) n x t c Hc D Hl) as (y & c' & Hc' & F & Ru).
    destruct (IH y target c' Hc' O2) as (N & l & z & G & M & L).
    exists (Nat.max N (n + 2)), ((y, target) :: l), z. split; [| split; [cbn; rewrite M; reflexivity | split; [exact Ru | exact L]]].
    intros fuel Hf. cbn [times_simple]. rewrite F by lia. rewrite G by lia. reflexivity.
Qed.
End Simple.

(** *** Controlled steppers towards a time *)
Section Controlled.
Context {X : Type} (e : R) (g : engine X) (k : stepper_type) (s : R).
Hypothesis He : 0 <= e.
Hypothesis Hs : sense s.
Hypothesis Hk : k <> RungeKutta4.
Hypothesis Hg : controlled g.
Let step := accepts g k.
Lemma accepts_try m m' x t dt y dt' : try_step g m x t dt = (true, m', y, t + dt, dt') -> step x t dt y.
Proof. intros H. unfold step, accepts. destruct k; [congruence | | | | | |]; exists m, m', dt'; exact H. Qed.
Lemma to_time_c_run n : forall f m x t target dt m' y dt', 0 < s * dt -> 0 <= s * (target - t) ->
  to_time_c e g n f m x t target dt = Ok (m', y, dt') -> 0 < s * dt' /\ exists u, 0 <= s * (target - u) <= e /\ run step s x t y u.
Proof.
  induction n as [| n IH]; intros f m x t target dt m' y dt' Hd Ht E; [discriminate |]. cbn [to_time_c] in E.
  rewrite (less_sign_sense e s dt) in E by assumption. destruct (Rltb e (s * (target - t))) eqn:L.
  - apply Rltb_true in L. pose proof (min_abs_pos s dt (target - t) Hs Hd ltac:(lra)) as [M1 M2]. set (c := min_abs dt (target - t)) in *.
    pose proof (Hg m x t c) as C. destruct (try_step g m x t c) as [[[[[] m1] x1] t1] c1] eqn:T.
    + destruct C as [-> K]. apply IH in E.
      * destruct E as (E1 & u & U & Ru). split; [exact E1 |]. exists u. split; [exact U |]. eapply run_step; [exact M1 | apply (accepts_try _ _ _ _ _ _ _ T) | exact Ru].
      * apply max_abs_pos; [assumption .. |]. apply (keeps_sense s c); assumption.
      * replace (s * (target - (t + c))) with (s * (target - t) - s * c) by ring. lra.
    + destruct C as (-> & -> & K & _). destruct Nat.leb; [discriminate |]. apply IH in E; [exact E | apply (keeps_sense s c); assumption | exact Ht].
  - apply Rltb_false in L. injection E as <- <- <-. split; [exact Hd |]. exists t. split; [lra | apply run_here].
Qed.
Lemma times_c_run fuel : forall times m x t dt o y, 0 < s * dt -> ordered s t times ->
  times_controlled e fuel g m x t times dt = (o, Ok y) -> exists l, o = (x, t) :: l /\ map snd l = times /\ legs step s e x t l.
Proof.
  induction times as [| target times IH]; intros m x t dt o y Hd Ho E.
  - cbn in E. injection E as <- <-. exists []. split; [reflexivity |]. split; [reflexivity | exact I].
  - destruct Ho as [O1 O2]. cbn [times_controlled] in E. unfold seen in E. destruct (to_time_c e g fuel 0 m x t target dt) as [[[m' x'] dt'] | |] eqn:T; try discriminate.
    destruct (to_time_c_run _ _ _ _ _ _ _ _ _ _ Hd O1 T) as (D & u & U & Ru).
    destruct (times_controlled e fuel g m' x' target times dt') as [o' r] eqn:C. cbn in E. injection E as <- ->.
    destruct (IH _ _ _ _ _ _ D O2 C) as (l & -> & M & L). exists ((x', target) :: l). split; [reflexivity |]. split; [cbn; rewrite M; reflexivity |].
    split; [exists u; split; [apply (sense_within s); assumption | assumption] | exact L].
Qed.
End Controlled.

(** *** integrateTime(array) *)
Lemma signed_step_sense h s x : sense s -> 0 < s * x -> signed_step (Some h) x = Ok (s * h).
Proof.
  intros [-> | ->] H; unfold signed_step; cbn [to_double bind].
  - rewrite (proj2 (Rltb_true 0 x)), (proj2 (Rltb_false x 0)) by lra. f_equal. ring.
  - rewrite (proj2 (Rltb_false 0 x)), (proj2 (Rltb_true x 0)) by lra. f_equal. ring.
Qed.
Lemma last_default (t : R) l a b : last (t :: l) a = last (t :: l) b.
Proof. revert t. induction l as [| u l IH]; intros t; [reflexivity |]. exact (IH u). Qed.
Lemma single_start (times : list R) t start : (Nat.eqb (length (t :: times)) 1 && Reqb t start)%bool = true -> times = [] /\ t = start.
Proof.
  intros H. apply andb_true_iff in H. destruct H as [H1 H2]. apply Nat.eqb_eq in H1. apply Reqb_iff in H2.
  destruct times; [split; [reflexivity | exact H2] | cbn in H1; lia].
Qed.
Lemma c67_rk4_partial {X} e (g : engine X) so h s x start times : 0 <= e -> so_stepper so = RungeKutta4 -> so_step so = Some h -> 0 < h ->
  sense s -> times <> [] -> ordered s start times -> 0 < s * last times 0 ->
  exists N l so', (forall fuel, (N <= fuel)%nat -> so_integrate_times e fuel g so x start times = (so', Ok l))
    /\ map snd l = times /\ legs (accepts g RungeKutta4) s e x start l.
Proof.
  intros He Hk Hh P Hs Hn Ho Hl. destruct times as [| t times]; [congruence |].
  destruct (Nat.eqb (length (t :: times)) 1 && Reqb t start)%bool eqn:E.
  - pose proof (single_start _ _ _ E) as [-> ->].
    exists 0%nat, [(x, start)]. eexists. split; [intros fuel _; unfold so_integrate_times; rewrite E; reflexivity |]. split; [reflexivity |].
    split; [exists start; split; [rewrite Rminus_eq_0, Rabs_R0; exact He | apply run_here] | exact I].
  - destruct (times_run e g s h He Hs P (t :: times) x start (s * h)) as (N & l & y & F & M & L); [rewrite sense_mul; assumption | exact Ho |].
    exists N, l. eexists. split; [| split; [exact M | exact L]]. intros fuel Hf. unfold so_integrate_times. rewrite E, Hk, Hh.
    rewrite (last_default t times t 0), (signed_step_sense h s) by assumption.
    rewrite F by exact Hf. reflexivity.
Qed.
Lemma c67_exact_partial {X} e (g : engine X) so h s x start times : 0 <= e < h -> so_stepper so = RungeKutta4 -> so_step so = Some h ->
  sense s -> times <> [] -> all_fit s h e start times -> 0 < s * last times 0 ->
  exists N l so', (forall fuel, (N <= fuel)%nat -> so_integrate_times e fuel g so x start times = (so', Ok l))
    /\ map snd l = times /\ exact_legs (accepts g RungeKutta4) s x start l
    /\ forall c, follows (accepts g RungeKutta4) c -> x = c start -> forall y t, In (y, t) l -> y = c t.
Proof.
  intros He Hk Hh Hs Hn Ho Hl. destruct times as [| t times]; [congruence |].
  assert (G : exists N l so', (forall fuel, (N <= fuel)%nat -> so_integrate_times e fuel g so x start (t :: times) = (so', Ok l))
    /\ map snd l = t :: times /\ exact_legs (accepts g RungeKutta4) s x start l).
  { destruct (Nat.eqb (length (t :: times)) 1 && Reqb t start)%bool eqn:E.
    - pose proof (single_start _ _ _ E) as [-> ->].
      exists 0%nat, [(x, start)]. eexists. split; [intros fuel _; unfold so_integrate_times; rewrite E; reflexivity |]. split; [reflexivity |].
      split; [apply run_here | exact I].
    - destruct (times_exact e g s h ltac:(lra) Hs ltac:(lra) ltac:(lra) (t :: times) x start (s * h)) as (N & l & y & F & M & L); [rewrite sense_mul by assumption; lra | exact Ho |].
      exists N, l. eexists. split; [| split; [exact M | exact L]]. intros fuel Hf. unfold so_integrate_times. rewrite E, Hk, Hh.
      rewrite (last_default t times t 0), (signed_step_sense h s) by assumption. rewrite F by exact Hf. reflexivity. }
  destruct G as (N & l & so' & F & M & L). exists N, l, so'. split; [exact F |]. split; [exact M |]. split; [exact L |].
  intros c Fc Ex y u Iy. apply (exact_legs_follow _ _ c Fc l x start L Ex y u Iy).
Qed.
Lemma c67_controlled_partial {X} e fuel (g : engine X) so h s x start times so' l : 0 <= e -> controlled g -> so_stepper so <> RungeKutta4 ->
  so_step so = Some h -> 0 < h -> sense s -> ordered s start times -> 0 < s * last times 0 ->
  so_integrate_times e fuel g so x start times = (so', Ok l) ->
  map snd l = times /\ legs (accepts g (so_stepper so)) s e x start l.
Proof.
  intros He Hg Hk Hh P Hs Ho Hl. destruct times as [| t times]; [discriminate |]. unfold so_integrate_times.
  destruct (Nat.eqb (length (t :: times)) 1 && Reqb t start)%bool eqn:E.
  - pose proof (single_start _ _ _ E) as [-> ->]. intros F. injection F as <- <-. split; [reflexivity |]. split; [exists start; split; [rewrite Rminus_eq_0, Rabs_R0; exact He | apply run_here] | exact I].
  - rewrite Hh, (last_default t times t 0), (signed_step_sense h s) by assumption. intros F.
    assert (K : match made g so with
          | Ok m => let '(o, r) := times_controlled e fuel g m x start (t :: times) (s * h) in observing so o (let! _ := r in Ok (tl o))
          | Err e => observing so [] (Err e)
          | UB => observing so [] UB
          end = (so', Ok l)) by (destruct (so_stepper so); [congruence | exact F ..]). clear F.
    destruct (made g so) as [m | |]; [| discriminate | discriminate].
    destruct (times_controlled e fuel g m x start (t :: times) (s * h)) as [o r] eqn:C. destruct r as [y | |]; [| discriminate | discriminate]. unfold observing in K. cbn [bind] in K. injection K as <- <-.
    destruct (times_c_run e g (so_stepper so) s He Hs Hk Hg fuel (t :: times) m x start (s * h) o y) as (l & -> & M & L); [rewrite sense_mul; assumption | exact Ho | exact C |].
    split; [exact M | exact L].
Qed.

(** *** The direction is that of the sign of the last time *)
Lemma not_less e s dt t1 t2 : 0 <= e -> sense s -> s * dt <= 0 -> 0 <= s * (t2 - t1) -> (s = 1 \/ dt <> 0) -> less_sign e dt t1 t2 = false.
Proof.
  intros He [-> | ->] H D K; unfold less_sign.
  - rewrite pos_false by lra. apply Rltb_false. lra.
  - destruct K as [K | K]; [lra |]. rewrite pos_true by lra. apply Rltb_false. lra.
Qed.
Lemma times_still {X} e (g : engine X) s fuel dt : 0 <= e -> sense s -> s * dt <= 0 -> (s = 1 \/ dt <> 0) -> (0 < fuel)%nat -> forall times x t, ordered s t times ->
  times_simple e fuel g x t times dt dt = ((x, t) :: map (fun u => (x, u)) times, Ok x)
  /\ forall m, times_controlled e fuel g m x t times dt = ((x, t) :: map (fun u => (x, u)) times, Ok x).
Proof.
  intros He Hs Hd K Hf. destruct fuel as [| f]; [lia |]. induction times as [| u times IH]; intros x t Ho; [split; reflexivity |]. destruct Ho as [O1 O2].
  destruct (IH x u O2) as [I1 I2]. cbn [times_simple times_controlled to_time to_time_c map]. rewrite (not_less e s dt t u) by assumption. rewrite I1. split; [reflexivity |].
  intros m. rewrite I2. reflexivity.
Qed.
Lemma c67_still {X} e fuel (g : engine X) so h r a s x start times : 0 <= e -> so_step so = Some h -> so_rel so = Some r -> so_abs so = Some a -> 0 < h -> (0 < fuel)%nat ->
  sense s -> times <> [] -> ordered s start times -> (s = 1 /\ last times 0 <= 0) \/ (s = - 1 /\ 0 < last times 0) ->
  exists so', so_integrate_times e fuel g so x start times = (so', Ok (map (fun t => (x, t)) times)).
Proof.
  intros He Hh Hr Ha P Hf Hs Hn Ho Hl. destruct times as [| t times]; [congruence |]. unfold so_integrate_times.
  destruct (Nat.eqb (length (t :: times)) 1 && Reqb t start)%bool eqn:E.
  - pose proof (single_start _ _ _ E) as [-> ->]. eexists. reflexivity.
  - rewrite Hh, (last_default t times t 0). set (z := last (t :: times) 0) in *.
    assert (D : exists dt, signed_step (Some h) z = Ok dt /\ s * dt <= 0 /\ (s = 1 \/ dt <> 0)).
    { unfold signed_step. cbn [to_double bind]. eexists. split; [reflexivity |]. unfold Rltb. destruct (Rlt_dec 0 z), (Rlt_dec z 0); destruct Hl as [[-> Hl] | [-> Hl]]; split; nra. }
    destruct D as (dt & -> & D1 & D2). destruct (times_still e g s fuel dt He Hs D1 D2 Hf (t :: times) x start Ho) as [S1 S2].
    unfold made. rewrite Ha, Hr. cbn [to_double bind].
    destruct (so_stepper so); try rewrite S1; try rewrite S2; eexists; reflexivity.
Qed.
