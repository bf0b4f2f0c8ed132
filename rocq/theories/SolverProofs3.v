(** Proofs about the numerical solver: durations, agreement of the forms, observations, equality. *)

From Coq Require Import List Bool Reals Lra Lia Psatz.
From Verif Require Import Result DOrder RotModel RotProofs SolverModel SolverSpec SolverProofs SolverProofs2.
Import ListNotations.
Local Open Scope R_scope.

Lemma reqb_refl a : Reqb a a = true.
Proof. unfold Reqb. destruct Req_EM_T; congruence. Qed.
(** *** integrateDuration *)
Lemma c69_rk4 {X} e (g : engine X) so h s x d : 0 <= e < h -> so_stepper so = RungeKutta4 -> so_step so = Some h -> sense s -> 0 <= s * d ->
  exists N y so', (forall fuel, (N <= fuel)%nat -> so_integrate_duration e fuel g so x d = (so', Ok (y, d)))
    /\ exists u, Rabs (d - u) <= e /\ run (accepts g RungeKutta4) s x 0 y u.
Proof.
  intros He Hk Hh Hs Hd. destruct (Req_dec d 0) as [-> | Hn].
  - exists 0%nat, x. eexists. split; [intros fuel _; unfold so_integrate_duration; rewrite reqb_refl; reflexivity |]. exists 0. split; [rewrite Rminus_eq_0, Rabs_R0; lra | apply run_here].
  - destruct (adaptive_run e g s h He Hs d x Hd) as (N & y & u & o & F & Ru & U & _). exists N, y. eexists. split; [| exists u; split; assumption].
    intros fuel Hf. unfold so_integrate_duration. rewrite (reqb_ne d 0 Hn), Hh, (signed_step_sense h s), Hk; [| exact Hs | destruct Hs as [-> | ->]; lra].
    rewrite F by exact Hf. reflexivity.
Qed.
Lemma duration_controlled {X} e fuel (g : engine X) so h s x d so' y t : so_stepper so <> RungeKutta4 -> so_step so = Some h -> sense s -> 0 < s * d ->
  so_integrate_duration e fuel g so x d = (so', Ok (y, t)) -> t = d /\ exists m,
    match so_log so with
    | LogConstant => const_controlled e fuel g fuel 0 m x 0 d (s * h)
    | NoLog | LogAdaptive => adaptive_controlled e g fuel m x 0 d (s * h)
    end = (so_observed so', Ok y).
Proof.
  intros Hk Hh Hs Hd E. unfold so_integrate_duration in E. rewrite (reqb_ne d 0), Hh, (signed_step_sense h s) in E by (first [assumption | intros ->; lra]).
  assert (K : match made g so with
        | Ok m =>
          let '(o, r) := match so_log so with
            | LogConstant => const_controlled e fuel g fuel 0 m x 0 d (s * h)
            | NoLog | LogAdaptive => adaptive_controlled e g fuel m x 0 d (s * h)
            end in observing so o (let! y := r in Ok (y, d))
        | Err e => observing so [] (Err e)
        | UB => observing so [] UB
        end = (so', Ok (y, t))) by (destruct (so_stepper so); [congruence | exact E ..]). clear E.
  destruct (made g so) as [m | |]; [| discriminate | discriminate].
  destruct (match so_log so with LogConstant => _ | _ => _ end) as [o r] eqn:C. destruct r as [z | |]; [| discriminate | discriminate].
  unfold observing in K. cbn [bind] in K. injection K as <- <- <-. split; [reflexivity |]. exists m. exact C.
Qed.
Lemma c69_controlled_partial {X} e fuel (g : engine X) so h s x d so' y t : 0 <= e -> controlled g -> so_stepper so <> RungeKutta4 -> so_log so <> LogConstant ->
  so_step so = Some h -> 0 < h -> sense s -> 0 <= s * d -> so_integrate_duration e fuel g so x d = (so', Ok (y, t)) ->
  t = d /\ exists u, Rabs (d - u) <= e /\ run (accepts g (so_stepper so)) s x 0 y u.
Proof.
  intros He Hg Hk Hl Hh P Hs Hd E. destruct (Req_dec d 0) as [-> | Hn].
  - unfold so_integrate_duration in E. rewrite reqb_refl in E. unfold observing in E. injection E as <- <- <-. split; [reflexivity |]. exists 0. split; [rewrite Rminus_eq_0, Rabs_R0; exact He | apply run_here].
  - assert (Hd' : 0 < s * d) by (destruct Hs as [-> | ->]; lra).
    destruct (duration_controlled e fuel g so h s x d so' y t Hk Hh Hs Hd' E) as [-> [m K]]. split; [reflexivity |].
    assert (A : adaptive_controlled e g fuel m x 0 d (s * h) = (so_observed so', Ok y)) by (destruct (so_log so); [exact K | congruence | exact K]).
    destruct (adaptive_c_run e g (so_stepper so) s He Hs Hk Hg d fuel m x 0 (s * h)) with (3 := A) as (u & U & Ru & _); [rewrite sense_mul; assumption | rewrite Rminus_0_r; lra |].
    exists u. split; assumption.
Qed.
(** With constant logging, the state returned is the one at the last multiple of the time step before the duration. *)
Lemma c69_constant {X} e fuel (g : engine X) so h s x d so' y t : 0 <= e < h -> controlled g -> so_stepper so <> RungeKutta4 -> so_log so = LogConstant ->
  so_step so = Some h -> sense s -> 0 < s * d -> so_integrate_duration e fuel g so x d = (so', Ok (y, t)) ->
  t = d /\ exists l n, so_observed so' = (x, 0) :: l /\ map snd l = map (fun a => INR a * (s * h)) (seq 1 n) /\ legs (accepts g (so_stepper so)) s e x 0 l
    /\ last (map fst l) x = y /\ - e <= s * (d - INR n * (s * h)) < h - e.
Proof.
  intros He Hg Hk Hl Hh Hs Hd E. destruct (duration_controlled e fuel g so h s x d so' y t Hk Hh Hs Hd E) as [-> [m K]]. split; [reflexivity |].
  rewrite Hl in K. destruct (const_c_run e g (so_stepper so) s ltac:(lra) Hs Hk Hg h d ltac:(lra) fuel 0%nat m x (so_observed so') y fuel) with (2 := K) as (l & j & O & M & L & Y & B).
  { cbn [INR]. rewrite Rmult_0_l, Rminus_0_r. lra. }
  cbn [INR] in *. rewrite Rmult_0_l in *. exists l, j. split; [exact O |]. split; [exact M |]. split; [exact L |]. split; [| exact B].
  rewrite O in Y. rewrite <- Y. cbn [map fst]. destruct (map fst l); reflexivity.
Qed.
Lemma c69_constant_refuted k : k <> RungeKutta4 -> exists (g : engine R) so x d y (c : R -> R), controlled g /\ so_stepper so = k /\ so_step so = Some 1 /\ 0 < d
  /\ follows (accepts g k) c /\ x = c 0 /\ Rabs (y - c d) = 1 / 2
  /\ forall e fuel, 0 <= e < 1 / 4 -> (3 <= fuel)%nat -> exists so', so_integrate_duration e fuel g so x d = (so', Ok (y, d)).
Proof.
  intros Hk. exists (scalar_engine (fun _ _ => 1)), (Solver LogConstant k (Some 1) (Some 1) (Some 1)), 0, (3 / 2), 1, (fun t => t + 0).
  split; [apply scalar_controlled |]. split; [reflexivity |]. split; [reflexivity |]. split; [lra |]. split; [apply one_follows |]. split; [lra |].
  split; [rewrite Rabs_left; lra |]. intros e fuel He Hf.
  destruct fuel as [| [| [| n]]]; [lia | lia | lia |].
  unfold so_integrate_duration. rewrite (reqb_ne (3 / 2) 0) by lra. unfold Solver, made. cbn [so_step so_stepper so_abs so_rel so_log to_double bind fresh scalar_engine].
  rewrite (signed_step_sense 1 1) by (first [left; reflexivity | lra]).
  assert (K : exists o, const_controlled e (S (S (S n))) (scalar_engine (fun _ _ => 1)) (S (S (S n))) 0 tt 0 0 (3 / 2) (1 * 1) = (o, Ok 1)).
  { assert (A : snd (adaptive_controlled e (scalar_engine (fun _ _ => 1)) (S (S (S n))) tt 0 (0 + INR 0 * (1 * 1)) (0 + INR 0 * (1 * 1) + 1 * 1) (1 * 1)) = Ok 1).
    { cbn [adaptive_controlled INR seen snd]. unfold less_sign. rewrite (pos_true (1 * 1)) by lra. rewrite (proj2 (Rltb_true e _)) by lra. rewrite (proj2 (Rltb_false e _)) by lra.
      unfold max_fails. cbn [tries scalar_engine try_step]. rewrite (pos_true (1 * 1)) by lra. rewrite (proj2 (Rltb_false e _)) by lra. cbn [seen snd]. rewrite rk4_one. f_equal. ring. }
    cbn [const_controlled]. unfold less_eq_sign at 1. rewrite (pos_true (1 * 1)) by lra. replace (Rleb (0 + INR 0 * (1 * 1) + 1 * 1 - 3 / 2) e) with true.
    2: { symmetry. unfold Rleb. destruct Rle_dec as [L | L]; [reflexivity |]. cbn in L. lra. }
    rewrite A. unfold less_eq_sign. rewrite (pos_true (1 * 1)) by lra. replace (Rleb (0 + INR 1 * (1 * 1) + 1 * 1 - 3 / 2) e) with false.
    2: { symmetry. unfold Rleb. destruct Rle_dec as [L | L]; [| reflexivity]. cbn in L. lra. }
    eexists. reflexivity. }
  destruct K as [o K]. destruct k; [congruence | ..]; rewrite K; eexists; reflexivity.
Qed.
Lemma c69_zero {X} e fuel (g : engine X) so x : exists so', so_integrate_duration e fuel g so x 0 = (so', Ok (x, 0)) /\ so_observed so' = [].
Proof. unfold so_integrate_duration. rewrite reqb_refl. eexists. split; reflexivity. Qed.
Lemma c69_errors {X} e fuel (g : engine X) so x d : d <> 0 -> so_isDefined so = false -> so_stepper so <> RungeKutta4 \/ so_step so = None ->
  snd (so_integrate_duration e fuel g so x d) = Err EUndefined.
Proof.
  intros Hd H Hk. unfold so_integrate_duration. rewrite (reqb_ne d 0 Hd). unfold so_isDefined in H. unfold signed_step, made.
  destruct (so_step so); [| reflexivity]. cbn [to_double bind]. destruct Hk as [Hk | Hk]; [| discriminate].
  destruct (so_stepper so); [congruence | ..]; destruct (so_abs so); try reflexivity; destruct (so_rel so); try reflexivity; discriminate.
Qed.

(** *** Agreement of the scalar and array forms *)
Section Steps.
Context {X : Type} (e : R) (g : engine X) (s h : R).
Hypothesis He : 0 <= e < h.
Hypothesis Hs : sense s.
(** [n] steps of runge_kutta4, and one of the rest [r] if any. *)
Fixpoint steps (n : nat) (x : X) (t : R) : X := match n with O => x | S n => steps n (rk4_step g x t (s * h)) (t + s * h) end.
Definition finish (r : R) (x : X) (t : R) : X := if Reqb r 0 then x else rk4_step g x t (s * r).
Lemma to_time_steps r target : r = 0 \/ e < r < h -> forall n x t c, 0 < s * c -> s * (target - t) = INR n * h + r -> forall m, (n + 2 <= m)%nat ->
  exists c', to_time e g m x t target (s * h) c = Ok (finish r (steps n x t) (t + INR n * (s * h)), c').
Proof.
  intros Hr. induction n as [| n IH]; intros x t c Hc D m Hm; (destruct m as [| [| m]]; [lia | lia |]).
  - cbn [to_time steps INR] in *. rewrite Rmult_0_l, Rplus_0_r. unfold finish. rewrite (less_sign_sense e s c) by assumption. destruct Hr as [-> | Hr].
    + rewrite reqb_refl, (proj2 (Rltb_false _ _)) by lra. eexists. reflexivity.
    + rewrite (reqb_ne r 0), (proj2 (Rltb_true _ _)) by lra.
      assert (E : min_abs (s * h) (target - t) = s * r). { rewrite min_abs_sense by (first [exact Hs | lra]). rewrite Rmin_right by lra. rewrite D. f_equal. ring. }
      rewrite E. assert (E2 : s * r = target - t) by (replace r with (s * (target - t)) by lra; apply sense_mul; exact Hs).
      rewrite (less_sign_sense e s (s * r)) by (first [exact Hs | rewrite sense_mul by exact Hs; lra]). rewrite (proj2 (Rltb_false _ _)); [eexists; reflexivity |].
      rewrite E2. replace (s * (target - (t + (target - t)))) with 0 by ring. lra.
  - rewrite S_INR in D. assert (Pn := pos_INR n). assert (Pm : 0 <= INR n * h) by (apply Rmult_le_pos; lra). assert (Pr : 0 <= r) by lra.
    remember (S m) as m1. cbn [to_time steps]. rewrite (less_sign_sense e s c) by assumption. rewrite (proj2 (Rltb_true _ _)) by lra.
    assert (E : min_abs (s * h) (target - t) = s * h). { rewrite min_abs_sense by (first [exact Hs | lra]). rewrite Rmin_left by lra. reflexivity. }
    rewrite E. destruct (IH (rk4_step g x t (s * h)) (t + s * h) (s * h)) with (m := m1) as (c' & F).
    + rewrite sense_mul by exact Hs. lra.
    + replace (s * (target - (t + s * h))) with (s * (target - t) - s * (s * h)) by ring. rewrite sense_mul by exact Hs. lra.
    + lia.
    + exists c'. rewrite F. do 2 f_equal. f_equal. rewrite S_INR. ring.
Qed.
Lemma const_steps d r : r = 0 \/ e < r < h - e -> forall n i x, s * (d - INR i * (s * h)) = INR n * h + r -> forall m, (n + 1 <= m)%nat ->
  exists o, const_simple e g m i x 0 d (s * h) = (o, Ok (steps n x (INR i * (s * h)), (i + n)%nat)).
Proof.
  intros Hr. induction n as [| n IH]; intros i x D m Hm; (destruct m as [| m]; [lia |]); cbn [const_simple steps]; rewrite (const_continues e s h He Hs), Rplus_0_l; rewrite D.
  - cbn [INR]. unfold Rleb. destruct Rle_dec as [L | L]; [exfalso; lra |]. rewrite Nat.add_0_r. eexists. reflexivity.
  - rewrite S_INR in *. assert (Pn := pos_INR n). assert (Pm : 0 <= INR n * h) by (apply Rmult_le_pos; lra).
    unfold Rleb. destruct Rle_dec as [L | L]; [| exfalso; lra].
    destruct (IH (S i) (rk4_step g x (INR i * (s * h)) (s * h))) with (m := m) as (o & F).
    + rewrite S_INR. replace (s * (d - (INR i + 1) * (s * h))) with (s * (d - INR i * (s * h)) - s * (s * h)) by ring. rewrite sense_mul by exact Hs. lra.
    + lia.
    + rewrite F. eexists. unfold seen. cbn [fst snd]. rewrite S_INR. replace ((INR i + 1) * (s * h)) with (INR i * (s * h) + s * h) by ring.
      replace (S i + n)%nat with (i + S n)%nat by lia. reflexivity.
Qed.
Lemma adaptive_steps d r n x : s * d = INR n * h + r -> r = 0 \/ e < r < h - e -> forall fuel, (n + 1 <= fuel)%nat ->
  exists o, adaptive_simple e fuel g x 0 d (s * h) = (o, Ok (finish r (steps n x 0) (INR n * (s * h)))).
Proof.
  intros D Hr fuel Hf. destruct (const_steps d r Hr n 0 x) with (m := fuel) as (o & F); [cbn [INR]; rewrite Rmult_0_l, Rminus_0_r; exact D | exact Hf |].
  cbn [INR] in F. rewrite Rmult_0_l in F. unfold adaptive_simple, then_. rewrite F. cbn [fst snd Nat.add].
  replace (0 + s * h * INR n) with (INR n * (s * h)) by ring.
  rewrite (less_sign_sense e s) by (first [exact Hs | rewrite sense_mul by exact Hs; lra]).
  assert (E : s * (d - INR n * (s * h)) = r). { replace (s * (d - INR n * (s * h))) with (s * d - INR n * (s * (s * h))) by ring. rewrite sense_mul by exact Hs. lra. }
  rewrite E. unfold finish. destruct Hr as [-> | Hr].
  - rewrite reqb_refl, (proj2 (Rltb_false _ _)) by lra. eexists. reflexivity.
  - rewrite (reqb_ne r 0), (proj2 (Rltb_true _ _)) by lra. eexists.
    replace (d - INR n * (s * h)) with (s * r) by (rewrite <- E; apply sense_mul; exact Hs). reflexivity.
Qed.
Lemma steps_autonomous : autonomous g -> forall n x t t', steps n x t = steps n x t'.
Proof. intros A. induction n as [| n IH]; intros x t t'; [reflexivity |]. cbn [steps]. rewrite (A x t t'). apply IH. Qed.
End Steps.
(** From the time 0, or for a system that does not depend on the time, both forms return the same state. *)
Lemma c68_same_state_partial {X} e (g : engine X) so h s x a b : 0 <= e < h -> so_stepper so = RungeKutta4 -> so_step so = Some h -> sense s ->
  0 < s * (b - a) -> 0 < s * b -> fits h e (s * (b - a)) -> a = 0 \/ autonomous g ->
  exists N y so1 so2, forall fuel, (N <= fuel)%nat -> so_integrate_time e fuel g so x a b = (so1 fuel, Ok (y, b - a)) /\ so_integrate_times e fuel g so x a [b] = (so2, Ok [(y, b)]).
Proof.
  intros He Hk Hh Hs Hd Hb (n & r & D & Hr) Ha.
  set (y := finish g s r (steps g s h n x 0) (INR n * (s * h))).
  assert (Y : finish g s r (steps g s h n x a) (a + INR n * (s * h)) = y).
  { unfold y. destruct Ha as [-> | Ha]; [rewrite Rplus_0_l; reflexivity |]. rewrite (steps_autonomous g s h Ha n x a 0). unfold finish. destruct Reqb; [reflexivity |]. apply Ha. }
  exists (n + 2)%nat, y, (fun fuel => fst (so_integrate_time e fuel g so x a b)). eexists. intros fuel Hf. split.
  - unfold so_integrate_time, so_integrate_duration. rewrite (reqb_ne (b - a) 0) by (intros Z; rewrite Z, Rmult_0_r in Hd; lra). rewrite Hh, (signed_step_sense h s), Hk by assumption.
    destruct (adaptive_steps e g s h He Hs (b - a) r n x D Hr fuel ltac:(lia)) as (o & F). rewrite F. fold y. reflexivity.
  - unfold so_integrate_times. cbn [length Nat.eqb andb last]. rewrite (reqb_ne b a) by (intros ->; rewrite Rminus_eq_0, Rmult_0_r in Hd; lra). rewrite Hh, (signed_step_sense h s), Hk by assumption.
    cbn [times_simple]. destruct (to_time_steps e g s h He Hs r b ltac:(lra) n x a (s * h) ltac:(rewrite sense_mul by exact Hs; lra) D fuel Hf) as (c' & F). rewrite F, Y. reflexivity.
Qed.
(** A list of durations is counted from the time 0. *)
Lemma c68_durations_partial {X} e (g : engine X) so h s x ds : 0 <= e < h -> so_stepper so = RungeKutta4 -> so_step so = Some h ->
  sense s -> ds <> [] -> all_fit s h e 0 ds -> 0 < s * last ds 0 ->
  exists N l so', (forall fuel, (N <= fuel)%nat -> so_integrate_durations e fuel g so x ds = (so', Ok l))
    /\ map snd l = ds /\ forall c, follows (accepts g RungeKutta4) c -> x = c 0 -> forall y d, In (y, d) l -> y = c d.
Proof.
  intros He Hk Hh Hs Hn Ho Hl. destruct (c67_exact_partial e g so h s x 0 ds He Hk Hh Hs Hn Ho Hl) as (N & l & so' & F & M & _ & C).
  exists N, l, so'. split; [exact F |]. split; [exact M | exact C].
Qed.
Lemma c68_tag {X} e fuel (g : engine X) so x a b so' y t : so_integrate_time e fuel g so x a b = (so', Ok (y, t)) -> t = b - a.
Proof.
  unfold so_integrate_time, so_integrate_duration. destruct (Reqb (b - a) 0) eqn:E.
  - intros H. unfold observing in H. injection H as <- <- <-. apply Reqb_iff in E. lra.
  - destruct signed_step as [dt | |]; [| discriminate | discriminate].
    assert (K : forall (p : traced X), (let '(o, r) := p in observing so o (let! y := r in Ok (y, b - a))) = (so', Ok (y, t)) -> t = b - a).
    { intros [o [z | |]] H; [| discriminate | discriminate]. unfold observing in H. cbn [bind] in H. injection H as _ _ <-. reflexivity. }
    destruct (so_stepper so); [apply K | ..]; (destruct made; [apply K | discriminate | discriminate]).
Qed.
(** x' = t from the time 1 to the time 2. *)
Lemma c68_refuted e fuel : 0 <= e < 1 / 4 -> (4 <= fuel)%nat ->
  exists (g : engine R) so x a b so1 so2 y1 y2 t1 c, so_stepper so = RungeKutta4 /\ so_step so = Some 1 /\ follows (accepts g RungeKutta4) c /\ x = c a
    /\ so_integrate_times e fuel g so x a [b] = (so1, Ok [(y1, b)]) /\ y1 = c b /\ so_integrate_time e fuel g so x a b = (so2, Ok (y2, t1)) /\ t1 <> b /\ y2 <> y1.
Proof.
  intros He Hf. set (g := scalar_engine (fun _ t => t)). set (so := @Solver R NoLog RungeKutta4 (Some 1) (Some 1) (Some 1)). exists g, so, (1 / 2), 1, 2.
  assert (D : 1 * (2 - 1) = INR 1 * 1 + 0) by (cbn; lra). assert (D0 : 1 * (2 - 1) = INR 1 * 1 + 0) by (cbn; lra). assert (S1 : sense 1) by (left; reflexivity).
  destruct (to_time_steps e g 1 1 ltac:(lra) S1 0 2 (or_introl eq_refl) 1 (1 / 2) 1 (1 * 1) ltac:(lra) D fuel ltac:(lia)) as (c' & F).
  destruct (adaptive_steps e g 1 1 ltac:(lra) S1 (2 - 1) 0 1 (1 / 2) D0 (or_introl eq_refl) fuel ltac:(lia)) as (o & G).
  eexists. eexists. exists 2, 1, (2 - 1), (fun t => t * t / 2 + 0). split; [reflexivity |]. split; [reflexivity |]. split; [apply time_follows |]. split; [lra |]. split; [| split; [lra |]; split; [| split; lra]].
  - unfold so_integrate_times. cbn [length Nat.eqb andb last]. rewrite (reqb_ne 2 1) by lra. unfold so, Solver. cbn [so_step so_stepper]. rewrite (signed_step_sense 1 1) by (first [exact S1 | lra]).
    cbn [times_simple]. rewrite F. unfold seen, observing, finish. rewrite reqb_refl. cbn [fst snd steps bind tl g scalar_engine rk4_step]. rewrite rk4_time.
    replace (1 / 2 + 1 * (1 * 1) + 1 * 1 * (1 * 1) / 2) with 2 by field. reflexivity.
  - unfold so_integrate_time, so_integrate_duration. rewrite (reqb_ne (2 - 1) 0) by lra. unfold so, Solver. cbn [so_step so_stepper]. rewrite (signed_step_sense 1 1) by (first [exact S1 | lra]).
    rewrite G. unfold observing, finish. rewrite reqb_refl. cbn [steps bind g scalar_engine rk4_step]. rewrite rk4_time. replace (1 / 2 + 0 * (1 * 1) + 1 * 1 * (1 * 1) / 2) with 1 by field. reflexivity.
Qed.
