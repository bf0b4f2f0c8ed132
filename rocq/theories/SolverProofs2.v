(** Proofs about the numerical solver: direction, durations, observations. *)

From Coq Require Import List Bool Reals Lra Lia Psatz.
From Verif Require Import Result DOrder RotModel RotProofs SolverModel SolverSpec SolverProofs.
Import ListNotations.
Local Open Scope R_scope.

(** The Runge-Kutta steps of x' = 1 and x' = t are exact. *)
Lemma rk4_one x t dt : rk4 (fun _ _ => 1) x t dt = x + dt.
Proof. unfold rk4. field. Qed.
Lemma rk4_time x t dt : rk4 (fun _ t => t) x t dt = x + t * dt + dt * dt / 2.
Proof. unfold rk4. field. Qed.
Lemma one_follows k c0 : follows (accepts (scalar_engine (fun _ _ => 1)) k) (fun t => t + c0).
Proof.
  intros x t dt y H ->. destruct k; cbn [accepts scalar_engine rk4_step try_step] in H; [rewrite H, rk4_one; ring | ..];
    destruct H as (m & m' & dt' & H); injection H as _ <- _; rewrite rk4_one; ring.
Qed.
Lemma time_follows k c0 : follows (accepts (scalar_engine (fun _ t => t)) k) (fun t => t * t / 2 + c0).
Proof.
  intros x t dt y H ->. destruct k; cbn [accepts scalar_engine rk4_step try_step] in H; [rewrite H, rk4_time; field | ..];
    destruct H as (m & m' & dt' & H); injection H as _ <- _; rewrite rk4_time; field.
Qed.
Lemma scalar_controlled f : controlled (scalar_engine f).
Proof. intros m x t dt. cbn. split; [reflexivity |]. repeat split; intros; assumption. Qed.

(** Forward between negative times, or backward between positive times, nothing is integrated: the states are all the
    initial one, although the equation x' = 1 has another solution. *)
Lemma c67_direction_refuted e k : 0 <= e -> exists (g : engine R) so x start times y t (c : R -> R), controlled g /\ so_stepper so = k /\ so_step so = Some 1
  /\ ordered 1 start times /\ follows (accepts g k) c /\ x = c start /\ y <> c t
  /\ forall fuel, (0 < fuel)%nat -> exists so', so_integrate_times e fuel g so x start times = (so', Ok [(y, t)]).
Proof.
  intros He. exists (scalar_engine (fun _ _ => 1)), (Solver NoLog k (Some 1) (Some 1) (Some 1)), 0, (-2), [-1], 0, (-1), (fun t => t + 2).
  split; [apply scalar_controlled |]. split; [reflexivity |]. split; [reflexivity |]. split; [cbn; lra |]. split; [apply one_follows |]. split; [lra |]. split; [lra |].
  intros fuel Hf. apply (c67_still e fuel _ _ 1 1 1 1 0 (-2) [-1]); try reflexivity; try assumption; try lra; [left; reflexivity | discriminate | cbn; lra | left; cbn; lra].
Qed.
(** Backward to the time 0, runge_kutta4 never ends. *)
Lemma to_time_stuck {X} e (g : engine X) n : forall x t, 0 <= e -> e < t -> to_time e g n x t 0 0 0 = Err OutOfFuel.
Proof.
  induction n as [| n IH]; intros x t He Ht; [reflexivity |]. cbn [to_time]. unfold less_sign. rewrite pos_false by lra. rewrite (proj2 (Rltb_true e (t - 0))) by lra.
  unfold min_abs. rewrite pos_false by lra. replace (Rmax 0 (0 - t)) with 0 by (unfold Rmax; destruct Rle_dec; lra). rewrite Rplus_0_r. apply IH; assumption.
Qed.
Lemma c67_stuck {X} e (g : engine X) so h x start : 0 <= e -> so_stepper so = RungeKutta4 -> so_step so = Some h -> e < start ->
  forall fuel, exists so', so_integrate_times e fuel g so x start [0] = (so', Err OutOfFuel).
Proof.
  intros He Hk Hh Hs fuel. unfold so_integrate_times. cbn [length Nat.eqb andb]. replace (Reqb 0 start) with false by (symmetry; apply reqb_ne; intros Z; lra).
  rewrite Hh. unfold signed_step. cbn [last to_double bind]. replace (Rltb 0 0) with false by (symmetry; apply Rltb_false; lra).
  replace (h * (0 - 0)) with 0 by ring. rewrite Hk. cbn [times_simple]. rewrite to_time_stuck by assumption. eexists. reflexivity.
Qed.
Lemma c67_errors {X} e fuel (g : engine X) so x start times : 
  so_integrate_times e fuel g so x start [] = (mkSolver (so_log so) (so_stepper so) (so_step so) (so_rel so) (so_abs so) [], Err ERuntime)
  /\ (times <> [] -> times <> [start] -> so_isDefined so = false -> so_stepper so <> RungeKutta4 \/ so_step so = None -> snd (so_integrate_times e fuel g so x start times) = Err EUndefined).
Proof.
  split; [reflexivity |]. intros Hn H1 Hd Hk. unfold so_integrate_times. destruct times as [| t times]; [congruence |].
  replace (Nat.eqb (length (t :: times)) 1 && Reqb t start)%bool with false.
  2: { symmetry. destruct times as [| u times]; [| reflexivity]. cbn. apply reqb_ne. congruence. }
  unfold so_isDefined in Hd. unfold signed_step, made. destruct (so_step so) as [h |]; [| reflexivity]. cbn [to_double bind]. destruct Hk as [Hk | Hk]; [| discriminate].
  destruct (so_stepper so); [congruence | ..]; destruct (so_abs so); try reflexivity; destruct (so_rel so); try reflexivity; discriminate.
Qed.

(** *** integrateDuration *)
Section Simple.
Context {X : Type} (e : R) (g : engine X) (s h : R).
Hypothesis He : 0 <= e < h.
Hypothesis Hs : sense s.
Let step := accepts g RungeKutta4.
Lemma step_dir : 0 < s * (s * h).
Proof. rewrite sense_mul by exact Hs. lra. Qed.
Lemma const_continues i d : less_eq_sign e (s * h) (0 + INR i * (s * h) + s * h) d = Rleb (h - s * (d - INR i * (s * h))) e.
Proof.
  rewrite (less_eq_sign_sense e s) by (first [exact Hs | exact step_dir]). f_equal. rewrite Rplus_0_l.
  replace (s * (INR i * (s * h) + s * h - d)) with (s * (s * h) - s * (d - INR i * (s * h))) by ring. rewrite sense_mul by exact Hs. reflexivity.
Qed.
(** runge_kutta4 with constant steps: [i] steps done, at most [n] left. *)
Lemma const_run d : forall n i x, - e <= s * (d - INR i * (s * h)) -> s * (d - INR i * (s * h)) <= INR n * h ->
  exists y j o, (forall m, (n + 1 <= m)%nat -> const_simple e g m i x 0 d (s * h) = (o, Ok (y, j)))
    /\ run step s x (INR i * (s * h)) y (INR j * (s * h)) /\ - e <= s * (d - INR j * (s * h)) < h - e
    /\ hd_error o = Some (x, INR i * (s * h)) /\ last (map Some o) None = Some (y, INR j * (s * h)) /\ o <> [].
Proof.
  assert (Stop : forall i x, s * (d - INR i * (s * h)) < h - e -> forall m, (1 <= m)%nat -> const_simple e g m i x 0 d (s * h) = ([(x, INR i * (s * h))], Ok (x, i))).
  { intros i x L m Hm. destruct m as [| m]; [lia |]. cbn [const_simple]. rewrite const_continues. rewrite Rplus_0_l.
    unfold Rleb. destruct Rle_dec as [L' | L']; [exfalso; lra | reflexivity]. }
  induction n as [| n IH]; intros i x H0 Hn; (destruct (Rlt_dec (s * (d - INR i * (s * h))) (h - e)) as [L | L];
    [exists x, i, [(x, INR i * (s * h))]; split; [intros m Hm; apply Stop; [exact L | lia] |]; split; [apply run_here |]; split; [lra |]; split; [reflexivity |]; split; [reflexivity | discriminate] |]).
  - exfalso. cbn in Hn. lra.
  - rewrite S_INR in Hn.
    assert (D : s * (d - INR (S i) * (s * h)) = s * (d - INR i * (s * h)) - h).
    { rewrite S_INR. replace (s * (d - (INR i + 1) * (s * h))) with (s * (d - INR i * (s * h)) - s * (s * h)) by ring. rewrite sense_mul by exact Hs. reflexivity. }
    destruct (IH (S i) (rk4_step g x (INR i * (s * h)) (s * h))) as (y & j & o & F & Ru & J & H1 & H2 & H3); [rewrite D; lra | rewrite D; lra |].
    exists y, j, ((x, INR i * (s * h)) :: o). split; [| split; [| split; [exact J |]; split; [reflexivity |]; split; [| discriminate]]].
    + intros m Hm. destruct m as [| m]; [lia |]. cbn [const_simple]. rewrite const_continues, Rplus_0_l.
      unfold Rleb. destruct Rle_dec as [L' | L']; [| exfalso; lra]. rewrite F by lia. reflexivity.
    + eapply run_step; [exact step_dir | reflexivity |]. rewrite S_INR in Ru. replace ((INR i + 1) * (s * h)) with (INR i * (s * h) + s * h) in Ru by ring. exact Ru.
    + cbn [map last]. destruct o as [| p o]; [congruence |]. exact H2.
Qed.
Lemma adaptive_run d x : 0 <= s * d -> exists N y u o, (forall fuel, (N <= fuel)%nat -> adaptive_simple e fuel g x 0 d (s * h) = (o, Ok y))
  /\ run step s x 0 y u /\ Rabs (d - u) <= e /\ hd_error o = Some (x, 0) /\ last (map Some o) None = Some (y, u).
Proof.
  intros Hd. destruct (enough h ltac:(lra) (s * d)) as [n Hn].
  destruct (const_run d n 0 x) as (y & j & o & F & Ru & J & H1 & H2 & H3).
  { cbn [INR]. rewrite Rmult_0_l, Rminus_0_r. lra. } { cbn [INR]. rewrite Rmult_0_l, Rminus_0_r. exact Hn. }
  cbn [INR] in *. rewrite Rmult_0_l in *. exists (n + 1)%nat.
  assert (E0 : 0 + s * h * INR j = INR j * (s * h)) by ring.
  assert (A : Rabs (d - INR j * (s * h)) = Rabs (s * (d - INR j * (s * h)))) by (rewrite Rabs_mult; destruct Hs as [-> | ->]; [rewrite Rabs_R1 | rewrite (Rabs_left (- 1)) by lra]; ring).
  destruct (Rlt_dec e (s * (d - INR j * (s * h)))) as [L | L].
  - exists (rk4_step g y (INR j * (s * h)) (d - INR j * (s * h))), d, (o ++ [(rk4_step g y (INR j * (s * h)) (d - INR j * (s * h)), d)]).
    split; [| split; [| split; [| split]]].
    + intros fuel Hf. unfold adaptive_simple, then_. rewrite F by exact Hf. cbn [fst snd]. rewrite E0. rewrite (less_sign_sense e s) by (first [exact Hs | exact step_dir]).
      rewrite (proj2 (Rltb_true _ _)) by exact L. reflexivity.
    + apply (run_trans _ _ _ _ y (INR j * (s * h))); [exact Ru |]. apply (run_cast _ _ _ _ _ (INR j * (s * h) + (d - INR j * (s * h)))); [| ring].
      apply run_one; [lra | reflexivity].
    + rewrite Rminus_eq_0, Rabs_R0. lra.
    + destruct o as [| p o]; [congruence | exact H1].
    + rewrite map_app. cbn [map]. rewrite last_last. reflexivity.
  - exists y, (INR j * (s * h)), o. split; [| split; [exact Ru |]; split; [| split; [exact H1 | exact H2]]].
    + intros fuel Hf. unfold adaptive_simple, then_. rewrite F by exact Hf. cbn [fst snd]. rewrite E0. rewrite (less_sign_sense e s) by (first [exact Hs | exact step_dir]).
      rewrite (proj2 (Rltb_false _ _)) by lra. cbn [fst snd]. rewrite app_nil_r. reflexivity.
    + rewrite A. apply Rabs_le. lra.
Qed.
End Simple.

Section Controlled.
Context {X : Type} (e : R) (g : engine X) (k : stepper_type) (s : R).
Hypothesis He : 0 <= e.
Hypothesis Hs : sense s.
Hypothesis Hk : k <> RungeKutta4.
Hypothesis Hg : controlled g.
Let step := accepts g k.
Lemma tries_run n : forall m x t dt m' y t' dt', tries g n m x t dt = Ok (m', y, t', dt') -> 0 < s * dt ->
  exists dt1, 0 < s * dt1 <= s * dt /\ t' = t + dt1 /\ step x t dt1 y /\ 0 < s * dt'.
Proof.
  induction n as [| n IH]; intros m x t dt m' y t' dt' E Hd; [discriminate |]. cbn [tries] in E. pose proof (Hg m x t dt) as C.
  destruct (try_step g m x t dt) as [[[[[] m1] x1] t1] d1] eqn:T.
  - injection E as <- <- <- <-. destruct C as [-> C]. exists dt. split; [lra |]. split; [reflexivity |]. split; [apply (accepts_try g k Hk _ _ _ _ _ _ _ T) |].
    apply (keeps_sense s dt); assumption.
  - destruct C as (-> & -> & C & A). pose proof (keeps_sense s dt d1 Hs C Hd) as P. destruct (IH _ _ _ _ _ _ _ _ E P) as (dt1 & [B1 B2] & R).
    exists dt1. split; [| exact R]. split; [exact B1 |]. apply (Rle_trans _ _ _ B2). rewrite (sense_abs s d1 Hs), (sense_abs s dt Hs), !Rabs_right in A by lra. exact A.
Qed.
Lemma adaptive_c_run d : forall n m x t dt o y, 0 < s * dt -> - e <= s * (d - t) -> adaptive_controlled e g n m x t d dt = (o, Ok y) ->
  exists u, Rabs (d - u) <= e /\ run step s x t y u /\ hd_error o = Some (x, t) /\ last (map Some o) None = Some (y, u) /\ o <> [].
Proof.
  induction n as [| n IH]; intros m x t dt o y Hd Ht E; [discriminate |]. cbn [adaptive_controlled] in E. unfold seen in E.
  rewrite (less_sign_sense e s dt t) in E by assumption. destruct (Rltb e (s * (d - t))) eqn:L.
  - apply Rltb_true in L. rewrite (less_sign_sense e s dt d) in E by assumption. set (dt1 := if Rltb e (s * (t + dt - d)) then d - t else dt) in E.
    assert (P1 : 0 < s * dt1 <= s * (d - t) + e).
    { unfold dt1. destruct (Rltb e (s * (t + dt - d))) eqn:L2; [lra |]. apply Rltb_false in L2. split; [lra |]. replace (s * (t + dt - d)) with (s * dt - s * (d - t)) in L2 by ring. lra. }
    destruct (tries g max_fails m x t dt1) as [[[[m1 x1] t1] d1] | |] eqn:T; [| discriminate | discriminate].
    destruct (tries_run _ _ _ _ _ _ _ _ _ T ltac:(lra)) as (dt2 & P2 & -> & St & P3).
    destruct (adaptive_controlled e g n m1 x1 (t + dt2) d d1) as [o1 r1] eqn:A. cbn [fst snd] in E. injection E as <- ->.
    destruct (IH _ _ _ _ _ _ P3 ltac:(replace (s * (d - (t + dt2))) with (s * (d - t) - s * dt2) by ring; lra) A) as (u & U & Ru & H1 & H2 & H3).
    exists u. split; [exact U |]. split; [eapply run_step; [exact (proj1 P2) | exact St | exact Ru] |]. split; [reflexivity |]. split; [| discriminate].
    cbn [map last]. destruct o1 as [| p o1]; [congruence |]. exact H2.
  - apply Rltb_false in L. cbn [fst snd] in E. injection E as <- <-. exists t. split; [rewrite (sense_abs s _ Hs); apply Rabs_le; lra |].
    split; [apply run_here |]. split; [reflexivity |]. split; [reflexivity | discriminate].
Qed.
(** integrate_const: every multiple of the step up to the end. *)
Lemma const_c_run h d : e < h -> forall n i m x o y fuel, - e <= s * (d - INR i * (s * h)) -> const_controlled e fuel g n i m x 0 d (s * h) = (o, Ok y) ->
  exists l j, o = (x, INR i * (s * h)) :: l /\ map snd l = map (fun a => INR a * (s * h)) (seq (S i) j) /\ legs step s e x (INR i * (s * h)) l
    /\ last (map fst o) x = y /\ - e <= s * (d - INR (i + j) * (s * h)) < h - e.
Proof.
  intros Hl. induction n as [| n IH]; intros i m x o y fuel Hi E; [discriminate |]. cbn [const_controlled] in E. rewrite (const_continues e s h ltac:(lra) Hs) in E. unfold seen in E. rewrite !Rplus_0_l in E.
  destruct (Rleb (h - s * (d - INR i * (s * h))) e) eqn:L.
  - destruct (adaptive_controlled e g fuel m x (INR i * (s * h)) (INR i * (s * h) + s * h) (s * h)) as [o1 r1] eqn:A. cbn [snd] in E. destruct r1 as [x1 | |]; [| discriminate | discriminate].
    assert (St : 0 < s * (s * h)) by (rewrite sense_mul by exact Hs; lra).
    destruct (adaptive_c_run _ _ _ _ _ _ _ _ St ltac:(replace (s * (INR i * (s * h) + s * h - INR i * (s * h))) with (s * (s * h)) by ring; lra) A) as (u & U & Ru & _).
    destruct (const_controlled e fuel g n (S i) m x1 0 d (s * h)) as [o2 r2] eqn:C. cbn [fst snd] in E. injection E as <- ->.
    assert (D : s * (d - INR (S i) * (s * h)) = s * (d - INR i * (s * h)) - h).
    { rewrite S_INR. replace (s * (d - (INR i + 1) * (s * h))) with (s * (d - INR i * (s * h)) - s * (s * h)) by ring. rewrite sense_mul by exact Hs. reflexivity. }
    assert (Lr : h - s * (d - INR i * (s * h)) <= e) by (unfold Rleb in L; destruct Rle_dec; [assumption | discriminate]).
    destruct (IH (S i) m x1 o2 y fuel ltac:(rewrite D; lra) C) as (l & j & -> & M & Lg & Hy & B).
    exists ((x1, INR (S i) * (s * h)) :: l), (S j). split; [reflexivity |]. split; [cbn [map seq]; rewrite M; reflexivity |]. split; [| split].
    + split; [| exact Lg]. exists u. split; [| exact Ru]. rewrite S_INR. replace ((INR i + 1) * (s * h)) with (INR i * (s * h) + s * h) by ring. exact U.
    + cbn [map last fst] in *. rewrite <- Hy. destruct l as [| p l]; [reflexivity |]. cbn [map]. clear. generalize (fst p). induction (map fst l) as [| a l' IH]; intros b; [reflexivity |]. exact (IH a).
    + replace (i + S j)%nat with (S i + j)%nat by lia. exact B.
  - cbn [fst snd] in E. injection E as <- <-. exists [], 0%nat. split; [reflexivity |]. split; [reflexivity |]. split; [exact I |]. split; [reflexivity |].
    rewrite Nat.add_0_r. assert (Lr : e < h - s * (d - INR i * (s * h))) by (unfold Rleb in L; destruct Rle_dec; [discriminate | lra]). lra.
Qed.
End Controlled.
