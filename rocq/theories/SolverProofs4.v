(** Proofs about the numerical solver: what is observed, equality of solvers. *)

From Coq Require Import List Bool Reals Lra Lia Psatz.
From Verif Require Import Result DOrder RotModel RotProofs SolverModel SolverSpec SolverProofs SolverProofs2 SolverProofs3.
Import ListNotations.
Local Open Scope R_scope.

(** *** Observations *)
Lemma times_simple_seen {X} e fuel (g : engine X) x t times dt c : exists o, fst (times_simple e fuel g x t times dt c) = (x, t) :: o.
Proof. destruct times; cbn [times_simple seen fst]; eexists; reflexivity. Qed.
Lemma times_controlled_seen {X} e fuel (g : engine X) m x t times dt : exists o, fst (times_controlled e fuel g m x t times dt) = (x, t) :: o.
Proof. destruct times; cbn [times_controlled seen fst]; eexists; reflexivity. Qed.
Lemma single_false (t : R) times start : t :: times <> [start] -> Nat.eqb (length (t :: times)) 1 && Reqb t start = false.
Proof.
  intros N. destruct times as [| a l]; [| reflexivity]. cbn [length Nat.eqb andb]. destruct (Reqb t start) eqn:E; [| reflexivity]. apply Reqb_iff in E. subst. congruence.
Qed.
Lemma c70_array {X} e fuel (g : engine X) so x start times so' l : times <> [start] -> so_integrate_times e fuel g so x start times = (so', Ok l) ->
  so_observed so' = (x, start) :: l.
Proof.
  intros N E. destruct times as [| t times]; [discriminate |]. unfold so_integrate_times in E. rewrite (single_false t times start N) in E.
  destruct signed_step as [dt | |]; [| discriminate | discriminate].
  assert (K : forall p : traced X, (exists o, fst p = (x, start) :: o) -> (let '(o, r) := p in observing so o (let! _ := r in Ok (tl o))) = (so', Ok l) -> so_observed so' = (x, start) :: l).
  { intros [o r] [o' H] F. cbn [fst] in H. subst o. destruct r; [| discriminate | discriminate]. unfold observing in F. cbn [bind tl] in F. injection F as <- <-. reflexivity. }
  destruct (so_stepper so); [exact (K _ (times_simple_seen e fuel g x start (t :: times) dt dt) E) | ..];
    (destruct made as [m | |]; [exact (K _ (times_controlled_seen e fuel g m x start (t :: times) dt) E) | discriminate | discriminate]).
Qed.
(** One state for each time asked for, in order. *)
Lemma times_simple_tags {X} e fuel (g : engine X) times : forall x t dt c o y, times_simple e fuel g x t times dt c = (o, Ok y) -> map snd o = t :: times.
Proof.
  induction times as [| u times IH]; intros x t dt c o y E; cbn [times_simple] in E; [injection E as <- _; reflexivity |].
  unfold seen in E. destruct to_time as [[x1 c1] | |]; [| discriminate | discriminate].
  destruct (times_simple e fuel g x1 u times dt c1) as [o1 r1] eqn:F. cbn [fst snd] in E. injection E as <- ->. cbn [map snd]. f_equal. exact (IH _ _ _ _ _ _ F).
Qed.
Lemma times_controlled_tags {X} e fuel (g : engine X) times : forall m x t dt o y, times_controlled e fuel g m x t times dt = (o, Ok y) -> map snd o = t :: times.
Proof.
  induction times as [| u times IH]; intros m x t dt o y E; cbn [times_controlled] in E; [injection E as <- _; reflexivity |].
  unfold seen in E. destruct to_time_c as [[[m1 x1] c1] | |]; [| discriminate | discriminate].
  destruct (times_controlled e fuel g m1 x1 u times c1) as [o1 r1] eqn:F. cbn [fst snd] in E. injection E as <- ->. cbn [map snd]. f_equal. exact (IH _ _ _ _ _ _ F).
Qed.
Lemma c67_tags {X} e fuel (g : engine X) so x start times so' l : so_integrate_times e fuel g so x start times = (so', Ok l) -> map snd l = times.
Proof.
  intros E. destruct times as [| t times]; [discriminate |]. unfold so_integrate_times in E.
  destruct (Nat.eqb (length (t :: times)) 1 && Reqb t start) eqn:S.
  - apply andb_true_iff in S. destruct S as [S T]. apply Nat.eqb_eq in S. apply Reqb_iff in T. destruct times; [| discriminate]. unfold observing in E. injection E as _ <-. subst. reflexivity.
  - destruct signed_step as [dt | |]; [| discriminate | discriminate].
    assert (K : forall p : traced X, (forall o y, p = (o, Ok y) -> map snd o = start :: t :: times) -> (let '(o, r) := p in observing so o (let! _ := r in Ok (tl o))) = (so', Ok l) -> map snd l = t :: times).
    { intros [o r] H F. destruct r as [y | |]; [| discriminate | discriminate]. unfold observing in F. cbn [bind] in F. injection F as _ <-. specialize (H o y eq_refl). destruct o as [| p o]; [discriminate |]. cbn [tl map] in *. injection H as _ H. exact H. }
    destruct (so_stepper so); [refine (K (times_simple e fuel g x start (t :: times) dt dt) _ E); intros o y; apply times_simple_tags | ..];
      (destruct made as [m | |]; [refine (K (times_controlled e fuel g m x start (t :: times) dt) _ E); intros o y; apply times_controlled_tags | discriminate | discriminate]).
Qed.
Lemma c70_single_refuted {X} e fuel (g : engine X) x start : exists so' : solver X, so_isDefined so' = true
  /\ so_integrate_times e fuel g so_Default x start [start] = (so', Ok [(x, start)]) /\ so_observations so' = Ok [].
Proof. exists so_Default. split; [reflexivity |]. split; [| reflexivity]. unfold so_integrate_times. cbn [length Nat.eqb andb]. rewrite reqb_refl. reflexivity. Qed.
Lemma c70_fresh {X} e fuel (g : engine X) l k h rel abs o o' x start times d stop :
  let so := mkSolver l k h rel abs o in let so' := mkSolver l k h rel abs o' in
  so_integrate_times e fuel g so x start times = so_integrate_times e fuel g so' x start times
  /\ so_integrate_duration e fuel g so x d = so_integrate_duration e fuel g so' x d
  /\ so_integrate_time e fuel g so x start stop = so_integrate_time e fuel g so' x start stop
  /\ so_integrate_durations e fuel g so x times = so_integrate_durations e fuel g so' x times.
Proof. intros so so'. repeat split; reflexivity. Qed.
Lemma c70_kept {X} e fuel (g : engine X) so x start times d :
  let same (s : solver X) := so_log s = so_log so /\ so_stepper s = so_stepper so /\ so_step s = so_step so /\ so_rel s = so_rel so /\ so_abs s = so_abs so in
  same (fst (so_integrate_times e fuel g so x start times)) /\ same (fst (so_integrate_duration e fuel g so x d)).
Proof.
  intros same. assert (K : forall A o (r : result A), same (fst (observing so o r))) by (intros A o r; repeat split; reflexivity). split.
  - destruct times as [| t times]; [apply K |]. unfold so_integrate_times. destruct (_ && _); [apply K |]. destruct signed_step as [dt | |]; [| apply K | apply K].
    destruct (so_stepper so) eqn:Es; [destruct times_simple; apply K | ..]; (destruct made as [m | |]; [destruct times_controlled; apply K | apply K | apply K]).
  - unfold so_integrate_duration. destruct Reqb; [apply K |]. destruct signed_step as [dt | |]; [| apply K | apply K].
    destruct (so_stepper so) eqn:Es; [destruct adaptive_simple; apply K | ..];
      (destruct made as [m | |]; [destruct (so_log so) eqn:El; [destruct adaptive_controlled | destruct const_controlled | destruct adaptive_controlled]; apply K | apply K | apply K]).
Qed.
Lemma c70_empty {X} e fuel (g : engine X) so x start : exists so', so_integrate_times e fuel g so x start [] = (so', Err ERuntime) /\ so_observed so' = [].
Proof. eexists. split; reflexivity. Qed.
(** The first and last observations of a loop. *)
Definition ends {X} (x : X) (t : R) (p : traced X) : Prop :=
  (exists o, fst p = (x, t) :: o) /\ (forall y, snd p = Ok y -> exists u, last (map Some (fst p)) None = Some (y, u)).
Lemma last_cons {A} (a : A) l : l <> [] -> last (map Some (a :: l)) None = last (map Some l) None.
Proof. destruct l; [congruence | reflexivity]. Qed.
Lemma adaptive_c_ends {X} e (g : engine X) stop n : forall m x t dt, (n <> 0)%nat -> ends x t (adaptive_controlled e g n m x t stop dt).
Proof.
  induction n as [| n IH]; intros m x t dt N; [congruence |]. cbn [adaptive_controlled]. unfold seen, ends. cbn [fst snd]. split; [eexists; reflexivity |]. intros y E.
  destruct less_sign; [| injection E as <-; eexists; reflexivity].
  destruct tries as [[[[m1 x1] t1] d1] | |]; [| discriminate | discriminate]. destruct n as [| n]; [discriminate |].
  destruct (IH m1 x1 t1 d1 ltac:(lia)) as [[o F] L]. destruct (L y E) as [u U]. exists u. rewrite last_cons by (rewrite F; discriminate). exact U.
Qed.
Lemma const_c_ends {X} e fuel (g : engine X) start stop dt n : forall i m x, (n <> 0)%nat -> ends x (start + INR i * dt) (const_controlled e fuel g n i m x start stop dt).
Proof.
  induction n as [| n IH]; intros i m x N; [congruence |]. cbn [const_controlled]. unfold seen, ends. cbn [fst snd]. split; [eexists; reflexivity |]. intros y E.
  destruct less_eq_sign; [| injection E as <-; eexists; reflexivity].
  destruct (snd (adaptive_controlled e g fuel m x (start + INR i * dt) (start + INR i * dt + dt) dt)) as [x1 | |]; [| discriminate | discriminate]. destruct n as [| n]; [discriminate |].
  destruct (IH (S i) m x1 ltac:(lia)) as [[o F] L]. destruct (L y E) as [u U]. exists u. rewrite last_cons by (rewrite F; discriminate). exact U.
Qed.
Lemma const_ends {X} e (g : engine X) start stop dt n : forall i x, (n <> 0)%nat ->
  (exists o, fst (const_simple e g n i x start stop dt) = (x, start + INR i * dt) :: o)
  /\ forall y j, snd (const_simple e g n i x start stop dt) = Ok (y, j) -> exists u, last (map Some (fst (const_simple e g n i x start stop dt))) None = Some (y, u).
Proof.
  induction n as [| n IH]; intros i x N; [congruence |]. cbn [const_simple]. unfold seen. cbn [fst snd]. split; [eexists; reflexivity |]. intros y j E.
  destruct less_eq_sign; [| injection E as <- <-; eexists; reflexivity]. destruct n as [| n]; [discriminate |].
  destruct (IH (S i) (rk4_step g x (start + INR i * dt) dt) ltac:(lia)) as [[o F] L]. destruct (L y j E) as [u U]. exists u. rewrite last_cons by (rewrite F; discriminate). exact U.
Qed.
Lemma adaptive_ends {X} e fuel (g : engine X) x start stop dt : (fuel <> 0)%nat -> ends x start (adaptive_simple e fuel g x start stop dt).
Proof.
  intros N. destruct (const_ends e g start stop dt fuel 0 x N) as [[o F] L]. cbn [INR] in F. rewrite Rmult_0_l, Rplus_0_r in F.
  unfold adaptive_simple, then_, ends. destruct (const_simple e g fuel 0 x start stop dt) as [o1 r1]. cbn [fst snd] in *. subst o1. destruct r1 as [[y j] | |]; cbn [fst snd].
  - destruct less_sign; cbn [fst snd]; (split; [eexists; reflexivity |]); intros z E; injection E as <-.
    + exists stop. rewrite map_app. apply last_last.
    + rewrite app_nil_r. exact (L y j eq_refl).
  - split; [eexists; reflexivity | discriminate].
  - split; [eexists; reflexivity | discriminate].
Qed.
Lemma last_some {A} (l : list A) : forall a b z, last (map Some (a :: l)) None = Some z -> last (a :: l) b = z.
Proof.
  induction l as [| c l IH]; intros a b z U; [cbn in *; congruence |]. rewrite last_cons in U by discriminate. exact (IH c b z U).
Qed.
Lemma c70_duration {X} e fuel (g : engine X) so x d so' y t : d <> 0 -> so_integrate_duration e fuel g so x d = (so', Ok (y, t)) ->
  exists l u, so_observed so' = (x, 0) :: l /\ last ((x, 0) :: l) (x, 0) = (y, u).
Proof.
  intros Hd E. unfold so_integrate_duration in E. rewrite (reqb_ne d 0 Hd) in E. destruct signed_step as [dt | |]; [| discriminate | discriminate].
  assert (K : forall p : traced X, ends x 0 p -> (let '(o, r) := p in observing so o (let! y := r in Ok (y, d))) = (so', Ok (y, t)) -> exists l u, so_observed so' = (x, 0) :: l /\ last ((x, 0) :: l) (x, 0) = (y, u)).
  { intros [o r] [[l H] L] F. cbn [fst snd] in *. subst o. destruct r as [z | |]; [| discriminate | discriminate]. unfold observing in F. cbn [bind] in F. injection F as <- <- <-.
    destruct (L z eq_refl) as [u U]. exists l, u. split; [reflexivity |]. exact (last_some l (x, 0) (x, 0) (z, u) U). }
  assert (N : fuel <> 0%nat). { intros ->. destruct (so_stepper so); [discriminate | ..]; (destruct made; [destruct (so_log so); discriminate | discriminate | discriminate]). }
  destruct (so_stepper so); [exact (K _ (adaptive_ends e fuel g x 0 d dt N) E) | ..];
    (destruct made as [m | |]; [| discriminate | discriminate]; assert (C := const_c_ends e fuel g 0 d dt fuel 0 m x N); cbn [INR] in C; rewrite Rmult_0_l, Rplus_0_l in C;
     destruct (so_log so); [exact (K _ (adaptive_c_ends e g d fuel m x 0 dt N) E) | exact (K _ C E) | exact (K _ (adaptive_c_ends e g d fuel m x 0 dt N) E)]).
Qed.
Lemma c70_access {X} (so : solver X) :
  (so_isDefined so = true -> so_observations so = Ok (so_observed so)) /\ (so_isDefined so = false -> so_observations so = Err EUndefined).
Proof. unfold so_observations. split; intros ->; reflexivity. Qed.

(** *** Equality *)
Lemma log_eqb_iff a b : log_eqb a b = true <-> a = b.
Proof. destruct a, b; cbn; split; congruence. Qed.
Lemma stepper_eqb_iff a b : stepper_eqb a b = true <-> a = b.
Proof. destruct a, b; cbn; split; congruence. Qed.
Lemma c96_equality {X} (s t : solver X) : so_eq s t = true <->
  so_log s = so_log t /\ so_stepper s = so_stepper t
  /\ exists h r a, so_step s = Some h /\ so_step t = Some h /\ so_rel s = Some r /\ so_rel t = Some r /\ so_abs s = Some a /\ so_abs t = Some a.
Proof.
  unfold so_eq, so_isDefined. split.
  - destruct (so_step s) as [h |], (so_rel s) as [r |], (so_abs s) as [a |]; try discriminate.
    destruct (so_step t) as [h' |], (so_rel t) as [r' |], (so_abs t) as [a' |]; try discriminate. cbn [negb orb real_eqb]. rewrite !andb_true_iff, log_eqb_iff, stepper_eqb_iff, !Reqb_iff.
    intros ((((-> & ->) & ->) & ->) & ->). split; [reflexivity |]. split; [reflexivity |]. exists h', r', a'. repeat split.
  - intros (L & K & h & r & a & -> & -> & -> & -> & -> & ->). cbn [negb orb real_eqb]. rewrite !andb_true_iff, log_eqb_iff, stepper_eqb_iff, !Reqb_iff. repeat split; assumption.
Qed.
Lemma c96_equivalence {X} (s t u : solver X) : (so_eq s s = so_isDefined s) /\ so_eq s t = so_eq t s /\ (so_eq s t = true -> so_eq t u = true -> so_eq s u = true).
Proof.
  split; [| split].
  - unfold so_eq, so_isDefined. destruct (so_step s), (so_rel s), (so_abs s); try reflexivity. cbn [negb orb real_eqb]. rewrite !reqb_refl, (proj2 (log_eqb_iff _ _) eq_refl), (proj2 (stepper_eqb_iff _ _) eq_refl). reflexivity.
  - assert (K : forall a b : solver X, so_eq a b = true -> so_eq b a = true).
    { intros a b H. apply c96_equality in H. destruct H as (L & K & h & r & c & H). apply c96_equality. split; [congruence |]. split; [congruence |]. exists h, r, c. tauto. }
    destruct (so_eq s t) eqn:E; [symmetry; apply K; exact E |]. destruct (so_eq t s) eqn:F; [apply K in F; congruence | reflexivity].
  - intros A B. apply c96_equality in A, B. destruct A as (L & K & h & r & c & A1 & A2 & A3 & A4 & A5 & A6), B as (L' & K' & h' & r' & c' & B1 & B2 & B3 & B4 & B5 & B6).
    apply c96_equality. split; [congruence |]. split; [congruence |]. exists h, r, c. repeat split; congruence.
Qed.
Lemma c96_accessors {X} l k h r a : let s : solver X := Solver l k h r a in
  (so_isDefined s = true <-> h <> None /\ r <> None /\ a <> None)
  /\ (so_isDefined s = true -> so_getLogType s = Ok l /\ so_getStepperType s = Ok k /\ so_getTimeStep s = Ok h /\ so_getRelativeTolerance s = Ok r /\ so_getAbsoluteTolerance s = Ok a /\ so_observations s = Ok [])
  /\ (so_isDefined s = false -> so_getLogType s = Err EUndefined /\ so_getStepperType s = Err EUndefined /\ so_getTimeStep s = Err EUndefined /\ so_getRelativeTolerance s = Err EUndefined
      /\ so_getAbsoluteTolerance s = Err EUndefined /\ so_observations s = Err EUndefined).
Proof.
  intros s. unfold so_getLogType, so_getStepperType, so_getTimeStep, so_getRelativeTolerance, so_getAbsoluteTolerance, so_observations. split; [| split].
  - unfold s, Solver, so_isDefined. cbn. destruct h, r, a; split; intros H; try discriminate; try (destruct H as (H1 & H2 & H3); congruence); repeat split; discriminate.
  - intros ->. repeat split.
  - intros ->. repeat split.
Qed.
(** The absolute tolerance is given to the stepper first, the relative one second: a run depends only on the memory made with them in this order. *)
Lemma c96_tolerances {X} e fuel (g : engine X) (f : stepper_type -> R -> R -> memory g) (s : solver X) a r x start times d :
  so_abs s = Some a -> so_rel s = Some r -> f (so_stepper s) a r = fresh g (so_stepper s) a r ->
  let g' := mkEngine (rk4_step g) (memory g) f (try_step g) in
  so_integrate_times e fuel g' s x start times = so_integrate_times e fuel g s x start times /\ so_integrate_duration e fuel g' s x d = so_integrate_duration e fuel g s x d.
Proof.
  intros A B F g'. destruct g as [k m fr ts]. cbn [rk4_step memory try_step fresh] in *.
  assert (M : made g' s = made (mkEngine k m fr ts) s) by (unfold made; rewrite A, B; cbn [to_double bind fresh g']; rewrite F; reflexivity).
  assert (E1 : times_simple e fuel g' = times_simple e fuel (mkEngine k m fr ts)) by reflexivity.
  assert (E2 : times_controlled e fuel g' = times_controlled e fuel (mkEngine k m fr ts)) by reflexivity.
  assert (E3 : adaptive_simple e fuel g' = adaptive_simple e fuel (mkEngine k m fr ts)) by reflexivity.
  assert (E0 : forall n, tries g' n = tries (mkEngine k m fr ts) n) by reflexivity.
  assert (E5 : forall n q y t u h, adaptive_controlled e g' n q y t u h = adaptive_controlled e (mkEngine k m fr ts) n q y t u h).
  { induction n as [| n IH]; intros; [reflexivity |]. cbn [adaptive_controlled]. rewrite E0. destruct (less_sign _ _ _ _); [| reflexivity].
    destruct (tries _ _ _ _ _ _) as [[[[? ?] ?] ?] | |]; [| reflexivity | reflexivity]. rewrite IH. reflexivity. }
  assert (E4 : forall n i q y t u h, const_controlled e fuel g' n i q y t u h = const_controlled e fuel (mkEngine k m fr ts) n i q y t u h).
  { induction n as [| n IH]; intros; [reflexivity |]. cbn [const_controlled]. rewrite E5. destruct (less_eq_sign _ _ _ _); [| reflexivity].
    destruct (snd _); [| reflexivity | reflexivity]. rewrite IH. reflexivity. }
  unfold so_integrate_times, so_integrate_duration. rewrite E1, E2, E3, M. split; [reflexivity |].
  destruct (Reqb d 0); [reflexivity |]. destruct (signed_step (so_step s) d) as [dt | |]; [| reflexivity | reflexivity].
  destruct (so_stepper s); [reflexivity | ..]; (destruct (made (mkEngine k m fr ts) s) as [q | |]; [| reflexivity | reflexivity]); destruct (so_log s); first [rewrite E4 | rewrite E5]; reflexivity.
Qed.
Lemma c96_constants {X} : so_isDefined (@so_Undefined X) = false /\ so_isDefined (@so_Default X) = true /\ so_eq (@so_Default X) so_Default = true
  /\ so_eq (@so_Undefined X) so_Undefined = false.
Proof. split; [reflexivity |]. split; [reflexivity |]. split; [rewrite (proj1 (c96_equivalence so_Default so_Default so_Default)) |]; reflexivity. Qed.
