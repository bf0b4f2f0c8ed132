(** Double precision: sets of points and line strings. *)

From Coq Require Import List Permutation Bool Arith ZArith Reals Lra Lia Psatz Floats.SpecFloat.
From Verif Require Import Result Vec AngleModel FloatSpec FloatProofs FloatProofs2 FloatModel FloatProofs3 FloatProofs4 FloatProofs5 FloatProofs7
  VecProofs Geo3Types Geo3Model Geo3Spec Geo3Proofs Geo2Model Geo2Spec Geo2Proofs Geo64Model Geo64Spec Geo64Proofs Geo64Proofs2 Geo64Proofs3 Geo64Proofs4 Geo64Proofs7
  Dst64Model Dst64Proofs Dst64Proofs2 Pln64Model Pln64Spec Pln64Proofs Pln64Proofs2 Lst64Model.
Import ListNotations.
Local Open Scope R_scope.

(** *** The loops *)
Section Loops.
  Context {A : Type} (sq : option A -> result spec_float) (f : A -> spec_float).
  Lemma closest_spec l : (forall q, In q l -> sq (Some q) = Ok (f q) /\ finite64 (f q)) -> forall best d, finite64 d ->
    exists q, closest64 sq best d (map Some l) = Ok q /\ ((q = best /\ forall q', In q' l -> rval d <= rval (f q')) \/ (In q l /\ rval (f q) <= rval d /\ forall q', In q' l -> rval (f q) <= rval (f q'))).
  Proof.
    induction l as [| a l IH]; intros H best d Fd; cbn [map closest64]; [exists best; split; [reflexivity |]; left; split; [reflexivity | intros _ []] |].
    destruct (H a (or_introl eq_refl)) as [E Fa]. rewrite E. cbn [bind need3]. assert (H' : forall q, In q l -> sq (Some q) = Ok (f q) /\ finite64 (f q)) by (intros q I0; apply H; right; exact I0).
    destruct (SFltb (f a) d) eqn:L.
    - apply (SFltb_val _ _ Fa Fd) in L. destruct (IH H' a (f a) Fa) as (q & Eq & [[-> M] | (I0 & M & N)]); exists q || exists a; (split; [exact Eq |]); right.
      + split; [left; reflexivity |]. split; [lra |]. intros q' [<- | I1]; [lra | apply M, I1].
      + split; [right; exact I0 |]. split; [lra |]. intros q' [<- | I1]; [exact M | apply N, I1].
    - assert (L' : rval d <= rval (f a)) by (apply Rnot_lt_le; intros C; apply (SFltb_val _ _ Fa Fd) in C; congruence).
      destruct (IH H' best d Fd) as (q & Eq & [[-> M] | (I0 & M & N)]); exists q || exists best; (split; [exact Eq |]).
      + left. split; [reflexivity |]. intros q' [<- | I1]; [exact L' | apply M, I1].
      + right. split; [right; exact I0 |]. split; [exact M |]. intros q' [<- | I1]; [lra | apply N, I1].
  Qed.
  Lemma get_closest_spec l : l <> [] -> (forall q, In q l -> sq (Some q) = Ok (f q) /\ finite64 (f q)) ->
    exists q, getClosest64 sq (map Some l) = Ok q /\ In q l /\ forall q', In q' l -> rval (f q) <= rval (f q').
  Proof.
    destruct l as [| a l]; intros N H; [congruence |]. unfold getClosest64. cbn [map]. destruct (H a (or_introl eq_refl)) as [E Fa]. rewrite E. cbn [bind need3].
    destruct (closest_spec l (fun q I0 => H q (or_intror I0)) a (f a) Fa) as (q & Eq & [[-> M] | (I0 & M & M')]); exists q || exists a; (split; [exact Eq |]).
    - split; [left; reflexivity |]. intros q' [<- | I1]; [lra | apply M, I1].
    - split; [right; exact I0 |]. intros q' [<- | I1]; [exact M | apply M', I1].
  Qed.
  (** An undefined point is an error, wherever it is. *)
  Lemma closest_undefined l1 l2 : sq None = Err EUndefined -> (forall q, In q l1 -> sq (Some q) = Ok (f q)) -> forall best d, closest64 sq best d (map Some l1 ++ None :: l2) = Err EUndefined.
  Proof.
    intros U. induction l1 as [| a l1 IH]; intros H best d; cbn [map app closest64]; [rewrite U; reflexivity |]. rewrite (H a (or_introl eq_refl)). cbn [bind need3].
    destruct (SFltb (f a) d); apply IH; intros q I0; apply H; right; exact I0.
  Qed.
  Lemma get_closest_undefined l1 l2 : sq None = Err EUndefined -> (forall q, In q l1 -> sq (Some q) = Ok (f q)) -> getClosest64 sq (map Some l1 ++ None :: l2) = Err EUndefined.
  Proof.
    intros U H. destruct l1 as [| a l1]; unfold getClosest64; cbn [map app]; [rewrite U; reflexivity |]. rewrite (H a (or_introl eq_refl)). cbn [bind need3]. apply closest_undefined; [exact U |]. intros q I0. apply H. right. exact I0.
  Qed.
End Loops.
Lemma all_near_spec {A} (near : option A -> option A -> result bool) (P Q : A -> A -> Prop) l : forall m,
  (forall p q, In p l -> In q m -> exists t, near (Some p) (Some q) = Ok t /\ (t = true -> P p q) /\ (Q p q -> t = true)) -> length l = length m ->
  exists t, all_near64 near (map Some l) (map Some m) = Ok t /\ (t = true -> Forall2 P l m) /\ (Forall2 Q l m -> t = true).
Proof.
  induction l as [| p l IH]; intros [| q m] H E; try discriminate; cbn [map all_near64]; [exists true; split; [reflexivity |]; split; [constructor | reflexivity] |].
  destruct (H p q (or_introl eq_refl) (or_introl eq_refl)) as (t & Et & T1 & T2). rewrite Et. cbn [bind]. destruct t.
  - destruct (IH m (fun a b I0 I1 => H a b (or_intror I0) (or_intror I1)) ltac:(cbn in E; lia)) as (t & E' & U1 & U2). exists t. split; [exact E' |]. split; [intros ->; constructor; [apply T1; reflexivity | apply U1; reflexivity] | intros F; inversion F; subst; apply U2; assumption].
  - exists false. split; [reflexivity |]. split; [discriminate |]. intros F. inversion F; subst. apply T2. assumption.
Qed.
Lemma least_list {A} (D : A -> result spec_float) l : l <> [] -> (forall q, In q l -> exists d, D q = Ok d /\ finite64 d) ->
  exists x, match l with [] => Err EUndefined | q :: r => let! d := D q in let! ds := mapM D r in Ok (min_element64 d ds) end = Ok x /\ finite64 x /\
    (exists q, In q l /\ D q = Ok x) /\ forall q y, In q l -> D q = Ok y -> rval x <= rval y.
Proof.
  intros N H. destruct l as [| p l]; [congruence |].
  set (g := fun q => match D q with Ok y => y | _ => zero64 end). assert (G : forall q, In q (p :: l) -> D q = Ok (g q) /\ finite64 (g q)) by (intros q I0; destruct (H q I0) as (y & E & F); unfold g; rewrite E; split; [reflexivity | exact F]).
  rewrite (proj1 (G p (or_introl eq_refl))). cbn [bind]. rewrite (mapM_ok D g l) by (intros q I0; apply (G q (or_intror I0))). cbn [bind].
  assert (FL : Forall finite64 (map g l)) by (apply Forall_forall; intros x I0; apply in_map_iff in I0; destruct I0 as (q & <- & I0); apply (G q (or_intror I0))).
  destruct (min_element_spec (map g l) (g p) (proj2 (G p (or_introl eq_refl))) FL) as (F & I0 & L & B). eexists. split; [reflexivity |]. split; [exact F |]. split.
  - destruct I0 as [E | I0]; [exists p; split; [left; reflexivity |]; rewrite E; apply (G p (or_introl eq_refl)) |].
    apply in_map_iff in I0. destruct I0 as (q & E & I0). exists q. split; [right; exact I0 |]. rewrite <- E. apply (G q (or_intror I0)).
  - intros q y [<- | Iq] E.
    + rewrite (proj1 (G p (or_introl eq_refl))) in E. injection E as <-. exact L.
    + rewrite (proj1 (G q (or_intror Iq))) in E. injection E as <-. apply B, in_map, Iq.
Qed.

(** *** Squared distances in double precision order distances, up to rounding. *)
Lemma square_order s t D E : 0 <= D -> 0 <= E -> Rabs (s - D * D) <= P2 (-50) * (D * D) + P2 (-500) / 2 -> Rabs (t - E * E) <= P2 (-50) * (E * E) + P2 (-500) / 2 -> s <= t ->
  D <= (1 + P2 (-49)) * E + P2 (-249).
Proof.
  intros PD PE HD HE L. apply Rnot_lt_le. intros C. set (u := P2 (-50)) in *. assert (U : P2 (-49) = 2 * u) by (unfold u; replace 2 with (P2 1) by (rewrite <- P2_Z by lia; reflexivity); rewrite <- P2_add; reflexivity).
  set (w := P2 (-249)) in *. assert (W : P2 (-500) = w * w / 4) by (unfold w; replace (P2 (-249) * P2 (-249)) with (P2 2 * P2 (-500)) by (rewrite <- !P2_add; f_equal); replace (P2 2) with 4 by (rewrite <- P2_Z by lia; reflexivity); field). rewrite U, W in *. pose proof (P2_pos (-249)) as PW. fold w in PW.
  assert (Pu : 0 < u <= / 1024) by (split; [apply P2_pos |]; apply Rle_trans with (P2 (-20)); [apply P2_mono; lia | rewrite P2_10; lra]).
  apply abs_le in HD. apply abs_le in HE. clearbody u w. clear U W.
  assert (S1 : ((1 + 2 * u) * E + w) * ((1 + 2 * u) * E + w) <= D * D) by (apply Rmult_le_compat; try lra; pose proof (Rmult_le_pos u E ltac:(lra) PE); lra).
  assert (S2 : D * D * (1 - u) <= E * E * (1 + u) + w * w / 4) by lra.
  assert (S3 : ((1 + 2 * u) * E + w) * ((1 + 2 * u) * E + w) * (1 - u) <= E * E * (1 + u) + w * w / 4) by (eapply Rle_trans; [apply Rmult_le_compat_r; [lra | exact S1] | exact S2]).
  pose proof (Rmult_lt_0_compat w w PW PW) as WW. pose proof (Rmult_le_pos E E PE PE) as EE. pose proof (Rmult_le_pos E w PE ltac:(lra)) as EW.
  assert (X1 : (1 + u) * (E * E) <= (1 + 2 * u) * (1 + 2 * u) * (1 - u) * (E * E)) by (apply Rmult_le_compat_r; [exact EE | nra]).
  assert (X2 : w * w / 2 <= (1 - u) * (w * w)) by (replace (w * w / 2) with (/ 2 * (w * w)) by field; apply Rmult_le_compat_r; lra).
  assert (X3 : 0 <= 2 * (1 + 2 * u) * (1 - u) * (E * w)) by (apply Rmult_le_pos; [nra | exact EW]).
  replace (((1 + 2 * u) * E + w) * ((1 + 2 * u) * E + w) * (1 - u)) with ((1 + 2 * u) * (1 + 2 * u) * (1 - u) * (E * E) + 2 * (1 + 2 * u) * (1 - u) * (E * w) + (1 - u) * (w * w)) in S3 by ring. lra.
Qed.
Lemma sq_err r p q : finite3 p -> finite3 q -> within3 (P2 200) p -> within3 (P2 200) q ->
  finite64 (fsqnorm3 r (fsub3 q p)) /\ Rabs (rval (fsqnorm3 r (fsub3 q p)) - dist3 (val3 q) (val3 p) * dist3 (val3 q) (val3 p)) <= P2 (-50) * (dist3 (val3 q) (val3 p) * dist3 (val3 q) (val3 p)) + P2 (-500) / 2.
Proof.
  intros Fp Fq Bp Bq. destruct (sub3_approx q p 200 Fq Fp Bq Bp ltac:(lia)) as (FB & BB & AB). destruct (dot_err' r _ _ _ _ (200 + 2) FB FB BB BB AB AB ltac:(lia)) as [Fl El].
  split; [exact Fl |]. unfold fsqnorm3. unfold dist3. eapply Rle_trans; [| exact El]. apply Req_le. f_equal. f_equal. rewrite norm3_sq. reflexivity.
Qed.
Lemma sq_err2 p q : finite2 p -> finite2 q -> within2 (P2 200) p -> within2 (P2 200) q ->
  finite64 (fsqnorm2 (fsub2 q p)) /\ Rabs (rval (fsqnorm2 (fsub2 q p)) - dist2 (val2 q) (val2 p) * dist2 (val2 q) (val2 p)) <= P2 (-50) * (dist2 (val2 q) (val2 p) * dist2 (val2 q) (val2 p)) + P2 (-500) / 2.
Proof.
  intros Fp Fq Bp Bq. destruct (sq_err FirstTwo (emb p) (emb q) (emb_finite _ Fp) (emb_finite _ Fq) (emb_within _ _ Bp) (emb_within _ _ Bq)) as [F E]. rewrite emb_sub, emb_sqnorm in *. destruct (add0_val _ F) as [F' V]. rewrite !emb_val, !plane_dist in E. rewrite <- V in E. split; assumption.
Qed.

(** *** The nearest point *)
Lemma c159_closest r l p : l <> [] -> finite3 p -> within3 (P2 200) p -> Forall (fun q => finite3 q /\ within3 (P2 200) q) l ->
  exists q, ls64_getPointClosestTo r (map Some l) (Some p) = Ok q /\ pset64_getPointClosestTo r l (Some p) = Ok q /\ In q l /\
    forall q', In q' l -> dist3 (val3 q) (val3 p) <= (1 + P2 (-49)) * dist3 (val3 q') (val3 p) + P2 (-249).
Proof.
  intros N Fp Bp H. rewrite Forall_forall in H. assert (G : forall q, In q l -> sq64 r p (Some q) = Ok (fsqnorm3 r (fsub3 q p)) /\ finite64 (fsqnorm3 r (fsub3 q p))) by (intros q I0; destruct (H q I0) as [Fq Bq]; split; [reflexivity | apply (sq_err r p q Fp Fq Bp Bq)]).
  destruct (get_closest_spec (sq64 r p) (fun q => fsqnorm3 r (fsub3 q p)) l N G) as (q & E & I0 & M). exists q. split; [exact E |]. split; [exact E |]. split; [exact I0 |]. intros q' I1. destruct (H q I0) as [Fq Bq]. destruct (H q' I1) as [Fq' Bq'].
  apply (square_order _ _ _ _ (sqrt_pos _) (sqrt_pos _) (proj2 (sq_err r p q Fp Fq Bp Bq)) (proj2 (sq_err r p q' Fp Fq' Bp Bq')) (M q' I1)).
Qed.
Lemma c159_closest_plane l p : l <> [] -> finite2 p -> within2 (P2 200) p -> Forall (fun q => finite2 q /\ within2 (P2 200) q) l ->
  exists q, ls64_getPointClosestTo2 (map Some l) (Some p) = Ok q /\ pset64_getPointClosestTo2 l (Some p) = Ok q /\ In q l /\
    forall q', In q' l -> dist2 (val2 q) (val2 p) <= (1 + P2 (-49)) * dist2 (val2 q') (val2 p) + P2 (-249).
Proof.
  intros N Fp Bp H. rewrite Forall_forall in H. assert (G : forall q, In q l -> sq64_2 p (Some q) = Ok (fsqnorm2 (fsub2 q p)) /\ finite64 (fsqnorm2 (fsub2 q p))) by (intros q I0; destruct (H q I0) as [Fq Bq]; split; [reflexivity | apply (sq_err2 p q Fp Fq Bp Bq)]).
  destruct (get_closest_spec (sq64_2 p) (fun q => fsqnorm2 (fsub2 q p)) l N G) as (q & E & I0 & M). exists q. split; [exact E |]. split; [exact E |]. split; [exact I0 |]. intros q' I1. destruct (H q I0) as [Fq Bq]. destruct (H q' I1) as [Fq' Bq'].
  apply (square_order _ _ _ _ (sqrt_pos _) (sqrt_pos _) (proj2 (sq_err2 p q Fp Fq Bp Bq)) (proj2 (sq_err2 p q' Fp Fq' Bp Bq')) (M q' I1)).
Qed.
(** *** The distance *)
Lemma c159_distance r l p : l <> [] -> finite3 p -> within3 (P2 450) p -> Forall (fun q => finite3 q /\ within3 (P2 450) q) l ->
  exists x, pset64_distanceTo r l (Some p) = Ok x /\ finite64 x /\
    (exists q, In q l /\ Rabs (rval x - dist3 (val3 p) (val3 q)) <= P2 (-50) * dist3 (val3 p) (val3 q) + P2 (-530)) /\
    forall q, In q l -> rval x <= (1 + P2 (-50)) * dist3 (val3 p) (val3 q) + P2 (-530).
Proof.
  intros N Fp Bp H. rewrite Forall_forall in H. destruct (least_list (fun q => pt64_distanceTo r (Some p) (Some q)) l N) as (x & E & F & (q & I0 & Eq) & M); [intros q I0; destruct (H q I0) as [Fq Bq]; destruct (c127_accurate r p q Fp Fq Bp Bq) as (d & E & Fd & _); exists d; split; assumption |].
  exists x. split; [exact E |]. split; [exact F |]. split.
  - exists q. split; [exact I0 |]. destruct (H q I0) as [Fq Bq]. destruct (c127_accurate r p q Fp Fq Bp Bq) as (d & E' & _ & A). rewrite E' in Eq. injection Eq as <-. exact A.
  - intros q' I1. destruct (H q' I1) as [Fq Bq]. destruct (c127_accurate r p q' Fp Fq Bp Bq) as (d & E' & _ & A). pose proof (M q' d I1 E') as L. apply abs_le in A. lra.
Qed.
Lemma c159_distance_plane l p : l <> [] -> finite2 p -> within2 (P2 450) p -> Forall (fun q => finite2 q /\ within2 (P2 450) q) l ->
  exists x, pset64_distanceTo2 l (Some p) = Ok x /\ finite64 x /\
    (exists q, In q l /\ Rabs (rval x - dist2 (val2 p) (val2 q)) <= P2 (-50) * dist2 (val2 p) (val2 q) + P2 (-530)) /\
    forall q, In q l -> rval x <= (1 + P2 (-50)) * dist2 (val2 p) (val2 q) + P2 (-530).
Proof.
  intros N Fp Bp H. rewrite Forall_forall in H. destruct (least_list (fun q => pt64_distanceTo2 (Some p) (Some q)) l N) as (x & E & F & (q & I0 & Eq) & M); [intros q I0; destruct (H q I0) as [Fq Bq]; destruct (c158_point p q Fp Fq Bp Bq) as (d & E & Fd & _); exists d; split; assumption |].
  exists x. split; [exact E |]. split; [exact F |]. split.
  - exists q. split; [exact I0 |]. destruct (H q I0) as [Fq Bq]. destruct (c158_point p q Fp Fq Bp Bq) as (d & E' & _ & A). rewrite E' in Eq. injection Eq as <-. exact A.
  - intros q' I1. destruct (H q' I1) as [Fq Bq]. destruct (c158_point p q' Fp Fq Bp Bq) as (d & E' & _ & A). pose proof (M q' d I1 E') as L. apply abs_le in A. lra.
Qed.
(** *** Nearness of line strings *)
Lemma c159_near r l m tol : l <> [] -> length l = length m -> finite64 tol -> Forall (fun q => finite3 q /\ within3 (P2 450) q) (l ++ m) ->
  exists t, ls64_isNear r (map Some l) (map Some m) (Some tol) = Ok t /\
    (t = true -> Forall2 (fun p q => dist3 (val3 p) (val3 q) <= rval tol * (1 + P2 (-49)) + P2 (-529)) l m) /\
    (Forall2 (fun p q => dist3 (val3 p) (val3 q) * (1 + P2 (-50)) + P2 (-530) <= rval tol) l m -> t = true).
Proof.
  intros N E Ft H. rewrite Forall_forall in H. unfold ls64_isNear. destruct l as [| a l]; [congruence |]. destruct m as [| b m]; [discriminate |]. cbn [map].
  change (Some a :: map Some l) with (map (@Some f3) (a :: l)). change (Some b :: map Some m) with (map (@Some f3) (b :: m)). rewrite !map_length, E, Nat.eqb_refl. cbn [negb]. apply all_near_spec; [| exact E]. intros p q I0 I1.
  destruct (H p ltac:(apply in_or_app; left; exact I0)) as [Fp Bp]. destruct (H q ltac:(apply in_or_app; right; exact I1)) as [Fq Bq]. apply c127_near; assumption.
Qed.
Lemma c159_near_plane l m tol : l <> [] -> length l = length m -> finite64 tol -> Forall (fun q => finite2 q /\ within2 (P2 450) q) (l ++ m) ->
  exists t, ls64_isNear2 (map Some l) (map Some m) (Some tol) = Ok t /\
    (t = true -> Forall2 (fun p q => dist2 (val2 p) (val2 q) <= rval tol * (1 + P2 (-49)) + P2 (-529)) l m) /\
    (Forall2 (fun p q => dist2 (val2 p) (val2 q) * (1 + P2 (-50)) + P2 (-530) <= rval tol) l m -> t = true).
Proof.
  intros N E Ft H. rewrite Forall_forall in H. unfold ls64_isNear2. destruct l as [| a l]; [congruence |]. destruct m as [| b m]; [discriminate |]. cbn [map].
  change (Some a :: map Some l) with (map (@Some f2) (a :: l)). change (Some b :: map Some m) with (map (@Some f2) (b :: m)). rewrite !map_length, E, Nat.eqb_refl. cbn [negb]. apply all_near_spec; [| exact E]. intros p q I0 I1.
  destruct (H p ltac:(apply in_or_app; left; exact I0)) as [Fp Bp]. destruct (H q ltac:(apply in_or_app; right; exact I1)) as [Fq Bq]. apply c158_near; assumption.
Qed.
Lemma c159_sizes r l m l' m' tol : length l <> length m \/ l = [] -> length l' <> length m' \/ l' = [] -> ls64_isNear r l m tol = Ok false /\ ls64_isNear2 l' m' tol = Ok false.
Proof.
  intros H H'. split.
  - destruct l as [| a l]; [reflexivity |]. destruct H as [H | H]; [| discriminate]. destruct m as [| b m]; [reflexivity |]. unfold ls64_isNear. rewrite (proj2 (Nat.eqb_neq _ _) H). reflexivity.
  - destruct l' as [| a l']; [reflexivity |]. destruct H' as [H' | H']; [| discriminate]. destruct m' as [| b m']; [reflexivity |]. unfold ls64_isNear2. rewrite (proj2 (Nat.eqb_neq _ _) H'). reflexivity.
Qed.
(** *** Errors *)
Lemma c159_errors r s s' l l' p p' : pset64_distanceTo r s None = Err EUndefined /\ pset64_distanceTo r [] p = Err EUndefined /\ pset64_getPointClosestTo r s None = Err EUndefined /\ pset64_getPointClosestTo r [] p = Err EUndefined /\
  ls64_getPointClosestTo r l None = Err EUndefined /\ ls64_getPointClosestTo r [] p = Err EUndefined /\
  pset64_distanceTo2 s' None = Err EUndefined /\ pset64_distanceTo2 [] p' = Err EUndefined /\ pset64_getPointClosestTo2 s' None = Err EUndefined /\ pset64_getPointClosestTo2 [] p' = Err EUndefined /\
  ls64_getPointClosestTo2 l' None = Err EUndefined /\ ls64_getPointClosestTo2 [] p' = Err EUndefined.
Proof. destruct p, p'; repeat split. Qed.
Lemma c159_undefined_point r l1 l2 p l1' l2' p' : ls64_getPointClosestTo r (map Some l1 ++ None :: l2) p = Err EUndefined /\ ls64_getPointClosestTo2 (map Some l1' ++ None :: l2') p' = Err EUndefined.
Proof.
  split.
  - destruct p as [p |]; [| reflexivity]. apply (get_closest_undefined (sq64 r p) (fun q => fsqnorm3 r (fsub3 q p))); reflexivity.
  - destruct p' as [p' |]; [| reflexivity]. apply (get_closest_undefined (sq64_2 p') (fun q => fsqnorm2 (fsub2 q p'))); reflexivity.
Qed.
Lemma c159_near_errors r p l m p' l' m' tol : length l = length m -> length l' = length m' ->
  ls64_isNear r (None :: l) (p :: m) tol = Err EUndefined /\ ls64_isNear r (p :: l) (None :: m) tol = Err EUndefined /\ ls64_isNear r (p :: l) (p :: m) None = Err EUndefined /\
  ls64_isNear2 (None :: l') (p' :: m') tol = Err EUndefined /\ ls64_isNear2 (p' :: l') (None :: m') tol = Err EUndefined /\ ls64_isNear2 (p' :: l') (p' :: m') None = Err EUndefined.
Proof.
  intros E E'. unfold ls64_isNear, ls64_isNear2. cbn [length]. rewrite E, E', !Nat.eqb_refl. cbn [negb all_near64]. destruct p, p', tol; repeat split.
Qed.
(** *** Nearness of sets of points *)
Lemma take_near_spec {A} (near : option A -> option A -> result bool) (P Q : A -> A -> Prop) p l :
  (forall q, In q l -> exists t, near (Some p) (Some q) = Ok t /\ (t = true -> P p q) /\ (Q p q -> t = true)) ->
  exists o, take_near64 near p l = Ok o /\ match o with Some r => exists q, P p q /\ Permutation l (q :: r) | None => forall q, In q l -> ~ Q p q end.
Proof.
  induction l as [| a l IH]; intros H; cbn [take_near64]; [exists None; split; [reflexivity | intros _ []] |].
  destruct (H a (or_introl eq_refl)) as (t & E & T1 & T2). rewrite E. cbn [bind]. destruct t; [exists (Some l); split; [reflexivity |]; exists a; split; [apply T1; reflexivity | apply Permutation_refl] |].
  destruct (IH (fun q I0 => H q (or_intror I0))) as (o & E' & O). rewrite E'. cbn [bind]. eexists. split; [reflexivity |]. destruct o as [r |].
  - destruct O as (q & Pq & Pm). exists q. split; [exact Pq |]. eapply Permutation_trans; [apply perm_skip, Pm | apply perm_swap].
  - intros q [<- | I0] C; [specialize (T2 C); discriminate | exact (O q I0 C)].
Qed.
Lemma match_near_spec {A} (near : option A -> option A -> result bool) (P Q : A -> A -> Prop) s : forall t,
  (forall p q, In p s -> In q t -> exists b, near (Some p) (Some q) = Ok b /\ (b = true -> P p q) /\ (Q p q -> b = true)) -> length s = length t ->
  exists b, match_near64 near s t = Ok b /\ (b = true -> exists t', Permutation t t' /\ Forall2 P s t').
Proof.
  induction s as [| p s IH]; intros t H E; cbn [match_near64]; [exists true; split; [reflexivity |]; intros _; exists t; split; [apply Permutation_refl | destruct t; [constructor | discriminate]] |].
  destruct (take_near_spec near P Q p t (fun q I0 => H p q (or_introl eq_refl) I0)) as (o & Eo & O). rewrite Eo. cbn [bind]. destruct o as [r |]; [| exists false; split; [reflexivity | discriminate]].
  destruct O as (q & Pq & Pm). destruct (IH r) as (b & Eb & B); [intros p' q' I0 I1; apply H; [right; exact I0 | apply (Permutation_in _ (Permutation_sym Pm)); right; exact I1] | apply Permutation_length in Pm; cbn in *; lia |].
  exists b. split; [exact Eb |]. intros Hb. destruct (B Hb) as (t' & Pt & F). exists (q :: t'). split; [eapply Permutation_trans; [exact Pm | apply perm_skip, Pt] | constructor; assumption].
Qed.
(** In the order of the points, pairs that are near are matched first. *)
Lemma match_near_self {A} (near : option A -> option A -> result bool) s t : Forall2 (fun p q => near (Some p) (Some q) = Ok true) s t -> match_near64 near s t = Ok true.
Proof. induction 1 as [| p q s t N F IH]; [reflexivity |]. cbn [match_near64 take_near64]. rewrite N. cbn [bind]. exact IH. Qed.
Lemma c159_set_near r l m tol : l <> [] -> length l = length m -> finite64 tol -> Forall (fun q => finite3 q /\ within3 (P2 450) q) (l ++ m) ->
  exists t, pset64_isNear r l m (Some tol) = Ok t /\
    (t = true -> exists m', Permutation m m' /\ Forall2 (fun p q => dist3 (val3 p) (val3 q) <= rval tol * (1 + P2 (-49)) + P2 (-529)) l m') /\
    (Forall2 (fun p q => dist3 (val3 p) (val3 q) * (1 + P2 (-50)) + P2 (-530) <= rval tol) l m -> t = true).
Proof.
  intros N E Ft H. rewrite Forall_forall in H.
  assert (G : forall p q, In p l -> In q m -> exists b, pt64_isNear r (Some p) (Some q) (Some tol) = Ok b /\ (b = true -> dist3 (val3 p) (val3 q) <= rval tol * (1 + P2 (-49)) + P2 (-529)) /\ (dist3 (val3 p) (val3 q) * (1 + P2 (-50)) + P2 (-530) <= rval tol -> b = true)).
  { intros p q I0 I1. destruct (H p ltac:(apply in_or_app; left; exact I0)) as [Fp Bp]. destruct (H q ltac:(apply in_or_app; right; exact I1)) as [Fq Bq]. apply c127_near; assumption. }
  assert (U : pset64_isNear r l m (Some tol) = match_near64 (fun p q => pt64_isNear r p q (Some tol)) l m) by (unfold pset64_isNear; destruct l as [| a l]; [congruence |]; destruct m as [| b m]; [discriminate |]; rewrite E, Nat.eqb_refl; reflexivity). rewrite U. clear U N.
  destruct (match_near_spec (fun p q => pt64_isNear r p q (Some tol)) _ _ l m G E) as (b & Eb & B). exists b. split; [exact Eb |]. split; [exact B |]. intros F.
  rewrite match_near_self in Eb; [injection Eb as <-; reflexivity |]. clear -F G. induction F as [| p q l m D F IH]; constructor; [destruct (G p q (or_introl eq_refl) (or_introl eq_refl)) as (b & E & _ & B); rewrite E, (B D); reflexivity | apply IH; intros p' q' I0 I1; apply G; right; assumption].
Qed.
Lemma c159_set_near_plane l m tol : l <> [] -> length l = length m -> finite64 tol -> Forall (fun q => finite2 q /\ within2 (P2 450) q) (l ++ m) ->
  exists t, pset64_isNear2 l m (Some tol) = Ok t /\
    (t = true -> exists m', Permutation m m' /\ Forall2 (fun p q => dist2 (val2 p) (val2 q) <= rval tol * (1 + P2 (-49)) + P2 (-529)) l m') /\
    (Forall2 (fun p q => dist2 (val2 p) (val2 q) * (1 + P2 (-50)) + P2 (-530) <= rval tol) l m -> t = true).
Proof.
  intros N E Ft H. rewrite Forall_forall in H.
  assert (G : forall p q, In p l -> In q m -> exists b, pt64_isNear2 (Some p) (Some q) (Some tol) = Ok b /\ (b = true -> dist2 (val2 p) (val2 q) <= rval tol * (1 + P2 (-49)) + P2 (-529)) /\ (dist2 (val2 p) (val2 q) * (1 + P2 (-50)) + P2 (-530) <= rval tol -> b = true)).
  { intros p q I0 I1. destruct (H p ltac:(apply in_or_app; left; exact I0)) as [Fp Bp]. destruct (H q ltac:(apply in_or_app; right; exact I1)) as [Fq Bq]. apply c158_near; assumption. }
  assert (U : pset64_isNear2 l m (Some tol) = match_near64 (fun p q => pt64_isNear2 p q (Some tol)) l m) by (unfold pset64_isNear2; destruct l as [| a l]; [congruence |]; destruct m as [| b m]; [discriminate |]; rewrite E, Nat.eqb_refl; reflexivity). rewrite U. clear U N.
  destruct (match_near_spec (fun p q => pt64_isNear2 p q (Some tol)) _ _ l m G E) as (b & Eb & B). exists b. split; [exact Eb |]. split; [exact B |]. intros F.
  rewrite match_near_self in Eb; [injection Eb as <-; reflexivity |]. clear -F G. induction F as [| p q l m D F IH]; constructor; [destruct (G p q (or_introl eq_refl) (or_introl eq_refl)) as (b & E & _ & B); rewrite E, (B D); reflexivity | apply IH; intros p' q' I0 I1; apply G; right; assumption].
Qed.
Lemma c159_set_sizes r l m l' m' tol : length l <> length m \/ l = [] -> length l' <> length m' \/ l' = [] -> pset64_isNear r l m tol = Ok false /\ pset64_isNear2 l' m' tol = Ok false.
Proof.
  intros H H'. split.
  - destruct l as [| a l]; [reflexivity |]. destruct H as [H | H]; [| discriminate]. destruct m as [| b m]; [reflexivity |]. unfold pset64_isNear. rewrite (proj2 (Nat.eqb_neq _ _) H). reflexivity.
  - destruct l' as [| a l']; [reflexivity |]. destruct H' as [H' | H']; [| discriminate]. destruct m' as [| b m']; [reflexivity |]. unfold pset64_isNear2. rewrite (proj2 (Nat.eqb_neq _ _) H'). reflexivity.
Qed.
(** The points are matched in the order of the sets, which can miss a matching: the points 0 and 2 against 1 and -1, with tolerance 1. *)
Lemma c159_set_matching_refuted : exists l m m' tol, Permutation m m' /\ forall r, pset64_isNear r l m (Some tol) = Ok false /\ pset64_isNear r l m' (Some tol) = Ok true.
Proof.
  set (x := fun n => F3 (b64_of_Z n) zero64 zero64). exists [x 0%Z; x 2%Z], [x 1%Z; x (-1)%Z], [x (-1)%Z; x 1%Z], (b64_of_Z 1). split; [apply perm_swap |]. intros []; split; vm_compute; reflexivity.
Qed.
Lemma c159_set_near_errors r p q s t p' q' s' t' : length s = length t -> length s' = length t' -> pset64_isNear r (p :: s) (q :: t) None = Err EUndefined /\ pset64_isNear2 (p' :: s') (q' :: t') None = Err EUndefined.
Proof. intros E E'. unfold pset64_isNear, pset64_isNear2. cbn [length]. rewrite E, E', !Nat.eqb_refl. split; reflexivity. Qed.
