(** Double precision: nearness of whole degrees, and the errors that are raised. *)

From Coq Require Import List Bool Arith ZArith Reals Lra Lia Floats.SpecFloat.
From Verif Require Import Result IntervalModel IntervalSpec IntervalGridModel AngleModel AngleSpec InterpModel FloatSpec FloatProofs FloatProofs2 FloatModel FloatProofs3 FloatProofs4.
Import ListNotations.
Local Open Scope R_scope.

Lemma c121_near_integers x y t (n m : Z) : finite64 x -> finite64 y -> finite64 t -> rval x = IZR n -> rval y = IZR m ->
  (Z.abs n <= 2 ^ 52)%Z -> (Z.abs m <= 2 ^ 52)%Z ->
  exists b, returns (fun fuel => isNear64 fuel (mkA64 (Some x) Degree) (mkA64 (Some y) Degree) (mkA64 (Some t) Degree)) b /\
    (b = true <-> exists k : Z, Rabs (IZR (n - m + k * 360)) <= Rabs (rval t)).
Proof.
  intros Fx Fy Ft Vx Vy Bn Bm. destruct (of_Z_val 360 ltac:(lia)) as [F3 V3].
  destruct (c120_integers x zero64 (b64_of_Z 360) n 0 360 Fx I F3 Vx eq_refl V3 ltac:(lia) ltac:(lia) ltac:(lia) ltac:(lia)) as (w & p & [N W] & Fw & Vw & Bp & Dp).
  destruct (c120_integers y zero64 (b64_of_Z 360) m 0 360 Fy I F3 Vy eq_refl V3 ltac:(lia) ltac:(lia) ltac:(lia) ltac:(lia)) as (w' & q & [N' W'] & Fw' & Vw' & Bq & Dq).
  destruct (sub_int w' w q p Fw' Fw Vw' Vw ltac:(lia)) as [Fd Vd]. destruct (abs_val _ Fd) as [Fa Va]. destruct (abs_val _ Ft) as [Fb Vb].
  rewrite Vd, <- abs_IZR in Va.
  destruct (sub_int (b64_of_Z 360) (SFabs (sf_sub w' w)) 360 (Z.abs (q - p)) F3 Fa V3 Va ltac:(lia)) as [Fc Vc].
  exists (SFleb (SFabs (sf_sub w' w)) (SFabs t) || SFleb (sf_sub (b64_of_Z 360) (SFabs (sf_sub w' w))) (SFabs t)). split.
  - exists (Nat.max N N'). intros fuel H. unfold isNear64. cbn [isDefined64 aval64 aunit64 unit_eqb negb orb].
    unfold in64. cbn [isDefined64 aval64 aunit64 unit_eqb negb orb need64 bind]. rewrite W by lia. cbn [bind]. rewrite W' by lia. reflexivity.
  - rewrite orb_true_iff, !SFleb_val by assumption. rewrite Va, Vb, Vc.
    replace (0 - 360)%Z with (-360)%Z in * by reflexivity. replace (360 - 0)%Z with 360%Z in * by reflexivity. destruct Dp as [a A], Dq as [b B].
    assert (E : (n - m = p - q + (b - a) * 360)%Z) by lia. split.
    + intros [L | L].
      * exists (a - b)%Z. rewrite E, <- abs_IZR. replace (Z.abs (p - q + (b - a) * 360 + (a - b) * 360)) with (Z.abs (q - p)) by lia. exact L.
      * destruct (Z_le_gt_dec p q) as [G | G].
        -- exists (a - b + 1)%Z. rewrite E, <- abs_IZR. replace (Z.abs (p - q + (b - a) * 360 + (a - b + 1) * 360)) with (360 - Z.abs (q - p))%Z by lia. exact L.
        -- exists (a - b - 1)%Z. rewrite E, <- abs_IZR. replace (Z.abs (p - q + (b - a) * 360 + (a - b - 1) * 360)) with (360 - Z.abs (q - p))%Z by lia. exact L.
    + intros [k K]. rewrite E, <- abs_IZR in K. destruct (Z.eq_dec (b - a + k) 0) as [Z0 | Z0].
      * left. replace (Z.abs (q - p)) with (Z.abs (p - q + (b - a) * 360 + k * 360)) by lia. exact K.
      * right. eapply Rle_trans; [| exact K]. apply IZR_le. lia.
Qed.

(** *** Errors *)
(** Every unit but [UUndefined] has a ratio and a turn. *)
Lemma ratio_ok u : u <> UUndefined -> exists r, SIRatio64 u = Ok r.
Proof. destruct u; intros H; try congruence; eexists; reflexivity. Qed.
Lemma unit_eqb_iff u u' : unit_eqb u u' = true <-> u = u'.
Proof. destruct u, u'; split; intros H; cbn in *; congruence. Qed.
Lemma isDefined64_iff a : isDefined64 a = true <-> exists x u, a = mkA64 (Some x) u /\ u <> UUndefined.
Proof.
  destruct a as [[x |] u]; unfold isDefined64; cbn [aval64 aunit64]; split.
  - intros H. exists x, u. split; [reflexivity |]. intros ->. discriminate.
  - intros (x' & u' & E & U). injection E as -> ->. destruct u'; congruence || reflexivity.
  - discriminate.
  - intros (x' & u' & E & U). discriminate.
Qed.
Lemma c122_errors a u : u <> UUndefined ->
  ((exists x v, x <> UUndefined /\ a = mkA64 (Some v) x) -> exists w, in64 a u = Ok w) /\
  (aval64 a = None \/ aunit64 a = UUndefined -> in64 a u = Err EUndefined) /\
  (forall v, in64 (mkA64 (Some v) u) u = Ok v) /\
  (forall v x, x <> UUndefined -> in64 (mkA64 (Some v) x) UUndefined = Err EWrong).
Proof.
  intros U. split; [| split; [| split]].
  - intros (x & v & X & ->). unfold in64. rewrite (proj2 (isDefined64_iff _)) by (exists v, x; split; [reflexivity | exact X]). cbn [negb aval64 aunit64 need64 bind].
    destruct (unit_eqb x u); [eexists; reflexivity |]. destruct (ratio_ok x X) as [r ->], (ratio_ok u U) as [r' ->]. eexists; reflexivity.
  - intros H. unfold in64, isDefined64. destruct a as [[x |] x']; cbn [aval64 aunit64] in *; [| reflexivity]. destruct H as [H | ->]; [discriminate |]. reflexivity.
  - intros v. unfold in64. rewrite (proj2 (isDefined64_iff _)) by (exists v, u; split; [reflexivity | exact U]). cbn [negb aval64 aunit64 need64 bind].
    rewrite (proj2 (unit_eqb_iff u u) eq_refl). reflexivity.
  - intros v x X. unfold in64. rewrite (proj2 (isDefined64_iff _)) by (exists v, x; split; [reflexivity | exact X]). cbn [negb aval64 aunit64 need64 bind].
    destruct x; congruence || reflexivity.
Qed.
Lemma c120_errors fuel u a lo hi : u <> UUndefined ->
  (lo = None \/ hi = None -> in_range64 fuel u a lo hi = Err EUndefined) /\
  (forall l h, lo = Some l -> hi = Some h -> finite64 l -> finite64 h -> Rabs (rval l) <= IZR (2 ^ 900) -> Rabs (rval h) <= IZR (2 ^ 900) ->
     (forall t, turn64 u = Ok t -> nearest64 (rval h - rval l) t -> False) -> in_range64 fuel u a lo hi = Err EUndefined) /\
  (aval64 a = None \/ aunit64 a = UUndefined -> in_range64 fuel u a lo hi = Err EUndefined).
Proof.
  intros U. destruct (turn64_bounds u U) as (t & T & Ft & Bt). split; [| split].
  - intros [-> | ->]; [reflexivity |]. unfold in_range64. destruct lo; reflexivity.
  - intros l h -> -> Fl Fh Bl Bh H. unfold in_range64. cbn [need64 bind]. rewrite T. cbn [bind]. destruct (SFeqb (sf_sub h l) t) eqn:E; [| reflexivity]. exfalso.
    apply (H t T). rewrite P2_Z in Bl, Bh by lia.
    assert (S : Rabs (rval h - rval l) <= P2 1023).
    { apply abs_le in Bl. apply abs_le in Bh. pose proof (P2_mono 901 1023 ltac:(lia)) as Q. change 901%Z with (900 + 1)%Z in Q. rewrite P2_succ in Q. apply abs_of. lra. }
    destruct (SFsub_rounded h l Fh Fl S) as [[Fd ND] _]. apply SFeqb_val in E; [| assumption..].
    split; [exact Ft |]. intros w Fw. rewrite <- E. apply ND, Fw.
  - intros H. unfold in_range64. destruct lo as [l |]; [| reflexivity]. destruct hi as [h |]; [| reflexivity]. cbn [need64 bind]. rewrite T. cbn [bind].
    destruct (SFeqb (sf_sub h l) t); [| reflexivity]. rewrite (proj1 (proj2 (c122_errors a u U)) H). reflexivity.
Qed.
Lemma c121_undefined fuel a b : aunit64 a = UUndefined \/ aunit64 b = UUndefined -> angle_eq64 fuel a b = Ok false.
Proof.
  intros H. unfold angle_eq64. destruct H as [-> | ->]; [reflexivity |]. rewrite orb_true_r. reflexivity.
Qed.
Lemma c121_near_undefined fuel a b tol : (exists x, In x [a; b; tol] /\ (aval64 x = None \/ aunit64 x = UUndefined)) -> isNear64 fuel a b tol = Err EUndefined.
Proof.
  intros (x & X & H). assert (D : isDefined64 x = false).
  { unfold isDefined64. destruct x as [[v |] u]; cbn [aval64 aunit64] in *; [| reflexivity]. destruct H as [H | ->]; [discriminate | reflexivity]. }
  unfold isNear64. cbn [In] in X. destruct X as [<- | [<- | [<- | []]]]; rewrite D; cbn [negb orb].
  - reflexivity.
  - rewrite orb_true_r. reflexivity.
  - destruct (negb (isDefined64 a) || negb (isDefined64 b)); reflexivity.
Qed.
Lemma c125_undefined a b : aunit64 a = UUndefined \/ aunit64 b = UUndefined \/ aval64 a = None \/ aval64 b = None ->
  angle_add64 a b = Err EUndefined /\ angle_sub64 a b = Err EUndefined.
Proof.
  intros H. unfold angle_add64, angle_sub64. destruct (unit_eqb (aunit64 a) UUndefined || unit_eqb (aunit64 b) UUndefined) eqn:E; [split; reflexivity |].
  apply orb_false_iff in E. destruct E as [Ea Eb]. assert (A : aunit64 a <> UUndefined) by (intros Q; rewrite Q in Ea; discriminate). assert (B : aunit64 b <> UUndefined) by (intros Q; rewrite Q in Eb; discriminate).
  destruct H as [H | [H | [H | H]]]; [congruence | congruence | |].
  - unfold converted64. destruct (unit_eqb (aunit64 a) (aunit64 b)) eqn:Q.
    + destruct (aval64 b); cbn [need64 bind]; [rewrite H |]; split; reflexivity.
    + destruct (aval64 b) as [v |] eqn:V.
      * destruct (proj1 (c122_errors b (aunit64 a) A)) as [w ->]; [exists (aunit64 b), v; split; [exact B |]; destruct b as [v' u']; cbn in *; congruence |].
        cbn [bind]. rewrite H. split; reflexivity.
      * rewrite (proj1 (proj2 (c122_errors b (aunit64 a) A)) (or_introl V)). split; reflexivity.
  - unfold converted64. destruct (unit_eqb (aunit64 a) (aunit64 b)) eqn:Q.
    + rewrite H. split; reflexivity.
    + rewrite (proj1 (proj2 (c122_errors b (aunit64 a) A)) (or_introl H)). split; reflexivity.
Qed.
Lemma c71_zero_step fuel t l u s : finite64 s -> rval s = 0 -> withStep64 fuel t l u s = Err ERuntime.
Proof.
  intros F V. unfold withStep64. rewrite (proj2 (SFeqb_val s zero64 F I)); [reflexivity |]. rewrite V. reflexivity.
Qed.
Lemma c123_errors t l u n : ((n < 2)%nat -> withSize64 t l u n = Err EWrong) /\ withSize64 TUndefined l u n = Err EWrong.
Proof.
  unfold withSize64. split.
  - intros H. apply Nat.ltb_lt in H. rewrite H. reflexivity.
  - destruct (Nat.ltb n 2); reflexivity.
Qed.
