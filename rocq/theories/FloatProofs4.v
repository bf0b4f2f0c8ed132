(** Angles in double precision: integers, ranges, equality and nearness. *)

From Coq Require Import List Bool ZArith Znumtheory Reals Lra Lia Floats.SpecFloat.
From Verif Require Import Result AngleModel AngleSpec FloatSpec FloatProofs FloatProofs2 FloatModel FloatProofs3.
Local Open Scope R_scope.

(** *** Integers *)
Lemma of_Z_val n : (Z.abs n <= 2 ^ 53)%Z -> finite64 (b64_of_Z n) /\ rval (b64_of_Z n) = IZR n.
Proof.
  intros H. assert (U : Rabs (IZR n * P2 0) <= P2 1023).
  { rewrite P2_0, Rmult_1_r, <- abs_IZR. apply Rle_trans with (IZR (2 ^ 53)); [apply IZR_le, H |]. rewrite P2_Z by lia. apply P2_mono. lia. }
  destruct (normalize_rounded n 0 false U) as [N _]. split; [exact (proj1 N) |].
  rewrite P2_0, Rmult_1_r in N. apply (nearest_exact _ _ N). apply integer_representable, H.
Qed.
Lemma int_small n : (Z.abs n <= 2 ^ 53)%Z -> Rabs (IZR n) <= P2 1000.
Proof.
  intros H. rewrite <- abs_IZR. apply Rle_trans with (IZR (2 ^ 53)); [apply IZR_le, H |]. rewrite P2_Z by lia. apply P2_mono. lia.
Qed.
Lemma add_int x y n m : finite64 x -> finite64 y -> rval x = IZR n -> rval y = IZR m -> (Z.abs (n + m) <= 2 ^ 53)%Z ->
  finite64 (sf_add x y) /\ rval (sf_add x y) = IZR (n + m).
Proof.
  intros Fx Fy Vx Vy B. assert (T : rval x + rval y = IZR (n + m)) by (rewrite plus_IZR; lra).
  assert (U : Rabs (rval x + rval y) <= P2 1023) by (rewrite T; eapply Rle_trans; [apply int_small, B | apply P2_mono; lia]).
  destruct (SFadd_rounded x y Fx Fy U) as [N _]. split; [exact (proj1 N) |]. rewrite T in N. apply (nearest_exact _ _ N). apply integer_representable, B.
Qed.
Lemma sub_int x y n m : finite64 x -> finite64 y -> rval x = IZR n -> rval y = IZR m -> (Z.abs (n - m) <= 2 ^ 53)%Z ->
  finite64 (sf_sub x y) /\ rval (sf_sub x y) = IZR (n - m).
Proof.
  intros Fx Fy Vx Vy B. assert (T : rval x - rval y = IZR (n - m)) by (rewrite minus_IZR; lra).
  assert (U : Rabs (rval x - rval y) <= P2 1023) by (rewrite T; eapply Rle_trans; [apply int_small, B | apply P2_mono; lia]).
  destruct (SFsub_rounded x y Fx Fy U) as [N _]. split; [exact (proj1 N) |]. rewrite T in N. apply (nearest_exact _ _ N). apply integer_representable, B.
Qed.
Lemma up64_int range lo l d : finite64 range -> finite64 lo -> rval range = IZR d -> rval lo = IZR l -> (0 < d)%Z -> (Z.abs (l + d) <= 2 ^ 53)%Z ->
  forall fuel v n w, finite64 v -> rval v = IZR n -> (Z.abs n <= 2 ^ 53)%Z -> up_turns64 fuel v range lo = Ok w ->
  finite64 w /\ exists k, rval w = IZR (n + k * d) /\ (Z.abs (n + k * d) <= 2 ^ 53)%Z /\ (l <= n + k * d)%Z.
Proof.
  intros Fr Fl Vr Vl D B fuel. induction fuel as [| f IH]; intros v n w Fv Vv Bn E; [discriminate |]. cbn [up_turns64] in E.
  destruct (Z.lt_ge_cases n l) as [C | C].
  - rewrite ltb_t in E; [| assumption.. | rewrite Vv, Vl; apply IZR_lt; exact C].
    destruct (add_int v range n d Fv Fr Vv Vr ltac:(lia)) as [F' V'].
    destruct (IH _ _ _ F' V' ltac:(lia) E) as [Fw (k & K1 & K2 & K3)]. split; [exact Fw |]. exists (k + 1)%Z.
    replace (n + (k + 1) * d)%Z with (n + d + k * d)%Z by ring. split; [exact K1 | split; assumption].
  - rewrite ltb_f in E; [| assumption.. | rewrite Vv, Vl; apply IZR_le; exact C]. injection E as <-. split; [exact Fv |]. exists 0%Z.
    replace (n + 0 * d)%Z with n by ring. split; [exact Vv | split; assumption].
Qed.
Lemma down64_int range hi h d : finite64 range -> finite64 hi -> rval range = IZR d -> rval hi = IZR h -> (0 < d)%Z -> (Z.abs (h - d) <= 2 ^ 53)%Z ->
  forall fuel v n w, finite64 v -> rval v = IZR n -> (Z.abs n <= 2 ^ 53)%Z -> down_turns64 fuel v range hi = Ok w ->
  finite64 w /\ exists k, rval w = IZR (n + k * d).
Proof.
  intros Fr Fl Vr Vl D B fuel. induction fuel as [| f IH]; intros v n w Fv Vv Bn E; [discriminate |]. cbn [down_turns64] in E.
  destruct (Z.le_gt_cases h n) as [C | C].
  - rewrite geb_t in E; [| assumption.. | rewrite Vv, Vl; apply IZR_le; exact C].
    destruct (sub_int v range n d Fv Fr Vv Vr ltac:(lia)) as [F' V'].
    destruct (IH _ _ _ F' V' ltac:(lia) E) as [Fw [k K]]. split; [exact Fw |]. exists (k - 1)%Z.
    replace (n + (k - 1) * d)%Z with (n - d + k * d)%Z by ring. exact K.
  - rewrite geb_f in E; [| assumption.. | rewrite Vv, Vl; apply IZR_lt; exact C]. injection E as <-. split; [exact Fv |]. exists 0%Z.
    replace (n + 0 * d)%Z with n by ring. exact Vv.
Qed.
(** Whatever size the range is: integers are reduced exactly. *)
Lemma reduce64_int v lo hi n l h : finite64 v -> finite64 lo -> finite64 hi -> rval v = IZR n -> rval lo = IZR l -> rval hi = IZR h ->
  (l < h)%Z -> (Z.abs n <= 2 ^ 52)%Z -> (Z.abs l <= 2 ^ 52)%Z -> (Z.abs h <= 2 ^ 52)%Z ->
  exists w k, returns (fun fuel => ReduceRange64 fuel v lo hi) w /\ finite64 w /\ rval w = IZR k /\ (l <= k < h)%Z /\ (h - l | k - n)%Z.
Proof.
  intros Fv Fl Fh Vv Vl Vh L Bn Bl Bh.
  assert (RP : representable (rval hi - rval lo)) by (rewrite Vh, Vl, <- minus_IZR; apply integer_representable; lia).
  assert (D1 : 1 <= rval hi - rval lo) by (rewrite Vh, Vl, <- minus_IZR; apply (IZR_le 1); lia).
  assert (X : forall x z, rval x = IZR z -> (Z.abs z <= 2 ^ 52)%Z -> Rabs (rval x) <= IZR (2 ^ 52) * (rval hi - rval lo)).
  { intros x z V B. rewrite V, <- abs_IZR. apply IZR_le in B. assert (0 < IZR (2 ^ 52)) by (apply IZR_lt; reflexivity). nra. }
  destruct (c17_double v lo hi Fv Fl Fh ltac:(lra) RP (X v n Vv Bn) (X lo l Vl Bl) (X hi h Vh Bh)) as (w & W & Fw & Bw).
  { rewrite Vh, Vl, <- minus_IZR. apply IZR_le. assert (2 ^ 53 <= 2 ^ 900)%Z by (apply Z.pow_le_mono_r; lia). lia. }
  destruct W as [fuel W]. pose proof (W fuel (le_n fuel)) as E. unfold ReduceRange64 in E. cbv zeta in E.
  destruct (sub_int hi lo h l Fh Fl Vh Vl ltac:(lia)) as [Fr Vr].
  assert (K : exists k, rval w = IZR (n + k * (h - l))).
  { destruct (sf_geb v lo && SFltb v hi).
    - injection E as <-. exists 0%Z. rewrite Vv. f_equal. ring.
    - destruct (up_turns64 fuel v (sf_sub hi lo) lo) as [x | |] eqn:E1; cbn [bind] in E; try discriminate.
      destruct (up64_int (sf_sub hi lo) lo l (h - l) Fr Fl Vr Vl ltac:(lia) ltac:(lia) fuel v n x Fv Vv ltac:(lia) E1) as [Fx (k1 & V1 & B1 & _)].
      destruct (down64_int (sf_sub hi lo) hi h (h - l) Fr Fh Vr Vh ltac:(lia) ltac:(lia) fuel x _ w Fx V1 B1 E) as [_ [k2 V2]].
      exists (k1 + k2)%Z. rewrite V2. f_equal. ring. }
  destruct K as [k K]. exists w, (n + k * (h - l))%Z. split; [exists fuel; exact W |]. split; [exact Fw |]. split; [exact K |].
  rewrite K, Vl, Vh in Bw. split; [split; [apply le_IZR | apply lt_IZR]; lra |]. exists k. ring.
Qed.
Lemma c120_integers v lo hi (n l h : Z) : finite64 v -> finite64 lo -> finite64 hi -> rval v = IZR n -> rval lo = IZR l -> rval hi = IZR h ->
  (l < h)%Z -> (Z.abs n <= 2 ^ 52)%Z -> (Z.abs l <= 2 ^ 52)%Z -> (Z.abs h <= 2 ^ 52)%Z ->
  exists w k, returns (fun fuel => ReduceRange64 fuel v lo hi) w /\ finite64 w /\ rval w = IZR k /\ (l <= k < h)%Z /\ (h - l | k - n)%Z.
Proof. apply reduce64_int. Qed.

(** *** Units *)
Lemma turn64_int u : (0 < turn_count u)%Z -> exists t, turn64 u = Ok t /\ finite64 t /\ rval t = IZR (turn_count u).
Proof.
  intros H. destruct u; cbn in H; try lia; cbn [turn64 turn_count]; eexists; (split; [reflexivity |]); apply of_Z_val; lia.
Qed.
Lemma two_pi64_eq : two_pi64 = S754_finite false 7074237752028440 (-50).
Proof. vm_compute. reflexivity. Qed.
Lemma P2_m e : (e < 0)%Z -> P2 e = / IZR (2 ^ (- e)).
Proof.
  intros H. rewrite P2_Z by lia. pose proof (P2_opp e) as O. pose proof (P2_pos e). pose proof (P2_pos (- e)).
  apply Rmult_eq_reg_l with (P2 (- e)); [| lra]. rewrite O, Rinv_r by lra. reflexivity.
Qed.
Lemma two_pi64_val : finite64 two_pi64 /\ rval two_pi64 = 7074237752028440 / 1125899906842624.
Proof.
  rewrite two_pi64_eq. split; [reflexivity |]. rewrite rval_sg. rewrite P2_m by lia. change (2 ^ (- -50))%Z with 1125899906842624%Z.
  cbn [sg]. unfold Rdiv. ring.
Qed.
Lemma turn64_bounds u : u <> UUndefined -> exists t, turn64 u = Ok t /\ finite64 t /\ 1 <= rval t <= 2097152.
Proof.
  intros H. destruct u; try congruence; cbn [turn64]; eexists; (split; [reflexivity |]).
  1: { destruct two_pi64_val as [F V]. split; [exact F |]. rewrite V. lra. }
  all: match goal with |- context [b64_of_Z ?z] => destruct (of_Z_val z ltac:(lia)) as [F V]; split; [exact F |]; rewrite V; lra end.
Qed.
Lemma unit_eqb_refl u : unit_eqb u u = true.
Proof. destruct u; reflexivity. Qed.
Lemma unit_eqb_undef u : unit_eqb u UUndefined = false <-> u <> UUndefined.
Proof. destruct u; cbn; split; congruence. Qed.

(** *** Ranges *)
Lemma c120_lands fuel u a lo hi v w : in64 a u = Ok v -> finite64 v -> finite64 lo -> finite64 hi ->
  Rabs (rval v) <= IZR (2 ^ 900) -> Rabs (rval lo) <= IZR (2 ^ 900) -> Rabs (rval hi) <= IZR (2 ^ 900) ->
  rval lo < rval hi -> representable (rval hi - rval lo) ->
  in_range64 fuel u a (Some lo) (Some hi) = Ok w -> finite64 w /\ rval lo <= rval w < rval hi.
Proof.
  intros E Fv Fl Fh Uv Ul Uh L R W. rewrite P2_Z in * by lia. pose proof (P2_mono 900 1000 ltac:(lia)).
  unfold in_range64 in W. cbn [need64 bind] in W. destruct (turn64 u) as [t | |]; cbn [bind] in W; try discriminate.
  destruct (SFeqb (sf_sub hi lo) t); [| discriminate]. rewrite E in W. cbn [bind] in W.
  apply (reduce64_lands fuel v lo hi w); try assumption; lra.
Qed.
(** 2^-60 and 360: their difference rounds to 360. *)
Lemma c120_lands_refuted : exists lo hi a w, finite64 lo /\ finite64 hi /\ rval lo < rval hi /\
  returns (fun fuel => in_range64 fuel Degree a (Some lo) (Some hi)) w /\ rval w < rval lo.
Proof.
  set (lo := S754_finite false 4503599627370496 (-112)). set (hi := b64_of_Z 360). set (w := S754_zero false).
  assert (Fl : finite64 lo) by reflexivity. assert (Fh : finite64 hi) by reflexivity. assert (Fw : finite64 w) by exact I.
  exists lo, hi, (mkA64 (Some hi) Degree), w. split; [exact Fl |]. split; [exact Fh |]. split; [apply SFltb_val; [assumption.. | vm_compute; reflexivity] |].
  split; [| apply SFltb_val; [assumption.. | vm_compute; reflexivity]].
  exists 5%nat. intros fuel H. do 5 (destruct fuel as [| fuel]; [lia |]). vm_compute. reflexivity.
Qed.

(** *** Equality *)
Lemma eq64_same u x y fuel : u <> UUndefined ->
  angle_eq64 fuel (mkA64 (Some x) u) (mkA64 (Some y) u) =
  (let! turn := turn64 u in let! r := ReduceRange64 fuel y x (sf_add x turn) in Ok (SFeqb x r)).
Proof.
  intros U. unfold angle_eq64. cbn [aunit64 aval64]. apply unit_eqb_undef in U. rewrite U. cbn [orb].
  unfold converted64. cbn [aunit64 aval64]. rewrite unit_eqb_refl. reflexivity.
Qed.
Lemma c121_integers u x y (n m : Z) : (0 < turn_count u)%Z -> finite64 x -> finite64 y -> rval x = IZR n -> rval y = IZR m ->
  (Z.abs n <= 2 ^ 51)%Z -> (Z.abs m <= 2 ^ 51)%Z ->
  exists b, returns (fun fuel => angle_eq64 fuel (mkA64 (Some x) u) (mkA64 (Some y) u)) b /\ (b = true <-> (turn_count u | m - n)%Z).
Proof.
  intros U Fx Fy Vx Vy Bn Bm. assert (UN : u <> UUndefined) by (destruct u; cbn in U; congruence || lia).
  assert (TB : (turn_count u <= 1296000)%Z) by (destruct u; cbn; lia).
  destruct (turn64_int u U) as (t & T & Ft & Vt).
  destruct (add_int x t n (turn_count u) Fx Ft Vx Vt ltac:(lia)) as [Fh Vh].
  destruct (reduce64_int y x (sf_add x t) m n (n + turn_count u) Fy Fx Fh Vy Vx Vh ltac:(lia) ltac:(lia) ltac:(lia) ltac:(lia))
    as (w & k & [N W] & Fw & Vw & B & D).
  replace (n + turn_count u - n)%Z with (turn_count u) in D by ring.
  exists (SFeqb x w). split.
  - exists N. intros fuel H. rewrite eq64_same by exact UN. rewrite T. cbn [bind]. rewrite W by exact H. reflexivity.
  - rewrite SFeqb_val by assumption. rewrite Vx, Vw. split.
    + intros E. apply eq_IZR in E. subst k. destruct D as [q Q]. exists (- q)%Z. lia.
    + intros E. f_equal. assert (X : (turn_count u | k - n)%Z) by (replace (k - n)%Z with ((k - m) + (m - n))%Z by ring; apply Z.divide_add_r; assumption).
      destruct X as [q Q]. assert (q = 0)%Z by nia. subst q. lia.
Qed.
Lemma c121_reflexive u x : u <> UUndefined -> finite64 x -> Rabs (rval x) <= IZR (2 ^ 52) ->
  returns (fun fuel => angle_eq64 fuel (mkA64 (Some x) u) (mkA64 (Some x) u)) true.
Proof.
  intros U Fx B. rewrite P2_Z in B by lia. destruct (turn64_bounds u U) as (t & T & Ft & Bt).
  assert (S : Rabs (rval x + rval t) <= P2 52 + 2097152) by (apply abs_le in B; apply abs_of; lra).
  assert (P21 : 2097152 = P2 21) by (rewrite <- P2_Z by lia; reflexivity).
  assert (S' : Rabs (rval x + rval t) <= P2 53).
  { eapply Rle_trans; [exact S |]. rewrite P21. change 53%Z with (52 + 1)%Z. rewrite P2_succ. pose proof (P2_mono 21 52 ltac:(lia)). lra. }
  assert (UU : Rabs (rval x + rval t) <= P2 1023) by (eapply Rle_trans; [exact S' | apply P2_mono; lia]).
  destruct (SFadd_rounded x t Fx Ft UU) as [N _]. pose proof (add_err x t Fx Ft UU) as Er. apply abs_le in Er.
  change (SFadd 53 1024 x t) with (sf_add x t) in *.
  assert (L : rval x < rval (sf_add x t)).
  { destruct (Rlt_le_dec (rval x) (rval (sf_add x t))) as [C | C]; [exact C | exfalso].
    (* rounding down to x would be an error of at least 1 *)
    assert (EQ : rval (sf_add x t) = rval x) by (apply Rle_antisym; [exact C | apply (nearest_below _ _ x N Fx); lra]).
    assert (Q : P2 (-53) * Rabs (rval x + rval t) <= P2 (-53) * (P2 52 + 2097152)) by (apply Rmult_le_compat_l; [apply Rlt_le, P2_pos | exact S]).
    assert (Q2 : P2 (-53) * (P2 52 + 2097152) < 1).
    { rewrite P21, Rmult_plus_distr_l, <- !P2_add. change (-53 + 52)%Z with (-1)%Z. change (-53 + 21)%Z with (-32)%Z.
      pose proof (P2_mono (-32) (-2) ltac:(lia)). rewrite !(P2_m (-1)), (P2_m (-2)) in * by lia. change (2 ^ (- -1))%Z with 2%Z. change (2 ^ (- -2))%Z with 4%Z in *. lra. }
    lra. }
  exists 0%nat. intros fuel _. rewrite eq64_same by exact U. rewrite T. cbn [bind]. unfold ReduceRange64.
  rewrite geb_t by (assumption || lra). rewrite ltb_t by (assumption || exact (proj1 N)). cbn [andb bind]. f_equal. apply SFeqb_val; [assumption.. | reflexivity].
Qed.
(** 2^62 degrees: adding a turn changes nothing, and the loop never ends. *)
Lemma c121_reflexive_refuted : exists a, (exists x, finite64 x /\ a = mkA64 (Some x) Degree) /\ diverges (fun fuel => angle_eq64 fuel a a).
Proof.
  set (x := S754_finite false 4503599627370496 10). exists (mkA64 (Some x) Degree). split; [exists x; split; reflexivity |].
  intros fuel. rewrite eq64_same by discriminate. cbn [turn64 bind]. unfold ReduceRange64.
  replace (sf_add x (b64_of_Z 360)) with x by (vm_compute; reflexivity).
  replace (sf_geb x x && SFltb x x) with false by (vm_compute; reflexivity). cbv zeta.
  replace (sf_sub x x) with (S754_zero false) by (vm_compute; reflexivity).
  assert (D : forall f, down_turns64 f x (S754_zero false) x = Err OutOfFuel).
  { induction f as [| f IH]; [reflexivity |]. cbn [down_turns64]. replace (sf_geb x x) with true by (vm_compute; reflexivity).
    replace (sf_sub x (S754_zero false)) with x by (vm_compute; reflexivity). exact IH. }
  destruct fuel as [| f]; [reflexivity |]. cbn [up_turns64]. replace (SFltb x x) with false by (vm_compute; reflexivity). cbn [bind].
  rewrite D. reflexivity.
Qed.
(** 3 degrees equal 180 arcminutes, but 180 arcminutes do not equal 3 degrees. *)
Lemma c121_symmetric_refuted : exists a b,
  returns (fun fuel => angle_eq64 fuel a b) true /\ returns (fun fuel => angle_eq64 fuel b a) false.
Proof.
  exists (mkA64 (Some (b64_of_Z 3)) Degree), (mkA64 (Some (b64_of_Z 180)) Arcminute).
  split; exists 5%nat; intros fuel H; do 5 (destruct fuel as [| fuel]; [lia |]); vm_compute; reflexivity.
Qed.
(** 104.4 and 464.4 degrees. *)
Lemma c121_one_unit_refuted : exists a b, aunit64 a = aunit64 b /\
  returns (fun fuel => angle_eq64 fuel a b) false /\ returns (fun fuel => angle_eq64 fuel b a) true.
Proof.
  exists (mkA64 (Some (b64_div (b64_of_Z 1044) (b64_of_Z 10))) Degree), (mkA64 (Some (b64_div (b64_of_Z 4644) (b64_of_Z 10))) Degree).
  split; [reflexivity |]. split; exists 5%nat; intros fuel H; do 5 (destruct fuel as [| fuel]; [lia |]); vm_compute; reflexivity.
Qed.
(** 128.2, 488.2 and 848.2 degrees. *)
Lemma c121_transitive_refuted : exists a b c, returns (fun fuel => angle_eq64 fuel a b) true /\
  returns (fun fuel => angle_eq64 fuel b c) true /\ returns (fun fuel => angle_eq64 fuel a c) false.
Proof.
  exists (mkA64 (Some (b64_div (b64_of_Z 1282) (b64_of_Z 10))) Degree), (mkA64 (Some (b64_div (b64_of_Z 4882) (b64_of_Z 10))) Degree),
    (mkA64 (Some (b64_div (b64_of_Z 8482) (b64_of_Z 10))) Degree).
  repeat split; exists 6%nat; intros fuel H; do 6 (destruct fuel as [| fuel]; [lia |]); vm_compute; reflexivity.
Qed.

(** *** Nearness *)
Lemma cond_opp_swap s m : cond_Zopp s (- m) = (- cond_Zopp s m)%Z.
Proof. destruct s; reflexivity. Qed.
Lemma abs_round s s' m e l : SFabs (binary_round_aux 53 1024 s m e l) = SFabs (binary_round_aux 53 1024 s' m e l).
Proof.
  unfold binary_round_aux. destruct (shr_fexp 53 1024 m e l) as [r e']. destruct (shr_fexp 53 1024 (round_nearest_even (shr_m r) (loc_of_shr_record r)) e' loc_Exact) as [r' e''].
  destruct (shr_m r'); try reflexivity. destruct (Zle_bool e'' (1024 - 53)); reflexivity.
Qed.
Lemma abs_normalize n e z z' : SFabs (binary_normalize 53 1024 n e z) = SFabs (binary_normalize 53 1024 (- n) e z').
Proof.
  destruct n as [| p | p]; cbn [binary_normalize Z.opp]; [reflexivity | |]; unfold binary_round; destruct (shl_align p e (fexp 53 1024 (Zpos (digits2_pos p) + e))) as [m e']; apply abs_round.
Qed.
Lemma abs_sub x y : SFabs (sf_sub x y) = SFabs (sf_sub y x).
Proof.
  unfold sf_sub. destruct x as [s | s | | s m e], y as [s' | s' | | s' m' e']; cbn [SFsub]; try reflexivity.
  - destruct s, s'; reflexivity.
  - destruct s, s'; reflexivity.
  - rewrite (Z.min_comm e' e). rewrite (abs_normalize _ _ false false). f_equal. f_equal. lia.
Qed.
Lemma c121_near_symmetric fuel a b tol : isNear64 fuel a b tol = isNear64 fuel b a tol.
Proof.
  unfold isNear64. rewrite (orb_comm (negb (isDefined64 a))).
  destruct (isDefined64 a) eqn:A, (isDefined64 b) eqn:B; cbn [negb orb]; try reflexivity.
  destruct (isDefined64 tol); cbn [negb]; [| reflexivity].
  unfold in64. rewrite A, B. cbn [negb].
  unfold isDefined64 in A, B. destruct (aval64 a) as [va |]; [| discriminate]. destruct (aval64 b) as [vb |]; [| discriminate]. cbn [need64 bind].
  set (X := if unit_eqb (aunit64 a) Degree then Ok va else let! r1 := SIRatio64 (aunit64 a) in let! r2 := SIRatio64 Degree in Ok (b64_div (b64_mul va r1) r2)).
  set (Y := if unit_eqb (aunit64 b) Degree then Ok vb else let! r1 := SIRatio64 (aunit64 b) in let! r2 := SIRatio64 Degree in Ok (b64_div (b64_mul vb r1) r2)).
  assert (XO : exists x, X = Ok x).
  { unfold X. destruct (unit_eqb (aunit64 a) Degree); [eexists; reflexivity |]. destruct (aunit64 a); try discriminate; eexists; reflexivity. }
  assert (YO : exists y, Y = Ok y).
  { unfold Y. destruct (unit_eqb (aunit64 b) Degree); [eexists; reflexivity |]. destruct (aunit64 b); try discriminate; eexists; reflexivity. }
  destruct XO as [x ->], YO as [y ->]. cbn [bind].
  assert (OF : forall z, (exists r, ReduceRange64 fuel z zero64 (b64_of_Z 360) = Ok r) \/ ReduceRange64 fuel z zero64 (b64_of_Z 360) = Err OutOfFuel).
  { intros z. unfold ReduceRange64. destruct (sf_geb z zero64 && SFltb z (b64_of_Z 360)); [left; eexists; reflexivity |]. cbv zeta.
    assert (U : forall f v r l, (exists q, up_turns64 f v r l = Ok q) \/ up_turns64 f v r l = Err OutOfFuel).
    { induction f as [| f IH]; intros v r l; [right; reflexivity |]. cbn [up_turns64]. destruct (SFltb v l); [apply IH | left; eexists; reflexivity]. }
    assert (D : forall f v r l, (exists q, down_turns64 f v r l = Ok q) \/ down_turns64 f v r l = Err OutOfFuel).
    { induction f as [| f IH]; intros v r l; [right; reflexivity |]. cbn [down_turns64]. destruct (sf_geb v l); [apply IH | left; eexists; reflexivity]. }
    destruct (U fuel z (sf_sub (b64_of_Z 360) zero64) zero64) as [[q ->] | ->]; cbn [bind]; [apply D | right; reflexivity]. }
  destruct (OF x) as [[p ->] | ->], (OF y) as [[q ->] | ->]; cbn [bind]; try reflexivity.
  rewrite (abs_sub q p). reflexivity.
Qed.
Lemma abs_val x : finite64 x -> finite64 (SFabs x) /\ rval (SFabs x) = Rabs (rval x).
Proof.
  intros F. destruct x as [s | s | | s m e]; try contradiction; cbn [SFabs].
  - split; [exact I |]. cbn. symmetry. apply Rabs_R0.
  - split; [exact F |]. rewrite !rval_sg. rewrite sg_abs by (apply Rlt_le, pos_pos). cbn. ring.
Qed.
Lemma sub_self x : finite64 x -> rval (sf_sub x x) = 0 /\ finite64 (sf_sub x x).
Proof.
  intros F. assert (U : Rabs (rval x - rval x) <= P2 1023) by (replace (rval x - rval x) with 0 by ring; rewrite Rabs_R0; apply Rlt_le, P2_pos).
  destruct (SFsub_rounded x x F F U) as [N _]. split; [| exact (proj1 N)]. replace (rval x - rval x) with 0 in N by ring.
  apply (nearest_exact _ _ N). exists (S754_zero false). split; [exact I | reflexivity].
Qed.
Lemma c121_near_reflexive a tol x y : in64 a Degree = Ok x -> finite64 x -> Rabs (rval x) <= IZR (2 ^ 52) * 360 -> in64 tol Degree = Ok y -> finite64 y ->
  returns (fun fuel => isNear64 fuel a a tol) true.
Proof.
  intros A Fx Bx T Fy.
  assert (DA : isDefined64 a = true) by (unfold in64 in A; destruct (isDefined64 a); [reflexivity | discriminate]).
  assert (DT : isDefined64 tol = true) by (unfold in64 in T; destruct (isDefined64 tol); [reflexivity | discriminate]).
  destruct (of_Z_val 360 ltac:(lia)) as [F3 V3].
  assert (R0 : rval zero64 = 0) by reflexivity.
  assert (Q : 1 <= IZR (2 ^ 52)) by (apply (IZR_le 1); lia).
  destruct (c17_double x zero64 (b64_of_Z 360) Fx I F3) as (w & [N W] & Fw & Bw); rewrite ?V3, ?R0, ?Rminus_0_r.
  { lra. } { apply integer_representable. lia. } { exact Bx. } { rewrite Rabs_R0. lra. } { rewrite Rabs_right by lra. lra. }
  { apply IZR_le. assert (2 ^ 10 <= 2 ^ 900)%Z by (apply Z.pow_le_mono_r; lia). lia. }
  exists N. intros fuel H. unfold isNear64. rewrite DA, DT. cbn [negb orb]. rewrite A. cbn [bind]. rewrite W by exact H. cbn [bind]. rewrite T. cbn [bind].
  f_equal. apply orb_true_intro. left. destruct (sub_self w Fw) as [V F]. destruct (abs_val _ F) as [F' V']. destruct (abs_val _ Fy) as [F'' V''].
  apply SFleb_val; [assumption.. |]. rewrite V', V, V'', Rabs_R0. apply Rabs_pos.
Qed.
