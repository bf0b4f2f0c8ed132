(** The linear interpolator in double precision. *)

From Coq Require Import List Bool Arith ZArith Reals Lra Lia Floats.SpecFloat.
From Verif Require Import Result DOrder AngleModel AngleProofs InterpModel InterpSpec InterpProofs FloatSpec FloatProofs FloatProofs2 FloatModel FloatProofs3 FloatProofs4 FloatProofs5.
Import ListNotations.
Local Open Scope R_scope.

(** *** The search is the one on the values *)
Lemma bound64_val x q : Forall finite64 x -> finite64 q -> forall fuel first len,
  bound_loop64 (fun a => SFltb a q) x fuel first len = bound_loop (fun a => Rltb a (rval q)) (map rval x) fuel first len.
Proof.
  intros Fx Fq. induction fuel as [| f IH]; intros first [| len]; try reflexivity. cbn [bound_loop64 bound_loop].
  set (mid := (first + Nat.div2 (S len))%nat). unfold at_. rewrite nth_error_map. destruct (nth_error x mid) as [a |] eqn:E; cbn [option_map bind]; [| reflexivity].
  rewrite Forall_forall in Fx. pose proof (Fx a (nth_error_In _ _ E)) as Fa.
  assert (X : SFltb a q = Rltb (rval a) (rval q)).
  { destruct (Rlt_le_dec (rval a) (rval q)) as [C | C]; [rewrite ltb_t by assumption; symmetry; apply Rltb_true; exact C | rewrite ltb_f by assumption; symmetry; apply Rltb_false; exact C]. }
  rewrite X. destruct (Rltb (rval a) (rval q)); apply IH.
Qed.
Lemma find64_val x q : Forall finite64 x -> finite64 q -> findIndexRange64 x q = findIndexRange (map rval x) (rval q).
Proof.
  intros Fx Fq. unfold findIndexRange64, findIndexRange, lower_bound64, lower_bound. rewrite (bound64_val x q Fx Fq), map_length. reflexivity.
Qed.
Lemma nth_rval x i a : nth_error x i = Some a -> nth i (map rval x) 0 = rval a.
Proof. intros E. apply nth_error_nth. rewrite nth_error_map, E. reflexivity. Qed.
Lemma find64_cell x q i a b : Forall finite64 x -> finite64 q -> nondecreasing (map rval x) -> nth_error x i = Some a -> nth_error x (S i) = Some b ->
  rval a < rval q <= rval b -> findIndexRange64 x q = Ok (i, S i).
Proof.
  intros Fx Fq N A B H. rewrite find64_val by assumption. pose proof (nth_rval _ _ _ A) as VA. pose proof (nth_rval _ _ _ B) as VB.
  assert (LB : (S i < length (map rval x))%nat) by (rewrite map_length; apply nth_error_Some; congruence).
  destruct (findIndexRange_spec (map rval x) (rval q) N ltac:(lia)) as [[E L] | [[E L] | (j & J & E & L)]].
  - exfalso. pose proof (N 0%nat i ltac:(lia)). lra.
  - exfalso. pose proof (N (S i) (length (map rval x) - 1)%nat ltac:(lia)). lra.
  - assert (j = i); [| subst; exact E]. destruct (Nat.lt_trichotomy j i) as [C | [C | C]]; [| exact C |]; exfalso.
    + pose proof (N (S j) i ltac:(lia)). lra.
    + pose proof (N (S i) j ltac:(lia)). lra.
Qed.

(** *** One cell *)
Definition chord (xp yp xn yn q : R) : R := yp + (q - xp) / (xn - xp) * (yn - yp).
Definition cell64 (xp yp xn yn q : spec_float) : spec_float :=
  sf_add yp (b64_mul (b64_div (sf_sub q xp) (sf_sub xn xp)) (sf_sub yn yp)).
Lemma rel_of_err p x t : t <> 0 -> Rabs (x - t) <= p * Rabs t -> rel p x t.
Proof.
  intros N E. exists ((x - t) / t). split; [field; exact N |]. unfold Rdiv. rewrite Rabs_mult, Rabs_inv.
  assert (0 < Rabs t) by (apply Rabs_pos_lt; exact N). apply Rmult_le_reg_r with (Rabs t); [assumption |]. rewrite Rmult_assoc, Rinv_l by lra. lra.
Qed.
Lemma rounded_any t z : rounded64 t z -> Rabs (rval z - t) <= e53 * Rabs t + P2 (-1075).
Proof.
  intros [_ [E | [E _]]]; fold (P2 (-53)) in E || fold (P2 (-1075)) in E; pose proof (P2_pos (-1075)); pose proof (Rabs_pos t).
  - rewrite e53_P2 in E. lra.
  - unfold e53. lra.
Qed.
Lemma small_sum a b : Rabs a <= P2 900 -> Rabs b <= P2 900 -> Rabs (a - b) <= P2 1000.
Proof.
  intros A B. apply abs_le in A. apply abs_le in B. pose proof (P2_succ 900) as X. pose proof (P2_mono (900 + 1) 1000 ltac:(lia)). apply abs_of. lra.
Qed.
(** The computed ratio. *)
Lemma ratio_cell xp xn q : finite64 xp -> finite64 xn -> finite64 q -> Rabs (rval xp) <= P2 900 -> Rabs (rval xn) <= P2 900 -> rval xp < rval q <= rval xn ->
  let a := sf_sub q xp in let d := sf_sub xn xp in
  finite64 a /\ finite64 d /\ 0 < rval a /\ 0 < rval d /\ rounded64 (rval a / rval d) (b64_div a d) /\
  Rabs (rval (b64_div a d) - (rval q - rval xp) / (rval xn - rval xp)) <= 5 * e53.
Proof.
  intros Fp Fn Fq Bp Bn H a d.
  assert (Bq : Rabs (rval q) <= P2 900) by (apply abs_le in Bp; apply abs_le in Bn; apply abs_of; lra).
  pose proof (P2_mono 1000 1023 ltac:(lia)) as MM.
  assert (Ua : Rabs (rval q - rval xp) <= P2 1023) by (pose proof (small_sum _ _ Bq Bp); lra).
  assert (Ud : Rabs (rval xn - rval xp) <= P2 1023) by (pose proof (small_sum _ _ Bn Bp); lra).
  pose proof (proj1 (proj1 (SFsub_rounded q xp Fq Fp Ua))) as Fa. pose proof (proj1 (proj1 (SFsub_rounded xn xp Fn Fp Ud))) as Fd.
  pose proof (sub_err q xp Fq Fp Ua) as Ea. pose proof (sub_err xn xp Fn Fp Ud) as Ed. rewrite e53_P2 in Ea, Ed.
  change (SFsub 53 1024 q xp) with a in *. change (SFsub 53 1024 xn xp) with d in *.
  apply rel_of_err in Ea; [| lra]. apply rel_of_err in Ed; [| lra].
  assert (E1 : e53 <= / 2) by (unfold e53; lra). assert (E0 : 0 < e53) by (unfold e53; lra).
  assert (Pa : 0 < rval a) by (destruct Ea as (x & -> & X); apply abs_le in X; apply Rmult_lt_0_compat; lra).
  assert (Pd : 0 < rval d) by (destruct Ed as (x & -> & X); apply abs_le in X; apply Rmult_lt_0_compat; lra).
  assert (NX : rval xn - rval xp <> 0) by lra. pose proof (rel_inv _ _ _ E1 NX Ed) as Ed'. pose proof (rel_mul _ _ _ _ _ _ Ea Ed') as R. apply rel_abs in R.
  set (r := (rval q - rval xp) / (rval xn - rval xp)). change ((rval q - rval xp) * / (rval xn - rval xp)) with r in R.
  assert (Br : 0 < r <= 1).
  { unfold r. split; [apply Rdiv_lt_0_compat; lra |]. apply Rmult_le_reg_r with (rval xn - rval xp); [lra |]. unfold Rdiv. rewrite Rmult_assoc, Rinv_l by lra. lra. }
  change (rval a * / rval d) with (rval a / rval d) in R. rewrite (Rabs_right r) in R by lra.
  assert (R2 : Rabs (rval a / rval d - r) <= 3 * e53).
  { eapply Rle_trans; [exact R |]. apply Rle_trans with ((e53 + (e53 + 2 * e53 * e53) + e53 * (e53 + 2 * e53 * e53)) * 1); [apply Rmult_le_compat_l; unfold e53; lra |]. unfold e53. lra. }
  assert (Q2 : 0 < rval a / rval d <= 2) by (split; [apply Rdiv_lt_0_compat; assumption |]; apply abs_le in R2; unfold e53 in *; lra).
  assert (RD : rounded64 (rval a / rval d) (b64_div a d)).
  { apply SFdiv_rounded; [assumption.. | lra |]. rewrite Rabs_right by lra. pose proof (P2_mono 1 1023 ltac:(lia)) as Q. rewrite <- (P2_Z 1) in Q by lia. change (IZR (2 ^ 1)) with 2 in Q. lra. }
  split; [exact Fa |]. split; [exact Fd |]. split; [exact Pa |]. split; [exact Pd |]. split; [exact RD |].
  destruct RD as [_ RE]. assert (X : Rabs (rval (b64_div a d) - rval a / rval d) <= 5 / 4 * e53).
  { destruct RE as [RE | [RE _]].
    - change (powerRZ 2 (-53)) with (P2 (-53)) in RE. rewrite e53_P2, (Rabs_right (rval a / rval d)) in RE by lra. eapply Rle_trans; [exact RE |].
      rewrite (Rmult_comm (5 / 4)). apply Rmult_le_compat_l; [lra |]. apply abs_le in R2. unfold e53 in *. lra.
    - eapply Rle_trans; [exact RE |]. change (powerRZ 2 (-1075)) with (P2 (-1075)). pose proof (P2_mono (-1075) (-53) ltac:(lia)). rewrite e53_P2 in *. lra. }
  apply abs_le in X. apply abs_le in R2. apply abs_of. lra.
Qed.
Lemma cell_accuracy xp yp xn yn q : finite64 xp -> finite64 xn -> finite64 q -> finite64 yp -> finite64 yn ->
  Rabs (rval xp) <= P2 900 -> Rabs (rval xn) <= P2 900 -> Rabs (rval yp) <= P2 900 -> Rabs (rval yn) <= P2 900 -> rval xp < rval q <= rval xn ->
  finite64 (cell64 xp yp xn yn q) /\
  Rabs (rval (cell64 xp yp xn yn q) - chord (rval xp) (rval yp) (rval xn) (rval yn) (rval q)) <= 16 * e53 * (Rabs (rval yp) + Rabs (rval yn)) + P2 (-1074).
Proof.
  intros Fxp Fxn Fq Fyp Fyn Bxp Bxn Byp Byn H. destruct (ratio_cell xp xn q Fxp Fxn Fq Bxp Bxn H) as (Fa & Fd & Pa & Pd & RD & RE). unfold cell64, chord.
  set (ro := b64_div (sf_sub q xp) (sf_sub xn xp)) in *. set (r := (rval q - rval xp) / (rval xn - rval xp)) in *. pose proof (proj1 (proj1 RD)) as Fro.
  assert (Br : 0 < r <= 1).
  { unfold r. split; [apply Rdiv_lt_0_compat; lra |]. apply Rmult_le_reg_r with (rval xn - rval xp); [lra |]. unfold Rdiv. rewrite Rmult_assoc, Rinv_l by lra. lra. }
  pose proof (P2_mono 1000 1023 ltac:(lia)) as MM. pose proof (small_sum _ _ Byn Byp) as SD.
  assert (UD : Rabs (rval yn - rval yp) <= P2 1023) by lra.
  pose proof (proj1 (proj1 (SFsub_rounded yn yp Fyn Fyp UD))) as FD. pose proof (sub_err yn yp Fyn Fyp UD) as ED. rewrite e53_P2 in ED.
  change (SFsub 53 1024 yn yp) with (sf_sub yn yp) in *. set (D := sf_sub yn yp) in *. set (d := rval yn - rval yp) in *.
  set (S := Rabs (rval yp) + Rabs (rval yn)).
  assert (dS : Rabs d <= S) by (unfold d, S; eapply Rle_trans; [apply Rabs_triang |]; rewrite Rabs_Ropp; lra).
  assert (S0 : 0 <= S) by (unfold S; pose proof (Rabs_pos (rval yp)); pose proof (Rabs_pos (rval yn)); lra).
  assert (e0 : 0 < e53) by (unfold e53; lra).
  assert (ED' : Rabs (rval D - d) <= e53 * S) by (eapply Rle_trans; [exact ED |]; apply Rmult_le_compat_l; lra).
  assert (DS : Rabs (rval D) <= 9 / 8 * S).
  { replace (rval D) with ((rval D - d) + d) by ring. eapply Rle_trans; [apply Rabs_triang |]. unfold e53 in *. lra. }
  assert (ro2 : Rabs (rval ro) <= 9 / 8) by (apply abs_le in RE; apply abs_of; unfold e53 in *; lra).
  assert (PR : Rabs (rval ro * rval D) <= 2 * S).
  { rewrite Rabs_mult. apply Rle_trans with (9 / 8 * (9 / 8 * S)); [apply Rmult_le_compat; try apply Rabs_pos; assumption | lra]. }
  assert (S9 : 2 * S <= P2 1000).
  { unfold S. pose proof (P2_succ 900) as X. pose proof (P2_succ (900 + 1)) as Y. pose proof (P2_mono (900 + 1 + 1) 1000 ltac:(lia)). lra. }
  assert (RM : rounded64 (rval ro * rval D) (b64_mul ro D)) by (apply SFmul_rounded; [assumption.. | lra]).
  pose proof (proj1 (proj1 RM)) as Fm. pose proof (rounded_any _ _ RM) as EM. set (m := b64_mul ro D) in *.
  assert (EM' : Rabs (rval m - rval ro * rval D) <= e53 * (2 * S) + P2 (-1075)) by (eapply Rle_trans; [exact EM |]; apply Rplus_le_compat_r, Rmult_le_compat_l; lra).
  assert (E6 : Rabs (rval ro * rval D - r * d) <= 7 * e53 * S).
  { replace (rval ro * rval D - r * d) with ((rval ro - r) * rval D + r * (rval D - d)) by ring. eapply Rle_trans; [apply Rabs_triang |]. rewrite !Rabs_mult, (Rabs_right r) by lra.
    assert (A : Rabs (rval ro - r) * Rabs (rval D) <= 5 * e53 * (9 / 8 * S)) by (apply Rmult_le_compat; try apply Rabs_pos; assumption).
    assert (C : r * Rabs (rval D - d) <= 1 * (e53 * S)) by (apply Rmult_le_compat; try apply Rabs_pos; lra). unfold e53 in *. lra. }
  assert (E8 : Rabs (rval m - r * d) <= 9 * e53 * S + P2 (-1075)) by (apply abs_le in EM'; apply abs_le in E6; apply abs_of; lra).
  assert (CH : Rabs (rval yp + r * d) <= S).
  { replace (rval yp + r * d) with ((1 - r) * rval yp + r * rval yn) by (unfold d; ring). eapply Rle_trans; [apply Rabs_triang |]. rewrite !Rabs_mult, (Rabs_right r), (Rabs_right (1 - r)) by lra.
    pose proof (Rabs_pos (rval yp)). pose proof (Rabs_pos (rval yn)). unfold S. nra. }
  pose proof (P2_pos (-1075)) as P0. pose proof (P2_mono (-1075) 999 ltac:(lia)) as P1. pose proof (P2_succ 999) as P2'. change (999 + 1)%Z with 1000%Z in P2'.
  assert (SM : Rabs (rval yp + rval m) <= 2 * S + P2 (-1075)) by (apply abs_le in CH; apply abs_le in E8; apply abs_of; unfold e53 in *; lra).
  assert (UM : Rabs (rval yp + rval m) <= P2 1023).
  { pose proof (P2_succ 1000) as Z. pose proof (P2_mono (1000 + 1) 1023 ltac:(lia)). lra. }
  pose proof (proj1 (proj1 (SFadd_rounded yp m Fyp Fm UM))) as Fz. pose proof (add_err yp m Fyp Fm UM) as EZ. rewrite e53_P2 in EZ.
  change (SFadd 53 1024 yp m) with (sf_add yp m) in *. split; [exact Fz |].
  assert (EZ' : Rabs (rval (sf_add yp m) - (rval yp + rval m)) <= e53 * (2 * S + P2 (-1075))) by (eapply Rle_trans; [exact EZ |]; apply Rmult_le_compat_l; lra).
  pose proof (P2_succ (-1075)) as Q. change (-1075 + 1)%Z with (-1074)%Z in Q.
  apply abs_le in EZ'. apply abs_le in E8. apply abs_of. unfold e53 in *. lra.
Qed.
Lemma linear64_cell x y q i xp xn yp yn : Forall finite64 x -> finite64 q -> nondecreasing (map rval x) ->
  nth_error x i = Some xp -> nth_error x (S i) = Some xn -> nth_error y i = Some yp -> nth_error y (S i) = Some yn -> rval xp < rval q <= rval xn ->
  linear64 x y q = Ok (cell64 xp yp xn yn q).
Proof.
  intros Fx Fq N A B C D H. unfold linear64. rewrite (find64_cell x q i xp xn Fx Fq N A B H). cbn [bind].
  replace (Nat.eqb i (S i)) with false by (symmetry; apply Nat.eqb_neq; lia). unfold at_. rewrite A, B, C, D. reflexivity.
Qed.

(** *** The properties *)
Lemma c124_outside x y q : Forall finite64 x -> finite64 q -> nondecreasing (map rval x) -> length x = length y -> (0 < length x)%nat ->
  (rval q <= rval (nth 0 x q) -> linear64 x y q = Ok (nth 0 y q)) /\
  (rval (nth (length x - 1) x q) < rval q -> linear64 x y q = Ok (nth (length x - 1) y q)).
Proof.
  intros Fx Fq N L L0.
  assert (V : forall i, (i < length x)%nat -> nth i (map rval x) 0 = rval (nth i x q)) by (intros i Hi; apply nth_rval, nth_error_nth'; exact Hi).
  unfold linear64. rewrite find64_val by assumption. assert (LM : (0 < length (map rval x))%nat) by (rewrite map_length; exact L0).
  pose proof (findIndexRange_spec (map rval x) (rval q) N LM) as S. rewrite map_length in S. split; intros H.
  - destruct S as [[E _] | [[E X] | (j & J & E & X)]].
    + rewrite E. cbn [bind Nat.eqb]. apply at_ok. lia.
    + exfalso. pose proof (N 0%nat (length x - 1)%nat ltac:(rewrite map_length; lia)) as K. rewrite (V 0%nat) in K by lia. lra.
    + exfalso. pose proof (N 0%nat j ltac:(rewrite map_length; lia)) as K. rewrite (V 0%nat) in K by lia. lra.
  - destruct S as [[E X] | [[E _] | (j & J & E & X)]].
    + exfalso. pose proof (N 0%nat (length x - 1)%nat ltac:(rewrite map_length; lia)) as K. rewrite (V (length x - 1)%nat) in K by lia. lra.
    + rewrite E. cbn [bind]. rewrite Nat.eqb_refl. apply at_ok. lia.
    + exfalso. pose proof (N (S j) (length x - 1)%nat ltac:(rewrite map_length; lia)) as K. rewrite (V (length x - 1)%nat) in K by lia. lra.
Qed.
Lemma c124_accurate x y q i xp xn yp yn : Forall finite64 x -> finite64 q -> nondecreasing (map rval x) ->
  nth_error x i = Some xp -> nth_error x (S i) = Some xn -> nth_error y i = Some yp -> nth_error y (S i) = Some yn -> rval xp < rval q <= rval xn ->
  finite64 yp -> finite64 yn -> Rabs (rval xp) <= powerRZ 2 900 -> Rabs (rval xn) <= powerRZ 2 900 -> Rabs (rval yp) <= powerRZ 2 900 -> Rabs (rval yn) <= powerRZ 2 900 ->
  exists v, linear64 x y q = Ok v /\ finite64 v /\
    Rabs (rval v - (rval yp + (rval q - rval xp) / (rval xn - rval xp) * (rval yn - rval yp))) <=
      powerRZ 2 (-49) * (Rabs (rval yp) + Rabs (rval yn)) + powerRZ 2 (-1074).
Proof.
  intros Fx Fq N A B C D H Fyp Fyn B1 B2 B3 B4. change (powerRZ 2) with P2 in *. exists (cell64 xp yp xn yn q).
  split; [apply (linear64_cell x y q i); assumption |]. pose proof Fx as Fx'. rewrite Forall_forall in Fx'.
  destruct (cell_accuracy xp yp xn yn q (Fx' _ (nth_error_In _ _ A)) (Fx' _ (nth_error_In _ _ B)) Fq Fyp Fyn B1 B2 B3 B4 H) as [F E]. split; [exact F |].
  replace (P2 (-49)) with (16 * e53); [exact E |]. rewrite P2_m by lia. change (2 ^ (- -49))%Z with 562949953421312%Z. unfold e53. lra.
Qed.
Lemma value_unique x y : finite64 x -> finite64 y -> rval x = rval y -> x = y \/ (exists s s', x = S754_zero s /\ y = S754_zero s').
Proof.
  intros Fx Fy E. apply SFeqb_val in E; [| assumption..]. unfold SFeqb in E. destruct (SFcompare x y) as [[] |] eqn:C; try discriminate.
  destruct x as [s | s | | s m e], y as [s' | s' | | s' m' e']; try contradiction; cbn [SFcompare] in C.
  - right. exists s, s'. split; reflexivity.
  - destruct s'; discriminate.
  - destruct s; discriminate.
  - left. destruct s, s'; try discriminate.
    + injection C as C. destruct (Z.compare_spec e e') as [-> | L | L]; cbn in C; try discriminate.
      destruct (Pos.compare_cont Eq m m') eqn:Q; cbn in C; try discriminate. apply Pos.compare_eq in Q. subst. reflexivity.
    + injection C as C. destruct (Z.compare_spec e e') as [-> | L | L]; try discriminate. apply Pos.compare_eq in C. subst. reflexivity.
Qed.
(** Exact at a node if the rise to it is a double. *)
Lemma c124_node x y q i xp xn yp yn : Forall finite64 x -> finite64 q -> nondecreasing (map rval x) ->
  nth_error x i = Some xp -> nth_error x (S i) = Some xn -> nth_error y i = Some yp -> nth_error y (S i) = Some yn -> rval xp < rval q -> rval q = rval xn ->
  finite64 yp -> finite64 yn -> Rabs (rval xp) <= powerRZ 2 900 -> Rabs (rval xn) <= powerRZ 2 900 -> representable (rval yn - rval yp) ->
  Rabs (rval yp) <= powerRZ 2 900 -> Rabs (rval yn) <= powerRZ 2 900 ->
  exists v, linear64 x y q = Ok v /\ finite64 v /\ rval v = rval yn.
Proof.
  intros Fx Fq N A B C D H Q Fyp Fyn B1 B2 RP B3 B4. change (powerRZ 2) with P2 in *. exists (cell64 xp yp xn yn q).
  split; [apply (linear64_cell x y q i); try assumption; lra |]. rewrite Forall_forall in Fx.
  pose proof (Fx _ (nth_error_In _ _ A)) as Fp. pose proof (Fx _ (nth_error_In _ _ B)) as Fn.
  destruct (ratio_cell xp xn q Fp Fn Fq B1 B2 ltac:(lra)) as (Fa & Fd & Pa & Pd & RD & _). unfold cell64.
  pose proof (P2_mono 1000 1023 ltac:(lia)) as MM.
  assert (EQ : sf_sub q xp = sf_sub xn xp).
  { destruct (value_unique q xn Fq Fn Q) as [-> | (s & s' & -> & ->)]; [reflexivity |]. cbn [rval] in H.
    destruct xp as [sp | sp | | sp mp ep]; cbn [rval] in H; try lra. reflexivity. }
  rewrite EQ in *. set (d := sf_sub xn xp) in *. replace (rval d / rval d) with (IZR 1) in RD by (field; lra).
  pose proof (nearest_exact _ _ (proj1 RD) (integer_representable 1 ltac:(lia))) as R1. pose proof (proj1 (proj1 RD)) as Fr.
  pose proof (small_sum _ _ B4 B3) as SD. assert (UD : Rabs (rval yn - rval yp) <= P2 1023) by lra.
  destruct (SFsub_rounded yn yp Fyn Fyp UD) as [ND _]. pose proof (proj1 ND) as FD. pose proof (nearest_exact _ _ ND RP) as VD.
  change (SFsub 53 1024 yn yp) with (sf_sub yn yp) in *.
  assert (UM : Rabs (rval (b64_div d d) * rval (sf_sub yn yp)) <= P2 1023) by (rewrite R1, VD, Rmult_1_l; exact UD).
  destruct (SFmul_rounded _ _ Fr FD UM) as [NM _]. pose proof (proj1 NM) as Fm. rewrite R1, VD, Rmult_1_l in NM. pose proof (nearest_exact _ _ NM RP) as VM.
  change (SFmul 53 1024) with b64_mul in *.
  assert (EZ : rval yp + rval (b64_mul (b64_div d d) (sf_sub yn yp)) = rval yn) by (rewrite VM; ring).
  assert (UZ : Rabs (rval yp + rval (b64_mul (b64_div d d) (sf_sub yn yp))) <= P2 1023) by (rewrite EZ; pose proof (P2_mono 900 1023 ltac:(lia)); lra).
  destruct (SFadd_rounded _ _ Fyp Fm UZ) as [NZ _]. rewrite EZ in NZ. split; [exact (proj1 NZ) |].
  apply (nearest_exact _ _ NZ). exists yn. split; [exact Fyn | reflexivity].
Qed.
(** Rising data, one cell: the result rises with the argument. *)
Lemma nearest_mono_le t t' z z' : nearest64 t z -> nearest64 t' z' -> t < t' \/ (t = t' /\ rval z <= rval z') -> rval z <= rval z'.
Proof. intros N N' [H | [_ H]]; [exact (nearest_mono _ _ _ _ N N' H) | exact H]. Qed.
Lemma c124_monotone x y q q' i xp xn yp yn : Forall finite64 x -> finite64 q -> finite64 q' -> nondecreasing (map rval x) ->
  nth_error x i = Some xp -> nth_error x (S i) = Some xn -> nth_error y i = Some yp -> nth_error y (S i) = Some yn ->
  rval xp < rval q -> rval q <= rval q' -> rval q' <= rval xn -> finite64 yp -> finite64 yn -> rval yp <= rval yn ->
  Rabs (rval xp) <= powerRZ 2 900 -> Rabs (rval xn) <= powerRZ 2 900 -> Rabs (rval yp) <= powerRZ 2 900 -> Rabs (rval yn) <= powerRZ 2 900 ->
  exists v v', linear64 x y q = Ok v /\ linear64 x y q' = Ok v' /\ rval v <= rval v'.
Proof.
  intros Fx Fq Fq' N A B C D H1 H2 H3 Fyp Fyn Y B1 B2 B3 B4. change (powerRZ 2) with P2 in *.
  exists (cell64 xp yp xn yn q), (cell64 xp yp xn yn q').
  split; [apply (linear64_cell x y q i); try assumption; lra |]. split; [apply (linear64_cell x y q' i); try assumption; lra |]. rewrite Forall_forall in Fx.
  pose proof (Fx _ (nth_error_In _ _ A)) as Fp. pose proof (Fx _ (nth_error_In _ _ B)) as Fn.
  destruct (Rle_lt_or_eq_dec _ _ H2) as [L | L].
  2: { destruct (value_unique q q' Fq Fq' L) as [-> | (s & s' & -> & ->)]; [lra |]. unfold cell64. cbn [rval] in H1.
       replace (sf_sub (S754_zero s) xp) with (sf_sub (S754_zero s') xp); [lra |]. destruct xp as [sp | sp | | sp mp ep]; cbn [rval] in H1; try lra. reflexivity. }
  destruct (ratio_cell xp xn q Fp Fn Fq B1 B2 ltac:(lra)) as (Fa & Fd & Pa & Pd & RD & RE).
  destruct (ratio_cell xp xn q' Fp Fn Fq' B1 B2 ltac:(lra)) as (Fa' & _ & Pa' & _ & RD' & RE').
  pose proof (P2_mono 1000 1023 ltac:(lia)) as MM. unfold cell64.
  assert (Bq : Rabs (rval q) <= P2 900) by (apply abs_le in B1; apply abs_le in B2; apply abs_of; lra).
  assert (Bq' : Rabs (rval q') <= P2 900) by (apply abs_le in B1; apply abs_le in B2; apply abs_of; lra).
  (* differences *)
  assert (MA : rval (sf_sub q xp) <= rval (sf_sub q' xp)).
  { assert (U : Rabs (rval q - rval xp) <= P2 1023) by (pose proof (small_sum _ _ Bq B1); lra). assert (U' : Rabs (rval q' - rval xp) <= P2 1023) by (pose proof (small_sum _ _ Bq' B1); lra).
    apply (nearest_mono _ _ _ _ (proj1 (SFsub_rounded q xp Fq Fp U)) (proj1 (SFsub_rounded q' xp Fq' Fp U'))). lra. }
  set (a := sf_sub q xp) in *. set (a' := sf_sub q' xp) in *. set (d := sf_sub xn xp) in *.
  (* quotients: equal arguments give equal results *)
  assert (MR : rval (b64_div a d) <= rval (b64_div a' d)).
  { destruct (Rle_lt_or_eq_dec _ _ MA) as [L' | L'].
    - apply (nearest_mono _ _ _ _ (proj1 RD) (proj1 RD')). apply Rmult_lt_compat_r; [apply Rinv_0_lt_compat; exact Pd | exact L'].
    - destruct (value_unique a a' Fa Fa' L') as [-> | (s & s' & E & _)]; [lra |]. rewrite E in Pa. cbn in Pa. lra. }
  pose proof (proj1 (proj1 RD)) as Fr. pose proof (proj1 (proj1 RD')) as Fr'. set (r := b64_div a d) in *. set (r' := b64_div a' d) in *.
  pose proof (small_sum _ _ B4 B3) as SD. assert (UD : Rabs (rval yn - rval yp) <= P2 1023) by lra.
  destruct (SFsub_rounded yn yp Fyn Fyp UD) as [ND _]. pose proof (proj1 ND) as FD. pose proof (sub_err yn yp Fyn Fyp UD) as ED. rewrite e53_P2 in ED.
  change (SFsub 53 1024 yn yp) with (sf_sub yn yp) in *. set (w := sf_sub yn yp) in *. rewrite (Rabs_right (rval yn - rval yp)) in ED by lra.
  rewrite (Rabs_right (rval yn - rval yp)) in SD by lra. apply abs_le in ED.
  assert (W0 : 0 <= rval w <= 2 * P2 1000) by (unfold e53 in *; lra).
  assert (R2 : forall z, Rabs (rval z - (rval q - rval xp) / (rval xn - rval xp)) <= 5 * e53 \/ Rabs (rval z - (rval q' - rval xp) / (rval xn - rval xp)) <= 5 * e53 -> Rabs (rval z) <= 2).
  { intros z. assert (BB : forall p, rval xp < p <= rval xn -> 0 < (p - rval xp) / (rval xn - rval xp) <= 1).
    { intros p Hp. split; [apply Rdiv_lt_0_compat; lra |]. apply Rmult_le_reg_r with (rval xn - rval xp); [lra |]. unfold Rdiv. rewrite Rmult_assoc, Rinv_l by lra. lra. }
    pose proof (BB (rval q) ltac:(lra)). pose proof (BB (rval q') ltac:(lra)). intros [Z | Z]; apply abs_le in Z; apply abs_of; unfold e53 in *; lra. }
  pose proof (R2 r (or_introl RE)) as r2. pose proof (R2 r' (or_intror RE')) as r2'.
  assert (P4 : 4 * P2 1000 <= P2 1002 /\ 2 * P2 1002 <= P2 1023).
  { pose proof (P2_succ 1000) as X1. pose proof (P2_succ 1001) as X2. pose proof (P2_succ 1002) as X3. change (1000 + 1)%Z with 1001%Z in X1. change (1001 + 1)%Z with 1002%Z in X2. change (1002 + 1)%Z with 1003%Z in X3.
    pose proof (P2_mono 1003 1023 ltac:(lia)). lra. }
  assert (PM : forall z, Rabs (rval z) <= 2 -> Rabs (rval z * rval w) <= P2 1002).
  { intros z Z. rewrite Rabs_mult, (Rabs_right (rval w)) by lra. apply Rle_trans with (2 * (2 * P2 1000)); [apply Rmult_le_compat; try apply Rabs_pos; lra | lra]. }
  pose proof (PM r r2) as pm. pose proof (PM r' r2') as pm'. pose proof (P2_mono 1002 1023 ltac:(lia)) as M2.
  pose proof (SFmul_rounded r w Fr FD ltac:(lra)) as RM. pose proof (SFmul_rounded r' w Fr' FD ltac:(lra)) as RM'. change (SFmul 53 1024) with b64_mul in *.
  assert (MM2 : b64_mul r w = b64_mul r' w \/ rval (b64_mul r w) <= rval (b64_mul r' w)).
  { destruct (Rle_lt_or_eq_dec _ _ MR) as [L' | L'].
    - right. destruct (Rle_lt_or_eq_dec 0 (rval w) ltac:(lra)) as [W1 | W1].
      + apply (nearest_mono _ _ _ _ (proj1 RM) (proj1 RM')). apply Rmult_lt_compat_r; assumption.
      + assert (RZ : representable 0) by (exists (S754_zero false); split; [exact I | reflexivity]).
        rewrite <- W1, Rmult_0_r in RM, RM'. rewrite (nearest_exact _ _ (proj1 RM) RZ), (nearest_exact _ _ (proj1 RM') RZ). lra.
    - destruct (value_unique r r' Fr Fr' L') as [-> | (s & s' & E & E')]; [left; reflexivity |].
      right. rewrite E, E' in *. assert (RZ : representable 0) by (exists (S754_zero false); split; [exact I | reflexivity]).
      cbn [rval] in RM, RM'. rewrite Rmult_0_l in RM, RM'. rewrite (nearest_exact _ _ (proj1 RM) RZ), (nearest_exact _ _ (proj1 RM') RZ). lra. }
  destruct MM2 as [-> | M3]; [lra |].
  pose proof (proj1 (proj1 RM)) as Fm. pose proof (proj1 (proj1 RM')) as Fm'.
  assert (MB : forall z, rounded64 (rval z * rval w) (b64_mul z w) -> Rabs (rval z * rval w) <= P2 1002 -> Rabs (rval yp + rval (b64_mul z w)) <= P2 1023).
  { intros z Z ZB. apply rounded_any in Z. apply abs_le in Z. pose proof (P2_mono (-1075) 1000 ltac:(lia)). pose proof (P2_mono 900 1000 ltac:(lia)). pose proof (P2_pos 1000).
    assert (e53 * Rabs (rval z * rval w) <= e53 * P2 1002) by (apply Rmult_le_compat_l; [unfold e53; lra | exact ZB]). apply abs_le in ZB. apply abs_le in B3. apply abs_of. unfold e53 in *. lra. }
  pose proof (SFadd_rounded yp _ Fyp Fm (MB r RM pm)) as RZ. pose proof (SFadd_rounded yp _ Fyp Fm' (MB r' RM' pm')) as RZ'.
  change (SFadd 53 1024) with sf_add in *.
  destruct (Rle_lt_or_eq_dec _ _ M3) as [L' | L'].
  - apply (nearest_mono _ _ _ _ (proj1 RZ) (proj1 RZ')). lra.
  - destruct (value_unique _ _ Fm Fm' L') as [-> | (s & s' & E & E')]; [lra |]. rewrite E, E' in *. cbn [rval] in RZ, RZ'. rewrite Rplus_0_r in RZ, RZ'.
    assert (RY : representable (rval yp)) by (exists yp; split; [exact Fyp | reflexivity]).
    rewrite (nearest_exact _ _ (proj1 RZ) RY), (nearest_exact _ _ (proj1 RZ') RY). lra.
Qed.
(** From 2^60 at 0 to 1 at 1: the value at 1 is 0. *)
Lemma c124_node_refuted : exists x y q v, Forall finite64 x /\ Forall finite64 y /\ increasing (map rval x) /\ nth_error x 1 = Some q /\
  linear64 x y q = Ok v /\ finite64 v /\ rval v = 0 /\ nth_error y 1 = Some (b64_of_Z 1).
Proof.
  exists [zero64; b64_of_Z 1], [S754_finite false 4503599627370496 8; b64_of_Z 1], (b64_of_Z 1), (S754_zero false).
  destruct (of_Z_val 1 ltac:(lia)) as [F1 V1].
  split; [repeat constructor; exact F1 |]. split; [repeat constructor; exact F1 |]. split.
  { intros i j [H1 H2]. cbn [map length] in *. destruct i as [| [| i]], j as [| [| j]]; try lia. cbn [nth map]. rewrite V1. cbn. lra. }
  split; [reflexivity |]. split; [vm_compute; reflexivity |]. split; [exact I |]. split; reflexivity.
Qed.
(** From -1 at 0 to 2^53 + 2 at 1 and on: the value at 1 is 2^53 + 4, above the data, and the next values are lower. *)
Lemma c124_inside_refuted : exists x y q q' v v', Forall finite64 x /\ Forall finite64 y /\ increasing (map rval x) /\ nondecreasing (map rval y) /\ finite64 q /\ finite64 q' /\
  rval q < rval q' /\ linear64 x y q = Ok v /\ linear64 x y q' = Ok v' /\ finite64 v /\ finite64 v' /\
  (forall z, In z y -> rval z < rval v) /\ rval v' < rval v.
Proof.
  set (top := S754_finite false 4503599627370497 1). set (over := S754_finite false 4503599627370498 1). set (h := S754_finite false 6755399441055744 (-52)).
  set (m1 := S754_finite true 4503599627370496 (-52)).
  exists [zero64; b64_of_Z 1; b64_of_Z 2], [m1; top; top], (b64_of_Z 1), h, over, top.
  destruct (of_Z_val 1 ltac:(lia)) as [F1 V1]. destruct (of_Z_val 2 ltac:(lia)) as [F2 V2].
  assert (LT : rval top < rval over) by (apply SFltb_val; [reflexivity.. | vm_compute; reflexivity]).
  assert (LM : rval m1 < rval top) by (apply SFltb_val; [reflexivity.. | vm_compute; reflexivity]).
  split; [apply Forall_cons; [exact I |]; apply Forall_cons; [exact F1 |]; apply Forall_cons; [exact F2 | constructor] |].
  split; [apply Forall_cons; [reflexivity |]; apply Forall_cons; [reflexivity |]; apply Forall_cons; [reflexivity | constructor] |]. split.
  { intros i j [H1 H2]. cbn [map length] in *. destruct i as [| [| [| i]]], j as [| [| [| j]]]; try lia; cbn [nth map]; rewrite ?V1, ?V2; cbn [rval zero64]; lra. }
  split.
  { intros i j [H1 H2]. cbn [map length] in *. destruct i as [| [| [| i]]], j as [| [| [| j]]]; try lia; cbn [nth map]; lra. }
  split; [exact F1 |]. split; [reflexivity |]. split; [apply SFltb_val; [exact F1 | reflexivity | vm_compute; reflexivity] |].
  split; [vm_compute; reflexivity |]. split; [vm_compute; reflexivity |]. split; [reflexivity |]. split; [reflexivity |]. split.
  - intros z [<- | [<- | [<- | []]]]; lra.
  - exact LT.
Qed.
