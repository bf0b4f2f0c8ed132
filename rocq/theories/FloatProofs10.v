(** Square roots in double precision are correctly rounded. *)

From Coq Require Import List Bool ZArith Reals Lra Lia Floats.SpecFloat.
From Verif Require Import FloatSpec FloatProofs FloatProofs2.
Local Open Scope R_scope.

Lemma P2_double a : P2 (2 * a) = P2 a * P2 a.
Proof. rewrite <- P2_add. f_equal. lia. Qed.
Lemma sqrt_loc n q r : (0 <= n)%Z -> n = (q * q + r)%Z -> (0 <= r <= 2 * q)%Z ->
  rinloc q (if Zeq_bool r 0 then loc_Exact else loc_Inexact (if (r <=? q)%Z then Lt else Gt)) (sqrt (IZR n)).
Proof.
  intros N E B. assert (Q : 0 <= IZR q) by (apply IZR_le; lia).
  assert (V : IZR n = IZR q * IZR q + IZR r) by (rewrite E, plus_IZR, mult_IZR; reflexivity).
  destruct (Zeq_bool r 0) eqn:R0.
  - apply Zeq_bool_eq in R0. subst r. cbn [rinloc]. rewrite V, Rplus_0_r. apply sqrt_square, Q.
  - apply Zeq_bool_neq in R0. destruct (Z.leb_spec r q) as [L | L]; cbn [rinloc]; split.
    + rewrite <- (sqrt_square (IZR q)) at 1 by exact Q. assert (0 < IZR r) by (apply IZR_lt; lia). apply sqrt_lt_1; nra.
    + rewrite <- (sqrt_square (IZR q + / 2)) by lra. apply IZR_le in L. assert (0 <= IZR r) by (apply IZR_le; lia). apply sqrt_lt_1; nra.
    + rewrite <- (sqrt_square (IZR q + / 2)) by lra. assert (IZR q + 1 <= IZR r) by (rewrite <- plus_IZR; apply IZR_le; lia). apply sqrt_lt_1; nra.
    + rewrite <- (sqrt_square (IZR q + 1)) by lra. assert (IZR r <= 2 * IZR q) by (rewrite <- mult_IZR; apply IZR_le; lia). assert (0 <= IZR r) by (apply IZR_le; lia). apply sqrt_lt_1; nra.
Qed.
Lemma SFsqrt_rounded x : finite64 x -> 0 <= rval x -> rounded64 (sqrt (rval x)) (SFsqrt 53 1024 x).
Proof.
  intros F P. destruct x as [s | s | | s m e]; try contradiction; cbn [SFsqrt].
  - rewrite rval_zero, sqrt_0. exact (exact_rounded (S754_zero s) I).
  - pose proof (pos_pos m e) as Pm. destruct s; [exfalso; rewrite rval_sg in P; cbn [sg] in P; lra |].
    assert (V : rval (S754_finite false m e) = IZR (Zpos m) * P2 e) by (rewrite rval_sg; cbn [sg]; ring). rewrite V in *. clear P.
    unfold SFsqrt_core_binary. set (d := Zdigits2 (Zpos m)). set (D := Z.div2 (d + e + 1)). set (E := Z.min (fexp 53 1024 D) (Z.div2 e)).
    assert (DV : (2 * D <= d + e + 1)%Z) by (unfold D; rewrite Z.div2_div; apply Z.mul_div_le; lia).
    assert (EV : (2 * E <= e)%Z).
    { apply Z.le_trans with (2 * Z.div2 e)%Z; [unfold E; lia |]. rewrite Z.div2_div. apply Z.mul_div_le. lia. }
    cbv zeta.
    assert (M : match (e - 2 * E)%Z with 0%Z => Zpos m | Zpos _ => Z.shiftl (Zpos m) (e - 2 * E) | Zneg _ => 0%Z end = (Zpos m * 2 ^ (e - 2 * E))%Z).
    { destruct (e - 2 * E)%Z as [| k | k] eqn:Q; try lia. now rewrite Z.shiftl_mul_pow2 by lia. }
    rewrite M. clear M. set (X := (Zpos m * 2 ^ (e - 2 * E))%Z).
    assert (X0 : (0 <= X)%Z) by (unfold X; pose proof (Z.pow_nonneg 2 (e - 2 * E)); nia).
    pose proof (Z.sqrtrem_spec X X0) as SR. destruct (Z.sqrtrem X) as [q r]. destruct SR as [S1 S2].
    assert (T : sqrt (IZR (Zpos m) * P2 e) = sqrt (IZR X) * P2 E).
    { pose proof (P2_pos E). unfold X. rewrite mult_IZR, P2_Z by lia. rewrite <- (sqrt_square (P2 E)) at 1 by lra.
      rewrite <- sqrt_mult; [| apply Rmult_le_pos; [apply IZR_le; lia | apply Rlt_le, P2_pos] | nra].
      f_equal. rewrite Rmult_assoc. f_equal. rewrite <- P2_add, <- P2_add. f_equal. lia. }
    replace (sqrt (IZR (Zpos m) * P2 e)) with (sg false * sqrt (IZR (Zpos m) * P2 e)) by (cbn [sg]; ring).
    apply (round_nearest false q E _ (sqrt (IZR X))).
    + lia.
    + apply (sqrt_loc X q r X0 S1 S2).
    + exact T.
    + apply Rle_trans with (P2 1023); [| lra]. rewrite <- (sqrt_square (P2 1023)) by (apply Rlt_le, P2_pos). apply sqrt_le_1; [lra | pose proof (P2_pos 1023); nra |].
      apply bounded_spec in F. destruct F as (F1 & F2 & F3). assert (IZR (Zpos m) <= P2 53) by (rewrite <- P2_Z by lia; apply IZR_le; lia).
      apply Rle_trans with (P2 53 * P2 971).
      * apply Rmult_le_compat; [apply IZR_le; lia | apply Rlt_le, P2_pos | assumption | apply P2_mono; lia].
      * rewrite <- !P2_add. apply P2_mono. lia.
    + unfold E, fexp, emin. destruct (Z.le_gt_cases (D - 53) (3 - 1024 - 53)) as [C | C]; [left; lia | right].
      apply Rle_trans with (P2 (D - 1)); [apply P2_mono; lia |].
      rewrite <- (sqrt_square (P2 (D - 1))) by (apply Rlt_le, P2_pos). apply sqrt_le_1; [pose proof (P2_pos (D - 1)); nra | lra |].
      rewrite <- P2_double. destruct (rdigits2_bounds (Zpos m) ltac:(lia)) as [B1 _]. pose proof (rdigits2_pos (Zpos m) ltac:(lia)) as G. apply IZR_le in B1. rewrite P2_Z in B1 by lia.
      apply Rle_trans with (P2 (d - 1) * P2 e); [| apply Rmult_le_compat_r; [apply Rlt_le, P2_pos | exact B1]].
      rewrite <- P2_add. apply P2_mono. lia.
Qed.
(** A square root never underflows: its error is relative. *)
Lemma sqrt_err x : finite64 x -> 0 <= rval x -> Rabs (rval (SFsqrt 53 1024 x) - sqrt (rval x)) <= P2 (-53) * sqrt (rval x).
Proof.
  intros F P. destruct (SFsqrt_rounded x F P) as [[Fz N] [E | [E S]]]; [rewrite (Rabs_right (sqrt (rval x))) in E by (apply Rle_ge, sqrt_pos); exact E |].
  destruct (Req_dec (rval x) 0) as [Z | Z].
  - specialize (N (S754_zero false) I). rewrite Z, sqrt_0 in *. rewrite rval_zero, !Rminus_0_r, Rabs_R0 in N. rewrite Rmult_0_r, Rminus_0_r. exact N.
  - exfalso. destruct (finite_small x F) as [n V]. assert (N1 : (1 <= n)%Z).
    { assert (0 < n)%Z; [| lia]. apply lt_IZR. pose proof (P2_pos (-1074)). assert (0 < rval x) by lra. rewrite V in H0. nra. }
    assert (L : P2 (-1074) <= rval x) by (rewrite V; apply IZR_le in N1; pose proof (P2_pos (-1074)); nra).
    rewrite (Rabs_right (sqrt (rval x))) in S by (apply Rle_ge, sqrt_pos). change (powerRZ 2 (-1021)) with (P2 (-1021)) in S.
    assert (Q : sqrt (P2 (-1074)) <= sqrt (rval x)) by (apply sqrt_le_1; [apply Rlt_le, P2_pos | lra | exact L]).
    replace (-1074)%Z with (2 * (-537))%Z in Q by lia. rewrite P2_double, sqrt_square in Q by (apply Rlt_le, P2_pos). pose proof (P2_mono (-1021) (-537) ltac:(lia)). lra.
Qed.
