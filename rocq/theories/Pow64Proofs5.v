(** The statements on exponentials, logarithms, powers and spherical interpolation (C149, C150). *)

From Coq Require Import List Bool ZArith Reals Lra Lia Psatz Floats.SpecFloat.
From Verif Require Import Result Vec Mat3 VecProofs AngleModel FloatModel FloatSpec FloatProofs FloatProofs2 FloatProofs3 FloatProofs4 FloatProofs5 FloatProofs7 FloatProofs8 FloatProofs10
  Geo3Spec Geo3Proofs Geo3Proofs2 Geo64Model Geo64Spec Geo64Proofs Geo64Proofs2 Geo64Proofs3 Geo64Proofs4 Geo64Proofs5 Geo64Proofs6 Geo64Proofs7 Geo64Proofs8 RotModel RotSpec RotProofs RotProofs2 RotProofs3 RotProofs4 RotProofs5 RotProofs7 RotProofs9 Rot64Model Rot64Spec Rot64Spec2 Rot64Proofs Rot64Proofs2 Rot64Proofs3 Rot64Proofs4 Rot64Proofs5 Rot64Proofs6 Rot64Proofs7 Rot64Proofs8 Rot64Proofs9 Rot64Proofs10 Rot64Proofs11 Rot64Proofs12 Rot64Proofs13 Rot64Proofs14 Rot64Proofs15 Rot64Proofs16 Rot64Proofs17 Att64Model Att64Spec Att64Proofs Att64Proofs2 Att64Proofs3 Att64Proofs4 Att64Proofs5 Att64Proofs7 Att64Proofs8 Att64Proofs9 Att64Proofs10 Pow64Model Pow64Spec Pow64Proofs Pow64Proofs2 Pow64Proofs3 Pow64Proofs4.
Import ListNotations.
Local Open Scope R_scope.

Lemma exp_le3 z : Rabs z <= 1 -> 0 < exp z <= 3.
Proof. intros H. split; [apply exp_pos |]. eapply Rle_trans; [| exact exp_le_3]. destruct (Req_dec z 1) as [-> | N]; [right; reflexivity |]. left. apply exp_increasing. apply abs_le in H. lra. Qed.
Lemma c149_exp L r eps q e : libm_within L e -> e <= / 1000 -> finite4 q -> Rabs (rval (q64s q)) <= 1 -> norm3 (vec (val4 q)) <= 3.9 -> finite64 eps -> P2 (-400) <= rval eps -> (1 + P2 (-51)) * rval eps < norm3 (vec (val4 q)) ->
  exists u, q64_exp L r eps (Some q) = Ok u /\ finite4 u /\ gap4 (val4 u) (polar (exp (rval (q64s q))) (direction (vec (val4 q))) (norm3 (vec (val4 q)))) <= 6 * e + P2 (-47).
Proof.
  intros HL He Fq S N Fe Heps HN. pose proof (libm_pos L e HL) as E0. pose proof e53_pos as PE. pose proof (P2_pos (-400)). rewrite <- e47. rewrite <- e51 in HN. destruct (exp_near L r eps q e HL He Fq S N Fe Heps) as (u & HU & Fu & ALT). exists u. split; [exact HU |]. split; [exact Fu |].
  destruct ALT as [[_ B] | (_ & _ & G)]; [assert (0 <= e53 * rval eps) by (apply Rmult_le_pos; lra); lra |]. pose proof (exp_le3 _ S) as EB. set (E := exp (rval (q64s q))) in *. assert ((E + e) * (1.4145 * e + 19.1 * e53) <= 3.001 * (1.4145 * e + 19.1 * e53)) by (apply Rmult_le_compat_r; lra). lra.
Qed.
Lemma c149_exp_short L r eps q e : libm_within L e -> e <= / 1000 -> finite4 q -> Rabs (rval (q64s q)) <= 1 -> norm3 (vec (val4 q)) <= 3.9 -> finite64 eps -> P2 (-400) <= rval eps -> (1 + P2 (-51)) * norm3 (vec (val4 q)) < rval eps -> q64_exp L r eps (Some q) = Ok q64_Unit.
Proof.
  intros HL He Fq S N Fe Heps HN. pose proof e53_pos as PE. rewrite <- e51 in HN. pose proof (norm3_nonneg (vec (val4 q))) as N0. destruct (exp_near L r eps q e HL He Fq S N Fe Heps) as (u & HU & _ & ALT). destruct ALT as [[-> _] | (_ & B & _)]; [exact HU |]. assert (0 <= e53 * norm3 (vec (val4 q))) by (apply Rmult_le_pos; lra). lra.
Qed.
Lemma c149_log L r eps q e : libm_within L e -> e <= / 1000 -> finite4 q -> / 2 <= len4 (val4 q) <= 2 -> finite64 eps -> P2 (-400) <= rval eps ->
  exists v s, q64_log L r eps (Some q) = Ok (parts64 v s) /\ finite3 v /\ returns s (ln (len4 (val4 q))) (e + P2 (-51)) /\
    ((1 + P2 (-51)) * rval eps < norm3 (vec (val4 q)) -> dist3 (val3 v) (scale3 (atan2 (norm3 (vec (val4 q))) (qs (val4 q))) (direction (vec (val4 q)))) <= e + P2 (-48)) /\
    ((1 + P2 (-51)) * norm3 (vec (val4 q)) < rval eps -> val3 v = zero3).
Proof.
  intros HL He Fq LB Fe Heps. pose proof (libm_pos L e HL) as E0. pose proof e53_pos as PE. rewrite <- e51, <- e48. pose proof (P2_pos (-400)). pose proof (norm3_nonneg (vec (val4 q))) as N0. destruct (log_near L r eps q e HL He Fq ltac:(lra) Fe Heps) as (v & s & HV & Fv & [Fs Es] & ALT). exists v, s. split; [exact HV |]. split; [exact Fv |]. split; [split; [exact Fs | lra] |].
  assert (0 <= e53 * rval eps) by (apply Rmult_le_pos; lra). assert (0 <= e53 * norm3 (vec (val4 q))) by (apply Rmult_le_pos; lra). split; intros HN; destruct ALT as [[Z B] | (_ & B & G)]; try lra; try exact Z.
Qed.
(** The exponential of something close to a logarithm. *)
Lemma exp_after L r eps w e d t l eta sig : libm_within L e -> e <= / 1000 -> finite4 w -> norm3 d = 1 -> 0 <= eta <= / 10 -> Rabs t <= PI -> dist3 (vec (val4 w)) (scale3 t d) <= eta -> Rabs l <= 0.7 -> Rabs (qs (val4 w) - l) <= sig -> sig <= / 100 -> finite64 eps -> P2 (-400) <= rval eps ->
  (1 + 2.61 * e53) * rval eps + eta < Rabs t ->
  exists u, q64_exp L r eps (Some w) = Ok u /\ finite4 u /\ gap4 (val4 u) (polar (exp l) d t) <= (1.02 * exp l + e) * (1.4145 * e + 19.1 * e53) + e + / 100 * e53 + exp l * (1.02 * eta + 1.06 * sig).
Proof.
  intros HL He Fw D HE T DW HLn SW HS Fe Heps HT. pose proof (libm_pos L e HL) as E0. pose proof e53_pos as PE. pose proof pi_digits as PD. pose proof (P2_pos (-402)) as P42.
  assert (NW : Rabs (norm3 (vec (val4 w)) - Rabs t) <= eta). { pose proof (dist_norm (vec (val4 w)) (scale3 t d)) as N. rewrite norm3_scale, D, Rmult_1_r in N. lra. } apply abs_le in NW.
  assert (SB : Rabs (qs (val4 w)) <= 1) by (pose proof (abs_le _ _ SW); pose proof (abs_le _ _ HLn); apply abs_of; lra).
  destruct (exp_near L r eps w e HL He Fw SB ltac:(lra) Fe Heps) as (u & HU & Fu & ALT). exists u. split; [exact HU |]. split; [exact Fu |].
  destruct ALT as [[-> B] | (NL & EL & G)]; [lra |]. change (rval (q64s w)) with (qs (val4 w)) in G. set (z := qs (val4 w)) in *. pose proof (exp_close z l ltac:(lra)) as EC. pose proof (exp_pos l) as PL. pose proof (exp_pos z) as PZ.
  assert (EC' : Rabs (exp z - exp l) <= exp l * (1.06 * sig)) by (eapply Rle_trans; [exact EC |]; rewrite Rmult_comm, <- Rmult_assoc; replace (Rabs (z - l) * 1.06 * exp l) with (exp l * (1.06 * Rabs (z - l))) by ring; apply Rmult_le_compat_l; lra).
  assert (ZL : exp z <= 1.02 * exp l). { apply abs_le in EC'. assert (exp l * (1.06 * sig) <= exp l * 0.0106) by (apply Rmult_le_compat_l; lra). lra. }
  eapply Rle_trans; [apply (gap4_triangle _ (polar (exp z) (direction (vec (val4 w))) (norm3 (vec (val4 w))))) |].
  assert (G2 : gap4 (polar (exp z) (direction (vec (val4 w))) (norm3 (vec (val4 w)))) (polar (exp l) d t) <= exp l * (1.02 * eta + 1.06 * sig)).
  { eapply Rle_trans; [apply (gap4_triangle _ (polar (exp z) d t)) |]. rewrite (polar_times (exp z)), (polar_times (exp z) d), (polar_times (exp l)). rewrite gap4_times by lra. rewrite gap_same, polar_len, Rmult_1_r by (try exact D; lra).
    assert (X : gap4 (polar 1 (direction (vec (val4 w))) (norm3 (vec (val4 w)))) (polar 1 d t) <= eta). { eapply Rle_trans; [apply polar_close; [apply unit_dir; lra | exact D] |]. rewrite own_scale by lra. exact DW. }
    assert (exp z * gap4 (polar 1 (direction (vec (val4 w))) (norm3 (vec (val4 w)))) (polar 1 d t) <= (1.02 * exp l) * eta) by (apply Rmult_le_compat; try apply len4_pos; lra). lra. }
  assert ((exp z + e) * (1.4145 * e + 19.1 * e53) <= (1.02 * exp l + e) * (1.4145 * e + 19.1 * e53)) by (apply Rmult_le_compat_r; lra). lra.
Qed.
Lemma sum_small E e s c : 0 <= E <= 2 -> 0 <= e <= / 1000 -> s <= 7.3 * e53 + e -> c <= e + 20.4 * e53 -> (1.02 * E + e) * (1.4145 * e + 19.1 * e53) + e + / 100 * e53 + E * (1.02 * c + 1.06 * s) <= 8.2 * e + 97 * e53.
Proof.
  intros HE He Hs Hc. pose proof e53_pos as PE. assert (A : (1.02 * E + e) * (1.4145 * e + 19.1 * e53) <= 2.041 * (1.4145 * e + 19.1 * e53)) by (apply Rmult_le_compat_r; lra). assert (B : E * (1.02 * c + 1.06 * s) <= E * (1.02 * (e + 20.4 * e53) + 1.06 * (7.3 * e53 + e))) by (apply Rmult_le_compat_l; lra). assert (C : E * (1.02 * (e + 20.4 * e53) + 1.06 * (7.3 * e53 + e)) <= 2 * (1.02 * (e + 20.4 * e53) + 1.06 * (7.3 * e53 + e))) by (apply Rmult_le_compat_r; lra). lra.
Qed.
Lemma c149_round_trip L r eps q e : libm_within L e -> e <= / 1000 -> finite4 q -> / 2 <= len4 (val4 q) <= 2 -> finite64 eps -> P2 (-400) <= rval eps <= / 32 -> 2 * rval eps + 2 * e + P2 (-47) <= norm3 (vec (val4 q)) ->
  exists l u, q64_log L r eps (Some q) = Ok l /\ q64_exp L r eps (Some l) = Ok u /\ finite4 u /\ gap4 (val4 u) (val4 q) <= 9 * e + P2 (-46).
Proof.
  intros HL He Fq LB Fe Heps HN. pose proof (libm_pos L e HL) as E0. pose proof e53_pos as PE. assert (E9 : e53 <= / 1000000000) by (unfold e53; lra). pose proof (P2_pos (-400)) as P4. rewrite <- e47 in HN. rewrite <- e46.
  destruct (polar_exists (val4 q)) as (h & d & th & H & A & T & Q & HQ & HV); [intros V; rewrite V in HN; replace (norm3 zero3) with 0 in HN by (symmetry; apply norm3_0; reflexivity); lra |]. change (qnorm (val4 q)) with (len4 (val4 q)) in HQ. rewrite <- HV in HN. rewrite <- HQ in LB.
  assert (D : norm3 d = 1) by (unfold norm3; rewrite A; apply sqrt_1). destruct (log_polar L r eps q e h d th HL He Fq LB D ltac:(lra) Q Fe Heps ltac:(right; lra)) as (v & s & HG & Fv & [Fs Es] & eta & DV & _ & _ & B3). specialize (B3 ltac:(lra)). pose proof (dist3_pos (val3 v) (scale3 th d)) as D0.
  pose proof (sin_gt_0 th ltac:(lra) ltac:(lra)) as SP. pose proof (sin_lt_x th ltac:(lra)) as SX. assert (h * sin th <= 2 * sin th) by (apply Rmult_le_compat_r; lra). assert (EE : e53 * rval eps <= e53 * / 32) by (apply Rmult_le_compat_l; lra).
  destruct (exp_after L r eps (parts64 v s) e d th (ln h) eta (e + 3.2 * e53) HL He ltac:(destruct Fv as (? & ? & ?); repeat split; assumption) D ltac:(lra) ltac:(rewrite Rabs_pos_eq; lra) DV (ln_half h LB) Es ltac:(lra) Fe ltac:(lra)) as (u & HU & Fu & G); [rewrite Rabs_pos_eq by lra; lra |].
  rewrite exp_ln, <- Q in G by lra. exists (parts64 v s), u. split; [exact HG |]. split; [exact HU |]. split; [exact Fu |]. eapply Rle_trans; [exact G |]. eapply Rle_trans; [apply sum_small; lra | lra].
Qed.
Lemma c149_pow L r eps q k e h d th : libm_within L e -> e <= / 1000 -> finite4 q -> / 2 <= h <= 2 -> norm3 d = 1 -> 0 <= th <= PI -> val4 q = polar h d th -> finite64 k -> Rabs (rval k) <= 1 -> finite64 eps -> P2 (-400) <= rval eps <= / 32 ->
  2 * rval eps <= h * sin th -> rval eps + e + P2 (-48) <= Rabs (rval k) * th ->
  exists u, q64_pow L r eps (Some q) k = Ok u /\ finite4 u /\ gap4 (val4 u) (polar (exp (rval k * ln h)) d (rval k * th)) <= 9 * e + P2 (-46).
Proof.
  intros HL He Fq H D TH Q Fk K Fe Heps HS HK. pose proof (libm_pos L e HL) as E0. pose proof e53_pos as PE. assert (E9 : e53 <= / 1000000000) by (unfold e53; lra). pose proof (P2_pos (-400)) as P4. rewrite <- e48 in HK. rewrite <- e46. pose proof pi_digits as PD.
  destruct (log_polar L r eps q e h d th HL He Fq H D TH Q Fe Heps ltac:(right; lra)) as (v & s & HG & Fv & [Fs Es] & eta & DV & _ & _ & B3). specialize (B3 HS). pose proof (dist3_pos (val3 v) (scale3 th d)) as D0.
  destruct (pow_mid v s k th d (ln h) eta (e + 3.2 * e53) Fv Fs Fk K D TH DV ltac:(lra) (ln_half h H) Es ltac:(lra)) as (w & HW & Fw & DW & SW).
  assert (KT : Rabs (rval k * th) = Rabs (rval k) * th) by (rewrite Rabs_mult, (Rabs_pos_eq th) by lra; reflexivity). assert (KT1 : Rabs (rval k) * th <= 1 * PI) by (apply Rmult_le_compat; try apply Rabs_pos; lra). assert (KE : 0 <= Rabs (rval k) * eta <= 1 * eta) by (split; [apply Rmult_le_pos; [apply Rabs_pos | lra] | apply Rmult_le_compat_r; lra]).
  assert (KL : Rabs (rval k * ln h) <= 1 * 0.7) by (rewrite Rabs_mult; apply Rmult_le_compat; try apply Rabs_pos; [exact K | apply ln_half, H]). assert (EE : e53 * rval eps <= e53 * / 32) by (apply Rmult_le_compat_l; lra).
  destruct (exp_after L r eps w e d (rval k * th) (rval k * ln h) (Rabs (rval k) * eta + 4.1 * e53) (e + 3.2 * e53 + 4.1 * e53) HL He Fw D ltac:(lra) ltac:(lra) DW ltac:(lra) SW ltac:(lra) Fe ltac:(lra)) as (u & HU & Fu & G); [rewrite KT; lra |].
  exists u. split; [unfold q64_pow; rewrite HG; cbn [bind]; rewrite HW; exact HU |]. split; [exact Fu |]. eapply Rle_trans; [exact G |]. eapply Rle_trans; [apply sum_small; [| lra | lra | lra] | lra].
  split; [left; apply exp_pos |]. assert (LL : rval k * ln h <= ln 2). { assert (AL : Rabs (ln h) <= ln 2). { apply abs_of. split; [rewrite <- ln_Rinv by lra |]. - destruct (Req_dec (/ 2) h) as [-> | N]; [lra |]. left. apply ln_increasing; lra. - destruct (Req_dec h 2) as [-> | N]; [lra |]. left. apply ln_increasing; lra. } pose proof (Rle_abs (rval k * ln h)) as A. rewrite Rabs_mult in A. assert (Rabs (rval k) * Rabs (ln h) <= 1 * ln 2) by (apply Rmult_le_compat; try apply Rabs_pos; assumption). lra. }
  rewrite <- (exp_ln 2) by lra. destruct LL as [LL | ->]; [left; apply exp_increasing; exact LL | right; reflexivity].
Qed.
Lemma c149_pow_unit L r eps q k e h d th : libm_within L e -> e <= / 1000 -> finite4 q -> Rabs (h - 1) <= P2 (-50) -> norm3 d = 1 -> 0 <= th <= PI -> val4 q = polar h d th -> finite64 k -> Rabs (rval k) <= 1 -> finite64 eps -> P2 (-400) <= rval eps <= / 32 ->
  0 <= cos th \/ 2 * rval eps <= h * sin th ->
  exists u, q64_pow L r eps (Some q) k = Ok u /\ finite4 u /\ gap4 (val4 u) (polar 1 d (rval k * th)) <= 5 * e + P2 (-47) + 3 * rval eps.
Proof.
  intros HL He Fq H D TH Q Fk K Fe Heps HC. pose proof (libm_pos L e HL) as E0. pose proof e53_pos as PE. assert (E9 : e53 <= / 1000000000) by (unfold e53; lra). pose proof (P2_pos (-400)) as P4. rewrite <- e50 in H. rewrite <- e47.
  destruct (pow_unit L r eps q k e h d th (8 * e53) HL He Fq H ltac:(lra) D TH Q Fk K Fe Heps HC) as (u & HU & Fu & G). exists u. split; [exact HU |]. split; [exact Fu |]. lra.
Qed.
(** The first power of 2 is 1. *)
Lemma c149_pow_refuted : exists q, finite4 q /\ val4 q = Q4 0 0 0 2 /\ forall L r eps, finite64 eps -> 0 <= rval eps -> q64_pow L r eps (Some q) one_64 = Ok q64_Unit.
Proof.
  exists (F4 zero64 zero64 zero64 two_64). destruct two_val as [F2 V2]. split; [repeat split; exact F2 |]. split; [unfold val4; cbn [q64x q64y q64z q64s]; change (rval zero64) with 0; rewrite V2; reflexivity |].
  intros L r eps Fe He. assert (N : fnorm3 r (F3 zero64 zero64 zero64) = zero64) by (destruct r; vm_compute; reflexivity). assert (C : SFleb zero64 eps = true) by (apply SFleb_val; [exact I | exact Fe | exact He]).
  unfold q64_pow, q64_log. cbn [need3 bind]. change (vec64 (F4 zero64 zero64 zero64 two_64)) with (F3 zero64 zero64 zero64). rewrite N, C. cbn [bind]. unfold q64_scale, parts64. cbn [need3 bind q64x q64y q64z q64s fx fy fz]. unfold q64_exp. cbn [need3 bind]. unfold vec64. cbn [q64x q64y q64z q64s]. replace (b64_mul zero64 one_64) with zero64 by (vm_compute; reflexivity). rewrite N, C. reflexivity.
Qed.
(** The exponential of 1 is 1. *)
Lemma c149_exp_refuted : exists q, finite4 q /\ val4 q = Q4 0 0 0 1 /\ (forall L r eps, finite64 eps -> 0 <= rval eps -> q64_exp L r eps (Some q) = Ok q64_Unit) /\ forall d, 1 <= gap4 (val4 q64_Unit) (polar (exp 1) d 0).
Proof.
  exists q64_Unit. destruct one_val as [F1 V1]. split; [repeat split; exact F1 |]. split; [exact unit_val |]. split.
  - intros L r eps Fe He. assert (N : fnorm3 r (F3 zero64 zero64 zero64) = zero64) by (destruct r; vm_compute; reflexivity). assert (C : SFleb zero64 eps = true) by (apply SFleb_val; [exact I | exact Fe | exact He]). unfold q64_exp. cbn [need3 bind]. change (vec64 q64_Unit) with (F3 zero64 zero64 zero64). rewrite N, C. reflexivity.
  - intros d. rewrite unit_val. eapply Rle_trans; [| apply gap_scalar]. unfold polar, one4. cbn [qs]. rewrite cos_0, Rmult_1_r, Rabs_left1; pose proof (exp_ineq1_le 1); lra.
Qed.
(** Almost a whole turn: half of it should be half a turn. *)
Lemma c149_turn_refuted : exists q k, finite4 q /\ finite64 k /\ rval k = / 2 /\ Rabs (len4 (val4 q) - 1) <= P2 (-50) /\ forall L r eps, finite64 eps -> P2 (-50) <= rval eps ->
  q64_pow L r eps (Some q) k = Ok q64_Unit /\ forall h d th, 0 <= h -> norm3 d = 1 -> 0 <= th <= PI -> val4 q = polar h d th -> 1 <= gap4 (val4 q64_Unit) (polar 1 d (rval k * th)).
Proof.
  set (x := S754_finite false 4503599627370496 (-103)). assert (Fx : finite64 x) by (vm_compute; reflexivity). assert (Vx : rval x = P2 (-51)) by (unfold x; rewrite rval_sg; cbn [sg]; rewrite Rmult_1_l; replace (IZR 4503599627370496) with (P2 52) by (rewrite <- P2_Z by lia; reflexivity); rewrite <- P2_add; reflexivity).
  destruct (of_Z_val (-1) ltac:(lia)) as [Fm Vm]. set (m1 := b64_of_Z (-1)) in *. set (hf := S754_finite false 4503599627370496 (-53)). assert (Fh : finite64 hf) by (vm_compute; reflexivity). assert (Vh : rval hf = / 2) by (unfold hf; rewrite rval_sg; cbn [sg]; rewrite Rmult_1_l; replace (IZR 4503599627370496) with (P2 52) by (rewrite <- P2_Z by lia; reflexivity); rewrite <- P2_add; change (52 + -53)%Z with (-1)%Z; rewrite P2_m by lia; reflexivity).
  exists (F4 x zero64 zero64 m1), hf. split; [repeat split; assumption |]. split; [exact Fh |]. split; [exact Vh |]. pose proof e53_pos as PE. assert (E9 : e53 <= / 1000000000) by (unfold e53; lra). assert (VQ : val4 (F4 x zero64 zero64 m1) = Q4 (4 * e53) 0 0 (-1)) by (unfold val4; cbn [q64x q64y q64z q64s]; change (rval zero64) with 0; rewrite Vx, Vm, e51; reflexivity). rewrite VQ.
  split. { rewrite <- e50. set (l := len4 (Q4 (4 * e53) 0 0 (-1))). assert (LL : l * l = 16 * (e53 * e53) + 1) by (unfold l; rewrite len4_sq; unfold sq; cbn [qx qy qz qs]; ring). assert (L0 : 0 <= l) by apply len4_pos. assert (0 <= e53 * e53 <= / 1000000000 * e53) by (split; [apply Rmult_le_pos; lra | apply Rmult_le_compat_r; lra]). assert (1 <= l) by nra. apply abs_of. split; [lra |]. assert (l <= 1 + 8 * e53); [| lra]. apply sqrt_le_sq; [lra | lra |]. lra. }
  intros L r eps Fe Heps. split.
  - assert (N : fnorm3 r (F3 x zero64 zero64) = x) by (destruct r; vm_compute; reflexivity). assert (C : SFleb x eps = true) by (apply SFleb_val; [exact Fx | exact Fe | rewrite Vx, <- e51; rewrite <- e50 in Heps; lra]). assert (N0 : fnorm3 r (F3 zero64 zero64 zero64) = zero64) by (destruct r; vm_compute; reflexivity). assert (C0 : SFleb zero64 eps = true) by (apply SFleb_val; [exact I | exact Fe | rewrite <- e50 in Heps; change (rval zero64) with 0; lra]).
    unfold q64_pow, q64_log. cbn [need3 bind]. change (vec64 (F4 x zero64 zero64 m1)) with (F3 x zero64 zero64). rewrite N, C. cbn [bind]. unfold q64_scale, parts64. cbn [need3 bind q64x q64y q64z q64s fx fy fz]. unfold q64_exp. cbn [need3 bind]. unfold vec64. cbn [q64x q64y q64z q64s]. replace (b64_mul zero64 hf) with zero64 by (vm_compute; reflexivity). rewrite N0, C0. reflexivity.
  - intros h d th H D TH Q. rewrite Vh, unit_val. assert (CH : h * cos th = -1) by (apply (f_equal qs) in Q; unfold polar in Q; cbn [qs] in Q; lra). pose proof PI_RGT_0.
    assert (CN : cos th < 0) by (destruct (Rle_or_lt 0 (cos th)) as [G | G]; [assert (0 <= h * cos th) by (apply Rmult_le_pos; lra); lra | exact G]). assert (HM : PI / 2 < th) by (destruct (Rle_or_lt th (PI / 2)) as [G | G]; [pose proof (cos_ge_0 th ltac:(lra) G); lra | exact G]).
    assert (CC : cos (/ 2 * th) <= 0.75). { pose proof (cos_2a_cos (/ 2 * th)) as C2. replace (2 * (/ 2 * th)) with th in C2 by lra. nra. } assert (SS : 0 <= sin (/ 2 * th)) by (apply sin_ge_0; lra).
    (* the half angle is next to a right angle *)
    assert (LH : h * h = 16 * (e53 * e53) + 1). { assert (X : len4 (polar h d th) = h) by (apply polar_len; assumption). rewrite <- X at 1 2. rewrite <- Q, len4_sq. unfold sq; cbn [qx qy qz qs]; ring. } assert (ES : 0 <= e53 * e53 <= / 1000000000 * e53) by (split; [apply Rmult_le_pos; lra | apply Rmult_le_compat_r; lra]). assert (H1 : h <= 1.001) by nra. assert (CT : cos th <= -0.99) by nra.
    assert (CK : cos (/ 2 * th) <= 0.1). { pose proof (cos_2a_cos (/ 2 * th)) as C2. replace (2 * (/ 2 * th)) with th in C2 by lra. nra. }
    assert (X : 1 <= gap4 one4 (polar 1 d (/ 2 * th)) * gap4 one4 (polar 1 d (/ 2 * th))). { rewrite <- (polar_zero d) at 1 2. rewrite polar_gap_sq, sin_0, Rminus_0_l, cos_neg by exact D. lra. } pose proof (len4_pos (Q4 (qx one4 - qx (polar 1 d (/ 2 * th))) (qy one4 - qy (polar 1 d (/ 2 * th))) (qz one4 - qz (polar 1 d (/ 2 * th))) (qs one4 - qs (polar 1 d (/ 2 * th))))) as GP. fold (gap4 one4 (polar 1 d (/ 2 * th))) in GP. nra.
Qed.
Lemma c149_errors L r eps k : q64_exp L r eps None = Err EUndefined /\ q64_log L r eps None = Err EUndefined /\ q64_pow L r eps None k = Err EUndefined.
Proof. repeat split. Qed.

(** *** C150 *)
Lemma c150_accurate L r eps p q k e : libm_within L e -> e <= / 1000 -> finite4 p -> finite4 q -> Rabs (len4 (val4 p) - 1) <= / 1000 -> Rabs (len4 (val4 q) - 1) <= / 1000 -> finite64 k -> 0 <= rval k <= 1 -> finite64 eps -> P2 (-400) <= rval eps <= / 32 ->
  exists sg d th w, (sg = 1 \/ sg = -1) /\ norm3 d = 1 /\ 0 <= th <= PI /\ - P2 (-50) <= cos th /\ times4 sg (versor (val4 q)) = hamilton (polar 1 d th) (versor (val4 p)) /\
    q64_SLERP L r eps (Some p) (Some q) (Some k) = Ok w /\ finite4 w /\ gap4 (val4 w) (hamilton (polar 1 d (rval k * th)) (versor (val4 p))) <= 8 * e + P2 (-45) + 5 * rval eps /\
    forall t, finite64 t -> P2 (-50) <= rval t -> q64_isUnitary (Some w) (Some t) = Ok true.
Proof.
  intros HL He Fp Fq Lp Lq Fk K Fe Heps. pose proof (libm_pos L e HL) as E0. pose proof e53_pos as PE. pose proof (P2_pos (-400)) as P4. destruct (slerp_near L r eps p q k e HL He Fp Fq Lp Lq Fk K Fe Heps) as (sg & d & th & w & HS & D & TH & C & R & HW & Fw & G & _ & U).
  exists sg, d, th, w. rewrite <- !qmul_hamilton, <- e45. split; [exact HS |]. split; [exact D |]. split; [exact TH |]. split; [rewrite <- e50; lra |]. split; [exact R |]. split; [exact HW |]. split; [exact Fw |]. split; [lra | exact U].
Qed.
Lemma slerp_formula a d k th : times4 (sin th) (qmul a (polar 1 d (k * th))) = add4 (times4 (sin ((1 - k) * th)) a) (times4 (sin (k * th)) (qmul a (polar 1 d th))).
Proof.
  replace ((1 - k) * th) with (th - k * th) by ring. rewrite sin_minus. set (s := sin th). set (c := cos th). set (s' := sin (k * th)). set (c' := cos (k * th)). unfold polar. fold s c s' c'. destruct a as [a1 a2 a3 a4], d as [d1 d2 d3]. unfold qmul, times4, add4, of_parts, sub3, add3, scale3, cross3, dot3, vec. cbn [qx qy qz qs vx vy vz]. f_equal; ring.
Qed.
(** The formula of spherical interpolation. *)
Lemma c150_formula L r eps p q k e : libm_within L e -> e <= / 1000 -> finite4 p -> finite4 q -> Rabs (len4 (val4 p) - 1) <= / 1000 -> Rabs (len4 (val4 q) - 1) <= / 1000 -> finite64 k -> 0 <= rval k <= 1 -> finite64 eps -> P2 (-400) <= rval eps <= / 32 ->
  exists sg th w, (sg = 1 \/ sg = -1) /\ 0 <= th <= PI /\ - P2 (-50) <= cos th /\ cos th = sg * dot4 (versor (val4 p)) (versor (val4 q)) /\ q64_SLERP L r eps (Some p) (Some q) (Some k) = Ok w /\ finite4 w /\
    let P := versor (val4 p) in let Q := versor (val4 q) in let a := sin ((1 - rval k) * th) in let b := sg * sin (rval k * th) in
    gap4 (times4 (sin th) (val4 w)) (Q4 (a * qx P + b * qx Q) (a * qy P + b * qy Q) (a * qz P + b * qz Q) (a * qs P + b * qs Q)) <= (8 * e + P2 (-45) + 5 * rval eps) * sin th.
Proof.
  intros HL He Fp Fq Lp Lq Fk K Fe Heps. destruct (c150_accurate L r eps p q k e HL He Fp Fq Lp Lq Fk K Fe Heps) as (sg & d & th & w & HS & D & TH & C & R & HW & Fw & G & _). rewrite <- qmul_hamilton in R, G. exists sg, th, w.
  assert (S0 : 0 <= sin th) by (apply sin_ge_0; lra). assert (SS : sg * sg = 1) by (destruct HS as [-> | ->]; ring). assert (LP : 0 < len4 (val4 p)) by (apply abs_le in Lp; lra). pose proof (versor_len _ LP) as LVP.
  split; [exact HS |]. split; [exact TH |]. split; [exact C |]. split.
  { assert (X : qs (qmul (qconj (versor (val4 p))) (times4 sg (versor (val4 q)))) = cos th). { rewrite R, <- qmul_assoc. replace (qmul (qconj (versor (val4 p))) (versor (val4 p))) with (Q4 0 0 0 (sq (versor (val4 p)))) by (generalize (versor (val4 p)); intros; qring). rewrite <- len4_sq, LVP, Rmult_1_r. change (Q4 0 0 0 1) with q_Unit. rewrite qmul_unit_l. unfold polar. cbn [qs]. ring. } rewrite <- X, qmul_conj_dot. unfold dot4, times4. cbn [qx qy qz qs]. ring. }
  split; [exact HW |]. split; [exact Fw |]. intros P Q a b. fold P Q in R, G.
  replace (Q4 (a * qx P + b * qx Q) (a * qy P + b * qy Q) (a * qz P + b * qz Q) (a * qs P + b * qs Q)) with (times4 (sin th) (qmul P (polar 1 d (rval k * th)))).
  - rewrite gap4_times by exact S0. rewrite Rmult_comm. apply Rmult_le_compat_r; assumption.
  - rewrite slerp_formula, <- R. unfold add4, times4. cbn [qx qy qz qs]. unfold a, b. f_equal; ring.
Qed.
Lemma c150_ends L r eps p q k e : libm_within L e -> e <= / 1000 -> finite4 p -> finite4 q -> Rabs (len4 (val4 p) - 1) <= / 1000 -> Rabs (len4 (val4 q) - 1) <= / 1000 -> finite64 k -> finite64 eps -> P2 (-400) <= rval eps <= / 32 ->
  (rval k = 0 -> exists w, q64_SLERP L r eps (Some p) (Some q) (Some k) = Ok w /\ finite4 w /\ gap4 (val4 w) (versor (val4 p)) <= 8 * e + P2 (-45) + 5 * rval eps) /\
  (rval k = 1 -> exists w, q64_SLERP L r eps (Some p) (Some q) (Some k) = Ok w /\ finite4 w /\ (gap4 (val4 w) (versor (val4 q)) <= 8 * e + P2 (-45) + 5 * rval eps \/ gap4 (val4 w) (times4 (-1) (versor (val4 q))) <= 8 * e + P2 (-45) + 5 * rval eps)).
Proof.
  intros HL He Fp Fq Lp Lq Fk Fe Heps. split; intros K; destruct (c150_accurate L r eps p q k e HL He Fp Fq Lp Lq Fk ltac:(lra) Fe Heps) as (sg & d & th & w & HS & D & TH & C & R & HW & Fw & G & _); rewrite <- qmul_hamilton in R, G; exists w; (split; [exact HW |]); (split; [exact Fw |]); rewrite K in G.
  - rewrite Rmult_0_l, polar_zero in G. change one4 with q_Unit in G. rewrite qmul_unit_r in G. exact G.
  - rewrite Rmult_1_l, <- R in G. destruct HS as [-> | ->]; [left; rewrite times_one in G; exact G | right; exact G].
Qed.
Lemma c150_turn L r eps p q k e tol v : libm_within L e -> e <= / 1000 -> finite4 p -> finite4 q -> Rabs (len4 (val4 p) - 1) <= / 1000 -> Rabs (len4 (val4 q) - 1) <= / 1000 -> finite64 k -> 0 <= rval k <= 1 -> finite64 eps -> P2 (-400) <= rval eps <= / 1000 -> finite64 tol -> P2 (-50) <= rval tol -> finite3 v -> norm3 (val3 v) <= P2 440 ->
  exists sg d th w u, (sg = 1 \/ sg = -1) /\ norm3 d = 1 /\ 0 <= th <= PI /\ - P2 (-50) <= cos th /\ times4 sg (versor (val4 q)) = hamilton (polar 1 d th) (versor (val4 p)) /\
    q64_SLERP L r eps (Some p) (Some q) (Some k) = Ok w /\ q64_rotateVector r (Some w) (Some v) (Some tol) = Ok u /\ finite3 u /\
    dist3 (val3 u) (turned4 (hamilton (polar 1 d (rval k * th)) (versor (val4 p))) (val3 v)) <= (15 * e + P2 (-44) + 9 * rval eps) * norm3 (val3 v) + P2 (-1069).
Proof.
  intros HL He Fp Fq Lp Lq Fk K Fe Heps Ft Ht Fv Bv. pose proof (libm_pos L e HL) as E0. pose proof e53_pos as PE. assert (E9 : e53 <= / 1000000000) by (unfold e53; lra). pose proof (P2_pos (-400)) as P4. destruct (slerp_near L r eps p q k e HL He Fp Fq Lp Lq Fk K Fe ltac:(lra)) as (sg & d & th & w & HS & D & TH & C & R & HW & Fw & G & LW & _).
  assert (LP : 0 < len4 (val4 p)) by (apply abs_le in Lp; lra). pose proof (versor_len _ LP) as LVP. assert (LT : len4 (qmul (versor (val4 p)) (polar 1 d (rval k * th))) = 1) by (rewrite len4_mul, LVP, polar_len by (try exact D; lra); ring).
  destruct (turns_like r w _ _ tol v Fw LW LT G ltac:(lra) Ft Ht Fv Bv) as (u & HU & Fu & DU). exists sg, d, th, w, u. rewrite <- !qmul_hamilton, turned_rot. split; [exact HS |]. split; [exact D |]. split; [exact TH |]. split; [rewrite <- e50; lra |]. split; [exact R |]. split; [exact HW |]. split; [exact HU |]. split; [exact Fu |].
  eapply Rle_trans; [exact DU |]. rewrite <- tiny64. pose proof tiny_pos. assert (E44 : P2 (-44) = 512 * e53) by (rewrite <- e53_P2; replace 512 with (P2 9) by (rewrite <- P2_Z by lia; reflexivity); rewrite <- P2_add; reflexivity). rewrite E44. apply Rplus_le_compat; [| lra]. apply Rmult_le_compat_r; [apply norm3_nonneg | lra].
Qed.
Lemma c150_refused L r eps p q k : finite4 p -> finite4 q -> within4 (P2 450) p -> P2 (-450) <= len4 (val4 p) -> finite64 k -> 0 <= rval k <= 1 -> finite64 eps -> (1 + P2 (-50)) * sq (val4 p) < rval eps -> q64_SLERP L r eps (Some p) (Some q) (Some k) = Err ERuntime.
Proof.
  intros Fp Fq B LP Fk K Fe He. destruct (c131_inverse eps p Fe Fp B LP) as [_ I]. specialize (I He). destruct one_val as [FO VO]. unfold q64_SLERP. cbn [need3 bind]. rewrite ltb_f, ltb_f; [| exact FO | exact Fk | rewrite VO; lra | exact Fk | exact Logic.I | change (rval zero64) with 0; lra]. cbn [orb]. unfold q64_dotProduct. cbn [need3 bind]. rewrite I. reflexivity.
Qed.
Lemma c150_errors L r eps p q k : q64_SLERP L r eps p q None = Err EUndefined /\
  (finite64 k -> rval k < 0 \/ 1 < rval k -> q64_SLERP L r eps p q (Some k) = Err ERuntime) /\
  (finite64 k -> 0 <= rval k <= 1 -> q64_SLERP L r eps None q (Some k) = Err EUndefined /\ q64_SLERP L r eps p None (Some k) = Err EUndefined).
Proof.
  destruct one_val as [FO VO]. split; [reflexivity |]. split.
  - intros Fk [H | H]; unfold q64_SLERP; cbn [need3 bind]; [rewrite ltb_t by (try exact Fk; try exact I; change (rval zero64) with 0; lra); reflexivity |]. rewrite (ltb_t one_64 k FO Fk) by (rewrite VO; lra). rewrite orb_true_r. reflexivity.
  - intros Fk H. unfold q64_SLERP; cbn [need3 bind]. rewrite ltb_f, ltb_f; [| exact FO | exact Fk | rewrite VO; lra | exact Fk | exact I | change (rval zero64) with 0; lra]. cbn [orb]. split; [reflexivity |]. destruct p; reflexivity.
Qed.
