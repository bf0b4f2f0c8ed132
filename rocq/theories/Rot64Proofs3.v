From Coq Require Import List Bool ZArith Reals Lra Lia Psatz Floats.SpecFloat.
From Verif Require Import Result Vec Mat3 AngleModel FloatModel FloatSpec FloatProofs FloatProofs2 FloatProofs3 FloatProofs4 FloatProofs5 FloatProofs7 FloatProofs8 FloatProofs10
  Geo64Model Geo64Spec Geo64Proofs Geo64Proofs2 Geo64Proofs3 Geo64Proofs4 Geo64Proofs5 Geo64Proofs6 Geo64Proofs8 RotModel RotSpec RotProofs Rot64Model Rot64Spec Rot64Proofs Rot64Proofs2.
Import ListNotations.
Local Open Scope R_scope.

(** *** Sums of four products, norms *)
Lemma fdot4_near p q : finite4 p -> finite4 q -> within4 (P2 450) p -> within4 (P2 450) q ->
  near64 (fdot4 p q) (dot4 (val4 p) (val4 q)) (4.02 * e53 * (len4 (val4 p) * len4 (val4 q)) + 5 * tiny).
Proof.
  intros (F1 & F2 & F3 & F4) (G1 & G2 & G3 & G4) (B1 & B2 & B3 & B4) (D1 & D2 & D3 & D4).
  pose proof (cauchy4 (qx (val4 p)) (qy (val4 p)) (qz (val4 p)) (qs (val4 p)) (qx (val4 q)) (qy (val4 q)) (qz (val4 q)) (qs (val4 q)) _ _ (len4_pos (val4 p)) (len4_pos (val4 q))) as C.
  rewrite !len4_sq in C. specialize (C (Rle_refl _) (Rle_refl _)). set (N := len4 (val4 p) * len4 (val4 q)) in *. unfold val4 in C; cbn [qx qy qz qs] in C.
  unfold fdot4, dot4, val4; cbn [qx qy qz qs].
  pose proof (near_prod_450 _ _ F1 G1 B1 D1) as N1. pose proof (near_prod_450 _ _ F2 G2 B2 D2) as N2. pose proof (near_prod_450 _ _ F3 G3 B3 D3) as N3. pose proof (near_prod_450 _ _ F4 G4 B4 D4) as N4.
  pose proof (prod_450 _ _ B1 D1) as P1. pose proof (prod_450 _ _ B2 D2) as P2'. pose proof (prod_450 _ _ B3 D3) as P3. pose proof (prod_450 _ _ B4 D4) as P4.
  set (a := rval (q64x p) * rval (q64x q)) in *. set (b := rval (q64y p) * rval (q64y q)) in *. set (c := rval (q64z p) * rval (q64z q)) in *. set (d := rval (q64s p) * rval (q64s q)) in *.
  pose proof (Rabs_pos a). pose proof (Rabs_pos b). pose proof (Rabs_pos c). pose proof (Rabs_pos d). pose proof P2_900 as [T1 T2]. pose proof tiny_1. pose proof tiny_pos.
  assert (S1 : near64 (sf_add (b64_mul (q64x p) (q64x q)) (b64_mul (q64y p) (q64y q))) (a + b) (2.005 * e53 * (Rabs a + Rabs b) + 2.1 * tiny)).
  { refine (near_le _ _ _ _ (near_add _ _ _ _ _ _ (Rabs a) (Rabs b) N1 N2 (Rle_refl _) (Rle_refl _) _) _); unfold e53; lra. }
  assert (S2 : near64 (sf_add (sf_add (b64_mul (q64x p) (q64x q)) (b64_mul (q64y p) (q64y q))) (b64_mul (q64z p) (q64z q))) (a + b + c) (3.01 * e53 * (Rabs a + Rabs b + Rabs c) + 3.2 * tiny)).
  { refine (near_le _ _ _ _ (near_add _ _ _ _ _ _ (Rabs a + Rabs b) (Rabs c) S1 N3 (Rabs_triang _ _) (Rle_refl _) _) _); unfold e53; lra. }
  refine (near_le _ _ _ _ (near_add _ _ _ _ _ _ (Rabs a + Rabs b + Rabs c) (Rabs d) S2 N4 _ (Rle_refl _) _) _).
  - eapply Rle_trans; [apply Rabs_triang |]. pose proof (Rabs_triang a b). lra.
  - unfold e53; lra.
  - assert (K : e53 * (Rabs a + Rabs b + Rabs c + Rabs d) <= e53 * N) by (apply Rmult_le_compat_l; [pose proof e53_pos; lra | exact C]). unfold e53 in *. lra.
Qed.
Lemma sqrt_rel s t x : 0 < t -> 0 <= x <= / 100 -> Rabs (s - t) <= x * t -> Rabs (sqrt s - sqrt t) <= 0.506 * x * sqrt t.
Proof.
  intros T X H. apply abs_le in H. assert (S : 0 <= s) by nra. pose proof (sqrt_sqrt s S) as QS. pose proof (sqrt_sqrt t (Rlt_le _ _ T)) as QT.
  pose proof (sqrt_pos s) as PS. pose proof (sqrt_lt_R0 t T) as PT. set (a := sqrt s) in *. set (b := sqrt t) in *. clearbody a b.
  assert (L : 0.98 * b <= a). { apply Rsqr_incr_0_var; [| exact PS]. unfold Rsqr. nra. }
  assert (M : Rabs (a - b) * (1.98 * b) <= x * (b * b)).
  { apply Rle_trans with (Rabs (a - b) * (a + b)); [apply Rmult_le_compat_l; [apply Rabs_pos | lra] |]. rewrite <- (Rabs_pos_eq (a + b)) by lra. rewrite <- Rabs_mult.
    replace ((a - b) * (a + b)) with (a * a - b * b) by ring. rewrite QS, QT. apply abs_of. lra. }
  apply Rmult_le_reg_r with (1.98 * b); [lra |]. eapply Rle_trans; [exact M |]. assert (0 <= x * (b * b)) by (apply Rmult_le_pos; nra). lra.
Qed.
Lemma sq_450 q : P2 (-450) <= len4 q -> P2 (-900) <= sq q.
Proof. intros L. rewrite <- len4_sq. change (-900)%Z with (-450 + -450)%Z. rewrite P2_add. pose proof (P2_pos (-450)). apply Rmult_le_compat; lra. Qed.
Lemma tiny_900 : 1000 * tiny <= e53 * P2 (-900).
Proof.
  unfold tiny. rewrite <- e53_P2, <- P2_add. apply Rle_trans with (P2 10 * P2 (-1075)); [apply Rmult_le_compat_r; [apply Rlt_le, P2_pos | rewrite <- P2_Z by lia; apply IZR_le; lia] |].
  rewrite <- P2_add. apply P2_mono. lia.
Qed.
Lemma fsq4_err q : finite4 q -> within4 (P2 450) q -> P2 (-450) <= len4 (val4 q) ->
  finite64 (fdot4 q q) /\ Rabs (rval (fdot4 q q) - sq (val4 q)) <= 4.03 * e53 * sq (val4 q).
Proof.
  intros F B L. destruct (fdot4_near q q F F B B) as [Fs E]. rewrite len4_sq in E. pose proof (sq_450 _ L). pose proof tiny_900 as T. pose proof (P2_pos (-900)).
  split; [exact Fs |]. eapply Rle_trans; [exact E |]. unfold e53 in *. lra.
Qed.
Lemma fnorm4_err q : finite4 q -> within4 (P2 450) q -> P2 (-450) <= len4 (val4 q) ->
  finite64 (fnorm4 q) /\ Rabs (rval (fnorm4 q) - len4 (val4 q)) <= 3.05 * e53 * len4 (val4 q).
Proof.
  intros F B L. destruct (fsq4_err q F B L) as [Fs E]. pose proof (sq_450 _ L). pose proof (P2_pos (-900)). assert (PS : 0 < sq (val4 q)) by lra.
  assert (Ps : 0 <= rval (fdot4 q q)) by (apply abs_le in E; unfold e53 in *; lra).
  pose proof (sqrt_err _ Fs Ps) as K. rewrite e53_P2 in K. assert (Fn : finite64 (fnorm4 q)) by (exact (proj1 (proj1 (SFsqrt_rounded _ Fs Ps)))). split; [exact Fn |].
  pose proof (sqrt_rel _ _ (4.03 * e53) PS ltac:(unfold e53; lra) E) as N. fold (len4 (val4 q)) in N. unfold fnorm4, b64_sqrt. set (n := rval (SFsqrt 53 1024 (fdot4 q q))) in *.
  pose proof (len4_pos (val4 q)). apply abs_le in N. apply abs_le in K. apply abs_of. unfold e53 in *. lra.
Qed.
Lemma e51 : 4 * e53 = P2 (-51).
Proof. rewrite <- e53_P2. replace 4 with (P2 2) by (rewrite <- P2_Z by lia; reflexivity). rewrite <- P2_add. reflexivity. Qed.
Lemma c131_norm q : finite4 q -> within4 (P2 450) q -> P2 (-450) <= len4 (val4 q) ->
  exists n, q64_norm (Some q) = Ok n /\ finite64 n /\ Rabs (rval n - len4 (val4 q)) <= P2 (-51) * len4 (val4 q).
Proof.
  intros F B L. destruct (fnorm4_err q F B L) as [Fn E]. exists (fnorm4 q). split; [reflexivity |]. split; [exact Fn |]. rewrite <- e51. pose proof (len4_pos (val4 q)). unfold e53 in *. lra.
Qed.
Lemma c131_dot p q : finite4 p -> finite4 q -> within4 (P2 450) p -> within4 (P2 450) q ->
  exists d, q64_dotProduct (Some p) (Some q) = Ok d /\ finite64 d /\ Rabs (rval d - dot4 (val4 p) (val4 q)) <= P2 (-50) * (len4 (val4 p) * len4 (val4 q)) + P2 (-1071).
Proof.
  intros F G B D. destruct (fdot4_near p q F G B D) as [X E]. exists (fdot4 p q). split; [reflexivity |]. split; [exact X |]. rewrite <- e50, <- tiny16.
  pose proof (Rmult_le_pos _ _ (len4_pos (val4 p)) (len4_pos (val4 q))). pose proof tiny_pos. unfold e53 in *. lra.
Qed.

(** *** Normalization *)
Lemma div_len x n N k : finite64 x -> finite64 n -> 0 < N -> 0 <= k <= 16 -> Rabs (rval n - N) <= k * e53 * N -> Rabs (rval x) / N <= P2 900 ->
  near64 (b64_div x n) (rval x / N) ((k + 1.01) * e53 * (Rabs (rval x) / N) + tiny).
Proof.
  intros Fx Fn PN Hk En Bx. apply abs_le in En. assert (k * e53 <= / 1000000) by (unfold e53; lra). assert (Pn : 0.999999 * N <= rval n) by nra.
  set (a := Rabs (rval x) / N). assert (A0 : 0 <= a) by (unfold a; apply Rmult_le_pos; [apply Rabs_pos | apply Rlt_le, Rinv_0_lt_compat; exact PN]).
  assert (A1 : a <= P2 900) by exact Bx.
  assert (AN : Rabs (rval x) = a * N) by (unfold a; field; lra).
  assert (D : Rabs (rval x / rval n - rval x / N) <= (k * e53 * (1 + / 100000)) * a).
  { replace (rval x / rval n - rval x / N) with (rval x * ((N - rval n) * (/ rval n * / N))) by (field; lra). rewrite !Rabs_mult, AN, (Rabs_pos_eq (/ rval n)), (Rabs_pos_eq (/ N)) by (apply Rlt_le, Rinv_0_lt_compat; lra).
    apply Rmult_le_reg_r with (rval n); [lra |]. replace (a * N * (Rabs (N - rval n) * (/ rval n * / N)) * rval n) with (a * Rabs (N - rval n)) by (field; lra).
    assert (G : Rabs (N - rval n) <= k * e53 * N) by (apply abs_of; lra).
    apply Rle_trans with (a * (k * e53 * N)); [apply Rmult_le_compat_l; assumption |]. replace (k * e53 * (1 + / 100000) * a * rval n) with (a * (k * e53 * ((1 + / 100000) * rval n))) by ring.
    apply Rmult_le_compat_l; [exact A0 |]. apply Rmult_le_compat_l; [unfold e53; lra | lra]. }
  assert (HQ : Rabs (rval x / rval n) <= (1 + / 1000) * a).
  { unfold Rdiv. rewrite Rabs_mult, Rabs_inv, (Rabs_pos_eq (rval n)), AN by lra. apply Rmult_le_reg_r with (rval n); [lra |]. rewrite Rmult_assoc, Rinv_l by lra. nra. }
  assert (U : Rabs (rval x / rval n) <= P2 1023) by (pose proof P2_900; lra).
  destruct (div_any x n Fx Fn ltac:(lra) U) as [X E]. split; [exact X |].
  replace (rval (b64_div x n) - rval x / N) with (rval (b64_div x n) - rval x / rval n + (rval x / rval n - rval x / N)) by ring.
  eapply Rle_trans; [apply Rabs_triang |]. apply Rle_trans with ((e53 * ((1 + / 1000) * a) + tiny) + k * e53 * (1 + / 100000) * a).
  - apply Rplus_le_compat; [| exact D]. eapply Rle_trans; [exact E |]. apply Rplus_le_compat_r. apply Rmult_le_compat_l; [unfold e53; lra | exact HQ].
  - replace (e53 * ((1 + / 1000) * a) + tiny + k * e53 * (1 + / 100000) * a) with (e53 * a * ((1 + / 1000) + k * (1 + / 100000)) + tiny) by ring.
    replace ((k + 1.01) * e53 * a + tiny) with (e53 * a * (k + 1.01) + tiny) by ring. apply Rplus_le_compat_r. apply Rmult_le_compat_l; [unfold e53; nra | lra].
Qed.
Definition fnormal4 (q : f4) : f4 := let n := fnorm4 q in F4 (b64_div (q64x q) n) (b64_div (q64y q) n) (b64_div (q64z q) n) (b64_div (q64s q) n).
Lemma fnormal4_err q : finite4 q -> within4 (P2 450) q -> P2 (-450) <= len4 (val4 q) ->
  finite4 (fnormal4 q) /\ gap4 (val4 (fnormal4 q)) (times4 (/ len4 (val4 q)) (val4 q)) <= 4.07 * e53.
Proof.
  intros F B L. destruct (fnorm4_err q F B L) as [Fn En]. pose proof (P2_pos (-450)) as P450. set (N := len4 (val4 q)) in *. assert (PN : 0 < N) by lra.
  destruct (coord4 (val4 q)) as (C1 & C2 & C3 & C4). destruct F as (F1 & F2 & F3 & F4). unfold val4 in C1, C2, C3, C4; cbn [qx qy qz qs] in C1, C2, C3, C4. fold (val4 q) in C1, C2, C3, C4. fold N in C1, C2, C3, C4.
  assert (LD : forall x, Rabs x <= N -> Rabs x / N <= P2 900).
  { intros x H. apply Rle_trans with 1; [| apply P2_900]. apply Rmult_le_reg_r with N; [exact PN |]. unfold Rdiv. rewrite Rmult_assoc, Rinv_l by lra. lra. }
  destruct (div_len _ _ N 3.05 F1 Fn PN ltac:(lra) En (LD _ C1)) as [G1 E1]. destruct (div_len _ _ N 3.05 F2 Fn PN ltac:(lra) En (LD _ C2)) as [G2 E2].
  destruct (div_len _ _ N 3.05 F3 Fn PN ltac:(lra) En (LD _ C3)) as [G3 E3]. destruct (div_len _ _ N 3.05 F4 Fn PN ltac:(lra) En (LD _ C4)) as [G4 E4].
  split; [repeat split; assumption |].
  assert (Q : forall x, / N * x = x / N) by (intros; unfold Rdiv; ring).
  apply (gap4_le (val4 (fnormal4 q)) (times4 (/ N) (val4 q)) ((3.05 + 1.01) * e53 * (Rabs (rval (q64x q)) / N) + tiny) ((3.05 + 1.01) * e53 * (Rabs (rval (q64y q)) / N) + tiny) ((3.05 + 1.01) * e53 * (Rabs (rval (q64z q)) / N) + tiny) ((3.05 + 1.01) * e53 * (Rabs (rval (q64s q)) / N) + tiny));
    try (unfold times4, val4, fnormal4; cbn [qx qy qz qs q64x q64y q64z q64s]; rewrite Q; assumption); [unfold e53; lra |].
  assert (T : tiny <= / 10000 * e53) by (pose proof tiny_900; assert (P2 (-900) <= / 100) by (apply Rle_trans with (P2 (-7)); [apply P2_mono; lia | rewrite P2_m by lia; apply Rinv_le_contravar; [lra | apply IZR_le; lia]]); pose proof (P2_pos (-900)); unfold e53 in *; lra).
  pose proof (len4_sq (val4 q)) as S. fold N in S. unfold sq, val4 in S; cbn [qx qy qz qs] in S.
  assert (A : forall x, Rabs x <= N -> 0 <= Rabs x / N <= 1 /\ (Rabs x / N) * (Rabs x / N) = x * x / (N * N)).
  { intros x H. split; [split; [apply Rmult_le_pos; [apply Rabs_pos | apply Rlt_le, Rinv_0_lt_compat; exact PN] | apply Rmult_le_reg_r with N; [exact PN |]; unfold Rdiv; rewrite Rmult_assoc, Rinv_l by lra; lra] |].
    replace (x * x) with (Rabs x * Rabs x) by (rewrite <- Rabs_mult; apply Rabs_pos_eq; nra). field. lra. }
  destruct (A _ C1) as [A1 S1]. destruct (A _ C2) as [A2 S2]. destruct (A _ C3) as [A3 S3]. destruct (A _ C4) as [A4 S4].
  set (a := Rabs (rval (q64x q)) / N) in *. set (b := Rabs (rval (q64y q)) / N) in *. set (c := Rabs (rval (q64z q)) / N) in *. set (d := Rabs (rval (q64s q)) / N) in *.
  assert (O : a * a + b * b + c * c + d * d = 1). { rewrite S1, S2, S3, S4. unfold Rdiv. rewrite <- !Rmult_plus_distr_r, <- S. apply Rinv_r. nra. }
  clear - A1 A2 A3 A4 O T. pose proof tiny_pos. set (u := e53) in *. assert (0 < u) by (unfold u, e53; lra). clearbody u.
  replace (3.05 + 1.01) with 4.06 by lra. set (t := tiny) in *. clearbody t.
  apply Rle_trans with (4.06 * u * (4.06 * u) * (a * a + b * b + c * c + d * d) + 2 * (4.06 * u) * t * (a + b + c + d) + 4 * (t * t)); [right; ring |]. rewrite O.
  assert (t * (a + b + c + d) <= (/ 10000 * u) * 4) by (apply Rmult_le_compat; lra). assert (t * t <= / 10000 * u * (/ 10000 * u)) by (apply Rmult_le_compat; lra). nra.
Qed.
