(** Unit conversions in double precision. *)

From Coq Require Import List Bool ZArith QArith Reals Qreals Lra Lia Machin Rtrigo1 Ratan AltSeries Floats.SpecFloat.
From Verif Require Import Result AngleModel AngleSpec FloatSpec FloatProofs FloatProofs2 FloatModel FloatProofs3 FloatProofs4.
Local Open Scope R_scope.

(** *** PI to eighteen digits *)
Definition qterm (n : nat) : Q :=
  let k := (2 * Z.of_nat n + 1)%Z in
  let s := if Nat.even n then 1%Z else (-1)%Z in
  ((2 * s # 1) * / inject_Z (3 ^ k * k) + (s # 1) * / inject_Z (7 ^ k * k))%Q.
Fixpoint qsum (n : nat) : Q := match n with O => qterm 0 | S m => Qred (qsum m + qterm (S m)) end.
Lemma alt_sign n : (-1) ^ n = IZR (if Nat.even n then 1 else -1).
Proof.
  induction n as [| n IH]; [reflexivity |]. rewrite Nat.even_succ, <- Nat.negb_even. cbn [pow]. rewrite IH. destruct (Nat.even n); cbn [negb]; ring.
Qed.
Lemma inv_term (b : Z) n : (0 < b)%Z -> (/ IZR b) ^ (2 * n + 1) / INR (2 * n + 1) = / IZR (b ^ (2 * Z.of_nat n + 1) * (2 * Z.of_nat n + 1)).
Proof.
  intros B. assert (B' : 0 < IZR b) by (apply IZR_lt; exact B).
  rewrite mult_IZR. replace (2 * Z.of_nat n + 1)%Z with (Z.of_nat (2 * n + 1)) by lia. rewrite <- pow_IZR, <- INR_IZR_INZ.
  rewrite pow_inv. unfold Rdiv. rewrite Rinv_mult. reflexivity.
Qed.
Lemma qterm_R n : Q2R (qterm n) = tg_alt PI_2_3_7_tg n.
Proof.
  unfold qterm, tg_alt, PI_2_3_7_tg, Ratan_seq. cbv zeta. rewrite (inv_term 3), (inv_term 7) by lia. rewrite alt_sign.
  assert (K : (0 < 2 * Z.of_nat n + 1)%Z) by lia. assert (P3 : (0 < 3 ^ (2 * Z.of_nat n + 1) * (2 * Z.of_nat n + 1))%Z) by (apply Z.mul_pos_pos; [apply Z.pow_pos_nonneg; lia | lia]).
  assert (P7 : (0 < 7 ^ (2 * Z.of_nat n + 1) * (2 * Z.of_nat n + 1))%Z) by (apply Z.mul_pos_pos; [apply Z.pow_pos_nonneg; lia | lia]).
  set (A := (3 ^ (2 * Z.of_nat n + 1) * (2 * Z.of_nat n + 1))%Z) in *. set (B := (7 ^ (2 * Z.of_nat n + 1) * (2 * Z.of_nat n + 1))%Z) in *.
  assert (NI : forall z, (0 < z)%Z -> ~ (inject_Z z == 0)%Q) by (intros z Hz E; unfold Qeq in E; cbn in E; lia).
  rewrite Q2R_plus, !Q2R_mult, !Q2R_inv by (apply NI; assumption). unfold Q2R at 1 2 3 4. unfold inject_Z. cbn [Qnum Qden]. rewrite Rinv_1, !Rmult_1_r.
  assert (0 < IZR A) by (apply IZR_lt; assumption). assert (0 < IZR B) by (apply IZR_lt; assumption).
  destruct (Nat.even n); cbn; field; lra.
Qed.
Lemma qsum_R n : Q2R (qsum n) = sum_f_R0 (tg_alt PI_2_3_7_tg) n.
Proof.
  induction n as [| n IH]; cbn [qsum sum_f_R0]; [apply qterm_R |]. rewrite <- IH, <- qterm_R, <- Q2R_plus. apply Qeq_eqR, Qred_correct.
Qed.
Lemma pi_digits : 3.1415926535897932384 <= PI <= 3.1415926535897932385.
Proof.
  pose proof (PI_2_3_7_ineq 10) as [L U]. rewrite <- qsum_R in L, U.
  assert (L' : (31415926535897932384 # 40000000000000000000 <= qsum 21)%Q) by (apply Qle_bool_imp_le; vm_compute; reflexivity).
  assert (U' : (qsum 20 <= 31415926535897932385 # 40000000000000000000)%Q) by (apply Qle_bool_imp_le; vm_compute; reflexivity).
  apply Qle_Rle in L', U'. change (S (2 * 10)) with 21%nat in L. change (2 * 10)%nat with 20%nat in U.
  set (a := Q2R (qsum 21)) in *. set (b := Q2R (qsum 20)) in *. unfold Q2R in L', U'. cbn [Qnum Qden] in L', U'. lra.
Qed.

(** *** Relative errors *)
Definition rel (p x y : R) : Prop := exists d, x = y * (1 + d) /\ Rabs d <= p.
Lemma rel_of t z : rounded64 t z -> P2 (-1021) <= Rabs t -> rel (P2 (-53)) (rval z) t.
Proof.
  intros [_ E] S. fold (P2 (-53)) in E. fold (P2 (-1021)) in E. assert (T : 0 < Rabs t) by (pose proof (P2_pos (-1021)); lra).
  assert (N : t <> 0) by (intros ->; rewrite Rabs_R0 in T; lra).
  destruct E as [E | [_ E]]; [| lra]. exists ((rval z - t) / t). split; [field; exact N |].
  unfold Rdiv. rewrite Rabs_mult, Rabs_inv. apply Rmult_le_reg_r with (Rabs t); [exact T |]. rewrite Rmult_assoc, Rinv_l by lra. lra.
Qed.
Lemma rel_refl x : rel 0 x x.
Proof. exists 0. split; [ring | rewrite Rabs_R0; lra]. Qed.
Lemma rel_mul p q x y x' y' : rel p x y -> rel q x' y' -> rel (p + q + p * q) (x * x') (y * y').
Proof.
  intros (d & -> & D) (e & -> & E). exists (d + e + d * e). split; [ring |].
  assert (0 <= Rabs d) by apply Rabs_pos. assert (0 <= Rabs e) by apply Rabs_pos.
  assert (A : Rabs (d + e + d * e) <= Rabs d + Rabs e + Rabs d * Rabs e).
  { eapply Rle_trans; [apply Rabs_triang |]. rewrite Rabs_mult. apply Rplus_le_compat_r, Rabs_triang. }
  assert (Rabs d * Rabs e <= p * q) by (apply Rmult_le_compat; assumption). lra.
Qed.
Lemma rel_trans p q x y z : rel p x y -> rel q y z -> rel (p + q + p * q) x z.
Proof.
  intros (d & -> & D) (e & -> & E). exists (d + e + d * e). split; [ring |].
  assert (0 <= Rabs d) by apply Rabs_pos. assert (0 <= Rabs e) by apply Rabs_pos.
  assert (A : Rabs (d + e + d * e) <= Rabs d + Rabs e + Rabs d * Rabs e).
  { eapply Rle_trans; [apply Rabs_triang |]. rewrite Rabs_mult. apply Rplus_le_compat_r, Rabs_triang. }
  assert (Rabs d * Rabs e <= p * q) by (apply Rmult_le_compat; assumption). lra.
Qed.
Lemma rel_inv p x y : p <= / 2 -> y <> 0 -> rel p x y -> rel (p + 2 * p * p) (/ x) (/ y).
Proof.
  intros P Y (d & -> & D). apply abs_le in D. exists (- d / (1 + d)). assert (H : 1 + d <> 0) by lra. split; [field; split; assumption |].
  unfold Rdiv. rewrite Rabs_mult, Rabs_Ropp, Rabs_inv. rewrite (Rabs_right (1 + d)) by lra.
  assert (0 <= p) by lra. apply Rmult_le_reg_r with (1 + d); [lra |]. rewrite Rmult_assoc, Rinv_l, Rmult_1_r by exact H.
  assert (K : p <= (p + 2 * p * p) * (1 - p)) by nra. assert ((p + 2 * p * p) * (1 - p) <= (p + 2 * p * p) * (1 + d)) by (apply Rmult_le_compat_l; nra).
  apply abs_of. lra.
Qed.
Lemma rel_weak p q x y : p <= q -> rel p x y -> rel q x y.
Proof. intros H (d & E & D). exists d. split; [exact E | lra]. Qed.
Lemma rel_abs p x y : rel p x y -> Rabs (x - y) <= p * Rabs y.
Proof.
  intros (d & -> & D). replace (y * (1 + d) - y) with (d * y) by ring. rewrite Rabs_mult. apply Rmult_le_compat_r; [apply Rabs_pos | exact D].
Qed.
Lemma rel_size p x y : p <= / 2 -> rel p x y -> Rabs y / 2 <= Rabs x <= 2 * Rabs y.
Proof.
  intros P (d & -> & D). apply abs_le in D. rewrite Rabs_mult, (Rabs_right (1 + d)) by lra. pose proof (Rabs_pos y). nra.
Qed.

(** *** The ratios *)
Lemma pi64_val : finite64 pi64 /\ rval pi64 = 7074237752028440 / 2251799813685248.
Proof.
  split; [reflexivity |]. unfold pi64. rewrite rval_sg, P2_m by lia. change (2 ^ (- -51))%Z with 2251799813685248%Z. cbn [sg]. unfold Rdiv. ring.
Qed.
Definition e53 : R := / 9007199254740992.
Lemma e53_P2 : P2 (-53) = e53.
Proof. rewrite P2_m by lia. reflexivity. Qed.
Lemma pi64_rel : rel (e53 / 2) (rval pi64) PI.
Proof.
  destruct pi64_val as [_ ->]. pose proof pi_digits. exists (7074237752028440 / 2251799813685248 / PI - 1). split; [field; lra |].
  unfold e53. apply abs_of. split; apply Rmult_le_reg_r with PI; try lra; unfold Rminus; rewrite Rmult_plus_distr_r; unfold Rdiv; rewrite (Rmult_assoc _ (/ PI)), Rinv_l by lra; lra.
Qed.
Lemma P2_10 : P2 (-20) = / 1048576.
Proof. rewrite P2_m by lia. reflexivity. Qed.
Lemma pi_over n : (1 <= n <= 648000)%Z -> finite64 (b64_div pi64 (b64_of_Z n)) /\ rel (2 * e53) (rval (b64_div pi64 (b64_of_Z n))) (PI / IZR n).
Proof.
  intros H. destruct (of_Z_val n ltac:(lia)) as [F V]. destruct pi64_val as [Fp Vp]. assert (N : 1 <= IZR n <= 648000) by (split; apply IZR_le; lia).
  assert (B : P2 (-20) <= rval pi64 / IZR n <= P2 2).
  { rewrite P2_10, <- P2_Z by lia. rewrite Vp. change (IZR (2 ^ 2)) with 4. split; apply Rmult_le_reg_r with (IZR n); try lra; unfold Rdiv at 1 3 || unfold Rdiv; rewrite Rmult_assoc, Rinv_l by lra; lra. }
  pose proof (P2_pos (-20)). pose proof (P2_mono (-1021) (-20) ltac:(lia)). pose proof (P2_mono 2 1023 ltac:(lia)).
  assert (R : rounded64 (rval pi64 / rval (b64_of_Z n)) (b64_div pi64 (b64_of_Z n))).
  { apply SFdiv_rounded; [assumption.. | rewrite V; lra |]. rewrite V. rewrite Rabs_right by lra. lra. }
  rewrite V in R. split; [exact (proj1 (proj1 R)) |].
  pose proof (rel_of _ _ R ltac:(rewrite Rabs_right by lra; lra)) as R1. rewrite e53_P2 in R1.
  pose proof (rel_mul _ _ _ _ _ _ pi64_rel (rel_refl (/ IZR n))) as R2. pose proof (rel_trans _ _ _ _ _ R1 R2) as R3.
  eapply rel_weak; [| exact R3]. unfold e53. lra.
Qed.
(** Radians in one unit. *)
Lemma ratio64 u : u <> UUndefined -> exists r, SIRatio64 u = Ok r /\ finite64 r /\ rel (2 * e53) (rval r) (2 * PI / units_per_turn u) /\
  / 1048576 <= 2 * PI / units_per_turn u <= 8.
Proof.
  intros U. pose proof pi_digits. destruct u; try congruence; cbn [SIRatio64 units_per_turn].
  - destruct (of_Z_val 1 ltac:(lia)) as [F V]. eexists. split; [reflexivity |]. split; [exact F |]. rewrite V.
    replace (2 * PI / (2 * PI)) with 1 by (field; lra). split; [| lra]. eapply rel_weak; [| apply rel_refl]. unfold e53. lra.
  - destruct (pi_over 180 ltac:(lia)) as [F V]. eexists. split; [reflexivity |]. split; [exact F |].
    replace (2 * PI / 360) with (PI / 180) by field. split; [exact V | lra].
  - destruct (pi_over 10800 ltac:(lia)) as [F V]. eexists. split; [reflexivity |]. split; [exact F |].
    replace (2 * PI / (360 * 60)) with (PI / 10800) by field. split; [exact V | lra].
  - destruct (pi_over 648000 ltac:(lia)) as [F V]. eexists. split; [reflexivity |]. split; [exact F |].
    replace (2 * PI / (360 * 3600)) with (PI / 648000) by field. split; [exact V | lra].
  - destruct two_pi64_val as [F V]. eexists. split; [reflexivity |]. split; [exact F |].
    replace (2 * PI / 1) with (2 * PI) by field. split; [| lra].
    replace (rval two_pi64) with (2 * rval pi64) by (rewrite V, (proj2 pi64_val); field).
    eapply rel_weak; [| exact (rel_mul _ _ _ _ _ _ (rel_refl 2) pi64_rel)]. unfold e53. lra.
Qed.

(** *** Conversions *)
Lemma in64_rel u u' v : u <> UUndefined -> u' <> UUndefined -> finite64 v -> P2 (-950) <= Rabs (rval v) <= P2 950 ->
  exists w, in64 (mkA64 (Some v) u) u' = Ok w /\ finite64 w /\ rel (8 * e53) (rval w) (rval v * units_per_turn u' / units_per_turn u).
Proof.
  intros U U' F B. unfold in64, isDefined64. cbn [aval64 aunit64]. apply unit_eqb_undef in U as UE. rewrite UE. cbn [negb need64 bind].
  pose proof pi_digits.
  assert (TP : forall x, x <> UUndefined -> 1 <= units_per_turn x) by (intros [] Hx; try congruence; cbn [units_per_turn]; lra).
  pose proof (TP u U) as T1. pose proof (TP u' U') as T2.
  destruct (unit_eqb u u') eqn:E.
  - assert (u = u') by (destruct u, u'; cbn in E; congruence). subst u'. exists v. split; [reflexivity |]. split; [exact F |].
    replace (rval v * units_per_turn u / units_per_turn u) with (rval v) by (field; lra). eapply rel_weak; [| apply rel_refl]. unfold e53. lra.
  - destruct (ratio64 u U) as (r & -> & Fr & Rr & Br). destruct (ratio64 u' U') as (r' & -> & Fr' & Rr' & Br'). cbn [bind].
    assert (E2 : 2 * e53 <= / 2) by (unfold e53; lra).
    pose proof (rel_size _ _ _ E2 Rr) as S. pose proof (rel_size _ _ _ E2 Rr') as S'.
    rewrite (Rabs_right (2 * PI / units_per_turn u)) in S by lra. rewrite (Rabs_right (2 * PI / units_per_turn u')) in S' by lra.
    assert (M8 : 16 = P2 4) by (rewrite <- P2_Z by lia; reflexivity).
    assert (M21 : / 2097152 = P2 (-21)) by (rewrite P2_m by lia; reflexivity).
    assert (Sr : P2 (-21) <= Rabs (rval r) <= P2 4) by lra. assert (Sr' : P2 (-21) <= Rabs (rval r') <= P2 4) by lra.
    assert (PM : P2 (-971) <= Rabs (rval v * rval r) <= P2 954).
    { rewrite Rabs_mult. change (-971)%Z with (-950 + -21)%Z. change 954%Z with (950 + 4)%Z. rewrite !P2_add.
      pose proof (P2_pos (-950)). pose proof (P2_pos (-21)). split; apply Rmult_le_compat; try apply Rabs_pos; lra. }
    assert (R1 : rounded64 (rval v * rval r) (b64_mul v r)).
    { apply SFmul_rounded; [assumption.. |]. pose proof (P2_mono 954 1023 ltac:(lia)). lra. }
    pose proof (P2_mono (-1021) (-971) ltac:(lia)) as ML. pose proof (rel_of _ _ R1 ltac:(lra)) as L1. rewrite e53_P2 in L1.
    assert (E1 : e53 <= / 2) by (unfold e53; lra). pose proof (rel_size _ _ _ E1 L1) as S1. pose proof (proj1 (proj1 R1)) as F1.
    assert (N : rval r' <> 0) by (intros Z; rewrite Z, Rabs_R0 in Sr'; pose proof (P2_pos (-21)); lra).
    assert (P1 : P2 (-972) <= Rabs (rval (b64_mul v r)) <= P2 955).
    { pose proof (P2_succ (-972)) as Q1. pose proof (P2_succ 954) as Q2. change (-972 + 1)%Z with (-971)%Z in Q1. change (954 + 1)%Z with 955%Z in Q2. lra. }
    assert (IR : P2 (-4) <= / Rabs (rval r') <= P2 21).
    { pose proof (P2_pos (-21)). pose proof (P2_pos 4). split.
      - replace (P2 (-4)) with (/ P2 4). { apply Rinv_le_contravar; lra. } rewrite <- M8, P2_m by lia. reflexivity.
      - replace (P2 21) with (/ P2 (-21)). { apply Rinv_le_contravar; lra. } rewrite <- M21, <- P2_Z by lia. rewrite Rinv_inv. reflexivity. }
    assert (PD : P2 (-976) <= Rabs (rval (b64_mul v r) / rval r') <= P2 976).
    { unfold Rdiv. rewrite Rabs_mult, Rabs_inv. change (-976)%Z with (-972 + -4)%Z. change 976%Z with (955 + 21)%Z. rewrite !P2_add.
      pose proof (P2_pos (-972)). pose proof (P2_pos (-4)). split; apply Rmult_le_compat; try apply Rabs_pos; lra. }
    assert (R2 : rounded64 (rval (b64_mul v r) / rval r') (b64_div (b64_mul v r) r')).
    { apply SFdiv_rounded; [assumption.. |]. pose proof (P2_mono 976 1023 ltac:(lia)). lra. }
    pose proof (P2_mono (-1021) (-976) ltac:(lia)) as ML2. pose proof (rel_of _ _ R2 ltac:(lra)) as L2. rewrite e53_P2 in L2.
    exists (b64_div (b64_mul v r) r'). split; [reflexivity |]. split; [exact (proj1 (proj1 R2)) |].
    (* collect the errors *)
    pose proof (rel_mul _ _ _ _ _ _ (rel_refl (rval v)) Rr) as A1. pose proof (rel_trans _ _ _ _ _ L1 A1) as A2.
    assert (NX : 2 * PI / units_per_turn u' <> 0) by lra.
    pose proof (rel_inv _ _ _ E2 NX Rr') as A3. pose proof (rel_mul _ _ _ _ _ _ A2 A3) as A4.
    pose proof (rel_trans _ _ _ _ _ L2 A4) as A5.
    replace (rval v * (2 * PI / units_per_turn u) * / (2 * PI / units_per_turn u')) with (rval v * units_per_turn u' / units_per_turn u) in A5 by (field; lra).
    eapply rel_weak; [| exact A5]. unfold e53. lra.
Qed.
Lemma c122_accurate u u' v : u <> UUndefined -> u' <> UUndefined -> finite64 v -> powerRZ 2 (-900) <= Rabs (rval v) <= powerRZ 2 900 ->
  exists w, in64 (mkA64 (Some v) u) u' = Ok w /\ finite64 w /\
    Rabs (rval w - rval v * units_per_turn u' / units_per_turn u) <= powerRZ 2 (-50) * Rabs (rval v * units_per_turn u' / units_per_turn u).
Proof.
  intros U U' F B. change (powerRZ 2) with P2 in *. pose proof (P2_mono (-950) (-900) ltac:(lia)). pose proof (P2_mono 900 950 ltac:(lia)).
  destruct (in64_rel u u' v U U' F ltac:(lra)) as (w & W & Fw & R). exists w. split; [exact W |]. split; [exact Fw |].
  apply rel_abs in R. replace (P2 (-50)) with (8 * e53); [exact R |]. rewrite P2_m by lia. unfold e53. change (2 ^ (- -50))%Z with 1125899906842624%Z. lra.
Qed.
Lemma c122_round_trip u u' v : u <> UUndefined -> u' <> UUndefined -> finite64 v -> powerRZ 2 (-900) <= Rabs (rval v) <= powerRZ 2 900 ->
  exists w z, in64 (mkA64 (Some v) u) u' = Ok w /\ in64 (mkA64 (Some w) u') u = Ok z /\ finite64 z /\
    Rabs (rval z - rval v) <= powerRZ 2 (-48) * Rabs (rval v).
Proof.
  intros U U' F B. change (powerRZ 2) with P2 in *. pose proof (P2_mono (-950) (-900) ltac:(lia)). pose proof (P2_mono 900 950 ltac:(lia)).
  destruct (in64_rel u u' v U U' F ltac:(lra)) as (w & W & Fw & R). pose proof pi_digits.
  assert (TP : forall x, x <> UUndefined -> 1 <= units_per_turn x <= 2097152) by (intros [] Hx; try congruence; cbn [units_per_turn]; lra).
  pose proof (TP u U) as T1. pose proof (TP u' U') as T2.
  assert (E8 : 8 * e53 <= / 2) by (unfold e53; lra). pose proof (rel_size _ _ _ E8 R) as S.
  assert (Q : / 2097152 <= units_per_turn u' / units_per_turn u <= 2097152).
  { split; apply Rmult_le_reg_r with (units_per_turn u); try lra; unfold Rdiv; rewrite Rmult_assoc, Rinv_l by lra; lra. }
  assert (SB : P2 (-950) <= Rabs (rval w) <= P2 950).
  { replace (rval v * units_per_turn u' / units_per_turn u) with (rval v * (units_per_turn u' / units_per_turn u)) in S by (field; lra).
    rewrite Rabs_mult, (Rabs_right (units_per_turn u' / units_per_turn u)) in S by lra.
    assert (M21 : / 2097152 = P2 (-21)) by (rewrite P2_m by lia; reflexivity). assert (M21' : 2097152 = P2 21) by (rewrite <- P2_Z by lia; reflexivity).
    pose proof (P2_pos (-900)). pose proof (P2_pos (-21)).
    assert (A : P2 (-900) * P2 (-21) <= Rabs (rval v) * (units_per_turn u' / units_per_turn u)) by (apply Rmult_le_compat; lra).
    assert (C : Rabs (rval v) * (units_per_turn u' / units_per_turn u) <= P2 900 * P2 21) by (apply Rmult_le_compat; try apply Rabs_pos; lra).
    rewrite <- P2_add in A, C. change (-900 + -21)%Z with (-921)%Z in A. change (900 + 21)%Z with 921%Z in C.
    pose proof (P2_succ (-922)) as Q1. pose proof (P2_succ 921) as Q2. change (-922 + 1)%Z with (-921)%Z in Q1. change (921 + 1)%Z with 922%Z in Q2.
    pose proof (P2_mono (-950) (-922) ltac:(lia)). pose proof (P2_mono 922 950 ltac:(lia)). lra. }
  destruct (in64_rel u' u w U' U Fw SB) as (z & Z & Fz & R'). exists w, z. split; [exact W |]. split; [exact Z |]. split; [exact Fz |].
  pose proof (rel_mul _ _ _ _ _ _ R (rel_refl (units_per_turn u / units_per_turn u'))) as R2.
  replace (rval w * (units_per_turn u / units_per_turn u')) with (rval w * units_per_turn u / units_per_turn u') in R2 by (field; lra).
  replace (rval v * units_per_turn u' / units_per_turn u * (units_per_turn u / units_per_turn u')) with (rval v) in R2 by (field; lra).
  pose proof (rel_trans _ _ _ _ _ R' R2) as R3. apply rel_abs in R3. eapply Rle_trans; [exact R3 |].
  apply Rmult_le_compat_r; [apply Rabs_pos |]. rewrite P2_m by lia. change (2 ^ (- -48))%Z with 281474976710656%Z. unfold e53. lra.
Qed.
(** 60 degrees are not 216000 arcseconds, and 15 degrees come back from radians as less. *)
Lemma c122_exact_refuted : exists w, in64 (mkA64 (Some (b64_of_Z 60)) Degree) Arcsecond = Ok w /\ finite64 w /\ rval w < 216000.
Proof.
  eexists. split; [vm_compute; reflexivity |]. split; [reflexivity |].
  destruct (of_Z_val 216000 ltac:(lia)) as [F V]. rewrite <- V. apply SFltb_val; [reflexivity | exact F | vm_compute; reflexivity].
Qed.
Lemma c122_round_trip_refuted : exists w z, in64 (mkA64 (Some (b64_of_Z 15)) Degree) Radian = Ok w /\ in64 (mkA64 (Some w) Radian) Degree = Ok z /\
  finite64 z /\ rval z < 15.
Proof.
  eexists. eexists. split; [vm_compute; reflexivity |]. split; [vm_compute; reflexivity |]. split; [reflexivity |].
  destruct (of_Z_val 15 ltac:(lia)) as [F V]. rewrite <- V. apply SFltb_val; [reflexivity | exact F | vm_compute; reflexivity].
Qed.
