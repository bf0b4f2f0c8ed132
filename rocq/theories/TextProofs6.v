(** Proofs about the texts of vectors: which vectors are defined, halves, and hexadecimal numbers. *)

From Coq Require Import List Bool ZArith Reals Lra Lia String Ascii Floats.SpecFloat.
From Verif Require Import Result TextModel TextSpec TextProofs TextProofs2 TextProofs3 TextProofs5 FloatSpec FloatProofs FloatProofs2.
Import ListNotations.
Local Open Scope string_scope.
Local Open Scope Z_scope.

Lemma c112_defined q : q64_isDefined q = true <-> q64_x q <> S754_nan /\ q64_y q <> S754_nan /\ q64_z q <> S754_nan /\ q64_s q <> S754_nan.
Proof. exact (defined_exact q). Qed.

Lemma c113_defined m : mx_isDefined m = true <->
  forall row x, In row (mx_rows m) -> In x row -> x <> S754_nan /\ x <> S754_infinity false /\ x <> S754_infinity true.
Proof.
  unfold mx_isDefined, mx_isNaN, mx_isInf. rewrite andb_true_iff, !negb_true_iff. split.
  - intros [A B] row x R X. split; [| split].
    + intros ->. apply not_true_iff_false in A. apply A. apply existsb_exists. exists row. split; [exact R |]. apply existsb_exists. exists S754_nan. split; [exact X | reflexivity].
    + intros ->. apply not_true_iff_false in B. apply B. apply existsb_exists. exists row. split; [exact R |]. apply existsb_exists. exists (S754_infinity false). split; [exact X | reflexivity].
    + intros ->. apply not_true_iff_false in B. apply B. apply existsb_exists. exists row. split; [exact R |]. apply existsb_exists. exists (S754_infinity true). split; [exact X | reflexivity].
  - intros H. split; apply not_true_iff_false; intros T; apply existsb_exists in T; destruct T as (row & R & T); apply existsb_exists in T; destruct T as (x & X & T);
      destruct (H row x R X) as (N & I1 & I2); destruct x as [s | s | | s k e]; cbn in T; try discriminate; [congruence | destruct s; congruence].
Qed.

(** *** Integers read *)
Lemma nearest2_val s n k : 0 <= n <= 2 ^ 53 -> -1074 <= k <= 0 -> finite64 (nearest2 s n k) /\ rval (nearest2 s n k) = (sg s * (IZR n * P2 k))%R.
Proof.
  intros N K. unfold nearest2. destruct n as [| p | p]; [| | lia].
  - split; [exact I | cbn; ring].
  - assert (V : IZR (cond_Zopp s (Zpos p)) = (sg s * IZR (Zpos p))%R) by (destruct s; cbn [cond_Zopp sg]; rewrite ?opp_IZR; ring).
    assert (PP : (IZR (Zpos p) * P2 k <= P2 1023)%R).
    { apply Rle_trans with (P2 53 * P2 0)%R.
      - apply Rmult_le_compat; [apply IZR_le; lia | apply Rlt_le, P2_pos | rewrite <- P2_Z by lia; apply IZR_le; lia | apply P2_mono; lia].
      - rewrite <- P2_add. apply P2_mono. lia. }
    destruct (normalize_rounded (cond_Zopp s (Zpos p)) k s) as [NN _].
    { rewrite V, Rmult_assoc, sg_abs; [exact PP |]. apply Rlt_le, pos_pos. }
    split; [exact (proj1 NN) |]. rewrite <- Rmult_assoc, <- V. apply (nearest_exact _ _ NN). apply grid_representable; [lia | destruct s; cbn; lia |].
    replace (Z.abs (cond_Zopp s (Zpos p))) with (Zpos p) by (destruct s; reflexivity). exact PP.
Qed.

(** *** Halves *)
Lemma integer_read s n : 0 <= n <= 2 ^ 53 -> rval (nearest10 s n 0) = (sg s * IZR n)%R.
Proof.
  intros N. pose proof (nearest2_val s n 0 N ltac:(lia)) as [_ V]. rewrite P2_0, Rmult_1_r in V. rewrite <- V.
  unfold nearest10, nearest2. destruct n as [| p | p]; try reflexivity.
  cbn [Z.leb Z.compare]. change (10 ^ 0) with 1. rewrite Z.mul_1_r. reflexivity.
Qed.
Lemma c110_halves x (n : Z) : finite64 x -> rval x = (IZR n + / 2)%R -> exists k, rval (atof (element 0 x)) = (2 * IZR k)%R.
Proof.
  intros F V. destruct x as [s | s | | s m e]; cbn [finite64] in F; try contradiction.
  { exfalso. cbn [rval] in V. assert (0 = 2 * n + 1); [| lia]. apply eq_IZR. rewrite plus_IZR, mult_IZR. lra. }
  apply bounded_spec in F. destruct F as (B1 & B2 & _). rewrite rval_sg in V.
  destruct (Z.le_gt_cases 0 e) as [E | E].
  { exfalso. rewrite <- P2_Z, <- mult_IZR in V by lia. set (a := Zpos m * 2 ^ e) in *.
    assert (X : (if s then -1 else 1) * a * 2 = 2 * n + 1); [| destruct s; lia].
    apply eq_IZR. rewrite plus_IZR, !mult_IZR. destruct s; cbn [sg] in V; lra. }
  set (b := 2 ^ (- e)). assert (Bpos : 0 < b) by (apply Z.pow_pos_nonneg; lia).
  set (N := if s then - n - 1 else n).
  assert (M2 : 2 * Zpos m = (2 * N + 1) * b).
  { apply eq_IZR. rewrite !mult_IZR, plus_IZR, mult_IZR. unfold b. rewrite P2_Z by lia. pose proof (P2_pos (- e)). pose proof (P2_opp e) as O.
    assert (W : (IZR (Zpos m) * P2 e = IZR N + / 2)%R).
    { unfold N. destruct s; cbn [sg] in V; [rewrite minus_IZR, opp_IZR |]; lra. }
    replace (2 * IZR (Zpos m))%R with (2 * (IZR (Zpos m) * P2 e) * P2 (- e))%R.
    - rewrite W. field.
    - rewrite !Rmult_assoc, (Rmult_comm (P2 e)), O. ring. }
  assert (N0 : 0 <= N) by nia.
  assert (BE : exists c, b = 2 * c).
  { exists (2 ^ (- e - 1)). unfold b. rewrite <- Z.pow_succ_r by lia. f_equal. lia. }
  destruct BE as [c BE].
  assert (MM : Zpos m = N * b + c) by nia.
  assert (T : element 0 (S754_finite s m e) = minus s ++ fixed 0 (Zpos m) b).
  { unfold element. cbn [sf_isNaN sf_isInf ScalarToString]. unfold magnitude. replace (0 <=? e) with false by (symmetry; apply Z.leb_gt; exact E). reflexivity. }
  rewrite T. destruct (fixed_value s 0 (Zpos m) b ltac:(lia) ltac:(lia) Bpos) as [_ W]. rewrite W. change (- 0) with 0. rewrite Z.pow_0_r, Z.mul_1_r.
  assert (D1 : Zpos m / b = N) by (symmetry; apply Z.div_unique with c; lia).
  assert (D2 : Zpos m mod b = c) by (symmetry; apply Z.mod_unique with N; lia).
  assert (Q : round_quotient (Zpos m) b = if Z.even N then N else N + 1).
  { unfold round_quotient. rewrite D1, D2. replace (2 * c ?= b) with Eq by (symmetry; apply Z.compare_eq_iff; lia). reflexivity. }
  rewrite Q.
  assert (NB : N + 1 <= 2 ^ 53) by nia.
  rewrite integer_read by (destruct (Z.even N); lia).
  assert (EV : exists k, (if Z.even N then N else N + 1) = 2 * k).
  { destruct (Z.even N) eqn:EN; [apply Z.even_spec in EN; destruct EN as [k K]; now exists k |].
    assert (O : Z.odd N = true) by (rewrite <- Z.negb_even, EN; reflexivity). apply Z.odd_spec in O. destruct O as [k K]. exists (k + 1). lia. }
  destruct EV as [k ->]. exists (if s then - k else k). rewrite mult_IZR. destruct s; cbn [sg]; rewrite ?opp_IZR; ring.
Qed.

(** *** Hexadecimal numbers *)
Lemma hex_char_value d : (d < 16)%nat -> hex_value (hex_char d) = Some (Z.of_nat d).
Proof. intros H. do 16 (destruct d as [| d]; [vm_compute; reflexivity |]). lia. Qed.
Lemma take_hex ds : Forall (fun d => (d < 16)%nat) ds -> forall r n, match r with String c _ => hex_value c = None | "" => True end ->
  take hex_value 16 (hex_text ds ++ r) n = (fold_left (fun n d => 16 * n + Z.of_nat d) ds n, Z.of_nat (List.length ds), r).
Proof.
  induction 1 as [| d ds D _ IH]; intros r n R.
  - cbn [hex_text fold_right append fold_left List.length]. destruct r as [| c r]; [reflexivity |]. cbn [take]. rewrite R. reflexivity.
  - cbn [hex_text fold_right append take fold_left List.length]. rewrite hex_char_value by exact D. fold (hex_text ds).
    rewrite (IH r _ R). rewrite (Z.mul_comm n 16). replace (Z.of_nat (S (List.length ds))) with (Z.of_nat (List.length ds) + 1) by lia. reflexivity.
Qed.
Lemma fold_hex_nonneg ds n : 0 <= n -> 0 <= fold_left (fun n d => 16 * n + Z.of_nat d) ds n.
Proof. revert n. induction ds as [| d ds IH]; intros n N; [exact N |]. cbn [fold_left]. apply IH. lia. Qed.
Lemma c111_hexadecimal (neg : bool) ds fs : ds <> [] -> Forall (fun d => (d < 16)%nat) (ds ++ fs) -> hex_number (ds ++ fs) <= 2 ^ 53 ->
  (List.length fs <= 250)%nat ->
  let x := atof ((if neg then "-" else "") ++ "0x" ++ hex_text ds ++ "." ++ hex_text fs) in
  finite64 x /\ rval x = ((if neg then - 1 else 1) * IZR (hex_number (ds ++ fs)) / 16 ^ List.length fs)%R.
Proof.
  intros N F B L. apply Forall_app in F. destruct F as [Fd Ff].
  assert (S : signed (skip_spaces ((if neg then "-" else "") ++ "0x" ++ hex_text ds ++ "." ++ hex_text fs)) = (neg, "0x" ++ hex_text ds ++ "." ++ hex_text fs)).
  { destruct neg; reflexivity. }
  cbv zeta. unfold atof. rewrite S. change ("0x" ++ hex_text ds ++ "." ++ hex_text fs) with (String "0" (String "x" (hex_text ds ++ "." ++ hex_text fs))).
  change (starts "inf" (String "0" (String "x" (hex_text ds ++ "." ++ hex_text fs)))) with false.
  change (starts "nan" (String "0" (String "x" (hex_text ds ++ "." ++ hex_text fs)))) with false.
  cbv iota. change (Ascii.eqb "0" "0" && Ascii.eqb (lower "x") "x") with true. cbv iota.
  unfold mantissa. rewrite (take_hex ds Fd ("." ++ hex_text fs) 0) by reflexivity.
  change ("." ++ hex_text fs) with (String "." (hex_text fs)). cbv iota.
  pose proof (take_hex fs Ff "" (fold_left (fun n d => 16 * n + Z.of_nat d) ds 0) I) as T. rewrite TextProofs.app_nil_r in T. rewrite T. clear T.
  assert (DP : (0 < List.length ds)%nat) by (destruct ds; [congruence | cbn; lia]).
  replace (Z.of_nat (List.length ds) + Z.of_nat (List.length fs) =? 0) with false by (symmetry; apply Z.eqb_neq; lia).
  cbv iota. change (exponent "p" "") with 0. rewrite <- fold_left_app. fold (hex_number (ds ++ fs)).
  destruct (nearest2_val neg (hex_number (ds ++ fs)) (0 - 4 * Z.of_nat (List.length fs))) as [FF V].
  { split; [apply fold_hex_nonneg; lia | exact B]. } { lia. }
  split; [exact FF |]. rewrite V.
  assert (PW : (P2 (0 - 4 * Z.of_nat (List.length fs)) * 16 ^ List.length fs = 1)%R).
  { clear. induction (List.length fs) as [| k IH]; [change (P2 (0 - 4 * Z.of_nat 0)) with 1%R; cbn; ring |].
    replace (0 - 4 * Z.of_nat k) with (0 - 4 * Z.of_nat (S k) + 1 + 1 + 1 + 1) in IH by lia. rewrite !P2_succ in IH. cbn [pow]. lra. }
  unfold Rdiv. assert (PN : (16 ^ List.length fs <> 0)%R) by (apply pow_nonzero; lra).
  assert (PI : P2 (0 - 4 * Z.of_nat (List.length fs)) = (/ 16 ^ List.length fs)%R).
  { apply Rmult_eq_reg_r with (16 ^ List.length fs)%R; [| exact PN]. rewrite PW, Rinv_l by exact PN. reflexivity. }
  rewrite PI. unfold sg. destruct neg; ring.
Qed.
