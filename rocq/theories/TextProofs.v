(** Proofs about the texts of vectors, matrices and quaternions. *)

From Coq Require Import List Bool ZArith NArith QArith Qpower Lia String Ascii Decimal DecimalString DecimalN DecimalPos Floats.SpecFloat.
From Verif Require Import Result TextModel TextSpec.
Import ListNotations.
Local Open Scope string_scope.
Local Open Scope Z_scope.

(** *** Strings *)
Lemma app_nil_r (s : string) : s ++ "" = s.
Proof. induction s as [| c s IH]; cbn; [| rewrite IH]; reflexivity. Qed.
Lemma app_assoc_s (a b c : string) : (a ++ b) ++ c = a ++ b ++ c.
Proof. induction a as [| x a IH]; cbn; [| rewrite IH]; reflexivity. Qed.
Lemma length_app (a b : string) : String.length (a ++ b) = (String.length a + String.length b)%nat.
Proof. induction a as [| x a IH]; cbn; [| rewrite IH]; reflexivity. Qed.
Lemma get_app (a : string) c : String.get (String.length a) (a ++ String c "") = Some c.
Proof. induction a as [| x a IH]; cbn; [reflexivity | exact IH]. Qed.
Lemma substring_app (a b : string) : substring 0 (String.length a) (a ++ b) = a.
Proof. induction a as [| x a IH]; cbn; [destruct b; reflexivity | rewrite IH; reflexivity]. Qed.
Lemma app_cons c (s t : string) : String c s ++ t = String c (s ++ t).
Proof. reflexivity. Qed.

Lemma lacks_app c a b : lacks c (a ++ b) <-> lacks c a /\ lacks c b.
Proof. induction a as [| x a IH]; cbn; [tauto | rewrite IH; tauto]. Qed.

(** *** Digits *)
Fixpoint uval (d : uint) (n : Z) : Z :=
  match d with
  | Nil => n
  | D0 d => uval d (10 * n) | D1 d => uval d (10 * n + 1) | D2 d => uval d (10 * n + 2) | D3 d => uval d (10 * n + 3)
  | D4 d => uval d (10 * n + 4) | D5 d => uval d (10 * n + 5) | D6 d => uval d (10 * n + 6) | D7 d => uval d (10 * n + 7)
  | D8 d => uval d (10 * n + 8) | D9 d => uval d (10 * n + 9)
  end.
Lemma uval_acc d : forall p, Zpos (Pos.of_uint_acc d p) = uval d (Zpos p).
Proof.
  induction d; intros p; cbn [Pos.of_uint_acc uval]; try reflexivity; rewrite IHd; f_equal; lia.
Qed.
Lemma uval_of d : Z.of_N (N.of_uint d) = uval d 0.
Proof.
  unfold N.of_uint. induction d; cbn [Pos.of_uint uval]; try reflexivity; try exact IHd;
    cbn [Z.of_N]; rewrite uval_acc; reflexivity.
Qed.
Lemma digits_uval n : 0 <= n -> uval (N.to_uint (Z.to_N n)) 0 = n.
Proof. intros H. rewrite <- uval_of, DecimalN.Unsigned.of_to. now apply Z2N.id. Qed.

Definition not_digit (s : string) : Prop := match s with String c _ => is_digit c = false | "" => True end.
Lemma take_uint d : forall n r, not_digit r ->
  take decimal_value 10 (NilEmpty.string_of_uint d ++ r) n
  = (uval d n, Z.of_nat (String.length (NilEmpty.string_of_uint d)), r).
Proof.
  induction d; intros n r H;
    try (cbn [NilEmpty.string_of_uint append take uval String.length];
         match goal with |- context [decimal_value ?c] =>
           let v := eval vm_compute in (decimal_value c) in change (decimal_value c) with v end;
         cbv iota beta; rewrite IHd by exact H; cbv iota beta; f_equal; f_equal; [f_equal; lia | lia]).
  cbn. destruct r as [| c r]; cbn; [reflexivity |]. unfold decimal_value. cbn in H. rewrite H. reflexivity.
Qed.
Lemma take_digits n r : 0 <= n -> not_digit r ->
  take decimal_value 10 (digits n ++ r) 0 = (n, digit_count n, r).
Proof. intros H R. unfold digits. rewrite take_uint by exact R. rewrite digits_uval by exact H. reflexivity. Qed.

(** Every character is a digit. *)
Fixpoint all_digits (s : string) : Prop := match s with "" => True | String c r => is_digit c = true /\ all_digits r end.
Lemma uint_all_digits d : all_digits (NilEmpty.string_of_uint d).
Proof. induction d; cbn; auto. Qed.
Lemma digits_all n : all_digits (digits n).
Proof. apply uint_all_digits. Qed.
Lemma digits_cons n : exists c r, digits n = String c r /\ is_digit c = true /\ all_digits r.
Proof.
  unfold digits. assert (H : N.to_uint (Z.to_N n) <> Nil).
  { destruct (Z.to_N n); cbn; [discriminate |]. apply DecimalPos.Unsigned.to_uint_nonnil. }
  destruct (N.to_uint (Z.to_N n)) as [| d | d | d | d | d | d | d | d | d | d]; [contradiction | ..]; cbn; eexists; eexists;
    (split; [reflexivity |]; split; [reflexivity | apply uint_all_digits]).
Qed.
Lemma all_digits_app a b : all_digits (a ++ b) <-> all_digits a /\ all_digits b.
Proof. induction a as [| c a IH]; cbn; [tauto | rewrite IH; tauto]. Qed.
Lemma zeros_all n : all_digits (zeros n).
Proof. induction n; cbn; auto. Qed.
Lemma digit_not c d : is_digit c = true -> is_digit d = false -> c <> d.
Proof. intros H K E. subst. congruence. Qed.
Lemma all_digits_lacks c s : is_digit c = false -> all_digits s -> lacks c s.
Proof.
  intros H. induction s as [| d s IH]; cbn; [trivial |]. intros [D S]. split; [apply digit_not; assumption | auto].
Qed.

(** *** Printing of integers *)
Lemma strip_zeros_point s k : strip_zeros (s ++ String "." (zeros k)) = s ++ ".".
Proof.
  assert (Z : strip_zeros (zeros k) = "") by (induction k as [| k IH]; [reflexivity | cbn; rewrite IH; reflexivity]).
  induction s as [| c s IH]; cbn.
  - rewrite Z. reflexivity.
  - rewrite IH. destruct (s ++ ".") eqn:E; [| reflexivity]. destruct s; discriminate.
Qed.
Lemma fixed_integer a b n : 0 < b -> a = n * b -> 0 <= n -> fixed 6 a b = digits n ++ String "." (zeros 6).
Proof.
  intros B -> N. unfold fixed.
  assert (Q : round_quotient (n * b * 10 ^ 6) b = n * 10 ^ 6).
  { unfold round_quotient. replace (n * b * 10 ^ 6) with (n * 10 ^ 6 * b) by ring.
    rewrite Z.div_mul by lia. rewrite Z.mod_mul by lia. cbn [Z.mul]. destruct b; try lia. reflexivity. }
  rewrite Q. rewrite Z.div_mul by lia. rewrite Z.mod_mul by lia. reflexivity.
Qed.
Lemma digits_0 : digits 0 = "0".
Proof. reflexivity. Qed.

Lemma magnitude_pos m e : 0 < fst (magnitude m e) /\ 0 < snd (magnitude m e).
Proof.
  unfold magnitude. destruct (Z.leb_spec 0 e) as [L | L]; cbn [fst snd]; split; lia.
Qed.
(** An integer: the sign, the digits and ".0". *)
Lemma integer_text s m e n : fst (magnitude m e) = n * snd (magnitude m e) ->
  ScalarToString (S754_finite s m e) (-1) = minus s ++ digits n ++ ".0".
Proof.
  intros H. cbn [ScalarToString]. unfold is_integer. destruct (magnitude m e) as [a b] eqn:M. cbn [fst snd] in H.
  pose proof (magnitude_pos m e) as [A B]. rewrite M in A, B. cbn [fst snd] in A, B.
  assert (N : 0 <= n) by nia.
  replace (a mod b =? 0) with true by (symmetry; apply Z.eqb_eq; rewrite H; apply Z.mod_mul; lia).
  cbn [Z.ltb Z.compare andb]. rewrite (fixed_integer a b n) by (exact H || lia).
  rewrite <- app_assoc_s. rewrite strip_zeros_point. rewrite !app_assoc_s. reflexivity.
Qed.

(** *** Rounding of exact numbers *)
Lemma iter_plus {A} (f : A -> A) a b x : Nat.iter (a + b) f x = Nat.iter a f (Nat.iter b f x).
Proof. induction a as [| a IH]; cbn; [reflexivity | f_equal; exact IH]. Qed.
Lemma iter_next {A} (f : A -> A) k x : Nat.iter (S k) f x = Nat.iter k f (f x).
Proof. replace (S k) with (k + 1)%nat by lia. rewrite iter_plus. reflexivity. Qed.
Lemma iter_pos_add {A} (f : A -> A) p : forall x, SpecFloat.iter_pos f p x = Nat.iter (Pos.to_nat p) f x.
Proof.
  induction p as [p IH | p IH |]; intros x; cbn [SpecFloat.iter_pos].
  - rewrite !IH, Pos2Nat.inj_xI. replace (S (2 * Pos.to_nat p)) with (Pos.to_nat p + (Pos.to_nat p + 1))%nat by lia.
    rewrite !iter_plus. reflexivity.
  - rewrite !IH, Pos2Nat.inj_xO. replace (2 * Pos.to_nat p)%nat with (Pos.to_nat p + Pos.to_nat p)%nat by lia.
    rewrite iter_plus. reflexivity.
  - reflexivity.
Qed.
Definition exact (m : Z) : shr_record := Build_shr_record m false false.
Lemma shr_exact k m : 0 < m -> Nat.iter k shr_1 (exact (m * 2 ^ Z.of_nat k)) = exact m.
Proof.
  intros M. induction k as [| k IH].
  - cbn [Nat.iter nat_rect]. rewrite Z.mul_1_r. reflexivity.
  - rewrite iter_next. replace (m * 2 ^ Z.of_nat (S k)) with (2 * (m * 2 ^ Z.of_nat k)).
    2: { rewrite Nat2Z.inj_succ, Z.pow_succ_r by lia. ring. }
    assert (P : 0 < m * 2 ^ Z.of_nat k) by (apply Z.mul_pos_pos; [lia |]; apply Z.pow_pos_nonneg; lia).
    remember (m * 2 ^ Z.of_nat k) as z eqn:Hz. destruct z as [| p | p]; try lia. cbn. exact IH.
Qed.
Lemma digits2_shift k m : 0 < m -> Zdigits2 (m * 2 ^ Z.of_nat k) = Zdigits2 m + Z.of_nat k.
Proof.
  intros M. induction k as [| k IH].
  - rewrite Z.mul_1_r. lia.
  - replace (m * 2 ^ Z.of_nat (S k)) with (2 * (m * 2 ^ Z.of_nat k)).
    2: { rewrite Nat2Z.inj_succ, Z.pow_succ_r by lia. ring. }
    assert (P : 0 < m * 2 ^ Z.of_nat k) by (apply Z.mul_pos_pos; [lia |]; apply Z.pow_pos_nonneg; lia).
    destruct (m * 2 ^ Z.of_nat k) as [| p | p]; try lia. cbn [Z.mul Pos.mul]. cbn [Zdigits2 digits2_pos] in *. lia.
Qed.
(** Rounding an exact number that is a binary64 number. *)
Lemma round_exact s m e k : bounded 53 1024 m e = true ->
  binary_round_aux 53 1024 s (Zpos m * 2 ^ Z.of_nat k) (e - Z.of_nat k) loc_Exact = S754_finite s m e.
Proof.
  intros B. unfold bounded in B. apply andb_prop in B. destruct B as [C E]. unfold canonical_mantissa in C. apply Zeq_bool_eq in C.
  assert (D : Zdigits2 (Zpos m * 2 ^ Z.of_nat k) + (e - Z.of_nat k) = Zpos (digits2_pos m) + e).
  { rewrite digits2_shift by lia. cbn [Zdigits2]. lia. }
  unfold binary_round_aux, shr_fexp. rewrite D, C. cbn [shr_record_of_loc].
  assert (S : shr (Build_shr_record (Zpos m * 2 ^ Z.of_nat k) false false) (e - Z.of_nat k) (e - (e - Z.of_nat k)) = (exact (Zpos m), e)).
  { unfold shr. destruct k as [| k].
    - replace (e - (e - Z.of_nat 0)) with 0 by lia. rewrite Z.mul_1_r. unfold exact. f_equal. lia.
    - replace (e - (e - Z.of_nat (S k))) with (Zpos (Pos.of_succ_nat k)) by lia. rewrite iter_pos_add, SuccNat2Pos.id_succ.
      fold (exact (Zpos m * 2 ^ Z.of_nat (S k))). rewrite shr_exact by lia. f_equal. lia. }
  rewrite S. cbn [shr_m exact loc_of_shr_record round_nearest_even Zdigits2]. rewrite C.
  replace (e - e) with 0 by lia. cbn [shr shr_m]. rewrite E. reflexivity.
Qed.

(** Number of binary digits. *)
Lemma digits2_log n : 0 < n -> Zdigits2 n = Z.log2 n + 1.
Proof.
  intros H. destruct n as [| p | p]; try lia. cbn [Zdigits2]. clear H. induction p as [p IH | p IH |]; cbn [digits2_pos]; try reflexivity.
  - rewrite Pos2Z.inj_succ, IH. change (Zpos (xI p)) with (2 * Zpos p + 1). rewrite Z.log2_succ_double by lia. lia.
  - rewrite Pos2Z.inj_succ, IH. change (Zpos (xO p)) with (2 * Zpos p). rewrite Z.log2_double by lia. lia.
Qed.

(** n, read as 10 n / 10. *)
Lemma nearest_integer s m e n : bounded 53 1024 m e = true -> fst (magnitude m e) = n * snd (magnitude m e) ->
  nearest10 s (n * 10) (-1) = S754_finite s m e.
Proof.
  intros B H.
  assert (P : 0 < n).
  { unfold magnitude in H. destruct (Z.leb_spec 0 e) as [L | L]; cbn [fst snd] in H.
    - rewrite Z.mul_1_r in H. subst n. apply Z.mul_pos_pos; [lia |]. apply Z.pow_pos_nonneg; lia.
    - assert (0 < 2 ^ (- e)) by (apply Z.pow_pos_nonneg; lia). nia. }
  assert (C : fexp 53 1024 (Zdigits2 n) = e).
  { pose proof B as B'. unfold bounded in B'. apply andb_prop in B'. destruct B' as [C _]. unfold canonical_mantissa in C. apply Zeq_bool_eq in C.
    etransitivity; [| exact C]. f_equal. unfold magnitude in H. destruct (Z.leb_spec 0 e) as [L | L]; cbn [fst snd] in H.
    - rewrite Z.mul_1_r in H. rewrite <- H. rewrite <- (Z2Nat.id e) at 1 by lia. rewrite digits2_shift by lia. cbn [Zdigits2].
      rewrite Z2Nat.id by lia. reflexivity.
    - change (Zpos (digits2_pos m)) with (Zdigits2 (Zpos m)). rewrite H. rewrite <- (Z2Nat.id (- e)) by lia.
      rewrite digits2_shift by lia. lia. }
  unfold nearest10. destruct (n * 10) as [| p | p] eqn:E; try lia. cbn [Z.leb Z.compare Z.opp]. change (10 ^ 1) with 10.
  cbv iota. unfold SFdiv_core_binary. rewrite <- E. change (Zdigits2 10) with 4.
  assert (D : Zdigits2 (n * 10) + 0 - (4 + 0) <= Zdigits2 n).
  { rewrite !digits2_log by lia. assert (Z.log2 (n * 10) <= Z.log2 (n * 16)) by (apply Z.log2_le_mono; lia).
    replace (n * 16) with (n * 2 ^ 4) in H0 by reflexivity. rewrite Z.log2_mul_pow2 in H0 by lia. lia. }
  assert (F : fexp 53 1024 (Zdigits2 (n * 10) + 0 - (4 + 0)) <= e) by (rewrite <- C; unfold fexp, emin; lia).
  set (e' := Z.min (fexp 53 1024 (Zdigits2 (n * 10) + 0 - (4 + 0))) (0 - 0)).
  assert (E' : e' <= e /\ e' <= 0) by (unfold e'; lia). clearbody e'.
  assert (M : match 0 - 0 - e' with 0 => n * 10 | Zpos _ => Z.shiftl (n * 10) (0 - 0 - e') | Zneg _ => 0 end
              = n * 2 ^ (- e') * 10).
  { replace (0 - 0 - e') with (- e') by lia. destruct (- e') as [| q | q] eqn:Q; try lia.
    rewrite Z.shiftl_mul_pow2 by lia. ring. }
  rewrite M. rewrite Z.div_eucl_eq || idtac.
  assert (DE : Z.div_eucl (n * 2 ^ (- e') * 10) 10 = (n * 2 ^ (- e'), 0)).
  { pose proof (Z.div_mul (n * 2 ^ (- e')) 10 ltac:(lia)) as D1. pose proof (Z.mod_mul (n * 2 ^ (- e')) 10 ltac:(lia)) as D2.
    unfold Z.div, Z.modulo in D1, D2. destruct (Z.div_eucl (n * 2 ^ (- e') * 10) 10) as [q r]. congruence. }
  rewrite DE. change (new_location 10 0) with loc_Exact.
  replace (n * 2 ^ (- e')) with (Zpos m * 2 ^ Z.of_nat (Z.to_nat (e - e'))).
  2: { rewrite Z2Nat.id by lia. unfold magnitude in H. destruct (Z.leb_spec 0 e) as [L | L]; cbn [fst snd] in H.
       - rewrite Z.mul_1_r in H. rewrite <- H. rewrite <- Z.mul_assoc, <- Z.pow_add_r by lia. repeat (f_equal; try lia).
       - rewrite H. rewrite <- Z.mul_assoc, <- Z.pow_add_r by lia. repeat (f_equal; try lia). }
  replace e' with (e - Z.of_nat (Z.to_nat (e - e'))) at 2 by lia.
  apply round_exact. exact B.
Qed.
