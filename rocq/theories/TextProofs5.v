(** Proofs about the texts of vectors, matrices and quaternions: how far a number read from its text is from the number printed. *)

From Coq Require Import List Bool ZArith NArith QArith Qpower Qabs Lia Lqa String Ascii Decimal DecimalString DecimalN DecimalFacts Floats.SpecFloat.
From Verif Require Import Result TextModel TextSpec TextProofs TextProofs2 TextProofs3 TextProofs4.
Import ListNotations.
Local Open Scope string_scope.
Local Open Scope Z_scope.

(** *** The value of digits *)
Fixpoint dval (s : string) (n : Z) : Z := match s with "" => n | String c r => dval r (n * 10 + digit_value c) end.
Definition len (s : string) : Z := Z.of_nat (String.length s).
Lemma len_app a b : len (a ++ b) = len a + len b.
Proof. unfold len. rewrite length_app. lia. Qed.
Lemma len_nonneg s : 0 <= len s.
Proof. unfold len. lia. Qed.
Lemma len_cons c s : len (String c s) = len s + 1.
Proof. unfold len. cbn [String.length]. lia. Qed.
Lemma len_zeros n : len (zeros n) = Z.of_nat n.
Proof. induction n as [| n IH]; [reflexivity |]. cbn [zeros]. rewrite len_cons, IH. lia. Qed.
Lemma dval_app u v n : dval (u ++ v) n = dval v (dval u n).
Proof. revert n. induction u as [| c u IH]; intros n; cbn [append dval]; [reflexivity | apply IH]. Qed.
Lemma dval_zeros j n : dval (zeros j) n = n * 10 ^ Z.of_nat j.
Proof.
  revert n. induction j as [| j IH]; intros n; [cbn; lia |]. cbn [zeros dval]. rewrite IH. change (digit_value "0") with 0.
  rewrite Nat2Z.inj_succ, Z.pow_succ_r by lia. ring.
Qed.
Lemma dval_acc u n : dval u n = n * 10 ^ len u + dval u 0.
Proof.
  revert n. induction u as [| c u IH]; intros n; [cbn; lia |]. cbn [dval]. rewrite IH, (IH (0 * 10 + digit_value c)), len_cons.
  rewrite Z.pow_add_r by (apply len_nonneg || lia). ring.
Qed.
Lemma digit_bounds c : is_digit c = true -> 0 <= digit_value c <= 9.
Proof. intros H. apply digit_range in H. unfold digit_value. lia. Qed.
Lemma dval_bounds u : all_digits u -> 0 <= dval u 0 < 10 ^ len u.
Proof.
  induction u as [| c u IH]; [cbn; lia |]. intros [C U]. specialize (IH U). apply digit_bounds in C. cbn [dval]. rewrite dval_acc, len_cons.
  rewrite Z.pow_add_r by (apply len_nonneg || lia). pose proof (len_nonneg u). nia.
Qed.
Lemma take_all u r n : all_digits u -> not_digit r -> take decimal_value 10 (u ++ r) n = (dval u n, len u, r).
Proof.
  revert n. induction u as [| c u IH]; intros n H R.
  - cbn [append dval]. destruct r as [| d r]; [reflexivity |]. cbn [take]. cbn in R. unfold decimal_value. rewrite R. reflexivity.
  - destruct H as [C H]. cbn [append take dval]. unfold decimal_value at 1. rewrite C. rewrite (IH _ H R). rewrite len_cons. reflexivity.
Qed.
Lemma dval_digits n : 0 <= n -> dval (digits n) 0 = n.
Proof.
  intros H. pose proof (take_digits n "" H I) as T. rewrite (take_all (digits n) "" 0 (digits_all n) I) in T.
  apply (f_equal (fun p => fst (fst p))) in T. exact T.
Qed.
(** The first digit of a positive number is not 0. *)
Lemma digits_head n : 0 < n -> exists c r, digits n = String c r /\ c <> "0"%char.
Proof.
  intros H. unfold digits. assert (N : (Z.to_N n <> 0)%N) by lia.
  pose proof (DecimalN.Unsigned.to_of (N.to_uint (Z.to_N n))) as U. rewrite DecimalN.Unsigned.of_to in U. unfold unorm in U.
  assert (Z0 : forall d, match nzhead d with D0 _ => False | _ => True end) by (induction d; cbn [nzhead]; trivial).
  specialize (Z0 (N.to_uint (Z.to_N n))).
  destruct (nzhead (N.to_uint (Z.to_N n))) as [| d | d | d | d | d | d | d | d | d | d] eqn:E; try contradiction; rewrite U;
    try (cbn [NilEmpty.string_of_uint]; eexists; eexists; split; [reflexivity | discriminate]).
  exfalso. apply N. assert (V : N.of_uint (N.to_uint (Z.to_N n)) = N.of_uint (D0 Nil)) by (rewrite U; reflexivity).
  rewrite DecimalN.Unsigned.of_to in V. rewrite V. reflexivity.
Qed.
Lemma digit_count_bounds n : 0 < n -> 10 ^ (digit_count n - 1) <= n < 10 ^ digit_count n.
Proof.
  intros H. change (digit_count n) with (len (digits n)). pose proof (dval_bounds _ (digits_all n)) as B. rewrite dval_digits in B by lia.
  split; [| lia]. destruct (digits_head n H) as (c & r & E & C). pose proof (digits_all n) as A. pose proof (dval_digits n ltac:(lia)) as V.
  rewrite E in *. rewrite len_cons. replace (len r + 1 - 1) with (len r) by lia. destruct A as [A1 A2]. cbn [dval] in V. rewrite dval_acc in V.
  pose proof (dval_bounds r A2). assert (1 <= digit_value c); [| nia].
  apply digit_cases in A1. destruct A1 as [A1 | A1]; [contradiction |]. clear - A1.
  repeat (destruct A1 as [-> | A1]; [vm_compute; discriminate |]). rewrite A1. vm_compute. discriminate.
Qed.
Lemma digit_count_unique n k : 0 < n -> 10 ^ k <= n < 10 ^ (k + 1) -> 0 <= k -> digit_count n = k + 1.
Proof.
  intros H [A B] K. destruct (digit_count_bounds n H) as [C D].
  assert (P : 0 < digit_count n) by (unfold digit_count; destruct (digits_cons n) as (c & r & E & _); rewrite E; cbn [String.length]; lia).
  assert (10 ^ k < 10 ^ digit_count n) by lia. assert (10 ^ (digit_count n - 1) < 10 ^ (k + 1)) by lia.
  apply Z.pow_lt_mono_r_iff in H0; [| lia | lia]. apply Z.pow_lt_mono_r_iff in H1; lia.
Qed.
Lemma strip_split v : exists j, v = strip_zeros v ++ zeros j.
Proof.
  induction v as [| c v [j J]]; [exists O; reflexivity |]. cbn [strip_zeros]. destruct (strip_zeros v) as [| d r] eqn:E.
  - cbn [append] in J. destruct (Ascii.eqb_spec c "0") as [-> | C].
    + exists (S j). rewrite J at 1. reflexivity.
    + exists j. rewrite J at 1. reflexivity.
  - exists j. rewrite J at 1. reflexivity.
Qed.
Lemma all_digits_strip v : all_digits v -> all_digits (strip_zeros v).
Proof. intros H. destruct (strip_split v) as [j J]. rewrite J in H. now apply all_digits_app in H. Qed.
Lemma substring_split s : forall n, (n <= String.length s)%nat ->
  s = substring 0 n s ++ substring n (String.length s - n) s /\ String.length (substring 0 n s) = n /\ String.length (substring n (String.length s - n) s) = (String.length s - n)%nat.
Proof.
  induction s as [| c s IH]; intros n H; cbn [String.length] in *.
  - assert (n = O) by lia. subst n. repeat split.
  - destruct n as [| n].
    + destruct (IH O ltac:(lia)) as (A & _ & B). cbn [Nat.sub substring append String.length].
      replace (String.length s - 0)%nat with (String.length s) in * by lia. destruct s as [| d s]; [repeat split |].
      split; [f_equal; exact A |]. split; [reflexivity | f_equal; exact B].
    + destruct (IH n ltac:(lia)) as (A & B & C). cbn [Nat.sub substring append String.length]. split; [f_equal; exact A |].
      split; [f_equal; exact B | exact C].
Qed.

(** *** Reading a decimal number *)
Lemma atof_body neg c r : is_digit c = true -> match r with String b _ => lower b <> "x"%char | "" => True end ->
  atof (minus neg ++ String c r)
  = let '(n, k, j, t) := mantissa decimal_value 10 (String c r) in if k + j =? 0 then S754_zero false else nearest10 neg n (exponent "e" t - j).
Proof.
  intros D X. pose proof (digit_cases c D) as DC.
  assert (S : skip_spaces (minus neg ++ String c r) = minus neg ++ String c r).
  { destruct neg; cbn [minus append]; [reflexivity |]. cbn [skip_spaces]. replace (is_space c) with false; [reflexivity |].
    repeat destruct DC as [-> | DC]; try reflexivity. subst c. reflexivity. }
  assert (G : signed (minus neg ++ String c r) = (neg, String c r)).
  { destruct neg; cbn [minus append]; [reflexivity |]. cbn [signed]. repeat destruct DC as [-> | DC]; try reflexivity. subst c. reflexivity. }
  unfold atof. rewrite S, G. cbv iota beta.
  assert (I : starts "inf" (String c r) = false /\ starts "nan" (String c r) = false).
  { cbn [starts]. repeat destruct DC as [-> | DC]; try (split; reflexivity). subst c. split; reflexivity. }
  destruct I as [-> ->]. destruct r as [| b r]; [reflexivity |].
  replace (Ascii.eqb (lower b) "x") with false by (symmetry; apply Ascii.eqb_neq; exact X). rewrite andb_false_r. reflexivity.
Qed.
(** Digits, possibly a point and digits, possibly an exponent. *)
Definition suffix (x : string) : Prop := x = "" \/ exists y, x = String "e" y.
Lemma suffix_not_digit x : suffix x -> not_digit x.
Proof. intros [-> | [y ->]]; [exact I | reflexivity]. Qed.
Lemma second_ok (r x : string) : all_digits r -> (match x with String b _ => lower b <> "x"%char | "" => True end) ->
  match r ++ x with String b _ => lower b <> "x"%char | "" => True end.
Proof.
  intros R X. destruct r as [| b r]; [exact X |]. cbn [append]. destruct R as [B _]. apply digit_cases in B.
  repeat destruct B as [-> | B]; try discriminate. subst b. discriminate.
Qed.
Lemma atof_point neg u w x : u <> "" -> all_digits u -> all_digits w -> suffix x ->
  atof (minus neg ++ u ++ "." ++ w ++ x) = nearest10 neg (dval (u ++ w) 0) (exponent "e" x - len w).
Proof.
  intros N U W X. destruct u as [| c u]; [congruence |]. pose proof U as [C U']. rewrite app_cons.
  rewrite atof_body; [| exact C | apply second_ok; [exact U' | discriminate]].
  rewrite <- app_cons. unfold mantissa. rewrite take_all by (exact U || reflexivity). cbn [append]. rewrite take_all by (exact W || apply suffix_not_digit, X).
  change (dval (String c (u ++ w)) 0) with (dval (String c u ++ w) 0). rewrite dval_app. pose proof (len_nonneg w). pose proof (len_nonneg u).
  replace (len (String c u) + len w =? 0) with false by (symmetry; apply Z.eqb_neq; rewrite len_cons; lia). reflexivity.
Qed.
Lemma atof_plain neg u x : u <> "" -> all_digits u -> suffix x ->
  atof (minus neg ++ u ++ x) = nearest10 neg (dval u 0) (exponent "e" x).
Proof.
  intros N U X. destruct u as [| c u]; [congruence |]. pose proof U as [C U']. rewrite app_cons.
  rewrite atof_body; [| exact C | apply second_ok; [exact U' | destruct X as [-> | [y ->]]; [exact I | discriminate]]].
  rewrite <- app_cons. unfold mantissa. rewrite take_all by (exact U || apply suffix_not_digit, X). pose proof (len_nonneg u).
  assert (E : len (String c u) + 0 =? 0 = false) by (apply Z.eqb_neq; rewrite len_cons; lia).
  destruct X as [-> | [y ->]]; rewrite E; rewrite Z.sub_0_r; reflexivity.
Qed.
Lemma atof_fraction neg u v x : u <> "" -> all_digits u -> all_digits v -> suffix x ->
  atof (minus neg ++ u ++ fraction v ++ x) = nearest10 neg (dval (u ++ strip_zeros v) 0) (exponent "e" x - len (strip_zeros v)).
Proof.
  intros N U V X. unfold fraction. pose proof (all_digits_strip v V) as S. destruct (strip_zeros v) as [| c w] eqn:E.
  - cbn [append]. rewrite app_nil_r. rewrite atof_plain by assumption. change (len "") with 0. rewrite Z.sub_0_r. reflexivity.
  - rewrite app_assoc_s. apply atof_point; assumption.
Qed.

(** *** Rounded quotients *)
Lemma quotient_near a b : 0 < b -> - b <= 2 * (round_quotient a b * b - a) <= b.
Proof.
  intros B. unfold round_quotient. pose proof (Z.div_mod a b ltac:(lia)) as D. pose proof (Z.mod_pos_bound a b B) as M.
  destruct (Z.compare_spec (2 * (a mod b)) b) as [C | C | C]; [destruct (Z.even (a / b)) | |]; nia.
Qed.
Lemma quotient_low a b n : 0 < b -> n * b <= a -> n <= round_quotient a b.
Proof.
  intros B H. unfold round_quotient. assert (n <= a / b) by (apply Z.div_le_lower_bound; lia).
  destruct (2 * (a mod b) ?= b); [destruct (Z.even (a / b)) | |]; lia.
Qed.
Lemma quotient_high a b n : 0 < b -> a < n * b -> round_quotient a b <= n.
Proof.
  intros B H. unfold round_quotient. assert (a / b < n) by (apply Z.div_lt_upper_bound; lia).
  destruct (2 * (a mod b) ?= b); [destruct (Z.even (a / b)) | |]; lia.
Qed.

(** *** "%.15g" *)
(** The quotient as a rational. *)
Definition quot (a b : Z) : Q := (inject_Z a / inject_Z b)%Q.
Lemma inject_pos b : 0 < b -> (0 < inject_Z b)%Q.
Proof. intros H. change 0%Q with (inject_Z 0). now apply inject_lt. Qed.
Lemma quot_lower a b c : 0 < b -> (inject_Z c * inject_Z b <= inject_Z a)%Q -> (inject_Z c <= quot a b)%Q.
Proof. intros B H. apply Qle_shift_div_l; [now apply inject_pos | exact H]. Qed.
Lemma exponent10_bounds a b : 0 < a -> 0 < b -> ((10 # 1) ^ exponent10 a b <= quot a b /\ quot a b < (10 # 1) ^ (exponent10 a b + 1))%Q.
Proof.
  intros A B. pose proof (inject_pos a A) as QA. pose proof (inject_pos b B) as QB.
  unfold exponent10. destruct (Z.leb_spec b a) as [L | L].
  - assert (P : 0 < a / b) by (apply Z.div_str_pos; lia). destruct (digit_count_bounds _ P) as [C D].
    set (k := digit_count (a / b)) in *.
    assert (K : 1 <= k) by (unfold k, digit_count; destruct (digits_cons (a / b)) as (x & r & E & _); rewrite E; cbn [String.length]; lia).
    replace (k - 1 + 1) with k by lia.
    pose proof (Z.div_mod a b ltac:(lia)) as DM. pose proof (Z.mod_pos_bound a b B) as MB.
    split.
    + rewrite <- p10_Z by lia. apply Qle_shift_div_l; [exact QB |]. rewrite <- inject_Z_mult. apply inject_le. nia.
    + rewrite <- p10_Z by lia. apply Qlt_shift_div_r; [exact QB |]. rewrite <- inject_Z_mult. apply inject_lt. nia.
  - assert (P : 0 < b / a) by (apply Z.div_str_pos; lia). destruct (digit_count_bounds _ P) as [C D].
    set (k := digit_count (b / a)) in *.
    assert (K : 1 <= k) by (unfold k, digit_count; destruct (digits_cons (b / a)) as (x & r & E & _); rewrite E; cbn [String.length]; lia).
    pose proof (Z.div_mod b a ltac:(lia)) as DM. pose proof (Z.mod_pos_bound b a A) as MB.
    assert (T1 : b < a * 10 ^ k) by nia. assert (T2 : a * 10 ^ (k - 1) <= b) by nia.
    assert (X : forall j, 0 <= j -> b <= a * 10 ^ j -> ((10 # 1) ^ (- j) <= quot a b)%Q).
    { intros j J H. apply Qle_shift_div_l; [exact QB |]. rewrite Qpower_opp, <- p10_Z by exact J.
      assert (0 < 10 ^ j) by (apply Z.pow_pos_nonneg; lia). pose proof (inject_pos _ H0).
      apply Qmult_le_l with (inject_Z (10 ^ j)); [assumption |]. setoid_replace (inject_Z (10 ^ j) * (/ inject_Z (10 ^ j) * inject_Z b))%Q with (inject_Z b) by (field; lra).
      rewrite <- inject_Z_mult. apply inject_le. lia. }
    assert (Y : forall j, 0 <= j -> a * 10 ^ j < b -> (quot a b < (10 # 1) ^ (- j))%Q).
    { intros j J H. apply Qlt_shift_div_r; [exact QB |]. rewrite Qpower_opp, <- p10_Z by exact J.
      assert (0 < 10 ^ j) by (apply Z.pow_pos_nonneg; lia). pose proof (inject_pos _ H0).
      apply Qmult_lt_l with (inject_Z (10 ^ j)); [assumption |]. setoid_replace (inject_Z (10 ^ j) * (/ inject_Z (10 ^ j) * inject_Z b))%Q with (inject_Z b) by (field; lra).
      rewrite <- inject_Z_mult. apply inject_lt. lia. }
    destruct (Z.leb_spec b (a * 10 ^ (k - 1))) as [M | M].
    + assert (E : b = a * 10 ^ (k - 1)) by lia. replace (1 - k) with (- (k - 1)) by lia. split; [apply X; lia |].
      destruct (Z.eq_dec k 1) as [-> | K1].
      * exfalso. cbn in E. lia.
      * replace (- (k - 1) + 1) with (- (k - 2)) by lia. apply Y; [lia |]. rewrite E. apply Z.mul_lt_mono_pos_l; [lia |]. apply Z.pow_lt_mono_r; lia.
    + split; [apply X; lia |]. replace (- k + 1) with (- (k - 1)) by lia. apply Y; lia.
Qed.
(** a / b scaled by 10 ^ k, and rounded. *)
Lemma scaled_quotient a b k : 0 < a -> 0 < b -> exists c d, 0 < c /\ 0 < d /\ scaled a b k = round_quotient c d /\ (quot c d == quot a b * (10 # 1) ^ k)%Q.
Proof.
  intros A B. pose proof (inject_pos b B). unfold scaled, quot. destruct (Z.leb_spec 0 k) as [K | K].
  - exists (a * 10 ^ k), b. repeat split; try lia. rewrite inject_Z_mult, p10_Z by exact K. field. lra.
  - assert (0 < 10 ^ (- k)) by (apply Z.pow_pos_nonneg; lia). exists a, (b * 10 ^ (- k)). repeat split; try lia.
    rewrite inject_Z_mult, p10_Z by lia. rewrite Qpower_opp. pose proof (p10_pos k). field. split; lra.
Qed.
Lemma quot_near c d : 0 < d -> (Qabs (inject_Z (round_quotient c d) - quot c d) <= 1 # 2)%Q.
Proof.
  intros D. pose proof (quotient_near c d D) as [A B]. pose proof (inject_pos d D) as QD. apply inject_le in A. apply inject_le in B. unfold quot.
  rewrite !inject_Z_mult in *. unfold Z.sub in *. rewrite !inject_Z_plus, !inject_Z_opp, ?inject_Z_mult in *. change (inject_Z 2) with (2 # 1)%Q in *.
  set (n := inject_Z (round_quotient c d)) in *. set (x := inject_Z c) in *. set (y := inject_Z d) in *.
  apply Qabs_Qle_condition.
  assert (E : (n - x / y == (n * y - x) / y)%Q) by (field; lra). rewrite E. split.
  - apply Qle_shift_div_l; [exact QD |]. lra.
  - apply Qle_shift_div_r; [exact QD |]. lra.
Qed.
Lemma quot_between c d n m : 0 < d -> (inject_Z n <= quot c d)%Q -> (quot c d < inject_Z m)%Q -> n <= round_quotient c d <= m.
Proof.
  intros D A B. pose proof (inject_pos d D) as QD. unfold quot in *. split.
  - apply quotient_low; [exact D |]. rewrite Zle_Qle, inject_Z_mult.
    apply Qmult_le_compat_r with (z := inject_Z d) in A; [| lra]. setoid_replace (inject_Z c / inject_Z d * inject_Z d)%Q with (inject_Z c) in A by (field; lra). exact A.
  - apply quotient_high; [exact D |]. rewrite Zlt_Qlt, inject_Z_mult.
    apply Qmult_lt_r with (z := inject_Z d) in B; [| lra]. setoid_replace (inject_Z c / inject_Z d * inject_Z d)%Q with (inject_Z c) in B by (field; lra). exact B.
Qed.

(** The text of d 10 ^ (x - 14), 10 ^ 14 <= d < 10 ^ 15. *)
Definition layout (x d : Z) : string :=
  let s := digits d in
  if (x <? -4) || (15 <=? x) then
    substring 0 1 s ++ fraction (substring 1 14 s) ++ "e" ++ (if x <? 0 then "-" else "+") ++ pad 2 (digits (Z.abs x))
  else if x <? 0 then "0." ++ zeros (Z.to_nat (- x - 1)) ++ strip_zeros s
  else substring 0 (Z.to_nat (x + 1)) s ++ fraction (substring (Z.to_nat (x + 1)) (Z.to_nat (14 - x)) s).
Lemma exponent_text x : exponent "e" ("e" ++ (if x <? 0 then "-" else "+") ++ pad 2 (digits (Z.abs x))) = x.
Proof.
  cbn [append exponent]. change (Ascii.eqb (lower "e") "e") with true. cbv iota.
  assert (S : signed ((if x <? 0 then "-" else "+") ++ pad 2 (digits (Z.abs x))) = (x <? 0, pad 2 (digits (Z.abs x)))) by (destruct (x <? 0); reflexivity).
  rewrite S. assert (T : take decimal_value 10 (pad 2 (digits (Z.abs x))) 0 = (Z.abs x, len (pad 2 (digits (Z.abs x))), "")).
  { rewrite <- (app_nil_r (pad 2 (digits (Z.abs x)))) at 1. rewrite take_all; [| apply all_digits_app; split; [apply zeros_all | apply digits_all] | exact I].
    unfold pad at 1. rewrite dval_app, dval_zeros, Z.mul_0_l, dval_digits by lia. reflexivity. }
  rewrite T. destruct (Z.ltb_spec x 0); lia.
Qed.
Lemma ten_shift n j d k e : n * 10 ^ Z.of_nat j = d -> k = e + Z.of_nat j -> (inject_Z n * (10 # 1) ^ k == inject_Z d * (10 # 1) ^ e)%Q.
Proof.
  intros <- ->. rewrite inject_Z_mult, p10_Z, p10_add by lia. ring.
Qed.
Lemma layout_value neg x d : 10 ^ 14 <= d < 10 ^ 15 ->
  exists n k, 0 < n /\ atof (minus neg ++ layout x d) = nearest10 neg n k /\ (inject_Z n * (10 # 1) ^ k == inject_Z d * (10 # 1) ^ (x - 14))%Q.
Proof.
  intros D. assert (D0 : 0 < d) by lia.
  assert (L : String.length (digits d) = 15%nat).
  { pose proof (digit_count_unique d 14 D0 D ltac:(lia)) as C. unfold digit_count in C. lia. }
  pose proof (dval_digits d ltac:(lia)) as V. pose proof (digits_all d) as A. unfold layout.
  set (s := digits d) in *. clearbody s.
  assert (POS : forall n j, n * 10 ^ Z.of_nat j = d -> 0 < n).
  { intros n j H. assert (0 < 10 ^ Z.of_nat j) by (apply Z.pow_pos_nonneg; lia). nia. }
  assert (SPLIT : forall i, (0 < i <= 15)%nat -> let u := substring 0 i s in let v := substring i (15 - i) s in
            u <> "" /\ all_digits u /\ all_digits v /\
            exists j, dval (u ++ strip_zeros v) 0 * 10 ^ Z.of_nat j = d /\ len (strip_zeros v) + Z.of_nat j = 15 - Z.of_nat i).
  { intros i I0 u v. destruct (substring_split s i ltac:(lia)) as (S1 & S2 & S3). rewrite L in S1, S3. fold u in S1, S2. fold v in S1, S3.
    rewrite S1 in A. apply all_digits_app in A. destruct A as [AU AV]. split; [intros E; rewrite E in S2; cbn in S2; lia |].
    split; [exact AU |]. split; [exact AV |]. destruct (strip_split v) as [j J]. exists j. split.
    - rewrite <- V. rewrite S1. rewrite J at 2. rewrite <- app_assoc_s, (dval_app (u ++ strip_zeros v) (zeros j)), dval_zeros. reflexivity.
    - assert (LV : len v = 15 - Z.of_nat i) by (unfold len; lia). rewrite J in LV. rewrite len_app, len_zeros in LV. exact LV. }
  destruct ((x <? -4) || (15 <=? x))%bool eqn:O; [| destruct (Z.ltb_spec x 0) as [X | X]].
  - destruct (SPLIT 1%nat ltac:(lia)) as (U0 & U1 & V1 & j & J1 & J2). cbn [Nat.sub] in *.
    eexists. eexists. split; [| split; [apply atof_fraction; [exact U0 | exact U1 | exact V1 | right; eexists; reflexivity] |]].
    + eapply POS. exact J1.
    + rewrite exponent_text. eapply ten_shift; [exact J1 | lia].
  - apply orb_false_iff in O. destruct O as [O _]. apply Z.ltb_ge in O.
    destruct (strip_split s) as [j J].
    pose proof (atof_point neg "0" (zeros (Z.to_nat (- x - 1)) ++ strip_zeros s) "" ltac:(discriminate) (conj eq_refl I)) as P.
    rewrite (app_nil_r (zeros _ ++ _)) in P. cbn [append] in P |- *.
    assert (E : dval (zeros (Z.to_nat (- x - 1)) ++ strip_zeros s) 0 = dval (strip_zeros s) 0) by (rewrite dval_app, dval_zeros; reflexivity).
    assert (J1 : dval (strip_zeros s) 0 * 10 ^ Z.of_nat j = d) by (rewrite <- V; rewrite J at 2; rewrite dval_app, dval_zeros; reflexivity).
    eexists. eexists. split; [| split; [apply P |]].
    + change (dval (String "0" (zeros (Z.to_nat (- x - 1)) ++ strip_zeros s)) 0) with (dval (zeros (Z.to_nat (- x - 1)) ++ strip_zeros s) 0).
      rewrite E. eapply POS. exact J1.
    + apply all_digits_app. split; [apply zeros_all | apply all_digits_strip, A].
    + left. reflexivity.
    + change (dval (String "0" (zeros (Z.to_nat (- x - 1)) ++ strip_zeros s)) 0) with (dval (zeros (Z.to_nat (- x - 1)) ++ strip_zeros s) 0).
      rewrite E. eapply ten_shift; [exact J1 |]. change (exponent "e" "") with 0. rewrite len_app, len_zeros.
      assert (LV : len s = 15) by (unfold len; lia). rewrite J in LV. rewrite len_app, len_zeros in LV. lia.
  - apply orb_false_iff in O. destruct O as [_ O]. apply Z.leb_gt in O.
    destruct (SPLIT (Z.to_nat (x + 1)) ltac:(lia)) as (U0 & U1 & V1 & j & J1 & J2).
    replace (15 - Z.to_nat (x + 1))%nat with (Z.to_nat (14 - x)) in * by lia.
    pose proof (atof_fraction neg _ _ "" U0 U1 V1 (or_introl eq_refl)) as P. rewrite (app_nil_r (fraction _)) in P.
    eexists. eexists. split; [| split; [exact P |]].
    + eapply POS. exact J1.
    + change (exponent "e" "") with 0. eapply ten_shift; [exact J1 | lia].
Qed.
(** The number read is nearest to a number within 5 10^-15 (relatively) of a / b. *)
Lemma general_value neg a b : 0 < a -> 0 < b ->
  exists n k, 0 < n /\ atof (minus neg ++ general15 a b) = nearest10 neg n k /\
    (Qabs (inject_Z n * (10 # 1) ^ k - quot a b) <= (5 # 1000000000000000) * quot a b)%Q.
Proof.
  intros A B. unfold general15. destruct (exponent10_bounds a b A B) as [X1 X2]. set (x := exponent10 a b) in *.
  destruct (scaled_quotient a b (14 - x) A B) as (c & d & C & D & E & Q). rewrite E.
  pose proof (quot_near c d D) as N. pose proof (p10_pos x) as PX. pose proof (p10_pos (14 - x)) as PK. pose proof (p10_pos (x - 14)) as PI.
  assert (R1 : (10 ^ 14 <= round_quotient c d <= 10 ^ 15)).
  { apply quot_between; [exact D | |]; rewrite Q.
    - rewrite p10_Z by lia. replace 14 with (x + (14 - x)) at 1 by lia. rewrite p10_add. apply Qmult_le_compat_r; [exact X1 | lra].
    - rewrite p10_Z by lia. replace 15 with (x + 1 + (14 - x)) by lia. rewrite p10_add. apply Qmult_lt_r; [exact PK | exact X2]. }
  set (r := round_quotient c d) in *.
  assert (I : ((10 # 1) ^ (14 - x) * (10 # 1) ^ (x - 14) == 1)%Q) by (rewrite <- p10_add; replace (14 - x + (x - 14)) with 0 by lia; reflexivity).
  assert (F : (Qabs (inject_Z r * (10 # 1) ^ (x - 14) - quot a b) <= (5 # 1000000000000000) * quot a b)%Q).
  { setoid_replace (inject_Z r * (10 # 1) ^ (x - 14) - quot a b)%Q with ((inject_Z r - quot c d) * (10 # 1) ^ (x - 14))%Q.
    2: { rewrite Q. setoid_replace ((inject_Z r - quot a b * (10 # 1) ^ (14 - x)) * (10 # 1) ^ (x - 14))%Q
           with (inject_Z r * (10 # 1) ^ (x - 14) - quot a b * ((10 # 1) ^ (14 - x) * (10 # 1) ^ (x - 14)))%Q by ring. rewrite I. ring. }
    rewrite Qabs_Qmult, (Qabs_pos ((10 # 1) ^ (x - 14))) by lra.
    eapply Qle_trans; [apply Qmult_le_compat_r; [exact N | lra] |].
    assert (G : ((10 # 1) ^ (x - 14) == (1 # 100000000000000) * (10 # 1) ^ x)%Q).
    { replace (x - 14) with (x + -14) by lia. rewrite p10_add. change ((10 # 1) ^ (-14))%Q with (1 # 100000000000000)%Q. ring. }
    rewrite G. lra. }
  assert (FIN : forall x' d', 10 ^ 14 <= d' < 10 ^ 15 -> (inject_Z d' * (10 # 1) ^ (x' - 14) == inject_Z r * (10 # 1) ^ (x - 14))%Q ->
            exists n k, 0 < n /\ atof (minus neg ++ layout x' d') = nearest10 neg n k /\
              (Qabs (inject_Z n * (10 # 1) ^ k - quot a b) <= (5 # 1000000000000000) * quot a b)%Q).
  { intros x' d' H HQ. destruct (layout_value neg x' d' H) as (n & k & P & T & V). exists n, k. split; [exact P |]. split; [exact T |].
    rewrite V, HQ. exact F. }
  destruct (Z.eqb_spec r (10 ^ 15)) as [R2 | R2].
  - apply (FIN (x + 1) (10 ^ 14)); [lia |]. rewrite R2. rewrite !p10_Z by lia. rewrite <- !p10_add. replace (14 + (x + 1 - 14)) with (15 + (x - 14)) by lia. reflexivity.
  - apply (FIN x r); [lia | reflexivity].
Qed.
Lemma near_weak t w : (0 <= t)%Q -> near w t -> (Qabs (w - t) <= (12 # 100000000000000000) * t + (2 # 1) ^ (-1075))%Q.
Proof.
  unfold near. intros H N. eapply Qle_trans; [exact N |]. apply Qplus_le_l. apply Qmult_le_compat_r; [| exact H]. discriminate.
Qed.
Lemma quot_nonneg a b : 0 < a -> 0 < b -> (0 < quot a b)%Q.
Proof. intros A B. apply Qlt_shift_div_l; [now apply inject_pos |]. rewrite Qmult_0_l. now apply inject_pos. Qed.

(** *** Elements *)
Lemma means_quot s m e : means (S754_finite s m e) (sgn s * quot (fst (magnitude m e)) (snd (magnitude m e))).
Proof.
  cbn [means]. assert (M : means (S754_finite s m e) ((if s then - 1 else 1) * inject_Z (Zpos m) * (2 # 1) ^ e)) by (cbn [means]; reflexivity).
  apply means_magnitude in M. rewrite M. unfold sgn, quot. reflexivity.
Qed.
Lemma means_unique x q r : means x q -> means x r -> (q == r)%Q.
Proof. destruct x; cbn; try contradiction; intros -> ->; reflexivity. Qed.
Lemma close_signs s q w c : (Qabs (w - q) <= c)%Q -> (Qabs (sgn s * w - sgn s * q) <= c)%Q.
Proof.
  intros H. destruct s; cbn [sgn].
  - setoid_replace (- 1 * w - - 1 * q)%Q with (- (w - q))%Q by ring. rewrite Qabs_opp. exact H.
  - setoid_replace (1 * w - 1 * q)%Q with (w - q)%Q by ring. exact H.
Qed.
Lemma abs_sgn s q : (0 <= q)%Q -> (Qabs (sgn s * q) == q)%Q.
Proof.
  intros H. destruct s; cbn [sgn].
  - setoid_replace (- 1 * q)%Q with (- q)%Q by ring. rewrite Qabs_opp. now apply Qabs_pos.
  - rewrite Qmult_1_l. now apply Qabs_pos.
Qed.
Lemma finite_small m e : bounded 53 1024 m e = true -> e < 0 -> Zpos m < 2 ^ 53.
Proof.
  intros B E. unfold bounded in B. apply andb_prop in B. destruct B as [C _]. unfold canonical_mantissa in C. apply Zeq_bool_eq in C.
  unfold fexp, emin in C. assert (D : Zdigits2 (Zpos m) <= 53) by (cbn [Zdigits2]; lia).
  destruct (digits2_bounds (Zpos m) ltac:(lia)) as [_ H]. eapply Z.lt_le_trans; [exact H |]. apply Z.pow_le_mono_r; lia.
Qed.
Lemma atof_close x q : binary64 x -> means x q ->
  exists r, means (atof (element (-1) x)) r /\ (Qabs (r - q) <= (6 # 1000000000000000) * Qabs q + (2 # 1) ^ (-1075))%Q.
Proof.
  intros B M. pose proof (p2_pos (-1075)) as P0.
  assert (EX : forall y, atof (element (-1) x) = y -> y = x -> exists r, means (atof (element (-1) x)) r /\ (Qabs (r - q) <= (6 # 1000000000000000) * Qabs q + (2 # 1) ^ (-1075))%Q).
  { intros y -> ->. exists q. split; [exact M |]. setoid_replace (q - q)%Q with 0%Q by ring. change (Qabs 0) with 0%Q. pose proof (Qabs_nonneg q). lra. }
  destruct x as [s | s | | s m e]; try contradiction.
  - eapply EX; [reflexivity |]. apply atof_element. right. right. split; [exact B |]. exists 0. cbn. reflexivity.
  - destruct (is_integer m e) eqn:IN.
    + eapply EX; [reflexivity |]. unfold is_integer in IN. destruct (magnitude m e) as [a b] eqn:MG. apply Z.eqb_eq in IN.
      pose proof (magnitude_pos m e) as [A' B']. rewrite MG in A', B'. cbn [fst snd] in A', B'.
      assert (H : a = a / b * b) by (pose proof (Z.div_mod a b ltac:(lia)); lia).
      unfold element. cbn [sf_isNaN sf_isInf]. rewrite (integer_text s m e (a / b)) by (rewrite MG; exact H).
      rewrite atof_integer by (apply Z.div_pos; lia). apply nearest_integer; [exact B | rewrite MG; exact H].
    + assert (T : element (-1) (S754_finite s m e) = minus s ++ general15 (fst (magnitude m e)) (snd (magnitude m e))).
      { unfold element. cbn [sf_isNaN sf_isInf ScalarToString]. rewrite IN. destruct (magnitude m e) as [a b]. reflexivity. }
      rewrite T. pose proof (magnitude_pos m e) as [A' B']. pose proof (means_quot s m e) as MQ.
      assert (SM : (quot (fst (magnitude m e)) (snd (magnitude m e)) < (2 # 1) ^ 53)%Q).
      { assert (E : e < 0). { destruct (Z.lt_ge_cases e 0) as [L | L]; [exact L | exfalso]. unfold is_integer, magnitude in IN.
          rewrite (proj2 (Z.leb_le 0 e) L) in IN. rewrite Z.mod_1_r in IN. discriminate. }
        apply Qlt_shift_div_r; [now apply inject_pos |]. rewrite <- p2_Z by lia. rewrite <- inject_Z_mult. apply inject_lt.
        pose proof (finite_small m e B E) as S. unfold magnitude. destruct (Z.leb_spec 0 e); [lia |]. cbn [fst snd].
        assert (1 <= 2 ^ (- e)) by lia. nia. }
      set (a := fst (magnitude m e)) in *. set (b := snd (magnitude m e)) in *.
      destruct (general_value s a b A' B') as (n & k & N & AT & G). rewrite AT.
      pose proof (quot_nonneg a b A' B') as QP. set (t := (inject_Z n * (10 # 1) ^ k)%Q) in *.
      assert (TP : (0 < t)%Q) by (apply Qmult_lt_0_compat; [now apply inject_pos | apply p10_pos]).
      apply Qabs_Qle_condition in G. destruct G as [G1 G2].
      assert (TS : (t < (2 # 1) ^ 1023)%Q).
      { apply Qlt_trans with ((2 # 1) ^ 54)%Q; [| reflexivity]. change ((2 # 1) ^ 54)%Q with ((2 # 1) * (2 # 1) ^ 53)%Q. lra. }
      destruct (near10 s n k t N ltac:(reflexivity) TS) as (w & W1 & W2 & W3). exists (sgn s * w)%Q. split; [exact W1 |].
      rewrite (means_unique _ _ _ M MQ). rewrite abs_sgn by lra. apply close_signs.
      apply near_weak in W3; [| lra]. apply Qabs_Qle_condition in W3. apply Qabs_Qle_condition. lra.
Qed.
Lemma element_nonempty_all x : element (-1) x <> "".
Proof.
  unfold element. destruct x as [s | s | | s m e]; cbn [sf_isNaN sf_isInf ScalarToString]; try discriminate.
  - destruct s; discriminate.
  - destruct (is_integer m e) eqn:I.
    + destruct (magnitude m e). cbn [Z.ltb Z.compare andb]. destruct (strip_zeros _); discriminate.
    + destruct (magnitude m e) as [a b]. cbn [Z.ltb Z.compare andb Z.leb]. intros E.
      assert (G : general15 a b <> ""); [| destruct s; cbn in E; [discriminate | contradiction]]. clear.
      unfold general15. destruct (if scaled a b (14 - exponent10 a b) =? 10 ^ 15 then _ else _) as [x d]. destruct (digits_cons d) as (c & r & -> & _).
      destruct ((x <? -4) || (15 <=? x))%bool eqn:O; [| destruct (Z.ltb_spec x 0)].
      * cbn [substring]. destruct r; discriminate.
      * discriminate.
      * destruct (Z.to_nat (x + 1)) eqn:N; [lia |]. cbn [substring]. discriminate.
Qed.
Lemma parse_elements l : l <> [] -> VectorXd_Parse (mx_toString (-1) (vector l)) = Ok (map (fun x => atof (element (-1) x)) l).
Proof.
  intros N. rewrite vector_text. rewrite parse_brackets.
  2: { destruct l as [| x l]; [congruence |]. apply join_nonempty, element_nonempty_all. }
  rewrite tokens_join.
  2: { apply Forall_map. apply Forall_forall. intros x _. split; [apply plain_element | apply element_nonempty_all]. }
  f_equal. destruct l as [| x l]; [reflexivity |]. cbn [map spaced]. f_equal. rewrite !map_map. apply map_ext. intros y. apply atof_space.
Qed.
Lemma c110_accuracy l : l <> [] -> Forall (fun x => binary64 x /\ exists q, means x q) l ->
  exists k, VectorXd_Parse (mx_toString (-1) (vector l)) = Ok k /\
    Forall2 (fun x y => exists q r, means x q /\ means y r /\ (Qabs (r - q) <= (6 # 1000000000000000) * Qabs q + (2 # 1) ^ (-1075))%Q) l k.
Proof.
  intros N F. eexists. split; [apply parse_elements, N |]. induction F as [| x l [B [q Q]] F IH]; cbn [map]; constructor.
  - destruct (atof_close x q B Q) as (r & R & C). exists q, r. auto.
  - destruct l; [constructor | apply IH; discriminate].
Qed.

(** *** Fixed precision *)
Lemma pad_length p n : 0 < p -> 0 <= n < 10 ^ p -> len (pad p (digits n)) = p.
Proof.
  intros P [A B]. unfold pad. rewrite len_app, len_zeros. assert (L : len (digits n) <= p).
  { destruct (Z.eq_dec n 0) as [-> | N]; [change (len (digits 0)) with 1; lia |].
    destruct (digit_count_bounds n ltac:(lia)) as [C _]. change (digit_count n) with (len (digits n)) in C.
    assert (D : 10 ^ (len (digits n) - 1) < 10 ^ p) by lia. apply Z.pow_lt_mono_r_iff in D; lia. }
  unfold len in *. lia.
Qed.
Lemma fixed_value neg p a b : 0 <= p -> 0 <= a -> 0 < b ->
  0 <= round_quotient (a * 10 ^ p) b /\ atof (minus neg ++ fixed p a b) = nearest10 neg (round_quotient (a * 10 ^ p) b) (- p).
Proof.
  intros P A B. unfold fixed. set (n := round_quotient (a * 10 ^ p) b).
  assert (T : 0 < 10 ^ p) by (apply Z.pow_pos_nonneg; lia).
  assert (N : 0 <= n) by (apply quotient_low; [exact B | nia]). split; [exact N |].
  assert (NE : digits (n / 10 ^ p) <> "") by (destruct (digits_cons (n / 10 ^ p)) as (c & r & -> & _); discriminate).
  destruct (Z.eqb_spec p 0) as [-> | P0].
  - rewrite atof_plain; [| exact NE | apply digits_all | left; reflexivity].
    rewrite dval_digits by (apply Z.div_pos; lia). rewrite Z.pow_0_r, Z.div_1_r. reflexivity.
  - pose proof (Z.mod_pos_bound n (10 ^ p) T) as M. pose proof (Z.div_mod n (10 ^ p) ltac:(lia)) as D.
    assert (PD : all_digits (pad p (digits (n mod 10 ^ p)))) by (apply all_digits_app; split; [apply zeros_all | apply digits_all]).
    pose proof (atof_point neg _ _ "" NE (digits_all _) PD (or_introl eq_refl)) as H. rewrite (app_nil_r (pad _ _)) in H. rewrite H.
    rewrite pad_length by lia. rewrite dval_app, dval_digits by (apply Z.div_pos; lia). rewrite dval_acc, pad_length by lia.
    replace (dval (pad p (digits (n mod 10 ^ p))) 0) with (n mod 10 ^ p).
    2: { unfold pad. rewrite dval_app, dval_zeros, Z.mul_0_l, dval_digits by lia. reflexivity. }
    f_equal. lia.
Qed.
Lemma p10_neg_le p : 0 <= p -> ((10 # 1) ^ (- p) <= 1)%Q.
Proof. intros P. change 1%Q with ((10 # 1) ^ 0)%Q. apply Qpower_le_compat_l; [lia | discriminate]. Qed.
Lemma atof_fixed p x q : 0 <= p -> means x q -> (Qabs q <= (2 # 1) ^ 1022)%Q ->
  exists r, means (atof (element p x)) r /\ (Qabs (r - q) <= (1 # 2) * (10 # 1) ^ (- p) + (12 # 100000000000000000) * (Qabs q + 1))%Q.
Proof.
  intros P M Q. pose proof (p10_pos (- p)) as PP. pose proof (p10_neg_le p P) as PL.
  destruct x as [s | s | | s m e]; try contradiction.
  - assert (T : element p (S754_zero s) = minus s ++ fixed p 0 1).
    { unfold element. cbn [sf_isNaN sf_isInf ScalarToString]. replace (p <? 0) with false by (symmetry; apply Z.ltb_ge; exact P). reflexivity. }
    destruct (fixed_value s p 0 1 P ltac:(lia) ltac:(lia)) as [_ V]. rewrite T, V. rewrite Z.mul_0_l. change (round_quotient 0 1) with 0.
    exists 0%Q. split; [cbn; reflexivity |]. cbn [means] in M. rewrite M. change (Qabs (0 - 0)) with 0%Q. change (Qabs 0) with 0%Q. lra.
  - assert (T : element p (S754_finite s m e) = minus s ++ fixed p (fst (magnitude m e)) (snd (magnitude m e))).
    { unfold element. cbn [sf_isNaN sf_isInf ScalarToString]. destruct (magnitude m e) as [a b]. replace (p <? 0) with false by (symmetry; apply Z.ltb_ge; exact P).
      cbn [andb]. replace (0 <=? p) with true by (symmetry; apply Z.leb_le; exact P). reflexivity. }
    pose proof (magnitude_pos m e) as [A B]. pose proof (means_quot s m e) as MQ. pose proof (means_unique _ _ _ M MQ) as EQ. rewrite EQ in Q. pose proof (quot_nonneg _ _ A B) as QP. rewrite abs_sgn in Q by lra.
    set (Y := quot (fst (magnitude m e)) (snd (magnitude m e))) in *.
    assert (X : exists r, means (atof (element p (S754_finite s m e))) r /\ (Qabs (r - sgn s * Y) <= (1 # 2) * (10 # 1) ^ (- p) + (12 # 100000000000000000) * (Y + 1))%Q);
      [| destruct X as (r & R1 & R2); exists r; split; [exact R1 |]; rewrite EQ, abs_sgn by lra; exact R2].
    unfold Y in *. clear M MQ EQ Y.
    destruct (fixed_value s p _ _ P (Z.lt_le_incl _ _ A) B) as [N V]. rewrite T, V. clear T V.
    set (a := fst (magnitude m e)) in *. set (b := snd (magnitude m e)) in *. pose proof (quot_near (a * 10 ^ p) b B) as G. set (n := round_quotient (a * 10 ^ p) b) in *.
    assert (E : (quot (a * 10 ^ p) b == quot a b * (10 # 1) ^ p)%Q).
    { unfold quot. rewrite inject_Z_mult, p10_Z by exact P. pose proof (inject_pos b B). field. lra. }
    rewrite E in G. set (t := (inject_Z n * (10 # 1) ^ (- p))%Q).
    assert (I : ((10 # 1) ^ p * (10 # 1) ^ (- p) == 1)%Q) by (rewrite <- p10_add; replace (p + - p) with 0 by lia; reflexivity).
    assert (TQ : (Qabs (t - quot a b) <= (1 # 2) * (10 # 1) ^ (- p))%Q).
    { setoid_replace (t - quot a b)%Q with ((inject_Z n - quot a b * (10 # 1) ^ p) * (10 # 1) ^ (- p))%Q.
      2: { unfold t. setoid_replace ((inject_Z n - quot a b * (10 # 1) ^ p) * (10 # 1) ^ (- p))%Q
             with (inject_Z n * (10 # 1) ^ (- p) - quot a b * ((10 # 1) ^ p * (10 # 1) ^ (- p)))%Q by ring. rewrite I. ring. }
      rewrite Qabs_Qmult, (Qabs_pos ((10 # 1) ^ (- p))) by lra. apply Qmult_le_compat_r; [exact G | lra]. }
    destruct (Z.eq_dec n 0) as [N0 | N0].
    + assert (T0 : (t == 0)%Q) by (unfold t; rewrite N0; change (inject_Z 0) with 0%Q; ring). rewrite N0. exists (sgn s * 0)%Q. split; [cbn; ring |].
      apply close_signs. rewrite T0 in TQ. lra.
    + assert (TP : (0 < t)%Q) by (apply Qmult_lt_0_compat; [apply inject_pos; lia | apply p10_pos]).
      apply Qabs_Qle_condition in TQ.
      assert (TS : (t < (2 # 1) ^ 1023)%Q).
      { apply Qle_lt_trans with ((2 # 1) ^ 1022 + 1)%Q; [lra |]. change ((2 # 1) ^ 1023)%Q with ((2 # 1) * (2 # 1) ^ 1022)%Q.
        assert (1 < (2 # 1) ^ 1022)%Q by reflexivity. lra. }
      destruct (near10 s n (- p) t ltac:(lia) ltac:(reflexivity) TS) as (w & W1 & W2 & W3). exists (sgn s * w)%Q. split; [exact W1 |].
      apply close_signs. apply near_weak in W3; [| lra]. apply Qabs_Qle_condition in W3. apply Qabs_Qle_condition.
      assert (TT : ((2 # 1) ^ (-1075) <= 1 # 100000000000000000)%Q) by discriminate. lra.
Qed.
Lemma element_fixed_nonempty p x : 0 <= p -> element p x <> "".
Proof.
  intros P. unfold element. destruct x as [s | s | | s m e]; cbn [sf_isNaN sf_isInf ScalarToString]; try discriminate.
  - replace (p <? 0) with false by (symmetry; apply Z.ltb_ge; exact P). unfold fixed. destruct (digits_cons (round_quotient (0 * 10 ^ p) 1 / 10 ^ p)) as (c & r & -> & _). destruct s; discriminate.
  - destruct (magnitude m e) as [a b]. replace (p <? 0) with false by (symmetry; apply Z.ltb_ge; exact P). cbn [andb].
    replace (0 <=? p) with true by (symmetry; apply Z.leb_le; exact P). unfold fixed.
    destruct (digits_cons (round_quotient (a * 10 ^ p) b / 10 ^ p)) as (c & r & -> & _). destruct s; discriminate.
Qed.
Lemma parse_fixed p l : 0 <= p -> l <> [] -> VectorXd_Parse (mx_toString p (vector l)) = Ok (map (fun x => atof (element p x)) l).
Proof.
  intros P N. assert (T : mx_toString p (vector l) = "[" ++ join (map (element p) l) ++ "]").
  { unfold mx_toString, vector. cbn [mx_cols mx_rows]. rewrite map_map. do 3 f_equal. }
  rewrite T, parse_brackets.
  2: { destruct l as [| x l]; [congruence |]. apply join_nonempty, element_fixed_nonempty, P. }
  rewrite tokens_join.
  2: { apply Forall_map. apply Forall_forall. intros x _. split; [apply plain_element | apply element_fixed_nonempty, P]. }
  f_equal. destruct l as [| x l]; [reflexivity |]. cbn [map spaced]. f_equal. rewrite !map_map. apply map_ext. intros y. apply atof_space.
Qed.
Lemma c110_precision p l : 0 <= p -> l <> [] -> Forall (fun x => exists q, means x q /\ (Qabs q <= (2 # 1) ^ 1022)%Q) l ->
  exists k, VectorXd_Parse (mx_toString p (vector l)) = Ok k /\
    Forall2 (fun x y => exists q r, means x q /\ means y r /\ (Qabs (r - q) <= (1 # 2) * (10 # 1) ^ (- p) + (12 # 100000000000000000) * (Qabs q + 1))%Q) l k.
Proof.
  intros P N F. eexists. split; [apply parse_fixed; assumption |]. induction F as [| x l (q & Q & S) F IH]; cbn [map]; constructor.
  - destruct (atof_fixed p x q P Q S) as (r & R & C). exists q, r. auto.
  - destruct l; [constructor | apply IH; discriminate].
Qed.
