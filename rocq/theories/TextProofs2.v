(** Proofs about the texts of vectors, matrices and quaternions: parsing. *)

From Coq Require Import List Bool ZArith NArith QArith Qpower Lia String Ascii Floats.SpecFloat.
From Verif Require Import Result TextModel TextSpec TextProofs.
Import ListNotations.
Local Open Scope string_scope.
Local Open Scope Z_scope.

(** *** atof *)
Lemma atof_space s : atof (String " " s) = atof s.
Proof. reflexivity. Qed.
Lemma digit_range c : is_digit c = true -> (48 <= nat_of_ascii c <= 57)%nat.
Proof. unfold is_digit. intros H. apply andb_prop in H. destruct H as [A B]. apply Z.leb_le in A, B. lia. Qed.
Lemma digit_cases c : is_digit c = true ->
  c = "0"%char \/ c = "1"%char \/ c = "2"%char \/ c = "3"%char \/ c = "4"%char \/ c = "5"%char \/ c = "6"%char \/ c = "7"%char \/ c = "8"%char \/ c = "9"%char.
Proof.
  intros H. apply digit_range in H. rewrite <- (ascii_nat_embedding c). destruct H as [A B]. remember (nat_of_ascii c) as n eqn:E. clear E c.
  do 48 (destruct n as [| n]; [lia |]).
  do 10 (destruct n as [| n]; [vm_compute; tauto |]). lia.
Qed.
(** Text that starts with digits, followed by a point. *)
Lemma atof_digits (neg : bool) n t : 0 <= n ->
  atof (minus neg ++ digits n ++ String "." t)
  = let '(v, j, r) := take decimal_value 10 t n in nearest10 neg v (exponent "e" r - j).
Proof.
  intros N. pose proof (take_digits n (String "." t) N eq_refl) as T. pose proof (take_uint) as _.
  assert (K : digit_count n > 0).
  { unfold digit_count. destruct (digits_cons n) as (c & r & E & _). rewrite E. cbn [String.length]. lia. }
  assert (M : mantissa decimal_value 10 (digits n ++ String "." t)
              = (let '(v, j, r) := take decimal_value 10 t n in (v, digit_count n, j, r))).
  { unfold mantissa. rewrite T. cbv iota beta.
    assert (J : forall s k, 0 <= snd (fst (take decimal_value 10 s k))).
    { intros s. induction s as [| c s IH]; intros k; cbn [take]; [cbn; lia |]. destruct (decimal_value c); [| cbn; lia].
      specialize (IH (k * 10 + z)). destruct (take decimal_value 10 s (k * 10 + z)) as [[a b] d]. cbn [fst snd] in *. lia. }
    specialize (J t n). destruct (take decimal_value 10 t n) as [[a b] d]. cbn [fst snd] in J.
    replace (digit_count n + b =? 0) with false by (symmetry; apply Z.eqb_neq; lia). reflexivity. }
  assert (S : skip_spaces (minus neg ++ digits n ++ String "." t) = minus neg ++ digits n ++ String "." t).
  { destruct neg; cbn [minus append]; [reflexivity |]. destruct (digits_cons n) as (c & r & E & D & _). rewrite E. rewrite app_cons.
    cbn [skip_spaces]. apply digit_cases in D. replace (is_space c) with false; [reflexivity |].
    repeat destruct D as [-> | D]; try reflexivity. subst c. reflexivity. }
  assert (G : signed (minus neg ++ digits n ++ String "." t) = (neg, digits n ++ String "." t)).
  { destruct neg; cbn [minus append]; [reflexivity |]. destruct (digits_cons n) as (c & r & E & D & _). rewrite E. rewrite app_cons.
    cbn [signed]. apply digit_cases in D. repeat destruct D as [-> | D]; try reflexivity. subst c. reflexivity. }
  unfold atof. rewrite S, G. cbv iota beta.
  destruct (digits_cons n) as (c & r & E & D & R).
  assert (H : (match digits n ++ String "." t with
               | String a (String b r) => if (Ascii.eqb a "0" && Ascii.eqb (lower b) "x")%bool then Some r else None
               | _ => None end) = None).
  { rewrite E, app_cons. destruct r as [| b r]; [cbn [append]; replace (Ascii.eqb (lower ".") "x") with false by reflexivity; rewrite andb_false_r; reflexivity |].
    cbn [append]. destruct R as [B _]. replace (Ascii.eqb (lower b) "x") with false; [rewrite andb_false_r; reflexivity |].
    apply digit_cases in B. repeat destruct B as [-> | B]; try reflexivity. subst b. reflexivity. }
  rewrite H. rewrite M.
  assert (I : starts "inf" (digits n ++ String "." t) = false /\ starts "nan" (digits n ++ String "." t) = false).
  { rewrite E, app_cons. cbn [starts]. apply digit_cases in D. repeat destruct D as [-> | D]; try (split; reflexivity). subst c. split; reflexivity. }
  destruct I as [-> ->]. destruct (take decimal_value 10 t n) as [[a b] d] eqn:TT.
  assert (J : 0 <= b).
  { clear - TT. revert n a b d TT. induction t as [| c s IH]; intros k a b d TT; cbn [take] in TT; [injection TT as <- <- <-; lia |].
    destruct (decimal_value c); [| injection TT as <- <- <-; lia].
    destruct (take decimal_value 10 s (k * 10 + z)) as [[a' b'] d'] eqn:T'. injection TT as <- <- <-. apply IH in T'. lia. }
  replace (digit_count n + b =? 0) with false by (symmetry; apply Z.eqb_neq; lia). reflexivity.
Qed.
Lemma atof_integer neg n : 0 <= n -> atof (minus neg ++ digits n ++ ".0") = nearest10 neg (n * 10) (-1).
Proof. intros N. rewrite atof_digits by exact N. cbn [take]. change (decimal_value "0") with (Some 0). cbv iota beta. cbn. rewrite Z.add_0_r. reflexivity. Qed.

(** The value of a finite number, as a quotient of integers. *)
Lemma means_magnitude s m e q : means (S754_finite s m e) q ->
  (q == (if s then - 1 else 1) * (inject_Z (fst (magnitude m e)) / inject_Z (snd (magnitude m e))))%Q.
Proof.
  cbn [means]. intros H. rewrite H. unfold magnitude. destruct (Z.leb_spec 0 e) as [L | L]; cbn [fst snd].
  - rewrite inject_Z_mult, Zpower_Qpower by lia. change (inject_Z 2) with (2 # 1)%Q. field. 
  - rewrite Zpower_Qpower by lia. change (inject_Z 2) with (2 # 1)%Q. rewrite Qpower_opp.
    assert (~ ((2 # 1) ^ e == 0)%Q) by (apply Qpower_not_0; discriminate). field. assumption.
Qed.
Lemma integral_magnitude s m e : integral (S754_finite s m e) ->
  exists n, fst (magnitude m e) = n * snd (magnitude m e) /\ 0 <= n.
Proof.
  intros [n H]. apply means_magnitude in H. destruct (magnitude_pos m e) as [A B].
  exists (Z.abs n). split; [| lia].
  set (a := fst (magnitude m e)) in *. set (b := snd (magnitude m e)) in *. clearbody a b.
  assert (K : (inject_Z n * inject_Z b == (if s then - 1 else 1) * inject_Z a)%Q).
  { rewrite H. field. intros C. change 0%Q with (inject_Z 0) in C. apply (proj1 (inject_Z_injective b 0)) in C. lia. }
  destruct s.
  - change (- 1)%Q with (inject_Z (-1)) in K. rewrite <- !inject_Z_mult in K. apply (proj1 (inject_Z_injective _ _)) in K.
    rewrite Z.abs_neq by nia. lia.
  - change 1%Q with (inject_Z 1) in K. rewrite <- !inject_Z_mult in K. apply (proj1 (inject_Z_injective _ _)) in K.
    rewrite Z.abs_eq by nia. lia.
Qed.

(** *** Elements *)
Lemma minus_lacks c s : c <> "-"%char -> lacks c (minus s).
Proof. intros H. destruct s; cbn; [split; [congruence | trivial] | trivial]. Qed.
Lemma finite_text s m e : integral (S754_finite s m e) -> exists n, element (-1) (S754_finite s m e) = minus s ++ digits n ++ ".0" /\
  fst (magnitude m e) = n * snd (magnitude m e) /\ 0 <= n.
Proof.
  intros I. destruct (integral_magnitude _ _ _ I) as (n & H & N). exists n. split; [| split; assumption].
  unfold element. cbn [sf_isNaN sf_isInf]. apply integer_text. exact H.
Qed.
Lemma atof_element x : exactly_printed x -> atof (element (-1) x) = x.
Proof.
  intros [-> | [-> | [B I]]]; try reflexivity. destruct x as [s | s | | s m e]; try (destruct I as [n []]; fail).
  - destruct s; reflexivity.
  - destruct (finite_text s m e I) as (n & -> & H & N). rewrite atof_integer by exact N. apply nearest_integer; [exact B | exact H].
Qed.
Lemma element_lacks x c : exactly_printed x -> is_digit c = false -> c <> "-"%char -> c <> "."%char -> c <> "I"%char -> c <> "n"%char ->
  c <> "f"%char -> c <> "N"%char -> c <> "a"%char -> lacks c (element (-1) x).
Proof.
  intros P D M H I1 I2 I3 I4 I5. destruct P as [-> | [-> | [B I]]]; [cbn; repeat split; congruence .. |].
  destruct x as [s | s | | s m e]; try (destruct I as [n []]; fail).
  - assert (Z : c <> "0"%char) by (intros ->; discriminate). destruct s; cbn; repeat split; congruence.
  - destruct (finite_text s m e I) as (n & -> & _ & N). rewrite !lacks_app. split; [apply minus_lacks; exact M |].
    split; [apply all_digits_lacks; [exact D | apply digits_all] |].
    assert (Z : c <> "0"%char) by (intros ->; discriminate). cbn. repeat split; congruence.
Qed.
Lemma element_nonempty x : exactly_printed x -> element (-1) x <> "".
Proof.
  intros P E. pose proof (atof_element x P) as A. rewrite E in A. change (atof "") with (S754_zero false) in A. subst x. discriminate.
Qed.

(** *** Tokens *)
Lemma tokens_comma a r : lacks "," a -> tokens (a ++ String "," r) = a :: tokens r.
Proof.
  induction a as [| c a IH]; cbn [append tokens lacks].
  - intros _. rewrite Ascii.eqb_refl. reflexivity.
  - intros [C A]. rewrite (proj2 (Ascii.eqb_neq c ",") C). rewrite (IH A). reflexivity.
Qed.
Lemma tokens_last a : lacks "," a -> a <> "" -> tokens a = [a].
Proof.
  induction a as [| c a IH]; cbn [tokens lacks]; [congruence |]. intros [C A] _. rewrite (proj2 (Ascii.eqb_neq c ",") C).
  destruct a as [| d a]; [reflexivity |]. rewrite (IH A) by discriminate. reflexivity.
Qed.
(** The texts of the elements after the first one have a space in front. *)
Definition spaced (l : list string) : list string := match l with [] => [] | s :: r => s :: map (String " ") r end.
Lemma tokens_space s : s <> "" -> tokens (String " " s) = match tokens s with t :: l => String " " t :: l | [] => [] end.
Proof.
  intros H. cbn [tokens]. change (Ascii.eqb " " ",") with false. cbv iota.
  destruct (tokens s) as [| t l] eqn:E; [| reflexivity]. exfalso. apply H. destruct s as [| c s]; [reflexivity |].
  cbn [tokens] in E. destruct (Ascii.eqb c ","); [discriminate |]. destruct (tokens s); discriminate.
Qed.
Lemma join_nonempty s l : s <> "" -> join (s :: l) <> "".
Proof. intros H. destruct l; cbn [join]; [exact H |]. destruct s; [congruence | discriminate]. Qed.
Lemma tokens_join l : Forall (fun s => lacks "," s /\ s <> "") l -> tokens (join l) = spaced l.
Proof.
  induction l as [| s l IH]; [reflexivity |]. intros H. inversion_clear H as [| ? ? [A B] F].
  destruct l as [| t l]; [apply tokens_last; assumption |].
  change (join (s :: t :: l)) with (s ++ String "," (String " " (join (t :: l)))). rewrite tokens_comma by exact A.
  cbn [spaced map]. f_equal. rewrite tokens_space. 2: { apply join_nonempty. now inversion F as [| ? ? []]. }
  rewrite IH by exact F. reflexivity.
Qed.

(** *** Parse *)
Lemma bracket_length s : (String.length ("[" ++ s ++ "]") = String.length s + 2)%nat.
Proof. cbn [append String.length]. rewrite length_app. cbn. lia. Qed.
Lemma bracket_last s : last_char ("[" ++ s ++ "]") = Some "]"%char.
Proof.
  unfold last_char. rewrite bracket_length. replace (String.length s + 2 - 1)%nat with (S (String.length s)) by lia.
  cbn [append String.get]. apply get_app.
Qed.
Lemma parse_brackets s : s <> "" -> VectorXd_Parse ("[" ++ s ++ "]") = Ok (map atof (tokens s)).
Proof.
  intros H. unfold VectorXd_Parse. rewrite bracket_last, bracket_length.
  assert (L : (String.length s > 0)%nat) by (destruct s; [congruence | cbn; lia]).
  destruct (Nat.ltb_spec (String.length s + 2) 3) as [C | _]; [lia |].
  cbn [append String.get char_is orb]. rewrite !Ascii.eqb_refl. cbn [negb orb].
  replace (String.length s + 2 - 2)%nat with (String.length s) by lia.
  change (substring 1 (String.length s) (String "[" (s ++ "]"))) with (substring 0 (String.length s) (s ++ "]")).
  rewrite substring_app. reflexivity.
Qed.
Lemma vector_text l : mx_toString (-1) (vector l) = "[" ++ join (map (element (-1)) l) ++ "]".
Proof.
  unfold mx_toString, vector. cbn [mx_cols mx_rows]. rewrite map_map. do 3 f_equal.
Qed.

Lemma c110_integers l : l <> [] -> Forall exactly_printed l -> VectorXd_Parse (mx_toString (-1) (vector l)) = Ok l.
Proof.
  intros N F. rewrite vector_text. rewrite parse_brackets.
  2: { destruct l as [| x l]; [congruence |]. apply join_nonempty. inversion F. now apply element_nonempty. }
  rewrite tokens_join.
  2: { apply Forall_map. eapply Forall_impl; [| exact F]. cbn. intros x P. split; [| now apply element_nonempty].
       apply element_lacks; try discriminate; assumption || reflexivity. }
  f_equal. destruct l as [| x l]; [reflexivity |]. inversion_clear F as [| ? ? P F'].
  cbn [map spaced]. rewrite atof_element by exact P. f_equal. rewrite !map_map.
  induction F' as [| y l Y F' IH]; [reflexivity |]. cbn [map]. rewrite atof_space, atof_element by exact Y. f_equal. apply IH. discriminate.
Qed.
