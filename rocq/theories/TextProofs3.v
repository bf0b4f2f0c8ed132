(** Proofs about the texts of vectors, matrices and quaternions: what is accepted, and what the texts tell apart. *)

From Coq Require Import List Bool ZArith NArith QArith Qpower Lia String Ascii Floats.SpecFloat.
From Verif Require Import Result TextModel TextSpec TextProofs TextProofs2.
Import ListNotations.
Local Open Scope string_scope.
Local Open Scope Z_scope.

(** *** What Parse accepts *)
Lemma last_split s c : last_char s = Some c -> exists u, s = u ++ String c "".
Proof.
  unfold last_char. induction s as [| d s IH]; [discriminate |]. cbn [String.length]. replace (S (String.length s) - 1)%nat with (String.length s) by lia.
  destruct s as [| b s]; [cbn; intros [= ->]; exists ""; reflexivity |].
  intros H. destruct IH as [u U]; [cbn [String.length] in *; replace (S (String.length s) - 1)%nat with (String.length s) by lia; exact H |].
  exists (String d u). rewrite app_cons, <- U. reflexivity.
Qed.
Lemma char_is_some c o : char_is c o = true <-> o = Some c.
Proof. destruct o as [d |]; cbn; [| split; discriminate]. rewrite Ascii.eqb_eq. split; [intros ->; reflexivity | intros [= ->]; reflexivity]. Qed.
Lemma parse_cases s :
  (exists u, u <> "" /\ s = "[" ++ u ++ "]" /\ VectorXd_Parse s = Ok (map atof (tokens u)))
  \/ (~ exists u, u <> "" /\ s = "[" ++ u ++ "]") /\ VectorXd_Parse s = Err ERuntime.
Proof.
  destruct (Nat.ltb_spec (String.length s) 3) as [L | L].
  - right. split.
    + intros (u & U & ->). rewrite bracket_length in L. destruct u; [congruence | cbn in L; lia].
    + unfold VectorXd_Parse. replace (Nat.ltb (String.length s) 3) with true by (symmetry; apply Nat.ltb_lt; lia). reflexivity.
  - destruct (char_is "[" (String.get 0 s)) eqn:A; [destruct (char_is "]" (last_char s)) eqn:B |].
    + left. apply char_is_some in A, B. destruct (last_split _ _ B) as [t T].
      destruct t as [| c u]; [subst s; cbn in L; lia |]. subst s. cbn in A. injection A as ->.
      assert (U : u <> "") by (intros ->; cbn in L; lia).
      exists u. split; [exact U |]. split; [reflexivity |]. apply (parse_brackets u U).
    + right. split.
      * intros (u & U & ->). rewrite bracket_last in B. discriminate.
      * unfold VectorXd_Parse. rewrite A, B. rewrite orb_true_r. reflexivity.
    + right. split.
      * intros (u & U & ->). discriminate.
      * unfold VectorXd_Parse. rewrite A. cbn [negb orb]. rewrite orb_true_r. reflexivity.
Qed.
Lemma c111_accepted s : (exists l, VectorXd_Parse s = Ok l) <-> exists u, u <> "" /\ s = "[" ++ u ++ "]".
Proof.
  destruct (parse_cases s) as [(u & U & E & P) | [N P]]; rewrite P.
  - split; [intros _; exists u; auto | eauto].
  - split; [intros [l [=]] | intros H; contradiction].
Qed.
Lemma c111_rejected s : (forall l, VectorXd_Parse s <> Ok l) -> VectorXd_Parse s = Err ERuntime.
Proof. intros H. destruct (parse_cases s) as [(u & U & E & P) | [N P]]; [elim (H _ P) | exact P]. Qed.

Lemma tokens_app a b : ~ ends_with "," a -> a <> "" -> b <> "" -> tokens (a ++ String "," b) = (tokens a ++ tokens b)%list.
Proof.
  induction a as [| c a IH]; intros E A B; [congruence |]. cbn [append tokens].
  destruct (Ascii.eqb_spec c ",") as [-> | C].
  - destruct a as [| d a]; [elim E; exists ""; reflexivity |]. rewrite IH; [reflexivity | | discriminate | exact B].
    intros [r R]. apply E. exists (String "," r). rewrite app_cons, <- R. reflexivity.
  - destruct a as [| d a].
    + cbn [append tokens]. rewrite Ascii.eqb_refl. reflexivity.
    + rewrite IH; [| | discriminate | exact B].
      * destruct (tokens (String d a)) as [| t l] eqn:T; [| reflexivity].
        exfalso. cbn [tokens] in T. destruct (Ascii.eqb d ","); [discriminate |]. destruct (tokens a); discriminate.
      * intros [r R]. apply E. exists (String c r). rewrite app_cons, <- R. reflexivity.
Qed.
Lemma tokens_count s : List.length (tokens s) = (count "," s + (if match last_char s with Some c => Ascii.eqb c "," | None => true end then 0 else 1))%nat.
Proof.
  induction s as [| c s IH]; [reflexivity |]. cbn [tokens count].
  assert (L : s <> "" -> last_char (String c s) = last_char s).
  { intros N. unfold last_char. destruct s as [| d s]; [congruence |]. cbn [String.length]. replace (S (S (String.length s)) - 1)%nat with (S (String.length s)) by lia.
    replace (S (String.length s) - 1)%nat with (String.length s) by lia. reflexivity. }
  destruct (Ascii.eqb_spec c ",") as [-> | C].
  - destruct (ascii_dec "," ",") as [_ | C]; [| congruence]. cbn [List.length].
    destruct s as [| d s]; [reflexivity |]. rewrite L by discriminate. rewrite IH. lia.
  - destruct (ascii_dec c ",") as [C' | _]; [congruence |]. destruct s as [| d s].
    + cbn. rewrite (proj2 (Ascii.eqb_neq c ",") C). reflexivity.
    + rewrite L by discriminate. cbn [Nat.add]. rewrite <- IH.
      destruct (tokens (String d s)) as [| t l] eqn:T; [| reflexivity].
      exfalso. cbn [tokens] in T. destruct (Ascii.eqb d ","); [discriminate |]. destruct (tokens s); discriminate.
Qed.
Lemma ends_last c s : ends_with c s <-> last_char s = Some c.
Proof.
  split; [| intros H; apply last_split in H; exact H]. intros [r ->]. unfold last_char. rewrite length_app. cbn [String.length].
  replace (String.length r + 1 - 1)%nat with (String.length r) by lia. apply get_app.
Qed.
Lemma bracket_inj u v : "[" ++ u ++ "]" = "[" ++ v ++ "]" -> u = v.
Proof.
  cbn [append]. intros [= H]. revert v H. induction u as [| c u IH]; intros [| d v] H; cbn in H; try reflexivity.
  - injection H as -> H. destruct v; discriminate.
  - injection H as -> H. destruct u; discriminate.
  - injection H as -> H. f_equal. apply IH. exact H.
Qed.
Lemma c111_size u l : VectorXd_Parse ("[" ++ u ++ "]") = Ok l ->
  (ends_with "," u -> List.length l = count "," u) /\ (~ ends_with "," u -> List.length l = S (count "," u)).
Proof.
  intros P. destruct (parse_cases ("[" ++ u ++ "]")) as [(v & V & E & Q) | [_ Q]]; [| congruence].
  apply bracket_inj in E. subst v. rewrite Q in P. injection P as <-. rewrite map_length, tokens_count. rewrite ends_last.
  destruct (last_char u) as [c |] eqn:L.
  - destruct (Ascii.eqb_spec c ",") as [-> | C].
    + split; [lia | congruence].
    + split; [congruence | lia].
  - exfalso. unfold last_char in L. destruct u as [| c u]; [congruence |]. clear - L. revert c L. induction u as [| d u IH]; intros c L; [discriminate |].
    apply (IH d). cbn [String.length] in *. replace (S (S (String.length u)) - 1)%nat with (S (String.length u)) in L by lia. cbn [String.get] in L.
    replace (S (String.length u) - 1)%nat with (String.length u) by lia. exact L.
Qed.
Lemma c111_pieces u v l k : ~ ends_with "," u -> VectorXd_Parse ("[" ++ u ++ "]") = Ok l -> VectorXd_Parse ("[" ++ v ++ "]") = Ok k ->
  VectorXd_Parse ("[" ++ u ++ "," ++ v ++ "]") = Ok (l ++ k)%list.
Proof.
  intros E P Q. destruct (parse_cases ("[" ++ u ++ "]")) as [(u' & U & EU & P') | [_ P']]; [| congruence].
  destruct (parse_cases ("[" ++ v ++ "]")) as [(v' & V & EV & Q') | [_ Q']]; [| congruence].
  apply bracket_inj in EU, EV. subst u' v'. rewrite P' in P. rewrite Q' in Q. injection P as <-. injection Q as <-.
  replace ("[" ++ u ++ "," ++ v ++ "]") with ("[" ++ (u ++ String "," v) ++ "]").
  2: { rewrite app_assoc_s. reflexivity. }
  rewrite parse_brackets. 2: { destruct u; discriminate. }
  rewrite tokens_app by assumption. rewrite map_app. reflexivity.
Qed.
Lemma c111_garbage_refuted : exists s l, VectorXd_Parse s = Ok l /\ s = "[foo, bar,]" /\ l = [S754_zero false; S754_zero false].
Proof. exists "[foo, bar,]", [S754_zero false; S754_zero false]. repeat split; vm_compute; reflexivity. Qed.

(** *** Round trips that fail *)
Lemma c110_digits_refuted : exists x y q r, binary64 x /\ means x q /\ means y r /\ ~ (q == r)%Q /\
  VectorXd_Parse (mx_toString (-1) (vector [x])) = Ok [y].
Proof.
  exists (SFadd 53 1024 (nearest10 false 1 (-1)) (nearest10 false 2 (-1))), (nearest10 false 3 (-1)).
  exists (inject_Z 5404319552844596 * (2 # 1) ^ (-54))%Q, (inject_Z 5404319552844595 * (2 # 1) ^ (-54))%Q.
  split; [vm_compute; reflexivity |]. split; [vm_compute; reflexivity |]. split; [vm_compute; reflexivity |].
  split; [intros H; vm_compute in H; discriminate | vm_compute; reflexivity].
Qed.
Lemma c110_infinity_refuted : exists x y, binary64 x /\ VectorXd_Parse (mx_toString (-1) (vector [x])) = Ok [y] /\ y <> x.
Proof. exists (S754_infinity true), (S754_infinity false). split; [reflexivity |]. split; [vm_compute; reflexivity | discriminate]. Qed.
Lemma c110_empty_refuted : exists l, Forall exactly_printed l /\ VectorXd_Parse (mx_toString (-1) (vector l)) = Err ERuntime.
Proof. exists []. split; [constructor | reflexivity]. Qed.

(** *** Quaternions *)
Lemma defined_exact q : q64_isDefined q = true <-> q64_x q <> S754_nan /\ q64_y q <> S754_nan /\ q64_z q <> S754_nan /\ q64_s q <> S754_nan.
Proof.
  unfold q64_isDefined. destruct (q64_x q), (q64_y q), (q64_z q), (q64_s q); cbn; split; try discriminate; try (intros _; repeat split; discriminate); intros (A & B & C & D); congruence.
Qed.
Lemma c112_round_trip q f t : q64_isDefined q = true ->
  Forall exactly_printed [q64_x q; q64_y q; q64_z q; q64_s q] ->
  q64_toString q f = Ok t -> q64_Parse t f = Ok q.
Proof.
  intros D F T. unfold q64_toString, q64_toVector in T. rewrite D in T. cbn [negb] in T.
  assert (P : forall l, l <> [] -> Forall exactly_printed l -> forall u, Ok (mx_toString (-1) (vector l)) = Ok u ->
              String.eqb u "" = false /\ VectorXd_Parse u = Ok l).
  { intros l N G u [= <-]. split; [reflexivity | apply c110_integers; assumption]. }
  inversion_clear F as [| ? ? X F1]. inversion_clear F1 as [| ? ? Y F2]. inversion_clear F2 as [| ? ? Z F3]. inversion_clear F3 as [| ? ? S _].
  unfold q64_Parse. destruct f; cbn [bind] in T.
  - destruct (fun N G => P [q64_x q; q64_y q; q64_z q; q64_s q] N G _ T) as [-> ->]; [discriminate | apply Forall_cons; [assumption |]; apply Forall_cons; [assumption |]; apply Forall_cons; [assumption |]; apply Forall_cons; [assumption | apply Forall_nil] |].
    cbn [bind Quaternion64]. destruct q. reflexivity.
  - destruct (fun N G => P [q64_s q; q64_x q; q64_y q; q64_z q] N G _ T) as [-> ->]; [discriminate | apply Forall_cons; [assumption |]; apply Forall_cons; [assumption |]; apply Forall_cons; [assumption |]; apply Forall_cons; [assumption | apply Forall_nil] |].
    cbn [bind Quaternion64]. destruct q. reflexivity.
Qed.
Lemma c112_other_format q t : q64_isDefined q = true ->
  Forall exactly_printed [q64_x q; q64_y q; q64_z q; q64_s q] ->
  q64_toString q XYZS = Ok t -> q64_Parse t SXYZ = Ok (mkQ64 (q64_y q) (q64_z q) (q64_s q) (q64_x q)).
Proof.
  intros D F T. unfold q64_toString, q64_toVector in T. rewrite D in T. cbn [negb bind] in T. injection T as <-.
  unfold q64_Parse. replace (String.eqb (mx_toString (-1) (vector [q64_x q; q64_y q; q64_z q; q64_s q])) "") with false by reflexivity.
  rewrite c110_integers by (discriminate || exact F). reflexivity.
Qed.
Lemma c112_errors q f : (q64_toString q f = Err EUndefined <-> q64_isDefined q = false) /\ q64_Parse "" f = Err EUndefined.
Proof.
  split; [| reflexivity]. unfold q64_toString, q64_toVector. destruct (q64_isDefined q); cbn [negb bind]; [| split; reflexivity].
  destruct f; cbn [bind]; split; discriminate.
Qed.
Lemma c112_four s f : (exists q, q64_Parse s f = Ok q) <-> exists a b c d, VectorXd_Parse s = Ok [a; b; c; d].
Proof.
  unfold q64_Parse. destruct (String.eqb_spec s "") as [-> | N].
  - split; [intros [q [=]] | intros (a & b & c & d & [=])].
  - destruct (VectorXd_Parse s) as [l | e |]; cbn [bind].
    + split.
      * intros [q H]. destruct l as [| a [| b [| c [| d [| e l]]]]]; try discriminate. exists a, b, c, d. reflexivity.
      * intros (a & b & c & d & [= ->]). eexists. reflexivity.
    + split; [intros [q [=]] | intros (a & b & c & d & [=])].
    + split; [intros [q [=]] | intros (a & b & c & d & [=])].
Qed.
Lemma c112_components a b c d f : q64_isDefined (Quaternion64 a b c d f) = true ->
  q64_toVector (Quaternion64 a b c d f) f = Ok [a; b; c; d].
Proof. intros D. unfold q64_toVector. rewrite D. destruct f; reflexivity. Qed.
Lemma c112_precision q f p : q64_toString_precision None q f = q64_toString q f /\
  (forall v, q64_toVector q f = Ok v -> q64_toString_precision (Some p) q f = Ok (mx_toString p (vector v))).
Proof. split; [reflexivity |]. intros v V. unfold q64_toString_precision. rewrite V. reflexivity. Qed.

(** *** What the texts tell apart *)
(** Texts of numbers: none of ',', '[', ']'. *)
Definition plain (s : string) : Prop := lacks "," s /\ lacks "[" s /\ lacks "]" s.
Lemma plain_app a b : plain a -> plain b -> plain (a ++ b).
Proof. intros (A & B & C) (D & E & F). unfold plain. rewrite !lacks_app. tauto. Qed.
Lemma plain_digits s : all_digits s -> plain s.
Proof. intros H. repeat split; apply all_digits_lacks; assumption || reflexivity. Qed.
Lemma lacks_substring c s : forall n k, lacks c s -> lacks c (substring n k s).
Proof.
  induction s as [| d s IH]; intros n k H; [destruct n, k; exact I |]. destruct H as [D H].
  destruct n; cbn [substring]; [destruct k; [exact I | split; [exact D | now apply IH]] | now apply IH].
Qed.
Lemma lacks_strip c s : lacks c s -> lacks c (strip_zeros s).
Proof.
  induction s as [| d s IH]; [trivial |]. intros [D H]. cbn [strip_zeros]. destruct (strip_zeros s) as [| e r] eqn:E.
  - destruct (Ascii.eqb d "0"); [exact I | split; [exact D | exact I]].
  - split; [exact D | apply IH; exact H].
Qed.
Lemma plain_substring n k s : plain s -> plain (substring n k s).
Proof. intros (A & B & C). repeat split; apply lacks_substring; assumption. Qed.
Lemma plain_strip s : plain s -> plain (strip_zeros s).
Proof. intros (A & B & C). repeat split; apply lacks_strip; assumption. Qed.
Lemma plain_minus s : plain (minus s).
Proof. repeat split; apply minus_lacks; discriminate. Qed.
Lemma plain_pad n s : plain s -> plain (pad n s).
Proof. intros H. apply plain_app; [apply plain_digits, zeros_all | exact H]. Qed.
Lemma plain_const : plain "" /\ plain "." /\ plain "e" /\ plain "-" /\ plain "+" /\ plain "0" /\ plain "0." /\ plain "inf" /\ plain "nan".
Proof. repeat split; discriminate. Qed.
Lemma plain_fraction s : plain s -> plain (fraction s).
Proof.
  intros H. unfold fraction. apply plain_strip in H. destruct (strip_zeros s); [apply plain_const |]. apply plain_app; [apply plain_const | exact H].
Qed.
Lemma plain_fixed p a b : plain (fixed p a b).
Proof.
  unfold fixed. apply plain_app; [apply plain_digits, digits_all |]. destruct (p =? 0); [apply plain_const |].
  apply plain_app; [apply plain_const |]. apply plain_pad, plain_digits, digits_all.
Qed.
Lemma plain_general a b : plain (general15 a b).
Proof.
  unfold general15. destruct (if scaled a b (14 - exponent10 a b) =? 10 ^ 15 then _ else _) as [x d].
  pose proof (plain_digits _ (digits_all d)) as D.
  destruct ((x <? -4) || (15 <=? x))%bool; [| destruct (x <? 0)].
  - apply plain_app; [apply plain_substring, D |]. apply plain_app; [apply plain_fraction, plain_substring, D |].
    apply plain_app; [apply plain_const |]. apply plain_app; [destruct (x <? 0); apply plain_const | apply plain_pad, plain_digits, digits_all].
  - apply plain_app; [apply plain_const |]. apply plain_app; [apply plain_digits, zeros_all | apply plain_strip, D].
  - apply plain_app; [apply plain_substring, D | apply plain_fraction, plain_substring, D].
Qed.
Lemma plain_element p x : plain (element p x).
Proof.
  unfold element. destruct x as [s | s | | s m e]; cbn [sf_isNaN sf_isInf ScalarToString]; try (repeat split; discriminate).
  - destruct (p <? 0).
    + apply plain_app; [apply plain_strip, plain_app; [apply plain_minus | apply plain_fixed] | apply plain_const].
    + apply plain_app; [apply plain_minus | apply plain_fixed].
  - destruct (magnitude m e) as [a b]. destruct ((p <? 0) && is_integer m e)%bool; [| destruct (0 <=? p)].
    + apply plain_app; [apply plain_strip, plain_app; [apply plain_minus | apply plain_fixed] | apply plain_const].
    + apply plain_app; [apply plain_minus | apply plain_fixed].
    + apply plain_app; [apply plain_minus | apply plain_general].
Qed.

Lemma lacks_split c a b r t : lacks c a -> lacks c b -> a ++ String c r = b ++ String c t -> a = b /\ r = t.
Proof.
  revert b. induction a as [| d a IH]; intros [| e b] A B H; cbn in H.
  - injection H as <-. split; reflexivity.
  - injection H as <- _. destruct B as [B _]. congruence.
  - injection H as -> _. destruct A as [A _]. congruence.
  - injection H as -> H. destruct A as [_ A]. destruct B as [_ B]. destruct (IH b A B H) as [-> ->]. split; reflexivity.
Qed.
(** The first of the two delimiters decides. *)
Lemma lacks_split2 c d a b r t : c <> d -> lacks c a -> lacks d a -> lacks c b -> lacks d b -> a ++ String c r <> b ++ String d t.
Proof.
  intros N. revert b. induction a as [| x a IH]; intros [| y b] A1 A2 B1 B2 H; cbn in H.
  - injection H as H _. congruence.
  - injection H as <- _. destruct B1. congruence.
  - injection H as -> _. destruct A2. congruence.
  - injection H as _ H. destruct A1 as [_ A1]. destruct A2 as [_ A2]. destruct B1 as [_ B1]. destruct B2 as [_ B2]. exact (IH b A1 A2 B1 B2 H).
Qed.
Lemma join_inj l : forall k r t, l <> [] -> k <> [] -> Forall plain l -> Forall plain k ->
  join l ++ String "]" r = join k ++ String "]" t -> l = k /\ r = t.
Proof.
  induction l as [| a l IH]; intros k r t L K FL FK H; [congruence |]. destruct k as [| b k]; [congruence |].
  inversion_clear FL as [| ? ? (A1 & A2 & A3) FL']. inversion_clear FK as [| ? ? (B1 & B2 & B3) FK'].
  destruct l as [| a' l], k as [| b' k].
  - destruct (lacks_split "]" a b r t A3 B3 H) as [-> ->]. split; reflexivity.
  - exfalso. change (join (b :: b' :: k)) with (b ++ String "," (String " " (join (b' :: k)))) in H. rewrite app_assoc_s in H.
    cbn [append] in H. exact (lacks_split2 "]" "," a b r _ ltac:(discriminate) A3 A1 B3 B1 H).
  - exfalso. change (join (a :: a' :: l)) with (a ++ String "," (String " " (join (a' :: l)))) in H. rewrite app_assoc_s in H.
    cbn [append] in H. exact (lacks_split2 "," "]" a b _ t ltac:(discriminate) A1 A3 B1 B3 H).
  - change (join (a :: a' :: l)) with (a ++ String "," (String " " (join (a' :: l)))) in H.
    change (join (b :: b' :: k)) with (b ++ String "," (String " " (join (b' :: k)))) in H.
    rewrite !app_assoc_s in H. cbn [append] in H. apply lacks_split in H; [| assumption | assumption]. destruct H as [-> H].
    injection H as H. destruct (IH (b' :: k) r t) as [E ->]; try discriminate; try assumption. rewrite E. split; reflexivity.
Qed.
Lemma plain_map p l : Forall plain (map (element p) l).
Proof. induction l; constructor; [apply plain_element | assumption]. Qed.
Lemma rows_inj p c d rs : forall qs, (1 < c)%nat -> (1 < d)%nat ->
  Forall (fun r => List.length r = c) rs -> Forall (fun r => List.length r = d) qs -> rs <> [] -> qs <> [] ->
  join (map (row_text p c) rs) ++ "]" = join (map (row_text p d) qs) ++ "]" ->
  map (map (element p)) rs = map (map (element p)) qs.
Proof.
  assert (T : forall n r, (1 < n)%nat -> row_text p n r = String "[" (join (map (element p) r) ++ "]")).
  { intros n r N. unfold row_text. replace (Nat.ltb 1 n) with true by (symmetry; apply Nat.ltb_lt; exact N). reflexivity. }
  assert (NE : forall n (r : list spec_float), (1 < n)%nat -> List.length r = n -> map (element p) r <> []).
  { intros n r N L. destruct r; [cbn in L; lia | discriminate]. }
  induction rs as [| a rs IH]; intros qs C D FR FQ NR NQ H; [congruence |]. destruct qs as [| b qs]; [congruence |].
  inversion_clear FR as [| ? ? LA FR']. inversion_clear FQ as [| ? ? LB FQ'].
  assert (S : forall n x l, (1 < n)%nat -> join (map (row_text p n) (x :: l)) ++ "]"
              = String "[" (join (map (element p) x) ++ String "]" (match l with [] => "]" | _ => ", " ++ join (map (row_text p n) l) ++ "]" end))).
  { intros n x l N. destruct l as [| y l].
    - cbn [map join]. rewrite T by exact N. rewrite app_cons, app_assoc_s. reflexivity.
    - change (join (map (row_text p n) (x :: y :: l))) with (row_text p n x ++ ", " ++ join (map (row_text p n) (y :: l))).
      rewrite T by exact N. rewrite app_assoc_s, app_cons, app_assoc_s. reflexivity. }
  rewrite !S in H by assumption. injection H as H. apply join_inj in H; [| exact (NE _ _ C LA) | exact (NE _ _ D LB) | apply plain_map | apply plain_map].
  destruct H as [E H]. cbn [map]. rewrite E. f_equal.
  destruct rs as [| a' rs], qs as [| b' qs]; try reflexivity; cbn [append] in H; try discriminate.
  injection H as H. apply IH; try assumption; discriminate.
Qed.
Lemma one_column p rs : Forall (fun r => List.length r = 1%nat) rs -> exists xs, rs = map (fun x => [x]) xs /\ map (row_text p 1) rs = map (element p) xs.
Proof.
  induction rs as [| r rs IH]; intros F; [exists []; split; reflexivity |]. inversion_clear F as [| ? ? L F']. destruct (IH F') as (xs & -> & E).
  destruct r as [| x [| y r]]; try discriminate. exists (x :: xs). split; [reflexivity |]. cbn [map]. rewrite E. reflexivity.
Qed.
Lemma element_head p x : exists c s, element p x = String c s /\ c <> "["%char \/ element p x = "".
Proof. destruct (element p x) as [| c s] eqn:E; [exists "a"%char, ""; right; reflexivity |]. exists c, s. left. split; [reflexivity |].
  destruct (plain_element p x) as (_ & B & _). rewrite E in B. apply B. Qed.
Lemma c113_unambiguous p r c r' c' a b : (0 < r)%nat -> (0 < c)%nat -> (0 < r')%nat -> (0 < c')%nat ->
  shaped r c a -> shaped r' c' b -> mx_toString p a = mx_toString p b ->
  r = r' /\ c = c' /\ same_texts p a b.
Proof.
  intros R C R' C' (CA & RA & FA) (CB & RB & FB) H. unfold mx_toString in H. cbn [append] in H. injection H as H. rewrite CA, CB in H.
  unfold same_texts. destruct a as [ca ra], b as [cb rb]. cbn [mx_cols mx_rows] in *. subst ca cb.
  assert (NA : ra <> []) by (intros ->; cbn in RA; lia). assert (NB : rb <> []) by (intros ->; cbn in RB; lia).
  assert (G : forall xs, plain (join (map (element p) xs)) -> True) by trivial.
  assert (M : forall xs qs d, xs <> [] -> (1 < d)%nat -> Forall (fun r => List.length r = d) qs -> qs <> [] ->
              join (map (element p) xs) ++ "]" <> join (map (row_text p d) qs) ++ "]").
  { intros xs qs d X D F Q E. destruct qs as [| q qs]; [congruence |]. destruct xs as [| x xs]; [congruence |].
    assert (B : exists t, join (map (row_text p d) (q :: qs)) = String "[" t).
    { cbn [map]. unfold row_text at 1. replace (Nat.ltb 1 d) with true by (symmetry; apply Nat.ltb_lt; exact D).
      destruct (map (row_text p d) qs); cbn [join append]; eexists; reflexivity. }
    destruct B as [t B]. rewrite B in E. cbn [map] in E. destruct (plain_element p x) as (_ & P & _).
    destruct (element p x) as [| h s]; [| destruct P as [P _]; destruct (map (element p) xs); cbn in E; injection E as E _; congruence].
    destruct (map (element p) xs); cbn in E; discriminate. }
  destruct (Nat.eq_dec c 1) as [-> | C1]; [| assert (1 < c)%nat by lia]; (destruct (Nat.eq_dec c' 1) as [-> | C2]; [| assert (1 < c')%nat by lia]).
  - destruct (one_column p ra FA) as (xs & -> & EX). destruct (one_column p rb FB) as (ys & -> & EY). rewrite EX, EY in H.
    apply join_inj in H; [| destruct xs; [cbn in NA; congruence | discriminate] | destruct ys; [cbn in NB; congruence | discriminate] | apply plain_map | apply plain_map].
    destruct H as [H _]. rewrite !map_map. cbn [map].
    assert (L : List.length xs = List.length ys) by (rewrite <- (map_length (element p) xs), H, map_length; reflexivity).
    rewrite !map_length in RA, RB. split; [congruence |]. split; [reflexivity |].
    rewrite <- !(map_map (element p) (fun s => [s])). rewrite H. reflexivity.
  - exfalso. destruct (one_column p ra FA) as (xs & -> & EX). rewrite EX in H. apply (M xs rb c'); try assumption. destruct xs; [cbn in NA; congruence | discriminate].
  - exfalso. destruct (one_column p rb FB) as (ys & -> & EY). rewrite EY in H. symmetry in H. apply (M ys ra c) in H; try assumption. destruct ys; [cbn in NB; congruence | discriminate].
  - pose proof (rows_inj p c c' ra rb ltac:(assumption) ltac:(assumption) FA FB NA NB H) as E. split; [| split; [| exact E]].
    + rewrite <- RA, <- RB, <- (map_length (map (element p)) ra), E, map_length. reflexivity.
    + destruct ra as [| x ra]; [congruence |]. destruct rb as [| y rb]; [congruence |]. cbn [map] in E. injection E as E _.
      inversion_clear FA as [| ? ? LX _]. inversion_clear FB as [| ? ? LY _]. rewrite <- LX, <- LY, <- (map_length (element p) x), E, map_length. reflexivity.
Qed.
Lemma c113_integers r c r' c' a b : (0 < r)%nat -> (0 < c)%nat -> (0 < r')%nat -> (0 < c')%nat ->
  shaped r c a -> shaped r' c' b -> Forall (Forall exactly_printed) (mx_rows a) -> Forall (Forall exactly_printed) (mx_rows b) ->
  (mx_toString (-1) a = mx_toString (-1) b <-> a = b).
Proof.
  intros R C R' C' SA SB FA FB. split; [| intros ->; reflexivity]. intros H.
  destruct (c113_unambiguous (-1) r c r' c' a b R C R' C' SA SB H) as (_ & E & T). unfold same_texts in T.
  destruct SA as (CA & _). destruct SB as (CB & _). destruct a as [ca ra], b as [cb rb]. cbn [mx_cols mx_rows] in *. subst. f_equal.
  assert (I : forall l k, Forall exactly_printed l -> Forall exactly_printed k -> map (element (-1)) l = map (element (-1)) k -> l = k).
  { intros l. induction l as [| x l IH]; intros [| y k] FL FK EM; try discriminate; [reflexivity |]. cbn [map] in EM. injection EM as E1 E2.
    inversion_clear FL as [| ? ? PX FL']. inversion_clear FK as [| ? ? PY FK'].
    rewrite <- (atof_element x PX), E1, (atof_element y PY). f_equal. apply IH; assumption. }
  clear H. revert rb T FB. induction ra as [| x ra IH]; intros [| y rb] T FB; try discriminate; [reflexivity |].
  cbn [map] in T. injection T as T1 T2. inversion_clear FA as [| ? ? PX FA']. inversion_clear FB as [| ? ? PY FB'].
  f_equal; [apply I; assumption | apply IH; assumption].
Qed.
Lemma c113_precision_refuted : exists p a b, shaped 1 1 a /\ shaped 1 1 b /\ Forall (Forall binary64) (mx_rows a) /\ Forall (Forall binary64) (mx_rows b) /\
  mx_toString p a = mx_toString p b /\ a <> b.
Proof.
  exists (-1), (vector [S754_infinity true]), (vector [S754_infinity false]).
  repeat split; try (repeat constructor). discriminate.
Qed.
