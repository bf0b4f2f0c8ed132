From Coq Require Import List Bool ZArith Reals Lra Lia Psatz Floats.SpecFloat.
From Verif Require Import Result Vec Mat3 AngleModel FloatModel FloatSpec FloatProofs FloatProofs2 FloatProofs3 FloatProofs4 FloatProofs5 FloatProofs7 FloatProofs8 FloatProofs10
  Geo64Model Geo64Spec Geo64Proofs Geo64Proofs2 Geo64Proofs3 Geo64Proofs4 Geo64Proofs6 Geo64Proofs8 RotModel RotSpec RotProofs Rot64Model Rot64Spec.
Import ListNotations.
Local Open Scope R_scope.

(** *** Values known up to an error *)
Definition near64 (x : spec_float) (t E : R) : Prop := finite64 x /\ Rabs (rval x - t) <= E.

Lemma near_exact x : finite64 x -> near64 x (rval x) 0.
Proof. intros F. split; [exact F |]. rewrite Rminus_diag_eq by reflexivity. rewrite Rabs_R0. lra. Qed.
Lemma near_le x t E F : near64 x t E -> E <= F -> near64 x t F.
Proof. intros [A B] H. split; [exact A | lra]. Qed.
Lemma near_size x t E A : near64 x t E -> Rabs t <= A -> Rabs (rval x) <= A + E.
Proof. intros [_ H] T. apply abs_le in H. apply abs_le in T. apply abs_of. lra. Qed.
Lemma near_add x y a b E F A B : near64 x a E -> near64 y b F -> Rabs a <= A -> Rabs b <= B -> A + B + E + F <= P2 1023 ->
  near64 (sf_add x y) (a + b) (E + F + e53 * (A + B + E + F)).
Proof.
  intros X Y SA SB H. pose proof (near_size _ _ _ _ X SA) as PX. pose proof (near_size _ _ _ _ Y SB) as PY. destruct X as [X EX], Y as [Y EY].
  assert (S : Rabs (rval x + rval y) <= A + B + E + F) by (eapply Rle_trans; [apply Rabs_triang | lra]).
  destruct (add_any x y X Y ltac:(lra)) as [Z EZ]. split; [exact Z |].
  pose proof e53_pos. apply Rmult_le_compat_l with (r := e53) in S; [| lra]. apply abs_le in EX. apply abs_le in EY. apply abs_le in EZ. apply abs_of. lra.
Qed.
Lemma near_sub x y a b E F A B : near64 x a E -> near64 y b F -> Rabs a <= A -> Rabs b <= B -> A + B + E + F <= P2 1023 ->
  near64 (sf_sub x y) (a - b) (E + F + e53 * (A + B + E + F)).
Proof.
  intros X Y SA SB H. pose proof (near_size _ _ _ _ X SA) as PX. pose proof (near_size _ _ _ _ Y SB) as PY. destruct X as [X EX], Y as [Y EY].
  assert (S : Rabs (rval x - rval y) <= A + B + E + F) by (apply abs_le in PX; apply abs_le in PY; apply abs_of; lra).
  destruct (sub_any x y X Y ltac:(lra)) as [Z EZ]. split; [exact Z |].
  pose proof e53_pos. apply Rmult_le_compat_l with (r := e53) in S; [| lra]. apply abs_le in EX. apply abs_le in EY. apply abs_le in EZ. apply abs_of. lra.
Qed.
Lemma near_mul x y a b E F A B : near64 x a E -> near64 y b F -> Rabs a <= A -> Rabs b <= B -> (A + E) * (B + F) <= P2 1023 ->
  near64 (b64_mul x y) (a * b) (E * B + F * A + E * F + e53 * ((A + E) * (B + F)) + tiny).
Proof.
  intros X Y SA SB H. pose proof (near_size _ _ _ _ X SA) as PX. pose proof (near_size _ _ _ _ Y SB) as PY. destruct X as [X EX], Y as [Y EY].
  assert (S : Rabs (rval x * rval y) <= (A + E) * (B + F)) by (rewrite Rabs_mult; apply Rmult_le_compat; auto using Rabs_pos).
  destruct (mul_any x y X Y ltac:(lra)) as [Z EZ]. split; [exact Z |].
  pose proof e53_pos. apply Rmult_le_compat_l with (r := e53) in S; [| lra].
  replace (rval (b64_mul x y) - a * b) with (rval (b64_mul x y) - rval x * rval y + ((rval x - a) * b + (rval y - b) * a + (rval x - a) * (rval y - b))) by ring.
  eapply Rle_trans; [apply Rabs_triang |]. apply Rle_trans with (e53 * Rabs (rval x * rval y) + tiny + (E * B + F * A + E * F)); [| lra].
  apply Rplus_le_compat; [exact EZ |]. eapply Rle_trans; [apply Rabs_triang |]. apply Rplus_le_compat; [eapply Rle_trans; [apply Rabs_triang |]; apply Rplus_le_compat |];
    rewrite Rabs_mult; apply Rmult_le_compat; auto using Rabs_pos.
Qed.
(** A product of two numbers. *)
Lemma near_prod x y : finite64 x -> finite64 y -> Rabs (rval x * rval y) <= P2 1023 -> near64 (b64_mul x y) (rval x * rval y) (e53 * Rabs (rval x * rval y) + tiny).
Proof. intros X Y H. exact (mul_any x y X Y H). Qed.
Lemma near_opp x t E : near64 x t E -> near64 (SFopp x) (- t) E.
Proof. intros [F H]. split; [apply SFopp_finite; exact F |]. rewrite SFopp_val. replace (- rval x - - t) with (- (rval x - t)) by ring. rewrite Rabs_Ropp. exact H. Qed.
Lemma tiny_small : tiny <= P2 (-1000).
Proof. unfold tiny. apply P2_mono. lia. Qed.
Lemma near_nonneg x t E : near64 x t E -> 0 <= E.
Proof. intros [_ H]. pose proof (Rabs_pos (rval x - t)). lra. Qed.
Lemma near_sum64 r x y z a b c E F G A B C : near64 x a E -> near64 y b F -> near64 z c G -> Rabs a <= A -> Rabs b <= B -> Rabs c <= C ->
  2 * (A + B + C + E + F + G) <= P2 1023 -> near64 (sum64 r x y z) (a + b + c) (E + F + G + 2.01 * e53 * (A + B + C + E + F + G)).
Proof.
  intros X Y Z SA SB SC H. pose proof (near_nonneg _ _ _ X). pose proof (near_nonneg _ _ _ Y). pose proof (near_nonneg _ _ _ Z).
  pose proof (Rabs_pos a). pose proof (Rabs_pos b). pose proof (Rabs_pos c).
  assert (K : e53 * (A + B + C + E + F + G) <= A + B + C + E + F + G) by (unfold e53; lra).
  destruct r; cbn [sum64].
  - pose proof (near_add x y a b E F A B X Y SA SB ltac:(lra)) as N. refine (near_le _ _ _ _ (near_add _ _ _ _ _ _ (A + B) C N Z _ SC _) _).
    + eapply Rle_trans; [apply Rabs_triang | lra].
    + unfold e53 in *. lra.
    + unfold e53. lra.
  - pose proof (near_add y z b c F G B C Y Z SB SC ltac:(lra)) as N. replace (a + b + c) with (a + (b + c)) by ring.
    refine (near_le _ _ _ _ (near_add _ _ _ _ _ _ A (B + C) X N SA _ _) _).
    + eapply Rle_trans; [apply Rabs_triang | lra].
    + unfold e53 in *. lra.
    + unfold e53. lra.
Qed.
Lemma P2_900 : 1 <= P2 900 /\ 64 * P2 900 <= P2 1023.
Proof.
  split; [rewrite <- P2_0; apply P2_mono; lia |].
  replace 64 with (P2 6) by (rewrite <- P2_Z by lia; reflexivity). rewrite <- P2_add. apply P2_mono. lia.
Qed.
Lemma P2_450_sq : P2 450 * P2 450 = P2 900.
Proof. rewrite <- P2_add. reflexivity. Qed.
Lemma tiny_1 : tiny <= 1.
Proof. unfold tiny. rewrite <- P2_0. apply P2_mono. lia. Qed.
Lemma prod_450 x y : Rabs x <= P2 450 -> Rabs y <= P2 450 -> Rabs (x * y) <= P2 900.
Proof. intros. rewrite Rabs_mult, <- P2_450_sq. apply Rmult_le_compat; auto using Rabs_pos. Qed.
Lemma near_prod_450 x y : finite64 x -> finite64 y -> Rabs (rval x) <= P2 450 -> Rabs (rval y) <= P2 450 -> near64 (b64_mul x y) (rval x * rval y) (e53 * Rabs (rval x * rval y) + tiny).
Proof. intros X Y A B. apply near_prod; [exact X | exact Y |]. pose proof (prod_450 _ _ A B). pose proof P2_900. lra. Qed.
(** k a + l b - (c d - e f), as each vector component of a product. *)
Lemma comp_err k a l b c d e f : finite64 k -> finite64 a -> finite64 l -> finite64 b -> finite64 c -> finite64 d -> finite64 e -> finite64 f ->
  Rabs (rval k) <= P2 450 -> Rabs (rval a) <= P2 450 -> Rabs (rval l) <= P2 450 -> Rabs (rval b) <= P2 450 ->
  Rabs (rval c) <= P2 450 -> Rabs (rval d) <= P2 450 -> Rabs (rval e) <= P2 450 -> Rabs (rval f) <= P2 450 ->
  near64 (sf_sub (sf_add (b64_mul k a) (b64_mul l b)) (sf_sub (b64_mul c d) (b64_mul e f)))
    (rval k * rval a + rval l * rval b - (rval c * rval d - rval e * rval f))
    (3.01 * e53 * (Rabs (rval k * rval a) + Rabs (rval l * rval b) + Rabs (rval c * rval d) + Rabs (rval e * rval f)) + 5 * tiny).
Proof.
  intros Fk Fa Fl Fb Fc Fd Fe Ff Bk Ba Bl Bb Bc Bd Be Bf.
  pose proof (near_prod_450 k a Fk Fa Bk Ba) as N1. pose proof (near_prod_450 l b Fl Fb Bl Bb) as N2. pose proof (near_prod_450 c d Fc Fd Bc Bd) as N3. pose proof (near_prod_450 e f Fe Ff Be Bf) as N4.
  pose proof (prod_450 _ _ Bk Ba) as P1. pose proof (prod_450 _ _ Bl Bb) as P2'. pose proof (prod_450 _ _ Bc Bd) as P3. pose proof (prod_450 _ _ Be Bf) as P4.
  set (A := rval k * rval a) in *. set (B := rval l * rval b) in *. set (C := rval c * rval d) in *. set (D := rval e * rval f) in *.
  pose proof (Rabs_pos A). pose proof (Rabs_pos B). pose proof (Rabs_pos C). pose proof (Rabs_pos D). pose proof P2_900 as [T1 T2]. pose proof tiny_1. pose proof tiny_pos.
  assert (S1 : near64 (sf_add (b64_mul k a) (b64_mul l b)) (A + B) (2.005 * e53 * (Rabs A + Rabs B) + 2.1 * tiny)).
  { refine (near_le _ _ _ _ (near_add _ _ _ _ _ _ (Rabs A) (Rabs B) N1 N2 (Rle_refl _) (Rle_refl _) _) _); unfold e53; lra. }
  assert (S2 : near64 (sf_sub (b64_mul c d) (b64_mul e f)) (C - D) (2.005 * e53 * (Rabs C + Rabs D) + 2.1 * tiny)).
  { refine (near_le _ _ _ _ (near_sub _ _ _ _ _ _ (Rabs C) (Rabs D) N3 N4 (Rle_refl _) (Rle_refl _) _) _); unfold e53; lra. }
  refine (near_le _ _ _ _ (near_sub _ _ _ _ _ _ (Rabs A + Rabs B) (Rabs C + Rabs D) S1 S2 (Rabs_triang A B) _ _) _).
  - unfold Rminus. eapply Rle_trans; [apply Rabs_triang |]. rewrite Rabs_Ropp. lra.
  - unfold e53. lra.
  - unfold e53. lra.
Qed.
(** k l - (a b + c d + e f), the scalar part of a product. *)
Lemma scal_err r k l a c : finite64 k -> finite64 l -> finite3 a -> finite3 c -> Rabs (rval k) <= P2 450 -> Rabs (rval l) <= P2 450 -> within3 (P2 450) a -> within3 (P2 450) c ->
  near64 (sf_sub (b64_mul k l) (fdot3 r a c)) (rval k * rval l - dot3 (val3 a) (val3 c))
    (4.02 * e53 * (Rabs (rval k * rval l) + Rabs (rval (fx a) * rval (fx c)) + Rabs (rval (fy a) * rval (fy c)) + Rabs (rval (fz a) * rval (fz c))) + 5 * tiny).
Proof.
  intros Fk Fl (Fa1 & Fa2 & Fa3) (Fc1 & Fc2 & Fc3) Bk Bl (Ba1 & Ba2 & Ba3) (Bc1 & Bc2 & Bc3).
  pose proof (near_prod_450 _ _ Fk Fl Bk Bl) as N1. pose proof (near_prod_450 _ _ Fa1 Fc1 Ba1 Bc1) as N2. pose proof (near_prod_450 _ _ Fa2 Fc2 Ba2 Bc2) as N3. pose proof (near_prod_450 _ _ Fa3 Fc3 Ba3 Bc3) as N4.
  pose proof (prod_450 _ _ Bk Bl) as P1. pose proof (prod_450 _ _ Ba1 Bc1) as P2'. pose proof (prod_450 _ _ Ba2 Bc2) as P3. pose proof (prod_450 _ _ Ba3 Bc3) as P4.
  unfold fdot3, dot3, val3; cbn [vx vy vz].
  set (A := rval k * rval l) in *. set (B := rval (fx a) * rval (fx c)) in *. set (C := rval (fy a) * rval (fy c)) in *. set (D := rval (fz a) * rval (fz c)) in *.
  pose proof (Rabs_pos A). pose proof (Rabs_pos B). pose proof (Rabs_pos C). pose proof (Rabs_pos D). pose proof P2_900 as [T1 T2]. pose proof tiny_1. pose proof tiny_pos.
  assert (S2 : near64 (sum64 r (b64_mul (fx a) (fx c)) (b64_mul (fy a) (fy c)) (b64_mul (fz a) (fz c))) (B + C + D) (3.015 * e53 * (Rabs B + Rabs C + Rabs D) + 3.1 * tiny)).
  { refine (near_le _ _ _ _ (near_sum64 r _ _ _ _ _ _ _ _ _ (Rabs B) (Rabs C) (Rabs D) N2 N3 N4 (Rle_refl _) (Rle_refl _) (Rle_refl _) _) _); unfold e53; lra. }
  refine (near_le _ _ _ _ (near_sub _ _ _ _ _ _ (Rabs A) (Rabs B + Rabs C + Rabs D) N1 S2 (Rle_refl _) _ _) _).
  - eapply Rle_trans; [apply Rabs_triang |]. pose proof (Rabs_triang B C). lra.
  - unfold e53. lra.
  - unfold e53. lra.
Qed.
(** The sums of magnitudes in a product are at most the product of the lengths. *)
Lemma cauchy4 a b c d a' b' c' d' N M : 0 <= N -> 0 <= M -> a * a + b * b + c * c + d * d <= N * N -> a' * a' + b' * b' + c' * c' + d' * d' <= M * M ->
  Rabs (a * a') + Rabs (b * b') + Rabs (c * c') + Rabs (d * d') <= N * M.
Proof.
  intros HN HM H1 H2. rewrite !Rabs_mult.
  assert (Q : forall x, x * x = Rabs x * Rabs x) by (intros x; rewrite <- Rabs_mult; symmetry; apply Rabs_pos_eq; nra).
  rewrite (Q a), (Q b), (Q c), (Q d) in H1. rewrite (Q a'), (Q b'), (Q c'), (Q d') in H2.
  pose proof (Rabs_pos a). pose proof (Rabs_pos b). pose proof (Rabs_pos c). pose proof (Rabs_pos d). pose proof (Rabs_pos a'). pose proof (Rabs_pos b'). pose proof (Rabs_pos c'). pose proof (Rabs_pos d').
  set (A := Rabs a) in *. set (B := Rabs b) in *. set (C := Rabs c) in *. set (D := Rabs d) in *. set (A' := Rabs a') in *. set (B' := Rabs b') in *. set (C' := Rabs c') in *. set (D' := Rabs d') in *.
  clearbody A B C D A' B' C' D'.
  apply Rsqr_incr_0_var; [unfold Rsqr | apply Rmult_le_pos; assumption].
  assert (E : (A * A' + B * B' + C * C' + D * D') * (A * A' + B * B' + C * C' + D * D') <= (A * A + B * B + C * C + D * D) * (A' * A' + B' * B' + C' * C' + D' * D')).
  { pose proof (Rle_0_sqr (A * B' - B * A')). pose proof (Rle_0_sqr (A * C' - C * A')). pose proof (Rle_0_sqr (A * D' - D * A')). pose proof (Rle_0_sqr (B * C' - C * B')). pose proof (Rle_0_sqr (B * D' - D * B')). pose proof (Rle_0_sqr (C * D' - D * C')). unfold Rsqr in *. lra. }
  eapply Rle_trans; [exact E |]. replace (N * M * (N * M)) with ((N * N) * (M * M)) by ring.
  apply Rmult_le_compat; try lra; repeat apply Rplus_le_le_0_compat; apply Rmult_le_pos; assumption.
Qed.
