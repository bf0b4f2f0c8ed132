From Coq Require Import List Bool ZArith Reals Lra Lia Psatz Floats.SpecFloat.
From Verif Require Import Result Vec Mat3 VecProofs AngleModel FloatModel FloatSpec FloatProofs FloatProofs2 FloatProofs3 FloatProofs4 FloatProofs5 FloatProofs7 FloatProofs8 FloatProofs10
  Geo3Spec Geo3Proofs Geo3Proofs2 Geo64Model Geo64Spec Geo64Proofs Geo64Proofs2 Geo64Proofs3 Geo64Proofs4 Geo64Proofs5 Geo64Proofs6 Geo64Proofs8 RotModel RotSpec RotProofs Rot64Model Rot64Spec Rot64Proofs Rot64Proofs2 Rot64Proofs3 Rot64Proofs4 Rot64Proofs5.
Import ListNotations.
Local Open Scope R_scope.

(** *** Opposite numbers *)
Lemma mul_opp_l x y : b64_mul (SFopp x) y = SFopp (b64_mul x y).
Proof.
  assert (Q : forall s m e l, binary_round_aux 53 1024 (negb s) m e l = SFopp (binary_round_aux 53 1024 s m e l)).
  { intros s m e l. unfold binary_round_aux. destruct (shr_fexp 53 1024 m e l) as [r e']. destruct (shr_fexp 53 1024 (round_nearest_even (shr_m r) (loc_of_shr_record r)) e' loc_Exact) as [r' e'']. destruct (shr_m r'); try reflexivity. destruct (Zle_bool e'' (1024 - 53)); reflexivity. }
  unfold b64_mul. destruct x as [s | s | | s m e], y as [s' | s' | | s' m' e']; cbn [SFmul SFopp]; try reflexivity; try (destruct s, s'; reflexivity).
  replace (xorb (negb s) s') with (negb (xorb s s')) by (destruct s, s'; reflexivity). apply Q.
Qed.
Lemma mul_opp_r x y : b64_mul x (SFopp y) = SFopp (b64_mul x y).
Proof. rewrite mul_comm64, mul_opp_l, mul_comm64. reflexivity. Qed.
Lemma add_comm_sf x y : sf_add x y = sf_add y x.
Proof.
  unfold sf_add. destruct x as [s | s | | s m e], y as [s' | s' | | s' m' e']; cbn [SFadd]; try reflexivity; try (destruct s, s'; reflexivity).
  rewrite (Z.min_comm e' e), Z.add_comm. reflexivity.
Qed.
Lemma abs_add_opp x y : SFabs (sf_add (SFopp x) (SFopp y)) = SFabs (sf_add x y).
Proof.
  unfold sf_add. destruct x as [s | s | | s m e], y as [s' | s' | | s' m' e']; cbn [SFadd SFopp]; try reflexivity; try (destruct s, s'; reflexivity).
  rewrite (abs_normalize (cond_Zopp s _ + _) _ false false). f_equal. f_equal. destruct s, s'; cbn [negb cond_Zopp]; lia.
Qed.
Lemma add_opp_sub x y : finite64 x -> finite64 y -> sf_add x (SFopp y) = sf_sub x y.
Proof.
  intros Fx Fy. unfold sf_add, sf_sub. destruct x as [s | s | | s m e], y as [s' | s' | | s' m' e']; try contradiction; cbn [SFadd SFsub SFopp]; try reflexivity.
  all: destruct s, s'; try reflexivity; f_equal; cbn [negb cond_Zopp]; lia.
Qed.
Lemma sign_flip a b t : Rabs a = Rabs b -> Rabs (a - t) <= e53 * Rabs t -> Rabs (b - - t) <= e53 * Rabs t -> b = - a.
Proof.
  intros E A B. unfold e53 in *. assert (S : (0 <= t -> 0 <= a /\ b <= 0) /\ (t <= 0 -> a <= 0 /\ 0 <= b)).
  { split; intros T; apply abs_le in A; apply abs_le in B; [rewrite (Rabs_pos_eq t T) in A, B | rewrite (Rabs_left1 t T) in A, B]; lra. }
  destruct S as [S1 S2]. destruct (Rle_dec 0 t) as [T | T].
  - destruct (S1 T) as [H1 H2]. rewrite (Rabs_pos_eq a H1), (Rabs_left1 b H2) in E. lra.
  - destruct (S2 ltac:(lra)) as [H1 H2]. rewrite (Rabs_left1 a H1), (Rabs_pos_eq b H2) in E. lra.
Qed.
Lemma add_zero_val s y : finite64 y -> rval (sf_add (S754_zero s) y) = rval y.
Proof. intros F. unfold sf_add. destruct y as [s' | s' | | s' m' e']; try contradiction; cbn [SFadd]; [destruct s, s'; reflexivity | reflexivity]. Qed.
Definition flip64 (x x' : spec_float) : Prop := finite64 x /\ finite64 x' /\ rval x' = - rval x.
Lemma add_flip x y x' y' : flip64 x x' -> flip64 y y' -> Rabs (rval x + rval y) <= P2 1023 -> flip64 (sf_add x y) (sf_add x' y').
Proof.
  intros (Fx & Fx' & Vx) (Fy & Fy' & Vy) U. destruct (add_any x y Fx Fy U) as [Fs Es].
  assert (U' : Rabs (rval x' + rval y') <= P2 1023) by (rewrite Vx, Vy, <- Ropp_plus_distr, Rabs_Ropp; exact U). destruct (add_any x' y' Fx' Fy' U') as [Fs' Es'].
  split; [exact Fs |]. split; [exact Fs' |].
  destruct (value_unique x' (SFopp x) Fx' (SFopp_finite _ Fx) ltac:(rewrite SFopp_val; exact Vx)) as [Ex | (s & s' & Ex & Ex')].
  - destruct (value_unique y' (SFopp y) Fy' (SFopp_finite _ Fy) ltac:(rewrite SFopp_val; exact Vy)) as [Ey | (s & s' & Ey & Ey')].
    + subst x' y'. apply (sign_flip _ _ (rval x + rval y)); [| exact Es |].
      * rewrite <- (proj2 (abs_val _ Fs)), <- (proj2 (abs_val _ Fs')). rewrite abs_add_opp. reflexivity.
      * rewrite Vx, Vy in Es'. replace (- rval x + - rval y) with (- (rval x + rval y)) in Es' by ring. rewrite Rabs_Ropp in Es'. exact Es'.
    + subst y'. rewrite (add_comm_sf x'), add_zero_val by exact Fx'. assert (exists s'', y = S754_zero s'') as [s'' ->] by (destruct y; try discriminate; eexists; reflexivity). rewrite (add_comm_sf x), add_zero_val by exact Fx. exact Vx.
  - subst x'. rewrite add_zero_val by exact Fy'. assert (exists s'', x = S754_zero s'') as [s'' ->] by (destruct x; try discriminate; eexists; reflexivity). rewrite add_zero_val by exact Fy. exact Vy.
Qed.
Lemma flip_opp x : finite64 x -> flip64 x (SFopp x).
Proof. intros F. split; [exact F |]. split; [apply SFopp_finite, F | apply SFopp_val]. Qed.
Lemma sub_flip x y x' y' : flip64 x x' -> flip64 y y' -> Rabs (rval x - rval y) <= P2 1023 -> flip64 (sf_sub x y) (sf_sub x' y').
Proof.
  intros (Fx & Fx' & Vx) (Fy & Fy' & Vy) U. rewrite <- (add_opp_sub x y Fx Fy), <- (add_opp_sub x' y' Fx' Fy'). apply add_flip.
  - repeat split; assumption.
  - split; [apply SFopp_finite, Fy |]. split; [apply SFopp_finite, Fy' |]. rewrite !SFopp_val, Vy. reflexivity.
  - rewrite SFopp_val. exact U.
Qed.
Lemma sub_swap x y : finite64 x -> finite64 y -> Rabs (rval x - rval y) <= P2 1023 -> flip64 (sf_sub x y) (sf_sub y x).
Proof.
  intros Fx Fy U. rewrite <- (add_opp_sub x y Fx Fy), <- (add_opp_sub y x Fy Fx), (add_comm_sf y). apply add_flip; [apply flip_opp, Fx | | rewrite SFopp_val; exact U].
  split; [apply SFopp_finite, Fy |]. split; [exact Fy |]. rewrite SFopp_val. ring.
Qed.
Definition fb (x : spec_float) (A : R) : Prop := finite64 x /\ Rabs (rval x) <= A.
Lemma fb_mul x y : finite64 x -> finite64 y -> Rabs (rval x) <= P2 450 -> Rabs (rval y) <= P2 450 -> fb (b64_mul x y) (2 * P2 900).
Proof.
  intros Fx Fy Bx By. pose proof (near_prod_450 x y Fx Fy Bx By) as N. pose proof (prod_450 _ _ Bx By) as P. split; [exact (proj1 N) |]. pose proof (near_size _ _ _ _ N P) as S. pose proof tiny_e. pose proof P2_900. unfold e53 in *. lra.
Qed.
Lemma fb_add x y A B : fb x A -> fb y B -> A + B <= P2 1023 -> fb (sf_add x y) (2 * (A + B)).
Proof.
  intros [Fx Bx] [Fy By] U. pose proof (Rabs_triang (rval x) (rval y)) as T. destruct (add_any x y Fx Fy ltac:(lra)) as [F E]. split; [exact F |].
  pose proof (Rabs_triang (rval (sf_add x y) - (rval x + rval y)) (rval x + rval y)) as K. replace (rval (sf_add x y) - (rval x + rval y) + (rval x + rval y)) with (rval (sf_add x y)) in K by ring. pose proof (Rabs_pos (rval x)). pose proof (Rabs_pos (rval y)). unfold e53 in *. lra.
Qed.
Lemma fb_sub x y A B : fb x A -> fb y B -> A + B <= P2 1023 -> fb (sf_sub x y) (2 * (A + B)).
Proof.
  intros Hx [Fy By] U. rewrite <- (add_opp_sub x y (proj1 Hx) Fy). apply fb_add; [exact Hx | | exact U]. split; [apply SFopp_finite, Fy | rewrite SFopp_val, Rabs_Ropp; exact By].
Qed.
Lemma fb_sum x y A B : fb x A -> fb y B -> A + B <= P2 1023 -> Rabs (rval x + rval y) <= P2 1023.
Proof. intros [_ Bx] [_ By] U. pose proof (Rabs_triang (rval x) (rval y)). lra. Qed.
Lemma fb_diff x y A B : fb x A -> fb y B -> A + B <= P2 1023 -> Rabs (rval x - rval y) <= P2 1023.
Proof. intros [_ Bx] [_ By] U. pose proof (Rabs_triang (rval x) (- rval y)) as T. rewrite Rabs_Ropp in T. unfold Rminus. lra. Qed.
Lemma comp_conj k a l b c d e f : finite64 k -> finite64 a -> finite64 l -> finite64 b -> finite64 c -> finite64 d -> finite64 e -> finite64 f ->
  Rabs (rval k) <= P2 450 -> Rabs (rval a) <= P2 450 -> Rabs (rval l) <= P2 450 -> Rabs (rval b) <= P2 450 -> Rabs (rval c) <= P2 450 -> Rabs (rval d) <= P2 450 -> Rabs (rval e) <= P2 450 -> Rabs (rval f) <= P2 450 ->
  rval (sf_sub (sf_add (b64_mul l (SFopp b)) (b64_mul k (SFopp a))) (sf_sub (b64_mul (SFopp d) (SFopp e)) (b64_mul (SFopp f) (SFopp c)))) = - rval (sf_sub (sf_add (b64_mul k a) (b64_mul l b)) (sf_sub (b64_mul c f) (b64_mul e d))).
Proof.
  intros Fk Fa Fl Fb Fc Fd Fe Ff Bk Ba Bl Bb Bc Bd Be Bf. pose proof P2_900 as [T1 T2]. rewrite !mul_opp_r, !mul_opp_l. assert (O : forall x, SFopp (SFopp x) = x) by (intros []; cbn; rewrite ?negb_involutive; reflexivity). rewrite !O.
  rewrite (mul_comm64 d e), (mul_comm64 f c), (add_comm_sf (SFopp (b64_mul l b))).
  pose proof (fb_mul k a Fk Fa Bk Ba) as M1. pose proof (fb_mul l b Fl Fb Bl Bb) as M2. pose proof (fb_mul c f Fc Ff Bc Bf) as M3. pose proof (fb_mul e d Fe Fd Be Bd) as M4.
  apply sub_flip.
  - apply add_flip; [apply flip_opp, M1 | apply flip_opp, M2 |]. apply (fb_sum _ _ _ _ M1 M2). lra.
  - apply sub_swap; [apply M3 | apply M4 |]. apply (fb_diff _ _ _ _ M3 M4). lra.
  - apply (fb_diff _ _ _ _ (fb_add _ _ _ _ M1 M2 ltac:(lra)) (fb_sub _ _ _ _ M3 M4 ltac:(lra))). lra.
Qed.
Lemma c131_conjugate r p q : finite4 p -> finite4 q -> within4 (P2 450) p -> within4 (P2 450) q ->
  exists p' q' w w', q64_conjugate (Some p) = Ok p' /\ q64_conjugate (Some q) = Ok q' /\ q64_mul r (Some p) (Some q) = Ok w /\ q64_mul r (Some q') (Some p') = Ok w' /\
    val4 p' = bar4 (val4 p) /\ val4 w' = bar4 (val4 w).
Proof.
  intros (F1 & F2 & F3 & F4) (G1 & G2 & G3 & G4) (B1 & B2 & B3 & B4) (D1 & D2 & D3 & D4). exists (fconj4 p), (fconj4 q), (fmul4 r p q), (fmul4 r (fconj4 q) (fconj4 p)). do 4 (split; [reflexivity |]). split; [apply conj_val |].
  unfold val4, bar4, fmul4, parts64, fsub3, fadd3, fscale3, fcross3, vec64, fconj4; cbn [q64x q64y q64z q64s fx fy fz qx qy qz qs]. f_equal; try (apply comp_conj; assumption).
  unfold fdot3; cbn [fx fy fz]. rewrite !mul_opp_r, !mul_opp_l. assert (O : forall x, SFopp (SFopp x) = x) by (intros []; cbn; rewrite ?negb_involutive; reflexivity). rewrite !O.
  rewrite (mul_comm64 (q64s q)), (mul_comm64 (q64x q)), (mul_comm64 (q64y q)), (mul_comm64 (q64z q)). reflexivity.
Qed.
Lemma mul_flip x x' y : flip64 x x' -> finite64 y -> finite64 (b64_mul x y) -> flip64 (b64_mul x y) (b64_mul x' y).
Proof.
  intros (Fx & Fx' & Vx) Fy Fm. destruct (value_unique x' (SFopp x) Fx' (SFopp_finite _ Fx) ltac:(rewrite SFopp_val; exact Vx)) as [-> | (s & s' & Ex & Ex')].
  - rewrite mul_opp_l. apply flip_opp, Fm.
  - assert (V0 : rval x' = 0) by (rewrite Ex; reflexivity). destruct (zero_mul x y Fx Fy ltac:(lra)) as [A B]. destruct (zero_mul x' y Fx' Fy V0) as [C D]. split; [exact A |]. split; [exact C |]. lra.
Qed.
Lemma flip_r x y y' : flip64 y y' -> finite64 x -> finite64 (b64_mul x y) -> flip64 (b64_mul x y) (b64_mul x y').
Proof. intros H Fx Fm. rewrite (mul_comm64 x y), (mul_comm64 x y'). apply mul_flip; [exact H | exact Fx | rewrite mul_comm64; exact Fm]. Qed.
Lemma comp_sign k a l b c d e f a' l' c' e' : flip64 a a' -> flip64 l l' -> flip64 c c' -> flip64 e e' -> finite64 k -> finite64 b -> finite64 d -> finite64 f ->
  Rabs (rval k) <= P2 450 -> Rabs (rval a) <= P2 450 -> Rabs (rval l) <= P2 450 -> Rabs (rval b) <= P2 450 -> Rabs (rval c) <= P2 450 -> Rabs (rval d) <= P2 450 -> Rabs (rval e) <= P2 450 -> Rabs (rval f) <= P2 450 ->
  rval (sf_sub (sf_add (b64_mul k a') (b64_mul l' b)) (sf_sub (b64_mul c' f) (b64_mul e' d))) = - rval (sf_sub (sf_add (b64_mul k a) (b64_mul l b)) (sf_sub (b64_mul c f) (b64_mul e d))).
Proof.
  intros La Ll Lc Le Fk Fb Fd Ff Bk Ba Bl Bb Bc Bd Be Bf. pose proof P2_900 as [T1 T2].
  pose proof (fb_mul k a Fk (proj1 La) Bk Ba) as M1. pose proof (fb_mul l b (proj1 Ll) Fb Bl Bb) as M2. pose proof (fb_mul c f (proj1 Lc) Ff Bc Bf) as M3. pose proof (fb_mul e d (proj1 Le) Fd Be Bd) as M4.
  apply sub_flip.
  - apply add_flip; [apply flip_r; [exact La | exact Fk | apply M1] | apply mul_flip; [exact Ll | exact Fb | apply M2] |]. apply (fb_sum _ _ _ _ M1 M2). lra.
  - apply sub_flip; [apply mul_flip; [exact Lc | exact Ff | apply M3] | apply mul_flip; [exact Le | exact Fd | apply M4] |]. apply (fb_diff _ _ _ _ M3 M4). lra.
  - apply (fb_diff _ _ _ _ (fb_add _ _ _ _ M1 M2 ltac:(lra)) (fb_sub _ _ _ _ M3 M4 ltac:(lra))). lra.
Qed.
Lemma sum_flip r a b c a' b' c' A : flip64 a a' -> flip64 b b' -> flip64 c c' -> fb a A -> fb b A -> fb c A -> 16 * A <= P2 1023 -> flip64 (sum64 r a b c) (sum64 r a' b' c') /\ fb (sum64 r a b c) (10 * A).
Proof.
  intros La Lb Lc Ba Bb Bc U. assert (0 <= A) by (destruct Ba as [_ Ba]; pose proof (Rabs_pos (rval a)); lra). destruct r; cbn [sum64].
  - pose proof (fb_add _ _ _ _ Ba Bb ltac:(lra)) as M. split; [apply add_flip; [apply add_flip; [exact La | exact Lb | apply (fb_sum _ _ _ _ Ba Bb); lra] | exact Lc | apply (fb_sum _ _ _ _ M Bc); lra] |].
    pose proof (fb_add _ _ _ _ M Bc ltac:(lra)) as [X Y]. split; [exact X | lra].
  - pose proof (fb_add _ _ _ _ Bb Bc ltac:(lra)) as M. split; [apply add_flip; [exact La | apply add_flip; [exact Lb | exact Lc | apply (fb_sum _ _ _ _ Bb Bc); lra] | apply (fb_sum _ _ _ _ Ba M); lra] |].
    pose proof (fb_add _ _ _ _ Ba M ltac:(lra)) as [X Y]. split; [exact X | lra].
Qed.
Lemma c131_sign r p p' q : finite4 p -> finite4 p' -> finite4 q -> within4 (P2 450) p -> within4 (P2 450) q -> val4 p' = negq (val4 p) ->
  exists w w', q64_mul r (Some p) (Some q) = Ok w /\ q64_mul r (Some p') (Some q) = Ok w' /\ val4 w' = negq (val4 w).
Proof.
  intros (F1 & F2 & F3 & F4) (F1' & F2' & F3' & F4') (G1 & G2 & G3 & G4) (B1 & B2 & B3 & B4) (D1 & D2 & D3 & D4) V. exists (fmul4 r p q), (fmul4 r p' q). do 2 (split; [reflexivity |]).
  pose proof (f_equal qx V) as Vx. pose proof (f_equal qy V) as Vy. pose proof (f_equal qz V) as Vz. pose proof (f_equal qs V) as Vs. unfold val4, negq in Vx, Vy, Vz, Vs; cbn [qx qy qz qs] in Vx, Vy, Vz, Vs.
  assert (L1 : flip64 (q64x p) (q64x p')) by (repeat split; assumption). assert (L2 : flip64 (q64y p) (q64y p')) by (repeat split; assumption). assert (L3 : flip64 (q64z p) (q64z p')) by (repeat split; assumption). assert (L4 : flip64 (q64s p) (q64s p')) by (repeat split; assumption).
  unfold val4, negq, fmul4, parts64, fsub3, fadd3, fscale3, fcross3, vec64; cbn [q64x q64y q64z q64s fx fy fz qx qy qz qs]. f_equal; try (apply comp_sign; assumption).
  pose proof P2_900 as [T1 T2]. unfold fdot3; cbn [fx fy fz].
  pose proof (fb_mul _ _ F1 G1 B1 D1) as M1. pose proof (fb_mul _ _ F2 G2 B2 D2) as M2. pose proof (fb_mul _ _ F3 G3 B3 D3) as M3. pose proof (fb_mul _ _ F4 G4 B4 D4) as M4.
  destruct (sum_flip r _ _ _ _ _ _ _ (mul_flip _ _ _ L1 G1 (proj1 M1)) (mul_flip _ _ _ L2 G2 (proj1 M2)) (mul_flip _ _ _ L3 G3 (proj1 M3)) M1 M2 M3 ltac:(lra)) as [S1 S2].
  apply sub_flip; [apply mul_flip; [exact L4 | exact G4 | apply M4] | exact S1 |]. apply (fb_diff _ _ _ _ M4 S2). lra.
Qed.

(** *** Equality *)
Lemma c131_equal p q : finite4 p -> finite4 q -> (q64_eq (Some p) (Some q) = true <-> same_up_to_sign (val4 p) (val4 q)).
Proof.
  intros (F1 & F2 & F3 & F4) (G1 & G2 & G3 & G4). unfold q64_eq. rewrite orb_true_iff, !andb_true_iff, !SFeqb_val by (try apply SFopp_finite; assumption). rewrite !SFopp_val. unfold same_up_to_sign, val4, negq; cbn [qx qy qz qs]. split.
  - intros [[[[-> ->] ->] ->] | [[[-> ->] ->] ->]]; [left | right]; reflexivity.
  - intros [E | E]; [left | right]; injection E as -> -> -> ->; repeat split.
Qed.
(** *** Whole components *)
Lemma mul24 a b : (Z.abs a <= 2 ^ 24 -> Z.abs b <= 2 ^ 24 -> Z.abs (a * b) <= 2 ^ 48)%Z.
Proof. exact (abs_mul_le a b (2 ^ 24) (2 ^ 24)). Qed.
Definition ib (x : spec_float) (n N : Z) : Prop := isint x n /\ (Z.abs n <= N)%Z.
Lemma ib_mul x y a b : ib x a (2 ^ 24) -> ib y b (2 ^ 24) -> ib (b64_mul x y) (a * b) (2 ^ 48).
Proof. intros [X A] [Y B]. pose proof (mul24 a b A B). split; [apply isint_mul; [assumption | assumption | lia] | assumption]. Qed.
Lemma ib_add x y a b N M : ib x a N -> ib y b M -> (N + M <= 2 ^ 53)%Z -> ib (sf_add x y) (a + b) (N + M).
Proof. intros [X A] [Y B] U. split; [apply isint_add; [assumption | assumption | lia] | lia]. Qed.
Lemma ib_sub x y a b N M : ib x a N -> ib y b M -> (N + M <= 2 ^ 53)%Z -> ib (sf_sub x y) (a - b) (N + M).
Proof. intros [X A] [Y B] U. split; [apply isint_sub; [assumption | assumption | lia] | lia]. Qed.
Lemma ib_sum r x y z a b c N : ib x a N -> ib y b N -> ib z c N -> (3 * N <= 2 ^ 53)%Z -> ib (sum64 r x y z) (a + b + c) (3 * N).
Proof.
  intros X Y Z U. assert (0 <= N)%Z by (destruct X; lia). destruct r; cbn [sum64].
  - pose proof (ib_add _ _ _ _ _ _ (ib_add _ _ _ _ _ _ X Y ltac:(lia)) Z ltac:(lia)) as [P Q]. split; [exact P | lia].
  - pose proof (ib_add _ _ _ _ _ _ X (ib_add _ _ _ _ _ _ Y Z ltac:(lia)) ltac:(lia)) as [P Q]. rewrite Z.add_assoc in P, Q. split; [exact P | lia].
Qed.
Lemma c131_whole r p q : finite4 p -> finite4 q -> whole4 (2 ^ 24) p -> whole4 (2 ^ 24) q ->
  exists w, q64_mul r (Some p) (Some q) = Ok w /\ finite4 w /\ val4 w = hamilton (val4 q) (val4 p).
Proof.
  intros (F1 & F2 & F3 & F4) (G1 & G2 & G3 & G4) ((a & Va & Ba) & (b & Vb & Bb) & (c & Vc & Bc) & (d & Vd & Bd)) ((a' & Va' & Ba') & (b' & Vb' & Bb') & (c' & Vc' & Bc') & (d' & Vd' & Bd')).
  exists (fmul4 r p q). split; [reflexivity |].
  assert (I1 : ib (q64x p) a (2 ^ 24)) by (repeat split; assumption). assert (I2 : ib (q64y p) b (2 ^ 24)) by (repeat split; assumption). assert (I3 : ib (q64z p) c (2 ^ 24)) by (repeat split; assumption). assert (I4 : ib (q64s p) d (2 ^ 24)) by (repeat split; assumption).
  assert (J1 : ib (q64x q) a' (2 ^ 24)) by (repeat split; assumption). assert (J2 : ib (q64y q) b' (2 ^ 24)) by (repeat split; assumption). assert (J3 : ib (q64z q) c' (2 ^ 24)) by (repeat split; assumption). assert (J4 : ib (q64s q) d' (2 ^ 24)) by (repeat split; assumption).
  assert (C : forall k m l n u v w t K M L N U V W T, ib k K (2 ^ 24) -> ib m M (2 ^ 24) -> ib l L (2 ^ 24) -> ib n N (2 ^ 24) -> ib u U (2 ^ 24) -> ib v V (2 ^ 24) -> ib w W (2 ^ 24) -> ib t T (2 ^ 24) ->
    isint (sf_sub (sf_add (b64_mul k m) (b64_mul l n)) (sf_sub (b64_mul u v) (b64_mul w t))) (K * M + L * N - (U * V - W * T))).
  { intros. exact (proj1 (ib_sub _ _ _ _ _ _ (ib_add _ _ _ _ _ _ (ib_mul k m K M ltac:(assumption) ltac:(assumption)) (ib_mul l n L N ltac:(assumption) ltac:(assumption)) ltac:(lia)) (ib_sub _ _ _ _ _ _ (ib_mul u v U V ltac:(assumption) ltac:(assumption)) (ib_mul w t W T ltac:(assumption) ltac:(assumption)) ltac:(lia)) ltac:(lia))). }
  unfold finite4, val4, hamilton, fmul4, parts64, fsub3, fadd3, fscale3, fcross3, fdot3, vec64; cbn [q64x q64y q64z q64s fx fy fz qx qy qz qs].
  destruct (C _ _ _ _ _ _ _ _ _ _ _ _ _ _ _ _ J4 I1 I4 J1 I2 J3 I3 J2) as [X1 Y1]. destruct (C _ _ _ _ _ _ _ _ _ _ _ _ _ _ _ _ J4 I2 I4 J2 I3 J1 I1 J3) as [X2 Y2]. destruct (C _ _ _ _ _ _ _ _ _ _ _ _ _ _ _ _ J4 I3 I4 J3 I1 J2 I2 J1) as [X3 Y3].
  destruct (proj1 (ib_sub _ _ _ _ _ _ (ib_mul _ _ _ _ I4 J4) (ib_sum r _ _ _ _ _ _ _ (ib_mul _ _ _ _ I1 J1) (ib_mul _ _ _ _ I2 J2) (ib_mul _ _ _ _ I3 J3) ltac:(lia)) ltac:(lia))) as [X4 Y4].
  split; [repeat split; assumption |]. rewrite Y1, Y2, Y3, Y4. repeat rewrite ?minus_IZR, ?plus_IZR, ?mult_IZR. rewrite Va, Vb, Vc, Vd, Va', Vb', Vc', Vd'. f_equal; ring.
Qed.
