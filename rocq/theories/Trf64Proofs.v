From Coq Require Import List Bool Arith ZArith Reals Lra Lia Psatz Permutation Floats.SpecFloat.
From Verif Require Import Result AngleModel FloatModel FloatSpec FloatProofs FloatProofs2 FloatProofs3 FloatProofs4 FloatProofs5 FloatProofs7 FloatProofs8 FloatProofs10
  TransfModel Geo64Model Geo64Spec Geo64Proofs Geo64Proofs2 Geo64Proofs3 Geo64Proofs4 Geo64Proofs6 Geo64Proofs8 Rot64Model Rot64Proofs Rot64Proofs7 Mat64Model Mat64Spec Mat64Proofs2 Trf64Model Trf64Spec.
Import ListNotations.
Local Open Scope R_scope.

(** *** Sums *)
Lemma total_ext n f g : (forall k, (k < n)%nat -> f k = g k) -> total n f = total n g.
Proof. induction n as [| n IH]; intros H; cbn [total]; [reflexivity |]. rewrite IH, (H n) by (try lia; intros; apply H; lia). reflexivity. Qed.
Lemma total_le n f g : (forall k, (k < n)%nat -> f k <= g k) -> total n f <= total n g.
Proof. induction n as [| n IH]; intros H; cbn [total]; [lra |]. pose proof (H n ltac:(lia)). pose proof (IH (fun k K => H k ltac:(lia))). lra. Qed.
Lemma total_plus n f g : total n (fun k => f k + g k) = total n f + total n g.
Proof. induction n as [| n IH]; cbn [total]; [ring |]. rewrite IH. ring. Qed.
Lemma total_scale n c f : total n (fun k => c * f k) = c * total n f.
Proof. induction n as [| n IH]; cbn [total]; [ring |]. rewrite IH. ring. Qed.
Lemma total_zero n f : (forall k, (k < n)%nat -> f k = 0) -> total n f = 0.
Proof. induction n as [| n IH]; intros H; cbn [total]; [reflexivity |]. rewrite IH, (H n) by (try lia; intros; apply H; lia). ring. Qed.
Lemma total_nonneg n f : (forall k, (k < n)%nat -> 0 <= f k) -> 0 <= total n f.
Proof. intros H. rewrite <- (total_zero n (fun _ => 0)) by reflexivity. apply total_le. exact H. Qed.
Lemma total_abs n f : Rabs (total n f) <= total n (fun k => Rabs (f k)).
Proof. induction n as [| n IH]; cbn [total]; [rewrite Rabs_R0; lra |]. eapply Rle_trans; [apply Rabs_triang |]. lra. Qed.
Lemma total_one n f i : (i < n)%nat -> (forall k, (k < n)%nat -> k <> i -> f k = 0) -> total n f = f i.
Proof.
  induction n as [| n IH]; intros L H; [lia |]. cbn [total]. destruct (Nat.eq_dec i n) as [-> | N]; [rewrite total_zero by (intros; apply H; lia); ring |]. rewrite IH by (try lia; intros; apply H; lia). rewrite (H n) by lia. ring.
Qed.
Lemma total_member n f i : (i < n)%nat -> (forall k, (k < n)%nat -> 0 <= f k) -> f i <= total n f.
Proof.
  induction n as [| n IH]; intros L H; [lia |]. cbn [total]. pose proof (H n ltac:(lia)). destruct (Nat.eq_dec i n) as [-> | N]; [pose proof (total_nonneg n f (fun k K => H k ltac:(lia))); lra |]. pose proof (IH ltac:(lia) (fun k K => H k ltac:(lia))). lra.
Qed.
Lemma total_swap n m f : total n (fun i => total m (f i)) = total m (fun j => total n (fun i => f i j)).
Proof. induction n as [| n IH]; cbn [total]; [symmetry; apply total_zero; reflexivity |]. rewrite IH, total_plus. reflexivity. Qed.
Lemma rsum_seq_total n f : rsum (map f (seq 0 n)) = total n f.
Proof. induction n as [| n IH]; [reflexivity |]. rewrite seq_S, map_app, rsum_app, IH. cbn [map total plus]. unfold rsum. cbn [fold_right]. ring. Qed.
Lemma tsum_total t n f : adds_all t n -> tsum f t = total n f.
Proof. intros P. rewrite tsum_leaves, (rsum_perm _ _ (Permutation_map _ P)). apply rsum_seq_total. Qed.
Lemma adds_count t n : adds_all t n -> count t = n.
Proof. intros P. rewrite <- count_leaves. rewrite (Permutation_length P). apply seq_length. Qed.
Lemma adds_leaf t n i : adds_all t n -> In i (leaves t) -> (i < n)%nat.
Proof. intros P H. apply (Permutation_in _ P), in_seq in H. lia. Qed.
Lemma adds_nodup t n : adds_all t n -> NoDup (leaves t).
Proof. intros P. apply (Permutation_NoDup (Permutation_sym P)), seq_NoDup. Qed.
Lemma nth_map_seq {A} (f : nat -> A) n i d : (i < n)%nat -> nth i (map f (seq 0 n)) d = f i.
Proof. intros L. rewrite (nth_indep _ d (f 0%nat)) by (rewrite map_length, seq_length; exact L). rewrite map_nth, seq_nth by exact L. reflexivity. Qed.

(** *** Rounded sums of terms known up to an error *)
Lemma P2_910 : 1 <= P2 910 /\ 1000 * P2 910 <= P2 1023.
Proof. split; [rewrite <- P2_0; apply P2_mono; lia |]. apply Rle_trans with (P2 10 * P2 910); [apply Rmult_le_compat_r; [left; apply P2_pos |]; rewrite <- P2_Z by lia; apply IZR_le; lia | rewrite <- P2_add; apply P2_mono; lia]. Qed.
Lemma tree_sum_near t l f g c : 0 <= c <= 100 -> (count t <= 8)%nat ->
  (forall i, In i (leaves t) -> Rabs (f i) <= g i <= P2 910 /\ near64 (nth i l zero64) (f i) (c * e53 * g i + tiny)) ->
  Rabs (tsum f t) <= tsum g t <= INR (count t) * P2 910 /\
  near64 (tree_sum t l) (tsum f t) ((c + 1.001 * (INR (count t) - 1)) * e53 * tsum g t + (2 * INR (count t) - 1) * tiny).
Proof.
  intros Hc. pose proof tiny_pos as PT. pose proof P2_910 as [P1 P9]. pose proof tiny_1 as T1. pose proof e53_pos as PE. induction t as [i | a IHa b IHb]; intros C H; cbn [tsum tree_sum count] in *.
  - destruct (H i (or_introl eq_refl)) as (B & N). cbn [INR]. split; [lra |]. refine (near_le _ _ _ _ N _). lra.
  - rewrite plus_INR. pose proof (count_pos a) as Ca. pose proof (count_pos b) as Cb. assert (Cab : INR (count a) + INR (count b) <= 8) by (rewrite <- plus_INR; apply (le_INR _ 8) in C; cbn in C; lra).
    destruct (IHa ltac:(lia) (fun i Hi => H i (in_or_app _ _ _ (or_introl Hi)))) as (Ba & Na). destruct (IHb ltac:(lia) (fun i Hi => H i (in_or_app _ _ _ (or_intror Hi)))) as (Bb & Nb). clear IHa IHb H.
    set (p := INR (count a)) in *. set (q := INR (count b)) in *. set (x := tsum f a) in *. set (y := tsum f b) in *. set (A := tsum g a) in *. set (B := tsum g b) in *.
    assert (PA : 0 <= A) by (pose proof (Rabs_pos x); lra). assert (PB : 0 <= B) by (pose proof (Rabs_pos y); lra).
    set (Ea := (c + 1.001 * (p - 1)) * e53 * A + (2 * p - 1) * tiny) in *. set (Eb := (c + 1.001 * (q - 1)) * e53 * B + (2 * q - 1) * tiny) in *.
    split; [split; [eapply Rle_trans; [apply Rabs_triang |]; lra | lra] |].
    assert (eA : 0 <= e53 * A) by (apply Rmult_le_pos; lra). assert (eB : 0 <= e53 * B) by (apply Rmult_le_pos; lra).
    assert (GA : Ea <= (c + 1.001 * (p + q - 2)) * e53 * A + (2 * p - 1) * tiny) by (unfold Ea; assert ((c + 1.001 * (p - 1)) * (e53 * A) <= (c + 1.001 * (p + q - 2)) * (e53 * A)) by (apply Rmult_le_compat_r; lra); lra).
    assert (GB : Eb <= (c + 1.001 * (p + q - 2)) * e53 * B + (2 * q - 1) * tiny) by (unfold Eb; assert ((c + 1.001 * (q - 1)) * (e53 * B) <= (c + 1.001 * (p + q - 2)) * (e53 * B)) by (apply Rmult_le_compat_r; lra); lra).
    set (k := c + 1.001 * (p + q - 2)) in *. assert (Hk : 0 <= k * e53 <= / 10000) by (unfold k, e53; lra).
    assert (S1 : Ea + Eb <= k * e53 * (A + B) + (2 * (p + q) - 2) * tiny) by lra.
    assert (SA : k * e53 * (A + B) <= / 10000 * (A + B)) by (apply Rmult_le_compat_r; lra).
    assert (HT : 0 <= (2 * (p + q) - 2) * tiny <= 14) by (split; [apply Rmult_le_pos; lra |]; apply Rle_trans with (14 * 1); [apply Rmult_le_compat; lra | lra]).
    assert (TT : e53 * ((2 * (p + q) - 2) * tiny) <= tiny) by (replace (e53 * ((2 * (p + q) - 2) * tiny)) with (e53 * (2 * (p + q) - 2) * tiny) by ring; rewrite <- (Rmult_1_l tiny) at 2; apply Rmult_le_compat_r; [lra | unfold e53; lra]).
    assert (AB : A + B <= 8 * P2 910) by (apply Rle_trans with ((p + q) * P2 910); [lra | apply Rmult_le_compat_r; lra]).
    refine (near_le _ _ _ _ (near_add _ _ _ _ _ _ A B Na Nb _ _ _) _); [lra | lra | lra |].
    assert (e53 * (A + B + Ea + Eb) <= e53 * (A + B + (/ 10000 * (A + B) + (2 * (p + q) - 2) * tiny))) by (apply Rmult_le_compat_l; lra). unfold k in *. lra.
Qed.
(** A row times a column. *)
Lemma row_near n t f g : (n <= 8)%nat -> adds_all t n ->
  (forall k, (k < n)%nat -> finite64 (f k) /\ finite64 (g k) /\ Rabs (rval (f k) * rval (g k)) <= P2 910) ->
  near64 (row_times n t f g) (total n (fun k => rval (f k) * rval (g k))) (1.002 * INR n * e53 * total n (fun k => Rabs (rval (f k)) * Rabs (rval (g k))) + (2 * INR n - 1) * tiny).
Proof.
  intros L A H. pose proof P2_910 as [P1 P9]. pose proof e53_pos as PE. destruct (tree_sum_near t (map (fun k => b64_mul (f k) (g k)) (seq 0 n)) (fun k => rval (f k) * rval (g k)) (fun k => Rabs (rval (f k)) * Rabs (rval (g k))) 1) as [_ N].
  { lra. } { rewrite (adds_count t n A). exact L. }
  { intros i I. apply (adds_leaf t n i A) in I. destruct (H i I) as (Ff & Fg & B). rewrite nth_map_seq by exact I. rewrite <- Rabs_mult. split; [lra |]. destruct (mul_any (f i) (g i) Ff Fg ltac:(lra)) as [F E]. split; [exact F |]. lra. }
  rewrite (adds_count t n A), !(tsum_total t n _ A) in N. unfold row_times. refine (near_le _ _ _ _ N _).
  assert (0 <= e53 * total n (fun k => Rabs (rval (f k)) * Rabs (rval (g k)))) by (apply Rmult_le_pos; [lra | apply total_nonneg; intros; apply Rmult_le_pos; apply Rabs_pos]).
  pose proof (count_pos t) as CP. rewrite (adds_count t n A) in CP. assert ((1 + 1.001 * (INR n - 1)) * (e53 * total n (fun k => Rabs (rval (f k)) * Rabs (rval (g k)))) <= 1.002 * INR n * (e53 * total n (fun k => Rabs (rval (f k)) * Rabs (rval (g k))))) by (apply Rmult_le_compat_r; lra). lra.
Qed.

(** *** Sums of which all terms but two are zero *)
Lemma add_zero_val x y : finite64 x -> finite64 y -> rval x = 0 \/ rval y = 0 -> Rabs (rval x + rval y) <= P2 1023 -> finite64 (sf_add x y) /\ rval (sf_add x y) = rval x + rval y.
Proof.
  intros Fx Fy Z U. destruct (SFadd_rounded x y Fx Fy U) as [[F N] _]. split; [exact F |]. apply nearest_exact; [split; [exact F | exact N] |]. destruct Z as [Z | Z]; [exists y | exists x]; (split; [assumption | lra]).
Qed.
Definition within_tree (t : sum_tree) (i : nat) : bool := existsb (Nat.eqb i) (leaves t).
Lemma within_tree_spec t i : within_tree t i = true <-> In i (leaves t).
Proof. unfold within_tree. rewrite existsb_exists. split; [intros (x & I & E); apply Nat.eqb_eq in E; subst; exact I | intros I; exists i; split; [exact I | apply Nat.eqb_refl]]. Qed.
Definition pick (t : sum_tree) (f : nat -> R) (i : nat) : R := if within_tree t i then f i else 0.
Lemma rounded_val t z : rounded64 t z -> finite64 z.
Proof. intros [[F _] _]. exact F. Qed.
Lemma rounded_same t z w : rounded64 t z -> finite64 w -> rval w = rval z -> rounded64 t w.
Proof. intros [[F N] E] Fw V. split; [split; [exact Fw |]; rewrite V; exact N |]. rewrite V. exact E. Qed.
Lemma rounded_bound t z : rounded64 t z -> Rabs t <= P2 1023 -> Rabs (rval z) <= P2 1023.
Proof.
  intros [[F N] _] B. apply abs_le in B. assert (R1 : representable (1 * P2 1023)) by (replace (1 * P2 1023) with (IZR (2 ^ 52) * P2 971) by (rewrite P2_Z by lia; rewrite <- P2_add, Rmult_1_l; reflexivity); apply grid_representable; [lia | cbn; lia |]; change (Z.abs (2 ^ 52)) with (2 ^ 52)%Z; rewrite P2_Z by lia; rewrite <- P2_add; apply Rle_refl).
  assert (R2 : representable (- P2 1023)) by (replace (- P2 1023) with (IZR (- 2 ^ 52) * P2 971) by (rewrite opp_IZR, P2_Z by lia; replace (- P2 52 * P2 971) with (- (P2 52 * P2 971)) by ring; rewrite <- P2_add; reflexivity); apply grid_representable; [lia | cbn; lia |]; change (Z.abs (- 2 ^ 52)) with (2 ^ 52)%Z; rewrite P2_Z by lia; rewrite <- P2_add; apply Rle_refl).
  rewrite Rmult_1_l in R1. destruct R1 as (u & Fu & Vu). destruct R2 as (v & Fv & Vv). pose proof (N u Fu) as Nu. pose proof (N v Fv) as Nv. rewrite Vu in Nu. rewrite Vv in Nv. rewrite (Rabs_pos_eq (P2 1023 - t)) in Nu by lra. rewrite (Rabs_left1 (- P2 1023 - t)) in Nv by lra. apply abs_le in Nu. apply abs_le in Nv. apply abs_of. lra.
Qed.
Lemma tree_two t l f i j : NoDup (leaves t) -> i <> j -> (forall k, In k (leaves t) -> finite64 (nth k l zero64) /\ rval (nth k l zero64) = f k) ->
  (forall k, In k (leaves t) -> k <> i -> k <> j -> f k = 0) -> Rabs (f i) <= P2 1023 -> Rabs (f j) <= P2 1023 -> Rabs (f i + f j) <= P2 1023 ->
  finite64 (tree_sum t l) /\ (within_tree t i && within_tree t j = true -> rounded64 (f i + f j) (tree_sum t l)) /\ (within_tree t i && within_tree t j = false -> rval (tree_sum t l) = pick t f i + pick t f j).
Proof.
  intros ND NE H Z Bi Bj Bij. induction t as [k | a IHa b IHb].
  - destruct (H k (or_introl eq_refl)) as [F V]. cbn [tree_sum]. split; [exact F |]. unfold pick, within_tree. cbn [leaves existsb]. rewrite !orb_false_r. destruct (Nat.eqb_spec i k) as [-> | Ni], (Nat.eqb_spec j k) as [-> | Nj]; try contradiction; cbn [andb]; (split; [discriminate |]); intros _; rewrite V; try ring. rewrite (Z k (or_introl eq_refl)) by congruence. ring.
  - cbn [leaves] in *. assert (NDa : NoDup (leaves a)) by (clear - ND; induction (leaves a) as [| x q IH]; [constructor |]; cbn [app] in ND; inversion ND; subst; constructor; [intros I; match goal with N : ~ In _ _ |- _ => apply N, in_or_app; left; exact I end | apply IH; assumption]).
    assert (NDb : NoDup (leaves b)) by (clear - ND; induction (leaves a) as [| x q IH]; [exact ND |]; cbn [app] in ND; inversion ND; subst; apply IH; assumption).
    assert (DJ : forall k, In k (leaves a) -> In k (leaves b) -> False) by (clear - ND; induction (leaves a) as [| x q IH]; intros k Ia Ib; [destruct Ia |]; cbn [app] in ND; inversion ND; subst; destruct Ia as [<- | Ia]; [match goal with N : ~ In _ _ |- _ => apply N, in_or_app; right; exact Ib end | exact (IH ltac:(assumption) k Ia Ib)]).
    destruct (IHa NDa (fun k I => H k (in_or_app _ _ _ (or_introl I))) (fun k I => Z k (in_or_app _ _ _ (or_introl I)))) as (Fa & Ra & Va). destruct (IHb NDb (fun k I => H k (in_or_app _ _ _ (or_intror I))) (fun k I => Z k (in_or_app _ _ _ (or_intror I)))) as (Fb & Rb & Vb). clear IHa IHb.
    assert (W : forall k, within_tree (Node a b) k = within_tree a k || within_tree b k) by (intros k; unfold within_tree; cbn [leaves]; apply existsb_app).
    assert (D : forall k, within_tree a k = true -> within_tree b k = true -> False) by (intros k Ha Hb; apply within_tree_spec in Ha, Hb; exact (DJ k Ha Hb)).
    unfold pick in *. rewrite !W. cbn [tree_sum].
    assert (TR : forall u v, finite64 u -> finite64 v -> rounded64 (f i + f j) u -> rval v = 0 -> finite64 (sf_add u v) /\ rounded64 (f i + f j) (sf_add u v) /\ finite64 (sf_add v u) /\ rounded64 (f i + f j) (sf_add v u)).
    { intros u v Fu Fv Ru Zv. assert (Bu : Rabs (rval u) <= P2 1023) by exact (rounded_bound _ _ Ru Bij). destruct (add_zero_val u v Fu Fv (or_intror Zv) ltac:(rewrite Zv, Rplus_0_r; exact Bu)) as [F1 V1]. destruct (add_zero_val v u Fv Fu (or_introl Zv) ltac:(rewrite Zv, Rplus_0_l; exact Bu)) as [F2 V2].
      rewrite Zv, Rplus_0_r in V1. rewrite Zv, Rplus_0_l in V2. split; [exact F1 |]. split; [exact (rounded_same _ _ _ Ru F1 V1) |]. split; [exact F2 | exact (rounded_same _ _ _ Ru F2 V2)]. }
    destruct (within_tree a i) eqn:Ai, (within_tree b i) eqn:Bi', (within_tree a j) eqn:Aj, (within_tree b j) eqn:Bj'; try (exfalso; first [exact (D i Ai Bi') | exact (D j Aj Bj')]); cbn [andb orb] in *;
    try (pose proof (Va eq_refl) as Ea); try (pose proof (Vb eq_refl) as Eb); try (pose proof (Ra eq_refl) as Sa); try (pose proof (Rb eq_refl) as Sb); clear Va Vb Ra Rb;
        try (destruct (TR _ _ Fa Fb Sa ltac:(lra)) as (F1 & R1 & _); split; [exact F1 |]; split; [intros _; exact R1 | discriminate]);
    try (destruct (TR _ _ Fb Fa Sb ltac:(lra)) as (_ & _ & F1 & R1); split; [exact F1 |]; split; [intros _; exact R1 | discriminate]);
    rewrite ?Rplus_0_l, ?Rplus_0_r in Ea; rewrite ?Rplus_0_l, ?Rplus_0_r in Eb;
    try (assert (U : Rabs (rval (tree_sum a l) + rval (tree_sum b l)) <= P2 1023) by (rewrite Ea, Eb; first [exact Bij | rewrite Rplus_comm; exact Bij]);
      pose proof (SFadd_rounded _ _ Fa Fb U) as RR; rewrite Ea, Eb in RR; try rewrite (Rplus_comm (f j) (f i)) in RR; split; [exact (rounded_val _ _ RR) |]; split; [intros _; exact RR | discriminate]);
    (assert (U : Rabs (rval (tree_sum a l) + rval (tree_sum b l)) <= P2 1023) by (rewrite Ea, Eb, ?Rplus_0_l, ?Rplus_0_r, ?Rabs_R0; first [assumption | left; apply P2_pos]);
      destruct (add_zero_val _ _ Fa Fb ltac:(first [left; exact Ea | right; exact Eb]) U) as [F V]; split; [exact F |]; split; [discriminate |]; intros _; rewrite V, Ea, Eb; ring).
Qed.
