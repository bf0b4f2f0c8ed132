From Coq Require Import List Bool Arith ZArith Reals Lra Lia Psatz Permutation Floats.SpecFloat.
From Verif Require Import Result AngleModel FloatModel FloatSpec FloatProofs FloatProofs2 FloatProofs3 FloatProofs4 FloatProofs5 FloatProofs7 FloatProofs8 FloatProofs10 TextModel TextProofs6
  Geo64Model Geo64Proofs Geo64Proofs2 Geo64Proofs3 Geo64Proofs4 Geo64Proofs5 Geo64Proofs6 Geo64Proofs8 Rot64Proofs Rot64Proofs6 Mat64Model Mat64Spec Mat64Proofs Mat64Proofs2.
Import ListNotations.
Local Open Scope R_scope.

Definition dsq (p : spec_float * spec_float) : R := (rval (fst p) - rval (snd p)) * (rval (fst p) - rval (snd p)).
Lemma sqdist_sum l k : sqdist l k = rsum (map dsq (combine l k)).
Proof. revert k. induction l as [| x l IH]; intros [| y k]; cbn [sqdist combine map]; try reflexivity. unfold rsum. cbn [fold_right]. fold (rsum (map dsq (combine l k))). rewrite IH. reflexivity. Qed.
Lemma rsum_nonneg l : (forall x, In x l -> 0 <= x) -> 0 <= rsum l.
Proof. unfold rsum. induction l as [| x l IH]; intros H; cbn [fold_right]; [lra |]. pose proof (H x (or_introl eq_refl)). pose proof (IH (fun y I => H y (or_intror I))). lra. Qed.
Lemma elements_length m : well_shaped m -> length (elements m) = mx_size m.
Proof.
  unfold well_shaped, elements, mx_size. destruct m as [c l]. cbn [mx_rows mx_cols]. induction l as [| r l IH]; intros H; [reflexivity |]. cbn [concat length]. rewrite app_length, (H r (or_introl eq_refl)), (IH (fun x I => H x (or_intror I))). reflexivity.
Qed.
(** The norm of the difference of two lists. *)
Lemma norm_near t l k n : length l = n -> length k = n -> (n = 0%nat \/ adds_all t n) -> (Z.of_nat n <= 2 ^ 20)%Z -> (forall x, In x l \/ In x k -> finite64 x /\ Rabs (rval x) <= P2 450) ->
  let v := mx_norm t (map (fun p => sf_sub (fst p) (snd p)) (combine l k)) in
  finite64 v /\ Rabs (rval v - sqrt (sqdist l k)) <= (INR n + 3) * e53 * sqrt (sqdist l k) + P2 (-526).
Proof.
  intros Ll Lk HT HN H v. pose proof e53_pos as PE. pose proof (P2_pos (-526)) as PP. set (c := combine l k). assert (Lc : length c = n) by (unfold c; rewrite combine_length, Ll, Lk; apply Nat.min_id).
  destruct HT as [-> | HT].
  { destruct c as [| p c'] eqn:Ec; [| discriminate Lc]. destruct l as [| x l]; [| discriminate Ll]. unfold v, c in *. cbn [combine map mx_norm sqdist]. rewrite sqrt_0. change (rval (b64_sqrt zero64)) with 0. split; [exact I |]. rewrite Rminus_0_r, Rabs_R0, Rmult_0_r. lra. }
  set (f := fun i => nth i (map dsq c) 0). set (w := map (fun x => b64_mul x x) (map (fun p => sf_sub (fst p) (snd p)) c)).
  assert (NZ : n <> 0%nat). { intros ->. apply Permutation_length in HT. rewrite count_leaves in HT. cbn [seq length] in HT. pose proof (count_pos t) as C. rewrite HT in C. cbn [INR] in C. lra. }
  assert (CT : count t = n) by (rewrite <- count_leaves, (Permutation_length HT); apply seq_length).
  assert (LF : forall i, In i (leaves t) -> 0 <= f i <= P2 902 /\ near64 (nth i w zero64) (f i) (3.1 * e53 * f i + tiny) /\ 0 <= rval (nth i w zero64)).
  { intros i Hi. assert (I : (i < n)%nat) by (apply (Permutation_in _ HT) in Hi; apply in_seq in Hi; lia). unfold f, w. rewrite map_map.
    set (d := (zero64, zero64)). rewrite (nth_indep _ 0 (dsq d)) by (rewrite map_length, Lc; exact I). rewrite map_nth. rewrite (nth_indep _ zero64 ((fun p => b64_mul (sf_sub (fst p) (snd p)) (sf_sub (fst p) (snd p))) d)) by (rewrite map_length, Lc; exact I). rewrite (map_nth (fun p => b64_mul (sf_sub (fst p) (snd p)) (sf_sub (fst p) (snd p)))).
    assert (J : In (nth i c d) c) by (apply nth_In; rewrite Lc; exact I). destruct (nth i c d) as [x y]. cbn [fst snd]. unfold dsq; cbn [fst snd].
    destruct (H x (or_introl (in_combine_l _ _ _ _ J))) as [Fx Bx]. destruct (H y (or_intror (in_combine_r _ _ _ _ J))) as [Fy By]. exact (diff_near x y Fx Fy Bx By). }
  assert (HN' : INR n <= 1048576) by (rewrite INR_IZR_INZ; apply IZR_le; exact HN). assert (N1 : 1 <= INR n) by (rewrite <- CT; apply count_pos).
  destruct (tree_near t w f LF ltac:(rewrite CT; exact HN')) as (P0 & BT & NT). rewrite CT in *.
  assert (TS : tsum f t = sqdist l k) by (rewrite sqdist_sum; fold c; unfold f; apply tsum_all; rewrite map_length, Lc; exact HT). rewrite TS in *. set (T := sqdist l k) in *.
  assert (V : v = b64_sqrt (tree_sum t w)). { unfold v. rewrite norm_squares. fold c w. destruct w as [| y w'] eqn:Ew; [| reflexivity]. apply (f_equal (@length _)) in Ew. unfold w in Ew. rewrite !map_length, Lc in Ew. cbn [length] in Ew. lia. }
  set (h := (2 * INR n - 1) * tiny) in *. pose proof tiny_pos as PT. assert (PH : 0 <= h) by (apply Rmult_le_pos; lra).
  destruct (root_near _ _ (2.1 + 1.001 * INR n) h NT P0 ltac:(lra) ltac:(lra) ltac:(unfold e53; lra) PH) as [Fr Er]. rewrite V. split; [exact Fr |]. eapply Rle_trans; [exact Er |]. pose proof (sqrt_pos T).
  assert (SH : sqrt h <= P2 (-527)).
  { replace (P2 (-527)) with (sqrt (P2 (-1054))) by (replace (P2 (-1054)) with (P2 (-527) * P2 (-527)) by (rewrite <- P2_add; reflexivity); apply sqrt_square, Rlt_le, P2_pos). apply sqrt_le_1_alt. unfold h, tiny. apply Rle_trans with (P2 21 * P2 (-1075)); [apply Rmult_le_compat_r; [apply Rlt_le, P2_pos |] | rewrite <- P2_add; right; reflexivity].
    rewrite <- (P2_Z 21) by lia. change (2 ^ 21)%Z with 2097152%Z. lra. }
  assert (PD : P2 (-526) = 2 * P2 (-527)) by (replace 2 with (P2 1) by (rewrite <- (P2_Z 1) by lia; reflexivity); rewrite <- P2_add; reflexivity). pose proof (P2_pos (-527)). assert (0 <= e53 * sqrt T) by (apply Rmult_le_pos; lra).
  assert ((0.51 * (2.1 + 1.001 * INR n) + 1.01) * (e53 * sqrt T) <= (INR n + 3) * (e53 * sqrt T)) by (apply Rmult_le_compat_r; lra). lra.
Qed.
Lemma c136_near t a b tol : well_shaped a -> well_shaped b -> length (mx_rows a) = length (mx_rows b) -> mx_cols a = mx_cols b -> finite_elements (P2 450) a -> finite_elements (P2 450) b ->
  mx_size a = 0%nat \/ adds_all t (mx_size a) -> (Z.of_nat (mx_size a) <= 2 ^ 20)%Z -> finite64 tol ->
  exists c, mx_isNear t a b tol = Ok c /\ ((1 + (INR (mx_size a) + 3) * P2 (-53)) * distance a b + P2 (-526) <= rval tol -> c = true) /\ (rval tol < (1 - (INR (mx_size a) + 3) * P2 (-53)) * distance a b - P2 (-526) -> c = false).
Proof.
  intros Wa Wb Er Ec Fa Fb HT HN Ft. assert (ES : mx_size a = mx_size b) by (unfold mx_size; rewrite Er, Ec; reflexivity).
  destruct (norm_near t (elements a) (elements b) (mx_size a) (elements_length a Wa) ltac:(rewrite ES; exact (elements_length b Wb)) HT HN) as [Fv E]; [intros x [I | I]; [exact (Fa x I) | exact (Fb x I)] |].
  exists (SFleb (mx_norm t (mx_diff a b)) tol). unfold mx_isNear. rewrite (defined_finite a (fun x I => proj1 (Fa x I))), (defined_finite b (fun x I => proj1 (Fb x I))), ES, Nat.eqb_refl. unfold mx_same_shape. rewrite Er, Ec, !Nat.eqb_refl. cbn [negb orb andb]. split; [reflexivity |].
  unfold mx_diff. fold (elements a) (elements b). unfold distance. rewrite ES in E. rewrite <- e53_P2 in E. apply abs_le in E. split; intros H.
  - apply SFleb_val; [exact Fv | exact Ft | lra].
  - apply not_true_iff_false. intros C. apply SFleb_val in C; [| exact Fv | exact Ft]. lra.
Qed.
Lemma c136_tolerance t a b tol tol' : well_shaped a -> well_shaped b -> length (mx_rows a) = length (mx_rows b) -> mx_cols a = mx_cols b -> finite_elements (P2 450) a -> finite_elements (P2 450) b ->
  mx_size a = 0%nat \/ adds_all t (mx_size a) -> (Z.of_nat (mx_size a) <= 2 ^ 20)%Z -> finite64 tol -> finite64 tol' -> rval tol <= rval tol' -> mx_isNear t a b tol = Ok true -> mx_isNear t a b tol' = Ok true.
Proof.
  intros Wa Wb Er Ec Fa Fb HT HN Ft Ft' L. assert (ES : mx_size a = mx_size b) by (unfold mx_size; rewrite Er, Ec; reflexivity).
  destruct (norm_near t (elements a) (elements b) (mx_size a) (elements_length a Wa) ltac:(rewrite ES; exact (elements_length b Wb)) HT HN) as [Fv _]; [intros x [I | I]; [exact (Fa x I) | exact (Fb x I)] |].
  unfold mx_isNear. rewrite (defined_finite a (fun x I => proj1 (Fa x I))), (defined_finite b (fun x I => proj1 (Fb x I))), ES, Nat.eqb_refl. unfold mx_same_shape. rewrite Er, Ec, !Nat.eqb_refl. cbn [negb orb andb]. unfold mx_diff. fold (elements a) (elements b).
  intros H. injection H as H. f_equal. apply SFleb_val in H; [| exact Fv | exact Ft]. apply SFleb_val; [exact Fv | exact Ft' | lra].
Qed.
