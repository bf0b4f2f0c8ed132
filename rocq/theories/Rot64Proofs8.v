From Coq Require Import List Bool ZArith Reals Lra Lia Psatz Floats.SpecFloat.
From Verif Require Import Result Vec Mat3 VecProofs AngleModel FloatModel FloatSpec FloatProofs FloatProofs2 FloatProofs3 FloatProofs4 FloatProofs5 FloatProofs7 FloatProofs8 FloatProofs10
  Geo3Spec Geo3Proofs Geo3Proofs2 Geo64Model Geo64Spec Geo64Proofs Geo64Proofs2 Geo64Proofs3 Geo64Proofs4 Geo64Proofs5 Geo64Proofs6 Geo64Proofs8 RotModel RotSpec RotProofs Rot64Model Rot64Spec Rot64Proofs Rot64Proofs2 Rot64Proofs3 Rot64Proofs4 Rot64Proofs5 Rot64Proofs6 Rot64Proofs7.
Import ListNotations.
Local Open Scope R_scope.

(** *** Counterexamples *)
Definition tenth64 : spec_float := S754_finite false 7205759403792794 (-56).
Definition fifth64 : spec_float := S754_finite false 7205759403792794 (-55).
Definition third64 : spec_float := S754_finite false 5404319552844595 (-54).
Definition scalar64 (x : spec_float) : f4 := F4 zero64 zero64 zero64 x.
Lemma c131_associative_refuted : exists p q w, finite4 p /\ finite4 q /\ finite4 w /\ forall r, exists x y,
  (let! pq := q64_mul r (Some p) (Some q) in q64_mul r (Some pq) (Some w)) = Ok x /\ (let! qw := q64_mul r (Some q) (Some w) in q64_mul r (Some p) (Some qw)) = Ok y /\ q64_eq (Some x) (Some y) = false.
Proof.
  exists (scalar64 tenth64), (scalar64 fifth64), (scalar64 third64). do 3 (split; [repeat split; vm_compute; intros; discriminate || exact I || reflexivity |]).
  intros r. destruct r; (eexists; eexists; split; [vm_compute; reflexivity | split; [vm_compute; reflexivity | vm_compute; reflexivity]]).
Qed.
Lemma c131_inverse_refuted : exists q, finite4 q /\ forall r eps, finite64 eps -> rval eps <= 1 -> exists i x, q64_inverse eps (Some q) = Ok i /\ q64_mul r (Some q) (Some i) = Ok x /\ q64_eq (Some x) (Some q64_Unit) = false.
Proof.
  exists (scalar64 (b64_of_Z 49)). split; [repeat split; vm_compute; intros; discriminate || exact I || reflexivity |]. intros r eps Fe He.
  exists (finv4 (scalar64 (b64_of_Z 49))). eexists. split.
  - unfold q64_inverse. cbn [need3 bind]. replace (SFltb (SFabs (fdot4 (scalar64 (b64_of_Z 49)) (scalar64 (b64_of_Z 49)))) eps) with false; [reflexivity |].
    symmetry. replace (SFabs (fdot4 (scalar64 (b64_of_Z 49)) (scalar64 (b64_of_Z 49)))) with (b64_of_Z 2401) by (vm_compute; reflexivity). destruct (of_Z_val 2401 ltac:(lia)) as [F V]. apply ltb_f; [exact F | exact Fe | rewrite V; lra].
  - split; [reflexivity |]. destruct r; vm_compute; reflexivity.
Qed.
Definition start133 : f4 := F4 (b64_of_Z 1) (b64_of_Z 3) (b64_of_Z 3) zero64.
Definition unit133 : f4 := Eval vm_compute in fnormal4 start133.
Definition fifth_power (r : order) (q : f4) : f4 := fmul4 r (fmul4 r (fmul4 r (fmul4 r q q) q) q) q.
Definition ten64 : spec_float := S754_finite false 5629499534213120 (-102).
Lemma ten_val : finite64 ten64 /\ rval ten64 = 10 * e53.
Proof.
  split; [vm_compute; repeat split; reflexivity || discriminate |]. unfold ten64. rewrite rval_sg. cbn [sg]. replace (P2 (-102)) with (P2 (-49) * e53) by (rewrite <- e53_P2, <- P2_add; reflexivity).
  rewrite P2_m by lia. change (2 ^ (- -49))%Z with 562949953421312%Z. lra.
Qed.
Lemma ten_53 : 10 * P2 (-53) = 10 * e53.
Proof. rewrite e53_P2. reflexivity. Qed.
Lemma normalize_eq eps q u : q64_normalize eps (Some q) = Ok u -> u = fnormal4 q.
Proof. unfold q64_normalize. cbn [need3 bind]. destruct (SFltb _ _); [discriminate |]. intros E. injection E as <-. reflexivity. Qed.
Lemma c132_power_refuted : exists p, finite4 p /\ forall r eps v, finite64 eps -> P2 (-50) <= rval eps < 10 * P2 (-53) ->
  exists q q2 q3 q4 q5, q64_normalize eps (Some p) = Ok q /\ q64_isUnitary (Some q) (Some eps) = Ok true /\
    q64_mul r (Some q) (Some q) = Ok q2 /\ q64_mul r (Some q2) (Some q) = Ok q3 /\ q64_mul r (Some q3) (Some q) = Ok q4 /\ q64_mul r (Some q4) (Some q) = Ok q5 /\
    q64_isUnitary (Some q5) (Some eps) = Ok false /\ q64_rotateVector r (Some q5) (Some v) (Some eps) = Err ERuntime.
Proof.
  exists start133. split; [vm_compute; repeat split; reflexivity || discriminate |]. intros r eps v Fe He. rewrite ten_53, <- e50 in He.
  assert (F0 : finite4 start133) by (vm_compute; repeat split; reflexivity || discriminate).
  destruct (of_Z_val 1 ltac:(lia)) as [O1 V1]. destruct (of_Z_val 3 ltac:(lia)) as [O3 V3].
  assert (LS : sq (val4 start133) = 19) by (unfold sq, val4, start133; cbn [qx qy qz qs q64x q64y q64z q64s]; rewrite V1, V3; change (rval zero64) with 0; ring).
  assert (L : 4 <= len4 (val4 start133) <= 5) by (pose proof (len4_sq (val4 start133)) as Q; rewrite LS in Q; pose proof (len4_pos (val4 start133)); nra).
  assert (B0 : within4 (P2 450) start133) by (apply within_len; [exact F0 |]; pose proof (P2_mono 3 450 ltac:(lia)) as M; rewrite <- (P2_Z 3) in M by lia; change (IZR (2 ^ 3)) with 8 in M; lra).
  assert (L0 : P2 (-450) <= len4 (val4 start133)) by (pose proof (P2_mono (-450) 0 ltac:(lia)) as M; rewrite P2_0 in M; lra).
  destruct (c132_normalize eps start133 Fe F0 B0 L0) as [NA _]. destruct (NA ltac:(rewrite <- e51; unfold e53 in *; lra)) as (u & E & Fu & _ & U).
  assert (u = unit133). { rewrite (normalize_eq _ _ _ E). vm_compute. reflexivity. }
  subst u. exists unit133, (fmul4 r unit133 unit133), (fmul4 r (fmul4 r unit133 unit133) unit133), (fmul4 r (fmul4 r (fmul4 r unit133 unit133) unit133) unit133), (fifth_power r unit133). split; [exact E |]. split; [apply U; [exact Fe | rewrite <- e50; lra] |]. unfold q64_mul. cbn [need3 bind]. do 3 (split; [reflexivity |]). split; [unfold fifth_power; reflexivity |].
  assert (HF : q64_isUnitary (Some (fifth_power r unit133)) (Some eps) = Ok false).
  { unfold q64_isUnitary. cbn [need3 bind]. replace (SFleb eps zero64) with false by (symmetry; apply not_true_is_false; intros H; apply SFleb_val in H; [change (rval zero64) with 0 in H; unfold e53 in *; lra | exact Fe | exact I]). f_equal.
    replace (SFabs (sf_sub (fnorm4 (fifth_power r unit133)) one_64)) with ten64 by (destruct r; vm_compute; reflexivity). destruct ten_val as [T1 T2].
    apply not_true_is_false. intros H. apply SFleb_val in H; [| exact T1 | exact Fe]. rewrite T2 in H. lra. }
  split; [exact HF |]. unfold q64_rotateVector. cbn [need3 bind]. rewrite HF. reflexivity.
Qed.

(** *** Errors *)
Lemma c131_errors r eps (p : option f4) k :
  q64_mul r None p = Err EUndefined /\ q64_mul r p None = Err EUndefined /\ q64_add None p = Err EUndefined /\ q64_add p None = Err EUndefined /\
  q64_scale None k = Err EUndefined /\ q64_dotProduct None p = Err EUndefined /\ q64_dotProduct p None = Err EUndefined /\ q64_norm None = Err EUndefined /\
  q64_conjugate None = Err EUndefined /\ q64_rectify None = Err EUndefined /\ q64_normalize eps None = Err EUndefined /\ q64_inverse eps None = Err EUndefined /\
  q64_div r eps p None = Err EUndefined /\ q64_eq None p = false /\ q64_eq p None = false.
Proof. repeat split; destruct p; reflexivity. Qed.
Lemma zero4_norm q : finite4 q -> val4 q = Q4 0 0 0 0 -> finite64 (fdot4 q q) /\ rval (fdot4 q q) = 0 /\ finite64 (fnorm4 q) /\ rval (fnorm4 q) = 0.
Proof.
  intros (F1 & F2 & F3 & F4) V. pose proof (f_equal qx V) as Vx. pose proof (f_equal qy V) as Vy. pose proof (f_equal qz V) as Vz. pose proof (f_equal qs V) as Vs. unfold val4 in Vx, Vy, Vz, Vs; cbn [qx qy qz qs] in Vx, Vy, Vz, Vs.
  destruct (mul_zero _ _ F1 F1 Vx) as [A1 B1]. destruct (mul_zero _ _ F2 F2 Vy) as [A2 B2]. destruct (mul_zero _ _ F3 F3 Vz) as [A3 B3]. destruct (mul_zero _ _ F4 F4 Vs) as [A4 B4].
  destruct (add_zero _ _ A1 A2 B1 B2) as [C1 D1]. destruct (add_zero _ _ C1 A3 D1 B3) as [C2 D2]. destruct (add_zero _ _ C2 A4 D2 B4) as [C3 D3]. fold (fdot4 q q) in C3, D3.
  split; [exact C3 |]. split; [exact D3 |]. unfold fnorm4. destruct (zero_of _ C3 D3) as [s ->]. split; [exact I | reflexivity].
Qed.
Lemma c131_zero r eps p q : finite4 q -> val4 q = Q4 0 0 0 0 -> finite64 eps -> 0 < rval eps ->
  q64_normalize eps (Some q) = Err ERuntime /\ q64_inverse eps (Some q) = Err ERuntime /\ q64_div r eps p (Some q) = Err ERuntime.
Proof.
  intros F V Fe He. destruct (zero4_norm q F V) as (A & B & C & D). destruct (abs_val _ A) as [A1 A2]. destruct (abs_val _ C) as [C1 C2]. rewrite B, Rabs_R0 in A2. rewrite D, Rabs_R0 in C2.
  unfold q64_normalize, q64_inverse, q64_div, q64_norm. cbn [need3 bind]. rewrite (ltb_t _ _ C1 Fe), (ltb_t _ _ A1 Fe), (ltb_t _ _ C Fe) by lra. repeat split.
Qed.
Lemma c132_errors r q v t :
  q64_isUnitary None t = Err EUndefined /\ q64_isUnitary (Some q) None = Err EUndefined /\ (forall t', finite64 t' -> rval t' <= 0 -> q64_isUnitary (Some q) (Some t') = Err EUndefined) /\
  q64_rotateVector r (Some q) None t = Err EUndefined /\ q64_rotateVector r None (Some v) t = Err EUndefined /\
  (q64_isUnitary (Some q) t = Ok false -> q64_rotateVector r (Some q) (Some v) t = Err ERuntime).
Proof.
  repeat split.
  - intros t' F H. unfold q64_isUnitary. cbn [need3 bind]. replace (SFleb t' zero64) with true; [reflexivity |]. symmetry. apply SFleb_val; [exact F | exact I | exact H].
  - intros H. unfold q64_rotateVector. cbn [need3 bind]. rewrite H. reflexivity.
Qed.
(** *** Rectification *)
Lemma c132_rectify q : finite4 q -> exists w, q64_rectify (Some q) = Ok w /\ finite4 w /\ 0 <= rval (q64s w) /\ val4 w = (if Rlt_dec (rval (q64s q)) 0 then negq (val4 q) else val4 q).
Proof.
  intros (F1 & F2 & F3 & F4). unfold q64_rectify. cbn [need3 bind]. eexists. split; [reflexivity |]. destruct (Rlt_dec (rval (q64s q)) 0) as [H | H].
  - rewrite (ltb_t (q64s q) zero64 F4 I) by exact H. split; [repeat split; apply SFopp_finite; assumption |]. cbn [q64s]. rewrite SFopp_val. split; [lra |]. unfold val4, negq; cbn [q64x q64y q64z q64s qx qy qz qs]. rewrite !SFopp_val. reflexivity.
  - rewrite (ltb_f (q64s q) zero64 F4 I) by (change (rval zero64) with 0; lra). split; [repeat split; assumption |]. split; [lra | reflexivity].
Qed.

(** *** Linear interpolation *)
Definition flerp4 (p q : f4) (k : spec_float) : f4 :=
  let h := sf_sub one_64 k in
  F4 (sf_add (b64_mul (q64x p) h) (b64_mul (q64x q) k)) (sf_add (b64_mul (q64y p) h) (b64_mul (q64y q) k)) (sf_add (b64_mul (q64z p) h) (b64_mul (q64z q) k)) (sf_add (b64_mul (q64s p) h) (b64_mul (q64s q) k)).
Lemma lerp_ok p q k : finite64 k -> 0 <= rval k <= 1 -> q64_LERP (Some p) (Some q) (Some k) = Ok (flerp4 p q k).
Proof.
  intros F H. destruct one_val as [O1 O2]. unfold q64_LERP. cbn [need3 bind]. rewrite (ltb_f k zero64 F I) by (change (rval zero64) with 0; lra). rewrite (ltb_f one_64 k O1 F) by lra. reflexivity.
Qed.
Lemma complement k : finite64 k -> 0 <= rval k <= 1 -> near64 (sf_sub one_64 k) (1 - rval k) (e53 * (1 - rval k)).
Proof.
  intros F H. destruct one_val as [O1 O2]. pose proof P2_ge1023. destruct (sub_any one_64 k O1 F) as [A B]; rewrite O2 in *; [rewrite Rabs_pos_eq; lra |]. rewrite (Rabs_pos_eq (1 - rval k)) in B by lra. split; assumption.
Qed.
Lemma lerp_comp x y k : finite64 x -> finite64 y -> finite64 k -> 0 <= rval k <= 1 -> Rabs (rval x) <= P2 450 -> Rabs (rval y) <= P2 450 ->
  near64 (sf_add (b64_mul x (sf_sub one_64 k)) (b64_mul y k)) ((1 - rval k) * rval x + rval k * rval y) (3.02 * e53 * (Rabs (rval x) + Rabs (rval y)) + 3 * tiny).
Proof.
  intros Fx Fy Fk Hk Bx By. pose proof (complement k Fk Hk) as NC. pose proof (Rabs_pos (rval x)) as X0. pose proof (Rabs_pos (rval y)) as Y0. pose proof P2_900 as [T1 T2]. pose proof (P2_mono 450 900 ltac:(lia)) as M. pose proof tiny_e as TE. pose proof tiny_pos as TP.
  assert (HC : rval (sf_sub one_64 k) <= 1 + e53 /\ 0 <= rval (sf_sub one_64 k)) by (destruct NC as [_ E]; apply abs_le in E; unfold e53 in *; lra).
  assert (HC1 : near64 (b64_mul x (sf_sub one_64 k)) ((1 - rval k) * rval x) (2.002 * e53 * Rabs (rval x) + tiny)).
  { rewrite (Rmult_comm (1 - rval k)). destruct NC as [Fh E]. set (h := sf_sub one_64 k) in *.
    assert (Bh : Rabs (rval h) <= P2 450) by (rewrite Rabs_pos_eq by lra; pose proof P2_450_2; unfold e53 in *; lra).
    destruct (near_prod_450 x h Fx Fh Bx Bh) as [Fm Em]. split; [exact Fm |].
    replace (rval (b64_mul x h) - rval x * (1 - rval k)) with (rval (b64_mul x h) - rval x * rval h + rval x * (rval h - (1 - rval k))) by ring. eapply Rle_trans; [apply Rabs_triang |]. rewrite !Rabs_mult in *. rewrite (Rabs_pos_eq (rval h)) in Em by lra.
    assert (K1 : Rabs (rval x) * rval h <= Rabs (rval x) * (1 + e53)) by (apply Rmult_le_compat_l; lra).
    assert (K2 : Rabs (rval x) * Rabs (rval h - (1 - rval k)) <= Rabs (rval x) * e53) by (apply Rmult_le_compat_l; [lra |]; unfold e53 in *; lra). unfold e53 in *. lra. }
  assert (HC2 : near64 (b64_mul y k) (rval k * rval y) (1.001 * e53 * Rabs (rval y) + tiny)).
  { rewrite (Rmult_comm (rval k)). assert (Bk : Rabs (rval k) <= P2 450) by (rewrite Rabs_pos_eq by lra; pose proof P2_450_2; lra). refine (near_le _ _ _ _ (near_prod_450 y k Fy Fk By Bk) _).
    rewrite Rabs_mult, (Rabs_pos_eq (rval k)) by lra. assert (Rabs (rval y) * rval k <= Rabs (rval y) * 1) by (apply Rmult_le_compat_l; lra). unfold e53 in *. lra. }
  assert (A1 : Rabs ((1 - rval k) * rval x) <= Rabs (rval x)) by (rewrite Rabs_mult, (Rabs_pos_eq (1 - rval k)) by lra; nra).
  assert (A2 : Rabs (rval k * rval y) <= Rabs (rval y)) by (rewrite Rabs_mult, (Rabs_pos_eq (rval k)) by lra; nra).
  refine (near_le _ _ _ _ (near_add _ _ _ _ _ _ _ _ HC1 HC2 A1 A2 _) _); unfold e53 in *; lra.
Qed.
Lemma c133_accurate p q k : finite4 p -> finite4 q -> within4 (P2 450) p -> within4 (P2 450) q -> finite64 k -> 0 <= rval k <= 1 ->
  exists w, q64_LERP (Some p) (Some q) (Some k) = Ok w /\ finite4 w /\
    gap4 (val4 w) (Q4 ((1 - rval k) * qx (val4 p) + rval k * qx (val4 q)) ((1 - rval k) * qy (val4 p) + rval k * qy (val4 q)) ((1 - rval k) * qz (val4 p) + rval k * qz (val4 q)) ((1 - rval k) * qs (val4 p) + rval k * qs (val4 q)))
      <= P2 (-51) * (len4 (val4 p) + len4 (val4 q)) + P2 (-1072).
Proof.
  intros (F1 & F2 & F3 & F4) (G1 & G2 & G3 & G4) (B1 & B2 & B3 & B4) (D1 & D2 & D3 & D4) Fk Hk. exists (flerp4 p q k). split; [apply lerp_ok; assumption |].
  destruct (lerp_comp _ _ k F1 G1 Fk Hk B1 D1) as [X1 E1]. destruct (lerp_comp _ _ k F2 G2 Fk Hk B2 D2) as [X2 E2]. destruct (lerp_comp _ _ k F3 G3 Fk Hk B3 D3) as [X3 E3]. destruct (lerp_comp _ _ k F4 G4 Fk Hk B4 D4) as [X4 E4].
  split; [repeat split; assumption |]. pose proof (len4_pos (val4 p)) as P0. pose proof (len4_pos (val4 q)) as Q0.
  apply Rle_trans with (3.02 * e53 * (len4 (val4 p) + len4 (val4 q)) + 2 * (3 * tiny)).
  - apply (gap4_scaled _ _ _ (Rabs (rval (q64x p)) + Rabs (rval (q64x q))) (Rabs (rval (q64y p)) + Rabs (rval (q64y q))) (Rabs (rval (q64z p)) + Rabs (rval (q64z q))) (Rabs (rval (q64s p)) + Rabs (rval (q64s q))));
      try (unfold val4, flerp4; cbn [qx qy qz qs q64x q64y q64z q64s]; assumption); try (pose proof tiny_pos; unfold e53; lra); try (apply Rplus_le_le_0_compat; apply Rabs_pos).
    pose proof (len4_add (Q4 (Rabs (rval (q64x p))) (Rabs (rval (q64y p))) (Rabs (rval (q64z p))) (Rabs (rval (q64s p)))) (Q4 (Rabs (rval (q64x q))) (Rabs (rval (q64y q))) (Rabs (rval (q64z q))) (Rabs (rval (q64s q))))) as T.
    assert (AL : forall a : f4, len4 (Q4 (Rabs (rval (q64x a))) (Rabs (rval (q64y a))) (Rabs (rval (q64z a))) (Rabs (rval (q64s a)))) = len4 (val4 a)).
    { intros a. unfold len4. f_equal. unfold sq, val4; cbn [qx qy qz qs]. assert (AA : forall z, Rabs z * Rabs z = z * z) by (intros z; rewrite <- Rabs_mult; apply Rabs_pos_eq; nra). rewrite !AA. reflexivity. }
    rewrite !AL in T. unfold add4 in T; cbn [qx qy qz qs] in T. match type of T with len4 ?x <= _ => pose proof (len4_sq x) as Q; pose proof (len4_pos x) end. unfold sq in Q; cbn [qx qy qz qs] in Q. rewrite <- Q. apply Rmult_le_compat; assumption.
  - rewrite <- e51. replace (P2 (-1072)) with (8 * tiny) by (unfold tiny; replace 8 with (P2 3) by (rewrite <- P2_Z by lia; reflexivity); rewrite <- P2_add; reflexivity). pose proof tiny_pos. unfold e53. lra.
Qed.
Lemma c133_ends p q k : finite4 p -> finite4 q -> within4 (P2 450) p -> within4 (P2 450) q -> finite64 k ->
  (rval k = 0 -> exists w, q64_LERP (Some p) (Some q) (Some k) = Ok w /\ val4 w = val4 p) /\ (rval k = 1 -> exists w, q64_LERP (Some p) (Some q) (Some k) = Ok w /\ val4 w = val4 q).
Proof.
  intros (F1 & F2 & F3 & F4) (G1 & G2 & G3 & G4) (B1 & B2 & B3 & B4) (D1 & D2 & D3 & D4) Fk. destruct one_val as [O1 O2].
  split; intros Vk; exists (flerp4 p q k); (split; [apply lerp_ok; [exact Fk | lra] |]); destruct (complement k Fk ltac:(lra)) as [Fh Eh]; rewrite Vk in Eh.
  - assert (Vh : rval (sf_sub one_64 k) = 1) by (destruct (sub_z_r one_64 k O1 Fk Vk) as [_ V]; rewrite V; exact O2).
    assert (C : forall x y, finite64 x -> finite64 y -> Rabs (rval x) <= P2 450 -> rval (sf_add (b64_mul x (sf_sub one_64 k)) (b64_mul y k)) = rval x).
    { intros x y Fx Fy Bx. destruct (mul_one_r x _ Fx Fh Vh Bx) as [M1 M2]. destruct (mul_zero y k Fy Fk Vk) as [Z1 Z2]. destruct (add_z_r _ _ M1 Z1 Z2) as [_ A]. rewrite A. exact M2. }
    unfold val4, flerp4; cbn [q64x q64y q64z q64s]. f_equal; apply C; assumption.
  - assert (Vh : rval (sf_sub one_64 k) = 0) by (replace (e53 * (1 - 1)) with 0 in Eh by ring; apply abs_le in Eh; lra).
    assert (C : forall x y, finite64 x -> finite64 y -> Rabs (rval y) <= P2 450 -> rval (sf_add (b64_mul x (sf_sub one_64 k)) (b64_mul y k)) = rval y).
    { intros x y Fx Fy By. destruct (mul_one_r y _ Fy Fk Vk By) as [M1 M2]. destruct (mul_zero x _ Fx Fh Vh) as [Z1 Z2]. destruct (add_z_l _ _ Z1 M1 Z2) as [_ A]. rewrite A. exact M2. }
    unfold val4, flerp4; cbn [q64x q64y q64z q64s]. f_equal; apply C; assumption.
Qed.
Lemma c133_same_refuted : exists q k w, finite4 q /\ finite64 k /\ 0 < rval k < 1 /\ q64_LERP (Some q) (Some q) (Some k) = Ok w /\ q64_eq (Some w) (Some q) = false.
Proof.
  exists (scalar64 (b64_of_Z 3)), fifth64, (flerp4 (scalar64 (b64_of_Z 3)) (scalar64 (b64_of_Z 3)) fifth64). split; [vm_compute; repeat split; reflexivity || discriminate |].
  assert (Fk : finite64 fifth64) by (vm_compute; repeat split; reflexivity || discriminate). split; [exact Fk |].
  assert (Vk : 0 < rval fifth64 < 1) by (unfold fifth64; rewrite rval_sg; cbn [sg]; rewrite P2_m by lia; change (2 ^ (- -55))%Z with 36028797018963968%Z; lra).
  split; [exact Vk |]. split; [apply lerp_ok; [exact Fk | lra] |]. vm_compute. reflexivity.
Qed.
Lemma c133_errors p q k : q64_LERP p q None = Err EUndefined /\
  (finite64 k -> rval k < 0 \/ 1 < rval k -> q64_LERP p q (Some k) = Err ERuntime) /\
  (finite64 k -> 0 <= rval k <= 1 -> q64_LERP None q (Some k) = Err EUndefined /\ q64_LERP p None (Some k) = Err EUndefined).
Proof.
  destruct one_val as [O1 O2]. split; [reflexivity |]. split.
  - intros F [H | H]; unfold q64_LERP; cbn [need3 bind].
    + rewrite (ltb_t k zero64 F I) by exact H. reflexivity.
    + rewrite (ltb_t one_64 k O1 F) by lra. rewrite orb_true_r. reflexivity.
  - intros F H. unfold q64_LERP. cbn [need3 bind]. rewrite (ltb_f k zero64 F I) by (change (rval zero64) with 0; lra). rewrite (ltb_f one_64 k O1 F) by lra. destruct p; split; reflexivity.
Qed.
