(** The properties in double precision: C17 and C71 (the parts that hold) and C120 to C125. *)

From Coq Require Import List Bool Arith ZArith Reals Lra Lia Floats.SpecFloat.
From Verif Require Import Result IntervalModel IntervalSpec IntervalGridModel AngleModel AngleSpec InterpModel InterpSpec FloatSpec FloatProofs FloatProofs2 FloatModel
  FloatProofs3 FloatProofs4 FloatProofs5 FloatProofs6 FloatProofs7 FloatProofs8 FloatProofs9.
Import ListNotations.
Local Open Scope R_scope.

(** *** C17: range reduction in double precision *)
(** What does hold in binary64: if the width of the range is a double, and the bounds and the value are within 2^52 widths of zero, the loops end and the result lies in the range. *)
Theorem C17_double :
  forall v lo hi, finite64 v -> finite64 lo -> finite64 hi -> rval lo < rval hi -> representable (rval hi - rval lo) ->
  Rabs (rval v) <= IZR (2 ^ 52) * (rval hi - rval lo) -> Rabs (rval lo) <= IZR (2 ^ 52) * (rval hi - rval lo) ->
  Rabs (rval hi) <= IZR (2 ^ 52) * (rval hi - rval lo) -> rval hi - rval lo <= IZR (2 ^ 900) ->
  exists w, returns (fun fuel => ReduceRange64 fuel v lo hi) w /\ finite64 w /\ rval lo <= rval w < rval hi.
Proof. exact c17_double. Qed.
Print Assumptions C17_double.

Example C17_double_example : returns (fun fuel => ReduceRange64 fuel (b64_of_Z 725) zero64 (b64_of_Z 360)) (b64_of_Z 5) /\
  exists w, returns (fun fuel => ReduceRange64 fuel (b64_of_Z (-1)) zero64 (b64_of_Z 360)) w /\ finite64 w /\ 0 <= rval w < 360.
Proof.
  destruct (of_Z_val 360 ltac:(lia)) as [F3 V3]. destruct (of_Z_val (-1) ltac:(lia)) as [F1 V1]. assert (R0 : rval zero64 = 0) by reflexivity.
  split; [exists 5%nat; intros fuel H; do 5 (destruct fuel as [| fuel]; [lia |]); vm_compute; reflexivity |].
  assert (Q : 1 <= IZR (2 ^ 52)) by (apply (IZR_le 1); lia).
  destruct (C17_double (b64_of_Z (-1)) zero64 (b64_of_Z 360) F1 I F3) as (w & W & F & B); rewrite ?V3, ?R0, ?V1, ?Rminus_0_r in *.
  - lra.
  - apply integer_representable. lia.
  - rewrite Rabs_left by lra. lra.
  - rewrite Rabs_R0. lra.
  - rewrite Rabs_right by lra. lra.
  - apply IZR_le. assert (2 ^ 10 <= 2 ^ 900)%Z by (apply Z.pow_le_mono_r; lia). lia.
  - exists w. split; [exact W |]. split; [exact F | lra].
Qed.

(** *** C71: generateArrayWithStep in double precision *)
(** What does hold: if the bounds are within 2^52 steps of zero, the loop ends. The grid climbs from its first value by correctly rounded steps until the upper bound is reached, its values lie in the interval, and the k-th is within k roundings of the k-th multiple. *)
Theorem C71_positive :
  forall t l u s, t <> TUndefined -> finite64 l -> finite64 u -> finite64 s -> rval l <= rval u ->
  0 < rval s <= IZR (2 ^ 900) -> Rabs (rval l) <= IZR (2 ^ 52) * rval s -> Rabs (rval u) <= IZR (2 ^ 52) * rval s ->
  exists first g z, returns (fun fuel => withStep64 fuel t l u s) (g ++ z) /\
    (upper_included t -> z = [u]) /\ (~ upper_included t -> z = []) /\
    (lower_included t -> first = l) /\ (~ lower_included t -> nearest64 (rval l + rval s) first) /\
    climbs64 (rval s) (rval u) first g /\
    (forall k v, nth_error g k = Some v -> finite64 v /\ rval l <= rval v < rval u /\
       Rabs (rval v - (rval l + INR (first_index t + k) * rval s)) <=
         INR (first_index t + k) * (powerRZ 2 (-53) * (Rmax (Rabs (rval l)) (Rabs (rval u)) + rval s))).
Proof. exact c71_positive. Qed.
Print Assumptions C71_positive.

(** The same downwards. *)
Theorem C71_negative :
  forall t l u s, t <> TUndefined -> finite64 l -> finite64 u -> finite64 s -> rval l <= rval u ->
  0 < - rval s <= IZR (2 ^ 900) -> Rabs (rval l) <= IZR (2 ^ 52) * - rval s -> Rabs (rval u) <= IZR (2 ^ 52) * - rval s ->
  exists first g z, returns (fun fuel => withStep64 fuel t l u s) (g ++ z) /\
    (lower_included t -> z = [l]) /\ (~ lower_included t -> z = []) /\
    (upper_included t -> first = u) /\ (~ upper_included t -> nearest64 (rval u + rval s) first) /\
    falls64 (rval s) (rval l) first g /\
    (forall k v, nth_error g k = Some v -> finite64 v /\ rval l < rval v <= rval u /\
       Rabs (rval v - (rval u + INR (last_gap t + k) * rval s)) <=
         INR (last_gap t + k) * (powerRZ 2 (-53) * (Rmax (Rabs (rval l)) (Rabs (rval u)) - rval s))).
Proof. exact c71_negative. Qed.
Print Assumptions C71_negative.

(** But the number of values is not the one of the multiples of the step that lie in the interval. *)
Theorem C71_count_refuted :
  exists l u s g, finite64 l /\ finite64 u /\ finite64 s /\ 0 < rval s /\
  returns (fun fuel => withStep64 fuel THalfOpenRight l u s) g /\ length g = 11%nat /\ rval u <= rval l + INR 10 * rval s.
Proof. exact c71_count_refuted. Qed.
Print Assumptions C71_count_refuted.

(** Step zero raises an error. *)
Theorem C71_zero_step :
  forall fuel t l u s, finite64 s -> rval s = 0 -> withStep64 fuel t l u s = Err ERuntime.
Proof. exact c71_zero_step. Qed.
Print Assumptions C71_zero_step.

(** ]0, 10] with step 3, upwards and downwards: 3, 6, 9, 10 and 10, 7, 4, 1. *)
Example C71_example : let l := zero64 in let u := b64_of_Z 10 in let s := b64_of_Z 3 in
  returns (fun fuel => withStep64 fuel THalfOpenLeft l u s) [s; b64_of_Z 6; b64_of_Z 9; u] /\
  returns (fun fuel => withStep64 fuel THalfOpenLeft l u (SFopp s)) [u; b64_of_Z 7; b64_of_Z 4; b64_of_Z 1] /\
  finite64 l /\ finite64 u /\ finite64 s /\ rval l <= rval u /\ 0 < rval s <= IZR (2 ^ 900) /\ Rabs (rval l) <= IZR (2 ^ 52) * rval s /\ Rabs (rval u) <= IZR (2 ^ 52) * rval s.
Proof.
  intros l u s. destruct (of_Z_val 10 ltac:(lia)) as [Fu Vu]. destruct (of_Z_val 3 ltac:(lia)) as [Fs Vs]. fold u in Fu, Vu. fold s in Fs, Vs.
  split; [exists 6%nat; intros fuel H; do 6 (destruct fuel as [| fuel]; [lia |]); vm_compute; reflexivity |].
  split; [exists 6%nat; intros fuel H; do 6 (destruct fuel as [| fuel]; [lia |]); vm_compute; reflexivity |].
  split; [exact I |]. split; [exact Fu |]. split; [exact Fs |]. rewrite Vu, Vs. change (rval l) with 0. rewrite Rabs_R0, (Rabs_right 10) by lra.
  assert (Q : 10 <= IZR (2 ^ 52)) by (apply (IZR_le 10); lia).
  assert (Q9 : 3 <= IZR (2 ^ 900)) by (apply (IZR_le 3); assert (2 ^ 10 <= 2 ^ 900)%Z by (apply Z.pow_le_mono_r; lia); lia).
  repeat split; lra.
Qed.

(** *** C120: reducing an angle to a range in double precision *)
(** What a range method returns lies in the range, if the width of the range is a double ... *)
Theorem C120_lands :
  forall fuel u a lo hi v w, in64 a u = Ok v -> finite64 v -> finite64 lo -> finite64 hi ->
  Rabs (rval v) <= IZR (2 ^ 900) -> Rabs (rval lo) <= IZR (2 ^ 900) -> Rabs (rval hi) <= IZR (2 ^ 900) ->
  rval lo < rval hi -> representable (rval hi - rval lo) ->
  in_range64 fuel u a (Some lo) (Some hi) = Ok w -> finite64 w /\ rval lo <= rval w < rval hi.
Proof. exact c120_lands. Qed.
Print Assumptions C120_lands.

(** ... and may lie below the range if not: the span check does not notice. *)
Theorem C120_lands_refuted :
  exists lo hi a w, finite64 lo /\ finite64 hi /\ rval lo < rval hi /\
  returns (fun fuel => in_range64 fuel Degree a (Some lo) (Some hi)) w /\ rval w < rval lo.
Proof. exact c120_lands_refuted. Qed.
Print Assumptions C120_lands_refuted.

(** The result is a whole number of widths away from the value, up to a rounding error for each of them. *)
Theorem C120_congruent :
  forall fuel v lo hi w, finite64 v -> finite64 lo -> finite64 hi -> rval lo < rval hi ->
  Rabs (rval v) <= powerRZ 2 900 -> Rabs (rval lo) <= powerRZ 2 900 -> Rabs (rval hi) <= powerRZ 2 900 -> ReduceRange64 fuel v lo hi = Ok w ->
  exists k : Z, Rabs (rval w - (rval v + IZR k * (rval hi - rval lo))) <=
    (IZR (Z.abs k) + 2) * (powerRZ 2 (-50) * (Rabs (rval v) + Rabs (rval lo) + Rabs (rval hi))).
Proof. exact c120_congruent. Qed.
Print Assumptions C120_congruent.

(** Whole numbers are reduced exactly. *)
Theorem C120_integers :
  forall v lo hi (n l h : Z), finite64 v -> finite64 lo -> finite64 hi -> rval v = IZR n -> rval lo = IZR l -> rval hi = IZR h ->
  (l < h)%Z -> (Z.abs n <= 2 ^ 52)%Z -> (Z.abs l <= 2 ^ 52)%Z -> (Z.abs h <= 2 ^ 52)%Z ->
  exists w k, returns (fun fuel => ReduceRange64 fuel v lo hi) w /\ finite64 w /\ rval w = IZR k /\ (l <= k < h)%Z /\ (h - l | k - n)%Z.
Proof. exact c120_integers. Qed.
Print Assumptions C120_integers.

(** An undefined bound or angle raises an error, and so does a span that does not round to a turn. *)
Theorem C120_errors :
  forall fuel u a lo hi, u <> UUndefined ->
  (lo = None \/ hi = None -> in_range64 fuel u a lo hi = Err EUndefined) /\
  (forall l h, lo = Some l -> hi = Some h -> finite64 l -> finite64 h -> Rabs (rval l) <= IZR (2 ^ 900) -> Rabs (rval h) <= IZR (2 ^ 900) ->
     (forall t, turn64 u = Ok t -> nearest64 (rval h - rval l) t -> False) -> in_range64 fuel u a lo hi = Err EUndefined) /\
  (aval64 a = None \/ aunit64 a = UUndefined -> in_range64 fuel u a lo hi = Err EUndefined).
Proof. exact c120_errors. Qed.
Print Assumptions C120_errors.

(** 725 and -725 degrees. *)
Example C120_example : exists w k, returns (fun fuel => ReduceRange64 fuel (b64_of_Z (-725)) (b64_of_Z (-180)) (b64_of_Z 180)) w /\ finite64 w /\ rval w = IZR k /\
  (-180 <= k < 180)%Z /\ (180 - -180 | k - -725)%Z.
Proof.
  destruct (of_Z_val (-725) ltac:(lia)), (of_Z_val (-180) ltac:(lia)), (of_Z_val 180 ltac:(lia)). apply C120_integers; try assumption; lia.
Qed.
Example C120_lands_example : exists fuel w, in_range64 fuel Degree (mkA64 (Some (b64_of_Z 725)) Degree) (Some (b64_of_Z (-180))) (Some (b64_of_Z 180)) = Ok w /\
  in64 (mkA64 (Some (b64_of_Z 725)) Degree) Degree = Ok (b64_of_Z 725) /\ representable (rval (b64_of_Z 180) - rval (b64_of_Z (-180))).
Proof.
  exists 5%nat, (b64_of_Z 5). split; [vm_compute; reflexivity |]. split; [reflexivity |].
  rewrite (proj2 (of_Z_val 180 ltac:(lia))), (proj2 (of_Z_val (-180) ltac:(lia))). replace (180 - -180) with (IZR 360) by lra. apply integer_representable. lia.
Qed.

(** *** C121: comparing angles in double precision *)
(** An angle equals itself, up to 2^52 ... *)
Theorem C121_reflexive :
  forall u x, u <> UUndefined -> finite64 x -> Rabs (rval x) <= IZR (2 ^ 52) ->
  returns (fun fuel => angle_eq64 fuel (mkA64 (Some x) u) (mkA64 (Some x) u)) true.
Proof. exact c121_reflexive. Qed.
Print Assumptions C121_reflexive.

(** ... but comparing a larger one with itself may never end. *)
Theorem C121_reflexive_refuted :
  exists a, (exists x, finite64 x /\ a = mkA64 (Some x) Degree) /\ diverges (fun fuel => angle_eq64 fuel a a).
Proof. exact c121_reflexive_refuted. Qed.
Print Assumptions C121_reflexive_refuted.

(** Equality is not symmetric between units ... *)
Theorem C121_symmetric_refuted :
  exists a b,
  returns (fun fuel => angle_eq64 fuel a b) true /\ returns (fun fuel => angle_eq64 fuel b a) false.
Proof. exact c121_symmetric_refuted. Qed.
Print Assumptions C121_symmetric_refuted.

(** ... nor within one unit ... *)
Theorem C121_one_unit_refuted :
  exists a b, aunit64 a = aunit64 b /\
  returns (fun fuel => angle_eq64 fuel a b) false /\ returns (fun fuel => angle_eq64 fuel b a) true.
Proof. exact c121_one_unit_refuted. Qed.
Print Assumptions C121_one_unit_refuted.

(** ... and not transitive. *)
Theorem C121_transitive_refuted :
  exists a b c, returns (fun fuel => angle_eq64 fuel a b) true /\
  returns (fun fuel => angle_eq64 fuel b c) true /\ returns (fun fuel => angle_eq64 fuel a c) false.
Proof. exact c121_transitive_refuted. Qed.
Print Assumptions C121_transitive_refuted.

(** Whole numbers of one unit are equal exactly when they differ by a whole number of turns. *)
Theorem C121_integers :
  forall u x y (n m : Z), (0 < turn_count u)%Z -> finite64 x -> finite64 y -> rval x = IZR n -> rval y = IZR m ->
  (Z.abs n <= 2 ^ 51)%Z -> (Z.abs m <= 2 ^ 51)%Z ->
  exists b, returns (fun fuel => angle_eq64 fuel (mkA64 (Some x) u) (mkA64 (Some y) u)) b /\ (b = true <-> (turn_count u | m - n)%Z).
Proof. exact c121_integers. Qed.
Print Assumptions C121_integers.

(** Angles found equal differ by a whole number of turns, up to rounding errors ... *)
Theorem C121_sound :
  forall fuel u x y, u <> UUndefined -> finite64 x -> finite64 y -> Rabs (rval x) <= powerRZ 2 900 -> Rabs (rval y) <= powerRZ 2 900 ->
  angle_eq64 fuel (mkA64 (Some x) u) (mkA64 (Some y) u) = Ok true ->
  exists k : Z, Rabs (rval x - (rval y + IZR k * units_per_turn u)) <=
    (IZR (Z.abs k) + 2) * (powerRZ 2 (-48) * (Rabs (rval x) + Rabs (rval y) + units_per_turn u)).
Proof. exact c121_sound. Qed.
Print Assumptions C121_sound.

(** ... also if the units differ. *)
Theorem C121_sound_units :
  forall fuel u u' x y, u <> UUndefined -> u' <> UUndefined -> u <> u' -> finite64 x -> finite64 y ->
  Rabs (rval x) <= powerRZ 2 900 -> powerRZ 2 (-900) <= Rabs (rval y) <= powerRZ 2 900 ->
  angle_eq64 fuel (mkA64 (Some x) u) (mkA64 (Some y) u') = Ok true ->
  exists k : Z, Rabs (rval x - (rval y * units_per_turn u / units_per_turn u' + IZR k * units_per_turn u)) <=
    (IZR (Z.abs k) + 2) * (powerRZ 2 (-47) * (Rabs (rval x) + Rabs (rval y * units_per_turn u / units_per_turn u') + units_per_turn u)).
Proof. exact c121_sound_units. Qed.
Print Assumptions C121_sound_units.

(** Nearness is symmetric, for all doubles (NaN and infinities included) ... *)
Theorem C121_near_symmetric :
  forall fuel a b tol, isNear64 fuel a b tol = isNear64 fuel b a tol.
Proof. exact c121_near_symmetric. Qed.
Print Assumptions C121_near_symmetric.

(** ... and reflexive ... *)
Theorem C121_near_reflexive :
  forall a tol x y, in64 a Degree = Ok x -> finite64 x -> Rabs (rval x) <= IZR (2 ^ 52) * 360 -> in64 tol Degree = Ok y -> finite64 y ->
  returns (fun fuel => isNear64 fuel a a tol) true.
Proof. exact c121_near_reflexive. Qed.
Print Assumptions C121_near_reflexive.

(** ... and angles found near differ by at most the tolerance from a whole number of turns, up to rounding errors. *)
Theorem C121_near_sound :
  forall fuel a b tol x y t, in64 a Degree = Ok x -> in64 b Degree = Ok y -> in64 tol Degree = Ok t -> finite64 x -> finite64 y -> finite64 t ->
  Rabs (rval x) <= powerRZ 2 900 -> Rabs (rval y) <= powerRZ 2 900 -> Rabs (rval t) <= powerRZ 2 900 -> isNear64 fuel a b tol = Ok true ->
  exists k k' : Z, Rabs ((rval x + IZR k * 360) - (rval y + IZR k' * 360)) <=
    Rabs (rval t) + (IZR (Z.abs k) + IZR (Z.abs k') + 8) * (powerRZ 2 (-50) * (Rabs (rval x) + Rabs (rval y) + 360)).
Proof. exact c121_near_sound. Qed.
Print Assumptions C121_near_sound.

(** Nearness of whole degrees is exact. *)
Theorem C121_near_integers :
  forall x y t (n m : Z), finite64 x -> finite64 y -> finite64 t -> rval x = IZR n -> rval y = IZR m ->
  (Z.abs n <= 2 ^ 52)%Z -> (Z.abs m <= 2 ^ 52)%Z ->
  exists b, returns (fun fuel => isNear64 fuel (mkA64 (Some x) Degree) (mkA64 (Some y) Degree) (mkA64 (Some t) Degree)) b /\
    (b = true <-> exists k : Z, Rabs (IZR (n - m + k * 360)) <= Rabs (rval t)).
Proof. exact c121_near_integers. Qed.
Print Assumptions C121_near_integers.

(** Undefined angles are unequal ... *)
Theorem C121_undefined :
  forall fuel a b, aunit64 a = UUndefined \/ aunit64 b = UUndefined -> angle_eq64 fuel a b = Ok false.
Proof. exact c121_undefined. Qed.
Print Assumptions C121_undefined.

(** ... and nearness raises an error for them. *)
Theorem C121_near_undefined :
  forall fuel a b tol, (exists x, In x [a; b; tol] /\ (aval64 x = None \/ aunit64 x = UUndefined)) -> isNear64 fuel a b tol = Err EUndefined.
Proof. exact c121_near_undefined. Qed.
Print Assumptions C121_near_undefined.

(** 725 and 5 degrees are equal, and so are any two of 5, 365 and -355 degrees. *)
Example C121_example : exists b, returns (fun fuel => angle_eq64 fuel (mkA64 (Some (b64_of_Z 725)) Degree) (mkA64 (Some (b64_of_Z 5)) Degree)) b /\ b = true.
Proof.
  destruct (of_Z_val 725 ltac:(lia)), (of_Z_val 5 ltac:(lia)).
  destruct (C121_integers Degree (b64_of_Z 725) (b64_of_Z 5) 725 5 ltac:(cbn; lia)) as (b & B & D); try assumption; try lia.
  exists b. split; [exact B |]. apply D. exists (-2)%Z. reflexivity.
Qed.
(** 3 degrees and 180 arcminutes: the case with two units. *)
Example C121_sound_example : angle_eq64 5 (mkA64 (Some (b64_of_Z 3)) Degree) (mkA64 (Some (b64_of_Z 180)) Arcminute) = Ok true /\
  isNear64 5 (mkA64 (Some (b64_of_Z 3)) Degree) (mkA64 (Some (b64_of_Z 362)) Degree) (mkA64 (Some (b64_of_Z 1)) Degree) = Ok true /\
  isNear64 5 (mkA64 (Some (b64_of_Z 3)) Degree) (mkA64 (Some (b64_of_Z 361)) Degree) (mkA64 (Some (b64_of_Z 1)) Degree) = Ok false.
Proof. split; [| split]; vm_compute; reflexivity. Qed.

(** *** C122: converting angles in double precision *)
(** A conversion between any two units is accurate to 2^-50 ... *)
Theorem C122_accurate :
  forall u u' v, u <> UUndefined -> u' <> UUndefined -> finite64 v -> powerRZ 2 (-900) <= Rabs (rval v) <= powerRZ 2 900 ->
  exists w, in64 (mkA64 (Some v) u) u' = Ok w /\ finite64 w /\
    Rabs (rval w - rval v * units_per_turn u' / units_per_turn u) <= powerRZ 2 (-50) * Rabs (rval v * units_per_turn u' / units_per_turn u).
Proof. exact c122_accurate. Qed.
Print Assumptions C122_accurate.

(** ... and there and back to 2^-48 ... *)
Theorem C122_round_trip :
  forall u u' v, u <> UUndefined -> u' <> UUndefined -> finite64 v -> powerRZ 2 (-900) <= Rabs (rval v) <= powerRZ 2 900 ->
  exists w z, in64 (mkA64 (Some v) u) u' = Ok w /\ in64 (mkA64 (Some w) u') u = Ok z /\ finite64 z /\
    Rabs (rval z - rval v) <= powerRZ 2 (-48) * Rabs (rval v).
Proof. exact c122_round_trip. Qed.
Print Assumptions C122_round_trip.

(** ... but whole numbers need not stay whole ... *)
Theorem C122_exact_refuted :
  exists w, in64 (mkA64 (Some (b64_of_Z 60)) Degree) Arcsecond = Ok w /\ finite64 w /\ rval w < 216000.
Proof. exact c122_exact_refuted. Qed.
Print Assumptions C122_exact_refuted.

(** ... and the way back need not lead to the start. *)
Theorem C122_round_trip_refuted :
  exists w z, in64 (mkA64 (Some (b64_of_Z 15)) Degree) Radian = Ok w /\ in64 (mkA64 (Some w) Radian) Degree = Ok z /\
  finite64 z /\ rval z < 15.
Proof. exact c122_round_trip_refuted. Qed.
Print Assumptions C122_round_trip_refuted.

(** Undefined angles raise an error, the value in the own unit is the value itself (whatever it is), and there is no value in the undefined unit. *)
Theorem C122_errors :
  forall a u, u <> UUndefined ->
  ((exists x v, x <> UUndefined /\ a = mkA64 (Some v) x) -> exists w, in64 a u = Ok w) /\
  (aval64 a = None \/ aunit64 a = UUndefined -> in64 a u = Err EUndefined) /\
  (forall v, in64 (mkA64 (Some v) u) u = Ok v) /\
  (forall v x, x <> UUndefined -> in64 (mkA64 (Some v) x) UUndefined = Err EWrong).
Proof. exact c122_errors. Qed.
Print Assumptions C122_errors.

(** 60 degrees in arcseconds. *)
Example C122_example : exists w, in64 (mkA64 (Some (b64_of_Z 60)) Degree) Arcsecond = Ok w /\ finite64 w /\ Rabs (rval w - 216000) <= powerRZ 2 (-50) * 216000.
Proof.
  destruct (of_Z_val 60 ltac:(lia)) as [F V].
  destruct (C122_accurate Degree Arcsecond (b64_of_Z 60) ltac:(discriminate) ltac:(discriminate) F) as (w & W & Fw & E).
  - rewrite V, Rabs_right by lra. change (powerRZ 2) with P2. pose proof (P2_mono (-900) 0 ltac:(lia)) as Q. rewrite P2_0 in Q. pose proof (P2_mono 6 900 ltac:(lia)) as Q'. rewrite <- (P2_Z 6) in Q' by lia. change (IZR (2 ^ 6)) with 64 in Q'. lra.
  - exists w. split; [exact W |]. split; [exact Fw |]. rewrite V in E. cbn [units_per_turn] in E. replace (60 * (360 * 3600) / 360) with 216000 in E by lra. rewrite (Rabs_right 216000) in E by lra. exact E.
Qed.

(** *** C123: generateArrayWithSize in double precision *)
(** The values are as many as asked for, the first is the bound if it is included, and the k-th is near the k-th point of the exact grid. *)
Theorem C123_size :
  forall t l u (n : nat), t <> TUndefined -> finite64 l -> finite64 u -> (2 <= n)%nat -> INR n <= IZR (2 ^ 40) ->
  powerRZ 2 (-900) <= rval u - rval l -> Rmax (Rabs (rval l)) (Rabs (rval u)) <= powerRZ 2 900 ->
  exists g, withSize64 t l u n = Ok g /\ length g = n /\ (lower_included t -> nth_error g 0 = Some l) /\
    forall k, (k < n)%nat -> exists v, nth_error g k = Some v /\ finite64 v /\
      Rabs (rval v - (rval l + INR (k + first_index t) * ((rval u - rval l) / INR (cells t n)))) <=
        INR (k + first_index t) * (powerRZ 2 (-50) * Rmax (Rabs (rval l)) (Rabs (rval u))).
Proof. exact c123_size. Qed.
Print Assumptions C123_size.

(** But the last value of a closed interval need not be its bound: it may lie inside, and it may lie outside of the interval. *)
Theorem C123_ends_refuted :
  exists l u g g' a b, finite64 l /\ finite64 u /\ withSize64 TClosed l u 10 = Ok (g ++ [a]) /\ finite64 a /\ rval u < rval a /\
  withSize64 TClosed l u 11 = Ok (g' ++ [b]) /\ finite64 b /\ rval b < rval u.
Proof. exact c123_ends_refuted. Qed.
Print Assumptions C123_ends_refuted.

(** Less than two values or an undefined type raise an error. *)
Theorem C123_errors :
  forall t l u n, ((n < 2)%nat -> withSize64 t l u n = Err EWrong) /\ withSize64 TUndefined l u n = Err EWrong.
Proof. exact c123_errors. Qed.
Print Assumptions C123_errors.

(** Three values of [0, 1], and of ]0, 1[. *)
Example C123_example : withSize64 TClosed zero64 (b64_of_Z 1) 3 = Ok [zero64; b64_div (b64_of_Z 1) (b64_of_Z 2); b64_of_Z 1] /\
  withSize64 TOpen zero64 (b64_of_Z 1) 3 = Ok [b64_div (b64_of_Z 1) (b64_of_Z 4); b64_div (b64_of_Z 1) (b64_of_Z 2); b64_div (b64_of_Z 3) (b64_of_Z 4)] /\
  powerRZ 2 (-900) <= rval (b64_of_Z 1) - rval zero64 /\ Rmax (Rabs (rval zero64)) (Rabs (rval (b64_of_Z 1))) <= powerRZ 2 900.
Proof.
  split; [vm_compute; reflexivity |]. split; [vm_compute; reflexivity |]. destruct (of_Z_val 1 ltac:(lia)) as [F V]. rewrite V. change (rval zero64) with 0. change (powerRZ 2) with P2.
  pose proof (P2_mono (-900) 0 ltac:(lia)) as Q. pose proof (P2_mono 0 900 ltac:(lia)) as Q'. rewrite P2_0 in Q, Q'. split; [lra |]. rewrite Rabs_R0, Rabs_right by lra. rewrite Rmax_right by lra. exact Q'.
Qed.

(** *** C124: linear interpolation in double precision *)
(** Outside of the data the first and the last value are returned. *)
Theorem C124_outside :
  forall x y q, Forall finite64 x -> finite64 q -> nondecreasing (map rval x) -> length x = length y -> (0 < length x)%nat ->
  (rval q <= rval (nth 0 x q) -> linear64 x y q = Ok (nth 0 y q)) /\
  (rval (nth (length x - 1) x q) < rval q -> linear64 x y q = Ok (nth (length x - 1) y q)).
Proof. exact c124_outside. Qed.
Print Assumptions C124_outside.

(** Inside, the result is near the chord. *)
Theorem C124_accurate :
  forall x y q i xp xn yp yn, Forall finite64 x -> finite64 q -> nondecreasing (map rval x) ->
  nth_error x i = Some xp -> nth_error x (S i) = Some xn -> nth_error y i = Some yp -> nth_error y (S i) = Some yn -> rval xp < rval q <= rval xn ->
  finite64 yp -> finite64 yn -> Rabs (rval xp) <= powerRZ 2 900 -> Rabs (rval xn) <= powerRZ 2 900 -> Rabs (rval yp) <= powerRZ 2 900 -> Rabs (rval yn) <= powerRZ 2 900 ->
  exists v, linear64 x y q = Ok v /\ finite64 v /\
    Rabs (rval v - (rval yp + (rval q - rval xp) / (rval xn - rval xp) * (rval yn - rval yp))) <=
      powerRZ 2 (-49) * (Rabs (rval yp) + Rabs (rval yn)) + powerRZ 2 (-1074).
Proof. exact c124_accurate. Qed.
Print Assumptions C124_accurate.

(** At a node the result is the datum, if the rise to it is a double ... *)
Theorem C124_node :
  forall x y q i xp xn yp yn, Forall finite64 x -> finite64 q -> nondecreasing (map rval x) ->
  nth_error x i = Some xp -> nth_error x (S i) = Some xn -> nth_error y i = Some yp -> nth_error y (S i) = Some yn -> rval xp < rval q -> rval q = rval xn ->
  finite64 yp -> finite64 yn -> Rabs (rval xp) <= powerRZ 2 900 -> Rabs (rval xn) <= powerRZ 2 900 -> representable (rval yn - rval yp) ->
  Rabs (rval yp) <= powerRZ 2 900 -> Rabs (rval yn) <= powerRZ 2 900 ->
  exists v, linear64 x y q = Ok v /\ finite64 v /\ rval v = rval yn.
Proof. exact c124_node. Qed.
Print Assumptions C124_node.

(** Between two nodes with rising data the result rises with the argument ... *)
Theorem C124_monotone :
  forall x y q q' i xp xn yp yn, Forall finite64 x -> finite64 q -> finite64 q' -> nondecreasing (map rval x) ->
  nth_error x i = Some xp -> nth_error x (S i) = Some xn -> nth_error y i = Some yp -> nth_error y (S i) = Some yn ->
  rval xp < rval q -> rval q <= rval q' -> rval q' <= rval xn -> finite64 yp -> finite64 yn -> rval yp <= rval yn ->
  Rabs (rval xp) <= powerRZ 2 900 -> Rabs (rval xn) <= powerRZ 2 900 -> Rabs (rval yp) <= powerRZ 2 900 -> Rabs (rval yn) <= powerRZ 2 900 ->
  exists v v', linear64 x y q = Ok v /\ linear64 x y q' = Ok v' /\ rval v <= rval v'.
Proof. exact c124_monotone. Qed.
Print Assumptions C124_monotone.

(** ... and otherwise it may be anything: here 0 instead of 1. *)
Theorem C124_node_refuted :
  exists x y q v, Forall finite64 x /\ Forall finite64 y /\ increasing (map rval x) /\ nth_error x 1 = Some q /\
  linear64 x y q = Ok v /\ finite64 v /\ rval v = 0 /\ nth_error y 1 = Some (b64_of_Z 1).
Proof. exact c124_node_refuted. Qed.
Print Assumptions C124_node_refuted.

(** ... but at a node it may lie above all data, and fall behind it. *)
Theorem C124_inside_refuted :
  exists x y q q' v v', Forall finite64 x /\ Forall finite64 y /\ increasing (map rval x) /\ nondecreasing (map rval y) /\ finite64 q /\ finite64 q' /\
  rval q < rval q' /\ linear64 x y q = Ok v /\ linear64 x y q' = Ok v' /\ finite64 v /\ finite64 v' /\
  (forall z, In z y -> rval z < rval v) /\ rval v' < rval v.
Proof. exact c124_inside_refuted. Qed.
Print Assumptions C124_inside_refuted.

(** From (0, 0) over (1, 10) to (3, 20). *)
Example C124_example : let x := [zero64; b64_of_Z 1; b64_of_Z 3] in let y := [zero64; b64_of_Z 10; b64_of_Z 20] in
  linear64 x y (b64_of_Z 2) = Ok (b64_of_Z 15) /\ linear64 x y (b64_of_Z 1) = Ok (b64_of_Z 10) /\ linear64 x y (b64_of_Z 5) = Ok (b64_of_Z 20) /\
  Forall finite64 x /\ nondecreasing (map rval x) /\ representable (rval (b64_of_Z 20) - rval (b64_of_Z 10)).
Proof.
  intros x y. destruct (of_Z_val 1 ltac:(lia)) as [F1 V1]. destruct (of_Z_val 3 ltac:(lia)) as [F3 V3].
  split; [vm_compute; reflexivity |]. split; [vm_compute; reflexivity |]. split; [vm_compute; reflexivity |].
  split; [apply Forall_cons; [exact I |]; apply Forall_cons; [exact F1 |]; apply Forall_cons; [exact F3 | constructor] |]. split.
  - intros i j [H1 H2]. unfold x in *. cbn [map length] in *. destruct i as [| [| [| i]]], j as [| [| [| j]]]; try lia; cbn [nth map]; rewrite ?V1, ?V3; cbn [rval zero64]; lra.
  - rewrite (proj2 (of_Z_val 20 ltac:(lia))), (proj2 (of_Z_val 10 ltac:(lia))), <- minus_IZR. apply integer_representable. lia.
Qed.

(** *** C125: sums of angles in double precision *)
(** In one unit the sum and the difference are correctly rounded ... *)
Theorem C125_one_unit :
  forall u x y, u <> UUndefined -> finite64 x -> finite64 y -> Rabs (rval x) <= powerRZ 2 900 -> Rabs (rval y) <= powerRZ 2 900 ->
  (exists z, angle_add64 (mkA64 (Some x) u) (mkA64 (Some y) u) = Ok (mkA64 (Some z) u) /\ nearest64 (rval x + rval y) z) /\
  (exists z, angle_sub64 (mkA64 (Some x) u) (mkA64 (Some y) u) = Ok (mkA64 (Some z) u) /\ nearest64 (rval x - rval y) z).
Proof. exact c125_one_unit. Qed.
Print Assumptions C125_one_unit.

(** ... and in two units they are accurate to 2^-49. *)
Theorem C125_two_units :
  forall u u' x y, u <> UUndefined -> u' <> UUndefined -> u <> u' -> finite64 x -> finite64 y -> Rabs (rval x) <= powerRZ 2 900 -> powerRZ 2 (-900) <= Rabs (rval y) <= powerRZ 2 900 ->
  let y' := rval y * units_per_turn u / units_per_turn u' in
  (exists z, angle_add64 (mkA64 (Some x) u) (mkA64 (Some y) u') = Ok (mkA64 (Some z) u) /\ finite64 z /\ Rabs (rval z - (rval x + y')) <= powerRZ 2 (-49) * (Rabs (rval x) + Rabs y')) /\
  (exists z, angle_sub64 (mkA64 (Some x) u) (mkA64 (Some y) u') = Ok (mkA64 (Some z) u) /\ finite64 z /\ Rabs (rval z - (rval x - y')) <= powerRZ 2 (-49) * (Rabs (rval x) + Rabs y')).
Proof. exact c125_two_units. Qed.
Print Assumptions C125_two_units.

(** Undefined angles raise an error. *)
Theorem C125_undefined :
  forall a b, aunit64 a = UUndefined \/ aunit64 b = UUndefined \/ aval64 a = None \/ aval64 b = None ->
  angle_add64 a b = Err EUndefined /\ angle_sub64 a b = Err EUndefined.
Proof. exact c125_undefined. Qed.
Print Assumptions C125_undefined.

(** 1 degree and 60 arcminutes. *)
Example C125_example : let x := b64_of_Z 1 in let y := b64_of_Z 60 in finite64 x /\ finite64 y /\
  exists z, angle_add64 (mkA64 (Some x) Degree) (mkA64 (Some y) Arcminute) = Ok (mkA64 (Some z) Degree) /\ finite64 z /\ Rabs (rval z - 2) <= powerRZ 2 (-49) * 2.
Proof.
  intros x y. destruct (of_Z_val 1 ltac:(lia)) as [Fx Vx]. destruct (of_Z_val 60 ltac:(lia)) as [Fy Vy]. fold x in Fx, Vx. fold y in Fy, Vy. clearbody x y. split; [exact Fx |]. split; [exact Fy |].
  pose proof (P2_mono (-900) 0 ltac:(lia)) as Q. rewrite P2_0 in Q. pose proof (P2_mono 6 900 ltac:(lia)) as Q'. rewrite <- (P2_Z 6) in Q' by lia. change (IZR (2 ^ 6)) with 64 in Q'.
  destruct (C125_two_units Degree Arcminute x y) as [(z & Z & F & E) _]; try discriminate; try assumption; change (powerRZ 2) with P2 in *.
  - rewrite Vx, Rabs_right by lra. lra.
  - rewrite Vy, Rabs_right by lra. lra.
  - exists z. split; [exact Z |]. split; [exact F |]. rewrite Vx, Vy in E. cbn [units_per_turn] in E. replace (60 * 360 / (360 * 60)) with 1 in E by lra. rewrite (Rabs_right 1) in E by lra.
    replace (1 + 1) with 2 in E by ring. exact E.
Qed.
