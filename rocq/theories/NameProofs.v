(** Proofs about the names of enumerated values and the texts of intervals, angles, rotations and 2D objects. *)

From Coq Require Import List Bool ZArith String Ascii Lia Floats.SpecFloat.
From Verif Require Import Result AngleModel Geo3Types TextModel TextSpec TextProofs TextProofs2 TextProofs3 NameModel NameSpec.
From Verif Require TransfModel SolverModel RotModel Poly2Model IntervalModel.
Import ListNotations.
Local Open Scope string_scope.

(** *** Names *)
Lemma c114_names : told_apart StringFromUnit /\ told_apart SymbolFromUnit /\ told_apart Interval_StringFromType /\
  told_apart Transformation_StringFromType /\ told_apart Intersection3_StringFromType /\ told_apart Intersection2_StringFromType /\
  told_apart StringFromLogType /\ told_apart StringFromStepperType /\ told_apart StringFromAxisSequence.
Proof.
  unfold told_apart. repeat split; intros a b t H K; rewrite <- K in H; clear K; destruct a, b; cbn in H; congruence || discriminate.
Qed.
Lemma c114_named : (forall u, exists t, StringFromUnit u = Ok t) /\ (forall u, (exists t, SymbolFromUnit u = Ok t) <-> u <> UUndefined) /\
  (forall u, exists t, Interval_StringFromType u = Ok t) /\ (forall u, exists t, Transformation_StringFromType u = Ok t) /\
  (forall u, exists t, Intersection2_StringFromType u = Ok t) /\ (forall u, exists t, StringFromLogType u = Ok t) /\
  (forall u, exists t, StringFromStepperType u = Ok t) /\ (forall u, (exists t, StringFromAxisSequence u = Ok t) <-> u <> RotModel.SeqUndefined).
Proof.
  repeat split; try (intros u; destruct u; eexists; reflexivity).
  - intros [t H] ->. discriminate.
  - intros H. destruct u; try congruence; eexists; reflexivity.
  - intros [t H] ->. discriminate.
  - intros H. destruct u; try congruence; eexists; reflexivity.
Qed.
Lemma c114_intersections t : t <> ICuboid -> exists n, Intersection3_StringFromType t = Ok n.
Proof. intros H. destruct t; try congruence; eexists; reflexivity. Qed.
Lemma c114_cuboid_refuted : exists t, Intersection3_StringFromType t = Err EWrong /\ t = ICuboid.
Proof. exists ICuboid. split; reflexivity. Qed.

(** *** Angles and rotations *)
Lemma SymbolFromUnit_lacks u s : SymbolFromUnit u = Ok s -> lacks "]" s.
Proof. destruct u; intros [= <-]; repeat split; discriminate. Qed.
Lemma c115_angle {A} (num : A -> string) v u w x t : texts_without [" "%char] num ->
  Angle_toString num v u = Ok t -> Angle_toString num w x = Ok t ->
  u = x /\ exists a b, v = Some a /\ w = Some b /\ num a = num b.
Proof.
  intros N H K. destruct v as [a |]; [| discriminate]. destruct w as [b |]; [| discriminate]. cbn [Angle_toString] in *.
  destruct (unit_eqb u UUndefined); [discriminate |]. destruct (unit_eqb x UUndefined); [discriminate |].
  destruct (SymbolFromUnit u) as [s | |] eqn:S; try discriminate. destruct (SymbolFromUnit x) as [r | |] eqn:R; try discriminate.
  cbn [bind] in H, K. injection H as <-. injection K as K. cbn [append] in K.
  apply lacks_split in K; [| apply N; left; reflexivity | apply N; left; reflexivity]. destruct K as [K1 K2]. injection K2 as K2.
  apply lacks_split in K2; [| eapply SymbolFromUnit_lacks; eassumption | eapply SymbolFromUnit_lacks; eassumption]. destruct K2 as [-> _].
  split; [| exists a, b; auto]. apply (proj1 (proj2 c114_names) u x s); assumption.
Qed.
Lemma c115_angle_defined {A} (num : A -> string) v u : (exists t, Angle_toString num v u = Ok t) <-> v <> None /\ u <> UUndefined.
Proof.
  split.
  - intros [t H]. destruct v; [| discriminate]. split; [discriminate |]. intros ->. discriminate.
  - intros [H K]. destruct v; [| congruence]. destruct u; try congruence; eexists; reflexivity.
Qed.
Lemma vector_join p l : mx_toString p (vector l) = "[" ++ join (map (element p) l) ++ "]".
Proof. unfold mx_toString, vector. cbn [mx_cols mx_rows]. rewrite map_map. do 3 f_equal. Qed.
Lemma c115_rotation_vector {A} (num : A -> string) p l k v u w x t : texts_without [" "%char] num -> l <> [] -> k <> [] ->
  RotationVector_toString num p l v u = Ok t -> RotationVector_toString num p k w x = Ok t ->
  map (element (match p with Some p => p | None => -1 end)) l = map (element (match p with Some p => p | None => -1 end)) k /\
  u = x /\ exists a b, v = Some a /\ w = Some b /\ num a = num b.
Proof.
  intros N L K H G. unfold RotationVector_toString in *. destruct (mx_isDefined (vector l)); [| discriminate]. destruct (mx_isDefined (vector k)); [| discriminate].
  destruct (Angle_toString num v u) as [s | |] eqn:S; try discriminate. destruct (Angle_toString num w x) as [r | |] eqn:R; try discriminate.
  cbn [bind] in H, G. injection H as <-. injection G as G.
  set (q := match p with Some p => p | None => (-1)%Z end).
  assert (E : forall m, (match p with Some p => mx_toString p (vector m) | None => mx_toString (-1) (vector m) end) = "[" ++ join (map (element q) m) ++ "]").
  { intros m. unfold q. destruct p; apply vector_join. }
  rewrite !E in G. cbn [append] in G. injection G as G. rewrite !app_assoc_s in G. cbn [append] in G.
  apply join_inj in G; [| destruct k; [congruence | discriminate] | destruct l; [congruence | discriminate] | apply plain_map | apply plain_map].
  destruct G as [G1 G2]. injection G2 as G2. split; [symmetry; exact G1 |]. subst r. eapply c115_angle; eassumption.
Qed.
Lemma StringFromAxisSequence_lacks u s : StringFromAxisSequence u = Ok s -> lacks ")" s.
Proof. destruct u; intros [= <-]; repeat split; discriminate. Qed.
Lemma c115_euler_angle {A} (num : A -> string) x y s r t : texts_without [","%char; "]"%char] num ->
  EulerAngle_toString num x s = Ok t -> EulerAngle_toString num y r = Ok t ->
  s = r /\ exists a b c d e f, x = Some (a, b, c) /\ y = Some (d, e, f) /\ num a = num d /\ num b = num e /\ num c = num f.
Proof.
  intros N H K. unfold EulerAngle_toString in *. destruct x as [[[a b] c] |]; [| discriminate]. destruct y as [[[d e] f] |]; [| discriminate].
  assert (G : forall q a b c, (match q with RotModel.SeqUndefined => Err EUndefined | _ =>
             let! n := StringFromAxisSequence q in Ok ("[" ++ num a ++ ", " ++ num b ++ ", " ++ num c ++ "] (" ++ n ++ ")") end) = Ok t ->
             exists n, StringFromAxisSequence q = Ok n /\ t = "[" ++ num a ++ ", " ++ num b ++ ", " ++ num c ++ "] (" ++ n ++ ")").
  { intros q a' b' c' Q. destruct q; try discriminate; cbn [StringFromAxisSequence bind] in Q; injection Q as <-; eexists; split; reflexivity. }
  destruct (G s a b c H) as (n & S & T1). destruct (G r d e f K) as (m & R & T2). rewrite T1 in T2. clear G H K T1.
  cbn [append] in T2. injection T2 as E.
  apply lacks_split in E; [| apply N; left; reflexivity | apply N; left; reflexivity]. destruct E as [E1 E]. injection E as E.
  apply lacks_split in E; [| apply N; left; reflexivity | apply N; left; reflexivity]. destruct E as [E2 E]. injection E as E.
  apply lacks_split in E; [| apply N; right; left; reflexivity | apply N; right; left; reflexivity]. destruct E as [E3 E]. injection E as E.
  apply lacks_split in E; [| eapply StringFromAxisSequence_lacks; eassumption | eapply StringFromAxisSequence_lacks; eassumption]. destruct E as [-> _].
  split; [apply (proj2 (proj2 (proj2 (proj2 (proj2 (proj2 (proj2 (proj2 c114_names))))))) s r m); assumption |].
  exists a, b, c, d, e, f. auto.
Qed.
Lemma c115_point p a b t : Point3_toString p a = Ok t -> Point3_toString p b = Ok t ->
  exists x y z x' y' z', a = Some (x, y, z) /\ b = Some (x', y', z') /\
    map (element (match p with Some p => p | None => -1 end)) [x; y; z] = map (element (match p with Some p => p | None => -1 end)) [x'; y'; z'].
Proof.
  intros H K. destruct a as [[[x y] z] |]; [| discriminate]. destruct b as [[[x' y'] z'] |]; [| discriminate]. exists x, y, z, x', y', z'.
  split; [reflexivity |]. split; [reflexivity |]. cbn [Point3_toString] in *. injection H as <-. injection K as K.
  set (q := match p with Some p => p | None => (-1)%Z end).
  assert (E : forall m, (match p with Some p => mx_toString p (vector m) | None => mx_toString (-1) (vector m) end) = "[" ++ join (map (element q) m) ++ "]").
  { intros m. unfold q. destruct p; apply vector_join. }
  rewrite !E in K. cbn [append] in K. injection K as K. symmetry. eapply proj1.
  apply (join_inj (map (element q) [x'; y'; z']) (map (element q) [x; y; z]) "" ""); [discriminate | discriminate | apply plain_map | apply plain_map | exact K].
Qed.

(** *** Intervals *)
Lemma c116_interval {A} (num : A -> string) s r a b c d t : texts_without [","%char; "["%char; "]"%char] num ->
  Interval_toString num s a b = Ok t -> Interval_toString num r c d = Ok t ->
  s = r /\ exists w x y z, a = Some w /\ b = Some x /\ c = Some y /\ d = Some z /\ num w = num y /\ num x = num z.
Proof.
  intros N H K.
  assert (G : forall s a b, Interval_toString num s a b = Ok t -> exists w x p q, a = Some w /\ b = Some x /\
            t = String p (num w ++ String "," (String " " (num x ++ String q ""))) /\
            (q = "["%char \/ q = "]"%char) /\
            (s = match p, q with "["%char, "]"%char => IntervalModel.TClosed | "]"%char, "["%char => IntervalModel.TOpen | "]"%char, "]"%char => IntervalModel.THalfOpenLeft | _, _ => IntervalModel.THalfOpenRight end)).
  { intros s' [w |] [x |] Q; destruct s'; try discriminate; cbn [Interval_toString] in Q; injection Q as <-; exists w, x; eexists; eexists;
      (split; [reflexivity |]; split; [reflexivity |]; split; [reflexivity |]; split; [tauto | reflexivity]). }
  destruct (G s a b H) as (w & x & p & q & -> & -> & T1 & Q1 & S1). destruct (G r c d K) as (y & z & p' & q' & -> & -> & T2 & Q2 & S2). clear G H K.
  rewrite T1 in T2. injection T2 as -> E.
  apply lacks_split in E; [| apply N; left; reflexivity | apply N; left; reflexivity]. destruct E as [E1 E]. injection E as E.
  assert (Q : q = q' /\ num x = num z).
  { assert (N1 : lacks "[" (num x) /\ lacks "]" (num x) /\ lacks "[" (num z) /\ lacks "]" (num z)) by (repeat split; apply N; cbn; tauto).
    destruct N1 as (N1 & N2 & N3 & N4). destruct Q1 as [-> | ->], Q2 as [-> | ->].
    - apply lacks_split in E; [| assumption | assumption]. tauto.
    - exfalso. revert E. apply lacks_split2; assumption || discriminate.
    - exfalso. revert E. apply lacks_split2; assumption || discriminate.
    - apply lacks_split in E; [| assumption | assumption]. tauto. }
  destruct Q as [-> Q]. split; [congruence |]. exists w, x, y, z. repeat split; assumption.
Qed.
Lemma c116_defined {A} (num : A -> string) s a b :
  (Interval_toString num s a b = Err EUndefined <-> s = IntervalModel.TUndefined \/ a = None \/ b = None) /\
  ((exists t, Interval_toString num s a b = Ok t) <-> s <> IntervalModel.TUndefined /\ a <> None /\ b <> None).
Proof.
  destruct s, a as [a |], b as [b |]; cbn; (split; split; [intros H | intros H | intros [t H] | intros (H1 & H2 & H3)]);
    try discriminate; try congruence; try tauto; try (repeat split; discriminate); try (eexists; reflexivity);
    destruct H as [H | [H | H]]; discriminate.
Qed.

(** *** 2D objects *)
Lemma point_inj {A} (num : A -> string) a b r t x y : texts_without [","%char; "]"%char] num ->
  Point_toString num FStandard a = Ok x -> Point_toString num FStandard b = Ok y -> x ++ r = y ++ t ->
  coordinates num a = coordinates num b /\ r = t.
Proof.
  intros N H K E. destruct a as [[a1 a2] |]; [| discriminate]. destruct b as [[b1 b2] |]; [| discriminate].
  cbn [Point_toString] in *. injection H as <-. injection K as <-. cbn [append] in E. injection E as E. rewrite !app_assoc_s in E. cbn [append] in E. rewrite ?app_assoc_s in E. cbn [append] in E.
  apply lacks_split in E; [| apply N; left; reflexivity | apply N; left; reflexivity]. destruct E as [E1 E]. injection E as E.
  apply lacks_split in E; [| apply N; right; left; reflexivity | apply N; right; left; reflexivity]. destruct E as [E2 E].
  cbn [coordinates]. rewrite E1, E2. split; [reflexivity | exact E].
Qed.
Lemma mapM_map {A B} (f : A -> result B) l t : mapM f l = Ok t -> Forall2 (fun x y => f x = Ok y) l t.
Proof.
  revert t. induction l as [| x l IH]; intros t H; cbn [mapM] in H.
  - injection H as <-. constructor.
  - destruct (f x) as [y | |] eqn:E; try discriminate. cbn [bind] in H. destruct (mapM f l) as [k | |]; try discriminate. injection H as <-.
    constructor; [exact E | apply IH; reflexivity].
Qed.
(** Texts between separators, up to a closing character. *)
Lemma app_cancel s a b : s ++ a = s ++ b -> a = b.
Proof. induction s as [| c s IH]; intros H; [exact H |]. injection H as H. apply IH, H. Qed.
Lemma separated_inj {A K} (f : A -> result string) (key : A -> K) c d sep l :
  (forall a b x y r t, f a = Ok x -> f b = Ok y -> (exists s, r = String c s \/ r = String d s) -> (exists s, t = String c s \/ t = String d s) -> x ++ r = y ++ t -> key a = key b /\ r = t) ->
  (forall a x, f a = Ok x -> exists e s, x = String e s /\ e <> d) -> c <> d ->
  forall k x y, Forall2 (fun a x => f a = Ok x) l x -> Forall2 (fun a x => f a = Ok x) k y ->
  separated (String c sep) x ++ String d "" = separated (String c sep) y ++ String d "" -> map key l = map key k.
Proof.
  intros INJ HEAD CD. induction l as [| a l IH]; intros k x y H G E.
  - inversion H; subst. inversion G as [| b y0 k' y' B G']; subst; [reflexivity |]. exfalso. destruct (HEAD _ _ B) as (e & s & -> & D).
    destruct y'; cbn in E; injection E as E _; congruence.
  - inversion H as [| a' x0 l' x' A0 H']; subst. inversion G as [| b y0 k' y' B G']; subst.
    + exfalso. destruct (HEAD _ _ A0) as (e & s & -> & D). destruct x'; cbn in E; injection E as E _; congruence.
    + assert (S : forall u v, separated (String c sep) (u :: v) ++ String d "" =
                  u ++ match v with [] => String d "" | _ => String c (sep ++ separated (String c sep) v ++ String d "") end).
      { intros u [| v0 v]; [reflexivity |]. change (separated (String c sep) (u :: v0 :: v)) with (u ++ String c sep ++ separated (String c sep) (v0 :: v)).
        rewrite app_assoc_s. rewrite !app_cons. rewrite app_assoc_s. reflexivity. }
      rewrite !S in E.
      match type of E with _ ++ ?r = _ ++ ?t => assert (Q : key a = key b /\ r = t) end.
      { apply (INJ a b x0 y0); [exact A0 | exact B | | | exact E].
        - destruct x'; eexists; [right | left]; reflexivity.
        - destruct y'; eexists; [right | left]; reflexivity. }
      destruct Q as [E1 E2].
      cbn [map]. rewrite E1. f_equal. destruct x' as [| u x'], y' as [| v y']; try (injection E2 as E2; congruence).
      * inversion H'; inversion G'; subst. reflexivity.
      * injection E2 as E2. apply (IH _ _ _ H' G').
        exact (app_cancel _ _ _ E2).
Qed.

Lemma points_inj {A} (num : A -> string) c sep l k x y : texts_without [","%char; "]"%char] num -> c <> "]"%char ->
  mapM (Point_toString num FStandard) l = Ok x -> mapM (Point_toString num FStandard) k = Ok y ->
  separated (String c sep) x ++ "]" = separated (String c sep) y ++ "]" -> map (coordinates num) l = map (coordinates num) k.
Proof.
  intros N C H K. apply mapM_map in H, K. revert k x y H K. apply (separated_inj (Point_toString num FStandard)); [| | exact C].
  - intros a b x y r t HA HB _ _ E. eapply point_inj; eassumption.
  - intros a x H. destruct a as [[a b] |]; [| discriminate]. injection H as <-. eexists; eexists. split; [reflexivity | discriminate].
Qed.
Lemma pair_inj {A} (num : A -> string) a b r t x y : texts_without [","%char; ")"%char; " "%char] num ->
  pair_text num a = Ok x -> pair_text num b = Ok y ->
  (exists s, r = String "," s \/ r = String ")" s) -> (exists s, t = String "," s \/ t = String ")" s) -> x ++ r = y ++ t ->
  coordinates num a = coordinates num b /\ r = t.
Proof.
  intros N H K [u U] [v V] E. destruct a as [[a1 a2] |]; [| discriminate]. destruct b as [[b1 b2] |]; [| discriminate].
  cbn [pair_text] in *. injection H as <-. injection K as <-. rewrite !app_assoc_s in E. cbn [append] in E.
  apply lacks_split in E; [| apply N; cbn; tauto | apply N; cbn; tauto]. destruct E as [E1 E]. cbn [coordinates]. rewrite E1.
  assert (N1 : lacks "," (num a2) /\ lacks ")" (num a2) /\ lacks "," (num b2) /\ lacks ")" (num b2)) by (repeat split; apply N; cbn; tauto).
  destruct N1 as (N1 & N2 & N3 & N4). destruct U as [-> | ->], V as [-> | ->].
  - apply lacks_split in E; [| assumption | assumption]. destruct E as [-> ->]. auto.
  - exfalso. revert E. apply lacks_split2; assumption || discriminate.
  - exfalso. revert E. apply lacks_split2; assumption || discriminate.
  - apply lacks_split in E; [| assumption | assumption]. destruct E as [-> ->]. auto.
Qed.
Lemma pairs_inj {A} (num : A -> string) l k x y : texts_without [","%char; ")"%char; " "%char] num ->
  mapM (pair_text num) l = Ok x -> mapM (pair_text num) k = Ok y ->
  separated ", " x ++ ")" = separated ", " y ++ ")" -> map (coordinates num) l = map (coordinates num) k.
Proof.
  intros N H K. apply mapM_map in H, K. revert k x y H K. apply (separated_inj (pair_text num)); [| | discriminate].
  - intros a b x y r t HA HB R T E. eapply pair_inj; eassumption.
  - intros a x H. destruct a as [[a b] |]; [| discriminate]. injection H as <-.
    assert (L : lacks ")" (num a)) by (apply N; cbn; tauto). destruct (num a) as [| e s]; cbn [append]; eexists; eexists; (split; [reflexivity |]); [discriminate |].
    destruct L as [L _]. congruence.
Qed.
Definition marks := [","%char; "]"%char; ")"%char; " "%char].
Lemma marks_std {A} (num : A -> string) : texts_without marks num -> texts_without [","%char; "]"%char] num.
Proof. intros N x c H. apply N. cbn in *. tauto. Qed.
Lemma marks_wkt {A} (num : A -> string) : texts_without marks num -> texts_without [","%char; ")"%char; " "%char] num.
Proof. intros N x c H. apply N. cbn in *. tauto. Qed.

Lemma c117_point {A} (num : A -> string) f g a b t : texts_without [","%char; "]"%char; ")"%char; " "%char] num ->
  Point_toString num f a = Ok t -> Point_toString num g b = Ok t -> f = g /\ coordinates num a = coordinates num b.
Proof.
  intros N H K. destruct a as [[a1 a2] |]; [| discriminate]. destruct b as [[b1 b2] |]; [| discriminate].
  destruct f, g; try discriminate; cbn [Point_toString] in H, K; injection H as <-; try discriminate; split; try reflexivity.
  - eapply (point_inj num (Some (a1, a2)) (Some (b1, b2)) "" "" _ _ (marks_std num N)); [reflexivity | reflexivity |]. injection K as K. apply (f_equal (fun s => s ++ "")). cbn [append]. rewrite K. reflexivity.
  - injection K as K. apply lacks_split in K; [| apply N; cbn; tauto | apply N; cbn; tauto]. destruct K as [K1 K].
    apply lacks_split in K; [| apply N; cbn; tauto | apply N; cbn; tauto]. destruct K as [K2 _]. cbn [coordinates]. rewrite K1, K2. reflexivity.
Qed.
Lemma c117_point_set {A} (num : A -> string) f g l k t : texts_without [","%char; "]"%char; ")"%char; " "%char] num ->
  PointSet_toString num f l = Ok t -> PointSet_toString num g k = Ok t -> f = g /\ map (coordinates num) l = map (coordinates num) k.
Proof.
  intros N H K. destruct f, g; try discriminate. split; [reflexivity |]. cbn [PointSet_toString] in *.
  destruct (mapM (Point_toString num FStandard) l) as [x | |] eqn:X; try discriminate. destruct (mapM (Point_toString num FStandard) k) as [y | |] eqn:Y; try discriminate.
  cbn [bind] in *. injection H as <-. injection K as K. symmetry. eapply (points_inj num _ _ _ _ _ _ (marks_std num N)); [| exact Y | exact X | exact K]. discriminate.
Qed.
Lemma c117_line_string {A} (num : A -> string) f g l k t : texts_without [","%char; "]"%char; ")"%char; " "%char] num ->
  LineString_toString num f l = Ok t -> LineString_toString num g k = Ok t -> f = g /\ map (coordinates num) l = map (coordinates num) k.
Proof.
  intros N H K. destruct f, g; try discriminate; cbn [LineString_toString] in *.
  - destruct (mapM (Point_toString num FStandard) l) as [x | |] eqn:X; try discriminate. destruct (mapM (Point_toString num FStandard) k) as [y | |] eqn:Y; try discriminate.
    cbn [bind] in *. injection H as <-. injection K as K. split; [reflexivity |]. symmetry.
    eapply (points_inj num _ _ _ _ _ _ (marks_std num N)); [| exact Y | exact X | exact K]. discriminate.
  - destruct (mapM (Point_toString num FStandard) l) as [x | |]; try discriminate. destruct (mapM (pair_text num) k) as [y | |]; try discriminate.
    cbn [bind] in *. injection H as <-. discriminate.
  - destruct (mapM (pair_text num) l) as [x | |]; try discriminate. destruct (mapM (Point_toString num FStandard) k) as [y | |]; try discriminate.
    cbn [bind] in *. injection H as <-. discriminate.
  - destruct (mapM (pair_text num) l) as [x | |] eqn:X; try discriminate. destruct (mapM (pair_text num) k) as [y | |] eqn:Y; try discriminate.
    cbn [bind] in *. injection H as <-. injection K as K. split; [reflexivity |]. symmetry.
    eapply (pairs_inj num _ _ _ _ (marks_wkt num N)); eassumption.
Qed.
Lemma segment_line_string {A} (num : A -> string) f a b : Segment_toString num f a b = LineString_toString num f [a; b].
Proof.
  destruct f; [reflexivity | |].
  - cbn [Segment_toString LineString_toString mapM]. destruct (Point_toString num FStandard a) as [x | |]; cbn [bind]; try reflexivity.
    destruct (Point_toString num FStandard b) as [y | |]; cbn [bind separated]; try reflexivity. do 2 f_equal. rewrite !app_assoc_s. reflexivity.
  - destruct a as [[a1 a2] |], b as [[b1 b2] |]; reflexivity.
Qed.
Lemma line_line_string {A} (num : A -> string) a b : Line_toString num FStandard a b = LineString_toString num FStandard [a; b].
Proof. rewrite <- segment_line_string. reflexivity. Qed.
Lemma c117_segment {A} (num : A -> string) f g a b c d t : texts_without [","%char; "]"%char; ")"%char; " "%char] num ->
  Segment_toString num f a b = Ok t -> Segment_toString num g c d = Ok t ->
  f = g /\ coordinates num a = coordinates num c /\ coordinates num b = coordinates num d.
Proof.
  intros N. rewrite !segment_line_string. intros H K. destruct (c117_line_string num f g [a; b] [c; d] t N H K) as [E1 E2]. injection E2 as E2 E3. auto.
Qed.
Lemma c117_line {A} (num : A -> string) f g a b c d t : texts_without [","%char; "]"%char; ")"%char; " "%char] num ->
  Line_toString num f a b = Ok t -> Line_toString num g c d = Ok t ->
  f = g /\ coordinates num a = coordinates num c /\ coordinates num b = coordinates num d.
Proof.
  intros N. destruct f, g; try discriminate. rewrite !line_line_string. intros H K.
  destruct (c117_line_string num _ _ [a; b] [c; d] t N H K) as [E1 E2]. injection E2 as E2 E3. auto.
Qed.
Lemma mapM_all {A B} (f : A -> result B) l : (exists t, mapM f l = Ok t) <-> forall x, In x l -> exists y, f x = Ok y.
Proof.
  induction l as [| a l IH]; cbn [mapM].
  - split; [intros _ x [] |]. intros _. eexists; reflexivity.
  - split.
    + intros [t H] x [<- | I]; destruct (f a) as [y | |] eqn:E; try discriminate; [eauto |]. cbn [bind] in H.
      destruct (mapM f l) as [k | |]; try discriminate. apply IH; [eauto | exact I].
    + intros H. destruct (H a (or_introl eq_refl)) as [y ->]. destruct (proj2 IH) as [t ->]; [intros x I; apply H; right; exact I |]. eexists; reflexivity.
Qed.
Lemma c117_printed {A} (num : A -> string) f :
  (forall a, (exists t, Point_toString num f a = Ok t) <-> a <> None /\ f <> FUndefined) /\
  (forall l, (exists t, PointSet_toString num f l = Ok t) <-> ~ In None l /\ f = FStandard) /\
  (forall l, (exists t, LineString_toString num f l = Ok t) <-> ~ In None l /\ f <> FUndefined) /\
  (forall a b, (exists t, Segment_toString num f a b = Ok t) <-> a <> None /\ b <> None /\ f <> FUndefined) /\
  (forall a b, (exists t, Line_toString num f a b = Ok t) <-> a <> None /\ b <> None /\ f = FStandard) /\
  (forall w, (exists t, Polygon_toString f w = Ok t) <-> w <> None /\ f <> FUndefined) /\
  ((exists t, Composite_toString f = Ok t) <-> f = FStandard).
Proof.
  assert (P : forall f a, (exists t, Point_toString num f a = Ok t) <-> a <> None /\ f <> FUndefined).
  { intros g a. split.
    - intros [t H]. destruct a as [[x y] |]; [| discriminate]. split; [discriminate |]. intros ->. discriminate.
    - intros [H K]. destruct a as [[x y] |]; [| congruence]. destruct g; [congruence | eexists; reflexivity | eexists; reflexivity]. }
  assert (L : forall f l, (exists t, LineString_toString num f l = Ok t) <-> ~ In None l /\ f <> FUndefined).
  { intros g l. destruct g; cbn [LineString_toString].
    - split; [intros [t H]; discriminate | intros [_ H]; congruence].
    - transitivity (exists t, mapM (Point_toString num FStandard) l = Ok t).
      { destruct (mapM (Point_toString num FStandard) l); cbn [bind]; split; intros [t H]; try discriminate; eexists; reflexivity. }
      rewrite mapM_all. split.
      + intros H. split; [| discriminate]. intros I. destruct (H None I). discriminate.
      + intros [H _] x I. apply P. split; [congruence | discriminate].
    - transitivity (exists t, mapM (pair_text num) l = Ok t).
      { destruct (mapM (pair_text num) l); cbn [bind]; split; intros [t H]; try discriminate; eexists; reflexivity. }
      rewrite mapM_all. split.
      + intros H. split; [| discriminate]. intros I. destruct (H None I). discriminate.
      + intros [H _] x I. destruct x as [[x y] |]; [eexists; reflexivity | congruence]. }
  assert (S : forall f a b, (exists t, Segment_toString num f a b = Ok t) <-> a <> None /\ b <> None /\ f <> FUndefined).
  { intros g a b. rewrite segment_line_string, L. cbn [In]. intuition congruence. }
  split; [apply P |]. split; [| split; [apply L |]; split; [apply S |]; split; [| split]].
  - intros l. destruct f; cbn [PointSet_toString].
    + split; [intros [t H]; discriminate | intros [_ H]; discriminate].
    + transitivity (exists t, mapM (Point_toString num FStandard) l = Ok t).
      { destruct (mapM (Point_toString num FStandard) l); cbn [bind]; split; intros [t H]; try discriminate; eexists; reflexivity. }
      rewrite mapM_all. split.
      * intros H. split; [| reflexivity]. intros I. destruct (H None I). discriminate.
      * intros [H _] x I. apply P. split; [congruence | discriminate].
    + split; [intros [t H]; discriminate | intros [_ H]; discriminate].
  - intros a b. destruct f.
    + split; [intros [t H]; discriminate | intros (_ & _ & H); discriminate].
    + rewrite line_line_string, L. cbn [In]. intuition congruence.
    + split; [intros [t H]; discriminate | intros (_ & _ & H); discriminate].
  - intros [w |]; destruct f; cbn; split; try (intros [t H]; discriminate); try (intros [H K]; congruence).
    all: try (intros _; split; discriminate); intros _; eexists; reflexivity.
  - destruct f; cbn; split; try (intros [t H]; discriminate); try discriminate; try reflexivity. intros _. eexists; reflexivity.
Qed.
(** Read without knowing the class, texts are ambiguous. *)
Lemma c117_classes_refuted {A} (num : A -> string) (o : A) : exists t a b,
  Segment_toString num FStandard a b = Ok t /\ Line_toString num FStandard a b = Ok t /\ LineString_toString num FStandard [a; b] = Ok t /\
  (exists u, PointSet_toString num FStandard [] = Ok u /\ LineString_toString num FStandard [] = Ok u) /\
  (exists u, PointSet_toString num FStandard [a] = Ok u /\ LineString_toString num FStandard [a] = Ok u) /\
  (forall f g u v, Composite_toString f = Ok u -> Composite_toString g = Ok v -> u = v).
Proof.
  eexists. exists (Some (o, o)), (Some (o, o)). split; [reflexivity |]. split; [reflexivity |]. split; [rewrite <- segment_line_string; reflexivity |].
  split; [eexists; split; reflexivity |]. split; [eexists; split; reflexivity |]. intros [] [] u v; try discriminate. intros [= <-] [= <-]. reflexivity.
Qed.
