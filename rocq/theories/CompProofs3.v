(** The operations of Object (C108). *)

From Coq Require Import List Bool Reals Lra Lia Arith.
From Verif Require Poly2Proofs3.
From Verif Require Import Result DOrder Vec VecProofs Mat3 AngleModel RotModel TransfModel RotProofs Geo3Types Geo3Model Geo3Spec Geo3Proofs Geo3Proofs2 GteModel GteSpec SphereModel SphereSpec SphereProofs EllModel CuboidModel InterModel
  Poly2Model ConeModel PyrModel CompModel CompSpec CompProofs CompProofs2.
Import ListNotations.
Local Open Scope R_scope.

(** *** Equality *)
Lemma and_all {A} (P : A -> Prop) l : fold_right and True (map P l) <-> forall x, In x l -> P x.
Proof. induction l as [| a l IH]; cbn [map fold_right]; [split; [intros _ ? [] | trivial] |]. rewrite IH. split; [intros [H K] x [<- | I]; auto | intros H; split; [apply H; left; reflexivity | intros x I; apply H; right; exact I]]. Qed.
Lemma or_any {A} (P : A -> Prop) l : fold_right or False (map P l) <-> exists x, In x l /\ P x.
Proof.
  induction l as [| a l IH]; cbn [map fold_right]; [split; [intros [] | intros (x & [] & _)] |]. rewrite IH.
  split; [intros [H | (x & I & H)]; [exists a; split; [left; reflexivity | exact H] | exists x; split; [right; exact I | exact H]] | intros (x & [<- | I] & H); [left; exact H | right; exists x; split; assumption]].
Qed.
Lemma same_all_iff l k : same_all (map same_obj l) k <-> Forall2 same_obj l k.
Proof.
  revert k. induction l as [| a l IH]; intros [| b k]; cbn [map same_all].
  - split; [constructor | trivial].
  - split; [intros [] | intros F; inversion F].
  - split; [intros [] | intros F; inversion F].
  - rewrite IH. split; [intros [H K]; constructor; assumption | intros F; inversion F; split; assumption].
Qed.
Lemma plain_defined o : plain o -> obj_isDefined o = true.
Proof.
  induction o as [o L | d l IH] using obj_nested.
  - destruct o; try destruct L; cbn [plain obj_isDefined]; try contradiction.
    + intros (q & ->). reflexivity.
    + intros [N _]. destruct s; [congruence | reflexivity].
    + intros (o & d & -> & _). reflexivity.
    + intros (o & d & -> & _). reflexivity.
    + intros (a & b & ->). reflexivity.
    + intros (m & N & ->). destruct m; [congruence | reflexivity].
    + intros (q & n & -> & _). reflexivity.
    + intros (c & r & -> & _). reflexivity.
  - cbn [plain obj_isDefined]. rewrite and_all. intros [-> H]. apply forallb_forall. intros x I. apply IH; auto.
Qed.
Lemma zip_ok v l : forall k, length l = length k -> (forall x y, In x l -> In y k -> exists r, obj_eq v x y = Ok r /\ (r = true <-> same_obj x y)) ->
  exists r, zip_eq (map (obj_eq v) l) k = Ok r /\ (r = true <-> Forall2 same_obj l k).
Proof.
  induction l as [| a l IH]; intros [| b k] N H; try discriminate.
  - exists true. split; [reflexivity |]. split; [constructor | reflexivity].
  - cbn [map zip_eq]. destruct (H a b) as (r & E & R); [left; reflexivity | left; reflexivity |]. rewrite E. cbn [bind]. destruct r; cbn [negb].
    + destruct (IH k) as (r & E' & R'); [injection N; trivial | intros; apply H; right; assumption |]. exists r. split; [exact E' |]. rewrite R'. split; [intros F; constructor; [apply R; reflexivity | exact F] | intros F; inversion F; assumption].
    + exists false. split; [reflexivity |]. split; [discriminate |]. intros F. inversion F; subst. apply R. assumption.
Qed.
Lemma sure b (P : Prop) : (b = true <-> P) -> exists r, Ok b = Ok r /\ (r = true <-> P).
Proof. intros H. exists b. split; [reflexivity | exact H]. Qed.
Lemma c108_equal v a : forall b, plain a -> plain b -> exists r, obj_eq v a b = Ok r /\ (r = true <-> same_obj a b).
Proof.
  induction a as [a L | d l IH] using obj_nested; intros b Pa Pb.
  - pose proof (plain_defined a Pa) as Da. pose proof (plain_defined b Pb) as Db.
    destruct a; try destruct L; try contradiction; destruct b; try contradiction;
      cbn [obj_eq]; rewrite Da, Db; cbn [negb orb]; try (exists false; split; [reflexivity |]; split; [discriminate | intros []]); cbn [same_obj plain] in *.
    + destruct Pa as (p' & ->), Pb as (q & ->). apply sure. cbn [pt_eq points_of]. unfold same_points. split; [intros H; apply v3_eqb_iff in H; subst q; reflexivity | intros H; apply v3_eqb_iff, H; reflexivity].
    + destruct Pa as [Na Ka], Pb as [Nb Kb]. apply sure. exact (c51_equal s s0 Ka Kb).
    + destruct Pa as (o & e & G), Pb as (o' & e' & G'). destruct (c84_line _ _ _ _ _ _ G G') as (r & E & R). destruct G as [-> _], G' as [-> _]. exists r. split; [exact E | exact R].
    + destruct Pa as (o & e & G), Pb as (o' & e' & G'). pose proof (c84_ray _ _ _ _ _ _ G G') as R. destruct G as [-> _], G' as [-> _]. apply sure. exact R.
    + destruct Pa as (x & y & G), Pb as (x' & y' & G'). pose proof (c84_segment _ _ _ _ _ _ G G') as R. subst. apply sure. exact R.
    + destruct Pa as (m & N & ->), Pb as (m' & N' & ->). apply sure. rewrite c87_equal. split; [intros ->; reflexivity |]. intros H. clear - H. revert m' H. induction m as [| x m IHm]; intros [| y m'] H; try discriminate; [reflexivity |]. injection H as -> H. f_equal. apply IHm, H.
    + destruct Pa as (o & e & G), Pb as (o' & e' & G'). destruct (c84_plane _ _ _ _ _ _ G G') as (r & E & R). destruct G as [-> _], G' as [-> _]. exists r. split; [exact E | exact R].
    + destruct Pa as (o & e & G), Pb as (o' & e' & G'). pose proof (c52_equal _ _ _ _ _ _ G G') as R. destruct G as [-> _], G' as [-> _]. apply sure. exact R.
  - pose proof (plain_defined _ Pa) as Da. pose proof (plain_defined b Pb) as Db.
    destruct b as [| | | | | | | | | | | | | d' k]; try contradiction; try (cbn [obj_eq]; rewrite Da, Db; exists false; split; [reflexivity |]; split; [discriminate | intros []]).
    cbn [obj_eq]. rewrite Da, Db. cbn [negb orb]. change (same_obj (OComposite d l) (OComposite d' k)) with (same_all (map same_obj l) k). cbn [plain] in Pa, Pb. rewrite and_all in Pa, Pb. destruct Pa as [_ Pa], Pb as [_ Pb].
    destruct (Nat.eqb (length l) (length k)) eqn:N; cbn [negb].
    + apply Nat.eqb_eq in N. destruct (zip_ok v l k N) as (r & E & R); [intros x y X Y; apply (IH x X); auto |]. exists r. split; [exact E |]. rewrite same_all_iff. exact R.
    + exists false. split; [reflexivity |]. split; [discriminate |]. intros F. apply same_all_iff, Forall2_len in F. apply Nat.eqb_neq in N. contradiction.
Qed.
(** ... so that equality is an equivalence. *)
Lemma same_refl a : plain a -> same_obj a a.
Proof.
  induction a as [a L | d l IH] using obj_nested.
  - destruct a; try destruct L; cbn [plain same_obj]; try contradiction; intros _; try reflexivity; intros z; reflexivity.
  - cbn [plain]. rewrite and_all. intros [_ H]. change (same_all (map same_obj l) l). rewrite same_all_iff. induction l as [| x l IHl]; constructor; [apply IH; [| apply H]; left; reflexivity |].
    apply IHl; intros; [apply IH | apply H]; try right; assumption.
Qed.
Lemma same_sym a : forall b, same_obj a b -> same_obj b a.
Proof.
  induction a as [a L | d l IH] using obj_nested; intros b.
  - destruct a; try destruct L; destruct b; cbn [same_obj]; try contradiction; try congruence; intros H z; symmetry; apply H.
  - destruct b as [| | | | | | | | | | | | | d' k]; try (intros []). change (same_all (map same_obj l) k -> same_all (map same_obj k) l). rewrite !same_all_iff.
    revert k. induction l as [| x l IHl]; intros k F; inversion F as [| x' y l' k' S F']; subst; constructor; [apply IH; [left; reflexivity | exact S] | apply IHl; [intros; apply IH; [right |]; assumption | exact F']].
Qed.
Lemma same_trans a : forall b c, same_obj a b -> same_obj b c -> same_obj a c.
Proof.
  induction a as [a L | d l IH] using obj_nested; intros b c.
  - destruct a; try destruct L; destruct b; cbn [same_obj]; try contradiction; destruct c; try contradiction; try congruence; intros H K z; rewrite (H z); apply K.
  - destruct b as [| | | | | | | | | | | | | d' k]; try (intros []). destruct c as [| | | | | | | | | | | | | d'' m]; try (intros _ []). change (same_all (map same_obj l) k -> same_all (map same_obj k) m -> same_all (map same_obj l) m). rewrite !same_all_iff.
    revert k m. induction l as [| x l IHl]; intros k m F K; inversion F as [| x' y l' k' S F']; subst; inversion K as [| y' z k'' m' T K']; subst; constructor; [eapply IH; [left; reflexivity | exact S | exact T] | eapply IHl; [intros; eapply IH; [right; assumption | eassumption | eassumption] | exact F' | exact K']].
Qed.
Lemma c108_equivalence v a b c : plain a -> plain b -> plain c ->
  obj_eq v a a = Ok true /\ obj_eq v a b = obj_eq v b a /\ (obj_eq v a b = Ok true -> obj_eq v b c = Ok true -> obj_eq v a c = Ok true).
Proof.
  intros A B C. destruct (c108_equal v a a A A) as (r & E & R). destruct (c108_equal v a b A B) as (s & F & S), (c108_equal v b a B A) as (s' & F' & S'), (c108_equal v b c B C) as (t & G & T), (c108_equal v a c A C) as (u & H & U).
  rewrite E, F, F', G, H. split; [f_equal; apply R, same_refl, A |]. split.
  - f_equal. apply eq_true_iff_eq. rewrite S, S'. split; apply same_sym.
  - intros K K'. injection K as ->. injection K' as ->. f_equal. apply U. apply same_trans with b; [apply S | apply T]; reflexivity.
Qed.
Lemma zip_iff v l : forall k, length l = length k -> zip_eq (map (obj_eq v) l) k = Ok true <-> Forall2 (fun x y => obj_eq v x y = Ok true) l k.
Proof.
  induction l as [| a l IH]; intros [| b k] N; try discriminate; cbn [map zip_eq].
  - split; [constructor | reflexivity].
  - injection N as N. split.
    + destruct (obj_eq v a b) as [[] | |] eqn:E; cbn [bind negb]; try discriminate. intros H. constructor; [exact E | apply IH; assumption].
    + intros F. inversion F as [| x y l' k' E F']; subst. rewrite E. cbn [bind negb]. apply IH; assumption.
Qed.
Lemma c61_equal v c d : cs_isDefined c = true -> cs_isDefined d = true -> (cs_eq v c d = Ok true <-> Forall2 (fun x y => obj_eq v x y = Ok true) (snd c) (snd d)).
Proof.
  intros C D. unfold cs_eq. rewrite C, D. cbn [negb orb]. destruct (Nat.eqb (length (snd c)) (length (snd d))) eqn:N; cbn [negb].
  - apply zip_iff, Nat.eqb_eq, N.
  - split; [discriminate |]. intros F. apply Forall2_len in F. apply Nat.eqb_neq in N. contradiction.
Qed.
Lemma c62_equal v l r : (forall o, In o (l ++ r) -> obj_isDefined o = true) -> inter_isDefined (Intersection l) = true -> inter_isDefined (Intersection r) = true ->
  (inter_eq v (Intersection l) (Intersection r) = Ok true <-> type_of_objects l = type_of_objects r /\ Forall2 (fun x y => obj_eq v x y = Ok true) l r).
Proof.
  intros H L R. unfold inter_eq. rewrite L, R. cbn [negb orb Intersection i_type]. unfold i_composite. cbn [i_defined i_objects].
  destruct (itype_eqb (type_of_objects l) (type_of_objects r)) eqn:T.
  - apply itype_eqb_iff in T. rewrite c61_equal by (apply cs_defined; split; [reflexivity |]; intros o I; apply H, in_app_iff; tauto). cbn [snd]. tauto.
  - apply itype_eqb_false in T. split; [discriminate | tauto].
Qed.
Lemma c108_equal_undefined v a b : obj_isDefined a = false \/ obj_isDefined b = false -> obj_eq v a b = Ok false.
Proof. intros H. assert (E : negb (obj_isDefined a) || negb (obj_isDefined b) = true) by (destruct H as [-> | ->]; [reflexivity | apply orb_true_r]). destruct a; cbn [obj_eq]; rewrite E; reflexivity. Qed.

(** *** Intersections *)
Lemma plane_answer q n p : pl_contains (mkPlane (Some q) (Some n)) (Some p) = Ok (Reqb (dot3 (sub3 p q) n) 0).
Proof. reflexivity. Qed.
Lemma c108_intersects v a : forall b, sphere_queries (e3_gte v) -> plain a -> plain b -> decided a b ->
  exists r, obj_intersects v a b = Ok r /\ (r = true <-> exists p, body_of a p /\ body_of b p).
Proof.
  induction a as [a L | d l IH] using obj_nested; intros b Q Pa Pb T.
  - pose proof (plain_defined b Pb) as Db.
    destruct a; try destruct L; try contradiction; destruct b; try contradiction; cbn [obj_intersects]; rewrite Db; cbn [negb plain] in *.
    + destruct Pa as (o & e & G), Pb as (q & n & G'). destruct (c48_line o e q n) as (r & i & E & _ & R & _). destruct G as [-> _], G' as [-> _]. exists r. split; [exact E | exact R].
    + destruct Pa as (o & e & G), Pb as (c & k & G'). destruct (c52_intersects _ _ _ _ Q G') as (S & _). destruct (S _ _ _ G) as (r & E & R). destruct G as [-> _], G' as [-> _]. exists r. split; [exact E | exact R].
    + destruct Pa as (o & e & G), Pb as (q & n & G'). destruct (c48_ray o e q n) as (x & i & E & _ & R & _). destruct G as [-> _], G' as [-> _]. exists x. split; [exact E | exact R].
    + destruct Pa as (o & e & G), Pb as (c & k & G'). destruct (c52_intersects _ _ _ _ Q G') as (_ & S & _). destruct (S _ _ _ G) as (x & E & R). destruct G as [-> _], G' as [-> _]. exists x. split; [exact E | exact R].
    + destruct Pa as (x & y & ->), Pb as (q & n & G'). destruct (c48_segment x y q n) as (r & i & E & _ & R & _). destruct G' as [-> _]. exists r. split; [exact E | exact R].
    + destruct Pa as (q & n & G), Pb as (x & ->). destruct G as [-> _]. rewrite plane_answer. apply sure. rewrite Reqb_iff, dot3_sym. cbn [body_of points_of]. unfold on_plane. split; [intros H; exists x; split; [exact H | reflexivity] | intros (p & H & ->); exact H].
    + destruct Pa as (q & n & G), Pb as [N K]. destruct G as [-> _]. destruct (c86_pointset q n s N) as (_ & r & _ & _ & E & R). exists r. split; [exact E |]. rewrite R. cbn [body_of points_of]. split; intros (x & H & H'); exists x; split; assumption.
    + destruct Pb as (o & e & G), Pa as (q & n & G'). destruct (c48_line o e q n) as (r & i & E & _ & R & _). destruct G as [-> _], G' as [-> _]. exists r. split; [exact E |]. rewrite R. cbn [body_of points_of]. split; intros (x & H & H'); exists x; split; assumption.
    + destruct Pb as (o & e & G), Pa as (q & n & G'). destruct (c48_ray o e q n) as (x & i & E & _ & R & _). destruct G as [-> _], G' as [-> _]. exists x. split; [exact E |]. rewrite R. cbn [body_of points_of]. split; intros (y & H & H'); exists y; split; assumption.
    + destruct Pb as (x & y & ->), Pa as (q & n & G'). destruct (c48_segment x y q n) as (r & i & E & _ & R & _). destruct G' as [-> _]. exists r. split; [exact E |]. rewrite R. cbn [body_of points_of]. split; intros (z & H & H'); exists z; split; assumption.
    + destruct Pb as (o & e & G), Pa as (c & k & G'). destruct (c52_intersects _ _ _ _ Q G') as (S & _). destruct (S _ _ _ G) as (r & E & R). destruct G as [-> _], G' as [-> _]. exists r. split; [exact E |]. unfold decides in R. rewrite R. cbn [body_of points_of]. split; intros (z & H & H'); exists z; split; assumption.
    + destruct Pb as (o & e & G), Pa as (c & k & G'). destruct (c52_intersects _ _ _ _ Q G') as (_ & S & _). destruct (S _ _ _ G) as (x & E & R). destruct G as [-> _], G' as [-> _]. exists x. split; [exact E |]. unfold decides in R. rewrite R. cbn [body_of points_of]. split; intros (z & H & H'); exists z; split; assumption.
  - pose proof (plain_defined _ Pa) as Da. pose proof (plain_defined b Pb) as Db. cbn [plain] in Pa. rewrite and_all in Pa. destruct Pa as [-> Pa].
    assert (T' : forall x, In x l -> decided x b) by (apply and_all; exact T).
    destruct (anyM_ok (fun x => obj_intersects v x b) (fun x => exists p, body_of x p /\ body_of b p) l) as (r & E & R); [intros x X; apply IH; auto |].
    exists r. split.
    + rewrite <- E, <- Poly2Proofs3.anyM_map. cbn [obj_intersects]. rewrite Db, Da. destruct b; reflexivity.
    + rewrite R. change (body_of (OComposite true l)) with (fun p => fold_right or False (map (fun x => body_of x p) l)). cbv beta. split.
      * intros (x & X & p & H & H'). exists p. split; [apply (or_any (fun x => body_of x p)); exists x; split; assumption | exact H'].
      * intros (p & H & H'). apply (or_any (fun x => body_of x p)) in H. destruct H as (x & X & H). exists x. split; [exact X |]. exists p. split; assumption.
Qed.
Lemma c108_contains v a : forall b, plain a -> plain b -> planes a -> flat b ->
  exists r, obj_contains v a b = Ok r /\ (r = true <-> forall p, points_of b p -> common_of a p).
Proof.
  induction a as [a L | d l IH] using obj_nested; intros b Pa Pb T F.
  - pose proof (plain_defined b Pb) as Db. destruct a; try destruct L; try contradiction. destruct Pa as (q & n & G). destruct G as [-> _].
    destruct b; try contradiction; cbn [obj_contains]; rewrite Db; cbn [negb plain] in *; cbn [common_of points_of].
    + destruct Pb as (x & ->). rewrite plane_answer. apply sure. rewrite Reqb_iff, dot3_sym. unfold on_plane. split; [intros H p0 ->; exact H | intros H; apply H; reflexivity].
    + destruct Pb as [N K]. destruct (c86_pointset q n s N) as (r & _ & E & R & _). exists r. split; [exact E | exact R].
    + destruct Pb as (o & e & -> & _). destruct (c86_line q n o e) as (r & E & R). exists r. split; [exact E | exact R].
    + destruct Pb as (o & e & -> & _). destruct (c86_ray q n o e) as (x & E & R). exists x. split; [exact E | exact R].
    + destruct Pb as (x & y & ->). destruct (c86_segment q n x y) as (r & E & R). exists r. split; [exact E | exact R].
  - pose proof (plain_defined _ Pa) as Da. pose proof (plain_defined b Pb) as Db. cbn [plain] in Pa. rewrite and_all in Pa. destruct Pa as [-> Pa].
    assert (T' : forall x, In x l -> planes x) by (apply and_all; exact T).
    destruct (allM_ok (fun x => obj_contains v x b) (fun x => forall p, points_of b p -> common_of x p) l) as (r & E & R); [intros x X; apply IH; auto |].
    exists r. split.
    + rewrite <- E, <- Poly2Proofs3.allM_map. cbn [obj_contains]. rewrite Db, Da. destruct b; reflexivity.
    + rewrite R. change (common_of (OComposite true l)) with (fun p => fold_right and True (map (fun x => common_of x p) l)). cbv beta. split.
      * intros H p Hp. apply (and_all (fun x => common_of x p)). intros x X. apply H; assumption.
      * intros H x X p Hp. specialize (H p Hp). rewrite (and_all (fun x => common_of x p)) in H. apply H, X.
Qed.

(** *** Both directions *)
Lemma no_composite v a d l : leaf a -> forall r, obj_intersects v a (OComposite d l) <> Ok r.
Proof. intros L r. destruct a; try destruct L; cbn [obj_intersects]; destruct (negb (obj_isDefined (OComposite d l))); discriminate. Qed.
Lemma no_composite_inter n v a d l : leaf a -> forall r, obj_inter n v a (OComposite d l) <> Ok r.
Proof. intros L r. destruct a; try destruct L; cbn [obj_inter]; destruct (negb (obj_isDefined (OComposite d l))); discriminate. Qed.
Lemma anyM_false {A} (f : A -> result bool) l r : (forall x b, In x l -> f x = Ok b -> b = false) -> anyM f l = Ok r -> r = false.
Proof.
  intros H E. induction l as [| a l IH]; cbn [anyM] in E; [congruence |]. destruct (f a) as [[] | |] eqn:F; cbn [bind] in E; try discriminate; [specialize (H a true (or_introl eq_refl) F); discriminate |].
  apply IH; [intros x b I; apply H; right; exact I | exact E].
Qed.
Lemma composites_apart v a : forall d l r, obj_intersects v a (OComposite d l) = Ok r -> r = false.
Proof.
  induction a as [a L | d' k IH] using obj_nested; intros d l r E; [destruct (no_composite v a d l L r E) |].
  cbn [obj_intersects] in E. destruct (negb (obj_isDefined (OComposite d l))); [discriminate |]. destruct (negb (obj_isDefined (OComposite d' k))); [discriminate |]. rewrite Poly2Proofs3.anyM_map in E.
  refine (anyM_false _ k r _ E). intros x b X F. exact (IH x X d l b F).
Qed.
Lemma c108_symmetric v a b r s : obj_intersects v a b = Ok r -> obj_intersects v b a = Ok s -> r = s.
Proof.
  intros E F. destruct (match a with OComposite _ _ => true | _ => false end) eqn:Ka.
  - destruct a as [| | | | | | | | | | | | | d l]; try discriminate. rewrite (composites_apart v b d l s F). destruct (match b with OComposite _ _ => true | _ => false end) eqn:Kb.
    + destruct b as [| | | | | | | | | | | | | d' k]; try discriminate. exact (composites_apart v _ d' k r E).
    + assert (L : leaf b) by (destruct b; try exact I; discriminate). destruct (no_composite v b d l L s F).
  - assert (L : leaf a) by (destruct a; try exact I; discriminate). destruct b as [| | | | | | | | | | | | | d' k]; try (destruct (no_composite v a d' k L r E));
      destruct a; try discriminate; cbn [obj_intersects] in E, F;
      (destruct (obj_isDefined _) in E; cbn [negb] in E; [| discriminate]); (destruct (obj_isDefined _) in F; cbn [negb] in F; [| discriminate]); congruence.
Qed.
Lemma add_nothing l : forall i j, (forall r k, In r l -> r = Ok k -> k = inter_empty) -> add_inters i l = Ok j -> j = i.
Proof.
  induction l as [| r l IH]; intros i j H E; [injection E as <-; reflexivity |]. cbn [add_inters] in E. apply bind_ok in E. destruct E as (x & Ex & E). apply bind_ok in E. destruct E as (y & Ey & E).
  rewrite (H r x (or_introl eq_refl) Ex) in Ey. cbn in Ey. injection Ey as <-. apply (IH _ _ (fun r' k I => H r' k (or_intror I)) E).
Qed.
Lemma composites_empty n v a : forall d l i, obj_inter n v a (OComposite d l) = Ok i -> i = inter_empty.
Proof.
  induction a as [a L | d' k IH] using obj_nested; intros d l i E; [destruct (no_composite_inter n v a d l L i E) |].
  cbn [obj_inter] in E. destruct (negb (obj_isDefined (OComposite d l))); [discriminate |]. destruct (negb (obj_isDefined (OComposite d' k))); [discriminate |].
  refine (add_nothing _ _ _ _ E). intros r j I R. apply in_map_iff in I. destruct I as (x & <- & X). exact (IH x X d l j R).
Qed.
Lemma c108_inter_symmetric n v a b i j : obj_inter n v a b = Ok i -> obj_inter n v b a = Ok j -> i = j.
Proof.
  intros E F. destruct (match a with OComposite _ _ => true | _ => false end) eqn:Ka.
  - destruct a as [| | | | | | | | | | | | | d l]; try discriminate. rewrite (composites_empty n v b d l j F). destruct (match b with OComposite _ _ => true | _ => false end) eqn:Kb.
    + destruct b as [| | | | | | | | | | | | | d' k]; try discriminate. exact (composites_empty n v _ d' k i E).
    + assert (L : leaf b) by (destruct b; try exact I; discriminate). destruct (no_composite_inter n v b d l L j F).
  - assert (L : leaf a) by (destruct a; try exact I; discriminate). destruct b as [| | | | | | | | | | | | | d' k]; try (destruct (no_composite_inter n v a d' k L i E));
      destruct a; try discriminate; cbn [obj_inter] in E, F;
      (destruct (obj_isDefined _) in E; cbn [negb] in E; [| discriminate]); (destruct (obj_isDefined _) in F; cbn [negb] in F; [| discriminate]); try congruence; destruct (polygons_never _ _ _ _ E).
Qed.
Lemma c108_undefined n v a b : obj_isDefined b = false -> obj_intersects v a b = Err EUndefined /\ obj_contains v a b = Err EUndefined /\ obj_inter n v a b = Err EUndefined.
Proof. intros D. destruct a; cbn [obj_intersects obj_contains obj_inter]; rewrite D; repeat split. Qed.
(** The intersection of two polygons calls itself for ever: no number of calls is enough. *)
Lemma c108_polygons_diverge : forall v p q, pg_isDefined p = true -> pg_isDefined q = true -> forall n, obj_inter n v (OPolygon p) (OPolygon q) = Err OutOfFuel.
Proof.
  intros v p q P Q n. cbn [obj_inter obj_isDefined]. rewrite Q. cbn [negb]. induction n as [| n IH]; [reflexivity |]. cbn [polygons_inter]. rewrite Q. exact IH.
Qed.
Lemma c108_polygons_refuted : exists p q, pg_isDefined p = true /\ pg_isDefined q = true /\ forall v n, obj_inter n v (OPolygon p) (OPolygon q) = Err OutOfFuel.
Proof.
  set (p := mkPolygon (mkPoly2 [V2 0 0; V2 0 1; V2 1 0; V2 0 0] []) (Some zero3) (Some (V3 1 0 0)) (Some (V3 0 1 0))).
  exists p, p. split; [reflexivity |]. split; [reflexivity |]. intros v n. apply c108_polygons_diverge; reflexivity.
Qed.
(** A plane intersects a point but the point does not intersect the plane. *)
Lemma c108_one_way_refuted : exists a b, obj_isDefined a = true /\ obj_isDefined b = true /\ forall v, obj_intersects v a b = Ok true /\ obj_intersects v b a = Err EToBeImplemented.
Proof.
  exists (OPlane (mkPlane (Some zero3) (Some (V3 0 0 1)))), (OPoint (Some zero3)). split; [reflexivity |]. split; [reflexivity |]. intros v. split; [| reflexivity].
  cbn [obj_intersects obj_isDefined isSome negb]. rewrite plane_answer. f_equal. apply Reqb_iff. v3unfold. ring.
Qed.
(** Points in spheres, ellipsoids and cuboids are never looked at. *)
Lemma c108_solids_unimplemented : forall v p s e c, obj_contains v (OSphere s) (OPoint (Some p)) = Err EToBeImplemented /\ obj_contains v (OEllipsoid e) (OPoint (Some p)) = Err EToBeImplemented /\ obj_contains v (OCuboid c) (OPoint (Some p)) = Err EToBeImplemented.
Proof. repeat split. Qed.
Lemma c108_solids_refuted : exists s p, obj_isDefined s = true /\ obj_isDefined (OPoint p) = true /\ points_of s zero3 /\ p = Some zero3 /\ forall v, obj_contains v s (OPoint p) = Err EToBeImplemented.
Proof.
  exists (OSphere (mkSphere (Some (V3 1 0 0)) (Some 1))), (Some zero3). split; [reflexivity |]. split; [reflexivity |]. split; [| split; reflexivity].
  cbn [points_of]. unfold on_sphere, dist3, norm3. v3unfold. replace (_ + _) with 1 by ring. apply sqrt_1.
Qed.
Lemma allM_true {A} (f : A -> result bool) l : allM f l = Ok true <-> forall x, In x l -> f x = Ok true.
Proof.
  induction l as [| a l IH]; cbn [allM]; [split; [intros _ ? [] | reflexivity] |]. split.
  - destruct (f a) as [[] | |] eqn:E; cbn [bind]; try discriminate. rewrite IH. intros H x [<- | I]; auto.
  - intros H. rewrite (H a (or_introl eq_refl)). cbn [bind]. apply IH. intros x I. apply H. right. exact I.
Qed.
Lemma anyM_all_false {A} (f : A -> result bool) l : anyM f l = Ok false <-> forall x, In x l -> f x = Ok false.
Proof.
  induction l as [| a l IH]; cbn [anyM]; [split; [intros _ ? [] | reflexivity] |]. split.
  - destruct (f a) as [[] | |] eqn:E; cbn [bind]; try discriminate. rewrite IH. intros H x [<- | I]; auto.
  - intros H. rewrite (H a (or_introl eq_refl)). cbn [bind]. apply IH. intros x I. apply H. right. exact I.
Qed.
(** Without assuming that the elements answer. *)
Lemma c61_exact v c o : cs_isDefined c = true -> obj_isDefined o = true ->
  (cs_contains v c o = Ok true <-> forall x, In x (snd c) -> obj_contains v x o = Ok true)
  /\ (cs_intersects v c o = Ok false <-> forall x, In x (snd c) -> obj_intersects v x o = Ok false)
  /\ (cs_intersects v c o = Ok true -> exists x, In x (snd c) /\ obj_intersects v x o = Ok true).
Proof.
  intros D O. rewrite contains_eq, intersects_eq by assumption. split; [apply allM_true |]. split; [apply anyM_all_false |].
  induction (snd c) as [| a l IH]; cbn [anyM]; [discriminate |]. destruct (obj_intersects v a o) as [[] | |] eqn:E; cbn [bind]; try discriminate.
  - intros _. exists a. split; [left; reflexivity | exact E].
  - intros H. destruct (IH H) as (x & X & K). exists x. split; [right; exact X | exact K].
Qed.
