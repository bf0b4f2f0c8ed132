(** The properties of the texts of vectors, matrices and quaternions: C110 to C113. *)

From Coq Require Import List Bool Reals Lra ZArith QArith Qabs Qpower String Ascii Lia Floats.SpecFloat.
From Verif Require Import Result RotModel TextModel TextSpec TextProofs TextProofs2 TextProofs3 TextProofs4 TextProofs5 FloatSpec TextProofs6.
Import ListNotations.
Local Open Scope string_scope.
Local Open Scope Z_scope.

(** 12, -3 and the binary64 number closest to 0.1, for the examples. *)
Definition twelve : spec_float := S754_finite false 6755399441055744 (-49).
Definition minus_three : spec_float := S754_finite true 6755399441055744 (-51).
Definition tenth : spec_float := S754_finite false 7205759403792794 (-56).
Lemma twelve_exact : exactly_printed twelve.
Proof. right; right. split; [reflexivity |]. exists 12. reflexivity. Qed.
Lemma minus_three_exact : exactly_printed minus_three.
Proof. right; right. split; [reflexivity |]. exists (-3). reflexivity. Qed.

(** *** C110: texts of vectors read back *)
(** Integers of any size, infinity and NaN are read back exactly. *)
Theorem C110_integers :
  forall l, l <> [] -> Forall exactly_printed l -> VectorXd_Parse (mx_toString (-1) (vector l)) = Ok l.
Proof. exact c110_integers. Qed.
Print Assumptions C110_integers.

(** All finite binary64 numbers are read back to 15 digits. *)
Theorem C110_accuracy :
  forall l, l <> [] -> Forall (fun x => binary64 x /\ exists q, means x q) l ->
  exists k, VectorXd_Parse (mx_toString (-1) (vector l)) = Ok k /\
    Forall2 (fun x y => exists q r, means x q /\ means y r /\ (Qabs (r - q) <= (6 # 1000000000000000) * Qabs q + (2 # 1) ^ (-1075))%Q) l k.
Proof. exact c110_accuracy. Qed.
Print Assumptions C110_accuracy.

(** Printed with p digits behind the point, numbers are read back to half a unit of the last one and the rounding of the number read. *)
Theorem C110_precision :
  forall p l, 0 <= p -> l <> [] -> Forall (fun x => exists q, means x q /\ (Qabs q <= (2 # 1) ^ 1022)%Q) l ->
  exists k, VectorXd_Parse (mx_toString p (vector l)) = Ok k /\
    Forall2 (fun x y => exists q r, means x q /\ means y r /\ (Qabs (r - q) <= (1 # 2) * (10 # 1) ^ (- p) + (12 # 100000000000000000) * (Qabs q + 1))%Q) l k.
Proof. exact c110_precision. Qed.
Print Assumptions C110_precision.

(** Printed without digits behind the point, halves go to the even neighbour. *)
Theorem C110_halves :
  forall x (n : Z), finite64 x -> rval x = (IZR n + / 2)%R -> exists k, rval (atof (element 0 x)) = (2 * IZR k)%R.
Proof. exact c110_halves. Qed.
Print Assumptions C110_halves.

(** C110 for all numbers is false: 0.1 + 0.2 is read back as 0.3 ... *)
Theorem C110_digits_refuted :
  exists x y q r, binary64 x /\ means x q /\ means y r /\ ~ (q == r)%Q /\
  VectorXd_Parse (mx_toString (-1) (vector [x])) = Ok [y].
Proof. exact c110_digits_refuted. Qed.
Print Assumptions C110_digits_refuted.

(** ... minus infinity as infinity ... *)
Theorem C110_infinity_refuted :
  exists x y, binary64 x /\ VectorXd_Parse (mx_toString (-1) (vector [x])) = Ok [y] /\ y <> x.
Proof. exact c110_infinity_refuted. Qed.
Print Assumptions C110_infinity_refuted.

(** ... and the text of the empty vector is rejected. *)
Theorem C110_empty_refuted :
  exists l, Forall exactly_printed l /\ VectorXd_Parse (mx_toString (-1) (vector l)) = Err ERuntime.
Proof. exact c110_empty_refuted. Qed.
Print Assumptions C110_empty_refuted.

Example C110_example : [twelve; minus_three] <> [] /\ Forall exactly_printed [twelve; minus_three] /\
  mx_toString (-1) (vector [twelve; minus_three; tenth]) = "[12.0, -3.0, 0.1]" /\ binary64 tenth /\ (exists q, means tenth q) /\
  mx_toString 3 (vector [twelve; minus_three; tenth]) = "[12.000, -3.000, 0.100]" /\
  (exists q, means tenth q /\ (Qabs q <= (2 # 1) ^ 1022)%Q) /\
  (let x := S754_finite false 5629499534213120 (-51) in finite64 x /\ rval x = (IZR 2 + / 2)%R /\ element 0 x = "2").
Proof.
  split; [discriminate |]. split; [apply Forall_cons; [exact twelve_exact |]; apply Forall_cons; [exact minus_three_exact | constructor] |].
  split; [vm_compute; reflexivity |]. split; [reflexivity |]. split; [eexists; reflexivity |]. split; [vm_compute; reflexivity |].
  split; [exists (7205759403792794 # 72057594037927936)%Q; split; [reflexivity |]; vm_compute; discriminate |].
  split; [reflexivity |]. split; [| vm_compute; reflexivity].
  unfold rval. change (powerRZ 2 (-51)) with (/ (2 ^ 51))%R. rewrite pow_IZR. change (2 ^ Z.of_nat 51)%Z with 2251799813685248%Z.
  field.
Qed.

(** *** C111: which texts are vectors *)
(** Any text between brackets is accepted ... *)
Theorem C111_accepted :
  forall s, (exists l, VectorXd_Parse s = Ok l) <-> exists u, u <> "" /\ s = "[" ++ u ++ "]".
Proof. exact c111_accepted. Qed.
Print Assumptions C111_accepted.

(** ... and all others are rejected with an error. *)
Theorem C111_rejected :
  forall s, (forall l, VectorXd_Parse s <> Ok l) -> VectorXd_Parse s = Err ERuntime.
Proof. exact c111_rejected. Qed.
Print Assumptions C111_rejected.

(** One number for each comma and one more, except behind a comma at the end. *)
Theorem C111_size :
  forall u l, VectorXd_Parse ("[" ++ u ++ "]") = Ok l ->
  (ends_with "," u -> List.length l = count "," u) /\ (~ ends_with "," u -> List.length l = S (count "," u)).
Proof. exact c111_size. Qed.
Print Assumptions C111_size.

(** The numbers are read one after the other. *)
Theorem C111_pieces :
  forall u v l k, ~ ends_with "," u -> VectorXd_Parse ("[" ++ u ++ "]") = Ok l -> VectorXd_Parse ("[" ++ v ++ "]") = Ok k ->
  VectorXd_Parse ("[" ++ u ++ "," ++ v ++ "]") = Ok (l ++ k)%list.
Proof. exact c111_pieces. Qed.
Print Assumptions C111_pieces.

(** Hexadecimal numbers, which are accepted too, are read exactly. *)
Theorem C111_hexadecimal :
  forall (neg : bool) ds fs, ds <> [] -> Forall (fun d => (d < 16)%nat) (ds ++ fs) -> hex_number (ds ++ fs) <= 2 ^ 53 ->
  (List.length fs <= 250)%nat ->
  let x := atof ((if neg then "-" else "") ++ "0x" ++ hex_text ds ++ "." ++ hex_text fs) in
  finite64 x /\ rval x = ((if neg then - 1 else 1) * IZR (hex_number (ds ++ fs)) / 16 ^ List.length fs)%R.
Proof. exact c111_hexadecimal. Qed.
Print Assumptions C111_hexadecimal.

(** That what is accepted is the text of a vector is false. *)
Theorem C111_garbage_refuted :
  exists s l, VectorXd_Parse s = Ok l /\ s = "[foo, bar,]" /\ l = [S754_zero false; S754_zero false].
Proof. exact c111_garbage_refuted. Qed.
Print Assumptions C111_garbage_refuted.

Example C111_example : VectorXd_Parse "[12, -3e0,.1]" = Ok [twelve; minus_three; tenth] /\ VectorXd_Parse "12" = Err ERuntime /\
  VectorXd_Parse "[12,]" = Ok [twelve] /\ ~ ends_with "," "12" /\ count "," "12, -3e0,.1" = 2%nat /\
  hex_text [1; 10]%nat = "1a" /\ hex_number [1; 10; 8]%nat = 424 /\ VectorXd_Parse "[-0x1.8p1]" = Ok [minus_three].
Proof.
  split; [vm_compute; reflexivity |]. split; [reflexivity |]. split; [vm_compute; reflexivity |]. split; [| repeat split; vm_compute; reflexivity].
  intros [r R]. destruct r as [| a [| b [| c r]]]; discriminate.
Qed.

(** *** C112: texts of quaternions *)
(** A quaternion is undefined exactly when a component is NaN. *)
Theorem C112_defined :
  forall q, q64_isDefined q = true <-> q64_x q <> S754_nan /\ q64_y q <> S754_nan /\ q64_z q <> S754_nan /\ q64_s q <> S754_nan.
Proof. exact c112_defined. Qed.
Print Assumptions C112_defined.

(** A quaternion is read back from its text in the same format. *)
Theorem C112_round_trip :
  forall q f t, q64_isDefined q = true ->
  Forall exactly_printed [q64_x q; q64_y q; q64_z q; q64_s q] ->
  q64_toString q f = Ok t -> q64_Parse t f = Ok q.
Proof. exact c112_round_trip. Qed.
Print Assumptions C112_round_trip.

(** In the other format its components are rotated. *)
Theorem C112_other_format :
  forall q t, q64_isDefined q = true ->
  Forall exactly_printed [q64_x q; q64_y q; q64_z q; q64_s q] ->
  q64_toString q XYZS = Ok t -> q64_Parse t SXYZ = Ok (mkQ64 (q64_y q) (q64_z q) (q64_s q) (q64_x q)).
Proof. exact c112_other_format. Qed.
Print Assumptions C112_other_format.

Theorem C112_errors :
  forall q f, (q64_toString q f = Err EUndefined <-> q64_isDefined q = false) /\ q64_Parse "" f = Err EUndefined.
Proof. exact c112_errors. Qed.
Print Assumptions C112_errors.

(** Exactly the texts of four numbers are accepted. *)
Theorem C112_four :
  forall s f, (exists q, q64_Parse s f = Ok q) <-> exists a b c d, VectorXd_Parse s = Ok [a; b; c; d].
Proof. exact c112_four. Qed.
Print Assumptions C112_four.

Theorem C112_components :
  forall a b c d f, q64_isDefined (Quaternion64 a b c d f) = true ->
  q64_toVector (Quaternion64 a b c d f) f = Ok [a; b; c; d].
Proof. exact c112_components. Qed.
Print Assumptions C112_components.

Theorem C112_precision :
  forall q f p, q64_toString_precision None q f = q64_toString q f /\
  (forall v, q64_toVector q f = Ok v -> q64_toString_precision (Some p) q f = Ok (mx_toString p (vector v))).
Proof. exact c112_precision. Qed.
Print Assumptions C112_precision.

Example C112_example : let q := mkQ64 twelve minus_three twelve twelve in
  q64_isDefined q = true /\ Forall exactly_printed [q64_x q; q64_y q; q64_z q; q64_s q] /\
  q64_toString q XYZS = Ok "[12.0, -3.0, 12.0, 12.0]" /\ q64_toString q SXYZ = Ok "[12.0, 12.0, -3.0, 12.0]" /\
  q64_Parse "[1, 2, 3]" XYZS = Err ERuntime.
Proof.
  intros q. split; [reflexivity |]. split.
  { apply Forall_cons; [exact twelve_exact |]. apply Forall_cons; [exact minus_three_exact |]. apply Forall_cons; [exact twelve_exact |]. apply Forall_cons; [exact twelve_exact | constructor]. }
  repeat split; vm_compute; reflexivity.
Qed.

(** *** C113: texts of matrices *)
(** A vector or matrix is defined exactly when no element is NaN or infinite. *)
Theorem C113_defined :
  forall m, mx_isDefined m = true <->
  forall row x, In row (mx_rows m) -> In x row -> x <> S754_nan /\ x <> S754_infinity false /\ x <> S754_infinity true.
Proof. exact c113_defined. Qed.
Print Assumptions C113_defined.

(** Two matrices of the same text have the same shape and element by element the same texts. *)
Theorem C113_unambiguous :
  forall p r c r' c' a b, (0 < r)%nat -> (0 < c)%nat -> (0 < r')%nat -> (0 < c')%nat ->
  shaped r c a -> shaped r' c' b -> mx_toString p a = mx_toString p b ->
  r = r' /\ c = c' /\ same_texts p a b.
Proof. exact c113_unambiguous. Qed.
Print Assumptions C113_unambiguous.

(** With elements that are printed exactly they are the same matrix. *)
Theorem C113_integers :
  forall r c r' c' a b, (0 < r)%nat -> (0 < c)%nat -> (0 < r')%nat -> (0 < c')%nat ->
  shaped r c a -> shaped r' c' b -> Forall (Forall exactly_printed) (mx_rows a) -> Forall (Forall exactly_printed) (mx_rows b) ->
  (mx_toString (-1) a = mx_toString (-1) b <-> a = b).
Proof. exact c113_integers. Qed.
Print Assumptions C113_integers.

(** With a precision, or with elements that are not printed exactly, they may be different. *)
Theorem C113_precision_refuted :
  exists p a b, shaped 1 1 a /\ shaped 1 1 b /\ Forall (Forall binary64) (mx_rows a) /\ Forall (Forall binary64) (mx_rows b) /\
  mx_toString p a = mx_toString p b /\ a <> b.
Proof. exact c113_precision_refuted. Qed.
Print Assumptions C113_precision_refuted.

Example C113_example : let a := mkMatrix 2 [[twelve; minus_three]; [minus_three; twelve]] in
  shaped 2 2 a /\ Forall (Forall exactly_printed) (mx_rows a) /\ mx_toString (-1) a = "[[12.0, -3.0], [-3.0, 12.0]]".
Proof.
  intros a. split; [repeat constructor |]. split; [| vm_compute; reflexivity].
  apply Forall_cons; [| apply Forall_cons; [| constructor]].
  - apply Forall_cons; [exact twelve_exact |]. apply Forall_cons; [exact minus_three_exact | constructor].
  - apply Forall_cons; [exact minus_three_exact |]. apply Forall_cons; [exact twelve_exact | constructor].
Qed.
