(** What the texts of numbers, vectors and matrices should be, independently of the way they are printed and parsed. *)

From Coq Require Import List Bool ZArith QArith Qabs Qpower String Ascii Floats.SpecFloat.
From Verif Require Import Result TextModel.
Import ListNotations.
Local Open Scope string_scope.

(** *** Numbers *)
(** A binary64 number. *)
Definition binary64 (x : spec_float) : Prop := valid_binary 53 1024 x = true.
(** [x] is the finite number [q]. *)
Definition means (x : spec_float) (q : Q) : Prop :=
  match x with
  | S754_zero _ => q == 0
  | S754_finite s m e => q == (if s then - 1 else 1) * inject_Z (Zpos m) * (2 # 1) ^ e
  | _ => False
  end.
Definition integral (x : spec_float) : Prop := exists n : Z, means x (inject_Z n).

(** *** Texts *)
(** No character of [s] is [c]. *)
Fixpoint lacks (c : ascii) (s : string) : Prop :=
  match s with "" => True | String d r => d <> c /\ lacks c r end.
(** How often [c] occurs. *)
Fixpoint count (c : ascii) (s : string) : nat :=
  match s with "" => 0 | String d r => (if Ascii.ascii_dec d c then 1 else 0) + count c r end%nat.
Definition ends_with (c : ascii) (s : string) : Prop := exists r, s = r ++ String c "".
(** The shape of a matrix. *)
Definition shaped (rows cols : nat) (m : matrix) : Prop :=
  mx_cols m = cols /\ List.length (mx_rows m) = rows /\ Forall (fun r => List.length r = cols) (mx_rows m).
(** Two matrices whose elements, row by row, have the same texts. *)
Definition same_texts (p : Z) (a b : matrix) : Prop :=
  map (map (element p)) (mx_rows a) = map (map (element p)) (mx_rows b).
(** The numbers whose printed text is exact: integers of any size, infinity and NaN. *)
Definition exactly_printed (x : spec_float) : Prop :=
  x = S754_nan \/ x = S754_infinity false \/ binary64 x /\ integral x.
(** Hexadecimal digits as text, and the number they stand for. *)
Definition hex_char (d : nat) : ascii := match String.get d "0123456789abcdef" with Some c => c | None => "0"%char end.
Definition hex_text (ds : list nat) : string := fold_right (fun d s => String (hex_char d) s) "" ds.
Definition hex_number (ds : list nat) : Z := fold_left (fun n d => 16 * n + Z.of_nat d)%Z ds 0%Z.
