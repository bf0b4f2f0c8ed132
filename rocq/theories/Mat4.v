(** 4 x 4 real matrices and matrix inverses: the part of Eigen's Matrix3d, Matrix4d and Vector4d
    the transformations use. *)

From Coq Require Import Reals.
From Verif Require Import Vec Mat3.
Local Open Scope R_scope.

Record v4 := V4 { w0 : R; w1 : R; w2 : R; w3 : R }.
(** Row by row, as in Eigen's comma initialiser. *)
Record m4 := M4 {
  a00 : R; a01 : R; a02 : R; a03 : R;
  a10 : R; a11 : R; a12 : R; a13 : R;
  a20 : R; a21 : R; a22 : R; a23 : R;
  a30 : R; a31 : R; a32 : R; a33 : R }.

Definition dot4v (u v : v4) : R := w0 u * w0 v + w1 u * w1 v + w2 u * w2 v + w3 u * w3 v.
Definition row4 (m : m4) (i : nat) : v4 :=
  match i with
  | 0 => V4 (a00 m) (a01 m) (a02 m) (a03 m)
  | 1 => V4 (a10 m) (a11 m) (a12 m) (a13 m)
  | 2 => V4 (a20 m) (a21 m) (a22 m) (a23 m)
  | _ => V4 (a30 m) (a31 m) (a32 m) (a33 m)
  end%nat.
Definition col4 (m : m4) (j : nat) : v4 :=
  match j with
  | 0 => V4 (a00 m) (a10 m) (a20 m) (a30 m)
  | 1 => V4 (a01 m) (a11 m) (a21 m) (a31 m)
  | 2 => V4 (a02 m) (a12 m) (a22 m) (a32 m)
  | _ => V4 (a03 m) (a13 m) (a23 m) (a33 m)
  end%nat.
Definition of_cols4 (a b c d : v4) : m4 :=
  M4 (w0 a) (w0 b) (w0 c) (w0 d) (w1 a) (w1 b) (w1 c) (w1 d)
     (w2 a) (w2 b) (w2 c) (w2 d) (w3 a) (w3 b) (w3 c) (w3 d).
Definition id4 : m4 := M4 1 0 0 0 0 1 0 0 0 0 1 0 0 0 0 1.
Definition mulv4 (m : m4) (v : v4) : v4 :=
  V4 (dot4v (row4 m 0) v) (dot4v (row4 m 1) v) (dot4v (row4 m 2) v) (dot4v (row4 m 3) v).
Definition mul4 (a b : m4) : m4 :=
  of_cols4 (mulv4 a (col4 b 0)) (mulv4 a (col4 b 1)) (mulv4 a (col4 b 2)) (mulv4 a (col4 b 3)).

(** topLeftCorner<3, 3>() and the rest of the first three rows, the last row. *)
Definition lin4 (m : m4) : m3 := M3 (a00 m) (a01 m) (a02 m) (a10 m) (a11 m) (a12 m) (a20 m) (a21 m) (a22 m).
Definition tra4 (m : m4) : v3 := V3 (a03 m) (a13 m) (a23 m).
(** The matrix with the given 3 x 3 block and translation, and last row 0 0 0 1. *)
Definition affine4 (l : m3) (t : v3) : m4 :=
  M4 (m00 l) (m01 l) (m02 l) (vx t) (m10 l) (m11 l) (m12 l) (vy t) (m20 l) (m21 l) (m22 l) (vz t) 0 0 0 1.

(** Inverses by cofactors (what Eigen computes for fixed sizes up to 4); [None] when the
    determinant is 0 (the result is then not a number). *)
Definition adjugate3 (m : m3) : m3 :=
  of_cols (cross3 (row3 m 1) (row3 m 2)) (cross3 (row3 m 2) (row3 m 0)) (cross3 (row3 m 0) (row3 m 1)).
Definition scale_m3 (k : R) (m : m3) : m3 :=
  M3 (k * m00 m) (k * m01 m) (k * m02 m) (k * m10 m) (k * m11 m) (k * m12 m) (k * m20 m) (k * m21 m) (k * m22 m).
Definition inverse3 (m : m3) : option m3 :=
  if Req_EM_T (det3 m) 0 then None else Some (scale_m3 (/ det3 m) (adjugate3 m)).

Definition coef4 (v : v4) (i : nat) : R :=
  match i with 0 => w0 v | 1 => w1 v | 2 => w2 v | _ => w3 v end%nat.
Definition get4 (m : m4) (i j : nat) : R := coef4 (row4 m i) j.
(** The k-th index other than i. *)
Definition skip (i k : nat) : nat := if Nat.ltb k i then k else S k.
Definition minor4 (m : m4) (i j : nat) : R :=
  let e a b := get4 m (skip i a) (skip j b) in
  det3 (M3 (e 0 0) (e 0 1) (e 0 2) (e 1 0) (e 1 1) (e 1 2) (e 2 0) (e 2 1) (e 2 2))%nat.
Definition cofactor4 (m : m4) (i j : nat) : R :=
  if Nat.even (i + j) then minor4 m i j else - minor4 m i j.
Definition det4 (m : m4) : R :=
  a00 m * cofactor4 m 0 0 + a01 m * cofactor4 m 0 1 + a02 m * cofactor4 m 0 2 + a03 m * cofactor4 m 0 3.
Definition inverse4 (m : m4) : option m4 :=
  if Req_EM_T (det4 m) 0 then None
  else
    let c i j := / det4 m * cofactor4 m j i in
    Some (M4 (c 0 0) (c 0 1) (c 0 2) (c 0 3) (c 1 0) (c 1 1) (c 1 2) (c 1 3)
             (c 2 0) (c 2 1) (c 2 2) (c 2 3) (c 3 0) (c 3 1) (c 3 2) (c 3 3))%nat.

Lemma m4_eq_dec (a b : m4) : {a = b} + {a <> b}.
Proof.
  destruct (Req_EM_T (a00 a) (a00 b)) as [E0 | E0]; [| right; intros H; apply E0; exact (f_equal a00 H)].
  destruct (Req_EM_T (a01 a) (a01 b)) as [E1 | E1]; [| right; intros H; apply E1; exact (f_equal a01 H)].
  destruct (Req_EM_T (a02 a) (a02 b)) as [E2 | E2]; [| right; intros H; apply E2; exact (f_equal a02 H)].
  destruct (Req_EM_T (a03 a) (a03 b)) as [E3 | E3]; [| right; intros H; apply E3; exact (f_equal a03 H)].
  destruct (Req_EM_T (a10 a) (a10 b)) as [E4 | E4]; [| right; intros H; apply E4; exact (f_equal a10 H)].
  destruct (Req_EM_T (a11 a) (a11 b)) as [E5 | E5]; [| right; intros H; apply E5; exact (f_equal a11 H)].
  destruct (Req_EM_T (a12 a) (a12 b)) as [E6 | E6]; [| right; intros H; apply E6; exact (f_equal a12 H)].
  destruct (Req_EM_T (a13 a) (a13 b)) as [E7 | E7]; [| right; intros H; apply E7; exact (f_equal a13 H)].
  destruct (Req_EM_T (a20 a) (a20 b)) as [E8 | E8]; [| right; intros H; apply E8; exact (f_equal a20 H)].
  destruct (Req_EM_T (a21 a) (a21 b)) as [E9 | E9]; [| right; intros H; apply E9; exact (f_equal a21 H)].
  destruct (Req_EM_T (a22 a) (a22 b)) as [E10 | E10]; [| right; intros H; apply E10; exact (f_equal a22 H)].
  destruct (Req_EM_T (a23 a) (a23 b)) as [E11 | E11]; [| right; intros H; apply E11; exact (f_equal a23 H)].
  destruct (Req_EM_T (a30 a) (a30 b)) as [E12 | E12]; [| right; intros H; apply E12; exact (f_equal a30 H)].
  destruct (Req_EM_T (a31 a) (a31 b)) as [E13 | E13]; [| right; intros H; apply E13; exact (f_equal a31 H)].
  destruct (Req_EM_T (a32 a) (a32 b)) as [E14 | E14]; [| right; intros H; apply E14; exact (f_equal a32 H)].
  destruct (Req_EM_T (a33 a) (a33 b)) as [E15 | E15]; [| right; intros H; apply E15; exact (f_equal a33 H)].
  left. destruct a, b; cbn in *; subst; reflexivity.
Qed.
