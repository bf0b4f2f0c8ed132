(** Transformations of the plane and of space in double precision:
    /repo/src/OpenSpaceToolkit/Mathematics/Geometry/3D/Transformation.cpp (T3D below) and
    /repo/src/OpenSpaceToolkit/Mathematics/Geometry/2D/Transformation.cpp (T2D below).

    Both dimensions at once: a transformation of dimension [d] has a square matrix of [S d] rows,
    here the list of its rows, and points and vectors are lists of [d] numbers.  The flag isRigid_
    is left to [TransfModel].  The order in which Eigen adds the products of a coefficient may
    depend on the coefficient: [o i j] is the order for row [i] and column [j]. *)

From Coq Require Import List Bool Arith ZArith Floats.SpecFloat.
From Verif Require Import Result AngleModel FloatModel TransfModel Geo64Model Rot64Model Mat64Model.
Import ListNotations.

Definition m64 := list (list spec_float).
Definition orders := nat -> nat -> sum_tree.
Definition entry (m : m64) (i j : nat) : spec_float := nth j (nth i m []) zero64.
Definition build (n : nat) (f : nat -> nat -> spec_float) : m64 := map (fun i => map (f i) (seq 0 n)) (seq 0 n).
Definition row_times (n : nat) (t : sum_tree) (f g : nat -> spec_float) : spec_float :=
  tree_sum t (map (fun k => b64_mul (f k) (g k)) (seq 0 n)).
(** Eigen's products of a matrix with a matrix and with a vector. *)
Definition mul64 (n : nat) (o : orders) (a b : m64) : m64 :=
  build n (fun i j => row_times n (o i j) (entry a i) (fun k => entry b k j)).
Definition mulv64 (n : nat) (o : orders) (a : m64) (v : list spec_float) : list spec_float :=
  map (fun i => row_times n (o i 0) (entry a i) (fun k => nth k v zero64)) (seq 0 n).

(** Transformation.hpp: type_, matrix_. *)
Record trf64 := mkTrf64 { f_type : ttype; f_matrix : option m64 }.
(** T3D 171-174, T2D 168-171: isDefined. *)
Definition f_isDefined (t : trf64) : bool := negb (ttype_eqb (f_type t) TUndefined).
Definition f_defined (t : trf64) : result m64 := if f_isDefined t then need3 (f_matrix t) else Err EUndefined.
(** T3D 27-35, T2D 25-33: operator==. *)
Definition f_eq (d : nat) (s t : trf64) : bool :=
  match f_defined s, f_defined t with
  | Ok a, Ok b => forallb (fun i => forallb (fun j => SFeqb (entry a i j) (entry b i j)) (seq 0 (S d))) (seq 0 (S d))
  | _, _ => false
  end.
(** T3D 42-49, 66-162; T2D 40-47, 64-159: operator*, operator*=. *)
Definition f_mul (d : nat) (o : orders) (s t : trf64) : result trf64 :=
  let! b := f_defined t in
  let! a := f_defined s in
  Ok (mkTrf64 (type_composition (f_type s) (f_type t)) (Some (mul64 (S d) o a b))).
(** T3D 51-64, T2D 49-62: operator* with a vector. *)
Definition f_mulv (d : nat) (o : orders) (t : trf64) (v : option (list spec_float)) : result (list spec_float) :=
  let! v := need3 v in
  let! m := f_defined t in
  Ok (mulv64 (S d) o m v).
(** T3D 226-229, T2D 229-232: applyTo a point.  The result of an undefined transformation is NaN ([None]). *)
Definition f_applyTo_point (d : nat) (o : orders) (t : trf64) (p : option (list spec_float)) : result (option (list spec_float)) :=
  let! p := need3 p in
  Ok (option_map (fun m => firstn d (mulv64 (S d) o m (p ++ [one_64]))) (f_matrix t)).
(** T3D 231-234, T2D 234-237: applyTo a vector. *)
Definition f_applyTo_vector (d : nat) (o : orders) (t : trf64) (v : option (list spec_float)) : option (list spec_float) :=
  match f_matrix t, v with
  | Some m, Some v => Some (firstn d (mulv64 (S d) o m (v ++ [zero64])))
  | _, _ => None
  end.
(** T3D 249-272, T2D 263-285: Undefined, Identity, Translation. *)
Definition f_Undefined : trf64 := mkTrf64 TUndefined None.
Definition f_Identity (d : nat) : trf64 :=
  mkTrf64 TIdentity (Some (build (S d) (fun i j => if Nat.eqb i j then one_64 else zero64))).
Definition f_Translation (d : nat) (v : option (list spec_float)) : result trf64 :=
  let! v := need3 v in
  Ok (mkTrf64 TTranslation
        (Some (build (S d) (fun i j => if Nat.eqb i j then one_64 else if Nat.eqb j d then nth i v zero64 else zero64)))).
(** A matrix of [d] rows as the top left block of the identity. *)
Definition with_block64 (d : nat) (l : m64) : m64 :=
  build (S d) (fun i j => if Nat.ltb i d && Nat.ltb j d then entry l i j else if Nat.eqb i j then one_64 else zero64).
(** T2D 287-305: Rotation; the angle is given by what std::cos and std::sin return. *)
Definition f_Rotation2 (a : option (spec_float * spec_float)) : result trf64 :=
  let! cs := need3 a in
  let c := fst cs in let s := snd cs in
  Ok (mkTrf64 TRotation (Some (with_block64 2 [[c; SFopp s]; [s; c]]))).
(** T3D 288-300: Rotation, from a rotation matrix; 274-286, from a rotation vector, calls
    RotationMatrix::RotationVector and is otherwise the same. *)
Definition f_Rotation3 (m : option f33) : result trf64 :=
  let! m := need3 m in
  let list3 v := [fx v; fy v; fz v] in
  Ok (mkTrf64 TRotation (Some (with_block64 3 [list3 (c64_0 m); list3 (c64_1 m); list3 (c64_2 m)]))).
(** T3D 302-306, T2D 307-311: RotationAround, with the rotation as computed above. *)
Definition f_RotationAround (d : nat) (o o' : orders) (p : option (list spec_float)) (rot : result trf64) : result trf64 :=
  let! c := need3 p in
  let! t1 := f_Translation d (Some c) in
  let! r := rot in
  let! t2 := f_Translation d (Some (map SFopp c)) in
  let! a := f_mul d o t1 r in
  f_mul d o' a t2.
(** Eigen's inverse of a matrix of three rows: the transposed matrix of the cofactors, times the inverse of the determinant. *)
Definition cofactor64 (m : m64) (i j : nat) : spec_float :=
  let n k := Nat.modulo k 3 in
  sf_sub (b64_mul (entry m (n (i + 1)) (n (j + 1))) (entry m (n (i + 2)) (n (j + 2))))
         (b64_mul (entry m (n (i + 1)) (n (j + 2))) (entry m (n (i + 2)) (n (j + 1)))).
Definition det64 (t : sum_tree) (m : m64) : spec_float := row_times 3 t (fun k => cofactor64 m k 0) (fun k => entry m k 0).
Definition inverse64 (t : sum_tree) (m : m64) : m64 :=
  let k := b64_div one_64 (det64 t m) in build 3 (fun i j => b64_mul (cofactor64 m j i) k).
(** T2D 219-227: getInverse, in the plane (in space, Eigen's vectorized inverse of four rows is not modelled). *)
Definition f_getInverse2 (t : sum_tree) (f : trf64) : result trf64 :=
  let! m := f_defined f in Ok (mkTrf64 (f_type f) (Some (inverse64 t m))).
