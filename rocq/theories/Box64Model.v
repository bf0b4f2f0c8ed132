(** Cuboids in double precision. *)

From Coq Require Import List Bool ZArith Floats.SpecFloat.
From Verif Require Import Result AngleModel FloatModel Geo64Model.
Import ListNotations.

(** *** 3D/Object/Cuboid.cpp *)
Record cuboid64 := mkCu64 { cu64_center : option f3; cu64_axes : option f3 * option f3 * option f3; cu64_extent : option spec_float * option spec_float * option spec_float }.
(** 3D/Object/Cuboid.cpp 151-155: isDefined, with the members when it holds. *)
Definition cu64_data (c : cuboid64) : result (f3 * (f3 * f3 * f3) * (spec_float * spec_float * spec_float)) :=
  match cu64_center c, cu64_axes c, cu64_extent c with
  | Some p, (Some u0, Some u1, Some u2), (Some e0, Some e1, Some e2) => Ok (p, (u0, u1, u2), (e0, e1, e2))
  | _, _, _ => Err EUndefined
  end.
(** 3D/Object/Cuboid.cpp 283-317: contains(Point), 177-180: intersects(Point); [eps] is Real::Epsilon(). *)
Definition cu64_contains (r : order) (eps : spec_float) (c : cuboid64) (p : option f3) : result bool :=
  let! p := need3 p in
  let! (o, (u0, u1, u2), (e0, e1, e2)) := cu64_data c in
  let dx := fsub3 p o in
  let a := SFabs (fdot3 r dx u0) in
  let b := SFabs (fdot3 r dx u1) in
  let c := SFabs (fdot3 r dx u2) in
  if SFltb (SFabs (sf_sub a e0)) eps then Ok (SFleb b e1 && SFleb c e2)
  else if SFltb (SFabs (sf_sub b e1)) eps then Ok (SFleb a e0 && SFleb c e2)
  else if SFltb (SFabs (sf_sub c e2)) eps then Ok (SFleb a e0 && SFleb b e1)
  else Ok false.
