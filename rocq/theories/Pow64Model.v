(** Exponentials, logarithms, powers and spherical interpolation of quaternions in double precision.

    As in [Rot64Model].  The functions of the C library are parameters: std::exp, std::log,
    std::sin, std::cos and std::atan2 (first the ordinate, then the abscissa). *)

From Coq Require Import List Bool ZArith Floats.SpecFloat.
From Verif Require Import Result AngleModel FloatModel Geo64Model Rot64Model.
Import ListNotations.

Record libm := Libm {
  m_exp : spec_float -> spec_float; m_log : spec_float -> spec_float;
  m_sin : spec_float -> spec_float; m_cos : spec_float -> spec_float; m_atan2 : spec_float -> spec_float -> spec_float }.

(** *** Quaternion.cpp *)
(** 275-288: exp. *)
Definition q64_exp (L : libm) (r : order) (eps : spec_float) (q : option f4) : result f4 :=
  let! q := need3 q in
  let v := vec64 q in
  let n := fnorm3 r v in
  if SFleb n eps then Ok q64_Unit
  else
    let s := m_sin L n in
    q64_scale (Some (parts64 (fdiv3 (F3 (b64_mul (fx v) s) (b64_mul (fy v) s) (b64_mul (fz v) s)) n) (m_cos L n))) (m_exp L (q64s q)).
(** 290-303: log. *)
Definition q64_log (L : libm) (r : order) (eps : spec_float) (q : option f4) : result f4 :=
  let! q := need3 q in
  let v := vec64 q in
  let n := fnorm3 r v in
  if SFleb n eps then Ok (parts64 (F3 zero64 zero64 zero64) (m_log L (fnorm4 q)))
  else Ok (parts64 (fscale3 (b64_div (m_atan2 L n (q64s q)) n) v) (m_log L (fnorm4 q))).
(** 305-310: pow; 107-110: operator^. *)
Definition q64_pow (L : libm) (r : order) (eps : spec_float) (q : option f4) (k : spec_float) : result f4 :=
  let! l := q64_log L r eps q in
  let! m := q64_scale (Some l) k in
  q64_exp L r eps (Some m).
(** 709-729: SLERP. *)
Definition q64_SLERP (L : libm) (r : order) (eps : spec_float) (p q : option f4) (k : option spec_float) : result f4 :=
  let! k := need3 k in
  if SFltb k zero64 || SFltb one_64 k then Err ERuntime
  else
    let! d := q64_dotProduct p q in
    let! i := q64_inverse eps p in
    let! i := if SFleb zero64 d then Ok i else q64_scale (Some i) (b64_of_Z (-1)) in
    let! m := q64_mul r (Some i) q in
    let! w := q64_pow L r eps (Some m) k in
    let! u := q64_mul r p (Some w) in
    q64_normalize eps (Some u).
