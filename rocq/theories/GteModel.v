(** The queries of the Geometric Tools library (GTE) the 3D objects call.  Its source is not part
    of the repository: each query is a function the theorems quantify over, with a contract in
    GteSpec.v.  A test query (TIQuery) answers a boolean; a find query (FIQuery) answers the points
    of its result, [None] when [intersect] is false. *)

From Coq Require Import List Bool Reals.
From Verif Require Import Vec.

Record gte := mkGte {
  (** origin, direction, center, radius *)
  ti_line_sphere : v3 -> v3 -> v3 -> R -> bool;
  ti_ray_sphere : v3 -> v3 -> v3 -> R -> bool;
  (** first point, second point, center, radius *)
  ti_segment_sphere : v3 -> v3 -> v3 -> R -> bool;
  (** normal, point, center, radius *)
  ti_plane_sphere : v3 -> v3 -> v3 -> R -> bool;
  fi_line_sphere : v3 -> v3 -> v3 -> R -> option (list v3);
  fi_ray_sphere : v3 -> v3 -> v3 -> R -> option (list v3);
  fi_segment_sphere : v3 -> v3 -> v3 -> R -> option (list v3);
  (** ... center, axes, extents *)
  ti_line_ellipsoid : v3 -> v3 -> v3 -> v3 * v3 * v3 -> R * R * R -> bool;
  ti_ray_ellipsoid : v3 -> v3 -> v3 -> v3 * v3 * v3 -> R * R * R -> bool;
  ti_plane_ellipsoid : v3 -> v3 -> v3 -> v3 * v3 * v3 -> R * R * R -> bool;
  fi_line_ellipsoid : v3 -> v3 -> v3 -> v3 * v3 * v3 -> R * R * R -> option (list v3);
  fi_ray_ellipsoid : v3 -> v3 -> v3 -> v3 * v3 * v3 -> R * R * R -> option (list v3);
  fi_segment_ellipsoid : v3 -> v3 -> v3 -> v3 * v3 * v3 -> R * R * R -> option (list v3);
  ti_line_box : v3 -> v3 -> v3 -> v3 * v3 * v3 -> R * R * R -> bool;
  ti_box_box : v3 -> v3 * v3 * v3 -> R * R * R -> v3 -> v3 * v3 * v3 -> R * R * R -> bool
}.
