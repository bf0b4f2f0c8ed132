# Design: a Rocq model of open-space-toolkit-mathematics

The properties are listed in `properties.jsonl` (ids C01...), their status and theorems in
`MANIFEST.json`.  This file says how the code is modelled, how each property is proved,
what the theorems depend on, what is left out, and which properties turned out to be false.

## 1. Layout

`rocq/theories` is flat.  For every area `X` of the library there are up to four kinds of
files:

* `XModel.v` - the code, function by function.  Every definition carries a comment with
  the file and the lines of `/repo` it transcribes.  No proofs.
* `XSpec.v` - the small, independent vocabulary in which the properties are stated
  (set membership, Euclidean distance, "is a rotation", ...).
* `XProofs*.v` - lemmas.
* `XProperties.v` - only `Theorem ... Proof. exact lemma. Qed. Print Assumptions ...` and,
  beside each theorem, an `Example` showing a non-trivial case meeting its hypotheses.

Suffixes of theorem names: `_partial` (the property holds under an extra hypothesis, or
only part of it is stated; the manifest says what is missing), `_refuted` (the property as
stated in `properties.jsonl` is false of the model, with a witness; section 6).

## 2. Modelling decisions

* **Outcomes.**  A C++ function that can throw returns `result A := Ok a | Err e | UB`
  (`Result.v`).  Errors are classified by exception type (Undefined, Wrong,
  ToBeImplemented, runtime error); messages are not modelled.  Undefined behaviour, and
  results that would be NaN or infinite, are the outcome `UB`, never a default value.
* **Numbers.**  In most models `double` / `Real` is a mathematical real (`R`), so that
  geometry is stated exactly.  Where rounding is the subject (C17, C71, C120-C160) the same
  functions are modelled a second time over binary64 numbers, Coq's own `SpecFloat`
  (`Coq.Floats.SpecFloat`, executable, no axioms; precision 53, round to nearest, ties to
  even): `FloatModel.v` (angles, grids, linear interpolation) and `Geo64Model.v` (lines,
  rays, segments, planes, spheres, distances, 2D lines), `Rot64Model.v` (quaternions and
  rotation matrices), `Mat64Model.v` (nearness of matrices of any size), `Trf64Model.v`
  (transformations), `Att64Model.v` (rotations from axes, angles and vectors), `Pow64Model.v`
  (powers and spherical interpolation of quaternions), `Dif64Model.v` (angles between
  quaternions), `Eul64Model.v` (Euler angles of rotations), `Rvm64Model.v`, `Cmp64Model.v` and
  `Nea64Model.v` (rotation vectors of matrices, comparisons, nearness of Euler angles) and
  `Dst64Model.v` (distances), `Pln64Model.v` (distances in the plane),
  `Lst64Model.v` (sets of points, line strings), `Box64Model.v` (cuboids).  Every `+ - * / sqrt` rounds;
  fused multiply-add and extended precision are not modelled; the order in which Eigen adds
  up products is a parameter (`order`, a tree of partial sums) over which theorems quantify.  Texts
  (C110-C117) are those of binary64 numbers too.  `Real::Epsilon()` (defined in ostk-core,
  which is not in this repository) is a universally quantified positive number, with
  further bounds as hypotheses where a theorem needs them.  `Interval<T>` is modelled over
  an arbitrary dense total order (record `DOrder`), instantiated with `R` and with
  canonical rationals `Qc`.
* **Undefined values.**  ostk `Real`, `Vector`, `Point`, `Angle`, ... can be "undefined"
  (NaN); the model uses `option` (`None` = undefined).  A vector with some NaN component is
  the same as one with all components NaN.
* **Mutation.**  A method mutating `*this` returns the new value.
* **Loops.**  Structural recursion on lists, or explicit fuel with an `OutOfFuel` error
  that the theorem excludes (`returns f v`: some amount of fuel, hence every larger
  one, gives `v`).
* **Hash sets.**  `PointSet` is a list; the iteration order is universally quantified
  (theorems hold for every permutation, or the dependence is the finding).
* **Dispatch.**  `Object` with `dynamic_cast` is a sum type; composites are its recursive
  case.  Nested composites inside composites are represented; cyclic ones cannot exist.

## 3. Trusted base

1. Coq 8.16.1's kernel (and `coqc`'s parser/elaborator for the statements).
2. The axioms that `Print Assumptions` prints under each theorem.  All of them come from
   Coq's standard library (classical real numbers); the development adds none:
   * `ClassicalDedekindReals.sig_forall_dec`, `ClassicalDedekindReals.sig_not_dec`,
   * `FunctionalExtensionality.functional_extensionality_dep`,
   * `Classical_Prop.classic`,
   * `Description.constructive_definite_description` - only in Examples that use the
     reference implementation of boost (`Poly2Ref.v`), in no theorem.
   Section 7 lists, theorem by theorem, which of them are used.
3. That the model says what the code says.  The code was read, never run.
4. The contracts assumed of external code.  They are hypotheses of the theorems that need
   them, never axioms, and each is shown to be satisfiable by a reference instance:
   * Geometric Tools (GTE) intersection and distance queries: record `gte` (`GteModel.v`),
     contracts `GteSpec.v`, instance `ref_gte` (`GteProofs.v`).
   * boost::geometry (1.82): record `boost` (`Poly2Model.v`), contracts `Poly2Spec.v`,
     instance `ref_boost` (`Poly2Ref.v`).  `boost::geometry::correct` is written out, with
     the tolerance `m` of its closing test quantified.
   * boost::numeric::odeint (1.82): the `integrate_*` loops are written out in
     `SolverModel.v`; the steppers (one step, error test, dense output) are a quantified
     record `engine`.
   * Eigen: linear algebra on fixed sizes is written out; the symmetric eigenvalue solver
     and `MatrixBase::inverse` of singular matrices are a quantified function / `UB`.
   * boost::math interpolators: `barycentric_rational` and the cubic B-spline are
     quantified functions; only how they are fed is modelled.
   * `std::sort`: any function returning a sorted permutation; `std::lower_bound` and
     `std::upper_bound` are written out as bisection.
   * ostk-core's `Real`, `Array`, `String`: `Array` is a list, `Real` is `option R` (or
     `option spec_float`); the text of a `Real` is a quantified function `num`, with
     injectivity as a hypothesis where needed.
   * the C library's `cos`, `sin`, `acos`, `asin`, `exp`, `log`, `atan2` in the binary64 models
     (C141-C156): quantified functions, with an absolute error `e` as a hypothesis
     (`Att64Spec.v`, `Pow64Spec.v`: `libm_within`, `Dif64Spec.v`, `Eul64Spec.v`), instances in the Examples.
   * the C library's `%`-style printing of doubles and `std::stod` (C110-C113): written out
     on decimal digits in `TextModel.v`, in the "C" locale.

## 4. What is modelled and what is not

| code | model | not modelled in it |
|---|---|---|
| `Object/Interval.tpp` | `IntervalModel.v`, `IntervalGridModel.v` | `operator<<` |
| `Geometry/Angle.cpp` | `AngleModel.v` | `operator<<` |
| `CurveFitting/Interpolator*.cpp` | `InterpModel.v` | boost's own construction and evaluation of barycentric rationals and cubic B-splines |
| `CurveFitting/MatrixInterpolator/LogEuclideanRiemannian.cpp` | `LogEuclidModel.v`, `MatN.v` | the eigenvalue solver is assumed by contract |
| `Geometry/3D/Transformation/Rotation/*.cpp` | `RotModel.v` | `operator<<` |
| `Geometry/{2D,3D}/Transformation.cpp` | `TransfModel.v`, `Mat3.v`, `Mat4.v` | `operator<<` |
| `Geometry/3D/Object/{Point,PointSet,Line,Ray,Segment,Plane,LineString}.cpp` | `Geo3Types.v`, `Geo3Model.v` | `print`, `clone` |
| `Geometry/3D/Object/Sphere.cpp` | `SphereModel.v` | `print`, `clone` |
| `Geometry/3D/Object/Ellipsoid.cpp` | `EllModel.v` | `print`, `clone` |
| `Geometry/3D/Object/Cuboid.cpp` | `CuboidModel.v` | `print`, `clone` |
| `Geometry/3D/Object/Cone.cpp` | `ConeModel.v` | `print`, `clone` |
| `Geometry/3D/Object/{Polygon,Pyramid}.cpp` | `PyrModel.v` | `print`, `clone` |
| `Geometry/3D/{Object,Intersection}.cpp`, `3D/Object/Composite.cpp` | `InterModel.v`, `CompModel.v` | `print`, `clone` (copies are values) |
| `Geometry/2D/Object/{Point,PointSet,Line,Segment,LineString}.cpp` | `Geo2Model.v` | `print`, `clone` |
| `Geometry/2D/Object/{Polygon,MultiPolygon,Composite}.cpp`, `2D/{Object,Intersection}.cpp` | `Poly2Model.v` | `print`, `clone`, copy constructor |
| `Solver/NumericalSolver.cpp` | `SolverModel.v` | `print`, `make_controlled_adam_bashforth_moulton`, the numerical content of the steppers |
| `include/.../Object/Eigen.hpp`: texts and `Parse`; `Quaternion::toString`, `Parse` | `TextModel.v` | locales other than "C" |
| names of enumerated values; texts of intervals, angles, rotations, transformations' types, 2D and 3D points, lines, segments | `NameModel.v` | the decimal text of a `Real` (quantified) |
| accessors, factories, `!=` of every class | `AccessModel.v` | |
| `Transformation(matrix)` of both dimensions; dispatch of `Object` | `TransfModel.v`, `InterModel.v`, `Poly2Model.v` (theorems in `MatrixProperties.v`, `DispatchProperties.v`) | |
| `Angle.cpp`, `Interval.tpp` (`generateArrayWith*`), `Interpolator/Linear.cpp`, in binary64 | `AngleModel.v` (end), `IntervalGridModel.v`, `FloatModel.v` | trigonometric functions, `Between` |
| `Geometry/3D/Object/{Point,Line,Ray,Segment,Plane,Sphere}.cpp`, `Geometry/2D/Object/Line.cpp`, in binary64 | `Geo64Model.v` | intersections, transformations |
| `Rotation/{Quaternion,RotationMatrix}.cpp`: algebra, conversions into each other, in binary64 | `Rot64Model.v` | |
| `Rotation/{Quaternion,RotationMatrix,RotationVector}.cpp`: constructions from axes, angles, Euler angles, pairs of vectors, in binary64 | `Att64Model.v` | |
| `Rotation/Quaternion.cpp`: `exp`, `log`, `pow`, `SLERP`, in binary64 | `Pow64Model.v` | |
| `Rotation/Quaternion.cpp`: `angularDifferenceWith`, `isNear`, in binary64 | `Dif64Model.v` | |
| `Rotation/EulerAngle.cpp`: from quaternions, rotation vectors and matrices, in binary64 | `Eul64Model.v` | `isNear` and printing of Euler angles (exact model only) |
| `Rotation/RotationVector.cpp`: from matrices, `rectify`, in binary64 | `Rvm64Model.v` | printing of rotation vectors (exact model only) |
| `Rotation/RotationVector.cpp`, `EulerAngle.cpp`: `==`, `!=`, `EulerAngle::isUnitary`, in binary64 | `Cmp64Model.v` | angles of other units than radians (the stored units are compared in C121) |
| `EulerAngle::isNear`, `RotationVector::EulerAngle`, in binary64 | `Nea64Model.v` | - |
| `Line/Ray/Segment::distanceTo` (points, sets of points), in binary64 | `Dst64Model.v` | - |
| 2D `Point::distanceTo`, `isNear`, `Line` (constructor, `distanceTo`), `Segment::getLength`, `distanceTo`, in binary64 | `Pln64Model.v` | - |
| 2D and 3D `PointSet::isNear`, `distanceTo`, `getPointClosestTo`, `LineString::isNear`, `getPointClosestTo`, in binary64 | `Lst64Model.v` | a set is the list of its points in the order of its iterators |
| `Cuboid::contains(Point)`, `intersects(Point)`, in binary64 | `Box64Model.v` | the other functions of cuboids (exact model only) |
| `include/.../Object/Eigen.hpp`: `isNear`, `isDefined`, `NaN`, `Undefined`, `Inf`, axes, in binary64 | `Mat64Model.v` | |
| `Geometry/{2D,3D}/Transformation.cpp`, in binary64 | `Trf64Model.v` | `isRigid` (exact model only), the inverse in space, printing |

Not modelled at all: `2D/Object/MultiLineString.hpp` (a declaration without
implementation), the Python bindings, memory management (`clone`, unique pointers),
printing to streams, logging, rounding errors elsewhere than in the rows marked binary64,
performance.

## 5. Properties: model, proof, status

| id | property | theorems in | how it is proved | status |
|---|---|---|---|---|
| C01 | Interval membership matches the interval type | `IntervalProperties` | case analysis on the bound types and on the order of the four bounds; density gives interior points | proved |
| C02 | Interval::intersects is exactly 'share a point', and is symmetric | `IntervalProperties` | case analysis on the bound types and on the order of the four bounds; density gives interior points | proved |
| C03 | Interval::contains(interval) is exactly set inclusion | `IntervalProperties` | case analysis on the bound types and on the order of the four bounds; density gives interior points | proved |
| C04 | getIntersectionWith is exactly set intersection | `IntervalProperties` | case analysis on the bound types and on the order of the four bounds; density gives interior points | proved |
| C05 | getUnionWith is exactly set union when the union is an interval | `IntervalProperties` | case analysis on the bound types and on the order of the four bounds; density gives interior points | proved |
| C06 | Clip keeps exactly the part of every interval inside the clipping interval | `IntervalProperties` | sort = any function meeting the contract; induction on the sorted list with the invariants 'ascending' and 'coverage kept' | proved |
| C07 | Merge preserves the set of covered values | `IntervalProperties` | sort = any function meeting the contract; induction on the sorted list with the invariants 'ascending' and 'coverage kept' | proved |
| C08 | Merge yields pairwise disjoint, non-mergeable intervals | `IntervalProperties` | sort = any function meeting the contract; induction on the sorted list with the invariants 'ascending' and 'coverage kept' | partial |
| C09 | GetGaps returns exactly the uncovered part of the span | `IntervalProperties` | sort = any function meeting the contract; induction on the sorted list with the invariants 'ascending' and 'coverage kept' | partial |
| C10 | LogicalOr covers exactly the union of two interval arrays | `IntervalProperties` | sort = any function meeting the contract; induction on the sorted list with the invariants 'ascending' and 'coverage kept' | proved |
| C11 | LogicalAnd covers exactly the intersection of two interval arrays | `IntervalProperties` | sort = any function meeting the contract; induction on the sorted list with the invariants 'ascending' and 'coverage kept' | partial |
| C12 | No public mutator can break the interval validity invariant | `IntervalProperties` | constructor/mutator case analysis; induction on the number of steps; binary64 execution for the loops | partial |
| C13 | generateArrayWithStep yields an ordered grid inside the interval | `IntervalProperties` | constructor/mutator case analysis; induction on the number of steps; binary64 execution for the loops | proved |
| C14 | generateArrayWithSize yields evenly spaced interior points of the requested count | `IntervalProperties` | constructor/mutator case analysis; induction on the number of steps; binary64 execution for the loops | proved |
| C15 | Interval equality is set equality | `IntervalProperties` | case analysis on the bound types and on the order of the four bounds; density gives interior points | proved |
| C16 | Range reduction lands in the range and preserves the angle | `AngleProperties` | induction on the number of turns, Archimedes; Cauchy-Schwarz and acos for Between; binary64 for termination | proved |
| C17 | Range reduction terminates in double precision | `AngleProperties`, `FloatProperties` | induction on the number of turns, Archimedes; Cauchy-Schwarz and acos for Between; binary64 for termination | partial |
| C18 | Angle equality is an equivalence relation independent of units | `AngleProperties` | induction on the number of turns, Archimedes; Cauchy-Schwarz and acos for Between; binary64 for termination | proved |
| C19 | Angle arithmetic and unit conversion are exact over the reals | `AngleProperties` | induction on the number of turns, Archimedes; Cauchy-Schwarz and acos for Between; binary64 for termination | proved |
| C20 | Angle::Between is the unsigned angle between directions | `AngleProperties` | induction on the number of turns, Archimedes; Cauchy-Schwarz and acos for Between; binary64 for termination | proved |
| C21 | Angle::isNear is circular distance | `AngleProperties` | induction on the number of turns, Archimedes; Cauchy-Schwarz and acos for Between; binary64 for termination | proved |
| C22 | Linear interpolation: exact at nodes, between neighbours, clamped outside | `InterpProperties` | characterisation of the bisection, then arithmetic; convergence of the exponential series | proved |
| C23 | Linear interpolator derivative is the slope of the returned curve | `InterpProperties` | characterisation of the bisection, then arithmetic; convergence of the exponential series | proved |
| C24 | Zero-order interpolation returns the most recent sample | `InterpProperties` | characterisation of the bisection, then arithmetic; convergence of the exponential series | proved |
| C25 | Interpolator constructors reject unusable data before touching it | `InterpProperties` | characterisation of the bisection, then arithmetic; convergence of the exponential series | partial |
| C26 | Log-Euclidean matrix interpolation is clamped, exact at nodes and order-preserving | `InterpProperties` | characterisation of the bisection, then arithmetic; convergence of the exponential series | partial |
| C27 | Quaternion product is associative, unital, norm-multiplicative and inverse is two-sided | `RotProperties` | polynomial identities (ring/nsatz style), trigonometry, case analysis on the branches of the code | proved |
| C28 | Rotating a vector by a unit quaternion is a proper isometry and a homomorphism | `RotProperties` | polynomial identities (ring/nsatz style), trigonometry, case analysis on the branches of the code | proved |
| C29 | Quaternion and rotation matrix conversions agree and round-trip | `RotProperties` | polynomial identities (ring/nsatz style), trigonometry, case analysis on the branches of the code | proved |
| C30 | A RotationMatrix is always a rotation | `RotProperties` | polynomial identities (ring/nsatz style), trigonometry, case analysis on the branches of the code | partial |
| C31 | Elementary rotation matrices form one-parameter groups | `RotProperties` | polynomial identities (ring/nsatz style), trigonometry, case analysis on the branches of the code | proved |
| C32 | Euler angles: matrix and quaternion conversions agree for every axis sequence | `RotProperties` | polynomial identities (ring/nsatz style), trigonometry, case analysis on the branches of the code | partial |
| C33 | Euler angle extraction reproduces the rotation | `RotProperties` | polynomial identities (ring/nsatz style), trigonometry, case analysis on the branches of the code | partial |
| C34 | Rotation vector and quaternion / matrix constructions agree and round-trip | `RotProperties` | polynomial identities (ring/nsatz style), trigonometry, case analysis on the branches of the code | proved |
| C35 | Every rotation matrix can be converted to a rotation vector | `RotProperties` | polynomial identities (ring/nsatz style), trigonometry, case analysis on the branches of the code | partial |
| C36 | rectify returns an equivalent rotation with angle in [0, pi] | `RotProperties` | polynomial identities (ring/nsatz style), trigonometry, case analysis on the branches of the code | partial |
| C37 | Quaternion equality identifies exactly equal rotations | `RotProperties` | polynomial identities (ring/nsatz style), trigonometry, case analysis on the branches of the code | proved |
| C38 | Angular difference is the rotation angle between two attitudes | `RotProperties` | polynomial identities (ring/nsatz style), trigonometry, case analysis on the branches of the code | proved |
| C39 | LERP, NLERP and SLERP interpolate between their end points | `RotProperties` | polynomial identities (ring/nsatz style), trigonometry, case analysis on the branches of the code | partial |
| C40 | exp, log and pow are the quaternion exponential, logarithm and power | `RotProperties` | polynomial identities (ring/nsatz style), trigonometry, case analysis on the branches of the code | partial |
| C41 | ShortestRotation maps one direction to the other | `RotProperties` | polynomial identities (ring/nsatz style), trigonometry, case analysis on the branches of the code | proved |
| C42 | VectorBasis maps the source pair onto the destination pair | `RotProperties` | polynomial identities (ring/nsatz style), trigonometry, case analysis on the branches of the code | proved |
| C43 | Transformation composition acts as function composition | `TransfProperties` | 4x4/3x3 matrix algebra; induction over compositions | partial |
| C44 | getInverse undoes the transformation | `TransfProperties` | 4x4/3x3 matrix algebra; induction over compositions | partial |
| C45 | isRigid is true exactly for distance-preserving transformations | `TransfProperties` | 4x4/3x3 matrix algebra; induction over compositions | partial |
| C46 | The reported transformation type is sound under composition | `TransfProperties` | 4x4/3x3 matrix algebra; induction over compositions | partial |
| C47 | RotationAround fixes its centre and rotates about it | `TransfProperties` | 4x4/3x3 matrix algebra; induction over compositions | proved |
| C48 | Line / Ray / Segment versus Plane: intersection is exact | `Geo3Properties` | vector algebra, Cauchy-Schwarz, convexity; list induction for sets | proved |
| C49 | distanceTo(point) is the minimum distance | `Geo3Properties` | vector algebra, Cauchy-Schwarz, convexity; list induction for sets | proved |
| C50 | contains(point) agrees with distance zero for linear objects | `Geo3Properties` | vector algebra, Cauchy-Schwarz, convexity; list induction for sets | proved |
| C51 | Point sets behave as sets and closest-point queries are optimal | `Geo3Properties` | vector algebra, Cauchy-Schwarz, convexity; list induction for sets | partial |
| C52 | Sphere queries match the surface and the solid ball | `SphereProperties` | vector algebra plus the GTE contract | partial |
| C53 | Ellipsoid containment agrees with its matrix and axes | `EllProperties` | quadratic forms plus the GTE and eigen-solver contracts | partial |
| C54 | Cone containment is angular and closed under moving along rays | `ConeProperties` | cone geometry by Cauchy-Schwarz and acos monotonicity | partial |
| C55 | Equal cones contain the same points | `ConeProperties` | cone geometry by Cauchy-Schwarz and acos monotonicity | partial |
| C56 | Cone distance is the minimum distance to the cone surface | `ConeProperties` | cone geometry by Cauchy-Schwarz and acos monotonicity | partial |
| C57 | Cone versus sphere intersection is exact | `ConeProperties` | cone geometry by Cauchy-Schwarz and acos monotonicity | proved |
| C58 | Rays of the lateral surface of a cone lie on the cone | `ConeProperties` | cone geometry by Cauchy-Schwarz and acos monotonicity | proved |
| C59 | Pyramid lateral faces join the apex to consecutive base vertices | `PyrProperties` | planar coordinates, list induction over rings and rays | partial |
| C60 | Polygon in space maps its planar vertices isometrically | `PyrProperties` | planar coordinates, list induction over rings and rays | proved |
| C61 | 3D composite queries are the logical combination of the element queries | `CompProperties` | structural induction over composites and lists of objects | proved |
| C62 | Intersection results combine associatively with a sound type tag | `CompProperties` | structural induction over composites and lists of objects | partial |
| C63 | 2D Segment and Line membership and distance are exact | `Geo2Properties` | 2D vector algebra, list induction, boost contracts | proved |
| C64 | 2D object equality is reflexive | `Poly2Properties` | 2D vector algebra, list induction, boost contracts | partial |
| C65 | 2D line string queries reduce to its segments | `Geo2Properties` | 2D vector algebra, list induction, boost contracts | partial |
| C66 | Polygon edges enumerate every edge it counts | `Poly2Properties` | 2D vector algebra, list induction, boost contracts | partial |
| C67 | The solver integrates in the direction of the requested times | `SolverProperties` | induction over the list of times and over odeint's loops | partial |
| C68 | integrateTime to a single time agrees between the scalar and array forms | `SolverProperties` | induction over the list of times and over odeint's loops | partial |
| C69 | integrateDuration returns the state at the requested duration in every log mode | `SolverProperties` | induction over the list of times and over odeint's loops | partial |
| C70 | Conditional / observed states start at the initial state and are the returned ones | `SolverProperties` | induction over the list of times and over odeint's loops | partial |
| C71 | generateArrayWithStep terminates in double precision | `FloatProperties`, `IntervalProperties` | constructor/mutator case analysis; induction on the number of steps; binary64 execution for the loops | partial |
| C72 | The interpolator factory builds the requested interpolator | `InterpProperties` | characterisation of the bisection, then arithmetic; convergence of the exponential series | proved |
| C73 | Access to matrix coefficients stays inside the matrix | `RotProperties` | polynomial identities (ring/nsatz style), trigonometry, case analysis on the branches of the code | partial |
| C74 | Every quaternion accepted as unitary converts to a rotation vector | `RotProperties` | polynomial identities (ring/nsatz style), trigonometry, case analysis on the branches of the code | partial |
| C75 | Quaternion::isNear compares the angular difference with the tolerance | `RotProperties` | polynomial identities (ring/nsatz style), trigonometry, case analysis on the branches of the code | partial |
| C76 | Rotation vectors are equal exactly when they are the same rotation | `RotProperties` | polynomial identities (ring/nsatz style), trigonometry, case analysis on the branches of the code | partial |
| C77 | Euler angles of one sequence are equal exactly when they are the same rotation | `RotProperties` | polynomial identities (ring/nsatz style), trigonometry, case analysis on the branches of the code | partial |
| C78 | Rows and Columns build the matrix of a right-handed orthonormal triple | `RotProperties` | polynomial identities (ring/nsatz style), trigonometry, case analysis on the branches of the code | proved |
| C79 | Conversions to and from rotation vectors keep the rotation | `RotProperties` | polynomial identities (ring/nsatz style), trigonometry, case analysis on the branches of the code | partial |
| C80 | Products, transposes and equality of rotation matrices | `RotProperties` | polynomial identities (ring/nsatz style), trigonometry, case analysis on the branches of the code | proved |
| C81 | Component orders of quaternions and unitary Euler angles | `RotProperties` | polynomial identities (ring/nsatz style), trigonometry, case analysis on the branches of the code | proved |
| C82 | Transformations are equal exactly when they act alike | `TransfProperties` | 4x4/3x3 matrix algebra; induction over compositions | proved |
| C83 | Translation and Rotation move points as advertised and vectors ignore translations | `TransfProperties` | 4x4/3x3 matrix algebra; induction over compositions | proved |
| C84 | Equality of lines, rays, segments and planes is equality of point sets | `Geo3Properties` | vector algebra, Cauchy-Schwarz, convexity; list induction for sets | proved |
| C85 | Transforming a linear object transforms its points | `Geo3Properties` | vector algebra, Cauchy-Schwarz, convexity; list induction for sets | proved |
| C86 | Containment of and in planes and lines is pointwise | `Geo3Properties` | vector algebra, Cauchy-Schwarz, convexity; list induction for sets | proved |
| C87 | 3D line strings are sequences of points | `Geo3Properties` | vector algebra, Cauchy-Schwarz, convexity; list induction for sets | proved |
| C88 | Ellipsoid intersection tests match the solid and the surface | `EllProperties` | quadratic forms plus the GTE and eigen-solver contracts | partial |
| C89 | Ellipsoid intersections return the common points | `EllProperties` | quadratic forms plus the GTE and eigen-solver contracts | partial |
| C90 | Ellipsoid equality and transformation follow the surface | `EllProperties` | quadratic forms plus the GTE and eigen-solver contracts | partial |
| C91 | Cuboid containment matches its surface | `CuboidProperties` | coordinates in the box frame plus the GTE contract | proved |
| C92 | Cuboid vertices, nearness and intersection tests match the box | `CuboidProperties` | coordinates in the box frame plus the GTE contract | partial |
| C93 | Cuboid equality is equality of boxes, and rigid transformations carry the box along | `CuboidProperties` | coordinates in the box frame plus the GTE contract | proved |
| C94 | Cone containment of spheres, and rigid transformations of cones | `ConeProperties` | cone geometry by Cauchy-Schwarz and acos monotonicity | partial |
| C95 | Cone intersections are those of the lateral rays | `ConeProperties` | cone geometry by Cauchy-Schwarz and acos monotonicity | partial |
| C96 | Solver equality is an equivalence on defined solvers and ignores observations | `SolverProperties` | induction over the list of times and over odeint's loops | proved |
| C97 | 2D lines and segments are equal exactly when they are the same sets of points | `Geo2Properties` | 2D vector algebra, list induction, boost contracts | proved |
| C98 | 2D point sets are sets, and their queries do not depend on the order | `Geo2Properties` | 2D vector algebra, list induction, boost contracts | partial |
| C99 | 2D transformations map every object to its image | `Geo2Properties` | 2D vector algebra, list induction, boost contracts | proved |
| C100 | A 2D polygon keeps the rings it is given | `Poly2Properties` | 2D vector algebra, list induction, boost contracts | partial |
| C101 | 2D polygons contain exactly the points of their region, also after a motion | `Poly2Properties` | 2D vector algebra, list induction, boost contracts | proved |
| C102 | Multi-polygons are unions of their polygons | `Poly2Properties` | 2D vector algebra, list induction, boost contracts | partial |
| C103 | Queries on 2D composites combine the answers of their objects | `Poly2Properties` | 2D vector algebra, list induction, boost contracts | partial |
| C104 | 2D intersections have the type of their objects | `Poly2Properties` | 2D vector algebra, list induction, boost contracts | partial |
| C105 | Intersection and difference of 2D polygons keep exactly what boost finds | `Poly2Properties` | 2D vector algebra, list induction, boost contracts | partial |
| C106 | A pyramid contains the points on the half lines from its apex through its base | `PyrProperties` | planar coordinates, list induction over rings and rays | proved |
| C107 | The half lines of a pyramid's lateral faces and the intersections computed from them | `PyrProperties` | planar coordinates, list induction over rings and rays | partial |
| C108 | The operations of Object agree with the geometry of the two objects | `CompProperties` | structural induction over composites and lists of objects | proved |
| C110 | Vectors are read back from their texts | `TextProperties` | induction on strings and lists of tokens; the printed decimal determines the number | partial |
| C111 | VectorXd::Parse accepts exactly the texts of vectors | `TextProperties` | induction on strings and lists of tokens; the printed decimal determines the number | partial |
| C112 | Quaternions are read back from their texts | `TextProperties` | induction on strings and lists of tokens; the printed decimal determines the number | proved |
| C113 | Matrices of different shape or elements have different texts | `TextProperties` | induction on strings and lists of tokens; the printed decimal determines the number | partial |
| C114 | Enumerated values have distinct names | `NameProperties` | evaluation for names; unique splitting of texts at separators no number contains | partial |
| C115 | The texts of angles, rotations and points are unambiguous | `NameProperties` | evaluation for names; unique splitting of texts at separators no number contains | proved |
| C116 | The texts of intervals are unambiguous | `NameProperties` | evaluation for names; unique splitting of texts at separators no number contains | proved |
| C117 | The texts of 2D objects are unambiguous | `NameProperties` | evaluation for names; unique splitting of texts at separators no number contains | partial |
| C109 | A transformation made from a matrix is the identity, or an error | `MatrixProperties` | 4x4/3x3 matrix algebra; induction over compositions | proved |
| C118 | The operations of an object are those of its class | `DispatchProperties` | structural induction over composites and lists of objects | partial |
| C119 | Accessors return what constructors were given; != is the negation of == | `AccessProperties` | case analysis | proved |
| C120 | Range reduction of angles in double precision | `FloatProperties` | rounding lemmas for SpecFloat (correct rounding, error of one operation, exactness of small integers), error analysis, execution for the witnesses | partial |
| C121 | Comparison of angles in double precision | `FloatProperties` | rounding lemmas for SpecFloat (correct rounding, error of one operation, exactness of small integers), error analysis, execution for the witnesses | partial |
| C122 | Conversions of angles in double precision | `FloatProperties` | rounding lemmas for SpecFloat (correct rounding, error of one operation, exactness of small integers), error analysis, execution for the witnesses | proved |
| C123 | Grids of a given size in double precision | `FloatProperties` | rounding lemmas for SpecFloat (correct rounding, error of one operation, exactness of small integers), error analysis, execution for the witnesses | partial |
| C124 | Linear interpolation in double precision | `FloatProperties` | rounding lemmas for SpecFloat (correct rounding, error of one operation, exactness of small integers), error analysis, execution for the witnesses | partial |
| C125 | Sums of angles in double precision | `FloatProperties` | rounding lemmas for SpecFloat (correct rounding, error of one operation, exactness of small integers), error analysis, execution for the witnesses | proved |
| C126 | Containment in lines, rays, segments and planes in double precision | `Geo64Properties` | forward error analysis of sums of products, quotients and roots; exactness on small integers; execution for the witnesses | proved |
| C127 | Distances in double precision | `Geo64Properties` | forward error analysis of sums of products, quotients and roots; exactness on small integers; execution for the witnesses | proved |
| C128 | Containment in spheres in double precision | `Geo64Properties` | forward error analysis of sums of products, quotients and roots; exactness on small integers; execution for the witnesses | proved |
| C129 | Containment in lines of the plane in double precision | `Geo64Properties` | forward error analysis of sums of products, quotients and roots; exactness on small integers; execution for the witnesses | proved |
| C130 | Directions in double precision | `Geo64Properties` | forward error analysis of sums of products, quotients and roots; exactness on small integers; execution for the witnesses | proved |
| C131 | Quaternion arithmetic in double precision | `Rot64Properties` | forward error analysis of products of quaternions and matrices; perturbation of the rotation; execution for the witnesses | proved |
| C132 | Unit quaternions in double precision | `Rot64Properties` | forward error analysis of products of quaternions and matrices; perturbation of the rotation; execution for the witnesses | partial |
| C133 | Linear interpolation of quaternions in double precision | `Rot64Properties` | forward error analysis of products of quaternions and matrices; perturbation of the rotation; execution for the witnesses | proved |
| C134 | Rotation matrices in double precision | `Rot64Properties` | forward error analysis of products of quaternions and matrices; perturbation of the rotation; execution for the witnesses | partial |
| C135 | Quaternions and rotation matrices in double precision | `Rot64Properties` | forward error analysis of products of quaternions and matrices; perturbation of the rotation; execution for the witnesses | partial |
| C136 | Nearness of vectors and matrices of any size in double precision | `Mat64Properties` | error of the tree of partial sums by induction; execution for the witnesses | partial |
| C137 | Applying transformations in double precision | `Trf64Properties` | forward error analysis of rows of products; execution for the witnesses | partial |
| C138 | Composing transformations in double precision | `Trf64Properties` | forward error analysis of rows of products; execution for the witnesses | partial |
| C139 | Rotations around a point in double precision | `Trf64Properties` | forward error analysis of rows of products; execution for the witnesses | partial |
| C140 | Inverse transformations of the plane in double precision | `Trf64Properties` | forward error analysis of rows of products; execution for the witnesses | partial |
| C141 | Rotation vectors in double precision, and their quaternions | `Att64Properties` | forward error analysis from the error of the library functions; perturbation of the rotation; execution for the witnesses | proved |
| C142 | Matrices of rotation vectors in double precision | `Att64Properties` | forward error analysis from the error of the library functions; perturbation of the rotation; execution for the witnesses | proved |
| C143 | Elementary rotation matrices, and matrices of columns and rows, in double precision | `Att64Properties` | forward error analysis from the error of the library functions; perturbation of the rotation; execution for the witnesses | proved |
| C144 | Quaternions and matrices of Euler angles in double precision | `Att64Properties` | forward error analysis from the error of the library functions; perturbation of the rotation; execution for the witnesses | proved |
| C145 | Shortest rotations in double precision | `Att64Properties` | forward error analysis from the error of the library functions; perturbation of the rotation; execution for the witnesses | proved |
| C146 | Normalized means of quaternions in double precision | `Att64Properties` | forward error analysis from the error of the library functions; perturbation of the rotation; execution for the witnesses | proved |
| C147 | Rotations from two pairs of vectors in double precision | `Att64Properties` | forward error analysis from the error of the library functions; perturbation of the rotation; execution for the witnesses | partial |
| C148 | Rotation vectors of quaternions in double precision | `Att64Properties` | forward error analysis from the error of the library functions; perturbation of the rotation; execution for the witnesses | partial |
| C149 | Exponentials, logarithms and powers of quaternions in double precision | `Pow64Properties` | forward error analysis in polar form; execution for the witnesses | partial |
| C150 | Spherical interpolation of quaternions in double precision | `Pow64Properties` | forward error analysis in polar form; execution for the witnesses | proved |
| C151 | Angular differences of quaternions in double precision | `Dif64Properties` | forward error analysis of the quotient and of the arc cosine; execution for the witnesses | proved |
| C152 | Nearness of quaternions in double precision | `Dif64Properties` | forward error analysis of the quotient and of the arc cosine; execution for the witnesses | partial |
| C153 | Euler angles of quaternions, matrices and rotation vectors in double precision | `Eul64Properties` | perturbation of directions and of products of elementary matrices; execution for the witnesses | partial |
| C154 | Rotation vectors read from matrices, and rectified, in double precision | `Rvm64Properties` | forward error analysis of the trace and of the antisymmetric part; perturbation of the arc cosine; execution for the witnesses | partial |
| C155 | Comparison of rotation vectors and of Euler angles in double precision | `Cmp64Properties` | error of the comparison of angles in whole turns; perturbation of the rotations; execution for the witnesses | partial |
| C156 | Nearness of Euler angles, and rotation vectors of Euler angles, in double precision | `Nea64Properties` | stability of the angle between unit quaternions (chords); perturbation of directions and of the arc cosine; execution for the witnesses | partial |
| C157 | Distances to lines, rays and segments in double precision | `Dst64Properties` | errors of cross products, norms and clamped ratios; least distances of the exact model; execution for the witness | proved |
| C158 | Distances in the plane in double precision | `Pln64Properties` | embedding in space (the third coordinate is exactly 0); errors of the rejected component for lines; execution for the witness | proved |
| C159 | Sets of points and line strings in double precision | `Lst64Properties` | invariants of the loops; squared distances order distances up to rounding | proved |
| C160 | Points of cuboids in double precision | `Box64Properties` | errors of scalar products; branch by branch; execution for the witness | proved |

For the partial ones the note in `MANIFEST.json` says what is proved and what is missing.

## 6. Findings: statements that are false of the model

Each line is a theorem `..._refuted` with a witness.

* `C08_merge_order_refuted` (IntervalProperties.v) - The result also depends on the order of the input.
* `C08_merge_separated_refuted` (IntervalProperties.v) - Merge leaves [0,1[ and [1,2] unmerged when they come after another interval starting at the same value.
* `C09_gaps_refuted` (IntervalProperties.v) - The full statement is false: the gaps of {]0,1]} in [0,1] miss 0.
* `C09_gaps_throws_refuted` (IntervalProperties.v) - on intervals starting at the same value GetGaps may throw.
* `C11_logical_and_refuted` (IntervalProperties.v) - The full statement is false: {[0,0],[2,3]} and {[0,3]} give {[2,3]}.
* `C12_mutators_refuted` (IntervalProperties.v) - False: setType and the bound setters accept values the constructor rejects.
* `C17_terminates_refuted` (AngleProperties.v) - False: on 2^70, reduced to [0, 360[, subtracting 360 changes nothing and the loop never ends, whatever the fuel.
* `C25_reads_in_bounds_refuted` (InterpProperties.v) - False for the barycentric interpolator: the sizes are compared after Boost has read one ordinate per abscissa, outside the ordinates if there are too few.
* `C26_nodes_refuted` (InterpProperties.v) - False as stated at the nodes: a matrix that is not symmetric is accepted, but only its lower triangle is used, except at the first node.
* `C30_lengths_refuted` (RotProperties.v) - the constructor accepts the zero matrix (columns shorter than 1 are not rejected).
* `C30_orientation_refuted` (RotProperties.v) - the constructor accepts reflections.
* `C32_refuted` (RotProperties.v) - for the sequences XYZ and ZXY the quaternion and the matrix of the same Euler angle are different rotations.
* `C33_gimbal_refuted` (RotProperties.v) - at gimbal lock the Euler angles extracted from a quaternion are another rotation.
* `C33_label_refuted` (RotProperties.v) - EulerAngle::Quaternion ignores the requested sequence: the result, labelled with it, is another rotation.
* `C35_refuted` (RotProperties.v) - RotationVector::RotationMatrix throws for half turns.
* `C35_small_angle_refuted` (RotProperties.v) - RotationVector::RotationMatrix of a rotation below the tolerance is another rotation.
* `C36_range_refuted` (RotProperties.v) - rectify of an angle of more than a turn leaves a negative angle.
* `C39_nlerp_refuted` (RotProperties.v) - NLERP of antipodal quaternions throws.
* `C39_slerp_end_refuted` (RotProperties.v) - SLERP at ratio 1 of nearly equal quaternions is not the second quaternion.
* `C40_refuted` (RotProperties.v) - for real quaternions exp(log q) and q^1 are not q.
* `C43_matrix_refuted` (TransfProperties.v) - a matrix close to the identity with another last row is accepted; composition then is not composition of the maps.
* `C44_matrix_refuted` (TransfProperties.v) - Rotation of an accepted matrix that is not a rotation has no inverse.
* `C45_composed_2d_refuted` (TransfProperties.v) - 2D compositions of rigid transformations are reported not rigid.
* `C45_matrix_refuted` (TransfProperties.v) - isRigid is true for a transformation that does not keep distances (zero rotation matrix).
* `C46_matrix_refuted` (TransfProperties.v) - a matrix close to, but not, the identity is labelled Identity.
* `C51_near_refuted` (Geo3Properties.v) - The answer depends on the iteration order of the hash set.
* `C52_negative_radius_refuted` (SphereProperties.v) - Spheres with a negative radius are accepted: equality then differs from equality of the surfaces.
* `C53_contains_refuted` (EllProperties.v) - A point of the surface is not contained, and a point away from the surface is.
* `C54_near_apex_refuted` (ConeProperties.v) - contains throws for points within the tolerance of the apex even when the cone contains them.
* `C54_obtuse_refuted` (ConeProperties.v) - Points behind the apex are rejected even when an obtuse cone contains them.
* `C55_opposite_refuted` (ConeProperties.v) - equal cones need not contain the same points: for opposite axes and complementary angles == answers true.
* `C56_axis_refuted` (ConeProperties.v) - distanceTo a point within the tolerance of the axis is measured to the wrong place.
* `C56_behind_refuted` (ConeProperties.v) - distanceTo a point behind the apex is larger than the distance to the nearest point of the cone when the nearest point is on the side.
* `C60_zero_axis_refuted` (PyrProperties.v) - An axis of norm zero is accepted: then different planar points are at the same place.
* `C61_documented_refuted` (CompProperties.v) - The examples of the comments of contains and intersects in Composite.hpp throw.
* `C61_empty_refuted` (CompProperties.v) - "True if composite contains object": nothing is in no object.
* `C62_nameless_refuted` (CompProperties.v) - Printing the intersection throws for one known kind, Cuboid.
* `C62_order_refuted` (CompProperties.v) - With an object of an unknown kind the type depends on the order.
* `C62_unknown_refuted` (CompProperties.v) - an intersection with a single object of an unknown kind (cone, composite) is undefined and cannot be added.
* `C63_empty_set_refuted` (Geo2Properties.v) - The empty set is contained in no segment, and not accepted by a line.
* `C64_reflexive_refuted` (Poly2Properties.v) - 2D PointSet, Line, Segment, LineString and Composite objects are not equal to themselves through Object ==.
* `C65_closest_point_refuted` (Geo2Properties.v) - getPointClosestTo of a 2D line string returns the closest vertex, not the closest point.
* `C65_undefined_point_refuted` (Geo2Properties.v) - A line string with an undefined vertex is defined, and not equal to itself.
* `C66_hole_refuted` (Poly2Properties.v) - getEdgeCount counts the edges of inner rings, getEdgeAt and getEdges throw ToBeImplemented for them.
* `C67_direction_refuted` (SolverProperties.v) - integrating between negative times goes the wrong way: the sign of the step is that of the last absolute time.
* `C68_refuted` (SolverProperties.v) - x' = t from the time 1 to the time 2: the array form gives the solution, the scalar form another state and another tag.
* `C69_constant_refuted` (SolverProperties.v) - with constant logging integrate over a duration that is not a multiple of the step returns the state of an earlier time, tagged with the end time.
* `C70_single_refuted` (SolverProperties.v) - integrating over an array holding only the start time leaves no observation.
* `C71_count_refuted` (FloatProperties.v) - But the number of values is not the one of the multiples of the step that lie in the interval.
* `C71_with_step_terminates_refuted` (IntervalProperties.v) - Full statement: for a positive step the loop of generateArrayWithStep terminates in binary64. False: from 2^53 with step 1 the loop variable never changes.
* `C73_refuted` (RotProperties.v) - Index 3 passes the check of operator() although it is outside the matrix.
* `C74_refuted` (RotProperties.v) - A quaternion accepted as unitary whose rotation vector is not a number.
* `C75_refuted` (RotProperties.v) - Quaternion::isNear reduces the tolerance modulo a turn: a tolerance of a full turn rejects, a negative one accepts.
* `C76_refuted` (RotProperties.v) - two rotation vectors of the identity compare different.
* `C77_refuted` (RotProperties.v) - two Euler angles of the same rotation compare different at gimbal lock.
* `C85_plane_refuted` (Geo3Properties.v) - transforming a plane by a transformation that is not rigid does not give the image of the plane.
* `C88_chord_refuted` (EllProperties.v) - A chord with both end points on the surface: the answer is false.
* `C89_origin_refuted` (EllProperties.v) - A tangent ray from a point of the surface: nothing is found.
* `C90_equal_refuted` (EllProperties.v) - Concentric ellipsoids without common points that compare equal (large semi-axes).
* `C92_vertices_refuted` (CuboidProperties.v) - getVertices returns points that are not vertices of the cuboid and that contains rejects (the half-extents are halved again).
* `C94_sphere_refuted` (ConeProperties.v) - a cone is said to contain a sphere that sticks out of it, when the centre is within the tolerance of the axis.
* `C94_transform_refuted` (ConeProperties.v) - a shear is applied to apex and axis but keeps the angle: the image of a contained point is outside the transformed cone.
* `C95_intersects_refuted` (ConeProperties.v) - but it misses an ellipsoid inside the cone, however many half lines are used.
* `C98_near_refuted` (Geo2Properties.v) - 2D PointSet::isNear answers false or true depending on the iteration order.
* `C100_degenerate_refuted` (Poly2Properties.v) - Three points are required, but the first and the last can be the same: a polygon with two vertices.
* `C100_near_refuted` (Poly2Properties.v) - A last vertex close to the first one is dropped.
* `C102_degenerate_refuted` (Poly2Properties.v) - A polygon with two vertices does not survive.
* `C102_sets_refuted` (Poly2Properties.v) - MultiPolygon::contains(PointSet) is not implemented.
* `C103_any_contains_refuted` (Poly2Properties.v) - anyContains(Composite) differs from its documentation (some object contains the composite).
* `C103_intersects_refuted` (Poly2Properties.v) - 2D Composite::intersects throws for all objects.
* `C104_order_refuted` (Poly2Properties.v) - With an object of an unknown kind the type depends on the order.
* `C104_reflexive_refuted` (Poly2Properties.v) - a defined 2D intersection is not equal to itself.
* `C104_unknown_refuted` (Poly2Properties.v) - and alone it makes an undefined intersection, which cannot be added.
* `C105_two_refuted` (Poly2Properties.v) - Polygons that touch in two points or along two line strings: no answer.
* `C106_beyond_refuted` (PyrProperties.v) - Pyramid::contains accepts points beyond the base.
* `C106_segment_refuted` (PyrProperties.v) - over a base with a hole a segment is contained although its middle is not.
* `C107_intersects_refuted` (PyrProperties.v) - Pyramid::intersects misses a ball in the middle of the pyramid.
* `C108_one_way_refuted` (CompProperties.v) - of intersects a.b and b.a one may be missing (ToBeImplemented).
* `C108_polygons_refuted` (CompProperties.v) - So intersectionWith does not answer for two triangles.
* `C108_solids_refuted` (CompProperties.v) - A point of a sphere, asked through Object::contains: not implemented.
* `C110_digits_refuted` (TextProperties.v) - C110 for all numbers is false: 0.1 + 0.2 is read back as 0.3.
* `C110_empty_refuted` (TextProperties.v) - and the text of the empty vector is rejected.
* `C110_infinity_refuted` (TextProperties.v) - minus infinity as infinity.
* `C111_garbage_refuted` (TextProperties.v) - That what is accepted is the text of a vector is false.
* `C113_precision_refuted` (TextProperties.v) - With a precision, or with elements that are not printed exactly, they may be different.
* `C114_cuboid_refuted` (NameProperties.v) - That intersections of every type have a name is false: there is none for cuboids.
* `C117_classes_refuted` (NameProperties.v) - Between objects of different classes this is false, and all composites have the same (empty) text.
* `C118_plane_refuted` (DispatchProperties.v) - so that the claim that objects with common points are found to intersect is false: even an object and itself.
* `C120_lands_refuted` (FloatProperties.v) - and may lie below the range if not: the span check does not notice.
* `C121_one_unit_refuted` (FloatProperties.v) - nor within one unit.
* `C121_reflexive_refuted` (FloatProperties.v) - but comparing a larger one with itself may never end.
* `C121_symmetric_refuted` (FloatProperties.v) - Equality is not symmetric between units.
* `C121_transitive_refuted` (FloatProperties.v) - and not transitive.
* `C122_exact_refuted` (FloatProperties.v) - but whole numbers need not stay whole.
* `C122_round_trip_refuted` (FloatProperties.v) - and the way back need not lead to the start.
* `C123_ends_refuted` (FloatProperties.v) - But the last value of a closed interval need not be its bound: it may lie inside, and it may lie outside of the interval.
* `C124_inside_refuted` (FloatProperties.v) - but at a node it may lie above all data, and fall behind it.
* `C124_node_refuted` (FloatProperties.v) - and otherwise it may be anything: here 0 instead of 1.
* `C126_center_refuted` (Geo64Properties.v) - A segment may reject its own center.
* `C126_through_refuted` (Geo64Properties.v) - The line through two points may reject the second of them.
* `C127_separate_refuted` (Geo64Properties.v) - Two different points may be at distance zero.
* `C128_on_refuted` (Geo64Properties.v) - A point exactly on a sphere may be rejected, as the tolerance is absolute: (3v, 4v, 0) and radius 5v, about 2^22 units.
* `C129_accept_refuted` (Geo64Properties.v) - Far from zero a line accepts points that are not on it: at x = 2^60 the horizontal axis accepts a point at height 5.
* `C129_reject_refuted` (Geo64Properties.v) - The line through zero along (1, 7) rejects the end of its own direction.
* `C130_again_refuted` (Geo64Properties.v) - A line built again from its own origin and direction may differ from itself.
* `C130_large_refuted` (Geo64Properties.v) - Large directions are replaced by the zero vector, as the square overflows; the line then contains every point.
* `C130_small_refuted` (Geo64Properties.v) - Small directions are refused although they are not zero, as the square underflows.
* `C131_associative_refuted` (Rot64Properties.v) - But they may differ.
* `C131_inverse_refuted` (Rot64Properties.v) - A quaternion times its computed inverse need not be the unit quaternion.
* `C132_power_refuted` (Rot64Properties.v) - For tolerances smaller than 10 times 2^-53, and Real::Epsilon() is about 9.007 times 2^-53, the fifth power of a normalized quaternion is refused by rotateVector.
* `C133_same_refuted` (Rot64Properties.v) - Interpolating between a quaternion and itself may give another one.
* `C134_length_refuted` (Rot64Properties.v) - A matrix accepted for every tolerance that takes every vector to zero.
* `C134_power_refuted` (Rot64Properties.v) - For tolerances smaller than 10 times 2^-53 the fourth power of an accepted matrix is refused.
* `C134_transposed_refuted` (Rot64Properties.v) - An accepted matrix whose transpose is refused, for every tolerance smaller than 3/16: the checks do not bound the length of a column from below.
* `C135_refuted` (Rot64Properties.v) - A quaternion that is accepted and turns vectors, but whose matrix is refused for the same tolerance, from 2^-50 to 2^-49.
* `C136_empty_refuted` (Mat64Properties.v) - But an undefined matrix without elements is defined.
* `C136_shape_refuted` (Mat64Properties.v) - Only the sizes are compared: a row and a column of two elements pass the test, and their difference is undefined behaviour.
* `C136_zero_refuted` (Mat64Properties.v) - Different matrices may be near for the tolerance zero: the squares underflow.
* `C137_back_refuted` (Trf64Properties.v) - But not to the point itself: a shift by 2^60 and back takes 1 to 0.
* `C138_agree_refuted` (Trf64Properties.v) - The composition and the two applications in turn may differ by 1.
* `C138_associative_refuted` (Trf64Properties.v) - Composition is not associative in double precision.
* `C139_center_refuted` (Trf64Properties.v) - But not exactly: turning by the angle of the triangle 3, 4, 5 around (1, 5) moves the center.
* `C140_corner_refuted` (Trf64Properties.v) - The inverse of an affine matrix need not be affine: scaling by 7 gets a last coefficient below 1.
* `C140_singular_refuted` (Trf64Properties.v) - A singular matrix is inverted without an error, to coefficients that are not numbers.
* `C141_tiny_refuted` (Att64Properties.v) - But a tiny vector other than zero gets an axis of length below 2^-600 instead of 1.
* `C142_refuted` (Att64Properties.v) - At the tolerance that the library uses, the matrix of a legitimate axis and angle with correctly rounded cosine and sine may be refused.
* `C143_rows_refuted` (Att64Properties.v) - The matrix of three columns may be accepted while that of the same rows is refused, for any tolerance below 3 / 16: the check only looks at columns.
* `C144_refuted` (Att64Properties.v) - For XYZ and ZXY they do not: for three quarter turns they take (0, 1, 0) to vectors at least 1 apart.
* `C145_close_refuted` (Att64Properties.v) - For nearly opposite vectors at tolerances up to 9.8 * 2^-53, among them the one of the library, a rotation may be returned and accepted as unitary that takes the first vector 60 degrees away from the second.
* `C147_refuted` (Att64Properties.v) - At tolerances up to 29 * 2^-53, among them the one of the library, it may be refused for vectors that are neither short nor parallel: the matrix built fails its own check.
* `C148_above_refuted` (Att64Properties.v) - A quaternion accepted as unitary may have a scalar part above 1: the square root and the arc cosine of it are not numbers.
* `C148_lost_refuted` (Att64Properties.v) - But the correctly rounded quaternion of a rotation by more than 2^-26 has scalar part 1: the rotation is lost.
* `C149_exp_refuted` (Pow64Properties.v) - The exponential of 1 is 1, at least 1 away from the exact one.
* `C149_pow_refuted` (Pow64Properties.v) - But the first power of 2 is 1.
* `C149_turn_refuted` (Pow64Properties.v) - Half of almost a whole turn is no turn at all, at least 1 away from the exact power.
* `C151_symmetric_refuted` (Dif64Properties.v) - The two orders can differ: two different rotations whose angle is 0 in one order and at least 2^-26 in the other.
* `C152_monotone_refuted` (Dif64Properties.v) - A larger tolerance can be stricter: with a tolerance of one whole turn rotations are refused that are near with a tolerance of 4.
* `C152_symmetric_refuted` (Dif64Properties.v) - The answer can depend on the order.
* `C153_gimbal_refuted` (Eul64Properties.v) - In gimbal lock a quaternion accepted as unitary can have no angles: the argument of std::asin is above 1, and the middle angle undefined.
* `C153_label_refuted` (Eul64Properties.v) - So the angles need not name the rotation under their own label: a quarter turn around x, read in the sequence XYZ.
* `C154_above_refuted` (Rvm64Properties.v) - A matrix accepted as a rotation can have a trace above 3, whose arc cosine is not a number.
* `C154_half_refuted` (Rvm64Properties.v) - The matrix of half a turn, exact and accepted, has no rotation vector: its antisymmetric part is zero.
* `C154_lost_refuted` (Rvm64Properties.v) - A rotation by at least 2^-27, given by a matrix exact up to 2^-54, is read as no rotation at all.
* `C154_rectify_refuted` (Rvm64Properties.v) - Beyond a turn the angle can come out negative: 7 radians.
* `C155_euler_symmetric_refuted` (Cmp64Properties.v) - The comparison is not symmetric: 0.1 radians and a turn more.
* `C155_rectified_refuted` (Cmp64Properties.v) - A rotation vector need not equal its rectified form, although the rectified form equals it: 3.3 radians. The comparison is not symmetric.
* `C155_turn_refuted` (Cmp64Properties.v) - A whole turn and no rotation, up to rounding the same, are different when the axes differ.
* `C155_unit_refuted` (Cmp64Properties.v) - Three half turns rotate nothing, up to rounding, and are not unitary.
* `C157_second_refuted` (Dst64Properties.v) - The second point of a segment, which the segment contains, need not be at distance 0: the segment from (1, 0, 0) to (2^-60, 0, 0).
* `C158_second_refuted` (Pln64Properties.v) - The second point need not be: the segment from (1, 0) to (2^-60, 0).
* `C159_set_matching_refuted` (Lst64Properties.v) - The answer depends on the order of the points in the sets, which is that of a hash table: 0 and 2 against 1 and -1 with tolerance 1.
* `C160_corner_refuted` (Box64Properties.v) - The corner computed in double precision may be left out, whatever the tolerance: center (0.1, 0.1, 0.1) and extents 0.2.

## 7. Print Assumptions, theorem by theorem

D = `sig_forall_dec`, N = `sig_not_dec`, F = `functional_extensionality_dep`, C = `classic`; "closed" means no axiom.

**AccessProperties.v**

* C + D + F + N: `C119_matrices`
* D: `C119_points_undefined`
* D + F: `C119_sphere`, `C119_sphere_undefined`, `C119_sphere_ne`, `C119_ellipsoid`, `C119_points`
* D + F + N: `C119_angles`, `C119_units`, `C119_undefined_angle`, `C119_cone`, `C119_cone_undefined`, `C119_undefined`, `C119_ne`
* closed: `C119_interval`, `C119_undefined_interval`, `C119_interval_ne`, `C119_ellipsoid_undefined`, `C119_cuboid`, `C119_cuboid_undefined`

**AngleProperties.v**

* C + D + F + N: `C20_between_3d`, `C20_between_2d`, `C20_errors`
* D + F: `C17_integer_range_partial`, `C17_any_range_partial`
* D + F + N: `C16_reduction`, `C16_other_ranges_rejected`, `C18_equal_iff_whole_turns`, `C18_equivalence`, `C18_total`, `C18_undefined`, `C19_conversion`, `C19_chain`, `C19_sum_and_difference`, `C19_scaling`, `C19_undefined`, `C21_is_near`, `C21_total`, `C21_symmetric_and_periodic`, `C21_undefined`
* closed: `C17_terminates_refuted`

**Att64Properties.v**

* C + D + F + N: `C142_refuted`, `C148_accurate`, `C148_rotation`, `C148_round_trip`, `C148_lost_refuted`
* D + F: `C143_checked`, `C143_rows_refuted`, `C146_antipodal`, `C146_errors`, `C147_zero`, `C148_above_refuted`
* D + F + N: `C141_accurate`, `C141_turn`, `C141_zero`, `C141_axis`, `C141_vector`, `C141_zero_vector`, `C141_tiny_refuted`, `C142_accepted`, `C142_entries`, `C142_turn`, `C142_agree`, `C142_zero`, `C143_accepted`, `C143_turn`, `C143_opposite`, `C143_zero`, `C143_columns`, `C143_errors`, `C144_quaternion`, `C144_turn`, `C144_matrix`, `C144_matrix_turn`, `C144_agree`, `C144_refuted`, `C144_zero`, `C145_accurate`, `C145_rotates`, `C145_same`, `C145_refused`, `C145_opposite`, `C145_close_refuted`, `C146_accurate`, `C146_turn`, `C146_succeeds`, `C146_ends`, `C146_refused`, `C147_accepted`, `C147_entries`, `C147_turn`, `C147_refused`, `C147_refuted`, `C148_unit`
* closed: `C141_errors`, `C142_errors`, `C144_errors`, `C145_errors`, `C147_errors`, `C148_errors`

**Box64Properties.v**

* D + F + N: `C160_sound`, `C160_complete`
* closed: `C160_total`, `C160_corner_refuted`, `C160_errors`

**Cmp64Properties.v**

* C + D + F + N: `C155_sound`, `C155_turn_refuted`, `C155_euler_sound`, `C155_euler_flipped`, `C155_unit_refuted`
* D + F: `C155_reflexive`, `C155_zero`, `C155_axes`, `C155_euler_reflexive`, `C155_unit`, `C155_unit_short`
* D + F + N: `C155_opposite`, `C155_rectified_refuted`, `C155_unit_map`
* closed: `C155_euler_other`, `C155_euler_symmetric_refuted`, `C155_undefined`, `C155_ne`

**CompProperties.v**

* C + D + F + N: `C61_contains`, `C61_intersects`, `C61_exact`, `C61_contains_composite`, `C61_intersects_composite`, `C61_empty`, `C61_empty_refuted`, `C61_documented_refuted`, `C61_intersection`, `C61_intersection_composite`, `C61_errors`, `C62_results`, `C108_intersects`, `C108_contains`, `C108_symmetric`, `C108_inter_symmetric`, `C108_one_way_refuted`, `C108_polygons_diverge`, `C108_polygons_refuted`, `C108_solids_unimplemented`, `C108_solids_refuted`, `C108_undefined`
* D: `C62_order_refuted`, `C62_nameless_refuted`
* D + F + N: `C61_equal`, `C61_apply`, `C61_apply_identity`, `C62_equal`, `C108_equal`, `C108_equivalence`, `C108_equal_undefined`
* closed: `C61_defined`, `C61_add`, `C61_add_monoid`, `C61_access`, `C61_is_as`, `C62_type`, `C62_factories`, `C62_add`, `C62_associative`, `C62_neutral`, `C62_unknown_refuted`, `C62_names`, `C62_access`, `C62_errors`

**ConeProperties.v**

* C + D + F + N: `C54_contains_partial`, `C54_apex`, `C54_near_apex`, `C54_near_apex_refuted`, `C54_obtuse_refuted`, `C54_further`, `C54_segment`, `C54_sets`, `C54_ray`, `C54_errors`, `C55_same_points_partial`, `C55_opposite_refuted`, `C57_sphere`, `C94_sphere_partial`, `C94_sphere_refuted`
* D + F + N: `C55_decides`, `C55_complete`, `C56_front_partial`, `C56_behind_partial`, `C56_behind_refuted`, `C56_axis_witness`, `C56_axis_refuted`, `C56_apex`, `C58_rays`, `C58_on_cone`, `C58_spread`, `C58_not_unit`, `C58_errors`, `C94_rigid`, `C94_transform_refuted`, `C94_errors`, `C95_sphere`, `C95_ellipsoid_partial`, `C95_intersects`, `C95_intersects_refuted`, `C95_errors`

**CuboidProperties.v**

* D + F: `C91_errors`, `C92_intersects`, `C92_vertices`, `C92_vertices_inside`, `C92_vertices_refuted`, `C93_equal`, `C93_cube`
* D + F + N: `C91_contains`, `C91_surface`, `C91_sets`, `C92_near`, `C93_rigid`, `C93_errors`

**Dif64Properties.v**

* C + D + F + N: `C151_accurate`, `C151_orders`, `C151_order`, `C151_symmetric_refuted`, `C152_near`, `C152_order`, `C152_symmetric_refuted`, `C152_monotone_refuted`, `C152_negative`
* D + F: `C151_refused`, `C152_threshold`
* D + F + N: `C151_same`, `C152_same`
* closed: `C152_errors`

**DispatchProperties.v**

* C + D + F + N: `C118_intersects`, `C118_inter`, `C118_contains`, `C118_cone`
* D: `C118_plane_refuted`
* D + F: `C118_contains_plane`, `C118_apply_plane`
* D + F + N: `C118_defined`, `C118_equal`, `C118_classes`, `C118_cuboids`, `C118_apply`
* closed: `C118_undefined_intersection`, `C118_never_plane`

**Dst64Properties.v**

* D + F: `C157_origin`, `C157_degenerate`, `C157_second_refuted`, `C157_set`
* D + F + N: `C157_line`, `C157_ray`, `C157_segment`, `C157_first`
* closed: `C157_errors`, `C157_set_errors`

**EllProperties.v**

* D + F: `C53_negative`
* D + F + N: `C53_axes`, `C53_matrix`, `C53_contains`, `C53_contains_partial`, `C53_contains_refuted`, `C53_sets`, `C88_intersects`, `C88_segment_partial`, `C88_segment_degenerate`, `C88_chord_refuted`, `C89_line`, `C89_ray_partial`, `C89_segment_partial`, `C89_degenerate`, `C89_origin_refuted`, `C90_equal_sound`, `C90_equal_complete`, `C90_equal_refuted`, `C90_transform`, `C90_identity`, `C90_errors`

**Eul64Properties.v**

* C + D + F + N: `C153_matrix`, `C153_quaternion`, `C153_quaternion_other`, `C153_rotvec`, `C153_round_trip`, `C153_first`, `C153_label_refuted`
* D + F + N: `C153_gimbal_refuted`
* closed: `C153_label`, `C153_errors`

**FloatProperties.v**

* C + D + F + N: `C121_sound`, `C121_sound_units`, `C122_accurate`, `C122_round_trip`, `C125_two_units`
* D + F: `C17_double`, `C71_positive`, `C71_negative`, `C71_count_refuted`, `C71_zero_step`, `C120_lands`, `C120_lands_refuted`, `C120_congruent`, `C120_integers`, `C120_errors`, `C121_reflexive`, `C121_integers`, `C121_near_reflexive`, `C121_near_sound`, `C121_near_integers`, `C122_exact_refuted`, `C122_round_trip_refuted`, `C123_size`, `C123_ends_refuted`, `C124_outside`, `C124_accurate`, `C124_node`, `C124_monotone`, `C124_node_refuted`, `C124_inside_refuted`, `C125_one_unit`
* closed: `C121_reflexive_refuted`, `C121_symmetric_refuted`, `C121_one_unit_refuted`, `C121_transitive_refuted`, `C121_near_symmetric`, `C121_undefined`, `C121_near_undefined`, `C122_errors`, `C123_errors`, `C125_undefined`

**Geo2Properties.v**

* D + F: `C63_line`, `C63_segment`, `C63_sets`, `C63_empty_set_refuted`, `C65_contains`, `C65_segments`, `C65_equal`, `C65_undefined_point_refuted`, `C65_segment`, `C65_errors`, `C97_line`, `C97_segment`, `C97_point`, `C97_arithmetic`, `C98_construct`, `C98_construct_undefined`, `C98_equal`, `C99_errors`
* D + F + N: `C63_construct`, `C63_construct_zero`, `C63_through`, `C63_errors`, `C63_point_distance`, `C63_line_distance`, `C63_segment_distance`, `C63_segment_set`, `C65_closest_vertex_partial`, `C65_closest_point_refuted`, `C65_near`, `C97_center`, `C97_near`, `C97_undefined`, `C98_closest`, `C98_distance`, `C98_near_sound`, `C98_near_answers`, `C98_near_complete_partial`, `C98_near_refuted`, `C98_errors`, `C99_images`
* closed: `C65_access`

**Geo3Properties.v**

* D + F: `C48_line`, `C48_ray`, `C48_segment`, `C50_line`, `C50_ray`, `C50_segment`, `C51_construct`, `C51_construct_undefined`, `C51_equal`, `C51_closest_errors`, `C84_line`, `C84_ray`, `C84_segment`, `C84_plane`, `C84_undefined`, `C85_errors`, `C86_pointset`, `C86_point`, `C86_pointset_intersection`, `C86_line`, `C86_ray`, `C86_segment`, `C86_line_set`, `C86_empty`, `C87_equal`, `C87_undefined_point`, `C87_errors`
* D + F + N: `C49_point`, `C49_pointset`, `C49_line`, `C49_ray`, `C49_segment`, `C49_segment_set`, `C49_errors`, `C50_plane`, `C50_construct`, `C50_construct_zero`, `C50_through`, `C50_errors`, `C51_closest`, `C51_near_answers`, `C51_near_sound`, `C51_near_complete_partial`, `C51_near_refuted`, `C84_center`, `C85_affine`, `C85_rigid`, `C85_plane_refuted`, `C87_closest`, `C87_near`
* closed: `C87_access`, `C87_segment`

**Geo64Properties.v**

* D + F: `C126_origin`, `C126_ends`, `C126_whole`, `C126_through_refuted`, `C127_same`, `C127_separate_refuted`, `C129_origin`, `C129_vertical`, `C129_horizontal`, `C129_near`, `C129_accept_refuted`, `C129_reject_refuted`, `C130_same`, `C130_zero`, `C130_equal`, `C130_small_refuted`, `C130_large_refuted`
* D + F + N: `C126_line_near`, `C126_plane_near`, `C126_segment_near`, `C126_center`, `C127_accurate`, `C127_triangle`, `C127_near`, `C128_whole`, `C128_near`, `C128_on_refuted`, `C130_direction`, `C130_plane`, `C130_segment`, `C130_through`
* closed: `C126_center_refuted`, `C126_errors`, `C127_symmetric`, `C127_length`, `C127_errors`, `C128_errors`, `C129_errors`, `C130_again_refuted`, `C130_errors`

**InterpProperties.v**

* C + D + F + N: `C26_constructor`, `C26_clamped`, `C26_nodes_refuted`, `C26_nodes_partial`, `C26_nodes_lower_triangle_partial`, `C26_cell`
* D: `C25_barycentric_partial`
* D + F: `C22_nodes`, `C22_clamped`, `C22_cell`, `C22_repeated_abscissae`, `C22_vector`, `C23_derivative`, `C23_slopes`, `C24_previous_sample`, `C24_derivative`, `C25_reads_in_bounds_refuted`, `C25_others_partial`, `C25_evaluation_in_bounds`, `C72_factory`

**IntervalProperties.v**

* D + F: `C13_with_step_positive`, `C13_with_step_negative`, `C13_with_step_errors`, `C14_with_size_values`, `C14_with_size_inside`, `C14_with_size_errors`
* closed: `C01_contains_value`, `C01_contains_value_undefined`, `C02_intersects`, `C02_intersects_sym`, `C02_intersects_undefined`, `C03_contains_interval`, `C03_contains_interval_undefined`, `C04_intersection`, `C04_intersection_undefined`, `C05_union`, `C05_union_undefined`, `C06_clip`, `C06_clip_order`, `C06_clip_undefined`, `C07_merge_cover`, `C07_merge_undefined`, `C07_sort`, `C08_merge_separated_partial`, `C08_merge_canonical_partial`, `C08_merge_twice`, `C08_merge_separated_refuted`, `C08_merge_order_refuted`, `C09_gaps_span_partial`, `C09_gaps_nospan_partial`, `C09_gaps_refuted`, `C09_gaps_throws_refuted`, `C10_logical_or`, `C11_logical_and_partial`, `C11_logical_and_exact_partial`, `C11_logical_and_refuted`, `C12_mutators_refuted`, `C12_mutators_partial`, `C12_constructor`, `C15_equality`, `C15_equality_undefined`, `C71_with_step_terminates_refuted`

**Lst64Properties.v**

* D + F + N: `C159_closest`, `C159_closest_plane`, `C159_distance`, `C159_distance_plane`, `C159_near`, `C159_near_plane`, `C159_set_near`, `C159_set_near_plane`
* closed: `C159_sizes`, `C159_set_sizes`, `C159_set_near_errors`, `C159_set_matching_refuted`, `C159_errors`, `C159_undefined_point`, `C159_near_errors`

**Mat64Properties.v**

* D + F: `C136_same`, `C136_zero_refuted`, `C136_axes`
* D + F + N: `C136_near`, `C136_tolerance`
* closed: `C136_symmetric`, `C136_errors`, `C136_shape_refuted`, `C136_filled`, `C136_empty_refuted`

**MatrixProperties.v**

* D + F: `C109_matrix`, `C109_other`, `C109_undefined`, `C109_identity`, `C109_plane`, `C109_access`, `C109_access_plane`

**NameProperties.v**

* closed: `C114_names`, `C114_named`, `C114_intersections`, `C114_cuboid_refuted`, `C115_angle`, `C115_angle_defined`, `C115_rotation_vector`, `C115_euler_angle`, `C115_point`, `C116_interval`, `C116_defined`, `C117_point`, `C117_point_set`, `C117_line_string`, `C117_segment`, `C117_line`, `C117_printed`, `C117_classes_refuted`

**Nea64Properties.v**

* C + D + F + N: `C156_near`, `C156_vector`
* D + F + N: `C156_same`, `C156_zero`
* closed: `C156_errors`, `C156_tolerance`

**Pln64Properties.v**

* D + F: `C158_zero_vector`, `C158_origin`, `C158_degenerate`, `C158_second_refuted`, `C158_set`
* D + F + N: `C158_point`, `C158_near`, `C158_length`, `C158_direction`, `C158_line`, `C158_segment`, `C158_first`
* closed: `C158_errors`, `C158_undefined_line`, `C158_set_errors`

**Poly2Properties.v**

* C + D + F + N: `C64_polygon`, `C64_multi`, `C64_reflexive_partial`, `C101_contains`, `C101_sets`, `C101_lines`, `C101_transform`, `C101_transform_contains`, `C102_contains`, `C102_transform`, `C105_overlap`
* D: `C101_transform_errors`, `C102_sets_refuted`, `C103_intersects_refuted`, `C104_order_refuted`
* D + F: `C64_never`, `C64_reflexive_refuted`, `C64_symmetric`, `C64_composite`, `C64_composite_never`, `C66_count`, `C66_edges_partial`, `C66_outer_edges_partial`, `C66_hole_refuted`, `C100_construct`, `C100_again`, `C100_closed_input`, `C100_errors`, `C100_degenerate_refuted`, `C100_near_refuted`, `C100_vertices`, `C100_vertex_at`, `C102_round_trip`, `C102_union`, `C102_hull`, `C102_degenerate_refuted`, `C102_errors`, `C103_contains`, `C103_any_contains`, `C103_contains_composite`, `C103_any_contains_composite`, `C103_any_contains_refuted`, `C103_empty`, `C103_apply`, `C103_apply_identity`, `C103_errors`, `C104_equality`, `C104_reflexive_refuted`, `C105_difference`, `C105_disjoint`, `C105_touch_point`, `C105_touch_line`, `C105_two_refuted`, `C105_errors`
* D + F + N: `C100_near`
* closed: `C101_errors`, `C102_sets_unimplemented`, `C103_defined`, `C103_intersects_never`, `C103_add`, `C103_add_monoid`, `C103_access`, `C103_is_as`, `C104_type`, `C104_factories`, `C104_add`, `C104_associative`, `C104_neutral`, `C104_unknown_refuted`, `C104_access`, `C104_errors`

**Pow64Properties.v**

* C + D + F + N: `C149_exp`, `C149_exp_short`, `C149_log`, `C149_round_trip`, `C149_pow`, `C149_pow_unit`, `C149_exp_refuted`, `C150_accurate`, `C150_formula`, `C150_ends`, `C150_turn`
* D + F: `C149_pow_refuted`, `C150_errors`
* D + F + N: `C149_boundary`, `C149_turn_refuted`, `C150_refused`
* closed: `C149_errors`

**PyrProperties.v**

* C + D + F + N: `C60_equal`, `C106_contains`, `C106_solid`, `C106_beyond_refuted`, `C106_set`, `C106_segment`, `C106_segment_refuted`, `C106_rigid`, `C107_face`, `C107_face_lined`, `C107_rays`, `C107_few`, `C107_holes`, `C107_sphere`, `C107_ellipsoid_partial`, `C107_intersects_sphere`, `C107_intersects_ellipsoid`, `C107_intersects_refuted`, `C107_equal`, `C107_errors`
* D + F: `C59_count`, `C60_vertices`, `C60_edges_partial`, `C60_edge_at`
* D + F + N: `C59_face_partial`, `C59_face_flat`, `C59_holes`, `C59_errors`, `C60_isometric`, `C60_nearly_isometric`, `C60_construct`, `C60_not_orthogonal`, `C60_zero_axis_refuted`, `C60_near`, `C60_transform`, `C60_rigid`, `C60_getters`, `C60_errors`, `C106_flat`, `C106_errors`, `C107_ends`, `C107_transform`

**Rot64Properties.v**

* D + F: `C131_whole`, `C131_unit`, `C131_conjugate`, `C131_sign`, `C131_equal`, `C131_inverse_refuted`, `C131_zero`, `C132_rectify`, `C132_errors`, `C133_ends`, `C133_same_refuted`, `C133_errors`, `C134_whole`, `C134_power_refuted`, `C134_equal`, `C134_transpose`, `C134_transposed_refuted`, `C134_length_refuted`, `C135_refuted`
* D + F + N: `C131_accurate`, `C131_order`, `C131_norm`, `C131_dot`, `C131_inverse`, `C131_quotient`, `C132_normalize`, `C132_near`, `C132_product`, `C132_power_refuted`, `C132_rotate`, `C132_back`, `C133_accurate`, `C134_near`, `C134_turn`, `C134_length`, `C134_back`, `C134_transposed`, `C134_product`, `C134_right`, `C134_unit`, `C135_accepted`, `C135_entries`, `C135_agree`, `C135_quaternion`, `C135_back`
* closed: `C131_associative_refuted`, `C131_errors`, `C134_errors`, `C135_errors`

**RotProperties.v**

* C + D + F + N: `C33_matrix_partial`, `C33_quaternion_partial`, `C33_zyx_partial`, `C33_label_refuted`, `C33_gimbal_refuted`, `C34_from_quaternion`, `C35_partial`, `C35_half_turn`, `C35_refuted`, `C35_small_angle_refuted`, `C38_value`, `C38_is_angle`, `C38_triangle`, `C38_errors`, `C39_ratio`, `C39_slerp_unit`, `C39_slerp_start`, `C39_rate`, `C39_end_partial`, `C39_slerp_end_refuted`, `C40_polar_form`, `C40_exp_log_partial`, `C40_pow_partial`, `C40_one_partial`, `C40_add_partial`, `C40_refuted`, `C40_log_zero`, `C74_partial`, `C74_refuted`, `C75_near`, `C75_errors`, `C75_refuted`, `C79_of_euler`, `C79_to_euler_partial`
* D + F: `C27_product`, `C27_assoc`, `C27_unit`, `C27_conj`, `C36_quaternion_any`, `C37_equivalence`, `C39_lerp`, `C73_access`, `C73_refuted`, `C80_equal_iff`, `C81_sum_and_scaling`
* D + F + N: `C27_norm`, `C27_inverse`, `C28_isometry`, `C28_homomorphism`, `C28_inverse`, `C28_negated`, `C28_errors`, `C28_tolerated`, `C29_matrix`, `C29_from_matrix`, `C30_accepted_iff`, `C30_lengths_refuted`, `C30_orientation_refuted`, `C31_elementary_groups`, `C32_quaternion`, `C32_matrix`, `C32_zyx_partial`, `C32_refuted`, `C34_construct`, `C34_conversions`, `C36_same`, `C36_range_partial`, `C36_range_refuted`, `C36_quaternion`, `C37_equal_iff`, `C39_nlerp_partial`, `C39_nlerp_refuted`, `C41_rotates`, `C41_error_iff`, `C41_zero`, `C42_rotation`, `C42_errors`, `C42_undefined`, `C76_sound`, `C76_complete_partial`, `C76_refuted`, `C77_sound`, `C77_complete_partial`, `C77_refuted`, `C78_columns`, `C78_rows`, `C78_result`, `C79_of_vector`, `C79_of_zero_vector`, `C79_axes`, `C80_product`, `C80_transpose`, `C80_undefined`, `C81_unitary_euler`
* closed: `C73_errors`, `C81_components`, `C81_round_trip`

**Rvm64Properties.v**

* C + D + F + N: `C154_matrix`, `C154_rectify`, `C154_half_refuted`, `C154_lost_refuted`
* D + F: `C154_kept`, `C154_above_refuted`
* D + F + N: `C154_rectify_refuted`
* closed: `C154_errors`

**SolverProperties.v**

* D + F: `C67_rk4_partial`, `C67_exact_partial`, `C67_controlled_partial`, `C67_tags`, `C67_still`, `C67_direction_refuted`, `C67_stuck`, `C67_errors`, `C68_same_state_partial`, `C68_durations_partial`, `C68_tag`, `C68_refuted`, `C69_rk4`, `C69_controlled_partial`, `C69_constant`, `C69_constant_refuted`, `C69_zero`, `C69_errors`, `C70_array`, `C70_single_refuted`, `C70_fresh`, `C70_kept`, `C70_empty`, `C70_duration`, `C96_equality`, `C96_equivalence`, `C96_tolerances`, `C96_constants`
* closed: `C70_access`, `C96_accessors`

**SphereProperties.v**

* D: `C52_not_rigid`
* D + F: `C52_errors`, `C52_negative_radius_refuted`
* D + F + N: `C52_contains`, `C52_sets`, `C52_intersects`, `C52_intersects_segment_partial`, `C52_line`, `C52_ray`, `C52_segment`, `C52_equal`, `C52_rigid`

**TextProperties.v**

* D + F: `C110_halves`, `C111_hexadecimal`
* closed: `C110_integers`, `C110_accuracy`, `C110_precision`, `C110_digits_refuted`, `C110_infinity_refuted`, `C110_empty_refuted`, `C111_accepted`, `C111_rejected`, `C111_size`, `C111_pieces`, `C111_garbage_refuted`, `C112_defined`, `C112_round_trip`, `C112_other_format`, `C112_errors`, `C112_four`, `C112_components`, `C112_precision`, `C113_defined`, `C113_unambiguous`, `C113_integers`, `C113_precision_refuted`

**TransfProperties.v**

* C + D + F + N: `C46_type_3d_partial`
* D: `C43_undefined_3d`, `C43_undefined_2d`
* D + F: `C43_matrix_refuted`, `C82_undefined_3d`, `C82_undefined_2d`, `C83_translation_3d`, `C83_rotation_matrix_3d`
* D + F + N: `C43_action_3d_partial`, `C43_monoid_3d`, `C43_action_2d`, `C43_monoid_2d`, `C44_inverse_3d`, `C44_exists_3d_partial`, `C44_composition_3d`, `C44_matrix_refuted`, `C44_inverse_2d`, `C45_rigid_3d_partial`, `C45_matrix_refuted`, `C45_sound_2d`, `C45_rigid_2d_partial`, `C45_composed_2d_refuted`, `C46_matrix_refuted`, `C46_type_2d`, `C47_around_3d`, `C47_around_2d`, `C82_equal_iff_3d`, `C82_equal_iff_2d`, `C83_rotation_vector_3d`, `C83_difference_3d`, `C83_undefined_3d`, `C83_translation_2d`, `C83_rotation_2d`, `C83_difference_2d`, `C83_undefined_2d`
* closed: `C45_undefined_3d`, `C46_table`

**Trf64Properties.v**

* D + F: `C137_accurate`, `C137_vector`, `C137_translation`, `C137_identity`, `C137_whole`, `C137_back`, `C137_back_refuted`, `C138_accurate`, `C138_affine`, `C138_identity`, `C138_translations`, `C138_equal`, `C138_agree_refuted`, `C139_rotation2`, `C139_rotation3`, `C139_matrix`, `C139_point`, `C139_center`, `C139_center_refuted`, `C139_turn`, `C140_exact`, `C140_accurate`, `C140_back`, `C140_translation`, `C140_rotation`, `C140_singular_refuted`, `C140_corner_refuted`
* closed: `C137_errors`, `C138_errors`, `C138_associative_refuted`, `C139_errors`, `C140_errors`

## 8. Seeded faults

`seeded/LOG.jsonl` records 1315 edits of the model (made in a scratch copy), the claim each one breaks, the theorems that stopped proving and the theorems tightened because they survived.
