{"id": "C01", "title": "Interval membership matches the interval type", "statement": "For a defined interval of any of the four types, contains(value) is true exactly when the value lies between the bounds, a bound itself being included exactly when the type closes that side; an undefined interval or undefined value raises an error instead of answering.", "quantifier": "all interval types, all bounds accepted by the constructor, all values (including the two bounds), defined or undefined", "why_tests_cant": "The answer depends on four types times every ordering of three numbers; tests sample a handful of numeric triples, and boundary values of half-open types are easily missed.", "anchors": ["src/OpenSpaceToolkit/Mathematics/Object/Interval.tpp: Interval::contains(const T&), isDefined, constructor"]}
{"id": "C02", "title": "Interval::intersects is exactly 'share a point', and is symmetric", "statement": "Two defined intervals intersect according to intersects() if and only if there is a value contained in both; hence the answer does not depend on which interval the method is called on.", "quantifier": "all pairs of constructible intervals over a dense order, 16 type combinations", "why_tests_cant": "The code decides by comparing bounds with type-dependent strictness; equality with the existence of a common point ranges over a continuum of values that tests cannot enumerate.", "anchors": ["src/OpenSpaceToolkit/Mathematics/Object/Interval.tpp: Interval::intersects, checkAgainstLowerBound, checkAgainstUpperBound"]}
{"id": "C03", "title": "Interval::contains(interval) is exactly set inclusion", "statement": "contains(other) is true if and only if every value contained in the other interval is contained in this one.", "quantifier": "all pairs of constructible intervals over a dense order", "why_tests_cant": "Set inclusion quantifies over infinitely many values; a test can only check chosen bounds.", "anchors": ["src/OpenSpaceToolkit/Mathematics/Object/Interval.tpp: Interval::contains(const Interval&)"]}
{"id": "C04", "title": "getIntersectionWith is exactly set intersection", "statement": "For two defined intervals getIntersectionWith never throws; if the intervals share no value it returns the undefined interval, otherwise it returns a constructible interval which contains exactly the values contained in both.", "quantifier": "all pairs of constructible intervals, all values", "why_tests_cant": "Correct result type for ties at the bounds depends on 16 type combinations and on the order of four bounds; exactness quantifies over all values.", "anchors": ["src/OpenSpaceToolkit/Mathematics/Object/Interval.tpp: Interval::getIntersectionWith, buildInterval"]}
{"id": "C05", "title": "getUnionWith is exactly set union when the union is an interval", "statement": "For two defined intervals getUnionWith returns a defined interval if and only if the set union is convex (no missing value in between), and then the result contains exactly the values contained in at least one of the two.", "quantifier": "all pairs of constructible intervals, all values", "why_tests_cant": "Touching intervals such as [0,1[ and [1,2] vs [0,1[ and ]1,2] differ by a single point; exactness is a statement about every value.", "anchors": ["src/OpenSpaceToolkit/Mathematics/Object/Interval.tpp: Interval::getUnionWith"]}
{"id": "C06", "title": "Clip keeps exactly the part of every interval inside the clipping interval", "statement": "Clip(intervals, c) returns defined intervals only; a value is contained in some returned interval if and only if it is contained in c and in some input interval; the relative order of the clipped pieces follows the input order.", "quantifier": "all finite arrays of constructible intervals and every clipping interval", "why_tests_cant": "Unbounded array length and all values; dropped or duplicated pieces only show on untested configurations.", "anchors": ["src/OpenSpaceToolkit/Mathematics/Object/Interval.tpp: Interval::Clip"]}
{"id": "C07", "title": "Merge preserves the set of covered values", "statement": "Merge(intervals) covers exactly the same values as the input array: a value is in some merged interval if and only if it is in some input interval, whatever order the (unstable) sort leaves intervals with equal lower bounds in.", "quantifier": "all finite arrays of constructible intervals, all admissible outcomes of the unstable sort, all values", "why_tests_cant": "Arrays of any length with arbitrary overlaps; std::sort gives no guarantee on ties, so a test only sees one outcome of the platform's implementation.", "anchors": ["src/OpenSpaceToolkit/Mathematics/Object/Interval.tpp: Interval::Merge, Sort, getUnionWith"]}
{"id": "C08", "title": "Merge yields pairwise disjoint, non-mergeable intervals", "statement": "After Merge no two different returned intervals can be merged further (their union is not an interval); the result does not depend on the input order.", "quantifier": "all finite arrays of constructible intervals, all admissible outcomes of the unstable sort", "why_tests_cant": "The comparator ignores bound types, so separation depends on tie order that tests cannot control.", "anchors": ["src/OpenSpaceToolkit/Mathematics/Object/Interval.tpp: Interval::Merge, Sort"]}
{"id": "C09", "title": "GetGaps returns exactly the uncovered part of the span", "statement": "GetGaps(intervals, span) covers exactly the values of the span (or of the hull of the intervals when no span is given) that no input interval contains.", "quantifier": "all finite arrays of constructible intervals and all spans, all values", "why_tests_cant": "Gaps of a single point and open/closed boundary flips are invisible to tests on a few closed intervals.", "anchors": ["src/OpenSpaceToolkit/Mathematics/Object/Interval.tpp: Interval::GetGaps, Merge, Clip"]}
{"id": "C10", "title": "LogicalOr covers exactly the union of two interval arrays", "statement": "LogicalOr(A, B) covers a value if and only if some interval of A or of B contains it.", "quantifier": "all pairs of finite arrays of constructible intervals, all values", "why_tests_cant": "Unbounded arrays and a continuum of values.", "anchors": ["src/OpenSpaceToolkit/Mathematics/Object/Interval.tpp: Interval::LogicalOr, Merge"]}
{"id": "C11", "title": "LogicalAnd covers exactly the intersection of two interval arrays", "statement": "LogicalAnd(A, B) covers a value if and only if some interval of A and some interval of B contain it.", "quantifier": "all pairs of finite arrays of constructible intervals, all values", "why_tests_cant": "Implemented through complements of complements within a span, so single-point pieces at the span boundary need a universally quantified check.", "anchors": ["src/OpenSpaceToolkit/Mathematics/Object/Interval.tpp: Interval::LogicalAnd, GetGaps"]}
{"id": "C12", "title": "No public mutator can break the interval validity invariant", "statement": "Starting from a constructible interval, any sequence of setType, setLowerBound and setUpperBound calls that does not throw leaves an interval the constructor would accept (lower < upper, or equal bounds only if closed).", "quantifier": "all constructible intervals and all finite sequences of mutator calls", "why_tests_cant": "An invariant over all operation sequences; tests try single calls.", "anchors": ["src/OpenSpaceToolkit/Mathematics/Object/Interval.tpp: Interval::setType, setLowerBound, setUpperBound, constructor"]}
{"id": "C13", "title": "generateArrayWithStep yields an ordered grid inside the interval", "statement": "For a step of the right sign the generated values start at the lower bound (upper bound for a negative step), are consecutive multiples of the step, never leave the bounds, and are strictly monotone; a zero or undefined step raises an error.", "quantifier": "all real intervals and all steps", "why_tests_cant": "Loop with accumulated step; number of iterations unbounded.", "anchors": ["src/OpenSpaceToolkit/Mathematics/Object/Interval.tpp: Interval::generateArrayWithStep"]}
{"id": "C14", "title": "generateArrayWithSize yields evenly spaced interior points of the requested count", "statement": "For size n the array has exactly n values, evenly spaced, strictly increasing, all contained in the interval, including the bounds exactly when the type closes them; a size too small for the type raises an error.", "quantifier": "all real intervals with lower < upper, all types, all sizes", "why_tests_cant": "Off-by-one spacing depends on the type and the size; tests check a few sizes.", "anchors": ["src/OpenSpaceToolkit/Mathematics/Object/Interval.tpp: Interval::generateArrayWithSize"]}
{"id": "C15", "title": "Interval equality is set equality", "statement": "For constructible intervals operator== is true if and only if the two intervals contain exactly the same values; undefined intervals are never equal to anything.", "quantifier": "all pairs of constructible intervals over a dense order", "why_tests_cant": "Set equality quantifies over all values.", "anchors": ["src/OpenSpaceToolkit/Mathematics/Object/Interval.tpp: Interval::operator=="]}
{"id": "C16", "title": "Range reduction lands in the range and preserves the angle", "statement": "inRadians/inDegrees/inArcminutes/inArcseconds with a range whose width is one full turn return a value in the half-open range [lower, upper[ that differs from the angle by a whole number of turns; when the width of the range is not one full turn an error is raised.", "quantifier": "all real angle values and all ranges", "why_tests_cant": "The reduction is a loop; range and congruence must hold for every number of turns.", "anchors": ["src/OpenSpaceToolkit/Mathematics/Geometry/Angle.cpp: Angle::ReduceRange, inRadians(lower,upper), inDegrees, inArcminutes, inArcseconds"]}
{"id": "C17", "title": "Range reduction terminates in double precision", "statement": "For every finite double the range reduction loop terminates.", "quantifier": "all finite binary64 angle values", "why_tests_cant": "Requires reasoning about absorption in floating-point addition for values far from any test (>= 2^53).", "anchors": ["src/OpenSpaceToolkit/Mathematics/Geometry/Angle.cpp: Angle::ReduceRange"]}
{"id": "C18", "title": "Angle equality is an equivalence relation independent of units", "statement": "Two defined angles are equal if and only if they differ by a whole number of turns, whatever units they were built with; this is reflexive, symmetric and transitive.", "quantifier": "all pairs and triples of defined angles in all five units", "why_tests_cant": "Congruence modulo a turn over all reals and 25 unit pairs.", "anchors": ["src/OpenSpaceToolkit/Mathematics/Geometry/Angle.cpp: Angle::operator==, in, SIRatio"]}
{"id": "C19", "title": "Angle arithmetic and unit conversion are exact over the reals", "statement": "in(unit) multiplies by the exact ratio of the units, converting through any chain of units gives the same result as converting directly, +,-,*,/ act on the underlying angle whatever the mixture of units, the result keeps the left operand's unit, and division by zero raises an error.", "quantifier": "all angles, all unit pairs and chains", "why_tests_cant": "Five units give many conversion chains and mixed-unit operands.", "anchors": ["src/OpenSpaceToolkit/Mathematics/Geometry/Angle.cpp: Angle::in, SIRatio, operator+, operator-, operator*, operator/"]}
{"id": "C20", "title": "Angle::Between is the unsigned angle between directions", "statement": "Between(u,v) is in [0, pi], is symmetric, is unchanged by positive scaling of either vector, has cosine u.v/(|u||v|), is 0 exactly for same direction and pi exactly for opposite direction; a (near) zero vector raises an error.", "quantifier": "all pairs of non-zero 2D and 3D vectors", "why_tests_cant": "A continuum of vector pairs; scale invariance and range cannot be sampled exhaustively.", "anchors": ["src/OpenSpaceToolkit/Mathematics/Geometry/Angle.cpp: Angle::Between (2D and 3D)"]}
{"id": "C21", "title": "Angle::isNear is circular distance", "statement": "isNear(other, tolerance) is true if and only if the shortest circular distance between the two angles is at most the magnitude of the tolerance; it is symmetric and insensitive to whole turns.", "quantifier": "all pairs of defined angles and tolerances", "why_tests_cant": "Wrap-around at the 0/360 boundary for all values and all units.", "anchors": ["src/OpenSpaceToolkit/Mathematics/Geometry/Angle.cpp: Angle::isNear"]}
{"id": "C22", "title": "Linear interpolation: exact at nodes, between neighbours, clamped outside", "statement": "For strictly increasing abscissae the linear interpolator returns y_i at x_i, the first/last ordinate outside the range, and inside a cell the point of the chord: the value lies between the neighbouring ordinates.", "quantifier": "all data sets of any size and all query values", "why_tests_cant": "Index search by binary search over arrays of any length with ties at the nodes.", "anchors": ["src/OpenSpaceToolkit/Mathematics/CurveFitting/Interpolator/Linear.cpp: evaluate, findIndexRange"]}
{"id": "C23", "title": "Linear interpolator derivative is the slope of the returned curve", "statement": "At every point where the linear interpolant is differentiable computeDerivative returns its derivative: 0 outside the node range, the cell slope in the interior of a cell.", "quantifier": "all strictly increasing data sets and all non-node query values", "why_tests_cant": "A statement about limits of the evaluated function; tests can only take finite differences.", "anchors": ["src/OpenSpaceToolkit/Mathematics/CurveFitting/Interpolator/Linear.cpp: computeDerivative, evaluate"]}
{"id": "C24", "title": "Zero-order interpolation returns the most recent sample", "statement": "For non-decreasing abscissae evaluate(q) returns the ordinate of the last node with x_i <= q, and the first ordinate when q precedes all nodes. The derivative it reports is the derivative of that function away from the nodes.", "quantifier": "all data sets of any size and all query values", "why_tests_cant": "Binary search boundary (<= versus <) over arbitrary arrays.", "anchors": ["src/OpenSpaceToolkit/Mathematics/CurveFitting/Interpolator/ZeroOrder.cpp: evaluate, findPreviousIndex"]}
{"id": "C25", "title": "Interpolator constructors reject unusable data before touching it", "statement": "Constructing any interpolator with mismatched sizes or too few points (2 linear, 1 zero-order, 5 cubic) raises an error and never reads outside the supplied arrays; the cubic spline also rejects non-uniform abscissae.", "quantifier": "all pairs of input sizes", "why_tests_cant": "Out-of-bounds reads are undefined behaviour and may pass a test silently.", "anchors": ["src/OpenSpaceToolkit/Mathematics/CurveFitting/Interpolator/BarycentricRational.cpp: constructor", "src/OpenSpaceToolkit/Mathematics/CurveFitting/Interpolator/Linear.cpp: constructor", "src/OpenSpaceToolkit/Mathematics/CurveFitting/Interpolator/ZeroOrder.cpp: constructor", "src/OpenSpaceToolkit/Mathematics/CurveFitting/Interpolator/CubicSpline.cpp: constructor"]}
{"id": "C26", "title": "Log-Euclidean matrix interpolation is clamped, exact at nodes and order-preserving", "statement": "The matrix interpolator returns the first/last matrix outside the range, the node matrix at each node, inside a cell the exponential of the linear blend of the neighbouring logarithms, and rejects mismatched sizes, fewer than two points, non-square or mixed dimensions, and non strictly increasing abscissae.", "quantifier": "all data sets accepted by the constructor and all query values", "why_tests_cant": "Arbitrary number of nodes, arbitrary query.", "anchors": ["src/OpenSpaceToolkit/Mathematics/CurveFitting/MatrixInterpolator/LogEuclideanRiemannian.cpp: constructor, evaluate, findIndexRange"]}
{"id": "C27", "title": "Quaternion product is associative, unital, norm-multiplicative and inverse is two-sided", "statement": "q1*(q2*q3) = (q1*q2)*q3, Unit is neutral, |q1*q2| = |q1||q2|, conj(q1*q2) = conj(q2)*conj(q1), and q/q = q*inverse(q) = inverse(q)*q = Unit whenever the inverse does not raise an error.", "quantifier": "all quadruples of real components", "why_tests_cant": "Polynomial identities over a continuum.", "anchors": ["src/OpenSpaceToolkit/Mathematics/Geometry/3D/Transformation/Rotation/Quaternion.cpp: crossMultiply, operator*, operator/, inverse, conjugate, norm"]}
{"id": "C28", "title": "Rotating a vector by a unit quaternion is a proper isometry and a homomorphism", "statement": "For a unit quaternion, rotateVector preserves dot products (hence lengths and angles) and cross products, (q1*q2)*v = q1*(q2*v), the inverse quaternion undoes the rotation, and q and -q rotate identically; a non unit quaternion raises an error.", "quantifier": "all unit quaternions and all vectors", "why_tests_cant": "Continuum of rotations and vectors.", "anchors": ["src/OpenSpaceToolkit/Mathematics/Geometry/3D/Transformation/Rotation/Quaternion.cpp: rotateVector, operator*(Vector3d)"]}
{"id": "C29", "title": "Quaternion and rotation matrix conversions agree and round-trip", "statement": "The matrix of a unit quaternion applied to v equals rotateVector(v); it is orthonormal with determinant +1, so its construction never throws; converting the matrix back yields the same quaternion up to sign, in each of the four branches.", "quantifier": "all unit quaternions, all vectors", "why_tests_cant": "Four numerically chosen branches; the round trip must hold on every branch.", "anchors": ["src/OpenSpaceToolkit/Mathematics/Geometry/3D/Transformation/Rotation/Quaternion.cpp: RotationMatrix", "src/OpenSpaceToolkit/Mathematics/Geometry/3D/Transformation/Rotation/RotationMatrix.cpp: Quaternion"]}
{"id": "C30", "title": "A RotationMatrix is always a rotation", "statement": "Every successfully constructed RotationMatrix is orthonormal (within tolerance) with determinant +1, so it preserves vector lengths and orientation.", "quantifier": "all 3x3 real matrices", "why_tests_cant": "Whether the acceptance test is complete is a question about all matrices, notably the ones nobody thinks to try.", "anchors": ["src/OpenSpaceToolkit/Mathematics/Geometry/3D/Transformation/Rotation/RotationMatrix.cpp: constructors, Rows, Columns"]}
{"id": "C31", "title": "Elementary rotation matrices form one-parameter groups", "statement": "RX, RY, RZ never throw for a defined angle, are proper rotations, satisfy R(a)*R(b)=R(a+b), R(-a)=transpose(R(a)), and fix their axis.", "quantifier": "all angles", "why_tests_cant": "Trigonometric identities for all reals.", "anchors": ["src/OpenSpaceToolkit/Mathematics/Geometry/3D/Transformation/Rotation/RotationMatrix.cpp: RX, RY, RZ, toTransposed"]}
{"id": "C32", "title": "Euler angles: matrix and quaternion conversions agree for every axis sequence", "statement": "For a given Euler angle (any of the sequences XYZ, ZXY, ZYX), RotationMatrix::EulerAngle and Quaternion::EulerAngle describe the same rotation.", "quantifier": "all angle triples and all axis sequences", "why_tests_cant": "Agreement must hold for all triples; tests that use symmetric or zero angles miss permuted factors.", "anchors": ["src/OpenSpaceToolkit/Mathematics/Geometry/3D/Transformation/Rotation/RotationMatrix.cpp: EulerAngle", "src/OpenSpaceToolkit/Mathematics/Geometry/3D/Transformation/Rotation/Quaternion.cpp: EulerAngle"]}
{"id": "C33", "title": "Euler angle extraction reproduces the rotation", "statement": "EulerAngle::Quaternion / EulerAngle::RotationMatrix with a requested sequence return Euler angles that convert back to the same rotation in the requested sequence.", "quantifier": "all unit quaternions / rotation matrices and all axis sequences", "why_tests_cant": "Round trips must hold for every rotation including gimbal lock.", "anchors": ["src/OpenSpaceToolkit/Mathematics/Geometry/3D/Transformation/Rotation/EulerAngle.cpp: Quaternion, RotationMatrix"]}
{"id": "C34", "title": "Rotation vector and quaternion / matrix constructions agree and round-trip", "statement": "Quaternion::RotationVector and RotationMatrix::RotationVector of the same axis and angle describe the same rotation (rotation by the angle about the axis, with the library's passive sign convention); RotationVector::Quaternion returns a vector describing the rotation of the quaternion.", "quantifier": "all unit axes, all angles, all unit quaternions", "why_tests_cant": "Half-angle identities over all reals.", "anchors": ["src/OpenSpaceToolkit/Mathematics/Geometry/3D/Transformation/Rotation/RotationVector.cpp: Quaternion", "src/OpenSpaceToolkit/Mathematics/Geometry/3D/Transformation/Rotation/Quaternion.cpp: RotationVector", "src/OpenSpaceToolkit/Mathematics/Geometry/3D/Transformation/Rotation/RotationMatrix.cpp: RotationVector"]}
{"id": "C35", "title": "Every rotation matrix can be converted to a rotation vector", "statement": "RotationVector::RotationMatrix returns, for every proper rotation matrix, a unit axis and an angle describing the same rotation.", "quantifier": "all proper rotation matrices including half turns", "why_tests_cant": "Singular set (identity, half turns) has measure zero; random tests never hit it.", "anchors": ["src/OpenSpaceToolkit/Mathematics/Geometry/3D/Transformation/Rotation/RotationVector.cpp: RotationMatrix"]}
{"id": "C36", "title": "rectify returns an equivalent rotation with angle in [0, pi]", "statement": "RotationVector::rectify leaves the rotation unchanged and brings the angle to [0, pi]; Quaternion::rectify leaves the rotation unchanged and makes the scalar part non-negative.", "quantifier": "all axes and all angles; all quaternions", "why_tests_cant": "Angles beyond one turn are outside the sampled range.", "anchors": ["src/OpenSpaceToolkit/Mathematics/Geometry/3D/Transformation/Rotation/RotationVector.cpp: rectify", "src/OpenSpaceToolkit/Mathematics/Geometry/3D/Transformation/Rotation/Quaternion.cpp: rectify"]}
{"id": "C37", "title": "Quaternion equality identifies exactly equal rotations", "statement": "operator== on unit quaternions is true if and only if the two rotate every vector identically; it is an equivalence on defined quaternions, false whenever one is undefined.", "quantifier": "all pairs of unit quaternions, all vectors", "why_tests_cant": "'rotate every vector identically' is a universally quantified statement.", "anchors": ["src/OpenSpaceToolkit/Mathematics/Geometry/3D/Transformation/Rotation/Quaternion.cpp: operator=="]}
{"id": "C38", "title": "Angular difference is the rotation angle between two attitudes", "statement": "angularDifferenceWith of unit quaternions is in [0, pi], symmetric, zero exactly for equal rotations, and unchanged when both are composed with the same rotation; it obeys the triangle inequality.", "quantifier": "all pairs and triples of unit quaternions", "why_tests_cant": "Metric-like statement over a continuum.", "anchors": ["src/OpenSpaceToolkit/Mathematics/Geometry/3D/Transformation/Rotation/Quaternion.cpp: angularDifferenceWith, isNear"]}
{"id": "C39", "title": "LERP, NLERP and SLERP interpolate between their end points", "statement": "Ratios outside [0,1] raise an error; at ratio 0 (resp. 1) each returns the first (resp. second) rotation; NLERP and SLERP always return unit quaternions; SLERP turns at a constant angular rate along the shortest path.", "quantifier": "all pairs of unit quaternions, all ratios", "why_tests_cant": "Continuum of ratios and quaternions, including antipodal ones.", "anchors": ["src/OpenSpaceToolkit/Mathematics/Geometry/3D/Transformation/Rotation/Quaternion.cpp: LERP, NLERP, SLERP"]}
{"id": "C40", "title": "exp, log and pow are the quaternion exponential, logarithm and power", "statement": "exp(log(q)) = q for every non-zero quaternion; q^1 = q and q^(a+b) = q^a * q^b.", "quantifier": "all non-zero quaternions and all real exponents", "why_tests_cant": "The special branch for (nearly) real quaternions covers a measure-zero set.", "anchors": ["src/OpenSpaceToolkit/Mathematics/Geometry/3D/Transformation/Rotation/Quaternion.cpp: exp, log, pow"]}
{"id": "C41", "title": "ShortestRotation maps one direction to the other", "statement": "ShortestRotation(u, v) is a unit quaternion rotating the direction of u to the direction of v about an axis orthogonal to both; it raises an error exactly when no unique shortest rotation exists (antiparallel) or a vector is undefined.", "quantifier": "all pairs of non-zero vectors", "why_tests_cant": "Degenerate configurations (parallel, antiparallel) are measure-zero.", "anchors": ["src/OpenSpaceToolkit/Mathematics/Geometry/3D/Transformation/Rotation/Quaternion.cpp: ShortestRotation"]}
{"id": "C42", "title": "VectorBasis maps the source pair onto the destination pair", "statement": "RotationMatrix::VectorBasis((u1,u2),(v1,v2)) is a proper rotation mapping direction u1 to direction v1 and the half-plane spanned by (u1,u2) to the one spanned by (v1,v2); it raises an error for zero or parallel vectors.", "quantifier": "all vector quadruples with non-parallel pairs", "why_tests_cant": "Continuum of quadruples.", "anchors": ["src/OpenSpaceToolkit/Mathematics/Geometry/3D/Transformation/Rotation/RotationMatrix.cpp: VectorBasis"]}
{"id": "C43", "title": "Transformation composition acts as function composition", "statement": "(t1*t2) applied to a point or vector equals t1 applied to t2 applied, in 2D and 3D; composition is associative and Identity is neutral.", "quantifier": "all transformations reachable through the public constructors, all points and vectors", "why_tests_cant": "Unbounded chains of compositions over a continuum of parameters.", "anchors": ["src/OpenSpaceToolkit/Mathematics/Geometry/3D/Transformation.cpp: operator*, applyTo", "src/OpenSpaceToolkit/Mathematics/Geometry/2D/Transformation.cpp: operator*, applyTo"]}
{"id": "C44", "title": "getInverse undoes the transformation", "statement": "t.getInverse() applied after (or before) t returns every point and vector unchanged.", "quantifier": "all reachable transformations, all points and vectors", "why_tests_cant": "Continuum.", "anchors": ["src/OpenSpaceToolkit/Mathematics/Geometry/3D/Transformation.cpp: getInverse", "src/OpenSpaceToolkit/Mathematics/Geometry/2D/Transformation.cpp: getInverse"]}
{"id": "C45", "title": "isRigid is true exactly for distance-preserving transformations", "statement": "A transformation reports isRigid if and only if it preserves the distance between every two points.", "quantifier": "all reachable transformations, all pairs of points", "why_tests_cant": "Distance preservation quantifies over all point pairs and all composition chains.", "anchors": ["src/OpenSpaceToolkit/Mathematics/Geometry/3D/Transformation.cpp: isRigid", "src/OpenSpaceToolkit/Mathematics/Geometry/2D/Transformation.cpp: isRigid"]}
{"id": "C46", "title": "The reported transformation type is sound under composition", "statement": "The type reported by a composition describes its matrix: Identity, Translation, Rotation, Scaling are reported only for matrices of that shape, anything else is reported as Affine.", "quantifier": "all finite compositions of the basic transformations", "why_tests_cant": "Unbounded composition chains.", "anchors": ["src/OpenSpaceToolkit/Mathematics/Geometry/3D/Transformation.cpp: operator*, TypeFromMatrix", "src/OpenSpaceToolkit/Mathematics/Geometry/2D/Transformation.cpp: operator*, TypeFromMatrix"]}
{"id": "C47", "title": "RotationAround fixes its centre and rotates about it", "statement": "RotationAround(p, r) leaves p fixed, is distance preserving, and acts on the offset from p exactly as Rotation(r) acts on vectors.", "quantifier": "all centres, all rotations, all points", "why_tests_cant": "Continuum.", "anchors": ["src/OpenSpaceToolkit/Mathematics/Geometry/3D/Transformation.cpp: RotationAround", "src/OpenSpaceToolkit/Mathematics/Geometry/2D/Transformation.cpp: RotationAround"]}
{"id": "C48", "title": "Line / Ray / Segment versus Plane: intersection is exact", "statement": "For a plane with non-zero normal, intersects(plane) is true exactly when a common point exists, intersectionWith(plane) contains exactly the common points (nothing, one point, or the whole object).", "quantifier": "all lines, rays, segments and planes", "why_tests_cant": "Parallel and contained configurations are measure-zero.", "anchors": ["src/OpenSpaceToolkit/Mathematics/Geometry/3D/Object/Plane.cpp: intersects, intersectionWith (Line, Ray, Segment)"]}
{"id": "C49", "title": "distanceTo(point) is the minimum distance", "statement": "For Point, PointSet, Line, Ray and Segment, distanceTo(p) is a lower bound of the distance from p to every point of the object and is attained by some point of the object; Segment::distanceTo(PointSet) is the minimum over the set.", "quantifier": "all objects the constructors make, all query points", "why_tests_cant": "Minimality quantifies over all points of the object.", "anchors": ["src/OpenSpaceToolkit/Mathematics/Geometry/3D/Object/Line.cpp: distanceTo", "src/OpenSpaceToolkit/Mathematics/Geometry/3D/Object/Ray.cpp: distanceTo", "src/OpenSpaceToolkit/Mathematics/Geometry/3D/Object/Segment.cpp: distanceTo", "src/OpenSpaceToolkit/Mathematics/Geometry/3D/Object/Point.cpp: distanceTo", "src/OpenSpaceToolkit/Mathematics/Geometry/3D/Object/PointSet.cpp: distanceTo"]}
{"id": "C50", "title": "contains(point) agrees with distance zero for linear objects", "statement": "Line, Ray, Segment contain a point exactly when it can be written as origin + t*direction with the parameter range of the object.", "quantifier": "all lines, rays, segments and points", "why_tests_cant": "Exact membership over a continuum, including end points.", "anchors": ["src/OpenSpaceToolkit/Mathematics/Geometry/3D/Object/Line.cpp: contains", "src/OpenSpaceToolkit/Mathematics/Geometry/3D/Object/Ray.cpp: contains", "src/OpenSpaceToolkit/Mathematics/Geometry/3D/Object/Segment.cpp: contains"]}
{"id": "C51", "title": "Point sets behave as sets and closest-point queries are optimal", "statement": "PointSet equality ignores order and duplicates; getPointClosestTo returns an element at minimum distance; an empty set raises an error; isNear(other, tol) holds whenever a one-to-one matching within tolerance exists.", "quantifier": "all finite point sets, all query points", "why_tests_cant": "Any size, any iteration order of the hash set.", "anchors": ["src/OpenSpaceToolkit/Mathematics/Geometry/3D/Object/PointSet.cpp: operator==, isNear, distanceTo, getPointClosestTo"]}
{"id": "C52", "title": "Sphere queries match the surface and the solid ball", "statement": "contains(point) holds exactly for points within the tolerance of the surface, and sets of points follow it; intersects(line, ray, segment, plane) holds exactly when the object has a point in the solid ball; intersectionWith(line) returns exactly the common points with the surface, and intersectionWith(ray, segment) does too up to the tolerance at end points, with onlyInSight returning the one closest to the origin; spheres are equal exactly when their surfaces are; a rigid transformation carries the surface along and any other transformation is rejected.", "quantifier": "all spheres with non-negative radius and all points, lines, rays, segments, planes, transformations; all implementations of the GTE queries meeting their contract", "why_tests_cant": "Tangency and containment are boundary cases.", "anchors": ["src/OpenSpaceToolkit/Mathematics/Geometry/3D/Object/Sphere.cpp: operator==, intersects, contains, intersectionWith, applyTransformation"]}
{"id": "C53", "title": "Ellipsoid containment agrees with its matrix and axes", "statement": "getFirstAxis, getSecondAxis, getThirdAxis are orthonormal and the end points of the semi-axes along them belong to the surface; getMatrix is symmetric and its quadratic form evaluates to 1 exactly on the surface; contains(point) holds exactly for points within the tolerance of that surface; containment of sets of points and segments follows; negative semi-axes are rejected.", "quantifier": "all ellipsoids (semi-axes, orientation), all points, sets of points of any size, segments", "why_tests_cant": "A transposed orientation is invisible for axis-aligned or symmetric test cases.", "anchors": ["src/OpenSpaceToolkit/Mathematics/Geometry/3D/Object/Ellipsoid.cpp: constructor, contains, getMatrix, getFirstAxis, getSecondAxis, getThirdAxis"]}
{"id": "C54", "title": "Cone containment is angular and closed under moving along rays", "statement": "A cone contains a point exactly when the angle between the axis and the direction from the apex is at most the cone angle; it contains the apex; if it contains a point it contains every point further along the same ray; if it contains a segment's end points it contains the segment.", "quantifier": "all cones with angle up to 90 degrees, all points, segments and rays", "why_tests_cant": "Convexity quantifies over all points of the segment.", "anchors": ["src/OpenSpaceToolkit/Mathematics/Geometry/3D/Object/Cone.cpp: contains"]}
{"id": "C55", "title": "Equal cones contain the same points", "statement": "If operator== holds between two cones then they contain exactly the same points.", "quantifier": "all pairs of cones, all points", "why_tests_cant": "Extensional equality quantifies over all points.", "anchors": ["src/OpenSpaceToolkit/Mathematics/Geometry/3D/Object/Cone.cpp: operator=="]}
{"id": "C56", "title": "Cone distance is the minimum distance to the cone surface", "statement": "Cone::distanceTo(p) is the minimum distance from p to a point of the cone's surface.", "quantifier": "all cones, all points", "why_tests_cant": "Minimality over a continuum of surface points.", "anchors": ["src/OpenSpaceToolkit/Mathematics/Geometry/3D/Object/Cone.cpp: distanceTo"]}
{"id": "C57", "title": "Cone versus sphere intersection is exact", "statement": "Cone::intersects(sphere) is true exactly when the solid ball and the solid cone share a point.", "quantifier": "all cones with angle up to 90 degrees, all spheres", "why_tests_cant": "Existence of a common point over a continuum.", "anchors": ["src/OpenSpaceToolkit/Mathematics/Geometry/3D/Object/Cone.cpp: intersects(Sphere)"]}
{"id": "C58", "title": "Rays of the lateral surface of a cone lie on the cone", "statement": "getRaysOfLateralSurface(n) returns n rays starting at the apex, each at exactly the cone angle from the axis, evenly spread around it; n = 0 raises an error.", "quantifier": "all cones with a unit axis, all n", "why_tests_cant": "Unbounded n, all axes including those parallel to the reference direction.", "anchors": ["src/OpenSpaceToolkit/Mathematics/Geometry/3D/Object/Cone.cpp: getRaysOfLateralSurface"]}
{"id": "C59", "title": "Pyramid lateral faces join the apex to consecutive base vertices", "statement": "getLateralFaceCount equals the number of base edges and getLateralFaceAt(i) is the triangle of the apex and the i-th base edge; an index out of range raises an error.", "quantifier": "all pyramids over any base polygon and all indices", "why_tests_cant": "Any number of base vertices, wrap-around edge.", "anchors": ["src/OpenSpaceToolkit/Mathematics/Geometry/3D/Object/Pyramid.cpp: getLateralFaceCount, getLateralFaceAt"]}
{"id": "C60", "title": "Polygon in space maps its planar vertices isometrically", "statement": "The 3D vertices of a polygon are origin + x*X + y*Y for the planar vertices (x, y); distances between 3D vertices equal the planar distances; transforming the polygon by a rigid transformation transforms its vertices.", "quantifier": "all polygons and all frames accepted by the constructor", "why_tests_cant": "All frames, any number of vertices.", "anchors": ["src/OpenSpaceToolkit/Mathematics/Geometry/3D/Object/Polygon.cpp: constructor, getVertexAt, getVertices, applyTransformation"]}
{"id": "C61", "title": "3D composite queries are the logical combination of the element queries", "statement": "A 3D composite contains an object exactly when its documented combination of elements does, intersects when one of its elements intersects, composing concatenates the elements, and is<T>/as<T> answer true/succeed only for exactly one object of that type.", "quantifier": "all composites of any size", "why_tests_cant": "Any number of elements, including none.", "anchors": ["src/OpenSpaceToolkit/Mathematics/Geometry/3D/Object/Composite.cpp: contains, intersects, operator+, is, as"]}
{"id": "C62", "title": "Intersection results combine associatively with a sound type tag", "statement": "Adding intersections concatenates their objects, Empty is neutral, and the reported type is the type of the single object, or Complex when objects of different types are combined.", "quantifier": "all finite sums of intersections", "why_tests_cant": "Type tags over all combinations of object kinds and lengths.", "anchors": ["src/OpenSpaceToolkit/Mathematics/Geometry/3D/Intersection.cpp: operator+, TypeFromObject"]}
{"id": "C63", "title": "2D Segment and Line membership and distance are exact", "statement": "2D Line::contains is true exactly for points origin + t*direction, Segment::contains for points between its end points, Segment::distanceTo is the minimum distance to the segment.", "quantifier": "all 2D lines, segments, points", "why_tests_cant": "The slope-based formula has special cases for vertical and horizontal lines.", "anchors": ["src/OpenSpaceToolkit/Mathematics/Geometry/2D/Object/Line.cpp: contains, distanceTo", "src/OpenSpaceToolkit/Mathematics/Geometry/2D/Object/Segment.cpp: contains, distanceTo"]}
{"id": "C64", "title": "2D object equality is reflexive", "statement": "Every defined 2D object (point, point set, line, segment, line string, polygon, multi-polygon, composite) compares equal to itself through the Object interface, and composites compare equal when their elements do.", "quantifier": "all 2D objects and composites", "why_tests_cant": "Dispatch on dynamic type; equality of every kind must be exercised.", "anchors": ["src/OpenSpaceToolkit/Mathematics/Geometry/2D/Object.cpp: operator==", "src/OpenSpaceToolkit/Mathematics/Geometry/2D/Object/Composite.cpp: operator=="]}
{"id": "C65", "title": "2D line string queries reduce to its segments", "statement": "A 2D line string contains a point exactly when it is on one of the segments joining consecutive vertices; getPointClosestTo returns the vertex/point of minimum distance; equality compares the vertex sequence.", "quantifier": "all line strings of any length, all points", "why_tests_cant": "Any length.", "anchors": ["src/OpenSpaceToolkit/Mathematics/Geometry/2D/Object/LineString.cpp: contains, isNear, operator=="]}
{"id": "C66", "title": "Polygon edges enumerate every edge it counts", "statement": "For every polygon, getEdgeAt(i) succeeds for every i < getEdgeCount() and getEdges() returns getEdgeCount() segments joining consecutive vertices of the rings.", "quantifier": "all polygons with any number of inner rings", "why_tests_cant": "Polygons with holes are rarely enumerated.", "anchors": ["src/OpenSpaceToolkit/Mathematics/Geometry/2D/Object/Polygon.cpp: getEdgeCount, getEdgeAt, getEdges, getVertexAt"]}
{"id": "C67", "title": "The solver integrates in the direction of the requested times", "statement": "For a start time and a monotone array of times the solver returns one solution per requested time, in order, each tagged with the requested time and integrated from the start state to that time, forward or backward as the times require.", "quantifier": "all start times, all monotone time arrays", "why_tests_cant": "Sign combinations of absolute times (negative, zero, decreasing) are rarely tested.", "anchors": ["src/OpenSpaceToolkit/Mathematics/Solver/NumericalSolver.cpp: integrateTime(array), getSignedTimeStep"]}
{"id": "C68", "title": "integrateTime to a single time agrees between the scalar and array forms", "statement": "integrateTime(x, t0, t1, f) and the single solution of integrateTime(x, t0, {t1}, f) are the same solution, tagged with the end time.", "quantifier": "all systems, all start and end times", "why_tests_cant": "Non-autonomous systems and non-zero start times.", "anchors": ["src/OpenSpaceToolkit/Mathematics/Solver/NumericalSolver.cpp: integrateTime(scalar), integrateTime(array), integrateDuration"]}
{"id": "C69", "title": "integrateDuration returns the state at the requested duration in every log mode", "statement": "integrateDuration(x, d, f) returns the state obtained by integrating over exactly d, whatever the log type; a zero duration returns the initial state.", "quantifier": "all log types, all durations and time steps", "why_tests_cant": "Depends on whether the step divides the duration.", "anchors": ["src/OpenSpaceToolkit/Mathematics/Solver/NumericalSolver.cpp: integrateDuration"]}
{"id": "C70", "title": "Conditional / observed states start at the initial state and are the returned ones", "statement": "After integrating over an array of times, the observed states recorded by the solver are exactly the returned solutions preceded by the initial condition; a new call discards the observations of the previous one; an empty time array raises an error.", "quantifier": "all call sequences on one solver", "why_tests_cant": "State carried across calls.", "anchors": ["src/OpenSpaceToolkit/Mathematics/Solver/NumericalSolver.cpp: integrateTime, observeNumericalIntegration, accessObservedStateVectors"]}
{"id": "C71", "title": "generateArrayWithStep terminates in double precision", "statement": "For every finite interval and non-zero finite step of the right sign the loop of generateArrayWithStep terminates when the arithmetic is binary64.", "quantifier": "all binary64 bounds and steps", "why_tests_cant": "Tests use small grids; the failure needs a step below half an ulp of the bounds, and would hang the test run rather than fail.", "anchors": ["src/OpenSpaceToolkit/Mathematics/Object/Interval.tpp:404-409"]}
{"id": "C72", "title": "The interpolator factory builds the requested interpolator", "statement": "Interpolator::GenerateInterpolator returns an interpolator of exactly the requested type built by that type's constructor on the given data, fails whenever that constructor fails, and rejects an invalid type.", "quantifier": "all types and all data sets", "why_tests_cant": "Tests check one data set per type.", "anchors": ["src/OpenSpaceToolkit/Mathematics/CurveFitting/Interpolator.cpp: GenerateInterpolator, getInterpolationType"]}
{"id": "C73", "title": "Access to matrix coefficients stays inside the matrix", "statement": "RotationMatrix::operator(), getRowAt and getColumnAt return the coefficient, row or column for indices 0, 1, 2 and raise an error for every other index; no access is outside the storage.", "quantifier": "all matrices, all indices", "why_tests_cant": "An access one past the end usually does not crash a test.", "anchors": ["src/OpenSpaceToolkit/Mathematics/Geometry/3D/Transformation/Rotation/RotationMatrix.cpp:151-250"]}
{"id": "C74", "title": "Every quaternion accepted as unitary converts to a rotation vector", "statement": "For every quaternion that isUnitary accepts, RotationVector::Quaternion returns a defined rotation vector (never NaN).", "quantifier": "all quaternions within the tolerance of unit norm", "why_tests_cant": "Tests use exactly normalised quaternions; the failing ones have a scalar part beyond 1 by less than the tolerance.", "anchors": ["src/OpenSpaceToolkit/Mathematics/Geometry/3D/Transformation/Rotation/RotationVector.cpp:178-199"]}
{"id": "C75", "title": "Quaternion::isNear compares the angular difference with the tolerance", "statement": "p.isNear(q, t) is true exactly when the angle of the rotation from q to p is at most the angle t; undefined operands raise an error.", "quantifier": "all unit quaternions and all tolerance angles", "why_tests_cant": "Tolerances outside [0, 2 pi[ are reduced modulo a turn before comparing.", "anchors": ["src/OpenSpaceToolkit/Mathematics/Geometry/3D/Transformation/Rotation/Quaternion.cpp:184-193"]}
{"id": "C76", "title": "Rotation vectors are equal exactly when they are the same rotation", "statement": "Two defined rotation vectors compare equal if and only if they rotate every vector alike.", "quantifier": "all axes and angles, including whole turns and opposite axes", "why_tests_cant": "Continuum of axis and angle pairs; the failing case is the identity.", "anchors": ["src/OpenSpaceToolkit/Mathematics/Geometry/3D/Transformation/Rotation/RotationVector.cpp:44-58"]}
{"id": "C77", "title": "Euler angles of one sequence are equal exactly when they are the same rotation", "statement": "Two defined Euler angles with the same axis sequence compare equal if and only if they describe the same rotation.", "quantifier": "all triples of angles and all sequences", "why_tests_cant": "Continuum; the failing case (gimbal lock) has measure zero.", "anchors": ["src/OpenSpaceToolkit/Mathematics/Geometry/3D/Transformation/Rotation/EulerAngle.cpp:47-72"]}
{"id": "C78", "title": "Rows and Columns build the matrix of a right-handed orthonormal triple", "statement": "RotationMatrix::Rows(a,b,c) and Columns(a,b,c) return, for every right-handed orthonormal triple, the proper rotation whose rows (resp. columns) are a, b, c, and every matrix they return has these rows (columns) and passed the tolerance checks.", "quantifier": "all triples of vectors", "why_tests_cant": "Continuum of triples.", "anchors": ["src/OpenSpaceToolkit/Mathematics/Geometry/3D/Transformation/Rotation/RotationMatrix.cpp:346-456"]}
{"id": "C79", "title": "Conversions to and from rotation vectors keep the rotation", "statement": "RotationVector(EulerAngle) is the rotation the Euler angle names; EulerAngle::RotationVector returns Euler angles naming the rotation; a rotation vector built from a vector has its direction as axis and its length as angle (the zero vector is the identity); X, Y, Z rotate about the coordinate axes.", "quantifier": "all rotation vectors, Euler angles, vectors and units", "why_tests_cant": "Continuum of rotations.", "anchors": ["src/OpenSpaceToolkit/Mathematics/Geometry/3D/Transformation/Rotation/RotationVector.cpp:34-42,143-176,225-228", "src/OpenSpaceToolkit/Mathematics/Geometry/3D/Transformation/Rotation/EulerAngle.cpp:255-260"]}
{"id": "C80", "title": "Products, transposes and equality of rotation matrices", "statement": "The product of two proper rotation matrices is accepted and acts as their composition; the transpose is the inverse rotation; two matrices are equal exactly when they act alike on every vector; undefined operands are rejected.", "quantifier": "all proper rotation matrices and vectors", "why_tests_cant": "Continuum; the product is re-validated by the constructor.", "anchors": ["src/OpenSpaceToolkit/Mathematics/Geometry/3D/Transformation/Rotation/RotationMatrix.cpp:111-149,262-293"]}
{"id": "C81", "title": "Component orders of quaternions and unitary Euler angles", "statement": "Building a quaternion from components and reading them back in either format round-trips; sums and scalings are componentwise; EulerAngle::isUnitary holds exactly for three zero angles and then the rotation is the identity.", "quantifier": "all components, formats and Euler angles", "why_tests_cant": "Swapped components agree on symmetric test values.", "anchors": ["src/OpenSpaceToolkit/Mathematics/Geometry/3D/Transformation/Rotation/Quaternion.cpp:24-44,70-95,377-398", "src/OpenSpaceToolkit/Mathematics/Geometry/3D/Transformation/Rotation/EulerAngle.cpp:105-108"]}
{"id": "C82", "title": "Transformations are equal exactly when they act alike", "statement": "operator== between two defined transformations is true if and only if they map every point to the same point; it is false when either is undefined.", "quantifier": "all transformations built from the factories, compositions, inverses and matrices with last row 0 0 0 1, in 2D and 3D", "why_tests_cant": "Agreement on all points for all pairs of transformations.", "anchors": ["src/OpenSpaceToolkit/Mathematics/Geometry/3D/Transformation.cpp: operator==", "src/OpenSpaceToolkit/Mathematics/Geometry/2D/Transformation.cpp: operator=="]}
{"id": "C83", "title": "Translation and Rotation move points as advertised and vectors ignore translations", "statement": "Translation(v) adds v to every point and leaves every vector unchanged; Rotation turns points and vectors by the right-handed rotation about the axis by the angle (counter-clockwise in 2D); the image of a difference of points is the difference of the images.", "quantifier": "all translations, rotation vectors with unit axis, rotation matrices, angles, points and vectors", "why_tests_cant": "Continuum of parameters and points.", "anchors": ["src/OpenSpaceToolkit/Mathematics/Geometry/3D/Transformation.cpp: Translation, Rotation, applyTo", "src/OpenSpaceToolkit/Mathematics/Geometry/2D/Transformation.cpp: Translation, Rotation, applyTo"]}
{"id": "C84", "title": "Equality of lines, rays, segments and planes is equality of point sets", "statement": "operator== between two lines, rays, segments or planes with unit direction (normal) is true exactly when they have the same points, whatever the origins and orientations; undefined objects are equal to nothing; the centre, direction and length of a segment agree with its end points.", "quantifier": "all pairs of defined objects with unit direction or normal", "why_tests_cant": "Equality of infinite point sets.", "anchors": ["src/OpenSpaceToolkit/Mathematics/Geometry/3D/Object/Line.cpp: operator==", "src/OpenSpaceToolkit/Mathematics/Geometry/3D/Object/Ray.cpp: operator==", "src/OpenSpaceToolkit/Mathematics/Geometry/3D/Object/Segment.cpp: operator==, getCenter, getDirection, getLength", "src/OpenSpaceToolkit/Mathematics/Geometry/3D/Object/Plane.cpp: operator=="]}
{"id": "C85", "title": "Transforming a linear object transforms its points", "statement": "applyTransformation by any affine transformation makes a point, point set, segment, line string, line or ray whose points are the images of the original points; a rigid transformation also maps planes to planes and keeps directions and normals of unit length; undefined transformations and objects raise an error.", "quantifier": "all transformations that can be made from proper rotations, translations, compositions, inverses; all objects", "why_tests_cant": "Images of infinite point sets under all transformations.", "anchors": ["src/OpenSpaceToolkit/Mathematics/Geometry/3D/Object/Plane.cpp: applyTransformation", "src/OpenSpaceToolkit/Mathematics/Geometry/3D/Object/Line.cpp: applyTransformation", "src/OpenSpaceToolkit/Mathematics/Geometry/3D/Object/PointSet.cpp: applyTransformation"]}
{"id": "C86", "title": "Containment of and in planes and lines is pointwise", "statement": "Plane::contains(line, ray, segment, point set) is true exactly when every point of the object is in the plane, Plane::intersects(point set) exactly when one is, intersectionWith(point, point set) is exactly the set of the points in the plane; Line and Ray contain a point set exactly when they contain all its points; an empty set raises an error.", "quantifier": "all planes, lines, rays, segments and point sets", "why_tests_cant": "All points of the contained object.", "anchors": ["src/OpenSpaceToolkit/Mathematics/Geometry/3D/Object/Plane.cpp: contains, intersects(PointSet), intersectionWith(Point, PointSet)", "src/OpenSpaceToolkit/Mathematics/Geometry/3D/Object/Line.cpp: contains(PointSet)", "src/OpenSpaceToolkit/Mathematics/Geometry/3D/Object/Ray.cpp: contains(PointSet)"]}
{"id": "C87", "title": "3D line strings are sequences of points", "statement": "Line strings of defined points are equal exactly when their sequences are; isNear holds exactly when they are non-empty and corresponding points are within the tolerance; getPointClosestTo returns a vertex at minimum distance; access beyond the end raises an error.", "quantifier": "all line strings of any length", "why_tests_cant": "Any length.", "anchors": ["src/OpenSpaceToolkit/Mathematics/Geometry/3D/Object/LineString.cpp: operator==, isNear, accessPointAt, getPointClosestTo, Segment"]}
{"id": "C88", "title": "Ellipsoid intersection tests match the solid and the surface", "statement": "intersects(line, ray, plane) holds exactly when the object has a point in the solid ellipsoid; intersects(segment) holds exactly when the segment reaches the surface.", "quantifier": "all ellipsoids, lines, rays, planes, segments; all implementations of the GTE queries meeting their contract", "why_tests_cant": "Continuous; tangency and chords are boundary cases.", "anchors": ["src/OpenSpaceToolkit/Mathematics/Geometry/3D/Object/Ellipsoid.cpp: intersects(Line), intersects(Ray), intersects(Segment), intersects(Plane)"]}
{"id": "C89", "title": "Ellipsoid intersections return the common points", "statement": "intersectionWith(line, ray, segment) returns exactly the points common to the object and the surface, and with onlyInSight the one closest to the ray's origin.", "quantifier": "all ellipsoids, lines, rays, segments; all implementations of the GTE queries meeting their contract", "why_tests_cant": "Origins on the surface and tangent lines are rare cases.", "anchors": ["src/OpenSpaceToolkit/Mathematics/Geometry/3D/Object/Ellipsoid.cpp: intersectionWith(Line), intersectionWith(Ray), intersectionWith(Segment)"]}
{"id": "C90", "title": "Ellipsoid equality and transformation follow the surface", "statement": "Two ellipsoids with the same surface compare equal whatever the order of their axes, and ellipsoids that compare equal have the same centre and nearly the same quadratic form; applyTransformation by an invertible transformation yields the ellipsoid whose surface is the image of the surface, the identity changes nothing, undefined operands raise an error.", "quantifier": "all ellipsoids and transformations; all eigenvalue solvers meeting their contract", "why_tests_cant": "Needs all pairs of representations of a surface and all affine maps.", "anchors": ["src/OpenSpaceToolkit/Mathematics/Geometry/3D/Object/Ellipsoid.cpp: operator==, applyTransformation"]}
{"id": "C91", "title": "Cuboid containment matches its surface", "statement": "contains(point) accepts every point of the surface of the box of the given centre, axes and extents, accepts only points within the tolerance of it, and rejects points of the solid farther than the tolerance from it; sets of points and segments follow; undefined operands raise an error.", "quantifier": "all cuboids with orthonormal axes and positive extents, all points, sets of points of any size", "why_tests_cant": "Edges, corners and the tolerance band around each face.", "anchors": ["src/OpenSpaceToolkit/Mathematics/Geometry/3D/Object/Cuboid.cpp: contains, intersects(Point), intersects(PointSet)"]}
{"id": "C92", "title": "Cuboid vertices, nearness and intersection tests match the box", "statement": "intersects(line) and intersects(cuboid) hold exactly when the solids share a point; getVertices returns the eight corners of the box, which lie on its surface; isNear holds exactly when the corners correspond one to one within the tolerance, whatever the iteration order of the point sets.", "quantifier": "all cuboids with orthonormal axes and positive extents, all lines, all iteration orders, all implementations of the GTE queries meeting their contract", "why_tests_cant": "Consistency between two functions using extents differently; hash order.", "anchors": ["src/OpenSpaceToolkit/Mathematics/Geometry/3D/Object/Cuboid.cpp: intersects(Line), intersects(Cuboid), getVertices, isNear"]}
{"id": "C93", "title": "Cuboid equality is equality of boxes, and rigid transformations carry the box along", "statement": "operator== holds exactly when the two solid boxes are the same set of points, whatever the order and signs of the axes; applyTransformation by a rigid transformation yields the image box and commutes with contains; Cube builds the axis-aligned cube; undefined operands raise an error or compare different.", "quantifier": "all pairs of cuboids with orthonormal axes and positive extents, all rigid transformations", "why_tests_cant": "Six orders and eight sign combinations of the axes, nested conditionals.", "anchors": ["src/OpenSpaceToolkit/Mathematics/Geometry/3D/Object/Cuboid.cpp: operator==, applyTransformation, Cube"]}
{"id": "C94", "title": "Cone containment of spheres, and rigid transformations of cones", "statement": "contains(sphere) holds exactly when every point of the ball is in the solid cone; applyTransformation by a rigid transformation yields the image cone; by other transformations the cone must still be the image; undefined operands raise an error.", "quantifier": "all cones with angle below 90 degrees, all spheres, all transformations", "why_tests_cant": "Quantifies over all points of a ball and all transformations.", "anchors": ["src/OpenSpaceToolkit/Mathematics/Geometry/3D/Object/Cone.cpp: contains(Sphere), applyTransformation"]}
{"id": "C95", "title": "Cone intersections are those of the lateral rays", "statement": "intersectionWith(sphere or ellipsoid, onlyInSight, n) returns line strings made, in order, of the points where the n lateral rays meet the surface, one string per side, only the points closest to the apex when onlyInSight is set; intersects(ellipsoid, n) holds exactly when the cone and the solid ellipsoid share a point.", "quantifier": "all cones with a unit axis, all spheres and ellipsoids, all n, all iteration orders, all implementations of the GTE queries meeting their contract", "why_tests_cant": "Unbounded n, hash order, continuum of common points.", "anchors": ["src/OpenSpaceToolkit/Mathematics/Geometry/3D/Object/Cone.cpp: intersectionWith(Sphere), intersectionWith(Ellipsoid), intersects(Ellipsoid)"]}
{"id": "C96", "title": "Solver equality is an equivalence on defined solvers and ignores observations", "statement": "Two solvers compare equal exactly when both are defined and have the same log type, stepper type, time step and tolerances; the comparison is symmetric and transitive, reflexive exactly on defined solvers, and does not depend on recorded observations. Accessors of a defined solver return what it was constructed with and those of an undefined solver raise an error; Undefined is undefined and Default is defined.", "quantifier": "all solvers, defined or not, with any observations", "why_tests_cant": "Tests compare a handful of solvers that have not integrated anything yet.", "anchors": ["src/OpenSpaceToolkit/Mathematics/Solver/NumericalSolver.cpp: operator==, isDefined, accessors, Undefined, Default"]}
{"id": "C97", "title": "2D lines and segments are equal exactly when they are the same sets of points", "statement": "2D Line == and Segment == are true exactly when both have the same points, whatever the origin, sense or order of the end points; getCenter, getDirection and getLength describe the segment; points add and subtract like vectors; isNear compares the distance; undefined operands give false or an error.", "quantifier": "all 2D lines with unit direction, all segments, points, vectors", "why_tests_cant": "Every pair of representations of the same set.", "anchors": ["src/OpenSpaceToolkit/Mathematics/Geometry/2D/Object/Line.cpp: operator==", "src/OpenSpaceToolkit/Mathematics/Geometry/2D/Object/Segment.cpp: operator==, getCenter, getDirection, getLength", "src/OpenSpaceToolkit/Mathematics/Geometry/2D/Object/Point.cpp"]}
{"id": "C98", "title": "2D point sets are sets, and their queries do not depend on the order", "statement": "A 2D point set has exactly the points of the array, without repetition; equality is equality of sets; getPointClosestTo and distanceTo minimise over the set; isNear is true exactly when the points can be paired within the tolerance.", "quantifier": "all finite arrays of points, all points, tolerances and iteration orders", "why_tests_cant": "Unbounded sizes and hash orders.", "anchors": ["src/OpenSpaceToolkit/Mathematics/Geometry/2D/Object/PointSet.cpp"]}
{"id": "C99", "title": "2D transformations map every object to its image", "statement": "For every transformation built from the library's 2D constructors, applyTransformation of a point, point set, line, segment or line string gives exactly the image of the object under one distance-preserving map.", "quantifier": "all 2D transformations made by the constructors, products and inverses; all objects", "why_tests_cant": "Infinitely many transformations and objects.", "anchors": ["src/OpenSpaceToolkit/Mathematics/Geometry/2D/Object/*.cpp: applyTransformation", "src/OpenSpaceToolkit/Mathematics/Geometry/2D/Transformation.cpp"]}
{"id": "C100", "title": "A 2D polygon keeps the rings it is given", "statement": "A polygon built from an outer ring and inner rings of at least three vertices stores each ring closed and in one sense (outer clockwise, inner counter-clockwise), up to reversal exactly the vertices given; getVertices, getVertexCount, getVertexAt, getOuterRing and getInnerRingAt give them back; rings of fewer vertices or with an undefined point are rejected; isNear compares vertex by vertex.", "quantifier": "all finite rings and indices", "why_tests_cant": "Unbounded numbers of rings and vertices.", "anchors": ["src/OpenSpaceToolkit/Mathematics/Geometry/2D/Object/Polygon.cpp"]}
{"id": "C101", "title": "2D polygons contain exactly the points of their region, also after a motion", "statement": "contains(Point), contains(PointSet) and contains(LineString) answer whether the points are in the region of the polygon (boundary included, inner rings removed); applyTransformation gives the polygon whose region is the image of the region, with rings of the same signed areas, and containment is unchanged.", "quantifier": "all polygons, points, sets, line strings and 2D transformations made by the constructors", "why_tests_cant": "Infinitely many polygons and motions.", "anchors": ["src/OpenSpaceToolkit/Mathematics/Geometry/2D/Object/Polygon.cpp: contains, applyTransformation"]}
{"id": "C102", "title": "Multi-polygons are unions of their polygons", "statement": "A multi-polygon gives back the polygons it is made of, contains the points of their union, and is moved by transformations as a union of regions; unions and hulls are those of boost, and undefined arguments are rejected.", "quantifier": "all non-empty arrays of polygons, all points and transformations", "why_tests_cant": "Unbounded numbers of polygons.", "anchors": ["src/OpenSpaceToolkit/Mathematics/Geometry/2D/Object/MultiPolygon.cpp"]}
{"id": "C103", "title": "Queries on 2D composites combine the answers of their objects", "statement": "contains is true when all objects contain, anyContains when some object does, intersects when some object does; an empty composite contains nothing; + and += concatenate and form a monoid; accessObjectAt, is and as give the objects; applyTransformation acts on every object.", "quantifier": "all composites, nested to any depth", "why_tests_cant": "Unbounded nesting and sizes.", "anchors": ["src/OpenSpaceToolkit/Mathematics/Geometry/2D/Object/Composite.cpp"]}
{"id": "C104", "title": "2D intersections have the type of their objects", "statement": "The type of an intersection is Empty without objects, the common type of its objects, Complex if they differ, whatever their order; + and += concatenate, associatively and with Empty neutral; equality is equality of types and objects.", "quantifier": "all finite lists of objects", "why_tests_cant": "Unbounded lists.", "anchors": ["src/OpenSpaceToolkit/Mathematics/Geometry/2D/Intersection.cpp"]}
{"id": "C105", "title": "Intersection and difference of 2D polygons keep exactly what boost finds", "statement": "differenceWith gives the polygons of boost's difference; intersectionWith gives its polygons, and of its line strings and points those not already in a larger object of the result; undefined polygons are rejected with Undefined and invalid ones with RuntimeError.", "quantifier": "all polygons, all results of boost", "why_tests_cant": "Unbounded numbers of pieces.", "anchors": ["src/OpenSpaceToolkit/Mathematics/Geometry/2D/Object/Polygon.cpp: intersectionWith, differenceWith"]}
{"id": "C106", "title": "A pyramid contains the points on the half lines from its apex through its base", "statement": "For an orthonormal base frame and an apex off the base plane, contains(Point) is true exactly for the apex and the points of the half lines from the apex through the region of the base (hence for all points of the solid pyramid, but also beyond the base); point sets are contained when all their points are; a rigid transformation of pyramid and point leaves the answer unchanged; undefined arguments raise an error.", "quantifier": "all base polygons valid for boost, all orthonormal frames, all apexes off the base plane, all points", "why_tests_cant": "Infinite set of points, frames and polygons.", "anchors": ["src/OpenSpaceToolkit/Mathematics/Geometry/3D/Object/Pyramid.cpp: contains, applyTransformation"]}
{"id": "C107", "title": "The half lines of a pyramid's lateral faces and the intersections computed from them", "statement": "getRaysOfLateralFaces(n) gives for each base edge n / (number of edges) unit directions from the apex, in the face, evenly spread from the first vertex to the second; fewer rays than faces is an error. intersectionWith(Sphere or Ellipsoid) returns the line strings of the first and second common points of each half line (only the closest ones with onlyInSight); intersects is true exactly when some half line meets the solid; transformations map base and apex.", "quantifier": "all pyramids whose apex is on no edge line, all numbers of rays, all spheres and ellipsoids", "why_tests_cant": "Any number of rays and vertices, all positions.", "anchors": ["src/OpenSpaceToolkit/Mathematics/Geometry/3D/Object/Pyramid.cpp: getRaysOfLateralFaceAt, getRaysOfLateralFaces, intersects, intersectionWith, applyTransformation"]}
{"id": "C108", "title": "The operations of Object agree with the geometry of the two objects", "statement": "Equality of two objects of space is an equivalence and means the same points (elementwise for composites); intersects answers whether there is a common point for the pairs of kinds it decides exactly, also through composites; contains of planes is inclusion; where both directions are answered, a.intersects(b) equals b.intersects(a) and a.intersectionWith(b) equals b.intersectionWith(a); undefined arguments are errors.", "quantifier": "all pairs of objects of all kinds, composites nested to any depth", "why_tests_cant": "Fourteen kinds in pairs, and arbitrarily nested composites.", "anchors": ["src/OpenSpaceToolkit/Mathematics/Geometry/3D/Object.cpp: operator==, intersects, contains, intersectionWith"]}
{"id": "C110", "title": "Vectors are read back from their texts", "statement": "VectorXd::Parse(v.toString()) gives v again. True exactly for integers of any size, infinity and NaN; for all finite binary64 numbers up to a relative error of 6e-15 (15 significant digits) and 2^-1075; with a precision p up to half a unit of digit p and one rounding. Refuted for exact equality in general (0.1 + 0.2), minus infinity (printed as infinity) and the empty vector (rejected).", "quantifier": "all non-empty vectors of binary64 numbers, all precisions", "why_tests_cant": "2^64 numbers per component and vectors of all lengths.", "anchors": ["include/OpenSpaceToolkit/Mathematics/Object/Eigen.hpp: toString, ScalarToString", "src/OpenSpaceToolkit/Mathematics/Object/Vector.cpp: Parse"]}
{"id": "C111", "title": "VectorXd::Parse accepts exactly the texts of vectors", "statement": "Parse accepts exactly the non-empty texts between brackets, all others are a runtime error; it gives one number per comma-separated piece (none behind a comma at the end), each from its own piece. That only texts of numbers are accepted is refuted: words are read as zeros.", "quantifier": "all strings", "why_tests_cant": "Infinitely many strings.", "anchors": ["src/OpenSpaceToolkit/Mathematics/Object/Vector.cpp: Parse"]}
{"id": "C112", "title": "Quaternions are read back from their texts", "statement": "Parse(toString(f), f) gives the quaternion again in both formats when its components are printed exactly; in the other format the components are rotated by one place; exactly the texts of four numbers are accepted; undefined quaternions and empty texts are errors; toVector inverts the constructor.", "quantifier": "all quaternions of binary64 components, both formats, all strings", "why_tests_cant": "2^256 quaternions.", "anchors": ["src/OpenSpaceToolkit/Mathematics/Geometry/3D/Transformation/Rotation/Quaternion.cpp: toString, Parse, toVector"]}
{"id": "C113", "title": "Matrices of different shape or elements have different texts", "statement": "Two non-empty matrices with the same text have the same numbers of rows and columns and the same element texts; if the elements are printed exactly they are the same matrix. Refuted for elements that differ beyond the digits printed.", "quantifier": "all non-empty matrices of all shapes, all precisions", "why_tests_cant": "All shapes and elements.", "anchors": ["include/OpenSpaceToolkit/Mathematics/Object/Eigen.hpp: toString"]}
{"id": "C114", "title": "Enumerated values have distinct names", "statement": "For units (names and symbols), types of intervals, transformations and intersections of the plane and of space, log and stepper types and axis sequences, every value has a name and no two have the same one. Undefined units have no symbol and undefined axis sequences no name; refuted for intersections in space of type Cuboid, which raise an error.", "quantifier": "all values of the nine enumerations", "why_tests_cant": "A test lists values one by one; the claim covers every pair.", "anchors": ["StringFromUnit, SymbolFromUnit, StringFromType, StringFromLogType, StringFromStepperType, StringFromAxisSequence"]}
{"id": "C115", "title": "The texts of angles, rotations and points are unambiguous", "statement": "Two angles, rotation vectors, Euler angles or points in space with the same text have the same unit or axis sequence and the same texts of their numbers; the text exists exactly for defined values.", "quantifier": "all values, all ways to print numbers without the separators", "why_tests_cant": "All pairs of values.", "anchors": ["Angle.cpp, RotationVector.cpp, EulerAngle.cpp, 3D/Object/Point.cpp: toString"]}
{"id": "C116", "title": "The texts of intervals are unambiguous", "statement": "Two intervals with the same text have the same type and the same texts of their bounds; exactly the defined intervals have a text, the others raise an error.", "quantifier": "all types and bounds, all ways to print numbers without the separators", "why_tests_cant": "All pairs of intervals.", "anchors": ["include/OpenSpaceToolkit/Mathematics/Object/Interval.tpp: toString"]}
{"id": "C117", "title": "The texts of 2D objects are unambiguous", "statement": "Two points, point sets, line strings, segments or lines of the same class with the same text (also in different formats) have the same texts of their coordinates and the same format; exactly defined objects in implemented formats have a text. Refuted between classes (lines, segments and line strings of two points; point sets and line strings) and for composites, whose text is empty.", "quantifier": "all lists of points of any length, all formats, all ways to print numbers without the separators", "why_tests_cant": "Lists of any length, all pairs.", "anchors": ["2D/Object/Point.cpp, PointSet.cpp, LineString.cpp, Segment.cpp, Line.cpp, Polygon.cpp, MultiPolygon.cpp, Composite.cpp: toString"]}
{"id": "C109", "title": "A transformation made from a matrix is the identity, or an error", "statement": "A 3D transformation can be made from a defined matrix exactly when every diagonal element is 1 up to the relative tolerance and every other element 0 up to the absolute one; it then has type Identity, keeps the matrix as given, and is rigid exactly when the last row is exactly (0, 0, 0, 1) and the columns of the linear part are orthonormal up to the tolerance. Any other defined matrix is a runtime error, an undefined one gives the undefined transformation. In 2D the matrix has to be the identity exactly. The accessors return the members of a defined transformation and raise an error on an undefined one, except 2D isIdentity and isRigid, which answer false.", "quantifier": "all matrices, tolerances and transformations", "why_tests_cant": "The tolerance separates accepted from rejected matrices and each of the 16 elements matters.", "anchors": ["src/OpenSpaceToolkit/Mathematics/Geometry/3D/Transformation.cpp: Transformation, TypeOfMatrix, IsRigid, isIdentity, isRigid, getType, getMatrix", "src/OpenSpaceToolkit/Mathematics/Geometry/2D/Transformation.cpp: the same"]}
{"id": "C118", "title": "The operations of an object are those of its class", "statement": "Asked through Object, definedness, equality, intersects, intersectionWith, contains and applyTransformation give the result of the operation of the classes involved, in either order of the arguments where both are supported, with the default level of detail 40; objects of different classes are different; an operation on an undefined object is an error; in 2D too, where moreover objects with common points should be found to intersect.", "quantifier": "all objects of every class, all implementations of the libraries' queries", "why_tests_cant": "There are more than a hundred pairs of classes.", "anchors": ["src/OpenSpaceToolkit/Mathematics/Geometry/3D/Object.cpp", "src/OpenSpaceToolkit/Mathematics/Geometry/2D/Object.cpp", "src/OpenSpaceToolkit/Mathematics/Geometry/3D/Intersection.cpp: is, as"]}
{"id": "C119", "title": "Accessors return what constructors were given; != is the negation of ==", "statement": "A named constructor of an angle stands for the given number of units and the value read in any unit is the number of turns times the units per turn; the accessors of intervals, spheres, ellipsoids, cuboids, cones and interpolators return the constructor's arguments, and raise Undefined exactly when a member is undefined; a sphere is unitary exactly when its radius is 1; != answers the opposite of == and raises an error when == does, also where it is written out; adding a vector to a point and subtracting it again gives the point.", "quantifier": "all objects, values and units", "why_tests_cant": "A swapped member shows only for values that differ in every member.", "anchors": ["src/OpenSpaceToolkit/Mathematics/Geometry/Angle.cpp: getUnit, inRadians, inDegrees, inArcminutes, inArcseconds, inRevolutions, Degrees, Arcminutes, Arcseconds, Revolutions", "src/OpenSpaceToolkit/Mathematics/Object/Interval.tpp: getType, getLowerBound, getUpperBound, operator!=", "src/OpenSpaceToolkit/Mathematics/Geometry/3D/Object/Sphere.cpp, Ellipsoid.cpp, Cuboid.cpp, Cone.cpp: the accessors, operator!=, Undefined", "src/OpenSpaceToolkit/Mathematics/Geometry/3D/Object/Point.cpp: operator+, operator-"]}
{"id": "C120", "title": "Range reduction of angles in double precision", "statement": "In IEEE double arithmetic with rounding to nearest, reducing a value to [lo, hi[ lands in [lo, hi[ and differs from the value by a whole number of widths hi - lo, up to one rounding error per width; whole numbers are reduced exactly.", "quantifier": "all doubles up to 2^900 in magnitude; whole numbers up to 2^52", "why_tests_cant": "Whether the last subtraction rounds onto or below the bound depends on bits no test chooses; the loop has as many iterations as there are widths.", "anchors": ["src/OpenSpaceToolkit/Mathematics/Geometry/Angle.cpp: ReduceRange, inRadians, inDegrees, inArcminutes, inArcseconds, inRevolutions with bounds"]}
{"id": "C121", "title": "Comparison of angles in double precision", "statement": "In double arithmetic, == on angles is reflexive, symmetric and transitive, and true exactly for angles that differ by a whole number of turns; isNear is symmetric and reflexive, and true only for angles that differ by at most the tolerance from a whole number of turns.", "quantifier": "all pairs of angles with double values, all units", "why_tests_cant": "The equality of two rounded conversions depends on the last bits of the values.", "anchors": ["src/OpenSpaceToolkit/Mathematics/Geometry/Angle.cpp: operator==, isNear, ReduceRange"]}
{"id": "C122", "title": "Conversions of angles in double precision", "statement": "In double arithmetic a conversion between two units has a relative error of at most 2^-50 against the exact ratio (with the real number pi), and converting back of at most 2^-48.", "quantifier": "all finite doubles between 2^-900 and 2^900 in magnitude, all pairs of units", "why_tests_cant": "A bound on the rounding error has to hold for every mantissa.", "anchors": ["src/OpenSpaceToolkit/Mathematics/Geometry/Angle.cpp: in, SIRatio"]}
{"id": "C123", "title": "Grids of a given size in double precision", "statement": "In double arithmetic the grid of n values of an interval has n values, its k-th is within k times 2^-50 of the larger bound of the k-th point of the exact grid, and the first and last are the bounds when the interval includes them.", "quantifier": "all finite bounds up to 2^900, all sizes from 2 to 2^40, all interval types", "why_tests_cant": "Whether the last value is the bound depends on the rounding of the step for each size.", "anchors": ["src/OpenSpaceToolkit/Mathematics/Object/Interval.tpp: generateArrayWithSize"]}
{"id": "C124", "title": "Linear interpolation in double precision", "statement": "In double arithmetic linear interpolation returns the end values outside of the data, is accurate to 2^-49 of the data in between, returns the datum at a node, and rises with the argument where the data rise.", "quantifier": "all finite abscissae and ordinates (magnitudes up to 2^900)", "why_tests_cant": "The formula y0 + (x - x0) / (x1 - x0) * (y1 - y0) hits y1 at x1 only if the difference is exact; tests use round numbers.", "anchors": ["src/OpenSpaceToolkit/Mathematics/CurveFitting/Interpolator/Linear.cpp: evaluate"]}
{"id": "C125", "title": "Sums of angles in double precision", "statement": "In double arithmetic the sum and difference of two angles of one unit are correctly rounded, and of two units accurate to 2^-49 of the sum of the magnitudes.", "quantifier": "all finite doubles, all pairs of units", "why_tests_cant": "A bound on the rounding error has to hold for every mantissa.", "anchors": ["src/OpenSpaceToolkit/Mathematics/Geometry/Angle.cpp: operator+, operator-"]}
{"id": "C126", "title": "Containment in lines, rays, segments and planes in double precision", "statement": "In double arithmetic lines, rays and planes contain the point they start from and segments their ends; for whole coordinates up to 2^24 segment containment is exact; every accepted point is close to the object, within a relative 2^-49.", "quantifier": "all finite coordinates (up to 2^400 or 2^200), both orders of summation", "why_tests_cant": "The tests compare a rounded cross product with zero; whether that holds depends on every bit of the coordinates, and tests use small round numbers.", "anchors": ["src/OpenSpaceToolkit/Mathematics/Geometry/3D/Object/Line.cpp: contains, Through", "src/OpenSpaceToolkit/Mathematics/Geometry/3D/Object/Ray.cpp: contains", "src/OpenSpaceToolkit/Mathematics/Geometry/3D/Object/Segment.cpp: contains, getCenter", "src/OpenSpaceToolkit/Mathematics/Geometry/3D/Object/Plane.cpp: contains"]}
{"id": "C127", "title": "Distances in double precision", "statement": "In double arithmetic the distance of two points is accurate to a relative 2^-50, the same both ways, zero from a point to itself, and satisfies the triangle inequality up to rounding.", "quantifier": "all finite coordinates up to 2^450, both orders of summation", "why_tests_cant": "An error bound has to hold for every mantissa.", "anchors": ["src/OpenSpaceToolkit/Mathematics/Geometry/3D/Object/Point.cpp: distanceTo, isNear, operator-"]}
{"id": "C128", "title": "Containment in spheres in double precision", "statement": "In double arithmetic sphere containment is exact for whole coordinates, and every accepted point is close to the sphere.", "quantifier": "all finite centres, radii and points up to 2^200, all tolerances", "why_tests_cant": "The tolerance is absolute and compared with a difference of squares, so that the answer depends on the size of the sphere.", "anchors": ["src/OpenSpaceToolkit/Mathematics/Geometry/3D/Object/Sphere.cpp: contains"]}
{"id": "C129", "title": "Containment in lines of the plane in double precision", "statement": "In double arithmetic a line of the plane contains its origin, and the test is exact for vertical and horizontal lines.", "quantifier": "all finite origins (up to 2^52 for horizontal lines), directions and points", "why_tests_cant": "The slope is computed from rounded sums, and the test is an exact comparison.", "anchors": ["src/OpenSpaceToolkit/Mathematics/Geometry/2D/Object/Line.cpp: contains"]}
{"id": "C130", "title": "Directions in double precision", "statement": "In double arithmetic the constructors of lines, rays and planes keep a direction within 2^-47 of the exact unit vector, and refuse the zero vector; a line equals itself and its opposite.", "quantifier": "all directions with coordinates up to 2^450 and norm of at least 2^-450, both orders of summation", "why_tests_cant": "Normalisation squares the coordinates, which overflows, underflows or is inexact for inputs that tests do not use.", "anchors": ["src/OpenSpaceToolkit/Mathematics/Geometry/3D/Object/Line.cpp: Line, operator==", "src/OpenSpaceToolkit/Mathematics/Geometry/3D/Object/Plane.cpp: Plane"]}
{"id": "C131", "title": "Quaternion arithmetic in double precision", "statement": "In double arithmetic quaternion products, norms, inverses and quotients are within a few rounding errors of the exact ones, exact for whole components, and sign changes, conjugation and the unit quaternion commute with them exactly.", "quantifier": "all quaternions with finite components up to 2^450 (2^220 for the triple product), both orders of summation", "why_tests_cant": "Tests compare a few products with a tolerance; the error bound has to hold for every pair and the exact identities for every rounding.", "anchors": ["src/OpenSpaceToolkit/Mathematics/Geometry/3D/Transformation/Rotation/Quaternion.cpp: operator*, crossMultiply, norm, inverse, operator/, conjugate, operator=="]}
{"id": "C132", "title": "Unit quaternions in double precision", "statement": "In double arithmetic a normalized quaternion is accepted as unitary, accepted quaternions turn vectors accurately and keep their length, turning back returns the vector, and products stay acceptable for a larger tolerance; for the fixed default tolerance a power of a normalized quaternion may be refused.", "quantifier": "all quaternions with components up to 2^450, all vectors of norm up to 2^440, all tolerances up to 2^-26", "why_tests_cant": "The tolerance is nine units of rounding, so drift shows up only for particular quaternions after several products.", "anchors": ["src/OpenSpaceToolkit/Mathematics/Geometry/3D/Transformation/Rotation/Quaternion.cpp: isUnitary, normalize, rotateVector, rectify"]}
{"id": "C133", "title": "Linear interpolation of quaternions in double precision", "statement": "In double arithmetic linear interpolation meets its end points exactly and is within 2^-51 of the exact interpolation, relative to the lengths.", "quantifier": "all quaternions with components up to 2^450, all ratios from 0 to 1", "why_tests_cant": "Whether the end points are met bit for bit, and what happens between equal ends, depends on rounding for every ratio.", "anchors": ["src/OpenSpaceToolkit/Mathematics/Geometry/3D/Transformation/Rotation/Quaternion.cpp: LERP, operator+, operator* (Real)"]}
{"id": "C134", "title": "Rotation matrices in double precision", "statement": "In double arithmetic the constructor's checks agree with the exact ones up to 2^-50; matrices with nearly orthonormal columns keep lengths, are undone by their transpose, and have accepted products and transposes for a slightly larger tolerance; quarter turns are handled exactly. For the fixed default tolerance an accepted matrix may have a refused transpose or power, or take every vector to zero.", "quantifier": "all matrices with finite entries (up to 2^450 for the checks), all vectors of norm up to 2^440, all tolerances up to 2^-26, both orders of summation", "why_tests_cant": "Acceptance depends on differences of nine rounding units, and the error bounds have to hold for every matrix and vector.", "anchors": ["src/OpenSpaceToolkit/Mathematics/Geometry/3D/Transformation/Rotation/RotationMatrix.cpp: RotationMatrix, operator*, operator==, toTransposed, transpose, Unit"]}
{"id": "C135", "title": "Quaternions and rotation matrices in double precision", "statement": "In double arithmetic the matrix of a unit quaternion is accepted for twice the tolerance, has entries within 2^-50 of the exact ones and turns vectors like the quaternion; from every matrix close to a rotation a quaternion of that rotation is found, and the round trip returns the quaternion up to sign. For the same tolerance an accepted quaternion may have a refused matrix.", "quantifier": "all quaternions with components up to 2^450, all matrices with entries within 1/100 of a rotation, all tolerances up to 2^-26", "why_tests_cant": "The branch taken from the matrix depends on rounded comparisons of four numbers; no finite set of rotations covers the ties.", "anchors": ["src/OpenSpaceToolkit/Mathematics/Geometry/3D/Transformation/Rotation/RotationMatrix.cpp: RotationMatrix::Quaternion", "src/OpenSpaceToolkit/Mathematics/Geometry/3D/Transformation/Rotation/Quaternion.cpp: Quaternion::RotationMatrix"]}
{"id": "C136", "title": "Nearness of vectors and matrices of any size in double precision", "statement": "isNear on defined matrices of one shape agrees with the exact Euclidean distance of the elements up to (n + 3) 2^-53, whatever the order in which the squares are added; it is symmetric, accepts equal matrices, grows with the tolerance, and refuses undefined operands and different sizes.", "quantifier": "all shapes with up to 2^20 elements, all elements up to 2^450, all summation trees, all finite tolerances", "why_tests_cant": "The summation order depends on the size and the instruction set; tests run one order on a few small vectors.", "anchors": ["include/OpenSpaceToolkit/Mathematics/Object/Eigen.hpp: isNear, isDefined, Undefined, NaN, Inf, X, Y, Z"]}
{"id": "C137", "title": "Applying transformations in double precision", "statement": "Applying the matrix of a transformation of the plane or of space to a point or a direction gives the exact image within 5 * 2^-53 times the size of the terms, whatever the order of the sums; translations round each coordinate correctly and leave directions as they are, the identity changes nothing, images of whole numbers are exact, and translating back returns within 3 * 2^-53.", "quantifier": "all matrices and points with entries up to 2^450 (2^1022 for translations and the identity), dimensions up to 3, all summation trees", "why_tests_cant": "Tests compare a few images with a tolerance; the error bound covers all matrices, cancellation and every order in which Eigen may add the products.", "anchors": ["src/OpenSpaceToolkit/Mathematics/Geometry/3D/Transformation.cpp: applyTo, operator*, Translation, Identity", "src/OpenSpaceToolkit/Mathematics/Geometry/2D/Transformation.cpp: applyTo, operator*, Translation, Identity"]}
{"id": "C138", "title": "Composing transformations in double precision", "statement": "The composition of two transformations applied to a point, and the two applied in turn, both give the exact image within 9 * 2^-53 times the size of the terms; products of affine matrices are affine; composing with the identity changes nothing, composing translations adds the shifts with one rounding; equality is equality of all coefficients of defined transformations.", "quantifier": "all pairs of matrices and points with entries up to 2^200, dimensions 1 to 3, all summation trees", "why_tests_cant": "Tests compose a handful of transformations; the bound holds for all of them and for all orders of summation, and shows how much composing first can change the image.", "anchors": ["src/OpenSpaceToolkit/Mathematics/Geometry/3D/Transformation.cpp: operator==, operator*, operator*=", "src/OpenSpaceToolkit/Mathematics/Geometry/2D/Transformation.cpp: operator==, operator*, operator*="]}
{"id": "C139", "title": "Rotations around a point in double precision", "statement": "RotationAround keeps the linear part of the rotation exactly and takes a point p to c + L (p - c) within 9 * 2^-53 times the terms of the center and 5 * 2^-53 times those of the point; in particular the center stays fixed within 14 * 2^-53 of its terms.", "quantifier": "all rotation matrices, centers and points with entries up to 2^200, dimensions 1 to 3, all summation trees", "why_tests_cant": "The tests turn around one point by round angles; the bound shows for all centers how far the center itself may move.", "anchors": ["src/OpenSpaceToolkit/Mathematics/Geometry/3D/Transformation.cpp: Rotation, RotationAround", "src/OpenSpaceToolkit/Mathematics/Geometry/2D/Transformation.cpp: Rotation, RotationAround"]}
{"id": "C140", "title": "Inverse transformations of the plane in double precision", "statement": "getInverse of an affine map of the plane has the coefficients of the exact inverse within 7 * 2^-53 times the condition number of the determinant, so that applying the map and its inverse returns to the point within 33 * 2^-53 times the condition number; the inverse of a translation is exactly the opposite translation, that of a rotation the opposite rotation within 16 * 2^-53; undefined transformations are errors.", "quantifier": "all affine matrices of the plane with entries up to 2^100, determinants from 2^-100 on and condition numbers up to 2^40, all summation trees", "why_tests_cant": "Tests invert a few well conditioned matrices and compare with a tolerance; the theorem gives the error for every matrix as a function of the condition of its determinant.", "anchors": ["src/OpenSpaceToolkit/Mathematics/Geometry/2D/Transformation.cpp: getInverse"]}
{"id": "C141", "title": "Rotation vectors in double precision, and their quaternions", "statement": "If std::cos and std::sin are within e of the cosine and sine of the half angle, Quaternion::RotationVector is within 3 e + 2^-48 of the unit quaternion of the direction of the axis and the exact angle, is accepted as unitary, and rotates a vector to the exact image within (6 e + 2^-46) times its length. The constructor of an axis and an angle accepts exactly the axes of length 1 within Epsilon (up to 2^-50) and stores the direction within 2^-51; the constructor of a vector stores its direction and its length within 2^-51.", "quantifier": "all finite axes of length 1 within 2^-50, all angles, all cosine and sine functions with error e up to 1/100, all vectors up to 2^440, both orders of Eigen's sums, all tolerances", "why_tests_cant": "Tests compare a few quaternions with a tolerance of 1e-8 or so; the theorem bounds the error for every axis and angle by that of the platform's cosine and sine.", "anchors": ["src/OpenSpaceToolkit/Mathematics/Geometry/3D/Transformation/Rotation/Quaternion.cpp: RotationVector (510-520)", "src/OpenSpaceToolkit/Mathematics/Geometry/3D/Transformation/Rotation/RotationVector.cpp: constructors (24-42)"]}
{"id": "C142", "title": "Matrices of rotation vectors in double precision", "statement": "The matrix of an axis and an angle is returned for tolerances from 8 e + 2^-45 on, its coefficients are those of the rotation within 3 e + 2^-47, it turns vectors by the exact rotation within (7 e + 2^-45) times their length, and agrees with the quaternion of the same rotation vector; at a cosine of 1 and a sine of 0 it is exactly the identity. For smaller tolerances a matrix that is returned has the same accuracy (whether one is returned is refuted: at Real::Epsilon legitimate rotation vectors are refused).", "quantifier": "all finite axes of length 1 within 2^-50, all angles, all cosine and sine functions with error e up to 1/10000, all vectors up to 2^440, both orders of the sums", "why_tests_cant": "Whether the constructor refuses its own matrix depends on the last bits of the nine coefficients; tests that pass for some axes say nothing about others.", "anchors": ["src/OpenSpaceToolkit/Mathematics/Geometry/3D/Transformation/Rotation/RotationMatrix.cpp: RotationVector (499-531)"]}
{"id": "C143", "title": "Elementary rotation matrices, and matrices of columns and rows, in double precision", "statement": "RX, RY and RZ are accepted for tolerances from 1.5 e + 4.5 * 2^-53 on, have exactly orthogonal columns and keep their axis exactly, turn vectors by the exact rotation within (4 e + 2^-50) times their length; the matrix of the opposite angle is the transposed matrix. Columns and Rows hold exactly the given vectors and accept those orthonormal within the tolerance (within a third of it for Rows).", "quantifier": "all angles, all cosine and sine functions with error e up to 1/10000, all finite columns and rows, all vectors up to 2^440, both orders of the sums", "why_tests_cant": "Exact orthogonality and exact agreement of RX(-t) with the transposed RX(t) for all angles cannot be sampled.", "anchors": ["src/OpenSpaceToolkit/Mathematics/Geometry/3D/Transformation/Rotation/RotationMatrix.cpp: RX, RY, RZ (295-344), Rows (346-399), Columns (401-456)"]}
{"id": "C144", "title": "Quaternions and matrices of Euler angles in double precision", "statement": "The quaternion of Euler angles is within 25 e + 2^-48 of a unit quaternion of the sequence of rotations that the axis sequence names, and rotates vectors by it within (51 e + 2^-46) times their length. The matrix of Euler angles is returned for tolerances from 75 e + 2^-46 on and turns vectors within (31 e + 2^-47) times their length by the angles of x, y and z applied in the order z, y, x. For ZYX the two agree; for zero angles both are exactly no rotation; undefined angles and sequences are errors.", "quantifier": "all angles, all three sequences, all cosine and sine functions with error e up to 2^-32 (1/10000 for the quaternion), all vectors up to 2^440, both orders of the sums", "why_tests_cant": "Errors of the twelve products and of three rounded matrices add up differently for every triple of angles; the theorem covers all of them.", "anchors": ["src/OpenSpaceToolkit/Mathematics/Geometry/3D/Transformation/Rotation/Quaternion.cpp: EulerAngle (586-644)", "src/OpenSpaceToolkit/Mathematics/Geometry/3D/Transformation/Rotation/RotationMatrix.cpp: EulerAngle (533-563)"]}
{"id": "C145", "title": "Shortest rotations in double precision", "statement": "With k the length of the sum of the directions of the two vectors, the shortest rotation is within 2^-47 / k of the unit quaternion with positive scalar part that takes one direction to the other around an axis orthogonal to both, is accepted as unitary, and rotates the first vector to the direction of the second, keeping its length, within 2^-46 / k times the length. From a vector to itself the vector part is exactly zero. It is refused when k is 19 * 2^-53 below the tolerance, and for exactly opposite vectors from a tolerance of 10.4 * 2^-53 on.", "quantifier": "all pairs of finite vectors with lengths between 2^-450 and 2^440, all tolerances, both orders of the sums", "why_tests_cant": "The error grows without bound as the vectors become opposite; tests sample pairs far from that, and the theorem gives the rate for all pairs.", "anchors": ["src/OpenSpaceToolkit/Mathematics/Geometry/3D/Transformation/Rotation/Quaternion.cpp: ShortestRotation (665-685)"]}
{"id": "C146", "title": "Normalized means of quaternions in double precision", "statement": "With m the weighted mean of two quaternions, NLERP returns m divided by its length within 2^-47 / |m|, accepted as unitary, and rotates vectors accordingly within 2^-46 / |m| times their length. For nearly unit quaternions less than a right angle apart it always succeeds, within 2^-46. At the ends it returns the given quaternion normalized, within 2^-50. It is refused when |m| is 19 * 2^-53 below the tolerance, and half way between a quaternion and its opposite for every positive tolerance.", "quantifier": "all finite quaternions with lengths between 1/2 and 2, all ratios from 0 to 1, all tolerances, all vectors up to 2^440, both orders of the sums", "why_tests_cant": "The error grows as the quaternions become opposite; the theorem gives the rate for all pairs and ratios.", "anchors": ["src/OpenSpaceToolkit/Mathematics/Geometry/3D/Transformation/Rotation/Quaternion.cpp: NLERP (702-707), LERP (687-700), normalize"]}
{"id": "C147", "title": "Rotations from two pairs of vectors in double precision", "statement": "With s and t the sines of the angles between the vectors of each pair, VectorBasis returns a matrix whose coefficients are within 2^-47 (1/s + 1/t) of a rotation that takes the direction of the first vector to that of the third and the half plane of the first pair to that of the second, and that turns vectors like it within 2^-45 (1/s + 1/t) times their length. It is returned for all pairs neither short nor parallel compared with a tolerance from 2^-45 (1/s + 1/t) on; at the tolerance of the library it may be refused for pairs that are neither. Short, zero and parallel vectors are refused.", "quantifier": "all finite vectors with lengths between 2^-450 and 2^450 and sines of at least 2^-30, all tolerances, both orders of the sums", "why_tests_cant": "The rounded cross products lose accuracy as the vectors become parallel; the theorem bounds the loss for all pairs, and the refutation needs vectors found by search.", "anchors": ["src/OpenSpaceToolkit/Mathematics/Geometry/3D/Transformation/Rotation/RotationMatrix.cpp: VectorBasis (565-643)"]}
{"id": "C148", "title": "Rotation vectors of quaternions in double precision", "statement": "The rotation vector of a unit quaternion has the direction of the vector part as axis within 2^-49, and twice the arc cosine of the scalar part as angle within twice the error of the arc cosine and 2^-49; the rotation described is that of the quaternion within 2^-49 over the length of the vector part, and the quaternion built again from it is the one given within 6 e + 2^-46 and that. A scalar part of 1 or -1 gives the third axis and the angle 0. Every rotation survives, and every quaternion accepted as unitary has a rotation vector.", "quantifier": "all quaternions of length within 2^-51 of 1 with a vector part of at least 2^-440, all arc cosine, cosine and sine functions with error e, both orders of the sums", "why_tests_cant": "The angle is ill conditioned near no rotation; only a theorem relates the loss to the length of the vector part for all quaternions.", "anchors": ["src/OpenSpaceToolkit/Mathematics/Geometry/3D/Transformation/Rotation/RotationVector.cpp: Quaternion (178-199), RotationVector (24-32), Unit (143-146)", "src/OpenSpaceToolkit/Mathematics/Geometry/3D/Transformation/Rotation/Quaternion.cpp: RotationVector (510-520)"]}
{"id": "C149", "title": "Exponentials, logarithms and powers of quaternions in double precision", "statement": "With library functions of error e, exp returns the exact exponential within 6 e + 2^-47, log returns the logarithm of the length within e + 2^-51 and the angle times the axis within e + 2^-48, exp after log returns the quaternion given within 9 e + 2^-46, and a power with exponent between -1 and 1 raises the length to it and multiplies the angle by it, within 9 e + 2^-46, and within 5 e + 2^-47 and 3 tolerances for unit quaternions with non-negative scalar part. This should hold for vector parts of all lengths.", "quantifier": "all finite quaternions of length between 1/2 and 2, all exponents between -1 and 1, all tolerances from 2^-400 to 1/32, all library functions with error at most 1/1000, both orders of the sums", "why_tests_cant": "Below the tolerance the vector part is dropped and the scalar part of the exponential ignored; tests sample ordinary rotations, the theorems delimit exactly where the functions are right and show that real quaternions and nearly whole turns are not.", "anchors": ["src/OpenSpaceToolkit/Mathematics/Geometry/3D/Transformation/Rotation/Quaternion.cpp: exp (275-288), log (290-303), pow (305-310)"]}
{"id": "C150", "title": "Spherical interpolation of quaternions in double precision", "statement": "For two quaternions of length within 1/1000 of 1 and a ratio k between 0 and 1, SLERP returns the first one, normalized, turned by k times the angle between it and the second or its opposite, an angle of the quaternions of at most a quarter turn up to 2^-50, within 8 e + 2^-45 and 5 tolerances, where e is the error of the library functions. The result is accepted as unitary, satisfies the formula with sines, has the two quaternions as ends, and turns vectors like the exact one. First quaternions whose squared length is below the tolerance, undefined arguments and other ratios are errors.", "quantifier": "all finite quaternions of length within 1/1000 of 1, all ratios between 0 and 1, all tolerances from 2^-400 to 1/32, all library functions with error at most 1/1000, both orders of the sums", "why_tests_cant": "The error goes through an inverse, a product, a logarithm, an exponential and another product; only a theorem bounds it for all pairs, including nearly equal and nearly opposite ones.", "anchors": ["src/OpenSpaceToolkit/Mathematics/Geometry/3D/Transformation/Rotation/Quaternion.cpp: SLERP (709-729)"]}
{"id": "C151", "title": "Angular differences of quaternions in double precision", "statement": "For two quaternions of length within 1/1000 of 1 that are accepted as unitary, angularDifferenceWith returns twice the angle th, between 0 and a quarter turn, of the unit quaternion that takes the first rotation to the second: the cosine of half the result is within e + 2^-47 of cos th, the result is within 2 e + 2^-20 of 2 th, and within (2 e + 2^-44) / sin th of it, where e is the error of std::acos. A rotation and itself, given by the same quaternion or by the opposite one, differ by exactly 0. The two orders agree within 4 e + 2^-19, though not exactly: there are two different rotations whose difference is 0 in one order and at least 2^-26 in the other. The argument of std::acos never exceeds 1. Quaternions that are not unitary and undefined ones are errors.", "quantifier": "all finite quaternions of length within 1/1000 of 1, all tolerances up to 1/32, all arc cosines with error at most 1/1000, both orders of the sums", "why_tests_cant": "The arc cosine loses half of the digits near 1, and an argument above 1 by one rounding would give an undefined angle; only a theorem excludes this for all pairs of quaternions.", "anchors": ["src/OpenSpaceToolkit/Mathematics/Geometry/3D/Transformation/Rotation/Quaternion.cpp: angularDifferenceWith (481-491)"]}
{"id": "C152", "title": "Nearness of quaternions in double precision", "statement": "For two quaternions of length within 1/1000 of 1 that are accepted as unitary and a tolerance between 0 and 6.28, isNear answers yes when twice the angle th between the rotations is at most the tolerance minus 2 e + 2^-20, and no when it is above the tolerance by more than that; every rotation is near itself, also with tolerance 0. The answer does not depend on the order, and a larger tolerance accepts more rotations: both are false of the code in double precision, the second because a tolerance of a whole turn is reduced to 0. A tolerance of -1 accepts all rotations. An undefined tolerance is an error.", "quantifier": "all finite quaternions of length within 1/1000 of 1, all tolerances of the angle between 0 and 6.28, all arc cosines with error at most 1/1000, all fuels", "why_tests_cant": "The answer near the tolerance depends on the last digits of the angle, and a test chooses only a few tolerances; a whole turn and negative tolerances are reduced to other ones.", "anchors": ["src/OpenSpaceToolkit/Mathematics/Geometry/3D/Transformation/Rotation/Quaternion.cpp: isNear (184-193)"]}
{"id": "C153", "title": "Euler angles of quaternions, matrices and rotation vectors in double precision", "statement": "Away from gimbal lock (h, the cosine of the middle angle, with h*h at least 2^-46 and a small multiple of the error of the input) the three angles returned are finite and name, in the sequence asked for, the rotation given: every coefficient of the matrices agrees within 5 (e + (5 d + 2^-46)/h), where e is the error of std::atan2 and std::asin and d that of the input. The first angle is between 0 and PI. The quaternion of the angles turns vectors like the given one. Undefined and non-unitary inputs are errors.", "quantifier": "all finite quaternions accepted as unitary, all matrices within d of a rotation, all rotation vectors with unit axis, all functions std::atan2 and std::asin with error e up to 1/1000, all three sequences, both orders of the sums", "why_tests_cant": "How the errors grow near gimbal lock depends on all the coefficients and on the branch of the adjustment; the theorem bounds them for every rotation, whereas tests look at a few angles.", "anchors": ["src/OpenSpaceToolkit/Mathematics/Geometry/3D/Transformation/Rotation/EulerAngle.cpp: Quaternion (206-253), RotationVector (255-260), RotationMatrix (262-314)"]}
{"id": "C154", "title": "Rotation vectors read from matrices, and rectified, in double precision", "statement": "Read from a matrix whose coefficients are within dl of those of the rotation by th around the unit vector d, with the square of the sine of th at least 16 dl + 2^-46, axis and angle exist, the axis is within (4 dl + 2^-49)/sin th of d and of unit length up to 2^-51, the angle within e + (10 dl + 2^-47)/sin th of th, e being the error of std::acos. For angles up to a turn either way, rectify gives an angle from 0 to PI, keeps the rotation up to 2^-48, and does nothing the second time. Undefined matrices and rotation vectors are errors.", "quantifier": "all unit axes, all angles between 0 and half a turn away from both ends, all finite matrices within dl of the rotation (dl up to 1/1000), all functions std::acos with error e up to a quarter of the sine, all tolerances from 2^-50 to 2^-26, both orders of the sums; all finite axes of length up to 1.001 and all finite angles up to a turn for rectify", "why_tests_cant": "How the error of the angle grows towards no rotation and towards half a turn depends on all the coefficients and on std::acos; the theorem bounds it for every rotation, whereas tests look at a few.", "anchors": ["src/OpenSpaceToolkit/Mathematics/Geometry/3D/Transformation/Rotation/RotationVector.cpp: RotationMatrix (201-223), rectify (104-124)"]}
{"id": "C155", "title": "Comparison of rotation vectors and of Euler angles in double precision", "statement": "Rotation vectors that operator== calls equal stand for the same rotation up to 2^-41 B^2, B bounding the angles; Euler angles it calls equal have the same axis sequence and rotation matrices within 2^-35 B^2. Defined rotation vectors and Euler angles equal themselves; a rotation vector equals the one with opposite axis and angle; Euler angles equal the other triple of the same rotation (first and last angle plus PI, PI minus the middle one). Vectors of different, not opposite axes are unequal unless both angles are zero; Euler angles of different sequences are unequal; undefined ones equal nothing; != is the negation. EulerAngle::isUnitary holds exactly when the three angles are zero.", "quantifier": "all finite axes of length up to 1.001, all finite angles up to 2^20 (rotation vectors) or 2^18 (Euler angles) radians for soundness, up to 2^52 for reflexivity, all axis sequences, all numbers of loop steps", "why_tests_cant": "Equality goes through a loop that adds or subtracts turns with rounding; that it never identifies different rotations has to hold for every pair of angles, not for sampled ones.", "anchors": ["src/OpenSpaceToolkit/Mathematics/Geometry/3D/Transformation/Rotation/RotationVector.cpp: operator== (44-58), operator!= (60-63)", "src/OpenSpaceToolkit/Mathematics/Geometry/3D/Transformation/Rotation/EulerAngle.cpp: operator== (47-72), operator!= (74-77), isUnitary (105-108)"]}
{"id": "C156", "title": "Nearness of Euler angles, and rotation vectors of Euler angles, in double precision", "statement": "Let 2 th, from 0 to PI, be the angle of the rotation that takes one triple of Euler angles to another. EulerAngle::isNear answers true when 2 th + 2 h + 140 e + 2^-19 is at most the tolerance v and false when 2 th exceeds v + 2 h + 140 e + 2^-19, e being the error of std::cos and std::sin and h that of std::acos; every triple is near itself. RotationVector::EulerAngle gives an axis within (50 e + 2^-46)/sin th and an angle within 2 h + (300 e + 2^-44)/sin th of those of the rotation the sequence names, by 2 th around the unit vector d, when the square of sin th is at least 200 e + 2^-44. Undefined Euler angles and tolerances are errors.", "quantifier": "all Euler angles of all three sequences, all functions std::cos, std::sin, std::acos with errors up to 1/10000 and 1/1000 (1 for the vector), all tolerances from 0 to 6.28 radians, all equality tolerances from 2^-50 to 1/32 (1/4), both orders of the sums", "why_tests_cant": "Whether a rotation close to the tolerance is called near depends on the accumulated rounding of ten operations and three library functions; the theorem gives the width of the zone of doubt for every pair of triples.", "anchors": ["src/OpenSpaceToolkit/Mathematics/Geometry/3D/Transformation/Rotation/EulerAngle.cpp: isNear (110-113)", "src/OpenSpaceToolkit/Mathematics/Geometry/3D/Transformation/Rotation/RotationVector.cpp: EulerAngle (225-228)"]}
{"id": "C157", "title": "Distances to lines, rays and segments in double precision", "statement": "Line::distanceTo(Point) is the least distance L from the point to the points of the line, within 2^-46 D + 2^-500, D being the distance from the point to the origin of the line; Ray::distanceTo(Point) is so within 2^-45 D + 2^-500, whichever side of the origin rounding chooses; Segment::distanceTo(Point) is so within 2^-47 (|a| + |b| + |p|) + 2^-500 for the ends a, b and the point p. The origin of lines and rays and the first point of segments are at distance 0 exactly; the second point of a segment need not be, although the segment contains it. The distance from a segment to a set of points is the least of the distances to its points. Undefined objects and points, and empty sets, are errors.", "quantifier": "all points with coordinates up to 2^200, all lines and rays made from vectors of length from 2^-450 up and coordinates up to 2^450, all segments of length from 2^-200 up and those of one point, all sets of points, both orders of the sums", "why_tests_cant": "Tests compare a few distances with a tolerance chosen by hand; the theorem bounds the error for every point, direction and segment, also where a point is next to the plane through the origin of a ray and the branch taken depends on rounding.", "anchors": ["src/OpenSpaceToolkit/Mathematics/Geometry/3D/Object/Line.cpp: distanceTo (176-184)", "src/OpenSpaceToolkit/Mathematics/Geometry/3D/Object/Ray.cpp: distanceTo (175-200)", "src/OpenSpaceToolkit/Mathematics/Geometry/3D/Object/Segment.cpp: distanceTo (207-266)"]}
{"id": "C158", "title": "Distances in the plane in double precision", "statement": "In two dimensions: Point::distanceTo and Segment::getLength are the Euclidean distance within 2^-50 of it; Point::isNear errs only within that rounding; the direction of a Line is that of the vector it is made from within 2^-47 and the zero vector is refused; Line::distanceTo(Point) is the least distance to the points of the line within 2^-45 D + 2^-500, D being the distance from the point to the origin of the line; Segment::distanceTo(Point) is the least distance to its points within 2^-47 (|a| + |b| + |p|) + 2^-500. The origin of a line and the first point of a segment are at distance 0 exactly; the second point need not be. The distance from a segment to a set of points is the least of the distances to its points. Undefined objects, points and tolerances, and empty sets, are errors.", "quantifier": "all points with coordinates up to 2^450 (2^200 for lines and segments), all lines made from vectors of length from 2^-450 up and coordinates up to 2^450, all segments of length from 2^-200 up and those of one point, all sets of points", "why_tests_cant": "Tests compare a few distances with a tolerance chosen by hand; the theorem bounds the error for every point, direction and segment, over some 2^250 pairs of doubles, including points next to a line where most digits cancel.", "anchors": ["src/OpenSpaceToolkit/Mathematics/Geometry/2D/Object/Point.cpp: isNear (97-105), distanceTo (137-150)", "src/OpenSpaceToolkit/Mathematics/Geometry/2D/Object/Line.cpp: Line (21-35), distanceTo (145-159)", "src/OpenSpaceToolkit/Mathematics/Geometry/2D/Object/Segment.cpp: getLength (164-172), distanceTo (174-232)"]}
{"id": "C159", "title": "Sets of points and line strings in double precision", "statement": "In space and in the plane: PointSet::getPointClosestTo and LineString::getPointClosestTo return one of the points, and its distance is at most (1 + 2^-49) times the distance of any other plus 2^-249; PointSet::distanceTo is the distance of one of the points within 2^-50 of it, and at most that of any other within 2^-50; LineString::isNear of line strings of the same size says that they are near only if every pair of points is within the tolerance up to rounding, and always when every pair is nearer than the tolerance by more than rounding. PointSet::isNear says that sets of the same size are near only if they match point by point, in some order, within the tolerance up to rounding, and always when they do so in their own order; which other matchings it finds depends on the order of the points. Line strings and sets of different sizes, or empty, are never near, whatever the tolerance. Undefined points, empty sets, and line strings with an undefined vertex anywhere are errors.", "quantifier": "all non-empty lists of points with coordinates up to 2^200 (2^450 for distances and nearness), all points, all finite tolerances, both orders of the sums", "why_tests_cant": "Tests look at a few sets of well separated points; the theorem covers sets of any size, with points whose squared distances are equal after rounding or underflow, where the choice made by the loop depends on the last digit.", "anchors": ["src/OpenSpaceToolkit/Mathematics/Geometry/3D/Object/PointSet.cpp: isNear (52-100), distanceTo (107-130), getPointClosestTo (132-160)", "src/OpenSpaceToolkit/Mathematics/Geometry/3D/Object/LineString.cpp: isNear (52-73), getPointClosestTo (90-118)", "src/OpenSpaceToolkit/Mathematics/Geometry/2D/Object/PointSet.cpp: isNear (51-99), distanceTo (106-129), getPointClosestTo (131-159)", "src/OpenSpaceToolkit/Mathematics/Geometry/2D/Object/LineString.cpp: isNear (90-111), getPointClosestTo (133-161)"]}
{"id": "C160", "title": "Points of cuboids in double precision", "statement": "Cuboid::contains(Point), which looks for points of the surface, says yes only if the point is next to a face: its coordinate along one axis differs from the extent by at most Real::Epsilon() (1 + 2^-51) plus the error E, and its coordinates along the two others are at most the extents plus E, where E = 2^-50 |p - c| |u| + 2^-500 for the axis u. It says yes for every point whose three coordinates are below the extents by at least E, and one of them nearer to the extent than Real::Epsilon() by more than rounding. It always answers for defined cuboids and points, undefined ones are errors. A corner computed in double precision from the center, axes and extents may be left out, whatever Real::Epsilon() is.", "quantifier": "all centers, points and axes (unit or not, orthogonal or not) with coordinates up to 2^200, all extents up to 2^500, all finite tolerances, both orders of the sums", "why_tests_cant": "Tests use cuboids along the axes with small integer extents, where nothing is rounded; the theorem bounds what rounding does for every orientation, in the three branches, and shows a corner lost to it.", "anchors": ["src/OpenSpaceToolkit/Mathematics/Geometry/3D/Object/Cuboid.cpp: isDefined (151-155), intersects (177-180), contains (282-317)"]}
