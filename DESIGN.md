# Formal model of kaalkuul/mathlib in Coq

## What is modelled and how

The library is a set of C++ templates over a scalar type `Real`. The model is
written once, generically, over a class of scalar *operations without laws*
(`RealOps T` in `theories/Base/Scalar.v`): arithmetic, comparisons, square
root, the libm functions, the decimal literals. It has three instances:

* the real numbers of the Coq standard library (`Base/ScalarR.v`): exact-real
  semantics. Almost all properties are proved about this instance. Decimal
  literals are exact rationals; the constant PI is the real number pi.
* IEEE-754 binary64 from Flocq (`Base/ScalarF.v`): `+ - * / sqrt`, comparisons
  and `fmod` are bit-exact (round to nearest even); the transcendental libm
  functions are an arbitrary record, so that theorems hold for every libm.
  Used for comparison-only code (boxes, min/max, clamping), for range and error
  bounds (easing, lerp, fmod, colors), for success of the spline builders, and
  for the facts that are true over the reals but false in floating point.
* IEEE-754 binary32 in the same way (`Base/ScalarF32.v`), for `Real = float`.
  Literals are double literals converted to float. `Model/Cast.v` converts
  objects between the two precisions.

Memory safety of the solvers is proved for *every* instance, that is, without
any law of arithmetic (`Proof/AnyScalar.v`, property C75).

Functions with `assert`, out-of-range or uninitialised reads, or integer
overflow return `outcome A := Ok a | AssertFail | Undef`, so that "no undefined
behaviour" is part of the theorems. Pointers to arrays are arrays of cells that
may be out of range or not yet written (`Base/Array.v`). Loops are folds with
an early exit. The matrix flag words are records of booleans, one per bit.

The simplifications are written beside each definition. The general ones:

* exact-real instance: no rounding, overflow, NaN; `float` temporaries inside a
  `Real` template (interpolation.h, frustum.h) are modelled by a rounding
  operation `f_tofloat` which is the identity in the real instance;
* `int` sizes and indices are natural numbers or integers without wrap-around
  except where overflow is the subject (functions.h, integer lerp);
* temporary arrays are values in `Model/LinearEquations.v` and `Model/Spline.v`;
  `Model/Allocation.v` has the same functions once more with every `new`,
  `delete`, read and write on a free store where any `new` may fail. The only
  exception is `std::bad_alloc`; block numbers are never used again;
* in-place member functions return the new object; aliasing of arguments with
  the destination is modelled in `Model/InPlace.v`, on a memory of scalars.

## Files

* `Base/` - outcomes, arrays, loops, scalars (two instances).
* `Model/` - the code, function by function, with file and line citations.
* `Spec/` - small independent mathematical definitions (points of a box, matrix
  product as sum, rotation, congruence of angles, convex combination...).
* `Proof/` - lemmas.
* `Props/` - the property theorems, each closed by a lemma, with a
  non-vacuity example and `Print Assumptions`.

## Plan per property

| id | model | proof |
|----|-------|-------|
| C01-C03 | TriDiagonal::solve over checked arrays | loop invariants: forward sweep keeps an upper bidiagonal system, backward sweep solves it; pivots are ratios of leading minors |
| C04 | solveCyclic | Sherman-Morrison from C01 |
| C05-C07 | GaussJordan::solve over flat checked arrays | invariant: row space/solution set preserved, processed columns are unit vectors; failure gives a kernel vector |
| C08-C12 | Hermite and Bezier segments, forward differences, length | polynomial identities, derivatives from the standard library, induction on steps |
| C13-C15 | SplineSolver3 | solver theorems + diagonal dominance + algebra at the joints |
| C16-C18 | interpolationRatio, all 29 modes | case analysis; monotonicity of pow, cos, sqrt |
| C19-C21 | lerp, clerp, clerpMaxAngle | arithmetic of truncated remainders |
| C22-C27 | functions.h | real/integer arithmetic; order laws for doubles |
| C28-C35 | Vec2, Vec3, Vec4 | algebra, trigonometry |
| C36-C41, C65 | Mat2, Mat3, Mat4 with flags | ring/field identities, Cauchy-Schwarz for the error bound, counterexamples for stale flags |
| C42-C47 | Quat | algebra and trigonometry |
| C48-C49 | Mat34, Mat4 affine part | algebra |
| C50-C54 | AABB2/3, CAABB2/3 | order reasoning generic in a total order (reals and non-NaN doubles); slab test by interval reasoning |
| C55-C56 | Circle, Sphere | Euclidean geometry |
| C57-C58 | Plane | linear algebra |
| C59 | Frustum | explicit perspective frustum |
| C60-C61 | Line, Ray, Tri2 | planar geometry |
| C62-C63 | ColorRGB/HSV/RGBA | six-sector case analysis; double counterexample |
| C64 | strided transforms over a memory of cells | induction on count |
| C66-C68 | plane and angle constructions, clerp of vectors, frenetFrameAt | trigonometry, orthonormal frames |
| C69-C71 | component access, equality, distances, random unit vectors | case analysis; the rejection loop as a sequence of draws |
| C72 | inner and outer balls of boxes | Euclidean geometry |
| C73-C74 | Line, Ray, Tri2 and color parts and arithmetic | algebra |
| C75 | solvers for any scalar operations | loop invariants on which cells are written and on index ranges |
| C76 | open splines in doubles | pivots stay between 1 and 7 after rounding |
| C77 | `cast<>()` of every type, float and double | rounding of one number, then component by component |
| C78 | methods whose arguments are parts of their object | memory of scalars, one assignment at a time; equality with the value model |
| C79 | columns written through operator[] | flags before and after optimize, for any column |
| C80 | order of operands, equality, transposes in binary numbers of any format | commutativity of rounded + and *, monotone rounding |
| C81 | dot, cross, length, distance, normalize in binary numbers of any format | standard model of rounding with an absolute term for underflow |
| C82 | matrix and quaternion products in binary numbers of any format | the same; induction on the number of factors |
| C83 | Bezier and Hermite evaluation in binary numbers of any format | rounding errors of each coefficient; exactness at the ends |
| C84 | tridiagonal solver in binary numbers of any format | pivots and multipliers stay bounded; residual, then the exact inverse is a contraction |
| C85 | open splines in binary numbers of any format | C84 for the coefficients, C86 for the exact spline |
| C86 | all three splines over R | smoothness of a chain is a tridiagonal or cyclic system with one solution |
| C87 | vectors, determinants, products of matrices, triangles, circles, spheres and centered boxes on whole numbers | every intermediate result is a whole number of the format, so nothing is rounded |
| C88 | the matchers of libs/testlib (Model/Testlib.v), for any arithmetic | part by part; sums that overflow or round are related to exact sums by monotone rounding |
| C89 | solvers and splines on a free store (Base/Heap.v, Model/Allocation.v) | step-by-step simulation of the calls on values; every other block is as before |
| C90 | the same with allocations that fail at any point | the simulation carries what holds when an exception leaves the call |
| C91 | splines whose arrays overlap | the simulation does not need the points and p3 to be different blocks; counterexamples computed in doubles |
| C92 | tests of circles, spheres, centered boxes, planes and triangles in binary numbers of any format | rounding errors of both sides of each comparison (C81); monotone rounding for boxes |
| C93 | parameters of hits in binary numbers of any format | each clamp keeps a number in range whatever the other operand is, NaN included; counterexample by overflow |
| C94 | angle constants and conversions in binary numbers of any format | bounds of pi from its alternating series; numbers near a real are on a grid, so less than half a step away is nearest; the error of the constant cancels in round trips |
| C95 | the real random helpers in binary numbers of any format, for any RAND_MAX whose integers convert with one rounding | a share of a power of two is at most half a step above it and rounds back; rounding error calculus for the rest; induction over the draws for unit vectors |
| C96 | rotations of vectors, rotation matrices and axis-angle quaternions in binary numbers of any format, for any sine and cosine off by at most k roundings of 1 | rounding error calculus against the rotation of Rodrigues; halving an angle is exact or off by less than the smallest number; a libm of that accuracy is defined by rounding the real functions; the defects of the columns are below the tolerance of optimize() |
| C97 | angle, slerp, slerpMaxAngle and orthonormalise of Mat2, Mat3, Mat4 and Mat34 | the interpolated quaternion is in the plane of both ends, so its quotient by the start is a rotation about a fixed axis; Rodrigues' formula for its action; distance of quaternions bounds the distance of images |
| C98 | all 64 static constants, their initialisers in a memory of constants, the two phases of C++ initialisation, and the functions that read them | invariant of the memory at every moment: each constant is zero or settled, and the constant expressions are settled; induction on the order |
| C99 | StringMaker and describe of libs/testlib (Model/Text.v): decimal texts of binary numbers and of objects | correct rounding to decimals in integers; an independent reader of numbers; relative spacing of binary numbers against that of decimals; separators cut a text in one way |
| C100 | determinant, inversed and invert of Mat2, Mat3 and Mat4 in binary numbers of any format | forward error of the cofactors and the determinant, relative to K^n; error of a quotient of two approximations; exact cofactor inverse over R |
| C101 | bezier_split, fwd_init, fwd_steps, bezier_length and v3_length in binary numbers of any format | forward error of the weights relative to their values; induction over tables of differences; Lipschitz bound of the norm; vm_compute for the walk that misses the end |
| C102 | gj_solve, gj_solve_vec3, gj_solve_vec2 and closedBezierSpline in binary numbers of any format | the pivot found is on the diagonal; an invariant bounds growth of the entries and the distance to the exact solution after every step; the exact closed chain is the solution of the cyclic system; vm_compute for the refused system |
| C103 | m3_of_quat, q_of_mat3, q_rotated, q_normalize, q_mul, q_inverse, q_lerp, q_slerp, m3_orthonormalise and m3_slerp in binary numbers of any format | a calculus of absolute errors for numbers near the interval [-4, 4]; in each branch of the conversion the divisor is bounded below; acos is Lipschitz away from 1, and the sines of the two parts of the arc combine to the sine of the whole |
| C104 | plane_from_point, plane_from_points, plane_from_tangents, plane_distance, plane_project, frustum_set, frustum_set_m34, frustum_set_m4, frustum_contains and the sphere tests in binary numbers of any format | the cross product of rounded edges against its exact length; the offset makes the plane pass through its point; the sign of a distance is right beyond the slack |
| C105 | v2_intersection, plane_hits_line, plane_intersects_line, plane_hits_line_radius, plane_hits_ray, plane_intersects_ray, plane_single_point, line2_distance, ray2_distance, line3_distance, ray3_distance in binary numbers of any format | errors of numerator and denominator against the exact quotient; Cramer's rule for the three planes; the rounded perpendicular of a line against its exact length |
| C106 | aabb2_intersects_ray, aabb2_intersects_line, aabb3_intersects_ray, aabb3_intersects_line, aabb2_hits_ray, aabb2_hits_line, aabb3_hits_ray, aabb3_hits_line, sphere_intersects_line, sphere_intersects_line_at, sphere_hits_line in binary numbers of any format | each slab as a pair of rounded quotients that name times in the widened slab and around the narrowed one, then one slab after the other; the rounded discriminant of the ball against the square of the exact half chord |
| C107 | aabb2/3_size, _center, _extents, _pointAt, _area, _volume, _contains, _plus, _minus, _times, _outerCircle/_outerSphere, _innerCircle/_innerSphere, caabb2/3_of_aabb, aabb2/3_of_caabb, caabb2/3_add and the same measures of centered boxes in binary numbers of any format | one axis at a time: the sum and difference of two numbers times one half, which is monotone and so between the two; the least half size by the comparisons of minorCoord; lengths without a lower bound; four cases in doubles where a containment that holds exactly fails after rounding |
| C108 | m34_apply, m34_mul, m34_transform, m34_transformPre and their Mat3 forms, m34_translate, m34_translatePre, m34_scalePre, m34_invert in binary numbers of any format | each column of the product and the translation are dot products with 3 or 4 terms; the map of the result is compared with the maps of the factors on any real point; inverses from C100 and Cramer's rule; chains by induction on the list with operator norms |
| C109 | fmodCentered, clerp, clerpMaxAngle, clerpMaxAngle_ratio and evaluate in binary numbers of any format | fmod is exact; one rounded operation at a time, monotone rounding for the order facts; curves case by case; pow and cos enter only through their monotonicity and their end values |
| C110 | toAxisAngle, Quat(axis, angle), log, exp, slerpNoInvert and Quat(from, to) in binary numbers of any format | absolute error bounds one rounded operation at a time; the direction of a vector that is off by d is off by 4 d over its length; sines and cosines are 1-Lipschitz; the exact rotation between two unit vectors is written out |
| C111 | lerp, pointAt of segments and boxes, interpolation and arithmetic of colors in binary numbers of any format | nothing of the format lies between a real and its rounding, and a factor below 1 moves a rounded difference down by at least one step, so the product is at most the exact difference; monotone rounding gives the rest |
| C112 | interpolationRatio and lerp with a mode in binary numbers of any format, with sin, cos and pow of stated accuracy | one absolute error bound per operation, carried through each mode; 2^x and cos are Lipschitz; the argument of each root is shown not negative by monotone rounding |
| C113 | Vec2 angle, setAngle, clerp and clerpMaxAngle and Mat2 angle, slerp and slerpMaxAngle in binary numbers of any format, with sin, cos and atan2 of stated accuracy | the turn of C109 moved by the errors of atan2 leads exactly from one vector to the other; sin and cos are Lipschitz; tan y >= y bounds the angle of a vector near a unit vector |
| C114 | lerp of ints, plain and with a mode, in binary numbers of any format; conversions exact up to N | rounding is monotone and fixes the ints up to N, so the rounded product stays between 0 and the difference, and truncation is monotone |

Properties that the faithful model violates are recorded as `..._refuted`
theorems with a concrete witness, beside the strongest restricted version that
holds (suffix `_partial`).

## Trusted base

* Coq 8.16.1 kernel (no kernel check switched off, no axiom, parameter, functor
  or plugin in this development).
* The axioms printed by `Print Assumptions` below each theorem. All come from the
  standard library: `ClassicalDedekindReals.sig_forall_dec`,
  `ClassicalDedekindReals.sig_not_dec`,
  `FunctionalExtensionality.functional_extensionality_dep` (the real numbers) and
  `Classical_Prop.classic` (analysis library, Flocq). `AXIOMS.md` lists them
  theorem by theorem.
* The definitions of Flocq's `BinarySingleNaN` as the meaning of IEEE-754
  doubles and floats, and that the compiler evaluates expressions with them: no
  extended precision, no contraction to fused multiply-add, round to nearest.
* The translation of C++ into `Model/`, made by reading; nothing was compiled.

### What is modelled

Every function of `libs/mathlib/include` except those below. `tools/unmodelled.py`
lists the functions no definition cites, `tools/cite.py` checks that citations
point at existing lines, `tools/uncovered.py` lists the definitions that no
property statement reaches.

### What is not modelled

* the text Catch itself writes for a margin, the sign of a NaN in a text, build
  files; that `operator<<` rounds a number to the nearest decimal, ties to even,
  is an assumption of Model/Text.v;
* default constructors that leave fields uninitialized, copy constructors and
  copying `set`, one-line `from...` wrappers around a modelled `set`;
* functions that do not compile when instantiated: the line functions of
  Circle, `Quat::set(from, via, to)` (there is no `Quat operator+`),
  `Mat4(Mat3, Vec3)` and `Mat4::set(Mat3, ...)` (declared, never defined), the
  typedef `BezierSegmentFwdDiff3` (names a class that does not exist);
* rounding in the theorems that are stated over R only (all except those named
  `_double`, `_float` or `_ieee` and C75 to C78, C80 to C85, C87 to C114);
* sizes and indices beyond `int`.

## Findings

Where the code does not do what a user would rely on. Each is a theorem about
the model with a witness.

Solvers and splines
* A singular cyclic system can be accepted (C04_singular_system_refuted).
* GaussJordan leaves a permutation matrix in `a`; the header promises the
  inverse (C07_left_in_a, C07_inverse_refuted).
* GaussJordan on a matrix of NaNs uses uninitialized pivot indices
  (C75_gaussJordan_double_partial).
* closedBezierSpline with two points is not smooth (C15_closed_two_points_refuted).
* When the second or a later allocation fails, GaussJordan, solveCyclic and the
  splines leak the blocks they already have (C90_*_refuted). solveCyclic and
  closedBezierSpline may by then have overwritten their result
  (C90_cyclic_result_refuted, C90_closedSpline_result_refuted).
* The points may be in p3 but not in p2; p3end must not refer to an element of
  p3 that is not the last (C91_*_refuted).

Scalars and interpolation
* Three easing modes use rounded constants and leave [0,1]
  (C17_rounded_modes_refuted); in doubles CubicOut and CubicInOut pass 1 and four
  polynomial modes are not monotone (C17_range_double_refuted,
  C17_monotone_double_refuted). ExponentialInOut at 1/2 breaks the mirror rule
  (C18_exponential_half_refuted).
* lerp in doubles at ratio 1 need not give the end (C19_end_double_refuted).
* clerp goes the long way when to - from < -PI (C20_long_way_refuted);
  clerpMaxAngle reports a wrong ratio (C21_reported_ratio_refuted), and NaN in
  doubles for equal angles (C21_ratio_double_refuted).
* fmodPositive in doubles can return y (C22_fmodPositive_double_refuted).
* randAmplitude and randomUnitVector never give negative components (C27,
  C71_all_directions_refuted).

Vectors, matrices, quaternions
* normalize of a tiny or of a large vector gives the null vector, because the
  squares vanish or overflow (C29_normalize_double_refuted,
  C29_normalize_float_refuted).
* Vec2(Vec3, Y) swaps the components (C32_constructor_refuted); mirrored of a
  coordinate that does not exist gives the null vector (C69_mirrored_refuted).
* slerp of vectors is wrong beyond a right angle, slerpMaxAngle for opposite
  vectors (C35_slerp_obtuse_refuted, C35_slerpMaxAngle_opposite_refuted).
* m *= m and transforms in place overwrite operands while reading them (C36).
* Stale or missing flags: Mat4 orthogonality ignores the fourth column, scalar
  constructors, coordinate rotations, transposes, products (C37, C38); Mat4
  inverse takes the transpose of a matrix that is not orthonormal
  (C39_mat4_inverse_refuted) and leaves flags uninitialized
  (C40_mat4_uninitialized_refuted).
* A null rotation axis gives a scaled identity (C41_null_axis_refuted).
* Quat * Vec3 does not rotate (C42_times_vector_refuted); rotation between
  opposite directions (C44), slerpMaxAngle (C45), division (C46), exp and log
  at small angles and at -1 (C47) are wrong.
* Mat34 slerp drops the translation, the shortcut inverse is inexact within the
  tolerance (C48); scale multiplies columns instead of rows and small rotations
  are dropped (C49).

* Casting a circle and a point inside it to float can put the point outside
  (C77_circle_refuted).
* Arguments that are parts of the object (C78_*_refuted): box += box.inf,
  box.set(box.sup, box.inf), plane.set(plane.normal, n), m.set(m.y, m.x),
  m.scale(m.x), m.rotate(m), m.transform(m), m.transform(v, v),
  curve.split(a, curve, end), m.transform(v, v) of Mat4, frustum.set(ltw,
  frustum.corners), m.set(q, m.rs.x) differ from the same calls with copies.
* Writing a column through m[c] leaves the flags as they were: until optimize()
  is called, products and inverses of the matrix are those of the old flags
  (C79_*_refuted).

Geometry
* Intersection of disjoint boxes is a box at the origin (C50); hits(ray) and
  hits(segment) miss and invent hits (C53).
* Sphere::intersects(segment) is false when the segment starts inside (C56). When
  products of coordinates overflow, a segment that misses the sphere is reported
  as a hit with parameter NaN: from about 2^34 on in floats
  (C93_sphere_line_refuted, C93_sphere_line_float_refuted).
* The constants for pi/3 and pi/6 are rounded twice: pi first, then the
  quotient. In doubles they are one step below the nearest double
  (C94_thirds_double_refuted). In floats the result is the nearest.
* A whole number of degrees converted to radians and back need not be the
  same number: 719 is one (C94_degrees_back_refuted).
* randBetween can return a number above its upper end: randBetween(0.3, 0.9) in
  doubles and randBetween(-0.2f, 0.1f) do, and rand(f) in doubles can exceed f
  (C95_range_double_refuted, C95_range_float_refuted).
* Plane::project along a direction ignores d (C57); rays and segments in the
  plane are not reported; three planes with a determinant below 1e-4 are
  reported not to meet (C58).
* A frustum from a mirroring matrix contains nothing; its sphere test has false
  positives (C59).
* Line3 and Ray3 distance is wrong for points on the line (C60); a flat triangle
  contains its whole line (C61).

Colors
* In doubles, toRGB with a tiny negative hue leaves the color unset, toHSV can
  return hue 360, the round trip is not exact (C62); HSV interpolation of hues
  more than a turn and a half apart is not the shortest (C63).
* C97: `Mat2::slerp` from 3 to -3 radians goes through the identity, although the ends are 0.28 radians apart.  `Mat3::slerpMaxAngle(One, b, PI)` does not return `b` for some rotation `b` by less than a half turn: the quaternion of `b` can have a negative `w`, its angle is then more than PI and is cut.  `Mat34::slerp` and `Mat34::slerpMaxAngle` always return a zero translation.  `Mat4::orthonormalise` clears the translation.
* C98: the constants are static members of templates, so their initialisation is not ordered with that of the user's globals.  A global `Mat3 m; m.setIdentity()` initialised first is a matrix of zeros with the flag Identity; `clerp` fails its assertion because `PI_TIMES_2` is still 0; the cosine easing is 0 before 1; `Mat4(x, y, z)` gets the last column (0, 0, 0, 0).
* C99: matrices and frustums are printed with 4 decimals, so a failed comparison of 100001 with 100002 at margin 1/2 is reported as `[[1.0000e+05,...` is within 0.5 of `[[1.0000e+05,...`.
* C100: Mat3::inversed compares the rounded determinant with 0. The singular matrix with columns (250903, 191208, 1497), (100582, 205431, 224645) and their sum has the computed determinant -2 in doubles, and its "inverse" has entries beyond 2e10.
* C101: BezierSegment3FwdDiff with step 1/3 on the curve (0,0,0), (1,3,0), (4,3,1), (5,0,7) in doubles: after three steps the point is finite but its x is not exactly 5.
* C102: solveLinearEquationsGaussJordan in doubles calls fabsf, which converts to float (impl/linearequations.h:158). The regular system with matrix ((0, 2^-160), (2^-160, 0)) is reported singular: every entry counts as zero in the search for the pivot and the last one, a zero, is chosen.
* In doubles, CAABB2 and CAABB3 add may leave the added point outside: with center 0.1, half size 1.1 and the point 1.3, contains answers false right after add. The centered form and the outer ball of the box from 0.1 to 0.2 both leave out its lower corner (C107).
* In doubles, translating 0.3 by 0.1 and back with the inverse transform gives 0.30000000000000004 (C108).
* In doubles fmodCentered(2^-60, 1) is 0 and fmodCentered(-1.5 - 2^-52, 3) is 1.5, the excluded end (C109).
* In doubles a quaternion that turns by 1/512 radians about y has axis x and angle 0, and the quaternion from x to -x keeps x (C110).
* In doubles lerp(-1, 3*2^-53, 1) is 2^-51, beyond its end, and so AABB2::pointAt(1, 1) can be outside the box; interpolating hues 0 and 360 - 2^-44 at 2^-20 gives hue 360 (C111).
* Vec2::clerpMaxAngle of a vector to itself, or to one of exactly the same angle, divides by a turn of zero and gives NaN components for every limit above 0 (C113_limit_refuted).
* In floats lerp(0, 16777219, 1) of ints is 16777220, beyond the end, and lerp(0, 2147483647, 1) converts 2^31 to int, which is undefined (C114_beyond_refuted).

## Seeded bugs

`seeded/LOG.jsonl` has one line per wrong program tried. `seeded/mutate.py`
applies a list of edits one at a time; `seeded/auto.py` draws one edit per
definition and tests several independent ones per build.

What the log does not show: `theorems_failed` names theorems whose proof
scripts no longer run on the edited model. That is weaker than the theorem
being false there. Harmless edits (claims starting with "none:") can break
scripts too. A proof that reached the time limit of 400 s, or the memory limit,
was also counted as failed, and the lines written so far do not tell these
apart. `mutate.py` now names proofs that timed out in `lemmas_timed_out`.
Many later runs admitted the proofs outside the files under test to save time,
so they can miss a failure in a lemma of another file. One such survivor, the
edit of `v2_length` against C113, was not rechecked on a full build.
