{"id": "C01", "title": "Tridiagonal solve returns a solution", "statement": "If TriDiagonal::solve returns true, the vector written to u satisfies M.u = r for the tridiagonal matrix M with lower diagonal a, diagonal b, upper diagonal c. The call reads and writes only inside arrays of the documented sizes and never reads an unwritten cell.", "quantifier": "every size n>0, all coefficient arrays and right-hand sides, including u aliasing r", "why_tests_cant": "the elimination is a data dependent recurrence of arbitrary length; a finite set of systems says nothing about other sizes", "anchors": ["libs/mathlib/include/impl/linearequations.h:TriDiagonal::solve", "libs/mathlib/include/linearequations.h"]}
{"id": "C02", "title": "Tridiagonal solve fails exactly on a zero leading minor", "statement": "TriDiagonal::solve returns false exactly when some leading principal minor of M is zero; in particular it returns true for every strictly diagonally dominant matrix.", "quantifier": "every size n>0 and every coefficient array", "why_tests_cant": "the set of matrices with a vanishing minor is a measure-zero surface that random tests miss, and n is unbounded", "anchors": ["libs/mathlib/include/impl/linearequations.h:TriDiagonal::solve"]}
{"id": "C03", "title": "Vec3 tridiagonal solve agrees with three scalar solves", "statement": "The Vec3 overload of TriDiagonal::solve returns true in the same cases as the scalar one and each coordinate of its result solves the scalar system for that coordinate.", "quantifier": "every n>0, all coefficients, all Vec3 right-hand sides", "why_tests_cant": "unbounded size and values", "anchors": ["libs/mathlib/include/impl/linearequations.h:TriDiagonal::solve(Vec3)"]}
{"id": "C04", "title": "Cyclic tridiagonal solve", "statement": "For n>2, if solveCyclic returns true and the cyclic matrix (corners alpha at bottom-left, beta at top-right) is non singular, the result x satisfies M.x = r; n<=2 is refused.", "quantifier": "every n, all coefficient arrays, corners and right-hand sides", "why_tests_cant": "Sherman-Morrison correction: correctness depends on an identity that must hold for all sizes and values", "anchors": ["libs/mathlib/include/impl/linearequations.h:TriDiagonal::solveCyclic"]}
{"id": "C05", "title": "Gauss-Jordan returns the solution of every right-hand side", "statement": "If GaussJordan::solve(a,n,b,m) returns true then the new b satisfies A.b' = b for the original A and b, for all m columns; all memory accesses are inside a (n*n), b (n*m) and the index arrays and no unwritten cell is read.", "quantifier": "every n, m, matrix and right-hand side", "why_tests_cant": "pivot choice, row swaps and elimination order depend on the data; only an invariant over the elimination covers all matrices", "anchors": ["libs/mathlib/include/impl/linearequations.h:GaussJordan::solve"]}
{"id": "C06", "title": "Gauss-Jordan returns false exactly for singular matrices", "statement": "GaussJordan::solve returns false if and only if A is singular (some non-zero vector is mapped to zero).", "quantifier": "every n and every matrix", "why_tests_cant": "singular matrices are a measure-zero set and n is unbounded", "anchors": ["libs/mathlib/include/impl/linearequations.h:GaussJordan::solve"]}
{"id": "C07", "title": "Gauss-Jordan and the matrix inverse", "statement": "The header promises that a is replaced by its inverse on success. What really is left in a must be known for every input: the code leaves the identity matrix with columns permuted, never the inverse of a non-trivial matrix.", "quantifier": "every n and every non singular matrix", "why_tests_cant": "a claim on all inputs; tests only look at b", "anchors": ["libs/mathlib/include/linearequations.h:GaussJordan", "libs/mathlib/include/impl/linearequations.h:GaussJordan::solve"]}
{"id": "C08", "title": "Hermite segment interpolates its ends and its tangent is the derivative", "statement": "pointAt(0), pointAt(1) are the end points, tangentAt(0), tangentAt(1) the end tangents, and for every t in [0,1] tangentAt(t) is the derivative of pointAt at t; parameters outside [0,1] hit the assertion.", "quantifier": "all segments and all t", "why_tests_cant": "continuum of parameters; derivative is a limit statement", "anchors": ["libs/mathlib/include/impl/spline3.h:HermiteSegment3::pointAt", "libs/mathlib/include/impl/spline3.h:HermiteSegment3::tangentAt"]}
{"id": "C09", "title": "Bezier segment: ends, derivative, convex hull", "statement": "Bezier pointAt passes through start and end, tangentAt is the derivative of pointAt, and every pointAt(t) is a convex combination of the four control points.", "quantifier": "all control points and all t in [0,1]", "why_tests_cant": "continuum of parameters and control points", "anchors": ["libs/mathlib/include/impl/spline3.h:BezierSegment3::pointAt", "libs/mathlib/include/impl/spline3.h:BezierSegment3::tangentAt"]}
{"id": "C10", "title": "Bezier split keeps the curve", "statement": "split(t,left,right) gives two segments that trace exactly the original curve: left.pointAt(s) = pointAt(t*s), right.pointAt(s) = pointAt(t+s*(1-t)).", "quantifier": "all control points, split parameters and s", "why_tests_cant": "continuum; polynomial identity over all values", "anchors": ["libs/mathlib/include/impl/spline3.h:BezierSegment3::split"]}
{"id": "C11", "title": "Forward differences follow the curve", "statement": "After k increments of the forward-difference evaluator built with n steps, the reported point equals pointAt(k/n) and the reported tangent equals tangentAt(k/n).", "quantifier": "all segments, all step counts n>0, all k", "why_tests_cant": "unbounded number of steps; needs induction", "anchors": ["libs/mathlib/include/impl/spline3.h:BezierSegment3FwdDiff"]}
{"id": "C12", "title": "Bezier length is the polyline length and is bounded", "statement": "length(n) is the length of the polyline through pointAt(k/n); it is at least the chord |end-start| and at most the length of the control polygon.", "quantifier": "all segments and all n>0", "why_tests_cant": "unbounded n, all control points", "anchors": ["libs/mathlib/include/impl/spline3.h:BezierSegment3::length"]}
{"id": "C13", "title": "Natural Bezier spline", "statement": "naturalBezierSpline always succeeds for n>=2 points and produces n-1 segments that interpolate the points, join with equal first and second derivatives and have zero second derivative at both ends.", "quantifier": "every number of points and all positions", "why_tests_cant": "unbounded n; relies on solving a linear system for every n", "anchors": ["libs/mathlib/include/impl/spline3.h:SplineSolver3::naturalBezierSpline"]}
{"id": "C14", "title": "Clamped Bezier spline", "statement": "bezierSpline always succeeds and produces segments that interpolate the points, join with equal first and second derivatives and have the requested end tangents.", "quantifier": "every number of points, positions and end tangents", "why_tests_cant": "unbounded n", "anchors": ["libs/mathlib/include/impl/spline3.h:SplineSolver3::bezierSpline"]}
{"id": "C15", "title": "Closed Bezier spline", "statement": "closedBezierSpline succeeds and produces a closed chain of segments through the points, with equal first and second derivatives at every joint including the closing one.", "quantifier": "every number of points n>=2 and all positions", "why_tests_cant": "unbounded n; the matrix shape depends on n", "anchors": ["libs/mathlib/include/impl/spline3.h:SplineSolver3::closedBezierSpline"]}
{"id": "C16", "title": "interpolationRatio saturates", "statement": "interpolationRatio returns exactly 0 for t<=0 and exactly 1 for t>=1 in every mode.", "quantifier": "all modes and all t, real or IEEE double", "why_tests_cant": "all values of the scalar type", "anchors": ["libs/mathlib/include/interpolation.h:interpolationRatio"]}
{"id": "C17", "title": "interpolationRatio is a monotone map into [0,1]", "statement": "For every mode the ratio stays in [0,1] and never decreases when t increases.", "quantifier": "all modes and all pairs t1<=t2", "why_tests_cant": "continuum; includes branch joins and approximate constants that only misbehave on tiny intervals", "anchors": ["libs/mathlib/include/interpolation.h:interpolationRatio"]}
{"id": "C18", "title": "In and Out easing modes mirror each other", "statement": "For each family, Out(t) = 1 - In(1-t) and InOut(t) = In(2t)/2 for t<1/2 and 1 - In(2-2t)/2 for t>=1/2.", "quantifier": "all families and all t", "why_tests_cant": "continuum of values", "anchors": ["libs/mathlib/include/interpolation.h:interpolationRatio"]}
{"id": "C19", "title": "lerp ends and range", "statement": "lerp(from,to,0)=from, lerp(from,to,1)=to, lerp is monotone in ratio and stays between the ends for ratio in [0,1]; the int version stays between the ends, with no overflow when to-from fits an int.", "quantifier": "all ends and ratios", "why_tests_cant": "continuum; overflow depends on extreme values", "anchors": ["libs/mathlib/include/interpolation.h:lerp"]}
{"id": "C20", "title": "Circular interpolation takes the shortest arc", "statement": "clerp(from,to,0) = from, clerp(from,to,1) is congruent to `to` modulo 2*PI, and the travelled arc is at most PI.", "quantifier": "all angles", "why_tests_cant": "depends on the sign of the remainder, all real angles", "anchors": ["libs/mathlib/include/interpolation.h:clerp"]}
{"id": "C21", "title": "clerpMaxAngle never turns more than maxAngle", "statement": "The angle returned by clerpMaxAngle differs from `from` by at most maxAngle, and reaches an angle congruent to `to` when the arc is within maxAngle.", "quantifier": "all angles and maxAngle>=0", "why_tests_cant": "all real angles", "anchors": ["libs/mathlib/include/interpolation.h:clerpMaxAngle"]}
{"id": "C22", "title": "fmodPositive and fmodCentered ranges", "statement": "fmodPositive(x,y) is in [0,y) and congruent to x modulo y; fmodCentered(x,y) is in [-y/2,y/2) and congruent to x.", "quantifier": "all x and all y>0", "why_tests_cant": "all real or floating values, including tiny negative ones", "anchors": ["libs/mathlib/include/functions.h:fmodPositive", "libs/mathlib/include/functions.h:fmodCentered"]}
{"id": "C23", "title": "min, max and clippedBetween", "statement": "min and max return the smaller and larger argument; clippedBetween(v,a,b) with a<=b is in [a,b], equals v when v is in [a,b] and is the nearest point otherwise. Holds for every non-NaN double.", "quantifier": "all ordered values", "why_tests_cant": "all values of the type", "anchors": ["libs/mathlib/include/functions.h:min", "libs/mathlib/include/functions.h:max", "libs/mathlib/include/functions.h:clippedBetween"]}
{"id": "C24", "title": "Response curves", "statement": "evaluate is 0 inside the dead zone, odd in its argument, maps [-1,1] into [-1,1], is non decreasing, and maps 1 to 1 (except curve Zero).", "quantifier": "all curves, thresholds in [0,1) and values", "why_tests_cant": "continuum of thresholds and values", "anchors": ["libs/mathlib/include/functions.h:evaluate"]}
{"id": "C25", "title": "Degree and radian conversions are inverse", "statement": "degreeToRadian and radianToDegree are inverse of each other and 180 degrees is PI.", "quantifier": "all real angles", "why_tests_cant": "continuum", "anchors": ["libs/mathlib/include/functions.h:degreeToRadian", "libs/mathlib/include/functions.h:radianToDegree"]}
{"id": "C26", "title": "Clamped asin and acos", "statement": "asin and acos of the library are total: they clamp the argument to [-1,1], agree with the mathematical functions there and return values in [-PI/2,PI/2] and [0,PI].", "quantifier": "all real arguments", "why_tests_cant": "continuum", "anchors": ["libs/mathlib/include/functions.h:asin", "libs/mathlib/include/functions.h:acos"]}
{"id": "C27", "title": "Random helpers stay in range", "statement": "For every value that rand() may return, rand(n) is in [0,n), randBetween(a,b) in [a,b), randAmplitude(n) in [-n,n) without integer overflow for positive arguments; the Real versions stay in the closed ranges.", "quantifier": "every output of the generator and all bounds", "why_tests_cant": "nondeterministic source, tests see a few draws", "anchors": ["libs/mathlib/include/functions.h:rand", "libs/mathlib/include/functions.h:randBetween", "libs/mathlib/include/functions.h:randAmplitude"]}
{"id": "C28", "title": "Vector product laws", "statement": "For Vec2 and Vec3: the dot product is symmetric and bilinear, the cross product is orthogonal to both factors, antisymmetric, and |u%v|^2 + (u*v)^2 = |u|^2 |v|^2; length satisfies the triangle and Cauchy-Schwarz inequalities.", "quantifier": "all vectors", "why_tests_cant": "continuum of values", "anchors": ["libs/mathlib/include/impl/vec2.h:operator%", "libs/mathlib/include/impl/vec3.h:operator%", "libs/mathlib/include/impl/vec3.h:operator*"]}
{"id": "C29", "title": "normalize", "statement": "normalize(k) returns the former length, and afterwards the vector has length |k| and the same direction (times sign of k), except that the null vector stays null; normalized agrees with normalize.", "quantifier": "all vectors and all k", "why_tests_cant": "continuum plus the null special case", "anchors": ["libs/mathlib/include/impl/vec2.h:normalize", "libs/mathlib/include/impl/vec3.h:normalize", "libs/mathlib/include/impl/vec3.h:normalized"]}
{"id": "C30", "title": "Vector rotations", "statement": "rotate/rotated in 2D and around a coordinate axis in 3D preserve lengths and dot products, compose by adding angles and are undone by the opposite angle; rotate90/180/270 are the rotations by those angles; in place and copying versions agree.", "quantifier": "all vectors, angles and axes", "why_tests_cant": "continuum", "anchors": ["libs/mathlib/include/impl/vec2.h:rotate", "libs/mathlib/include/impl/vec3.h:rotate", "libs/mathlib/include/impl/vec3.h:rotated"]}
{"id": "C31", "title": "Cross product with a named axis", "statement": "u % axis equals the cross product of u with the unit vector of that Coord or signed Axis; an undefined axis hits the assertion.", "quantifier": "all vectors and all axis values", "why_tests_cant": "continuum of vectors", "anchors": ["libs/mathlib/include/impl/vec3.h:operator%(Coord)", "libs/mathlib/include/impl/vec3.h:operator%(Axis)"]}
{"id": "C32", "title": "Embedding a Vec2 in 3D and back", "statement": "For every coordinate plane, converting a Vec2 to Vec3 and dropping the same coordinate gives the Vec2 back.", "quantifier": "all vectors and coordinates", "why_tests_cant": "all values; two API routes exist (toVec2 and the Vec2 constructor)", "anchors": ["libs/mathlib/include/impl/vec3.h:Vec3(Vec2,Coord)", "libs/mathlib/include/impl/vec3.h:toVec2", "libs/mathlib/include/impl/vec2.h:Vec2(Vec3,Coord)"]}
{"id": "C33", "title": "majorCoord and minorCoord", "statement": "The coordinate returned by majorCoord (minorCoord) has an absolute value at least (at most) that of every other coordinate.", "quantifier": "all vectors, including ties and all non-NaN doubles", "why_tests_cant": "all values and tie patterns", "anchors": ["libs/mathlib/include/impl/vec2.h:majorCoord", "libs/mathlib/include/impl/vec3.h:majorCoord", "libs/mathlib/include/impl/vec3.h:minorCoord"]}
{"id": "C34", "title": "2D line intersection", "statement": "intersection returns 1 exactly when the two directions are not parallel, and then ftp and abp are the unique parameters of the common point of both lines.", "quantifier": "all four points", "why_tests_cant": "continuum; parallel case is measure zero", "anchors": ["libs/mathlib/include/impl/vec2.h:intersection"]}
{"id": "C35", "title": "Vec3 slerp", "statement": "slerp returns u at ratio 0 and v at ratio 1, interpolates the length linearly on the spherical branch and turns u towards v by ratio times the angle between them.", "quantifier": "all vectors and ratios in [0,1]", "why_tests_cant": "continuum; the angle is recovered from a sine", "anchors": ["libs/mathlib/include/impl/vec3.h:slerp"]}
{"id": "C36", "title": "Matrix product is composition", "statement": "For Mat2, Mat3, Mat4, (A*B)*v = A*(B*v) and A*B is the row-by-column product, for every pair of matrices whose identity flag is truthful.", "quantifier": "all matrices and vectors with any flag state that is truthful", "why_tests_cant": "flags create hidden state; continuum of values", "anchors": ["libs/mathlib/include/impl/mat2.h:multiply", "libs/mathlib/include/impl/mat3.h:multiply", "libs/mathlib/include/impl/mat4.h:multiply"]}
{"id": "C37", "title": "Matrix flags describe the matrix", "statement": "After construction, set or optimize, isNormal, isOrthogonal and isIdentity are true exactly when the corresponding squared error is within tolerance, and using the identity shortcut in a product changes the result by a relative error of at most sqrt(0.001) in Frobenius norm.", "quantifier": "all matrices", "why_tests_cant": "continuum around the tolerance threshold", "anchors": ["libs/mathlib/include/impl/mat2.h:optimize", "libs/mathlib/include/impl/mat3.h:optimize", "libs/mathlib/include/impl/mat4.h:optimize"]}
{"id": "C38", "title": "Flags stay truthful under every matrix operation", "statement": "After any sequence of operations the cached flags of a matrix are those that optimize would compute from its entries; in particular rotate, rotated, rotatePre, transpose leave truthful flags.", "quantifier": "all histories of operations", "why_tests_cant": "hidden state after arbitrary histories", "anchors": ["libs/mathlib/include/impl/mat3.h:rotate", "libs/mathlib/include/impl/mat2.h:transpose", "libs/mathlib/include/impl/mat4.h:transpose"]}
{"id": "C39", "title": "Determinant and inverse", "statement": "determinant is multiplicative and invariant by transposition; inversed() returns a two sided inverse when the determinant is not zero and the null matrix otherwise.", "quantifier": "all matrices of size 2, 3, 4", "why_tests_cant": "polynomial identities over 4, 9, 16 reals", "anchors": ["libs/mathlib/include/impl/mat2.h:inversed", "libs/mathlib/include/impl/mat3.h:inversed", "libs/mathlib/include/impl/mat4.h:inversed", "libs/mathlib/include/impl/mat4.h:determinant"]}
{"id": "C40", "title": "In-place inverse with the orthonormal shortcut", "statement": "invert() gives the same matrix as inversed() whenever the flags are exact, and leaves a usable (initialized) matrix.", "quantifier": "all matrices and flag states", "why_tests_cant": "flag dependent branches", "anchors": ["libs/mathlib/include/impl/mat3.h:invert", "libs/mathlib/include/impl/mat4.h:invert", "libs/mathlib/include/impl/mat34.h:invert"]}
{"id": "C41", "title": "Rotation matrices", "statement": "The matrix set from an axis and an angle, from a coordinate axis and angle or from a unit quaternion is orthonormal with determinant 1, fixes the axis and follows Rodrigues' formula.", "quantifier": "all axes and angles", "why_tests_cant": "continuum", "anchors": ["libs/mathlib/include/impl/mat3.h:set(Vec3,Real)", "libs/mathlib/include/impl/mat3.h:set(Quat)", "libs/mathlib/include/impl/mat3.h:set(Coord,Real)"]}
{"id": "C42", "title": "Quaternion product", "statement": "The quaternion product is associative, multiplicative on norms, inverse() undoes unit quaternions, and the matrix of a product is the product of the matrices; q*v rotates v as the matrix does.", "quantifier": "all quaternions and vectors", "why_tests_cant": "polynomial identities over the reals", "anchors": ["libs/mathlib/include/impl/quat.h:operator*", "libs/mathlib/include/impl/quat.h:inverse", "libs/mathlib/include/impl/mat3.h:set(Quat)"]}
{"id": "C43", "title": "Matrix to quaternion and back", "statement": "For every rotation matrix M, converting M to a quaternion and back gives M, whichever branch of the conversion is taken.", "quantifier": "all rotation matrices", "why_tests_cant": "four data dependent branches, continuum", "anchors": ["libs/mathlib/include/impl/quat.h:set(Mat3)", "libs/mathlib/include/impl/mat3.h:set(Quat)"]}
{"id": "C44", "title": "Quaternion between two directions", "statement": "set(from,to) is a unit quaternion that rotates the direction of from onto the direction of to.", "quantifier": "all pairs of non null vectors", "why_tests_cant": "continuum; antiparallel vectors are measure zero", "anchors": ["libs/mathlib/include/impl/quat.h:set(Vec3,Vec3)"]}
{"id": "C45", "title": "Quaternion slerp", "statement": "slerp of unit quaternions is a unit quaternion, equals the ends at 0 and 1 (up to sign) and turns by weight times the full angle.", "quantifier": "all unit quaternions and weights in [0,1]", "why_tests_cant": "continuum and branch thresholds", "anchors": ["libs/mathlib/include/impl/quat.h:slerp", "libs/mathlib/include/impl/quat.h:lerp", "libs/mathlib/include/impl/quat.h:slerpMaxAngle"]}
{"id": "C46", "title": "Quaternion division", "statement": "a/b multiplied by b gives a, for every invertible b.", "quantifier": "all quaternions", "why_tests_cant": "continuum", "anchors": ["libs/mathlib/include/impl/quat.h:operator/"]}
{"id": "C47", "title": "Axis-angle and log/exp round trips", "statement": "Converting a unit quaternion to axis and angle and back gives the same rotation; exp(log(q)) = q.", "quantifier": "all unit quaternions", "why_tests_cant": "continuum, thresholds near the identity", "anchors": ["libs/mathlib/include/impl/quat.h:toAxisAngle", "libs/mathlib/include/impl/quat.h:log", "libs/mathlib/include/impl/quat.h:exp"]}
{"id": "C48", "title": "Mat34 transforms compose and invert", "statement": "For Mat34, (A*B)*p = A*(B*p), transformPre and transform compose on the announced side, and the inverse undoes the transform when the linear part is invertible.", "quantifier": "all affine transforms and points", "why_tests_cant": "continuum plus flags", "anchors": ["libs/mathlib/include/impl/mat34.h:multiply", "libs/mathlib/include/impl/mat34.h:transform", "libs/mathlib/include/impl/mat34.h:invert"]}
{"id": "C49", "title": "Scale and translate on affine matrices", "statement": "translate/scale/rotate apply after the existing transform and their Pre variants before it: m.scale(k) maps p to k*(m*p), m.scalePre(k) maps p to m*(k*p).", "quantifier": "all affine matrices, factors and points", "why_tests_cant": "continuum; wrong only for non diagonal linear parts", "anchors": ["libs/mathlib/include/impl/mat4.h:scale", "libs/mathlib/include/impl/mat4.h:scalePre", "libs/mathlib/include/impl/mat4.h:translate", "libs/mathlib/include/impl/mat34.h:scale"]}
{"id": "C50", "title": "Box of points and box algebra", "statement": "A box built from points contains exactly the points between the componentwise minimum and maximum, is the smallest such box; add and union contain both operands and are minimal; intersection contains exactly the common points; holds for all non-NaN doubles as well as reals.", "quantifier": "all boxes, all point lists of any length", "why_tests_cant": "unbounded lists, all values", "anchors": ["libs/mathlib/include/impl/aabb2.h:add", "libs/mathlib/include/impl/aabb3.h:fromIntersection", "libs/mathlib/include/impl/aabb3.h:fromUnion"]}
{"id": "C51", "title": "Box containment and overlap", "statement": "contains(point), contains(box), intersects(box) decide exactly membership, inclusion and non-empty intersection of the closed boxes; contains(sphere) decides inclusion.", "quantifier": "all boxes", "why_tests_cant": "all values", "anchors": ["libs/mathlib/include/impl/aabb2.h:contains", "libs/mathlib/include/impl/aabb3.h:intersects"]}
{"id": "C52", "title": "Ray and segment against box", "statement": "intersects(ray) and intersects(line) return true exactly when the ray or segment meets the box, and the reported parameters bound exactly the part inside.", "quantifier": "all rays, segments and boxes", "why_tests_cant": "slab test with many sign and zero cases", "anchors": ["libs/mathlib/include/impl/aabb2.h:intersects", "libs/mathlib/include/impl/aabb3.h:intersects"]}
{"id": "C53", "title": "First hit of a ray or segment on a box", "statement": "hits(ray/line) returns true exactly when the ray or segment started outside meets the box and then reports the entry point.", "quantifier": "all rays, segments and boxes", "why_tests_cant": "many sign and zero cases, continuum", "anchors": ["libs/mathlib/include/impl/aabb2.h:hits", "libs/mathlib/include/impl/aabb3.h:hits"]}
{"id": "C54", "title": "Centered boxes agree with corner boxes", "statement": "CAABB queries (inf, sup, contains, intersects, add, area or volume) agree with the AABB of the same corners.", "quantifier": "all boxes with non negative extents and all points", "why_tests_cant": "continuum", "anchors": ["libs/mathlib/include/impl/caabb2.h", "libs/mathlib/include/impl/caabb3.h"]}
{"id": "C55", "title": "Sphere and circle containment", "statement": "contains(point) and intersects(sphere) decide exactly membership and overlap of closed balls; contains(sphere) decides inclusion; the sphere built from points contains all of them.", "quantifier": "all spheres and lists of points of any length", "why_tests_cant": "continuum and unbounded lists", "anchors": ["libs/mathlib/include/impl/sphere.h:contains", "libs/mathlib/include/impl/sphere.h:intersects", "libs/mathlib/include/impl/circle.h:contains"]}
{"id": "C56", "title": "Segment against sphere", "statement": "intersects(line) on a sphere returns true exactly when the segment meets the sphere, and the reported point lies on the sphere and on the segment.", "quantifier": "all segments and spheres", "why_tests_cant": "continuum, degenerate cases", "anchors": ["libs/mathlib/include/impl/sphere.h:intersects(Line3)"]}
{"id": "C57", "title": "Plane construction, distance and projection", "statement": "A plane built from point and normal or from three points contains them; distance is the signed distance, the projected point is on the plane and is the nearest point of the plane; flip negates distances; move shifts them.", "quantifier": "all planes and points", "why_tests_cant": "continuum", "anchors": ["libs/mathlib/include/impl/plane.h:from", "libs/mathlib/include/impl/plane.h:distance", "libs/mathlib/include/impl/plane.h:project"]}
{"id": "C58", "title": "Plane intersections", "statement": "For rays, segments and spheres, intersects decides exactly whether the object meets the plane and the reported point is on both; three planes with a non degenerate determinant meet at the reported point.", "quantifier": "all planes, rays, segments, spheres", "why_tests_cant": "continuum and parallel cases", "anchors": ["libs/mathlib/include/impl/plane.h:intersects", "libs/mathlib/include/impl/plane.h:hits", "libs/mathlib/include/impl/plane.h:intersectAtSinglePoint"]}
{"id": "C59", "title": "Frustum culling", "statement": "contains(point) holds exactly for the points of the truncated pyramid; intersects(sphere) never reports false for a sphere that meets it.", "quantifier": "all frustums with perspective corners and all points and spheres", "why_tests_cant": "continuum", "anchors": ["libs/mathlib/include/impl/frustum.h:contains", "libs/mathlib/include/impl/frustum.h:intersects", "libs/mathlib/include/impl/frustum.h:computePlanes"]}
{"id": "C60", "title": "Distance to a line or ray", "statement": "distance(point) is the distance to the infinite line (or ray line), for every point, and is 0 for points on it.", "quantifier": "all lines and points", "why_tests_cant": "points on the line are measure zero", "anchors": ["libs/mathlib/include/impl/line2.h:distance", "libs/mathlib/include/impl/line3.h:distance", "libs/mathlib/include/impl/ray3.h:distance"]}
{"id": "C61", "title": "Point in triangle", "statement": "Tri2::contains holds exactly for convex combinations of the corners, whatever the orientation.", "quantifier": "all triangles and points", "why_tests_cant": "degenerate triangles and boundary points are measure zero", "anchors": ["libs/mathlib/include/impl/tri2.h:contains"]}
{"id": "C62", "title": "RGB and HSV conversions", "statement": "Converting an RGB color in the unit cube to HSV and back gives the same color, every HSV color with s,v in [0,1] gives an RGB color in the unit cube, and the conversion never reads an unset color.", "quantifier": "all colors, reals and doubles", "why_tests_cant": "continuum with six sectors; rounding at sector ends", "anchors": ["libs/mathlib/include/impl/colorhsv.h:toRGB", "libs/mathlib/include/impl/colorrgb.h:toHSV"]}
{"id": "C63", "title": "Color interpolation", "statement": "Interpolating colors gives the ends at 0 and 1, stays within component bounds, and HSV hue takes the shortest way round.", "quantifier": "all colors and ratios", "why_tests_cant": "continuum", "anchors": ["libs/mathlib/include/impl/colorhsv.h:interp", "libs/mathlib/include/impl/colorrgb.h:interp", "libs/mathlib/include/impl/colorrgba.h:interp"]}
{"id": "C64", "title": "Array transforms", "statement": "transform(dest,src,count[,strides]) writes exactly count vectors, dest[i] = m*src[i], and leaves every other location unchanged when source and destination do not overlap.", "quantifier": "all counts, strides and memory contents", "why_tests_cant": "unbounded counts, aliasing patterns", "anchors": ["libs/mathlib/include/impl/mat2.h:transform", "libs/mathlib/include/impl/mat3.h:transform", "libs/mathlib/include/impl/mat4.h:transform", "libs/mathlib/include/impl/mat34.h:transform"]}
{"id": "C65", "title": "Transposed row-vector product", "statement": "v*M (row vector) equals the transpose of M applied to v, and transposing twice is the identity.", "quantifier": "all vectors and matrices", "why_tests_cant": "continuum", "anchors": ["libs/mathlib/include/impl/vec3.h:operator*(Mat3)", "libs/mathlib/include/impl/mat3.h:transposed"]}
{"id": "C66", "title": "Polar coordinates of plane vectors", "statement": "angle() is in (-PI,PI], setAngle(u.angle(),u.length()) gives u back, and setAngle(a,l) with l>0 has length l and an angle congruent to a modulo 2*PI.", "quantifier": "all vectors, angles and lengths", "why_tests_cant": "continuum and four quadrants with boundary axes", "anchors": ["libs/mathlib/include/impl/vec2.h:angle", "libs/mathlib/include/impl/vec2.h:setAngle"]}
{"id": "C67", "title": "Circular interpolation of plane vectors", "statement": "Vec2::clerp asserts its ratio is in [0,1], returns u at 0 and v at 1, interpolates the length linearly and turns by ratio times the shortest arc; Vec2::clerpMaxAngle keeps the length between those of u and v.", "quantifier": "all vectors, ratios and maximal angles", "why_tests_cant": "continuum of angles and lengths", "anchors": ["libs/mathlib/include/impl/vec2.h:clerp", "libs/mathlib/include/impl/vec2.h:clerpMaxAngle"]}
{"id": "C69", "title": "Component access and equality", "statement": "Reading, setting, moving or mirroring one named component affects that component only; product, min and max act component by component; == holds exactly when all components (entries) are equal and != is its negation; m[c] is the column named by c; data() lists the entries column by column.", "quantifier": "all vectors, matrices, quaternions, coordinates and values", "why_tests_cant": "every coordinate of every type over a continuum of values", "anchors": ["libs/mathlib/include/impl/vec2.h:operator()", "libs/mathlib/include/impl/vec3.h:moved", "libs/mathlib/include/impl/vec4.h:moved", "libs/mathlib/include/functions.h:next3D"]}
{"id": "C70", "title": "distance is a metric", "statement": "distance is the Euclidean distance: non-negative, zero only between equal points, symmetric and subject to the triangle inequality; distanceSqr is its square.", "quantifier": "all points of the plane and of space", "why_tests_cant": "continuum", "anchors": ["libs/mathlib/include/functions.h:distance", "libs/mathlib/include/functions.h:distanceSqr"]}
{"id": "C71", "title": "Random unit vectors", "statement": "Vec2::randomUnitVector and Vec3::randomUnitVector return a vector of length one, whatever the random numbers drawn, and can be of any direction.", "quantifier": "all sequences of values of rand()", "why_tests_cant": "depends on the whole sequence of random values", "anchors": ["libs/mathlib/include/impl/vec3.h:randomUnitVector"]}
{"id": "C68", "title": "Frenet frame of a Bezier segment", "statement": "frenetFrameAt answers false and leaves the frame unchanged where velocity and acceleration are parallel (or null); elsewhere it answers true with the right-handed orthonormal basis (binormal, tangent, normal) of the curve at t. A parameter outside [0,1] is caught by the assertion.", "quantifier": "all control points, parameters and previous contents of the frame", "why_tests_cant": "continuum of curves and parameters, degenerate points included", "anchors": ["libs/mathlib/include/impl/spline3.h:frenetFrameAt"]}
{"id": "C72", "title": "Inner and outer balls of a box", "statement": "innerCircle/innerSphere of a box is centered in the box, included in it and as large as any ball in the box; outerCircle/outerSphere includes the box and is as small as any ball that does.", "quantifier": "every non-empty box, every competing ball", "why_tests_cant": "Optimality is a claim about every ball, and inclusion about every point.", "anchors": ["libs/mathlib/include/impl/aabb2.h: innerCircle, outerCircle", "libs/mathlib/include/impl/aabb3.h: innerSphere, outerSphere", "libs/mathlib/include/impl/caabb3.h: innerSphere, outerSphere"]}
{"id": "C73", "title": "Lines, rays and triangles keep their parts", "statement": "A line, ray or triangle gives back the points it was made from; the direction of a ray made from a non zero vector is that vector normalized; pointAt runs along the line from start to end, or along the ray at the given distance; length is the distance of the ends; == and != compare all fields.", "quantifier": "all lines, rays, triangles and parameters", "why_tests_cant": "continuum", "anchors": ["libs/mathlib/include/impl/line3.h:pointAt", "libs/mathlib/include/impl/ray3.h:from", "libs/mathlib/include/impl/tri2.h:operator=="]}
{"id": "C74", "title": "Color arithmetic and constants", "statement": "Adding, subtracting, negating, scaling and dividing colors work on each component, keep alpha, and dividing by zero is reported by an assertion; == and != compare all components; the named constants are the same colors in RGB, RGBA and HSV; colors from bytes and random colors are in range.", "quantifier": "all colors, factors, bytes and random numbers", "why_tests_cant": "continuum", "anchors": ["libs/mathlib/include/impl/colorrgb.h:operator+", "libs/mathlib/include/impl/colorrgba.h:operator/=", "libs/mathlib/include/impl/colorhsv.h:random"]}
{"id": "C75", "title": "Solvers stay inside their arrays", "statement": "For arrays of the documented sizes the tridiagonal, cyclic and Gauss-Jordan solvers and the closed spline builder never fail an assertion, never access an array out of bounds and never read a cell that was not written, whatever the numbers are, including NaN and infinities. They leave what lies beyond the result alone, and when they report success all of the result has been written.", "quantifier": "all sizes, all doubles in all arrays, right-hand side in its own array or in the result array", "why_tests_cant": "Pivoting depends on the values, so every access pattern and every NaN placement has to be covered.", "anchors": ["libs/mathlib/include/impl/linearequations.h:TriDiagonal::solve", "libs/mathlib/include/impl/linearequations.h:TriDiagonal::solveCyclic", "libs/mathlib/include/impl/linearequations.h:GaussJordan::solve", "libs/mathlib/include/impl/spline3.h:closedBezierSpline"]}
{"id": "C76", "title": "Open splines always succeed in doubles", "statement": "naturalBezierSpline and bezierSpline return true and write all control points for any two or more points in double precision, including points with NaN or infinite coordinates.", "quantifier": "all numbers of points, all points of doubles", "why_tests_cant": "Success depends on rounded pivots of a system of any size never becoming zero.", "anchors": ["libs/mathlib/include/impl/spline3.h:naturalBezierSpline", "libs/mathlib/include/impl/spline3.h:bezierSpline"]}
{"id": "C77", "title": "Casts between float and double", "statement": "cast<float>() and cast<double>() convert every component in its place. To float no other float is nearer to a component; to double the number is unchanged, so float to double and back gives the same object. Casting a valid circle or sphere fails no assertion. After casting to float a point or box inside a box stays inside and boxes that meet still meet; casting to double changes no answer of box tests or ==. Cast matrices have their cached flags computed anew, cast rays have unit directions, and all corners and planes of a frustum are converted. The same for points inside circles and spheres.", "quantifier": "all objects of all types, all floats and doubles including NaN and infinities where not excluded", "why_tests_cant": "Rounding of each of 2^64 values must keep order and validity; containment after rounding depends on two roundings at once.", "anchors": ["libs/mathlib/include/impl/aabb2.h:cast", "libs/mathlib/include/impl/circle.h:cast", "libs/mathlib/include/impl/frustum.h:cast", "libs/mathlib/include/impl/mat3.h:cast", "libs/mathlib/include/impl/ray3.h:cast", "libs/mathlib/include/impl/vec3.h:cast"]}
{"id": "C78", "title": "Arguments that are parts of the object", "statement": "A method that changes its object gives the same result when its reference arguments are the object itself or fields of it as when they are copies, and changes nothing else: operators of vectors, set, add and translation of boxes, set of planes, set, scale, rotate and transform of matrices, set and split of splines, lerp and slerp of quaternions, interp of colors, multiply of matrices into a destination, transform of single vectors and of arrays with strides, set and operators of circles and spheres.", "quantifier": "all objects, all placements of the arguments in memory that are separate from the object or fields of it, any arithmetic", "why_tests_cant": "Depends on the order of reads and writes for every placement of the arguments; tests use separate objects.", "anchors": ["libs/mathlib/include/impl/aabb3.h:operator+=", "libs/mathlib/include/impl/plane.h:set", "libs/mathlib/include/impl/mat3.h:scale", "libs/mathlib/include/impl/mat34.h:transform", "libs/mathlib/include/impl/spline3.h:split", "libs/mathlib/include/impl/quat.h:slerp"]}
{"id": "C79", "title": "Columns written by hand", "statement": "After a column of a matrix is assigned through m[c] or a public field and optimize() is called, the column has the new value, nothing else changed, and isNormal, isOrthogonal, isIdentity and isTrs describe the new matrix; products and inverses are right even before optimize() is called.", "quantifier": "all matrices, columns, coordinates and flags", "why_tests_cant": "Every old flag word must be combined with every new column; the stale flags act only in later calls.", "anchors": ["libs/mathlib/include/impl/mat34.h:operator[]", "libs/mathlib/include/impl/mat4.h:operator[]", "libs/mathlib/include/impl/mat34.h:optimize"]}
{"id": "C80", "title": "Symmetries survive rounding", "statement": "In double and in float, with rounding, overflow and NaN: a != b is the negation of a == b for every type, == compares components as numbers, u + v, dot(u,v) and product(u,v) do not depend on the order of the operands, u - v and cross(u,v) only change sign when the operands are swapped, distance and intersects of boxes, circles and spheres are symmetric, and transposed(a * b) is transposed(b) * transposed(a).", "quantifier": "all floating-point operands, infinities and NaNs included, in every binary format", "why_tests_cant": "Rounding and NaN make each pair of operands a case of its own; there are too many to try.", "anchors": ["libs/mathlib/include/impl/vec3.h:operator==", "libs/mathlib/include/impl/vec3.h:dot", "libs/mathlib/include/impl/vec3.h:cross", "libs/mathlib/include/functions.h:distance", "libs/mathlib/include/impl/sphere.h:intersects", "libs/mathlib/include/impl/aabb3.h:intersects", "libs/mathlib/include/impl/mat4.h:transposed"]}
{"id": "C81", "title": "Rounding errors of vector functions", "statement": "In double and in float, dot, cross, length, distance, normalize and normalized of finite operands, whose squares neither vanish nor overflow, are finite and off by no more than a fixed small number of roundings relative to the sizes of the terms; for length, distance and normalize that is a relative error.", "quantifier": "all finite operands in range, in every binary format", "why_tests_cant": "An error bound ranges over all operands; sampled errors give no bound.", "anchors": ["libs/mathlib/include/impl/vec3.h:dot", "libs/mathlib/include/impl/vec3.h:length", "libs/mathlib/include/impl/vec3.h:normalize", "libs/mathlib/include/impl/quat.h:normalize", "libs/mathlib/include/functions.h:distance"]}
{"id": "C82", "title": "Rounding errors of products", "statement": "In double and in float, every entry of a matrix times a vector, of a product of matrices and of a product of quaternions is off by no more than a few roundings of the sizes of its terms, and the length of a product of n quaternions of length near 1 drifts from 1 at most linearly in n.", "quantifier": "all finite operands in range, all numbers of factors, in every binary format", "why_tests_cant": "The drift is a statement about products of any length; tests multiply a few factors.", "anchors": ["libs/mathlib/include/impl/mat4.h:operator*", "libs/mathlib/include/impl/quat.h:operator*"]}
{"id": "C83", "title": "Rounding errors of curves", "statement": "In double and in float, pointAt and tangentAt of a Bezier and of a Hermite segment at a parameter in [0,1] are finite and, coordinate by coordinate, within a few roundings (relative to the sizes of the control values) of the exact curve and its derivative; pointAt is exact at both ends, and a parameter outside [0,1] or NaN fails the assertion.", "quantifier": "all finite control values in range and all parameters, in every binary format", "why_tests_cant": "The bound must hold at each of the billions of parameters and for all control points.", "anchors": ["libs/mathlib/include/impl/spline3.h:BezierSegment3::pointAt", "libs/mathlib/include/impl/spline3.h:BezierSegment3::tangentAt", "libs/mathlib/include/impl/spline3.h:HermiteSplineSegment3::pointAt", "libs/mathlib/include/impl/spline3.h:HermiteSplineSegment3::tangentAt"]}
{"id": "C84", "title": "Accuracy of the tridiagonal solver", "statement": "In double and in float, when in each row the diagonal is at least 1 and at least twice the rest, the tridiagonal solver succeeds, the result satisfies every equation up to a fixed number of roundings, and each unknown is within a fixed number of roundings of the exact solution; the number does not grow with the number of unknowns.", "quantifier": "all sizes, all diagonally dominant systems and right-hand sides in range, in every binary format", "why_tests_cant": "The bound is uniform in the number of unknowns; tests run a few sizes.", "anchors": ["libs/mathlib/include/impl/linearequations.h:TriDiagonal::solve"]}
{"id": "C85", "title": "Accuracy of open splines", "statement": "In double and in float, the control points that naturalBezierSpline and bezierSpline compute differ from those of the exact spline through the given points by at most 360 roundings of the largest coordinate, whatever the number of points.", "quantifier": "all numbers of points from 2, all points in range, in every binary format", "why_tests_cant": "The error could accumulate along the spline; only a proof bounds it for every length.", "anchors": ["libs/mathlib/include/impl/spline3.h:naturalBezierSpline", "libs/mathlib/include/impl/spline3.h:bezierSpline"]}
{"id": "C86", "title": "Splines are determined by their points", "statement": "In exact arithmetic the control points that naturalBezierSpline, bezierSpline and (for three points or more) closedBezierSpline compute form a curve with continuous velocity and acceleration and the required ends, and no other control points do.", "quantifier": "all numbers of points and all points", "why_tests_cant": "Uniqueness speaks about all other control points.", "anchors": ["libs/mathlib/include/impl/spline3.h:naturalBezierSpline", "libs/mathlib/include/impl/spline3.h:bezierSpline", "libs/mathlib/include/impl/spline3.h:closedBezierSpline"]}
{"id": "C87", "title": "Whole coordinates are exact", "statement": "In double and in float, on whole coordinates small enough for their products to fit in the mantissa, sums, scalar and cross products, determinants, matrix products and plane distances are exact, and contains and intersects of triangles, circles, spheres and centered boxes give the geometrically right answer, on the boundary too.", "quantifier": "all whole coordinates up to the stated size, in every binary format", "why_tests_cant": "Exactness on a grid of about 2^50 points per coordinate cannot be enumerated.", "anchors": ["libs/mathlib/include/impl/tri2.h:contains", "libs/mathlib/include/impl/circle.h:contains", "libs/mathlib/include/impl/sphere.h:contains", "libs/mathlib/include/impl/caabb2.h:contains", "libs/mathlib/include/impl/caabb3.h:contains", "libs/mathlib/include/impl/mat4.h:determinant", "libs/mathlib/include/impl/plane.h:distance"]}
{"id": "C88", "title": "Test matchers accept exactly what is within the margin", "statement": "A WithinAbs matcher of any of the 23 types accepts an object exactly when each of its components is within the margin of the target's. In doubles and floats nothing within the margin is rejected, nothing further than the margin plus one rounding is accepted, a margin of 0 means equality, a larger margin never accepts less, matching is symmetric, and a NaN never matches. A negative or NaN margin is refused.", "quantifier": "all targets, objects and margins", "why_tests_cant": "The matchers are what the tests rely on; a wrong one makes tests pass for wrong results.", "anchors": ["libs/testlib/include/impl/catch_matchers.h:marginCheck", "libs/testlib/include/impl/catch_matchers_vec3.h:Vec3Matcher", "libs/testlib/include/impl/catch_matchers_frustum.h:FrustumMatcher"]}
{"id": "C89", "title": "Solvers and splines give back every block they take", "statement": "When memory suffices, TriDiagonal::solve (reals and vectors), solveCyclic, GaussJordan and the three spline builders return, write nothing but their result arrays, free every array they allocate exactly once, free nothing of the caller's, and never touch a freed or foreign block, on the failure returns too.", "quantifier": "all sizes, all contents of the arrays, all places of the arrays in memory", "why_tests_cant": "A leak or a write to a foreign block has no effect on the values a test compares.", "anchors": ["libs/mathlib/include/impl/linearequations.h:solve", "libs/mathlib/include/impl/linearequations.h:solveCyclic", "libs/mathlib/include/impl/spline3.h:naturalBezierSpline", "libs/mathlib/include/impl/spline3.h:bezierSpline", "libs/mathlib/include/impl/spline3.h:closedBezierSpline"]}
{"id": "C90", "title": "Running out of memory leaves the caller's data as it was", "statement": "When an allocation fails during a solve or a spline construction, the exception leaves all of the caller's arrays as they were and nothing is leaked.", "quantifier": "all inputs, every choice of the allocations that fail", "why_tests_cant": "Each allocation is a point where the call may stop; tests do not make them fail.", "anchors": ["libs/mathlib/include/impl/linearequations.h:solve", "libs/mathlib/include/impl/linearequations.h:solveCyclic", "libs/mathlib/include/impl/spline3.h:naturalBezierSpline", "libs/mathlib/include/impl/spline3.h:bezierSpline", "libs/mathlib/include/impl/spline3.h:closedBezierSpline"]}
{"id": "C91", "title": "Spline arrays that overlap", "statement": "A spline builder gives the same control points when the array of the points, or the end conditions, lie in a result array.", "quantifier": "all points, all places of the arrays in memory", "why_tests_cant": "Tests pass separate arrays.", "anchors": ["libs/mathlib/include/impl/spline3.h:naturalBezierSpline", "libs/mathlib/include/impl/spline3.h:bezierSpline", "libs/mathlib/include/impl/spline3.h:closedBezierSpline"]}
{"id": "C92", "title": "Geometric tests are right away from the boundary in floating point", "statement": "In binary floating point, the contains and intersects tests of circles, spheres, centered boxes, planes and triangles agree with exact geometry except for points and figures closer to the boundary than a stated margin of a few units in the last place. For centered boxes a true inclusion or meeting is never denied.", "quantifier": "all finite figures and points whose squared sizes do not overflow, in doubles, floats and any other binary format", "why_tests_cant": "Near the boundary every one of the inputs rounds differently.", "anchors": ["libs/mathlib/include/impl/circle.h:contains", "libs/mathlib/include/impl/sphere.h:contains", "libs/mathlib/include/impl/sphere.h:intersects", "libs/mathlib/include/impl/caabb2.h:contains", "libs/mathlib/include/impl/caabb3.h:contains", "libs/mathlib/include/impl/aabb3.h:contains", "libs/mathlib/include/impl/plane.h:distance", "libs/mathlib/include/impl/plane.h:intersects", "libs/mathlib/include/impl/tri2.h:contains"]}
{"id": "C93", "title": "Reported hit parameters stay in range in floating point", "statement": "When a ray or segment test reports a hit, the parameter it reports is a number, not negative, and at most one for segments; the entry of a box is not after the exit.", "quantifier": "all boxes, planes, spheres, rays and segments in doubles, floats and any other binary format, infinities and NaNs included for boxes", "why_tests_cant": "The range must hold for every rounding, overflow and NaN in the input.", "anchors": ["libs/mathlib/include/impl/aabb2.h:hits", "libs/mathlib/include/impl/aabb3.h:hits", "libs/mathlib/include/impl/aabb2.h:intersects", "libs/mathlib/include/impl/aabb3.h:intersects", "libs/mathlib/include/impl/plane.h:hits", "libs/mathlib/include/impl/plane.h:intersects", "libs/mathlib/include/impl/sphere.h:intersects"]}
{"id": "C94", "title": "Angle constants and conversions in floating point", "statement": "The constants for pi and its fractions are the nearest numbers of the format; degreeToRadian and radianToDegree are within a few roundings of the exact conversion, keep the order, are odd, and undo each other up to four roundings; right angles are exact; asin and acos pass libm a number in [-1, 1] whatever number they are given.", "quantifier": "all finite angles within the range of the format, in doubles, floats and any binary format with a good constant for pi; all numbers, infinities included, for asin and acos", "why_tests_cant": "Tests compare a few angles with a tolerance; the bound and the order must hold for every angle.", "anchors": ["libs/mathlib/include/impl/constants.h:PI_OVER_3", "libs/mathlib/include/functions.h:degreeToRadian", "libs/mathlib/include/functions.h:radianToDegree", "libs/mathlib/include/functions.h:asin", "libs/mathlib/include/functions.h:acos"]}
{"id": "C95", "title": "Random helpers in floating point", "statement": "For every value of rand() the real random helpers are within a few roundings of the exact share; rand(1), random colors and randAmplitude stay in their ranges exactly, randBetween is never below its lower end, rand grows with the draw, and random unit vectors have length one up to rounding and are found at the first draws that are not all zero.", "quantifier": "all values of rand() up to RAND_MAX, all finite bounds in range, in doubles, floats and any binary format", "why_tests_cant": "A test sees a few draws; overshooting the upper end by one rounding happens for single draws and single bounds.", "anchors": ["libs/mathlib/include/functions.h:rand", "libs/mathlib/include/functions.h:randBetween", "libs/mathlib/include/functions.h:randAmplitude", "libs/mathlib/include/impl/vec2.h:randomUnitVector", "libs/mathlib/include/impl/vec3.h:randomUnitVector", "libs/mathlib/include/impl/colorrgb.h:random", "libs/mathlib/include/impl/colorhsv.h:random"]}
{"id": "C96", "title": "Rotations in floating point", "statement": "When sin and cos of libm are off by at most k roundings of 1, rotated vectors, rotation matrices and axis-angle quaternions are finite and within a fixed number of roundings of the exact rotation; lengths are kept, columns are orthonormal and quaternions have length one up to rounding, and the flags of a rotation matrix say that it is orthonormal.", "quantifier": "all finite angles, all finite vectors and axes whose squared length neither overflows nor vanishes, all sine and cosine functions of that accuracy, in doubles, floats and any binary format", "why_tests_cant": "A test sees a few angles and one libm; the bound must hold for every angle, axis and for every libm of the stated accuracy.", "anchors": ["libs/mathlib/include/impl/vec2.h:rotate", "libs/mathlib/include/impl/vec3.h:rotate", "libs/mathlib/include/impl/mat2.h:Mat2", "libs/mathlib/include/impl/mat3.h:set", "libs/mathlib/include/impl/mat4.h:set", "libs/mathlib/include/impl/quat.h:set"]}
{"id": "C97", "title": "Interpolation and angle of rotation matrices", "statement": "angle() of a Mat2 is in (-PI, PI] and is the angle of the rotation up to full turns. slerp between rotation matrices turns about one axis at constant speed from the first to the second; slerpMaxAngle goes the same way as far as the limit allows. orthonormalise returns a rotation for every matrix and leaves rotations as they are.", "quantifier": "all pairs of rotation matrices, all weights in [0, 1], all limits, all matrices for orthonormalise", "why_tests_cant": "A test compares a few intermediate matrices; that every intermediate matrix lies on one arc, that the arc is the short one and where it is not, is a statement about all pairs and all weights.", "anchors": ["libs/mathlib/include/impl/mat2.h:angle", "libs/mathlib/include/impl/mat2.h:slerp", "libs/mathlib/include/impl/mat3.h:slerp", "libs/mathlib/include/impl/mat3.h:slerpMaxAngle", "libs/mathlib/include/impl/mat3.h:orthonormalise", "libs/mathlib/include/impl/mat4.h:orthonormalise", "libs/mathlib/include/impl/mat34.h:slerp"]}
{"id": "C98", "title": "Static constants at program start", "statement": "The static constants (PI and its multiples, Zero, One, OneX, the default tolerances, the named planes and colours) have their documented values once initialised, in whatever order the compiler and linker initialise them; none depends on another that could still be unset. Before that each reads as zero. PI, the limits, the default tolerances and the Zero vectors and boxes are right at every moment, and so are the angle conversions and optimize() when called from the initialiser of a user's global.", "quantifier": "all orders of initialisation, all choices of the compiler of what to initialise statically, all moments of program start, all real types", "why_tests_cant": "The order of initialisation of static members of templates is unspecified and differs between compilers, linkers and link orders; a test program sees one order.", "anchors": ["libs/mathlib/include/impl/constants.h:PI_TIMES_2", "libs/mathlib/include/impl/vec3.h:OneX", "libs/mathlib/include/impl/vec4.h:OneW", "libs/mathlib/include/impl/mat3.h:setIdentity", "libs/mathlib/include/impl/mat4.h:Zero", "libs/mathlib/include/impl/mat2.h:DefaultTolerance", "libs/mathlib/include/interpolation.h:clerp"]}
{"id": "C99", "title": "Texts of failure messages", "statement": "When a matcher of the test library fails, the message shows the object and the target: each number in the text reads back within half a unit of the last decimal shown, every part of the object is shown, and the two texts differ, so that the message shows what is wrong. Objects with the same text are the same object.", "quantifier": "all 23 types with a matcher, all floats and doubles including infinities, signed zeros and NaN as parts, all targets and finite margins", "why_tests_cant": "Whether two different numbers can be written alike depends on every pair of neighbouring numbers of the format; tests print a few.", "anchors": ["libs/testlib/include/impl/catch_matchers_vec2.h:convert", "libs/testlib/include/impl/catch_matchers_quat.h:convert", "libs/testlib/include/impl/catch_matchers_aabb3.h:convert", "libs/testlib/include/impl/catch_matchers_plane.h:convert", "libs/testlib/include/impl/catch_matchers_mat2.h:convert", "libs/testlib/include/impl/catch_matchers_mat34.h:convert", "libs/testlib/include/impl/catch_matchers_frustum.h:convert", "libs/testlib/include/impl/catch_matchers_vec2.h:describe"]}
{"id": "C100", "title": "Determinants and inverses in floating point", "statement": "The computed determinant of a matrix is off by a few roundings of the largest possible product of its entries. When the determinant is larger than that, inverting succeeds and every entry is within a stated multiple of the rounding unit of the true inverse, so the product with the matrix is close to the identity. A singular Mat2 is recognised exactly, and so are singular Mat3 and Mat4 of moderate whole numbers.", "quantifier": "all matrices of finite entries up to a bound K, in any binary format of at least 11 bits", "why_tests_cant": "Rounding errors depend on every entry; tests use a few well conditioned matrices and a tolerance.", "anchors": ["libs/mathlib/include/impl/mat2.h:inversed", "libs/mathlib/include/impl/mat3.h:inversed", "libs/mathlib/include/impl/mat3.h:invert", "libs/mathlib/include/impl/mat3.h:determinant", "libs/mathlib/include/impl/mat4.h:inversed", "libs/mathlib/include/impl/mat4.h:invert", "libs/mathlib/include/impl/mat4.h:determinant"]}
{"id": "C101", "title": "Splitting, walking along and measuring curves in floating point", "statement": "Splitting a Bezier segment at a parameter in [0, 1] gives two segments that meet exactly, start and end exactly where the segment does, and whose other control points are within a few roundings of those of the exact parts; splitting at 0 or 1 gives a point and the segment itself. After k forward steps of size d the point and tangent are off by about k roundings of the size of the control points. The length with n steps is within about n roundings of the length of the polyline through the points at multiples of the rounded step. A walk over the whole curve need not end exactly at its last point.", "quantifier": "all finite control points, parameters, steps and numbers of steps with fewer than about 1/(2u) roundings, in any binary format of at least 11 bits", "why_tests_cant": "Rounding errors accumulate with the number of steps and depend on every coordinate; tests walk a few curves with a tolerance.", "anchors": ["libs/mathlib/include/impl/spline3.h:split", "libs/mathlib/include/impl/spline3.h:length", "libs/mathlib/include/impl/spline3.h:stepForward", "libs/mathlib/include/impl/vec3.h:length"]}
{"id": "C102", "title": "Gauss-Jordan elimination and closed splines in floating point", "statement": "When in each row of the matrix the diagonal entry is at least 1 and at least twice the other entries together, Gauss-Jordan elimination succeeds for any number of right-hand sides, leaves the identity in the matrix, and each result is within about 100 n roundings of the exact solution, with no dependence on the condition of the matrix. closedBezierSpline therefore succeeds for every list of three or more points within the range, and its control points are within about 800 n roundings of the control points of the one smooth closed chain through the points. Outside these conditions a regular system need not be solved: entries of doubles below the smallest float count as zero.", "quantifier": "all sizes n with 1000 n u at most 1, all matrices with a dominant diagonal, all right-hand sides and points far from overflow, in any binary format of at least 11 bits with a fabsf close to the absolute value (proved for floats and doubles)", "why_tests_cant": "The error depends on every entry and grows with the size; tests solve a few systems with a tolerance.", "anchors": ["libs/mathlib/include/impl/linearequations.h:solveLinearEquationsGaussJordan", "libs/mathlib/include/impl/spline3.h:closedBezierSpline"]}
{"id": "C103", "title": "Rotations as quaternions and matrices in floating point", "statement": "Converting a quaternion within d of a unit quaternion to a Mat3 gives the rotation matrix within 21 d. Converting a matrix within d of a rotation to a quaternion gives one of the two quaternions of that rotation within 28 d, whichever of the four branches is taken, without any loss near the branch limits. rotated(v) is the rotated vector within 75 d times the size of v. Products, inverses, normalize, lerp, slerp, Mat3::slerp and Mat3::orthonormalise stay within a fixed multiple of d of the exact result. slerp goes to the target quaternion or its negative such that the arc is the shorter one, along the arc below the cosine 0.95 and along the chord above.", "quantifier": "all quaternions and matrices within d of a rotation, all vectors far from overflow, all weights in [0, 1], all d from one rounding up to a stated limit (at least 1/14600000), in any binary format of at least 11 bits with sin, cos and acos off by at most k roundings", "why_tests_cant": "The branches of the conversion and of slerp depend on rounded values near their limits; tests try a few rotations with a tolerance.", "anchors": ["libs/mathlib/include/impl/quat.h:Quat(Mat3)", "libs/mathlib/include/impl/quat.h:slerp", "libs/mathlib/include/impl/quat.h:lerp", "libs/mathlib/include/impl/quat.h:normalize", "libs/mathlib/include/impl/quat.h:rotated", "libs/mathlib/include/impl/mat3.h:Mat3(Quat)", "libs/mathlib/include/impl/mat3.h:orthonormalise", "libs/mathlib/include/impl/mat3.h:slerp"]}
{"id": "C104", "title": "Planes and view frustums in floating point", "statement": "A plane built from a point and a normal, from a point and two directions, or from three points has the exact unit normal within a fixed number of roundings times k, where k measures how far the two edges are from being parallel, and it passes through its point within four roundings of the size of that point. Plane::distance and Plane::project then differ from the exact distance and projection by at most a stated multiple of the size of the points. A Frustum set from eight corners, also through a Mat34 or a Mat4, contains every point that is inside all six faces by more than the slack and no point that is outside one face by more than the slack; contains(sphere) answers in the same way. intersects(sphere) accepts every sphere that meets the frustum by more than the slack, and a sphere it accepts reaches the inner side of each face within the slack. The slack covers the conversion of distances of doubles to float.", "quantifier": "all points, normals and corners far from overflow whose faces are not degenerate, all query points and spheres with a radius that is not negative, in any binary format of at least 11 bits, and every frustum built from them", "why_tests_cant": "Rounded planes move the border of the frustum; tests query a few points well inside or outside one frustum.", "anchors": ["libs/mathlib/include/impl/plane.h:Plane", "libs/mathlib/include/impl/plane.h:distance", "libs/mathlib/include/impl/plane.h:project", "libs/mathlib/include/impl/frustum.h:set", "libs/mathlib/include/impl/frustum.h:contains", "libs/mathlib/include/impl/frustum.h:intersects"]}
{"id": "C105", "title": "Meeting points and distances in floating point", "statement": "Vec2 intersection of two lines gives both shares within ten roundings times the size of the terms of the two determinants over their quotient; the exact shares name the same point. Plane::hits and intersects, for a line, for a line with a radius and for a ray, return the share or length of the exact meeting point and that point within a stated multiple of the same size; for a ray that is not parallel to the plane the yes or no answer is exact up to that slack at the start of the ray. The point of three planes is refused exactly when the determinant of the normals is below 1e-4, up to 33 roundings, and is otherwise the exact common point within 50 roundings of its size over the determinant. The distances of Line2 and Ray2 are within 34 and 26 roundings of the distance to the start from the exact least distance; those of Line3 and Ray3 within a stated number of roundings times k, where k measures how near the point lies to the line.", "quantifier": "all lines, rays, planes and points with finite coordinates far from overflow that are not degenerate in the stated measure, in any binary format of at least 11 bits; for the three planes of at least 21 bits, which covers floats and doubles", "why_tests_cant": "The size of the error depends on how nearly parallel the operands are; tests look at a few well placed lines and planes.", "anchors": ["libs/mathlib/include/impl/vec2.h:intersection", "libs/mathlib/include/impl/plane.h:hits", "libs/mathlib/include/impl/plane.h:intersects", "libs/mathlib/include/impl/plane.h:intersectAtSinglePoint", "libs/mathlib/include/impl/line2.h:distance", "libs/mathlib/include/impl/line3.h:distance", "libs/mathlib/include/impl/ray2.h:distance", "libs/mathlib/include/impl/ray3.h:distance"]}
{"id": "C106", "title": "Rays and segments against boxes and balls in floating point", "statement": "AABB2 and AABB3 intersects, for a ray and for a segment, return two values between which the exact ray or segment lies in the box with its faces moved out by 3 (ray) or 5 (segment) roundings of the distance of the faces from the start; every time at which it lies in the box with its faces moved in by the same amount is between the two values, and then the answer is true. The value of hits is never later than the entry into the narrowed box, and from it to that entry the way is in the widened box; hits answers true when every slab is ahead of the start. Sphere intersects and hits, for a segment: no hit when the distance h of the center from the line has r*r + 29 roundings of the size below h*h; otherwise the share of the entry and the hit point are within 60 roundings times the size over the length of the chord of the exact ones, and the answer is exact when the entry is clear of the two ends.", "quantifier": "all boxes, balls, rays and segments with finite coordinates far from the ends of the range, where a direction component is 0 or not tiny and the chord of a ball is not tiny, in any binary format of at least 11 bits", "why_tests_cant": "The slack depends on the direction and distance; a test sees only a few well placed rays.", "anchors": ["libs/mathlib/include/impl/aabb2.h:intersects", "libs/mathlib/include/impl/aabb2.h:hits", "libs/mathlib/include/impl/aabb3.h:intersects", "libs/mathlib/include/impl/aabb3.h:hits", "libs/mathlib/include/impl/sphere.h:intersects", "libs/mathlib/include/impl/sphere.h:hits"]}
{"id": "C107", "title": "Boxes, centered boxes and their balls in floating point", "statement": "size, center, extents, pointAt, area and volume of AABB2, AABB3, CAABB2 and CAABB3 are within a few roundings of the exact values. The center of a proper box is in the box exactly, and a point in a box is in it after both are moved by the same vector, exactly. Multiplying a box by a number, and going from corners to center and half size or back, moves no face by more than a few roundings. The outer circle or sphere is near the smallest one and, grown by a few roundings, holds the whole box; the inner one is found without an assertion failure, is near the largest one, and, shrunk by a few roundings, is in the box (for a centered box it is in the box exactly). Adding a point to a centered box gives the smallest box that holds both, up to 6 roundings. A box, its centered form and its outer ball, and a centered box with a point added, need not contain their points exactly.", "quantifier": "all boxes with finite coordinates far from the ends of the range, all finite points, moves and factors, in any binary format of at least 11 bits", "why_tests_cant": "A few boxes with round coordinates have exact centers and extents; the error and the exact cases concern all others.", "anchors": ["libs/mathlib/include/impl/aabb2.h:outerCircle", "libs/mathlib/include/impl/aabb2.h:innerCircle", "libs/mathlib/include/impl/aabb3.h:outerSphere", "libs/mathlib/include/impl/aabb3.h:innerSphere", "libs/mathlib/include/impl/aabb3.h:pointAt", "libs/mathlib/include/impl/caabb2.h:add", "libs/mathlib/include/impl/caabb3.h:add", "libs/mathlib/include/impl/caabb3.h:outerSphere"]}
{"id": "C108", "title": "Affine transforms in floating point", "statement": "Sending a point through a Mat34, multiplying two of them, transform and transformPre with a Mat34 or a Mat3, translate, translatePre and scalePre each give, for every point, the place the exact maps give up to a stated number of roundings, in terms of the sizes of the entries, the translations and the point. The inverse undoes the transform: exactly for the identity, up to the defect of the columns for a transform flagged orthonormal, and in terms of the determinant otherwise. A point sent through a rigid transform and back comes within 210 roundings of its place. Along a product of n transforms that make nothing longer than by a factor close to 1, the error of the linear part grows with n and the error of the translation with the square of n. A product of transforms is not exactly the transforms one after the other, and an inverse does not exactly undo.", "quantifier": "all transforms with finite entries and honest identity flags, all points, all lengths of chains, in any binary format of at least 11 bits, away from overflow", "why_tests_cant": "Tests compare a few products of matrices with a margin; that the margin holds for every transform, and how it grows along a chain, is a statement on all of them.", "anchors": ["libs/mathlib/include/impl/mat34.h:invert", "libs/mathlib/include/impl/mat34.h:transform", "libs/mathlib/include/impl/mat34.h:transformPre", "libs/mathlib/include/impl/mat34.h:translatePre", "libs/mathlib/include/impl/mat34.h:scalePre", "libs/mathlib/include/impl/mat3.h:rotated"]}
{"id": "C109", "title": "Remainders, circular interpolation and response curves in floating point", "statement": "fmodCentered gives a number between the halves of the modulus that is congruent to its argument up to rounding. clerp and clerpMaxAngle turn from the first angle by some amount that leads to the second, at most half a turn when the second angle is not more than half a turn below the first; clerp at 0 gives the first angle, and clerpMaxAngle never passes the limit, rounded. The response curves are exactly zero in the dead zone, odd, never decreasing, within [-1,1] and 1 at 1, for every threshold in [0,1); any other threshold, NaN included, is rejected. The curves without pow and cos are within 16 roundings of the exact ones. fmodCentered can give the upper half itself and can change a number that is already between the halves.", "quantifier": "all finite numbers away from overflow, all moduli, angles, ratios and limits, all thresholds, curves and inputs in [-1,1], in any binary format of at least 11 bits", "why_tests_cant": "Monotonicity and oddness of a curve in rounded arithmetic relate every pair of inputs; a test compares a few values with a margin.", "anchors": ["libs/mathlib/include/functions.h:fmodCentered", "libs/mathlib/include/functions.h:fmodPositive", "libs/mathlib/include/functions.h:evaluate", "libs/mathlib/include/interpolation.h:clerp", "libs/mathlib/include/interpolation.h:clerpMaxAngle"]}
{"id": "C110", "title": "Axis and angle, logarithm and exponential, rotation between vectors in floating point", "statement": "In rounded arithmetic, toAxisAngle of a quaternion near an exact unit one gives an axis near the exact axis, of length 1 up to rounding, and the angle twice the arc cosine of the scalar part, or the x axis and angle 0 when the rotation is small; the quaternion made from that axis and angle is near the one it came from; a scalar part beyond 1 is rejected. log and exp are near the exact logarithm and exponential and undo each other. slerpNoInvert goes near the exact arc, or the exact chord when the arc is short. The quaternion between two vectors is the identity when they almost agree, and otherwise near an exact rotation that leads from the one direction to the other, so that turning the first vector gives the direction of the second. It does nothing for opposite vectors, and toAxisAngle loses rotations of 1/512 radians.", "quantifier": "all quaternions near unit ones, all axes, all pairs of vectors away from overflow and underflow, all weights in [0,1], in any binary format of at least 24 bits, any accurate sine, cosine and arc cosine", "why_tests_cant": "The error bounds hold for every quaternion and vector, also where the axis is badly determined; a test compares a few rotations with a margin.", "anchors": ["libs/mathlib/include/impl/quat.h:toAxisAngle", "libs/mathlib/include/impl/quat.h:log", "libs/mathlib/include/impl/quat.h:exp", "libs/mathlib/include/impl/quat.h:slerpNoInvert", "libs/mathlib/include/impl/quat.h:Quat(from, to)"]}
{"id": "C111", "title": "Interpolated numbers and colors in floating point", "statement": "In rounded arithmetic, lerp with a ratio from 0 to below 1 never leaves the range between its two ends, starts at the first, never goes back as the ratio grows and is near the exact point; so do vectors, segments, boxes (pointAt gives a point that contains accepts) and lerp eased by a power of the ratio. RGB and RGBA interpolation do so for every ratio up to and including 1, where they return the second color itself, and keep colors in the unit cube. HSV interpolation turns the hue by at most half a turn, up to rounding, and ends near the other hue. Colors from bytes are ordered, right to one rounding, with 0 and 255 exact; color arithmetic is right to one rounding and a zero divisor is rejected. At ratio 1 lerp can pass its end and pointAt can leave its box; an interpolated hue can be 360.", "quantifier": "all pairs of numbers, vectors, boxes and colors whose sizes sum to a finite number, all ratios in [0,1], all bytes, in any binary format of at least 11 bits", "why_tests_cant": "Whether rounding can push a result out of the range depends on the last bit of each pair of ends and ratio; a test tries a few and accepts a margin.", "anchors": ["libs/mathlib/include/interpolation.h:lerp", "libs/mathlib/include/impl/line3.h:pointAt", "libs/mathlib/include/impl/aabb3.h:pointAt", "libs/mathlib/include/impl/colorrgb.h:interp", "libs/mathlib/include/impl/colorrgba.h:interp", "libs/mathlib/include/impl/colorhsv.h:interp"]}
{"id": "C112", "title": "Easing curves in floating point are near the exact ones", "statement": "In rounded arithmetic interpolationRatio gives, in every one of the 29 modes and for every finite ratio, a finite number near the exact curve: within 128 times the error of one rounding or of the functions and float variables the mode uses, and within 4 times its square root for the circular modes, whose argument of sqrt is never negative. So the result is near [0,1] and an increasing ratio hardly ever lowers it (but for the three modes with rounded constants), and lerp with an easing mode is near the exact point. lerp of plane and space vectors with a mode is as near in each component.", "quantifier": "all 29 modes, all finite ratios, all ends a quarter of the range in size, in any binary format of at least 11 bits with one rounding below 2^-16, and every sin, cos and pow of the given accuracy", "why_tests_cant": "The errors of four to ten roundings, of the float variables and of the cancellation below the root differ at every ratio; a test compares a few ratios with a margin.", "anchors": ["libs/mathlib/include/interpolation.h:interpolationRatio", "libs/mathlib/include/interpolation.h:lerp"]}
{"id": "C113", "title": "Plane vectors by length and angle, and turns between them, in floating point", "statement": "In rounded arithmetic the angle and the length of a Vec2 give the vector back up to a few roundings of its length. The angle of a rotation Mat2 is, up to full turns, the angle it was made of. Vec2::clerp goes evenly in angle and in length from one vector to the other and meets both ends exactly; Mat2::slerp does so for angles and slerpMaxAngle stops at the limit. The turn is at most half a full one unless the second angle is more than PI below the first. Vec2::clerpMaxAngle between equal vectors should give that vector.", "quantifier": "all finite vectors (also zero) whose squared lengths do not overflow, all finite matrices and angles, all ratios in [0,1] and all limits not negative, in any binary format of at least 11 bits and every sin, cos and atan2 of the given accuracy", "why_tests_cant": "atan2 jumps by a full turn across the negative x axis and the errors of atan2, fmod, sin and cos differ at every pair of vectors; a test tries a few pairs with a margin.", "anchors": ["libs/mathlib/include/impl/vec2.h:angle", "libs/mathlib/include/impl/vec2.h:setAngle", "libs/mathlib/include/impl/vec2.h:clerp", "libs/mathlib/include/impl/vec2.h:clerpMaxAngle", "libs/mathlib/include/impl/mat2.h:slerp", "libs/mathlib/include/impl/mat2.h:slerpMaxAngle", "libs/mathlib/include/impl/mat2.h:angle"]}
{"id": "C114", "title": "Interpolated ints in floating point", "statement": "In rounded arithmetic lerp of two ints gives, for every ratio in [0,1], an int of the range between them, the ends themselves at the ratios 0 and 1, an int off by at most 1 from the exact value, and ints in the order of the ratios. With an easing mode the ends are met in every mode, and the powers of the ratio never leave the range. Where the ints have room for twice the difference, in every mode the int is defined and off from the exact curve by at most 1 plus the error of the curve times the difference.", "quantifier": "all pairs of ints whose difference is an int, all finite ratios (in [0,1] without a mode), all formats; differences up to the largest int that is exact in the format", "why_tests_cant": "The product of ratio and difference is rounded before the fraction is cut off, so one rounding up to an integer at any of 2^53 ratios and 2^32 ranges could leave the range or swap the order.", "anchors": ["libs/mathlib/include/interpolation.h:lerp", "libs/mathlib/include/interpolation.h:interpolationRatio"]}
