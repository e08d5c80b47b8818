{
 "C01": {
  "note": "Total correctness over checked arrays, aliased right-hand side included."
 },
 "C02": {
  "note": "Leading minors stated as singularity of leading blocks."
 },
 "C04": {
  "note": "Findings: a singular system is accepted (C04_singular_system_refuted)."
 },
 "C07": {
  "note": "Header promise of an inverse refuted; exact content proved."
 },
 "C15": {
  "note": "Proved for every n>=3; for n=2 the property is false of the code (C15_closed_two_points_refuted).",
  "status": "partial"
 },
 "C16": {
  "note": "Over R, in doubles and in floats for every libm."
 },
 "C17": {
  "note": "Proved for 26 of 29 modes; refuted, with a bound on the deviation, for the three modes using rounded constants. Doubles and floats: range for 16 modes, order for 13; four polynomial modes refuted (C17_range_double_refuted, C17_monotone_double_refuted).",
  "status": "partial"
 },
 "C18": {
  "note": "Fails only for the Exponential family at t=1/2, shown by C18_exponential_half_refuted.",
  "status": "partial"
 },
 "C19": {
  "note": "Proved over R and for the int version. In doubles and floats, ends below max/4: start, order, equal ends and the start's side are proved; the end is refuted (C19_end_double_refuted, C19_end_float_refuted).",
  "status": "partial"
 },
 "C20": {
  "note": "Ends proved in all cases; shortest arc proved for to-from >= -PI and refuted below.",
  "status": "partial"
 },
 "C21": {
  "note": "Bound proved for all inputs; reaching the target needs to-from >= -PI (same defect as C20); the reported ratio is refuted.",
  "status": "partial"
 },
 "C22": {
  "note": "Proved over R. In doubles and floats fmod is exact and fmodPositive is the remainder rounded; it can round up to y (C22_fmodPositive_double_refuted).",
  "status": "partial"
 },
 "C23": {
  "note": "Over R and for every non-NaN double and float."
 },
 "C27": {
  "note": "Finding: the Real randAmplitude(from,to) never yields negative values."
 },
 "C29": {
  "note": "Exact over the reals; in doubles and floats within the error bounds of C81 while the squared length neither vanishes nor overflows. Outside that range the code returns the null vector (C29_normalize_double_refuted, C29_normalize_float_refuted).",
  "status": "partial"
 },
 "C32": {
  "note": "toVec2 round trip for all planes; the Vec2(Vec3,Coord) constructor round trip fails for Y (refuted).",
  "status": "partial"
 },
 "C35": {
  "note": "Ends, flat and null cases proved for all inputs; the turning angle proved for angles up to a right angle, characterised and refuted beyond.",
  "status": "partial"
 },
 "C36": {
  "note": "Findings: m*=m and in-place transforms overwrite operands while reading them (refuted); division by zero gives the null matrix where /= asserts."
 },
 "C37": {
  "note": "Proved for Mat2 and Mat3 in full and for affine Mat4; Mat4 orthogonality ignores the fourth column (refuted) and the scalar constructors under-report (refuted).",
  "status": "partial"
 },
 "C38": {
  "note": "Proved for all histories of rotation-building operations and, for the identity bit, for nearly all operations on arbitrary matrices; refuted for Mat3 coordinate rotations, transposes, products of unit-column matrices and Mat4(k).",
  "status": "partial"
 },
 "C39": {
  "note": "Proved for Mat2, Mat3 and for Mat4 whose orthonormal bits are truthful and affine; Mat4 refuted otherwise.",
  "status": "partial"
 },
 "C40": {
  "note": "Mat3 proved; Mat4 partial: the result of invert() on a non-orthonormal matrix of determinant one keeps uninitialized flags (refuted).",
  "status": "partial"
 },
 "C41": {
  "note": "Finding: a null axis gives a scaled identity rather than a rotation (refuted)."
 },
 "C42": {
  "note": "All laws proved; operator*(Quat,Vec3) does not rotate (refuted, characterised exactly).",
  "status": "partial"
 },
 "C44": {
  "note": "Proved for directions whose cosine is within 0.99999 of neither end; near-equal directions within a bound; near-opposite refuted.",
  "status": "partial"
 },
 "C45": {
  "note": "Exact below |dot|=0.95, within 1/30 above; slerpMaxAngle refuted unless it starts at the identity.",
  "status": "partial"
 },
 "C46": {
  "note": "Refuted; an exact characterisation of when it holds for unit divisors is proved.",
  "status": "partial"
 },
 "C47": {
  "note": "Round trips proved except below the 1e-6 threshold (refuted) and at q=-1 (refuted).",
  "status": "partial"
 },
 "C48": {
  "note": "Over R, with identity bits set on exact identities and orthonormal bits on exact orthonormal parts. Findings: slerp drops the translation; a linear part flagged orthonormal only within the tolerance is inverted by its transpose.",
  "status": "proved"
 },
 "C49": {
  "note": "translate, translatePre, scalePre and large rotations proved. Refuted: scale multiplies columns instead of rows, so it is right only if the linear part commutes with the factors (C49_scale_partial); rotations with 4(1-cos a) <= 1/1000 are dropped.",
  "status": "partial"
 },
 "C50": {
  "note": "Over R and for non-NaN doubles and floats. Intersection of disjoint boxes refuted.",
  "status": "partial"
 },
 "C52": {
  "note": "Over R. Rays: unit direction and coordinates below max/8, or any direction with parameters up to the largest number."
 },
 "C53": {
  "note": "What hits decides is characterized exactly; the claim itself is refuted both ways.",
  "status": "partial"
 },
 "C54": {
  "note": "Over R."
 },
 "C55": {
  "note": "Line functions of Circle do not compile when instantiated and are left out."
 },
 "C56": {
  "note": "Exact for segments that start strictly outside or on the sphere; a segment that starts inside and crosses the sphere is reported not to intersect (refuted).",
  "status": "partial"
 },
 "C57": {
  "note": "Over R, all exact, except project(point, direction), which ignores the distance of the plane (refuted). In rounded numbers it is near the exact point of the parallel plane through the origin, and the same refutation holds in doubles and floats.",
  "status": "partial"
 },
 "C58": {
  "note": "Over R. Exact except for rays and segments in the plane, reported as not meeting it, and three planes whose determinant is below 1e-4 (both refuted).",
  "status": "partial"
 },
 "C59": {
  "note": "Over R, for matrices that keep orientation. Also: a mirroring matrix gives a frustum that contains nothing, and intersects(sphere) has false positives.",
  "status": "proved"
 },
 "C60": {
  "note": "Over R. Line2 and Ray2 exact; Line3 and Ray3 exact off the line, and wrong on it (refuted).",
  "status": "partial"
 },
 "C61": {
  "note": "Over R. Exact for triangles that are not flat; flat ones contain the whole line (refuted, and characterized).",
  "status": "partial"
 },
 "C62": {
  "note": "Proved over R. In doubles and floats: there and back always set and within 2^-48 (float 2^-19) per component, with exactness refuted; negative hues can give an unset color (refuted); hue 360 can be returned (refuted).",
  "status": "partial"
 },
 "C63": {
  "note": "Over R. Shortest way for hues at most a turn and a half apart; refuted beyond.",
  "status": "partial"
 },
 "C67": {
  "note": "clerp fully proved except the arc when angle(v)-angle(u) < -PI (defect C20); clerpMaxAngle length refuted.",
  "status": "partial"
 },
 "C68": {
  "note": "Over R.",
  "status": "proved"
 },
 "C69": {
  "note": "Finding: mirrored of a coordinate the vector lacks returns null, mirror leaves the vector alone.",
  "status": "proved"
 },
 "C70": {
  "note": "Over R.",
  "status": "proved"
 },
 "C71": {
  "note": "Unit length and termination proved; any direction refuted: components are never negative.",
  "status": "partial"
 },
 "C72": {
  "note": "Over R."
 },
 "C73": {
  "note": "Over R.",
  "status": "proved"
 },
 "C74": {
  "note": "Over R.",
  "status": "proved"
 },
 "C75": {
  "note": "False for GaussJordan on a matrix of NaNs only (C75_gaussJordan_double_partial says when); proved for everything else.",
  "status": "partial"
 },
 "C77": {
  "note": "Flags of matrices and rays over R, the rest in floats and doubles. False for points inside circles (C77_circle_refuted).",
  "status": "partial"
 },
 "C78": {
  "note": "For any arithmetic. Each method is proved for the arguments for which it holds; false for the others (C78_*_refuted).",
  "status": "partial"
 },
 "C79": {
  "note": "Holds after optimize(). Before it the flags are those of the old matrix, and products and inverses are wrong (C79_*_refuted).",
  "status": "partial"
 },
 "C80": {
  "note": "For IEEE-754 binary numbers of any format, doubles and floats included; differs, boxes and transpose for any arithmetic.",
  "status": "proved"
 },
 "C81": {
  "note": "For IEEE-754 binary numbers of any format; the squares must stay in range.",
  "status": "proved"
 },
 "C82": {
  "note": "For IEEE-754 binary numbers of any format; the products must stay in range.",
  "status": "proved"
 },
 "C83": {
  "note": "For IEEE-754 binary numbers of any format.",
  "status": "proved"
 },
 "C84": {
  "note": "For IEEE-754 binary numbers of any format; scalar and vector right-hand sides, result in place or not.",
  "status": "proved"
 },
 "C85": {
  "note": "For IEEE-754 binary numbers of any format.",
  "status": "proved"
 },
 "C86": {
  "note": "Over R. With two points the closed spline is not smooth (C15_closed_two_points_refuted).",
  "status": "proved"
 },
 "C87": {
  "note": "For IEEE-754 binary numbers of any format.",
  "status": "proved"
 },
 "C88": {
  "note": "Text output (describe, StringMaker) is not modelled.",
  "status": "proved"
 },
 "C89": {
  "note": "For any arithmetic. GaussJordan returns in doubles unless all entries are NaN (C75). The blocks are the arrays of Model/Allocation.v.",
  "status": "proved"
 },
 "C90": {
  "note": "Full for TriDiagonal::solve. Refuted for the others: blocks are leaked when a later allocation fails, and solveCyclic and closedBezierSpline may have overwritten their result.",
  "status": "partial"
 },
 "C91": {
  "note": "The points may be in p3. Refuted: the points in p2, p3end in p3.",
  "status": "partial"
 },
 "C92": {
  "status": "proved",
  "note": "For IEEE-754 binary numbers of any format, with explicit margins."
 },
 "C93": {
  "status": "partial",
  "note": "Full for boxes, for planes with finite distances and slopes, for spheres and segments with coordinates up to 2^253 (floats 2^29). Refuted beyond: an overflow is reported as a hit with parameter NaN."
 },
 "C94": {
  "status": "partial",
  "note": "Full except that the constants for pi/3 and pi/6 are not the nearest doubles (refuted, within one unit in the last place), and that whole degrees need not come back exactly (refuted)."
 },
 "C95": {
  "status": "partial",
  "note": "Full except for the upper ends: rand(f) and randBetween(a, b) can exceed f and b by a rounding (refuted in doubles and floats)."
 },
 "C96": {
  "status": "proved",
  "note": "For any libm whose sin and cos are off by at most k roundings of 1; correctly rounded functions have k = 1."
 },
 "C97": {
  "status": "partial",
  "note": "Mat3::slerp is proved in full: exact on the arc, within 1/15 when the ends are close. Mat2::slerp takes the long way when the angles differ by less than -PI (refuted). slerpMaxAngle of Mat3 forgets the start, and from the identity it can miss a target that is within the limit (refuted). Mat34 loses the translation."
 },
 "C98": {
  "status": "partial",
  "note": "Proved for every order and every conforming compiler. Refuted for functions that read OneX, OneW or multiples of PI when they are called from the initialiser of a user's global that runs first: setIdentity, clerp, the cosine easing and the default translation of Mat4."
 },
 "C99": {
  "status": "partial",
  "note": "Proved for the 18 types printed with max_digits10 digits, for any format with 2^p < 10^16. Refuted for Mat2, Mat3, Mat34, Mat4 and Frustum, printed with 4 decimals: a failed match can show the same text twice; what holds is agreement to four decimals."
 },
 "C100": {
  "status": "partial",
  "note": "Error bounds proved for every matrix whose determinant exceeds the rounding errors. Recognition of singular matrices proved for Mat2 and for whole numbers, refuted for Mat3 in general."
 },
 "C101": {
  "status": "partial",
  "note": "All error bounds proved. That a walk ends exactly at the last control point is refuted."
 },
 "C102": {
  "status": "partial",
  "note": "All error bounds proved for dominant diagonals. That every regular system is solved is refuted in doubles."
 },
 "C103": {
  "status": "proved",
  "note": "All bounds proved, with a case in doubles and a proof that libraries with the assumed accuracy exist. slerpNoInvert, squad, log and exp are not covered here; C47 and related properties treat them in real numbers."
 },
 "C104": {
  "status": "proved",
  "note": "All bounds proved for any binary format, with a cube in doubles as a case. The narrowing of distances to float is shown for doubles and floats."
 },
 "C105": {
  "status": "proved",
  "note": "All bounds proved for any binary format, with cases in doubles. The literal 1e-4 is shown to be close in doubles and floats."
 },
 "C106": {
  "status": "proved",
  "note": "All bounds proved for any binary format, with cases in doubles. The hits functions may also answer true for a ray that misses the box, as noted for the exact model; the theorem says what the value means when the ray does enter."
 },
 "C107": {
  "status": "partial",
  "note": "All bounds and the exact parts are proved for any binary format. Missing because false: C107_outer_refuted, C107_centered_refuted, C107_added_refuted and C107_point_refuted show in doubles that containment without slack fails."
 },
 "C108": {
  "status": "partial",
  "note": "All bounds are proved for any binary format. The transforms are assumed to have their identity flag only on the identity; optimize sets it within a tolerance. Missing because false: C108_compose_refuted and C108_undo_refuted show in doubles that composition and inversion are not exact."
 },
 "C109": {
  "status": "partial",
  "note": "The order facts of the curves with pow and cos assume those two functions monotone and right at the ends (fair_curves), which C109_curves_case shows can hold. Missing because false: C109_centered_half_refuted, C109_centered_inside_refuted and C109_long_way_double_refuted."
 },
 "C110": {
  "status": "partial",
  "note": "Bounds grow as the axis becomes badly determined: 45 d over the length of the vector part. log and exp(log) for scalar parts up to 0.95, slerpNoInvert for products from -0.95. The bound between vectors is about 131000 roundings, and C110_between_turns needs 30 bits. Missing because false: C110_small_lost_refuted and C110_opposite_refuted."
 },
 "C111": {
  "status": "partial",
  "note": "Missing because false: lerp and pointAt at ratio 1 (C111_lerp_end_refuted, C111_pointAt_end_refuted) and a hue below 360 (C111_hue_refuted)."
 },
 "C112": {
  "status": "proved",
  "note": ""
 },
 "C113": {
  "status": "partial",
  "note": "Vec2::clerpMaxAngle between equal vectors gives NaN (C113_limit_refuted, any format); everything else in the statement is proved."
 },
 "C114": {
  "status": "partial",
  "note": "Proved for doubles with every int difference and for floats with differences up to 2^24. Beyond that floats overshoot or are undefined (C114_beyond_refuted)."
 }
}