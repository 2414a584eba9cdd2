{"id": "C01", "title": "An envelope built by expanding over points is the smallest box containing them", "statement": "Starting from a null Envelope and calling expand_to_include_coordinate/expand_to_include_xy for each point of a list of non-NaN points, the result covers every point of the list, every envelope that covers all the points covers the result, and the result does not depend on the order of the points. On the empty list it is null.", "quantifier": "all finite lists of points without NaN ordinates, all orders of insertion", "why_tests_cant": "The claim quantifies over lists of unbounded length and all permutations; tests only try a few hand-picked points.", "anchors": ["src/core/geom/envelope.rs: Envelope::expand_to_include_xy, expand_to_include_coordinate, covers_xy, covers_envelope", "src/core/geom/coordinate_arrays.rs: CoordinateArrays::envelope"]}
{"id": "C02", "title": "Envelope covers is point-set containment", "statement": "covers_envelope(a,b) is true exactly when both are non-null and every point covered by b is covered by a; covers is reflexive on non-null envelopes, transitive and antisymmetric up to equals; contains_envelope is the same predicate; covers_xy(x,y) is the closed box test. Copying an envelope gives an equal one. contains_xy, contains_coordinate and covers_coordinate are the same tests; init takes over another envelope; set_to_null leaves an envelope that holds no point and neither covers, meets nor is covered by any other.", "quantifier": "all pairs/triples of well-formed envelopes and all points (any f64 including infinities)", "why_tests_cant": "Universally quantified over all points of the plane and all triples of boxes.", "anchors": ["src/core/geom/envelope.rs: covers_envelope, covers_xy, contains_envelope, contains_properly"]}
{"id": "C03", "title": "Envelope intersects means having a common point", "statement": "intersects_envelope(a,b) holds exactly when some point is covered by both; it is symmetric, it is the negation of disjoint, and it is false when either is null. The static segment-pair and point-in-segment-box tests (intersects_3, intersects_4) agree with building the boxes first. The overlaps_* methods and intersects_coordinate are the same tests for points without NaN.", "quantifier": "all pairs of well-formed envelopes; all point quadruples without NaN", "why_tests_cant": "The witness point must be produced for every pair of boxes.", "anchors": ["src/core/geom/envelope.rs: intersects_envelope, disjoint, intersects_3, intersects_4"]}
{"id": "C04", "title": "Intersection envelope is the set intersection", "statement": "intersection_envelope(a,b) covers a point exactly when both a and b cover it, and is null exactly when a and b do not intersect.", "quantifier": "all pairs of well-formed envelopes and all points", "why_tests_cant": "Quantifies over all points of the plane.", "anchors": ["src/core/geom/envelope.rs: intersection_envelope"]}
{"id": "C05", "title": "Expanding envelopes is a join", "statement": "expand_to_include_envelope is commutative, associative, idempotent, has the null envelope as unit, its result covers both arguments and is the smallest such envelope.", "quantifier": "all triples of well-formed envelopes", "why_tests_cant": "Lattice laws over all f64 boxes including infinities and signed zeros.", "anchors": ["src/core/geom/envelope.rs: expand_to_include_envelope"]}
{"id": "C06", "title": "Null envelope stays null and buffering is monotone", "statement": "Translating or expanding a null envelope leaves it null; expand_by a non-negative distance gives an envelope covering the original; expand_by a negative distance gives null or an envelope covered by the original; translate never turns a non-null envelope of finite corners into a null one. For bounds and offsets up to 2^1000 each side of the expanded or translated envelope is the exact one rounded once, and an expanded envelope is null only if the exact one is empty.", "quantifier": "all well-formed envelopes, all finite offsets", "why_tests_cant": "Depends on monotonicity of IEEE rounding for every operand.", "anchors": ["src/core/geom/envelope.rs: expand_by, expand_by_delta_xy, translate"]}
{"id": "C07", "title": "Envelope distance is zero exactly on intersecting envelopes and is symmetric", "statement": "distance_envelope(a,b) is symmetric; it is zero when the envelopes intersect, and positive when they are disjoint and the gap does not vanish in rounding; when the boxes overlap in one axis it is the exact rounded gap in the other axis. For bounds up to 2^900 it is the least distance of the points of the two boxes up to a relative 2^-51 (distance zero or at least 2^-900).", "quantifier": "all pairs of non-null envelopes", "why_tests_cant": "Sign and zero facts for every f64 operand.", "anchors": ["src/core/geom/envelope.rs: distance_envelope"]}
{"id": "C08", "title": "Envelope comparison is a total order consistent with equality", "statement": "compare_to_envelope is antisymmetric, transitive, and returns 0 exactly on equal envelopes, with every null envelope below every non-null one.", "quantifier": "all triples of well-formed envelopes", "why_tests_cant": "Order laws over all triples.", "anchors": ["src/core/geom/envelope.rs: compare_to_envelope, equals"]}
{"id": "C09", "title": "Point intersects and point covers agree", "statement": "intersects_xy(x,y) and covers_xy(x,y) give the same answer for every envelope and non-NaN x, y. Defect: with NaN ordinates a point intersects every non-null envelope although it is covered by none.", "quantifier": "all well-formed envelopes, all f64 x, y", "why_tests_cant": "NaN operands make the negated comparison form differ; tests use finite numbers.", "anchors": ["src/core/geom/envelope.rs: intersects_xy, covers_xy"]}
{"id": "C10", "title": "Coordinate comparison is a total order", "statement": "Coordinate::compare_to is a total order on coordinates without NaN x/y: antisymmetric, transitive, returns only -1, 0, 1, and returns 0 exactly when equals_2d holds. With NaN ordinates these laws fail.", "quantifier": "all triples of coordinates", "why_tests_cant": "Order laws over all triples of f64 pairs.", "anchors": ["src/core/geom/coordinate.rs: compare_to, equals_2d"]}
{"id": "C11", "title": "Coordinate equality laws", "statement": "equals_2d is symmetric and transitive, and reflexive on non-NaN coordinates; equals_3d implies equals_2d and treats two NaN Z values as equal; equals_2d_with_tolerance is symmetric and implied by equals_2d for a non-negative tolerance on finite coordinates. Coordinates::equal with tolerance zero is equality of X and Y; with a positive tolerance it accepts points within the tolerance and rejects points farther apart, up to a relative 2^-51 of the distance; a negative tolerance accepts nothing. equal_in_z is symmetric, accepts Z values within the tolerance, rejects values farther apart than any larger double, and rejects a missing Z.", "quantifier": "all coordinates, all tolerances", "why_tests_cant": "Universally quantified laws on f64 with NaN and signed zero.", "anchors": ["src/core/geom/coordinate.rs: equals_2d, equals_3d, equals_2d_with_tolerance"]}
{"id": "C12", "title": "Copying a coordinate preserves every ordinate", "statement": "from_coordinate copies X, Y, Z and M. set_coordinate copies X, Y and Z but leaves the target's own M (defect). For the ordinate indices 0, 1, 2 set_ordinate followed by get_ordinate reads the written value and leaves the other ordinates alone; index 3 (M) is ignored by set_ordinate and read as None (defect). Each of set_x, set_y, set_z and set_m writes its own ordinate and no other.", "quantifier": "all coordinates, all ordinate indices", "why_tests_cant": "The M ordinate is silently dropped; tests compare X and Y only.", "anchors": ["src/core/geom/coordinate.rs: set_coordinate, get_ordinate, set_ordinate, from_coordinate"]}
{"id": "C13", "title": "Coordinate array comparison is lexicographic and a total order", "statement": "CoordinateArrays::compare orders arrays lexicographically by point order with a proper prefix first, is antisymmetric and transitive, and is 0 exactly for arrays equal pointwise in 2D.", "quantifier": "all triples of coordinate arrays without NaN", "why_tests_cant": "Arrays of unbounded length.", "anchors": ["src/core/geom/coordinate_arrays.rs: CoordinateArrays::compare"]}
{"id": "C14", "title": "Removing repeated points", "statement": "remove_repeated_points returns a list with no two consecutive 2D-equal points, which is the input with exactly the points dropped that equal their predecessor; it keeps the first point, is idempotent, and has_repeated_points of the result is false.", "quantifier": "all coordinate arrays without NaN", "why_tests_cant": "Induction over array length needed.", "anchors": ["src/core/geom/coordinate_arrays.rs: has_repeated_points, remove_repeated_points", "src/core/geom/coordinate_list.rs"]}
{"id": "C15", "title": "Removing invalid points leaves only valid points", "statement": "remove_repeated_or_invalid_points returns no consecutive repeats; when the array has a repeat, or an invalid (non-finite) point after the first, or a valid first point, it returns exactly the valid points with consecutive repeats dropped. An invalid point survives exactly when it is the first element and the rest is valid without repeats (the check skips the first element), so the claim that the result never holds an invalid point is false.", "quantifier": "all coordinate arrays", "why_tests_cant": "The failing inputs have their only defect in the first element.", "anchors": ["src/core/geom/coordinate_arrays.rs: has_repeated_or_invalid_points, remove_repeated_or_invalid_points"]}
{"id": "C16", "title": "Array reversal is exact", "statement": "to_coordinate_array_forward(false) returns the points in exactly reversed order and doing it twice restores the array; is_equal_reversed is true exactly when the first array equals the reverse of the second and panics when the second array is shorter; copy_deep copies exactly and copy_deep_to replaces exactly the requested range.", "quantifier": "all coordinate arrays", "why_tests_cant": "All lengths, odd and even.", "anchors": ["src/core/geom/coordinate_arrays.rs: reverse"]}
{"id": "C17", "title": "Scrolling an array is a rotation", "statement": "scroll_index with index i rotates the array by i positions: the result is the suffix from i followed by the prefix; it is a permutation of the input; on a closed ring the result is again a closed ring starting at vertex i that visits the same cyclic sequence of vertices; scroll_coordinate starts at the requested point. The one exception: ensure_ring on a one-point array with a non-zero index returns a default coordinate instead of the point.", "quantifier": "all arrays, all indices", "why_tests_cant": "All lengths and indices.", "anchors": ["src/core/geom/coordinate_arrays.rs: scroll_coordinate, scroll_index, scroll_index_ensure_ring"]}
{"id": "C18", "title": "Increasing direction is reversed by reversing the array", "statement": "increasing_direction returns 1 or -1; for an array that is not a palindrome in 2D, reversing the array negates it; for a palindrome it is 1.", "quantifier": "all coordinate arrays without NaN", "why_tests_cant": "Two-ended scan over all lengths.", "anchors": ["src/core/geom/coordinate_arrays.rs: increasing_direction"]}
{"id": "C19", "title": "Extracting a sub-array", "statement": "Documented: extract(pts,start,end) returns the points from start to end inclusive after clamping. Actual, for every input, with or without overflow checks: a call that returns at all returns the empty array, every in-range request for start < end panics, and the theorem tells exactly which calls return and which panic in each build; so the documented claim is false.", "quantifier": "all arrays and index pairs", "why_tests_cant": "Behaviour for every index pair.", "anchors": ["src/core/geom/coordinate_arrays.rs: extract"]}
{"id": "C20", "title": "Dimension consistency keeps ordinate values", "statement": "enforce_consistency keeps X, Y and Z of every point and leaves an array unchanged whose points already agree. M is never kept: the M of every result point is 0 or NaN as decided by the requested dimension and measures. The mixed-dimension result need not be consistent.", "quantifier": "all coordinate arrays, all dimension/measure requests", "why_tests_cant": "All mixtures of ordinate structure.", "anchors": ["src/core/geom/coordinate_arrays.rs: enforce_consistency_array, enforce_consistency_array_dim_measures"]}
{"id": "C21", "title": "Search functions on arrays", "statement": "min_coordinate returns an element not greater than any element, None only on the empty array; index_of returns the first index of a 2D-equal point or -1; pt_not_in_list returns a point of the first list not in the second, or None when none exists; envelope is the smallest box of the points. at_least_n_coordinates_or_nothing returns its argument when it has at least n members and the empty array otherwise.", "quantifier": "all coordinate arrays without NaN", "why_tests_cant": "Induction over length.", "anchors": ["src/core/geom/coordinate_arrays.rs: min_coordinate, index_of, pt_not_in_list, envelope, intersection"]}
{"id": "C22", "title": "Coordinate list without repeats", "statement": "A CoordinateList filled by adding coordinates with allow_repeated=false never holds two consecutive 2D-equal points; with allow_repeated=true it holds exactly the added sequence; close_ring makes the list closed and appends at most one point; insertion at an index with allow_repeated=false does not create an adjacent repeat. A list made from an array holds exactly its coordinates.", "quantifier": "all histories of add operations", "why_tests_cant": "All operation histories.", "anchors": ["src/core/geom/coordinate_list.rs: add_coordinate_repeated, add_index_coordinate_repeated, add_coordinate_list_repeated, close_ring"]}
{"id": "C23", "title": "Adding a coordinate list backward", "statement": "Documented: add_coordinate_list_repeated_direction with direction=false adds the points in reverse order. Actual: it panics for every list; the forward direction appends exactly the points. Range additions append exactly the half-open range when ascending; descending ranges append the reversed range in a build without overflow checks and panic in a build with them.", "quantifier": "all coordinate lists", "why_tests_cant": "Totality claim over all inputs.", "anchors": ["src/core/geom/coordinate_list.rs: add_coordinate_list_repeated_direction, add_coordinate_list_repeated_start_end"]}
{"id": "C24", "title": "Coordinate sequence comparator is a total preorder", "statement": "compare_f64 returns -1, 0 or 1 and is a total order on all f64 with NaN lowest and equal to itself and the two zeros equal. compare_coordinate_array_sequence orders sequences first by dimension (capped by the limit), then lexicographically by points, then by ordinates, with a proper prefix first; it is antisymmetric and transitive and never panics for sequences of at most 2^31 points.", "quantifier": "all triples of f64 including NaN, all sequences of at most 2^31 points, all dimension limits", "why_tests_cant": "Total order including NaN, unbounded sequences.", "anchors": ["src/core/geom/coordinate_sequence_comparator.rs: compare_f64, compare_coordinate_array_sequence"]}
{"id": "C25", "title": "Transposing a matrix exchanges the roles of the geometries", "statement": "transpose is an involution; m.is_within is the transpose of is_contains; is_covers the transpose of is_covered_by; is_equals, is_intersects, is_disjoint, is_overlaps, is_touches are invariant under transpose with the dimensions exchanged; is_crosses likewise.", "quantifier": "all 3x3 matrices of i32, all dimension pairs", "why_tests_cant": "All matrices, not only those in tests.", "anchors": ["src/core/geom/intersection_matrix.rs: transpose, is_within, is_contains, is_covers, is_covered_by, is_touches, is_crosses, is_overlaps, is_equals, is_intersects, is_disjoint"]}
{"id": "C26", "title": "Predicates agree with their DE-9IM patterns", "statement": "Each named predicate holds exactly when the matrix matches the documented DE-9IM pattern(s): disjoint FF*FF****, intersects the complement, within T*F**F***, contains T*****FF*, covers/coveredBy their four patterns, equals T*F**FFF* with equal dimensions, touches, crosses and overlaps by dimension case. Matching a text pattern is the nine-fold cell test; the matching of two texts is the matching of the matrix read from the first.", "quantifier": "all matrices with valid dimension entries (F, 0, 1, 2), all dimension pairs", "why_tests_cant": "Pattern tables are only sampled by tests.", "anchors": ["src/core/geom/intersection_matrix.rs: matches_string, is_*"]}
{"id": "C27", "title": "Matrix text form round trip", "statement": "to_string gives nine characters for every matrix of valid dimension values, parsing it back gives the same matrix, and parsing any nine-symbol string then printing gives its upper-case form. The four locations have distinct symbols and no other number has one; opposite exchanges left and right and keeps every other position.", "quantifier": "all matrices of valid dimension values, all 9-symbol strings", "why_tests_cant": "6^9 matrices.", "anchors": ["src/core/geom/intersection_matrix.rs: to_string, set_string, new_with_elements", "src/core/geom/dimension.rs"]}
{"id": "C28", "title": "Matrix accumulation laws", "statement": "add is the cell-wise maximum: commutative, associative, idempotent and growing; after any history of set_at_least each cell is the maximum of its initial value and the values requested for it, whatever the order; matching of a pattern made of the symbols T and * is preserved by add for matrices of dimensions F,0,1,2 (and fails when a cell holding T meets F). Raising the cells to a string of at most nine characters makes every cell whose symbol is read the larger of its value and the symbol's and keeps the others; set_all sets every cell.", "quantifier": "all i32 matrices and all histories of updates", "why_tests_cant": "All update histories.", "anchors": ["src/core/geom/intersection_matrix.rs: add, set_at_least, set_at_least_if_valid, set_at_least_string, matches_string"]}
{"id": "C29", "title": "Reversing a coordinate sequence", "statement": "CoordinateArraySequences::reverse puts into point i the first (dimension) of X, Y, Z of point n-1-i and leaves the other ordinates, in particular every M, where they were. Hence without M values it is the reversed point list, reversing twice is always the identity, and with M values the M values do not move with their points (defect). The packed version moves every ordinate and is an involution.", "quantifier": "all sequences of all dimensions", "why_tests_cant": "All lengths and ordinate structures.", "anchors": ["src/core/geom/coordinate_array_sequences.rs: reverse, swap", "src/core/geom/implementation/coordinate_array_sequence.rs"]}
{"id": "C30", "title": "Closing a ring sequence", "statement": "For a non-empty array sequence of dimension at least 2, ensure_valid_ring returns a sequence that starts with the input points (X, Y and, for dimension 3, Z), is continued with the first point, has at least four points and is_ring when the first point has no NaN; a valid ring is returned unchanged. create_closed_ring and extend pad with the first and the last point and panic when the size is too small (create_closed_ring). M values are lost (defect). The packed versions of ensure_valid_ring, create_closed_ring and extend keep every ordinate.", "quantifier": "all non-empty coordinate sequences", "why_tests_cant": "All lengths incl. 1, 2, 3.", "anchors": ["src/core/geom/coordinate_array_sequences.rs: ensure_valid_ring, create_closed_ring, extend, is_ring"]}
{"id": "C31", "title": "Scrolling a sequence", "statement": "scroll_index rotates the sequence: position j gets (the first dimension of X, Y, Z of) point (i+j) mod last, where last excludes the closing point of a ring, and a ring stays a ring. scroll_coordinate puts a point with that X, Y first, or leaves the sequence unchanged if there is none. index_of is the first 2D match or -1, min_coordinate_index the first smallest point, is_equal compares the shared ordinates with NaN equal to NaN. scroll_index with a positive index panics on the empty sequence (defect).", "quantifier": "all sequences of dimension at least 2 (of at most 2^31 points where an index is returned), all indices; NaN-free X, Y for the minimum and for rings", "why_tests_cant": "All lengths and indices.", "anchors": ["src/core/geom/coordinate_array_sequences.rs: scroll_index_coordinate_sequence, scroll_index_ensure_ring, min_coordinate_index_sequence, index_of"]}
{"id": "C32", "title": "Packed sequences agree with array sequences", "statement": "A packed double sequence and an array sequence holding the same XY or XYZ ordinates give the same size, ordinates, ring test, equality, envelope, index_of, minimum index and coordinate array, and stay in step under every history of ordinate assignments and under swap, reverse, scroll (by index and to a coordinate) and ensure_valid_ring. set_ordinate changes only the addressed ordinate in both.", "quantifier": "all sequences of dimension 2 and 3, all indices", "why_tests_cant": "Refinement over all contents and update histories.", "anchors": ["src/core/geom/implementation/packed_coordinate_sequence_double.rs", "src/core/geom/implementation/coordinate_array_sequence.rs"]}
{"id": "C33", "title": "Packed sequences can be created from coordinates", "statement": "Every constructor of a packed sequence from a non-empty coordinate array panics, for every dimension and measure count (defect: it writes into an empty vector); only the empty array works. Construction from raw ordinates and copying keep them exactly. The factory makers from raw ordinates take the dimension given and the measures given, or none.", "quantifier": "all non-empty coordinate arrays, all dimensions", "why_tests_cant": "Totality over all inputs.", "anchors": ["src/core/geom/implementation/packed_coordinate_sequence_double.rs: new_coordinates, new_coordinates_dimension, new_coordinates_dimension_measures", "src/core/geom/implementation/packed_coordinate_sequence_factory.rs"]}
{"id": "C34", "title": "Clamp stays in range", "statement": "MathUtil::clamp_f64/clamp_i32 returns a value in [min,max] for min<=max, equal to the argument when it is already in the range, and is monotone and idempotent. average lies between its arguments when their sum is at most 2^1023 in magnitude, and is infinite for some larger ones.", "quantifier": "all f64 / i32 arguments without NaN", "why_tests_cant": "All f64 values.", "anchors": ["src/core/util/math_util.rs: clamp_f64, clamp_i32, clamp_max"]}
{"id": "C35", "title": "Wrap stays in range", "statement": "MathUtil::wrap(index,max) is congruent to index modulo max and lies in [0,max], and equals max exactly for negative multiples of max (so the claim that it lies in [0,max) is false); it panics for i32::MIN. MathUtil::ceil is the mathematical ceiling for a positive denominator (and is wrong for negative ones).", "quantifier": "all i32 index, all positive max", "why_tests_cant": "All residues.", "anchors": ["src/core/util/math_util.rs: wrap", "src/core/util/math_util.rs: ceil"]}
{"id": "C36", "title": "Low-discrepancy generator stays in the unit interval", "statement": "quasirandom(curr) and quasirandom_2 return a value in [0,1) whenever curr and alpha are in [0,1), so every iterate from a seed in [0,1) is in [0,1). Each step adds alpha modulo 1 within 2^-52, and without an alpha the golden section (sqrt 5 - 1)/2 within 2^-51.", "quantifier": "all f64 seeds in [0,1), all numbers of iterations", "why_tests_cant": "Depends on rounding for every operand and on unbounded iteration.", "anchors": ["src/core/util/math_util.rs: quasirandom, quasirandom_2"]}
{"id": "C37", "title": "Shuffle returns a permutation", "statement": "Documented: MathUtil::shuffle(n) returns a permutation of 0..n. Actual: it panics for every n and every random stream, because the array is never allocated; its swapping loop does permute an allocated array for every random stream.", "quantifier": "all n and all random streams", "why_tests_cant": "Randomised; a claim about every stream.", "anchors": ["src/core/util/math_util.rs: shuffle"]}
{"id": "C38", "title": "Double-double sum of two doubles is exact", "statement": "A DD built from a double, plus or minus a double, represents the exact real sum or difference as hi+lo, and the result is normalised (hi is hi+lo rounded to nearest), for operands up to 2^1024-2^973 in absolute value whose rounded sum does not overflow. Defect: within the last few doubles below overflow this fails: DD(-3*2^970) plus the largest double does not overflow but gives NaN. Copying, setting from and building from parts keep the represented value, and the in-place divisions agree with the plain ones.", "quantifier": "all pairs of finite f64 up to 2^1024-2^973 whose sum does not overflow", "why_tests_cant": "Error-free transformation over all 2^128 operand pairs.", "anchors": ["src/core/math/dd.rs: DD::value_of_f64, self_add_f64, add_f64, subtract_f64"]}
{"id": "C39", "title": "Double-double product of two doubles is exact", "statement": "A DD built from a double times a double (multiply_f64, and sqr_f64) represents the exact real product and is normalised, for factors |x| <= 2^k, |y| <= 2^l with k,l <= 990, k+l <= 1010, when the product is zero or at least 2^-969 in absolute value. Defects outside: 2^-600 squared is reported as zero, and 2^1000 times 8 does not overflow but gives NaN.", "quantifier": "all pairs of finite f64 in the stated range", "why_tests_cant": "Dekker product over all operand pairs.", "anchors": ["src/core/math/dd.rs: DD::multiply_f64, self_multiply_hi_lo"]}
{"id": "C40", "title": "Double-double ordering", "statement": "equals, lt, le, gt, ge, compare_to on normalised DD values order them by the real value hi+lo; is_zero/is_negative/is_positive/signum agree with the sign of that value; negate flips the sign; abs, min, max are correct.", "quantifier": "all normalised finite DD values", "why_tests_cant": "All pairs of DD values.", "anchors": ["src/core/math/dd.rs: compare_to, lt, le, gt, ge, equals, signum, negate, abs, min, max"]}
{"id": "C41", "title": "Double-double rounding to integers", "statement": "floor, ceil, trunc of a normalised DD have as value hi+lo the integer floor, ceiling and truncation of the argument's value; rint of a DD made from a double has the value floor(x+1/2); NaN maps to NaN. int_value is the truncation of the high part, which is the truncation of the value unless that lies within 2^-20 of an integer. Defects: a number just below 3 has int_value 3; the result of floor need not be normalised (floor of 1-2^-60 is the pair (1,-1), of value 0, for which is_zero is false), and rint changes the number it is called on by adding 1/2.", "quantifier": "all normalised DD values", "why_tests_cant": "Boundary cases where hi is an integer and lo is not.", "anchors": ["src/core/math/dd.rs: floor, ceil, trunc, rint"]}
{"id": "C42", "title": "Orientation fast filter is sound", "statement": "Whenever the fast floating-point orientation filter gives a definite answer, it is the sign of the exact determinant of the three points and it is what Orientation::index returns, for ordinates up to 2^500 in absolute value and exact products that are zero or at least 2^-990. Defect outside: for (2^-600,0), (0,2^-600), (0,0) the products underflow and the filter says collinear.", "quantifier": "all triples of finite f64 points with ordinates up to 2^500 whose products do not underflow", "why_tests_cant": "Rounding-error bound over all operands (Shewchuk-style filter).", "anchors": ["src/core/algorithm/cg_algorithms_dd.rs: orientation_index_filter, orientation_index, DP_SAFE_EPSILON"]}
{"id": "C43", "title": "Orientation is exact on grid coordinates", "statement": "For points whose ordinates are n*2^e with |n| <= 2^49 and -440 <= e <= 420 (for example all integers up to 2^49), Orientation::index is exactly the sign of the determinant. The same holds up to |n| <= 2^52 (-440 <= e <= 418), and for any ordinates that are 0 or from 2^-388 to 2^470 in size when the four differences taken are doubles. So it is antisymmetric under exchanging two points and invariant under rotation of the three points.", "quantifier": "all triples of grid points", "why_tests_cant": "All coordinate triples; the exact arithmetic path must be shown error free.", "anchors": ["src/core/algorithm/orientation.rs: Orientation::index", "src/core/algorithm/cg_algorithms_dd.rs: orientation_index_xy"]}
{"id": "C44", "title": "Orientation changes sign when the base segment is reversed", "statement": "Orientation::index(p2,p1,q) = -Orientation::index(p1,p2,q) whenever the fast filter decides (ordinates up to 2^500), and for all points on a common grid as in C43. Defect: not for all finite points: for p1=(0,2^-107), p2=(1/2,-1/2), q=(2^-107,0) the answers are 0 and -1.", "quantifier": "all triples of points in the stated domains; refutation by a concrete triple", "why_tests_cant": "All operands, including those decided by the double-double path.", "anchors": ["src/core/algorithm/orientation.rs: index", "src/core/algorithm/cg_algorithms_dd.rs"]}
{"id": "C45", "title": "Orientation equals the exact sign for all finite points", "statement": "Orientation::index does not equal the sign of the exact determinant for every triple of finite points: (0,2^-107), (1/2,-1/2), (2^-107,0) turn counterclockwise and the answer is collinear; also where products underflow. (C42, C43 and C73 give the domains in which it is right.)", "quantifier": "refutation by concrete triples, the first with ordinates between 2^-107 and 1", "why_tests_cant": "Failure only at extreme magnitudes.", "anchors": ["src/core/algorithm/orientation.rs: index", "src/core/algorithm/cg_algorithms_dd.rs: orientation_index_filter"]}
{"id": "C46", "title": "Ring direction test tells the sign of the area of simple rings", "statement": "Orientation::is_ccw terminates without panic for every non-empty ring, of any coordinates including NaN, closed or not; it returns false for fewer than 4 points. On every closed ring of at least 3 steps between grid points (as in C43) it is false when the ring is flat and otherwise looks only at the top: it says whether the ring turns left at the highest vertex, or runs to the left along a flat top. For every simple ring (one that passes through each of its points once, repeated consecutive points allowed) this is exactly the sign of the enclosed area, which is not zero: true for counterclockwise, false for clockwise; so starting elsewhere changes nothing, reversing gives the opposite answer, and is_ccw_area agrees. Defects: the empty ring panics (usize underflow), and on a ring that crosses itself the answer can differ from the sign of the area. The same holds off the grid for simple rings of any doubles that are 0 or between 2^-388 and 2^470 in size, when the turn at the highest vertex is off straight by more than 2^-102 of the lengths of its sides, or the distances in x and y between its points are doubles; and so for every simple ring of horizontal and vertical steps.", "quantifier": "all non-empty coordinate sequences; all closed grid rings; all simple grid rings of any length; off the grid all simple rings of doubles that are clear at the top vertex or rectilinear", "why_tests_cant": "Loop termination for every input; a statement about all simple polygons, which rests on a Jordan curve argument.", "anchors": ["src/core/algorithm/orientation.rs: is_ccw_coordinate_array_sequence, is_ccw_vec"]}
{"id": "C47", "title": "Signed area is the shoelace area", "statement": "On closed rings with coordinates n*2^e, |n| <= k, and (number of points)*4*k^2 <= 2^53, Area::of_ring_signed equals the exact shoelace area (positive for clockwise rings; minus half the determinant for a triangle); it is negated by reversing the ring, unchanged by starting at another vertex, and is_ccw_area is true exactly when the shoelace sum is negative; it is 0 for fewer than 3 points; the vector and sequence variants return the same bits on every input and never panic. On every closed ring of n <= 2^50 points of any ordinates up to 2^480 in size, inside a box of width w and height h, the signed area is finite and within n(n+1)*2^-53*w*h + n*2^-1075 of the true one; so is_ccw_area tells the winding of every ring with a larger area, and reversing negates the area up to twice that. Documented as zero for flat rings, the area of a flat ring with larger ordinates can be negative (defect).", "quantifier": "all rings of all lengths", "why_tests_cant": "Summation over rings of unbounded length.", "anchors": ["src/core/algorithm/area.rs: of_ring_signed_vec, of_ring_signed_coordinate_sequence, of_ring_vec"]}
{"id": "C48", "title": "Length is a non-negative sum of segment lengths", "statement": "Length::of_line never panics, is 0 for at most one point, never negative and not decreased by appending points (absent NaN, and given that f64::hypot is never negative); on axis-parallel grid lines it is exactly the sum of the steps (given hypot(x,0) = |x|). For an accurate hypot the length of every line of n <= 2^50 points of any ordinates up to 2^900 in size, whose steps are empty or at least 2^-900 long, has a relative error of at most (n+2)*2^-52, and it is 0 exactly when all points coincide.", "quantifier": "all coordinate sequences", "why_tests_cant": "Unbounded sequences and rounding.", "anchors": ["src/core/algorithm/length.rs: of_line"]}
{"id": "C49", "title": "Point location entry points agree", "statement": "The vector, sequence and packed ring locators and the incremental counter return the same location for the same ring and point and never panic for rings of fewer than 2^31 points; PointLocation::is_in_ring is true exactly when the location is not Exterior.", "quantifier": "all rings and points", "why_tests_cant": "Equivalence of three implementations over all inputs.", "anchors": ["src/core/algorithm/ray_crossing_counter.rs: locate_point_in_ring, count_segment", "src/core/algorithm/point_location.rs: is_in_ring, locate_in_ring"]}
{"id": "C50", "title": "Point location obeys the even-odd rule and is constant off the ring", "statement": "For closed rings and points on a grid n*2^e, |n| <= 2^49, the location is Boundary exactly when the point lies on some segment of the ring, otherwise Interior exactly when the number of segments crossed by the half-open ray to the right is odd; hence it does not depend on the direction of the ring or on the starting vertex; a point outside the ring's envelope is Exterior; in a counterclockwise triangle Interior means strictly left of all three sides; two points joined by a path of straight steps that avoids the ring are located alike, and a step that crosses exactly one segment of the ring goes from Interior to Exterior or back. Around a point off a simple ring the winding number is 0 or the sign of the area, and Interior means that it is not 0; the interior is on the left of a simple ring exactly when is_ccw says true. Off the grid, for any doubles that are 0 or between 2^-388 and 2^470 in size, all of this holds for each point that, for every slanted segment whose box it is strictly inside, is off the segment's line by more than 2^-102 of its distance from the ends, or at distances in x and y that are doubles; and so always for rings of horizontal and vertical segments, and for points outside the envelope.", "quantifier": "all rings and points on a bounded grid; all real paths between them; all simple rings; off the grid all rings and points of doubles with clear orientations, and all rectilinear rings", "why_tests_cant": "All polygons and all points.", "anchors": ["src/core/algorithm/ray_crossing_counter.rs: count_segment, get_location"]}
{"id": "C51", "title": "On-line test", "statement": "PointLocation::is_on_line is true exactly when is_on_segment is true for some consecutive pair; on grid coordinates is_on_segment holds exactly when the point is a convex combination of the end points. Off the grid the same holds for doubles that are 0 or between 2^-388 and 2^470 in size when the point is not strictly inside the segment's box, or the segment is horizontal or vertical, or the point is off its line by more than 2^-102 of its distance from the ends, or at distances in x and y that are doubles.", "quantifier": "all lines and points", "why_tests_cant": "All inputs.", "anchors": ["src/core/algorithm/point_location.rs: is_on_segment, is_on_line_vec"]}
{"id": "C52", "title": "Point to segment distance", "statement": "Distance::point_to_segment, segment_to_segment, point_to_segment_string and point_to_line_perpendicular: evaluated in exact arithmetic they are the least Euclidean distance between the two point sets (zero exactly when they share a point, symmetric, independent of the order of the ends; the signed form is positive exactly to the right of the line). In doubles, for coordinates n*2^e with |n| <= 2^24 and |e| <= 400 and a hypot accurate to one unit in the last place, the results are within a relative error of 2^-51 of the least distance, hence zero exactly when the sets meet. For all doubles the results are never negative, and the chain distance is at most the distance to each segment. Segments so short that the squared length underflows give NaN, even from one of their ends. point_to_line_perpendicular on the same grid is within a relative error of 2^-51 of the distance to the line, and its signed form is positive exactly to the right. For ordinates of any kind between 2^-388 and 2^470 (or zero): the distance to a segment is within 2^-48 of the exact one in units of the distance to the first end, the distance to a chain within 2^-48 in units of the farthest vertex, the distance of two segments within 2^-47 in units of the largest distance of their ends, and the perpendicular distance, signed or not, within 2^-49 in units of the distance to the first point. Off the grid a zero distance does not tell whether segments meet: there are segments that meet at positive distance and segments apart at distance zero.", "quantifier": "all points, segments and chains (exact real arithmetic); all coordinates on a dyadic grid, and all of any magnitude from 2^-388 to 2^470 (doubles); all doubles (sign and chain bound)", "why_tests_cant": "All inputs.", "anchors": ["src/core/algorithm/distance.rs: point_to_segment, segment_to_segment, point_to_segment_string"]}
{"id": "C53", "title": "Line intersector classification", "statement": "RobustLineIntersector::compute_intersection_4 on points n*2^e with |n| <= 2^24: has_intersection is true exactly when the segments share a point; code 1 means they share exactly one point, which is reported exactly and as an input end point when not proper, and otherwise is the true point rounded within a relative 2^-100, inside both boxes, then rounded to the precision model if any; code 2 means the shared points are those between the two reported points; is_proper says that each line strictly separates the other's ends. For all doubles: code 0 when the boxes are disjoint, non-proper points are input end points, a proper point without a precision model is in both boxes or an input end point. compute_intersection_3 decides whether a point is on a segment. Defect: the public compute_intersect relies on lines stored by compute_intersection_4 and gives an end point instead of the crossing when called on its own. Z values: interpolation along a segment is exact at the ends and within 6*2^-53 of |z1| plus the part gained in between; a point that is an end keeps its own z; a proper crossing gets the mean of the two interpolated values; nearest_endpoint is an end at least distance from the other segment. Off the grid, for doubles that are 0 or between 2^-388 and 2^470 in size, the code, is_proper, the end points reported and the point-on-segment test are still right (a proper point is in both boxes or an end point) when each end point is clear of the other segment's line as in C73, or the boxes are disjoint; so always for two axis-parallel segments. For coordinates that are 0 or between 2^-47 and 2^80 a proper point is in both boxes and is the true one within the error of C54 and one rounding, when that error is less than its distance from the boxes' edges or than 2^-55 of the edge. A precision model changes nothing but a proper point, which it rounds; a new intersector has found nothing; when the lines are parallel in double-double arithmetic the fallback is the nearest end. Exchanging the segments or the ends of a segment changes neither has_intersection nor is_proper, nor, when it is not proper, the set of points reported.", "quantifier": "all segment pairs (points on a 2^24 grid of any scale from 2^-100 to 2^70; all doubles for the last part) and any earlier state", "why_tests_cant": "All input configurations.", "anchors": ["src/core/algorithm/robust_line_intersector.rs: compute_intersect, compute_collinear_intersection"]}
{"id": "C54", "title": "Line-line and line-segment intersection", "statement": "Intersection::intersection on points n*2^e with |n| <= 2^24 is None exactly for parallel lines and otherwise gives the one common point rounded within a relative 2^-100; HCoordinate::intersection (|n| <= 2^16) gives it correctly rounded, intersection_fp (|n| <= 2^14) within 3*2^-53 of its size plus that of the coordinates. Intersection::line_segment is None exactly when the segment misses the line, returns an end of the segment that is on the line unchanged, and otherwise a point in the segment's box that is the exact common point rounded within 2^-100. HCoordinate builds the line through two points as their cross product and two such lines meet in their common point. line_segment falls back to the end of the segment nearest to the line when the intersection is not computable. Off the grid, for coordinates up to B that are 0 or between 2^-47 and 2^80 in size: if the cross product w of the directions exceeds 2^-97*B^2, Intersection::intersection gives a point whose ordinates are the doubles nearest to numbers within 2^-96*B^2*(B+|m|)/|w| of the true ordinate m. HCoordinate::intersection on any finite points up to B gives a point whose ordinates are within 2^-45*B^2*(B+|m|)/|w| of the true ones when |w| exceeds 2^-45*B^2. intersection_fp loses accuracy with the extent D of the four points only, however far they are from the origin: its error is at most 2^-43*D^2*(D+|m-x1|)/|w| + 2^-53*|m|. line_segment on ends clear of the line is None exactly when the segment misses the line, and its point obeys the bound of Intersection::intersection. A finite point written in homogeneous coordinates reads back unchanged, the default is the origin, and the line through two points is the same formed from them or from their homogeneous coordinates.", "quantifier": "all line pairs with points on the given grids, scales 2^-100 to 2^70 (2^-130..2^130 and 2^-120..2^120 for the plain double versions); off the grid all doubles of the stated sizes (B and D from 2^-250 to 2^300 for the plain double versions)", "why_tests_cant": "All inputs.", "anchors": ["src/core/algorithm/intersection.rs: intersection, line_segment", "src/core/algorithm/cg_algorithms_dd.rs: intersection"]}
{"id": "C55", "title": "Angle normalisation ends in range, exactly for arguments up to 2^56", "statement": "Angle::normalize and normalize_positive, on every finite double of size at most 2^56, end with an angle in (-pi, pi], respectively [0, 2 pi), which is the argument shifted by whole turns up to rounding (2^-53 of the argument's size per turn), and return an angle already in range unchanged; on every larger finite double and on both infinities they never end (defect); NaN is returned as NaN. Angle::diff of two angles in [-pi, pi] is in [0, pi] and within 2^-50 of the smaller arc; it is symmetric in its arguments apart from the sign of zero. For an atan2 with values in [-pi, pi], angle_between is in [0, pi], angle_between_oriented and bisector in (-pi, pi], interior_angle in [0, 2 pi). is_acute and is_obtuse give the sign of the exact scalar product on points n*2^e with |n| <= 2^24, and for other ordinary doubles are right whenever the cosine of the angle exceeds 6*2^-53 in size. With an atan2 accurate to an absolute 2^-51, angle_coordinates is the direction of the vector up to 2^-51 on such grids and up to 5.1*2^-53 for all doubles of size at most 2^1022; for all those doubles interior_angle and angle_between (oriented or not) are within 2^-47 and 2^-48 of the true angle at the vertex, and bisector is halfway along the turn between them up to 2^-47. get_turn is the sign of the sine of the turn; sin_snap and cos_snap change a value only below 5e-16 and only to zero; project lands within a stated rounding error of the point at that distance and direction; to_degrees and to_radians have relative error at most 4 * 2^-53. The constants for pi/2 and pi/4 are within 2^-53 and 2^-54 of them. The three interior angles of any triangle of distinct points add up to pi, 3 pi or 5 pi within 3 * 2^-47; if no angle of the triangle is below 2^-46, to pi when it is walked clockwise and to 5 pi when counter-clockwise, each result being the angle at its corner, respectively a full turn less that angle, within 2^-47. The documented range [0, Pi) of angle_between is false at its upper end: opposite vectors give pi.", "quantifier": "all f64 angles; all coordinates; every atan2 with values in [-pi, pi]", "why_tests_cant": "Non-termination needs extreme inputs.", "anchors": ["src/core/algorithm/angle.rs: normalize, normalize_positive"]}
{"id": "C56", "title": "Quadrant laws", "statement": "quadrant_xy is -1 exactly on the zero vector and otherwise the unique quadrant given by the component signs; quadrant_coordinates is the same decision on the compared ordinates; a negated vector without zero component lies in the opposite quadrant; is_opposite is symmetric, irreflexive and holds exactly at distance two; common_half_plane is symmetric, -1 exactly for opposite quadrants, and otherwise contains both quadrants except for the pair NE/SE, where the code reports half plane 3 that by is_in_half_plane does not contain NE. NaN components are treated as negative.", "quantifier": "all quadrants, all f64 vectors", "why_tests_cant": "All vectors.", "anchors": ["src/core/geom/quadrant.rs: quadrant_xy, is_opposite, common_half_plane, is_in_half_plane"]}
{"id": "C57", "title": "Rounding to a precision model is idempotent and on the grid", "statement": "For a fixed model (scale factor, or grid size given as a negative scale) between 2^-900 and 2^900 and a value whose scaled magnitude is at most 2^50: make_precise returns the double nearest to a grid value n/scale (n*grid) with n within 1/2 (plus the rounding of the scaled value) of the scaled argument, and is idempotent. For every positive finite scale it is monotone on all values, infinities included. A floating model changes nothing, NaN is returned unchanged, make_precise_coordinate rounds X and Y and leaves Z and M alone. Without the bound a finite value can round to infinity. Setting the scale, copying a model and its grid size keep or give the scale they were told.", "quantifier": "all f64 values and scales in range", "why_tests_cant": "Rounding of every value.", "anchors": ["src/core/geom/precision_model.rs: make_precise, make_precise_coordinate, set_scale"]}
{"id": "C58", "title": "Precision model rounding, equality and order", "statement": "A fixed model rounds halves away from zero, so the documented asymmetric rounding (uniform under shifts by one step) fails; single-precision models leave values unrounded; two models are equal exactly when they are of one kind and have the same numeric scale; a model equals itself exactly when its scale is a number, so floating models do not equal themselves; compare_to is the sign of the difference of the digit counts, an antisymmetric and transitive comparison of digit counts, and panics in a debug build when the digit count of an infinite scale overflows. With a natural logarithm accurate to one unit, a scale between two powers of ten, off both by more than a relative 2^-37, has one significant digit more than the exponent of the upper one; the scale 1 has one digit; at other powers of ten there are two possible answers.", "quantifier": "all models and values", "why_tests_cant": "Half-way and special cases.", "anchors": ["src/core/geom/precision_model.rs: make_precise, equals"]}
{"id": "C59", "title": "Octagonal envelope contains its points", "statement": "An OctagonalEnvelope expanded over a coordinate sequence (no NaN in x, y, x+y, x-y) is null exactly when the sequence is empty, meets every point of it, has the plain envelope as its box part, contains the octagonal envelope of every non-empty part, is the least such octagon, and (ordinates up to 2^1022) meets every double point of the convex hull; expansion by octagons is the least upper bound; contains/intersects between octagons are consistent with the point test; expansion by a distance grows or shrinks it (or makes it null); every sequence of changes keeps is_valid. A null octagon meets and contains no octagon, but its point test accepts the origin, and the octagon built from a null Envelope is not null (both defects). The octagon of one or two points meets them and is contained in every octagon that does; a copy is equal. The octagon of a line string is that of its coordinates.", "quantifier": "all coordinate sequences, octagons, envelopes and sequences of changes without NaN", "why_tests_cant": "Lists of unbounded length, rounding in x+y and x-y.", "anchors": ["src/core/geom/octagonal_envelope.rs"]}
{"id": "C60", "title": "Line segments: fraction, projection, closest points, order", "statement": "LineSegment::segment_fraction is in [0,1] for every input, NaN, infinities and zero-length segments included, and equals projection_factor when that is in range. reverse is an involution; normalize orders the ends, is idempotent and forgets the direction; compare_to is a total order consistent with equals; equals_topo is an equivalence, blind to reversal of either segment, and coincides with equality of the normalized segments. In exact arithmetic closest_point is a nearest point of the segment, project the foot of the perpendicular, point_along_offset at the given distance on the left, reflect the mirror image (an involution), project_line_segment maps each end to its nearest point or returns None when both fall beyond the same end. In doubles with ordinates n*2^e, |n| <= 2^24, closest_point is within 2^(e-26) of a point of the segment that is nearest up to a relative 2^-49, the orientation and the intersection test are exact. Known defect: closest_points returns one point, not the documented pair, exactly when the segments meet; for segments that do not meet the pair is a closest pair. min/max_x/y are attained and bound both ends; is_horizontal and is_vertical hold exactly when the ends share an ordinate; orientation_segment is the common side of a segment that does not cross the line, else 0; distance_perpendicular_oriented is negative exactly to the right; project, project_segment and offset in doubles are within a stated error of the exact foot, clipped projection and translated segment; reflect keeps Z and M, the interpolated points have no Z. distance, distance_segment and length are within the errors of C52 and C74 for ordinates of any magnitude from 2^-388 to 2^470. For the same ordinates the projection of a point p is within 2^-48 |p p0| and one rounding of p0 of the foot of the perpendicular, the closest point within 2^-47 |p p0| of a point of the segment that is nearest up to 2^-48 |p p0| (exact for an end), and the ends of a projected segment within 2^-47 of the nearest points. Off the grid the midpoint is between the ends and within a relative 2^-51 of the exact one; point_along, point_along_offset, reflect and segment_fraction are within stated errors of the exact points and fraction; closest_points of segments that are clearly apart are within 2^-43 of their size of the segments and their distance within 2^-42 of the least distance. intersection returns a shared point (exact, or rounded where the segments cross properly); when the segments meet, the closest point has neither Z nor M. line_intersection is within the error of C54 of the meeting point of the two lines when these are not nearly parallel.", "quantifier": "all segments and points of doubles for the order, fraction and equality laws; all real segments for the exact laws; all grid points with -400<=e<=400 (closest point) or -100<=e<=70 (intersection)", "why_tests_cant": "All f64 inputs including degenerate segments.", "anchors": ["src/core/geom/line_segment.rs: segment_fraction, reverse, normalize, compare_to, equals_topo, closest_point"]}
{"id": "C61", "title": "Triangle formulas", "statement": "In exact arithmetic, for vertices not on a line: the circumcentre is the only point equidistant from the vertices and the circumradius is that distance (infinite otherwise); the perpendicular bisector is the line of equidistant points; the in-centre is strictly inside and equidistant from the sides at 2*area/perimeter; the centroid is the mean, inside, on the three medians; the angle bisector point is on the opposite side and equidistant from the other two; longest side is the maximum; signed area is half the determinant, positive when clockwise, kept by rotating and negated by exchanging vertices; area_3d is half the Gram determinant root; interpolate_z reproduces planes. In doubles: the areas, centroid (correctly rounded), acuteness and values interpolated at the vertices are right on points n*2^e with |n| <= 2^24; circumcentre is within two roundings for |n| <= 2^15 and circumcentre_dd within 2^-98 relative plus one rounding for |n| <= 2^24; intersects is the closed triangle for |n| <= 2^49. For ordinary doubles off every grid: length is within 2^-50 and the longest side within 2^-51 relative, the areas within 2^-50 of the product of two sides, area_3d within 2^-49 of the product of two sides (ordinates up to 2^230), the centroid within 2^-51 of the largest ordinate, each ordinate of the in-centre within 2^-48 and of the angle bisector point within 2^-47 of the largest ordinate. An ordinary triangle is reported acute when at each corner the squares of the two sides exceed the third by 12*2^-53 of the product of the two, and not when one falls short by that. On grids the circumradius is infinite for vertices on a line and otherwise within 2^-48 relative, area_3d within 2^-49 relative, and the perpendicular bisector is exact for |n| <= 2^20. For vertices on a line intersects accepts every point of that line, also outside the triangle. Off the grid, with D the extent of the triangle along the axes and w twice its area: the plain circumcentre is within 2^-46*D^2*(D+|o-c|)/|w| + 2^-53*|o| of the true centre o; the circumradius has relative error at most 2^-46*|ab|*|ac|/|w|; the perpendicular bisector's equation has at every point q the value (|qb|^2-|qa|^2)/2 within 2^-45*B*(B+|x|+|y|); interpolated heights up to Z are right within 2^-45*(1+|t|+|s|)*Z*D^2/|w| at the point with coordinates (t,s) in the triangle. With vertices 0 or between 2^-47 and 2^80, the circumcentre computed in double-double has as each ordinate the nearest double to a number within 2^-96*D^2*(D+|o-c|)/|w| + 2^-101*|c| of the true one. The methods of a Triangle agree with the functions on its three vertices. area and area_3d are never below zero, for all doubles. The documented claim that the centroid always lies within the triangle is false on doubles: with ordinates just below 2^53 it can be outside, and so can the in-centre, even of a triangle with sides 3, 4 and 5 (defect). The circumcircle is documented as the smallest circle enclosing the triangle; for obtuse triangles it is not.", "quantifier": "all triangles in exact arithmetic; all triangles with vertices on the stated grids in doubles; all triangles with ordinates zero or from 2^-388 to 2^470 for the error bounds; off the grid all doubles of moderate size with D^2 below about 2^45*|w|", "why_tests_cant": "Algebraic identities for all inputs.", "anchors": ["src/core/geom/triangle.rs"]}
{"id": "C62", "title": "Vectors: quarter turns are a group action, exact algebra on grids, unit vectors", "statement": "Vector2D::rotate_by_quarter_circle returns a vector for every i32, including negatives and i32::MIN, equal to the exact rotation by n*pi/2; turns add up bit for bit, depend on n modulo 4 only, -n undoes n, and scalar products and squared lengths are unchanged. add, subtract, negate, dot and equals obey their laws for all doubles (commutativity exactly, the others up to the sign of zero). Vectors made of coordinates keep the ordinates as components and give them back; equality looks at every component. With components n*2^e, |n| <= 2^24, |e| <= 400: add, subtract, dot, length_squared, average, is_parallel and translate are exact, length and distance are within a relative 2^-51, normalize has length 1 within 2^-51 (zero stays zero), rotate and weighted_sum within 5*2^-53 of the size of the operands. For all components of size at most 2^1022, angle, angle_to and the angle between vectors are within 2^-51 and 2^-48 of the true ones. Vector3D: add, subtract and the three dot products exact on such grids, length correctly rounded, normalize of length 1 within 2^-51, normalize_coordinate the same except NaN for the zero vector. For components zero or from 2^-388 to 2^470: length, distance and normalize as on the grid in the plane; in space length within a relative 2^-50 and normalize within 2^-49; scalar products within 2^-50 of the product of the lengths. Known defect: in space the squared length under- and overflows, so tiny vectors normalize to zero. For the same components is_parallel is exact, and translating p by the vector from p to q gives q within 2^-51(|p|+|q|) in each ordinate. The vector from a to b is b minus a, by either constructor.", "quantifier": "all vectors of doubles and all i32 (turns, laws); all grid vectors (exactness and error bounds); every hypot, atan2, sin and cos of the stated accuracy", "why_tests_cant": "All i32 values.", "anchors": ["src/core/math/vector_2d.rs: Vector2D", "src/core/math/vector_3d.rs: Vector3D"]}
{"id": "C63", "title": "Linear solver solves", "statement": "Matrix::solve never returns a solution, with or without overflow checks: on every matrix and right-hand side it ends, either with None and both arguments unchanged, or with a panic. It gives None exactly when the sizes disagree (judged by the first row) or, on a square matrix without NaN, when the first column is zero; the empty system and every other square system, regular ones included, panic (an index that counts down below zero wraps or overflows). swap_rows_1d and swap_rows_2d exchange the two rows and leave the others alone, and doing it twice restores the vector.", "quantifier": "all matrices and right-hand sides", "why_tests_cant": "Termination and the outcome for all sizes, all entries and both overflow settings.", "anchors": ["src/core/math/matrix.rs: solve, swap_rows"]}
{"id": "C64", "title": "Reversing a polygon", "statement": "Polygon::reverse gives the polygon with its shell run backwards, the same cached envelope and no holes, and reversing twice restores the shell, for every polygon without holes whose coordinates have at least two ordinates. A polygon with any hole panics: the holes are written into a vector that only has capacity.", "quantifier": "all polygons, all hole counts", "why_tests_cant": "All hole counts.", "anchors": ["src/core/geom/polygon.rs: reverse, reverse_internal"]}
{"id": "C65", "title": "Normalising a polygon", "statement": "Polygon::normalize and self_normalize never change a point: shell, holes, order of the holes and cached envelope are the same afterwards, for every polygon none of whose rings has exactly one point, with and without overflow checks. They panic when some ring has exactly one point. The documented normal form (shell clockwise from its least vertex) is therefore not reached: a counter-clockwise shell stays counter-clockwise.", "quantifier": "all polygons, both overflow settings", "why_tests_cant": "Observable effect for all inputs.", "anchors": ["src/core/geom/polygon.rs: normalize, self_normalize"]}
{"id": "C66", "title": "Copying and reversing multi-geometries", "statement": "copy and reverse of a MultiPoint or MultiPolygon with at least one component always panic, and so does copy of a MultiLineString with at least one component (the new vector is indexed before it is filled). reverse of a MultiLineString never panics but returns one without any line. On an empty multi-geometry copy and reverse return an empty one. So the expected property, that copy yields an equal value and reverse one with the same number of components, is refuted for each type.", "quantifier": "all multi-geometries, any number and size of components", "why_tests_cant": "All component counts.", "anchors": ["src/core/geom/multi_point.rs", "src/core/geom/multi_line_string.rs", "src/core/geom/multi_polygon.rs"]}
{"id": "C67", "title": "Line string and ring basics", "statement": "For line strings and linear rings: new and the accessors keep the points in order; the start, end and first points are the first and last of the list or None when empty; is_closed is true exactly when the two end points agree in x and y (an empty ring counts as closed, an empty line string does not) and the boundary dimension follows it; is_coordinate is membership in x and y; reverse reverses x, y (and z when no point has a measure) and twice is the identity; compare_to is a total order on points without NaN, lexicographic by x then y, antisymmetric on all; compare_to with a comparator follows the comparator; equals_exact compares pointwise within the tolerance; normalize gives the line or its reverse, is idempotent and does not depend on the direction given, without NaN; the cached envelope is the least box of the points after any history, and init leaves a line string the same as a new one, whatever was done before; copy keeps everything. Measures do not move with their points in reverse, and with NaN normalize depends on the direction (defects). For an accurate hypot the length of a line of n points off the grid is within the relative error of C48.", "quantifier": "all line strings and rings, all histories of envelope caching", "why_tests_cant": "All lengths and histories.", "anchors": ["src/core/geom/line_string.rs", "src/core/geom/linear_ring.rs"]}
{"id": "C68", "title": "Polygon accessors", "statement": "For polygons: new, the ring accessors and copy keep shell and holes, and a hole index past the end panics; get_coordinates gives the shell then the holes and get_num_points counts them, when the shell is not empty (with an empty shell the list is empty but the holes are still counted); get_area is the shell area minus the hole areas and get_length their sum, exact on dyadic grids; the cached envelope is the least box of the shell after any history; equals_exact and compare_to are pointwise and lexicographic over shell then holes, and compare_to is a total order without NaN. is_rectangle is true exactly when there is no hole and the shell has five points, each on a corner of the envelope, consecutive ones differing in exactly one ordinate. It accepts every axis-parallel rectangle, and an accepted closed shell whose opposite corners differ is one; but it also accepts a segment walked back and forth, and an open shell. Off the grid (ordinates up to 2^450) the area is the area of the shell less those of the holes within twice the errors of the rings (C47) and one rounding of the total per hole, and the length of a polygon with n points and holes within a relative (2n+4)*2^-52 of the length of its boundary.", "quantifier": "all polygons, all hole counts", "why_tests_cant": "All hole counts.", "anchors": ["src/core/geom/polygon.rs: get_coordinates, get_num_points, get_area, is_rectangle"]}
{"id": "C69", "title": "Centroid", "statement": "The centroid of a point is the point, of points added one by one their correctly rounded mean. For a polygon of grid coordinates it is, within two roundings, the area-weighted mean of the ring centroids (shell minus holes, Green's formula), when its rings are simple, or more generally when the orientation test agrees with the area sign of each ring; for a polygon with a single ring no proviso is needed, so direction and starting point do not matter; a triangle gives the mean of its corners, a box its middle. A MultiPolygon adds up its polygons. When the area is zero the correctly rounded length-weighted mean of the segment midpoints is returned (horizontal and vertical segments), and when the length is zero too the mean of the first points of the rings. get_centroid moves the result to the grid of the precision model the polygon was built with; a copy forgets that model and so can answer another centroid than its original (defect). Defects: an empty line string panics, a polygon with a hole without points panics, and so does a multi-polygon that has an empty polygon beside a non-empty one; in every other case a result is returned. Off the grid, for finite ordinates of size at most M: the mean of n points is within (2n+2)*2^-53*M; the centroid of a line of n points is within (5n+20)*2^-53*M of the length-weighted mean of the midpoints of its steps, or is the common point when all coincide, given a hypot accurate to one unit; the centroid of a polygon or multi-polygon of N points in a square of side W with twice the area A is within k*(M+|C|) of the area-weighted mean C, k = 8*N*(N+8)*2^-53*W^2/|A| <= 1.", "quantifier": "all polygons and multi-polygons for returning or panicking, any hypot, both overflow modes; the value for all grid coordinates within the stated size; for the off-grid bounds all doubles with M and W from 2^-300 to 2^300 (M to 2^900 for points, steps of lines zero or at least 2^-400)", "why_tests_cant": "All shapes, ring counts and coordinates; rounding of every sum.", "anchors": ["src/core/algorithm/centroid.rs", "src/core/geom/polygon.rs: get_centroid", "src/core/geom/multi_polygon.rs: get_centroid"]}
{"id": "C70", "title": "Envelope histories stay well formed", "statement": "Starting from the null envelope, any sequence of include-point, include-envelope, expand, translate, intersect and set-to-null calls with non-NaN points and finite offsets leaves either the canonical null envelope or a box with min <= max on both axes. The null envelope reached is always the same one, from 0 to -1 on both axes.", "quantifier": "all finite sequences of envelope operations and all their arguments", "why_tests_cant": "Invariant over unbounded call histories, including overflow to infinity.", "anchors": ["src/core/geom/envelope.rs: expand_to_include_xy, expand_to_include_envelope, expand_by, expand_by_delta_xy, translate, intersection_envelope, set_to_null"]}
{"id": "C71", "title": "Envelope centre and sizes", "statement": "The centre of a non-null envelope lies inside it whenever the bounds are at most 2^1022 in magnitude (and may leave it beyond that), is None exactly for the null envelope; width, height, area and extents are non-negative and exact on any power-of-two grid that fits the significand. The diameter is the distance of two opposite corners up to a relative 2^-51 (bounds zero or from 2^-388 to 2^470). Off the grid width, height and extents are the exact ones rounded once, the area within a relative 2^-51 and the centre within a relative 2^-51 of the midpoint (plus 2^-1075).", "quantifier": "all envelopes with finite bounds", "why_tests_cant": "Rounding and overflow behaviour over all doubles.", "anchors": ["src/core/geom/envelope.rs: centre, get_width, get_height, get_area, min_extent, max_extent"]}
{"id": "C72", "title": "Double-double error bounds", "statement": "For normalised DD values in a wide exponent range, multiplication and sqr have relative error at most 10*2^-106, addition and subtraction have error at most 17*2^-106*(|x|+|y|) and give normalised values again, a determinant has error at most 28*2^-106 times the sizes of its two products, and the sign reported for a sum or difference is the exact sign, however much cancels. pow returns for every i32 exponent but i32::MIN, for which it panics. The quotient has relative error at most 21*2^-106, the reciprocal is the quotient of 1, pow of exponent n has relative error at most 20|n|*2^-106 (64|n| for negative exponents), sqrt 80*2^-106, and sqrt of 0 and of negative values is 0 and NaN. The determinant of doubles on a 49-bit grid is exact in value and sign. A NaN operand makes sum, difference, product, quotient and the unary operations NaN. magnitude is the decimal exponent for 1 <= x < 10^9 given a log10 accurate to one, and given a natural logarithm accurate to one unit unless x is within a relative 2^-37 below a power of ten; defect: it panics for |x| < 1 and for exponents of 9 and more. Sum and product do not depend on the order of the operands, in either part; x + x and x * 2 are exactly twice x; for numbers between 2^-140 and 2^140 in size x * y / y and x / y * y are x within 32 * 2^-106 relatively, the reciprocal of the reciprocal within 44, the square of the root within 172 and the root of the square within 91. Division by zero and the reciprocal of zero are NaN in both parts for every dividend, never an infinity. Sums, differences, products, squares, quotients, reciprocals and roots with an infinite or NaN argument are NaN, even one over infinity.", "quantifier": "all normalised DD values with high parts up to 2^480 (product) or 2^1000 (sum), products zero or at least 2^-899", "why_tests_cant": "Rounding-error bound over all operands.", "anchors": ["src/core/math/dd.rs: self_multiply_dd, add_dd, self_subtract_dd, signum, pow"]}
{"id": "C73", "title": "Orientation is right unless the points are collinear to 2^-102", "statement": "For ordinates that are zero or between 2^-388 and 2^470 in absolute value, Orientation::index is the sign of the exact determinant L-M (L, M the two products of differences) whenever |L-M| > 10*2^-106*(|L|+|M|); sign_of_det2x2_f64 is the sign of x1*y2-y1*x2 always. In lengths |dx|+|dy|: the index of a, b, q is the sign of the determinant when it exceeds 2^-102*|ab|*(|aq|+|bq|), when the segment a-b is parallel to an axis, or when q is inside one of the x-range and the y-range of the segment and outside the other, or on the edge of one, or when the distances in x and in y between the three points are doubles (as for integers up to 2^52).", "quantifier": "all triples of points with such ordinates", "why_tests_cant": "Error analysis of the double-double path over all operands.", "anchors": ["src/core/algorithm/cg_algorithms_dd.rs: orientation_index_xy, sign_of_det2x2_f64", "src/core/math/dd.rs"]}
{"id": "C74", "title": "Distances in space", "statement": "In exact arithmetic distance_point_segment is the least distance from the point to the points of the segment; distance_segment_segment is the distance of some point of one segment to some point of the other when C and D differ, and is the least such distance when one of the closest points of the two lines lies on its segment, when the segments are parallel, when A = B and when C = B; otherwise it can be larger than the least distance. In doubles, distance is the plane distance when a Z is NaN and distance_3d otherwise, distance_3d is the exact distance rounded once and distance_point_segment is the least distance rounded once when the closest point is an end. A second segment of one point that is not B gives hypot(NaN, NaN). distance in the plane is within a relative 2^-51 for all ordinates from 2^-388 to 2^470 or zero, given a hypot accurate to one unit. For ordinates zero or from 2^-388 to 2^470, distance_3d is within a relative 2^-50 and distance_point_segment within 2^-46 of the largest ordinate of the exact least distance. For ordinates zero or from 2^-388 to 2^250 and C different from D, distance_segment_segment is within 2^-46 of the largest ordinate M of the distance of some two points of the segments, hence never less than the least distance by more than that, and within it of the least distance when A = B or C = B. For segments at least 2^-200 long whose lines make an angle with squared sine g >= 2^-44, it is within 2^-42*M/g of the least distance when the closest point of the line CD lies on the segment, or that of AB lies inside the segment by more than 2^-44*M/g.", "quantifier": "all real points; doubles on a grid of any step 2^e, -400 <= e <= 400, with 24-bit coordinates; all doubles zero or from 2^-388 to 2^470 for the error bounds", "why_tests_cant": "Minimum over all pairs of points of the segments, for all segments.", "anchors": ["src/core/algorithm/cg_algorithms_3d.rs: distance, distance_point_segment, distance_segment_segment", "src/core/geom/coordinate.rs: distance, distance_3d, equals_3d", "src/core/math/vector_3d.rs: dot_4"]}
{"id": "C75", "title": "Dimension and measures", "statement": "A coordinate with X and Y has as dimension 2 plus one for Z and one for M when these are present, and one measure exactly when M is present (any other coordinate counts as XYZ); create makes a coordinate with the dimension and measures asked for when these are XY, XYM or XYZM (XYZ gives XY); an array has the greatest dimension and measures of its members, 3 and 0 when empty, and the consistency scan tells whether all members agree; the sequence constructors keep the coordinates and the dimension and measures given (or the array's); Z is read exactly when there are more than two spatial ordinates and M exactly when there is a measure, NaN otherwise; the factory keeps 2 or 3 spatial ordinates and at most one measure; packed sequences count the ordinates beyond three as measures. The named constructors give coordinates of the named kind holding the ordinates given. A sequence made by size alone has that many points at the origin without Z and M, in dimension 3 without measures.", "quantifier": "all coordinates, arrays, dimensions and measures", "why_tests_cant": "All combinations of dimension and measures and all arrays.", "anchors": ["src/core/geom/coordinates.rs", "src/core/geom/coordinate_arrays.rs", "src/core/geom/implementation/coordinate_array_sequence.rs", "src/core/geom/implementation/coordinate_array_sequence_factory.rs"]}
{"id": "C76", "title": "Points", "statement": "A Point holds no coordinate or exactly one. Building from a coordinate gives a point whose coordinate, x, y, coordinates and number of points are those of the coordinate; the default point is empty and answers None; building from a sequence keeps it when it has at most one coordinate and panics otherwise. copy and reverse keep the sequence. get_envelope is the empty envelope for an empty point and otherwise contains exactly the point; asking again gives the same answer. equals_exact is true exactly when both are empty or both coordinates are equal (tolerance 0) or within the tolerance. compare_to_same_class is the order of the coordinate sequences under the comparator.", "quantifier": "all points, coordinates, tolerances; any hypot for the distance", "why_tests_cant": "Coordinates range over all doubles, NaN and signed zero included.", "anchors": ["src/core/geom/point.rs", "src/core/geom/geometry_factory.rs"]}
{"id": "C77", "title": "Reading multi-geometries", "statement": "A MultiPoint keeps its points and precision model, counts its points and is empty exactly when it has none. The envelope of a MultiPoint is the least box around its points. equals_exact of each multi-geometry compares component by component, in order, and is false for different numbers of components. is_empty is true exactly when all components are empty. A MultiLineString is closed exactly when it is non-empty and each line is closed. A MultiPolygon returns each of its polygons by index and its area is the exact sum of the areas of its polygons on grid coordinates. Defects: get_point_at_index of a MultiPoint cannot read index 0 (panic with overflow checks, None without) and panics at index len and len + 1; get_coordinates pads with a default coordinate for each empty point; creating a MultiPoint from coordinates sets every M to 0 when the coordinates carry M. Off the grid the area of a multi-polygon is the sum of the areas of its polygons within twice their errors and one rounding of the sum of sizes per polygon.", "quantifier": "all multi-geometries, any number of components, both overflow modes; area for grid coordinates within the stated size, and for all doubles in the stated boxes for the error bound", "why_tests_cant": "All component counts, coordinates and indices.", "anchors": ["src/core/geom/multi_point.rs", "src/core/geom/multi_line_string.rs", "src/core/geom/multi_polygon.rs", "src/core/geom/geometry_factory.rs"]}
{"id": "C78", "title": "The packed sequence base type never holds a coordinate", "statement": "PackedCoordinateSequence::new_with_dimension_measures gives a sequence exactly when dimension - measures is at least 2 and keeps both numbers (it panics when the difference overflows and overflow checks are on). After any history of set_x, set_y and set_ordinate calls the sequence has size 0 and an empty coordinate array, and every read or write of a coordinate panics (defect: nothing can be stored). has_z is dimension - measures > 2, has_m is measures > 0, and get_z and get_m give NaN when there is no Z or M. copy gives an empty packed double sequence of the same dimension whose measure count is max(0, dimension - 3), so XYM loses its measure (defect); the factory conversion keeps both. A factory sequence of n points of dimension d has size n and only NaN ordinates.", "quantifier": "all i32 dimensions and measures, all histories of setter calls, all indices and ordinates, both overflow modes", "why_tests_cant": "The claim is about every history of calls on every instance: no test can show that no call ever stores a coordinate.", "anchors": ["src/core/geom/implementation/packed_coordinate_sequence.rs:69-290", "src/core/geom/implementation/packed_coordinate_sequence_factory.rs:43-127"]}
{"id": "C79", "title": "Double-double constants are the nearest ones", "statement": "For new_pi, new_two_pi, new_pi_2 and new_e, the high part is the double nearest to the real constant (pi, 2 pi, pi/2, e), the low part is the double nearest to what is left, and the pair is within 2^-107 of the constant. EPS is not 2^-106 as its comment says but seven units of its last place less.", "quantifier": "the real numbers pi and e, against the decimal literals in the source", "why_tests_cant": "A test compares with another stored approximation; the claim is about the real numbers themselves, with 107 correct bits.", "anchors": ["src/core/math/dd.rs:96", "src/core/math/dd.rs:165-200"]}
{"id": "C80", "title": "Text forms tell values apart", "statement": "If doubles print differently and with the characters of numerals only, then two coordinates print alike exactly when x, y and z are the same (the measure is not printed), two envelopes, vectors or double-doubles exactly when they are the same, two coordinate sequences exactly when they have the same x, y, z at every index and the same length, and two precision models exactly when they are of one kind and, if fixed, of one scale.", "quantifier": "all values; every printing of doubles that is injective and uses the characters of numerals", "why_tests_cant": "No two values may collide, over all pairs of values and all lengths of sequences.", "anchors": ["src/core/geom/coordinate.rs: fmt", "src/core/geom/envelope.rs: fmt", "src/core/math/vector_2d.rs: to_string", "src/core/math/vector_3d.rs: to_string", "src/core/math/dd.rs: dump", "src/core/geom/precision_model.rs: fmt", "src/core/geom/implementation/coordinate_array_sequence.rs: fmt"]}
{"id": "C81", "title": "Type names, codes and dimensions are consistent", "statement": "get_type_code and get_geometry_type tell the seven geometry types apart, and the codes sort by dimension. get_boundary_dimension never panics; it is Dimension::FALSE exactly for points, multi-points, rings, non-empty lines whose first and last point agree, and non-empty multi-lines made only of such lines, and otherwise one less than get_dimension. has_dimension of a multi-geometry accepts its own dimension and no other. All these values have a dimension symbol that reads back to the same value.", "quantifier": "all geometries of the seven types, all i32 dimensions", "why_tests_cant": "The boundary dimension depends on the points of every line of a collection of any size, and the agreement of codes, names and dimensions is a statement about all pairs of types.", "anchors": ["src/core/geom/geometry.rs", "src/core/geom/line_string.rs", "src/core/geom/multi_line_string.rs", "src/core/geom/multi_point.rs", "src/core/geom/multi_polygon.rs", "src/core/geom/polygon.rs", "src/core/geom/point.rs", "src/core/geom/linear_ring.rs"]}
{"id": "C82", "title": "Functions of different modules agree on the same question", "statement": "Several modules answer the same geometric question by different code, and their answers agree. LineIntersector.compute_intersection finds an intersection of two segments exactly when Distance.segment_to_segment returns zero. PointLocation.is_on_segment, LineIntersector.compute_intersection of a point and a segment, and a zero Distance.point_to_segment are equivalent; PointLocation.is_on_line holds exactly when Distance.point_to_segment_string is zero. Triangle.intersects holds exactly when RayCrossingCounter does not locate the point outside the ring of the triangle, whichever way round its vertices are given. For an axis-parallel rectangle the ring locator says exterior exactly when the envelope does not cover the point and interior exactly when the point is strictly between the sides of the envelope. The area of such a polygon equals the area of its envelope, and the (signed) area and direction of a triangle equal those of its ring.", "quantifier": "All points n*2^e: |n| <= 2^24 for segments and lines, with e in [-100,70] where the line intersector takes part; |n| <= 2^49 for locations; grids on which the shoelace sum is exact for areas. Any previous state of the line intersector; any hypot accurate to 2^-52 relative.", "why_tests_cant": "Each pair is computed by different formulas (double-double orientations, divisions, ray crossings, comparisons), so agreement on samples says nothing about points just off a segment or on a border.", "anchors": ["src/core/algorithm/robust_line_intersector.rs: compute_intersect", "src/core/algorithm/distance.rs: segment_to_segment, point_to_segment, point_to_segment_string", "src/core/algorithm/point_location.rs: is_on_segment, is_on_line_vec", "src/core/algorithm/ray_crossing_counter.rs: get_location", "src/core/geom/triangle.rs: intersects, area", "src/core/geom/envelope.rs: covers_xy, get_area", "src/core/geom/polygon.rs: get_area", "src/core/algorithm/area.rs: of_ring_signed_vec"]}
{"id": "C83", "title": "Direct access reads and writes exactly the named element", "statement": "Setting a cell of an intersection matrix makes that cell read back as the given value and leaves the other eight as they were; raising a cell to at least a value stores the larger of the two; an index above two panics. A cell counts as an intersection when it holds a dimension or the code for any dimension. The n-th coordinate and the n-th point of a line, and the n-th coordinate of a ring, are those of its n-th vertex, and reading at or beyond the end panics. A coordinate array is a ring when it has at least four points and its first and last agree in x and y. Scaling or dividing a vector rounds each component once, in its place. An ordinate of a homogeneous point is its quotient by the weight rounded once, NaN for a zero weight, and never infinite; the homogeneous point of two lines reads as the point that intersection returns, and has a NaN ordinate exactly when intersection returns none.", "quantifier": "All matrices, cells, values, lines, rings, arrays and indices; all finite vectors and scalars whose exact results are below 2^1023 (non-zero divisors); all homogeneous points and all two pairs of coordinates, including NaN and infinities.", "why_tests_cant": "A test sets or reads a few cells or vertices; that no other element is disturbed, for every index and content, and that no special value slips through, is a statement over all of them.", "anchors": ["src/core/geom/intersection_matrix.rs: set_row_column_value, set_at_least_row_column_dimension, get, is_true", "src/core/geom/line_string.rs: get_coordinate_n, get_point_n, get_coordinate_sequence", "src/core/geom/coordinate_arrays.rs: is_ring", "src/core/math/vector_2d.rs: multiply, divide", "src/core/math/vector_3d.rs: divide", "src/core/algorithm/hcoordinate.rs: new_with_coordinates_4, get_x, get_y, intersection"]}
{"id": "C84", "title": "Ray crossing counter: any order, any rings, skipped segments", "statement": "As documented, a RayCrossingCounter may be fed the segments of a polygonal geometry in any order: the count and the flag at the end are the same. Segments wholly to the left of the point, wholly above or wholly below it need not be counted. Fed all segments of any number of rings, it answers Boundary exactly when the point is on the boundary of some ring, and otherwise Interior exactly when an odd number of the rings hold the point; for a shell with holes inside it that do not overlap, Interior means in the shell and neither in nor on a hole. The direction of each ring does not matter. It never panics below 2^31 segments. Once it has found the point on a segment, no later segment changes its answer, as is_on_segment documents.", "quantifier": "All points and all lists of at most 2^31-1 segments, of any doubles including NaN and infinities; for directions, closed rings and points on a grid n*2^e, |n| <= 2^49.", "why_tests_cant": "Orders, subsets and nestings of rings are combinatorially many; a test feeds one order of one polygon.", "anchors": ["src/core/algorithm/ray_crossing_counter.rs: count_segment, get_location, is_point_in_polygon, locate_point_in_ring_vec"]}
{"id": "C85", "title": "Input the documentation refuses is accepted; what comes out", "statement": "The documentation promises an exception for a line string of one point, for a ring (or polygon shell) that is short or not closed, and for offsetting a segment of length zero. None of these is refused (defect). A line string of one point is built and has that point as start and end. An open or short ring is built with exactly the points given, alone and as the shell of a polygon; is_closed is false for it, and the area of a polygon with an open shell depends on where the list of corners starts. On a segment whose ends are the same finite point: point_along_offset and offset give NaN ordinates for every offset but zero, and the point itself without one; for any other point the projection factor is NaN, the segment fraction 1, the projected point and the projected segment are NaN, the closest point is the segment's own; for the point itself the factor and the fraction are 0, where NaN and 1 are documented; reflect gives NaN for every point. Intersection::line_segment documents no intersection for a line given by one point twice and for a segment of length zero; it returns the first end of the segment for the former and the point for the latter when it is on the line (points n*2^e, |n| <= 2^49). On a flat triangle (points n*2^e, |n| <= 2^24) both ordinates of the circumcentre and every interpolated height are NaN or infinite. The double-double circumcentre of such a triangle is NaN in both ordinates.", "quantifier": "All lists of coordinates; all finite segment points, all fractions, offsets and points including NaN and infinities; hypot of two zeros is zero.", "why_tests_cant": "Malformed inputs are unboundedly many, and tests of a refusal that is missing cannot be written against the documented exception; what happens downstream differs by operation.", "anchors": ["src/core/geom/line_string.rs: new_from_coordinate_sequence", "src/core/geom/linear_ring.rs: new_with_coordinates, is_closed", "src/core/geom/geometry_factory.rs: create_linear_ring_with_coordinates, create_polygon_with_coordinates", "src/core/geom/line_segment.rs: point_along_offset, offset, projection_factor, segment_fraction, project_coordinate, project_line_segment, reflect, closest_point", "src/core/geom/triangle.rs: circumcentre_coordinates, interpolate_z_coordinates"]}
{"id": "C86", "title": "NaN ordinates in orientation, location, intersection, envelopes, distances, areas and lengths", "statement": "With a NaN among the six ordinates the orientation index is 0, so the three points count as collinear. A point whose y is NaN is outside every ring. A point whose x is NaN is on the boundary of every ring that has a segment passing its height (one end strictly above, the other not) and outside every other ring, so a point without a position can be on the boundary (defect). A point with a NaN ordinate is on no segment, so on the boundary of a ring and on the line through the corners of the ring are different things for it. A point with a NaN ordinate is inside every triangle (Triangle::intersects). Two segments with a NaN among their ordinates never have a proper intersection. CoordinateArrays::envelope of a list is decided on each axis by its first point: if that ordinate is a number the bounds are the least and greatest number on the axis and NaN is passed over, if it is NaN both bounds stay NaN; so the envelope depends on the order of the points, and one that starts with two NaN intersects every point and covers none (defect). The distance of a point to a segment that is no point is NaN when one of the six ordinates is; the distance of two such segments with a NaN is 0 as soon as their boxes, which leave NaN out, meet (defect). The area of a ring of at least four points is NaN when one of its ordinates is, except the x of the last point, which the area does not depend on. The length of a line is NaN when two successive points differ by NaN on one axis and by no infinity on the other, so for every point of two NaN (f64::hypot of NaN and no infinity being NaN).", "quantifier": "All coordinates including NaN and infinite ordinates; all rings of at most 2^31 - 1 segments; all states of the line intersector.", "why_tests_cant": "Each comparison with NaN is false, so the answer depends on how every test in the filter, the double-double fallback and the crossing counter is phrased; tests use proper points.", "anchors": ["src/core/algorithm/cg_algorithms_dd.rs: orientation_index_xy, orientation_index_filter", "src/core/algorithm/ray_crossing_counter.rs: count_segment, locate_point_in_ring_vec", "src/core/algorithm/point_location.rs: is_on_segment, is_on_line_coordinates", "src/core/geom/triangle.rs: intersects_coordinates", "src/core/algorithm/robust_line_intersector.rs: compute_intersect", "src/core/geom/coordinate_arrays.rs: envelope", "src/core/geom/envelope.rs: expand_to_include_coordinate, intersects_xy, covers_xy, intersects_4", "src/core/algorithm/distance.rs: point_to_segment, segment_to_segment", "src/core/algorithm/area.rs: of_ring_signed_vec, of_ring_vec, of_ring_signed_coordinate_sequence", "src/core/algorithm/length.rs: of_line"]}
