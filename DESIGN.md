# Formal model of geos-rs: design

## Approach

* `f64` is Flocq's `BinarySingleNaN.binary_float 53 1024`, with rounding to nearest even.
  It covers infinities, signed zeros, subnormals and NaN. There is a single NaN (payloads are ignored, and no modelled code reads them).
* Rust panics are the explicit value `Panic` of a result type. Index out of bounds, `unwrap` of `None`
  and integer overflow in a checked build are panics. `usize`/`i32` are `Z`/`nat` with explicit range checks where they can be left.
* `&mut self` methods return the new value.
* Loops that need not stop carry fuel and return a distinct value when it runs out.
* libm functions (`hypot`, `ln`, `atan2`, `sin`, `cos`) and the random source are function arguments, with any assumed behaviour a theorem hypothesis.
* Specifications live in their own definitions, over real numbers, integers or lists, and do not call model code.
* Properties that are false of the code get a `_refuted` theorem with a concrete witness, and where useful an exact statement of what happens instead.

## Plan per property

* **C01** An envelope built by expanding over points is the smallest box containing them: f64 order facts only; induction over the list with the 'least cover' invariant; permutation corollary.
* **C02** Envelope covers is point-set containment: point-set specification `In_box`; order facts on f64.
* **C03** Envelope intersects means having a common point: explicit witness point (max of mins); static versions proved equal to the built boxes.
* **C04** Intersection envelope is the set intersection: case analysis on f64 order.
* **C05** Expanding envelopes is a join: case analysis; least upper bound from C02's specification.
* **C06** Null envelope stays null and buffering is monotone: monotonicity of IEEE addition from Flocq round_le. Off the grid (EnvelopeErr_props) each bound is one rounding of the exact sum.
* **C07** Envelope distance is zero exactly on intersecting envelopes and is symmetric: hypot is an oracle argument; sign lemmas on subtraction. Off the grid (EnvelopeErr_props) the real least distance of two boxes is the root of the two squared gaps; each gap is rounded once and hypot once more.
* **C08** Envelope comparison is a total order consistent with equality: lexicographic total order on f64 comparisons.
* **C09** Point intersects and point covers agree: equality on non-NaN, `_refuted` witness on NaN.
* **C10** Coordinate comparison is a total order: f64 comparison is a strict weak order off NaN.
* **C11** Coordinate equality laws: same; the Z tolerance in `SeqMoves_props.v`.
* **C12** Copying a coordinate preserves every ordinate: record model with four ordinates; `_refuted` witnesses for M. Setters in Entry_props.
* **C13** Coordinate array comparison is lexicographic and a total order: induction over lists.
* **C14** Removing repeated points: refinement of the loop to a structural filter.
* **C15** Removing invalid points leaves only valid points: `_refuted` witness plus exact characterisation.
* **C16** Array reversal is an involution: swap loop model, index-wise specification.
* **C17** Scrolling an array is a rotation: index arithmetic; rotation specification with app/skipn/firstn.
* **C18** Increasing direction is reversed by reversing the array: loop invariants on the two-ended scan.
* **C19** Extracting a sub-array: `_refuted`: panics; exact characterisation of the panic domain.
* **C20** Dimension consistency keeps ordinate values: proved for X,Y,Z; `_refuted` for M.
* **C21** Search functions on arrays: induction.
* **C22** Coordinate list without repeats: invariant over all operation histories.
* **C23** Adding a coordinate list backward: panic theorem for all non-empty lists; forward direction proved.
* **C24** Coordinate sequence comparator is a total preorder: order laws including NaN.
* **C25** Transposing a matrix exchanges the roles of the geometries: case analysis over symbolic cells.
* **C26** Predicates agree with their DE-9IM patterns: same, cells ranging over valid dimensions.
* **C27** Matrix text form round trip: finite check by symbolic cells.
* **C28** Matrix accumulation laws: pointwise Z.max laws; histories by induction.
* **C29** Reversing a coordinate sequence: swap loop over ordinates; `_refuted` for M.
* **C30** Closing a ring sequence: index-wise specification; packed versions in `SeqMoves_props.v`.
* **C31** Scrolling a sequence: rotation specification, array and packed.
* **C32** Packed sequences agree with array sequences: refinement relation between the two representations.
* **C33** Packed sequences can be created from coordinates: panic theorem.
* **C34** Clamp stays in range: order facts; the average via monotonicity of rounding, overflow witness.
* **C35** Wrap stays in range: Z arithmetic; `_refuted` witness.
* **C36** Low-discrepancy generator stays in the unit interval: Flocq: rounding of a sum below 2, exactness of subtraction of the floor; the constant against the real golden section.
* **C37** Shuffle returns a permutation: panic theorem for every n and stream.
* **C38** Double-double sum of two doubles is exact: Flocq TwoSum theorem lifted from R to binary_float.
* **C39** Double-double product of two doubles is exact: Flocq Veltkamp/Dekker theorems lifted to binary_float.
* **C40** Double-double ordering: half-ulp normalisation implies hi determines the order unless equal.
* **C41** Double-double rounding to integers: integer part lemmas on normalised pairs; `int_value` drops the low part, with a `_refuted` theorem just below an integer.
* **C42** Orientation fast filter is sound: standard model of rounding errors via Flocq relative error lemmas, compared with DP_SAFE_EPSILON.
* **C43** Orientation is exact on grid coordinates: differences that are doubles make the double-double products exact, and the sign of a double-double difference is always exact (DDSign_proofs); grids are an instance.
* **C44** Orientation changes sign when the base segment is reversed: from C42 where the fast filter decides and from C43 on grids; `_refuted` by a triple whose double-double path loses the low part.
* **C45** Orientation equals the exact sign for all finite points: `_refuted` by two concrete triples (one in the normal range, one with underflow).
* **C46** Ring direction test tells the sign of the area of simple rings: fuel bounded by ring length for the two loops; the top run of any closed grid ring found by the loops characterised exactly (Cap_proofs); for simple rings the winding number to the left of each step is the same all along the ring (flux of the half-open crossing count along a segment, case analysis around a vertex), the area is the sum over level lines of alternating crossings, so the turn at the top has the sign of the area (Simple_proofs, SimpleCap_proofs). Self-crossing witness for the refutation. Off the grid (SimpleMid_props): the same proof needs the orientation only at the top turn, which LocateMid_props shows right when the turn is clear.
* **C47** Signed area is the shoelace area: grid exactness, induction over the ring; independent shoelace specification over Z/R. For arbitrary doubles a running error bound over the loop (MeasureErr files), against the trapezoid sum over the reals.
* **C48** Length is a non-negative sum of segment lengths: induction over the line with monotone rounding; exact on axis-parallel grid lines; relative error bound for arbitrary doubles by induction over the line (MeasureErr files); `hypot` is an argument with its assumed facts as hypotheses.
* **C49** Point location entry points agree: induction; equality of three loops.
* **C50** Point location obeys the even-odd rule and is constant off the ring: independent crossing/parity specification over the reals, using C43; signed crossings are constant along segments that avoid the ring and change by one across a step (Winding_proofs); for simple rings they are 0 or the sign of the area. Off the grid (LocateMid_props, SimpleMid_props): the counter asks for orientations only at segments that the level of the point cuts (`asked`); there they are right when the point is clear of the segment's line.
* **C51** On-line test: induction; uses C43. Off the grid (LocateMid_props): same, when the point is clear of the line.
* **C52** Point to segment distance: the code read over R (Num.v): minimum of the quadratic along the segment, intersection case by an independent common-point specification; the code read over doubles: exact numerators on grids, relative error of quotient and root; sign and chain bound for all doubles. Off the grid (DistanceErr_proofs, SegSegErr_proofs): determinants and dot products within 6 units of the product of the lengths; a wrong turn at `r <= 0` or `r >= 1` costs no more than the distance from the foot to the end; a wrong verdict of the intersection test implies that an end is near the other line (missed meeting) or that the segments nearly meet (false meeting), the latter by moving from the nearest pair to the crossing of the lines.
* **C53** Line intersector classification: decision tree over exact orientation signs on grids against an independent 'common points of two segments' specification; the proper intersection point through double-double error bounds (C54); the final clamping by envelope facts that hold for all doubles. Off the grid (IntersectMid_props): the same case analysis (`main_any`) with the orientations right by LocateMid_props; the proper point by C54's off-grid bound, which cannot cross a `firm` edge when rounded (IntersectErr_props). Initial state, precision models and the fallback of `intersection_safe` in Tighten_props.
* **C54** Line-line intersection point: double-double Cramer formula with error propagation on grids; plain-double versions by relative errors; independent specification of line and segment as real point sets. Off the grid (IntersectErr_proofs): sums of normalised double-doubles are normalised (DDSum_proofs), all intermediate values are multiples of powers of two so that nothing underflows, and C72's bounds are composed. The plain double versions (MeetErr_proofs) use the error calculus of CentroidErr_proofs; the centre of `intersection_fp` lies between two of the ordinates since rounding is monotone; `line_segment` combines C73's clear orientations with the bound above.
* **C55** Angle normalisation terminates in range: the two loops carry fuel; a turn moves the angle by 2 pi up to half an ulp below 2^56 (so the loop stops) and does not move it at all above (so no fuel suffices); atan2 is an argument with values in [-pi, pi]. A relative error of one rounding in both components turns a vector by little more than that rounding (lemma `turned`), which gives the angles for all doubles up to 2^1022; acute and obtuse off the grid from the scalar product bound of DistanceErr_proofs (AngleErr_props). Angle sums of triangles (AngleSum_props): the directions of the three sides cancel up to half turns, and the corner given by the law of cosines fixes each angle in one turn.
* **C56** Quadrant laws: case analysis, `_refuted` for the half plane claim.
* **C57** Rounding to a precision model is idempotent and on the grid: Flocq rounding lemmas.
* **C58** Precision model documented rounding: exact statement of what is done (halves away from zero), `_refuted` for the documented behaviour; order and equality laws by case analysis. Digit counts (`LogErr_props.v`): error of the quotient of two logarithms accurate to one unit against the real logarithm, monotonicity of which puts it between integers.
* **C59** Octagonal envelope contains its points: order facts, induction; `_refuted` at the origin. Entry points that pass on or build records (C02, C03, C12, C22, C33, C38, C59, C60, C61, C62, C75) are in Entry_props. Constructors from points and copies in Tighten_props.
* **C60** Segment parameter is clamped and projections are consistent: order facts and case analysis for all doubles; exact-arithmetic reading for projections, reflection and closest points; grids with one rounding for the double reading. Off the grid (ProjectErr_proofs): the computed factor is within 14 units of |p p0|/|p0 p1| of the exact one, so a wrong clamp moves the answer by no more than that along the segment. SegmentErr_props adds midpoints, points along, offsets, reflections, fractions and closest points off the grid by the error calculus of CentroidErr_proofs.
* **C61** Triangle formulas: the generic formulas read over R (field identities, triangle inequality, line distance) and over doubles (exact grids, double-double error bounds); `intersects` from the exact orientation sign, with the degenerate case stated separately. Off the grid (TriangleErr_proofs): relative errors through positive sums, products, quotients and roots; weighted means by absolute errors; the cross product in space (VectorErr_props) by Cauchy's inequality. Circumcentre, circumradius, bisector and interpolation off the grid (CircumErr_props): the error calculus of CentroidErr_proofs with one lemma for quotients (`quot_gen`). The double-double circumcentre off the grid (CircumDD_props): exact differences as pairs of doubles, then the product, sum and quotient bounds of C72 and `quot_err` of IntersectErr_proofs. TriangleTrue_props.v restates the bounds of in-centre, angle bisector and area in space against points and areas described by distances, with no formula of the code in the statement.
* **C62** Vectors: quarter turns by iteration of one turn and arithmetic modulo 4, compared with the real rotation; dyadic-grid exactness and relative error lemmas; one `_refuted` theorem for underflow of the squared length in space; VectorErr_props bounds lengths, normalisation and scalar products off the grid. is_parallel off the grid follows from C73_sign_of_det (EnvelopeErr_props).
* **C63** Linear solver: fuelled model of the three nested loops, parametric in the overflow behaviour of `usize`; the inner countdown is shown to leave the range after finitely many steps, so the result is a panic or `None`; loop invariants for the row exchanges.
* **C64** Reversing a polygon: the write into an empty vector of the model panics for any hole; without holes from the sequence reversal of C29; one `_refuted` theorem.
* **C65** Normalising a polygon: the normalised copy of each ring is shown to be computed and dropped; panic theorem for rings of one point (empty minimum scan), `_refuted` for the documented normal form.
* **C66** Copying and reversing multi-geometries: for every non-empty value, panic; MultiLineString reverse loses the lines; the wished property refuted.
* **C67** Line string and ring basics: sequences as lists, order theorems of C24/C25 lifted, an inductive set of rings reachable by the API for the cached envelope; `_refuted` for reversal with measures and normalisation with NaN.
* **C68** Polygon accessors: loop invariants for the copies, exact grids of C47/C48 for area and length, inductive reachable polygons for the envelope; the rectangle test characterised by ranks of doubles, `_refuted` for degenerate and open shells. Off the grid (PolyErr_props) a running sum of inexact terms: errors of the terms plus one rounding per step, with the bounds of C47 and C48 for each ring.
* **C69** Centroid: accumulators exact on grids by induction over rings and polygons; triangle fans reduced to Green's formula by a telescoping identity; two final roundings bounded; panic conditions exact. The proviso on orientation is discharged by C46 for simple rings. Off the grid every accumulator is shown to hold the real sum with an error counted in units of 2^-53 of a bound on it, by the same inductions; the two final divisions are then bounded in terms of the area.
* **C70** Envelope histories stay well formed: inductive set of reachable envelopes; invariant 'canonical null or ordered box' preserved by each operation.
* **C71** Envelope centre and sizes: monotone rounding of (min+max)/2 with an overflow bound, exact grids, relative error of the diameter. Off the grid (EnvelopeErr_props) one rounding for sizes, two for the centre.
* **C72** Double-double error bounds: error-free transformations of F64Err.v composed; the remaining roundings counted one by one with explicit constants; exact signs of sums and differences (DDSign_proofs): either the error bound leaves the sign alone, or so much cancels that every step is error free. DDSum_proofs shows by cases on cancellation that the last two-sum of an addition is error-free, so sums are normalised. DDLaws_props: sum and product as functions of the four parts over R, symmetric since their error-free steps are; round trips by multiplying relative errors.
* **C73** Orientation away from collinearity: C72 applied to the determinant of exact differences; relative gap turned into an absolute one; the fast filter by C42. LocateMid_props restates it in lengths (`off_line`).
* **C74** Distances in space: the code read over R, minimum of a convex quadratic over the square of parameters (independent specification: least distance over all pairs of points); doubles on grids, one rounding; `_refuted` for skew parameters both outside and for a second segment of one point. Off the grid (SpaceErr_proofs, SpaceErr_props): errors of a three-term root and scalar product; the computed parameter is held against the exact one and the distance along the segment is 1-Lipschitz. Two segments (SpaceSegErr_props): the choice made from the computed positions is followed on real stand-ins, the Gram determinants have errors relative to the product of the lengths, and a wrong choice near an end costs no more than the error of the position.
* **C75** Dimension and measures: case analysis, folds over arrays, sequences and factories.
* **C76** Points: case analysis on the at most one coordinate, all operations of `point.rs`.
* **C77** Reading multi-geometries: folds over the components reduced to the per-component theorems (C05, C64, C67, C76); three defects stated exactly; area off the grid in PolyErr_props.
* **C78** Packed sequence base type: invariant over all histories of setter calls (inductive reachability); the stored vector stays empty, so every access panics.
* **C79** Double-double constants: the literals are read as correctly rounded decimals; rational bounds for pi from the standard library's Machin formula (alternating series) and for e from the alternating series of exp(-1), computed in `Q`, then one rounding lemma.
* **C80** Text forms tell values apart: the printing of a double is an argument; a text is cut at the first character that is no part of a numeral, field by field, and by induction over the sequence.
* **C81** Kinds and dimensions: the seven types as one sum (Kind_model); boundary dimensions from the closedness theorems of C67 and C77 against an independent notion of parts.
* **C82** Agreement between modules: no new model; each pair of functions is linked through the real-number characterisation both sides already have (C50-C53, C61, C68, C71); for rectangles the crossing count is worked out directly over the reals. Proved on grids, where both sides are exact.
* **C83** Direct access: no new model; case analysis over the nine cells, `nth_error` for vertices, one rounding lemma per component for vectors, and case analysis over the kinds of double for homogeneous points.
* **C84** Ray crossing counter fed segment by segment: the effect of a segment (a number to add, a flag) is shown not to depend on the state of the counter; order, grouping into rings and skipping follow by induction over the list, for all doubles. Directions through C50. `Promises_props.v` takes single sentences of the documentation literally (C84 stays, C61 areas, centres and circle, C55 range, C47 flat rings).
* **C85** Documented refusals: `Refuse_props.v` states the documented conditions as predicates on lists and shows that the constructors do not keep them (`_refuted`) and what is built instead, from C67 and C68; the functions of a segment of length zero are followed through signed zeros and NaN for all doubles; for flat triangles the determinant is exact on the grid, hence zero, and a division by zero is never finite. `Cases_props.v` holds concrete cases for theorems of other files that have none beside them. `DDZero_props.v` (also C72) follows NaN through the double-double division by zero and through the double-double circumcentre of a flat triangle.
* **C86** NaN ordinates: `Nan_props.v` follows a NaN through the orientation filter and the double-double fallback (every comparison is false, so the sign is 0), adds up the effect of each segment on the crossing counter (with the sums of `Counter_props.v`) and follows the index 0 through the triangle test and the branches of the line intersector. That a point without a position is outside every ring is refuted (`_refuted`). `NanEnv_props.v`: induction over the points of an envelope, each axis a fold of comparisons. `NanDist_props.v`: NaN through the distance formulas. `NanArea_props.v`: loop invariant that the sum is NaN after the first term that is. `NanLength_props.v`: the same for the sum of segment lengths.

## What is modelled

The crate is `/repo/src/core` (the rest of `/repo/src` is tests). Every function with executable code there is modelled, one definition per function, except those listed under "Not modelled". Comments at each definition give file and lines.

`RepoTests.v` replays the unit tests of `/repo/src/tests` on the model (all but those that need the platform's `atan2`, `sin`, `cos` or random numbers). They are tests, not proofs: they check that the definitions compute what the code is recorded to compute.

| Model file | Source files (under `src/core`) |
| --- | --- |
| `Base.v` | panics, checked and wrapping `i32`/`usize`, vector reads and writes, counted loops |
| `F64.v` | the `f64` operations used by the code |
| `Num.v` | the same arithmetic as a record, so that one definition can be read over `f64` and over `R` |
| `Coordinate_model.v` | `geom/coordinate.rs`, `util/number_util.rs` |
| `Envelope_model.v` | `geom/envelope.rs` |
| `Octagon_model.v` | `geom/octagonal_envelope.rs` |
| `CoordArrays_model.v` | `geom/coordinates.rs`, `coordinate_list.rs`, `coordinate_arrays.rs` |
| `CoordSeq_model.v` | `geom/implementation/coordinate_array_sequence.rs`, `coordinate_array_sequence_factory.rs`, `packed_coordinate_sequence_double.rs`, `packed_coordinate_sequence_factory.rs`, `geom/coordinate_array_sequences.rs`, `packed_coordinate_sequences.rs`, `coordinate_sequence_comparator.rs` |
| `PackedSeq_model.v` | `geom/implementation/packed_coordinate_sequence.rs` |
| `IntersectionMatrix_model.v` | `geom/intersection_matrix.rs`, `dimension.rs`, `location.rs`, `position.rs` |
| `PrecisionModel_model.v` | `geom/precision_model.rs` |
| `Quadrant_model.v` | `geom/quadrant.rs` |
| `Segment_model.v` | `geom/line_segment.rs` |
| `Triangle_model.v` | `geom/triangle.rs` |
| `Geom_model.v` | `geom/point.rs`, `line_string.rs`, `linear_ring.rs`, `polygon.rs`, `multi_point.rs`, `multi_line_string.rs`, `multi_polygon.rs`, `geometry_factory.rs`, `geometry.rs` |
| `Kind_model.v` | type codes, type names and dimensions of the geometry types |
| `Text_model.v` | `fmt`, `to_string` and `dump` in `coordinate.rs`, `envelope.rs`, `vector_2d.rs`, `vector_3d.rs`, `dd.rs`, `precision_model.rs`, `coordinate_array_sequence.rs` |
| `Angle_model.v` | `algorithm/angle.rs` |
| `Orientation_model.v` | `algorithm/cg_algorithms_dd.rs`, `orientation.rs` |
| `Measure_model.v` | `algorithm/area.rs`, `length.rs` |
| `PointLocation_model.v` | `algorithm/ray_crossing_counter.rs`, `point_location.rs` |
| `Distance_model.v`, `Distance3D_model.v` | `algorithm/distance.rs`, `cg_algorithms_3d.rs` |
| `Intersection_model.v` | `algorithm/intersection.rs`, `hcoordinate.rs` |
| `LineIntersector_model.v` | `algorithm/robust_line_intersector.rs` |
| `Centroid_model.v` | `algorithm/centroid.rs` |
| `DD_model.v`, `DDConst_model.v` | `math/dd.rs` |
| `Vector_model.v`, `Matrix_model.v` | `math/vector_2d.rs`, `vector_3d.rs`, `matrix.rs` |
| `MathUtil_model.v` | `util/math_util.rs` |
| `Entry_model.v` | methods of several files that pass their arguments on or build records: `envelope.rs`, `triangle.rs`, `coordinate.rs`, `octagonal_envelope.rs`, `dd.rs`, the vectors, `line_segment.rs` |

Not modelled:

* `is_simple` of points, which is always true;
* field getters and setters such as `get_min_x`, `get_scale`, `get_count`, `get_raw_coordinates`, and constructors that only fill in fields: theorems speak of the record fields;
* aliases that only pass their arguments on to a modelled function and are not in `Entry_model.v` (most of `geometry_factory.rs`);
* code that is commented out in the source (nearly all of `geometry.rs` and `line_intersector.rs`, the text conversions of `dd.rs`).

## Simplifications

* There is one NaN. No modelled code looks at NaN payloads or signs.
* References, clones and `&mut` are values and returned values. No modelled function keeps an alias, so nothing is lost.
* `Vec` and arrays are lists. Memory and capacity limits are not modelled. Where the length of a vector meets an `i32` or `usize` counter, the range check is there.
* Overflow of `usize` and `i32` depends on the build. Functions where it matters take the arithmetic as an argument. Theorems then cover both builds or name the one they are about.
* The text of a double under `{}` is an argument.
* Functions of libm (`hypot`, `atan2`, `sin`, `cos`, `ln`) and random numbers are arguments. What a theorem assumes about them is in its hypotheses, and each such hypothesis holds of the correctly rounded function. `sqrt`, `floor`, `ceil`, `round`, `trunc` are IEEE operations and are defined.
* Loops whose end is not evident carry fuel. `None` means that the fuel ran out; the theorems say that some fuel suffices, or that none does.
* Theorems stated "in exact arithmetic" read the code with `R` in place of `f64` (Num.v). They are about the formula, not about its rounding. The rounding is covered by the theorems about doubles beside them, with their domain.

## Trusted base

* The Coq 8.16.1 kernel, with no checks switched off and no axioms of our own.
* Axioms of the standard library, as printed by `Print Assumptions`. `ASSUMPTIONS.md` lists them for each theorem (written by `tools/assumptions.py`). They are of two origins: the classical real numbers (`ClassicalDedekindReals.sig_forall_dec`, `ClassicalDedekindReals.sig_not_dec`, `FunctionalExtensionality.functional_extensionality_dep`), and `Classical_Prop.classic`, used by Flocq.
* Flocq 4.1.0 for the definition of IEEE arithmetic: that `binary_float 53 1024` with `mode_NE` is what `f64` computes.
* The reading of the Rust source by hand. Nothing ties the Gallina text to the Rust text mechanically. `seeded/LOG.jsonl` records which edits of the model the theorems notice.
