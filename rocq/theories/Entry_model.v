(** Further entry points: methods and aliases that pass on to the functions
    modelled elsewhere. *)
From Coq Require Import ZArith Bool List.
From Verif Require Import Base F64 Num Coordinate_model Envelope_model Orientation_model Distance_model Triangle_model CoordSeq_model Octagon_model Geom_model DD_model Vector_model Segment_model Intersection_model.
Import ListNotations.
Local Open Scope Z_scope.

(** ** envelope.rs *)
(** envelope.rs 222-227: [init]. *)
Definition env_init (self env : Envelope) : Envelope := mkE (minx env) (maxx env) (miny env) (maxy env).
(** envelope.rs 234-236: [copy]. *)
Definition env_copy_self (self : Envelope) : Envelope := env_new_envelope self.
(** envelope.rs 242-247: [set_to_null]. *)
Definition env_set_to_null (self : Envelope) : Envelope := mkE f0 (fneg f1) f0 (fneg f1).
(** envelope.rs 701-703: [overlaps_envelope]. *)
Definition overlaps_envelope (self other : Envelope) : bool := intersects_envelope self other.
(** envelope.rs 712-714: [intersects_coordinate]. *)
Definition intersects_coordinate (self : Envelope) (p : Coordinate) : bool := intersects_xy self (cx p) (cy p).
(** envelope.rs 719-721: [overlaps_coordinate]. *)
Definition overlaps_coordinate (self : Envelope) (p : Coordinate) : bool := intersects_coordinate self p.
(** envelope.rs 740-742: [overlaps_xy]. *)
Definition overlaps_xy (self : Envelope) (x y : f64) : bool := intersects_xy self x y.
(** envelope.rs 756-758: [contains_envelope]. *)
Definition contains_envelope (self other : Envelope) : bool := covers_envelope self other.
(** envelope.rs 836-838: [covers_coordinate]. *)
Definition covers_coordinate (self : Envelope) (p : Coordinate) : bool := covers_xy self (cx p) (cy p).
(** envelope.rs 773-775: [contains_coordinate]. *)
Definition contains_coordinate (self : Envelope) (p : Coordinate) : bool := covers_coordinate self p.
(** envelope.rs 792-794: [contains_xy]. *)
Definition contains_xy (self : Envelope) (x y : f64) : bool := covers_xy self x y.

(** ** triangle.rs *)
(** triangle.rs 18-22: [struct Triangle]. *)
Record Tri := mkT { t0 : Coordinate; t1 : Coordinate; t2 : Coordinate }.
(** triangle.rs 35-41: [new]. *)
Definition t_new (a b c : Coordinate) : Tri := mkT (from_coordinate a) (from_coordinate b) (from_coordinate c).
Section Triangle.
Variable hypot : f64 -> f64 -> f64.
(** triangle.rs 537-539: [in_centre]. *)
Definition t_in_centre (t : Tri) : Coordinate := tri_in_centre hypot (t0 t) (t1 t) (t2 t).
(** triangle.rs 551-553: [is_acute]. *)
Definition t_is_acute (t : Tri) : bool := tri_is_acute (t0 t) (t1 t) (t2 t).
(** triangle.rs 560-562: [is_ccw]. *)
Definition t_is_ccw (t : Tri) : bool := tri_is_ccw (t0 t) (t1 t) (t2 t).
(** triangle.rs 579-581: [circumcentre]. *)
Definition t_circumcentre (t : Tri) : Coordinate := tri_circumcentre hypot (t0 t) (t1 t) (t2 t).
(** triangle.rs 588-590: [circumradius]. *)
Definition t_circumradius (t : Tri) : f64 := tri_circumradius hypot (t0 t) (t1 t) (t2 t).
(** triangle.rs 602-604: [centroid]. *)
Definition t_centroid (t : Tri) : Coordinate := tri_centroid hypot (t0 t) (t1 t) (t2 t).
(** triangle.rs 611-613: [length]. *)
Definition t_length (t : Tri) : f64 := tri_length hypot (t0 t) (t1 t) (t2 t).
(** triangle.rs 620-622: [longest_side_length]. *)
Definition t_longest_side (t : Tri) : f64 := tri_longest_side hypot (t0 t) (t1 t) (t2 t).
(** triangle.rs 632-634: [area]. *)
Definition t_area (t : Tri) : f64 := tri_area hypot (t0 t) (t1 t) (t2 t).
(** triangle.rs 649-651: [signed_area]. *)
Definition t_signed_area (t : Tri) : f64 := tri_signed_area hypot (t0 t) (t1 t) (t2 t).
(** triangle.rs 659-661: [area_3d]. *)
Definition t_area_3d (t : Tri) : f64 := tri_area_3d hypot (t0 t) (t1 t) (t2 t).
(** triangle.rs 676-678: [interpolate_z]. *)
Definition t_interpolate_z (t : Tri) (p : Coordinate) : f64 := tri_interpolate_z hypot p (t0 t) (t1 t) (t2 t).
End Triangle.

(** ** coordinate.rs *)
(** coordinate.rs 143-150, 170-190, 197-199: [new_coordinatexy_default],
    [new_coordinatexy], [new_coordinatexym], [new_coordinatexyzm], [create]. *)
Definition new_coordinatexy_default : Coordinate := mkC f0 f0 fnan fnan.
Definition new_coordinatexy (x y : f64) : Coordinate := mkC x y fnan fnan.
Definition new_coordinatexym (x y m : f64) : Coordinate := mkC x y fnan m.
Definition new_coordinatexyzm (x y z m : f64) : Coordinate := mkC x y z m.
Definition coord_create : Coordinate := coord_default.
(** coordinate.rs 217-219, 235-237: [get_x], [get_y]. *)
Definition coord_get_x (c : Coordinate) : f64 := cx c.
Definition coord_get_y (c : Coordinate) : f64 := cy c.

(** ** octagonal_envelope.rs *)
(** octagonal_envelope.rs 98-102: [new_with_line_string]. *)
Definition oct_of_line (l : GLine) : res Oct := s <- ln_sequence l ;; oct_expand_seq oct_default s.

(** ** dd.rs *)
(** dd.rs 136-150, 233-250, 275-289: [new_hi_lo], [new_from_dd], [value_of_f64],
    [copy], [copy_self], [set_value_dd], [set_value_f64]. *)
Definition dd_new_hi_lo (h l : f64) : DD := mkDD h l.
Definition dd_from_dd (d : DD) : DD := mkDD (hi d) (lo d).
Definition dd_value_of_f64 (x : f64) : DD := dd_of x.
Definition dd_copy (d : DD) : DD := dd_from_dd d.
Definition dd_copy_self (d : DD) : DD := dd_from_dd d.
Definition dd_set_value (self d : DD) : DD := mkDD (hi d) (lo d).
Definition dd_set_value_f64 (self : DD) (v : f64) : DD := mkDD v f0.
(** dd.rs 589-604: [self_divide_dd], [self_divide_f64]. *)
Definition dd_self_div (self y : DD) : DD := dd_div_hi_lo self (hi y) (lo y).
Definition dd_self_div_f64 (self : DD) (y : f64) : DD := dd_div_hi_lo self y f0.

(** ** vector_2d.rs, vector_3d.rs *)
(** vector_2d.rs 30-36, 56-99: constructors and getters. *)
Definition v2_from_xy (x y : f64) : V2 := mkV2 x y.
Definition v2_from_v2 (v : V2) : V2 := mkV2 (vx v) (vy v).
Definition v2_create_xy (x y : f64) : V2 := v2_from_xy x y.
Definition v2_create_v2 (v : V2) : V2 := v2_from_v2 v.
Definition v2_create_coordinate (c : Coordinate) : V2 := v2_of_coordinate c.
Definition v2_create_from_to (a b : Coordinate) : V2 := v2_from_to a b.
Definition v2_get_x (v : V2) : f64 := vx v.
Definition v2_get_y (v : V2) : f64 := vy v.
(** vector_3d.rs 54-80, 117-137: constructors and getters. *)
Definition v3_from_xyz (x y z : f64) : V3 := mkV3 x y z.
Definition v3_create_xyz (x y z : f64) : V3 := v3_from_xyz x y z.
Definition v3_create_coordinate (c : Coordinate) : V3 := v3_of_coordinate c.
Definition v3_get_x (v : V3) : f64 := wx v.
Definition v3_get_y (v : V3) : f64 := wy v.
Definition v3_get_z (v : V3) : f64 := wz v.

(** ** line_segment.rs *)
(** line_segment.rs 633-635: [line_intersection]. *)
Definition seg_line_intersection (s t : LineSegment) : option Coordinate := cgdd_intersection (p0 s) (p1 s) (p0 t) (p1 t).
