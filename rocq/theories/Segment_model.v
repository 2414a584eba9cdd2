(** Model of src/core/geom/line_segment.rs.  The numeric methods are written
    over a number type (see Num.v); [projection_factor] returns [None] where
    the code returns the NaN constant for a segment of zero length.  Methods
    taking [&mut self] return the new segment.  [angle] (193) is
    [angle_coordinates] of angle.rs. *)
From Coq Require Import ZArith Bool List.
From Verif Require Import Base F64 Num Coordinate_model Orientation_model Distance_model Intersection_model LineIntersector_model.
Import ListNotations.
Open Scope Z_scope.

Section Numeric.
Variable T : Type.
Variable N : num T.
Let zero := nofZ N 0.
Let one := nofZ N 1.
Let two := nofZ N 2.
(** line_segment.rs 211-213: [mid_point_coordinates]. *)
Definition g_mid_point (a b : P2 T) : P2 T :=
  mkP (ndiv N (nadd N (px a) (px b)) two) (ndiv N (nadd N (py a) (py b)) two).
(** line_segment.rs 282-287: [point_along]; 422-431: [project_coordinate_with_projection_factor]. *)
Definition g_point_along (a b : P2 T) (f : T) : P2 T :=
  mkP (nadd N (px a) (nmul N f (nsub N (px b) (px a)))) (nadd N (py a) (nmul N f (nsub N (py b) (py a)))).
(** line_segment.rs 305-336: [point_along_offset]. *)
Definition g_point_along_offset (a b : P2 T) (f d : T) : P2 T :=
  let segx := nadd N (px a) (nmul N f (nsub N (px b) (px a))) in
  let segy := nadd N (py a) (nmul N f (nsub N (py b) (py a))) in
  let dx := nsub N (px b) (px a) in
  let dy := nsub N (py b) (py a) in
  let len := nhyp N dx dy in
  let ux := if negb (neq N d zero) then ndiv N (nmul N d dx) len else zero in
  let uy := if negb (neq N d zero) then ndiv N (nmul N d dy) len else zero in
  mkP (nsub N segx uy) (nadd N segy ux).
(** line_segment.rs 351-380: [projection_factor]. *)
Definition g_projection_factor (a b p : P2 T) : option T :=
  if g_equals T N p a then Some zero
  else if g_equals T N p b then Some one
  else
    let dx := nsub N (px b) (px a) in
    let dy := nsub N (py b) (py a) in
    let len := nadd N (nmul N dx dx) (nmul N dy dy) in
    if nle N len zero then None
    else Some (ndiv N (nadd N (nmul N (nsub N (px p) (px a)) dx) (nmul N (nsub N (py p) (py a)) dy)) len).
(** line_segment.rs 395-403: [segment_fraction]. *)
Definition g_segment_fraction (a b p : P2 T) : T :=
  match g_projection_factor a b p with
  | None => one
  | Some f => if nlt N f zero then zero else if nlt N one f || nisnan N f then one else f
  end.
(** line_segment.rs 500-520: [reflect]. *)
Definition g_reflect (p0 p1 p : P2 T) : P2 T :=
  let a := nsub N (py p1) (py p0) in
  let b := nsub N (px p0) (px p1) in
  let c := nsub N (nmul N (py p0) (nsub N (px p1) (px p0))) (nmul N (px p0) (nsub N (py p1) (py p0))) in
  let a2_plus_b2 := nadd N (nmul N a a) (nmul N b b) in
  let a2_sub_b2 := nsub N (nmul N a a) (nmul N b b) in
  let x := px p in
  let y := py p in
  let rx := ndiv N (nsub N (nsub N (nmul N (nneg N a2_sub_b2) x) (nmul N (nmul N (nmul N two a) b) y)) (nmul N (nmul N two a) c)) a2_plus_b2 in
  let ry := ndiv N (nsub N (nsub N (nmul N a2_sub_b2 y) (nmul N (nmul N (nmul N two a) b) x)) (nmul N (nmul N two b) c)) a2_plus_b2 in
  mkP rx ry.
(** line_segment.rs 527-538: [closest_point]. *)
Definition g_closest_end (a b p : P2 T) : P2 T :=
  if nlt N (g_distance T N a p) (g_distance T N b p) then a else b.
Definition g_closest_point (a b p : P2 T) : P2 T :=
  match g_projection_factor a b p with
  | Some f => if nlt N zero f && nlt N f one then g_point_along a b f else g_closest_end a b p
  | None => g_closest_end a b p
  end.
(** line_segment.rs 445-473: [project_line_segment]; only for a segment with [projection_factor]
    defined on both ends of [seg], that is [a <> b] or ends equal to [a]. *)
Definition g_project_segment (a b c d : P2 T) : option (option (P2 T * P2 T)) :=
  match g_projection_factor a b c, g_projection_factor a b d with
  | Some pf0, Some pf1 =>
      Some (if nle N one pf0 && nle N one pf1 then None
      else if nle N pf0 zero && nle N pf1 zero then None
      else
        let newp0 := g_point_along a b pf0 in
        let newp0 := if nlt N pf0 zero then a else newp0 in
        let newp0 := if nlt N one pf0 then b else newp0 in
        let newp1 := g_point_along a b pf1 in
        let newp1 := if nlt N one pf1 then b else newp1 in
        let newp1 := if nlt N pf1 zero then a else newp1 in
        Some (newp0, newp1))
  | _, _ => None
  end.
(** line_segment.rs 552-590: the pair found by [closest_points] for segments that do not meet. *)
Definition g_closest_pair (a b c d : P2 T) : P2 T * P2 T :=
  let close00 := g_closest_point a b c in
  let min_distance := g_distance T N close00 c in
  let r := (close00, c) in
  let close01 := g_closest_point a b d in
  let dist := g_distance T N close01 d in
  let r := if nlt N dist min_distance then (close01, d) else r in
  let min_distance := if nlt N dist min_distance then dist else min_distance in
  let close10 := g_closest_point c d a in
  let dist := g_distance T N close10 a in
  let r := if nlt N dist min_distance then (a, close10) else r in
  let min_distance := if nlt N dist min_distance then dist else min_distance in
  let close11 := g_closest_point c d b in
  let dist := g_distance T N close11 b in
  let r := if nlt N dist min_distance then (b, close11) else r in
  r.
(** line_segment.rs 242-247: [distance_perpendicular]. *)
Definition g_distance_perpendicular (a b p : P2 T) : T :=
  if g_equals T N a b then g_distance T N a p else g_line_perpendicular T N p a b.
End Numeric.

(** ** The type *)
(** line_segment.rs 8-12: [struct LineSegment]. *)
Record LineSegment := mkS { p0 : Coordinate; p1 : Coordinate }.
(** line_segment.rs 15-36: [default], [new_from_coordinates], [new_from_xy], [new_from_line_segment]. *)
Definition seg_new (a b : Coordinate) : LineSegment := mkS (from_coordinate a) (from_coordinate b).
Definition seg_default : LineSegment := seg_new coord_default coord_default.
Definition seg_new_xy (x0 y0 x1 y1 : f64) : LineSegment := seg_new (new_xy x0 y0) (new_xy x1 y1).
Definition seg_copy (s : LineSegment) : LineSegment := seg_new (p0 s) (p1 s).
(** line_segment.rs 38-54: [get_coordinate], [set_coordinates]. *)
Definition seg_get (s : LineSegment) (i : nat) : Coordinate := match i with O => p0 s | _ => p1 s end.
Definition seg_set (s : LineSegment) (a b : Coordinate) : LineSegment :=
  mkS (set_y (set_x (p0 s) (cx a)) (cy a)) (set_y (set_x (p1 s) (cx b)) (cy b)).
(** line_segment.rs 60-86: [min_x], [max_x], [min_y], [max_y]. *)
Definition seg_min_x (s : LineSegment) : f64 := fmin (cx (p0 s)) (cx (p1 s)).
Definition seg_max_x (s : LineSegment) : f64 := fmax (cx (p0 s)) (cx (p1 s)).
Definition seg_min_y (s : LineSegment) : f64 := fmin (cy (p0 s)) (cy (p1 s)).
Definition seg_max_y (s : LineSegment) : f64 := fmax (cy (p0 s)) (cy (p1 s)).
(** line_segment.rs 101-112: [is_horizontal], [is_vertical]. *)
Definition is_horizontal (s : LineSegment) : bool := feqb (cy (p0 s)) (cy (p1 s)).
Definition is_vertical (s : LineSegment) : bool := feqb (cx (p0 s)) (cx (p1 s)).
(** line_segment.rs 133-146: [orientation_index_line_segment]; 160-162: [orientation_index_coordinate]. *)
Definition orientation_coordinate (s : LineSegment) (p : Coordinate) : Z := orient (p0 s) (p1 s) p.
Definition orientation_segment (s t : LineSegment) : Z :=
  let orient0 := orient (p0 s) (p1 s) (p0 t) in
  let orient1 := orient (p0 s) (p1 s) (p1 t) in
  if (0 <=? orient0) && (0 <=? orient1) then Z.max orient0 orient1
  else if (orient0 <=? 0) && (orient1 <=? 0) then Z.min orient0 orient1
  else 0.
(** line_segment.rs 167-171: [reverse]; 180-184: [normalize]. *)
Definition seg_reverse (s : LineSegment) : LineSegment := mkS (p1 s) (p0 s).
Definition seg_normalize (s : LineSegment) : LineSegment :=
  if compare_to (p1 s) (p0 s) <? 0 then seg_reverse s else s.
(** line_segment.rs 660-693: [equals], [compare_to], [equals_topo]. *)
Definition seg_equals (s t : LineSegment) : bool := equals_2d (p0 s) (p0 t) && equals_2d (p1 s) (p1 t).
Definition seg_compare (s t : LineSegment) : Z :=
  let comp0 := compare_to (p0 s) (p0 t) in
  if negb (comp0 =? 0) then comp0 else compare_to (p1 s) (p1 t).
Definition seg_equals_topo (s t : LineSegment) : bool :=
  equals_2d (p0 s) (p0 t) && equals_2d (p1 s) (p1 t) || equals_2d (p0 s) (p1 t) && equals_2d (p1 s) (p0 t).

Section Doubles.
Variable hypot : f64 -> f64 -> f64.
Let F := NF hypot.
Definition with_xy (c : Coordinate) (q : P2 f64) : Coordinate := set_y (set_x (from_coordinate c) (px q)) (py q).
(** line_segment.rs 92-94: [get_length]; 202-204: [mid_point]. *)
Definition seg_length (s : LineSegment) : f64 := distance hypot (p0 s) (p1 s).
Definition seg_mid_point (s : LineSegment) : Coordinate :=
  let m := g_mid_point f64 F (pf (p0 s)) (pf (p1 s)) in new_xy (px m) (py m).
(** line_segment.rs 220-269: distances. *)
Definition seg_distance_segment (s t : LineSegment) : f64 := segment_to_segment hypot (p0 s) (p1 s) (p0 t) (p1 t).
Definition seg_distance (s : LineSegment) (p : Coordinate) : f64 := point_to_segment hypot p (p0 s) (p1 s).
Definition seg_distance_perpendicular (s : LineSegment) (p : Coordinate) : f64 :=
  g_distance_perpendicular f64 F (pf (p0 s)) (pf (p1 s)) (pf p).
Definition seg_distance_perpendicular_oriented (s : LineSegment) (p : Coordinate) : f64 :=
  if equals_2d (p0 s) (p1 s) then distance hypot (p0 s) p
  else
    let dist := seg_distance_perpendicular s p in
    if orientation_coordinate s p <? 0 then fneg dist else dist.
(** line_segment.rs 282-336: [point_along], [point_along_offset]; the result is a default
    coordinate with x and y set. *)
Definition seg_point_along (s : LineSegment) (f : f64) : Coordinate :=
  with_xy coord_default (g_point_along f64 F (pf (p0 s)) (pf (p1 s)) f).
Definition seg_point_along_offset (s : LineSegment) (f d : f64) : Coordinate :=
  with_xy coord_default (g_point_along_offset f64 F (pf (p0 s)) (pf (p1 s)) f d).
(** line_segment.rs 351-403: [projection_factor], [segment_fraction]. *)
Definition seg_projection_factor (s : LineSegment) (p : Coordinate) : f64 :=
  match g_projection_factor f64 F (pf (p0 s)) (pf (p1 s)) (pf p) with Some f => f | None => fnan end.
Definition seg_fraction (s : LineSegment) (p : Coordinate) : f64 :=
  let seg_frac := seg_projection_factor s p in
  if fltb seg_frac f0 then f0 else if fgtb seg_frac f1 || fis_nan seg_frac then f1 else seg_frac.
(** line_segment.rs 413-431: [project_coordinate]; keeps the Z and M of [p]. *)
Definition seg_project_with (s : LineSegment) (p : Coordinate) (f : f64) : Coordinate :=
  with_xy p (g_point_along f64 F (pf (p0 s)) (pf (p1 s)) f).
Definition seg_project (s : LineSegment) (p : Coordinate) : Coordinate :=
  if equals_2d p (p0 s) || equals_2d p (p1 s) then from_coordinate p
  else seg_project_with s p (seg_projection_factor s p).
(** line_segment.rs 445-473: [project_line_segment]. *)
Definition seg_project_segment (s t : LineSegment) : option LineSegment :=
  let pf0 := seg_projection_factor s (p0 t) in
  let pf1 := seg_projection_factor s (p1 t) in
  if fgeb pf0 f1 && fgeb pf1 f1 then None
  else if fleb pf0 f0 && fleb pf1 f0 then None
  else
    let newp0 := seg_project_with s (p0 t) pf0 in
    let newp0 := if fltb pf0 f0 then p0 s else newp0 in
    let newp0 := if fgtb pf0 f1 then p1 s else newp0 in
    let newp1 := seg_project_with s (p1 t) pf1 in
    let newp1 := if fgtb pf1 f1 then p1 s else newp1 in
    let newp1 := if fltb pf1 f0 then p0 s else newp1 in
    Some (seg_new newp0 newp1).
(** line_segment.rs 487-491: [offset]. *)
Definition seg_offset (s : LineSegment) (d : f64) : LineSegment :=
  seg_new (seg_point_along_offset s f0 d) (seg_point_along_offset s f1 d).
(** line_segment.rs 500-520: [reflect]. *)
Definition seg_reflect (s : LineSegment) (p : Coordinate) : Coordinate :=
  with_xy p (g_reflect f64 F (pf (p0 s)) (pf (p1 s)) (pf p)).
(** line_segment.rs 527-538: [closest_point]. *)
Definition seg_closest_point (s : LineSegment) (p : Coordinate) : Coordinate :=
  let factor := seg_projection_factor s p in
  if fgtb factor f0 && fltb factor f1 then seg_project_with s p factor
  else if fltb (distance hypot (p0 s) p) (distance hypot (p1 s) p) then p0 s else p1 s.
(** line_segment.rs 607-614: [intersection]; 633-635: [line_intersection]. *)
Definition seg_intersection (s t : LineSegment) : option Coordinate :=
  let li := compute_intersection_4 hypot li_default (p0 s) (p1 s) (p0 t) (p1 t) in
  if has_intersection li then Some (int_0 li) else None.
(** line_segment.rs 546-591: [closest_points]. *)
Definition seg_closest_points (s t : LineSegment) : list Coordinate :=
  match seg_intersection s t with
  | Some q => [new_xy (cx q) (cy q)]
  | None =>
      let close00 := seg_closest_point s (p0 t) in
      let min_distance := distance hypot close00 (p0 t) in
      let r := (close00, p0 t) in
      let close01 := seg_closest_point s (p1 t) in
      let dist := distance hypot close01 (p1 t) in
      let r := if fltb dist min_distance then (close01, p1 t) else r in
      let min_distance := if fltb dist min_distance then dist else min_distance in
      let close10 := seg_closest_point t (p0 s) in
      let dist := distance hypot close10 (p0 s) in
      let r := if fltb dist min_distance then (p0 s, close10) else r in
      let min_distance := if fltb dist min_distance then dist else min_distance in
      let close11 := seg_closest_point t (p1 s) in
      let dist := distance hypot close11 (p1 s) in
      let r := if fltb dist min_distance then (p1 s, close11) else r in
      [fst r; snd r]
  end.
End Doubles.
