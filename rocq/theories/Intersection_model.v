(** Model of src/core/algorithm/intersection.rs and hcoordinate.rs.
    [Intersection::intersection] (intersection.rs 37-46) is
    [cgdd_intersection] of Orientation_model.v. *)
From Coq Require Import ZArith Bool.
From Verif Require Import Base F64 Coordinate_model Orientation_model Distance_model.
Open Scope Z_scope.

(** The test made by intersection.rs 149-152 and hcoordinate.rs 53-56. *)
Definition bad_result (x y : f64) : bool :=
  fis_nan x || (fis_infinite x || fis_nan y) || fis_infinite y.

(** intersection.rs 61-157: [intersection_fp]. *)
Definition intersection_fp (p1 p2 q1 q2 : Coordinate) : option Coordinate :=
  let min_x0 := if fltb (cx p1) (cx p2) then cx p1 else cx p2 in
  let min_y0 := if fltb (cy p1) (cy p2) then cy p1 else cy p2 in
  let max_x0 := if fgtb (cx p1) (cx p2) then cx p1 else cx p2 in
  let max_y0 := if fgtb (cy p1) (cy p2) then cy p1 else cy p2 in
  let min_x1 := if fltb (cx q1) (cx q2) then cx q1 else cx q2 in
  let min_y1 := if fltb (cy q1) (cy q2) then cy q1 else cy q2 in
  let max_x1 := if fgtb (cx q1) (cx q2) then cx q1 else cx q2 in
  let max_y1 := if fgtb (cy q1) (cy q2) then cy q1 else cy q2 in
  let int_min_x := if fgtb min_x0 min_x1 then min_x0 else min_x1 in
  let int_max_x := if fltb max_x0 max_x1 then max_x0 else max_x1 in
  let int_min_y := if fgtb min_y0 min_y1 then min_y0 else min_y1 in
  let int_max_y := if fltb max_y0 max_y1 then max_y0 else max_y1 in
  let midx := fdiv (fadd int_min_x int_max_x) f2 in
  let midy := fdiv (fadd int_min_y int_max_y) f2 in
  let p1x := fsub (cx p1) midx in let p1y := fsub (cy p1) midy in
  let p2x := fsub (cx p2) midx in let p2y := fsub (cy p2) midy in
  let q1x := fsub (cx q1) midx in let q1y := fsub (cy q1) midy in
  let q2x := fsub (cx q2) midx in let q2y := fsub (cy q2) midy in
  let px := fsub p1y p2y in
  let py := fsub p2x p1x in
  let pw := fsub (fmul p1x p2y) (fmul p2x p1y) in
  let qx := fsub q1y q2y in
  let qy := fsub q2x q1x in
  let qw := fsub (fmul q1x q2y) (fmul q2x q1y) in
  let x := fsub (fmul py qw) (fmul qy pw) in
  let y := fsub (fmul qx pw) (fmul px qw) in
  let w := fsub (fmul px qy) (fmul qx py) in
  let x_int := fdiv x w in
  let y_int := fdiv y w in
  if bad_result x_int y_int then None
  else Some (new_xy (fadd x_int midx) (fadd y_int midy)).

(** intersection.rs 174-210: [line_segment]. *)
Definition line_segment (hypot : f64 -> f64 -> f64) (line1 line2 seg1 seg2 : Coordinate) : option Coordinate :=
  let orient_s1 := orient line1 line2 seg1 in
  if orient_s1 =? 0 then Some (from_coordinate seg1)
  else
    let orient_s2 := orient line1 line2 seg2 in
    if orient_s2 =? 0 then Some (from_coordinate seg2)
    else if ((0 <? orient_s1) && (0 <? orient_s2)) || ((orient_s1 <? 0) && (orient_s2 <? 0)) then None
    else
      match cgdd_intersection line1 line2 seg1 seg2 with
      | Some p => Some p
      | None =>
        let dist1 := line_perpendicular hypot seg1 line1 line2 in
        let dist2 := line_perpendicular hypot seg2 line1 line2 in
        if fltb dist1 dist2 then Some (from_coordinate seg1) else Some (from_coordinate seg2)
      end.

(** ** hcoordinate.rs *)
(** hcoordinate.rs 12-16: [struct HCoordinate]. *)
Record HCoord := mkH { hx : f64; hy : f64; hw : f64 }.
(** hcoordinate.rs 77-107: [default], [new_with_xyw], [new_with_xy], [new_with_coordinate]. *)
Definition h_default : HCoord := mkH f0 f0 f1.
Definition h_xyw (x y w : f64) : HCoord := mkH x y w.
Definition h_xy (x y : f64) : HCoord := mkH x y f1.
Definition h_coordinate (p : Coordinate) : HCoord := mkH (cx p) (cy p) f1.
(** hcoordinate.rs 109-115: [new_with_hcoordinates]. *)
Definition h_cross (p1 p2 : HCoord) : HCoord :=
  mkH (fsub (fmul (hy p1) (hw p2)) (fmul (hy p2) (hw p1)))
      (fsub (fmul (hx p2) (hw p1)) (fmul (hx p1) (hw p2)))
      (fsub (fmul (hx p1) (hy p2)) (fmul (hx p2) (hy p1))).
(** hcoordinate.rs 125-132: [new_with_coordinates]. *)
Definition h_line (p1 p2 : Coordinate) : HCoord :=
  mkH (fsub (cy p1) (cy p2)) (fsub (cx p2) (cx p1))
      (fsub (fmul (cx p1) (cy p2)) (fmul (cx p2) (cy p1))).
(** hcoordinate.rs 134-154: [new_with_coordinates_4]. *)
Definition h_meet (p1 p2 q1 q2 : Coordinate) : HCoord :=
  let px := fsub (cy p1) (cy p2) in
  let py := fsub (cx p2) (cx p1) in
  let pw := fsub (fmul (cx p1) (cy p2)) (fmul (cx p2) (cy p1)) in
  let qx := fsub (cy q1) (cy q2) in
  let qy := fsub (cx q2) (cx q1) in
  let qw := fsub (fmul (cx q1) (cy q2)) (fmul (cx q2) (cy q1)) in
  mkH (fsub (fmul py qw) (fmul qy pw)) (fsub (fmul qx pw) (fmul px qw)) (fsub (fmul px qy) (fmul qx py)).
(** hcoordinate.rs 156-177: [get_x], [get_y], [get_coordinate]. *)
Definition h_get (a w : f64) : f64 :=
  let a := fdiv a w in if fis_nan a || fis_infinite a then fnan else a.
Definition h_get_x (h : HCoord) : f64 := h_get (hx h) (hw h).
Definition h_get_y (h : HCoord) : f64 := h_get (hy h) (hw h).
Definition h_get_coordinate (h : HCoord) : Coordinate := set_y (set_x coord_default (h_get_x h)) (h_get_y h).
(** hcoordinate.rs 31-61: [intersection]; repeats the unrolled computation. *)
Definition h_intersection (p1 p2 q1 q2 : Coordinate) : option Coordinate :=
  let px := fsub (cy p1) (cy p2) in
  let py := fsub (cx p2) (cx p1) in
  let pw := fsub (fmul (cx p1) (cy p2)) (fmul (cx p2) (cy p1)) in
  let qx := fsub (cy q1) (cy q2) in
  let qy := fsub (cx q2) (cx q1) in
  let qw := fsub (fmul (cx q1) (cy q2)) (fmul (cx q2) (cy q1)) in
  let x := fsub (fmul py qw) (fmul qy pw) in
  let y := fsub (fmul qx pw) (fmul px qw) in
  let w := fsub (fmul px qy) (fmul qx py) in
  let x_int := fdiv x w in
  let y_int := fdiv y w in
  if bad_result x_int y_int then None else Some (new_xy x_int y_int).
