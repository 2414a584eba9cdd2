(** Model of src/core/algorithm/robust_line_intersector.rs.  The fields
    [int_line_index], [pa] and [pb] (19-22) are written by [default] only and
    never read, so they are left out. *)
From Coq Require Import ZArith Bool.
From Verif Require Import Base F64 Coordinate_model Envelope_model Orientation_model Distance_model
  PrecisionModel_model Intersection_model.
Open Scope Z_scope.

(** robust_line_intersector.rs 32-42: the result codes. *)
Definition NO_INTERSECTION : Z := 0.
Definition POINT_INTERSECTION : Z := 1.
Definition COLLINEAR_INTERSECTION : Z := 2.
(** robust_line_intersector.rs 13-26: [struct RobustLineIntersector]. *)
Record LI := mkLI {
  li_result : Z;
  in_p1 : Coordinate; in_p2 : Coordinate; in_q1 : Coordinate; in_q2 : Coordinate;
  int_0 : Coordinate; int_1 : Coordinate;
  li_proper : bool;
  li_pm : option PM }.
(** robust_line_intersector.rs 44-64: [default]. *)
Definition li_default : LI :=
  mkLI 0 coord_default coord_default coord_default coord_default coord_default coord_default false None.
(** robust_line_intersector.rs 71-73: [set_precision_model]. *)
Definition li_set_pm (s : LI) (pm : PM) : LI :=
  mkLI (li_result s) (in_p1 s) (in_p2 s) (in_q1 s) (in_q2 s) (int_0 s) (int_1 s) (li_proper s) (Some pm).
(** robust_line_intersector.rs 80-93: [has_intersection], [get_intersection]. *)
Definition has_intersection (s : LI) : bool := negb (li_result s =? NO_INTERSECTION).
Definition get_intersection (s : LI) (i : nat) : res Coordinate :=
  match i with O => Ok (int_0 s) | S O => Ok (int_1 s) | _ => Panic end.
Definition li_set_result (s : LI) (r : Z) : LI :=
  mkLI r (in_p1 s) (in_p2 s) (in_q1 s) (in_q2 s) (int_0 s) (int_1 s) (li_proper s) (li_pm s).
Definition li_set_proper (s : LI) (b : bool) : LI :=
  mkLI (li_result s) (in_p1 s) (in_p2 s) (in_q1 s) (in_q2 s) (int_0 s) (int_1 s) b (li_pm s).
Definition li_set_0 (s : LI) (c : Coordinate) : LI :=
  mkLI (li_result s) (in_p1 s) (in_p2 s) (in_q1 s) (in_q2 s) c (int_1 s) (li_proper s) (li_pm s).
Definition li_set_1 (s : LI) (c : Coordinate) : LI :=
  mkLI (li_result s) (in_p1 s) (in_p2 s) (in_q1 s) (in_q2 s) (int_0 s) c (li_proper s) (li_pm s).
Definition li_set_lines (s : LI) (p1 p2 q1 q2 : Coordinate) : LI :=
  mkLI (li_result s) (from_coordinate p1) (from_coordinate p2) (from_coordinate q1) (from_coordinate q2)
    (int_0 s) (int_1 s) (li_proper s) (li_pm s).

(** robust_line_intersector.rs 95-109: [compute_intersection_3]. *)
Definition compute_intersection_3 (s : LI) (p p1 p2 : Coordinate) : LI :=
  let s := li_set_proper s false in
  if intersects_3 p1 p2 p && ((orient p1 p2 p =? 0) && (orient p2 p1 p =? 0)) then
    li_set_result (li_set_proper s (negb (equals_2d p p1 || equals_2d p p2))) POINT_INTERSECTION
  else li_set_result s NO_INTERSECTION.

(** robust_line_intersector.rs 432-438: [get_z]. *)
Definition li_get_z (p q : Coordinate) : f64 := if fis_nan (cz p) then cz q else cz p.
(** robust_line_intersector.rs 476-507: [z_interpolate_3]. *)
Definition z_interpolate_3 (p p1 p2 : Coordinate) : f64 :=
  let p1z := cz p1 in
  let p2z := cz p2 in
  if fis_nan p1z then p2z
  else if fis_nan p2z then p1z
  else if equals_2d p p1 then p1z
  else if equals_2d p p2 then p2z
  else
    let dz := fsub p2z p1z in
    if feqb dz f0 then p1z
    else
      let dx := fsub (cx p2) (cx p1) in
      let dy := fsub (cy p2) (cy p1) in
      let seglen := fadd (fmul dx dx) (fmul dy dy) in
      let xoff := fsub (cx p) (cx p1) in
      let yoff := fsub (cy p) (cy p1) in
      let plen := fadd (fmul xoff xoff) (fmul yoff yoff) in
      let frac := fsqrt (fdiv plen seglen) in
      let zoff := fmul dz frac in
      fadd p1z zoff.
(** robust_line_intersector.rs 451-462: [get_z_or_interpolate]. *)
Definition get_z_or_interpolate (p p1 p2 : Coordinate) : f64 :=
  if negb (fis_nan (cz p)) then cz p else z_interpolate_3 p p1 p2.
(** robust_line_intersector.rs 523-541: [z_interpolate_5]. *)
Definition z_interpolate_5 (p p1 p2 q1 q2 : Coordinate) : f64 :=
  let zp := z_interpolate_3 p p1 p2 in
  let zq := z_interpolate_3 p q1 q2 in
  if fis_nan zp then zq
  else if fis_nan zq then zp
  else fdiv (fadd zp zq) f2.
(** robust_line_intersector.rs 303-309: [copy_with_z]; 293-301: [copy_with_z_interpolate]. *)
Definition copy_with_z (p : Coordinate) (z : f64) : Coordinate :=
  let c := from_coordinate p in if negb (fis_nan z) then set_z c z else c.
Definition copy_with_z_interpolate (p p1 p2 : Coordinate) : Coordinate :=
  copy_with_z p (get_z_or_interpolate p p1 p2).

Section Hypot.
(** [f64::hypot], used by the distances. *)
Variable hypot : f64 -> f64 -> f64.

(** robust_line_intersector.rs 397-422: [nearest_endpoint]. *)
Definition nearest_endpoint (p1 p2 q1 q2 : Coordinate) : Coordinate :=
  let nearest := p1 in
  let min_dist := point_to_segment hypot p1 q1 q2 in
  let dist := point_to_segment hypot p2 q1 q2 in
  let '(min_dist, nearest) := if fltb dist min_dist then (dist, p2) else (min_dist, nearest) in
  let dist := point_to_segment hypot q1 p1 p2 in
  let '(min_dist, nearest) := if fltb dist min_dist then (dist, q1) else (min_dist, nearest) in
  let dist := point_to_segment hypot q2 p1 p2 in
  let nearest := if fltb dist min_dist then q2 else nearest in
  from_coordinate nearest.
(** robust_line_intersector.rs 349-361: [intersection_safe]. *)
Definition intersection_safe (p1 p2 q1 q2 : Coordinate) : Coordinate :=
  match cgdd_intersection p1 p2 q1 q2 with
  | Some c => c
  | None => nearest_endpoint p1 p2 q1 q2
  end.
(** robust_line_intersector.rs 372-376: [is_in_segment_envelopes]; it looks at the stored lines. *)
Definition is_in_segment_envelopes (s : LI) (c : Coordinate) : bool :=
  let env0 := env_new_coordinates (in_p1 s) (in_p2 s) in
  let env1 := env_new_coordinates (in_q1 s) (in_q2 s) in
  covers_xy env0 (cx c) (cy c) && covers_xy env1 (cx c) (cy c).
(** robust_line_intersector.rs 315-335: [intersection]. *)
Definition li_intersection (s : LI) (p1 p2 q1 q2 : Coordinate) : Coordinate :=
  let c := intersection_safe p1 p2 q1 q2 in
  let c := if negb (is_in_segment_envelopes s c) then from_coordinate (nearest_endpoint p1 p2 q1 q2) else c in
  match li_pm s with
  | Some pm => make_precise_coordinate pm c
  | None => c
  end.

(** robust_line_intersector.rs 228-291: [compute_collinear_intersection]: new state and code. *)
Definition compute_collinear_intersection (s : LI) (p1 p2 q1 q2 : Coordinate) : LI * Z :=
  let q1_in_p := intersects_3 p1 p2 q1 in
  let q2_in_p := intersects_3 p1 p2 q2 in
  let p1_in_q := intersects_3 q1 q2 p1 in
  let p2_in_q := intersects_3 q1 q2 p2 in
  let set_both a b := li_set_1 (li_set_0 s a) b in
  if q1_in_p && q2_in_p then
    (set_both (copy_with_z_interpolate q1 p1 p2) (copy_with_z_interpolate q2 p1 p2), COLLINEAR_INTERSECTION)
  else if p1_in_q && p2_in_q then
    (set_both (copy_with_z_interpolate p1 q1 q2) (copy_with_z_interpolate p2 q1 q2), COLLINEAR_INTERSECTION)
  else if q1_in_p && p1_in_q then
    (set_both (copy_with_z_interpolate q1 p1 p2) (copy_with_z_interpolate p1 q1 q2),
     if equals_2d q1 p1 && negb q2_in_p && negb p2_in_q then POINT_INTERSECTION else COLLINEAR_INTERSECTION)
  else if q1_in_p && p2_in_q then
    (set_both (copy_with_z_interpolate q1 p1 p2) (copy_with_z_interpolate p2 q1 q2),
     if equals_2d q1 p2 && negb q2_in_p && negb p1_in_q then POINT_INTERSECTION else COLLINEAR_INTERSECTION)
  else if q2_in_p && p1_in_q then
    (set_both (copy_with_z_interpolate q2 p1 p2) (copy_with_z_interpolate p1 q1 q2),
     if equals_2d q2 p1 && negb q1_in_p && negb p2_in_q then POINT_INTERSECTION else COLLINEAR_INTERSECTION)
  else if q2_in_p && p2_in_q then
    (set_both (copy_with_z_interpolate q2 p1 p2) (copy_with_z_interpolate p2 q1 q2),
     if equals_2d q2 p2 && negb q1_in_p && negb p1_in_q then POINT_INTERSECTION else COLLINEAR_INTERSECTION)
  else (s, NO_INTERSECTION).

Definition same_side (a b : Z) : bool := ((0 <? a) && (0 <? b)) || ((a <? 0) && (b <? 0)).
(** robust_line_intersector.rs 177-218: the point and Z value when some end lies on the other line. *)
Definition touch_point (p1 p2 q1 q2 : Coordinate) (pq1 pq2 qp1 qp2 : Z) : Coordinate * f64 :=
  if equals_2d p1 q1 then (from_coordinate p1, li_get_z p1 q1)
  else if equals_2d p1 q2 then (from_coordinate p1, li_get_z p1 q2)
  else if equals_2d p2 q1 then (from_coordinate p2, li_get_z p2 q1)
  else if equals_2d p2 q2 then (from_coordinate p2, li_get_z p2 q2)
  else if pq1 =? 0 then (from_coordinate q1, get_z_or_interpolate q1 p1 p2)
  else if pq2 =? 0 then (from_coordinate q2, get_z_or_interpolate q2 p1 p2)
  else if qp1 =? 0 then (from_coordinate p1, get_z_or_interpolate p1 q1 q2)
  else if qp2 =? 0 then (from_coordinate p2, get_z_or_interpolate p2 q1 q2)
  else (coord_default, fnan).
(** robust_line_intersector.rs 130-226: [compute_intersect]: new state and code. *)
Definition compute_intersect (s : LI) (p1 p2 q1 q2 : Coordinate) : LI * Z :=
  let s := li_set_proper s false in
  if negb (intersects_4 p1 p2 q1 q2) then (s, NO_INTERSECTION)
  else
    let pq1 := orient p1 p2 q1 in
    let pq2 := orient p1 p2 q2 in
    if same_side pq1 pq2 then (s, NO_INTERSECTION)
    else
      let qp1 := orient q1 q2 p1 in
      let qp2 := orient q1 q2 p2 in
      if same_side qp1 qp2 then (s, NO_INTERSECTION)
      else if (pq1 =? 0) && (pq2 =? 0) && (qp1 =? 0) && (qp2 =? 0) then compute_collinear_intersection s p1 p2 q1 q2
      else if (pq1 =? 0) || (pq2 =? 0) || (qp1 =? 0) || (qp2 =? 0) then
        let '(p, z) := touch_point p1 p2 q1 q2 pq1 pq2 qp1 qp2 in
        (li_set_0 (li_set_proper s false) (copy_with_z p z), POINT_INTERSECTION)
      else
        let s := li_set_proper s true in
        let p := li_intersection s p1 p2 q1 q2 in
        let z := z_interpolate_5 p p1 p2 q1 q2 in
        (li_set_0 s (copy_with_z p z), POINT_INTERSECTION).
(** robust_line_intersector.rs 116-128: [compute_intersection_4]. *)
Definition compute_intersection_4 (s : LI) (p1 p2 q1 q2 : Coordinate) : LI :=
  let s := li_set_lines s p1 p2 q1 q2 in
  let '(s, r) := compute_intersect s p1 p2 q1 q2 in
  li_set_result s r.
End Hypot.
