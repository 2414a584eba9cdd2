(** Model of src/core/algorithm/centroid.rs, and of get_centroid of polygons
    (src/core/geom/polygon.rs 514-529) and multi-polygons
    (src/core/geom/multi_polygon.rs 151-166).

    Simplifications: the field [triangle_cent3] (centroid.rs) is a scratch
    variable, written before it is read in every call; it is a local value
    here. [Orientation::is_ccw_vec] is the fuelled [is_ccw_vec] of
    Orientation_model; the outcome "out of fuel", which C46_returns excludes, is
    mapped to [Panic]. The i32 counter is incremented with the overflow
    behaviour [i] of the build (panic or wrap); [hypot] is the platform's. *)
From Coq Require Import ZArith Bool List.
From Verif Require Import Base F64 Coordinate_model Envelope_model CoordArrays_model CoordSeq_model
  PrecisionModel_model Orientation_model Measure_model Geom_model.
Import ListNotations.
Open Scope nat_scope.

(** centroid.rs 39-51: the accumulators. *)
Record Cent := mkCn { cn_base : option Coordinate; cn_area2 : f64; cn_cg3 : Coordinate;
  cn_line : Coordinate; cn_len : f64; cn_count : Z; cn_pts : Coordinate }.
(** centroid.rs 75-86: [default]. *)
Definition cn_default : Cent := mkCn None f0 coord_default coord_default f0 0 coord_default.

(** centroid.rs 214-217: [centroid3]; Z and M of the scratch coordinate are never read. *)
Definition centroid3 (p1 p2 p3 : Coordinate) : Coordinate :=
  new_xy (fadd (fadd (cx p1) (cx p2)) (cx p3)) (fadd (fadd (cy p1) (cy p2)) (cy p3)).
(** centroid.rs 224-226: [area2]. *)
Definition cn_tri_area2 (p1 p2 p3 : Coordinate) : f64 :=
  fsub (fmul (fsub (cx p2) (cx p1)) (fsub (cy p3) (cy p1))) (fmul (fsub (cx p3) (cx p1)) (fsub (cy p2) (cy p1))).
(** centroid.rs 191-207: [add_triangle]. *)
Definition add_triangle (st : Cent) (p0 p1 p2 : Coordinate) (is_positive_area : bool) : Cent :=
  let sign := if is_positive_area then f1 else fneg f1 in
  let cent3 := centroid3 p0 p1 p2 in
  let area2 := cn_tri_area2 p0 p1 p2 in
  let cg3 := cn_cg3 st in
  let cg3 := set_x cg3 (fadd (cx cg3) (fmul (fmul sign area2) (cx cent3))) in
  let cg3 := set_y cg3 (fadd (cy cg3) (fmul (fmul sign area2) (cy cent3))) in
  mkCn (cn_base st) (fadd (cn_area2 st) (fmul sign area2)) cg3 (cn_line st) (cn_len st) (cn_count st) (cn_pts st).
(** centroid.rs 259-263: [add_point]. *)
Definition add_point (i : Z -> res Z) (st : Cent) (pt : Coordinate) : res Cent :=
  n <- i (cn_count st + 1)%Z ;;
  let s := cn_pts st in
  let s := set_x s (fadd (cx s) (cx pt)) in
  let s := set_y s (fadd (cy s) (cy pt)) in
  Ok (mkCn (cn_base st) (cn_area2 st) (cn_cg3 st) (cn_line st) (cn_len st) n s).
(** centroid.rs 236-249: one turn of the loop of [add_line_segments]. *)
Definition line_step (hypot : f64 -> f64 -> f64) (st : Coordinate * f64) (a b : Coordinate) : Coordinate * f64 :=
  let '(sum, line_len) := st in
  let segment_len := distance hypot a b in
  if feqb segment_len f0 then st
  else
    let line_len := fadd line_len segment_len in
    let midx := fdiv (fadd (cx a) (cx b)) f2 in
    let sum := set_x sum (fadd (cx sum) (fmul segment_len midx)) in
    let midy := fdiv (fadd (cy a) (cy b)) f2 in
    let sum := set_y sum (fadd (cy sum) (fmul segment_len midy)) in
    (sum, line_len).
(** centroid.rs 234-253: [add_line_segments]. On an empty vector [pts.len() - 1] panics with
    overflow checks; without them the loop's first index [pts[0]] panics. *)
Definition add_line_segments (hypot : f64 -> f64 -> f64) (i : Z -> res Z) (st : Cent) (pts : list Coordinate) : res Cent :=
  n <- usub (length pts) 1 ;;
  '(sum, line_len) <- forN n 0 (cn_line st, f0) (fun j s =>
    a <- idx pts j ;; b <- idx pts (S j) ;; Ok (line_step hypot s a b)) ;;
  let st := mkCn (cn_base st) (cn_area2 st) (cn_cg3 st) sum (fadd (cn_len st) line_len) (cn_count st) (cn_pts st) in
  if feqb line_len f0 && Nat.ltb 0 (length pts)
  then p <- idx pts 0 ;; add_point i st p
  else Ok st.
(** centroid.rs 172, 182: the orientation test. *)
Definition ring_ccw (pts : list Coordinate) : res bool :=
  o <- is_ccw_vec pts ;; match o with Some b => Ok b | None => Panic end.
(** centroid.rs 173-177, 183-187: the loop shared by [add_shell] and [add_hole]. *)
Definition add_triangles (st : Cent) (pts : list Coordinate) (is_positive_area : bool) : res Cent :=
  n <- usub (length pts) 1 ;;
  forN n 0 st (fun j st =>
    match cn_base st with
    | Some base => a <- idx pts j ;; b <- idx pts (S j) ;; Ok (add_triangle st base a b is_positive_area)
    | None => Ok st
    end).
(** centroid.rs 157-159: [set_area_base_point]. *)
Definition set_area_base_point (st : Cent) (p : Coordinate) : Cent :=
  mkCn (Some (from_coordinate p)) (cn_area2 st) (cn_cg3 st) (cn_line st) (cn_len st) (cn_count st) (cn_pts st).
(** centroid.rs 168-179: [add_shell]. *)
Definition add_shell (hypot : f64 -> f64 -> f64) (i : Z -> res Z) (st : Cent) (pts : list Coordinate) : res Cent :=
  st <- (if Nat.ltb 0 (length pts) then p <- idx pts 0 ;; Ok (set_area_base_point st p) else Ok st) ;;
  ccw <- ring_ccw pts ;;
  st <- add_triangles st pts (negb ccw) ;;
  add_line_segments hypot i st pts.
(** centroid.rs 181-189: [add_hole]. *)
Definition add_hole (hypot : f64 -> f64 -> f64) (i : Z -> res Z) (st : Cent) (pts : list Coordinate) : res Cent :=
  ccw <- ring_ccw pts ;;
  st <- add_triangles st pts ccw ;;
  add_line_segments hypot i st pts.
(** centroid.rs 161-166: [add_polygon]. *)
Definition add_polygon (hypot : f64 -> f64 -> f64) (i : Z -> res Z) (st : Cent) (p : GPoly) : res Cent :=
  s <- pg_exterior p ;;
  st <- add_shell hypot i st (rg_coordinates s) ;;
  forN (pg_num_holes p) 0 st (fun j st => h <- pg_hole_n p j ;; add_hole hypot i st (rg_coordinates h)).
(** centroid.rs 88-95: [new_from_point]. *)
Definition cn_of_point (i : Z -> res Z) (p : GPoint) : res Cent :=
  o <- pt_coordinate p ;; match o with Some c => add_point i cn_default c | None => Ok cn_default end.
(** centroid.rs 97-102: [new_from_line_string]. *)
Definition cn_of_line (hypot : f64 -> f64 -> f64) (i : Z -> res Z) (l : GLine) : res Cent :=
  add_line_segments hypot i cn_default (ln_coordinates l).
(** centroid.rs 104-109: [new_from_polygon]. *)
Definition cn_of_polygon (hypot : f64 -> f64 -> f64) (i : Z -> res Z) (p : GPoly) : res Cent :=
  add_polygon hypot i cn_default p.
(** centroid.rs 111-118: [new_from_multi_polygon]. *)
Definition cn_of_multi_polygon (hypot : f64 -> f64 -> f64) (i : Z -> res Z) (m : GMPoly) : res Cent :=
  forN (mg_num_polygons m) 0 cn_default (fun j st => p <- mg_polygon_at m j ;; add_polygon hypot i st p).
(** centroid.rs 125-155: [get_centroid]. *)
Definition cn_centroid (st : Cent) : option Coordinate :=
  let three := fofZ 3 in
  if fltb f0 (fabs (cn_area2 st)) then
    Some (new_xy (fdiv (fdiv (cx (cn_cg3 st)) three) (cn_area2 st)) (fdiv (fdiv (cy (cn_cg3 st)) three) (cn_area2 st)))
  else if fltb f0 (cn_len st) then
    Some (new_xy (fdiv (cx (cn_line st)) (cn_len st)) (fdiv (cy (cn_line st)) (cn_len st)))
  else if (0 <? cn_count st)%Z then
    Some (new_xy (fdiv (cx (cn_pts st)) (fofZ (cn_count st))) (fdiv (cy (cn_pts st)) (fofZ (cn_count st))))
  else None.
(** centroid.rs 60-73: [get_centroid_from_point], [_polygon], [_multi_polygon]. *)
Definition centroid_of_point (i : Z -> res Z) (p : GPoint) : res (option Coordinate) :=
  st <- cn_of_point i p ;; Ok (cn_centroid st).
Definition centroid_of_line (hypot : f64 -> f64 -> f64) (i : Z -> res Z) (l : GLine) : res (option Coordinate) :=
  st <- cn_of_line hypot i l ;; Ok (cn_centroid st).
Definition centroid_of_polygon (hypot : f64 -> f64 -> f64) (i : Z -> res Z) (p : GPoly) : res (option Coordinate) :=
  st <- cn_of_polygon hypot i p ;; Ok (cn_centroid st).
Definition centroid_of_multi_polygon (hypot : f64 -> f64 -> f64) (i : Z -> res Z) (m : GMPoly) : res (option Coordinate) :=
  st <- cn_of_multi_polygon hypot i m ;; Ok (cn_centroid st).

(** polygon.rs 524-529, multi_polygon.rs 161-166: [create_point_from_internal_coord]. *)
Definition point_from_internal (pm : option PM) (c : Coordinate) : res GPoint :=
  create_point_from_coordinate (match pm with Some m => make_precise_coordinate m c | None => c end).
(** polygon.rs 514-522: [get_centroid]. *)
Definition pg_centroid (hypot : f64 -> f64 -> f64) (i : Z -> res Z) (p : GPoly) : res GPoint :=
  if pg_is_empty p then Ok pt_default
  else o <- centroid_of_polygon hypot i p ;;
       match o with Some c => point_from_internal (pg_pm p) c | None => Ok pt_default end.
(** multi_polygon.rs 151-159: [get_centroid]. *)
Definition mg_centroid (hypot : f64 -> f64 -> f64) (i : Z -> res Z) (m : GMPoly) : res GPoint :=
  e <- mg_is_empty m ;;
  if e : bool then Ok pt_default
  else o <- centroid_of_multi_polygon hypot i m ;;
       match o with Some c => point_from_internal (mg_pm m) c | None => Ok pt_default end.
