(** Model of src/core/geom/triangle.rs.  The numeric functions are written over
    a number type (see Num.v).  The methods of [Triangle] (537-678) pass the
    three stored copies of the vertices on to the functions below. *)
From Coq Require Import ZArith Bool List.
From Verif Require Import Base F64 Num Coordinate_model DD_model Orientation_model Distance_model Intersection_model Angle_model.
Open Scope Z_scope.

Section Numeric.
Variable T : Type.
Variable N : num T.
Let two := nofZ N 2.
Let dst := g_distance T N.
(** triangle.rs 422-424: [area_coordinates]; 445-450: [signed_area_coordinates]. *)
Definition g_signed_area (a b c : P2 T) : T :=
  ndiv N (nsub N (nmul N (nsub N (px c) (px a)) (nsub N (py b) (py a)))
                 (nmul N (nsub N (px b) (px a)) (nsub N (py c) (py a)))) two.
Definition g_area (a b c : P2 T) : T := nabs N (g_signed_area a b c).
(** 122-129: [perpendicular_bisector_coordinates], as the three fields of the
    homogeneous coordinate (hcoordinate.rs 109-115). *)
Definition g_bisector (a b : P2 T) : T * T * T :=
  let one := nofZ N 1 in
  let dx := nsub N (px b) (px a) in
  let dy := nsub N (py b) (py a) in
  let x1 := nadd N (px a) (ndiv N dx two) in
  let y1 := nadd N (py a) (ndiv N dy two) in
  let x2 := nadd N (nsub N (px a) dy) (ndiv N dx two) in
  let y2 := nadd N (nadd N (py a) dx) (ndiv N dy two) in
  (nsub N (nmul N y1 one) (nmul N y2 one), nsub N (nmul N x2 one) (nmul N x1 one), nsub N (nmul N x1 y2) (nmul N x2 y1)).
(** triangle.rs 141-150: [circumradius_coordinates]; [None] for the infinity it returns
    when the area is zero. *)
Definition g_circumradius (ca cb cc : P2 T) : option T :=
  let a := dst ca cb in
  let b := dst cb cc in
  let c := dst cc ca in
  let area := g_area ca cb cc in
  if neq N area (nofZ N 0) then None
  else Some (ndiv N (nmul N (nmul N a b) c) (nmul N (nofZ N 4) area)).
(** triangle.rs 287-289: [det_f64]. *)
Definition g_det (m00 m01 m10 m11 : T) : T := nsub N (nmul N m00 m11) (nmul N m01 m10).
(** triangle.rs 208-224: [circumcentre_coordinates]. *)
Definition g_circumcentre (a b c : P2 T) : P2 T :=
  let cx := px c in
  let cy := py c in
  let ax := nsub N (px a) cx in
  let ay := nsub N (py a) cy in
  let bx := nsub N (px b) cx in
  let by_ := nsub N (py b) cy in
  let asq := nadd N (nmul N ax ax) (nmul N ay ay) in
  let bsq := nadd N (nmul N bx bx) (nmul N by_ by_) in
  let denom := nmul N two (g_det ax ay bx by_) in
  let numx := g_det ay asq by_ bsq in
  let numy := g_det ax asq bx bsq in
  mkP (nsub N cx (ndiv N numx denom)) (nadd N cy (ndiv N numy denom)).
(** triangle.rs 308-318: [in_centre_coordinates]. *)
Definition g_in_centre (a b c : P2 T) : P2 T :=
  let len0 := dst b c in
  let len1 := dst a c in
  let len2 := dst a b in
  let circum := nadd N (nadd N len0 len1) len2 in
  mkP (ndiv N (nadd N (nadd N (nmul N len0 (px a)) (nmul N len1 (px b))) (nmul N len2 (px c))) circum)
      (ndiv N (nadd N (nadd N (nmul N len0 (py a)) (nmul N len1 (py b))) (nmul N len2 (py c))) circum).
(** triangle.rs 337-341: [centroid_coordinates]. *)
Definition g_centroid (a b c : P2 T) : P2 T :=
  let three := nofZ N 3 in
  mkP (ndiv N (nadd N (nadd N (px a) (px b)) (px c)) three) (ndiv N (nadd N (nadd N (py a) (py b)) (py c)) three).
(** triangle.rs 351-353: [length_coordinates]; 366-378: [longest_side_length_coordinates]. *)
Definition g_perimeter (a b c : P2 T) : T := nadd N (nadd N (dst a b) (dst b c)) (dst c a).
Definition g_longest_side (a b c : P2 T) : T :=
  let len_ab := dst a b in
  let len_bc := dst b c in
  let len_ca := dst c a in
  let max_len := len_ab in
  let max_len := if nlt N max_len len_bc then len_bc else max_len in
  if nlt N max_len len_ca then len_ca else max_len.
(** triangle.rs 392-407: [angle_bisector_coordinates]. *)
Definition g_angle_bisector (a b c : P2 T) : P2 T :=
  let len0 := dst b a in
  let len2 := dst b c in
  let frac := ndiv N len0 (nadd N len0 len2) in
  let dx := nsub N (px c) (px a) in
  let dy := nsub N (py c) (py a) in
  mkP (nadd N (px a) (nmul N frac dx)) (nadd N (py a) (nmul N frac dy)).
(** triangle.rs 464-486: [area_3d_coordinates]. *)
Definition g_area_3d (a b c : P2 T) (az bz cz : T) : T :=
  let ux := nsub N (px b) (px a) in
  let uy := nsub N (py b) (py a) in
  let uz := nsub N bz az in
  let vx := nsub N (px c) (px a) in
  let vy := nsub N (py c) (py a) in
  let vz := nsub N cz az in
  let crossx := nsub N (nmul N uy vz) (nmul N uz vy) in
  let crossy := nsub N (nmul N uz vx) (nmul N ux vz) in
  let crossz := nsub N (nmul N ux vy) (nmul N uy vx) in
  let abs_sq := nadd N (nadd N (nmul N crossx crossx) (nmul N crossy crossy)) (nmul N crossz crossz) in
  ndiv N (nsqrt N abs_sq) two.
(** triangle.rs 507-526: [interpolate_z_coordinates]. *)
Definition g_interpolate_z (p v0 v1 v2 : P2 T) (z0 z1 z2 : T) : T :=
  let x0 := px v0 in
  let y0 := py v0 in
  let a := nsub N (px v1) x0 in
  let b := nsub N (px v2) x0 in
  let c := nsub N (py v1) y0 in
  let d := nsub N (py v2) y0 in
  let det := nsub N (nmul N a d) (nmul N b c) in
  let dx := nsub N (px p) x0 in
  let dy := nsub N (py p) y0 in
  let t := ndiv N (nsub N (nmul N d dx) (nmul N b dy)) det in
  let u := ndiv N (nadd N (nmul N (nneg N c) dx) (nmul N a dy)) det in
  nadd N (nadd N z0 (nmul N t (nsub N z1 z0))) (nmul N u (nsub N z2 z0)).
End Numeric.

(** ** The code on doubles *)
(** triangle.rs 56-67: [is_acute_coordinates]. *)
Definition tri_is_acute (a b c : Coordinate) : bool :=
  if negb (is_acute a b c) then false
  else if negb (is_acute b c a) then false
  else if negb (is_acute c a b) then false
  else true.
(** 77-79: [is_ccw_coordinates]; orientation.rs 19-35: the constants and [index]. *)
Definition tri_is_ccw (a b c : Coordinate) : bool := 1 =? orient a b c.
(** triangle.rs 90-110: [intersects_coordinates]. *)
Definition tri_intersects (a b c p : Coordinate) : bool :=
  let exterior_index := if tri_is_ccw a b c then -1 else 1 in
  if exterior_index =? orient a b p then false
  else if exterior_index =? orient b c p then false
  else if exterior_index =? orient c a p then false
  else true.
(** triangle.rs 247-271: [circumcentre_dd_coordinates]. *)
Definition tri_circumcentre_dd (a b c : Coordinate) : Coordinate :=
  let ax := dd_sub_f64 (dd_of (cx a)) (cx c) in
  let ay := dd_sub_f64 (dd_of (cy a)) (cy c) in
  let bx := dd_sub_f64 (dd_of (cx b)) (cx c) in
  let by_ := dd_sub_f64 (dd_of (cy b)) (cy c) in
  let denom := dd_mul_f64 (dd_det ax ay bx by_) f2 in
  let asqr := dd_add (dd_sqr ax) (dd_sqr ay) in
  let bsqr := dd_add (dd_sqr bx) (dd_sqr by_) in
  let numx := dd_det ay asqr by_ bsqr in
  let numy := dd_det ax asqr bx bsqr in
  let ccx := dd_double (dd_sub (dd_of (cx c)) (dd_div numx denom)) in
  let ccy := dd_double (dd_add (dd_of (cy c)) (dd_div numy denom)) in
  new_xy ccx ccy.
Section Doubles.
Variable hypot : f64 -> f64 -> f64.
Let F := NF hypot.
Definition to_coord (p : P2 f64) : Coordinate := new_xy (px p) (py p).
Definition tri_signed_area (a b c : Coordinate) : f64 := g_signed_area f64 F (pf a) (pf b) (pf c).
Definition tri_area (a b c : Coordinate) : f64 := g_area f64 F (pf a) (pf b) (pf c).
Definition tri_bisector (a b : Coordinate) : HCoord :=
  let '(x, y, w) := g_bisector f64 F (pf a) (pf b) in mkH x y w.
Definition tri_circumradius (a b c : Coordinate) : f64 :=
  match g_circumradius f64 F (pf a) (pf b) (pf c) with Some r => r | None => finf end.
Definition tri_circumcentre (a b c : Coordinate) : Coordinate := to_coord (g_circumcentre f64 F (pf a) (pf b) (pf c)).
Definition tri_in_centre (a b c : Coordinate) : Coordinate := to_coord (g_in_centre f64 F (pf a) (pf b) (pf c)).
Definition tri_centroid (a b c : Coordinate) : Coordinate := to_coord (g_centroid f64 F (pf a) (pf b) (pf c)).
Definition tri_length (a b c : Coordinate) : f64 := g_perimeter f64 F (pf a) (pf b) (pf c).
Definition tri_longest_side (a b c : Coordinate) : f64 := g_longest_side f64 F (pf a) (pf b) (pf c).
Definition tri_angle_bisector (a b c : Coordinate) : Coordinate := to_coord (g_angle_bisector f64 F (pf a) (pf b) (pf c)).
Definition tri_area_3d (a b c : Coordinate) : f64 := g_area_3d f64 F (pf a) (pf b) (pf c) (cz a) (cz b) (cz c).
Definition tri_interpolate_z (p a b c : Coordinate) : f64 :=
  g_interpolate_z f64 F (pf p) (pf a) (pf b) (pf c) (cz a) (cz b) (cz c).
End Doubles.
