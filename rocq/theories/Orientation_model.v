(** Model of src/core/algorithm/cg_algorithms_dd.rs and
    src/core/algorithm/orientation.rs.  [is_ccw_area_vec] (orientation.rs
    236) is in Measure_model.v, since it uses the ring area. *)
From Coq Require Import ZArith Bool List.
From Verif Require Import Base F64 Coordinate_model CoordSeq_model DD_model.
Open Scope Z_scope.

(** ** cg_algorithms_dd.rs *)
(** cg_algorithms_dd.rs 30: [DP_SAFE_EPSILON], the double nearest to 1e-15. *)
Definition DP_SAFE_EPSILON : f64 := mkf 5070602400912918 (-102).
(** cg_algorithms_dd.rs 181-185: [signum]. *)
Definition fsignum (x : f64) : Z := if fgtb x f0 then 1 else if fltb x f0 then -1 else 0.
(** cg_algorithms_dd.rs 144-179: [orientation_index_filter]; 2 means undecided. *)
Definition orientation_index_filter (pax pay pbx pby pcx pcy : f64) : Z :=
  let detleft := fmul (fsub pax pcx) (fsub pby pcy) in
  let detright := fmul (fsub pay pcy) (fsub pbx pcx) in
  let det := fsub detleft detright in
  let finish (detsum : f64) :=
    let errbound := fmul DP_SAFE_EPSILON detsum in
    if fgeb det errbound || fgeb (fneg det) errbound then fsignum det else 2 in
  if fgtb detleft f0 then
    if fleb detright f0 then fsignum det else finish (fadd detleft detright)
  else if fltb detleft f0 then
    if fgeb detright f0 then fsignum det else finish (fsub (fneg detleft) detright)
  else fsignum det.
(** cg_algorithms_dd.rs 71-85: the double-double part of [orientation_index_xy]. *)
Definition orientation_dd (p1x p1y p2x p2y qx qy : f64) : Z :=
  let dx1 := dd_add_f64 (dd_of p2x) (fneg p1x) in
  let dy1 := dd_add_f64 (dd_of p2y) (fneg p1y) in
  let dx2 := dd_add_f64 (dd_of qx) (fneg p2x) in
  let dy2 := dd_add_f64 (dd_of qy) (fneg p2y) in
  let dx1 := dd_self_mul dx1 dy2 in
  let dy1 := dd_self_mul dy1 dx2 in
  dd_signum (dd_self_sub dx1 dy1).
(** cg_algorithms_dd.rs 64-86: [orientation_index_xy]. *)
Definition orientation_index_xy (p1x p1y p2x p2y qx qy : f64) : Z :=
  let index := orientation_index_filter p1x p1y p2x p2y qx qy in
  if index <=? 1 then index else orientation_dd p1x p1y p2x p2y qx qy.
(** 45-47: [orientation_index_coordinates]; orientation.rs 51-80:
    [Orientation::index]. *)
Definition orient (p1 p2 q : Coordinate) : Z :=
  orientation_index_xy (cx p1) (cy p1) (cx p2) (cy p2) (cx q) (cy q).
(** cg_algorithms_dd.rs 96-100: [sign_of_det2x_2dd]. *)
Definition sign_of_det_dd (x1 y1 x2 y2 : DD) : Z :=
  dd_signum (dd_self_sub (dd_mul x1 y2) (dd_mul y1 x2)).
(** cg_algorithms_dd.rs 110-119: [sign_of_det2x2_f64]. *)
Definition sign_of_det_f64 (dx1 dy1 dx2 dy2 : f64) : Z :=
  dd_signum (dd_self_sub (dd_mul (dd_of dx1) (dd_of dy2)) (dd_mul (dd_of dy1) (dd_of dx2))).
(** cg_algorithms_dd.rs 199-237: [intersection]. *)
Definition cgdd_intersection (p1 p2 q1 q2 : Coordinate) : option Coordinate :=
  let px := dd_self_sub_f64 (dd_of (cy p1)) (cy p2) in
  let py := dd_self_sub_f64 (dd_of (cx p2)) (cx p1) in
  let pw := dd_self_sub (dd_self_mul_f64 (dd_of (cx p1)) (cy p2)) (dd_self_mul_f64 (dd_of (cx p2)) (cy p1)) in
  let qx := dd_self_sub_f64 (dd_of (cy q1)) (cy q2) in
  let qy := dd_self_sub_f64 (dd_of (cx q2)) (cx q1) in
  let qw := dd_self_sub (dd_self_mul_f64 (dd_of (cx q1)) (cy q2)) (dd_self_mul_f64 (dd_of (cx q2)) (cy q1)) in
  let x := dd_self_sub (dd_mul py qw) (dd_mul qy pw) in
  let y := dd_self_sub (dd_mul qx pw) (dd_mul px qw) in
  let w := dd_self_sub (dd_mul px qy) (dd_mul qx py) in
  let x := dd_div x w in
  let y := dd_div y w in
  let x_int := dd_double x in
  let y_int := dd_double y in
  if fis_nan x_int || fis_infinite x_int || fis_nan y_int || fis_infinite y_int then None
  else Some (new_xy x_int y_int).

(** ** orientation.rs *)
(** orientation.rs 140-154: state of the first loop. *)
Record CapState := mkCap { up_hi : Coordinate; prev_y : f64; up_low : Coordinate; i_up_hi : nat }.
Definition cap_step (s : CSeq) (i : nat) (st : CapState) : res CapState :=
  py <- seq_get s i 1 ;;
  st <- (if fgtb py (prev_y st) && fgeb py (cy (up_hi st)) then
           h <- seq_coord s i ;;
           l <- seq_coord s (i - 1) ;;
           Ok (mkCap h (prev_y st) l i)
         else Ok st) ;;
  Ok (mkCap (up_hi st) py (up_low st) (i_up_hi st)).
(** orientation.rs 164-172: the second loop; [None] when the fuel runs out. *)
Fixpoint down_loop (fuel : nat) (s : CSeq) (n_pts iup : nat) (hy : f64) (i : nat) : res (option nat) :=
  match fuel with
  | O => Ok None
  | S fuel =>
    let i := ((i + 1) mod n_pts)%nat in
    if Nat.eqb i iup then Ok (Some i)
    else
      y <- seq_get s i 1 ;;
      if feqb y hy then down_loop fuel s n_pts iup hy i else Ok (Some i)
  end.
(** orientation.rs 126-210: [is_ccw_coordinate_array_sequence]; [None] would mean that the
    second loop runs for more than [n_pts + 1] rounds (theorem C46 excludes it). *)
Definition is_ccw_seq (s : CSeq) : res (option bool) :=
  n_pts <- usub (seq_size s) 1 ;;
  if (n_pts <? 3)%nat then Ok (Some false)
  else
    p0 <- seq_coord s 0 ;;
    st <- forN n_pts 1 (mkCap p0 (cy p0) coord_default 0) (cap_step s) ;;
    if Nat.eqb (i_up_hi st) 0 then Ok (Some false)
    else
      r <- down_loop (S n_pts) s n_pts (i_up_hi st) (cy (up_hi st)) (i_up_hi st) ;;
      match r with
      | None => Ok None
      | Some i_down_low =>
        down_low_pt <- seq_coord s i_down_low ;;
        let i_down_hi := if (0 <? i_down_low)%nat then (i_down_low - 1)%nat else (n_pts - 1)%nat in
        down_hi_pt <- seq_coord s i_down_hi ;;
        if equals_2d (up_hi st) down_hi_pt then
          if equals_2d (up_low st) (up_hi st) || equals_2d down_low_pt (up_hi st) || equals_2d (up_low st) down_low_pt
          then Ok (Some false)
          else Ok (Some (orient (up_low st) (up_hi st) down_low_pt =? 1))
        else Ok (Some (fltb (fsub (cx down_hi_pt) (cx (up_hi st))) f0))
      end.
(** orientation.rs 101-106: [is_ccw_vec]. *)
Definition is_ccw_vec (ring : list Coordinate) : res (option bool) := is_ccw_seq (seq_of_dim_meas ring 2 0).
