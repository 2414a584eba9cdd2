(** Model of src/core/algorithm/area.rs, src/core/algorithm/length.rs and of
    [Orientation::is_ccw_area_vec] (orientation.rs 236). *)
From Coq Require Import ZArith Bool List.
From Verif Require Import Base F64 Coordinate_model CoordArrays_model CoordSeq_model.
Import ListNotations.
Open Scope nat_scope.

(** area.rs 44-59: [of_ring_signed_vec]. *)
Definition signed_area_vec (ring : list Coordinate) : res f64 :=
  if length ring <? 3 then Ok f0 else
  c0 <- idx ring 0 ;;
  let x0 := cx c0 in
  sum <- forN (length ring - 2) 1 f0 (fun i sum =>
    ci <- idx ring i ;;
    let x := fsub (cx ci) x0 in
    cn <- idx ring (i + 1) ;;
    k <- usub i 1 ;;
    cp <- idx ring k ;;
    Ok (fadd sum (fmul x (fsub (cy cp) (cy cn))))) ;;
  Ok (fdiv sum (fofZ 2)).
(** area.rs 21-23: [of_ring_vec]. *)
Definition area_vec (ring : list Coordinate) : res f64 :=
  a <- signed_area_vec ring ;; Ok (fabs a).
(** coordinate_array_sequence.rs 179-181: [create_coordinate_default]. *)
Definition seq_create_default (s : CSeq) : Coordinate := create_dim_measures (sdim s) (smeas s).
(** area.rs 73-98: [of_ring_signed_coordinate_sequence]; the loop state is
    (p0, p1, p2, sum). *)
Definition signed_area_seq (ring : CSeq) : res f64 :=
  let n := seq_size ring in
  if n <? 3 then Ok f0 else
  let p0 := seq_create_default ring in
  let p1 := seq_create_default ring in
  let p2 := seq_create_default ring in
  p1 <- seq_coord_into ring 0 p1 ;;
  p2 <- seq_coord_into ring 1 p2 ;;
  let x0 := cx p1 in
  let p2 := set_x p2 (fsub (cx p2) x0) in
  st <- forN (n - 2) 1 (p0, p1, p2, f0) (fun i '(p0, p1, p2, sum) =>
    let p0 := set_y p0 (cy p1) in
    let p1 := set_x p1 (cx p2) in
    let p1 := set_y p1 (cy p2) in
    p2 <- seq_coord_into ring (i + 1) p2 ;;
    let p2 := set_x p2 (fsub (cx p2) x0) in
    let sum := fadd sum (fmul (cx p1) (fsub (cy p0) (cy p2))) in
    Ok (p0, p1, p2, sum)) ;;
  Ok (fdiv (snd st) (fofZ 2)).
(** area.rs 31-33: [of_ring_coordinate_sequence]. *)
Definition area_seq (ring : CSeq) : res f64 :=
  a <- signed_area_seq ring ;; Ok (fabs a).
(** orientation.rs 236-238: [is_ccw_area_vec]. *)
Definition is_ccw_area_vec (ring : list Coordinate) : res bool :=
  a <- signed_area_vec ring ;; Ok (fltb a f0).

(** length.rs 19-46: [of_line]; [hypot] stands for [f64::hypot].  The loop
    state is (p, x0, y0, len). *)
Definition length_of_line (hypot : f64 -> f64 -> f64) (pts : CSeq) : res f64 :=
  let n := seq_size pts in
  if n <=? 1 then Ok f0 else
  let p := seq_create_default pts in
  p <- seq_coord_into pts 0 p ;;
  st <- forN (n - 1) 1 (p, cx p, cy p, f0) (fun i '(p, x0, y0, len) =>
    p <- seq_coord_into pts i p ;;
    let x1 := cx p in
    let y1 := cy p in
    let dx := fsub x1 x0 in
    let dy := fsub y1 y0 in
    Ok (p, x1, y1, fadd len (hypot dx dy))) ;;
  Ok (snd st).
