(** Model of src/core/algorithm/ray_crossing_counter.rs and
    src/core/algorithm/point_location.rs. *)
From Coq Require Import ZArith Bool List.
From Verif Require Import Base F64 Coordinate_model Envelope_model CoordArrays_model CoordSeq_model
  Orientation_model.
Import ListNotations.
Open Scope Z_scope.

(** src/core/geom/location.rs 13-30: the location values. *)
Definition INTERIOR : Z := 0.
Definition BOUNDARY : Z := 1.
Definition EXTERIOR : Z := 2.

(** ** ray_crossing_counter.rs *)
(** ray_crossing_counter.rs 39-44: [struct RayCrossingCounter]. *)
Record Counter := mkCounter { cpt : Coordinate; ccount : Z; con : bool }.
(** ray_crossing_counter.rs 47-53: [new_with_coordinate].  [Coordinate::from_coordinate] copies the
    point (its x and y, which are all that is used). *)
Definition counter_new (p : Coordinate) : Counter := mkCounter p 0 false.
(** ray_crossing_counter.rs 147-199: [count_segment]; [crossing_count] is an [i32], checked. *)
Definition count_segment (c : Counter) (p1 p2 : Coordinate) : res Counter :=
  let p := cpt c in
  let on := Ok (mkCounter p (ccount c) true) in
  if fltb (cx p1) (cx p) && fltb (cx p2) (cx p) then Ok c
  else if feqb (cx p) (cx p2) && feqb (cy p) (cy p2) then on
  else if feqb (cy p1) (cy p) && feqb (cy p2) (cy p) then
    let '(minx, maxx) := if fgtb (cx p1) (cx p2) then (cx p2, cx p1) else (cx p1, cx p2) in
    if fgeb (cx p) minx && fleb (cx p) maxx then on else Ok c
  else if (fgtb (cy p1) (cy p) && fleb (cy p2) (cy p)) || (fgtb (cy p2) (cy p) && fleb (cy p1) (cy p)) then
    let o := orient p1 p2 p in
    if o =? 0 then on else
    let o := if fltb (cy p2) (cy p1) then - o else o in
    if o =? 1 then k <- i32_chk (ccount c + 1) ;; Ok (mkCounter p k (con c)) else Ok c
  else Ok c.
(** ray_crossing_counter.rs 233-244: [get_location]; [%] is the remainder. *)
Definition get_location (c : Counter) : Z :=
  if con c then BOUNDARY else if Z.rem (ccount c) 2 =? 1 then INTERIOR else EXTERIOR.
(** ray_crossing_counter.rs 256-258: [is_point_in_polygon]. *)
Definition is_point_in_polygon (c : Counter) : bool := negb (get_location c =? EXTERIOR).
(** ray_crossing_counter.rs 63-75: [locate_point_in_ring_vec]. *)
Definition locate_vec (p : Coordinate) (ring : list Coordinate) : res Z :=
  o <- forR (length ring - 1) 1 (counter_new p) (fun i c =>
    p1 <- idx ring i ;; k <- usub i 1 ;; p2 <- idx ring k ;;
    c <- count_segment c p1 p2 ;;
    if con c then Ok (inr (get_location c)) else Ok (inl c)) ;;
  match o with inl c => Ok (get_location c) | inr l => Ok l end.
(** ray_crossing_counter.rs 86-107: [locate_point_in_ring_coordinate_array_sequence]; the loop state
    is (p1, p2, counter). *)
Definition locate_seq (p : Coordinate) (ring : CSeq) : res Z :=
  o <- forR (seq_size ring - 1) 1 (coord_default, coord_default, counter_new p) (fun i '(p1, p2, c) =>
    v <- seq_get ring i 0 ;; let p1 := set_x p1 v in
    v <- seq_get ring i 1 ;; let p1 := set_y p1 v in
    k <- usub i 1 ;;
    v <- seq_get ring k 0 ;; let p2 := set_x p2 v in
    v <- seq_get ring k 1 ;; let p2 := set_y p2 v in
    c <- count_segment c p1 p2 ;;
    if con c then Ok (inr (get_location c)) else Ok (inl (p1, p2, c))) ;;
  match o with inl (_, _, c) => Ok (get_location c) | inr l => Ok l end.
(** ray_crossing_counter.rs 118-139: [locate_point_in_ring_packed_coordinate_sequence]. *)
Definition locate_packed (p : Coordinate) (ring : Packed) : res Z :=
  n <- packed_size ring ;;
  o <- forR (n - 1) 1 (coord_default, coord_default, counter_new p) (fun i '(p1, p2, c) =>
    v <- packed_get ring i 0 ;; let p1 := set_x p1 v in
    v <- packed_get ring i 1 ;; let p1 := set_y p1 v in
    k <- usub i 1 ;;
    v <- packed_get ring k 0 ;; let p2 := set_x p2 v in
    v <- packed_get ring k 1 ;; let p2 := set_y p2 v in
    c <- count_segment c p1 p2 ;;
    if con c then Ok (inr (get_location c)) else Ok (inl (p1, p2, c))) ;;
  match o with inl (_, _, c) => Ok (get_location c) | inr l => Ok l end.

(** ** point_location.rs *)
(** point_location.rs 27-38: [is_on_segment]. *)
Definition is_on_segment (p p0 p1 : Coordinate) : bool :=
  if negb (intersects_3 p0 p1 p) then false
  else if equals_2d p p0 then true
  else 0 =? orient p0 p1 p.
(** point_location.rs 49-58: [is_on_line_coordinates]. *)
Definition is_on_line_vec (p : Coordinate) (line : list Coordinate) : res bool :=
  o <- forR (length line - 1) 1 tt (fun i s =>
    k <- usub i 1 ;; p0 <- idx line k ;; p1 <- idx line i ;;
    if is_on_segment p p0 p1 then Ok (inr true) else Ok (inl s)) ;;
  match o with inl _ => Ok false | inr b => Ok b end.
(** point_location.rs 69-84: [is_on_line_coordinate_array_sequence]; state (p0, p1). *)
Definition is_on_line_seq (p : Coordinate) (line : CSeq) : res bool :=
  o <- forR (seq_size line - 1) 1 (coord_default, coord_default) (fun i '(p0, p1) =>
    k <- usub i 1 ;;
    p0 <- seq_coord_into line k p0 ;; p1 <- seq_coord_into line i p1 ;;
    if is_on_segment p p0 p1 then Ok (inr true) else Ok (inl (p0, p1))) ;;
  match o with inl _ => Ok false | inr b => Ok b end.
(** point_location.rs 121-123: [locate_in_ring]; 103-105: [is_in_ring]. *)
Definition locate_in_ring (p : Coordinate) (ring : list Coordinate) : res Z := locate_vec p ring.
Definition is_in_ring (p : Coordinate) (ring : list Coordinate) : res bool :=
  l <- locate_in_ring p ring ;; Ok (negb (l =? EXTERIOR)).
