(** Model of src/core/geom/quadrant.rs. *)
From Coq Require Import ZArith Bool.
From Verif Require Import Base F64 Coordinate_model.
Open Scope Z_scope.

(** quadrant.rs 20-23. *)
Definition NE : Z := 0.
Definition NW : Z := 1.
Definition SW : Z := 2.
Definition SE : Z := 3.
(** quadrant.rs 31-48: [quadrant_xy]. *)
Definition quadrant_xy (dx dy : f64) : Z :=
  if feqb dx f0 && feqb dy f0 then -1
  else if fgeb dx f0 then (if fgeb dy f0 then NE else SE)
  else (if fgeb dy f0 then NW else SW).
(** quadrant.rs 55-73: [quadrant_coordinates]. *)
Definition quadrant_coordinates (p0 p1 : Coordinate) : Z :=
  if feqb (cx p1) (cx p0) && feqb (cy p1) (cy p0) then -1
  else if fgeb (cx p1) (cx p0) then (if fgeb (cy p1) (cy p0) then NE else SE)
  else (if fgeb (cy p1) (cy p0) then NW else SW).
(** [(quad1 - quad2 + 4) % 4] with overflow checks; [%] truncates. *)
Definition quad_diff (q1 q2 : Z) : res Z :=
  d <- i32_chk (q1 - q2) ;; d <- i32_chk (d + 4) ;; Ok (Z.rem d 4).
(** quadrant.rs 78-88: [is_opposite]. *)
Definition is_opposite (q1 q2 : Z) : res bool :=
  if q1 =? q2 then Ok false
  else d <- quad_diff q1 q2 ;; if d =? 2 then Ok true else Ok false.
(** quadrant.rs 94-120: [common_half_plane]. *)
Definition common_half_plane (q1 q2 : Z) : res Z :=
  if q1 =? q2 then Ok q1
  else
    d <- quad_diff q1 q2 ;;
    if d =? 2 then Ok (-1)
    else
      let mn := if q1 <? q2 then q1 else q2 in
      let mx := if q1 >? q2 then q1 else q2 in
      if (mn =? 0) && (mx =? 3) then Ok 3 else Ok mn.
(** quadrant.rs 126-131: [is_in_half_plane]. *)
Definition is_in_half_plane (q h : Z) : res bool :=
  if h =? SE then Ok ((q =? SE) || (q =? SW))
  else if q =? h then Ok true else h' <- i32_chk (h + 1) ;; Ok (q =? h').
(** quadrant.rs 136-138: [is_northern]. *)
Definition is_northern (q : Z) : bool := (q =? NE) || (q =? NW).
