(** Model of src/core/algorithm/angle.rs.  [f64::atan2], [f64::sin] and
    [f64::cos] are arguments.  The two [while] loops take a bound on the number
    of turns and give [None] when it is used up. *)
From Coq Require Import ZArith Bool.
From Verif Require Import Base F64 Coordinate_model.
Open Scope Z_scope.

(** [std::f64::consts::PI]. *)
Definition PIf : f64 := mkf 7074237752028440 (-51).
(** angle.rs 16-24: [PI_TIMES_2], [PI_OVER_2], [PI_OVER_4]. *)
Definition PI_TIMES_2 : f64 := fmul f2 PIf.
Definition PI_OVER_2 : f64 := fdiv PIf f2.
Definition PI_OVER_4 : f64 := fdiv PIf (fofZ 4).
(** angle.rs 27-33: the turns. *)
Definition COUNTERCLOCKWISE : Z := 1.
Definition CLOCKWISE : Z := -1.
Definition NO_TURN : Z := 0.

(** angle.rs 40-52: [to_degrees], [to_radians]. *)
Definition to_degrees (radians : f64) : f64 := fdiv (fmul radians (fofZ 180)) PIf.
Definition to_radians (degrees : f64) : f64 := fdiv (fmul degrees PIf) (fofZ 180).

(** angle.rs 92-121: [is_acute], [is_obtuse]. *)
Definition dotprod (p0 p1 p2 : Coordinate) : f64 :=
  let dx0 := fsub (cx p0) (cx p1) in
  let dy0 := fsub (cy p0) (cy p1) in
  let dx1 := fsub (cx p2) (cx p1) in
  let dy1 := fsub (cy p2) (cy p1) in
  fadd (fmul dx0 dx1) (fmul dy0 dy1).
Definition is_acute (p0 p1 p2 : Coordinate) : bool := fgtb (dotprod p0 p1 p2) f0.
Definition is_obtuse (p0 p1 p2 : Coordinate) : bool := fltb (dotprod p0 p1 p2) f0.

(** [while c x { x = b x }]. *)
Fixpoint while_f (c : f64 -> bool) (b : f64 -> f64) (fuel : nat) (x : f64) : option f64 :=
  if c x then match fuel with O => None | S n => while_f c b n (b x) end else Some x.
(** angle.rs 231-240: [normalize]. *)
Definition normalize (fuel : nat) (angle : f64) : option f64 :=
  match while_f (fun a => fgtb a PIf) (fun a => fsub a PI_TIMES_2) fuel angle with
  | None => None
  | Some a => while_f (fun a => fleb a (fneg PIf)) (fun a => fadd a PI_TIMES_2) fuel a
  end.
(** angle.rs 261-281: [normalize_positive]. *)
Definition normalize_positive (fuel : nat) (angle : f64) : option f64 :=
  if fltb angle f0 then
    match while_f (fun a => fltb a f0) (fun a => fadd a PI_TIMES_2) fuel angle with
    | None => None
    | Some a => Some (if fgeb a PI_TIMES_2 then f0 else a)
    end
  else
    match while_f (fun a => fgeb a PI_TIMES_2) (fun a => fsub a PI_TIMES_2) fuel angle with
    | None => None
    | Some a => Some (if fltb a f0 then f0 else a)
    end.
(** angle.rs 292-306: [diff]. *)
Definition diff (ang1 ang2 : f64) : f64 :=
  let del := if fltb ang1 ang2 then fsub ang2 ang1 else fsub ang1 ang2 in
  if fgtb del PIf then fsub PI_TIMES_2 del else del.

Section Libm.
Variables (atan2 : f64 -> f64 -> f64) (sin cos : f64 -> f64).
(** angle.rs 63-79: [angle_coordinates], [angle_coordinate]. *)
Definition angle_coordinates (p0 p1 : Coordinate) : f64 := atan2 (fsub (cy p1) (cy p0)) (fsub (cx p1) (cx p0)).
Definition angle_coordinate (p : Coordinate) : f64 := atan2 (cy p) (cx p).
(** angle.rs 132-137: [angle_between]. *)
Definition angle_between (tip1 tail tip2 : Coordinate) : f64 :=
  diff (angle_coordinates tail tip1) (angle_coordinates tail tip2).
(** angle.rs 153-166: [angle_between_oriented]. *)
Definition angle_between_oriented (tip1 tail tip2 : Coordinate) : f64 :=
  let a1 := angle_coordinates tail tip1 in
  let a2 := angle_coordinates tail tip2 in
  let ang_del := fsub a2 a1 in
  if fleb ang_del (fneg PIf) then fadd ang_del PI_TIMES_2
  else if fgtb ang_del PIf then fsub ang_del PI_TIMES_2
  else ang_del.
(** angle.rs 178-182: [bisector]. *)
Definition bisector (fuel : nat) (tip1 tail tip2 : Coordinate) : option f64 :=
  let ang_del := angle_between_oriented tip1 tail tip2 in
  normalize fuel (fadd (angle_coordinates tail tip1) (fdiv ang_del f2)).
(** angle.rs 197-201: [interior_angle]. *)
Definition interior_angle (fuel : nat) (p0 p1 p2 : Coordinate) : option f64 :=
  normalize_positive fuel (fsub (angle_coordinates p1 p2) (angle_coordinates p1 p0)).
(** angle.rs 212-222: [get_turn]. *)
Definition get_turn (ang1 ang2 : f64) : Z :=
  let crossproduct := sin (fsub ang2 ang1) in
  if fgtb crossproduct f0 then COUNTERCLOCKWISE
  else if fltb crossproduct f0 then CLOCKWISE
  else NO_TURN.
(** angle.rs 314-334: [sin_snap], [cos_snap]; 5e-16 is 5070602400912918 * 2^-103. *)
Definition snap_limit : f64 := mkf 5070602400912918 (-103).
Definition snap (res : f64) : f64 := if fltb (fabs res) snap_limit then f0 else res.
Definition sin_snap (ang : f64) : f64 := snap (sin ang).
Definition cos_snap (ang : f64) : f64 := snap (cos ang).
(** angle.rs 344-348: [project]. *)
Definition angle_project (p : Coordinate) (angle dist : f64) : Coordinate :=
  new_xy (fadd (cx p) (fmul dist (cos_snap angle))) (fadd (cy p) (fmul dist (sin_snap angle))).
End Libm.
