(** Model of src/core/math/vector_2d.rs and src/core/math/vector_3d.rs (and of
    matrix.rs in Matrix_model.v).  [f64::hypot], [f64::atan2], [f64::sin] and
    [f64::cos] are arguments.  The [create_from_*] functions only call the
    [new_from_*] ones and are not repeated.  [to_string] is in Text_model.v. *)
From Coq Require Import ZArith Bool.
From Verif Require Import Base F64 Coordinate_model Orientation_model Angle_model.
Open Scope Z_scope.

(** ** vector_2d.rs *)
(** vector_2d.rs 12-23: [Vector2D]. *)
Record V2 := mkV2 { vx : f64; vy : f64 }.
(** vector_2d.rs 26-28: [default]; 38-43: [new_from_coordinate_from_to]; 45-47:
    [new_from_coordinate]. *)
Definition v2_default : V2 := mkV2 f0 f0.
Definition v2_from_to (from to : Coordinate) : V2 := mkV2 (fsub (cx to) (cx from)) (fsub (cy to) (cy from)).
Definition v2_of_coordinate (v : Coordinate) : V2 := mkV2 (cx v) (cy v).
(** vector_2d.rs 101-106: [get_component]. *)
Definition v2_component (v : V2) (index : nat) : f64 := if Nat.eqb index 0 then vx v else vy v.
(** vector_2d.rs 108-138: [add], [subtract], [multiply], [divide], [negate]. *)
Definition v2_add (u v : V2) : V2 := mkV2 (fadd (vx u) (vx v)) (fadd (vy u) (vy v)).
Definition v2_sub (u v : V2) : V2 := mkV2 (fsub (vx u) (vx v)) (fsub (vy u) (vy v)).
Definition v2_mul (u : V2) (d : f64) : V2 := mkV2 (fmul (vx u) d) (fmul (vy u) d).
Definition v2_div (u : V2) (d : f64) : V2 := mkV2 (fdiv (vx u) d) (fdiv (vy u) d).
Definition v2_neg (u : V2) : V2 := mkV2 (fneg (vx u)) (fneg (vy u)).
(** vector_2d.rs 144-146: [length_squared]; 199-201: [dot]. *)
Definition v2_length2 (u : V2) : f64 := fadd (fmul (vx u) (vx u)) (fmul (vy u) (vy u)).
Definition v2_dot (u v : V2) : f64 := fadd (fmul (vx u) (vx v)) (fmul (vy u) (vy v)).
(** vector_2d.rs 175-180: [weighted_sum]; 156-158: [average]. *)
Definition v2_weighted (u v : V2) (frac : f64) : V2 :=
  mkV2 (fadd (fmul frac (vx u)) (fmul (fsub f1 frac) (vx v))) (fadd (fmul frac (vy u)) (fmul (fsub f1 frac) (vy v))).
Definition v2_average (u v : V2) : V2 := v2_weighted u v fhalf.
(** vector_2d.rs 243-255: [rotate_by_quarter_circle]; [%] is the remainder of truncated
    division, and neither it nor the sum can leave the range of [i32]. *)
Definition v2_rotate_quarter (u : V2) (num_quarters : Z) : option V2 :=
  let n_quad := Z.rem num_quarters 4 in
  let n_quad := if (num_quarters <? 0) && negb (n_quad =? 0) then n_quad + 4 else n_quad in
  if n_quad =? 0 then Some (mkV2 (vx u) (vy u))
  else if n_quad =? 1 then Some (mkV2 (fneg (vy u)) (vx u))
  else if n_quad =? 2 then Some (mkV2 (fneg (vx u)) (fneg (vy u)))
  else if n_quad =? 3 then Some (mkV2 (vy u) (fneg (vx u)))
  else None.
(** vector_2d.rs 257-259: [is_parallel]. *)
Definition v2_is_parallel (u v : V2) : bool := 0 =? sign_of_det_f64 (vx u) (vy u) (vx v) (vy v).
(** vector_2d.rs 261-267: [translate], [to_coordinate]. *)
Definition v2_translate (u : V2) (c : Coordinate) : Coordinate := new_xy (fadd (vx u) (cx c)) (fadd (vy u) (cy c)).
Definition v2_to_coordinate (u : V2) : Coordinate := new_xy (vx u) (vy u).
(** vector_2d.rs 288-290: [equals]. *)
Definition v2_equals (u v : V2) : bool := feqb (vx u) (vx v) && feqb (vy u) (vy v).

Section Libm.
Variables (hypot atan2 : f64 -> f64 -> f64) (sin cos : f64 -> f64).
(** vector_2d.rs 140-142: [length]; 187-191: [distance]. *)
Definition v2_length (u : V2) : f64 := hypot (vx u) (vy u).
Definition v2_distance (u v : V2) : f64 := hypot (fsub (vx v) (vx u)) (fsub (vy v) (vy u)).
(** vector_2d.rs 148-154: [normalize]. *)
Definition v2_normalize (u : V2) : V2 :=
  let length := v2_length u in
  if fgtb length f0 then v2_div u length else mkV2 f0 f0.
(** vector_2d.rs 203-209: [angle], [angle_vector_2d]. *)
Definition v2_angle (u : V2) : f64 := atan2 (vy u) (vx u).
Definition v2_angle_between (u v : V2) : f64 := diff (v2_angle v) (v2_angle u).
(** vector_2d.rs 211-224: [angle_to]. *)
Definition v2_angle_to (u v : V2) : f64 :=
  let a1 := v2_angle u in
  let a2 := v2_angle v in
  let ang_del := fsub a2 a1 in
  if fleb ang_del (fneg PIf) then fadd ang_del PI_TIMES_2
  else if fgtb ang_del PIf then fsub ang_del PI_TIMES_2
  else ang_del.
(** vector_2d.rs 226-230: [rotate]. *)
Definition v2_rotate (u : V2) (angle : f64) : V2 :=
  let c := cos angle in
  let s := sin angle in
  mkV2 (fsub (fmul (vx u) c) (fmul (vy u) s)) (fadd (fmul (vx u) s) (fmul (vy u) c)).
End Libm.

(** ** vector_3d.rs *)
(** vector_3d.rs 10-14: [Vector3D]; 23-29: [new_from_coordinate]; 39-45:
    [new_from_to_coordinates]. *)
Record V3 := mkV3 { wx : f64; wy : f64; wz : f64 }.
Definition v3_of_coordinate (v : Coordinate) : V3 := mkV3 (cx v) (cy v) (cz v).
Definition v3_from_to (from to : Coordinate) : V3 :=
  mkV3 (fsub (cx to) (cx from)) (fsub (cy to) (cy from)) (fsub (cz to) (cz from)).
(** vector_3d.rs 91-99: [dot_4]; 108-110: [dot_2]. *)
Definition v3_dot_4 (a b c d : Coordinate) : f64 :=
  let abx := fsub (cx b) (cx a) in
  let aby := fsub (cy b) (cy a) in
  let abz := fsub (cz b) (cz a) in
  let cdx := fsub (cx d) (cx c) in
  let cdy := fsub (cy d) (cy c) in
  let cdz := fsub (cz d) (cz c) in
  fadd (fadd (fmul abx cdx) (fmul aby cdy)) (fmul abz cdz).
Definition v3_dot_2 (u v : Coordinate) : f64 :=
  fadd (fadd (fmul (cx u) (cx v)) (fmul (cy u) (cy v))) (fmul (cz u) (cz v)).
(** vector_3d.rs 146-171: [add], [subtract], [divide]; 179-181: [dot]. *)
Definition v3_add (u v : V3) : V3 := mkV3 (fadd (wx u) (wx v)) (fadd (wy u) (wy v)) (fadd (wz u) (wz v)).
Definition v3_sub (u v : V3) : V3 := mkV3 (fsub (wx u) (wx v)) (fsub (wy u) (wy v)) (fsub (wz u) (wz v)).
Definition v3_div (u : V3) (d : f64) : V3 := mkV3 (fdiv (wx u) d) (fdiv (wy u) d) (fdiv (wz u) d).
Definition v3_dot (u v : V3) : f64 := fadd (fadd (fmul (wx u) (wx v)) (fmul (wy u) (wy v))) (fmul (wz u) (wz v)).
(** vector_3d.rs 188-200: [length], [length_of_coordinate]. *)
Definition v3_length (u : V3) : f64 := fsqrt (fadd (fadd (fmul (wx u) (wx u)) (fmul (wy u) (wy u))) (fmul (wz u) (wz u))).
Definition v3_length_of_coordinate (v : Coordinate) : f64 :=
  fsqrt (fadd (fadd (fmul (cx v) (cx v)) (fmul (cy v) (cy v))) (fmul (cz v) (cz v))).
(** vector_3d.rs 208-214: [normalize]; 223-226: [normalize_coordinate]. *)
Definition v3_normalize (u : V3) : V3 :=
  let length := v3_length u in
  if fgtb length f0 then v3_div u (v3_length u) else mkV3 f0 f0 f0.
Definition v3_normalize_coordinate (v : Coordinate) : Coordinate :=
  let len := v3_length_of_coordinate v in
  new_xyz (fdiv (cx v) len) (fdiv (cy v) len) (fdiv (cz v) len).
(** vector_3d.rs 245-247: [equals]. *)
Definition v3_equals (u v : V3) : bool := feqb (wx u) (wx v) && feqb (wy u) (wy v) && feqb (wz u) (wz v).
