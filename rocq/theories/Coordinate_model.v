(** Model of src/core/geom/coordinate.rs and src/core/util/number_util.rs. *)
From Coq Require Import ZArith Bool.
From Verif Require Import Base F64.

(** coordinate.rs 5-26: [struct Coordinate]. *)
Record Coordinate := mkC { cx : f64; cy : f64; cz : f64; cm : f64 }.

(** coordinate.rs 63-70: [default]; also [create] (197) and
    [new_coordinatexy_default] (143). *)
Definition coord_default : Coordinate := mkC f0 f0 fnan fnan.
(** coordinate.rs 78-85: [new_xy]; also [new_coordinatexy] (170). *)
Definition new_xy (x y : f64) : Coordinate := mkC x y fnan fnan.
(** coordinate.rs 94-101: [new_xyz]. *)
Definition new_xyz (x y z : f64) : Coordinate := mkC x y z fnan.
(** coordinate.rs 110-117: [new_xym]; also [new_coordinatexym] (179). *)
Definition new_xym (x y m : f64) : Coordinate := mkC x y fnan m.
(** coordinate.rs 119-126: [new_xyzm]; also [new_coordinatexyzm] (188). *)
Definition new_xyzm (x y z m : f64) : Coordinate := mkC x y z m.
(** coordinate.rs 134-141: [from_coordinate]. *)
Definition from_coordinate (c : Coordinate) : Coordinate :=
  mkC (cx c) (cy c) (cz c) (cm c).
(** coordinate.rs 152-159: [new_coordinatexym_default]. *)
Definition new_xym_default : Coordinate := mkC f0 f0 fnan f0.
(** coordinate.rs 161-168: [new_coordinatexyzm_default]. *)
Definition new_xyzm_default : Coordinate := mkC f0 f0 f0 f0.

(** coordinate.rs 206-210: [set_coordinate]; M of [self] is kept. *)
Definition set_coordinate (self other : Coordinate) : Coordinate :=
  mkC (cx other) (cy other) (cz other) (cm self).

(** coordinate.rs 226-284: field setters. *)
Definition set_x (self : Coordinate) (v : f64) := mkC v (cy self) (cz self) (cm self).
Definition set_y (self : Coordinate) (v : f64) := mkC (cx self) v (cz self) (cm self).
Definition set_z (self : Coordinate) (v : f64) := mkC (cx self) (cy self) v (cm self).
Definition set_m (self : Coordinate) (v : f64) := mkC (cx self) (cy self) (cz self) v.

(** coordinate.rs 296-303: [get_ordinate]. *)
Definition get_ordinate (self : Coordinate) (i : Z) : option f64 :=
  if Z.eqb i 0 then Some (cx self)
  else if Z.eqb i 1 then Some (cy self)
  else if Z.eqb i 2 then Some (cz self)
  else None.
(** coordinate.rs 316-323: [set_ordinate]. *)
Definition set_ordinate (self : Coordinate) (i : Z) (v : f64) : Coordinate :=
  if Z.eqb i 0 then set_x self v
  else if Z.eqb i 1 then set_y self v
  else if Z.eqb i 2 then set_z self v
  else self.

(** coordinate.rs 332-340: [is_valid]. *)
Definition coord_is_valid (c : Coordinate) : bool :=
  if negb (fis_finite (cx c)) then false
  else if negb (fis_finite (cy c)) then false
  else true.
(** coordinate.rs 342-352: [is_xy], [is_xym], [is_xyzm]. *)
Definition is_xy (c : Coordinate) : bool :=
  negb (fis_nan (cx c)) && negb (fis_nan (cy c)) && fis_nan (cz c) && fis_nan (cm c).
Definition is_xym (c : Coordinate) : bool :=
  negb (fis_nan (cx c)) && negb (fis_nan (cy c)) && fis_nan (cz c) && negb (fis_nan (cm c)).
Definition is_xyzm (c : Coordinate) : bool :=
  negb (fis_nan (cx c)) && negb (fis_nan (cy c)) && negb (fis_nan (cz c)) && negb (fis_nan (cm c)).

(** coordinate.rs 362-370: [equals_2d]. *)
Definition equals_2d (self other : Coordinate) : bool :=
  if fneb (cx self) (cx other) then false
  else if fneb (cy self) (cy other) then false
  else true.
(** number_util.rs 2-4: [equals_with_tolerance]. *)
Definition equals_with_tolerance (x1 x2 tolerance : f64) : bool :=
  fleb (fabs (fsub x1 x2)) tolerance.
(** coordinate.rs 382-390: [equals_2d_with_tolerance]. *)
Definition equals_2d_with_tolerance (self c : Coordinate) (tolerance : f64) : bool :=
  if negb (equals_with_tolerance (cx self) (cx c) tolerance) then false
  else if negb (equals_with_tolerance (cy self) (cy c) tolerance) then false
  else true.
(** coordinate.rs 399-404: [equals_3d]. *)
Definition equals_3d (self other : Coordinate) : bool :=
  feqb (cx self) (cx other) && feqb (cy self) (cy other)
  && (feqb (cz self) (cz other) || (fis_nan (cz self) && fis_nan (cz other))).
(** coordinate.rs 413-415: [equal_in_z]; also [equal_in_coordinate_z] (424). *)
Definition equal_in_z (self c : Coordinate) (tolerance : f64) : bool :=
  equals_with_tolerance (cz self) (cz c) tolerance.
(** coordinate.rs 446-460: [compare_to]. *)
Definition compare_to (self other : Coordinate) : Z :=
  if fltb (cx self) (cx other) then -1
  else if fgtb (cx self) (cx other) then 1
  else if fltb (cy self) (cy other) then -1
  else if fgtb (cy self) (cy other) then 1
  else 0.
(** coordinate.rs 469-474: [distance]; [hypot] stands for [f64::hypot]. *)
Definition distance (hypot : f64 -> f64 -> f64) (self c : Coordinate) : f64 :=
  hypot (fsub (cx self) (cx c)) (fsub (cy self) (cy c)).
(** coordinate.rs 482-487: [distance_3d]. *)
Definition distance_3d (self c : Coordinate) : f64 :=
  let dx := fsub (cx self) (cx c) in
  let dy := fsub (cy self) (cy c) in
  let dz := fsub (cz self) (cz c) in
  fsqrt (fadd (fadd (fmul dx dx) (fmul dy dy)) (fmul dz dz)).
