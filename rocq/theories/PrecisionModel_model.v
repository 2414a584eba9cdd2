(** Model of src/core/geom/precision_model.rs.  Its text form (378-391) is in Text_model.v. *)
From Coq Require Import ZArith Bool.
From Verif Require Import Base F64 Coordinate_model.
Open Scope Z_scope.

(** precision_model.rs 73-78: [PrecisionModelType]. *)
Inductive PMType := Floating | Fixed | FloatingSingle.
Definition pmt_eqb (a b : PMType) : bool :=
  match a, b with Floating, Floating | Fixed, Fixed | FloatingSingle, FloatingSingle => true | _, _ => false end.
(** precision_model.rs 55-71: [PrecisionModel]. *)
Record PM := mkPM { pm_type : PMType; pm_scale : f64; pm_grid : f64 }.

(** precision_model.rs 85-92: [default]. *)
Definition pm_default : PM := mkPM Floating fnan fnan.
(** precision_model.rs 234-245: [set_scale]. *)
Definition pm_set_scale (self : PM) (scale : f64) : PM :=
  if fltb scale f0 then
    let g := fabs scale in mkPM (pm_type self) (fdiv f1 g) g
  else mkPM (pm_type self) (fabs scale) f0.
(** precision_model.rs 101-113: [new_with_type]. *)
Definition pm_new_with_type (t : PMType) : PM :=
  let new := mkPM t fnan fnan in
  if pmt_eqb t Fixed then pm_set_scale new f1 else new.
(** precision_model.rs 125-133: [new_with_scale]. *)
Definition pm_new_with_scale (scale : f64) : PM := pm_set_scale (mkPM Fixed fnan fnan) scale.
(** precision_model.rs 139-145: [from_precision_model]. *)
Definition pm_from (pm : PM) : PM := mkPM (pm_type pm) (pm_scale pm) (pm_grid pm).
(** precision_model.rs 151-153: [is_floating]. *)
Definition pm_is_floating (self : PM) : bool := pmt_eqb (pm_type self) Floating || pmt_eqb (pm_type self) FloatingSingle.
(** precision_model.rs 176-186: [get_maximum_significant_digits]; [ln] stands for [f64::ln]. *)
Definition pm_digits (ln : f64 -> f64) (self : PM) : res Z :=
  match pm_type self with
  | Floating => Ok 16
  | FloatingSingle => Ok 6
  | Fixed => i32_chk (1 + f_as_i32 (fceil (fdiv (ln (pm_scale self)) (ln (fofZ 10)))))
  end.
(** precision_model.rs 210-219: [grid_size]. *)
Definition pm_grid_size (self : PM) : f64 :=
  if pm_is_floating self then fnan
  else if fneb (pm_grid self) f0 then pm_grid self
  else fdiv f1 (pm_scale self).
(** precision_model.rs 318-337: [make_precise]. *)
Definition make_precise (self : PM) (val : f64) : f64 :=
  if fis_nan val then val
  else if pmt_eqb (pm_type self) FloatingSingle then val
  else if pmt_eqb (pm_type self) Fixed then
    if fgtb (pm_grid self) f0 then fmul (fround (fdiv val (pm_grid self))) (pm_grid self)
    else fdiv (fround (fmul val (pm_scale self))) (pm_scale self)
  else val.
(** precision_model.rs 342-349: [make_precise_coordinate]. *)
Definition make_precise_coordinate (self : PM) (c : Coordinate) : Coordinate :=
  if pmt_eqb (pm_type self) Floating then c
  else
    let c := set_x c (make_precise self (cx c)) in
    set_y c (make_precise self (cy c)).
(** precision_model.rs 351-353: [equals]. *)
Definition pm_equals (self other : PM) : bool :=
  pmt_eqb (pm_type self) (pm_type other) && feqb (pm_scale self) (pm_scale other).
(** precision_model.rs 368-375: [compare_to]. *)
Definition pm_compare_to (ln : f64 -> f64) (self other : PM) : res Z :=
  a <- pm_digits ln self ;;
  b <- pm_digits ln other ;;
  Ok (if a =? b then 0 else if a <? b then -1 else 1).
