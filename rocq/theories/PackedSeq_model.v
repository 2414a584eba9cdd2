(** Model of src/core/geom/implementation/packed_coordinate_sequence.rs and of
    the one constructor of packed_coordinate_sequence_factory.rs that takes it.

    Mutating methods return the new sequence.  [i] is the [i32] arithmetic:
    checked ([i32_chk]) or wrapping. *)
From Coq Require Import ZArith Bool List.
From Verif Require Import Base F64 Coordinate_model CoordArrays_model CoordSeq_model.
Import ListNotations.
Open Scope Z_scope.

(** packed_coordinate_sequence.rs 21-38: [struct PackedCoordinateSequence]. *)
Record PSeq := mkPSeq { psdim : Z; psmeas : Z; pscoords : list Coordinate }.

Section Arith.
Variable i : Z -> res Z.

(** packed_coordinate_sequence.rs 69-79: [new_with_dimension_measures]. *)
Definition ps_new (dimension measures : Z) : res (option PSeq) :=
  k <- i (dimension - measures) ;;
  if k <? 2 then Ok None else Ok (Some (mkPSeq dimension measures [])).
(** packed_coordinate_sequence.rs 84-90: [copy]. *)
Definition ps_copy (s : PSeq) : res Packed :=
  m <- i (psdim s - 3) ;; raw <- packed_fill (psdim s) (pscoords s) ;; Ok (mkPacked (psdim s) (Z.max 0 m) raw).
(** packed_coordinate_sequence.rs 151-153: [size]. *)
Definition ps_size (s : PSeq) : nat := length (pscoords s).
(** packed_coordinate_sequence.rs 161-163: [has_z]. *)
Definition ps_has_z (s : PSeq) : res bool := k <- i (psdim s - psmeas s) ;; Ok (k >? 2).
(** packed_coordinate_sequence.rs 175-177: [has_m]. *)
Definition ps_has_m (s : PSeq) : bool := psmeas s >? 0.
(** packed_coordinate_sequence.rs 225-236: [get_ordinate]; 211-213: [get_x];
    218-220: [get_y]. *)
Definition ps_get (s : PSeq) (index : nat) (o : Z) : res f64 :=
  c <- idx (pscoords s) index ;;
  if o =? 0 then Ok (cx c) else if o =? 1 then Ok (cy c)
  else Ok (match get_ordinate c o with Some v => v | None => fnan end).
(** packed_coordinate_sequence.rs 185-191: [get_z]. *)
Definition ps_get_z (s : PSeq) (index : nat) : res f64 :=
  z <- ps_has_z s ;; if z : bool then ps_get s index 2 else Ok fnan.
(** packed_coordinate_sequence.rs 199-206: [get_m]. *)
Definition ps_get_m (s : PSeq) (index : nat) : res f64 :=
  if ps_has_m s then o <- i (psdim s - psmeas s) ;; ps_get s index o else Ok fnan.
(** packed_coordinate_sequence.rs 284-290: [set_ordinate]; 245-247: [set_x];
    255-257: [set_y]. *)
Definition ps_set (s : PSeq) (index : nat) (o : Z) (v : f64) : res PSeq :=
  c <- idx (pscoords s) index ;;
  cs <- upd (pscoords s) index
    (if o =? 0 then set_x c v else if o =? 1 then set_y c v else set_ordinate c o v) ;;
  Ok (mkPSeq (psdim s) (psmeas s) cs).
(** packed_coordinate_sequence.rs 109-111: [get_coordinate_by_index];
    266-268: [get_coordinate_internal] and 116-118: [get_coordinate_copy_by_index]
    wrap it in [Some]. *)
Definition ps_coord (s : PSeq) (index : nat) : res Coordinate := idx (pscoords s) index.
(** packed_coordinate_sequence.rs 123-132: [get_coordinate_by_index_coordinate]. *)
Definition ps_coord_into (s : PSeq) (index : nat) (c : Coordinate) : res Coordinate :=
  x <- ps_get s index 0 ;;
  y <- ps_get s index 1 ;;
  let c := set_y (set_x c x) y in
  hz <- ps_has_z s ;;
  c <- (if hz : bool then z <- ps_get_z s index ;; Ok (set_z c z) else Ok c) ;;
  if ps_has_m s then m <- ps_get_m s index ;; Ok (set_m c m) else Ok c.
(** packed_coordinate_sequence.rs 137-146: [to_coordinate_array]. *)
Definition ps_to_array (s : PSeq) : res (list Coordinate) :=
  forN (ps_size s) 0 (repeat coord_default (ps_size s)) (fun k cs => c <- ps_coord s k ;; upd cs k c).

End Arith.

(** packed_coordinate_sequence_factory.rs 43-54: [create_double_from_coordinate_sequence]. *)
Definition packed_create_from_ps (s : PSeq) : res Packed :=
  cs <- ps_to_array s ;; packed_of_coords_dim_meas cs (psdim s) (psmeas s).
(** packed_coordinate_sequence_factory.rs 117-127: [create_with_size_dimension_measures]. *)
Definition packed_create_meas (n : nat) (d m : Z) : res Packed := packed_new_size n d m.
