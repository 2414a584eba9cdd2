(** Model of src/core/geom/octagonal_envelope.rs.  Methods taking [&mut self]
    return the new value.  [new_with_line_string] (98) is
    [oct_expand_seq oct_default] of the line's sequence.  The conversion to a
    polygon (355-427) is commented out in the source. *)
From Coq Require Import ZArith Bool List.
From Verif Require Import Base F64 Coordinate_model Envelope_model CoordSeq_model.
Import ListNotations.

(** octagonal_envelope.rs 6-16: [struct OctagonalEnvelope]. *)
Record Oct := mkO { ominx : f64; omaxx : f64; ominy : f64; omaxy : f64;
                    omina : f64; omaxa : f64; ominb : f64; omaxb : f64 }.
(** octagonal_envelope.rs 28-34: [compute_a], [compute_b]. *)
Definition compute_a (x y : f64) : f64 := fadd x y.
Definition compute_b (x y : f64) : f64 := fsub x y.
(** octagonal_envelope.rs 39-50: [default]. *)
Definition oct_default : Oct := mkO fnan f0 f0 f0 f0 f0 f0 f0.
(** octagonal_envelope.rs 129-138: [is_null], [set_to_null]. *)
Definition oct_is_null (o : Oct) : bool := fis_nan (ominx o).
Definition oct_set_to_null (o : Oct) : Oct :=
  mkO fnan (omaxx o) (ominy o) (omaxy o) (omina o) (omaxa o) (ominb o) (omaxb o).
(** octagonal_envelope.rs 202-241: [expand_to_include_xy]; 191-193: [expand_to_include_coordinate]. *)
Definition oct_expand_xy (o : Oct) (x y : f64) : Oct :=
  let a := compute_a x y in
  let b := compute_b x y in
  if oct_is_null o then mkO x x y y a a b b
  else mkO (if fltb x (ominx o) then x else ominx o) (if fgtb x (omaxx o) then x else omaxx o)
           (if fltb y (ominy o) then y else ominy o) (if fgtb y (omaxy o) then y else omaxy o)
           (if fltb a (omina o) then a else omina o) (if fgtb a (omaxa o) then a else omaxa o)
           (if fltb b (ominb o) then b else ominb o) (if fgtb b (omaxb o) then b else omaxb o).
Definition oct_expand_coordinate (o : Oct) (p : Coordinate) : Oct := oct_expand_xy o (cx p) (cy p).
(** 140-146: [expand_to_include_coordinate_array_sequence]; [get_x] and [get_y]
    (coordinate_array_sequence.rs 225-240) index the array. *)
Definition oct_expand_seq (o : Oct) (s : CSeq) : res Oct :=
  forN (seq_size s) 0 o (fun i o =>
    c <- idx (scoords s) i ;; d <- idx (scoords s) i ;; Ok (oct_expand_xy o (cx c) (cy d))).
(** octagonal_envelope.rs 148-189: [expand_to_include_octagonal_envelope]. *)
Definition oct_expand_oct (o t : Oct) : Oct :=
  if oct_is_null t then o
  else if oct_is_null o then
    mkO (ominx t) (omaxx t) (ominy t) (omaxy t) (omina t) (omaxa t) (ominb t) (omaxb t)
  else mkO (if fltb (ominx t) (ominx o) then ominx t else ominx o) (if fgtb (omaxx t) (omaxx o) then omaxx t else omaxx o)
           (if fltb (ominy t) (ominy o) then ominy t else ominy o) (if fgtb (omaxy t) (omaxy o) then omaxy t else omaxy o)
           (if fltb (omina t) (omina o) then omina t else omina o) (if fgtb (omaxa t) (omaxa o) then omaxa t else omaxa o)
           (if fltb (ominb t) (ominb o) then ominb t else ominb o) (if fgtb (omaxb t) (omaxb o) then omaxb t else omaxb o).
(** envelope.rs 298-336: [get_min_x], ...: the fields. 195-200:
    [expand_to_include_envelope]. *)
Definition oct_expand_envelope (o : Oct) (e : Envelope) : Oct :=
  let o := oct_expand_xy o (minx e) (miny e) in
  let o := oct_expand_xy o (minx e) (maxy e) in
  let o := oct_expand_xy o (maxx e) (miny e) in
  oct_expand_xy o (maxx e) (maxy e).
(** octagonal_envelope.rs 57-93: the constructors. *)
Definition oct_of_coordinate (p : Coordinate) : Oct := oct_expand_coordinate oct_default p.
Definition oct_of_coordinates (p0 p1 : Coordinate) : Oct :=
  oct_expand_coordinate (oct_expand_coordinate oct_default p0) p1.
Definition oct_of_envelope (e : Envelope) : Oct := oct_expand_envelope oct_default e.
Definition oct_of_oct (t : Oct) : Oct := oct_expand_oct oct_default t.
(** octagonal_envelope.rs 269-277: [is_valid]. *)
Definition oct_is_valid (o : Oct) : bool :=
  if oct_is_null o then true
  else fleb (ominx o) (omaxx o) && fleb (ominy o) (omaxy o) && fleb (omina o) (omaxa o) && fleb (ominb o) (omaxb o).
(** octagonal_envelope.rs 243-262: [expand_by_distance]. *)
Definition oct_expand_by (o : Oct) (distance : f64) : Oct :=
  if oct_is_null o then o
  else
    let diagonal_distance := fmul (fsqrt f2) distance in
    let o := mkO (fsub (ominx o) distance) (fadd (omaxx o) distance)
                 (fsub (ominy o) distance) (fadd (omaxy o) distance)
                 (fsub (omina o) diagonal_distance) (fadd (omaxa o) diagonal_distance)
                 (fsub (ominb o) diagonal_distance) (fadd (omaxb o) diagonal_distance) in
    if oct_is_valid o then o else oct_set_to_null o.
(** octagonal_envelope.rs 279-309: [intersects_octagonal_envelope]. *)
Definition oct_intersects_oct (o t : Oct) : bool :=
  if oct_is_null o || oct_is_null t then false
  else if fgtb (ominx o) (omaxx t) then false
  else if fltb (omaxx o) (ominx t) then false
  else if fgtb (ominy o) (omaxy t) then false
  else if fltb (omaxy o) (ominy t) then false
  else if fgtb (omina o) (omaxa t) then false
  else if fltb (omaxa o) (omina t) then false
  else if fgtb (ominb o) (omaxb t) then false
  else if fltb (omaxb o) (ominb t) then false
  else true.
(** octagonal_envelope.rs 311-340: [intersects_coordinate]. *)
Definition oct_intersects (o : Oct) (p : Coordinate) : bool :=
  if fgtb (ominx o) (cx p) then false
  else if fltb (omaxx o) (cx p) then false
  else if fgtb (ominy o) (cy p) then false
  else if fltb (omaxy o) (cy p) then false
  else
    let a := compute_a (cx p) (cy p) in
    let b := compute_b (cx p) (cy p) in
    if fgtb (omina o) a then false
    else if fltb (omaxa o) a then false
    else if fgtb (ominb o) b then false
    else if fltb (omaxb o) b then false
    else true.
(** octagonal_envelope.rs 342-355: [contains_octagonal_envelope]. *)
Definition oct_contains (o t : Oct) : bool :=
  if oct_is_null o || oct_is_null t then false
  else fgeb (ominx t) (ominx o) && fleb (omaxx t) (omaxx o) && fgeb (ominy t) (ominy o) && fleb (omaxy t) (omaxy o) &&
       fgeb (omina t) (omina o) && fleb (omaxa t) (omaxa o) && fgeb (ominb t) (ominb o) && fleb (omaxb t) (omaxb o).
