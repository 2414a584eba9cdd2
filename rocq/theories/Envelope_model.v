(** Model of src/core/geom/envelope.rs. *)
From Coq Require Import ZArith Bool List.
From Verif Require Import Base F64 Coordinate_model.
Import ListNotations.

(** envelope.rs 5-26: [struct Envelope]. *)
Record Envelope := mkE { minx : f64; maxx : f64; miny : f64; maxy : f64 }.

(** envelope.rs 36-63: [intersects_3], is [q] in the box of [p1], [p2]. *)
Definition intersects_3 (p1 p2 q : Coordinate) : bool :=
  let qx_comp1 := if fltb (cx p1) (cx p2) then cx p1 else cx p2 in
  let qx_comp2 := if fgtb (cx p1) (cx p2) then cx p1 else cx p2 in
  let qy_comp1 := if fltb (cy p1) (cy p2) then cy p1 else cy p2 in
  let qy_comp2 := if fgtb (cy p1) (cy p2) then cy p1 else cy p2 in
  if (fgeb (cx q) qx_comp1 && fleb (cx q) qx_comp2)
     && (fgeb (cy q) qy_comp1 && fleb (cy q) qy_comp2) then true else false.

(** envelope.rs 76-106: [intersects_4], do the boxes of two segments meet. *)
Definition intersects_4 (p1 p2 q1 q2 : Coordinate) : bool :=
  let minq := fmin (cx q1) (cx q2) in
  let maxq := fmax (cx q1) (cx q2) in
  let minp := fmin (cx p1) (cx p2) in
  let maxp := fmax (cx p1) (cx p2) in
  if fgtb minp maxq then false
  else if fltb maxp minq then false
  else
    let minq := fmin (cy q1) (cy q2) in
    let maxq := fmax (cy q1) (cy q2) in
    let minp := fmin (cy p1) (cy p2) in
    let maxp := fmax (cy p1) (cy p2) in
    if fgtb minp maxq then false
    else if fltb maxp minq then false
    else true.

(** envelope.rs 108-115: [default]; 242-247: [set_to_null]. *)
Definition env_default : Envelope := mkE f0 (fneg f1) f0 (fneg f1).
(** envelope.rs 125-152: [new_xy]. *)
Definition env_new_xy (x1 x2 y1 y2 : f64) : Envelope :=
  mkE (if fltb x1 x2 then x1 else x2) (if fltb x1 x2 then x2 else x1)
      (if fltb y1 y2 then y1 else y2) (if fltb y1 y2 then y2 else y1).
(** envelope.rs 160-187: [new_coordinates]. *)
Definition env_new_coordinates (p1 p2 : Coordinate) : Envelope :=
  mkE (if fltb (cx p1) (cx p2) then cx p1 else cx p2)
      (if fltb (cx p1) (cx p2) then cx p2 else cx p1)
      (if fltb (cy p1) (cy p2) then cy p1 else cy p2)
      (if fltb (cy p1) (cy p2) then cy p2 else cy p1).
(** envelope.rs 194-201: [new_coordinate]. *)
Definition env_new_coordinate (p : Coordinate) : Envelope :=
  mkE (cx p) (cx p) (cy p) (cy p).
(** envelope.rs 208-215: [new_envelope]; also [init] (222) and [copy] (234). *)
Definition env_new_envelope (e : Envelope) : Envelope :=
  mkE (minx e) (maxx e) (miny e) (maxy e).

(** envelope.rs 256-258: [is_null]. *)
Definition is_null (e : Envelope) : bool := fltb (maxx e) (minx e).

(** envelope.rs 265-282: [get_width], [get_height]. *)
Definition get_width (e : Envelope) : f64 :=
  if is_null e then f0 else fsub (maxx e) (minx e).
Definition get_height (e : Envelope) : f64 :=
  if is_null e then f0 else fsub (maxy e) (miny e).
(** envelope.rs 289-296: [get_diameter]. *)
Definition get_diameter (hypot : f64 -> f64 -> f64) (e : Envelope) : f64 :=
  if is_null e then f0 else hypot (get_width e) (get_height e).
(** envelope.rs 344-346: [get_area]. *)
Definition env_get_area (e : Envelope) : f64 := fmul (get_width e) (get_height e).
(** envelope.rs 353-380: [min_extent], [max_extent]. *)
Definition min_extent (e : Envelope) : f64 :=
  if is_null e then f0
  else let w := get_width e in let h := get_height e in if fltb w h then w else h.
Definition max_extent (e : Envelope) : f64 :=
  if is_null e then f0
  else let w := get_width e in let h := get_height e in if fgtb w h then w else h.

(** envelope.rs 464-484: [expand_to_include_xy]. *)
Definition expand_to_include_xy (e : Envelope) (x y : f64) : Envelope :=
  if is_null e then mkE x x y y
  else mkE (if fltb x (minx e) then x else minx e)
           (if fgtb x (maxx e) then x else maxx e)
           (if fltb y (miny e) then y else miny e)
           (if fgtb y (maxy e) then y else maxy e).
(** envelope.rs 389-409: [expand_to_include_coordinate]. *)
Definition expand_to_include_coordinate (e : Envelope) (p : Coordinate) : Envelope :=
  if is_null e then mkE (cx p) (cx p) (cy p) (cy p)
  else mkE (if fltb (cx p) (minx e) then cx p else minx e)
           (if fgtb (cx p) (maxx e) then cx p else maxx e)
           (if fltb (cy p) (miny e) then cy p else miny e)
           (if fgtb (cy p) (maxy e) then cy p else maxy e).
(** envelope.rs 440-454: [expand_by_delta_xy]. *)
Definition expand_by_delta_xy (e : Envelope) (dx dy : f64) : Envelope :=
  if is_null e then e
  else
    let e' := mkE (fsub (minx e) dx) (fadd (maxx e) dx) (fsub (miny e) dy) (fadd (maxy e) dy) in
    if fgtb (minx e') (maxx e') || fgtb (miny e') (maxy e') then env_default else e'.
(** envelope.rs 417-431: [expand_by]. *)
Definition expand_by (e : Envelope) (d : f64) : Envelope :=
  if is_null e then e
  else
    let e' := mkE (fsub (minx e) d) (fadd (maxx e) d) (fsub (miny e) d) (fadd (maxy e) d) in
    if fgtb (minx e') (maxx e') || fgtb (miny e') (maxy e') then env_default else e'.
(** envelope.rs 494-517: [expand_to_include_envelope]. *)
Definition expand_to_include_envelope (e other : Envelope) : Envelope :=
  if is_null other then e
  else if is_null e then mkE (minx other) (maxx other) (miny other) (maxy other)
  else mkE (if fltb (minx other) (minx e) then minx other else minx e)
           (if fgtb (maxx other) (maxx e) then maxx other else maxx e)
           (if fltb (miny other) (miny e) then miny other else miny e)
           (if fgtb (maxy other) (maxy e) then maxy other else maxy e).
(** envelope.rs 525-559: [translate]. *)
Definition env_translate (e : Envelope) (tx ty : f64) : Envelope :=
  if is_null e then e
  else
    let x1 := fadd (minx e) tx in
    let x2 := fadd (maxx e) tx in
    let y1 := fadd (miny e) ty in
    let y2 := fadd (maxy e) ty in
    mkE (if fltb x1 x2 then x1 else x2) (if fltb x1 x2 then x2 else x1)
        (if fltb y1 y2 then y1 else y2) (if fltb y1 y2 then y2 else y1).
(** envelope.rs 567-576: [centre]. *)
Definition env_centre (e : Envelope) : option Coordinate :=
  if is_null e then None
  else Some (new_xy (fdiv (fadd (minx e) (maxx e)) f2) (fdiv (fadd (miny e) (maxy e)) f2)).

(** envelope.rs 623-631: [intersects_envelope]; also [overlaps_envelope] (701). *)
Definition intersects_envelope (e other : Envelope) : bool :=
  if is_null e || is_null other then false
  else negb (fgtb (minx other) (maxx e) || fltb (maxx other) (minx e)
             || fgtb (miny other) (maxy e) || fltb (maxy other) (miny e)).
(** envelope.rs 585-611: [intersection_envelope]. *)
Definition intersection_envelope (e env : Envelope) : Envelope :=
  if is_null e || is_null env || negb (intersects_envelope e env) then env_default
  else
    let int_min_x := if fgtb (minx e) (minx env) then minx e else minx env in
    let int_min_y := if fgtb (miny e) (miny env) then miny e else miny env in
    let int_max_x := if fltb (maxx e) (maxx env) then maxx e else maxx env in
    let int_max_y := if fltb (maxy e) (maxy env) then maxy e else maxy env in
    env_new_xy int_min_x int_max_x int_min_y int_max_y.
(** envelope.rs 641-679: [intersects_coordinate_ab]. *)
Definition intersects_coordinate_ab (e : Envelope) (a b : Coordinate) : bool :=
  if is_null e then false
  else
    let envminx := if fltb (cx a) (cx b) then cx a else cx b in
    if fgtb envminx (maxx e) then false else
    let envmaxx := if fgtb (cx a) (cx b) then cx a else cx b in
    if fltb envmaxx (minx e) then false else
    let envminy := if fltb (cy a) (cy b) then cy a else cy b in
    if fgtb envminy (maxy e) then false else
    let envmaxy := if fgtb (cy a) (cy b) then cy a else cy b in
    if fltb envmaxy (miny e) then false else true.
(** envelope.rs 692-694: [disjoint_envelope]. *)
Definition disjoint_envelope (e other : Envelope) : bool := negb (intersects_envelope e other).
(** envelope.rs 731-736: [intersects_xy]; also [intersects_coordinate] (712),
    [overlaps_coordinate] (719), [overlaps_xy] (740). *)
Definition intersects_xy (e : Envelope) (x y : f64) : bool :=
  if is_null e then false
  else negb (fgtb x (maxx e) || fltb x (minx e) || fgtb y (maxy e) || fltb y (miny e)).
(** envelope.rs 821-826: [covers_xy]; also [contains_xy] (792),
    [covers_coordinate] (836), [contains_coordinate] (773). *)
Definition covers_xy (e : Envelope) (x y : f64) : bool :=
  if is_null e then false
  else fgeb x (minx e) && fleb x (maxx e) && fgeb y (miny e) && fleb y (maxy e).
(** envelope.rs 847-855: [covers_envelope]; also [contains_envelope] (756). *)
Definition covers_envelope (e other : Envelope) : bool :=
  if is_null e || is_null other then false
  else fgeb (minx other) (minx e) && fleb (maxx other) (maxx e)
       && fgeb (miny other) (miny e) && fleb (maxy other) (maxy e).
(** envelope.rs 892-900: [equals]. *)
Definition env_equals (e other : Envelope) : bool :=
  if is_null e then is_null other
  else feqb (maxx e) (maxx other) && feqb (maxy e) (maxy other)
       && feqb (minx e) (minx other) && feqb (miny e) (miny other).
(** envelope.rs 804-809: [contains_properly]. *)
Definition contains_properly (e other : Envelope) : bool :=
  if env_equals e other then false else covers_envelope e other.
(** envelope.rs 863-890: [distance_envelope]. *)
Definition distance_envelope (hypot : f64 -> f64 -> f64) (e env : Envelope) : f64 :=
  if intersects_envelope e env then f0
  else
    let dx := if fltb (maxx e) (minx env) then fsub (minx env) (maxx e)
              else if fgtb (minx e) (maxx env) then fsub (minx e) (maxx env)
              else f0 in
    let dy := if fltb (maxy e) (miny env) then fsub (miny env) (maxy e)
              else if fgtb (miny e) (maxy env) then fsub (miny e) (maxy env)
              else f0 in
    if feqb dx f0 then dy
    else if feqb dy f0 then dx
    else hypot dx dy.
(** envelope.rs 910-948: [compare_to_envelope]. *)
Definition compare_to_envelope (e env : Envelope) : Z :=
  if is_null e then (if is_null env then 0 else -1)
  else if is_null env then 1
  else if fltb (minx e) (minx env) then -1
  else if fgtb (minx e) (minx env) then 1
  else if fltb (miny e) (miny env) then -1
  else if fgtb (miny e) (miny env) then 1
  else if fltb (maxx e) (maxx env) then -1
  else if fgtb (maxx e) (maxx env) then 1
  else if fltb (maxy e) (maxy env) then -1
  else if fgtb (maxy e) (maxy env) then 1
  else 0.

(** coordinate_arrays.rs 701-707: [CoordinateArrays::envelope]. *)
Definition envelope_of (pts : list Coordinate) : Envelope :=
  fold_left expand_to_include_coordinate pts env_default.
