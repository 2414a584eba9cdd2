(** Model of src/core/algorithm/distance.rs over a number type (see Num.v).
    [>] and [>=] are written with swapped arguments. *)
From Coq Require Import ZArith Bool List.
From Verif Require Import Base F64 Num Coordinate_model.
Import ListNotations.

Section Distance.
Variable T : Type.
Variable N : num T.
Let zero := nofZ N 0.
Let one := nofZ N 1.

(** coordinate.rs 469-474: [distance]; [equals_2d] (237). *)
Definition g_distance (a b : P2 T) : T := nhyp N (nsub N (px a) (px b)) (nsub N (py a) (py b)).
Definition g_equals (a b : P2 T) : bool := neq N (px a) (px b) && neq N (py a) (py b).
(** envelope.rs 76-106: [intersects_4]. *)
Definition g_intersects_4 (p1 p2 q1 q2 : P2 T) : bool :=
  let minq := nmin N (px q1) (px q2) in let maxq := nmax N (px q1) (px q2) in
  let minp := nmin N (px p1) (px p2) in let maxp := nmax N (px p1) (px p2) in
  if nlt N maxq minp then false else if nlt N maxp minq then false else
  let minq := nmin N (py q1) (py q2) in let maxq := nmax N (py q1) (py q2) in
  let minp := nmin N (py p1) (py p2) in let maxp := nmax N (py p1) (py p2) in
  if nlt N maxq minp then false else if nlt N maxp minq then false else true.
(** math_util.rs 120-134: [min] of four. *)
Definition g_min4 (v1 v2 v3 v4 : T) : T :=
  let m := v1 in
  let m := if nlt N v2 m then v2 else m in
  let m := if nlt N v3 m then v3 else m in
  if nlt N v4 m then v4 else m.

(** distance.rs 141-183: [point_to_segment]. *)
Definition g_len2 (a b : P2 T) : T :=
  nadd N (nmul N (nsub N (px b) (px a)) (nsub N (px b) (px a))) (nmul N (nsub N (py b) (py a)) (nsub N (py b) (py a))).
Definition g_side (p a b : P2 T) : T :=
  nsub N (nmul N (nsub N (py a) (py p)) (nsub N (px b) (px a))) (nmul N (nsub N (px a) (px p)) (nsub N (py b) (py a))).
Definition g_point_to_segment (p a b : P2 T) : T :=
  if neq N (px a) (px b) && neq N (py a) (py b) then g_distance p a else
  let len2 := g_len2 a b in
  let r := ndiv N (nadd N (nmul N (nsub N (px p) (px a)) (nsub N (px b) (px a)))
                          (nmul N (nsub N (py p) (py a)) (nsub N (py b) (py a)))) len2 in
  if nle N r zero then g_distance p a
  else if nle N one r then g_distance p b
  else
    let s := ndiv N (g_side p a b) len2 in
    nmul N (nabs N s) (nsqrt N len2).
(** distance.rs 30-101: [segment_to_segment]. *)
Definition g_segment_to_segment (a b c d : P2 T) : T :=
  if g_equals a b then g_point_to_segment a c d
  else if g_equals c d then g_point_to_segment d a b
  else
    let no_intersection :=
      if negb (g_intersects_4 a b c d) then true else
      let denom := nsub N (nmul N (nsub N (px b) (px a)) (nsub N (py d) (py c)))
                          (nmul N (nsub N (py b) (py a)) (nsub N (px d) (px c))) in
      if neq N denom zero then true else
      let r_num := nsub N (nmul N (nsub N (py a) (py c)) (nsub N (px d) (px c)))
                          (nmul N (nsub N (px a) (px c)) (nsub N (py d) (py c))) in
      let s_num := nsub N (nmul N (nsub N (py a) (py c)) (nsub N (px b) (px a)))
                          (nmul N (nsub N (px a) (px c)) (nsub N (py b) (py a))) in
      let s := ndiv N s_num denom in
      let r := ndiv N r_num denom in
      nlt N r zero || nlt N one r || nlt N s zero || nlt N one s in
    if no_intersection then
      g_min4 (g_point_to_segment a c d) (g_point_to_segment b c d)
             (g_point_to_segment c a b) (g_point_to_segment d a b)
    else zero.
(** distance.rs 112-126: [point_to_segment_string]; [None] stands for the NaN returned
    for an empty line. *)
Fixpoint g_string_loop (p a : P2 T) (l : list (P2 T)) (min_distance : T) : T :=
  match l with
  | [] => min_distance
  | b :: t =>
      let dist := g_point_to_segment p a b in
      g_string_loop p b t (if nlt N dist min_distance then dist else min_distance)
  end.
Definition g_point_to_segment_string (p : P2 T) (line : list (P2 T)) : option T :=
  match line with
  | [] => None
  | a :: t => Some (g_string_loop p a t (g_distance p a))
  end.
(** distance.rs 197-210: [point_to_line_perpendicular]; 212-229: its signed form. *)
Definition g_line_perpendicular (p a b : P2 T) : T :=
  let len2 := g_len2 a b in
  nmul N (nabs N (ndiv N (g_side p a b) len2)) (nsqrt N len2).
Definition g_line_perpendicular_signed (p a b : P2 T) : T :=
  let len2 := g_len2 a b in
  nmul N (ndiv N (g_side p a b) len2) (nsqrt N len2).
End Distance.

(** The code: doubles, coordinates.  [hypot] stands for [f64::hypot]. *)
Definition pf (c : Coordinate) : P2 f64 := mkP (cx c) (cy c).
Definition point_to_segment hypot (p a b : Coordinate) : f64 :=
  g_point_to_segment f64 (NF hypot) (pf p) (pf a) (pf b).
Definition segment_to_segment hypot (a b c d : Coordinate) : f64 :=
  g_segment_to_segment f64 (NF hypot) (pf a) (pf b) (pf c) (pf d).
Definition point_to_segment_string hypot (p : Coordinate) (line : list Coordinate) : f64 :=
  match g_point_to_segment_string f64 (NF hypot) (pf p) (map pf line) with Some d => d | None => fnan end.
Definition line_perpendicular hypot (p a b : Coordinate) : f64 :=
  g_line_perpendicular f64 (NF hypot) (pf p) (pf a) (pf b).
Definition line_perpendicular_signed hypot (p a b : Coordinate) : f64 :=
  g_line_perpendicular_signed f64 (NF hypot) (pf p) (pf a) (pf b).
