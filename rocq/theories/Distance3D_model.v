(** Model of src/core/algorithm/cg_algorithms_3d.rs, with [dot_4] of
    src/core/math/vector_3d.rs, over a number type. *)
From Coq Require Import ZArith Bool.
From Verif Require Import Base F64 Num Coordinate_model.

(** A coordinate with its Z. *)
Record P3 (T : Type) := mkP3 { qx : T; qy : T; qz : T }.
Arguments mkP3 {T}. Arguments qx {T}. Arguments qy {T}. Arguments qz {T}.

Section Generic.
Variable T : Type.
Variable N : num T.
Notation "x + y" := (nadd N x y).
Notation "x - y" := (nsub N x y).
Notation "x * y" := (nmul N x y).
Notation "x / y" := (ndiv N x y).

(** coordinate.rs 469-474: [distance], the plane distance. *)
Definition g_distance_xy (p q : P3 T) : T := nhyp N (qx p - qx q) (qy p - qy q).
(** coordinate.rs 482-487: [distance_3d]. *)
Definition g_sqrt_sum (dx dy dz : T) : T := nsqrt N (dx * dx + dy * dy + dz * dz).
Definition g_distance_3d (p q : P3 T) : T := g_sqrt_sum (qx p - qx q) (qy p - qy q) (qz p - qz q).
(** cg_algorithms_3d.rs 14-24: [distance]. *)
Definition g_distance3 (p q : P3 T) : T :=
  if nisnan N (qz p) || nisnan N (qz q) then g_distance_xy p q else g_distance_3d p q.
(** coordinate.rs 399-404: [equals_3d]. *)
Definition g_equals_3d (p q : P3 T) : bool :=
  neq N (qx p) (qx q) && neq N (qy p) (qy q) && (neq N (qz p) (qz q) || (nisnan N (qz p) && nisnan N (qz q))).
(** cg_algorithms_3d.rs 26-73: [distance_point_segment]; [nan] is [f64::NAN]. *)
Variable nan : T.
Definition g_p2s_3d (p a b : P3 T) : T :=
  if g_equals_3d a b then g_distance3 p a
  else
    let len2 := (qx b - qx a) * (qx b - qx a) + (qy b - qy a) * (qy b - qy a) + (qz b - qz a) * (qz b - qz a) in
    if nisnan N len2 then nan
    else
      let r := ((qx p - qx a) * (qx b - qx a) + (qy p - qy a) * (qy b - qy a) + (qz p - qz a) * (qz b - qz a)) / len2 in
      if nle N r (nofZ N 0) then g_distance3 p a
      else if nle N (nofZ N 1) r then g_distance3 p b
      else
        let x := qx a + r * (qx b - qx a) in
        let y := qy a + r * (qy b - qy a) in
        let z := qz a + r * (qz b - qz a) in
        g_sqrt_sum (qx p - x) (qy p - y) (qz p - z).
(** vector_3d.rs 91-99: [dot_4]. *)
Definition g_dot_4 (a b c d : P3 T) : T :=
  (qx b - qx a) * (qx d - qx c) + (qy b - qy a) * (qy d - qy c) + (qz b - qz a) * (qz d - qz c).
(** cg_algorithms_3d.rs 84-160: [distance_segment_segment]; line 98 compares
    [cc] with [bc]. *)
Definition g_s2s_3d (a b c d : P3 T) : T :=
  if g_equals_3d a b then g_p2s_3d a c d
  else if g_equals_3d c b then g_p2s_3d c a b
  else
    let aa := g_dot_4 a b a b in
    let bb := g_dot_4 a b c d in
    let cc := g_dot_4 c d c d in
    let dd := g_dot_4 a b c a in
    let ee := g_dot_4 c d c a in
    let denom := aa * cc - bb * bb in
    if nisnan N denom then nan
    else
      let '(s, t) :=
        if nle N denom (nofZ N 0) then (nofZ N 0, if nlt N cc bb then dd / bb else ee / cc)
        else ((bb * ee - cc * dd) / denom, (aa * ee - bb * dd) / denom) in
      if nlt N s (nofZ N 0) then g_p2s_3d a c d
      else if nlt N (nofZ N 1) s then g_p2s_3d b c d
      else if nlt N t (nofZ N 0) then g_p2s_3d c a b
      else if nlt N (nofZ N 1) t then g_p2s_3d d a b
      else
        g_distance3
          (mkP3 (qx a + s * (qx b - qx a)) (qy a + s * (qy b - qy a)) (qz a + s * (qz b - qz a)))
          (mkP3 (qx c + t * (qx d - qx c)) (qy c + t * (qy d - qy c)) (qz c + t * (qz d - qz c))).
End Generic.

(** The double-precision functions. *)
Definition pf3 (c : Coordinate) : P3 f64 := mkP3 (cx c) (cy c) (cz c).
Section Doubles.
Variable hypot : f64 -> f64 -> f64.
Definition distance3 (p q : Coordinate) : f64 := g_distance3 f64 (NF hypot) (pf3 p) (pf3 q).
Definition p2s_3d (p a b : Coordinate) : f64 := g_p2s_3d f64 (NF hypot) fnan (pf3 p) (pf3 a) (pf3 b).
Definition s2s_3d (a b c d : Coordinate) : f64 := g_s2s_3d f64 (NF hypot) fnan (pf3 a) (pf3 b) (pf3 c) (pf3 d).
End Doubles.
