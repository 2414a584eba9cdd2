(** Triangles in the real plane. *)
From Coq Require Import Reals.
From Verif Require Import Num Distance_spec Intersection_spec.
Local Open Scope R_scope.

(** The point with the given weights. *)
Definition weighted (a b c : pR) (u v w : R) : pR :=
  mkP (u * px a + v * px b + w * px c) (u * py a + v * py b + w * py c).
(** [p] is in the triangle: inside or on a side; strictly inside. *)
Definition in_triangle (a b c p : pR) : Prop :=
  exists u v w, 0 <= u /\ 0 <= v /\ 0 <= w /\ u + v + w = 1 /\ p = weighted a b c u v w.
Definition inside_triangle (a b c p : pR) : Prop :=
  exists u v w, 0 < u /\ 0 < v /\ 0 < w /\ u + v + w = 1 /\ p = weighted a b c u v w.
(** The vertices are not on a common line. *)
Definition proper_triangle (a b c : pR) : Prop := forall d e, ~ (d <> e /\ on_line d e a /\ on_line d e b /\ on_line d e c).
