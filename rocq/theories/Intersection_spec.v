(** What the intersection of two lines is. *)
From Coq Require Import Reals.
From Verif Require Import Num Distance_spec.
Local Open Scope R_scope.

(** Cross product of the directions of the lines [a b] and [c d]: zero exactly
    when they are parallel (or one of them is a point). *)
Definition cross (a b c d : pR) : R :=
  (px b - px a) * (py d - py c) - (py b - py a) * (px d - px c).
(** [q] is the only point of both lines. *)
Definition lines_meet (a b c d q : pR) : Prop :=
  on_line a b q /\ on_line c d q /\ forall q', on_line a b q' -> on_line c d q' -> q' = q.
(** Twice the signed area of the triangle: positive when [q] is to the left of
    the directed line [a b], zero when it is on it. *)
Definition side (a b q : pR) : R := (px b - px a) * (py q - py a) - (py b - py a) * (px q - px a).
(** [q] is in the bounding box of [a] and [b]. *)
Definition in_box2 (a b q : pR) : Prop :=
  Rmin (px a) (px b) <= px q <= Rmax (px a) (px b) /\ Rmin (py a) (py b) <= py q <= Rmax (py a) (py b).
(** Strictly opposite signs. *)
Definition opposite (s t : R) : Prop := (s < 0 < t) \/ (t < 0 < s).
