(** What a distance is: points of the plane, points along a segment, and the
    least distance between two sets of points. *)
From Coq Require Import Reals List.
From Verif Require Import Num.
Local Open Scope R_scope.

Notation pR := (P2 R).
(** Euclidean distance of two points. *)
Definition dist (p q : pR) : R := sqrt ((px p - px q)² + (py p - py q)²).
(** The point at fraction [t] of the way from [a] to [b]. *)
Definition along (a b : pR) (t : R) : pR := mkP (px a + t * (px b - px a)) (py a + t * (py b - py a)).
Definition on_segment (a b q : pR) : Prop := exists t, 0 <= t <= 1 /\ q = along a b t.
Definition on_line (a b q : pR) : Prop := exists t, q = along a b t.
(** [d] is the least distance from a point of [A] to a point of [B]. *)
Definition least_distance (A B : pR -> Prop) (d : R) : Prop :=
  (exists p q, A p /\ B q /\ dist p q = d) /\ forall p q, A p -> B q -> d <= dist p q.
(** The points of a chain of segments. *)
Fixpoint on_string (a : pR) (l : list pR) (q : pR) : Prop :=
  match l with
  | nil => q = a
  | b :: nil => on_segment a b q
  | b :: t => on_segment a b q \/ on_string b t q
  end.
