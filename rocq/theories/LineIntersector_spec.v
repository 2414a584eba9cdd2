(** What two segments share. *)
From Coq Require Import Reals.
From Verif Require Import Base F64 Num Coordinate_model Distance_spec Intersection_spec.
Local Open Scope R_scope.

(** [x] is a point of both segments. *)
Definition shared (p1 p2 q1 q2 x : pR) : Prop := on_segment p1 p2 x /\ on_segment q1 q2 x.
(** Same X and Y, bit for bit. *)
Definition same_xy (a b : Coordinate) : Prop := cx a = cx b /\ cy a = cy b.
Definition is_end (p1 p2 q1 q2 c : Coordinate) : Prop :=
  same_xy c p1 \/ same_xy c p2 \/ same_xy c q1 \/ same_xy c q2.
(** The two lines separate each other's end points strictly. *)
Definition strictly_cross (p1 p2 q1 q2 : pR) : Prop :=
  opposite (side p1 p2 q1) (side p1 p2 q2) /\ opposite (side q1 q2 p1) (side q1 q2 p2).

