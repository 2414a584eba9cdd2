(** When the orientation of a point against a segment is beyond doubt. *)
From Coq Require Import Reals.
From Flocq Require Import Core.
From Verif Require Import Base F64 F64Facts F64Err Coordinate_model Orientation_spec.
Local Open Scope R_scope.

(** The segment is horizontal or vertical. *)
Definition axis_parallel (a b : Coordinate) : Prop :=
  R_of (cx a) = R_of (cx b) \/ R_of (cy a) = R_of (cy b).
(** The two coordinates are the same place. *)
Definition same_place (a b : Coordinate) : Prop :=
  R_of (cx a) = R_of (cx b) /\ R_of (cy a) = R_of (cy b).
(** [q] is off the line through [a] and [b] by more than 2^-102 of its
    distance from them: the determinant is the distance from the line times
    the length of the segment. *)
Definition off_line (a b q : Coordinate) : Prop :=
  let w := Rabs (R_of (cx b) - R_of (cx a)) + Rabs (R_of (cy b) - R_of (cy a)) in
  let da := Rabs (R_of (cx q) - R_of (cx a)) + Rabs (R_of (cy q) - R_of (cy a)) in
  let db := Rabs (R_of (cx q) - R_of (cx b)) + Rabs (R_of (cy q) - R_of (cy b)) in
  bp (-102) * (w * (da + db)) < Rabs (det_pts a b q).
(** [q] is not strictly inside both the x-range and the y-range of the
    segment, nor strictly outside both. *)
Definition one_range (a b q : Coordinate) : Prop :=
  (R_of (cx a) - R_of (cx q)) * (R_of (cx b) - R_of (cx q)) *
  ((R_of (cy a) - R_of (cy q)) * (R_of (cy b) - R_of (cy q))) <= 0.
(** The distances in x, and in y, between the three points are doubles. *)
Definition exact_gaps (a b q : Coordinate) : Prop :=
  forall o, o = cx \/ o = cy ->
  fmt (R_of (o b) - R_of (o a)) /\ fmt (R_of (o q) - R_of (o b)) /\ fmt (R_of (o q) - R_of (o a)).
(** One of these holds. *)
Definition clear_of (a b q : Coordinate) : Prop :=
  one_range a b q \/ axis_parallel a b \/ off_line a b q \/ exact_gaps a b q.
(** [q] is in the box of the segment: between its ends in x and in y. *)
Definition at_box (q a b : Coordinate) : Prop :=
  (R_of (cx a) - R_of (cx q)) * (R_of (cx b) - R_of (cx q)) <= 0 /\
  (R_of (cy a) - R_of (cy q)) * (R_of (cy b) - R_of (cy q)) <= 0.
