(** Statements about plain double precision intersections of lines. *)
From Coq Require Import ZArith Reals.
From Flocq Require Import Core.
From Verif Require Import F64 F64Facts Coordinate_model.
Local Open Scope R_scope.

(** The two points are within [D] of each other along each axis. *)
Definition apart (D : R) (a b : Coordinate) : Prop :=
  Rabs (R_of (cx a) - R_of (cx b)) <= D /\ Rabs (R_of (cy a) - R_of (cy b)) <= D.
(** The error of a quotient of 53-bit determinants: [S] is the size of the
    figure, [w] the cross product of the directions, [m] the ordinate's size. *)
Definition loss (k : Z) (S w m : R) : R := bp k * (S * S * (S + m) / Rabs w).
