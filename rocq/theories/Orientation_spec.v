(** Specifications for orientation. *)
From Coq Require Import ZArith Reals Lra.
From Flocq Require Import Core.
From Verif Require Import Base F64 F64Facts F64Err DD_spec Coordinate_model.
Open Scope R_scope.

(** Twice the signed area of the triangle: positive when the three points
    turn counterclockwise. *)
Definition det3 (ax ay bx by_ cx cy : R) : R := (bx - ax) * (cy - ay) - (by_ - ay) * (cx - ax).
Definition det_pts (p1 p2 q : Coordinate) : R :=
  det3 (R_of (cx p1)) (R_of (cy p1)) (R_of (cx p2)) (R_of (cy p2)) (R_of (cx q)) (R_of (cy q)).
(** Ordinates of moderate size: zero, or between 2^-388 and 2^470. *)
Definition mid (x : f64) : Prop :=
  fis_finite x = true /\ Rabs (R_of x) <= bp 470 /\ (R_of x = 0 \/ bp (-388) <= Rabs (R_of x)).
Definition mid_pt (p : Coordinate) : Prop := mid (cx p) /\ mid (cy p).
(** A point with ordinates n*2^e, |n| <= 2^49. *)
Definition gpt (e : Z) (p : Coordinate) : Prop :=
  (exists n, (Z.abs n <= 2 ^ 49)%Z /\ grid e (cx p) n) /\ (exists n, (Z.abs n <= 2 ^ 49)%Z /\ grid e (cy p) n).
