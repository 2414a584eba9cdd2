(** Statements about intersections of lines through arbitrary doubles. *)
From Coq Require Import ZArith Reals.
From Flocq Require Import Core.
From Verif Require Import F64 F64Facts Coordinate_model.
Local Open Scope R_scope.

(** Finite, up to 2^80, and 0 or at least 2^-47 in size. *)
Definition plain (x : f64) : Prop :=
  fis_finite x = true /\ Rabs (R_of x) <= bp 80 /\ (R_of x = 0 \/ bp (-47) <= Rabs (R_of x)).
Definition plain_pt (c : Coordinate) : Prop := plain (cx c) /\ plain (cy c).
(** Both ordinates are at most [B] in size. *)
Definition upto (B : R) (c : Coordinate) : Prop := Rabs (R_of (cx c)) <= B /\ Rabs (R_of (cy c)) <= B.
(** The error allowed for an ordinate [m] of the meeting point of two lines
    through points of size up to [B]; [w] is the cross product of the directions. *)
Definition spread (B w m : R) : R := bp (-96) * (B * B * (B + Rabs m) / Rabs w).
(** [r] is the double nearest to a number within [E] of [m]. *)
Definition rounded_within (E : R) (r : f64) (m : R) : Prop :=
  fis_finite r = true /\ exists v, R_of r = RN v /\ Rabs (v - m) <= E.
(** An error of [E] does not carry [m] over the edge [g] when rounded. *)
Definition firm (E m g : R) : Prop := E <= Rabs (m - g) \/ E <= bp (-55) * Rabs g.
