(** Specifications for area and length at arbitrary doubles. *)
From Coq Require Import List Reals.
From Verif Require Import Base F64 F64Facts F64Err Coordinate_model.
Import ListNotations.
Local Open Scope R_scope.

(** The point in the plane that a coordinate stands for. *)
Definition plane (c : Coordinate) : R * R := (R_of (cx c), R_of (cy c)).
(** Both ordinates finite and at most 2^k in size. *)
Definition pt_below (k : Z) (c : Coordinate) : Prop := bf k (cx c) /\ bf k (cy c).
(** Euclidean distance and the length of a path. *)
Definition euclid (a b : R * R) : R :=
  sqrt ((fst b - fst a) * (fst b - fst a) + (snd b - snd a) * (snd b - snd a)).
Fixpoint path_length (l : list (R * R)) : R :=
  match l with
  | a :: ((b :: _) as t) => euclid a b + path_length t
  | _ => 0
  end.
(** Every step of the path is empty or at least 2^k long. *)
Definition steps_above (k : Z) (l : list (R * R)) : Prop :=
  forall l1 a b l2, l = l1 ++ a :: b :: l2 -> a = b \/ bp k <= euclid a b.

(** Twice the area under a chain, by trapezoids: the sum over consecutive
    points of (x' - x) * (y + y'). *)
Fixpoint rtrapezoids (l : list (R * R)) : R :=
  match l with
  | (x, y) :: (((x', y') :: _) as t) => (x' - x) * (y + y') + rtrapezoids t
  | _ => 0
  end.
(** The chain lies in a box [w] wide and [h] high. *)
Definition in_box (w h : R) (l : list (R * R)) : Prop :=
  exists x y, Forall (fun p => x <= fst p <= x + w /\ y <= snd p <= y + h) l.
