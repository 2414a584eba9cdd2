(** Specifications for point location, over real points. *)
From Coq Require Import ZArith List Reals.
From Verif Require Import Base F64 F64Facts Coordinate_model.
Import ListNotations.
Open Scope R_scope.

Definition pt (c : Coordinate) : R * R := (R_of (cx c), R_of (cy c)).
(** [p] lies on the closed segment [a b]: it is a convex combination. *)
Definition on_seg (p a b : R * R) : Prop :=
  exists t, 0 <= t <= 1 /\ fst p = fst a + t * (fst b - fst a) /\ snd p = snd a + t * (snd b - snd a).
(** The ray from [p] to the right crosses the segment [a b], an end point on
    the ray counting as below it: one end is above the ray, the other is not,
    and the point of the segment at the height of the ray is to the right. *)
Definition crosses (p a b : R * R) : Prop :=
  ((snd a > snd p /\ snd b <= snd p) \/ (snd b > snd p /\ snd a <= snd p)) /\
  exists t, 0 <= t <= 1 /\ snd p = snd a + t * (snd b - snd a) /\ fst p < fst a + t * (fst b - fst a).
(** The segments of a chain. *)
Fixpoint segs {A} (l : list A) : list (A * A) :=
  match l with
  | a :: ((b :: _) as t) => (a, b) :: segs t
  | _ => []
  end.
(** Exactly [k] elements of the list have the property. *)
Inductive count_of {A} (P : A -> Prop) : list A -> nat -> Prop :=
| co_nil : count_of P [] 0
| co_yes a l k : P a -> count_of P l k -> count_of P (a :: l) (S k)
| co_no a l k : ~ P a -> count_of P l k -> count_of P (a :: l) k.
Definition on_chain (p : R * R) (l : list (R * R)) : Prop :=
  exists a b, In (a, b) (segs l) /\ on_seg p a b.
Definition crossings (p : R * R) (l : list (R * R)) (k : nat) : Prop :=
  count_of (fun s => crosses p (fst s) (snd s)) (segs l) k.
