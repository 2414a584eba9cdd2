(** Specifications for area and length. *)
From Coq Require Import ZArith List Reals.
From Verif Require Import Base F64 F64Facts Coordinate_model.
Import ListNotations.

(** Twice the area under a chain, by trapezoids: the sum over consecutive
    points of (x' - x) * (y + y').  For a closed chain this is twice the
    enclosed area, positive when the chain turns clockwise. *)
Fixpoint trapezoids (l : list (Z * Z)) : Z :=
  match l with
  | (x, y) :: (((x', y') :: _) as t) => ((x' - x) * (y + y') + trapezoids t)%Z
  | _ => 0%Z
  end.
(** Integer points, joined up to a ring. *)
Definition closed_chain {A} (l : list A) : Prop :=
  exists a m, l = a :: m ++ [a].
(** The coordinates [cs] are the integer points [zs] scaled by 2^e. *)
Definition on_grid (e : Z) (zs : list (Z * Z)) (cs : list Coordinate) : Prop :=
  Forall2 (fun z c => grid e (cx c) (fst z) /\ grid e (cy c) (snd z)) zs cs.
(** All ordinates at most [k] in size. *)
Definition within (k : Z) (zs : list (Z * Z)) : Prop :=
  Forall (fun z => Z.abs (fst z) <= k /\ Z.abs (snd z) <= k)%Z zs.
(** Every step of the chain is horizontal or vertical; the sum of its steps. *)
Definition rectilinear (l : list (Z * Z)) : Prop :=
  forall l1 a b l2, l = l1 ++ a :: b :: l2 -> fst a = fst b \/ snd a = snd b.
Fixpoint manhattan (l : list (Z * Z)) : Z :=
  match l with
  | a :: ((b :: _) as t) => (Z.abs (fst b - fst a) + Z.abs (snd b - snd a) + manhattan t)%Z
  | _ => 0%Z
  end.
