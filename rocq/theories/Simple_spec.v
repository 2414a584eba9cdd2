(** Specification of simple rings. *)
From Coq Require Import ZArith Bool List Reals.
Import ListNotations.
Open Scope R_scope.

(** The point at parameter [t] of the step from [a] to [b]. *)
Definition along (a b : R * R) (t : R) : R * R :=
  (fst a + t * (fst b - fst a), snd a + t * (snd b - snd a)).
Definition real_pt (z : Z * Z) : R * R := (IZR (fst z), IZR (snd z)).
(** The closed chain [l] (last vertex = first) passes through each of its
    points once: walking step [i] for parameters 0 <= s < 1 gives all points
    of the ring, and no two of these positions are the same point. *)
Definition once (l : list (R * R)) : Prop :=
  forall i j s t, (S i < length l)%nat -> (S j < length l)%nat -> 0 <= s < 1 -> 0 <= t < 1 ->
  along (nth i l (0, 0)) (nth (S i) l (0, 0)) s = along (nth j l (0, 0)) (nth (S j) l (0, 0)) t ->
  i = j /\ s = t.
(** Without repeated points. *)
Definition same_pt (a b : Z * Z) : bool := ((fst a =? fst b) && (snd a =? snd b))%Z.
Fixpoint dedup (l : list (Z * Z)) : list (Z * Z) :=
  match l with
  | a :: ((b :: _) as t) => if same_pt a b then dedup t else a :: dedup t
  | _ => l
  end.
(** A simple ring of integer points: closed, not all points the same, and,
    repeated points counted once, passing through each point once. *)
Definition simple_ring (zs : list (Z * Z)) : Prop :=
  (exists a m, zs = a :: m ++ [a]) /\ (exists a m, dedup zs = a :: m ++ [a]) /\ once (map real_pt (dedup zs)).
