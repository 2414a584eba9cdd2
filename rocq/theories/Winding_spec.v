(** Specification of winding numbers and of paths that avoid a ring. *)
From Coq Require Import ZArith List Reals.
From Verif Require Import PointLocation_spec Simple_spec.
Import ListNotations.
Open Scope R_scope.

(** The number of times a chain passes upward to the right of the point less
    the number of times it passes downward. *)
Definition winding (p : R * R) (l : list (R * R)) (w : Z) : Prop :=
  exists u d, count_of (fun s => crosses p (fst s) (snd s) /\ snd (fst s) < snd (snd s)) (segs l) u /\
    count_of (fun s => crosses p (fst s) (snd s) /\ snd (snd s) < snd (fst s)) (segs l) d /\ w = (Z.of_nat u - Z.of_nat d)%Z.
(** Two points joined by a path of straight steps that avoids the chain. *)
Inductive joined (l : list (R * R)) : R * R -> R * R -> Prop :=
| joined_one p q : (forall t, 0 <= t <= 1 -> ~ on_chain (along p q t) l) -> joined l p q
| joined_more p q r : joined l p q -> joined l q r -> joined l p r.
