(** Distances in space. *)
From Coq Require Import Reals.
From Verif Require Import Distance3D_model.
Local Open Scope R_scope.

Definition dist3 (p q : P3 R) : R := sqrt ((qx p - qx q)² + (qy p - qy q)² + (qz p - qz q)²).
Definition along3 (a b : P3 R) (t : R) : P3 R :=
  mkP3 (qx a + t * (qx b - qx a)) (qy a + t * (qy b - qy a)) (qz a + t * (qz b - qz a)).
Definition on_segment3 (a b q : P3 R) : Prop := exists t, 0 <= t <= 1 /\ q = along3 a b t.
Definition least_distance3 (A B : P3 R -> Prop) (d : R) : Prop :=
  (exists p q, A p /\ B q /\ dist3 p q = d) /\ forall p q, A p -> B q -> d <= dist3 p q.
