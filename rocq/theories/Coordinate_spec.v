(** Numeric order and equality of doubles and of points, as relations.
    Both zeros are equal; NaN is related to nothing. *)
From Verif Require Import F64 Coordinate_model.

Definition ltf (x y : f64) : Prop := fltb x y = true.
Definition eqf (x y : f64) : Prop := feqb x y = true.

(** Points compared by X, then by Y. *)
Definition pt_lt (p q : Coordinate) : Prop :=
  ltf (cx p) (cx q) \/ (eqf (cx p) (cx q) /\ ltf (cy p) (cy q)).
(** Same position in the plane. *)
Definition pt_eq (p q : Coordinate) : Prop := eqf (cx p) (cx q) /\ eqf (cy p) (cy q).
