(** What envelopes mean, independently of the code: closed boxes of points.
    [lef] is the numeric order on doubles (false on NaN). *)
From Coq Require Import List Bool ZArith.
From Verif Require Import F64 F64Facts Coordinate_model Envelope_model.
Import ListNotations.

Definition lef (x y : f64) : Prop := fleb x y = true.

(** The point (x,y) is in the closed box. *)
Definition in_box (e : Envelope) (x y : f64) : Prop :=
  lef (minx e) x /\ lef x (maxx e) /\ lef (miny e) y /\ lef y (maxy e).

(** A well-formed envelope: the canonical null one, or a non-empty box
    (bounds may be infinite, never NaN). *)
Definition is_box (e : Envelope) : Prop := lef (minx e) (maxx e) /\ lef (miny e) (maxy e).
Definition wf_env (e : Envelope) : Prop := e = env_default \/ is_box e.

(** The two envelopes describe the same set of points. *)
Definition same_points (a b : Envelope) : Prop := forall x y, in_box a x y <-> in_box b x y.
Definition subset (a b : Envelope) : Prop := forall x y, in_box a x y -> in_box b x y.

(** No NaN in X or Y. *)
Definition nn_xy (p : Coordinate) : Prop := nn (cx p) /\ nn (cy p).
Definition fin_xy (p : Coordinate) : Prop := fis_finite (cx p) = true /\ fis_finite (cy p) = true.

(** The operations of the public API that change an envelope.  Points may be
    infinite but not NaN; offsets are finite. *)
Inductive env_op :=
| OpPoint (x y : f64)
| OpEnvelope (o : Envelope)
| OpExpand (d : f64)
| OpExpandXY (dx dy : f64)
| OpTranslate (tx ty : f64)
| OpIntersect (o : Envelope)
| OpNull.

Definition op_ok (o : env_op) : Prop :=
  match o with
  | OpPoint x y => nn x /\ nn y
  | OpEnvelope e | OpIntersect e => wf_env e
  | OpExpand d => fis_finite d = true
  | OpExpandXY a b | OpTranslate a b => fis_finite a = true /\ fis_finite b = true
  | OpNull => True
  end.

Definition apply_op (e : Envelope) (o : env_op) : Envelope :=
  match o with
  | OpPoint x y => expand_to_include_xy e x y
  | OpEnvelope o => expand_to_include_envelope e o
  | OpExpand d => expand_by e d
  | OpExpandXY a b => expand_by_delta_xy e a b
  | OpTranslate a b => env_translate e a b
  | OpIntersect o => intersection_envelope e o
  | OpNull => env_default
  end.

(** [x] lies between [a] and [b] in either order. *)
Definition between (a b x : f64) : Prop := (lef a x /\ lef x b) \/ (lef b x /\ lef x a).
(** The closed box spanned by two corner points. *)
Definition in_span (p q : Coordinate) (x y : f64) : Prop :=
  between (cx p) (cx q) x /\ between (cy p) (cy q) y.

(** All four bounds are finite numbers. *)
Definition finite_env (e : Envelope) : Prop :=
  fis_finite (minx e) = true /\ fis_finite (maxx e) = true /\
  fis_finite (miny e) = true /\ fis_finite (maxy e) = true.

(** Rounded width of the gap between the intervals [a1,a2] and [b1,b2]. *)
Definition is_gap (a1 a2 b1 b2 g : f64) : Prop :=
  (fltb a2 b1 = true /\ g = fsub b1 a2) \/
  (fltb b2 a1 = true /\ g = fsub a1 b2) \/
  (fltb a2 b1 = false /\ fltb b2 a1 = false /\ g = f0).
Definition posf (x : f64) : Prop := fltb f0 x = true.

(** The box whose bounds are exactly the integers a, b, c, d times [2^k]. *)
Definition grid_box (k : Z) (e : Envelope) (a b c d : Z) : Prop :=
  grid k (minx e) a /\ grid k (maxx e) b /\ grid k (miny e) c /\ grid k (maxy e) d.
