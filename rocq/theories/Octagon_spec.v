(** What octagonal envelopes mean: four closed bands, on x, y, x+y and x-y. *)
From Coq Require Import List Bool ZArith Reals.
From Verif Require Import F64 F64Facts Coordinate_model Envelope_model Envelope_spec Octagon_model.
Import ListNotations.

(** The four values of a point that the envelope bounds; the last two rounded. *)
Definition axes (p : Coordinate) : list f64 := [cx p; cy p; fadd (cx p) (cy p); fsub (cx p) (cy p)].
Definition bands (o : Oct) : list (f64 * f64) :=
  [(ominx o, omaxx o); (ominy o, omaxy o); (omina o, omaxa o); (ominb o, omaxb o)].
(** The point is in all four bands. *)
Definition in_oct (o : Oct) (p : Coordinate) : Prop :=
  Forall2 (fun b v => lef (fst b) v /\ lef v (snd b)) (bands o) (axes p).
(** A non-empty octagon, and a well-formed value of the type. *)
Definition is_oct (o : Oct) : Prop := Forall (fun b => lef (fst b) (snd b)) (bands o).
Definition wf_oct (o : Oct) : Prop := oct_is_null o = true \/ is_oct o.
(** Neither ordinate, nor their sum or difference, is NaN; so for all finite
    points. *)
Definition nn_oct (p : Coordinate) : Prop := Forall nn (axes p).

(** All ways of changing an octagonal envelope. *)
Inductive oct_op :=
| OoPoint (p : Coordinate)
| OoOct (t : Oct)
| OoEnvelope (e : Envelope)
| OoExpand (d : f64)
| OoNull.
Definition oct_op_ok (o : oct_op) : Prop :=
  match o with
  | OoPoint p => nn_oct p
  | OoOct t => wf_oct t
  | OoEnvelope e => Forall (fun v => fis_finite v = true) [minx e; maxx e; miny e; maxy e]
  | OoExpand d => fis_finite d = true /\ fis_finite (fmul (fsqrt f2) d) = true
  | OoNull => True
  end.
Definition oct_apply (o : Oct) (p : oct_op) : Oct :=
  match p with
  | OoPoint p => oct_expand_coordinate o p
  | OoOct t => oct_expand_oct o t
  | OoEnvelope e => oct_expand_envelope o e
  | OoExpand d => oct_expand_by o d
  | OoNull => oct_set_to_null o
  end.

(** Convex combinations, in the reals. *)
Local Open Scope R_scope.
Fixpoint wsum (ws vs : list R) : R :=
  match ws, vs with w :: ws, v :: vs => w * v + wsum ws vs | _, _ => 0 end.
Definition in_hull (pts : list Coordinate) (p : Coordinate) : Prop :=
  exists ws, length ws = length pts /\ Forall (fun w => 0 <= w) ws /\ wsum ws (map (fun _ => 1) pts) = 1 /\
    R_of (cx p) = wsum ws (map (fun q => R_of (cx q)) pts) /\
    R_of (cy p) = wsum ws (map (fun q => R_of (cy q)) pts).
