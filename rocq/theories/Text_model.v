(** Text forms of coordinates, envelopes, vectors, sequences and numbers. *)
From Coq Require Import ZArith List Ascii String.
From Verif Require Import Base F64 Coordinate_model Envelope_model CoordSeq_model PrecisionModel_model Vector_model DD_model.
Import ListNotations.

(** Text is a list of characters.  [show] stands for the text the standard library
    gives a double under ["{}"]. *)
Definition text := list ascii.
Definition lit (s : string) : text := list_ascii_of_string s.

Section Text.
Variable show : f64 -> text.

(** coordinate.rs 490-494: [fmt] of [Coordinate]; the measure is not printed. *)
Definition coord_text (c : Coordinate) : text :=
  lit "(" ++ show (cx c) ++ lit ", " ++ show (cy c) ++ lit ", " ++ show (cz c) ++ lit ")".
(** envelope.rs 951-959: [fmt] of [Envelope]. *)
Definition env_text (e : Envelope) : text :=
  lit "Env[" ++ show (minx e) ++ lit " : " ++ show (maxx e) ++ lit ", " ++ show (miny e) ++ lit " : " ++ show (maxy e) ++ lit "]".
(** vector_2d.rs 274-277: [to_string]. *)
Definition v2_text (v : V2) : text := lit "[" ++ show (vx v) ++ lit ", " ++ show (vy v) ++ lit "]".
(** vector_3d.rs 233-236: [to_string]. *)
Definition v3_text (v : V3) : text := lit "[" ++ show (wx v) ++ lit ", " ++ show (wy v) ++ lit ", " ++ show (wz v) ++ lit "]".
(** dd.rs 1116-1118: [dump]. *)
Definition dd_text (d : DD) : text := lit "DD<" ++ show (hi d) ++ lit ", " ++ show (lo d) ++ lit ">".
(** precision_model.rs 378-391: [fmt] of [PrecisionModel].  The initial "UNKNOWN"
    is always overwritten: there are three model types. *)
Definition pm_text (m : PM) : text :=
  match pm_type m with
  | Floating => lit "Floating"
  | FloatingSingle => lit "Floating-Single"
  | Fixed => lit "Fixed (Scale=" ++ show (pm_scale m) ++ lit ")"
  end.
(** coordinate_array_sequence.rs 353-368: [fmt] of [CoordinateArraySequence]; the loop
    over [1..len] is the fixpoint. *)
Fixpoint seq_text_loop (str : text) (l : list Coordinate) : text :=
  match l with
  | [] => str
  | c :: t => seq_text_loop ((str ++ lit ", ") ++ coord_text c) t
  end.
Definition seq_text (s : CSeq) : text :=
  match scoords s with
  | [] => lit "()"
  | c :: t => seq_text_loop (lit "(" ++ coord_text c) t ++ lit ")"
  end.
End Text.
