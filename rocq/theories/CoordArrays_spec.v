(** Independent specifications for coordinate arrays and lists. *)
From Coq Require Import ZArith List.
From Verif Require Import Base F64 Coordinate_model Coordinate_spec Envelope_spec CoordArrays_model.
Import ListNotations.

(** Lexicographic order of point lists; a proper prefix comes first. *)
Inductive lex_lt : list Coordinate -> list Coordinate -> Prop :=
| lex_prefix b t : lex_lt [] (b :: t)
| lex_head a b s t : pt_lt a b -> lex_lt (a :: s) (b :: t)
| lex_tail a b s t : pt_eq a b -> lex_lt s t -> lex_lt (a :: s) (b :: t).

(** Same positions, point by point. *)
Definition same_pts (l1 l2 : list Coordinate) : Prop := Forall2 pt_eq l1 l2.

(** No point has the same position as the point before it. *)
Definition no_adjacent_repeat (l : list Coordinate) : Prop :=
  forall i a b, nth_error l i = Some a -> nth_error l (S i) = Some b -> ~ pt_eq a b.

(** [drop_repeats l r]: [r] is [l] without exactly those points that are at
    the position of the point just before them in [l]. *)
Inductive drop_after : Coordinate -> list Coordinate -> list Coordinate -> Prop :=
| da_nil p : drop_after p [] []
| da_drop p a t r : pt_eq p a -> drop_after a t r -> drop_after p (a :: t) r
| da_keep p a t r : ~ pt_eq p a -> drop_after a t r -> drop_after p (a :: t) (a :: r).
Inductive drop_repeats : list Coordinate -> list Coordinate -> Prop :=
| dr_nil : drop_repeats [] []
| dr_cons a t r : drop_after a t r -> drop_repeats (a :: t) (a :: r).

(** A point with finite X and Y. *)
Definition valid_pt (p : Coordinate) : Prop := fin_xy p.

(** Closed: first and last point at the same position. *)
Definition closed (l : list Coordinate) : Prop :=
  exists a b, hd_error l = Some a /\ hd_error (rev l) = Some b /\ pt_eq a b.

(** Rotation to start at position [i]. *)
Definition rotation (i : nat) (l : list Coordinate) : list Coordinate := skipn i l ++ firstn i l.

(** Reads the same in both directions. *)
Definition palindrome (l : list Coordinate) : Prop := same_pts l (rev l).

(** Operations of a coordinate list in the mode that forbids repeats. *)
Inductive list_op := LAppend (c : Coordinate) | LInsert (i : nat) (c : Coordinate)
                   | LAddAll (cs : list Coordinate) | LClose.
Definition apply_list_op (v : list Coordinate) (o : list_op) : res (list Coordinate) :=
  match o with
  | LAppend c => Ok (add_coordinate_repeated v c false)
  | LInsert i c => add_index_coordinate_repeated v i c false
  | LAddAll cs => Ok (add_coordinate_list_repeated v cs false)
  | LClose => Ok (list_close_ring v)
  end.
Fixpoint apply_list_ops (v : list Coordinate) (os : list list_op) : res (list Coordinate) :=
  match os with
  | [] => Ok v
  | o :: t => match apply_list_op v o with Ok v' => apply_list_ops v' t | Panic => Panic end
  end.
