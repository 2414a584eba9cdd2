(** Vocabulary for the DE-9IM properties: the nine cells in the order
    II IB IE BI BB BE EI EB EE, and patterns. *)
From Coq Require Import ZArith Bool List String Ascii.
From Verif Require Import Base IntersectionMatrix_model.
Import ListNotations.
Open Scope Z_scope.

Definition cells (m : IM) : list Z := [ii m; ib m; ie m; bi m; bb m; be m; ei m; eb m; ee m].

(** Dimensions F, 0, 1, 2 of an intersection; plus the T and * used in
    pattern matrices. *)
Definition proper (v : Z) : Prop := -1 <= v <= 2.
Definition valid_dim (v : Z) : Prop := -3 <= v <= 2.

(** DE-9IM: what a pattern symbol says about a cell. *)
Inductive sat : Z -> ascii -> Prop :=
| sat_any v : sat v "*"
| sat_T v : v >= 0 \/ v = -2 -> sat v "T"
| sat_F : sat (-1) "F"
| sat_0 : sat 0 "0"
| sat_1 : sat 1 "1"
| sat_2 : sat 2 "2".
(** The nine cells satisfy the nine symbols of a pattern. *)
Definition fits (m : IM) (p : string) : Prop := Forall2 sat (cells m) (list_ascii_of_string p).
Definition fits_one (m : IM) (ps : list string) : Prop := exists p, In p ps /\ fits m p.

(** Exchange of the two geometries. *)
Definition swapped (m : IM) : IM := mkIM (ii m) (bi m) (ei m) (ib m) (bb m) (eb m) (ie m) (be m) (ee m).

(** The nine symbols of dimension values, upper-case. *)
Definition sym_of (v s : Z) : Prop :=
  In (v, s) (combine [-1; -2; -3; 0; 1; 2] (str "FT*012")).
(** Symbols a user may write, with the value each stands for. *)
Definition reads (s v : Z) : Prop :=
  In (s, v) (combine (str "FfTt*012") [-1; -1; -2; -2; -3; 0; 1; 2]).

(** An update history of [set_at_least]. *)
Definition upd_t : Type := (nat * nat) * Z.
Fixpoint run_updates (m : IM) (us : list upd_t) : res IM :=
  match us with
  | [] => Ok m
  | ((r, c), v) :: t => m' <- set_at_least m r c v ;; run_updates m' t
  end.
