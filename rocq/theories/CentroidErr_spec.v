(** Specification of centroids over real points. *)
From Coq Require Import List Reals.
From Verif Require Import Base F64 F64Facts F64Err Coordinate_model MeasureErr_spec.
Import ListNotations.
Local Open Scope R_scope.

(** Both ordinates finite and at most [M] in size. *)
Definition pt_within (M : R) (c : Coordinate) : Prop :=
  fis_finite (cx c) = true /\ fis_finite (cy c) = true /\ Rabs (R_of (cx c)) <= M /\ Rabs (R_of (cy c)) <= M.
(** Sum over the steps of a path. *)
Fixpoint rsteps (f : R * R -> R * R -> R) (l : list (R * R)) : R :=
  match l with
  | a :: ((b :: _) as t) => f a b + rsteps f t
  | _ => 0
  end.
(** First moment of a path along the ordinate [o]: every step counts with its
    length, at its midpoint. *)
Definition path_moment (o : R * R -> R) (l : list (R * R)) : R := rsteps (fun a b => euclid a b * ((o a + o b) / 2)) l.
(** Green's formulas: twice the area inside a closed path (positive counterclockwise),
    and six times its first moment along [o]. *)
Definition rcross (p q : R * R) : R := fst p * snd q - fst q * snd p.
Definition rarea2 (l : list (R * R)) : R := rsteps rcross l.
Definition rmoment6 (o : R * R -> R) (l : list (R * R)) : R := rsteps (fun p q => rcross p q * (o p + o q)) l.
(** A region: a shell less its holes, whichever way each of them is drawn. *)
Definition rsum {A} (f : A -> R) (l : list A) : R := fold_right Rplus 0 (map f l).
Definition rsgn (x : R) : R := if Rlt_dec x 0 then -1 else 1.
Definition rsize2 (l : list (R * R)) : R := Rabs (rarea2 l).
Definition rweight6 (o : R * R -> R) (l : list (R * R)) : R := rsgn (rarea2 l) * rmoment6 o l.
Definition rregion (f : list (R * R) -> R) (s : list (R * R)) (hs : list (list (R * R))) : R := f s - rsum f hs.
(** Sum and mean of one ordinate over points. *)
Definition rtotal (o : R * R -> R) (l : list (R * R)) : R := rsum o l.
