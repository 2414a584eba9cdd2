(** Specification of centroids: the classical formulas over integer chains. *)
From Coq Require Import ZArith List Reals.
From Verif Require Import Base F64 F64Facts F64Err.
Import ListNotations.
Open Scope Z_scope.

(** Twice the signed area of the triangle (0, p, q). *)
Definition cross (p q : Z * Z) : Z := fst p * snd q - fst q * snd p.
(** Sum over the steps of a chain. *)
Fixpoint steps (f : Z * Z -> Z * Z -> Z) (l : list (Z * Z)) : Z :=
  match l with
  | a :: ((b :: _) as t) => f a b + steps f t
  | _ => 0
  end.
(** Green's formulas: twice the area enclosed by a closed chain (positive
    counterclockwise), and six times its first moments. *)
Definition area2 (l : list (Z * Z)) : Z := steps cross l.
Definition moment6x (l : list (Z * Z)) : Z := steps (fun p q => cross p q * (fst p + fst q)) l.
Definition moment6y (l : list (Z * Z)) : Z := steps (fun p q => cross p q * (snd p + snd q)) l.
(** The same made independent of the direction of the chain. *)
Definition size2 (l : list (Z * Z)) : Z := Z.abs (area2 l).
Definition weight6x (l : list (Z * Z)) : Z := Z.sgn (area2 l) * moment6x l.
Definition weight6y (l : list (Z * Z)) : Z := Z.sgn (area2 l) * moment6y l.
Definition total {A} (f : A -> Z) (l : list A) : Z := fold_right Z.add 0 (map f l).
(** A polygon: shell and holes. *)
Definition region (f : list (Z * Z) -> Z) (p : list (Z * Z) * list (list (Z * Z))) : Z := f (fst p) - total f (snd p).
(** Lengths of horizontal and vertical steps, and twice their first moments. *)
Definition step_len (p q : Z * Z) : Z := Z.abs (fst q - fst p) + Z.abs (snd q - snd p).
Definition line_len (l : list (Z * Z)) : Z := steps step_len l.
Definition line2x (l : list (Z * Z)) : Z := steps (fun p q => step_len p q * (fst p + fst q)) l.
Definition line2y (l : list (Z * Z)) : Z := steps (fun p q => step_len p q * (snd p + snd q)) l.
(** Within two roundings. *)
Definition near2 (x : f64) (r : R) : Prop :=
  fis_finite x = true /\ (Rabs (R_of x - r) <= (2 * u53 + u53 * u53) * Rabs r)%R.
(** Correctly rounded. *)
Definition rounded (x : f64) (r : R) : Prop := fis_finite x = true /\ R_of x = RN r.
