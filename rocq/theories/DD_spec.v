(** Specifications for double-double numbers. *)
From Coq Require Import ZArith Reals.
From Verif Require Import F64 F64Facts DD_model.

(** The real number represented. *)
Definition dval (x : DD) : R := (R_of (hi x) + R_of (lo x))%R.
Definition dfin (x : DD) : Prop := fis_finite (hi x) = true /\ fis_finite (lo x) = true.
(** Normalised: the high part is the nearest double to the value. *)
Definition normed (x : DD) : Prop := dfin x /\ R_of (hi x) = RN (dval x).
(** Sign of a real number. *)
Definition is_sign (z : Z) (r : R) : Prop :=
  (z = 1%Z /\ (0 < r)%R) \/ (z = 0%Z /\ r = 0%R) \/ (z = (-1)%Z /\ (r < 0)%R).
