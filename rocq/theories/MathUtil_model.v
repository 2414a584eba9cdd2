(** Model of src/core/util/math_util.rs. *)
From Coq Require Import ZArith Bool List.
From Verif Require Import Base F64.
Import ListNotations.
Open Scope Z_scope.

(** math_util.rs 13-21: [clamp_f64]. *)
Definition clamp_f64 (x mn mx : f64) : f64 :=
  if fltb x mn then mn else if fgtb x mx then mx else x.
(** math_util.rs 30-38: [clamp_i32]. *)
Definition clamp_i32 (x mn mx : Z) : Z :=
  if Z.ltb x mn then mn else if Z.gtb x mx then mx else x.
(** math_util.rs 47-52: [clamp_max]. *)
Definition clamp_max (x mx : Z) : Z := if Z.gtb x mx then mx else x.
(** [i32] division and remainder: truncated, panic on zero divisor and on
    [i32::MIN / -1]. *)
Definition i32_div (a b : Z) : res Z :=
  if Z.eqb b 0 then Panic else i32_chk (Z.quot a b).
Definition i32_rem (a b : Z) : res Z :=
  if Z.eqb b 0 then Panic
  else if Z.eqb a i32_min && Z.eqb b (-1) then Panic
  else Ok (Z.rem a b).
(** math_util.rs 61-68: [ceil]. *)
Definition mu_ceil (num denom : Z) : res Z :=
  div <- i32_div num denom ;;
  p <- i32_chk (div * denom) ;;
  if Z.geb p num then Ok div else i32_chk (div + 1).
(** math_util.rs 79-84: [wrap]. *)
Definition mu_wrap (index mx : Z) : res Z :=
  if Z.ltb index 0 then
    n <- i32_chk (index * -1) ;;
    r <- i32_rem n mx ;;
    i32_chk (mx - r)
  else i32_rem index mx.
(** math_util.rs 93-95: [average]. *)
Definition average (x1 x2 : f64) : f64 := fdiv (fadd x1 x2) f2.
(** math_util.rs 97-134: [max_3], [max_4], [min]. *)
Definition max_3 (v1 v2 v3 : f64) : f64 :=
  let m := v1 in
  let m := if fgtb v2 m then v2 else m in
  if fgtb v3 m then v3 else m.
Definition max_4 (v1 v2 v3 v4 : f64) : f64 :=
  let m := v1 in
  let m := if fgtb v2 m then v2 else m in
  let m := if fgtb v3 m then v3 else m in
  if fgtb v4 m then v4 else m.
Definition min_4 (v1 v2 v3 v4 : f64) : f64 :=
  let m := v1 in
  let m := if fltb v2 m then v2 else m in
  let m := if fltb v3 m then v3 else m in
  if fltb v4 m then v4 else m.
(** math_util.rs 173-179: [quasirandom_curr_alpha]. *)
Definition quasirandom_curr_alpha (curr alpha : f64) : f64 :=
  let next := fadd curr alpha in
  if fltb next f1 then next else fsub next (ffloor next).
(** math_util.rs 150-153: [quasirandom_curr]. *)
Definition phi_inv : f64 := fdiv (fsub (fsqrt (fofZ 5)) f1) f2.
Definition quasirandom_curr (curr : f64) : f64 := quasirandom_curr_alpha curr phi_inv.
(** math_util.rs 189-205: [shuffle]; [rng i] is the random index in [0..=i]
    drawn when the loop variable is [i].  The [while] loop counts down from
    [n-1] to 1. *)
Fixpoint shuffle_loop (rng : nat -> nat) (i : nat) (ints : list Z) : res (list Z) :=
  match i with
  | O => Ok ints
  | S i' =>
      let j := rng i in
      last <- idx ints i ;; b <- idx ints j ;;
      ints <- upd ints i b ;; ints <- upd ints j last ;;
      shuffle_loop rng i' ints
  end.
Definition shuffle (rng : nat -> nat) (n : nat) : res (list Z) :=
  ints <- forN n 0 [] (fun i ints => upd ints i (i32_wrap (Z.of_nat i))) ;;
  i <- usub n 1 ;;
  shuffle_loop rng i ints.
