(** Model of the constants of src/core/math/dd.rs. *)
From Coq Require Import ZArith.
From Flocq Require Import Core IEEE754.BinarySingleNaN.
From Verif Require Import Base F64 DD_model.
Open Scope Z_scope.

(** A decimal literal [n / d]: the nearest double, as the Rust compiler reads
    it.  200 more binary digits than units and a last digit that records the
    rest go through one rounding. *)
Definition flit (n d : Z) : f64 :=
  let k := n * 2 ^ 200 in
  mkf (2 * (k / d) + (if k mod d =? 0 then 0 else 1)) (-201).

(** dd.rs 165-170: [new_pi]. *)
Definition dd_pi : DD := mkDD (flit 3141592653589793116 (10 ^ 18)) (flit 1224646799147353207 (10 ^ 34)).
(** dd.rs 175-180: [new_two_pi]. *)
Definition dd_two_pi : DD := mkDD (flit 6283185307179586232 (10 ^ 18)) (flit 2449293598294706414 (10 ^ 34)).
(** dd.rs 185-190: [new_pi_2]. *)
Definition dd_pi_2 : DD := mkDD (flit 1570796326794896558 (10 ^ 18)) (flit 6123233995736766036 (10 ^ 35)).
(** dd.rs 195-200: [new_e]. *)
Definition dd_e : DD := mkDD (flit 2718281828459045091 (10 ^ 18)) (flit 1445646891729250158 (10 ^ 34)).
(** dd.rs 96: [EPS]. *)
Definition dd_eps : f64 := flit 123259516440783 (10 ^ 46).
