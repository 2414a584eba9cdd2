(** The Rust type [f64]: IEEE 754 binary64 with rounding to nearest, ties to
    even.  The datum is Flocq's [binary_float 53 1024], which has signed
    zeros, infinities, subnormals and one NaN (NaN payloads and NaN signs are
    not modelled; no modelled code inspects them). *)
From Coq Require Import ZArith Bool Reals.
From Flocq Require Import Core IEEE754.BinarySingleNaN.

#[global] Instance prec53 : Prec_gt_0 53 := eq_refl.
#[global] Instance emax1024 : Prec_lt_emax 53 1024 := eq_refl.

Definition f64 : Type := binary_float 53 1024.

(** Arithmetic operators [+ - * /], unary minus, [f64::abs], [f64::sqrt]. *)
Definition fadd (x y : f64) : f64 := Bplus mode_NE x y.
Definition fsub (x y : f64) : f64 := Bminus mode_NE x y.
Definition fmul (x y : f64) : f64 := Bmult mode_NE x y.
Definition fdiv (x y : f64) : f64 := Bdiv mode_NE x y.
Definition fneg (x : f64) : f64 := Bopp x.
Definition fabs (x : f64) : f64 := Babs x.
Definition fsqrt (x : f64) : f64 := Bsqrt mode_NE x.

(** [f64::floor], [ceil], [trunc], and [round] (half away from zero). *)
Definition ffloor (x : f64) : f64 := Bnearbyint mode_DN x.
Definition fceil (x : f64) : f64 := Bnearbyint mode_UP x.
Definition ftrunc (x : f64) : f64 := Bnearbyint mode_ZR x.
Definition fround (x : f64) : f64 := Bnearbyint mode_NA x.

(** Comparison operators [< <= > >= == !=]; all but [!=] are false on NaN. *)
Definition fltb (x y : f64) : bool := Bltb x y.
Definition fleb (x y : f64) : bool := Bleb x y.
Definition fgtb (x y : f64) : bool := Bltb y x.
Definition fgeb (x y : f64) : bool := Bleb y x.
Definition feqb (x y : f64) : bool := Beqb x y.
Definition fneb (x y : f64) : bool := negb (Beqb x y).

Definition fnan : f64 := B754_nan.
Definition finf : f64 := B754_infinity false.
Definition fneginf : f64 := B754_infinity true.
Definition fis_nan (x : f64) : bool := is_nan x.
Definition fis_finite (x : f64) : bool := is_finite x.
Definition fis_infinite (x : f64) : bool :=
  match x with B754_infinity _ => true | _ => false end.
(** The sign bit, as read by [f64::is_sign_negative] off NaN. *)
Definition fsign (x : f64) : bool := Bsign x.

(** [f64::max] and [f64::min]: the other operand if one is NaN.  Rust leaves
    the choice between the two zeros open; here the first operand is taken. *)
Definition fmax (x y : f64) : f64 :=
  if fis_nan x then y else if fis_nan y then x else if fltb x y then y else x.
Definition fmin (x y : f64) : f64 :=
  if fis_nan x then y else if fis_nan y then x else if fltb y x then y else x.

(** The double nearest to [m * 2^e]; literals are written this way. *)
Definition mkf (m e : Z) : f64 := binary_normalize 53 1024 _ _ mode_NE m e false.
(** The double nearest to an integer: integer literals and [i32 as f64]. *)
Definition fofZ (n : Z) : f64 := mkf n 0.

Definition f0 : f64 := B754_zero false.
Definition fneg0 : f64 := B754_zero true.
Definition f1 : f64 := fofZ 1.
Definition f2 : f64 := fofZ 2.
Definition fhalf : f64 := mkf 1 (-1).

(** [x as i32] on [f64]: truncation, saturating, 0 on NaN. *)
Definition f_as_i32 (x : f64) : Z :=
  match x with
  | B754_nan => 0
  | B754_infinity s => if s then (-2147483648) else 2147483647
  | _ => Z.max (-2147483648) (Z.min 2147483647 (Btrunc x))
  end%Z.

(** The real number denoted by a finite double (0 for the others). *)
Definition R_of (x : f64) : R := B2R x.

(** A faithful integer image of the non-NaN doubles: the value times
    [2^1074], with infinities beyond all finite values.  It turns comparisons
    into comparisons of integers. *)
Definition rank (x : f64) : Z :=
  match x with
  | B754_zero _ => 0
  | B754_nan => 0
  | B754_infinity s => if s then (- 2 ^ 2098) else 2 ^ 2098
  | B754_finite s m e _ => cond_Zopp s (Zpos m) * 2 ^ (e + 1074)
  end%Z.

Definition nn (x : f64) : Prop := fis_nan x = false.

Arguments fadd : simpl never.
Arguments fsub : simpl never.
Arguments fmul : simpl never.
Arguments fdiv : simpl never.
Arguments fneg : simpl never.
Arguments fabs : simpl never.
Arguments fsqrt : simpl never.
Arguments ffloor : simpl never.
Arguments fceil : simpl never.
Arguments ftrunc : simpl never.
Arguments fround : simpl never.
Arguments fltb : simpl never.
Arguments fleb : simpl never.
Arguments fgtb : simpl never.
Arguments fgeb : simpl never.
Arguments feqb : simpl never.
Arguments fneb : simpl never.
Arguments fis_nan : simpl never.
Arguments fis_finite : simpl never.
Arguments fis_infinite : simpl never.
Arguments rank : simpl never.
Arguments mkf : simpl never.
Arguments fofZ : simpl never.
Arguments R_of : simpl never.
Arguments fmax : simpl never.
Arguments fmin : simpl never.
