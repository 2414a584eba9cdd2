(** Model of /repo/src/core/math/dd.rs: double-double arithmetic.
    Not modelled: the string conversions [dump], [to_string] and relatives
    (dd.rs 1116-1342 and 1359-1462; most of them are commented out in the
    source).  A method taking [&mut self] is a function returning the new
    value. *)
From Coq Require Import ZArith Bool List.
From Verif Require Import Base F64.
Open Scope Z_scope.

(** dd.rs 80-90: [DD]. *)
Record DD := mkDD { hi : f64; lo : f64 }.
(** dd.rs 101: [SPLIT] = 2^27 + 1. *)
Definition SPLIT : f64 := fofZ 134217729.
(** dd.rs 117-128: [default], [new_x]; 233: [value_of_f64]. *)
Definition dd_default : DD := mkDD f0 f0.
Definition dd_of (x : f64) : DD := mkDD x f0.
(** dd.rs 205-214: [new_nan], [create_nan]. *)
Definition dd_nan : DD := mkDD fnan fnan.
(** dd.rs 1042-1044: [is_nan] looks at [hi] only. *)
Definition dd_is_nan (x : DD) : bool := fis_nan (hi x).

(** dd.rs 337-354: [self_add_f64]; 309-313: [add_f64] on a copy. *)
Definition dd_add_f64 (x : DD) (y : f64) : DD :=
  let ss := fadd (hi x) y in
  let e := fsub ss (hi x) in
  let s := fsub ss e in
  let s := fadd (fsub y e) (fsub (hi x) s) in
  let f := fadd s (lo x) in
  let hh := fadd ss f in
  let h := fadd f (fsub ss hh) in
  let zhi := fadd hh h in
  mkDD zhi (fadd h (fsub hh zhi)).
(** dd.rs 356-383: [self_add_hi_lo]. *)
Definition dd_add_hi_lo (x : DD) (yhi ylo : f64) : DD :=
  let ss := fadd (hi x) yhi in
  let tt := fadd (lo x) ylo in
  let e := fsub ss (hi x) in
  let f := fsub tt (lo x) in
  let s := fsub ss e in
  let t := fsub tt f in
  let s := fadd (fsub yhi e) (fsub (hi x) s) in
  let t := fadd (fsub ylo f) (fsub (lo x) t) in
  let e := fadd s tt in
  let hh := fadd ss e in
  let h := fadd e (fsub ss hh) in
  let e := fadd t h in
  let zhi := fadd hh e in
  mkDD zhi (fadd e (fsub hh zhi)).
(** dd.rs 297-301, 324-326: [add_dd], [self_add_dd]. *)
Definition dd_add (x y : DD) : DD := dd_add_hi_lo x (hi y) (lo y).
(** dd.rs 442-447: [negate]. *)
Definition dd_neg (x : DD) : DD := if dd_is_nan x then x else mkDD (fneg (hi x)) (fneg (lo x)).
(** dd.rs 391-393: [subtract_dd]. *)
Definition dd_sub (x y : DD) : DD := dd_add x (dd_neg y).
(** dd.rs 401-403: [subtract_f64]. *)
Definition dd_sub_f64 (x : DD) (y : f64) : DD := dd_add_f64 x (fneg y).
(** dd.rs 414-419: [self_subtract_dd]. *)
Definition dd_self_sub (x y : DD) : DD :=
  if dd_is_nan x then x else dd_add_hi_lo x (fneg (hi y)) (fneg (lo y)).
(** dd.rs 430-435: [self_subtract_f64]. *)
Definition dd_self_sub_f64 (x : DD) (y : f64) : DD :=
  if dd_is_nan x then x else dd_add_hi_lo x (fneg y) f0.
(** dd.rs 505-528: [self_multiply_hi_lo]. *)
Definition dd_mul_hi_lo (x : DD) (yhi ylo : f64) : DD :=
  let cc := fmul SPLIT (hi x) in
  let hx := fsub cc (hi x) in
  let c := fmul SPLIT yhi in
  let hx := fsub cc hx in
  let tx := fsub (hi x) hx in
  let hy := fsub c yhi in
  let cc := fmul (hi x) yhi in
  let hy := fsub c hy in
  let ty := fsub yhi hy in
  let c := fadd (fadd (fadd (fadd (fsub (fmul hx hy) cc) (fmul hx ty)) (fmul tx hy)) (fmul tx ty))
                (fadd (fmul (hi x) ylo) (fmul (lo x) yhi)) in
  let zhi := fadd cc c in
  let hx := fsub cc zhi in
  mkDD zhi (fadd c hx).
(** dd.rs 488-503: [self_multiply_dd], [self_multiply_f64]. *)
Definition dd_self_mul (x y : DD) : DD := dd_mul_hi_lo x (hi y) (lo y).
Definition dd_self_mul_f64 (x : DD) (y : f64) : DD := dd_mul_hi_lo x y f0.
(** dd.rs 455-477: [multiply_dd], [multiply_f64]. *)
Definition dd_mul (x y : DD) : DD := if dd_is_nan y then dd_nan else dd_self_mul x y.
Definition dd_mul_f64 (x : DD) (y : f64) : DD := if fis_nan y then dd_nan else dd_mul_hi_lo x y f0.
(** dd.rs 606-632: [self_divide_hi_lo]. *)
Definition dd_div_hi_lo (x : DD) (yhi ylo : f64) : DD :=
  let cc := fdiv (hi x) yhi in
  let c := fmul SPLIT cc in
  let hc := fsub c cc in
  let u := fmul SPLIT yhi in
  let hc := fsub c hc in
  let tc := fsub cc hc in
  let hy := fsub u yhi in
  let uu := fmul cc yhi in
  let hy := fsub u hy in
  let ty := fsub yhi hy in
  let u := fadd (fadd (fadd (fsub (fmul hc hy) uu) (fmul hc ty)) (fmul tc hy)) (fmul tc ty) in
  let c := fdiv (fsub (fadd (fsub (fsub (hi x) uu) u) (lo x)) (fmul cc ylo)) yhi in
  let u := fadd cc c in
  mkDD u (fadd (fsub cc u) c).
(** dd.rs 536-563: [divide_dd]; repeats the computation. *)
Definition dd_div (x y : DD) : DD :=
  let cc := fdiv (hi x) (hi y) in
  let c := fmul SPLIT cc in
  let hc := fsub c cc in
  let u := fmul SPLIT (hi y) in
  let hc := fsub c hc in
  let tc := fsub cc hc in
  let hy := fsub u (hi y) in
  let uu := fmul cc (hi y) in
  let hy := fsub u hy in
  let ty := fsub (hi y) hy in
  let u := fadd (fadd (fadd (fsub (fmul hc hy) uu) (fmul hc ty)) (fmul tc hy)) (fmul tc ty) in
  let c := fdiv (fsub (fadd (fsub (fsub (hi x) uu) u) (lo x)) (fmul cc (lo y))) (hi y) in
  let u := fadd cc c in
  mkDD u (fadd (fsub cc u) c).
(** dd.rs 571-578: [divide_f64]. *)
Definition dd_div_f64 (x : DD) (y : f64) : DD := if fis_nan y then dd_nan else dd_div_hi_lo x y f0.
(** dd.rs 639-665: [reciprocal]. *)
Definition dd_recip (x : DD) : DD :=
  let cc := fdiv f1 (hi x) in
  let c := fmul SPLIT cc in
  let hc := fsub c cc in
  let u := fmul SPLIT (hi x) in
  let hc := fsub c hc in
  let tc := fsub cc hc in
  let hy := fsub u (hi x) in
  let uu := fmul cc (hi x) in
  let hy := fsub u hy in
  let ty := fsub (hi x) hy in
  let u := fadd (fadd (fadd (fsub (fmul hc hy) uu) (fmul hc ty)) (fmul tc hy)) (fmul tc ty) in
  let c := fdiv (fsub (fsub (fsub f1 uu) u) (fmul cc (lo x))) (hi x) in
  let zhi := fadd cc c in
  mkDD zhi (fadd (fsub cc zhi) c).
(** dd.rs 680-717: [floor], [ceil]. *)
Definition dd_floor (x : DD) : DD :=
  if dd_is_nan x then dd_nan
  else
    let fhi := ffloor (hi x) in
    mkDD fhi (if feqb fhi (hi x) then ffloor (lo x) else f0).
Definition dd_ceil (x : DD) : DD :=
  if dd_is_nan x then dd_nan
  else
    let fhi := fceil (hi x) in
    mkDD fhi (if feqb fhi (hi x) then fceil (lo x) else f0).
(** dd.rs 730-744: [signum]. *)
Definition dd_signum (x : DD) : Z :=
  if fgtb (hi x) f0 then 1
  else if fltb (hi x) f0 then -1
  else if fgtb (lo x) f0 then 1
  else if fltb (lo x) f0 then -1
  else 0.
(** dd.rs 1015-1035: [is_zero], [is_negative], [is_positive]. *)
Definition dd_is_zero (x : DD) : bool := feqb (hi x) f0 && feqb (lo x) f0.
Definition dd_is_negative (x : DD) : bool := fltb (hi x) f0 || (feqb (hi x) f0 && fltb (lo x) f0).
Definition dd_is_positive (x : DD) : bool := fgtb (hi x) f0 || (feqb (hi x) f0 && fgtb (lo x) f0).
(** dd.rs 756-763: [rint]; the new value of [self] and the result. *)
Definition dd_rint (x : DD) : DD * DD :=
  if dd_is_nan x then (x, x)
  else let s := dd_add_f64 x fhalf in (s, dd_floor s).
(** dd.rs 775-784: [trunc]. *)
Definition dd_trunc (x : DD) : DD :=
  if dd_is_nan x then dd_nan else if dd_is_positive x then dd_floor x else dd_ceil x.
(** dd.rs 795-803: [abs]. *)
Definition dd_abs (x : DD) : DD :=
  if dd_is_nan x then dd_nan else if dd_is_negative x then dd_neg x else x.
(** dd.rs 810-836: [sqr], [self_sqr], [sqr_f64]. *)
Definition dd_sqr (x : DD) : DD := dd_mul x x.
Definition dd_self_sqr (x : DD) : DD := dd_self_mul x x.
Definition dd_sqr_f64 (x : f64) : DD := dd_self_mul_f64 (dd_of x) x.
(** dd.rs 845-876: [sqrt_dd], [sqrt_f64]. *)
Definition dd_sqrt (v : DD) : DD :=
  if dd_is_zero v then dd_of f0
  else if dd_is_negative v then dd_nan
  else
    let x := fdiv f1 (fsqrt (hi v)) in
    let ax := fmul (hi v) x in
    let axdd := dd_of ax in
    let diff_sq := dd_sub v (dd_sqr axdd) in
    let d2 := fmul (hi diff_sq) (fmul x fhalf) in
    dd_add_f64 axdd d2.
(** dd.rs 885-914: [pow].  [n] has at most 31 bits, so 32 rounds of the
    loop suffice (theorem [dd_pow_fuel]); the last branch is not reached. *)
Fixpoint dd_pow_loop (fuel : nat) (n : Z) (r s : DD) : option DD :=
  match fuel with
  | O => None
  | S fuel =>
    if n >? 0 then
      let s := if Z.rem n 2 =? 1 then dd_self_mul s r else s in
      let n := Z.quot n 2 in
      let r := if n >? 0 then dd_sqr r else r in
      dd_pow_loop fuel n r s
    else Some s
  end.
(** [i32::abs] overflows on [i32::MIN] (checked build: panic). *)
Definition dd_pow (x : DD) (exp : Z) : res (option DD) :=
  if exp =? 0 then Ok (Some (dd_of f1))
  else
    n <- i32_chk (Z.abs exp) ;;
    let s := if n >? 1 then dd_pow_loop 33 n x (dd_of f1) else Some x in
    Ok (match s with
        | None => None
        | Some s => Some (if exp <? 0 then dd_recip s else s)
        end).
(** dd.rs 925-947: [determinant_xy_f64], [determinant_xy_dd]. *)
Definition dd_det (x1 y1 x2 y2 : DD) : DD := dd_self_sub (dd_mul x1 y2) (dd_mul y1 x2).
Definition dd_det_f64 (x1 y1 x2 y2 : f64) : DD := dd_det (dd_of x1) (dd_of y1) (dd_of x2) (dd_of y2).
(** dd.rs 1052-1087: [equals], [gt], [ge], [lt], [le]. *)
Definition dd_equals (x y : DD) : bool := feqb (hi x) (hi y) && feqb (lo x) (lo y).
Definition dd_gt (x y : DD) : bool := fgtb (hi x) (hi y) || (feqb (hi x) (hi y) && fgtb (lo x) (lo y)).
Definition dd_ge (x y : DD) : bool := fgtb (hi x) (hi y) || (feqb (hi x) (hi y) && fgeb (lo x) (lo y)).
Definition dd_lt (x y : DD) : bool := fltb (hi x) (hi y) || (feqb (hi x) (hi y) && fltb (lo x) (lo y)).
Definition dd_le (x y : DD) : bool := fltb (hi x) (hi y) || (feqb (hi x) (hi y) && fleb (lo x) (lo y)).
(** dd.rs 960-980: [min], [max]. *)
Definition dd_min (x y : DD) : DD := if dd_le x y then x else y.
Definition dd_max (x y : DD) : DD := if dd_ge x y then x else y.
(** dd.rs 992-1003: [double_value], [int_value]. *)
Definition dd_double (x : DD) : f64 := fadd (hi x) (lo x).
Definition dd_int (x : DD) : Z := f_as_i32 (hi x).
(** dd.rs 1095-1109: [compare_to]. *)
Definition dd_compare (x y : DD) : Z :=
  if fltb (hi x) (hi y) then -1
  else if fgtb (hi x) (hi y) then 1
  else if fltb (lo x) (lo y) then -1
  else if fgtb (lo x) (lo y) then 1
  else 0.
(** dd.rs 1343-1358: [magnitude]; [ln] is libm's.  [x_mag as u32] wraps and
    [i32::pow] overflows (checked build: panic); [n * 10] is checked too. *)
Definition pow10_i32 (k : Z) : res Z :=
  if k <? 0 then Panic else if k >? 9 then Panic else Ok (10 ^ k).
Definition dd_magnitude (ln : f64 -> f64) (x : f64) : res Z :=
  let x_abs := fabs x in
  let x_log10 := fdiv (ln x_abs) (ln (fofZ 10)) in
  let x_mag := f_as_i32 (ffloor x_log10) in
  x_approx <- pow10_i32 x_mag ;;
  t <- i32_chk (x_approx * 10) ;;
  if t <=? f_as_i32 x_abs then i32_chk (x_mag + 1) else Ok x_mag.
