(** Number types the numeric code can be read over.  Code made of arithmetic,
    comparisons, square roots and [hypot] is modelled once over a record of
    operations and instantiated twice: with the doubles ([NF]), which is the
    code as it runs, and with the real numbers ([NR]), which is the same code
    in exact arithmetic. *)
From Coq Require Import ZArith Bool Reals.
From Flocq Require Import Core.
From Verif Require Import F64.

Record num (T : Type) := mkNum {
  nofZ : Z -> T;
  nadd : T -> T -> T; nsub : T -> T -> T; nmul : T -> T -> T; ndiv : T -> T -> T;
  nneg : T -> T; nabs : T -> T; nsqrt : T -> T; nhyp : T -> T -> T;
  nmin : T -> T -> T; nmax : T -> T -> T;
  nlt : T -> T -> bool; nle : T -> T -> bool; neq : T -> T -> bool; nisnan : T -> bool }.
Arguments nofZ {T}. Arguments nadd {T}. Arguments nsub {T}. Arguments nmul {T}. Arguments ndiv {T}.
Arguments nneg {T}. Arguments nabs {T}. Arguments nsqrt {T}. Arguments nhyp {T}.
Arguments nmin {T}. Arguments nmax {T}. Arguments nlt {T}. Arguments nle {T}. Arguments neq {T}.
Arguments nisnan {T}.

(** The doubles; [hypot] stands for [f64::hypot]. *)
Definition NF (hypot : f64 -> f64 -> f64) : num f64 :=
  mkNum f64 fofZ fadd fsub fmul fdiv fneg fabs fsqrt hypot fmin fmax fltb fleb feqb fis_nan.
(** The reals. *)
Definition NR : num R :=
  mkNum R IZR Rplus Rminus Rmult Rdiv Ropp Rabs sqrt (fun x y => sqrt (x * x + y * y))
    Rmin Rmax Rlt_bool Rle_bool Req_bool (fun _ => false).

(** A point of the plane. *)
Record P2 (T : Type) := mkP { px : T; py : T }.
Arguments mkP {T}. Arguments px {T}. Arguments py {T}.
