(** The error of line intersections computed in double-double arithmetic, for
    coordinates that are not on a grid.  Proof support only. *)
From Coq Require Import ZArith Bool Reals Lia Lra Psatz.
From Flocq Require Import Core IEEE754.BinarySingleNaN.
From Verif Require Import Base F64 F64Facts F64Round F64Err Num NumLink Coordinate_model DD_model DD_spec DD_proofs DD_more DDSum_proofs DDArith_proofs
  Orientation_model Distance_spec Distance_props Intersection_spec Intersection_proofs IntersectErr_spec.
Local Open Scope R_scope.

(** ** Errors in the real numbers *)
Lemma diff_err h A E m n a b z : 0 <= h -> Rabs (m - a) <= E -> Rabs (n - b) <= E -> Rabs a <= A -> Rabs b <= A -> E <= A / 17 ->
  Rabs (z - (m - n)) <= 17 * h * (Rabs m + Rabs n) -> Rabs (z - (a - b)) <= 2 * E + 36 * h * A.
Proof.
  intros H M N PA PB EA Z.
  assert (Rabs m <= A + E) as Lm by (replace m with (a + (m - a)) by ring; eapply Rle_trans; [apply Rabs_triang|]; lra).
  assert (Rabs n <= A + E) as Ln by (replace n with (b + (n - b)) by ring; eapply Rle_trans; [apply Rabs_triang|]; lra).
  assert (17 * h * (Rabs m + Rabs n) <= 17 * h * (2 * (A + A / 17))) as Q by (apply Rmult_le_compat_l; lra).
  replace (17 * h * (2 * (A + A / 17))) with (36 * h * A) in Q by field.
  apply Rabs_le. assert (Rabs (z - (m - n)) <= 36 * h * A) as Z' by lra. apply Rabs_le_inv in M, N, Z'. lra.
Qed.
Lemma prod_err h C D Q y q v m : 0 <= h -> 0 <= D -> Rabs y <= C -> Rabs (q - v) <= D -> Rabs v <= Q ->
  Rabs (m - y * q) <= 10 * h * Rabs (y * q) -> Rabs (m - y * v) <= C * D + 10 * h * (C * (Q + D)).
Proof.
  intros H D0 Y E V M. pose proof (Rabs_pos y) as Y0. pose proof (Rabs_pos (q - v)) as Q0.
  assert (Rabs q <= Q + D) as Lq by (replace q with (v + (q - v)) by ring; eapply Rle_trans; [apply Rabs_triang|]; lra).
  assert (Rabs (y * q) <= C * (Q + D)) as L.
  { rewrite Rabs_mult. apply Rmult_le_compat; auto using Rabs_pos. }
  assert (Rabs (y * (q - v)) <= C * D) as L2.
  { rewrite Rabs_mult. apply Rmult_le_compat; auto using Rabs_pos. }
  replace (m - y * v) with ((m - y * q) + y * (q - v)) by ring. eapply Rle_trans; [apply Rabs_triang|].
  assert (10 * h * Rabs (y * q) <= 10 * h * (C * (Q + D))) by (apply Rmult_le_compat_l; lra). lra.
Qed.
Lemma quot_err h B W m w x v : 0 < h <= / 1024 -> 0 <= B -> 512 * h * (B * B) < Rabs W -> Rabs W <= 8 * (B * B) ->
  Rabs (w - W) <= 224 * h * (B * B) -> Rabs (x - m * W) <= 452 * h * (B * B * B) -> Rabs (v * w - x) <= 21 * h * Rabs x ->
  Rabs (v - m) <= 1024 * h * (B * B * (B + Rabs m) / Rabs W).
Proof.
  intros (H0 & H1) B0 LW UW EW EX EV. set (w0 := Rabs W) in *. set (b2 := B * B) in *.
  assert (0 <= b2) as P2 by (unfold b2; nra). assert (0 <= b2 * B) as P3 by (apply Rmult_le_pos; lra).
  assert (0 <= h * b2) as Ph2 by (apply Rmult_le_pos; lra).
  assert (0 < w0) as W0 by lra.
  assert (w0 / 2 <= Rabs w) as LW2.
  { assert (w0 <= Rabs w + Rabs (w - W)); [|lra]. unfold w0. replace W with (w - (w - W)) at 1 by ring.
    eapply Rle_trans; [apply Rabs_triang|]. rewrite Rabs_Ropp. lra. }
  set (u := Rabs m) in *. assert (0 <= u) as U0 by apply Rabs_pos.
  assert (Rabs x <= 8 * (b2 * u) + 452 * h * (b2 * B)) as LX.
  { replace x with (m * W + (x - m * W)) by ring. eapply Rle_trans; [apply Rabs_triang|]. rewrite Rabs_mult. fold u w0.
    assert (u * w0 <= u * (8 * b2)) by (apply Rmult_le_compat_l; lra). lra. }
  assert (0 <= b2 * u) as Pu by (apply Rmult_le_pos; lra).
  assert (Rabs ((v - m) * w) <= 21 * h * Rabs x + 452 * h * (b2 * B) + u * (224 * h * b2)) as D.
  { replace ((v - m) * w) with ((v * w - x) + (x - m * W) + m * (W - w)) by ring.
    eapply Rle_trans; [apply Rabs_triang|]. eapply Rle_trans; [apply Rplus_le_compat_r, Rabs_triang|].
    rewrite (Rabs_mult m). fold u. rewrite (Rabs_minus_sym W w).
    assert (u * Rabs (w - W) <= u * (224 * h * b2)) by (apply Rmult_le_compat_l; lra). lra. }
  assert (21 * h * Rabs x <= 168 * h * (b2 * u) + 10 * h * (b2 * B)) as D2.
  { apply Rle_trans with (21 * h * (8 * (b2 * u) + 452 * h * (b2 * B))); [apply Rmult_le_compat_l; lra|].
    replace (21 * h * (8 * (b2 * u) + 452 * h * (b2 * B))) with (168 * h * (b2 * u) + 21 * 452 * h * (h * (b2 * B))) by ring.
    assert (h * (b2 * B) <= / 1024 * (b2 * B)) as Q by (apply Rmult_le_compat_r; lra).
    assert (21 * 452 * h * (h * (b2 * B)) <= 21 * 452 * h * (/ 1024 * (b2 * B))) by (apply Rmult_le_compat_l; lra).
    assert (0 <= h * (b2 * B)) by (apply Rmult_le_pos; lra). lra. }
  assert (Rabs (v - m) * (w0 / 2) <= 512 * h * (b2 * (B + u))) as D3.
  { apply Rle_trans with (Rabs (v - m) * Rabs w); [apply Rmult_le_compat_l; [apply Rabs_pos|exact LW2]|].
    rewrite <- Rabs_mult. eapply Rle_trans; [exact D|].
    assert (0 <= h * (b2 * B)) by (apply Rmult_le_pos; lra). assert (0 <= h * (b2 * u)) by (apply Rmult_le_pos; lra). lra. }
  apply Rmult_le_reg_r with (w0 / 2); [lra|]. eapply Rle_trans; [exact D3|]. right. field. lra.
Qed.

(** ** The computation *)
Lemma dm_of x : plain x -> dm 80 (-99) (dd_of x).
Proof.
  intros (F & B & Z). split; [now apply normed_of|]. split; [split; assumption|]. rewrite dval_of.
  destruct Z as [->|L]; [apply mult_0|]. change (-99)%Z with (-47 - 52)%Z. apply fmt_mult; [lia|apply format_R|exact L].
Qed.
(** The difference of two doubles is exact. *)
Lemma dd_sub_f64_exact k x y : (-1000 <= k <= 1000)%Z -> bf k x -> bf k y ->
  let z := dd_self_sub_f64 (dd_of x) y in normed z /\ dval z = R_of x - R_of y /\ bf (k + 8) (hi z).
Proof.
  intros K Bx By. cbv zeta. unfold dd_self_sub_f64, dd_is_nan. cbn [hi dd_of]. rewrite (bf_nn _ _ Bx).
  assert (bf k f0) as B0 by apply bf_f0. pose proof u53_pos as U.
  assert (Rabs (R_of f0) <= u53 * Rabs (R_of x)) as N1 by (rewrite R_f0, Rabs_R0; apply Rmult_le_pos; [lra|apply Rabs_pos]).
  assert (Rabs (R_of f0) <= u53 * Rabs (R_of (fneg y))) as N2 by (rewrite R_f0, Rabs_R0; apply Rmult_le_pos; [lra|apply Rabs_pos]).
  pose proof (dd_add_normed_le k (dd_of x) (fneg y) f0 K Bx (bf_neg _ _ By) B0 B0 N1 N2) as N.
  destruct (dd_add_spec k (dd_of x) (fneg y) f0 K Bx (bf_neg _ _ By) B0 B0 N1 N2) as (B & _).
  split; [exact N|]. split; [|exact B].
  unfold dd_add_hi_lo. cbn [hi lo dd_of].
  destruct (two_sum_bf k x (fneg y) ltac:(lia) Bx (bf_neg _ _ By)) as (Bss & Ess & Bs & Es). cbv zeta in *.
  destruct (two_sum_bf k f0 f0 ltac:(lia) B0 B0) as (Btt & Ett & Bt & Et). cbv zeta in *.
  rewrite R_f0, Rplus_0_r, RN_0 in Ett, Et. rewrite Rminus_0_r in Et.
  set (ss := fadd x (fneg y)) in *. set (tt := fadd f0 f0) in *.
  set (s := fadd (fsub (fneg y) (fsub ss x)) (fsub x (fsub ss (fsub ss x)))) in *.
  set (t := fadd (fsub f0 (fsub tt f0)) (fsub f0 (fsub tt (fsub tt f0)))) in *.
  rewrite <- Ess in Es.
  destruct (bf_add (k + 1) s tt ltac:(lia) (bf_weak k (k + 1) s ltac:(lia) Bs) Btt) as (Be & Ee). set (e := fadd s tt) in *.
  rewrite Ett, Rplus_0_r, RN_id in Ee by apply format_R.
  assert (RN (R_of ss + R_of s) = R_of ss) as Fix.
  { rewrite Es. replace (R_of ss + (R_of x + R_of (fneg y) - R_of ss)) with (R_of x + R_of (fneg y)) by ring. now symmetry. }
  destruct (bf_add (k + 2) ss e ltac:(lia) (bf_weak (k + 1) (k + 2) ss ltac:(lia) Bss) (bf_weak (k + 1 + 1) (k + 2) e ltac:(lia) Be)) as (Bhh & Ehh).
  set (hh := fadd ss e) in *. rewrite Ee, Fix in Ehh.
  destruct (bf_sub (k + 3) ss hh ltac:(lia) (bf_weak (k + 1) (k + 3) ss ltac:(lia) Bss) (bf_weak (k + 2 + 1) (k + 3) hh ltac:(lia) Bhh)) as (Bg & Eg).
  rewrite Ehh, Rminus_diag_eq, RN_0 in Eg by reflexivity.
  destruct (bf_add (k + 4) e (fsub ss hh) ltac:(lia) (bf_weak (k + 1 + 1) (k + 4) e ltac:(lia) Be) (bf_weak (k + 3 + 1) (k + 4) _ ltac:(lia) Bg)) as (Bh & Eh).
  set (h := fadd e (fsub ss hh)) in *. rewrite Eg, Rplus_0_r, RN_id in Eh by apply format_R.
  destruct (bf_add (k + 5) t h ltac:(lia) (bf_weak k (k + 5) t ltac:(lia) Bt) (bf_weak (k + 4 + 1) (k + 5) h ltac:(lia) Bh)) as (Be2 & Ee2).
  set (e2 := fadd t h) in *. rewrite Et, Rplus_0_l, RN_id in Ee2 by apply format_R.
  assert (R_of e2 = R_of s) as Hs by congruence.
  destruct (bf_add (k + 6) hh e2 ltac:(lia) (bf_weak (k + 2 + 1) (k + 6) hh ltac:(lia) Bhh) (bf_weak (k + 5 + 1) (k + 6) e2 ltac:(lia) Be2)) as (Bz & Ez).
  set (zhi := fadd hh e2) in *. rewrite Ehh, Hs, Fix in Ez.
  destruct (bf_sub (k + 7) hh zhi ltac:(lia) (bf_weak (k + 2 + 1) (k + 7) hh ltac:(lia) Bhh) (bf_weak (k + 6 + 1) (k + 7) zhi ltac:(lia) Bz)) as (Bd & Ed).
  rewrite Ehh, Ez, Rminus_diag_eq, RN_0 in Ed by reflexivity.
  destruct (bf_add (k + 8) e2 (fsub hh zhi) ltac:(lia) (bf_weak (k + 5 + 1) (k + 8) e2 ltac:(lia) Be2) (bf_weak (k + 7 + 1) (k + 8) _ ltac:(lia) Bd)) as (_ & El).
  rewrite Ed, Rplus_0_r, RN_id in El by apply format_R.
  unfold dval. cbn [hi lo]. rewrite Ez, El, Hs, Es, fneg_R. ring.
Qed.
Lemma dm_diff x y : plain x -> plain y ->
  let z := dd_self_sub_f64 (dd_of x) y in dm 88 (-99) z /\ dval z = R_of x - R_of y.
Proof.
  intros Px Py. cbv zeta. pose proof (dm_of x Px) as (_ & Bx & Mx). pose proof (dm_of y Py) as (_ & By & My). cbn [hi dd_of] in Bx, By.
  rewrite dval_of in Mx, My.
  destruct (dd_sub_f64_exact 80 x y ltac:(lia) Bx By) as (N & V & B). cbv zeta in *. split; [|exact V].
  split; [exact N|]. split; [exact B|]. rewrite V. now apply mult_sub.
Qed.
Section Meet.
Variables p1 p2 q1 q2 : Coordinate.
Variable B : R.
Hypothesis G1 : plain_pt p1. Hypothesis G2 : plain_pt p2. Hypothesis G3 : plain_pt q1. Hypothesis G4 : plain_pt q2.
Hypothesis L1 : upto B p1. Hypothesis L2 : upto B p2. Hypothesis L3 : upto B q1. Hypothesis L4 : upto B q2.
Let h := u53 * u53.
Let a := rpt p1. Let b := rpt p2. Let c := rpt q1. Let d := rpt q2.
Let pxd := dd_self_sub_f64 (dd_of (cy p1)) (cy p2).
Let pyd := dd_self_sub_f64 (dd_of (cx p2)) (cx p1).
Let pwd := dd_self_sub (dd_self_mul_f64 (dd_of (cx p1)) (cy p2)) (dd_self_mul_f64 (dd_of (cx p2)) (cy p1)).
Let qxd := dd_self_sub_f64 (dd_of (cy q1)) (cy q2).
Let qyd := dd_self_sub_f64 (dd_of (cx q2)) (cx q1).
Let qwd := dd_self_sub (dd_self_mul_f64 (dd_of (cx q1)) (cy q2)) (dd_self_mul_f64 (dd_of (cx q2)) (cy q1)).
Let xd := dd_self_sub (dd_mul pyd qwd) (dd_mul qyd pwd).
Let yd := dd_self_sub (dd_mul qxd pwd) (dd_mul pxd qwd).
Let wd := dd_self_sub (dd_mul pxd qyd) (dd_mul qxd pyd).
Lemma h_small : 0 < h <= / 1024.
Proof. unfold h. pose proof u53_pos. pose proof u53_small. split; nra. Qed.
Lemma B_pos : 0 <= B.
Proof. destruct L1 as (L & _). pose proof (Rabs_pos (R_of (cx p1))). lra. Qed.
Lemma mul_f64_mul x y : fis_finite y = true -> dd_self_mul_f64 (dd_of x) y = dd_mul (dd_of x) (dd_of y).
Proof. intros F. unfold dd_mul, dd_is_nan. cbn [hi dd_of]. now rewrite (nn_finite _ F). Qed.
(** [pw] and [qw]. *)
Lemma minor_err s t : plain_pt s -> plain_pt t -> upto B s -> upto B t ->
  let z := dd_self_sub (dd_self_mul_f64 (dd_of (cx s)) (cy t)) (dd_self_mul_f64 (dd_of (cx t)) (cy s)) in
  dm 176 (-198) z /\ Rabs (dval z - (R_of (cx s) * R_of (cy t) - R_of (cx t) * R_of (cy s))) <= 56 * h * (B * B).
Proof.
  intros (Sx & Sy) (Tx & Ty) (Bsx & Bsy) (Btx & Bty). cbv zeta. rewrite !mul_f64_mul by (apply Ty || apply Sy).
  pose proof h_small as (H0 & H1). pose proof B_pos as B0.
  destruct (dm_mul 80 80 (-99) (-99) _ _ ltac:(lia) ltac:(lia) ltac:(lia) ltac:(lia) ltac:(lia) (dm_of _ Sx) (dm_of _ Ty)) as (D1 & E1).
  destruct (dm_mul 80 80 (-99) (-99) _ _ ltac:(lia) ltac:(lia) ltac:(lia) ltac:(lia) ltac:(lia) (dm_of _ Tx) (dm_of _ Sy)) as (D2 & E2).
  cbv zeta in *. fold h in E1, E2. rewrite !dval_of in E1, E2. cbn in D1, D2.
  pose proof (dm_sub 168 (-198) _ _ ltac:(lia) ltac:(lia) D1 D2) as D. split; [exact D|].
  pose proof (dd_self_sub_error 168 _ _ ltac:(lia) (proj1 D1) (proj1 D2) (proj1 (proj2 D1)) (proj1 (proj2 D2))) as E. fold h in E.
  assert (forall u v, Rabs u <= B -> Rabs v <= B -> Rabs (u * v) <= B * B) as PP.
  { intros u v Hu Hv. rewrite Rabs_mult. apply Rmult_le_compat; auto using Rabs_pos. }
  pose proof (PP _ _ Bsx Bty) as P1. pose proof (PP _ _ Btx Bsy) as P2.
  assert (0 <= B * B) as BB by nra.
  assert (forall u, Rabs u <= B * B -> 10 * h * Rabs u <= 10 * h * (B * B)) as MM by (intros; apply Rmult_le_compat_l; lra).
  replace (56 * h * (B * B)) with (2 * (10 * h * (B * B)) + 36 * h * (B * B)) by ring.
  apply diff_err with (m := dval (dd_mul (dd_of (cx s)) (dd_of (cy t)))) (n := dval (dd_mul (dd_of (cx t)) (dd_of (cy s)))); auto; try lra.
  - eapply Rle_trans; [exact E1|now apply MM].
  - eapply Rle_trans; [exact E2|now apply MM].
  - apply Rle_trans with (10 * / 1024 * (B * B)); [apply Rmult_le_compat_r; lra|lra].
Qed.
Lemma two_B u v : Rabs u <= B -> Rabs v <= B -> Rabs (u - v) <= 2 * B.
Proof. intros U V. apply Rabs_le. apply Rabs_le_inv in U, V. lra. Qed.
Lemma minor_size u v s t : Rabs u <= B -> Rabs v <= B -> Rabs s <= B -> Rabs t <= B -> Rabs (u * v - s * t) <= 2 * (B * B).
Proof.
  intros U V S T. assert (forall x y, Rabs x <= B -> Rabs y <= B -> Rabs (x * y) <= B * B) as PP.
  { intros x y X Y. rewrite Rabs_mult. apply Rmult_le_compat; auto using Rabs_pos. }
  pose proof (PP _ _ U V) as A1. pose proof (PP _ _ S T) as A2. apply Rabs_le. apply Rabs_le_inv in A1, A2. lra.
Qed.
(** Numerators: a difference of an exact difference times a minor. *)
Lemma numer_err y1 w1 y2 w2 v1 m1 v2 m2 : dm 88 (-99) y1 -> dm 88 (-99) y2 -> dm 176 (-198) w1 -> dm 176 (-198) w2 ->
  dval y1 = v1 -> dval y2 = v2 -> Rabs v1 <= 2 * B -> Rabs v2 <= 2 * B ->
  Rabs (dval w1 - m1) <= 56 * h * (B * B) -> Rabs (dval w2 - m2) <= 56 * h * (B * B) -> Rabs m1 <= 2 * (B * B) -> Rabs m2 <= 2 * (B * B) ->
  let z := dd_self_sub (dd_mul y1 w1) (dd_mul y2 w2) in
  dm 280 (-297) z /\ Rabs (dval z - (v1 * m1 - v2 * m2)) <= 452 * h * (B * B * B).
Proof.
  intros Y1 Y2 W1 W2 V1 V2 S1 S2 E1 E2 M1 M2. cbv zeta. pose proof h_small as (H0 & H1). pose proof B_pos as B0.
  destruct (dm_mul 88 176 (-99) (-198) _ _ ltac:(lia) ltac:(lia) ltac:(lia) ltac:(lia) ltac:(lia) Y1 W1) as (D1 & F1).
  destruct (dm_mul 88 176 (-99) (-198) _ _ ltac:(lia) ltac:(lia) ltac:(lia) ltac:(lia) ltac:(lia) Y2 W2) as (D2 & F2).
  cbv zeta in *. fold h in F1, F2. cbn in D1, D2. rewrite V1 in F1. rewrite V2 in F2.
  pose proof (dm_sub 272 (-297) _ _ ltac:(lia) ltac:(lia) D1 D2) as D. split; [exact D|].
  pose proof (dd_self_sub_error 272 _ _ ltac:(lia) (proj1 D1) (proj1 D2) (proj1 (proj2 D1)) (proj1 (proj2 D2))) as E. fold h in E.
  assert (0 <= B * B) as BB by nra. assert (0 <= B * B * B) as BBB by (apply Rmult_le_pos; lra).
  assert (0 <= 56 * h * (B * B)) as HB by (apply Rmult_le_pos; lra).
  pose proof (prod_err h (2 * B) (56 * h * (B * B)) (2 * (B * B)) _ _ _ _ ltac:(lra) HB S1 E1 M1 F1) as Q1.
  pose proof (prod_err h (2 * B) (56 * h * (B * B)) (2 * (B * B)) _ _ _ _ ltac:(lra) HB S2 E2 M2 F2) as Q2.
  assert (2 * B * (56 * h * (B * B)) + 10 * h * (2 * B * (2 * (B * B) + 56 * h * (B * B))) <= 154 * h * (B * B * B)) as C.
  { replace (2 * B * (56 * h * (B * B)) + 10 * h * (2 * B * (2 * (B * B) + 56 * h * (B * B))))
      with (152 * (h * (B * B * B)) + 1120 * h * (h * (B * B * B))) by ring.
    assert (0 <= h * (B * B * B)) as P by (apply Rmult_le_pos; lra).
    assert (1120 * h * (h * (B * B * B)) <= 2 * (h * (B * B * B))) by (apply Rmult_le_compat_r; lra). lra. }
  replace (452 * h * (B * B * B)) with (2 * (154 * h * (B * B * B)) + 36 * h * (4 * (B * B * B))) by ring.
  assert (forall u v, Rabs u <= 2 * B -> Rabs v <= 2 * (B * B) -> Rabs (u * v) <= 4 * (B * B * B)) as PP.
  { intros u v Hu Hv. rewrite Rabs_mult. replace (4 * (B * B * B)) with (2 * B * (2 * (B * B))) by ring.
    apply Rmult_le_compat; auto using Rabs_pos. }
  apply diff_err with (m := dval (dd_mul y1 w1)) (n := dval (dd_mul y2 w2)); auto; try lra.
  apply Rle_trans with (154 * / 1024 * (B * B * B)); [apply Rmult_le_compat_r; lra|lra].
Qed.
Lemma denom_err : dm 192 (-198) wd /\ Rabs (dval wd - cross a b c d) <= 224 * h * (B * B).
Proof.
  pose proof h_small as (H0 & H1). pose proof B_pos as B0.
  destruct (dm_diff (cy p1) (cy p2) (proj2 G1) (proj2 G2)) as (Dpx & Vpx). destruct (dm_diff (cx p2) (cx p1) (proj1 G2) (proj1 G1)) as (Dpy & Vpy).
  destruct (dm_diff (cy q1) (cy q2) (proj2 G3) (proj2 G4)) as (Dqx & Vqx). destruct (dm_diff (cx q2) (cx q1) (proj1 G4) (proj1 G3)) as (Dqy & Vqy).
  cbv zeta in *. fold pxd in Dpx, Vpx. fold pyd in Dpy, Vpy. fold qxd in Dqx, Vqx. fold qyd in Dqy, Vqy.
  destruct (dm_mul 88 88 (-99) (-99) _ _ ltac:(lia) ltac:(lia) ltac:(lia) ltac:(lia) ltac:(lia) Dpx Dqy) as (D1 & F1).
  destruct (dm_mul 88 88 (-99) (-99) _ _ ltac:(lia) ltac:(lia) ltac:(lia) ltac:(lia) ltac:(lia) Dqx Dpy) as (D2 & F2).
  cbv zeta in *. fold h in F1, F2. cbn in D1, D2.
  pose proof (dm_sub 184 (-198) _ _ ltac:(lia) ltac:(lia) D1 D2) as D. fold wd in D. split; [exact D|].
  pose proof (dd_self_sub_error 184 _ _ ltac:(lia) (proj1 D1) (proj1 D2) (proj1 (proj2 D1)) (proj1 (proj2 D2))) as E. fold h in E. fold wd in E.
  assert (0 <= B * B) as BB by nra.
  assert (cross a b c d = dval pxd * dval qyd - dval qxd * dval pyd) as ->.
  { rewrite Vpx, Vpy, Vqx, Vqy. unfold cross, a, b, c, d, rpt. cbn [px py]. ring. }
  assert (forall u v, Rabs u <= 2 * B -> Rabs v <= 2 * B -> Rabs (u * v) <= 4 * (B * B)) as PP.
  { intros u v Hu Hv. rewrite Rabs_mult. replace (4 * (B * B)) with (2 * B * (2 * B)) by ring.
    apply Rmult_le_compat; auto using Rabs_pos. }
  assert (Rabs (dval pxd) <= 2 * B) as A1 by (rewrite Vpx; apply two_B; [apply L1|apply L2]).
  assert (Rabs (dval pyd) <= 2 * B) as A2 by (rewrite Vpy; apply two_B; [apply L2|apply L1]).
  assert (Rabs (dval qxd) <= 2 * B) as A3 by (rewrite Vqx; apply two_B; [apply L3|apply L4]).
  assert (Rabs (dval qyd) <= 2 * B) as A4 by (rewrite Vqy; apply two_B; [apply L4|apply L3]).
  assert (forall u, Rabs u <= 4 * (B * B) -> 10 * h * Rabs u <= 40 * h * (B * B)) as MM.
  { intros u Hu. replace (40 * h * (B * B)) with (10 * h * (4 * (B * B))) by ring. apply Rmult_le_compat_l; lra. }
  replace (224 * h * (B * B)) with (2 * (40 * h * (B * B)) + 36 * h * (4 * (B * B))) by ring.
  apply diff_err with (m := dval (dd_mul pxd qyd)) (n := dval (dd_mul qxd pyd)); auto; try lra.
  - eapply Rle_trans; [exact F1|]. auto.
  - eapply Rle_trans; [exact F2|]. auto.
  - apply Rle_trans with (40 * / 1024 * (B * B)); [apply Rmult_le_compat_r; lra|lra].
Qed.
(** One ordinate. *)
Lemma div_err z X : dm 280 (-297) z -> Rabs (dval z - X) <= 452 * h * (B * B * B) ->
  512 * h * (B * B) < Rabs (cross a b c d) ->
  let m := X / cross a b c d in
  fis_finite (dd_double (dd_div z wd)) = true /\
  exists v, R_of (dd_double (dd_div z wd)) = RN v /\ Rabs (v - m) <= 1024 * h * (B * B * (B + Rabs m) / Rabs (cross a b c d)).
Proof.
  intros Dz Ez G. cbv zeta. pose proof h_small as (H0 & H1). pose proof B_pos as B0. destruct denom_err as (Dw & Ew).
  set (W := cross a b c d) in *.
  assert (0 <= B * B) as BB by nra. assert (0 <= h * (B * B)) as HB by (apply Rmult_le_pos; lra).
  assert (dval wd <> 0) as NW.
  { intros Z. rewrite Z, Rminus_0_l, Rabs_Ropp in Ew. lra. }
  assert (W <> 0) as NZ by (intros Z; rewrite Z, Rabs_R0 in G; lra).
  assert (Rabs W <= 8 * (B * B)) as UW.
  { unfold W, cross, a, b, c, d, rpt. cbn [px py].
    assert (forall u v, Rabs u <= 2 * B -> Rabs v <= 2 * B -> Rabs (u * v) <= 4 * (B * B)) as PP.
    { intros u v Hu Hv. rewrite Rabs_mult. replace (4 * (B * B)) with (2 * B * (2 * B)) by ring.
      apply Rmult_le_compat; auto using Rabs_pos. }
    pose proof (PP _ _ (two_B _ _ (proj1 L2) (proj1 L1)) (two_B _ _ (proj2 L4) (proj2 L3))) as Q1.
    pose proof (PP _ _ (two_B _ _ (proj2 L2) (proj2 L1)) (two_B _ _ (proj1 L4) (proj1 L3))) as Q2.
    apply Rabs_le. apply Rabs_le_inv in Q1, Q2. lra. }
  assert (forall k e u, (-300 <= e)%Z -> (k <= 300)%Z -> dm k e u -> dval u <> 0 -> bp (-300) <= Rabs (R_of (hi u)) <= bp 300) as Rg.
  { intros k e u He Hk (N & (_ & Bu) & M) NZu. split.
    - destruct N as (_ & ->). apply abs_round_ge_generic; try typeclasses eauto; [apply bpow_fmt; lia|].
      apply Rle_trans with (bp e); [apply bpow_le; lia|now apply mult_ge].
    - eapply Rle_trans; [exact Bu|apply bpow_le; lia]. }
  pose proof (Rg 192%Z (-198)%Z wd ltac:(lia) ltac:(lia) Dw NW) as Rw.
  assert (normed (dd_div z wd) /\ Rabs (dval (dd_div z wd) * dval wd - dval z) <= 21 * h * Rabs (dval z)) as (N & E).
  { destruct (Req_dec (dval z) 0) as [Z|Z].
    - destruct Dz as (((Fh & Fl) & Hz) & _ & _). rewrite Z, RN_0 in Hz.
      assert (R_of (lo z) = 0) as Lz by (unfold dval in Z; lra).
      destruct Dw as (((Fwh & Fwl) & _) & _ & _).
      destruct (dd_div_zero z (hi wd) (lo wd) Fh Hz Fl Lz Fwh) as (N & V); auto.
      + apply Rle_trans with (bp 300); [apply Rw|apply bpow_le; lia].
      + intros Q. rewrite Q, Rabs_R0 in Rw. pose proof (bpow_gt_0 radix2 (-300)). lra.
      + rewrite dd_div_unroll. split; [exact N|]. rewrite V, Z, Rmult_0_l, Rminus_0_r, Rabs_R0. lra.
    - apply quotient_bound; [apply Dz|apply Dw|apply (Rg 280%Z (-297)%Z); auto; lia|exact Rw]. }
  destruct (dd_double_normed _ N) as (F & V). split; [exact F|]. exists (dval (dd_div z wd)). split; [rewrite V; apply N|].
  apply (quot_err h B W _ (dval wd) (dval z)); auto.
  replace (X / W * W) with X by (field; exact NZ). exact Ez.
Qed.
Lemma meet_form : cgdd_intersection p1 p2 q1 q2 = let x := dd_double (dd_div xd wd) in let y := dd_double (dd_div yd wd) in
  if fis_nan x || fis_infinite x || fis_nan y || fis_infinite y then None else Some (new_xy x y).
Proof. reflexivity. Qed.
Lemma meet_err : 512 * h * (B * B) < Rabs (cross a b c d) ->
  let m := meetR a b c d in
  exists r, cgdd_intersection p1 p2 q1 q2 = Some r /\ r = new_xy (cx r) (cy r) /\
    fis_finite (cx r) = true /\ fis_finite (cy r) = true /\
    (exists v, R_of (cx r) = RN v /\ Rabs (v - px m) <= 1024 * h * (B * B * (B + Rabs (px m)) / Rabs (cross a b c d))) /\
    (exists v, R_of (cy r) = RN v /\ Rabs (v - py m) <= 1024 * h * (B * B * (B + Rabs (py m)) / Rabs (cross a b c d))).
Proof.
  intros G. cbv zeta. pose proof h_small as (H0 & H1). pose proof B_pos as B0.
  destruct (dm_diff (cy p1) (cy p2) (proj2 G1) (proj2 G2)) as (Dpx & Vpx). destruct (dm_diff (cx p2) (cx p1) (proj1 G2) (proj1 G1)) as (Dpy & Vpy).
  destruct (dm_diff (cy q1) (cy q2) (proj2 G3) (proj2 G4)) as (Dqx & Vqx). destruct (dm_diff (cx q2) (cx q1) (proj1 G4) (proj1 G3)) as (Dqy & Vqy).
  destruct (minor_err p1 p2 G1 G2 L1 L2) as (Dpw & Epw). destruct (minor_err q1 q2 G3 G4 L3 L4) as (Dqw & Eqw).
  cbv zeta in *. fold pxd in Dpx, Vpx. fold pyd in Dpy, Vpy. fold qxd in Dqx, Vqx. fold qyd in Dqy, Vqy. fold pwd in Dpw, Epw. fold qwd in Dqw, Eqw.
  pose proof (minor_size _ _ _ _ (proj1 L1) (proj2 L2) (proj1 L2) (proj2 L1)) as Mp.
  pose proof (minor_size _ _ _ _ (proj1 L3) (proj2 L4) (proj1 L4) (proj2 L3)) as Mq.
  pose proof (two_B _ _ (proj2 L1) (proj2 L2)) as A1. pose proof (two_B _ _ (proj1 L2) (proj1 L1)) as A2.
  pose proof (two_B _ _ (proj2 L3) (proj2 L4)) as A3. pose proof (two_B _ _ (proj1 L4) (proj1 L3)) as A4.
  destruct (numer_err _ _ _ _ _ _ _ _ Dpy Dqy Dqw Dpw Vpy Vqy A2 A4 Eqw Epw Mq Mp) as (Dx & Ex).
  destruct (numer_err _ _ _ _ _ _ _ _ Dqx Dpx Dpw Dqw Vqx Vpx A3 A1 Epw Eqw Mp Mq) as (Dy & Ey).
  cbv zeta in *. fold xd in Dx, Ex. fold yd in Dy, Ey.
  destruct (div_err xd (hxR a b c d) Dx Ex G) as (Fx & Rx). destruct (div_err yd (hyR a b c d) Dy Ey G) as (Fy & Ry).
  destruct (meet_out _ _ _ (fun z => fis_finite z = true /\ exists v, R_of z = RN v /\ Rabs (v - px (meetR a b c d)) <= 1024 * h * (B * B * (B + Rabs (px (meetR a b c d))) / Rabs (cross a b c d)))
    (fun z => fis_finite z = true /\ exists v, R_of z = RN v /\ Rabs (v - py (meetR a b c d)) <= 1024 * h * (B * B * (B + Rabs (py (meetR a b c d))) / Rabs (cross a b c d)))
    meet_form Fx Fy (conj Fx Rx) (conj Fy Ry)) as (r & E1 & (E2 & E3) & (E4 & E5) & E6).
  exists r. auto 10.
Qed.
End Meet.

(** ** Rounding near an edge *)
Lemma RN_edge x v : fmt x -> bp (-900) <= Rabs x -> Rabs (v - x) <= bp (-55) * Rabs x -> RN v = x.
Proof.
  intros F L D.
  assert (x <> 0) as NZ by (intros ->; rewrite Rabs_R0 in L; pose proof (bpow_gt_0 radix2 (-900)); lra).
  set (j := (mag radix2 x - 1)%Z).
  assert (Rabs x < bp (j + 1)) as U by (unfold j; replace (mag radix2 x - 1 + 1)%Z with (mag radix2 x : Z) by lia; apply bpow_mag_gt).
  assert (bp j <= Rabs x) as Lj by (unfold j; now apply bpow_mag_le).
  assert (-900 <= j)%Z as J.
  { assert (bp (-900) < bp (j + 1)) as Q by lra. apply lt_bpow in Q. lia. }
  assert (Rabs (v - x) < bp (j - 54)) as D2.
  { eapply Rle_lt_trans; [exact D|]. replace (j - 54)%Z with (-55 + (j + 1))%Z by lia. rewrite (bp_split (-55) (j + 1)).
    apply Rmult_lt_compat_l; [apply bpow_gt_0|lra]. }
  assert (Rabs (RN v - x) < bp (j - 53)) as D1.
  { assert (Rabs (RN v - v) <= Rabs (x - v)) as N by (apply (round_N_pt radix2 fexp64 (fun z => negb (Z.even z)) v); exact F).
    rewrite (Rabs_minus_sym x v) in N.
    replace (RN v - x) with ((RN v - v) + (v - x)) by ring. eapply Rle_lt_trans; [apply Rabs_triang|].
    replace (j - 53)%Z with (j - 54 + 1)%Z by lia. rewrite bp_S. lra. }
  apply Rminus_diag_uniq. apply (mult_small (j - 53)); [|exact D1].
  apply mult_sub.
  - replace (j - 53)%Z with (j - 1 - 52)%Z by lia. apply fmt_mult; [lia|apply generic_format_round; typeclasses eauto|].
    assert (bp j = 2 * bp (j - 1)) as Q by (rewrite <- bp_S; f_equal; lia).
    assert (bp (j - 53) <= bp (j - 1)) as Q' by (apply bpow_le; lia).
    replace (RN v) with (x - (x - RN v)) by ring. eapply Rle_trans; [|apply Rabs_triang_inv]. rewrite (Rabs_minus_sym x (RN v)). lra.
  - apply mult_weak with (j - 52)%Z; [lia|]. now apply fmt_mult; try lia.
Qed.
(** A number within [E] of [m], rounded, stays on the side of a firm edge on which [m] is. *)
Lemma firm_low x E m v : plain x -> firm E m (R_of x) -> 0 <= E -> Rabs (v - m) <= E -> R_of x <= m -> R_of x <= RN v.
Proof.
  intros (F & _ & Z) [G|G] E0 D L.
  - rewrite Rabs_pos_eq in G by lra. apply Rabs_le_inv in D. apply Rle_trans with (RN (R_of x)); [rewrite RN_id; [lra|apply format_R]|].
    apply RN_le. lra.
  - destruct (Rle_or_lt (R_of x) v) as [Q|Q].
    + apply Rle_trans with (RN (R_of x)); [rewrite RN_id; [lra|apply format_R]|now apply RN_le].
    + apply Rabs_le_inv in D. assert (Rabs (v - R_of x) <= bp (-55) * Rabs (R_of x)) as K by (rewrite Rabs_left; lra).
      destruct Z as [Z|Z]; [rewrite Z, Rabs_R0, Rmult_0_r in K; rewrite Z in Q; apply Rabs_le_inv in K; lra|].
      right. symmetry. apply RN_edge; [apply format_R| |exact K]. apply Rle_trans with (bp (-47)); [apply bpow_le; lia|exact Z].
Qed.
Lemma firm_high x E m v : plain x -> firm E m (R_of x) -> 0 <= E -> Rabs (v - m) <= E -> m <= R_of x -> RN v <= R_of x.
Proof.
  intros (F & B & Z) G E0 D L.
  assert (plain (fneg x)) as P. { split; [now rewrite fneg_fin|]. rewrite fneg_R, Rabs_Ropp. split; [exact B|]. destruct Z; [left; lra|now right]. }
  assert (firm E (- m) (R_of (fneg x))) as G'.
  { unfold firm in *. rewrite fneg_R, Rabs_Ropp. replace (- m - - R_of x) with (- (m - R_of x)) by ring. now rewrite Rabs_Ropp. }
  assert (Rabs (- v - - m) <= E) as D' by (replace (- v - - m) with (- (v - m)) by ring; now rewrite Rabs_Ropp).
  pose proof (firm_low (fneg x) E (- m) (- v) P G' E0 D') as H. rewrite fneg_R, RN_opp in H. lra.
Qed.
