(** C61 off the grid: circumcentre, circumradius, bisector and interpolation of Z. *)
From Coq Require Import ZArith Bool List Reals Lia Lra Psatz.
From Flocq Require Import Core IEEE754.BinarySingleNaN.
From Verif Require Import Base F64 F64Facts F64Err Num NumLink Coordinate_model Orientation_model Orientation_spec Orientation_proofs
  Orientation_props Distance_model Distance_spec Distance_proofs Distance_float Distance_props
  MeasureErr_proofs CentroidErr_spec CentroidErr_proofs Intersection_model Intersection_spec Intersection_proofs Intersection_props
  Triangle_model Triangle_spec Triangle_proofs Triangle_props TriangleErr_proofs TriangleErr_props MeetErr_spec MeetErr_proofs MeetErr_props.
Import ListNotations.
Local Open Scope R_scope.

(** Signs of products. *)
Ltac pos := first [lra | apply Rmult_le_pos; pos].

(** A quotient of values of sizes [D^i S] and [S] with errors of [a] and [b] units. *)
Lemma quot_gen K p a b D S T x w X W : 0 < D -> 0 < S -> 0 <= p <= 64 -> 0 <= a -> 0 <= b -> 2 * a + a / 64 + p / 64 <= K -> 2 * b + b / 64 + p <= K -> K <= 1024 ->
  bp (-900) <= T -> T <= bp 500 -> fis_finite x = true -> fis_finite w = true ->
  Rabs (R_of x - X) <= a * u53 * (S * T) -> Rabs (R_of w - W) <= b * u53 * S -> Rabs X <= p * (S * T) -> Rabs W <= p * S ->
  K * u53 * S < Rabs W ->
  fis_finite (fdiv x w) = true /\ Rabs (R_of (fdiv x w) - X / W) <= K * u53 * (S * (T + Rabs (X / W)) / Rabs W) /\
  Rabs (X / W) <= bp 600 /\ Rabs (R_of (fdiv x w)) <= bp 602.
Proof.
  intros D0 S0 Hp Ha Hb Ka Kb HK LT UT Fx Fw Ex Ew Mx Mw H. pose proof u53_pos as Up. pose proof (bpow_gt_0 radix2 (-900)) as P9.
  assert (0 <= K) as K0 by lra. assert (0 <= K * u53 * S) as KS by (apply Rmult_le_pos; nra).
  assert (0 < Rabs W) as Wp by lra. assert (W <> 0) as W0 by (intros ->; rewrite Rabs_R0 in Wp; lra).
  assert (b * u53 * S <= Rabs W / 2) as Hw.
  { assert (2 * (b * u53 * S) <= K * u53 * S); [|lra]. replace (2 * (b * u53 * S)) with (2 * b * (u53 * S)) by ring. replace (K * u53 * S) with (K * (u53 * S)) by ring. apply Rmult_le_compat_r; nra. }
  destruct (quot_err (R_of x) X (R_of w) W _ _ W0 Ex Ew Hw) as (Q & Hy).
  set (C := Rabs (X / W)) in *. assert (0 <= C) as C0 by apply Rabs_pos.
  set (k := S / Rabs W). assert (0 < k) as k0 by (apply Rdiv_lt_0_compat; lra).
  assert (k * Rabs W = S) as KW by (unfold k; field; lra).
  assert (K * (u53 * k) < 1) as Ku.
  { apply Rmult_lt_reg_r with (Rabs W); [exact Wp|]. replace (K * (u53 * k) * Rabs W) with (K * u53 * (k * Rabs W)) by ring. rewrite KW. lra. }
  assert (1 <= p * k) as Kp.
  { apply Rmult_le_reg_r with (Rabs W); [exact Wp|]. replace (p * k * Rabs W) with (p * (k * Rabs W)) by ring. rewrite KW. lra. }
  replace (S * (T + C) / Rabs W) with (k * (T + C)) by (unfold k; field; lra).
  replace (2 * (a * u53 * (S * T) + C * (b * u53 * S)) / Rabs W) with (2 * a * (u53 * (k * T)) + 2 * b * (u53 * (k * C))) in Q by (unfold k; field; lra).
  set (qT := u53 * (k * T)) in *. set (qC := u53 * (k * C)) in *.
  assert (0 <= qT) as qT0 by (apply Rmult_le_pos; nra). assert (0 <= qC) as qC0 by (apply Rmult_le_pos; nra).
  assert (C <= bp 600) as CU.
  { unfold C, Rdiv. rewrite Rabs_mult, Rabs_inv. change (Rabs X / Rabs W <= bp 600). apply Rle_trans with (p * (k * T)).
    - replace (p * (k * T)) with (p * (S * T) / Rabs W) by (unfold k; field; lra). apply Rmult_le_compat_r; [left; now apply Rinv_0_lt_compat|exact Mx].
    - assert (p * (u53 * k) <= 1) as PK by (apply Rle_trans with (K * (u53 * k)); [apply Rmult_le_compat_r; [apply Rmult_le_pos|]; lra|lra]).
      assert (u53 * bp 53 = 1) as U1 by exact (eq_sym (bpow_plus radix2 (-53) 53)). pose proof (bpow_gt_0 radix2 53) as P53.
      assert (p * k <= bp 53) by nra.
      assert (bp 53 * bp 500 = bp 553) as E by exact (eq_sym (bpow_plus radix2 53 500)). assert (bp 553 <= bp 600) by (apply bpow_le; lia).
      assert (p * k * T <= bp 53 * bp 500) by (apply Rmult_le_compat; lra). lra. }
  assert (K * qT <= T) as B1.
  { unfold qT. replace (K * (u53 * (k * T))) with ((K * (u53 * k)) * T) by ring. nra. }
  assert (K * qC <= C) as B2.
  { unfold qC. replace (K * (u53 * (k * C))) with ((K * (u53 * k)) * C) by ring. nra. }
  assert (2 * a * qT <= K * qT) as A1 by (apply Rmult_le_compat_r; lra). assert (2 * b * qC <= K * qC) as A2 by (apply Rmult_le_compat_r; lra).
  assert (bp 602 = 4 * bp 600) as B402 by (change 602%Z with (600 + 1 + 1)%Z; rewrite !bp_S; ring).
  assert (bp 500 <= bp 600) as B34 by (apply bpow_le; lia).
  assert (Rabs (R_of x / R_of w) <= C + (2 * a * qT + 2 * b * qC)) as Sz.
  { replace (R_of x / R_of w) with (X / W + (R_of x / R_of w - X / W)) by ring. eapply Rle_trans; [apply Rabs_triang|]. unfold C in *. lra. }
  assert (R_of w <> 0) as Rw. { intros E. rewrite E, Rabs_R0 in Hy. lra. }
  destruct (fdiv_R x w Fx Rw) as (F & E).
  { apply (RN_small' _ 602); [lia|]. lra. }
  pose proof (RN_err (R_of x / R_of w)) as Er. rewrite <- E in Er.
  pose proof (eta_le T LT) as Et.
  assert (u53 <= / 128) as Us by (pose proof (u_tiny 16 ltac:(lra)); lra).
  assert (Rabs (R_of (fdiv x w) - X / W) <= K * u53 * (k * (T + C))) as M.
  { assert (u53 * Rabs (R_of x / R_of w) <= u53 * C + / 128 * (2 * a * qT + 2 * b * qC)) as T1.
    { apply Rle_trans with (u53 * (C + (2 * a * qT + 2 * b * qC))); [apply Rmult_le_compat_l; lra|]. assert (0 <= 2 * a * qT + 2 * b * qC) as N0 by (apply Rplus_le_le_0_compat; (apply Rmult_le_pos; [|assumption]); lra).
      rewrite Rmult_plus_distr_l. apply Rplus_le_compat_l, Rmult_le_compat_r; lra. }
    assert (u53 * C <= p * qC) as T3 by (unfold qC; replace (p * (u53 * (k * C))) with (u53 * ((p * k) * C)) by ring; apply Rmult_le_compat_l; [lra|]; rewrite <- (Rmult_1_l C) at 1; apply Rmult_le_compat_r; lra).
    assert (u53 * T / 1024 <= p / 64 * qT) as T4.
    { unfold qT. replace (u53 * T / 1024) with (u53 * (T / 1024)) by field. replace (p / 64 * (u53 * (k * T))) with (u53 * ((p * k) * (T / 64))) by field.
      apply Rmult_le_compat_l; [lra|]. apply Rle_trans with (1 * (T / 64)); [lra|apply Rmult_le_compat_r; lra]. }
    replace (K * u53 * (k * (T + C))) with (K * qT + K * qC) by (unfold qT, qC; ring).
    assert ((2 * a + a / 64 + p / 64) * qT <= K * qT) as Y1 by (apply Rmult_le_compat_r; lra).
    assert ((2 * b + b / 64 + p) * qC <= K * qC) as Y2 by (apply Rmult_le_compat_r; lra).
    replace (R_of (fdiv x w) - X / W) with ((R_of (fdiv x w) - R_of x / R_of w) + (R_of x / R_of w - X / W)) by ring.
    eapply Rle_trans; [apply Rabs_triang|]. lra. }
  split; [exact F|]. split; [exact M|]. split; [exact CU|].
  replace (R_of (fdiv x w)) with (X / W + (R_of (fdiv x w) - X / W)) by ring. eapply Rle_trans; [apply Rabs_triang|]. fold C.
  replace (K * u53 * (k * (T + C))) with (K * qT + K * qC) in M by (unfold qT, qC; ring). lra.
Qed.

(** ** The circumcentre in plain doubles *)
Lemma add_corner (neg : bool) D W v f m K : 0 <= D -> 0 < W -> 0 <= K -> fis_finite v = true -> fis_finite f = true -> Rabs (R_of v) <= bp 602 -> Rabs (R_of f) <= bp 900 ->
  let s := if neg then -1 else 1 in
  Rabs (s * R_of v - (m - R_of f)) <= K * u53 * (D * D * (D + Rabs (m - R_of f)) / W) ->
  let r := if neg then fsub f v else fadd f v in
  fis_finite r = true /\ Rabs (R_of r - m) <= 2 * K * u53 * (D * D * (D + Rabs (m - R_of f)) / W) + bp (-53) * Rabs m.
Proof.
  intros D0 W0 K0 Fv Ff Sv Sf s E r. pose proof u53_pos as Up.
  assert (u53 <= / 1024) as Us by (pose proof (u_tiny 16 ltac:(lra)); lra).
  assert (bp 602 <= bp 900) as B1 by (apply bpow_le; lia). assert (bp 901 = 2 * bp 900) as B2 by (change 901%Z with (900 + 1)%Z; apply bp_S).
  assert (fis_finite r = true /\ Rabs (R_of r - (R_of f + s * R_of v)) <= u53 * Rabs (R_of f + s * R_of v)) as (F & Er).
  { unfold r, s. destruct neg.
    - destruct (fsub_R f v Ff Fv) as (F & R).
      { apply (RN_small' _ 901); [lia|]. unfold Rminus. eapply Rle_trans; [apply Rabs_triang|]. rewrite Rabs_Ropp. lra. }
      split; [exact F|]. rewrite R. replace (R_of f + -1 * R_of v) with (R_of f - R_of v) by ring. apply RN_sub_err; apply format_R.
    - destruct (fadd_R f v Ff Fv) as (F & R).
      { apply (RN_small' _ 901); [lia|]. eapply Rle_trans; [apply Rabs_triang|]. lra. }
      split; [exact F|]. rewrite R, Rmult_1_l. apply RN_sum_err; apply format_R. }
  split; [exact F|]. set (A := Rabs (m - R_of f)) in *. assert (0 <= A) as A0 by apply Rabs_pos.
  set (q := u53 * (D * D * (D + A) / W)) in *.
  assert (0 <= q) as Q0.
  { apply Rmult_le_pos; [lra|]. apply Rmult_le_pos; [|left; now apply Rinv_0_lt_compat]. apply Rmult_le_pos; [nra|lra]. }
  replace (K * u53 * (D * D * (D + A) / W)) with (K * q) in E by (unfold q; ring).
  replace (2 * K * u53 * (D * D * (D + A) / W)) with (2 * (K * q)) by (unfold q; ring).
  assert (0 <= K * q) by nra.
  assert (Rabs (R_of f + s * R_of v) <= Rabs m + K * q) as S.
  { replace (R_of f + s * R_of v) with (m + (s * R_of v - (m - R_of f))) by ring. eapply Rle_trans; [apply Rabs_triang|]. lra. }
  assert (u53 * Rabs (R_of f + s * R_of v) <= u53 * Rabs m + K * q) as S' by nra.
  replace (R_of r - m) with ((R_of r - (R_of f + s * R_of v)) + (s * R_of v - (m - R_of f))) by ring.
  eapply Rle_trans; [apply Rabs_triang|]. lra.
Qed.
Section Corner.
Variables (D : R) (a b c : Coordinate).
Hypothesis HD : bp (-250) <= D <= bp 300.
Hypothesis Wa : pt_within (bp 900) a.
Hypothesis Wb : pt_within (bp 900) b.
Hypothesis Wc : pt_within (bp 900) c.
Hypothesis Ac : apart D a c.
Hypothesis Bc : apart D b c.
Let D0 : 0 < D.
Proof. pose proof (bpow_gt_0 radix2 (-250)). lra. Qed.
Lemma D_le : D <= bp 1000.
Proof. assert (bp 300 <= bp 1000) by (apply bpow_le; lia). lra. Qed.
Lemma arms : nr 1 D (fsub (cx a) (cx c)) (R_of (cx a) - R_of (cx c)) /\ nr 1 D (fsub (cy a) (cy c)) (R_of (cy a) - R_of (cy c)) /\
  nr 1 D (fsub (cx b) (cx c)) (R_of (cx b) - R_of (cx c)) /\ nr 1 D (fsub (cy b) (cy c)) (R_of (cy b) - R_of (cy c)).
Proof.
  destruct Wa as (F1 & G1 & _), Wb as (F2 & G2 & _), Wc as (F3 & G3 & _), Ac as (X1 & Y1), Bc as (X2 & Y2). pose proof D_le.
  split; [|split; [|split]]; apply nr_sub0; assumption.
Qed.
Lemma sq_nr x y r s : nr 1 D x r -> nr 1 D y s -> nr 4 (D * D) (fmul x y) (r * s).
Proof.
  intros X Y. pose proof (B2_range D HD) as (L & U). assert (bp 600 <= bp 1000) by (apply bpow_le; lia). assert (bp (-900) <= bp (-500)) by (apply bpow_le; lia).
  replace 4 with (1 + 1 + 2) by ring. apply nr_mul; auto; lra.
Qed.
Lemma sum_nr x y z t r s p q : nr 1 D x r -> nr 1 D y s -> nr 1 D z p -> nr 1 D t q ->
  nr 6 (2 * (D * D)) (fadd (fmul x y) (fmul z t)) (r * s + p * q) /\ nr 6 (2 * (D * D)) (fsub (fmul x y) (fmul z t)) (r * s - p * q).
Proof.
  intros X Y Z T. pose proof (B2_range D HD) as (L & U). assert (bp 601 <= bp 1000) by (apply bpow_le; lia).
  assert (bp 601 = 2 * bp 600) as E by (change 601%Z with (600 + 1)%Z; apply bp_S).
  replace 6 with (4 + 2) by ring. replace (2 * (D * D)) with (D * D + D * D) by ring.
  split; [apply nr_add|apply nr_sub]; try lra; try (apply u_tiny; lra); now apply sq_nr.
Qed.
Lemma num_nr x y z t r s p q : nr 1 D x r -> nr 6 (2 * (D * D)) y s -> nr 6 (2 * (D * D)) z p -> nr 1 D t q ->
  nr 11 (4 * (D * D * D)) (fsub (fmul x y) (fmul z t)) (r * s - p * q).
Proof.
  intros X Y Z T. pose proof (B3_range D HD) as (L & U). assert (bp 902 <= bp 1000) by (apply bpow_le; lia).
  assert (bp 902 = 4 * bp 900) as E by (change 902%Z with (900 + 1 + 1)%Z; rewrite !bp_S; ring).
  assert (bp (-900) <= bp (-750)) by (apply bpow_le; lia). pose proof (bpow_gt_0 radix2 (-750)).
  replace 11 with (9 + 2) by ring. replace (4 * (D * D * D)) with (D * (2 * (D * D)) + 2 * (D * D) * D) by ring.
  apply nr_sub; [lra|apply u_tiny; lra|nra| |].
  - replace 9 with (1 + 6 + 2) by ring. apply nr_mul; [lra|lra|nra|exact X|exact Y].
  - replace 9 with (6 + 1 + 2) by ring. apply nr_mul; [lra|lra|nra|exact Z|exact T].
Qed.
(** Unless the triangle is nearly flat, each ordinate is within
    2^-46 D^2 (D + |o - c|) / |s| + 2^-53 |o| of that of the true centre [o];
    [D] bounds the distances along the axes to the vertex [c], and [s] is twice
    the area. *)
Lemma circumcentre_err hypot o : bp (-47) * (D * D) < Rabs (side (rpt a) (rpt b) (rpt c)) ->
  dist o (rpt a) = dist o (rpt b) -> dist o (rpt b) = dist o (rpt c) ->
  let r := tri_circumcentre hypot a b c in let s := side (rpt a) (rpt b) (rpt c) in
  fis_finite (cx r) = true /\ fis_finite (cy r) = true /\
  Rabs (R_of (cx r) - px o) <= loss (-46) D s (Rabs (px o - R_of (cx c))) + bp (-53) * Rabs (px o) /\
  Rabs (R_of (cy r) - py o) <= loss (-46) D s (Rabs (py o - R_of (cy c))) + bp (-53) * Rabs (py o).
Proof.
  intros H O1 O2. cbv zeta. set (s := side (rpt a) (rpt b) (rpt c)) in *.
  assert (0 <= bp (-47) * (D * D)) as P by (apply Rmult_le_pos; [apply bpow_ge_0|nra]).
  assert (s <> 0) as S0 by (intros Z; rewrite Z, Rabs_R0 in H; lra).
  assert (o = g_circumcentre R NR (rpt a) (rpt b) (rpt c)) as ->.
  { destruct (circum_eq _ _ _ S0) as (A & B). exact (circum_unique _ _ _ _ _ S0 A B O1 O2). }
  destruct arms as (ax & ay & bx & by_).
  destruct (sum_nr _ _ _ _ _ _ _ _ ax ax ay ay) as (asq & _). destruct (sum_nr _ _ _ _ _ _ _ _ bx bx by_ by_) as (bsq & _).
  destruct (sum_nr _ _ _ _ _ _ _ _ ax by_ ay bx) as (_ & det).
  pose proof (num_nr _ _ _ _ _ _ _ _ ay bsq asq by_) as nx. pose proof (num_nr _ _ _ _ _ _ _ _ ax bsq asq bx) as ny.
  assert (nr 0 2 (fofZ 2) 2) as two.
  { split; [reflexivity|]. change (R_of (fofZ 2)) with (R_of f2). rewrite f2_val, Rminus_eq_0, Rabs_R0, Rabs_pos_eq; lra. }
  pose proof (B2_range D HD) as (L2 & U2). pose proof (bpow_gt_0 radix2 (-500)).
  assert (nr 8 (4 * (D * D)) (fmul (fofZ 2) (fsub (fmul (fsub (cx a) (cx c)) (fsub (cy b) (cy c))) (fmul (fsub (cy a) (cy c)) (fsub (cx b) (cx c)))))
    (2 * ((R_of (cx a) - R_of (cx c)) * (R_of (cy b) - R_of (cy c)) - (R_of (cy a) - R_of (cy c)) * (R_of (cx b) - R_of (cx c))))) as den.
  { replace (4 * (D * D)) with (2 * (2 * (D * D))) by ring. replace 8 with (0 + 6 + 2) by ring. apply nr_mul; [lra|lra| |exact two|exact det].
    assert (4 * bp 600 = bp 602) as E by exact (eq_sym (bpow_plus radix2 2 600)). assert (bp 602 <= bp 1000) by (apply bpow_le; lia). assert (bp (-900) <= bp (-500)) by (apply bpow_le; lia). lra. }
  set (W := 2 * (_ - _)) in den. set (d := fmul (fofZ 2) _) in den.
  assert (W = 2 * s) as EW by (unfold W, s, side, rpt; cbn [px py]; ring).
  assert (Rabs W = 2 * Rabs s) as AW by (rewrite EW, Rabs_mult, Rabs_pos_eq; lra).
  assert (W <> 0) as W0 by lra.
  assert (128 * u53 * (D * D) < Rabs W) as HW.
  { rewrite AW. assert (64 * u53 = bp (-47)) as E by exact (eq_sym (bpow_plus radix2 6 (-53))). replace (128 * u53 * (D * D)) with (2 * ((64 * u53) * (D * D))) by ring. rewrite E. lra. }
  assert (forall n N, nr 11 (4 * (D * D * D)) n N -> fis_finite (fdiv n d) = true /\
    Rabs (R_of (fdiv n d) - N / W) <= 64 * u53 * (D * D * (D + Rabs (N / W)) / Rabs s) /\
    Rabs (R_of (fdiv n d)) <= bp 602) as Q.
  { intros n N (Fn & En & Bn). destruct den as (Fd & Ed & Bd).
    destruct (quot_gen 128 4 44 32 D (D * D) D n d N W) as (F & E & _ & B); try assumption; try lra.
    - apply Rle_trans with (bp (-250)); [apply bpow_le; lia|lra].
    - apply Rle_trans with (bp 300); [lra|apply bpow_le; lia].
    - split; [exact F|]. split; [|exact B]. rewrite AW in E. eapply Rle_trans; [exact E|]. right. field. apply Rgt_not_eq, Rabs_pos_lt, S0. }
  destruct (Q _ _ nx) as (Fx & Ex & Bx). destruct (Q _ _ ny) as (Fy & Ey & By). clear Q.
  unfold tri_circumcentre, g_circumcentre, g_det, to_coord, pf. cbn [NF NR nsub nmul nadd ndiv nofZ px py cx cy new_xy].
  change (IZR 2) with 2 in *. cbn [rpt px py]. fold W. fold d.
  set (qx := fdiv (fsub (fmul (fsub (cy a) (cy c)) _) _) _) in Fx, Ex, Bx |- *. set (qy := fdiv (fsub (fmul (fsub (cx a) (cx c)) _) _) _) in Fy, Ey, By |- *.
  set (X := _ / W) in Ex |- *. set (Y := _ / W) in Ey |- *. clearbody qx qy X Y.
  assert (forall S w m, loss (-46) S w m = 2 * 64 * u53 * (S * S * (S + m) / Rabs w)) as LE.
  { intros. unfold loss. assert (2 * 64 * u53 = bp (-46)) as ->; [|reflexivity]. replace (2 * 64) with 128 by ring. exact (eq_sym (bpow_plus radix2 7 (-53))). }
  assert (0 < Rabs s) as Sp by now apply Rabs_pos_lt.
  destruct Wc as (Fcx & Fcy & Ccx & Ccy).
  destruct (add_corner true D (Rabs s) qx (cx c) (R_of (cx c) - X) 64) as (G1 & H1); try assumption; try lra.
  { replace (R_of (cx c) - X - R_of (cx c)) with (- X) by ring. rewrite Rabs_Ropp. replace (-1 * R_of qx - - X) with (- (R_of qx - X)) by ring. rewrite Rabs_Ropp. exact Ex. }
  destruct (add_corner false D (Rabs s) qy (cy c) (R_of (cy c) + Y) 64) as (G2 & H2); try assumption; try lra.
  { replace (R_of (cy c) + Y - R_of (cy c)) with Y by ring. rewrite Rmult_1_l. exact Ey. }
  split; [exact G1|]. split; [exact G2|]. rewrite !LE. split; assumption.
Qed.
End Corner.
Theorem C61_circumcentre_error : forall hypot D a b c o, bp (-250) <= D <= bp 300 ->
  pt_within (bp 900) a -> pt_within (bp 900) b -> pt_within (bp 900) c -> apart D a c -> apart D b c ->
  let s := side (rpt a) (rpt b) (rpt c) in
  bp (-47) * (D * D) < Rabs s -> dist o (rpt a) = dist o (rpt b) -> dist o (rpt b) = dist o (rpt c) ->
  let r := tri_circumcentre hypot a b c in
  fis_finite (cx r) = true /\ fis_finite (cy r) = true /\
  Rabs (R_of (cx r) - px o) <= loss (-46) D s (Rabs (px o - R_of (cx c))) + bp (-53) * Rabs (px o) /\
  Rabs (R_of (cy r) - py o) <= loss (-46) D s (Rabs (py o - R_of (cy c))) + bp (-53) * Rabs (py o).
Proof. intros hypot D a b c o HD Wa Wb Wc Ac Bc s H O1 O2. exact (circumcentre_err D a b c HD Wa Wb Wc Ac Bc hypot o H O1 O2). Qed.

(** ** The circumradius *)
Lemma size3 x y z : bp (-250) <= x <= bp 300 -> bp (-250) <= y <= bp 300 -> bp (-250) <= z <= bp 300 ->
  bp (-500) <= x * y <= bp 600 /\ bp (-750) <= x * y * z <= bp 900.
Proof.
  intros X Y Z. pose proof (bpow_gt_0 radix2 (-250)). pose proof (bpow_gt_0 radix2 (-500)).
  assert (bp (-250) * bp (-250) = bp (-500)) as E1 by exact (eq_sym (bpow_plus radix2 (-250) (-250))).
  assert (bp 300 * bp 300 = bp 600) as E2 by exact (eq_sym (bpow_plus radix2 300 300)).
  assert (bp (-500) * bp (-250) = bp (-750)) as E3 by exact (eq_sym (bpow_plus radix2 (-500) (-250))).
  assert (bp 600 * bp 300 = bp 900) as E4 by exact (eq_sym (bpow_plus radix2 600 300)).
  assert (bp (-500) <= x * y <= bp 600) as (L & U) by (rewrite <- E1, <- E2; split; apply Rmult_le_compat; lra).
  split; [lra|]. rewrite <- E3, <- E4. split; apply Rmult_le_compat; lra.
Qed.
Lemma in_1000 v : bp (-900) <= v <= bp 900 -> v = 0 \/ bp (-1000) <= Rabs v <= bp 1000.
Proof.
  intros (L & U). right. pose proof (bpow_gt_0 radix2 (-900)). rewrite Rabs_pos_eq by lra.
  assert (bp (-1000) <= bp (-900)) by (apply bpow_le; lia). assert (bp 900 <= bp 1000) by (apply bpow_le; lia). lra.
Qed.
Lemma side_le_dists a b c : Rabs (side a b c) <= dist a b * dist a c.
Proof. rewrite side_sidev, Rabs_Ropp. pose proof (DistanceErr_proofs.side_le c a b) as H. rewrite (dist_sym c a) in H. lra. Qed.
(** Unless the triangle is nearly flat the relative error of the radius is at
    most 2^-46 times |ab| |ac| over twice the area. *)
Theorem C61_circumradius_error : forall hypot a b c o, hypot_accurate hypot -> mid_pt a -> mid_pt b -> mid_pt c ->
  let side_ok l := bp (-250) <= l <= bp 300 in
  side_ok (dist (rpt a) (rpt b)) -> side_ok (dist (rpt b) (rpt c)) -> side_ok (dist (rpt c) (rpt a)) ->
  let s := Rabs (side (rpt a) (rpt b) (rpt c)) in let p := dist (rpt a) (rpt b) * dist (rpt a) (rpt c) in
  bp (-46) * p < s -> dist o (rpt a) = dist o (rpt b) -> dist o (rpt b) = dist o (rpt c) ->
  let r := tri_circumradius hypot a b c in
  fis_finite r = true /\ Rabs (R_of r - dist o (rpt a)) <= bp (-46) * (p / s) * dist o (rpt a).
Proof.
  intros hypot a b c o Hh Ma Mb Mc side_ok L1 L2 L3 s p H O1 O2 r. unfold side_ok in *. clear side_ok.
  assert (p = dist (rpt a) (rpt b) * dist (rpt c) (rpt a)) as Ep by (unfold p; now rewrite (dist_sym (rpt c))).
  destruct (side_ap hypot a b Hh Ma Mb) as (A1 & _). destruct (side_ap hypot b c Hh Mb Mc) as (A2 & _). destruct (side_ap hypot c a Hh Mc Ma) as (A3 & _).
  destruct (C61_area_error hypot a b c Ma Mb Mc) as (FA & EA & _). fold s p in EA.
  pose proof (side_le_dists (rpt a) (rpt b) (rpt c)) as SP. fold s p in SP.
  destruct (size3 _ _ _ L1 L2 L3) as (R2 & R3). destruct (size3 _ _ _ L1 L3 L2) as (Rp & _). rewrite <- Ep in Rp.
  assert (0 < p) as P0 by (pose proof (bpow_gt_0 radix2 (-500)); lra).
  assert (128 * u53 = bp (-46)) as E46 by exact (eq_sym (bpow_plus radix2 7 (-53))). rewrite <- E46 in *.
  rewrite <- u_8 in EA. pose proof u53_pos as Up. pose proof u53_tiny as Ut.
  assert (0 < s) as S0 by nra.
  assert (side (rpt a) (rpt b) (rpt c) <> 0) as NS by (intros Z; unfold s in S0; rewrite Z, Rabs_R0 in S0; lra).
  assert (o = g_circumcentre R NR (rpt a) (rpt b) (rpt c)) as ->.
  { destruct (circum_eq _ _ _ NS) as (A & B). exact (circum_unique _ _ _ _ _ NS A B O1 O2). }
  rewrite O1, O2. rewrite <- (circumradius_dist _ _ _ NS). fold s. clear O1 O2.
  unfold r, tri_circumradius, g_circumradius. cbn [NF neq nofZ nmul ndiv].
  change (g_area f64 (NF hypot) (pf a) (pf b) (pf c)) with (tri_area hypot a b c). change (fofZ 0) with f0.
  set (A := tri_area hypot a b c) in *. clearbody A.
  assert (R_of A <> 0) as A0.
  { intros Z. rewrite Z in EA. replace (0 - s / 2) with (- (s / 2)) in EA by ring. rewrite Rabs_Ropp, Rabs_pos_eq in EA by lra. lra. }
  rewrite feqb_R by (exact FA || reflexivity). change (R_of f0) with 0. rewrite Req_bool_false by exact A0.
  set (x := dist (rpt a) (rpt b)) in *. set (y := dist (rpt b) (rpt c)) in *. set (z := dist (rpt c) (rpt a)) in *.
  assert (bp 600 <= bp 900) as B69 by (apply bpow_le; lia). assert (bp (-900) <= bp (-500)) as B95 by (apply bpow_le; lia). assert (bp (-900) <= bp (-750)) as B97 by (apply bpow_le; lia).
  assert (M1 : ap 10 (fmul (g_distance f64 (NF hypot) (pf a) (pf b)) (g_distance f64 (NF hypot) (pf b) (pf c))) (x * y)).
  { replace 10 with (4 + 4 + 2) by ring. apply ap_mul; try lra; try assumption. apply in_1000. lra. }
  assert (M2 : ap 16 (fmul (fmul (g_distance f64 (NF hypot) (pf a) (pf b)) (g_distance f64 (NF hypot) (pf b) (pf c))) (g_distance f64 (NF hypot) (pf c) (pf a))) (x * y * z)).
  { replace 16 with (10 + 4 + 2) by ring. apply ap_mul; try lra; try assumption. apply in_1000. lra. }
  set (num := fmul (fmul _ _) _) in *. clearbody num. destruct M2 as (Fn & En). set (N := x * y * z) in *.
  assert (0 < N) as N0 by (pose proof (bpow_gt_0 radix2 (-750)); lra). rewrite (Rabs_pos_eq N) in En by lra.
  assert (R4 : R_of (fofZ 4) = 4) by (rewrite (proj2 (grid_fofZ 4 ltac:(lia))); cbn; lra).
  assert (Rabs (4 * R_of A - 2 * s) <= 32 * u53 * p) as E4.
  { replace (4 * R_of A - 2 * s) with (4 * (R_of A - s / 2)) by field. rewrite Rabs_mult, (Rabs_pos_eq 4) by lra. lra. }
  assert (Rabs (4 * R_of A) <= 2 * s + p / 64) as S4.
  { replace (4 * R_of A) with (2 * s + (4 * R_of A - 2 * s)) by ring. eapply Rle_trans; [apply Rabs_triang|]. rewrite (Rabs_pos_eq (2 * s)) by lra. nra. }
  destruct (fmul_R (fofZ 4) A eq_refl FA) as (Fd & Ed).
  { apply (RN_small' _ 602); [lia|]. rewrite R4. assert (bp 602 = 4 * bp 600) by (change 602%Z with (600 + 1 + 1)%Z; rewrite !bp_S; ring). lra. }
  rewrite R4 in Ed. pose proof (RN_err (4 * R_of A)) as Er. rewrite <- Ed in Er.
  pose proof (eta_le p ltac:(lra)) as Et.
  assert (Rabs (R_of (fmul (fofZ 4) A) - 2 * s) <= 35 * u53 * p) as Ey.
  { replace (R_of (fmul (fofZ 4) A) - 2 * s) with ((R_of (fmul (fofZ 4) A) - 4 * R_of A) + (4 * R_of A - 2 * s)) by ring. eapply Rle_trans; [apply Rabs_triang|].
    assert (u53 * Rabs (4 * R_of A) <= u53 * (2 * p + p / 64)) by (apply Rmult_le_compat_l; lra). nra. }
  set (den := fmul (fofZ 4) A) in *. clearbody den.
  destruct (quot_err (R_of num) N (R_of den) (2 * s) (16 * u53 * N) (35 * u53 * p)) as (Q & Hd); [lra|exact En|exact Ey| |].
  { rewrite Rabs_pos_eq by lra. nra. }
  rewrite (Rabs_pos_eq (2 * s)) in * by lra. set (C := N / (2 * s)) in *.
  assert (0 < C) as C0 by (apply Rdiv_lt_0_compat; lra). rewrite (Rabs_pos_eq C) in Q by lra.
  set (k := p / s). assert (1 <= k) as K1. { unfold k. apply Rmult_le_reg_r with s; [lra|]. unfold Rdiv. rewrite Rmult_assoc, Rinv_l; lra. }
  replace (2 * (16 * u53 * N + C * (35 * u53 * p)) / (2 * s)) with (u53 * (32 * C + 35 * (k * C))) in Q by (unfold C, k; field; lra).
  assert (u53 * k < / 128) as Ku.
  { unfold k. apply Rmult_lt_reg_r with s; [lra|]. replace (u53 * (p / s) * s) with (u53 * p) by (field; lra). lra. }
  assert (C <= k * C) as CK by (rewrite <- (Rmult_1_l C) at 1; apply Rmult_le_compat_r; lra).
  assert (u53 * (32 * C + 35 * (k * C)) <= 67 * (u53 * k) * C) as Q'.
  { replace (67 * (u53 * k) * C) with (u53 * (32 * (k * C) + 35 * (k * C))) by ring. apply Rmult_le_compat_l; lra. }
  assert (y <= 4 * C) as YC.
  { assert (C = y * k / 2) as -> by (unfold C, N, k; rewrite Ep; field; lra). pose proof (bpow_gt_0 radix2 (-250)).
    assert (y * 1 <= y * k) by (apply Rmult_le_compat_l; lra). lra. }
  assert (C <= bp 350) as CU.
  { assert (C = y * k / 2) as -> by (unfold C, N, k; rewrite Ep; field; lra). pose proof (bpow_gt_0 radix2 (-250)).
    assert (u53 * bp 53 = 1) as U1 by exact (eq_sym (bpow_plus radix2 (-53) 53)). pose proof (bpow_gt_0 radix2 53).
    assert (k <= bp 53 / 128) by (apply Rmult_le_reg_l with u53; [lra|]; replace (u53 * (bp 53 / 128)) with (u53 * bp 53 / 128) by field; lra). assert (bp 300 * bp 53 = bp 353) as E3 by exact (eq_sym (bpow_plus radix2 300 53)).
    assert (bp 353 = 8 * bp 350) as E5 by exact (bpow_plus radix2 3 350).
    assert (y * k <= bp 300 * (bp 53 / 128)) by (apply Rmult_le_compat; lra). lra. }
  assert (R_of den <> 0) as D0 by (intros Z; rewrite Z, Rabs_R0 in Hd; lra).
  assert (Rabs (R_of num / R_of den) <= C + 67 * (u53 * k) * C) as Sz.
  { replace (R_of num / R_of den) with (C + (R_of num / R_of den - C)) by ring. eapply Rle_trans; [apply Rabs_triang|]. rewrite (Rabs_pos_eq C) by lra. lra. }
  assert (67 * (u53 * k) * C <= C) as Small by (rewrite <- (Rmult_1_l C) at 2; apply Rmult_le_compat_r; lra).
  destruct (fdiv_R num den Fn D0) as (F & E).
  { apply (RN_small' _ 351); [lia|]. change 351%Z with (350 + 1)%Z. rewrite bp_S. lra. }
  split; [exact F|]. pose proof (RN_err (R_of num / R_of den)) as Er2. rewrite <- E in Er2.
  pose proof (eta_le y) as Ety. assert (bp (-900) <= y) as Ly by (assert (bp (-900) <= bp (-250)) by (apply bpow_le; lia); lra). specialize (Ety Ly).
  assert (u53 * Rabs (R_of num / R_of den) <= u53 * (2 * C)) as T1 by (apply Rmult_le_compat_l; lra).
  assert (u53 * C <= (u53 * k) * C) as T2 by (rewrite Rmult_assoc; apply Rmult_le_compat_l; lra).
  assert (u53 * y <= 4 * (u53 * C)) as T3 by (replace (4 * (u53 * C)) with (u53 * (4 * C)) by ring; apply Rmult_le_compat_l; lra).
  replace (R_of (fdiv num den) - C) with ((R_of (fdiv num den) - R_of num / R_of den) + (R_of num / R_of den - C)) by ring.
  eapply Rle_trans; [apply Rabs_triang|]. replace (128 * u53 * k * C) with (128 * ((u53 * k) * C)) by ring.
  assert (67 * (u53 * k) * C = 67 * (u53 * k * C)) as T5 by ring. assert (0 <= u53 * k * C) as T6 by (apply Rmult_le_pos; [apply Rmult_le_pos|]; lra). lra.
Qed.

(** ** The perpendicular bisector *)
(** For ordinates up to [B]: the value of the line's equation at any point is
    that of (|q - a|^2 - |q - b|^2) / 2 within 2^-45 B (B + |x| + |y|). *)
Theorem C61_bisector_error : forall hypot B a b q, bp (-250) <= B <= bp 300 -> pt_within B a -> pt_within B b ->
  let h := tri_bisector hypot a b in
  fis_finite (hx h) = true /\ fis_finite (hy h) = true /\ fis_finite (hw h) = true /\
  Rabs ((R_of (hx h) * px q + R_of (hy h) * py q + R_of (hw h)) - ((dist q (rpt b))² - (dist q (rpt a))²) / 2) <=
    bp (-45) * (B * (B + Rabs (px q) + Rabs (py q))).
Proof.
  intros hypot B a b q HB (Fax & Fay & Bax & Bay) (Fbx & Fby & Bbx & Bby). cbv zeta.
  pose proof (bpow_gt_0 radix2 (-250)) as Pb. pose proof (B2_range B HB) as (L2 & U2). pose proof (bpow_gt_0 radix2 (-500)) as P5.
  assert (bp (-890) <= bp (-250)) as X1 by (apply bpow_le; lia). assert (bp 310 <= bp 1000) as X2 by (apply bpow_le; lia). assert (1024 * bp 300 = bp 310) as X3 by exact (eq_sym (bpow_plus radix2 10 300)).
  assert (bp (-900) <= bp (-500)) as X4 by (apply bpow_le; lia). assert (bp 610 <= bp 1000) as X5 by (apply bpow_le; lia). assert (1024 * bp 600 = bp 610) as X6 by exact (eq_sym (bpow_plus radix2 10 600)).
  assert (bp (-900) <= bp (-890)) as X7 by (apply bpow_le; lia).
  pose proof (bpow_gt_0 radix2 300). pose proof (bpow_gt_0 radix2 600).
  assert (nr 0 1 (fofZ 1) 1) as one.
  { split; [reflexivity|]. rewrite (proj2 (grid_fofZ 1 ltac:(lia))). change (bp 0) with 1. rewrite Rmult_1_r, Rminus_eq_0, Rabs_R0, Rabs_pos_eq; lra. }
  pose proof (nr_0 B _ Fax Bax) as ax. pose proof (nr_0 B _ Fay Bay) as ay. pose proof (nr_0 B _ Fbx Bbx) as bx. pose proof (nr_0 B _ Fby Bby) as by_.
  assert (forall x y r s, nr 0 B x r -> nr 0 B y s -> nr 2 (2 * B) (fsub x y) (r - s)) as Sub0.
  { intros x y r s X Y. replace (2 * B) with (B + B) by ring. replace 2 with (0 + 2) at 1 by ring. apply nr_sub; try lra; assumption. }
  pose proof (Sub0 _ _ _ _ bx ax) as dx. pose proof (Sub0 _ _ _ _ by_ ay) as dy.
  assert (forall x r, nr 2 (2 * B) x r -> nr 4 B (fdiv x (fofZ 2)) (r / 2)) as Half.
  { intros x r X. replace B with (2 * B / 2) by field. replace 4 with (2 + 2) by ring. change (fofZ 2) with f2. apply nr_half; [lra|lra|exact X]. }
  pose proof (Half _ _ dx) as hx2. pose proof (Half _ _ dy) as hy2.
  assert (forall x y r s, nr 0 B x r -> nr 4 B y s -> nr 6 (2 * B) (fadd x y) (r + s)) as Add1.
  { intros x y r s X Y. replace (2 * B) with (B + B) by ring. replace 6 with (4 + 2) by ring. apply nr_add; [lra|apply u_tiny; lra|lra|apply (nr_weak 0); [lra|exact X]|exact Y]. }
  pose proof (Add1 _ _ _ _ ax hx2) as x1. pose proof (Add1 _ _ _ _ ay hy2) as y1.
  assert (nr 4 (3 * B) (fsub (cx a) (fsub (cy b) (cy a))) (R_of (cx a) - (R_of (cy b) - R_of (cy a)))) as ux.
  { replace (3 * B) with (B + 2 * B) by ring. replace 4 with (2 + 2) by ring. apply nr_sub; [lra|apply u_tiny; lra|lra|apply (nr_weak 0); [lra|exact ax]|exact dy]. }
  assert (nr 4 (3 * B) (fadd (cy a) (fsub (cx b) (cx a))) (R_of (cy a) + (R_of (cx b) - R_of (cx a)))) as uy.
  { replace (3 * B) with (B + 2 * B) by ring. replace 4 with (2 + 2) by ring. apply nr_add; [lra|apply u_tiny; lra|lra|apply (nr_weak 0); [lra|exact ay]|exact dx]. }
  assert (forall x y r s, nr 4 (3 * B) x r -> nr 4 B y s -> nr 6 (4 * B) (fadd x y) (r + s)) as Add2.
  { intros x y r s X Y. replace (4 * B) with (3 * B + B) by ring. replace 6 with (4 + 2) by ring. apply nr_add; [lra|apply u_tiny; lra|lra|exact X|exact Y]. }
  pose proof (Add2 _ _ _ _ ux hx2) as x2. pose proof (Add2 _ _ _ _ uy hy2) as y2.
  assert (forall x r k, 1 <= k <= 4 -> nr 6 (k * B) x r -> nr 8 (k * B) (fmul x (fofZ 1)) r) as Mul1.
  { intros x r k Hk X. replace r with (r * 1) by ring. replace (k * B) with (k * B * 1) by ring. replace 8 with (6 + 0 + 2) by ring. apply nr_mul; [lra|lra|nra|exact X|exact one]. }
  pose proof (Mul1 _ _ 2 ltac:(lra) x1) as x1'. pose proof (Mul1 _ _ 2 ltac:(lra) y1) as y1'. pose proof (Mul1 _ _ 4 ltac:(lra) x2) as x2'. pose proof (Mul1 _ _ 4 ltac:(lra) y2) as y2'.
  pose proof (nr_sub 8 (2 * B) (4 * B) _ _ _ _ ltac:(lra) (u_tiny 8 ltac:(lra)) ltac:(lra) y1' y2') as Hx.
  pose proof (nr_sub 8 (4 * B) (2 * B) _ _ _ _ ltac:(lra) (u_tiny 8 ltac:(lra)) ltac:(lra) x2' x1') as Hy.
  assert (forall x y r s i j, i * j = 8 -> nr 6 (i * B) x r -> nr 6 (j * B) y s -> nr 14 (8 * (B * B)) (fmul x y) (r * s)) as Mul2.
  { intros x y r s i j E X Y. replace (8 * (B * B)) with (i * B * (j * B)) by (rewrite <- E; ring). replace 14 with (6 + 6 + 2) by ring.
    apply nr_mul; [lra|lra| |exact X|exact Y]. replace (i * B * (j * B)) with (8 * (B * B)) by (rewrite <- E; ring). lra. }
  pose proof (Mul2 _ _ _ _ 2 4 ltac:(lra) x1 y2) as m1. pose proof (Mul2 _ _ _ _ 4 2 ltac:(lra) x2 y1) as m2.
  pose proof (nr_sub 14 (8 * (B * B)) (8 * (B * B)) _ _ _ _ ltac:(lra) (u_tiny 14 ltac:(lra)) ltac:(lra) m1 m2) as Hw.
  destruct Hx as (Fx & Ex & _), Hy as (Fy & Ey & _), Hw as (Fw & Ew & _).
  unfold tri_bisector, g_bisector, pf. cbn [NF nadd nsub nmul ndiv nofZ px py hx hy hw].
  split; [exact Fx|]. split; [exact Fy|]. split; [exact Fw|].
  set (x := fsub (fmul (fadd (cy a) _) (fofZ 1)) _) in *. set (y := fsub (fmul (fadd (fsub (cx a) _) _) (fofZ 1)) _) in *. set (w := fsub (fmul (fadd (cx a) _) (fadd _ _)) _) in *.
  clearbody x y w. set (X := _ + _ - (_ + _)) in Ex. set (Y := _ + _ - (_ + _)) in Ey. set (W := _ * _ - _ * _) in Ew.
  assert (((dist q (rpt b))² - (dist q (rpt a))²) / 2 = X * px q + Y * py q + W) as ->.
  { unfold dist. rewrite !Rsqr_sqrt by (apply Rplus_le_le_0_compat; apply Rle_0_sqr). unfold X, Y, W, Rsqr, rpt. cbn [px py]. field. }
  clearbody X Y W. pose proof u53_pos as Up.
  assert (256 * u53 = bp (-45)) as <- by exact (eq_sym (bpow_plus radix2 8 (-53))).
  replace (R_of x * px q + R_of y * py q + R_of w - (X * px q + Y * py q + W)) with ((R_of x - X) * px q + (R_of y - Y) * py q + (R_of w - W)) by ring.
  eapply Rle_trans; [apply Rabs_triang|]. eapply Rle_trans; [apply Rplus_le_compat_r, Rabs_triang|]. rewrite !Rabs_mult.
  pose proof (Rabs_pos (px q)) as Q1. pose proof (Rabs_pos (py q)) as Q2.
  assert (Rabs (R_of x - X) * Rabs (px q) <= 60 * u53 * B * Rabs (px q)) as T1 by (apply Rmult_le_compat_r; [exact Q1|lra]).
  assert (Rabs (R_of y - Y) * Rabs (py q) <= 60 * u53 * B * Rabs (py q)) as T2 by (apply Rmult_le_compat_r; [exact Q2|lra]).
  assert (0 <= u53 * B * Rabs (px q)) by (apply Rmult_le_pos; [nra|exact Q1]). assert (0 <= u53 * B * Rabs (py q)) by (apply Rmult_le_pos; [nra|exact Q2]).
  nra.
Qed.

(** ** Interpolation of Z *)
(** [x] is finite and within [E] of [r]. *)
Definition er (E : R) (x : f64) (r : R) : Prop := fis_finite x = true /\ Rabs (R_of x - r) <= E.
Lemma er_add E G x y r s : er E x r -> er G y s -> Rabs r + E + (Rabs s + G) <= bp 1000 ->
  er (E + G + u53 * (Rabs (r + s) + (E + G))) (fadd x y) (r + s).
Proof.
  intros (Fx & Ex) (Fy & Ey) B.
  assert (Rabs (R_of x + R_of y - (r + s)) <= E + G) as D.
  { replace (R_of x + R_of y - (r + s)) with ((R_of x - r) + (R_of y - s)) by ring. eapply Rle_trans; [apply Rabs_triang|]. lra. }
  assert (Rabs (R_of x + R_of y) <= Rabs (r + s) + (E + G)) as S.
  { replace (R_of x + R_of y) with ((r + s) + (R_of x + R_of y - (r + s))) by ring. eapply Rle_trans; [apply Rabs_triang|]. lra. }
  destruct (fadd_R x y Fx Fy) as (F & R).
  { apply (RN_small' _ 1000); [lia|]. pose proof (Rabs_triang r s). lra. }
  split; [exact F|]. pose proof (RN_sum_err _ _ (format_R x) (format_R y)) as Er. rewrite <- R in Er.
  replace (R_of (fadd x y) - (r + s)) with ((R_of (fadd x y) - (R_of x + R_of y)) + (R_of x + R_of y - (r + s))) by ring.
  eapply Rle_trans; [apply Rabs_triang|]. pose proof u53_pos. nra.
Qed.
Lemma er_mul E G x y r s Z : er E x r -> er G y s -> bp (-900) <= Z -> (Rabs r + E) * (Rabs s + G) <= bp 1000 ->
  let d := E * (Rabs s + G) + Rabs r * G in er (d + u53 * (Rabs (r * s) + d) + u53 * Z / 1024) (fmul x y) (r * s).
Proof.
  intros (Fx & Ex) (Fy & Ey) LZ B d.
  assert (Rabs (R_of y) <= Rabs s + G) as Sy.
  { replace (R_of y) with (s + (R_of y - s)) by ring. eapply Rle_trans; [apply Rabs_triang|]. lra. }
  assert (Rabs (R_of x) <= Rabs r + E) as Sx.
  { replace (R_of x) with (r + (R_of x - r)) by ring. eapply Rle_trans; [apply Rabs_triang|]. lra. }
  assert (Rabs (R_of x * R_of y - r * s) <= d) as D.
  { replace (R_of x * R_of y - r * s) with ((R_of x - r) * R_of y + r * (R_of y - s)) by ring. eapply Rle_trans; [apply Rabs_triang|]. rewrite !Rabs_mult. unfold d.
    apply Rplus_le_compat; apply Rmult_le_compat; try apply Rabs_pos; lra. }
  assert (Rabs (R_of x * R_of y) <= Rabs (r * s) + d) as S.
  { replace (R_of x * R_of y) with (r * s + (R_of x * R_of y - r * s)) by ring. eapply Rle_trans; [apply Rabs_triang|]. lra. }
  destruct (fmul_R x y Fx Fy) as (F & R).
  { apply (RN_small' _ 1000); [lia|]. rewrite Rabs_mult. eapply Rle_trans; [|exact B]. apply Rmult_le_compat; try apply Rabs_pos; lra. }
  split; [exact F|]. pose proof (RN_err (R_of x * R_of y)) as Er. rewrite <- R in Er. pose proof (eta_le Z LZ) as Et.
  replace (R_of (fmul x y) - r * s) with ((R_of (fmul x y) - R_of x * R_of y) + (R_of x * R_of y - r * s)) by ring.
  eapply Rle_trans; [apply Rabs_triang|]. pose proof u53_pos. nra.
Qed.
Lemma nr_neg c w x r : nr c w x r -> nr c w (fneg x) (- r).
Proof.
  intros (F & E & B). split; [now rewrite fneg_fin|]. rewrite fneg_R. split; [|now rewrite Rabs_Ropp].
  replace (- R_of x - - r) with (- (R_of x - r)) by ring. now rewrite Rabs_Ropp.
Qed.
(** [D] bounds the distances along the axes from the first vertex, [Z] the heights,
    and (t, s) is the place of [p] in the triangle. Unless the triangle is nearly flat
    the height is right within 2^-45 (1 + |t| + |s|) Z D^2 / |w|; [w] is twice the area. *)
Theorem C61_interpolate_error : forall hypot D Z p a b c t s, bp (-250) <= D <= bp 300 -> bp (-250) <= Z <= bp 300 ->
  pt_within (bp 900) p -> pt_within (bp 900) a -> pt_within (bp 900) b -> pt_within (bp 900) c -> apart D p a -> apart D b a -> apart D c a ->
  (forall q, In q [a; b; c] -> fis_finite (cz q) = true /\ Rabs (R_of (cz q)) <= Z) ->
  let w := side (rpt a) (rpt b) (rpt c) in bp (-45) * (D * D) < Rabs w ->
  px (rpt p) = px (rpt a) + t * (px (rpt b) - px (rpt a)) + s * (px (rpt c) - px (rpt a)) ->
  py (rpt p) = py (rpt a) + t * (py (rpt b) - py (rpt a)) + s * (py (rpt c) - py (rpt a)) ->
  let z := R_of (cz a) + t * (R_of (cz b) - R_of (cz a)) + s * (R_of (cz c) - R_of (cz a)) in
  let r := tri_interpolate_z hypot p a b c in
  fis_finite r = true /\ Rabs (R_of r - z) <= bp (-45) * ((1 + Rabs t + Rabs s) * Z * (D * D / Rabs w)).
Proof.
  intros hypot D Z p a b c t s HD HZ Wp Wa Wb Wc Ap Ab Ac Hz w Hw Ex Ey z r.
  destruct (arms D b c a HD Wb Wc Wa Ab Ac) as (Na & Nc & Nb & Nd). destruct (arms D p p a HD Wp Wp Wa Ap Ap) as (Nx & Ny & _).
  destruct (sum_nr D HD _ _ _ _ _ _ _ _ Na Nd Nb Nc) as (_ & det). destruct (sum_nr D HD _ _ _ _ _ _ _ _ Nd Nx Nb Ny) as (_ & tn).
  destruct (sum_nr D HD _ _ _ _ _ _ _ _ (nr_neg _ _ _ _ Nc) Nx Na Ny) as (un & _).
  assert ((R_of (cx b) - R_of (cx a)) * (R_of (cy c) - R_of (cy a)) - (R_of (cx c) - R_of (cx a)) * (R_of (cy b) - R_of (cy a)) = w) as Ew by (unfold w, side, rpt; cbn [px py]; ring).
  cbn [rpt px py] in Ex, Ey.
  assert ((R_of (cy c) - R_of (cy a)) * (R_of (cx p) - R_of (cx a)) - (R_of (cx c) - R_of (cx a)) * (R_of (cy p) - R_of (cy a)) = t * w) as Et by (rewrite <- Ew, Ex, Ey; ring).
  assert (- (R_of (cy b) - R_of (cy a)) * (R_of (cx p) - R_of (cx a)) + (R_of (cx b) - R_of (cx a)) * (R_of (cy p) - R_of (cy a)) = s * w) as Es by (rewrite <- Ew, Ex, Ey; ring).
  rewrite Ew in det. rewrite Et in tn. rewrite Es in un. clear Ex Ey.
  assert (256 * u53 = bp (-45)) as E45 by exact (eq_sym (bpow_plus radix2 8 (-53))). rewrite <- E45 in *.
  pose proof u53_pos as Up. pose proof u53_tiny as Ut. pose proof (bpow_gt_0 radix2 (-250)) as P2.
  assert (0 < D * D) as D2 by nra. assert (0 < Rabs w) as W0 by nra. assert (w <> 0) as Wn by (intros E; rewrite E, Rabs_R0 in W0; lra).
  unfold r, tri_interpolate_z, g_interpolate_z. cbn [NF nsub nmul nadd ndiv nneg pf px py].
  set (tx := fsub (fmul (fsub (cy c) (cy a)) _) _) in *. set (ux := fadd (fmul (fneg _) _) _) in *. set (dt := fsub (fmul (fsub (cx b) (cx a)) _) _) in *. clearbody tx ux dt.
  set (k := D * D / Rabs w). assert (0 < k) as K0 by (apply Rdiv_lt_0_compat; lra).
  assert (/ 2 <= k) as K2.
  { destruct det as (_ & _ & Bd). unfold k. apply Rmult_le_reg_r with (Rabs w); [exact W0|]. unfold Rdiv. rewrite Rmult_assoc, Rinv_l by lra. lra. }
  set (q := u53 * k). assert (0 < q) as Q0 by (unfold q; nra).
  assert (q < / 256) as Q1.
  { unfold q, k. apply Rmult_lt_reg_r with (Rabs w); [exact W0|]. replace (u53 * (D * D / Rabs w) * Rabs w) with (u53 * (D * D)) by (field; lra). lra. }
  assert (u53 <= 2 * q) as Uq by (unfold q; nra).
  assert (forall n N m, nr 6 (2 * (D * D)) n N -> N = m * w -> er (32 * q * (1 + Rabs m)) (fdiv n dt) m /\ Rabs m <= bp 600) as Quot.
  { intros n N m (Fn & En & Bn) EN. destruct det as (Fd & Ed & Bd).
    destruct (quot_gen 32 2 12 12 D (D * D) 1 n dt N w) as (F & E & B & _); try assumption; try lra.
    - change 1 with (bp 0). apply bpow_le. lia.
    - change 1 with (bp 0). apply bpow_le. lia.
    - assert (N / w = m) as Em by (rewrite EN; field; exact Wn). rewrite Em in E, B. split; [|exact B]. split; [exact F|].
      eapply Rle_trans; [exact E|]. unfold q, k. right. field. lra. }
  destruct (Quot _ _ t tn eq_refl) as (Qt & Bt). destruct (Quot _ _ s un eq_refl) as (Qs & Bs). clear Quot.
  set (T := fdiv tx dt) in *. set (U := fdiv ux dt) in *. clearbody T U.
  destruct (Hz a ltac:(cbn; tauto)) as (Fa & Za). destruct (Hz b ltac:(cbn; tauto)) as (Fb & Zb). destruct (Hz c ltac:(cbn; tauto)) as (Fc & Zc).
  pose proof (Rabs_pos t) as T0. pose proof (Rabs_pos s) as S0. set (at_ := Rabs t) in *. set (as_ := Rabs s) in *.
  assert (bp 900 <= bp 1000) as BB by (apply bpow_le; lia). assert (bp 600 * bp 300 = bp 900) as B9 by exact (eq_sym (bpow_plus radix2 600 300)).
  assert (bp 910 <= bp 1000) as BC by (apply bpow_le; lia). assert (1024 * bp 900 = bp 910) as BD by exact (eq_sym (bpow_plus radix2 10 900)).
  assert (1 <= bp 600) as B1 by (change 1 with (bp 0); apply bpow_le; lia). assert (bp 300 <= bp 900) as B39 by (apply bpow_le; lia).
  assert (bp (-900) <= Z) as LZ by (assert (bp (-900) <= bp (-250)) by (apply bpow_le; lia); lra).
  assert (forall m V x, er (32 * q * (1 + Rabs m)) V m -> Rabs m <= bp 600 -> fis_finite x = true -> Rabs (R_of x) <= Z ->
    er (76 * (q * (1 + Rabs m) * Z)) (fmul V (fsub x (cz a))) (m * (R_of x - R_of (cz a))) /\ Rabs (m * (R_of x - R_of (cz a))) <= 2 * (Rabs m * Z)) as Term.
  { intros m V x EV Bm Fx Zx. set (h := R_of x - R_of (cz a)). pose proof (Rabs_pos m) as M0. set (am := Rabs m) in *.
    assert (Rabs h <= 2 * Z) as Hh by (unfold h, Rminus; eapply Rle_trans; [apply Rabs_triang|]; rewrite Rabs_Ropp; lra).
    assert (er (2 * u53 * Z) (fsub x (cz a)) h) as Eh.
    { destruct (nr_sub0 (2 * Z) x (cz a) Fx Fa Hh) as (F & E & _); [lra|]. split; [exact F|]. fold h in E. lra. }
    assert (32 * q * (1 + am) <= (1 + am) / 8) as Qm by (replace ((1 + am) / 8) with (/ 8 * (1 + am)) by field; apply Rmult_le_compat_r; lra).
    assert (0 <= q * (1 + am) * Z) as QZ by pos.
    assert (0 <= 32 * q * (1 + am)) as Q0' by pos.
    assert (u53 <= / 2048) as U11 by (change (/ 2048) with (bp (-11)); apply bpow_le; lia).
    assert (u53 * Z <= / 2048 * Z) as UZ by (apply Rmult_le_compat_r; lra). assert (0 <= u53 * Z) as UZ0 by (apply Rmult_le_pos; lra).
    assert (Rabs h + 2 * u53 * Z <= 2 * Z + Z / 1000) as Hh2 by lra.
    assert (0 <= Rabs h) as Hh0 by apply Rabs_pos.
    assert (am * Z <= bp 900) as AZ by (rewrite <- B9; apply Rmult_le_compat; lra).
    pose proof (er_mul _ _ _ _ _ _ Z EV Eh LZ) as EM. fold am in EM. cbv zeta in EM.
    assert (Rabs (m * h) <= 2 * (am * Z)) as Mh by (rewrite Rabs_mult; fold am; replace (2 * (am * Z)) with (am * (2 * Z)) by ring; apply Rmult_le_compat_l; lra).
    destruct EM as (F & E).
    { apply Rle_trans with ((2 * (1 + am)) * (3 * Z)); [apply Rmult_le_compat; lra|lra]. }
    split; [|exact Mh]. split; [exact F|]. eapply Rle_trans; [exact E|].
    set (g := q * (1 + am) * Z) in *. 
    assert (32 * q * (1 + am) * (Rabs h + 2 * u53 * Z) <= 65 * g) as D1.
    { apply Rle_trans with (32 * q * (1 + am) * (2 * Z + Z / 1000)); [apply Rmult_le_compat_l; lra|]. unfold g. unfold g in QZ. lra. }
    assert (0 <= q * am * Z) as QA by pos. assert (0 <= q * Z) as QB by (apply Rmult_le_pos; lra).
    assert (g = q * Z + q * am * Z) as Eg by (unfold g; ring).
    assert (u53 * (am * Z) <= 2 * (q * am * Z)) as D3 by (replace (2 * (q * am * Z)) with (2 * q * (am * Z)) by ring; apply Rmult_le_compat_r; [apply Rmult_le_pos|]; lra).
    assert (u53 * Z <= 2 * (q * Z)) as D4 by (rewrite <- Rmult_assoc; apply Rmult_le_compat_r; lra).
    assert (u53 * (Rabs (m * h) + (32 * q * (1 + am) * (Rabs h + 2 * u53 * Z) + am * (2 * u53 * Z))) <= u53 * (2 * (am * Z)) + / 1000 * (65 * g + 4 * (q * am * Z))) as D5.
    { assert (0 <= 32 * q * (1 + am) * (Rabs h + 2 * u53 * Z)) by (apply Rmult_le_pos; [exact Q0'|lra]).
      assert (am * (2 * u53 * Z) <= 4 * (q * am * Z)) by lra. assert (0 <= am * (2 * u53 * Z)) by (apply Rmult_le_pos; lra).
      apply Rle_trans with (u53 * (2 * (am * Z)) + u53 * (65 * g + 4 * (q * am * Z))); [rewrite <- Rmult_plus_distr_l; apply Rmult_le_compat_l; lra|].
      apply Rplus_le_compat_l. apply Rmult_le_compat_r; lra. }
    lra. }
  destruct (Term t T (cz b) Qt Bt Fb Zb) as (M1 & S1). destruct (Term s U (cz c) Qs Bs Fc Zc) as (M2 & S2). clear Term. fold at_ in M1, S1, Bt. fold as_ in M2, S2, Bs.
  assert (0 <= q * Z) as G0 by (apply Rmult_le_pos; lra). assert (0 <= q * at_ * Z) as G1 by pos. assert (0 <= q * as_ * Z) as G2 by pos.
  assert (at_ * Z <= bp 900) as AZ by (rewrite <- B9; apply Rmult_le_compat; lra). assert (as_ * Z <= bp 900) as SZ by (rewrite <- B9; apply Rmult_le_compat; lra).
  assert (0 <= at_ * Z) as AZ0 by (apply Rmult_le_pos; lra). assert (0 <= as_ * Z) as SZ0 by (apply Rmult_le_pos; lra).
  assert (q * Z <= Z) as g0 by (rewrite <- (Rmult_1_l Z) at 2; apply Rmult_le_compat_r; lra).
  assert (q * at_ * Z <= at_ * Z / 256) as g1 by (replace (at_ * Z / 256) with (/ 256 * (at_ * Z)) by field; rewrite Rmult_assoc; apply Rmult_le_compat_r; lra).
  assert (q * as_ * Z <= as_ * Z / 256) as g2 by (replace (as_ * Z / 256) with (/ 256 * (as_ * Z)) by field; rewrite Rmult_assoc; apply Rmult_le_compat_r; lra).
  replace (76 * (q * (1 + at_) * Z)) with (76 * (q * Z + q * at_ * Z)) in M1 by ring. replace (76 * (q * (1 + as_) * Z)) with (76 * (q * Z + q * as_ * Z)) in M2 by ring.
  assert (er 0 (cz a) (R_of (cz a))) as Ea by (split; [exact Fa|]; rewrite Rminus_eq_0, Rabs_R0; lra).
  set (t1 := t * _) in *. set (s1 := s * _) in *.
  pose proof (er_add _ _ _ _ _ _ Ea M1 ltac:(lra)) as A1.
  assert (Rabs (R_of (cz a) + t1) <= Z + 2 * (at_ * Z)) as N1 by (eapply Rle_trans; [apply Rabs_triang|]; lra).
  assert (u53 * (at_ * Z) <= 2 * (q * at_ * Z)) as D3 by (replace (2 * (q * at_ * Z)) with (2 * q * (at_ * Z)) by ring; apply Rmult_le_compat_r; lra).
  assert (u53 * (as_ * Z) <= 2 * (q * as_ * Z)) as D4 by (replace (2 * (q * as_ * Z)) with (2 * q * (as_ * Z)) by ring; apply Rmult_le_compat_r; lra).
  assert (u53 * Z <= 2 * (q * Z)) as D5 by (rewrite <- Rmult_assoc; apply Rmult_le_compat_r; lra).
  assert (er (82 * (q * Z + q * at_ * Z)) (fadd (cz a) (fmul T (fsub (cz b) (cz a)))) (R_of (cz a) + t1)) as A1'.
  { destruct A1 as (F & E). split; [exact F|]. eapply Rle_trans; [exact E|].
    assert (u53 * (Rabs (R_of (cz a) + t1) + (0 + 76 * (q * Z + q * at_ * Z))) <= u53 * (Z + 2 * (at_ * Z)) + / 1000 * (76 * (q * Z + q * at_ * Z))) as X.
    { apply Rle_trans with (u53 * (Z + 2 * (at_ * Z)) + u53 * (76 * (q * Z + q * at_ * Z))); [rewrite <- Rmult_plus_distr_l; apply Rmult_le_compat_l; lra|].
      apply Rplus_le_compat_l. apply Rmult_le_compat_r; lra. }
    lra. }
  pose proof (er_add _ _ _ _ _ _ A1' M2 ltac:(lra)) as (F & E). split; [exact F|]. fold z in E. eapply Rle_trans; [exact E|].
  assert (Rabs z <= Z + 2 * (at_ * Z) + 2 * (as_ * Z)) as N2.
  { unfold z. fold t1 s1. eapply Rle_trans; [apply Rabs_triang|]. lra. }
  set (e2 := 82 * (q * Z + q * at_ * Z) + 76 * (q * Z + q * as_ * Z)) in *. assert (0 <= e2) as E20 by (unfold e2; lra).
  change (R_of (cz a) + t1 + s1) with z.
  assert (u53 * (Rabs z + e2) <= u53 * (Z + 2 * (at_ * Z) + 2 * (as_ * Z)) + / 1000 * e2) as X.
  { apply Rle_trans with (u53 * (Z + 2 * (at_ * Z) + 2 * (as_ * Z)) + u53 * e2); [rewrite <- Rmult_plus_distr_l; apply Rmult_le_compat_l; lra|].
    apply Rplus_le_compat_l. apply Rmult_le_compat_r; lra. }
  replace (256 * u53 * ((1 + at_ + as_) * Z * k)) with (256 * (q * Z + q * at_ * Z + q * as_ * Z)) by (unfold q; ring).
  unfold e2 in *. lra.
Qed.

(** A triangle of side 2 far from the origin, at 2^40: twice its area is 4, and
    its circumcentre is (2^40 + 1, 2^40 + 1). Its vertices and its centre of mass
    meet the hypotheses of the error theorems with D = 2. *)
Example C61_circum_example : let N := (2 ^ 40)%Z in
  let a := ipt (N + 2) N in let b := ipt N (N + 2) in let c := ipt N N in let o := mkP (bp 40 + 1) (bp 40 + 1) in
  let s := side (rpt a) (rpt b) (rpt c) in
  pt_within (bp 41) a /\ pt_within (bp 41) b /\ pt_within (bp 41) c /\ apart 2 a c /\ apart 2 b c /\
  s = 4 /\ bp (-45) * (2 * 2) < Rabs s /\ dist o (rpt a) = dist o (rpt b) /\ dist o (rpt b) = dist o (rpt c) /\
  loss (-46) 2 s 1 + bp (-53) * (bp 40 + 1) < bp (-12) /\
  dist (rpt a) (rpt c) = 2 /\ dist (rpt b) (rpt c) = 2 /\ 2 <= dist (rpt a) (rpt b) <= 4.
Proof.
  intros N a b c o.
  assert (RN0 : R_of (fofZ N) = bp 40) by (rewrite (proj2 (grid_fofZ N ltac:(unfold N; lia))); change (bp 0) with 1; rewrite Rmult_1_r; reflexivity).
  assert (RN2 : R_of (fofZ (N + 2)) = bp 40 + 2).
  { rewrite (proj2 (grid_fofZ (N + 2) ltac:(unfold N; lia))). rewrite plus_IZR. change (bp 0) with 1. rewrite Rmult_1_r. reflexivity. }
  assert (2 <= bp 40) as B4 by (change 2 with (bp 1); apply bpow_le; lia).
  assert (bp 41 = 2 * bp 40) as B41 by (change 41%Z with (40 + 1)%Z; apply bp_S).
  assert (rpt a = mkP (bp 40 + 2) (bp 40)) as Ea by (unfold rpt, a, ipt; cbn [cx cy new_xy]; now rewrite RN0, RN2).
  assert (rpt b = mkP (bp 40) (bp 40 + 2)) as Eb by (unfold rpt, b, ipt; cbn [cx cy new_xy]; now rewrite RN0, RN2).
  assert (rpt c = mkP (bp 40) (bp 40)) as Ec by (unfold rpt, c, ipt; cbn [cx cy new_xy]; now rewrite RN0).
  cbv zeta. rewrite Ea, Eb, Ec. assert (side (mkP (bp 40 + 2) (bp 40)) (mkP (bp 40) (bp 40 + 2)) (mkP (bp 40) (bp 40)) = 4) as -> by (unfold side; cbn [px py]; ring).
  assert (forall i j, (i = N \/ i = N + 2)%Z -> (j = N \/ j = N + 2)%Z -> pt_within (bp 41) (ipt i j)) as PW.
  { intros i j [-> | ->] [-> | ->]; unfold ipt, pt_within; cbn [cx cy new_xy]; rewrite ?RN0, ?RN2, ?Rabs_pos_eq by lra;
      (split; [reflexivity|]; split; [reflexivity|]; split; lra). }
  do 3 (split; [apply PW; tauto|]).
  split. { unfold apart, a, c, ipt; cbn [cx cy new_xy]; rewrite ?RN0, ?RN2; split; apply Rabs_le; lra. }
  split. { unfold apart, b, c, ipt; cbn [cx cy new_xy]; rewrite ?RN0, ?RN2; split; apply Rabs_le; lra. }
  split; [reflexivity|]. rewrite Rabs_pos_eq by lra.
  split. { assert (bp (-45) < 1) by (change 1 with (bp 0); apply bpow_lt; lia). lra. }
  unfold dist, o. cbn [px py]. split; [f_equal; unfold Rsqr; ring|]. split; [f_equal; unfold Rsqr; ring|].
  split.
  { unfold loss. rewrite Rabs_pos_eq by lra. replace (2 * 2 * (2 + 1) / 4) with 3 by field. rewrite Rmult_plus_distr_l.
    assert (bp (-46) <= bp (-16)) by (apply bpow_le; lia). assert (bp (-53) <= bp (-16)) by (apply bpow_le; lia).
    assert (bp (-53) * bp 40 = bp (-13)) as E by exact (eq_sym (bpow_plus radix2 (-53) 40)).
    assert (bp (-12) = 2 * bp (-13)) by (change (-12)%Z with (-13 + 1)%Z; apply bp_S).
    assert (bp (-13) = 8 * bp (-16)) by (exact (bpow_plus radix2 3 (-16))). pose proof (bpow_gt_0 radix2 (-16)). lra. }
  split; [|split].
  - transitivity (sqrt (2 * 2)); [f_equal; unfold Rsqr; ring|apply sqrt_square; lra].
  - transitivity (sqrt (2 * 2)); [f_equal; unfold Rsqr; ring|apply sqrt_square; lra].
  - replace ((bp 40 + 2 - bp 40)² + (bp 40 - (bp 40 + 2))²) with 8 by (unfold Rsqr; ring). split.
    + rewrite <- (sqrt_square 2) by lra. apply sqrt_le_1_alt. lra.
    + rewrite <- (sqrt_square 4) by lra. apply sqrt_le_1_alt. lra.
Qed.
