(** C55, continued: the interior angles of a triangle. The unit test of the
    repository adds them up for one triangle; here they are added up for every
    triangle. *)
From Coq Require Import ZArith Bool Reals Lia Lra Psatz.
From Flocq Require Import Core IEEE754.BinarySingleNaN.
From Verif Require Import Base F64 F64Facts F64Err Num NumLink DD_more Coordinate_model Distance_spec Distance_proofs Distance_props
  Orientation_props Intersection_proofs Intersection_props PointLocation_proofs LineIntersector_proofs DDArith_proofs Angle_model Angle_proofs Angle_props AngleMore_props.
Local Open Scope R_scope.

(** *** What is meant *)
(** The arms from [q] to [p] and to [r]. *)
Definition dotp (p q r : pR) : R := (px p - px q) * (px r - px q) + (py p - py q) * (py r - py q).
Definition turnp (p q r : pR) : R := (px p - px q) * (py r - py q) - (py p - py q) * (px r - px q).
Definition len (p q : pR) : R := sqrt ((px p - px q) * (px p - px q) + (py p - py q) * (py p - py q)).
(** The angle of the triangle at [q], as in the law of cosines. *)
Definition corner (a : R) (p q r : pR) : Prop := 0 <= a <= PI /\ dotp p q r = len p q * len r q * cos a.

(** *** Directions and corners *)
Lemma len_dir t x y r : 0 < r -> x = r * cos t -> y = r * sin t -> sqrt (x * x + y * y) = r.
Proof.
  intros R0 -> ->. replace (r * cos t * (r * cos t) + r * sin t * (r * sin t)) with (r * r).
  - apply sqrt_square. lra.
  - pose proof (sin2_cos2 t) as Q. unfold Rsqr in Q. nra.
Qed.
Lemma corner_dir s t a p q r : seen s q p -> seen t q r -> corner a (rpt p) (rpt q) (rpt r) ->
  (0 < turnp (rpt p) (rpt q) (rpt r) -> 0 < a < PI /\ exists k, t - s = a + 2 * IZR k * PI) /\
  (turnp (rpt p) (rpt q) (rpt r) < 0 -> 0 < a < PI /\ exists k, t - s = - a + 2 * IZR k * PI).
Proof.
  intros (u & U & X0 & Y0) (v & V & X1 & Y1) (A & D). unfold dotp, turnp, len in *. cbn [rpt px py] in *.
  rewrite (len_dir _ _ _ _ U X0 Y0), (len_dir _ _ _ _ V X1 Y1) in D. rewrite X0, Y0, X1, Y1 in D |- *.
  assert (UV : 0 < u * v) by now apply Rmult_lt_0_compat.
  assert (CC : cos (t - s) = cos a).
  { rewrite cos_minus. apply (Rmult_eq_reg_l (u * v)); [|lra]. rewrite <- D. ring. }
  replace (u * cos s * (v * sin t) - u * sin s * (v * cos t)) with (u * v * sin (t - s)) by (rewrite sin_minus; ring).
  assert (SA : 0 <= sin a) by (apply sin_ge_0; lra).
  pose proof (sin2_cos2 a) as Q1. pose proof (sin2_cos2 (t - s)) as Q2. unfold Rsqr in *. rewrite CC in Q2.
  assert (I : sin a <> 0 -> 0 < a < PI).
  { intros N. split.
    - destruct (Req_dec a 0) as [E|]; [|lra]. exfalso. apply N. now rewrite E, sin_0.
    - destruct (Req_dec a PI) as [E|]; [|lra]. exfalso. apply N. now rewrite E, sin_PI. }
  split; intros T'.
  - assert (0 < sin (t - s)) as P by (apply (Rmult_lt_reg_l (u * v)); lra).
    assert (sin (t - s) = sin a) as SS by nra. split; [apply I; lra|].
    apply (direction_unique _ _ (cos a) (sin a)); exists 1; rewrite ?CC, ?SS; lra.
  - assert (sin (t - s) < 0) as P by (apply (Rmult_lt_reg_l (u * v)); lra).
    assert (sin (t - s) = - sin a) as SS by nra. split; [apply I; lra|].
    apply (direction_unique _ _ (cos a) (- sin a)); exists 1; rewrite ?cos_neg, ?sin_neg, ?CC, ?SS; lra.
Qed.
Lemma seen_some p q : rpt p <> rpt q -> exists t, seen t p q.
Proof.
  intros N. exists (atan2R (R_of (cy q) - R_of (cy p)) (R_of (cx q) - R_of (cx p))). apply atan2R_direction.
  destruct (Req_dec (R_of (cx q) - R_of (cx p)) 0) as [Z|Z]; [|now left]. destruct (Req_dec (R_of (cy q) - R_of (cy p)) 0) as [W|W]; [|now right].
  exfalso. apply N. unfold rpt. f_equal; lra.
Qed.
Lemma seen_back t p q : seen t p q -> seen (t + PI) q p.
Proof.
  intros (r & R0 & X & Y). exists r. rewrite neg_cos, neg_sin. lra.
Qed.
Lemma turnp_rot p q r : turnp p q r = turnp q r p.
Proof. unfold turnp. ring. Qed.
Lemma bp47 : 0 < bp (-47) /\ bp (-47) < / 1024 /\ bp (-46) = 2 * bp (-47).
Proof. change (bp (-47)) with (/ 140737488355328). change (bp (-46)) with (/ 70368744177664). lra. Qed.
(** An angle in one turn, known up to whole turns. *)
Lemma whole_turns y a k : 0 <= y < 2 * PI -> bp (-46) <= a -> a <= 2 * PI - bp (-46) -> Rabs (y - (a + 2 * IZR k * PI)) <= bp (-47) -> Rabs (y - a) <= bp (-47).
Proof.
  intros Y A B E. pose proof bp47 as (P & Q & W). pose proof PI_bounds as PB. apply Rabs_le_inv in E.
  assert (k = 0%Z) as ->.
  { destruct (Z_lt_le_dec 0 k) as [L|L].
    - exfalso. assert (1 <= IZR k) by (apply (IZR_le 1); lia). assert (PI <= IZR k * PI) by nra. lra.
    - destruct (Z_lt_le_dec k 0) as [M|M]; [|lia]. exfalso. assert (IZR k <= -1) by (apply (IZR_le _ (-1)); lia). assert (IZR k * PI <= - PI) by nra. lra. }
  apply Rabs_le. lra.
Qed.
Lemma sum_corners a b c k : 0 < a < PI -> 0 < b < PI -> 0 < c < PI -> a + b + c = PI + 2 * IZR k * PI -> a + b + c = PI.
Proof.
  intros A B C E. pose proof PI_bounds as PB. destruct (Z_lt_le_dec 0 k) as [L|L].
  - exfalso. assert (1 <= IZR k) by (apply (IZR_le 1); lia). assert (PI <= IZR k * PI) by nra. lra.
  - destruct (Z_lt_le_dec k 0) as [M|M]; [|assert (k = 0%Z) as -> by lia; lra].
    exfalso. assert (IZR k <= -1) by (apply (IZR_le _ (-1)); lia). assert (IZR k * PI <= - PI) by nra. lra.
Qed.

(** *** The theorems *)
(** Whatever the triangle, the three interior angles that are computed add up
    to an odd multiple of pi, and this is one of pi, 3 pi and 5 pi. *)
Theorem C55_triangle_turns : forall atan2 p0 p1 p2, atan2_accurate atan2 -> wide_pt p0 -> wide_pt p1 -> wide_pt p2 ->
  rpt p0 <> rpt p1 -> rpt p1 <> rpt p2 -> rpt p2 <> rpt p0 ->
  exists y0 y1 y2 m N, (forall fuel, (N <= fuel)%nat -> interior_angle atan2 fuel p2 p0 p1 = Some y0 /\
      interior_angle atan2 fuel p0 p1 p2 = Some y1 /\ interior_angle atan2 fuel p1 p2 p0 = Some y2) /\
    (0 <= m <= 2)%Z /\ Rabs (R_of y0 + R_of y1 + R_of y2 - (2 * IZR m + 1) * PI) <= 3 * bp (-47).
Proof.
  intros atan2 p0 p1 p2 A W0 W1 W2 N01 N12 N20.
  destruct (seen_some _ _ N01) as (t0 & D0). destruct (seen_some _ _ N12) as (t1 & D1). destruct (seen_some _ _ N20) as (t2 & D2).
  destruct (C55_interior_angle_of atan2 p2 p0 p1 _ _ A W2 W0 W1 (fun e => N20 (eq_sym e)) N01 (seen_back _ _ _ D2) D0) as (y0 & k0 & n0 & I0 & _ & B0 & E0).
  destruct (C55_interior_angle_of atan2 p0 p1 p2 _ _ A W0 W1 W2 (fun e => N01 (eq_sym e)) N12 (seen_back _ _ _ D0) D1) as (y1 & k1 & n1 & I1 & _ & B1 & E1).
  destruct (C55_interior_angle_of atan2 p1 p2 p0 _ _ A W1 W2 W0 (fun e => N12 (eq_sym e)) N20 (seen_back _ _ _ D1) D2) as (y2 & k2 & n2 & I2 & _ & B2 & E2).
  exists y0, y1, y2, (k0 + k1 + k2 - 2)%Z, (n0 + n1 + n2)%nat. split; [|].
  { intros fuel F. split; [apply I0; lia|]. split; [apply I1; lia|apply I2; lia]. }
  assert (Rabs (R_of y0 + R_of y1 + R_of y2 - (2 * IZR (k0 + k1 + k2 - 2) + 1) * PI) <= 3 * bp (-47)) as S.
  { rewrite minus_IZR, !plus_IZR. apply Rabs_le_inv in E0, E1, E2. apply Rabs_le. lra. }
  split; [|exact S]. pose proof bp47 as (P & Q & _). pose proof PI_bounds as PB. apply Rabs_le_inv in S.
  set (m := (k0 + k1 + k2 - 2)%Z) in *. split.
  - destruct (Z_le_gt_dec 0 m) as [?|G]; [assumption|exfalso]. assert (IZR m <= -1) by (apply (IZR_le _ (-1)); lia). assert (IZR m * PI <= - PI) by nra. lra.
  - destruct (Z_le_gt_dec m 2) as [?|G]; [assumption|exfalso]. assert (3 <= IZR m) by (apply (IZR_le 3); lia). assert (3 * PI <= IZR m * PI) by nra. lra.
Qed.
(** A clockwise triangle with no angle below 2^-46: each result is the angle of
    the triangle at that corner, and together they make pi. *)
Theorem C55_triangle_clockwise : forall atan2 p0 p1 p2 a0 a1 a2, atan2_accurate atan2 -> wide_pt p0 -> wide_pt p1 -> wide_pt p2 ->
  0 < turnp (rpt p0) (rpt p1) (rpt p2) ->
  corner a0 (rpt p2) (rpt p0) (rpt p1) -> corner a1 (rpt p0) (rpt p1) (rpt p2) -> corner a2 (rpt p1) (rpt p2) (rpt p0) ->
  bp (-46) <= a0 -> bp (-46) <= a1 -> bp (-46) <= a2 ->
  exists y0 y1 y2 N, (forall fuel, (N <= fuel)%nat -> interior_angle atan2 fuel p2 p0 p1 = Some y0 /\
      interior_angle atan2 fuel p0 p1 p2 = Some y1 /\ interior_angle atan2 fuel p1 p2 p0 = Some y2) /\
    Rabs (R_of y0 - a0) <= bp (-47) /\ Rabs (R_of y1 - a1) <= bp (-47) /\ Rabs (R_of y2 - a2) <= bp (-47) /\
    a0 + a1 + a2 = PI /\ Rabs (R_of y0 + R_of y1 + R_of y2 - PI) <= 3 * bp (-47).
Proof.
  intros atan2 p0 p1 p2 a0 a1 a2 A W0 W1 W2 T1 C0 C1 C2 L0 L1 L2.
  assert (T2 : 0 < turnp (rpt p1) (rpt p2) (rpt p0)) by now rewrite <- turnp_rot.
  assert (T0 : 0 < turnp (rpt p2) (rpt p0) (rpt p1)) by now rewrite <- turnp_rot.
  assert (N01 : rpt p0 <> rpt p1) by (intros E; rewrite E in T1; unfold turnp in T1; lra).
  assert (N12 : rpt p1 <> rpt p2) by (intros E; rewrite E in T1; unfold turnp in T1; lra).
  assert (N20 : rpt p2 <> rpt p0) by (intros E; rewrite E in T0; unfold turnp in T0; lra).
  destruct (seen_some _ _ N01) as (t0 & D0). destruct (seen_some _ _ N12) as (t1 & D1). destruct (seen_some _ _ N20) as (t2 & D2).
  destruct (C55_interior_angle_of atan2 p2 p0 p1 _ _ A W2 W0 W1 (fun e => N20 (eq_sym e)) N01 (seen_back _ _ _ D2) D0) as (y0 & k0 & n0 & I0 & _ & B0 & E0).
  destruct (C55_interior_angle_of atan2 p0 p1 p2 _ _ A W0 W1 W2 (fun e => N01 (eq_sym e)) N12 (seen_back _ _ _ D0) D1) as (y1 & k1 & n1 & I1 & _ & B1 & E1).
  destruct (C55_interior_angle_of atan2 p1 p2 p0 _ _ A W1 W2 W0 (fun e => N12 (eq_sym e)) N20 (seen_back _ _ _ D1) D2) as (y2 & k2 & n2 & I2 & _ & B2 & E2).
  destruct (proj1 (corner_dir _ _ _ _ _ _ (seen_back _ _ _ D2) D0 C0) T0) as (R0 & j0 & J0).
  destruct (proj1 (corner_dir _ _ _ _ _ _ (seen_back _ _ _ D0) D1 C1) T1) as (R1 & j1 & J1).
  destruct (proj1 (corner_dir _ _ _ _ _ _ (seen_back _ _ _ D1) D2 C2) T2) as (R2 & j2 & J2).
  pose proof bp47 as (P & Q & W). pose proof PI_bounds as PB.
  assert (S : a0 + a1 + a2 = PI).
  { apply (sum_corners _ _ _ (- (j0 + j1 + j2) - 2) R0 R1 R2). rewrite minus_IZR, opp_IZR, !plus_IZR. lra. }
  assert (V0 : Rabs (R_of y0 - a0) <= bp (-47)).
  { apply (whole_turns _ _ (j0 + k0)); try lra. rewrite plus_IZR. replace (a0 + 2 * (IZR j0 + IZR k0) * PI) with (t0 - (t2 + PI) + 2 * IZR k0 * PI) by (rewrite J0; ring). exact E0. }
  assert (V1 : Rabs (R_of y1 - a1) <= bp (-47)).
  { apply (whole_turns _ _ (j1 + k1)); try lra. rewrite plus_IZR. replace (a1 + 2 * (IZR j1 + IZR k1) * PI) with (t1 - (t0 + PI) + 2 * IZR k1 * PI) by (rewrite J1; ring). exact E1. }
  assert (V2 : Rabs (R_of y2 - a2) <= bp (-47)).
  { apply (whole_turns _ _ (j2 + k2)); try lra. rewrite plus_IZR. replace (a2 + 2 * (IZR j2 + IZR k2) * PI) with (t2 - (t1 + PI) + 2 * IZR k2 * PI) by (rewrite J2; ring). exact E2. }
  exists y0, y1, y2, (n0 + n1 + n2)%nat. split; [|].
  { intros fuel F. split; [apply I0; lia|]. split; [apply I1; lia|apply I2; lia]. }
  repeat (split; [assumption|]). apply Rabs_le_inv in V0, V1, V2. apply Rabs_le. lra.
Qed.
(** The same triangle walked the other way round: the angles outside it. *)
Theorem C55_triangle_counterclockwise : forall atan2 p0 p1 p2 a0 a1 a2, atan2_accurate atan2 -> wide_pt p0 -> wide_pt p1 -> wide_pt p2 ->
  turnp (rpt p0) (rpt p1) (rpt p2) < 0 ->
  corner a0 (rpt p2) (rpt p0) (rpt p1) -> corner a1 (rpt p0) (rpt p1) (rpt p2) -> corner a2 (rpt p1) (rpt p2) (rpt p0) ->
  bp (-46) <= a0 -> bp (-46) <= a1 -> bp (-46) <= a2 ->
  exists y0 y1 y2 N, (forall fuel, (N <= fuel)%nat -> interior_angle atan2 fuel p2 p0 p1 = Some y0 /\
      interior_angle atan2 fuel p0 p1 p2 = Some y1 /\ interior_angle atan2 fuel p1 p2 p0 = Some y2) /\
    Rabs (R_of y0 - (2 * PI - a0)) <= bp (-47) /\ Rabs (R_of y1 - (2 * PI - a1)) <= bp (-47) /\ Rabs (R_of y2 - (2 * PI - a2)) <= bp (-47) /\
    a0 + a1 + a2 = PI /\ Rabs (R_of y0 + R_of y1 + R_of y2 - 5 * PI) <= 3 * bp (-47).
Proof.
  intros atan2 p0 p1 p2 a0 a1 a2 A W0 W1 W2 T1 C0 C1 C2 L0 L1 L2.
  assert (T2 : turnp (rpt p1) (rpt p2) (rpt p0) < 0) by now rewrite <- turnp_rot.
  assert (T0 : turnp (rpt p2) (rpt p0) (rpt p1) < 0) by now rewrite <- turnp_rot.
  assert (N01 : rpt p0 <> rpt p1) by (intros E; rewrite E in T1; unfold turnp in T1; lra).
  assert (N12 : rpt p1 <> rpt p2) by (intros E; rewrite E in T1; unfold turnp in T1; lra).
  assert (N20 : rpt p2 <> rpt p0) by (intros E; rewrite E in T0; unfold turnp in T0; lra).
  destruct (seen_some _ _ N01) as (t0 & D0). destruct (seen_some _ _ N12) as (t1 & D1). destruct (seen_some _ _ N20) as (t2 & D2).
  destruct (C55_interior_angle_of atan2 p2 p0 p1 _ _ A W2 W0 W1 (fun e => N20 (eq_sym e)) N01 (seen_back _ _ _ D2) D0) as (y0 & k0 & n0 & I0 & _ & B0 & E0).
  destruct (C55_interior_angle_of atan2 p0 p1 p2 _ _ A W0 W1 W2 (fun e => N01 (eq_sym e)) N12 (seen_back _ _ _ D0) D1) as (y1 & k1 & n1 & I1 & _ & B1 & E1).
  destruct (C55_interior_angle_of atan2 p1 p2 p0 _ _ A W1 W2 W0 (fun e => N12 (eq_sym e)) N20 (seen_back _ _ _ D1) D2) as (y2 & k2 & n2 & I2 & _ & B2 & E2).
  destruct (proj2 (corner_dir _ _ _ _ _ _ (seen_back _ _ _ D2) D0 C0) T0) as (R0 & j0 & J0).
  destruct (proj2 (corner_dir _ _ _ _ _ _ (seen_back _ _ _ D0) D1 C1) T1) as (R1 & j1 & J1).
  destruct (proj2 (corner_dir _ _ _ _ _ _ (seen_back _ _ _ D1) D2 C2) T2) as (R2 & j2 & J2).
  pose proof bp47 as (P & Q & W). pose proof PI_bounds as PB.
  assert (S : a0 + a1 + a2 = PI).
  { apply (sum_corners _ _ _ (j0 + j1 + j2 + 1) R0 R1 R2). rewrite !plus_IZR. lra. }
  assert (V0 : Rabs (R_of y0 - (2 * PI - a0)) <= bp (-47)).
  { apply (whole_turns _ _ (j0 + k0 - 1)); try lra. rewrite minus_IZR, plus_IZR. replace (2 * PI - a0 + 2 * (IZR j0 + IZR k0 - 1) * PI) with (t0 - (t2 + PI) + 2 * IZR k0 * PI) by (rewrite J0; ring). exact E0. }
  assert (V1 : Rabs (R_of y1 - (2 * PI - a1)) <= bp (-47)).
  { apply (whole_turns _ _ (j1 + k1 - 1)); try lra. rewrite minus_IZR, plus_IZR. replace (2 * PI - a1 + 2 * (IZR j1 + IZR k1 - 1) * PI) with (t1 - (t0 + PI) + 2 * IZR k1 * PI) by (rewrite J1; ring). exact E1. }
  assert (V2 : Rabs (R_of y2 - (2 * PI - a2)) <= bp (-47)).
  { apply (whole_turns _ _ (j2 + k2 - 1)); try lra. rewrite minus_IZR, plus_IZR. replace (2 * PI - a2 + 2 * (IZR j2 + IZR k2 - 1) * PI) with (t2 - (t1 + PI) + 2 * IZR k2 * PI) by (rewrite J2; ring). exact E2. }
  exists y0, y1, y2, (n0 + n1 + n2)%nat. split; [|].
  { intros fuel F. split; [apply I0; lia|]. split; [apply I1; lia|apply I2; lia]. }
  repeat (split; [assumption|]). apply Rabs_le_inv in V0, V1, V2. apply Rabs_le. lra.
Qed.
(** Half of the unit square, clockwise: angles pi/4, pi/2 and pi/4. *)
Example C55_triangle_example : atan2_accurate atan2_nearest /\ wide_pt (ipt 1 0) /\ wide_pt (ipt 0 0) /\ wide_pt (ipt 0 1) /\
  0 < turnp (rpt (ipt 1 0)) (rpt (ipt 0 0)) (rpt (ipt 0 1)) /\
  corner (PI / 4) (rpt (ipt 0 1)) (rpt (ipt 1 0)) (rpt (ipt 0 0)) /\ corner (PI / 2) (rpt (ipt 1 0)) (rpt (ipt 0 0)) (rpt (ipt 0 1)) /\
  corner (PI / 4) (rpt (ipt 0 0)) (rpt (ipt 0 1)) (rpt (ipt 1 0)) /\ bp (-46) <= PI / 4.
Proof.
  assert (forall n, (Z.abs n <= 2)%Z -> R_of (fofZ n) = IZR n) as E.
  { intros n B. destruct (grid_fofZ n ltac:(lia)) as (_ & ->). change (bp 0) with 1. ring. }
  assert (forall a b, (Z.abs a <= 2)%Z -> (Z.abs b <= 2)%Z -> rpt (ipt a b) = mkP (IZR a) (IZR b)) as P.
  { intros a b A B. unfold rpt, ipt, new_xy. cbn [cx cy]. now rewrite !E. }
  assert (forall a b, (Z.abs a <= 2)%Z -> (Z.abs b <= 2)%Z -> wide_pt (ipt a b)) as W.
  { intros a b A B. apply (small_wide 0); [lia|]. apply ipt_small; lia. }
  pose proof PI_bounds as PB. pose proof bp47 as (B0 & B1 & B2). assert (0 < sqrt 2) as S2 by (apply sqrt_lt_R0; lra).
  split; [exact atan2_nearest_accurate|]. split; [apply W; lia|]. split; [apply W; lia|]. split; [apply W; lia|].
  rewrite !P by lia. unfold corner, turnp, dotp, len. cbn [px py]. rewrite cos_PI4, cos_PI2.
  replace ((0 - 1) * (0 - 1) + (1 - 0) * (1 - 0)) with 2 by ring. replace ((0 - 1) * (0 - 1) + (0 - 0) * (0 - 0)) with 1 by ring.
  replace ((0 - 0) * (0 - 0) + (0 - 1) * (0 - 1)) with 1 by ring. replace ((1 - 0) * (1 - 0) + (0 - 1) * (0 - 1)) with 2 by ring. rewrite sqrt_1.
  repeat split; try lra; field; lra.
Qed.
