(** C60: errors of midpoints, points along a segment, offsets, reflections,
    fractions and closest points at arbitrary doubles. *)
From Coq Require Import ZArith Bool List Reals Lia Lra Psatz.
From Flocq Require Import Core IEEE754.BinarySingleNaN.
From Verif Require Import Base F64 F64Facts F64Err Num NumLink Coordinate_model Coordinate_proofs Orientation_spec Orientation_proofs Orientation_props
  Distance_model Distance_spec Distance_proofs Distance_float Distance_props LineIntersector_model LineIntersector_spec LineIntersector_proofs LineIntersector_props
  LocateMid_spec LocateMid_props IntersectMid_props Segment_model Segment_proofs Segment_props MeasureErr_spec MeasureErr_proofs
  CentroidErr_spec CentroidErr_proofs MeetErr_proofs CircumErr_props DistanceErr_proofs SegSegErr_proofs DistanceErr_props ProjectErr_proofs ProjectErr_props.
Import ListNotations.
Local Open Scope R_scope.

(** ** Midpoints *)
Lemma half_err s t : fis_finite s = true -> fis_finite t = true -> Rabs (R_of s) <= bp 900 -> Rabs (R_of t) <= bp 900 ->
  Rabs (R_of (fdiv (fadd s t) f2) - (R_of s + R_of t) / 2) <= bp (-51) * Rabs ((R_of s + R_of t) / 2) + bp (-1075).
Proof.
  intros Fs Ft Ss St. pose proof u53_pos as U. pose proof u53_small as Us.
  assert (bp 902 = 4 * bp 900) as E2 by (change 902%Z with (900 + 1 + 1)%Z; rewrite !bp_S; ring).
  assert (Rabs (R_of s + R_of t) <= bp 902) as S1 by (eapply Rle_trans; [apply Rabs_triang|]; pose proof (bpow_gt_0 radix2 900); lra).
  destruct (fadd_R s t Fs Ft) as (F & E); [apply (RN_small' _ 902); [lia|exact S1]|].
  pose proof (RN_sum_err _ _ (format_R s) (format_R t)) as Er. rewrite <- E in Er.
  set (v := R_of (fadd s t)) in *. set (w := R_of s + R_of t) in *.
  assert (Rabs v <= (1 + u53) * Rabs w) as Bv. { replace v with (w + (v - w)) by ring. eapply Rle_trans; [apply Rabs_triang|]. lra. }
  assert (Rabs (v / 2) = Rabs v / 2) as Hv by (unfold Rdiv; rewrite Rabs_mult, (Rabs_pos_eq (/ 2)); lra).
  assert (Rabs (w / 2) = Rabs w / 2) as Hw by (unfold Rdiv; rewrite Rabs_mult, (Rabs_pos_eq (/ 2)); lra).
  destruct (fdiv_R (fadd s t) f2 F) as (F' & E'); [rewrite f2_val; lra| |].
  { rewrite f2_val. apply (RN_small' _ 902); [lia|]. fold v. rewrite Hv. pose proof (Rabs_pos w). nra. }
  rewrite f2_val in E'. fold v in E'. rewrite E'. pose proof (RN_err (v / 2)) as R2. rewrite Hv in R2. rewrite Hw, <- u_4.
  pose proof (Rabs_pos w) as W0.
  assert (u53 * Rabs v <= 2 * u53 * Rabs w) by (apply Rle_trans with (u53 * ((1 + u53) * Rabs w)); [apply Rmult_le_compat_l; lra|]; replace (u53 * ((1 + u53) * Rabs w)) with ((1 + u53) * (u53 * Rabs w)) by ring; rewrite Rmult_assoc; apply Rmult_le_compat_r; [apply Rmult_le_pos; lra|lra]).
  replace (RN (v / 2) - w / 2) with ((RN (v / 2) - v / 2) + (v - w) / 2) by field. eapply Rle_trans; [apply Rabs_triang|].
  assert (Rabs ((v - w) / 2) = Rabs (v - w) / 2) as -> by (unfold Rdiv; rewrite Rabs_mult, (Rabs_pos_eq (/ 2)); lra).
  assert (0 <= u53 * Rabs w) by (apply Rmult_le_pos; lra). lra.
Qed.
(** The midpoint is between the ends in x and in y, and within [2^-51] of the
    exact one in relative terms. *)
Theorem C60_mid_point_error : forall hypot s, pt_within (bp 900) (p0 s) -> pt_within (bp 900) (p1 s) ->
  let m := seg_mid_point hypot s in let M o := (R_of (o (p0 s)) + R_of (o (p1 s))) / 2 in
  forall o, o = cx \/ o = cy ->
  fis_finite (o m) = true /\
  Rmin (R_of (o (p0 s))) (R_of (o (p1 s))) <= R_of (o m) <= Rmax (R_of (o (p0 s))) (R_of (o (p1 s))) /\
  Rabs (R_of (o m) - M o) <= bp (-51) * Rabs (M o) + bp (-1075).
Proof.
  intros hypot s (F0 & G0 & X0 & Y0) (F1 & G1 & X1 & Y1) m M o H.
  assert (fis_finite (o (p0 s)) = true /\ fis_finite (o (p1 s)) = true /\ Rabs (R_of (o (p0 s))) <= bp 900 /\ Rabs (R_of (o (p1 s))) <= bp 900 /\
    o m = fdiv (fadd (o (p0 s)) (o (p1 s))) f2) as (Fa & Fb & Xa & Xb & E).
  { destruct H as [-> | ->]; repeat split; assumption || reflexivity. }
  rewrite E. destruct (half_between _ _ Fa Fb Xa Xb) as (F & Bt). split; [exact F|]. split; [exact Bt|]. now apply half_err.
Qed.

(** ** Points along the line *)
Lemma along_err f x0 x1 : fis_finite f = true -> fis_finite x0 = true -> fis_finite x1 = true -> Rabs (R_of f) <= bp 400 -> Rabs (R_of x0) <= bp 500 -> Rabs (R_of x1) <= bp 500 ->
  let z := fadd x0 (fmul f (fsub x1 x0)) in
  bf 910 z /\ Rabs (R_of z - (R_of x0 + R_of f * (R_of x1 - R_of x0))) <= u53 * Rabs (R_of x0) + 4 * u53 * Rabs (R_of f * (R_of x1 - R_of x0)) + bp (-1074).
Proof.
  intros Ff F0 F1 Bf B0 B1. cbv zeta. pose proof u53_pos as U. pose proof u53_small as Us.
  destruct (bf_sub 500 x1 x0 ltac:(lia) (conj F1 B1) (conj F0 B0)) as ((Fd & Bd) & Ed). change (500 + 1)%Z with 501%Z in Bd.
  destruct (bf_mul 400 501 f (fsub x1 x0) ltac:(lia) (conj Ff Bf) (conj Fd Bd)) as ((Fm & Bm) & Em). change (400 + 501)%Z with 901%Z in Bm.
  assert (bp 500 <= bp 901) as L9 by (apply bpow_le; lia).
  destruct (bf_add 901 x0 (fmul f (fsub x1 x0)) ltac:(lia) (conj F0 (Rle_trans _ _ _ B0 L9)) (conj Fm Bm)) as (Bz & Ez).
  split; [apply (bf_weak 902); [lia|exact Bz]|].
  pose proof (RN_sub_err _ _ (format_R x1) (format_R x0)) as R1. rewrite <- Ed in R1.
  pose proof (RN_err (R_of f * R_of (fsub x1 x0))) as R2. rewrite <- Em in R2.
  pose proof (RN_sum_err _ _ (format_R x0) (format_R (fmul f (fsub x1 x0)))) as R3. rewrite <- Ez in R3.
  set (g := R_of f) in *. set (d := R_of (fsub x1 x0)) in *. set (D := R_of x1 - R_of x0) in *. set (m := R_of (fmul f (fsub x1 x0))) in *. set (X := R_of x0) in *.
  set (z := R_of (fadd x0 (fmul f (fsub x1 x0)))) in *.
  assert (Rabs (g * d - g * D) <= u53 * Rabs (g * D)) as Q1.
  { replace (g * d - g * D) with (g * (d - D)) by ring. rewrite !Rabs_mult. pose proof (Rabs_pos g). nra. }
  assert (Rabs (g * d) <= (1 + u53) * Rabs (g * D)) as Q2.
  { replace (g * d) with (g * D + (g * d - g * D)) by ring. eapply Rle_trans; [apply Rabs_triang|]. lra. }
  pose proof (Rabs_pos (g * D)) as P. set (T := Rabs (g * D)) in *.
  assert (bp (-1074) = 2 * bp (-1075)) as E4 by (change (-1074)%Z with (-1075 + 1)%Z; apply bp_S). pose proof (bpow_gt_0 radix2 (-1075)) as E5.
  set (eta := bp (-1075)) in *.
  assert (Rabs (m - g * D) <= 2 * u53 * T + u53 * u53 * T + eta) as Q3.
  { replace (m - g * D) with ((m - g * d) + (g * d - g * D)) by ring. eapply Rle_trans; [apply Rabs_triang|].
    assert (u53 * Rabs (g * d) <= u53 * ((1 + u53) * T)) by (apply Rmult_le_compat_l; lra). lra. }
  assert (Rabs (X + m) <= Rabs X + (T + (2 * u53 * T + u53 * u53 * T + eta))) as Q4.
  { eapply Rle_trans; [apply Rabs_triang|]. apply Rplus_le_compat_l. replace m with (g * D + (m - g * D)) by ring. eapply Rle_trans; [apply Rabs_triang|]. fold T. lra. }
  apply (Rmult_le_compat_l u53) in Q4; [|lra].
  assert (0 <= u53 * T) as UT by (apply Rmult_le_pos; lra).
  assert (u53 * (u53 * T) <= / 1024 * (u53 * T)) as V1 by (apply Rmult_le_compat_r; lra).
  assert (0 <= u53 * (u53 * T)) as V2 by (apply Rmult_le_pos; lra).
  assert (u53 * (u53 * (u53 * T)) <= / 1024 * (u53 * (u53 * T))) as V3 by (apply Rmult_le_compat_r; lra).
  assert (u53 * eta <= / 1024 * eta) as V4 by (apply Rmult_le_compat_r; lra).
  replace (z - (X + g * D)) with ((z - (X + m)) + (m - g * D)) by ring. eapply Rle_trans; [apply Rabs_triang|]. rewrite E4. lra.
Qed.
(** The point at a fraction [f] of the segment. *)
Theorem C60_along_error : forall hypot s f, pt_within (bp 500) (p0 s) -> pt_within (bp 500) (p1 s) -> fis_finite f = true -> Rabs (R_of f) <= bp 400 ->
  let q := along (rpt (p0 s)) (rpt (p1 s)) (R_of f) in let c := seg_point_along hypot s f in let L := dist (rpt (p0 s)) (rpt (p1 s)) in
  near_point (bp (-51) * (Rabs (R_of f) * L) + bp (-1074)) (p0 s) c q.
Proof.
  intros hypot s f (F0 & G0 & X0 & Y0) (F1 & G1 & X1 & Y1) Ff Bf. cbv zeta. pose proof u53_pos as U.
  destruct (along_err f _ _ Ff F0 F1 Bf X0 X1) as ((Fx & _) & Ex). destruct (along_err f _ _ Ff G0 G1 Bf Y0 Y1) as ((Fy & _) & Ey).
  destruct (ords_le (rpt (p0 s)) (rpt (p1 s))) as (Ox & Oy). cbn [rpt px py] in Ox, Oy. set (L := dist _ _) in *.
  assert (forall d, Rabs d <= L -> 4 * u53 * Rabs (R_of f * d) <= bp (-51) * (Rabs (R_of f) * L)) as K.
  { intros d Hd. rewrite <- u_4, Rabs_mult. apply Rmult_le_compat_l; [lra|]. apply Rmult_le_compat_l; [apply Rabs_pos|exact Hd]. }
  split; [exact Fx|]. split; [exact Fy|]. unfold along, seg_point_along, with_xy, g_point_along. cbn [cx cy NF nadd nmul nsub pf px py rpt set_x set_y].
  pose proof (K _ Ox). pose proof (K _ Oy). split; (eapply Rle_trans; [eassumption|]); lra.
Qed.

(** ** Offsets *)
Lemma unit_err hypot a b d z Z : hypot_accurate hypot -> mid_pt a -> mid_pt b -> rpt a <> rpt b -> fis_finite d = true -> bp (-300) <= Rabs (R_of d) <= bp 300 ->
  bf 471 z -> Rabs (R_of z - Z) <= u53 * Rabs Z -> Rabs Z <= dist (rpt a) (rpt b) ->
  let v := fdiv (fmul d z) (hypot (fsub (cx b) (cx a)) (fsub (cy b) (cy a))) in
  bf 302 v /\ Rabs (R_of v - R_of d * Z / dist (rpt a) (rpt b)) <= 18 * u53 * Rabs (R_of d) /\ Rabs (R_of d * Z / dist (rpt a) (rpt b)) <= Rabs (R_of d).
Proof.
  intros Hh Ma Mb Ab Fd Bd (Fz & Bz) Ez LZ v. pose proof u53_pos as U. pose proof u53_small as Us.
  assert (hypot (fsub (cx b) (cx a)) (fsub (cy b) (cy a)) = distance hypot b a) as Eh by reflexivity.
  unfold v. rewrite Eh. clear v Eh. destruct (dist_f hypot b a Hh Mb Ma) as (Fh & Rh). rewrite (Distance_proofs.dist_sym (rpt b)) in Rh.
  assert (bp (-440) <= dist (rpt a) (rpt b)) as L1 by (destruct (mid_dist a b Ma Mb) as ([Q|Q] & _); [contradiction|exact Q]).
  set (h := distance hypot b a) in *. set (L := dist (rpt a) (rpt b)) in *. pose proof (bpow_gt_0 radix2 (-440)) as P4. assert (0 < L) as L0 by lra.
  destruct (bf_mul 300 471 d z ltac:(lia) (conj Fd (proj2 Bd)) (conj Fz Bz)) as ((Fm & Bm) & Em).
  pose proof (RN_err (R_of d * R_of z)) as R2. rewrite <- Em in R2.
  set (D := Rabs (R_of d)) in *. assert (0 < D) as D0 by (pose proof (bpow_gt_0 radix2 (-300)); lra).
  assert (0 <= u53 * D) as UD by (apply Rmult_le_pos; lra).
  assert (0 <= D * L) as DL by (apply Rmult_le_pos; lra). assert (0 <= u53 * (D * L)) as UDL by (apply Rmult_le_pos; lra).
  assert (u53 * (u53 * (D * L)) <= / 1024 * (u53 * (D * L))) as UU by (apply Rmult_le_compat_r; lra).
  set (eta := bp (-1075)) in *. assert (0 < eta) as E0 by apply bpow_gt_0.
  assert (eta <= u53 * D / 1024 * L) as TE.
  { assert (u53 * bp (-300) / 1024 * bp (-440) = bp (-803)) as Q.
    { assert (bp (-803) * bp 10 = bp (-793)) as Q1 by exact (eq_sym (bpow_plus radix2 (-803) 10)). change (bp 10) with 1024 in Q1.
      assert (u53 * bp (-300) = bp (-353)) as -> by exact (eq_sym (bpow_plus radix2 (-53) (-300))).
      assert (bp (-353) * bp (-440) = bp (-793)) as Q2 by exact (eq_sym (bpow_plus radix2 (-353) (-440))).
      apply Rmult_eq_reg_r with 1024; [|lra]. rewrite Q1, <- Q2. field. }
    apply Rle_trans with (bp (-803)); [apply bpow_le; lia|]. rewrite <- Q. pose proof (bpow_gt_0 radix2 (-300)).
    apply Rmult_le_compat; [apply Rmult_le_pos; [apply Rmult_le_pos; lra|lra]|lra| |lra]. apply Rmult_le_compat_r; [lra|]. apply Rmult_le_compat_l; lra. }
  assert (eta <= u53 * D / 1024) as TE'.
  { assert (u53 * bp (-300) / 1024 = bp (-363)) as Q.
    { assert (bp (-363) * bp 10 = bp (-353)) as Q1 by exact (eq_sym (bpow_plus radix2 (-363) 10)). change (bp 10) with 1024 in Q1.
      assert (u53 * bp (-300) = bp (-353)) as -> by exact (eq_sym (bpow_plus radix2 (-53) (-300))). lra. }
    apply Rle_trans with (bp (-363)); [apply bpow_le; lia|]. rewrite <- Q. apply Rmult_le_compat_r; [lra|]. apply Rmult_le_compat_l; lra. }
  assert (Rabs (R_of d * Z) <= D * L) as BZ by (rewrite Rabs_mult; apply Rmult_le_compat_l; lra).
  assert (Rabs (R_of d * R_of z - R_of d * Z) <= u53 * (D * L)) as Q1.
  { replace (R_of d * R_of z - R_of d * Z) with (R_of d * (R_of z - Z)) by ring. rewrite Rabs_mult. fold D.
    replace (u53 * (D * L)) with (D * (u53 * L)) by ring. apply Rmult_le_compat_l; [lra|]. eapply Rle_trans; [exact Ez|]. apply Rmult_le_compat_l; lra. }
  assert (Rabs (R_of d * R_of z) <= D * L + u53 * (D * L)) as Q2.
  { replace (R_of d * R_of z) with (R_of d * Z + (R_of d * R_of z - R_of d * Z)) by ring. eapply Rle_trans; [apply Rabs_triang|]. lra. }
  assert (Rabs (R_of (fmul d z) - R_of d * Z) <= 3 * u53 * (D * L)) as Q3.
  { replace (R_of (fmul d z) - R_of d * Z) with ((R_of (fmul d z) - R_of d * R_of z) + (R_of d * R_of z - R_of d * Z)) by ring. eapply Rle_trans; [apply Rabs_triang|].
    apply (Rmult_le_compat_l u53) in Q2; [|lra]. replace (u53 * D / 1024 * L) with (/ 1024 * (u53 * (D * L))) in TE by field. lra. }
  assert (Rabs L = L) as AL by (apply Rabs_pos_eq; lra).
  destruct (quot_err (R_of (fmul d z)) (R_of d * Z) (R_of h) L (3 * u53 * (D * L)) (4 * u53 * L)) as (Q & Hy); [lra|exact Q3|exact Rh| |].
  { rewrite AL. assert (u53 * L <= / 1024 * L) by (apply Rmult_le_compat_r; lra). lra. }
  rewrite AL in Q, Hy.
  assert (Rabs (R_of d * Z / L) <= D) as BQ.
  { unfold Rdiv. rewrite Rabs_mult, (Rabs_pos_eq (/ L)) by (left; now apply Rinv_0_lt_compat). apply Rmult_le_reg_r with L; [exact L0|]. rewrite Rmult_assoc, Rinv_l by lra. lra. }
  assert (Rabs (R_of (fmul d z) / R_of h - R_of d * Z / L) <= 14 * u53 * D) as Q4.
  { eapply Rle_trans; [exact Q|]. apply Rle_trans with (2 * (3 * u53 * (D * L) + D * (4 * u53 * L)) / L).
    - apply Rmult_le_compat_r; [left; now apply Rinv_0_lt_compat|]. apply Rmult_le_compat_l; [lra|]. apply Rplus_le_compat_l. apply Rmult_le_compat_r; [|exact BQ]. apply Rmult_le_pos; lra.
    - right. field. lra. }
  assert (Rabs (R_of (fmul d z) / R_of h) <= D + 14 * u53 * D) as Q5.
  { replace (R_of (fmul d z) / R_of h) with (R_of d * Z / L + (R_of (fmul d z) / R_of h - R_of d * Z / L)) by ring. eapply Rle_trans; [apply Rabs_triang|]. lra. }
  assert (u53 * D <= / 1024 * D) as UD2 by (apply Rmult_le_compat_r; lra).
  assert (bp 301 = 2 * bp 300) as B1 by (change 301%Z with (300 + 1)%Z; apply bp_S).
  assert (Rabs (R_of (fmul d z) / R_of h) <= bp 301) as Q6 by lra.
  destruct (fdiv_R (fmul d z) h Fm) as (Fv & Ev). { intros Q0. rewrite Q0, Rabs_R0 in Hy. lra. } { apply (RN_small' _ 301); [lia|exact Q6]. }
  pose proof (RN_err (R_of (fmul d z) / R_of h)) as R3. rewrite <- Ev in R3.
  assert (u53 * (u53 * D) <= / 1024 * (u53 * D)) as UUD by (apply Rmult_le_compat_r; lra).
  split; [|split].
  - split; [exact Fv|]. rewrite Ev. eapply Rle_trans; [apply (RN_abs_le 301); [lia|exact Q6]|]. apply bpow_le. lia.
  - replace (R_of (fdiv (fmul d z) h) - R_of d * Z / L) with ((R_of (fdiv (fmul d z) h) - R_of (fmul d z) / R_of h) + (R_of (fmul d z) / R_of h - R_of d * Z / L)) by ring.
    eapply Rle_trans; [apply Rabs_triang|]. fold eta in R3. apply (Rmult_le_compat_l u53) in Q5; [|lra]. lra.
  - exact BQ.
Qed.
(** The point at a fraction [f] of the segment moved by [d] to its left. *)
Theorem C60_offset_error : forall hypot s f d, hypot_accurate hypot -> mid_pt (p0 s) -> mid_pt (p1 s) -> rpt (p0 s) <> rpt (p1 s) ->
  fis_finite f = true -> Rabs (R_of f) <= bp 400 -> fis_finite d = true -> R_of d = 0 \/ bp (-300) <= Rabs (R_of d) <= bp 300 ->
  let a := rpt (p0 s) in let b := rpt (p1 s) in let L := dist a b in let q := along a b (R_of f) in
  let c := seg_point_along_offset hypot s f d in
  let err x := bp (-51) * Rabs x + bp (-48) * (Rabs (R_of f) * L + Rabs (R_of d)) + bp (-1073) in
  fis_finite (cx c) = true /\ fis_finite (cy c) = true /\
  Rabs (R_of (cx c) - (px q - R_of d * (py b - py a) / L)) <= err (px a) /\
  Rabs (R_of (cy c) - (py q + R_of d * (px b - px a) / L)) <= err (py a).
Proof.
  intros hypot s f d Hh Ma Mb Ab Ff Bf Fd Bd a b L q c err. pose proof u53_pos as U. pose proof u53_small as Us.
  assert (forall x, mid x -> fis_finite x = true /\ Rabs (R_of x) <= bp 500) as K5.
  { intros x Mx. destruct (mid_bf _ Mx) as (F & B). split; [exact F|]. eapply Rle_trans; [exact B|]. apply bpow_le. lia. }
  pose proof Ma as (Max & May). pose proof Mb as (Mbx & Mby).
  destruct (K5 _ Max) as (Fax & Bax). destruct (K5 _ May) as (Fay & Bay). destruct (K5 _ Mbx) as (Fbx & Bbx). destruct (K5 _ Mby) as (Fby & Bby).
  destruct (along_err f _ _ Ff Fax Fbx Bf Bax Bbx) as (Zx & Ex). destruct (along_err f _ _ Ff Fay Fby Bf Bay Bby) as (Zy & Ey).
  destruct (ords_le a b) as (Ox & Oy). fold L in Ox, Oy. unfold a, b in Ox, Oy. cbn [rpt px py] in Ox, Oy.
  destruct (mid_diff _ _ Mbx Max) as (Dx & Rx & _). destruct (mid_diff _ _ Mby May) as (Dy & Ry & _). unfold ru in Rx, Ry.
  (* the unit vector times d *)
  set (h := hypot (fsub (cx (p1 s)) (cx (p0 s))) (fsub (cy (p1 s)) (cy (p0 s)))).
  set (ux := if negb (feqb d f0) then fdiv (fmul d (fsub (cx (p1 s)) (cx (p0 s)))) h else f0).
  set (uy := if negb (feqb d f0) then fdiv (fmul d (fsub (cy (p1 s)) (cy (p0 s)))) h else f0).
  assert (forall Z, Rabs Z <= L -> R_of d = 0 -> Rabs (R_of f0 - R_of d * Z / L) <= 18 * u53 * Rabs (R_of d) /\ Rabs (R_of d * Z / L) <= Rabs (R_of d)) as KZ.
  { intros Z _ E. change (R_of f0) with 0. rewrite E, Rmult_0_l. unfold Rdiv. rewrite Rmult_0_l, Rminus_0_r, Rabs_R0. lra. }
  assert (UV : (bf 302 ux /\ Rabs (R_of ux - R_of d * (R_of (cx (p1 s)) - R_of (cx (p0 s))) / L) <= 18 * u53 * Rabs (R_of d) /\ Rabs (R_of d * (R_of (cx (p1 s)) - R_of (cx (p0 s))) / L) <= Rabs (R_of d)) /\
          (bf 302 uy /\ Rabs (R_of uy - R_of d * (R_of (cy (p1 s)) - R_of (cy (p0 s))) / L) <= 18 * u53 * Rabs (R_of d) /\ Rabs (R_of d * (R_of (cy (p1 s)) - R_of (cy (p0 s))) / L) <= Rabs (R_of d))).
  { unfold ux, uy. rewrite feqb_R by (assumption || reflexivity). change (R_of f0) with 0. destruct (Req_bool_spec (R_of d) 0) as [E|E]; cbn [negb].
    - assert (bf 302 f0) as Z0 by (split; [reflexivity|]; change (R_of f0) with 0; rewrite Rabs_R0; apply bpow_ge_0).
      split; (split; [exact Z0|]); apply KZ; assumption.
    - destruct Bd as [Q|Bd]; [contradiction|].
      split; [exact (unit_err hypot (p0 s) (p1 s) d _ _ Hh Ma Mb Ab Fd Bd Dx Rx Ox)|exact (unit_err hypot (p0 s) (p1 s) d _ _ Hh Ma Mb Ab Fd Bd Dy Ry Oy)]. }
  destruct UV as ((Bux & Eux & Sux) & (Buy & Euy & Suy)).
  assert (cx c = fsub (fadd (cx (p0 s)) (fmul f (fsub (cx (p1 s)) (cx (p0 s))))) uy /\ cy c = fadd (fadd (cy (p0 s)) (fmul f (fsub (cy (p1 s)) (cy (p0 s))))) ux) as (Ecx & Ecy).
  { split; reflexivity. }
  rewrite Ecx, Ecy. unfold q, along. unfold a, b. cbn [rpt px py].
  (* last sum *)
  assert (0 <= L) as L0 by apply dist_pos.
  assert (forall z v X D V, bf 910 z -> bf 302 v -> Rabs D <= L -> Rabs (R_of z - (X + R_of f * D)) <= u53 * Rabs X + 4 * u53 * Rabs (R_of f * D) + bp (-1074) ->
    Rabs (R_of v - V) <= 18 * u53 * Rabs (R_of d) -> Rabs V <= Rabs (R_of d) ->
    (fis_finite (fsub z v) = true /\ Rabs (R_of (fsub z v) - (X + R_of f * D - V)) <= err X) /\
    (fis_finite (fadd z v) = true /\ Rabs (R_of (fadd z v) - (X + R_of f * D + V)) <= err X)) as FIN.
  { intros z v X D V Bz Bv HD Ez Ev HV. pose proof (bf_weak 302 910 v ltac:(lia) Bv) as Bv'.
    destruct (bf_sub 910 z v ltac:(lia) Bz Bv') as ((F1 & _) & E1). destruct (bf_add 910 z v ltac:(lia) Bz Bv') as ((F2 & _) & E2).
    pose proof (RN_sub_err _ _ (format_R z) (format_R v)) as R1. rewrite <- E1 in R1. pose proof (RN_sum_err _ _ (format_R z) (format_R v)) as R2. rewrite <- E2 in R2.
    assert (bp (-1073) = 2 * bp (-1074)) as E3 by (change (-1073)%Z with (-1074 + 1)%Z; apply bp_S). pose proof (bpow_gt_0 radix2 (-1074)) as E4.
    pose proof u_4 as E5.
    assert (Rabs (R_of f * D) <= Rabs (R_of f) * L) as HT by (rewrite Rabs_mult; apply Rmult_le_compat_l; [apply Rabs_pos|exact HD]).
    unfold err. rewrite E3, <- E5, <- u_32. set (T := Rabs (R_of f) * L) in *. set (G := Rabs (R_of d)) in *. set (W := Rabs X) in *. set (eta := bp (-1074)) in *.
    assert (0 <= T) as T0 by (apply Rmult_le_pos; [apply Rabs_pos|exact L0]). assert (0 <= G) as G0 by apply Rabs_pos. assert (0 <= W) as W0 by apply Rabs_pos.
    assert (4 * u53 * Rabs (R_of f * D) <= 4 * u53 * T) as HT' by (apply Rmult_le_compat_l; lra).
    assert (Rabs (X + R_of f * D) <= W + T) as HX by (eapply Rle_trans; [apply Rabs_triang|]; fold W; lra).
    assert (Rabs (R_of z) <= W + T + (u53 * W + 4 * u53 * T + eta)) as Hz.
    { replace (R_of z) with ((X + R_of f * D) + (R_of z - (X + R_of f * D))) by ring. eapply Rle_trans; [apply Rabs_triang|]. lra. }
    assert (Rabs (R_of v) <= G + 18 * u53 * G) as Hv.
    { replace (R_of v) with (V + (R_of v - V)) by ring. eapply Rle_trans; [apply Rabs_triang|]. lra. }
    assert (forall w, 0 <= w -> 0 <= u53 * w /\ u53 * (u53 * w) <= / 1024 * (u53 * w) /\ u53 * w <= / 1024 * w) as KU.
    { intros w Hw. assert (0 <= u53 * w) by (apply Rmult_le_pos; lra). split; [assumption|]. split; apply Rmult_le_compat_r; lra. }
    destruct (KU _ T0) as (T1 & T2 & _). destruct (KU _ G0) as (G1 & G2 & _). destruct (KU _ W0) as (W1 & W2 & _). destruct (KU eta ltac:(lra)) as (_ & _ & H3).
    assert (u53 * (Rabs (R_of z) + Rabs (R_of v)) <= u53 * (W + T + (u53 * W + 4 * u53 * T + eta) + (G + 18 * u53 * G))) as HS by (apply Rmult_le_compat_l; lra).
    split.
    - split; [exact F1|]. replace (R_of (fsub z v) - (X + R_of f * D - V)) with ((R_of (fsub z v) - (R_of z - R_of v)) + ((R_of z - (X + R_of f * D)) + - (R_of v - V))) by ring.
      eapply Rle_trans; [apply Rabs_triang|]. pose proof (Rabs_triang (R_of z - (X + R_of f * D)) (- (R_of v - V))) as Q. rewrite Rabs_Ropp in Q.
      assert (Rabs (R_of z - R_of v) <= Rabs (R_of z) + Rabs (R_of v)) as Q' by (unfold Rminus; eapply Rle_trans; [apply Rabs_triang|]; rewrite Rabs_Ropp; lra).
      apply (Rmult_le_compat_l u53) in Q'; [|lra]. lra.
    - split; [exact F2|]. replace (R_of (fadd z v) - (X + R_of f * D + V)) with ((R_of (fadd z v) - (R_of z + R_of v)) + ((R_of z - (X + R_of f * D)) + (R_of v - V))) by ring.
      eapply Rle_trans; [apply Rabs_triang|]. pose proof (Rabs_triang (R_of z - (X + R_of f * D)) (R_of v - V)) as Q.
      pose proof (Rabs_triang (R_of z) (R_of v)) as Q'.
      apply (Rmult_le_compat_l u53) in Q'; [|lra]. lra. }
  destruct (FIN _ _ _ _ _ Zx Buy Ox Ex Euy Suy) as ((F1 & E1) & _). destruct (FIN _ _ _ _ _ Zy Bux Oy Ey Eux Sux) as (_ & (F2 & E2)).
  split; [exact F1|]. split; [exact F2|]. split; assumption.
Qed.

(** ** Reflection *)
(** [r] is the mirror image of [p] in the line through [a] and [b]. *)
Definition mirror (a b p r : P2 R) : Prop :=
  (px r - px p) * (px b - px a) + (py r - py p) * (py b - py a) = 0 /\ on_line a b (mkP ((px p + px r) / 2) ((py p + py r) / 2)).
(** The reflected point: within [2^-45] of the mirror image, in units of a
    bound on the ordinates and of the image. *)
Theorem C60_reflect_error : forall hypot s p B, B <= bp 300 -> pt_within B (p0 s) -> pt_within B (p1 s) -> pt_within B p ->
  bp (-250) <= dist (rpt (p0 s)) (rpt (p1 s)) ->
  exists r, mirror (rpt (p0 s)) (rpt (p1 s)) (rpt p) r /\
    let c := seg_reflect hypot s p in
    fis_finite (cx c) = true /\ fis_finite (cy c) = true /\
    Rabs (R_of (cx c) - px r) <= bp (-45) * (B + Rabs (px r)) /\ Rabs (R_of (cy c) - py r) <= bp (-45) * (B + Rabs (py r)).
Proof.
  intros hypot s p B BU (F0 & G0 & X0 & Y0) (F1 & G1 & X1 & Y1) (Fp & Gp & Xp & Yp) LL. pose proof u53_pos as U.
  set (L := dist (rpt (p0 s)) (rpt (p1 s))) in *. pose proof (bpow_gt_0 radix2 (-250)) as P2. assert (0 < L) as L0 by lra.
  assert (0 <= B) as B0 by (pose proof (Rabs_pos (R_of (cx p))); lra).
  destruct (ords_le (rpt (p0 s)) (rpt (p1 s))) as (Ox & Oy). cbn [rpt px py] in Ox, Oy. fold L in Ox, Oy.
  assert (L * L = (R_of (cx (p1 s)) - R_of (cx (p0 s))) * (R_of (cx (p1 s)) - R_of (cx (p0 s))) + (R_of (cy (p1 s)) - R_of (cy (p0 s))) * (R_of (cy (p1 s)) - R_of (cy (p0 s)))) as EL.
  { unfold L. rewrite dist_sq'. cbn [rpt px py]. ring. }
  assert (L <= 4 * B) as LB.
  { apply sq_le; [lra|]. rewrite EL. apply Rabs_le_inv in X0, X1, Y0, Y1. nra. }
  assert (rpt (p0 s) <> rpt (p1 s)) as Ab. { intros E. assert (L = 0) by (unfold L; rewrite E; now apply dist_0). lra. }
  exists (g_reflect R NR (rpt (p0 s)) (rpt (p1 s)) (rpt p)). destruct (C60_reflect_exact _ _ (rpt p) Ab) as (M1 & M2 & _).
  split; [split; [exact M1|exact M2]|]. clear M1 M2.
  (* sizes *)
  assert (bp (-252) <= B) as BL. { assert (bp (-250) = 4 * bp (-252)) by (change (-250)%Z with (-252 + 1 + 1)%Z; rewrite !bp_S; ring). lra. }
  assert (L <= bp 302) as LU. { assert (bp 302 = 4 * bp 300) by (change 302%Z with (300 + 1 + 1)%Z; rewrite !bp_S; ring). lra. }
  pose proof (bpow_gt_0 radix2 (-252)) as P3.
  assert (forall u v k l m n, bp k <= u <= bp l -> bp m <= v <= bp n -> bp (k + m) <= u * v <= bp (l + n)) as PR.
  { intros u v k l m n (A1 & A2) (A3 & A4). rewrite !bpow_plus. pose proof (bpow_gt_0 radix2 k). pose proof (bpow_gt_0 radix2 m). split; apply Rmult_le_compat; lra. }
  pose proof (PR _ _ _ _ _ _ (conj LL LU) (conj LL LU)) as SL. change (-250 + -250)%Z with (-500)%Z in SL. change (302 + 302)%Z with 604%Z in SL.
  pose proof (PR _ _ _ _ _ _ (conj BL BU) (conj LL LU)) as SB. change (-252 + -250)%Z with (-502)%Z in SB. change (300 + 302)%Z with 602%Z in SB.
  pose proof (PR _ _ _ _ _ _ SL (conj BL BU)) as S3. change (-500 + -252)%Z with (-752)%Z in S3. change (604 + 300)%Z with 904%Z in S3.
  assert (forall k l v c, (-900 <= k)%Z -> (l <= 990)%Z -> 1 <= c <= 8 -> bp k <= v <= bp l -> bp (-900) <= c * v <= bp 1000) as IN.
  { intros k l v c Hk Hl Hc (V1 & V2). assert (bp (-900) <= bp k) by (apply bpow_le; lia). assert (bp l <= bp 990) by (apply bpow_le; lia). pose proof (bpow_gt_0 radix2 k).
    assert (bp 990 * bp 10 = bp 1000) as E by exact (eq_sym (bpow_plus radix2 990 10)). change (bp 10) with 1024 in E. pose proof (bpow_gt_0 radix2 990). split; nra. }
  assert (L <= bp 1000) as L9 by (eapply Rle_trans; [exact LU|apply bpow_le; lia]).
  pose proof (u_tiny 4 ltac:(lra)) as T4. pose proof (u_tiny 8 ltac:(lra)) as T8. pose proof (u_tiny 10 ltac:(lra)) as T10. pose proof (u_tiny 3 ltac:(lra)) as T3.
  (* the steps *)
  set (x0 := cx (p0 s)) in *. set (y0 := cy (p0 s)) in *. set (x1 := cx (p1 s)) in *. set (y1 := cy (p1 s)) in *. set (x := cx p) in *. set (y := cy p) in *.
  assert (nr 1 L (fsub y1 y0) (R_of y1 - R_of y0)) as Na by (apply nr_sub0; assumption).
  assert (nr 1 L (fsub x0 x1) (R_of x0 - R_of x1)) as Nb by (apply nr_sub0; try assumption; rewrite Rabs_minus_sym; assumption).
  assert (nr 1 L (fsub x1 x0) (R_of x1 - R_of x0)) as Nc by (apply nr_sub0; assumption).
  pose proof (IN (-500)%Z 604%Z (L * L) 1 ltac:(lia) ltac:(lia) ltac:(lra) SL) as I1. rewrite Rmult_1_l in I1.
  pose proof (IN (-500)%Z 604%Z (L * L) 2 ltac:(lia) ltac:(lia) ltac:(lra) SL) as I2.
  pose proof (IN (-502)%Z 602%Z (B * L) 1 ltac:(lia) ltac:(lia) ltac:(lra) SB) as I3. rewrite Rmult_1_l in I3.
  pose proof (IN (-502)%Z 602%Z (B * L) 2 ltac:(lia) ltac:(lia) ltac:(lra) SB) as I4.
  assert (nr 3 (B * L) (fmul y0 (fsub x1 x0)) (R_of y0 * (R_of x1 - R_of x0))) as Nd.
  { replace 3 with (0 + 1 + 2) by ring. apply nr_mul; try lra; [now apply nr_0|exact Nc]. }
  assert (nr 3 (B * L) (fmul x0 (fsub y1 y0)) (R_of x0 * (R_of y1 - R_of y0))) as Ne.
  { replace 3 with (0 + 1 + 2) by ring. apply nr_mul; try lra; [now apply nr_0|exact Na]. }
  set (a := fsub y1 y0) in *. set (b := fsub x0 x1) in *. set (c := fsub (fmul y0 (fsub x1 x0)) (fmul x0 a)) in *.
  set (ra := R_of y1 - R_of y0) in *. set (rb := R_of x0 - R_of x1) in *. set (rc := R_of y0 * (R_of x1 - R_of x0) - R_of x0 * ra) in *.
  assert (nr 5 (2 * (B * L)) c rc) as Ncc.
  { replace 5 with (3 + 2) by ring. replace (2 * (B * L)) with (B * L + B * L) by ring. apply nr_sub; try lra; assumption. }
  assert (nr 4 (L * L) (fmul a a) (ra * ra)) as Na2 by (replace 4 with (1 + 1 + 2) by ring; apply nr_mul; try lra; assumption).
  assert (nr 4 (L * L) (fmul b b) (rb * rb)) as Nb2 by (replace 4 with (1 + 1 + 2) by ring; apply nr_mul; try lra; assumption).
  assert (nr 6 (2 * (L * L)) (fadd (fmul a a) (fmul b b)) (ra * ra + rb * rb)) as Np.
  { replace 6 with (4 + 2) by ring. replace (2 * (L * L)) with (L * L + L * L) by ring. apply nr_add; try lra; assumption. }
  assert (nr 6 (2 * (L * L)) (fsub (fmul a a) (fmul b b)) (ra * ra - rb * rb)) as Nm.
  { replace 6 with (4 + 2) by ring. replace (2 * (L * L)) with (L * L + L * L) by ring. apply nr_sub; try lra; assumption. }
  set (w := fadd (fmul a a) (fmul b b)) in *. set (d := fsub (fmul a a) (fmul b b)) in *.
  assert (nr 0 2 (fofZ 2) 2) as N2. { change (fofZ 2) with f2. rewrite <- f2_val at 2. apply nr_0; [reflexivity|]. rewrite f2_val, Rabs_pos_eq; lra. }
  assert (forall v rv, nr 1 L v rv -> nr 3 (2 * L) (fmul (fofZ 2) v) (2 * rv)) as N2v.
  { intros v rv Nv. replace 3 with (0 + 1 + 2) by ring. apply nr_mul; try lra; [|exact N2|exact Nv]. apply (IN (-250) 302)%Z; lia || lra. }
  pose proof (N2v _ _ Na) as N2a. pose proof (N2v _ _ Nb) as N2b.
  assert (nr 6 (2 * (L * L)) (fmul (fmul (fofZ 2) a) b) (2 * ra * rb)) as Nab.
  { replace 6 with (3 + 1 + 2) by ring. replace (2 * (L * L)) with (2 * L * L) by ring. apply nr_mul; try lra; assumption. }
  pose proof (IN (-752)%Z 904%Z (L * L * B) 2 ltac:(lia) ltac:(lia) ltac:(lra) S3) as J2. pose proof (IN (-752)%Z 904%Z (L * L * B) 4 ltac:(lia) ltac:(lia) ltac:(lra) S3) as J4.
  pose proof (IN (-752)%Z 904%Z (L * L * B) 8 ltac:(lia) ltac:(lia) ltac:(lra) S3) as J8.
  assert (forall v z rv, nr 6 (2 * (L * L)) v rv -> fis_finite z = true -> Rabs (R_of z) <= B -> nr 8 (2 * (L * L * B)) (fmul v z) (rv * R_of z)) as Nz.
  { intros v z rv Nv Fz Bz. replace 8 with (6 + 0 + 2) by ring. replace (2 * (L * L * B)) with (2 * (L * L) * B) by ring.
    apply nr_mul; try lra; [exact Nv|now apply nr_0]. }
  assert (forall v rv, nr 3 (2 * L) v rv -> nr 10 (4 * (L * L * B)) (fmul v c) (rv * rc)) as Nvc.
  { intros v rv Nv. replace 10 with (3 + 5 + 2) by ring. replace (4 * (L * L * B)) with (2 * L * (2 * (B * L))) by ring.
    apply nr_mul; try lra; [exact Nv|exact Ncc]. }
  assert (forall v1 v2 v3 r1 r2 r3, nr 8 (2 * (L * L * B)) v1 r1 -> nr 8 (2 * (L * L * B)) v2 r2 -> nr 10 (4 * (L * L * B)) v3 r3 ->
    nr 12 (8 * (L * L * B)) (fsub (fsub v1 v2) v3) (r1 - r2 - r3)) as Nn.
  { intros v1 v2 v3 r1 r2 r3 H1 H2 H3. replace 12 with (10 + 2) by ring. replace (8 * (L * L * B)) with (4 * (L * L * B) + 4 * (L * L * B)) by ring.
    apply nr_sub; try lra; [|exact H3]. replace 10 with (8 + 2) by ring. replace (4 * (L * L * B)) with (2 * (L * L * B) + 2 * (L * L * B)) by ring. apply nr_sub; try lra; assumption. }
  pose proof (Nn _ _ _ _ _ _ (Nz _ x _ (nr_neg _ _ _ _ Nm) Fp Xp) (Nz _ y _ Nab Gp Yp) (Nvc _ _ N2a)) as Nx.
  pose proof (Nn _ _ _ _ _ _ (Nz _ y _ Nm Gp Yp) (Nz _ x _ Nab Fp Xp) (Nvc _ _ N2b)) as Ny.
  assert (ra * ra + rb * rb = L * L) as EW by (rewrite EL; unfold ra, rb; ring).
  assert (forall n N, nr 12 (8 * (L * L * B)) n N -> fis_finite (fdiv n w) = true /\ Rabs (R_of (fdiv n w) - N / (ra * ra + rb * rb)) <= bp (-45) * (B + Rabs (N / (ra * ra + rb * rb)))) as Q.
  { intros n N (Fn & En & Bn). destruct Np as (Fw & Ew & _).
    destruct (quot_gen 256 8 96 12 L (L * L) B n w N (ra * ra + rb * rb)) as (Fq & Eq & _); try assumption; try lra.
    - now apply Rmult_lt_0_compat.
    - apply Rle_trans with (bp (-252)); [apply bpow_le; lia|exact BL].
    - apply Rle_trans with (bp 300); [exact BU|apply bpow_le; lia].
    - rewrite EW. rewrite Rabs_pos_eq by nra. nra.
    - rewrite EW, Rabs_pos_eq by nra. assert (256 * u53 = bp (-45)) as E by exact (eq_sym (bpow_plus radix2 8 (-53))). rewrite E.
      assert (bp (-45) < 1) by (change 1 with (bp 0); apply bpow_lt; lia). nra.
    - split; [exact Fq|]. eapply Rle_trans; [exact Eq|]. assert (256 * u53 = bp (-45)) as E by exact (eq_sym (bpow_plus radix2 8 (-53))). rewrite E, EW.
      apply Rmult_le_compat_l; [apply bpow_ge_0|]. rewrite (Rabs_pos_eq (L * L)) by nra. right. field. lra. }
  destruct (Q _ _ Nx) as (Qx & Rx). destruct (Q _ _ Ny) as (Qy & Ry).
  split; [exact Qx|]. split; [exact Qy|]. split; [exact Rx|exact Ry].
Qed.

(** ** Fractions *)
(** The fraction of the nearest point of the segment, between 0 and 1; its
    point of the segment is within [2^-49 |p p0|] of the nearest point. *)
Theorem C60_fraction_error : forall hypot s p d, mid_pt p -> mid_pt (p0 s) -> mid_pt (p1 s) -> rpt (p0 s) <> rpt (p1 s) ->
  least_distance (eq (rpt p)) (on_segment (rpt (p0 s)) (rpt (p1 s))) d ->
  let g := seg_fraction hypot s p in
  fis_finite g = true /\ 0 <= R_of g <= 1 /\
  exists t, 0 <= t <= 1 /\ dist (rpt p) (along (rpt (p0 s)) (rpt (p1 s)) t) = d /\
    Rabs (R_of g - t) * dist (rpt (p0 s)) (rpt (p1 s)) <= bp (-49) * dist (rpt p) (rpt (p0 s)).
Proof.
  intros hypot s p d Mp Ma Mb Ab Ld. cbv zeta. pose proof u53_pos as U. pose proof (dist_pos (rpt p) (rpt (p0 s))) as D0.
  set (D := dist (rpt p) (rpt (p0 s))) in *. set (L := dist (rpt (p0 s)) (rpt (p1 s))). assert (0 < L) as L0 by (now apply dist_pos_ne).
  pose proof (clamp_least _ _ _ d Ab Ld) as Cl. fold L in Cl. set (t := dotv (rpt p) (rpt (p0 s)) (rpt (p1 s)) / (L * L)) in *.
  set (g := seg_projection_factor hypot s p).
  assert (fis_finite g = true /\ Rabs (R_of g - t) * L <= 14 * u53 * D) as (Fg & Eg).
  { destruct (equals_2d p (p0 s)) eqn:Q1.
    - apply equal_mid in Q1; [|assumption..].
      assert (G : g = f0).
      { unfold g, seg_projection_factor, g_projection_factor, g_equals. cbn [neq NF pf px py].
        destruct (feqb (cx p) (cx (p0 s)) && feqb (cy p) (cy (p0 s))) eqn:E; [reflexivity|].
        apply not_true_iff_false in E. exfalso. apply E. apply feqb_pt; [..|exact Q1]; apply mid_fin'; first [apply Mp|apply Ma]. }
      rewrite G. split; [reflexivity|]. unfold t. rewrite Q1. unfold dotv. change (R_of f0) with 0.
      rewrite !Rminus_eq_0, !Rmult_0_l, Rplus_0_r. unfold Rdiv. rewrite Rmult_0_l, Rminus_0_r, Rabs_R0, Rmult_0_l. assert (0 <= u53 * D) by (apply Rmult_le_pos; lra). lra.
    - assert (Pa : rpt p <> rpt (p0 s)) by (intros H; apply equal_mid in H; [congruence|assumption..]).
      exact (factor_near hypot s p Mp Ma Mb Pa Ab). }
  assert (14 * u53 * D <= bp (-49) * D) as K by (apply Rmult_le_compat_r; [exact D0|]; pose proof u_16; lra).
  assert (forall v, Rabs (v - clamp t) <= Rabs (R_of g - t) -> Rabs (v - clamp t) * L <= bp (-49) * D) as W.
  { intros v Hv. eapply Rle_trans; [|exact K]. eapply Rle_trans; [|exact Eg]. apply Rmult_le_compat_r; lra. }
  assert (fis_nan g = false) as Gn by (destruct g; try discriminate Fg; reflexivity).
  unfold seg_fraction. fold g. cbv zeta. unfold fgtb. rewrite Gn, orb_false_r, !fltb_R by (assumption || reflexivity). change (R_of f0) with 0.
  assert (R_of f1 = 1) as R1 by (apply fofZ_1). rewrite R1.
  destruct (Rlt_bool_spec (R_of g) 0) as [C|C]; [|destruct (Rlt_bool_spec 1 (R_of g)) as [C1|C1]].
  - split; [reflexivity|]. change (R_of f0) with 0. split; [lra|]. exists (clamp t). split; [apply clamp_range|]. split; [exact Cl|]. apply W.
    destruct (clamp_cases t) as [(A & ->)|[(A & ->)|(A & ->)]]; unfold Rabs; repeat destruct Rcase_abs; lra.
  - split; [reflexivity|]. rewrite R1. split; [lra|]. exists (clamp t). split; [apply clamp_range|]. split; [exact Cl|]. apply W.
    destruct (clamp_cases t) as [(A & ->)|[(A & ->)|(A & ->)]]; unfold Rabs; repeat destruct Rcase_abs; lra.
  - split; [exact Fg|]. split; [lra|]. exists (clamp t). split; [apply clamp_range|]. split; [exact Cl|]. apply W.
    destruct (clamp_cases t) as [(A & ->)|[(A & ->)|(A & ->)]]; unfold Rabs; repeat destruct Rcase_abs; lra.
Qed.

(** ** Closest points of two segments *)
(** Segments that do not meet are nearest at an end. *)
Lemma apart_at_end a b c d m : least_distance (on_segment a b) (on_segment c d) m -> m <> 0 ->
  m = p2sR c a b \/ m = p2sR d a b \/ m = p2sR a c d \/ m = p2sR b c d.
Proof.
  intros (AT & LB) NZ. pose proof (s2s_least a b c d) as (AT' & LB').
  assert (m = s2sR a b c d) as E.
  { destruct AT as (p & q & P & Q & <-), AT' as (p' & q' & P' & Q' & E'). apply Rle_antisym; [rewrite <- E'; now apply LB|now apply LB']. }
  rewrite E in *. unfold g_segment_to_segment in *.
  destruct (g_equals R NR a b); [auto|]. destruct (g_equals R NR c d) eqn:CD; [|].
  { apply eqR_true in CD. subst d. auto. }
  pose proof (min4R_spec (p2sR a c d) (p2sR b c d) (p2sR c a b) (p2sR d a b)) as (_ & _ & _ & _ & E4). cbv zeta in E4.
  destruct (negb _); [tauto|].
  repeat match goal with |- (if ?t then _ else _) = _ \/ _ => destruct t; [tauto|] end. exfalso. now apply NZ.
Qed.
Lemma dist_le_ords p q k : Rabs (px p - px q) <= k -> Rabs (py p - py q) <= k -> dist p q <= 2 * k.
Proof.
  intros X Y. assert (0 <= k) by (pose proof (Rabs_pos (px p - px q)); lra). apply sq_le; [lra|]. rewrite dist_sq'. apply Rabs_le_inv in X, Y. nra.
Qed.
Lemma within_dist B p q : pt_within B p -> pt_within B q -> dist (rpt p) (rpt q) <= 4 * B.
Proof.
  intros (_ & _ & X & Y) (_ & _ & X' & Y'). apply Rabs_le_inv in X, Y, X', Y'. replace (4 * B) with (2 * (2 * B)) by ring.
  apply dist_le_ords; cbn [rpt px py]; apply Rabs_le; lra.
Qed.
Lemma seg_ords B a b q : on_segment a b q -> Rabs (px a) <= B -> Rabs (py a) <= B -> Rabs (px b) <= B -> Rabs (py b) <= B -> Rabs (px q) <= B /\ Rabs (py q) <= B.
Proof. intros (t & T & ->) X Y X' Y'. unfold along. cbn [px py]. apply Rabs_le_inv in X, Y, X', Y'. split; apply Rabs_le; nra. Qed.
(** One of the four candidates. *)
Lemma candidate hypot s p B d : hypot_accurate hypot -> mid_pt p -> mid_pt (p0 s) -> mid_pt (p1 s) -> pt_within B p -> pt_within B (p0 s) -> pt_within B (p1 s) ->
  least_distance (eq (rpt p)) (on_segment (rpt (p0 s)) (rpt (p1 s))) d -> 1024 * u53 * B <= d -> bp (-600) <= B <= bp 470 ->
  let c := seg_closest_point hypot s p in let m := distance hypot c p in
  fis_finite (cx c) = true /\ fis_finite (cy c) = true /\
  (exists q, on_segment (rpt (p0 s)) (rpt (p1 s)) q /\ dist (rpt c) q <= 520 * u53 * B) /\
  fis_finite m = true /\ d - 520 * u53 * B <= dist (rpt c) (rpt p) <= d + 650 * u53 * B /\ Rabs (R_of m - dist (rpt c) (rpt p)) <= 20 * u53 * B.
Proof.
  intros Hh Mp Ma Mb Wp Wa Wb Ld Hd (BL & BU). cbv zeta. pose proof u53_pos as U. pose proof u53_small as Us.
  destruct (C60_closest_point_error hypot s p d Hh Mp Ma Mb Ld) as (q & Sq & Dq & (Fx & Fy & Ex & Ey) & _).
  pose proof (within_dist B p (p0 s) Wp Wa) as D4. rewrite <- u_32 in Dq. rewrite <- u_64 in Ex, Ey.
  set (c := seg_closest_point hypot s p) in *. set (D := dist (rpt p) (rpt (p0 s))) in *.
  assert (0 <= B) as B0 by (pose proof (bpow_gt_0 radix2 (-600)); lra). assert (0 <= u53 * B) as UB by (apply Rmult_le_pos; lra).
  assert (u53 * D <= 4 * (u53 * B)) as UD by (replace (4 * (u53 * B)) with (u53 * (4 * B)) by ring; apply Rmult_le_compat_l; lra).
  destruct Wa as (_ & _ & Xa & Ya). destruct Wb as (_ & _ & Xb & Yb). pose proof Wp as (Fpx & Fpy & Xp & Yp).
  assert (u53 * Rabs (R_of (cx (p0 s))) <= u53 * B) as Ka by (apply Rmult_le_compat_l; lra). assert (u53 * Rabs (R_of (cy (p0 s))) <= u53 * B) as Kb by (apply Rmult_le_compat_l; lra).
  assert (Rabs (R_of (cx c) - px q) <= 257 * (u53 * B)) as Ex' by lra. assert (Rabs (R_of (cy c) - py q) <= 257 * (u53 * B)) as Ey' by lra.
  assert (dist (rpt c) q <= 520 * u53 * B) as Cq. { pose proof (dist_le_ords (rpt c) q _ Ex' Ey'). lra. }
  assert (forall x y, dist x y = dist y x) as SYM by (intros; apply Distance_proofs.dist_sym).
  assert (d <= dist (rpt p) q) as Lq by (apply (proj2 Ld); [reflexivity|exact Sq]).
  assert (d - 520 * u53 * B <= dist (rpt c) (rpt p) <= d + 650 * u53 * B) as Cd.
  { pose proof (Triangle_proofs.dist_triangle (rpt p) (rpt c) q) as T1. pose proof (Triangle_proofs.dist_triangle (rpt c) q (rpt p)) as T2.
    rewrite (SYM q) in T2. rewrite (SYM (rpt p) (rpt c)) in T1. split; lra. }
  assert (Rabs (px q) <= B /\ Rabs (py q) <= B) as (Qx & Qy) by (apply (seg_ords B (rpt (p0 s)) (rpt (p1 s))); assumption).
  assert (u53 * B <= / 1024 * B) as UB2 by (apply Rmult_le_compat_r; lra).
  assert (bp 472 = 4 * bp 470) as E4 by (change 472%Z with (470 + 1 + 1)%Z; rewrite !bp_S; ring).
  assert (forall v k, Rabs (v - k) <= 257 * (u53 * B) -> Rabs k <= B -> Rabs v <= bp 472) as BV.
  { intros v k H1 H2. replace v with (k + (v - k)) by ring. eapply Rle_trans; [apply Rabs_triang|]. lra. }
  assert (pt_below 900 c) as Pc by (split; apply (bf_weak 472); try lia; (split; [assumption|]); [now apply (BV _ (px q))|now apply (BV _ (py q))]).
  assert (pt_below 900 p) as Pp by (split; (split; [assumption|]); eapply Rle_trans; [eassumption| |eassumption|]; (eapply Rle_trans; [exact BU|apply bpow_le; lia])).
  destruct (step_near hypot p c Hh Pp Pc) as (Fm & Em & _).
  { right. change (euclid (plane p) (plane c)) with (dist (rpt c) (rpt p)). eapply Rle_trans; [|exact (proj1 Cd)].
    assert (bp (-700) <= u53 * B) as H.
    { assert (u53 * bp (-600) = bp (-653)) as E by exact (eq_sym (bpow_plus radix2 (-53) (-600))). apply Rle_trans with (bp (-653)); [apply bpow_le; lia|].
      rewrite <- E. apply Rmult_le_compat_l; lra. }
    assert (bp (-900) <= bp (-700)) by (apply bpow_le; lia). lra. }
  change (euclid (plane p) (plane c)) with (dist (rpt c) (rpt p)) in Em. change (hypot (fsub (cx c) (cx p)) (fsub (cy c) (cy p))) with (distance hypot c p) in *.
  split; [exact Fx|]. split; [exact Fy|]. split; [exists q; split; assumption|]. split; [exact Fm|]. split; [exact Cd|].
  eapply Rle_trans; [exact Em|]. assert (d <= 4 * B) as D4' by (eapply Rle_trans; [apply (proj2 Ld (rpt p) (rpt (p0 s)) eq_refl), seg_l|exact D4]).
  assert (dist (rpt c) (rpt p) <= 5 * B) as H5 by lra. apply (Rmult_le_compat_l (4 * u53)) in H5; lra.
Qed.
(** The closest points: one common point if the segments meet.  If they are
    apart by more than [2^-43 B], where [B] bounds the ordinates: two points, the first
    within [2^-43 B] of the first segment, the second within [2^-43 B] of the
    other, and no farther from each other than the segments up to [2^-42 B]. *)
Theorem C60_closest_points_error : forall hypot s t d B, hypot_accurate hypot -> clear_pair (p0 s) (p1 s) (p0 t) (p1 t) ->
  pt_within B (p0 s) -> pt_within B (p1 s) -> pt_within B (p0 t) -> pt_within B (p1 t) -> B <= bp 470 ->
  let S := on_segment (rpt (p0 s)) (rpt (p1 s)) in let T := on_segment (rpt (p0 t)) (rpt (p1 t)) in
  least_distance S T d ->
  (d = 0 -> length (seg_closest_points hypot s t) = 1%nat) /\
  (bp (-43) * B < d -> exists u v, seg_closest_points hypot s t = [u; v] /\
    fis_finite (cx u) = true /\ fis_finite (cy u) = true /\ fis_finite (cx v) = true /\ fis_finite (cy v) = true /\
    (exists q, S q /\ dist (rpt u) q <= bp (-43) * B) /\ (exists q, T q /\ dist (rpt v) q <= bp (-43) * B) /\
    Rabs (dist (rpt u) (rpt v) - d) <= bp (-42) * B).
Proof.
  intros hypot s t d B Hh C Wa Wb Wc Wd BU S T Ld. pose proof u53_pos as U.
  pose proof (C53_has_intersection_clear hypot li_default (p0 s) (p1 s) (p0 t) (p1 t) C) as I. destruct C as (Ma & Mb & Mc & Md & _).
  assert (1024 * u53 = bp (-43)) as E43 by exact (eq_sym (bpow_plus radix2 10 (-53))).
  assert (bp (-42) = 2 * bp (-43)) as E42 by (change (-42)%Z with (-43 + 1)%Z; apply bp_S).
  assert (0 <= B) as B0 by (destruct Wa as (_ & _ & X & _); pose proof (Rabs_pos (R_of (cx (p0 s)))); lra).
  unfold seg_closest_points, seg_intersection. cbv zeta. set (li := compute_intersection_4 hypot li_default (p0 s) (p1 s) (p0 t) (p1 t)) in *. split.
  - intros Z. destruct Ld as ((p & q & P & Q & E) & _). rewrite Z in E. apply dist_0 in E. subst q.
    rewrite (proj2 I) by (exists p; split; assumption). reflexivity.
  - intros Hd. assert (0 < d) as d0. { assert (0 <= bp (-43) * B) by (apply Rmult_le_pos; [apply bpow_ge_0|exact B0]). lra. }
    destruct (has_intersection li) eqn:HI.
    { exfalso. destruct (proj1 I eq_refl) as (x & X1 & X2). pose proof (proj2 Ld x x X1 X2) as H. rewrite (proj2 (dist_0 x x) eq_refl) in H. lra. }
    assert (forall p q, dist p q = dist q p) as SYM by (intros; apply Distance_proofs.dist_sym).
    assert (S (rpt (p0 s)) /\ S (rpt (p1 s)) /\ T (rpt (p0 t)) /\ T (rpt (p1 t))) as (Sa & Sb & Tc & Td) by (repeat split; first [apply seg_l|apply seg_r]).
    assert (bp (-600) <= B) as BL.
    { pose proof (proj2 Ld _ _ Sa Tc) as H. pose proof (within_dist B _ _ Wa Wc) as H4.
      destruct (mid_dist (p0 s) (p0 t) Ma Mc) as ([Q|Q] & _). { rewrite Q, (proj2 (dist_0 _ _) eq_refl) in H. lra. }
      assert (bp (-598) = 4 * bp (-600)) as E by (change (-598)%Z with (-600 + 1 + 1)%Z; rewrite !bp_S; ring).
      assert (bp (-598) <= bp (-440)) by (apply bpow_le; lia). lra. }
    assert (forall p a b, p2sR p a b = p2sR p a b -> least_distance (eq p) (on_segment a b) (p2sR p a b)) as LP by (intros; apply p2s_least).
    assert (d <= p2sR (rpt (p0 t)) (rpt (p0 s)) (rpt (p1 s)) /\ d <= p2sR (rpt (p1 t)) (rpt (p0 s)) (rpt (p1 s)) /\
            d <= p2sR (rpt (p0 s)) (rpt (p0 t)) (rpt (p1 t)) /\ d <= p2sR (rpt (p1 s)) (rpt (p0 t)) (rpt (p1 t))) as (L1 & L2 & L3 & L4).
    { split; [|split; [|split]]; match goal with |- _ <= p2sR ?p ?a ?b => destruct (p2s_attained p a b) as (q & Q & ->) end;
        first [rewrite SYM; apply (proj2 Ld); assumption|apply (proj2 Ld); assumption]. }
    assert (bp (-600) <= B <= bp 470) as BR by (split; assumption).
    pose proof (apart_at_end _ _ _ _ d Ld ltac:(lra)) as AE.
    rewrite <- E43 in Hd.
    destruct (candidate hypot s (p0 t) B _ Hh Mc Ma Mb Wc Wa Wb (p2s_least _ _ _) ltac:(lra) BR) as (Fx1 & Fy1 & Q1 & Fm1 & R1 & E1).
    destruct (candidate hypot s (p1 t) B _ Hh Md Ma Mb Wd Wa Wb (p2s_least _ _ _) ltac:(lra) BR) as (Fx2 & Fy2 & Q2 & Fm2 & R2 & E2).
    destruct (candidate hypot t (p0 s) B _ Hh Ma Mc Md Wa Wc Wd (p2s_least _ _ _) ltac:(lra) BR) as (Fx3 & Fy3 & Q3 & Fm3 & R3 & E3).
    destruct (candidate hypot t (p1 s) B _ Hh Mb Mc Md Wb Wc Wd (p2s_least _ _ _) ltac:(lra) BR) as (Fx4 & Fy4 & Q4 & Fm4 & R4 & E4).
    set (c1 := seg_closest_point hypot s (p0 t)) in *. set (c2 := seg_closest_point hypot s (p1 t)) in *. set (c3 := seg_closest_point hypot t (p0 s)) in *. set (c4 := seg_closest_point hypot t (p1 s)) in *.
    set (m1 := distance hypot c1 (p0 t)) in *. set (m2 := distance hypot c2 (p1 t)) in *. set (m3 := distance hypot c3 (p0 s)) in *. set (m4 := distance hypot c4 (p1 s)) in *.
    set (l1 := p2sR (rpt (p0 t)) _ _) in *. set (l2 := p2sR (rpt (p1 t)) _ _) in *. set (l3 := p2sR (rpt (p0 s)) _ _) in *. set (l4 := p2sR (rpt (p1 s)) _ _) in *.
    set (K := u53 * B) in *. assert (0 <= K) as K0 by (apply Rmult_le_pos; lra).
    assert (forall k, k * u53 * B = k * K) as KE by (intros; unfold K; ring). rewrite !KE in *. rewrite E42, <- E43.
    replace (1024 * u53 * B) with (1024 * K) by (unfold K; ring). replace (2 * (1024 * u53) * B) with (2048 * K) by (unfold K; ring).
    assert (forall c (X : P2 R -> Prop), (exists q, X q /\ dist (rpt c) q <= 520 * K) -> exists q, X q /\ dist (rpt c) q <= 1024 * K) as QW.
    { intros c X (q & Xq & Hq). exists q. split; [exact Xq|lra]. }
    assert (forall p (X : P2 R -> Prop), X (rpt p) -> exists q, X q /\ dist (rpt p) q <= 1024 * K) as QE.
    { intros p X Xp. exists (rpt p). split; [exact Xp|]. rewrite (proj2 (dist_0 _ _) eq_refl). lra. }
    assert (fis_finite (cx (p0 s)) = true /\ fis_finite (cy (p0 s)) = true /\ fis_finite (cx (p1 s)) = true /\ fis_finite (cy (p1 s)) = true /\
            fis_finite (cx (p0 t)) = true /\ fis_finite (cy (p0 t)) = true /\ fis_finite (cx (p1 t)) = true /\ fis_finite (cy (p1 t)) = true) as (Ga & Ga' & Gb & Gb' & Gc & Gc' & Gd & Gd').
    { destruct Wa as (? & ? & _), Wb as (? & ? & _), Wc as (? & ? & _), Wd as (? & ? & _). repeat split; assumption. }
    rewrite (SYM (rpt c3)) in R3, E3. rewrite (SYM (rpt c4)) in R4, E4.
    (* which candidate is taken *)
    assert (forall u v m, fis_finite m = true -> Rabs (R_of m - dist (rpt u) (rpt v)) <= 20 * K -> d - 520 * K <= dist (rpt u) (rpt v) ->
      R_of m <= R_of m1 -> R_of m <= R_of m2 -> R_of m <= R_of m3 -> R_of m <= R_of m4 -> Rabs (dist (rpt u) (rpt v) - d) <= 2048 * K) as FIN.
    { intros u v m _ Em Lm H1 H2 H3 H4. apply Rabs_le_inv in Em, E1, E2, E3, E4. apply Rabs_le. split; [lra|]. destruct AE as [AE|[AE|[AE|AE]]]; lra. }
    rewrite !fltb_R by (repeat match goal with |- context [if ?b then _ else _] => destruct b end; assumption).
    destruct (Rlt_bool_spec (R_of m2) (R_of m1)) as [B1|B1];
      match goal with |- context [Rlt_bool (R_of m3) ?x] => destruct (Rlt_bool_spec (R_of m3) x) as [B2|B2] end;
      match goal with |- context [Rlt_bool (R_of m4) ?x] => destruct (Rlt_bool_spec (R_of m4) x) as [B3|B3] end; cbn [fst snd];
      (eexists; eexists; split; [reflexivity|]);
      (split; [assumption|]; split; [assumption|]; split; [assumption|]; split; [assumption|]);
      (split; [first [now apply QW|now apply QE]|]; split; [first [now apply QW|now apply QE]|]).
    all: first [apply (FIN _ _ m1); try assumption; lra|apply (FIN _ _ m2); try assumption; lra|apply (FIN _ _ m3); try assumption; lra|apply (FIN _ _ m4); try assumption; lra].
Qed.
(** Segments with ordinates of 53 bits meet the hypotheses. *)
Example C60_segment_error_example : let s := seg_new (ipt 1 1) (ipt 5 4503599627370497) in let t := seg_new (ipt 4503599627370501 2) (ipt 4503599627370503 8) in
  let p := ipt (-7) 4503599627370493 in
  hypot_accurate hypot_nearest /\ clear_pair (p0 s) (p1 s) (p0 t) (p1 t) /\ Forall (fun c => mid_pt c /\ pt_within (bp 53) c) [p0 s; p1 s; p0 t; p1 t; p] /\
  rpt (p0 s) <> rpt (p1 s) /\ bp (-250) <= dist (rpt (p0 s)) (rpt (p1 s)) /\
  exists d, least_distance (on_segment (rpt (p0 s)) (rpt (p1 s))) (on_segment (rpt (p0 t)) (rpt (p1 t))) d /\ bp (-43) * bp 53 < d.
Proof.
  intros s t p. change (p0 s) with (ipt 1 1). change (p1 s) with (ipt 5 4503599627370497). change (p0 t) with (ipt 4503599627370501 2). change (p1 t) with (ipt 4503599627370503 8). subst p.
  destruct (mid_ipt 1 1) as (Ma & Ra); try lia. destruct (mid_ipt 5 4503599627370497) as (Mb & Rb); try lia.
  destruct (mid_ipt 4503599627370501 2) as (Mc & Rc); try lia. destruct (mid_ipt 4503599627370503 8) as (Md & Rd); try lia.
  destruct (mid_ipt (-7) 4503599627370493) as (Mp & Rp); try lia.
  split; [exact hypot_nearest_accurate|]. split; [do 4 (split; [assumption|]); intros E; vm_compute in E; discriminate E|].
  assert (forall x y, (Z.abs x <= 2 ^ 53)%Z -> (Z.abs y <= 2 ^ 53)%Z -> mid_pt (ipt x y) /\ pt_within (bp 53) (ipt x y)) as K.
  { intros x y Hx Hy. destruct (mid_ipt x y Hx Hy) as (M & E). split; [exact M|]. injection E as E1 E2. destruct M as ((F1 & _) & (F2 & _)).
    split; [exact F1|]. split; [exact F2|]. change (cx (ipt x y)) with (fofZ x). change (cy (ipt x y)) with (fofZ y). change (B2R (fofZ x)) with (R_of (fofZ x)) in E1. change (B2R (fofZ y)) with (R_of (fofZ y)) in E2. rewrite E1, E2, <- !abs_IZR.
    change (bp 53) with (IZR (2 ^ 53)). split; apply IZR_le; assumption. }
  split; [repeat (apply Forall_cons; [apply K; lia|]); apply Forall_nil|]. rewrite Ra, Rb, Rc, Rd. split; [intros E; injection E; lra|]. split.
  { destruct (ords_le (mkP 1 1) (mkP 5 4503599627370497)) as (O & _). cbn [px py] in O. rewrite Rabs_pos_eq in O by lra.
    assert (bp (-250) <= bp 0) as H by (apply bpow_le; lia). change (bp 0) with 1 in H. lra. }
  eexists. split; [apply s2s_least|]. destruct (s2s_least (mkP 1 1) (mkP 5 4503599627370497) (mkP 4503599627370501 2) (mkP 4503599627370503 8)) as ((u & v & (f & Hf & ->) & (g & Hg & ->) & <-) & _).
  assert (bp (-43) * bp 53 = bp 10) as -> by exact (eq_sym (bpow_plus radix2 (-43) 53)). change (bp 10) with 1024.
  match goal with |- _ < dist ?x ?y => destruct (ords_le x y) as (O & _) end. eapply Rlt_le_trans; [|exact O].
  unfold along. cbn [px py]. rewrite Rabs_pos_eq; lra.
Qed.
