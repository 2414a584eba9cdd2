(** C53: the Z values of the points reported by the line intersector, and the
    end it falls back to.  C54: the parts of homogeneous coordinates. *)
From Coq Require Import ZArith Bool Reals Lia Lra Psatz List.
From Flocq Require Import Core IEEE754.BinarySingleNaN.
From Verif Require Import Base F64 F64Facts F64Round F64Err Num NumLink Coordinate_model Envelope_model MathUtil_model MathUtil_props
  DD_proofs DDArith_proofs PrecisionModel_model Orientation_model Orientation_spec Orientation_props Distance_model Distance_spec Distance_proofs Distance_float
  Distance_props Intersection_model Intersection_spec Intersection_proofs Intersection_props
  LineIntersector_model LineIntersector_spec LineIntersector_proofs LineIntersector_props.
Import ListNotations.
Local Open Scope R_scope.

(** ** Interpolated Z *)
(** Missing Z values: the known end's Z, whatever the point. At an end, that end's. *)
Theorem C53_interpolate_ends : forall p p1 p2,
  (fis_nan (cz p1) = true -> z_interpolate_3 p p1 p2 = cz p2) /\
  (fis_nan (cz p1) = false -> fis_nan (cz p2) = true -> z_interpolate_3 p p1 p2 = cz p1) /\
  (fis_nan (cz p1) = false -> fis_nan (cz p2) = false -> equals_2d p p1 = true -> z_interpolate_3 p p1 p2 = cz p1) /\
  (fis_nan (cz p1) = false -> fis_nan (cz p2) = false -> equals_2d p p1 = false -> equals_2d p p2 = true ->
     z_interpolate_3 p p1 p2 = cz p2).
Proof.
  intros p p1 p2. unfold z_interpolate_3.
  split; [intros ->; reflexivity|]. split; [intros -> ->; reflexivity|]. split; [intros -> -> ->; reflexivity|intros -> -> -> ->; reflexivity].
Qed.
(** Elsewhere: the linear interpolation by distance from the first end. *)
Theorem C53_interpolate : forall e p p1 p2, (-400 <= e <= 400)%Z ->
  small_pt e p -> small_pt e p1 -> small_pt e p2 -> rpt p1 <> rpt p2 ->
  fis_finite (cz p1) = true -> fis_finite (cz p2) = true ->
  Rabs (R_of (cz p1)) <= bp 900 -> Rabs (R_of (cz p2)) <= bp 900 ->
  let z1 := R_of (cz p1) in let z2 := R_of (cz p2) in
  let part := (z2 - z1) * (dist (rpt p1) (rpt p) / dist (rpt p1) (rpt p2)) in
  let z := z_interpolate_3 p p1 p2 in
  fis_finite z = true /\ Rabs (R_of z - (z1 + part)) <= 6 * u53 * (Rabs z1 + Rabs part) + bp (-1074).
Proof.
  intros e p p1 p2 He S S1 S2 NE F1 F2 B1 B2. cbv zeta. set (z1 := R_of (cz p1)) in *. set (z2 := R_of (cz p2)) in *.
  set (D := dist (rpt p1) (rpt p2)). set (d := dist (rpt p1) (rpt p)).
  assert (0 < D) as PD by (destruct (dist_pos (rpt p1) (rpt p2)) as [P|P]; [exact P|symmetry in P; now apply dist_0 in P]).
  pose proof u53_pos as U0. pose proof (bpow_gt_0 radix2 (-1074)) as P1074.
  assert (forall v, Rabs (v - v) <= 6 * u53 * (Rabs z1 + Rabs ((z2 - z1) * (d / D))) + bp (-1074)) as EXACT.
  { intros v. rewrite Rminus_eq_0, Rabs_R0. pose proof (Rabs_pos z1). pose proof (Rabs_pos ((z2 - z1) * (d / D))).
    assert (0 <= 6 * u53 * (Rabs z1 + Rabs ((z2 - z1) * (d / D)))) by (apply Rmult_le_pos; lra). lra. }
  unfold z_interpolate_3. rewrite (nn_finite _ F1), (nn_finite _ F2).
  destruct (equals_2d p p1) eqn:Q1.
  { apply equals_2d_rpt in Q1; [|now apply (small_fin e)..]. split; [exact F1|]. fold z1.
    replace (z1 + (z2 - z1) * (d / D)) with z1; [apply EXACT|]. assert (d = 0) as -> by (unfold d; rewrite Q1; now apply dist_0). unfold Rdiv. ring. }
  destruct (equals_2d p p2) eqn:Q2.
  { apply equals_2d_rpt in Q2; [|now apply (small_fin e)..]. split; [exact F2|]. fold z2.
    replace (z1 + (z2 - z1) * (d / D)) with z2; [apply EXACT|]. assert (d = D) as -> by (unfold d; now rewrite Q2). field. lra. }
  assert (Rabs (z2 - z1) <= bp 901) as BZ.
  { eapply Rle_trans; [apply Rabs_triang|]. rewrite Rabs_Ropp. change 901%Z with (900 + 1)%Z. rewrite bp_S. lra. }
  destruct (sub_fits 901 (cz p2) (cz p1) ltac:(lia) F2 F1 BZ) as ((Fd & Bd) & Ed). fold z1 z2 in Ed. set (dz := fsub (cz p2) (cz p1)) in *.
  rewrite (feqb_R dz f0 Fd eq_refl), R_f0. destruct (Req_bool_spec (R_of dz) 0) as [Z|NZ].
  { split; [exact F1|]. fold z1. replace (z1 + (z2 - z1) * (d / D)) with z1; [apply EXACT|].
    assert (z2 - z1 = 0) as ->; [|ring]. apply RN_sum_0; [apply format_R|apply generic_format_opp, format_R|]. rewrite <- Z. symmetry. exact Ed. }
  (* the fraction *)
  destruct (small_ptx e p S) as (Px & Py). destruct (small_ptx e p1 S1) as (Ax & Ay). destruct (small_ptx e p2 S2) as (Bx & By_).
  cbn [pf rpt px py] in *.
  pose proof (d_ex e ltac:(lia) _ _ _ _ Bx Ax) as X1. pose proof (d_ex e ltac:(lia) _ _ _ _ By_ Ay) as X2.
  pose proof (ex_add (e + e) 50 _ _ _ _ ltac:(lia) ltac:(lia) (m_ex e ltac:(lia) _ _ _ _ X1 X1) (m_ex e ltac:(lia) _ _ _ _ X2 X2)) as L.
  pose proof (d_ex e ltac:(lia) _ _ _ _ Px Ax) as X3. pose proof (d_ex e ltac:(lia) _ _ _ _ Py Ay) as X4.
  pose proof (ex_add (e + e) 50 _ _ _ _ ltac:(lia) ltac:(lia) (m_ex e ltac:(lia) _ _ _ _ X3 X3) (m_ex e ltac:(lia) _ _ _ _ X4 X4)) as N.
  change (50 + 1)%Z with 51%Z in *.
  set (seglen := fadd _ _) in L |- *. set (plen := fadd _ _) in N |- *.
  match type of L with ex _ _ _ ?v => replace v with (D * D) in L by (unfold D; rewrite dist_sq; cbn [rpt px py]; unfold Rsqr; ring) end.
  match type of N with ex _ _ _ ?v => replace v with (d * d) in N by (unfold d; rewrite dist_sq; cbn [rpt px py]; unfold Rsqr; ring) end.
  assert (D * D <> 0) as DD by (apply Rmult_integral_contrapositive; lra).
  assert (0 < d) as Pd.
  { destruct (dist_pos (rpt p1) (rpt p)) as [P|P]; [exact P|]. symmetry in P. apply dist_0 in P. exfalso.
    assert (equals_2d p p1 = true) as T by (apply equals_2d_rpt; [now apply (small_fin e)..|now symmetry]). congruence. }
  destruct (ex_div_val (e + e) 51 51 _ _ _ _ ltac:(lia) ltac:(lia) N L DD) as (Fq & Eq & [Q0|(Lq & Uq)]).
  { exfalso. assert (0 < d * d / (D * D)); [|lra]. apply Rdiv_lt_0_compat; nra. }
  pose proof (ex_div (e + e) 51 51 _ _ _ _ ltac:(lia) ltac:(lia) N L DD) as (_ & Aq). rewrite Rmult_1_l in Aq.
  set (f := d / D) in *. assert (d * d / (D * D) = f * f) as FF by (unfold f; field; lra). rewrite FF in *.
  assert (0 < f) as Pf by (apply Rdiv_lt_0_compat; lra). assert (0 < f * f) as Pff by nra. rewrite (Rabs_pos_eq (f * f)) in * by lra.
  set (q := fdiv plen seglen) in *. pose proof u53_small as U1.
  assert (Rabs (R_of q / (f * f) - 1) <= u53) as Rq by (apply rel_of_abs; [lra|rewrite (Rabs_pos_eq (f * f)); lra]).
  assert (bp (-1074) <= R_of q) as Lq'.
  { apply Rabs_le_inv in Aq. assert (bp (-52) <= R_of q); [|eapply Rle_trans; [apply bpow_le|eassumption]; lia].
    assert (bp (-51) = 2 * bp (-52)) by (change (-51)%Z with (-52 + 1)%Z; apply bp_S).
    assert (u53 * (f * f) <= / 2 * (f * f)) by (apply Rmult_le_compat_r; lra). change (- (51))%Z with (-51)%Z in Lq. lra. }
  destruct (ap_sqrt q Fq Lq') as (Fs & As). rewrite Rmult_1_l, (Rabs_pos_eq (sqrt (R_of q))) in As by apply sqrt_pos.
  set (fr := fsqrt q) in *. assert (0 < R_of q) as Pq by lra. assert (0 < sqrt (R_of q)) as Psq by now apply sqrt_lt_R0.
  assert (Rabs (R_of fr / sqrt (R_of q) - 1) <= u53) as R1 by (apply rel_of_abs; [lra|rewrite (Rabs_pos_eq (sqrt (R_of q))); lra]).
  pose proof (rel_sqrt _ u53 ltac:(lra) Rq) as R2. rewrite sqrt_div in R2 by lra. rewrite (sqrt_square f) in R2 by lra.
  pose proof (rel_mul _ _ _ _ R1 R2) as R3.
  assert (u53 * u53 <= u53 * / 1024) as UU by (apply Rmult_le_compat_l; lra).
  replace (R_of fr / sqrt (R_of q) * (sqrt (R_of q) / f)) with (R_of fr / f) in R3 by (field; lra).
  set (t := z2 - z1) in *.
  assert (t <> 0) as Nt by (intros T; apply NZ; rewrite Ed; fold t; rewrite T; apply RN_0).
  assert (Rabs (R_of dz / t - 1) <= u53) as R4.
  { apply rel_of_abs; [exact Nt|]. rewrite Ed. unfold t. apply RN_sub_err; apply format_R. }
  assert (Rabs (R_of fr / f - 1) <= 21/10 * u53) as R3' by lra.
  pose proof (rel_mul _ _ _ _ R4 R3') as R5.
  replace (R_of dz / t * (R_of fr / f)) with (R_of dz * R_of fr / (t * f)) in R5 by (field; lra).
  set (W := R_of dz * R_of fr) in *. assert (0 < Rabs (t * f)) as PW by (apply Rabs_pos_lt, Rmult_integral_contrapositive; lra).
  assert (Rabs (W - t * f) <= 32/10 * u53 * Rabs (t * f)) as EW.
  { replace (W - t * f) with ((W / (t * f) - 1) * (t * f)) by (field; lra). rewrite Rabs_mult. apply Rmult_le_compat_r; lra. }
  set (T := Rabs (t * f)) in *. assert (u53 * T <= / 1024 * T) as UT by (apply Rmult_le_compat_r; lra).
  assert (Rabs W <= 2 * T) as BW.
  { replace W with (t * f + (W - t * f)) by ring. eapply Rle_trans; [apply Rabs_triang|]. fold T. lra. }
  assert (T <= bp 952) as BT.
  { unfold T. rewrite Rabs_mult, (Rabs_pos_eq f) by lra. change 952%Z with (901 + 51)%Z. rewrite bpow_plus. apply Rmult_le_compat; try apply Rabs_pos; try lra.
    destruct (Rle_lt_dec f 1) as [G|G].
    - apply Rle_trans with 1; [exact G|]. change 1 with (bp 0). apply bpow_le. lia.
    - apply Rle_trans with (f * f); [nra|exact Uq]. }
  destruct (mul_fits 953 dz fr ltac:(lia) Fd Fs) as ((Fz & Bz) & Ez).
  { fold W. assert (bp 953 = 2 * bp 952) by (change 953%Z with (952 + 1)%Z; apply bp_S). lra. }
  fold W in Ez. set (zo := fmul dz fr) in *. pose proof (RN_err W) as E1.
  assert (bp (-1074) = 2 * bp (-1075)) as E2 by (change (-1074)%Z with (-1075 + 1)%Z; apply bp_S).
  assert (Rabs (R_of zo - t * f) <= 46/10 * u53 * T + bp (-1075)) as EZ.
  { replace (R_of zo - t * f) with ((RN W - W) + (W - t * f)) by (rewrite <- Ez; ring). eapply Rle_trans; [apply Rabs_triang|].
    assert (Rabs W <= 11/10 * T) as BW2.
    { replace W with (t * f + (W - t * f)) by ring. eapply Rle_trans; [apply Rabs_triang|]. fold T. lra. }
    assert (u53 * Rabs W <= u53 * (11/10 * T)) by (apply Rmult_le_compat_l; lra).
    assert (0 <= u53 * T) by (apply Rmult_le_pos; lra). lra. }
  destruct (add_fits 954 (cz p1) zo ltac:(lia) F1 Fz) as ((Fa & _) & Ea).
  { fold z1. eapply Rle_trans; [apply Rabs_triang|]. assert (bp 954 = 2 * bp 953) by (change 954%Z with (953 + 1)%Z; apply bp_S).
    pose proof (bpow_le radix2 900 953 ltac:(lia)). lra. }
  fold z1 in Ea. split; [exact Fa|]. rewrite Ea.
  replace (RN (z1 + R_of zo) - (z1 + t * f)) with ((RN (z1 + R_of zo) - (z1 + R_of zo)) + (R_of zo - t * f)) by ring.
  eapply Rle_trans; [apply Rabs_triang|]. pose proof (RN_sum_err z1 (R_of zo) (format_R _) (format_R _)) as E3.
  assert (Rabs (z1 + R_of zo) <= Rabs z1 + 11/10 * T + bp (-1075)) as E4.
  { replace (z1 + R_of zo) with (z1 + (t * f + (R_of zo - t * f))) by ring. eapply Rle_trans; [apply Rabs_triang|].
    apply Rle_trans with (Rabs z1 + (T + Rabs (R_of zo - t * f))); [apply Rplus_le_compat_l; eapply Rle_trans; [apply Rabs_triang|]; fold T; lra|]. lra. }
  pose proof (Rmult_le_compat_l u53 _ _ (Rlt_le _ _ U0) E4) as E5.
  assert (u53 * bp (-1075) <= / 1024 * bp (-1075)) by (apply Rmult_le_compat_r; [apply bpow_ge_0|lra]).
  assert (0 <= u53 * Rabs z1) by (apply Rmult_le_pos; [lra|apply Rabs_pos]). assert (0 <= u53 * T) by (apply Rmult_le_pos; lra).
  pose proof (bpow_gt_0 radix2 (-1075)). lra.
Qed.
(** Along two segments: the mean of the known values, between them. *)
Theorem C53_interpolate_both : forall p p1 p2 q1 q2,
  let zp := z_interpolate_3 p p1 p2 in let zq := z_interpolate_3 p q1 q2 in let z := z_interpolate_5 p p1 p2 q1 q2 in
  (fis_nan zp = true -> z = zq) /\ (fis_nan zp = false -> fis_nan zq = true -> z = zp) /\
  (fis_finite zp = true -> fis_finite zq = true -> Rabs (R_of zp + R_of zq) <= bp 1023 ->
    fis_finite z = true /\ R_of z = RN (RN (R_of zp + R_of zq) / 2) /\
    Rmin (R_of zp) (R_of zq) <= R_of z <= Rmax (R_of zp) (R_of zq)).
Proof.
  intros p p1 p2 q1 q2. cbv zeta. unfold z_interpolate_5. set (zp := z_interpolate_3 p p1 p2). set (zq := z_interpolate_3 p q1 q2).
  split; [intros ->; reflexivity|]. split; [intros -> ->; reflexivity|]. intros Fp Fq B. rewrite (nn_finite _ Fp), (nn_finite _ Fq).
  change (fdiv (fadd zp zq) f2) with (average zp zq).
  destruct (C34_average zp zq Fp Fq B) as (V & F & O & S). split; [exact F|]. split; [exact V|].
  destruct (C34_average zq zp Fq Fp) as (_ & F' & O' & _); [now rewrite Rplus_comm|].
  rewrite (fleb_R _ _ Fp Fq) in O. rewrite (fleb_R _ _ Fq Fp) in O'. rewrite (feqb_R _ _ F F') in S.
  destruct (Req_bool_spec (R_of (average zp zq)) (R_of (average zq zp))) as [S'|]; [|discriminate].
  destruct (Rle_lt_dec (R_of zp) (R_of zq)) as [L|L].
  - destruct O as (O1 & O2); [now apply Rle_bool_true|]. rewrite (fleb_R _ _ Fp F) in O1. rewrite (fleb_R _ _ F Fq) in O2.
    rewrite Rmin_left, Rmax_right by exact L. revert O1 O2. repeat case Rle_bool_spec; intros; try discriminate; lra.
  - destruct O' as (O1 & O2); [apply Rle_bool_true; lra|]. rewrite (fleb_R _ _ Fq F') in O1. rewrite (fleb_R _ _ F' Fp) in O2.
    rewrite Rmin_right, Rmax_left by lra. rewrite S'. revert O1 O2. repeat case Rle_bool_spec; intros; try discriminate; lra.
Qed.

(** ** Z of the reported points *)
(** [c] has the ordinates of the end [E], and its Z or, if that is missing,
    the one interpolated along the other segment [a b]. *)
Definition own_or_along (E a b c : Coordinate) : Prop :=
  same_xy c E /\ (fis_nan (cz E) = false -> cz c = cz E) /\ (fis_nan (cz E) = true -> cz c = z_interpolate_3 E a b).
Definition end_of (a b E : Coordinate) : Prop := E = a \/ E = b.
Definition end_with_z (p1 p2 q1 q2 c : Coordinate) : Prop :=
  (exists E, end_of p1 p2 E /\ own_or_along E q1 q2 c) \/ (exists E, end_of q1 q2 E /\ own_or_along E p1 p2 c).
Lemma nan_unique x : fis_nan x = true -> x = fnan.
Proof. destruct x; try discriminate. reflexivity. Qed.
Lemma copy_z p z : (fis_nan (cz p) = true \/ fis_nan z = false) -> cz (copy_with_z p z) = z.
Proof.
  unfold copy_with_z. destruct (fis_nan z) eqn:N; cbn [negb]; intros H; [|reflexivity].
  destruct H as [H|H]; [|discriminate]. cbn [from_coordinate cz]. rewrite (nan_unique _ H), (nan_unique _ N). reflexivity.
Qed.
Lemma copy_interpolate E a b : own_or_along E a b (copy_with_z_interpolate E a b).
Proof.
  unfold copy_with_z_interpolate, get_z_or_interpolate. split; [apply copy_xy|].
  destruct (fis_nan (cz E)) eqn:N; cbn [negb]; split; intros H; try discriminate; apply copy_z; auto.
Qed.
Theorem C53_collinear_z : forall s p1 p2 q1 q2, let r := compute_collinear_intersection s p1 p2 q1 q2 in
  snd r <> 0%Z -> end_with_z p1 p2 q1 q2 (int_0 (fst r)) /\ end_with_z p1 p2 q1 q2 (int_1 (fst r)).
Proof.
  intros s p1 p2 q1 q2 r. subst r. unfold compute_collinear_intersection. cbv zeta. unfold end_with_z, end_of.
  repeat match goal with |- context [fst (if ?b then _ else _)] => destruct b end; cbn [fst snd int_0 int_1 li_set_0 li_set_1];
    intros H; [..|now destruct H]; split;
    match goal with |- context [copy_with_z_interpolate ?E ?a ?b] => pose proof (copy_interpolate E a b) end; eauto 6.
Qed.
Theorem C53_touch_z : forall hypot s p1 p2 q1 q2,
  let s' := compute_intersection_4 hypot s p1 p2 q1 q2 in
  ~ (orient p1 p2 q1 = 0 /\ orient p1 p2 q2 = 0 /\ orient q1 q2 p1 = 0 /\ orient q1 q2 p2 = 0)%Z ->
  li_result s' <> 0%Z -> li_proper s' = false ->
  (exists p q, end_of p1 p2 p /\ end_of q1 q2 q /\ equals_2d p q = true /\ same_xy (int_0 s') p /\
     (fis_nan (cz p) = false -> cz (int_0 s') = cz p) /\ (fis_nan (cz p) = true -> cz (int_0 s') = cz q)) \/
  ((forall p q, end_of p1 p2 p -> end_of q1 q2 q -> equals_2d p q = false) /\ end_with_z p1 p2 q1 q2 (int_0 s')).
Proof.
  intros hypot s p1 p2 q1 q2. cbv zeta. intros NC. unfold compute_intersection_4, compute_intersect. cbv zeta.
  set (s1 := li_set_proper _ false).
  destruct (negb (intersects_4 p1 p2 q1 q2)); [intros H; now destruct H|].
  destruct (same_side (orient p1 p2 q1) (orient p1 p2 q2)); [intros H; now destruct H|].
  destruct (same_side (orient q1 q2 p1) (orient q1 q2 p2)); [intros H; now destruct H|].
  destruct ((orient p1 p2 q1 =? 0) && (orient p1 p2 q2 =? 0) && (orient q1 q2 p1 =? 0) && (orient q1 q2 p2 =? 0))%Z eqn:Z4.
  { exfalso. apply NC. rewrite !andb_true_iff, !Z.eqb_eq in Z4. tauto. }
  destruct ((orient p1 p2 q1 =? 0) || (orient p1 p2 q2 =? 0) || (orient q1 q2 p1 =? 0) || (orient q1 q2 p2 =? 0))%Z eqn:Z1.
  2:{ cbn. discriminate. }
  intros _ _. unfold touch_point.
  assert (forall p q, end_of p1 p2 p -> end_of q1 q2 q -> equals_2d p q = true ->
     exists p' q', end_of p1 p2 p' /\ end_of q1 q2 q' /\ equals_2d p' q' = true /\ same_xy (copy_with_z (from_coordinate p) (li_get_z p q)) p' /\
     (fis_nan (cz p') = false -> cz (copy_with_z (from_coordinate p) (li_get_z p q)) = cz p') /\
     (fis_nan (cz p') = true -> cz (copy_with_z (from_coordinate p) (li_get_z p q)) = cz q')) as EQ.
  { intros p q Hp Hq E. exists p, q. do 3 (split; [assumption|]). split; [apply (copy_xy (from_coordinate p))|]. unfold li_get_z.
    split; intros N; rewrite N; apply copy_z; auto. }
  assert (end_of p1 p2 p1 /\ end_of p1 p2 p2 /\ end_of q1 q2 q1 /\ end_of q1 q2 q2) as (P1 & P2 & Q1 & Q2) by (unfold end_of; auto).
  destruct (equals_2d p1 q1) eqn:E1; [left; cbn [li_set_result int_0 li_set_0]; now apply EQ|].
  destruct (equals_2d p1 q2) eqn:E2; [left; cbn [li_set_result int_0 li_set_0]; now apply EQ|].
  destruct (equals_2d p2 q1) eqn:E3; [left; cbn [li_set_result int_0 li_set_0]; now apply EQ|].
  destruct (equals_2d p2 q2) eqn:E4; [left; cbn [li_set_result int_0 li_set_0]; now apply EQ|].
  right. split. { intros p q [-> | ->] [-> | ->]; assumption. }
  assert (forall E a b, own_or_along E a b (copy_with_z (from_coordinate E) (get_z_or_interpolate E a b))) as OA.
  { intros E a b. exact (copy_interpolate E a b). }
  unfold end_with_z.
  destruct (orient p1 p2 q1 =? 0)%Z; [cbn [li_set_result int_0 li_set_0]; right; exists q1; auto|].
  destruct (orient p1 p2 q2 =? 0)%Z; [cbn [li_set_result int_0 li_set_0]; right; exists q2; auto|].
  destruct (orient q1 q2 p1 =? 0)%Z; [cbn [li_set_result int_0 li_set_0]; left; exists p1; auto|].
  destruct (orient q1 q2 p2 =? 0)%Z; [cbn [li_set_result int_0 li_set_0]; left; exists p2; auto|]. discriminate.
Qed.
Lemma interpolate_xy p p' a b : same_xy p p' -> z_interpolate_3 p a b = z_interpolate_3 p' a b.
Proof. intros (X & Y). unfold z_interpolate_3, equals_2d. now rewrite X, Y. Qed.
Theorem C53_proper_z : forall hypot s p1 p2 q1 q2,
  let s' := compute_intersection_4 hypot s p1 p2 q1 q2 in
  li_proper s' = true ->
  let z := z_interpolate_5 (int_0 s') p1 p2 q1 q2 in
  fis_nan z = false -> cz (int_0 s') = z.
Proof.
  intros hypot s p1 p2 q1 q2. cbv zeta. unfold compute_intersection_4, compute_intersect. cbv zeta.
  destruct (negb (intersects_4 p1 p2 q1 q2)); [discriminate|].
  destruct (same_side (orient p1 p2 q1) (orient p1 p2 q2)); [discriminate|].
  destruct (same_side (orient q1 q2 p1) (orient q1 q2 p2)); [discriminate|].
  destruct (_ && _ && _ && _)%bool.
  { set (s0 := li_set_proper _ false). pose proof (collinear_facts s0 p1 p2 q1 q2) as (_ & P). cbv zeta in P.
    destruct (compute_collinear_intersection s0 p1 p2 q1 q2) as (t & r). cbn [fst] in P. cbn [li_set_result li_proper]. rewrite P. discriminate. }
  destruct (_ || _ || _ || _)%bool.
  { destruct (touch_point _ _ _ _ _ _ _ _) as (p & z). discriminate. }
  intros _. cbn [li_set_result li_set_0 int_0]. set (p := li_intersection _ _ _ _ _ _).
  assert (forall z, z_interpolate_5 (copy_with_z p z) p1 p2 q1 q2 = z_interpolate_5 p p1 p2 q1 q2) as R.
  { intros z. unfold z_interpolate_5. now rewrite !(interpolate_xy (copy_with_z p z) p) by apply copy_xy. }
  rewrite !R. intros N. apply copy_z. now right.
Qed.

(** ** The end fallen back to *)
(** When no distance is NaN, the nearest end is one whose distance to the other
    segment is least. *)
Theorem C53_nearest_endpoint : forall hypot p1 p2 q1 q2,
  let ends := [(p1, point_to_segment hypot p1 q1 q2); (p2, point_to_segment hypot p2 q1 q2);
               (q1, point_to_segment hypot q1 p1 p2); (q2, point_to_segment hypot q2 p1 p2)] in
  (forall c d, In (c, d) ends -> fis_nan d = false) ->
  exists c d, In (c, d) ends /\ nearest_endpoint hypot p1 p2 q1 q2 = from_coordinate c /\
    forall c' d', In (c', d') ends -> fleb d d' = true.
Proof.
  intros hypot p1 p2 q1 q2 ends NN. unfold nearest_endpoint. cbv zeta.
  set (d1 := point_to_segment hypot p1 q1 q2) in *. set (d2 := point_to_segment hypot p2 q1 q2) in *.
  set (d3 := point_to_segment hypot q1 p1 p2) in *. set (d4 := point_to_segment hypot q2 p1 p2) in *.
  assert (nn d1 /\ nn d2 /\ nn d3 /\ nn d4) as (N1 & N2 & N3 & N4).
  { repeat split; eapply NN; unfold ends; cbn [In]; eauto 6. }
  clear NN. 
  assert (forall c d, In (c, d) ends <-> (c, d) = (p1, d1) \/ (c, d) = (p2, d2) \/ (c, d) = (q1, d3) \/ (c, d) = (q2, d4)) as IE.
  { intros c d. unfold ends. cbn [In]. split; intros H; repeat destruct H as [H|H]; try contradiction; rewrite <- ?H; auto; rewrite H; auto. }
  assert (forall c d, ((c, d) = (p1, d1) \/ (c, d) = (p2, d2) \/ (c, d) = (q1, d3) \/ (c, d) = (q2, d4)) ->
     (fleb d d1 = true /\ fleb d d2 = true /\ fleb d d3 = true /\ fleb d d4 = true) ->
     exists c' d', In (c', d') ends /\ from_coordinate c = from_coordinate c' /\ forall c'' d'', In (c'', d'') ends -> fleb d' d'' = true) as FIN.
  { intros c d H (L1 & L2 & L3 & L4). exists c, d. split; [now apply IE|]. split; [reflexivity|].
    intros c' d' H'. apply IE in H'. repeat destruct H' as [H'|H']; injection H' as -> ->; assumption. }
  destruct (fltb d2 d1) eqn:A; cbn [fst snd];
  [destruct (fltb d3 d2) eqn:B|destruct (fltb d3 d1) eqn:B]; cbn [fst snd];
  match goal with |- context [fltb d4 ?m] => destruct (fltb d4 m) eqn:C end;
  match goal with |- exists c d, _ /\ from_coordinate ?x = _ /\ _ =>
    match x with p1 => apply (FIN p1 d1) | p2 => apply (FIN p2 d2) | q1 => apply (FIN q1 d3) | q2 => apply (FIN q2 d4) end end; auto;
  rewrite ?fltb_rank in * by assumption; rewrite ?fleb_rank by assumption;
  rewrite ?Z.ltb_lt, ?Z.ltb_ge in *; repeat split; apply Z.leb_le; lia.
Qed.

(** ** C54 *)
(** The fallback of [line_segment] when the point cannot be computed. *)
Theorem C54_line_segment_fallback : forall hypot l1 l2 s1 s2,
  (orient l1 l2 s1 * orient l1 l2 s2 < 0)%Z -> cgdd_intersection l1 l2 s1 s2 = None ->
  let d1 := line_perpendicular hypot s1 l1 l2 in let d2 := line_perpendicular hypot s2 l1 l2 in
  fis_nan d1 = false -> fis_nan d2 = false ->
  exists c d, (c = s1 /\ d = d1 \/ c = s2 /\ d = d2) /\ line_segment hypot l1 l2 s1 s2 = Some (from_coordinate c) /\
    fleb d d1 = true /\ fleb d d2 = true.
Proof.
  intros hypot l1 l2 s1 s2 O N d1 d2 N1 N2. unfold line_segment. cbv zeta. fold d1 d2. rewrite N.
  destruct (Z.eqb_spec (orient l1 l2 s1) 0) as [E|E]; [rewrite E in O; lia|].
  destruct (Z.eqb_spec (orient l1 l2 s2) 0) as [E'|E']; [rewrite E' in O; lia|].
  destruct (((0 <? orient l1 l2 s1) && (0 <? orient l1 l2 s2)) || ((orient l1 l2 s1 <? 0) && (orient l1 l2 s2 <? 0)))%Z eqn:SS.
  { exfalso. rewrite orb_true_iff, !andb_true_iff, !Z.ltb_lt in SS. nia. }
  destruct (fltb d1 d2) eqn:L; [exists s1, d1|exists s2, d2]; (split; [auto|]); (split; [reflexivity|]);
    rewrite fltb_rank in L by assumption; rewrite !fleb_rank by assumption; rewrite ?Z.ltb_lt, ?Z.ltb_ge in L; split; apply Z.leb_le; lia.
Qed.
(** A line through two points and the point common to two lines, in homogeneous
    coordinates: exact on the grid. *)
Theorem C54_homogeneous_line : forall e p1 p2, (-130 <= e <= 130)%Z -> grid_pt e 16 p1 -> grid_pt e 16 p2 ->
  let l := h_line p1 p2 in
  fis_finite (hx l) = true /\ fis_finite (hy l) = true /\ fis_finite (hw l) = true /\
  forall x y, R_of (hx l) * x + R_of (hy l) * y + R_of (hw l) = side (rpt p1) (rpt p2) (mkP x y).
Proof.
  intros e p1 p2 He S1 S2. destruct (grid_ptk _ _ _ S1) as (Ax & Ay). destruct (grid_ptk _ _ _ S2) as (Bx & By_).
  cbv zeta. unfold h_line. cbn [hx hy hw].
  pose proof (ex_sub e 16 _ _ _ _ ltac:(lia) ltac:(lia) Ay By_) as PX. pose proof (ex_sub e 16 _ _ _ _ ltac:(lia) ltac:(lia) Bx Ax) as PY.
  pose proof (ex_sub (e + e) 32 _ _ _ _ ltac:(lia) ltac:(lia) (ex_mul e e 16 16 _ _ _ _ ltac:(lia) ltac:(lia) ltac:(lia) ltac:(lia) Ax By_) (ex_mul e e 16 16 _ _ _ _ ltac:(lia) ltac:(lia) ltac:(lia) ltac:(lia) Bx Ay)) as PW.
  destruct PX as (F1 & E1 & _), PY as (F2 & E2 & _), PW as (F3 & E3 & _). repeat (split; [assumption|]). intros x y. rewrite E1, E2, E3.
  unfold side. cbn [px py rpt]. ring.
Qed.
Theorem C54_homogeneous_meet : forall e p1 p2 q1 q2, (-130 <= e <= 130)%Z ->
  grid_pt e 16 p1 -> grid_pt e 16 p2 -> grid_pt e 16 q1 -> grid_pt e 16 q2 ->
  let r := h_get_coordinate (h_cross (h_line p1 p2) (h_line q1 q2)) in
  (cross (rpt p1) (rpt p2) (rpt q1) (rpt q2) = 0 -> fis_nan (cx r) = true /\ fis_nan (cy r) = true) /\
  (cross (rpt p1) (rpt p2) (rpt q1) (rpt q2) <> 0 -> exists q,
    lines_meet (rpt p1) (rpt p2) (rpt q1) (rpt q2) q /\
    fis_finite (cx r) = true /\ fis_finite (cy r) = true /\ R_of (cx r) = RN (px q) /\ R_of (cy r) = RN (py q)).
Proof.
  intros e p1 p2 q1 q2 He S1 S2 S3 S4. cbv zeta.
  destruct (h_exact e 16 ltac:(lia) ltac:(lia) _ _ _ _ _ _ _ _ _ _ _ _ (grid_ptk _ _ _ S1) (grid_ptk _ _ _ S2) (grid_ptk _ _ _ S3) (grid_ptk _ _ _ S4))
    as (Ex & Ey & Ew). cbv zeta in *.
  unfold h_get_coordinate, h_get_x, h_get_y, h_get, h_cross, h_line. cbn [hx hy hw set_x set_y cx cy].
  set (x := fsub (fmul _ _) _) in Ex |- *. set (w := fsub (fmul (fsub (cy p1) (cy p2)) _) _) in Ew |- *.
  set (y := fsub (fmul _ _) _) in Ey |- *. split; intros H.
  - rewrite H in Ew. destruct Ew as (Fw & Ew & _). 
    assert (forall a, fis_finite a = true -> fis_nan (if fis_nan (fdiv a w) || fis_infinite (fdiv a w) then fnan else fdiv a w) = true) as B.
    { intros a Fa. destruct (div_zero_bad a w Fa Fw Ew) as [->| ->]; rewrite ?orb_true_r; reflexivity. }
    split; apply B; [apply Ex|apply Ey].
  - destruct (ex_quot (e + (e + e)) (e + e) (3 * 16 + 3) (2 * 16 + 3) _ _ _ _ ltac:(lia) ltac:(lia) ltac:(lia) ltac:(lia) Ex Ew H) as (Fx & Vx & _).
    destruct (ex_quot (e + (e + e)) (e + e) (3 * 16 + 3) (2 * 16 + 3) _ _ _ _ ltac:(lia) ltac:(lia) ltac:(lia) ltac:(lia) Ey Ew H) as (Fy & Vy & _).
    destruct (fin_not _ Fx) as (-> & ->). destruct (fin_not _ Fy) as (-> & ->). cbn [orb].
    exists (meetR (rpt p1) (rpt p2) (rpt q1) (rpt q2)). split; [now apply meetR_meets|]. repeat split; assumption.
Qed.

(** (0,0,Z 0)-(4,4,Z 8) and (0,4,Z 10)-(4,0,Z 10) cross at (2,2): Z 4 along the
    first, 10 along the second, reported 7. *)
Definition zpt (x y z : Z) : Coordinate := new_xyz (fofZ x) (fofZ y) (fofZ z).
Definition euclid (x y : f64) : f64 := fsqrt (fadd (fmul x x) (fmul y y)).
Example C53_z_example :
  let s' := compute_intersection_4 euclid li_default (zpt 0 0 0) (zpt 4 4 8) (zpt 0 4 10) (zpt 4 0 10) in
  li_proper s' = true /\ equals_2d (int_0 s') (ipt 2 2) = true /\ feqb (cz (int_0 s')) (fofZ 7) = true /\
  feqb (z_interpolate_3 (ipt 2 2) (zpt 0 0 0) (zpt 4 4 8)) (fofZ 4) = true.
Proof. repeat split; vm_compute; reflexivity. Qed.
(** An end of Z 3 touching the middle of the other segment keeps Z 3; without Z it gets 4. *)
Example C53_touch_z_example :
  let s1 := compute_intersection_4 euclid li_default (zpt 0 0 0) (zpt 4 4 8) (zpt 2 2 3) (zpt 4 0 10) in
  let s2 := compute_intersection_4 euclid li_default (zpt 0 0 0) (zpt 4 4 8) (ipt 2 2) (zpt 4 0 10) in
  (li_result s1 = 1 /\ li_proper s1 = false /\ orient (zpt 0 0 0) (zpt 4 4 8) (zpt 4 0 10) <> 0)%Z /\
  feqb (cz (int_0 s1)) (fofZ 3) = true /\ feqb (cz (int_0 s2)) (fofZ 4) = true.
Proof. repeat split; try (vm_compute; reflexivity). vm_compute. discriminate. Qed.
Example C53_nearest_example :
  feqb (cx (nearest_endpoint euclid (ipt 0 0) (ipt 4 0) (ipt 5 3) (ipt 5 9))) (fofZ 4) = true.
Proof. vm_compute. reflexivity. Qed.
Example C54_homogeneous_example :
  let r := h_get_coordinate (h_cross (h_line (ipt 0 0) (ipt 4 2)) (h_line (ipt 0 2) (ipt 4 0))) in
  equals_2d r (ipt 2 1) = true.
Proof. vm_compute. reflexivity. Qed.
(** Huge coordinates: the crossing cannot be computed and the nearer end is returned. *)
Definition big (x y : Z) : Coordinate := new_xy (mkf x 400) (mkf y 400).
Example C54_fallback_example :
  (orient (big 0 0) (big 4 0) (big 1 2) * orient (big 0 0) (big 4 0) (big 1 (-1)) < 0)%Z /\
  cgdd_intersection (big 0 0) (big 4 0) (big 1 2) (big 1 (-1)) = None /\
  fis_nan (line_perpendicular euclid (big 1 2) (big 0 0) (big 4 0)) = false /\
  fis_nan (line_perpendicular euclid (big 1 (-1)) (big 0 0) (big 4 0)) = false.
Proof. repeat split; vm_compute; reflexivity. Qed.
