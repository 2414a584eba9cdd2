(** Projections onto a segment at arbitrary doubles. *)
From Coq Require Import ZArith Bool List Reals Lia Lra Psatz.
From Flocq Require Import Core IEEE754.BinarySingleNaN.
From Verif Require Import Base F64 F64Facts F64Err Num NumLink Coordinate_model Orientation_spec Orientation_proofs
  Distance_model Distance_spec Distance_proofs Distance_float Distance_props LineIntersector_proofs Segment_model DistanceErr_proofs SegSegErr_proofs.
Import ListNotations.
Local Open Scope R_scope.

Lemma eta_u : eta <= u53 / 1024.
Proof. replace (u53 / 1024) with (u53 * bp (-10)) by (change (bp (-10)) with (/ 1024); field). unfold eta. rewrite <- !bpow_plus. apply bpow_le. lia. Qed.

Section Proj.
Variable hypot : f64 -> f64 -> f64.
Variables p a b : Coordinate.
Hypothesis Mp : mid_pt p.
Hypothesis Ma : mid_pt a.
Hypothesis Mb : mid_pt b.
Hypothesis Pa : rpt p <> rpt a.
Hypothesis Ab : rpt a <> rpt b.
Let D := dist (rpt p) (rpt a).
Let L := dist (rpt a) (rpt b).
Let t := dotv (rpt p) (rpt a) (rpt b) / (L * L).
Let l := g_len2 f64 (NF hypot) (pf a) (pf b).
Let nf := fadd (fmul (fsub (cx p) (cx a)) (fsub (cx b) (cx a))) (fmul (fsub (cy p) (cy a)) (fsub (cy b) (cy a))).
Let f := fdiv nf l.

Lemma eta_DL : eta * L <= u53 * D / 1024.
Proof.
  destruct (D_range p a Mp Ma Pa) as (D1 & _). destruct (L_range a b Ma Mb Ab) as (_ & L2). fold D in D1. fold L in L2. pose proof u53_pos.
  apply Rle_trans with (bp (-1075) * bp 472); [apply Rmult_le_compat_l; [apply bpow_ge_0|exact L2]|].
  apply Rle_trans with (u53 * bp (-440) / 1024); [|nra].
  replace (u53 * bp (-440) / 1024) with (u53 * bp (-440) * bp (-10)) by (change (bp (-10)) with (/ 1024); field).
  rewrite <- !bpow_plus. apply bpow_le. lia.
Qed.
Lemma eta_D : eta <= u53 * D / 1024.
Proof.
  destruct (D_range p a Mp Ma Pa) as (D1 & _). fold D in D1. pose proof u53_pos.
  apply Rle_trans with (u53 * bp (-440) / 1024); [|nra].
  replace (u53 * bp (-440) / 1024) with (u53 * bp (-440) * bp (-10)) by (change (bp (-10)) with (/ 1024); field).
  unfold eta. rewrite <- !bpow_plus. apply bpow_le. lia.
Qed.
(** The factor. *)
Lemma factor_f : fis_finite f = true /\ Rabs (R_of f - t) * L <= 14 * u53 * D /\ Rabs t * L <= D.
Proof.
  pose proof (D_pos p a Mp Ma Pa) as D0. pose proof (L_pos a b Ma Mb Ab) as L0. fold D in D0. fold L in L0.
  destruct (len2_f hypot a b Ma Mb Ab) as (_ & El). destruct (len2_bounds hypot a b Ma Mb Ab) as (Bl & Pl). fold l L in El, Bl, Pl.
  destruct (dot_f p a b Mp Ma Mb Pa Ab) as (Fn & En). fold nf D L in Fn, En.
  pose proof (dot_le (rpt p) (rpt a) (rpt b)) as Tn. fold D L in Tn.
  destruct (quot_f hypot p a b Mp Ma Mb Pa Ab nf _ Fn En Tn) as (Fq & Eq & An). fold l D L in Fq, Eq, An. fold f in Fq, Eq.
  pose proof u53_pos as U. pose proof u53_small as Us. pose proof (RN_err (R_of nf / R_of l)) as Rq. fold eta in Rq. rewrite <- Eq in Rq.
  pose proof eta_DL as TE. set (N := dotv _ _ _) in *. set (n := R_of nf) in *. set (w := R_of l) in *. clear Eq.
  assert (DL : 0 < D * L) by (apply Rmult_lt_0_compat; assumption). assert (LL : 0 < L * L) by (apply Rmult_lt_0_compat; assumption).
  assert (w2 : L * L / 2 <= w).
  { assert (u53 * (L * L) <= L * L / 1024) by nra. lra. }
  assert (tL : Rabs t * L <= D).
  { unfold t. unfold Rdiv. rewrite Rabs_mult, (Rabs_pos_eq (/ (L * L))) by (apply Rlt_le, Rinv_0_lt_compat; exact LL).
    apply Rmult_le_reg_r with L; [exact L0|]. replace (Rabs N * / (L * L) * L * L) with (Rabs N) by (field; lra). exact Tn. }
  split; [exact Fq|]. split; [|exact tL].
  assert (Qt : Rabs (n / w - t) * L <= 125 / 10 * u53 * D).
  { assert (E : (n / w - t) * w = (n - N) + t * (L * L - w)) by (unfold t; field; lra).
    assert (B : Rabs ((n / w - t) * w) <= 12 * u53 * (D * L)).
    { rewrite E. eapply Rle_trans; [apply Rabs_triang|]. rewrite Rabs_mult, (Rabs_minus_sym (L * L)).
      assert (Rabs t * Rabs (w - L * L) <= Rabs t * (6 * u53 * (L * L))) by (apply Rmult_le_compat_l; [apply Rabs_pos|exact El]).
      assert (Rabs t * (6 * u53 * (L * L)) <= 6 * u53 * (D * L)).
      { replace (Rabs t * (6 * u53 * (L * L))) with (6 * u53 * (Rabs t * L * L)) by ring. apply Rmult_le_compat_l; [lra|]. apply Rmult_le_compat_r; lra. }
      lra. }
    rewrite Rabs_mult, (Rabs_pos_eq w) in B by lra.
    apply Rmult_le_reg_r with ((1 - 6 * u53) * L); [apply Rmult_lt_0_compat; lra|].
    apply Rle_trans with (Rabs (n / w - t) * w).
    - replace (Rabs (n / w - t) * L * ((1 - 6 * u53) * L)) with (Rabs (n / w - t) * ((1 - 6 * u53) * (L * L))) by ring. apply Rmult_le_compat_l; [apply Rabs_pos|apply Bl].
    - eapply Rle_trans; [exact B|]. replace (125 / 10 * u53 * D * ((1 - 6 * u53) * L)) with (125 / 10 * (1 - 6 * u53) * (u53 * (D * L))) by ring.
      replace (12 * u53 * (D * L)) with (12 * (u53 * (D * L))) by ring. apply Rmult_le_compat_r; [nra|lra]. }
  assert (Qa : Rabs (n / w) * L <= 11 / 10 * D).
  { replace (n / w) with ((n / w - t) + t) by ring. apply Rle_trans with ((Rabs (n / w - t) + Rabs t) * L); [apply Rmult_le_compat_r; [lra|apply Rabs_triang]|].
    assert (125 / 10 * u53 * D <= / 10 * D) by (apply Rmult_le_compat_r; lra). lra. }
  replace (R_of f - t) with ((R_of f - n / w) + (n / w - t)) by ring.
  apply Rle_trans with ((Rabs (R_of f - n / w) + Rabs (n / w - t)) * L); [apply Rmult_le_compat_r; [lra|apply Rabs_triang]|].
  assert (Rabs (R_of f - n / w) * L <= (u53 * Rabs (n / w) + eta) * L) by (apply Rmult_le_compat_r; lra).
  assert (u53 * (Rabs (n / w) * L) <= u53 * (11 / 10 * D)) by (apply Rmult_le_compat_l; lra).
  assert (0 < u53 * D) by (apply Rmult_lt_0_compat; assumption). lra.
Qed.
(** A point of the line at a factor close to the exact one. *)
Lemma ord_f g x0 x1 : fis_finite g = true -> Rabs (R_of g - t) * L <= 14 * u53 * D -> mid x0 -> mid x1 -> Rabs (R_of x1 - R_of x0) <= L ->
  let z := fadd x0 (fmul g (fsub x1 x0)) in
  fis_finite z = true /\ Rabs (R_of z - (R_of x0 + t * (R_of x1 - R_of x0))) <= 20 * u53 * D + u53 * Rabs (R_of x0).
Proof.
  intros Ff Ef M0 M1 HL z. destruct factor_f as (_ & _ & Et).
  destruct (D_range p a Mp Ma Pa) as (_ & D2). fold D in D2.
  pose proof (D_pos p a Mp Ma Pa) as D0. pose proof (L_pos a b Ma Mb Ab) as L0. fold D in D0. fold L in L0.
  pose proof u53_pos as U. pose proof u53_small as Us. pose proof eta_D as TE.
  destruct (mid_diff x1 x0 M1 M0) as (Bd & Rd & _). unfold ru in Rd. destruct Bd as (Fd & _).
  set (X := R_of x1 - R_of x0) in *. set (e := R_of (fsub x1 x0)) in *.
  assert (U0 : 0 < u53 * D) by (apply Rmult_lt_0_compat; assumption).
  assert (UD : u53 * D <= D / 1024) by nra. assert (UU : u53 * (u53 * D) <= u53 * D / 1024) by nra.
  assert (X0 : 0 <= Rabs X) by apply Rabs_pos. assert (uX : 0 <= u53 * Rabs X <= Rabs X / 1024) by (split; nra).
  assert (eL : Rabs e <= (1 + u53) * L).
  { replace e with ((e - X) + X) by ring. eapply Rle_trans; [apply Rabs_triang|].
    assert (u53 * Rabs X <= u53 * L) by (apply Rmult_le_compat_l; lra). lra. }
  assert (F1 : Rabs (R_of g - t) * Rabs e <= 14 * u53 * D * (1 + u53)).
  { apply Rle_trans with (Rabs (R_of g - t) * ((1 + u53) * L)); [apply Rmult_le_compat_l; [apply Rabs_pos|exact eL]|].
    replace (Rabs (R_of g - t) * ((1 + u53) * L)) with (Rabs (R_of g - t) * L * (1 + u53)) by ring. apply Rmult_le_compat_r; lra. }
  assert (F2 : Rabs t * Rabs (e - X) <= u53 * D).
  { apply Rle_trans with (Rabs t * (u53 * L)).
    - apply Rmult_le_compat_l; [apply Rabs_pos|]. eapply Rle_trans; [exact Rd|]. apply Rmult_le_compat_l; lra.
    - replace (Rabs t * (u53 * L)) with (u53 * (Rabs t * L)) by ring. apply Rmult_le_compat_l; lra. }
  assert (E1 : Rabs (R_of g * e - t * X) <= 16 * u53 * D).
  { replace (R_of g * e - t * X) with ((R_of g - t) * e + t * (e - X)) by ring. eapply Rle_trans; [apply Rabs_triang|].
    rewrite !Rabs_mult. lra. }
  assert (tX : Rabs (t * X) <= D).
  { rewrite Rabs_mult. eapply Rle_trans; [|exact Et]. apply Rmult_le_compat_l; [apply Rabs_pos|exact HL]. }
  assert (A1 : Rabs (R_of g * e) <= 11 / 10 * D).
  { replace (R_of g * e) with ((R_of g * e - t * X) + t * X) by ring. eapply Rle_trans; [apply Rabs_triang|]. lra. }
  destruct (fmul_R g (fsub x1 x0) Ff Fd) as (Fm & Em).
  { apply (RN_small _ 473); [lia|]. change 473%Z with (472 + 1)%Z. rewrite bp_S. fold e. lra. }
  fold e in Em. pose proof (RN_err (R_of g * e)) as R1. fold eta in R1. rewrite <- Em in R1.
  set (m := fmul g (fsub x1 x0)) in *.
  assert (u53 * Rabs (R_of g * e) <= u53 * (11 / 10 * D)) as G1 by (apply Rmult_le_compat_l; lra).
  assert (E2 : Rabs (R_of m - t * X) <= 18 * u53 * D).
  { replace (R_of m - t * X) with ((R_of m - R_of g * e) + (R_of g * e - t * X)) by ring. eapply Rle_trans; [apply Rabs_triang|]. lra. }
  assert (A2 : Rabs (R_of m) <= 11 / 10 * D).
  { replace (R_of m) with ((R_of m - t * X) + t * X) by ring. eapply Rle_trans; [apply Rabs_triang|]. lra. }
  pose proof M0 as (F0 & B0 & _).
  assert (A3 : Rabs (R_of x0 + R_of m) <= Rabs (R_of x0) + 11 / 10 * D) by (eapply Rle_trans; [apply Rabs_triang|]; lra).
  destruct (fadd_R x0 m F0 Fm) as (Fz & Ez).
  { apply (RN_small _ 475); [lia|]. eapply Rle_trans; [exact A3|].
    assert (bp 470 <= bp 472) by (apply bpow_le; lia). assert (bp 475 = 8 * bp 472) by (change 475%Z with (472 + 1 + 1 + 1)%Z; rewrite !bp_S; lra). lra. }
  fold z in Fz, Ez. split; [exact Fz|].
  pose proof (RN_sum_err (R_of x0) (R_of m)) as R2.
  assert (Fmt : forall v, fmt (R_of v)) by (intros v; apply generic_format_B2R). specialize (R2 (Fmt _) (Fmt _)). rewrite <- Ez in R2.
  assert (u53 * Rabs (R_of x0 + R_of m) <= u53 * (Rabs (R_of x0) + 11 / 10 * D)) as G2 by (apply Rmult_le_compat_l; lra).
  replace (R_of z - (R_of x0 + t * X)) with ((R_of z - (R_of x0 + R_of m)) + (R_of m - t * X)) by ring.
  eapply Rle_trans; [apply Rabs_triang|]. lra.
Qed.
(** The computed factor is this quotient. *)
Lemma factor_link : rpt p <> rpt b -> g_projection_factor f64 (NF hypot) (pf a) (pf b) (pf p) = Some f.
Proof.
  intros Pb. unfold g_projection_factor, g_equals. cbn [neq NF pf px py].
  destruct (feqb (cx p) (cx a) && feqb (cy p) (cy a)) eqn:E1.
  { apply feqb_pt in E1; [contradiction|..]; apply mid_fin'; first [apply Mp|apply Ma]. }
  destruct (feqb (cx p) (cx b) && feqb (cy p) (cy b)) eqn:E2.
  { apply feqb_pt in E2; [contradiction|..]; apply mid_fin'; first [apply Mp|apply Mb]. }
  cbv zeta. destruct (len2_f hypot a b Ma Mb Ab) as (Fl & _). destruct (len2_bounds hypot a b Ma Mb Ab) as (_ & Pl). fold l in Fl, Pl.
  change (nadd (NF hypot) (nmul (NF hypot) (nsub (NF hypot) (cx b) (cx a)) (nsub (NF hypot) (cx b) (cx a)))
    (nmul (NF hypot) (nsub (NF hypot) (cy b) (cy a)) (nsub (NF hypot) (cy b) (cy a)))) with l.
  cbn [nle nofZ NF]. destruct fofZ_0 as (F0 & R0). rewrite (fleb_R _ _ Fl F0), R0, Rle_bool_false by exact Pl. reflexivity.
Qed.
End Proj.

(** The clamped foot is nearest. *)
Definition clamp x := Rmax 0 (Rmin 1 x).
Lemma clamp_range x : 0 <= clamp x <= 1.
Proof. unfold clamp. split; [apply Rmax_l|]. apply Rmax_lub; [lra|apply Rmin_l]. Qed.
Lemma clamp_cases x : (x <= 0 /\ clamp x = 0) \/ (0 <= x <= 1 /\ clamp x = x) \/ (1 <= x /\ clamp x = 1).
Proof.
  unfold clamp. destruct (Rle_dec x 0); [left; rewrite Rmin_right, Rmax_left by lra; lra|].
  destruct (Rle_dec x 1); [right; left; rewrite Rmin_right, Rmax_right by lra; lra|right; right; rewrite Rmin_left, Rmax_right by lra; lra].
Qed.
Lemma clamp_near x y : 0 <= y <= 1 -> Rabs (x - clamp x) <= Rabs (y - x).
Proof. intros H. destruct (clamp_cases x) as [(A & ->)|[(A & ->)|(A & ->)]]; unfold Rabs; repeat destruct Rcase_abs; lra. Qed.
Lemma clamp_least p a b d : a <> b -> least_distance (eq p) (on_segment a b) d ->
  dist p (along a b (clamp (dotv p a b / (dist a b * dist a b)))) = d.
Proof.
  intros Ab Ld. destruct (least_at p a b d Ld) as (Lo & s & S & ->).
  assert (0 < dist a b) as L0 by (apply dist_pos_ne; exact Ab). assert (0 < dist a b * dist a b) as LL by (now apply Rmult_lt_0_compat).
  set (t := dotv p a b / (dist a b * dist a b)). assert (dotv p a b = t * (dist a b * dist a b)) as Et by (unfold t; field; lra).
  pose proof (clamp_range t) as Ct. apply Rle_antisym; [|apply Lo; eexists; split; [exact Ct|reflexivity]].
  apply sq_le; [apply dist_pos|]. rewrite !along_sq, Et.
  assert ((t - clamp t) * (t - clamp t) <= (s - t) * (s - t)) as Q.
  { rewrite <- (Rabs_pos_eq ((t - clamp t) * _)), <- (Rabs_pos_eq ((s - t) * _)), !Rabs_mult by apply Rle_0_sqr.
    apply Rmult_le_compat; try apply Rabs_pos; now apply clamp_near. }
  assert (0 <= ((s - t) * (s - t) - (t - clamp t) * (t - clamp t)) * (dist a b * dist a b)) as W by (apply Rmult_le_pos; lra).
  lra.
Qed.
(** The nearer end, when one end is nearly nearest. *)
Lemma end_near hypot p a b d : hypot_accurate hypot -> mid_pt p -> mid_pt a -> mid_pt b -> d <= dist (rpt p) (rpt a) ->
  dist (rpt p) (rpt a) <= d + 14 * u53 * dist (rpt p) (rpt a) \/ dist (rpt p) (rpt b) <= d + 14 * u53 * dist (rpt p) (rpt a) ->
  dist (rpt p) (rpt (if fltb (distance hypot a p) (distance hypot b p) then a else b)) <= d + 24 * u53 * dist (rpt p) (rpt a).
Proof.
  intros Hh Mp Ma Mb Hd H. pose proof u53_pos as U. pose proof u53_small as Us.
  destruct (dist_f hypot a p Hh Ma Mp) as (Fa & Ea). destruct (dist_f hypot b p Hh Mb Mp) as (Fb & Eb).
  rewrite (dist_sym (rpt a)) in Ea. rewrite (dist_sym (rpt b)) in Eb.
  rewrite fltb_R by assumption. pose proof (dist_pos (rpt p) (rpt a)) as A0. pose proof (dist_pos (rpt p) (rpt b)) as B0.
  apply Rabs_le_inv in Ea, Eb. set (A := dist (rpt p) (rpt a)) in *. set (B := dist (rpt p) (rpt b)) in *.
  assert (UA : 0 <= u53 * A <= A / 1024) by (split; nra). assert (UB : 0 <= u53 * B <= B / 1024) by (split; nra).
  assert (UUA : u53 * (u53 * A) <= u53 * A / 1024) by nra. assert (UUB : u53 * (u53 * B) <= u53 * B / 1024) by nra.
  destruct (Rlt_bool_spec (R_of (distance hypot a p)) (R_of (distance hypot b p))) as [C|C]; [fold A|fold B].
  - destruct H as [H|H]; [lra|]. assert (A <= B + 9 * (u53 * B)) by nra.
    assert (u53 * B <= u53 * (11 / 10 * A)) by (apply Rmult_le_compat_l; lra). lra.
  - destruct H as [H|H]; [|lra]. assert (B <= A + 9 * (u53 * A)) by nra. lra.
Qed.
