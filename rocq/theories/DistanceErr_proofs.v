(** Rounding errors of distances at arbitrary doubles. *)
From Coq Require Import ZArith Bool List Reals Lia Lra Psatz.
From Flocq Require Import Core IEEE754.BinarySingleNaN.
From Verif Require Import Base F64 F64Facts F64Err Num NumLink Coordinate_model Orientation_spec Orientation_proofs
  Distance_model Distance_spec Distance_proofs Distance_float Distance_props MeasureErr_spec MeasureErr_proofs DD_more DDSum_proofs.
Import ListNotations.
Local Open Scope R_scope.

(** ** Distances in the plane *)
Definition dotv (p a b : pR) : R := (px p - px a) * (px b - px a) + (py p - py a) * (py b - py a).
Definition sidev (p a b : pR) : R := (py a - py p) * (px b - px a) - (px a - px p) * (py b - py a).
Lemma dist_sq' p q : dist p q * dist p q = (px p - px q) * (px p - px q) + (py p - py q) * (py p - py q).
Proof. rewrite dist_sq. unfold Rsqr. ring. Qed.
Lemma dot_side p a b : dotv p a b * dotv p a b + sidev p a b * sidev p a b = (dist p a * dist p a) * (dist a b * dist a b).
Proof. rewrite !dist_sq'. unfold dotv, sidev. ring. Qed.
Lemma sq_le x y : 0 <= y -> x * x <= y * y -> x <= y.
Proof. intros Y H. destruct (Rle_dec x y) as [|n]; [assumption|]. nra. Qed.
Lemma sq_abs_le x y : 0 <= y -> x * x <= y * y -> Rabs x <= y.
Proof. intros Y H. apply sq_le; [exact Y|]. rewrite <- Rabs_mult, Rabs_pos_eq by nra. exact H. Qed.
Lemma dot_le p a b : Rabs (dotv p a b) <= dist p a * dist a b.
Proof.
  pose proof (dot_side p a b). pose proof (dist_pos p a). pose proof (dist_pos a b). apply sq_abs_le; [nra|].
  pose proof (Rle_0_sqr (sidev p a b)) as Q. unfold Rsqr in Q. lra.
Qed.
Lemma side_le p a b : Rabs (sidev p a b) <= dist p a * dist a b.
Proof.
  pose proof (dot_side p a b). pose proof (dist_pos p a). pose proof (dist_pos a b). apply sq_abs_le; [nra|].
  pose proof (Rle_0_sqr (dotv p a b)) as Q. unfold Rsqr in Q. lra.
Qed.
Lemma along_sq p a b t : dist p (along a b t) * dist p (along a b t) =
  dist p a * dist p a - 2 * t * dotv p a b + t * t * (dist a b * dist a b).
Proof. rewrite !dist_sq'. unfold dotv, along. cbn [px py]. ring. Qed.
Lemma dot_flip p a b : dotv p b a = dist a b * dist a b - dotv p a b.
Proof. rewrite dist_sq'. unfold dotv. ring. Qed.
Lemma side_flip p a b : sidev p b a = - sidev p a b.
Proof. unfold sidev. ring. Qed.

Lemma least_at p a b d : least_distance (eq p) (on_segment a b) d ->
  (forall q, on_segment a b q -> d <= dist p q) /\ exists t, 0 <= t <= 1 /\ d = dist p (along a b t).
Proof.
  intros [(x & q & <- & (t & T & ->) & E) L]. split; [|exists t; split; [exact T|now symmetry]].
  intros q Q. now apply L.
Qed.
(** If the projection falls before [a], or beyond it by at most [F]. *)
Lemma near_end p a b d F : least_distance (eq p) (on_segment a b) d -> 0 <= F ->
  dotv p a b <= F * dist a b -> dist p a - F <= d <= dist p a.
Proof.
  intros Ld F0 H. destruct (least_at p a b d Ld) as (Lo & t & T & ->).
  split; [|apply Lo, seg_l].
  set (D := dist p a) in *. pose proof (dist_pos p a) as D0. fold D in D0. pose proof (dist_pos a b) as L0. set (L := dist a b) in *.
  destruct (Rle_dec (D - F) 0) as [n|n].
  - eapply Rle_trans; [exact n|]. apply dist_pos.
  - apply sq_le; [apply dist_pos|]. rewrite along_sq. fold D L.
    assert (t * dotv p a b <= t * (F * L)) as H1 by (apply Rmult_le_compat_l; tauto).
    pose proof (Rle_0_sqr (t * L - F)) as Q. unfold Rsqr in Q. nra.
Qed.
(** If the projection falls between, or outside by at most [F]. *)
Lemma near_foot p a b d F : least_distance (eq p) (on_segment a b) d -> 0 <= F -> 0 < dist a b ->
  - (F * dist a b) <= dotv p a b <= dist a b * dist a b + F * dist a b ->
  Rabs (sidev p a b) / dist a b <= d <= Rabs (sidev p a b) / dist a b + F.
Proof.
  intros Ld F0 L0 H. destruct (least_at p a b d Ld) as (Lo & t & T & Ed).
  pose proof (dist_pos p a) as D0. pose proof (dot_side p a b) as DS. set (D := dist p a) in *. set (L := dist a b) in *.
  set (N := dotv p a b) in *. set (S := sidev p a b) in *.
  assert (S0 : 0 <= Rabs S / L). { apply Rmult_le_pos; [apply Rabs_pos|]. apply Rlt_le, Rinv_0_lt_compat, L0. }
  assert (SL : Rabs S / L * L = Rabs S) by (field; lra). set (P := Rabs S / L) in *.
  assert (PP : P * P * (L * L) = S * S).
  { replace (P * P * (L * L)) with (P * L * (P * L)) by ring. rewrite SL. rewrite <- Rabs_mult. apply Rabs_pos_eq. nra. }
  assert (W : forall n, 0 <= n <= F * L -> n * n + S * S <= (P + F) * (P + F) * (L * L)).
  { intros n Hn. replace ((P + F) * (P + F) * (L * L)) with (P * P * (L * L) + 2 * (P * F) * (L * L) + F * L * (F * L)) by ring.
    rewrite PP. assert (n * n <= F * L * (F * L)) by (apply Rmult_le_compat; tauto).
    assert (0 <= P * F) by (apply Rmult_le_pos; assumption). assert (0 <= L * L) by nra.
    assert (0 <= P * F * (L * L)) by (apply Rmult_le_pos; assumption). lra. }
  split.
  - rewrite Ed. apply sq_le; [apply dist_pos|]. rewrite along_sq. fold D L N.
    apply Rmult_le_reg_r with (L * L); [nra|]. rewrite PP.
    pose proof (Rle_0_sqr (N - t * (L * L))) as Q. unfold Rsqr in Q. nra.
  - destruct (Rle_dec 0 N) as [N0|N0]; [destruct (Rle_dec N (L * L)) as [N1|N1]|].
    + apply Rle_trans with P; [|lra].
      assert (T1 : 0 <= N / (L * L) <= 1).
      { split; [apply Rmult_le_pos; [exact N0|apply Rlt_le, Rinv_0_lt_compat; nra]|].
        apply Rmult_le_reg_r with (L * L); [nra|]. unfold Rdiv. rewrite Rmult_assoc, Rinv_l; nra. }
      eapply Rle_trans; [apply Lo; exists (N / (L * L)); split; [exact T1|reflexivity]|].
      apply sq_le; [exact S0|]. rewrite along_sq. fold D L N.
      apply Rmult_le_reg_r with (L * L); [nra|]. rewrite PP.
      assert (TN : N / (L * L) * (L * L) = N) by (field; lra). set (t0 := N / (L * L)) in *.
      replace ((D * D - 2 * t0 * N + t0 * t0 * (L * L)) * (L * L))
        with (D * D * (L * L) - 2 * (t0 * (L * L)) * N + (t0 * (L * L)) * (t0 * (L * L))) by ring.
      rewrite TN, <- DS. apply Req_le. ring.
    + eapply Rle_trans; [apply Lo, seg_r|]. apply sq_le; [lra|].
      pose proof (dot_side p b a) as DS'. rewrite dot_flip, side_flip in DS'. rewrite (dist_sym b a) in DS'. fold L N S in DS'.
      apply Rmult_le_reg_r with (L * L); [nra|].
      replace (dist p b * dist p b * (L * L)) with ((N - L * L) * (N - L * L) + S * S) by lra. apply W. lra.
    + eapply Rle_trans; [apply Lo, seg_l|]. fold D. apply sq_le; [lra|].
      apply Rmult_le_reg_r with (L * L); [nra|]. rewrite <- DS.
      replace (N * N) with (- N * - N) by ring. apply W. lra.
Qed.

Lemma RN_fmt r : fmt (RN r).
Proof. apply generic_format_round; typeclasses eauto. Qed.
(** ** Sums of two products *)
Definition eta : R := bp (-1075).
(** [x'] is [x] after one rounding. *)
Definition ru (x' x : R) : Prop := Rabs (x' - x) <= u53 * Rabs x.
Lemma ru_prod x' x y' y : ru x' x -> ru y' y -> Rabs (RN (x' * y') - x * y) <= 4 * u53 * Rabs (x * y) + eta /\
  Rabs (RN (x' * y')) <= 2 * Rabs (x * y) + eta.
Proof.
  unfold ru. intros X Y. pose proof u53_pos as U. pose proof u53_small as Us. pose proof (RN_err (x' * y')) as E. fold eta in E.
  rewrite Rabs_mult. set (ax := Rabs x) in *. set (ay := Rabs y) in *.
  assert (A0 : 0 <= ax) by apply Rabs_pos. assert (B0 : 0 <= ay) by apply Rabs_pos.
  assert (H : Rabs (x' * y' - x * y) <= (2 * u53 + u53 * u53) * (ax * ay)).
  { replace (x' * y' - x * y) with ((x' - x) * y + x * (y' - y) + (x' - x) * (y' - y)) by ring.
    eapply Rle_trans; [apply Rabs_triang|]. eapply Rle_trans; [apply Rplus_le_compat_r, Rabs_triang|]. rewrite !Rabs_mult. fold ax ay.
    pose proof (Rabs_pos (x' - x)). pose proof (Rabs_pos (y' - y)).
    assert (Rabs (x' - x) * ay <= u53 * ax * ay) by (apply Rmult_le_compat_r; assumption).
    assert (ax * Rabs (y' - y) <= ax * (u53 * ay)) by (apply Rmult_le_compat_l; assumption).
    assert (Rabs (x' - x) * Rabs (y' - y) <= u53 * ax * (u53 * ay)) by (apply Rmult_le_compat; assumption).
    lra. }
  assert (P0 : 0 <= ax * ay) by (apply Rmult_le_pos; assumption).
  assert (H2 : Rabs (x' * y') <= (1 + 3 * u53) * (ax * ay)).
  { replace (x' * y') with ((x' * y' - x * y) + x * y) by ring. eapply Rle_trans; [apply Rabs_triang|]. rewrite (Rabs_mult x y). fold ax ay.
    assert ((2 * u53 + u53 * u53) * (ax * ay) <= 3 * u53 * (ax * ay)) by (apply Rmult_le_compat_r; nra). lra. }
  assert (H3 : Rabs (RN (x' * y') - x * y) <= 4 * u53 * (ax * ay) + eta).
  { replace (RN (x' * y') - x * y) with ((RN (x' * y') - x' * y') + (x' * y' - x * y)) by ring.
    eapply Rle_trans; [apply Rabs_triang|].
    assert (u53 * Rabs (x' * y') <= u53 * ((1 + 3 * u53) * (ax * ay))) by (apply Rmult_le_compat_l; lra).
    assert ((u53 + 3 * u53 * u53 + (2 * u53 + u53 * u53)) * (ax * ay) <= 4 * u53 * (ax * ay)) by (apply Rmult_le_compat_r; nra).
    lra. }
  split; [exact H3|].
  replace (RN (x' * y')) with ((RN (x' * y') - x * y) + x * y) by ring. eapply Rle_trans; [apply Rabs_triang|].
  rewrite (Rabs_mult x y). fold ax ay.
  assert (4 * u53 * (ax * ay) <= 1 * (ax * ay)) by (apply Rmult_le_compat_r; lra). lra.
Qed.
Lemma cauchy x y v w H L : 0 <= H -> 0 <= L -> H * H = x * x + y * y -> L * L = v * v + w * w ->
  Rabs (x * v) + Rabs (y * w) <= H * L.
Proof.
  intros H0 L0 EH EL. apply sq_le; [nra|]. rewrite !Rabs_mult.
  replace (H * L * (H * L)) with ((H * H) * (L * L)) by ring. rewrite EH, EL.
  assert (Q : forall r, r * r = Rabs r * Rabs r) by (intros r; rewrite <- Rabs_mult; symmetry; apply Rabs_pos_eq; nra).
  rewrite (Q x), (Q y), (Q v), (Q w).
  pose proof (Rle_0_sqr (Rabs x * Rabs w - Rabs y * Rabs v)) as S. unfold Rsqr in S. nra.
Qed.
(** The rounded sum (or difference) of two products of rounded numbers. *)
Lemma ru_dot x' y' v' w' x y v w H L : ru x' x -> ru y' y -> ru v' v -> ru w' w ->
  0 <= H -> 0 <= L -> H * H = x * x + y * y -> L * L = v * v + w * w -> 4 * eta <= u53 * u53 * (H * L) ->
  Rabs (RN (RN (x' * v') + RN (y' * w')) - (x * v + y * w)) <= 6 * u53 * (H * L) /\
  Rabs (RN (RN (x' * v') - RN (y' * w')) - (x * v - y * w)) <= 6 * u53 * (H * L).
Proof.
  intros Rx Ry Rv Rw H0 L0 EH EL ET. pose proof u53_pos as U. pose proof u53_small as Us.
  destruct (ru_prod _ _ _ _ Rx Rv) as (P1 & Q1). destruct (ru_prod _ _ _ _ Ry Rw) as (P2 & Q2).
  pose proof (cauchy x y v w H L H0 L0 EH EL) as C.
  set (A := RN (x' * v')) in *. set (B := RN (y' * w')) in *.
  assert (FA : fmt A) by apply RN_fmt. assert (FB : fmt B) by apply RN_fmt.
  pose proof (Rabs_pos (x * v)) as C1. pose proof (Rabs_pos (y * w)) as C2.
  assert (E0 : 0 < eta) by apply bpow_gt_0.
  set (T := H * L) in *. assert (T0 : 0 <= T) by (apply Rmult_le_pos; assumption).
  assert (M1 : 4 * u53 * (Rabs (x * v) + Rabs (y * w)) <= 4 * u53 * T) by (apply Rmult_le_compat_l; lra).
  assert (M2 : u53 * u53 * T <= u53 * T / 1024). { replace (u53 * T / 1024) with (u53 * / 1024 * T) by field. apply Rmult_le_compat_r; [lra|]. apply Rmult_le_compat_l; lra. }
  assert (S1 : Rabs (A + B - (x * v + y * w)) <= 4 * u53 * T + u53 * T / 1024).
  { replace (A + B - (x * v + y * w)) with ((A - x * v) + (B - y * w)) by ring. eapply Rle_trans; [apply Rabs_triang|]. lra. }
  assert (S2 : Rabs (A - B - (x * v - y * w)) <= 4 * u53 * T + u53 * T / 1024).
  { replace (A - B - (x * v - y * w)) with ((A - x * v) - (B - y * w)) by ring.
    unfold Rminus at 1. eapply Rle_trans; [apply Rabs_triang|]. rewrite Rabs_Ropp. lra. }
  assert (W : forall r s, Rabs (r - s) <= 4 * u53 * T + u53 * T / 1024 -> Rabs s <= T -> Rabs (RN r - r) <= u53 * Rabs r -> Rabs (RN r - s) <= 6 * u53 * T).
  { intros r s D1 D2 D3. replace (RN r - s) with ((RN r - r) + (r - s)) by ring. eapply Rle_trans; [apply Rabs_triang|].
    assert (Rabs r <= 3 / 2 * T).
    { replace r with ((r - s) + s) by ring. eapply Rle_trans; [apply Rabs_triang|].
      assert (u53 * T <= / 1024 * T) by (apply Rmult_le_compat_r; lra). lra. }
    assert (u53 * Rabs r <= u53 * (3 / 2 * T)) by (apply Rmult_le_compat_l; lra). assert (0 <= u53 * T) by nra. lra. }
  split; apply W; try assumption.
  - eapply Rle_trans; [apply Rabs_triang|]. exact C.
  - now apply RN_sum_err.
  - unfold Rminus. eapply Rle_trans; [apply Rabs_triang|]. now rewrite Rabs_Ropp.
  - now apply RN_sub_err.
Qed.

(** ** Ordinary doubles *)
Lemma mid_diff x y : mid x -> mid y -> bf 471 (fsub x y) /\ ru (R_of (fsub x y)) (R_of x - R_of y) /\
  (R_of x - R_of y = 0 \/ bp (-440) <= Rabs (R_of x - R_of y)).
Proof.
  intros X Y. destruct (bf_sub 470 x y ltac:(lia) (mid_bf x X) (mid_bf y Y)) as (B & E).
  split; [exact B|]. split.
  - unfold ru. rewrite E. apply RN_sub_err; apply format_R.
  - destruct (mid_mult x X) as (n & En). destruct (mid_mult y Y) as (m & Em).
    destruct (Req_dec (R_of x - R_of y) 0) as [Z|Z]; [now left|right]. apply mult_ge; [|exact Z].
    exists (n - m)%Z. rewrite En, Em, minus_IZR. ring.
Qed.
Lemma ru_opp x' x : ru x' x -> ru (- x') (- x).
Proof. unfold ru. intros H. replace (- x' - - x) with (- (x' - x)) by ring. now rewrite !Rabs_Ropp. Qed.
Lemma mid_dist p a : mid_pt p -> mid_pt a -> (rpt p = rpt a \/ bp (-440) <= dist (rpt p) (rpt a)) /\ dist (rpt p) (rpt a) <= bp 472.
Proof.
  intros (Px & Py) (Ax & Ay).
  destruct (mid_diff _ _ Px Ax) as (_ & _ & Zx). destruct (mid_diff _ _ Py Ay) as (_ & _ & Zy).
  assert (S : forall u v, u * u = v * v -> Rabs u = Rabs v) by (intros; apply Rsqr_eq_abs_0; assumption).
  split.
  - assert (W : bp (-440) <= Rabs (R_of (cx p) - R_of (cx a)) \/ bp (-440) <= Rabs (R_of (cy p) - R_of (cy a)) -> bp (-440) <= dist (rpt p) (rpt a)).
    { intros W. apply sq_le; [apply dist_pos|]. rewrite dist_sq'. cbn [rpt px py].
      pose proof (bpow_gt_0 radix2 (-440)) as B0.
      assert (K : forall r, bp (-440) <= Rabs r -> bp (-440) * bp (-440) <= r * r).
      { intros r Hr. replace (r * r) with (Rabs r * Rabs r) by (rewrite <- Rabs_mult; apply Rabs_pos_eq; nra).
        apply Rmult_le_compat; lra. }
      pose proof (Rle_0_sqr (R_of (cx p) - R_of (cx a))) as Q1. pose proof (Rle_0_sqr (R_of (cy p) - R_of (cy a))) as Q2. unfold Rsqr in Q1, Q2.
      destruct W as [W|W]; apply K in W; lra. }
    destruct Zx as [Zx|Zx]; [|right; apply W; now left]. destruct Zy as [Zy|Zy]; [|right; apply W; now right].
    left. unfold rpt. f_equal; lra.
  - apply sq_le; [apply bpow_ge_0|]. rewrite dist_sq'. cbn [rpt px py].
    destruct (mid_bf _ Px) as (_ & Bpx). destruct (mid_bf _ Py) as (_ & Bpy).
    destruct (mid_bf _ Ax) as (_ & Bax). destruct (mid_bf _ Ay) as (_ & Bay).
    apply Rabs_le_inv in Bpx, Bpy, Bax, Bay.
    assert (Bp : bp 472 = 4 * bp 470) by (change 472%Z with (470 + 1 + 1)%Z; rewrite !bp_S; lra).
    rewrite Bp. pose proof (bpow_gt_0 radix2 470). nra.
Qed.
(** The distance of two points. *)
Lemma dist_f hypot p a : hypot_accurate hypot -> mid_pt p -> mid_pt a ->
  fis_finite (distance hypot p a) = true /\ Rabs (R_of (distance hypot p a) - dist (rpt p) (rpt a)) <= 4 * u53 * dist (rpt p) (rpt a).
Proof.
  intros Hh Mp Ma.
  assert (E : euclid (plane a) (plane p) = dist (rpt p) (rpt a)) by reflexivity.
  assert (K : forall c, mid_pt c -> pt_below 900 c).
  { intros c (X & Y). split; apply (bf_weak 470); try lia; now apply mid_bf. }
  destruct (step_near hypot a p Hh (K a Ma) (K p Mp)) as (F & Er & _).
  - destruct (mid_dist p a Mp Ma) as ([Z|Z] & _).
    + left. injection Z as Z1 Z2. unfold plane. now rewrite Z1, Z2.
    + right. rewrite E. eapply Rle_trans; [|exact Z]. apply bpow_le. lia.
  - rewrite E in Er. split; assumption.
Qed.

(** ** A point and a segment *)
Section Seg.
Variable hypot : f64 -> f64 -> f64.
Variables p a b : Coordinate.
Hypothesis Mp : mid_pt p.
Hypothesis Ma : mid_pt a.
Hypothesis Mb : mid_pt b.
Hypothesis Pa : rpt p <> rpt a.
Hypothesis Ab : rpt a <> rpt b.
Let D := dist (rpt p) (rpt a).
Let L := dist (rpt a) (rpt b).
Let F := NF hypot.
Let l := g_len2 f64 F (pf a) (pf b).
Let nf := fadd (fmul (fsub (cx p) (cx a)) (fsub (cx b) (cx a))) (fmul (fsub (cy p) (cy a)) (fsub (cy b) (cy a))).
Let sf := g_side f64 F (pf p) (pf a) (pf b).

Lemma D_range : bp (-440) <= D <= bp 472.
Proof. destruct (mid_dist p a Mp Ma) as ([Z|Z] & U); [contradiction|]. split; assumption. Qed.
Lemma L_range : bp (-440) <= L <= bp 472.
Proof. destruct (mid_dist a b Ma Mb) as ([Z|Z] & U); [contradiction|]. split; assumption. Qed.
Lemma D_pos : 0 < D.
Proof. pose proof D_range. pose proof (bpow_gt_0 radix2 (-440)). lra. Qed.
Lemma L_pos : 0 < L.
Proof. pose proof L_range. pose proof (bpow_gt_0 radix2 (-440)). lra. Qed.
Lemma eta_small H K : bp (-440) <= H -> bp (-440) <= K -> 4 * eta <= u53 * u53 * (H * K).
Proof.
  intros LH LK. pose proof (bpow_gt_0 radix2 (-440)) as B0.
  apply Rle_trans with (u53 * u53 * (bp (-440) * bp (-440))).
  - unfold eta. rewrite <- !bpow_plus. replace (4 * bp (-1075)) with (bp (-1075 + 1 + 1)) by (rewrite !bp_S; lra). apply bpow_le. lia.
  - apply Rmult_le_compat_l; [pose proof u53_pos; nra|]. apply Rmult_le_compat; lra.
Qed.
Lemma prods_f x y v w : bf 471 x -> bf 471 y -> bf 471 v -> bf 471 w ->
  (fis_finite (fadd (fmul x v) (fmul y w)) = true /\
   R_of (fadd (fmul x v) (fmul y w)) = RN (RN (R_of x * R_of v) + RN (R_of y * R_of w))) /\
  (fis_finite (fsub (fmul x v) (fmul y w)) = true /\
   R_of (fsub (fmul x v) (fmul y w)) = RN (RN (R_of x * R_of v) - RN (R_of y * R_of w))).
Proof.
  intros X Y V W. destruct (bf_mul 471 471 x v ltac:(lia) X V) as (B1 & E1). destruct (bf_mul 471 471 y w ltac:(lia) Y W) as (B2 & E2).
  destruct (bf_add 942 _ _ ltac:(lia) B1 B2) as (B3 & E3). destruct (bf_sub 942 _ _ ltac:(lia) B1 B2) as (B4 & E4).
  rewrite E1, E2 in E3, E4. split; (split; [eapply bf_fin; eassumption|assumption]).
Qed.
Lemma len2_f : fis_finite l = true /\ Rabs (R_of l - L * L) <= 6 * u53 * (L * L).
Proof.
  destruct Ma as (Ax & Ay), Mb as (Bx & By).
  destruct (mid_diff _ _ Bx Ax) as (B1 & R1 & _). destruct (mid_diff _ _ By Ay) as (B2 & R2 & _).
  destruct (prods_f _ _ _ _ B1 B2 B1 B2) as ((Fl & El) & _). split; [exact Fl|].
  pose proof L_pos as L0. pose proof L_range as (L1 & _).
  assert (EL : L * L = (R_of (cx b) - R_of (cx a)) * (R_of (cx b) - R_of (cx a)) + (R_of (cy b) - R_of (cy a)) * (R_of (cy b) - R_of (cy a))).
  { unfold L. rewrite dist_sq'. cbn [rpt px py]. ring. }
  destruct (ru_dot _ _ _ _ _ _ _ _ L L R1 R2 R1 R2 (Rlt_le _ _ L0) (Rlt_le _ _ L0) EL EL (eta_small _ _ L1 L1)) as (H & _).
  rewrite <- El, <- EL in H. exact H.
Qed.
Lemma dot_f : fis_finite nf = true /\ Rabs (R_of nf - dotv (rpt p) (rpt a) (rpt b)) <= 6 * u53 * (D * L).
Proof.
  destruct Ma as (Ax & Ay), Mb as (Bx & By), Mp as (Px & Py).
  destruct (mid_diff _ _ Bx Ax) as (B1 & R1 & _). destruct (mid_diff _ _ By Ay) as (B2 & R2 & _).
  destruct (mid_diff _ _ Px Ax) as (B3 & R3 & _). destruct (mid_diff _ _ Py Ay) as (B4 & R4 & _).
  destruct (prods_f _ _ _ _ B3 B4 B1 B2) as ((Fl & El) & _). split; [exact Fl|].
  pose proof L_pos as L0. pose proof L_range as (L1 & _). pose proof D_pos as D0. pose proof D_range as (D1 & _).
  assert (EL : L * L = (R_of (cx b) - R_of (cx a)) * (R_of (cx b) - R_of (cx a)) + (R_of (cy b) - R_of (cy a)) * (R_of (cy b) - R_of (cy a))).
  { unfold L. rewrite dist_sq'. cbn [rpt px py]. ring. }
  assert (ED : D * D = (R_of (cx p) - R_of (cx a)) * (R_of (cx p) - R_of (cx a)) + (R_of (cy p) - R_of (cy a)) * (R_of (cy p) - R_of (cy a))).
  { unfold D. rewrite dist_sq'. cbn [rpt px py]. ring. }
  destruct (ru_dot _ _ _ _ _ _ _ _ D L R3 R4 R1 R2 (Rlt_le _ _ D0) (Rlt_le _ _ L0) ED EL (eta_small _ _ D1 L1)) as (H & _).
  rewrite <- El in H. exact H.
Qed.
Lemma side_f : fis_finite sf = true /\ Rabs (R_of sf - sidev (rpt p) (rpt a) (rpt b)) <= 6 * u53 * (D * L).
Proof.
  destruct Ma as (Ax & Ay), Mb as (Bx & By), Mp as (Px & Py).
  destruct (mid_diff _ _ Bx Ax) as (B1 & R1 & _). destruct (mid_diff _ _ By Ay) as (B2 & R2 & _).
  destruct (mid_diff _ _ Ax Px) as (B3 & R3 & _). destruct (mid_diff _ _ Ay Py) as (B4 & R4 & _).
  destruct (prods_f _ _ _ _ B4 B3 B1 B2) as (_ & (Fl & El)). split; [exact Fl|].
  pose proof L_pos as L0. pose proof L_range as (L1 & _). pose proof D_pos as D0. pose proof D_range as (D1 & _).
  assert (EL : L * L = (R_of (cx b) - R_of (cx a)) * (R_of (cx b) - R_of (cx a)) + (R_of (cy b) - R_of (cy a)) * (R_of (cy b) - R_of (cy a))).
  { unfold L. rewrite dist_sq'. cbn [rpt px py]. ring. }
  assert (ED : D * D = (R_of (cy a) - R_of (cy p)) * (R_of (cy a) - R_of (cy p)) + (R_of (cx a) - R_of (cx p)) * (R_of (cx a) - R_of (cx p))).
  { unfold D. rewrite dist_sq'. cbn [rpt px py]. ring. }
  destruct (ru_dot _ _ _ _ _ _ _ _ D L R4 R3 R1 R2 (Rlt_le _ _ D0) (Rlt_le _ _ L0) ED EL (eta_small _ _ D1 L1)) as (_ & H).
  rewrite <- El in H. exact H.
Qed.
Lemma len2_bounds : (1 - 6 * u53) * (L * L) <= R_of l <= (1 + 6 * u53) * (L * L) /\ 0 < R_of l.
Proof.
  destruct len2_f as (_ & E). apply Rabs_le_inv in E. pose proof L_pos. pose proof u53_pos. pose proof u53_small.
  assert (0 < L * L) by nra. split; [lra|]. nra.
Qed.
(** Dividing by the squared length. *)
Lemma quot_f n T : fis_finite n = true -> Rabs (R_of n - T) <= 6 * u53 * (D * L) -> Rabs T <= D * L ->
  fis_finite (fdiv n l) = true /\ R_of (fdiv n l) = RN (R_of n / R_of l) /\ Rabs (R_of n) <= 2 * (D * L).
Proof.
  intros Fn En Tn. destruct len2_bounds as (Bl & Pl). pose proof L_range as (L1 & L2). pose proof D_range as (D1 & D2).
  pose proof L_pos as L0. pose proof D_pos as D0. pose proof u53_pos as U. pose proof u53_small as Us.
  assert (T0 : 0 <= D * L) by nra.
  assert (An : Rabs (R_of n) <= 2 * (D * L)).
  { replace (R_of n) with ((R_of n - T) + T) by ring. eapply Rle_trans; [apply Rabs_triang|].
    assert (6 * u53 * (D * L) <= 1 * (D * L)) by (apply Rmult_le_compat_r; lra). lra. }
  destruct (fdiv_R n l Fn) as (Fq & Eq); [lra| |split; [exact Fq|split; [exact Eq|exact An]]].
  apply (RN_small _ 1000); [lia|]. unfold Rdiv. rewrite Rabs_mult, Rabs_inv, (Rabs_pos_eq (R_of l)) by lra.
  apply Rmult_le_reg_r with (R_of l); [exact Pl|]. rewrite Rmult_assoc, Rinv_l, Rmult_1_r by lra.
  assert (B0 : 0 < bp 1000) by apply bpow_gt_0.
  apply Rle_trans with (bp 1000 * (/ 2 * (L * L))); [|apply Rmult_le_compat_l; [lra|nra]].
  eapply Rle_trans; [exact An|]. apply Rle_trans with (bp 1000 * / 2 * L * L); [|apply Req_le; ring].
  rewrite <- Rmult_assoc. apply Rmult_le_compat_r; [lra|].
  apply Rle_trans with (bp 1000 * / 2 * bp (-440)); [|apply Rmult_le_compat_l; lra].
  apply Rle_trans with (2 * bp 472); [lra|].
  replace (bp 1000 * / 2 * bp (-440)) with (bp 1000 * bp (-440) / 2) by field. rewrite <- bpow_plus.
  change (1000 + -440)%Z with (559 + 1)%Z. rewrite bp_S. replace (2 * bp 559 / 2) with (bp 559) by field.
  rewrite <- bp_S. apply bpow_le. lia.
Qed.

(** The quotient times the length. *)
Lemma perp_real s S : Rabs (s - S) <= 6 * u53 * (D * L) -> Rabs S <= D * L ->
  Rabs (RN (RN (s / R_of l) * RN (sqrt (R_of l))) - S / L) <= 15 * u53 * D /\
  Rabs (RN (s / R_of l) * RN (sqrt (R_of l))) <= 2 * D.
Proof.
  intros Es Ts. destruct len2_bounds as (Bl & Pl). pose proof L_range as (L1 & L2). pose proof D_range as (D1 & D2).
  pose proof L_pos as L0. pose proof D_pos as D0. pose proof u53_pos as U. pose proof u53_small as Us.
  set (w := R_of l) in *. set (h := sqrt w).
  assert (H2 : h * h = w) by (apply sqrt_sqrt; lra).
  assert (H0 : 0 < h) by (apply sqrt_lt_R0; exact Pl).
  assert (LL : 0 < L * L) by nra.
  assert (Hlo : (1 - 4 * u53) * L <= h).
  { apply sq_le; [lra|]. rewrite H2. eapply Rle_trans; [|apply Bl].
    replace ((1 - 4 * u53) * L * ((1 - 4 * u53) * L)) with ((1 - 4 * u53) * (1 - 4 * u53) * (L * L)) by ring.
    apply Rmult_le_compat_r; [lra|]. nra. }
  assert (Hhi : h <= (1 + 3 * u53) * L).
  { apply sq_le; [nra|]. rewrite H2. eapply Rle_trans; [apply Bl|].
    replace ((1 + 3 * u53) * L * ((1 + 3 * u53) * L)) with ((1 + 3 * u53) * (1 + 3 * u53) * (L * L)) by ring.
    apply Rmult_le_compat_r; [lra|]. nra. }
  assert (Hb : bp (-441) <= h <= bp 473).
  { assert (bp (-440) = 2 * bp (-441)) by (rewrite <- bp_S; reflexivity). assert (bp 473 = 2 * bp 472) by (rewrite <- bp_S; reflexivity).
    assert (/ 2 * L <= (1 - 4 * u53) * L) by (apply Rmult_le_compat_r; lra).
    assert ((1 + 3 * u53) * L <= 2 * L) by (apply Rmult_le_compat_r; lra). split; lra. }
  set (g := s / h).
  assert (Gh : g * h = s) by (unfold g; field; lra).
  assert (Eg : Rabs (g - S / L) <= 11 * u53 * D).
  { apply Rmult_le_reg_r with (h * L); [apply Rmult_lt_0_compat; assumption|].
    rewrite <- (Rabs_pos_eq (h * L)) at 1 by nra. rewrite <- Rabs_mult.
    replace ((g - S / L) * (h * L)) with ((s - S) * L + S * (L - h)) by (rewrite <- Gh; field; lra).
    eapply Rle_trans; [apply Rabs_triang|]. rewrite !Rabs_mult, (Rabs_pos_eq L) by lra.
    assert (UL : 0 < u53 * L) by (apply Rmult_lt_0_compat; assumption).
    assert (A1 : Rabs (L - h) <= 4 * u53 * L) by (apply Rabs_le; split; lra).
    assert (Rabs (s - S) * L <= 6 * u53 * (D * L) * L) by (apply Rmult_le_compat_r; lra).
    assert (Rabs S * Rabs (L - h) <= D * L * (4 * u53 * L)) by (apply Rmult_le_compat; auto using Rabs_pos).
    assert (A2 : (10 * u53) * (D * (L * L)) <= 11 * u53 * (1 - 4 * u53) * (D * (L * L))) by (apply Rmult_le_compat_r; nra).
    assert (A3 : 11 * u53 * D * ((1 - 4 * u53) * L * L) <= 11 * u53 * D * (h * L)).
    { apply Rmult_le_compat_l; [nra|]. apply Rmult_le_compat_r; lra. }
    lra. }
  assert (Sd : Rabs (S / L) <= D).
  { unfold Rdiv. rewrite Rabs_mult, Rabs_inv, (Rabs_pos_eq L) by lra. apply Rmult_le_reg_r with L; [exact L0|].
    rewrite Rmult_assoc, Rinv_l, Rmult_1_r by lra. exact Ts. }
  assert (UD : 0 < u53 * D) by (apply Rmult_lt_0_compat; assumption).
  assert (UD' : u53 * D <= D / 1024) by nra.
  assert (Ag : Rabs g <= 102 / 100 * D).
  { replace g with ((g - S / L) + S / L) by ring. eapply Rle_trans; [apply Rabs_triang|]. lra. }
  assert (T1 : eta * h <= u53 * D / 1024).
  { apply Rle_trans with (bp (-1075) * bp 473); [apply Rmult_le_compat_l; [apply bpow_ge_0|tauto]|].
    apply Rle_trans with (u53 * bp (-440) / 1024); [|nra].
    replace (u53 * bp (-440) / 1024) with (u53 * bp (-440) * bp (-10)) by (change (bp (-10)) with (/ 1024); field).
    rewrite <- !bpow_plus. apply bpow_le. lia. }
  assert (T2 : eta <= u53 * h / 1024).
  { apply Rle_trans with (u53 * bp (-441) / 1024); [|nra].
    replace (u53 * bp (-441) / 1024) with (u53 * bp (-441) * bp (-10)) by (change (bp (-10)) with (/ 1024); field).
    rewrite <- !bpow_plus. apply bpow_le. lia. }
  assert (T3 : eta <= u53 * D / 1024).
  { apply Rle_trans with (u53 * bp (-440) / 1024); [|nra].
    replace (u53 * bp (-440) / 1024) with (u53 * bp (-440) * bp (-10)) by (change (bp (-10)) with (/ 1024); field).
    unfold eta. rewrite <- !bpow_plus. apply bpow_le. lia. }
  pose proof (RN_err (s / w)) as R1. pose proof (RN_err h) as R2. fold eta in R1, R2. rewrite (Rabs_pos_eq h) in R2 by lra.
  set (q := RN (s / w)) in *. set (v := RN h) in *.
  assert (Q1 : Rabs (q * h - g) <= 104 / 100 * (u53 * D)).
  { assert (Sw : s / w * h = g) by (unfold g; rewrite <- H2; field; lra).
    rewrite <- Sw. replace (q * h - s / w * h) with ((q - s / w) * h) by ring.
    rewrite Rabs_mult, (Rabs_pos_eq h) by lra.
    eapply Rle_trans; [apply Rmult_le_compat_r; [lra|exact R1]|].
    replace ((u53 * Rabs (s / w) + eta) * h) with (u53 * (Rabs (s / w) * h) + eta * h) by ring.
    replace (Rabs (s / w) * h) with (Rabs g) by (rewrite <- Sw, Rabs_mult, (Rabs_pos_eq h) by lra; reflexivity).
    assert (u53 * Rabs g <= u53 * (102 / 100 * D)) by (apply Rmult_le_compat_l; lra). lra. }
  assert (V1 : Rabs (v / h - 1) <= 101 / 100 * u53).
  { apply Rmult_le_reg_r with h; [exact H0|]. rewrite <- (Rabs_pos_eq h) at 2 by lra. rewrite <- Rabs_mult.
    replace ((v / h - 1) * h) with (v - h) by (field; lra).
    assert (0 < u53 * h) by (apply Rmult_lt_0_compat; assumption). lra. }
  assert (QV : q * v = (q * h) * (v / h)) by (field; lra).
  set (x := q * h) in *. set (y := v / h) in *.
  assert (Ax : Rabs x <= 103 / 100 * D).
  { replace x with ((x - g) + g) by ring. eapply Rle_trans; [apply Rabs_triang|]. lra. }
  assert (Exy : Rabs (x * y - g) <= 21 / 10 * (u53 * D)).
  { replace (x * y - g) with ((x - g) + x * (y - 1)) by ring. eapply Rle_trans; [apply Rabs_triang|]. rewrite Rabs_mult.
    assert (Rabs x * Rabs (y - 1) <= 103 / 100 * D * (101 / 100 * u53)) by (apply Rmult_le_compat; auto using Rabs_pos). lra. }
  rewrite QV.
  assert (Axy : Rabs (x * y) <= 104 / 100 * D).
  { replace (x * y) with ((x * y - g) + g) by ring. eapply Rle_trans; [apply Rabs_triang|]. lra. }
  split; [|lra].
  pose proof (RN_err (x * y)) as R3. fold eta in R3.
  replace (RN (x * y) - S / L) with ((RN (x * y) - x * y) + (x * y - g) + (g - S / L)) by ring.
  eapply Rle_trans; [apply Rabs_triang|]. eapply Rle_trans; [apply Rplus_le_compat_r, Rabs_triang|].
  assert (u53 * Rabs (x * y) <= u53 * (104 / 100 * D)) by (apply Rmult_le_compat_l; lra). lra.
Qed.
Lemma sqrt_f : fis_finite (fsqrt l) = true /\ R_of (fsqrt l) = RN (sqrt (R_of l)).
Proof. destruct len2_f as (F1 & _). destruct len2_bounds as (_ & Pl). destruct (fsqrt_R l F1 (Rlt_le _ _ Pl)) as (E & G). split; [now apply G|exact E]. Qed.
Lemma small_prod r : Rabs r <= 2 * D -> Rabs (RN r) < bp 1024.
Proof.
  intros H. apply (RN_small _ 473); [lia|]. pose proof D_range as (_ & D2). change 473%Z with (472 + 1)%Z. rewrite bp_S. lra.
Qed.
Lemma perp_f : let r := fmul (fdiv sf l) (fsqrt l) in let r' := fmul (fabs (fdiv sf l)) (fsqrt l) in
  (fis_finite r = true /\ Rabs (R_of r - sidev (rpt p) (rpt a) (rpt b) / L) <= 15 * u53 * D) /\
  (fis_finite r' = true /\ Rabs (R_of r' - Rabs (sidev (rpt p) (rpt a) (rpt b)) / L) <= 15 * u53 * D).
Proof.
  cbv zeta. destruct side_f as (Fs & Es). pose proof (side_le (rpt p) (rpt a) (rpt b)) as Ts. fold D L in Ts.
  set (S := sidev _ _ _) in *. destruct (quot_f sf S Fs Es Ts) as (Fq & Eq & _). destruct sqrt_f as (Fr & Er).
  destruct len2_bounds as (_ & Pl).
  destruct (perp_real (R_of sf) S Es Ts) as (P1 & P2).
  assert (Es' : Rabs (Rabs (R_of sf) - Rabs S) <= 6 * u53 * (D * L)) by (eapply Rle_trans; [apply Rabs_triang_inv2|exact Es]).
  assert (Ts' : Rabs (Rabs S) <= D * L) by now rewrite Rabs_Rabsolu.
  destruct (perp_real (Rabs (R_of sf)) (Rabs S) Es' Ts') as (P3 & P4).
  split.
  - destruct (fmul_R (fdiv sf l) (fsqrt l) Fq Fr) as (F1 & E1).
    + rewrite Eq, Er. now apply small_prod.
    + split; [exact F1|]. rewrite E1, Eq, Er. exact P1.
  - assert (Ea : R_of (fabs (fdiv sf l)) = RN (Rabs (R_of sf) / R_of l)).
    { rewrite fabs_R, Eq. change (round_mode mode_NE) with ZnearestE. rewrite <- round_NE_abs by typeclasses eauto. f_equal.
      unfold Rdiv. rewrite Rabs_mult, Rabs_inv, (Rabs_pos_eq (R_of l)) by lra. reflexivity. }
    destruct (fmul_R (fabs (fdiv sf l)) (fsqrt l)) as (F1 & E1).
    + now rewrite fabs_fin.
    + exact Fr.
    + rewrite Ea, Er. now apply small_prod.
    + split; [exact F1|]. rewrite E1, Ea, Er. exact P3.
Qed.
End Seg.

Lemma fofZ_0 : fis_finite (fofZ 0) = true /\ R_of (fofZ 0) = 0.
Proof. split; reflexivity. Qed.
Lemma fofZ_1 : fis_finite (fofZ 1) = true /\ R_of (fofZ 1) = 1.
Proof. split; [reflexivity|]. exact R_of_f1. Qed.
Lemma feqb_pt a b : fis_finite (cx a) = true -> fis_finite (cy a) = true -> fis_finite (cx b) = true -> fis_finite (cy b) = true ->
  (feqb (cx a) (cx b) && feqb (cy a) (cy b) = true <-> rpt a = rpt b).
Proof.
  intros F1 F2 F3 F4. rewrite andb_true_iff, feqb_R, feqb_R by assumption. unfold rpt.
  destruct (Req_bool_spec (R_of (cx a)) (R_of (cx b))) as [E1|E1]; destruct (Req_bool_spec (R_of (cy a)) (R_of (cy b))) as [E2|E2];
    (split; [intros (A & B); try discriminate; now f_equal|intros E; injection E; intros; try contradiction; auto]).
Qed.
Lemma mid_fin' x : mid x -> fis_finite x = true.
Proof. now intros (F & _). Qed.

(** The computed distance is within 32 roundings of [|pa|]. *)
Lemma p2s_f hypot p a b d : hypot_accurate hypot -> mid_pt p -> mid_pt a -> mid_pt b ->
  least_distance (eq (rpt p)) (on_segment (rpt a) (rpt b)) d ->
  fis_finite (point_to_segment hypot p a b) = true /\
  Rabs (R_of (point_to_segment hypot p a b) - d) <= 32 * u53 * dist (rpt p) (rpt a).
Proof.
  intros Hh Mp Ma Mb Ld. pose proof u53_pos as U. pose proof u53_small as Us.
  destruct (dist_f hypot p a Hh Mp Ma) as (Fa & Ea). destruct (dist_f hypot p b Hh Mp Mb) as (Fb & Eb).
  unfold point_to_segment, g_point_to_segment. cbn [neq NF pf px py].
  change (g_distance f64 (NF hypot) (pf p) (pf a)) with (distance hypot p a).
  change (g_distance f64 (NF hypot) (pf p) (pf b)) with (distance hypot p b).
  pose proof (dist_pos (rpt p) (rpt a)) as D0.
  destruct (feqb (cx a) (cx b) && feqb (cy a) (cy b)) eqn:Q.
  { apply feqb_pt in Q; try (apply mid_fin'; first [apply Ma|apply Mb]).
    split; [exact Fa|]. rewrite <- Q in Ld. destruct (least_at _ _ _ _ Ld) as (_ & t & _ & ->). rewrite along_same.
    assert (0 <= u53 * dist (rpt p) (rpt a)) by nra. lra. }
  assert (Ab : rpt a <> rpt b).
  { intros E. apply feqb_pt in E; try (apply mid_fin'; first [apply Ma|apply Mb]). congruence. }
  clear Q. cbn [ndiv nadd nmul nsub nle nofZ nabs nsqrt NF px py].
  set (nf := fadd (fmul _ _) _). set (l := g_len2 _ _ _ _).
  destruct fofZ_0 as (F0 & R0). destruct fofZ_1 as (F1 & R1).
  destruct (Req_dec (dist (rpt p) (rpt a)) 0) as [Dz|Dz].
  { assert (Pa : rpt p = rpt a) by now apply dist_0. pose proof Pa as E. injection E as Ex Ey.
    pose proof Mp as (Px & Py). pose proof Ma as (Ax & Ay). pose proof Mb as (Bx & By).
    destruct (mid_diff _ _ Px Ax) as (B1 & Z1 & _). destruct (mid_diff _ _ Py Ay) as (B2 & Z2 & _).
    destruct (mid_diff _ _ Bx Ax) as (B3 & _ & _). destruct (mid_diff _ _ By Ay) as (B4 & _ & _).
    assert (K : forall z x y, ru z (x - y) -> x = y -> z = 0).
    { intros z x y Rz ->. unfold ru in Rz. rewrite Rminus_eq_0, Rabs_R0, Rmult_0_r, Rminus_0_r in Rz.
      apply Rabs_eq_R0. pose proof (Rabs_pos z). lra. }
    apply K in Z1; [|exact Ex]. apply K in Z2; [|exact Ey].
    destruct (prods_f _ _ _ _ B1 B2 B3 B4) as ((Fn & En) & _). fold nf in Fn, En.
    rewrite Z1, Z2, !Rmult_0_l, !RN_0, Rplus_0_r, RN_0 in En.
    destruct (len2_bounds hypot a b Ma Mb Ab) as (_ & Pl). fold l in Pl.
    destruct (fdiv_R nf l Fn) as (Fq & Eq); [lra| |].
    { rewrite En. unfold Rdiv. rewrite Rmult_0_l, RN_0, Rabs_R0. apply bpow_gt_0. }
    rewrite En in Eq. unfold Rdiv in Eq. rewrite Rmult_0_l, RN_0 in Eq.
    rewrite (fleb_R _ _ Fq F0), Eq, R0, Rle_bool_true by lra. split; [exact Fa|].
    destruct (least_at _ _ _ _ Ld) as (Lo & t & _ & Ed). pose proof (Lo _ (seg_l _ _)) as Lo'. rewrite Dz in *.
    pose proof (dist_pos (rpt p) (along (rpt a) (rpt b) t)). replace d with 0 by lra. lra. }
  assert (Pa : rpt p <> rpt a) by (intros E; apply Dz, dist_0, E).
  pose proof (D_range p a Mp Ma Pa) as (D1 & D2). pose proof (L_range a b Ma Mb Ab) as (L1 & L2).
  destruct (len2_bounds hypot a b Ma Mb Ab) as (Bl & Pl). fold l in Bl, Pl.
  destruct (dot_f p a b Mp Ma Mb Pa Ab) as (Fn & En). fold nf in Fn, En.
  pose proof (dot_le (rpt p) (rpt a) (rpt b)) as Tn.
  destruct (quot_f hypot p a b Mp Ma Mb Pa Ab nf _ Fn En Tn) as (Fq & Eq & An). fold l in Fq, Eq.
  destruct (perp_f hypot p a b Mp Ma Mb Pa Ab) as (_ & Fp & Ep). fold l in Fp, Ep.
  pose proof (D_pos p a Mp Ma Pa) as Dp. pose proof (L_pos a b Ma Mb Ab) as Lp.
  set (D := dist (rpt p) (rpt a)) in *. set (L := dist (rpt a) (rpt b)) in *. set (N := dotv _ _ _) in *.
  assert (UD : 0 < u53 * D) by (apply Rmult_lt_0_compat; assumption).
  assert (UDL : 0 < u53 * (D * L)) by (apply Rmult_lt_0_compat; [|apply Rmult_lt_0_compat]; assumption).
  assert (DL : 0 < D * L) by (apply Rmult_lt_0_compat; assumption).
  assert (LL : 0 < L * L) by (apply Rmult_lt_0_compat; assumption).
  assert (UDL' : u53 * (D * L) <= D * L / 1024) by nra.
  assert (ULL : 0 < u53 * (L * L) <= L * L / 1024) by (split; [apply Rmult_lt_0_compat; assumption|nra]).
  assert (Qn : R_of nf / R_of l * R_of l = R_of nf) by (field; lra).
  pose proof (RN_err (R_of nf / R_of l)) as Rq. fold eta in Rq. rewrite <- Eq in Rq.
  set (q := R_of nf / R_of l) in *. set (n := R_of nf) in *. set (w := R_of l) in *.
  apply Rabs_le_inv in En. apply Rabs_le_inv in Tn.
  assert (E0 : 0 < eta) by apply bpow_gt_0.
  assert (TE : eta * (L * L) <= u53 * (D * L) / 1024).
  { replace (eta * (L * L)) with (eta * L * L) by ring. replace (u53 * (D * L) / 1024) with (u53 * D / 1024 * L) by field.
    apply Rmult_le_compat_r; [lra|]. apply Rle_trans with (bp (-1075) * bp 472); [apply Rmult_le_compat_l; [apply bpow_ge_0|tauto]|].
    apply Rle_trans with (u53 * bp (-440) / 1024); [|nra].
    replace (u53 * bp (-440) / 1024) with (u53 * bp (-440) * bp (-10)) by (change (bp (-10)) with (/ 1024); field).
    rewrite <- !bpow_plus. apply bpow_le. lia. }
  rewrite (fleb_R _ _ Fq F0), R0. destruct (Rle_bool_spec (R_of (fdiv nf l)) 0) as [C1|C1].
  { (* before the first end *)
    split; [exact Fa|].
    assert (Nn : n <= 4 * (eta * (L * L))).
    { destruct (Rle_dec n 0) as [|n0]; [assert (0 < eta * (L * L)) by (apply Rmult_lt_0_compat; assumption); lra|].
      assert (Q0 : 0 <= q) by (unfold q; apply Rmult_le_pos; [lra|apply Rlt_le, Rinv_0_lt_compat, Pl]).
      rewrite (Rabs_pos_eq q Q0) in Rq. apply Rabs_le_inv in Rq.
      assert (q <= 2 * eta) by nra. assert (q * w <= 2 * eta * (2 * (L * L))) by (apply Rmult_le_compat; lra). lra. }
    assert (Hd : D - 7 * u53 * D <= d <= D) by (apply (near_end (rpt p) (rpt a) (rpt b)); [exact Ld|lra|]; fold N L; lra).
    apply Rabs_le_inv in Ea. apply Rabs_le. lra. }
  rewrite (fleb_R _ _ F1 Fq), R1. destruct (Rle_bool_spec 1 (R_of (fdiv nf l))) as [C2|C2].
  { (* beyond the second end *)
    split; [exact Fb|].
    assert (Qb : 1 - 2 * u53 <= q).
    { apply Rnot_lt_le. intros Lt. apply Rabs_le_inv in Rq.
      assert (E1 : eta <= u53 / 1024). { replace (u53 / 1024) with (u53 * bp (-10)) by (change (bp (-10)) with (/ 1024); field). unfold eta. rewrite <- !bpow_plus. apply bpow_le. lia. }
      destruct (Rle_dec 0 q) as [q0|q0].
      - rewrite (Rabs_pos_eq q q0) in Rq. nra.
      - rewrite (Rabs_left q) in Rq by lra. nra. }
    assert (Nn : (1 - 9 * u53) * (L * L) <= n).
    { rewrite <- Qn. apply Rle_trans with ((1 - 2 * u53) * ((1 - 6 * u53) * (L * L))).
      - replace ((1 - 2 * u53) * ((1 - 6 * u53) * (L * L))) with ((1 - 2 * u53) * (1 - 6 * u53) * (L * L)) by ring. apply Rmult_le_compat_r; [lra|]. nra.
      - apply Rmult_le_compat; lra. }
    assert (LD : L <= 11 / 10 * D).
    { apply Rmult_le_reg_r with L; [exact Lp|]. lra. }
    assert (LLD : u53 * (L * L) <= 11 / 10 * (u53 * (D * L))).
    { replace (11 / 10 * (u53 * (D * L))) with (u53 * (11 / 10 * D * L)) by ring. apply Rmult_le_compat_l; [lra|]. apply Rmult_le_compat_r; lra. }
    assert (Ld' : least_distance (eq (rpt p)) (on_segment (rpt b) (rpt a)) d).
    { eapply least_ext; [| |exact Ld]; intros q'; [reflexivity|apply segment_flip]. }
    assert (Hd : dist (rpt p) (rpt b) - 16 * u53 * D <= d <= dist (rpt p) (rpt b)).
    { apply (near_end (rpt p) (rpt b) (rpt a)); [exact Ld'|lra|]. rewrite dot_flip, (dist_sym (rpt b)). fold N L. lra. }
    destruct (least_at _ _ _ _ Ld) as (Lo & _). pose proof (Lo _ (seg_l _ _)) as dD. fold D in dD.
    set (D' := dist (rpt p) (rpt b)) in *.
    assert (4 * u53 * D' <= 4 * u53 * (11 / 10 * D)). { apply Rmult_le_compat_l; [lra|]. assert (u53 * D <= / 1024 * D) by (apply Rmult_le_compat_r; lra). lra. }
    apply Rabs_le_inv in Eb. apply Rabs_le. lra. }
  (* between the ends *)
  split; [exact Fp|].
  assert (N0 : 0 < n).
  { apply Rnot_le_lt. intros H. assert (q <= 0). { apply Rmult_le_reg_r with w; [exact Pl|]. lra. }
    rewrite Eq in C1. pose proof (RN_le0 q H0). lra. }
  assert (N1 : n <= w).
  { apply Rnot_lt_le. intros H. assert (1 <= q). { apply Rmult_le_reg_r with w; [exact Pl|]. lra. }
    rewrite Eq in C2. assert (1 <= RN q); [|lra]. rewrite <- (RN_id 1) by (change 1 with (bp 0); apply bpow_fmt; lia).
    apply round_le; try typeclasses eauto. exact H0. }
  assert (Hf : Rabs (sidev (rpt p) (rpt a) (rpt b)) / L <= d <= Rabs (sidev (rpt p) (rpt a) (rpt b)) / L + 12 * u53 * D).
  { apply near_foot; [exact Ld|lra|exact Lp|]. fold N L. split; [lra|].
    destruct (Rle_dec N (L * L)) as [|NL]; [lra|].
    assert (L <= D) by (apply Rmult_le_reg_r with L; [exact Lp|lra]).
    assert (u53 * (L * L) <= u53 * (D * L)) by (apply Rmult_le_compat_l; [lra|apply Rmult_le_compat_r; lra]). lra. }
  apply Rabs_le_inv in Ep. apply Rabs_le. lra.
Qed.
