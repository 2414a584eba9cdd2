(** C55, continued: the angles against the directions they stand for.
    [direction t x y] says that the vector (x, y) points at the angle [t]. *)
From Coq Require Import ZArith Bool Reals Lia Lra Psatz.
From Flocq Require Import Core Sterbenz IEEE754.BinarySingleNaN.
From Verif Require Import Base F64 F64Facts F64Err Num NumLink DD_more DD_spec Coordinate_model Distance_spec Distance_proofs Distance_props
  Orientation_spec Orientation_props Intersection_proofs Intersection_props PointLocation_proofs LineIntersector_proofs DDArith_proofs Angle_model Angle_proofs Angle_props.
Local Open Scope R_scope.

Definition direction (t x y : R) : Prop := exists r, 0 < r /\ x = r * cos t /\ y = r * sin t.
(** An [atan2] as the platform's: on a finite vector that is not zero, its
    direction in (-pi, pi] up to 2^-51, and never outside the doubles for it. *)
Definition atan2_accurate (atan2 : f64 -> f64 -> f64) : Prop :=
  forall y x, fis_finite y = true -> fis_finite x = true -> R_of x <> 0 \/ R_of y <> 0 ->
  in_turn (atan2 y x) /\ exists t, direction t (R_of x) (R_of y) /\ Rabs (R_of (atan2 y x) - t) <= bp (-51).

(** *** There is one *)
Definition atan2R (y x : R) : R :=
  if Rlt_dec 0 x then atan (y / x)
  else if Rlt_dec x 0 then (if Rle_dec 0 y then atan (y / x) + PI else atan (y / x) - PI)
  else if Rlt_dec 0 y then PI / 2 else - (PI / 2).
Lemma atan_direction x y : 0 < x -> direction (atan (y / x)) x y.
Proof.
  intros X. exists (x * sqrt (1 + Rsqr (y / x))). pose proof (Rle_0_sqr (y / x)) as Q.
  assert (0 < sqrt (1 + Rsqr (y / x))) as S by (apply sqrt_lt_R0; lra).
  split; [now apply Rmult_lt_0_compat|]. rewrite cos_atan, sin_atan. split; field; lra.
Qed.
Lemma atan2R_direction y x : x <> 0 \/ y <> 0 -> direction (atan2R y x) x y.
Proof.
  intros N. unfold atan2R. destruct (Rlt_dec 0 x) as [P|P]; [now apply atan_direction|].
  destruct (Rlt_dec x 0) as [Q|Q].
  - assert (y / x = (- y) / (- x)) as E by (field; lra). rewrite E. destruct (atan_direction (- x) (- y) ltac:(lra)) as (r & R0 & A & B).
    destruct (Rle_dec 0 y); exists r; (split; [exact R0|]).
    + rewrite neg_cos, neg_sin. lra.
    + unfold Rminus. rewrite cos_plus, sin_plus, cos_neg, sin_neg, cos_PI, sin_PI. lra.
  - assert (x = 0) by lra. subst x. destruct (Rlt_dec 0 y) as [S|S].
    + exists y. rewrite cos_PI2, sin_PI2. lra.
    + exists (- y). rewrite cos_neg, sin_neg, cos_PI2, sin_PI2. lra.
Qed.
Lemma atan2R_range y x : - PI <= atan2R y x <= PI.
Proof.
  pose proof PI_RGT_0 as P. unfold atan2R. pose proof (atan_bound (y / x)) as B. destruct (Rlt_dec 0 x) as [X|X]; [lra|]. destruct (Rlt_dec x 0) as [Q|Q].
  - destruct (Rle_dec 0 y) as [Y|Y].
    + assert (atan (y / x) <= 0); [|lra]. rewrite <- atan_0. destruct (Req_dec y 0) as [->|Z]; [unfold Rdiv; rewrite Rmult_0_l; lra|].
      left. apply atan_increasing. replace (y / x) with (- (y / - x)) by (field; lra).
      apply Ropp_lt_gt_0_contravar. unfold Rgt, Rdiv. apply Rmult_lt_0_compat; [lra|]. apply Rinv_0_lt_compat. lra.
    + assert (0 <= atan (y / x)); [|lra]. rewrite <- atan_0. left. apply atan_increasing. replace (y / x) with ((- y) / (- x)) by (field; lra).
      unfold Rdiv. apply Rmult_lt_0_compat; [lra|]. apply Rinv_0_lt_compat. lra.
  - destruct (Rlt_dec 0 y); lra.
Qed.
Definition atan2_nearest (y x : f64) : f64 := of_real (atan2R (R_of y) (R_of x)).
Lemma atan2_nearest_accurate : atan2_accurate atan2_nearest.
Proof.
  intros y x Fy Fx N. pose proof (atan2R_direction _ _ N) as D. pose proof (atan2R_range (R_of y) (R_of x)) as G.
  unfold atan2_nearest. set (t := atan2R (R_of y) (R_of x)) in *.
  assert (Rabs t <= PI) as A by (apply Rabs_le; lra). pose proof PI_4 as P4.
  assert (Rabs t <= bp 2) as A4 by (change (bp 2) with 4; lra).
  destruct (of_real_R t) as (F & E); [apply (RN_small t 2); [lia|exact A4]|].
  assert (RN PI <= R_of PIf) as TOP.
  { apply round_N_le_midp; [typeclasses eauto|apply format_R|]. rewrite succ_eq_pos by (pose proof PIf_size; lra).
    rewrite ulp_neq_0 by (pose proof PIf_size; lra). unfold cexp. rewrite (mag_unique_pos radix2 (R_of PIf) 2).
    - change (bpow radix2 (fexp64 2)) with (/ 2251799813685248). pose proof PI_bounds. rewrite PIf_R. lra.
    - pose proof PIf_size. change (bpow radix2 (2 - 1)) with 2. change (bpow radix2 2) with 4. lra. }
  split.
  - split; [exact F|]. rewrite E. split.
    + apply Ropp_le_cancel. rewrite Ropp_involutive, <- RN_neg. eapply Rle_trans; [apply RN_le|exact TOP]. lra.
    + eapply Rle_trans; [apply RN_le|exact TOP]. lra.
  - exists t. split; [exact D|]. rewrite E. eapply Rle_trans; [apply RN_err|].
    assert (bp (-1075) <= bp (-60)) by (apply bpow_le; lia). change (bp (-60)) with (/ 1152921504606846976) in *.
    change (bp (-51)) with (/ 2251799813685248). change u53 with (/ 9007199254740992).
    pose proof PI_bounds. lra.
Qed.

(** Two angles of one vector differ by whole turns. *)
Lemma direction_unique s t x y : direction s x y -> direction t x y -> exists k, s = t + 2 * IZR k * PI.
Proof.
  intros (r & R0 & A & B) (q & Q0 & C & D).
  assert (r = q) as ->.
  { apply Rsqr_inj; try lra. pose proof (sin2_cos2 s) as S. pose proof (sin2_cos2 t) as T'. unfold Rsqr in *.
    transitivity (x * x + y * y); [rewrite A, B; nra|rewrite C, D; nra]. }
  assert (cos s = cos t) as EC by (apply (Rmult_eq_reg_l q); lra).
  assert (sin s = sin t) as ES by (apply (Rmult_eq_reg_l q); lra).
  assert (cos (s - t) = 1) as E1 by (rewrite cos_minus, EC, ES; pose proof (sin2_cos2 t) as H; unfold Rsqr in H; lra).
  assert (sin ((s - t) / 2) = 0) as E0.
  { replace (s - t) with (2 * ((s - t) / 2)) in E1 by field. rewrite cos_2a_sin in E1. apply Rsqr_0_uniq. unfold Rsqr. lra. }
  destruct (sin_eq_0_0 _ E0) as (k & K). exists k. lra.
Qed.

(** *** The angle of a vector *)
(** On points n*2^e, |n| <= 2^24, the angle at which the second point is seen
    from the first. *)
Definition seen (t : R) (p q : Coordinate) : Prop := direction t (R_of (cx q) - R_of (cx p)) (R_of (cy q) - R_of (cy p)).
Lemma angle_seen atan2 e p q : atan2_accurate atan2 -> (-400 <= e <= 400)%Z -> small_pt e p -> small_pt e q -> rpt p <> rpt q ->
  in_turn (angle_coordinates atan2 p q) /\ exists t, seen t p q /\ Rabs (R_of (angle_coordinates atan2 p q) - t) <= bp (-51).
Proof.
  intros A He Sp Sq N. apply small_ptx in Sp, Sq. destruct Sp as (X0 & Y0), Sq as (X1 & Y1). cbn [Distance_model.pf px py rpt] in *.
  pose proof (ex_sub e 24 _ _ _ _ ltac:(lia) ltac:(lia) X1 X0) as EX. pose proof (ex_sub e 24 _ _ _ _ ltac:(lia) ltac:(lia) Y1 Y0) as EY.
  unfold angle_coordinates, seen. rewrite <- (ex_R _ _ _ _ EX), <- (ex_R _ _ _ _ EY). apply A; [exact (ex_fin _ _ _ _ EY)|exact (ex_fin _ _ _ _ EX)|].
  rewrite (ex_R _ _ _ _ EX), (ex_R _ _ _ _ EY).
  destruct (Req_dec (R_of (cx q) - R_of (cx p)) 0) as [Z|Z]; [|now left]. destruct (Req_dec (R_of (cy q) - R_of (cy p)) 0) as [W|W]; [|now right].
  exfalso. apply N. unfold rpt. f_equal; lra.
Qed.
Theorem C55_angle_of_vector : forall atan2 e p q, atan2_accurate atan2 -> (-400 <= e <= 400)%Z -> small_pt e p -> small_pt e q -> rpt p <> rpt q ->
  fis_finite (angle_coordinates atan2 p q) = true /\
  (exists t, seen t p q /\ Rabs (R_of (angle_coordinates atan2 p q) - t) <= bp (-51)) /\
  (R_of (cx p) = 0 -> R_of (cy p) = 0 -> exists t, seen t p q /\ Rabs (R_of (angle_coordinate atan2 q) - t) <= bp (-51)).
Proof.
  intros atan2 e p q A He Sp Sq N. destruct (angle_seen atan2 e p q A He Sp Sq N) as ((F & _) & T'). split; [exact F|]. split; [exact T'|].
  intros X Y. destruct (small_fin _ _ Sq) as (Fx & Fy). destruct (A (cy q) (cx q) Fy Fx) as (_ & t & D & E).
  { destruct (Req_dec (R_of (cx q)) 0) as [Z|Z]; [|now left]. destruct (Req_dec (R_of (cy q)) 0) as [W|W]; [|now right].
    exfalso. apply N. unfold rpt. f_equal; lra. }
  exists t. split; [|exact E]. unfold seen. now rewrite X, Y, !Rminus_0_r.
Qed.
(** *** Off the grid *)
(** Ordinates of size at most 2^1022, so that a difference stays finite. *)
Definition wide_pt (p : Coordinate) : Prop := bf 1022 (cx p) /\ bf 1022 (cy p).
Lemma small_wide e p : (-400 <= e <= 400)%Z -> small_pt e p -> wide_pt p.
Proof.
  intros He S. apply small_ptx in S. destruct S as (X & Y). cbn [Distance_model.pf px py] in *.
  assert (forall x r, ex e 24 x r -> bf 1022 x) as K; [|split; eapply K; eassumption].
  intros x r (F & E & n & Hn & ->). split; [exact F|]. rewrite E, Rabs_mult, (Rabs_pos_eq (bp e)) by apply bpow_ge_0. rewrite <- abs_IZR.
  apply Rle_trans with (bp 24 * bp e); [|rewrite <- bpow_plus; apply bpow_le; lia].
  apply Rmult_le_compat_r; [apply bpow_ge_0|]. apply IZR_le in Hn. change (bp 24) with (IZR (2 ^ 24)). exact Hn.
Qed.
(** A relative error u in both components turns a vector by about u. *)
Lemma turned t x y x' y' : direction t x y -> Rabs (x' - x) <= u53 * Rabs x -> Rabs (y' - y) <= u53 * Rabs y ->
  exists t', direction t' x' y' /\ Rabs (t' - t) <= 11 / 10 * u53.
Proof.
  intros (r & R0 & X & Y) Ex Ey. pose proof u53_pos as U0. pose proof u53_small as U1.
  set (C := x * x' + y * y'). set (S := x * y' - y * x').
  assert (XX : x * x + y * y = r * r) by (rewrite X, Y; pose proof (sin2_cos2 t) as Q; unfold Rsqr in Q; nra).
  assert (RR : 0 < r * r) by nra.
  assert (AX : Rabs x * Rabs x = x * x) by (rewrite <- Rabs_mult; apply Rabs_pos_eq; nra).
  assert (AY : Rabs y * Rabs y = y * y) by (rewrite <- Rabs_mult; apply Rabs_pos_eq; nra).
  assert (DX : Rabs (x * (x' - x)) <= u53 * (x * x)) by (rewrite Rabs_mult, <- AX; pose proof (Rabs_pos x); nra).
  assert (DY : Rabs (y * (y' - y)) <= u53 * (y * y)) by (rewrite Rabs_mult, <- AY; pose proof (Rabs_pos y); nra).
  assert (CP : (1 - u53) * (r * r) <= C).
  { apply Rabs_le_inv in DX, DY. unfold C. rewrite <- XX. lra. }
  assert (SB : Rabs S <= u53 * (r * r)).
  { replace S with (x * (y' - y) - y * (x' - x)) by (unfold S; ring). eapply Rle_trans; [apply Rabs_triang|]. rewrite Rabs_Ropp, !Rabs_mult.
    pose proof (Rabs_pos x) as PX. pose proof (Rabs_pos y) as PY.
    assert (Rabs x * Rabs (y' - y) <= Rabs x * (u53 * Rabs y)) by (now apply Rmult_le_compat_l).
    assert (Rabs y * Rabs (x' - x) <= Rabs y * (u53 * Rabs x)) by (now apply Rmult_le_compat_l).
    assert (2 * (Rabs x * Rabs y) <= r * r) by (pose proof (Rle_0_sqr (Rabs x - Rabs y)) as Q; unfold Rsqr in Q; lra).
    assert (u53 * (2 * (Rabs x * Rabs y)) <= u53 * (r * r)) by (apply Rmult_le_compat_l; lra). lra. }
  assert (C0 : 0 < C) by nra.
  destruct (atan_direction C S C0) as (q & Q0 & QC & QS). exists (t + atan (S / C)). split.
  - exists (q / r). split; [now apply Rdiv_lt_0_compat|]. rewrite cos_plus, sin_plus.
    assert (CT : cos t = x / r) by (rewrite X; field; lra). assert (ST : sin t = y / r) by (rewrite Y; field; lra). rewrite CT, ST.
    replace (q / r * (x / r * cos (atan (S / C)) - y / r * sin (atan (S / C)))) with ((x * (q * cos (atan (S / C))) - y * (q * sin (atan (S / C)))) / (r * r)) by (field; lra).
    replace (q / r * (y / r * cos (atan (S / C)) + x / r * sin (atan (S / C)))) with ((y * (q * cos (atan (S / C))) + x * (q * sin (atan (S / C)))) / (r * r)) by (field; lra).
    rewrite <- QC, <- QS. split.
    + replace (x * C - y * S) with (x' * (r * r)) by (rewrite <- XX; unfold C, S; ring). field. lra.
    + replace (y * C + x * S) with (y' * (r * r)) by (rewrite <- XX; unfold C, S; ring). field. lra.
  - replace (t + atan (S / C) - t) with (atan (S / C)) by ring.
    assert (AB : forall z, Rabs (atan z) <= Rabs z).
    { assert (H : forall z, 0 <= z -> 0 <= atan z <= z).
      { intros z Z. destruct (Req_dec z 0) as [->|N]; [rewrite atan_0; lra|].
        assert (0 < atan z) by (rewrite <- atan_0; apply atan_increasing; lra). split; [lra|].
        destruct (MVT_cor2 atan (fun x => / (1 + x ^ 2)) 0 z ltac:(lra)) as (c & E & _); [intros; apply derivable_pt_lim_atan|].
        rewrite atan_0, !Rminus_0_r in E. rewrite E. rewrite <- (Rmult_1_l z) at 2. apply Rmult_le_compat_r; [exact Z|].
        rewrite <- Rinv_1. apply Rinv_le; [lra|]. pose proof (pow2_ge_0 c). lra. }
      intros z. destruct (Rle_or_lt 0 z) as [P|P].
      - destruct (H z P). rewrite !Rabs_pos_eq; lra.
      - destruct (H (- z) ltac:(lra)) as (H1 & H2). rewrite atan_opp in *. rewrite !Rabs_left1; lra. }
    eapply Rle_trans; [apply AB|]. unfold Rdiv. rewrite Rabs_mult, (Rabs_pos_eq (/ C)) by (left; now apply Rinv_0_lt_compat).
    apply Rmult_le_reg_r with C; [exact C0|]. rewrite Rmult_assoc, Rinv_l, Rmult_1_r by lra.
    eapply Rle_trans; [exact SB|]. apply Rle_trans with (11 / 10 * u53 * ((1 - u53) * (r * r))); [|apply Rmult_le_compat_l; [lra|exact CP]].
    assert (0 <= u53 * (r * r)) by (apply Rmult_le_pos; lra). nra.
Qed.
Lemma sub_near x y : bf 1022 x -> bf 1022 y -> fis_finite (fsub x y) = true /\ Rabs (R_of (fsub x y) - (R_of x - R_of y)) <= u53 * Rabs (R_of x - R_of y) /\
  (R_of (fsub x y) = 0 -> R_of x - R_of y = 0).
Proof.
  intros X Y. destruct (bf_sub 1022 x y ltac:(lia) X Y) as ((F & _) & E). rewrite E. split; [exact F|].
  pose proof (RN_sub_err (R_of x) (R_of y) (format_R x) (format_R y)) as B. split; [exact B|]. intros Z. rewrite Z in B.
  rewrite Rminus_0_l, Rabs_Ropp in B. pose proof u53_small. pose proof (Rabs_pos (R_of x - R_of y)).
  destruct (Req_dec (R_of x - R_of y) 0) as [?|N]; [assumption|exfalso]. apply Rabs_pos_lt in N. nra.
Qed.
Lemma period_Z t k : cos (t + 2 * IZR k * PI) = cos t /\ sin (t + 2 * IZR k * PI) = sin t.
Proof.
  destruct (Z_le_gt_dec 0 k) as [P|P].
  - destruct (IZN k P) as (n & ->). rewrite <- INR_IZR_INZ. split; [apply cos_period|apply sin_period].
  - destruct (IZN (- k) ltac:(lia)) as (n & E). assert (IZR k = - INR n) as -> by (rewrite INR_IZR_INZ, <- E, opp_IZR; ring).
    rewrite <- (cos_period (t + 2 * - INR n * PI) n), <- (sin_period (t + 2 * - INR n * PI) n). split; f_equal; ring.
Qed.
(** Between any two different points with ordinates up to 2^1022. *)
Lemma seen_any atan2 p q t : atan2_accurate atan2 -> wide_pt p -> wide_pt q -> rpt p <> rpt q -> seen t p q ->
  in_turn (angle_coordinates atan2 p q) /\ exists k, Rabs (R_of (angle_coordinates atan2 p q) - (t + 2 * IZR k * PI)) <= 51 / 10 * u53.
Proof.
  intros A (X0 & Y0) (X1 & Y1) N S. destruct (sub_near _ _ X1 X0) as (Fx & Ex & Zx). destruct (sub_near _ _ Y1 Y0) as (Fy & Ey & Zy).
  destruct (turned _ _ _ _ _ S Ex Ey) as (t' & D' & E'). unfold angle_coordinates. set (x := fsub (cx q) (cx p)) in *. set (y := fsub (cy q) (cy p)) in *.
  destruct (A y x Fy Fx) as (I & s & D & E).
  { destruct (Req_dec (R_of x) 0) as [Z|Z]; [|now left]. destruct (Req_dec (R_of y) 0) as [W|W]; [|now right].
    exfalso. apply N. unfold rpt. specialize (Zx Z). specialize (Zy W). f_equal; lra. }
  split; [exact I|]. destruct (direction_unique _ _ _ _ D D') as (k & ->). exists k.
  replace (bp (-51)) with (4 * u53) in E by (change (bp (-51)) with (/ 2251799813685248); change u53 with (/ 9007199254740992); lra).
  apply Rabs_le_inv in E, E'. apply Rabs_le. lra.
Qed.
Theorem C55_angle_of_any : forall atan2 p q, atan2_accurate atan2 -> wide_pt p -> wide_pt q -> rpt p <> rpt q ->
  fis_finite (angle_coordinates atan2 p q) = true /\ - PI <= R_of (angle_coordinates atan2 p q) <= PI /\
  exists t, seen t p q /\ Rabs (R_of (angle_coordinates atan2 p q) - t) <= 51 / 10 * u53.
Proof.
  intros atan2 p q A P Q N.
  assert (exists t, seen t p q) as (t & S).
  { exists (atan2R (R_of (cy q) - R_of (cy p)) (R_of (cx q) - R_of (cx p))). apply atan2R_direction.
    destruct (Req_dec (R_of (cx q) - R_of (cx p)) 0) as [Z|Z]; [|now left]. destruct (Req_dec (R_of (cy q) - R_of (cy p)) 0) as [W|W]; [|now right].
    exfalso. apply N. unfold rpt. f_equal; lra. }
  destruct (seen_any atan2 p q t A P Q N S) as ((F & B) & k & E). split; [exact F|]. pose proof PI_bounds as PB. rewrite PIf_R in B. split; [lra|].
  exists (t + 2 * IZR k * PI). split; [|exact E]. destruct S as (r & R0 & X & Y). exists r. split; [exact R0|].
  destruct (period_Z t k) as (-> & ->). now split.
Qed.
Lemma bp51 : bp (-51) = 4 * u53.
Proof. change (bp (-51)) with (/ 2251799813685248). change u53 with (/ 9007199254740992). lra. Qed.
Lemma PI_Rp : 0 < PI - R_of PIf < 2 * u53.
Proof. pose proof PI_bounds. rewrite PIf_R. change u53 with (/ 9007199254740992). lra. Qed.
(** The angle from the first arm to the second, in one turn. *)
Theorem C55_interior_angle_of : forall atan2 p0 p1 p2 t0 t2, atan2_accurate atan2 ->
  wide_pt p0 -> wide_pt p1 -> wide_pt p2 -> rpt p1 <> rpt p0 -> rpt p1 <> rpt p2 -> seen t0 p1 p0 -> seen t2 p1 p2 ->
  exists y k N, (forall fuel, (N <= fuel)%nat -> interior_angle atan2 fuel p0 p1 p2 = Some y) /\ fis_finite y = true /\
    0 <= R_of y < 2 * PI /\ Rabs (R_of y - (t2 - t0 + 2 * IZR k * PI)) <= bp (-47).
Proof.
  intros atan2 p0 p1 p2 t0 t2 A S0 S1 S2 N0 N2 D0 D2.
  destruct (seen_any _ _ _ _ A S1 S0 N0 D0) as (I0 & k0 & E0). destruct (seen_any _ _ _ _ A S1 S2 N2 D2) as (I2 & k2 & E2).
  unfold interior_angle. set (u := angle_coordinates atan2 p1 p2) in *. set (v := angle_coordinates atan2 p1 p0) in *.
  destruct (sub_turn u v I2 I0) as (F & E & B). pose proof PIf_size as PS. pose proof T_R as TR. pose proof PI_Rp as PR. pose proof u53_pos as U0.
  pose proof bp56 as B56.
  destruct (C55_normalize_positive (fsub u v) F ltac:(apply Rabs_le; lra)) as (y & k & N & W & Fy & (B1 & B2) & B3 & EY & _).
  exists y, (k + k2 - k0)%Z, N. split; [exact W|]. split; [exact Fy|]. split; [lra|].
  assert (RSE := RN_sub_err (R_of u) (R_of v) (format_R u) (format_R v)). rewrite <- E in RSE.
  destruct I0 as (_ & L0), I2 as (_ & L2).
  assert (Rabs (R_of u - R_of v) <= 63 / 10) as LD by (apply Rabs_le; lra).
  assert (Rabs (R_of (fsub u v)) <= 63 / 10) as LX by (apply Rabs_le; lra).
  set (x := R_of (fsub u v)) in *.
  assert (u53 * Rabs (R_of u - R_of v) <= u53 * (63 / 10)) as RU by (apply Rmult_le_compat_l; lra).
  assert (Rabs (IZR k) <= 2) as K.
  { assert (Rabs (IZR k) < 3) as K3.
    { destruct (Rlt_or_le (Rabs (IZR k)) 3) as [?|G]; [assumption|exfalso].
      assert ((Rabs (IZR k) + 1) * bp (-53) * (Rabs x + T) <= (Rabs (IZR k) + 1) * (/ 1024 * (126 / 10))) as Q.
      { rewrite Rmult_assoc. apply Rmult_le_compat_l; [pose proof (Rabs_pos (IZR k)); lra|]. pose proof u53_small. pose proof (Rabs_pos x).
        apply Rmult_le_compat; lra. }
      assert (Rabs (IZR k * T) <= Rabs (R_of y - (x + IZR k * T)) + Rabs (R_of y - x)) as TRI.
      { rewrite <- (Rabs_Ropp (R_of y - (x + IZR k * T))). eapply Rle_trans; [|apply Rabs_triang]. apply Req_le. f_equal. ring. }
      rewrite Rabs_mult, (Rabs_pos_eq T) in TRI by lra.
      assert (Rabs (R_of y - x) <= 126 / 10) by (eapply Rle_trans; [apply Rabs_triang|]; rewrite Rabs_Ropp, (Rabs_pos_eq (R_of y)); lra).
      assert (62 / 10 < T) by lra. nra. }
    rewrite <- abs_IZR in *. apply IZR_le. apply lt_IZR in K3. lia. }
  assert ((Rabs (IZR k) + 1) * bp (-53) * (Rabs x + T) <= 3 * u53 * (126 / 10)) as Q.
  { pose proof (Rabs_pos (IZR k)). pose proof (Rabs_pos x). apply Rmult_le_compat; try lra; try (apply Rmult_le_pos; lra). apply Rmult_le_compat_r; lra. }
  assert (Rabs (IZR k * T - 2 * IZR k * PI) <= 8 * u53) as KT.
  { replace (IZR k * T - 2 * IZR k * PI) with (IZR k * (2 * (R_of PIf - PI))) by (rewrite TR; ring). rewrite Rabs_mult.
    replace (8 * u53) with (2 * (4 * u53)) by ring. apply Rmult_le_compat; try apply Rabs_pos; [exact K|]. apply Rabs_le. lra. }
    replace (bp (-47)) with (64 * u53) by (change (bp (-47)) with (/ 140737488355328); change u53 with (/ 9007199254740992); lra).
  rewrite minus_IZR, plus_IZR.
  replace (R_of y - (t2 - t0 + 2 * (IZR k + IZR k2 - IZR k0) * PI)) with
    ((R_of y - (x + IZR k * T)) + ((x - (R_of u - R_of v)) + ((IZR k * T - 2 * IZR k * PI) + ((R_of u - (t2 + 2 * IZR k2 * PI)) - (R_of v - (t0 + 2 * IZR k0 * PI)))))) by ring.
  eapply Rle_trans; [apply Rabs_triang|]. eapply Rle_trans; [apply Rplus_le_compat_l, Rabs_triang|].
  eapply Rle_trans; [apply Rplus_le_compat_l, Rplus_le_compat_l, Rabs_triang|].
  eapply Rle_trans; [apply Rplus_le_compat_l, Rplus_le_compat_l, Rplus_le_compat_l, Rabs_triang|]. rewrite Rabs_Ropp. lra.
Qed.
(** The oriented angle between in_turn angles. *)
Definition oriented (u v : f64) : f64 :=
  let d := fsub v u in
  if fleb d (fneg PIf) then fadd d PI_TIMES_2 else if fgtb d PIf then fsub d PI_TIMES_2 else d.
Lemma oriented_val u v : in_turn u -> in_turn v -> fis_finite (oriented u v) = true /\ - R_of PIf < R_of (oriented u v) <= R_of PIf /\
  exists j, Rabs (R_of (oriented u v) - (R_of v - R_of u + 2 * IZR j * PI)) <= 17 * u53.
Proof.
  intros Iu Iv. unfold oriented. destruct (sub_turn v u Iv Iu) as (F & E & B). cbv zeta. pose proof PIf_size as PS. pose proof T_R as TR. pose proof PI_Rp as PR. pose proof u53_pos as U0.
  assert (RSE := RN_sub_err (R_of v) (R_of u) (format_R v) (format_R u)). rewrite <- E in RSE. destruct Iu as (_ & Lu), Iv as (_ & Lv).
  assert (u53 * Rabs (R_of v - R_of u) <= u53 * (63 / 10)) as RU by (apply Rmult_le_compat_l; [lra|]; apply Rabs_le; lra).
  set (d := fsub v u) in *. apply Rabs_le_inv in RSE.
  destruct (fleb d (fneg PIf)) eqn:L.
  - apply (leb_mpi d F) in L.
    assert (fmt (R_of d + T)) as FM.
    { replace (R_of d + T) with (T - (- R_of d)) by ring.
      apply sterbenz; [typeclasses eauto..|apply format_R|apply generic_format_opp, format_R|lra]. }
    destruct (fadd_R d PI_TIMES_2 F fin_T) as (F' & V); [rewrite RN_id by exact FM; pose proof bp56; pose proof bp56_1024; apply Rabs_lt; lra|].
    rewrite RN_id in V by exact FM. rewrite V. split; [exact F'|]. split; [lra|]. exists 1%Z. apply Rabs_le. lra.
  - apply (bool_false _ _ (leb_mpi d F)) in L. destruct (fgtb d PIf) eqn:G.
    + pose proof bp56 as B56. apply (gtb_pi d F) in G. destruct (sub_T d F ltac:(lra)) as (F' & V). destruct (step_dn (R_of d) (format_R d) ltac:(lra)) as (S1 & S2 & _).
      assert (RS2 := RN_sub_err (R_of d) T (format_R d) (format_R PI_TIMES_2)).
      assert (u53 * Rabs (R_of d - T) <= u53 * (63 / 10)) as RU2 by (apply Rmult_le_compat_l; [lra|]; apply Rabs_le; lra).
      rewrite V. split; [exact F'|]. assert (RN (R_of d - T) <= 0) by (apply RN_le0; lra). split; [lra|].
      exists (-1)%Z. apply Rabs_le_inv in RS2. apply Rabs_le. lra.
    + apply (bool_false _ _ (gtb_pi d F)) in G. split; [exact F|]. split; [lra|]. exists 0%Z. apply Rabs_le. lra.
Qed.
Lemma bp48 : bp (-48) = 32 * u53.
Proof. change (bp (-48)) with (/ 281474976710656). change u53 with (/ 9007199254740992). lra. Qed.
Lemma bp47 : bp (-47) = 64 * u53.
Proof. change (bp (-47)) with (/ 140737488355328). change u53 with (/ 9007199254740992). lra. Qed.
(** The oriented angle between two arms is the turn from the first arm to the
    second, in (-pi, pi]; the unoriented one is its size. *)
Theorem C55_angle_between_of : forall atan2 a b c s t, atan2_accurate atan2 ->
  wide_pt a -> wide_pt b -> wide_pt c -> rpt b <> rpt a -> rpt b <> rpt c -> seen s b a -> seen t b c ->
  (let o := angle_between_oriented atan2 a b c in fis_finite o = true /\ - PI < R_of o <= PI /\
     exists k, Rabs (R_of o - (t - s + 2 * IZR k * PI)) <= bp (-48)) /\
  (let o := angle_between atan2 a b c in fis_finite o = true /\ 0 <= R_of o <= PI /\
     exists k, Rabs (R_of o - (t - s + 2 * IZR k * PI)) <= bp (-48) \/ Rabs (R_of o - (s - t + 2 * IZR k * PI)) <= bp (-48)).
Proof.
  intros atan2 a b c s t A Sa Sb Sc Na Nc Da Dc.
  destruct (seen_any _ _ _ _ A Sb Sa Na Da) as (Ia & ka & Ea). destruct (seen_any _ _ _ _ A Sb Sc Nc Dc) as (Ic & kc & Ec).
  unfold angle_between_oriented, angle_between. set (u := angle_coordinates atan2 b a) in *. set (v := angle_coordinates atan2 b c) in *.
  change (if fleb (fsub v u) (fneg PIf) then fadd (fsub v u) PI_TIMES_2 else if fgtb (fsub v u) PIf then fsub (fsub v u) PI_TIMES_2 else fsub v u) with (oriented u v).
  pose proof PI_Rp as PR. pose proof u53_pos as U0. rewrite bp48. apply Rabs_le_inv in Ea, Ec. split.
  - destruct (oriented_val u v Ia Ic) as (F & B & j & E). cbv zeta. split; [exact F|]. split; [lra|]. exists (j + kc - ka)%Z. rewrite minus_IZR, plus_IZR.
    apply Rabs_le_inv in E. apply Rabs_le. lra.
  - destruct (C55_diff u v Ia Ic) as (F & B & E). cbv zeta in *. split; [exact F|]. split; [lra|].
    replace (bp (-50)) with (8 * u53) in E by (change (bp (-50)) with (/ 1125899906842624); change u53 with (/ 9007199254740992); lra).
    apply Rabs_le_inv in E. rewrite T_R in E.
    unfold Rmin, Rabs in E. destruct (Rcase_abs (R_of u - R_of v)); destruct (Rle_dec _ _).
    + exists (kc - ka)%Z. rewrite minus_IZR. left. apply Rabs_le. lra.
    + exists (ka - kc + 1)%Z. rewrite plus_IZR, minus_IZR. right. apply Rabs_le. lra.
    + exists (ka - kc)%Z. rewrite minus_IZR. right. apply Rabs_le. lra.
    + exists (kc - ka + 1)%Z. rewrite plus_IZR, minus_IZR. left. apply Rabs_le. lra.
Qed.
(** The bisector is half way along that turn. *)
Theorem C55_bisector_of : forall atan2 a b c s t, atan2_accurate atan2 ->
  wide_pt a -> wide_pt b -> wide_pt c -> rpt b <> rpt a -> rpt b <> rpt c -> seen s b a -> seen t b c ->
  exists y j k N, (forall fuel, (N <= fuel)%nat -> bisector atan2 fuel a b c = Some y) /\ fis_finite y = true /\ - PI < R_of y <= PI /\
    let turn := t - s + 2 * IZR j * PI in Rabs turn <= PI + bp (-48) /\ Rabs (R_of y - (s + turn / 2 + 2 * IZR k * PI)) <= bp (-47).
Proof.
  intros atan2 a b c s t A Sa Sb Sc Na Nc Da Dc.
  destruct (C55_angle_between_of atan2 a b c s t A Sa Sb Sc Na Nc Da Dc) as ((Fo & Bo & j & Eo) & _).
  destruct (seen_any _ _ _ _ A Sb Sa Na Da) as (Ia & ka & Ea).
  unfold bisector. set (u := angle_coordinates atan2 b a) in *. set (o := angle_between_oriented atan2 a b c) in *.
  pose proof PIf_size as PS. pose proof T_R as TR. pose proof PI_Rp as PR. pose proof u53_pos as U0. pose proof u53_small as U1. destruct Ia as (Fu & Bu).
  assert (R_of f2 = 2) as R2 by apply R_of_f2.
  assert (Rabs (RN (R_of o / 2)) <= bp 1) as B1 by (apply RN_abs_le; [lia|]; change (bp 1) with 2; apply Rabs_le; lra).
  destruct (fdiv_R o f2 Fo ltac:(rewrite R2; lra)) as (Fh & Eh); [rewrite R2; eapply Rle_lt_trans; [exact B1|apply bpow_lt; lia]|]. rewrite R2 in Eh.
  assert (Rabs (R_of (fdiv o f2) - R_of o / 2) <= u53 * 2) as EH.
  { rewrite Eh. eapply Rle_trans; [apply RN_err|]. assert (bp (-1075) <= bp (-58)) as Q by (apply bpow_le; lia).
    replace (bp (-58)) with (u53 / 32) in Q by (change (bp (-58)) with (/ 288230376151711744); change u53 with (/ 9007199254740992); lra).
    assert (u53 * Rabs (R_of o / 2) <= u53 * (16 / 10)) by (apply Rmult_le_compat_l; [lra|apply Rabs_le; lra]). lra. }
  destruct (bf_add 2 u (fdiv o f2) ltac:(lia)) as ((Fs & Bs) & Es).
  { split; [exact Fu|]. change (bp 2) with 4. apply Rabs_le. lra. }
  { split; [exact Fh|]. rewrite Eh. eapply Rle_trans; [exact B1|apply bpow_le; lia]. }
  destruct (C55_normalize (fadd u (fdiv o f2)) Fs) as (y & k & N & W & Fy & By_ & By2 & EY & _).
  { eapply Rle_trans; [exact Bs|]. apply bpow_le. lia. }
  set (w := fadd u (fdiv o f2)) in *. set (h := fdiv o f2) in *.
  assert (RSE := RN_sum_err (R_of u) (R_of h) (format_R u) (format_R h)). rewrite <- Es in RSE.
  apply Rabs_le_inv in EH.
  assert (u53 * Rabs (R_of u + R_of h) <= u53 * 5) as Q1 by (apply Rmult_le_compat_l; [lra|apply Rabs_le; lra]).
  apply Rabs_le_inv in RSE.
  assert (Rabs (R_of w) <= 6) as LW by (apply Rabs_le; lra).
  assert (Rabs (IZR k) <= 1) as K.
  { assert (Rabs (IZR k) < 2) as K2.
    { destruct (Rlt_or_le (Rabs (IZR k)) 2) as [?|G]; [assumption|exfalso].
      assert (Rabs (IZR k) * bp (-53) * Rabs (R_of w) <= Rabs (IZR k) * (/ 1024 * 6)) as Q.
      { rewrite Rmult_assoc. apply Rmult_le_compat_l; [apply Rabs_pos|]. apply Rmult_le_compat; try lra. apply Rabs_pos. }
      assert (Rabs (IZR k * T) <= Rabs (R_of y - (R_of w + IZR k * T)) + Rabs (R_of y - R_of w)) as TRI.
      { rewrite <- (Rabs_Ropp (R_of y - (R_of w + IZR k * T))). eapply Rle_trans; [|apply Rabs_triang]. apply Req_le. f_equal. ring. }
      rewrite Rabs_mult, (Rabs_pos_eq T) in TRI by lra.
      assert (Rabs (R_of y - R_of w) <= 92 / 10) by (apply Rabs_le_inv in LW; apply Rabs_le; lra).
      assert (62 / 10 < T) by lra. nra. }
    rewrite <- abs_IZR in *. apply IZR_le. apply lt_IZR in K2. lia. }
  assert (Rabs (IZR k) * bp (-53) * Rabs (R_of w) <= 1 * u53 * 6) as Q.
  { apply Rmult_le_compat; try apply Rabs_pos; try lra; [apply Rmult_le_pos; [apply Rabs_pos|lra]|]. apply Rmult_le_compat_r; lra. }
  assert (Rabs (IZR k * T - 2 * IZR k * PI) <= 4 * u53) as KT.
  { replace (IZR k * T - 2 * IZR k * PI) with (IZR k * (2 * (R_of PIf - PI))) by (rewrite TR; ring). rewrite Rabs_mult.
    rewrite <- (Rmult_1_l (4 * u53)). apply Rmult_le_compat; try apply Rabs_pos; [exact K|]. apply Rabs_le. lra. }
  exists y, j, (k + ka)%Z, N. split; [exact W|]. split; [exact Fy|]. split; [exact By2|]. cbv zeta.
  rewrite bp48 in *. rewrite bp47.  apply Rabs_le_inv in Eo, Ea, EY, KT. rewrite plus_IZR. split; apply Rabs_le; lra.
Qed.

(** *** Turns *)
(** A sine that is right in sign. *)
Definition sin_signed (sn : f64 -> f64) : Prop := forall x, fis_finite x = true -> Rabs (R_of x) <= 7 ->
  fis_finite (sn x) = true /\ (0 < R_of (sn x) <-> 0 < sin (R_of x)) /\ (R_of (sn x) < 0 <-> sin (R_of x) < 0).
(** For two angles in [-pi, pi], [get_turn] is the way round from the first to
    the second along the shorter arc. *)
Theorem C55_get_turn : forall sn a b, sin_signed sn -> in_turn a -> in_turn b ->
  let d := R_of b - R_of a in
  is_sign (get_turn sn a b) (sin (RN d)) /\
  (0 < d <= R_of PIf -> get_turn sn a b = 1%Z) /\ (- R_of PIf <= d < 0 -> get_turn sn a b = (-1)%Z) /\ (d = 0 -> get_turn sn a b = 0%Z) /\
  (R_of PIf + bp (-51) <= d -> get_turn sn a b = (-1)%Z) /\ (d <= - (R_of PIf + bp (-51)) -> get_turn sn a b = 1%Z).
Proof.
  intros sn a b S Ia Ib d. destruct (sub_turn b a Ib Ia) as (F & E & B). fold d in E. pose proof PIf_size as PS. pose proof T_R as TR. pose proof PI_Rp as PR.
  destruct (S (fsub b a) F ltac:(apply Rabs_le; lra)) as (Fs & P & N). rewrite E in P, N, B.
  assert (is_sign (get_turn sn a b) (sin (RN d))) as SG.
  { unfold get_turn, fgtb. change (@Bltb 53 1024) with fltb. rewrite !fltb_R by (assumption || reflexivity). change (R_of f0) with 0. unfold is_sign.
    destruct (Rlt_bool_spec 0 (R_of (sn (fsub b a)))); [left; split; [reflexivity|tauto]|].
    destruct (Rlt_bool_spec (R_of (sn (fsub b a))) 0); [right; right; split; [reflexivity|tauto]|].
    right; left. split; [reflexivity|]. destruct (Rtotal_order (sin (RN d)) 0) as [Q|[Q|Q]]; [apply N in Q; lra|exact Q|apply P in Q; lra]. }
  assert (forall z, (z = 1%Z /\ 0 < sin (RN d)) \/ (z = (-1)%Z /\ sin (RN d) < 0) -> get_turn sn a b = z) as Z.
  { intros z H. destruct SG as [(-> & G)|[(-> & G)|(-> & G)]], H as [(-> & H)|(-> & H)]; try reflexivity; exfalso; lra. }
  assert (fmt (R_of PIf)) as FP by apply format_R.
  assert (fmt (R_of PIf + bp (-51))) as FQ.
  { rewrite PIf_R. replace (IZR pi_n / 2251799813685248 + bp (-51)) with (IZR (pi_n + 1) * bp (-51)) by (rewrite plus_IZR; change (bp (-51)) with (/ 2251799813685248); field).
    rewrite <- (grid_RN (-51) (pi_n + 1)) by (vm_compute; intuition discriminate). apply generic_format_round; typeclasses eauto. }
  assert (2 * u53 < bp (-51)) as BP by (rewrite bp51; pose proof u53_pos; lra).
  assert (bp (-51) < / 1000) as BS by (change (bp (-51)) with (/ 2251799813685248); lra).
  assert (0 < d -> 0 < RN d) as P0.
  { intros H. unfold d, Rminus in *. apply RN_sum_pos; [apply format_R|apply generic_format_opp, format_R|exact H]. }
  assert (d < 0 -> RN d < 0) as N0.
  { intros H. unfold d, Rminus in *. apply RN_sum_neg; [apply format_R|apply generic_format_opp, format_R|exact H]. }
  split; [exact SG|]. repeat split.
  - intros (L & U). specialize (P0 L). apply Z. left. split; [reflexivity|]. apply sin_gt_0; [exact P0|].
    assert (RN d <= R_of PIf) by (rewrite <- (RN_id (R_of PIf) FP); now apply RN_le). lra.
  - intros (L & U). specialize (N0 U). apply Z. right. split; [reflexivity|].
    assert (- R_of PIf <= RN d) by (rewrite <- (RN_id (- R_of PIf)) by (apply generic_format_opp, FP); now apply RN_le).
    replace (RN d) with (- - RN d) by ring. rewrite sin_neg. assert (0 < sin (- RN d)) by (apply sin_gt_0; lra). lra.
  - intros Z0. destruct SG as [(_ & G)|[(G & _)|(_ & G)]]; [|exact G|]; rewrite Z0, RN_0, sin_0 in G; lra.
  - intros L. assert (R_of PIf + bp (-51) <= RN d) by (rewrite <- (RN_id _ FQ); now apply RN_le).
    apply Z. right. split; [reflexivity|]. apply sin_lt_0; lra.
  - intros L. assert (RN d <= - (R_of PIf + bp (-51))) by (rewrite <- (RN_id (- (R_of PIf + bp (-51)))) by (apply generic_format_opp, FQ); now apply RN_le).
    apply Z. left. split; [reflexivity|]. replace (RN d) with (- - RN d) by ring. rewrite sin_neg. assert (sin (- RN d) < 0) by (apply sin_lt_0; lra). lra.
Qed.
(** *** Snapping *)
(** Values below 5e-16 in size become zero and the others stay; the limit is
    that decimal to one rounding. *)
Theorem C55_snap : forall f x, (fis_finite (f x) = true ->
    (Rabs (R_of (f x)) < 5 / 10 ^ 16 * (1 - u53) -> sin_snap f x = f0 /\ cos_snap f x = f0) /\
    (5 / 10 ^ 16 * (1 + u53) <= Rabs (R_of (f x)) -> sin_snap f x = f x /\ cos_snap f x = f x) /\
    Rabs (R_of (sin_snap f x) - R_of (f x)) < 5 / 10 ^ 16 * (1 + u53)) /\
  (fis_finite (f x) = false -> sin_snap f x = f x /\ cos_snap f x = f x).
Proof.
  intros f x. change (cos_snap f x) with (sin_snap f x). unfold sin_snap. set (v := f x). clearbody v.
  assert (grid (-103) snap_limit 5070602400912918) as (FL & EL) by (apply grid_mkf; lia).
  change (bp (-103)) with (/ 10141204801825835211973625643008) in EL. change u53 with (/ 9007199254740992).
  split.
  - intros F. unfold snap. rewrite fltb_R by (rewrite ?fabs_fin; assumption). rewrite fabs_R, EL.
    split; [|split].
    + intros H. destruct (Rlt_bool_spec (Rabs (R_of v)) (IZR 5070602400912918 * / 10141204801825835211973625643008)); [split; reflexivity|lra].
    + intros H. destruct (Rlt_bool_spec (Rabs (R_of v)) (IZR 5070602400912918 * / 10141204801825835211973625643008)); [lra|split; reflexivity].
    + destruct (Rlt_bool_spec (Rabs (R_of v)) (IZR 5070602400912918 * / 10141204801825835211973625643008)).
      * change (R_of f0) with 0. rewrite Rminus_0_l, Rabs_Ropp. lra.
      * rewrite Rminus_eq_0, Rabs_R0. lra.
  - intros F. unfold snap. destruct v as [|[|]| |]; try discriminate F; split; reflexivity.
Qed.
(** *** Moving along a direction *)
Definition trig_accurate (f : f64 -> f64) (g : R -> R) : Prop := forall x, fis_finite x = true -> fis_finite (f x) = true /\ Rabs (R_of (f x) - g (R_of x)) <= bp (-52).
Lemma move_val a s x (g : R) : fis_finite a = true -> fis_finite s = true -> fis_finite x = true -> Rabs g <= 1 ->
  Rabs (R_of a) <= bp 1000 -> Rabs (R_of x) <= bp 1000 -> Rabs (R_of s - g) <= 8 * u53 ->
  fis_finite (fadd a (fmul x s)) = true /\
  Rabs (R_of (fadd a (fmul x s)) - (R_of a + R_of x * g)) <= u53 * Rabs (R_of a) + 12 * u53 * Rabs (R_of x) + bp (-1074).
Proof.
  intros Fa Fs Fx G A X E. pose proof u53_pos as U0. pose proof u53_small as U1. pose proof (Rabs_pos (R_of x)) as PX. pose proof (Rabs_pos (R_of a)) as PA.
  assert (Rabs (R_of s) <= 1 + 8 * u53) as S.
  { replace (R_of s) with (g + (R_of s - g)) by ring. eapply Rle_trans; [apply Rabs_triang|]. lra. }
  assert (Rabs (R_of x * R_of s) <= Rabs (R_of x) * (1 + 8 * u53)) as XS by (rewrite Rabs_mult; apply Rmult_le_compat_l; assumption).
  assert (Rabs (R_of x * R_of s) <= bp 1001) as XB.
  { eapply Rle_trans; [exact XS|]. change 1001%Z with (1000 + 1)%Z. rewrite bp_S. nra. }
  destruct (mul_fits 1001 x s ltac:(lia) Fx Fs XB) as ((Fm & _) & Em). set (m := fmul x s) in *.
  assert (RE := RN_err (R_of x * R_of s)). rewrite <- Em in RE.
  assert (Rabs (R_of m) <= bp 1001) as MB by (rewrite Em; apply RN_abs_le; [lia|exact XB]).
  assert (Rabs (R_of a + R_of m) <= bp 1002) as AB.
  { eapply Rle_trans; [apply Rabs_triang|]. change 1002%Z with (1001 + 1)%Z. rewrite bp_S. assert (bp 1000 <= bp 1001) by (apply bpow_le; lia). lra. }
  destruct (add_fits 1002 a m ltac:(lia) Fa Fm AB) as ((Fr & _) & Er). split; [exact Fr|]. set (r := fadd a m) in *.
  assert (RS := RN_sum_err (R_of a) (R_of m) (format_R a) (format_R m)). rewrite <- Er in RS.
  assert (bp (-1074) = 2 * bp (-1075)) as ET by (change (-1074)%Z with (-1075 + 1)%Z; apply bp_S). pose proof (bpow_gt_0 radix2 (-1075)) as T0.
  set (t := bp (-1075)) in *. clearbody t. rewrite ET.
  assert (Rabs (R_of m) <= Rabs (R_of x) * (1 + 8 * u53) * (1 + u53) + t) as M2.
  { replace (R_of m) with (R_of x * R_of s + (R_of m - R_of x * R_of s)) by ring. eapply Rle_trans; [apply Rabs_triang|].
    assert (u53 * Rabs (R_of x * R_of s) <= u53 * (Rabs (R_of x) * (1 + 8 * u53))) by (apply Rmult_le_compat_l; lra). lra. }
  assert (Rabs (R_of a + R_of m) <= Rabs (R_of a) + Rabs (R_of m)) as AM by apply Rabs_triang.
  assert (Rabs (R_of x * R_of s - R_of x * g) <= Rabs (R_of x) * (8 * u53)) as E3.
  { replace (R_of x * R_of s - R_of x * g) with (R_of x * (R_of s - g)) by ring. rewrite Rabs_mult. now apply Rmult_le_compat_l. }
  replace (R_of r - (R_of a + R_of x * g)) with ((R_of r - (R_of a + R_of m)) + ((R_of m - R_of x * R_of s) + (R_of x * R_of s - R_of x * g))) by ring.
  eapply Rle_trans; [apply Rabs_triang|]. eapply Rle_trans; [apply Rplus_le_compat_l, Rabs_triang|].
  set (X' := Rabs (R_of x)) in *. set (A' := Rabs (R_of a)) in *.
  assert (u53 * Rabs (R_of a + R_of m) <= u53 * (A' + (X' * (1 + 8 * u53) * (1 + u53) + t))) as Q1 by (apply Rmult_le_compat_l; lra).
  assert (u53 * Rabs (R_of x * R_of s) <= u53 * (X' * (1 + 8 * u53))) as Q2 by (apply Rmult_le_compat_l; lra).
  assert (0 <= u53 * X') as UX by (apply Rmult_le_pos; lra).
  assert (0 <= u53 * (u53 * X') <= / 1024 * (u53 * X')) as UUX by (split; [apply Rmult_le_pos; lra|apply Rmult_le_compat_r; lra]).
  assert (0 <= u53 * (u53 * (u53 * X')) <= / 1024 * (u53 * X')) as UUUX by (split; [apply Rmult_le_pos; lra|]; apply Rle_trans with (/ 1024 * (u53 * (u53 * X'))); [apply Rmult_le_compat_r; lra|lra]).
  assert (0 <= u53 * t <= / 1024 * t) as UT by (split; [apply Rmult_le_pos; lra|apply Rmult_le_compat_r; lra]).
  lra.
Qed.
Theorem C55_project : forall sn cn p ang d, trig_accurate sn sin -> trig_accurate cn cos -> fin_pt p -> fis_finite ang = true -> fis_finite d = true ->
  Rabs (R_of (cx p)) <= bp 1000 -> Rabs (R_of (cy p)) <= bp 1000 -> Rabs (R_of d) <= bp 1000 ->
  let q := angle_project sn cn p ang d in fin_pt q /\
  Rabs (R_of (cx q) - (R_of (cx p) + R_of d * cos (R_of ang))) <= u53 * Rabs (R_of (cx p)) + 12 * u53 * Rabs (R_of d) + bp (-1074) /\
  Rabs (R_of (cy q) - (R_of (cy p) + R_of d * sin (R_of ang))) <= u53 * Rabs (R_of (cy p)) + 12 * u53 * Rabs (R_of d) + bp (-1074).
Proof.
  intros sn cn p ang d Hs Hc (Fx & Fy) Fa Fd Bx By_ Bd q.
  assert (forall f g, trig_accurate f g -> fis_finite (snap (f ang)) = true /\ Rabs (R_of (snap (f ang)) - g (R_of ang)) <= 8 * u53) as SN.
  { intros f g H. destruct (H ang Fa) as (F & E). destruct (C55_snap f ang) as (S & _). destruct (S F) as (_ & _ & D). unfold sin_snap in D.
    split; [unfold snap; destruct (fltb _ _); [reflexivity|exact F]|].
    replace (R_of (snap (f ang)) - g (R_of ang)) with ((R_of (snap (f ang)) - R_of (f ang)) + (R_of (f ang) - g (R_of ang))) by ring.
    eapply Rle_trans; [apply Rabs_triang|]. change (bp (-52)) with (/ 4503599627370496) in E. change u53 with (/ 9007199254740992) in *. lra. }
  destruct (SN _ _ Hs) as (F1 & E1), (SN _ _ Hc) as (F2 & E2).
  destruct (move_val (cx p) (snap (cn ang)) d (cos (R_of ang)) Fx F2 Fd) as (G1 & V1); auto.
  { apply Rabs_le. apply COS_bound. }
  destruct (move_val (cy p) (snap (sn ang)) d (sin (R_of ang)) Fy F1 Fd) as (G2 & V2); auto.
  { apply Rabs_le. apply SIN_bound. }
  split; [split; assumption|]. split; assumption.
Qed.
(** *** Degrees and radians *)
Lemma pi_rel : Rabs (R_of PIf / PI - 1) <= u53.
Proof.
  pose proof PI_Rp as PR. pose proof PIf_size as PS. replace (R_of PIf / PI - 1) with (- ((PI - R_of PIf) / PI)) by (field; lra). rewrite Rabs_Ropp, Rabs_pos_eq.
  - apply Rmult_le_reg_r with PI; [lra|]. unfold Rdiv. rewrite Rmult_assoc, Rinv_l by lra. pose proof u53_pos. nra.
  - apply Rmult_le_pos; [lra|]. left. apply Rinv_0_lt_compat. lra.
Qed.
Lemma muldiv_val x a b : fis_finite x = true -> fis_finite a = true -> fis_finite b = true -> bp (-900) <= Rabs (R_of x) <= bp 900 ->
  2 <= R_of a <= 256 -> 2 <= R_of b <= 256 -> fis_finite (fdiv (fmul x a) b) = true /\
  Rabs (R_of (fdiv (fmul x a) b) - R_of x * R_of a / R_of b) <= (2 * u53 + u53 * u53) * Rabs (R_of x * R_of a / R_of b).
Proof.
  intros Fx Fa Fb X A B. pose proof u53_pos as U0. pose proof u53_small as U1. pose proof (bpow_gt_0 radix2 (-900)) as P9.
  assert (Rabs (R_of x * R_of a) <= bp 908) as H1.
  { rewrite Rabs_mult, (Rabs_pos_eq (R_of a)) by lra. replace (bp 908) with (bp 900 * 256) by (change 908%Z with (900 + 8)%Z; rewrite bpow_plus; reflexivity).
    apply Rmult_le_compat; try lra. }
  assert (bp (-900) <= Rabs (R_of x * R_of a)) as L1 by (rewrite Rabs_mult, (Rabs_pos_eq (R_of a)) by lra; nra).
  destruct (mul_fits 908 x a ltac:(lia) Fx Fa H1) as ((Fm & _) & Em). set (m := fmul x a) in *.
  assert (RE := RN_rel (R_of x * R_of a) ltac:(right; eapply Rle_trans; [|exact L1]; apply bpow_le; lia)). rewrite <- Em in RE.
  assert (Rabs (R_of m) <= bp 908) as MB by (rewrite Em; apply RN_abs_le; [lia|exact H1]).
  assert (bp (-901) <= Rabs (R_of m)) as ML.
  { assert (bp (-900) = 2 * bp (-901)) as D by (change (-900)%Z with (-901 + 1)%Z; apply bp_S).
    assert (Rabs (R_of x * R_of a) <= Rabs (R_of m) + Rabs (R_of m - R_of x * R_of a)) as TR.
    { rewrite <- (Rabs_Ropp (R_of m - _)). eapply Rle_trans; [|apply Rabs_triang]. apply Req_le. f_equal. ring. }
    assert (u53 * Rabs (R_of x * R_of a) <= / 1024 * Rabs (R_of x * R_of a)) by (apply Rmult_le_compat_r; [apply Rabs_pos|lra]). lra. }
  assert (/ 256 <= / R_of b <= / 2) as IB by (split; apply Rinv_le; lra).
  assert (Rabs (R_of m / R_of b) <= bp 908) as QB.
  { unfold Rdiv. rewrite Rabs_mult, (Rabs_pos_eq (/ R_of b)) by lra. pose proof (Rabs_pos (R_of m)). nra. }
  assert (bp (-1022) <= Rabs (R_of m / R_of b)) as QL.
  { unfold Rdiv. rewrite Rabs_mult, (Rabs_pos_eq (/ R_of b)) by lra. apply Rle_trans with (bp (-901) * / 256).
    - replace (/ 256) with (bp (-8)) by reflexivity. rewrite <- bpow_plus. apply bpow_le. lia.
    - apply Rmult_le_compat; try lra. apply bpow_ge_0. }
  destruct (fdiv_R m b Fm ltac:(lra)) as (Fq & Eq); [apply (RN_small _ 908); [lia|exact QB]|]. split; [exact Fq|].
  rewrite Eq. assert (RQ := RN_rel (R_of m / R_of b) (or_intror QL)).
  assert (Rabs (R_of m / R_of b - R_of x * R_of a / R_of b) <= u53 * Rabs (R_of x * R_of a / R_of b)) as D.
  { replace (R_of m / R_of b - R_of x * R_of a / R_of b) with ((R_of m - R_of x * R_of a) * / R_of b) by (field; lra). unfold Rdiv. rewrite !(Rabs_mult _ (/ R_of b)).
    rewrite <- Rmult_assoc. apply Rmult_le_compat_r; [apply Rabs_pos|exact RE]. }
  set (w := R_of x * R_of a / R_of b) in *. set (z := R_of m / R_of b) in *.
  assert (Rabs z <= (1 + u53) * Rabs w) as ZB by (replace z with (w + (z - w)) by ring; eapply Rle_trans; [apply Rabs_triang|]; lra).
  replace (RN z - w) with ((RN z - z) + (z - w)) by ring. eapply Rle_trans; [apply Rabs_triang|].
  assert (u53 * Rabs z <= u53 * ((1 + u53) * Rabs w)) by (apply Rmult_le_compat_l; lra). lra.
Qed.
Lemma of180 : fis_finite (fofZ 180) = true /\ R_of (fofZ 180) = 180.
Proof. destruct (grid_fofZ 180 ltac:(lia)) as (F & E). split; [exact F|]. rewrite E. change (bp 0) with 1. ring. Qed.
Theorem C55_degrees : forall x, fis_finite x = true -> bp (-900) <= Rabs (R_of x) <= bp 900 ->
  (fis_finite (to_degrees x) = true /\ Rabs (R_of (to_degrees x) - R_of x * 180 / PI) <= 4 * u53 * Rabs (R_of x * 180 / PI)) /\
  (fis_finite (to_radians x) = true /\ Rabs (R_of (to_radians x) - R_of x * PI / 180) <= 4 * u53 * Rabs (R_of x * PI / 180)).
Proof.
  intros x Fx X. destruct of180 as (F180 & E180). pose proof PIf_size as PS. pose proof PI_Rp as PR. pose proof u53_pos as U0. pose proof u53_small as U1.
  assert (R_of x <> 0) as NX by (intros Z; rewrite Z, Rabs_R0 in X; pose proof (bpow_gt_0 radix2 (-900)); lra).
  pose proof pi_rel as PQ. assert (0 <= u53 * u53 <= / 1024 * u53) as UU by (split; [apply Rmult_le_pos; lra|apply Rmult_le_compat_r; lra]).
  assert (forall r w f, w <> 0 -> Rabs (r - w * f) <= (2 * u53 + u53 * u53) * Rabs (w * f) -> Rabs (f - 1) <= u53 + 2 * u53 * u53 -> Rabs (r - w) <= 4 * u53 * Rabs w) as K.
  { intros r w f W H1 H2. rewrite Rabs_mult in H1.
    assert (Rabs f <= 2) as FB by (replace f with (1 + (f - 1)) by ring; eapply Rle_trans; [apply Rabs_triang|]; rewrite Rabs_R1; lra).
    assert (Rabs f <= 1 + u53 + 2 * u53 * u53) as FB2 by (replace f with (1 + (f - 1)) by ring; eapply Rle_trans; [apply Rabs_triang|]; rewrite Rabs_R1; lra).
    assert (Rabs (w * f - w) <= Rabs w * (u53 + 2 * u53 * u53)) as H3 by (replace (w * f - w) with (w * (f - 1)) by ring; rewrite Rabs_mult; apply Rmult_le_compat_l; [apply Rabs_pos|exact H2]).
    assert (Rabs (r - w) <= Rabs (r - w * f) + Rabs (w * f - w)) as TR by (eapply Rle_trans; [|apply Rabs_triang]; apply Req_le; f_equal; ring).
    pose proof (Rabs_pos w) as PW.
    assert ((2 * u53 + u53 * u53) * (Rabs w * Rabs f) <= (2 * u53 + u53 * u53) * (Rabs w * (1 + u53 + 2 * u53 * u53))) as H4.
    { apply Rmult_le_compat_l; [lra|]. now apply Rmult_le_compat_l. }
    assert ((2 * u53 + u53 * u53) * (1 + u53 + 2 * u53 * u53) + (u53 + 2 * u53 * u53) <= 4 * u53) as H5.
    { assert (0 <= u53 * (u53 * u53) <= / 1024 * (u53 * u53)) by (split; [apply Rmult_le_pos; lra|apply Rmult_le_compat_r; lra]).
      assert (0 <= u53 * (u53 * (u53 * u53)) <= / 1024 * (u53 * u53)) by (split; [apply Rmult_le_pos; lra|]; apply Rle_trans with (/ 1024 * (u53 * (u53 * u53))); [apply Rmult_le_compat_r; lra|lra]).
      lra. }
    assert (((2 * u53 + u53 * u53) * (1 + u53 + 2 * u53 * u53) + (u53 + 2 * u53 * u53)) * Rabs w <= 4 * u53 * Rabs w) by (apply Rmult_le_compat_r; assumption).
    lra. }
  assert (R_of PIf / PI <> 0) as NQ by (apply Rmult_integral_contrapositive_currified; [lra|apply Rinv_neq_0_compat; lra]).
  split.
  - destruct (muldiv_val x (fofZ 180) PIf Fx F180 fin_PIf X ltac:(lra) ltac:(lra)) as (F & E). split; [exact F|]. rewrite E180 in E.
    apply (K _ _ (/ (R_of PIf / PI))).
    + apply Rmult_integral_contrapositive_currified; [nra|apply Rinv_neq_0_compat; lra].
    + replace (R_of x * 180 / PI * / (R_of PIf / PI)) with (R_of x * 180 / R_of PIf) by (field; lra). exact E.
    + apply rel_inv; [lra|exact PQ].
  - destruct (muldiv_val x PIf (fofZ 180) Fx fin_PIf F180 X ltac:(lra) ltac:(lra)) as (F & E). split; [exact F|]. rewrite E180 in E.
    apply (K _ _ (R_of PIf / PI)).
    + apply Rmult_integral_contrapositive_currified; [|lra]. apply Rmult_integral_contrapositive_currified; lra.
    + replace (R_of x * PI / 180 * (R_of PIf / PI)) with (R_of x * R_of PIf / 180) by (field; lra). exact E.
    + lra.
Qed.
(** Seen from the origin, (1, 0) lies at the angle 0 and (0, 2) at pi/2. *)
Example C55_direction_example : atan2_accurate atan2_nearest /\ seen 0 (ipt 0 0) (ipt 1 0) /\ seen (PI / 2) (ipt 0 0) (ipt 0 2) /\
  rpt (ipt 0 0) <> rpt (ipt 1 0) /\ rpt (ipt 0 0) <> rpt (ipt 0 2) /\
  exists k, Rabs (R_of (angle_between_oriented atan2_nearest (ipt 1 0) (ipt 0 0) (ipt 0 2)) - (PI / 2 - 0 + 2 * IZR k * PI)) <= bp (-48).
Proof.
  assert (forall n, (Z.abs n <= 2)%Z -> R_of (fofZ n) = IZR n) as E.
  { intros n B. destruct (grid_fofZ n ltac:(lia)) as (_ & ->). change (bp 0) with 1. ring. }
  assert (seen 0 (ipt 0 0) (ipt 1 0)) as S1.
  { exists 1. unfold ipt, new_xy. cbn [cx cy]. rewrite !E by (cbn; lia). rewrite cos_0, sin_0. lra. }
  assert (seen (PI / 2) (ipt 0 0) (ipt 0 2)) as S2.
  { exists 2. unfold ipt, new_xy. cbn [cx cy]. rewrite !E by (cbn; lia). rewrite cos_PI2, sin_PI2. lra. }
  assert (rpt (ipt 0 0) <> rpt (ipt 1 0)) as N1.
  { intros H. apply (f_equal (@px R)) in H. unfold rpt, ipt, new_xy in H. cbn [cx cy px] in H. rewrite !E in H by (cbn; lia). lra. }
  assert (rpt (ipt 0 0) <> rpt (ipt 0 2)) as N2.
  { intros H. apply (f_equal (@py R)) in H. unfold rpt, ipt, new_xy in H. cbn [cx cy py] in H. rewrite !E in H by (cbn; lia). lra. }
  split; [exact atan2_nearest_accurate|]. do 4 (split; [assumption|]).
  destruct (C55_angle_between_of atan2_nearest (ipt 1 0) (ipt 0 0) (ipt 0 2) 0 (PI / 2) atan2_nearest_accurate) as ((_ & _ & H) & _); auto; try (apply (small_wide 0); [lia|]; apply ipt_small; lia).
Qed.
Definition sgn_sin (x : f64) : f64 := if Rlt_dec 0 (sin (R_of x)) then f1 else if Rlt_dec (sin (R_of x)) 0 then fneg f1 else f0.
Lemma sgn_sin_signed : sin_signed sgn_sin.
Proof.
  intros x _ _. unfold sgn_sin. pose proof R_of_f1 as R1. assert (R_of (fneg f1) = -1) as R2 by (rewrite fneg_R, R1; reflexivity).
  destruct (Rlt_dec 0 (sin (R_of x))); [|destruct (Rlt_dec (sin (R_of x)) 0)]; rewrite ?R1, ?R2; change (R_of f0) with 0; repeat split; intros; lra.
Qed.
Definition near_trig (g : R -> R) (x : f64) : f64 := of_real (g (R_of x)).
Lemma near_trig_accurate g : (forall r, -1 <= g r <= 1) -> trig_accurate (near_trig g) g.
Proof.
  intros B x _. unfold near_trig. specialize (B (R_of x)). destruct (of_real_R (g (R_of x))) as (F & E).
  - apply (RN_small _ 0); [lia|]. change (bp 0) with 1. now apply Rabs_le.
  - split; [exact F|]. rewrite E. eapply Rle_trans; [apply RN_err|].
    assert (bp (-1075) <= bp (-60)) by (apply bpow_le; lia). change (bp (-60)) with (/ 1152921504606846976) in *.
    assert (Rabs (g (R_of x)) <= 1) by (now apply Rabs_le). change (bp (-52)) with (/ 4503599627370496). change u53 with (/ 9007199254740992). lra.
Qed.
(** The turn from 0 to 1 is counter-clockwise, from 1 to 0 clockwise; the
    hypotheses on sine and cosine can be met. *)
Example C55_turn_example : sin_signed sgn_sin /\ in_turn f0 /\ in_turn f1 /\ get_turn sgn_sin f0 f1 = 1%Z /\ get_turn sgn_sin f1 f0 = (-1)%Z /\
  trig_accurate (near_trig sin) sin /\ trig_accurate (near_trig cos) cos.
Proof.
  pose proof PIf_size as PS. pose proof R_of_f1 as R1. assert (R_of f0 = 0) as R0 by reflexivity.
  assert (in_turn f0) as I0 by (split; [reflexivity|rewrite R0; lra]). assert (in_turn f1) as I1 by (split; [reflexivity|rewrite R1; lra]).
  split; [exact sgn_sin_signed|]. split; [exact I0|]. split; [exact I1|]. split; [|split; [|split; apply near_trig_accurate; [exact SIN_bound|exact COS_bound]]].
  - destruct (C55_get_turn sgn_sin f0 f1 sgn_sin_signed I0 I1) as (_ & H & _). apply H. rewrite R0, R1. lra.
  - destruct (C55_get_turn sgn_sin f1 f0 sgn_sin_signed I1 I0) as (_ & _ & H & _). apply H. rewrite R0, R1. lra.
Qed.
(** 1e-16 is snapped to zero, 1/2 is not; half a turn is 180 degrees. *)
Example C55_snap_example : sin_snap (fun _ => mkf 1 (-54)) f0 = f0 /\ sin_snap (fun _ => fhalf) f0 = fhalf /\
  feqb (to_degrees PIf) (fofZ 180) = true /\ feqb (to_radians (fofZ 180)) PIf = true.
Proof. repeat split; vm_compute; reflexivity. Qed.
