(** C58 and C72, continued: the numbers of digits that come from logarithms.
    The real logarithm is [Rpower.ln]; the libm function is an argument. *)
From Coq Require Import ZArith Bool Reals List Lia Lra Psatz.
From Flocq Require Import Core IEEE754.BinarySingleNaN.
From Verif Require Import Base F64 F64Facts F64Round F64Err Num NumLink DD_model DDArith_props Distance_spec Distance_proofs Distance_props PrecisionModel_model.
Local Open Scope R_scope.

(** An [ln] as the platform's: finite and accurate to one unit in the last
    place on every positive double. *)
Definition ln_accurate (lnf : f64 -> f64) : Prop := forall x, fis_finite x = true -> 0 < R_of x ->
  fis_finite (lnf x) = true /\ Rabs (R_of (lnf x) - ln (R_of x)) <= bp (-52) * Rabs (ln (R_of x)).

(** *** Sizes of logarithms *)
Lemma exp_mult_2 x : exp (2 * x) = exp x * exp x.
Proof. replace (2 * x) with (x + x) by ring. apply exp_plus. Qed.
Lemma ln10_range : 2 < ln 10 <= 4.
Proof.
  split.
  - apply exp_lt_inv. rewrite exp_ln by lra. rewrite <- (Rmult_1_r 2), exp_mult_2. pose proof exp_le_3 as E3. pose proof (exp_pos 1) as E0. clear -E3 E0. assert (exp 1 * exp 1 <= 3 * 3) by (apply Rmult_le_compat; lra). lra.
  - apply Rnot_lt_le. intros H. apply exp_increasing in H. rewrite exp_ln in H by lra.
    replace 4 with (2 * (2 * 1)) in H by ring. rewrite !exp_mult_2 in H. pose proof (exp_ineq1 1 ltac:(lra)) as E1.
    assert (2 * 2 <= exp 1 * exp 1) by (apply Rmult_le_compat; lra). assert (4 * 4 <= (exp 1 * exp 1) * (exp 1 * exp 1)) by (apply Rmult_le_compat; lra). lra.
Qed.
Lemma ln2_range : 0 < ln 2 < 1.
Proof.
  split; [rewrite <- ln_1; apply ln_increasing; lra|]. apply exp_lt_inv. rewrite exp_ln by lra. pose proof (exp_ineq1 1 ltac:(lra)). lra.
Qed.
Lemma ln_bp k : ln (bp k) = IZR k * ln 2.
Proof. rewrite bpow_exp. rewrite ln_exp. change (IZR radix2) with 2. reflexivity. Qed.
Lemma ln_double x : fis_finite x = true -> 0 < R_of x -> Rabs (ln (R_of x)) <= 1074.
Proof.
  intros F P. pose proof ln2_range as L2.
  assert (bp (-1074) <= R_of x) as A.
  { apply (generic_format_ge_bpow radix2 fexp64); [intros e; rewrite fexp_FLT; unfold FLT_exp; lia|exact P|apply format_R]. }
  assert (R_of x < bp 1024) as B by (pose proof (abs_B2R_lt_emax 53 1024 x) as H; fold (R_of x) in H; apply Rabs_lt_inv in H; lra).
  apply Rabs_le. split.
  - apply Rle_trans with (ln (bp (-1074))); [rewrite ln_bp; nra|].
    destruct A as [A | <-]; [left; apply ln_increasing; [apply bpow_gt_0|exact A]|lra].
  - apply Rle_trans with (ln (bp 1024)); [left; apply ln_increasing; assumption|rewrite ln_bp; nra].
Qed.

Definition log10f (lnf : f64 -> f64) (x : f64) : f64 := fdiv (lnf x) (lnf (fofZ 10)).
Lemma R_ten : fis_finite (fofZ 10) = true /\ R_of (fofZ 10) = 10.
Proof. destruct (ex_ofZ 53 10 ltac:(lia) ltac:(lia)) as (F & V & _). now split. Qed.
Lemma log10_near lnf x : ln_accurate lnf -> fis_finite x = true -> 0 < R_of x ->
  fis_finite (log10f lnf x) = true /\ Rabs (R_of (log10f lnf x) - ln (R_of x) / ln 10) <= bp (-40) /\
  (R_of x = 1 -> R_of (log10f lnf x) = 0) /\ (1 <= R_of x -> 0 <= R_of (log10f lnf x)).
Proof.
  intros A F P. destruct (A x F P) as (Fl & El). destruct R_ten as (Ft0 & Vt). destruct (A (fofZ 10) Ft0 ltac:(lra)) as (Ft & Et).
  rewrite Vt in Et. pose proof ln10_range as T. pose proof (ln_double x F P) as LB.
  unfold log10f. set (l := R_of (lnf x)) in *. set (t := R_of (lnf (fofZ 10))) in *. set (L := ln (R_of x)) in *. set (T10 := ln 10) in *.
  rewrite (Rabs_pos_eq T10) in Et by lra.
  assert (bp (-52) = / IZR (2 ^ 52)) as E52 by reflexivity.
  assert (bp (-40) = 4096 * bp (-52)) as E40 by (change 4096 with (bp 12); now rewrite <- bpow_plus).
  assert (0 < bp (-52) <= / 1000000) as U by (split; [apply bpow_gt_0|rewrite E52; cbv [Z.pow Z.pow_pos Pos.iter Z.mul Pos.mul]; lra]).
  assert (u53 = bp (-52) / 2) as E53 by (replace (bp (-52)) with (2 * u53) by (change 2 with (bp 1); now rewrite <- bpow_plus); field).
  set (u := bp (-52)) in *.
  assert (1 <= t) as T1 by (apply Rabs_le_inv in Et; nra).
  assert (Rabs l <= 1075) as L1.
  { replace l with ((l - L) + L) by ring. eapply Rle_trans; [apply Rabs_triang|]. nra. }
  assert (Rabs (l / t) <= 1075) as Q1.
  { unfold Rdiv. rewrite Rabs_mult, (Rabs_pos_eq (/ t)) by (left; apply Rinv_0_lt_compat; lra).
    assert (/ t <= 1) by (rewrite <- Rinv_1; apply Rinv_le_contravar; lra). assert (0 < / t) by (apply Rinv_0_lt_compat; lra). pose proof (Rabs_pos l). nra. }
  destruct (fdiv_R (lnf x) (lnf (fofZ 10)) Fl) as (Fq & Vq); fold t; fold l.
  { lra. }
  { apply (RN_small _ 11); [lia|]. change (bp 11) with 2048. lra. }
  fold l t in Vq. split; [exact Fq|]. rewrite Vq. split; [|split].
  - pose proof (RN_err (l / t)) as R1. rewrite E53 in R1.
    assert (bp (-1075) <= u) as Tiny by (apply bpow_le; lia).
    assert (Rabs (l / t - L / T10) <= 2 * u * 1074) as D.
    { replace (l / t - L / T10) with (((l - L) * T10 - L * (t - T10)) * / T10 * / t) by (field; lra).
      rewrite !Rabs_mult, (Rabs_pos_eq (/ t)), (Rabs_pos_eq (/ T10)) by (left; apply Rinv_0_lt_compat; lra).
      assert (Rabs ((l - L) * T10 - L * (t - T10)) <= 2 * u * 1074 * T10) as N.
      { unfold Rminus at 1. eapply Rle_trans; [apply Rabs_triang|]. rewrite Rabs_Ropp, !Rabs_mult, (Rabs_pos_eq T10) by lra.
        pose proof (Rabs_pos L). pose proof (Rabs_pos (t - T10)).
        assert (Rabs (l - L) * T10 <= (u * 1074) * T10) by (apply Rmult_le_compat_r; nra).
        assert (Rabs L * Rabs (t - T10) <= 1074 * (u * T10)) by (apply Rmult_le_compat; lra). lra. }
      assert (/ t <= 1) by (rewrite <- Rinv_1; apply Rinv_le_contravar; lra). assert (0 < / t) by (apply Rinv_0_lt_compat; lra).
      assert (0 < / T10) by (apply Rinv_0_lt_compat; lra).
      apply Rle_trans with (2 * u * 1074 * T10 * / T10 * 1); [|right; field; lra].
      apply Rmult_le_compat; [apply Rmult_le_pos; [apply Rabs_pos|lra]|lra| |lra]. apply Rmult_le_compat_r; lra. }
    rewrite E40. replace (RN (l / t) - L / T10) with ((RN (l / t) - l / t) + (l / t - L / T10)) by ring.
    eapply Rle_trans; [apply Rabs_triang|]. nra.
  - intros E1. assert (L = 0) as L0 by (unfold L; rewrite E1; apply ln_1). rewrite L0, Rabs_R0, Rmult_0_r, Rminus_0_r in El.
    pose proof (Rabs_pos l). assert (l = 0) as -> by (destruct (Req_dec l 0); [assumption|pose proof (Rabs_pos_lt l); lra]).
    unfold Rdiv. rewrite Rmult_0_l. apply RN_0.
  - intros G. assert (0 <= L) as L0 by (unfold L; rewrite <- ln_1; destruct G as [G | <-]; [left; apply ln_increasing; lra|lra]).
    rewrite (Rabs_pos_eq L L0) in El. apply Rabs_le_inv in El. assert (0 <= l) by nra.
    apply RN_ge0. apply Rmult_le_pos; [assumption|]. left. apply Rinv_0_lt_compat. lra.
Qed.
Lemma as_i32_int y z : fis_finite y = true -> R_of y = IZR z -> (Z.abs z <= 1000000)%Z -> f_as_i32 y = z.
Proof.
  intros F V H.
  assert (Btrunc y = z) as B.
  { apply eq_IZR. rewrite Btrunc_correct by reflexivity. fold (R_of y). rewrite V. apply round_generic; [typeclasses eauto|].
    replace (IZR z) with (F2R (Float radix2 z 0)) by (unfold F2R; cbn; ring). apply generic_format_F2R. intros _. unfold cexp, FIX_exp. cbn. lia. }
  assert (f_as_i32 y = Z.max (-2147483648) (Z.min 2147483647 (Btrunc y))) as -> by (destruct y; try discriminate; reflexivity).
  rewrite B. lia.
Qed.
Definition log10 (x : R) : R := ln x / ln 10.
Lemma log10_lt x y : 0 < x -> x < y -> log10 x < log10 y.
Proof. intros P L. pose proof ln10_range. apply Rmult_lt_compat_r; [apply Rinv_0_lt_compat; lra|]. now apply ln_increasing. Qed.
Lemma log10_le x y : 0 < x -> x <= y -> log10 x <= log10 y.
Proof. intros P [L | <-]; [left; now apply log10_lt|lra]. Qed.
Lemma log10_mult x y : 0 < x -> 0 < y -> log10 (x * y) = log10 x + log10 y.
Proof. intros X Y. unfold log10. rewrite ln_mult by assumption. pose proof ln10_range. field. lra. Qed.
Lemma log10_power k : log10 (powerRZ 10 k) = IZR k /\ 0 < powerRZ 10 k.
Proof.
  rewrite powerRZ_Rpower by lra. unfold log10, Rpower. rewrite ln_exp. pose proof ln10_range. split; [field; lra|apply exp_pos].
Qed.
Lemma ln_upper d : 0 < d -> ln d <= d - 1.
Proof.
  intros D. apply Rnot_lt_le. intros H. apply exp_increasing in H. rewrite exp_ln in H by assumption.
  destruct (Req_dec (d - 1) 0) as [Z | N]; [rewrite Z, exp_0 in H; lra|]. pose proof (exp_ineq1 (d - 1) N). lra.
Qed.
Lemma margin : bp (-40) < log10 (1 + bp (-37)) /\ log10 (1 - bp (-37)) < - bp (-40).
Proof.
  assert (bp (-37) = 8 * bp (-40)) as E by (change 8 with (bp 3); now rewrite <- bpow_plus).
  assert (0 < bp (-40) <= / 1000000) as U by (split; [apply bpow_gt_0|change (bp (-40)) with (/ IZR (2 ^ 40)); cbv [Z.pow Z.pow_pos Pos.iter Z.mul Pos.mul]; lra]).
  set (u := bp (-40)) in *. rewrite E. pose proof ln10_range as T. set (t := ln 10) in *. split; unfold log10; fold t.
  - assert (ln (/ (1 + 8 * u)) <= / (1 + 8 * u) - 1) as A by (apply ln_upper; apply Rinv_0_lt_compat; lra).
    rewrite ln_Rinv in A by lra. assert (/ (1 + 8 * u) <= 1 - 7 * u) as B.
    { apply Rmult_le_reg_l with (1 + 8 * u); [lra|]. rewrite Rinv_r by lra. nra. }
    apply Rmult_lt_reg_r with t; [lra|]. unfold Rdiv. rewrite Rmult_assoc, Rinv_l by lra. nra.
  - pose proof (ln_upper (1 - 8 * u) ltac:(lra)) as A. apply Rmult_lt_reg_r with t; [lra|]. unfold Rdiv. rewrite Rmult_assoc, Rinv_l by lra. nra.
Qed.
Lemma log10_size x : fis_finite x = true -> 0 < R_of x -> Rabs (log10 (R_of x)) <= 1074.
Proof.
  intros F P. pose proof (ln_double x F P) as L. pose proof ln10_range as T. unfold log10, Rdiv. rewrite Rabs_mult, (Rabs_pos_eq (/ ln 10)) by (left; apply Rinv_0_lt_compat; lra).
  assert (/ ln 10 <= 1) by (rewrite <- Rinv_1; apply Rinv_le_contravar; lra). assert (0 < / ln 10) by (apply Rinv_0_lt_compat; lra). pose proof (Rabs_pos (ln (R_of x))). nra.
Qed.

(** ** C58: the number of significant digits of a model *)
(** A fixed model whose scale is between two powers of ten, not within 2^-37 of
    either, has one digit more than the exponent of the upper one. *)
Lemma digits_ceil lnf pm k : ln_accurate lnf -> pm_type pm = Fixed -> fis_finite (pm_scale pm) = true -> 0 < R_of (pm_scale pm) ->
  IZR k - 1 < R_of (log10f lnf (pm_scale pm)) <= IZR k -> pm_digits lnf pm = Ok (1 + k)%Z.
Proof.
  intros A T F P (Q1 & Q2). unfold pm_digits. rewrite T. fold (log10f lnf (pm_scale pm)).
  destruct (log10_near lnf _ A F P) as (Fq & Eq & _). pose proof (log10_size _ F P) as S. unfold log10 in S.
  assert (Zceil (R_of (log10f lnf (pm_scale pm))) = k) as C by (apply Zceil_imp; rewrite minus_IZR; lra).
  assert (bp (-40) <= 1) as B by (change 1 with (bp 0); apply bpow_le; lia).
  apply Rabs_le_inv in Eq, S.
  assert (-1100 <= k <= 1100)%Z as K by (split; apply le_IZR; lra).
  rewrite (as_i32_int _ k); [|now rewrite fceil_fin|now rewrite fceil_R, C|lia].
  unfold i32_chk. destruct (Z.leb_spec i32_min (1 + k)), (Z.leb_spec (1 + k) i32_max); unfold i32_min, i32_max in *; try lia; reflexivity.
Qed.
Theorem C58_digits_of_scale : forall lnf pm k, ln_accurate lnf -> pm_type pm = Fixed -> fis_finite (pm_scale pm) = true ->
  powerRZ 10 (k - 1) * (1 + bp (-37)) <= R_of (pm_scale pm) <= powerRZ 10 k * (1 - bp (-37)) ->
  pm_digits lnf pm = Ok (1 + k)%Z.
Proof.
  intros lnf pm k A T F (L & U). destruct (log10_power (k - 1)) as (E1 & P1). destruct (log10_power k) as (E2 & P2). destruct margin as (M1 & M2).
  pose proof (bpow_gt_0 radix2 (-37)) as B. assert (bp (-37) <= / 2) as B2 by (change (/ 2) with (bp (-1)); apply bpow_le; lia).
  assert (0 < powerRZ 10 (k - 1) * (1 + bp (-37))) as P3 by (apply Rmult_lt_0_compat; lra).
  assert (0 < R_of (pm_scale pm)) as P by lra.
  apply digits_ceil; [assumption..|]. destruct (log10_near lnf _ A F P) as (_ & Eq & _). apply Rabs_le_inv in Eq. fold (log10 (R_of (pm_scale pm))) in Eq.
  apply log10_le in L; [|exact P3]. apply log10_le in U; [|exact P]. rewrite log10_mult, E1 in L by lra. rewrite log10_mult, E2 in U by lra.
  rewrite minus_IZR in L. lra.
Qed.
(** At a power of ten the last bit of the logarithm decides between two answers;
    the scale 1 has one digit. *)
Theorem C58_digits_of_power : forall lnf pm k, ln_accurate lnf -> pm_type pm = Fixed -> fis_finite (pm_scale pm) = true ->
  R_of (pm_scale pm) = powerRZ 10 k ->
  (pm_digits lnf pm = Ok (1 + k)%Z \/ pm_digits lnf pm = Ok (2 + k)%Z) /\ (k = 0%Z -> pm_digits lnf pm = Ok 1%Z).
Proof.
  intros lnf pm k A T F V. destruct (log10_power k) as (E2 & P2). assert (0 < R_of (pm_scale pm)) as P by lra.
  destruct (log10_near lnf _ A F P) as (_ & Eq & One & _). apply Rabs_le_inv in Eq. fold (log10 (R_of (pm_scale pm))) in Eq. rewrite V, E2 in Eq.
  assert (bp (-40) <= / 2) as B2 by (change (/ 2) with (bp (-1)); apply bpow_le; lia). split.
  - destruct (Rle_dec (R_of (log10f lnf (pm_scale pm))) (IZR k)) as [D | D].
    + left. apply digits_ceil; [assumption..|]. lra.
    + right. replace (2 + k)%Z with (1 + (k + 1))%Z by lia. apply digits_ceil; [assumption..|]. rewrite plus_IZR. lra.
  - intros ->. change 1%Z with (1 + 0)%Z. apply digits_ceil; [assumption..|]. rewrite One by exact V. lra.
Qed.
Lemma ten_pow j : (0 <= j)%Z -> IZR (10 ^ j) = powerRZ 10 j.
Proof. intros J. rewrite <- (Z2Nat.id j J), <- pow_powerRZ, <- pow_IZR. reflexivity. Qed.
(** ** C72: the decimal exponent *)
Theorem C72_magnitude_accurate : forall lnf x m, ln_accurate lnf -> fis_finite x = true -> (0 <= m <= 8)%Z ->
  IZR (10 ^ m) <= Rabs (R_of x) <= IZR (10 ^ (m + 1)) * (1 - bp (-37)) -> dd_magnitude lnf x = Ok m.
Proof.
  intros lnf x m A F M (L & U).
  pose proof ten_pow as Pw.
  destruct (log10_power m) as (E1 & P1). destruct (log10_power (m + 1)) as (E2 & P2). destruct margin as (_ & M2).
  rewrite <- !Pw in E1, E2, P1, P2 by lia.
  pose proof (bpow_gt_0 radix2 (-37)) as B. assert (bp (-37) <= / 2) as B2 by (change (/ 2) with (bp (-1)); apply bpow_le; lia).
  apply C72_magnitude; [exact F|exact M| |].
  { split; [exact L|]. nra. }
  assert (0 < R_of (fabs x)) as P by (rewrite fabs_R; lra). assert (fis_finite (fabs x) = true) as Fa by now rewrite fabs_fin.
  destruct (log10_near lnf _ A Fa P) as (Fq & Eq & _ & Pos). unfold log10f in *. set (q := fdiv (lnf (fabs x)) (lnf (fofZ 10))) in *.
  rewrite fabs_R in Eq, Pos. apply Rabs_le_inv in Eq. fold (log10 (Rabs (R_of x))) in Eq.
  assert (bp (-40) <= / 2) as B3 by (change (/ 2) with (bp (-1)); apply bpow_le; lia).
  assert (1 <= IZR (10 ^ m)) as One by (apply IZR_le; pose proof (Z.pow_pos_nonneg 10 m); lia).
  apply log10_le in U; [|lra]. rewrite log10_mult, E2, plus_IZR in U by lra.
  assert (IZR m <= log10 (Rabs (R_of x))) as L' by (rewrite <- E1; apply log10_le; lra).
  assert (forall g, Zfloor (R_of q) = g -> (Z.abs g <= 1000)%Z -> f_as_i32 (ffloor q) = g) as G.
  { intros g E H. apply as_i32_int; [now rewrite ffloor_fin|now rewrite ffloor_R, E|lia]. }
  destruct (Rle_dec (IZR m) (R_of q)) as [D | D].
  - left. apply G; [|lia]. apply Zfloor_imp. rewrite plus_IZR. lra.
  - right. assert (1 <= m)%Z as M1.
    { destruct (Z.eq_dec m 0) as [-> | N]; [|lia]. exfalso. apply D. apply Pos. lra. }
    split; [|exact M1]. apply G; [|lia]. apply Zfloor_imp. rewrite plus_IZR, minus_IZR. lra.
Qed.

(** *** There is one *)
Definition ln_nearest (x : f64) : f64 := of_real (ln (R_of x)).
Lemma above_one x : 1 < R_of x -> 1 + bp (-52) <= R_of x.
Proof.
  intros H. pose proof (succ_le_lt radix2 fexp64 1 (R_of x)) as S. rewrite succ_eq_pos in S by lra.
  replace (ulp radix2 fexp64 1) with (bp (-52)) in S; [|change 1 with (bpow radix2 0); rewrite ulp_bpow; reflexivity].
  apply S; [change 1 with (bp 0); apply bpow_fmt; lia|apply format_R|exact H].
Qed.
Lemma ln_nearest_accurate : ln_accurate ln_nearest.
Proof.
  intros x F P. pose proof (ln_double x F P) as B. unfold ln_nearest. set (L := ln (R_of x)) in *.
  destruct (of_real_R L) as (Fo & E); [apply (RN_small L 11); [lia|change (bp 11) with 2048; lra]|].
  split; [exact Fo|]. rewrite E.
  apply Rle_trans with (u53 * Rabs L); [|apply Rmult_le_compat_r; [apply Rabs_pos|apply bpow_le; lia]].
  apply RN_rel. destruct (Rtotal_order (R_of x) 1) as [H | [H | H]].
  - right. pose proof (below_one x F H) as G. pose proof (ln_upper (R_of x) P) as U. fold L in U.
    apply Rle_trans with u53; [apply bpow_le; lia|]. rewrite Rabs_left1; lra.
  - left. unfold L. rewrite H. apply ln_1.
  - right. pose proof (above_one x H) as G. pose proof (ln_upper (/ R_of x) ltac:(apply Rinv_0_lt_compat; lra)) as U.
    rewrite ln_Rinv in U by lra. fold L in U. assert (0 < bp (-52) <= / 2) as V by (split; [apply bpow_gt_0|change (/ 2) with (bp (-1)); apply bpow_le; lia]).
    assert (/ R_of x <= 1 - bp (-52) / 2) as W.
    { apply Rle_trans with (/ (1 + bp (-52))); [apply Rinv_le_contravar; lra|]. apply Rmult_le_reg_l with (1 + bp (-52)); [lra|]. rewrite Rinv_r by lra. nra. }
    apply Rle_trans with (bp (-52) / 2); [|rewrite Rabs_pos_eq; lra].
    replace (bp (-52) / 2) with (bp (-53)) by (replace (bp (-52)) with (2 * bp (-53)) by (change 2 with (bp 1); now rewrite <- bpow_plus); field). apply bpow_le. lia.
Qed.
Lemma near1 : 1 + bp (-37) <= 2 /\ / 2 <= 1 - bp (-37).
Proof. assert (bp (-37) <= / 2) by (change (/ 2) with (bp (-1)); apply bpow_le; lia). lra. Qed.
Example C58_digits_example : ln_accurate ln_nearest /\ pm_digits ln_nearest (pm_new_with_scale (fofZ 500)) = Ok 4%Z /\
  pm_digits ln_nearest (pm_new_with_scale (fofZ 1)) = Ok 1%Z /\
  (pm_digits ln_nearest (pm_new_with_scale (fofZ 1000)) = Ok 4%Z \/ pm_digits ln_nearest (pm_new_with_scale (fofZ 1000)) = Ok 5%Z) /\
  dd_magnitude ln_nearest (fofZ (-123)) = Ok 2%Z.
Proof.
  pose proof ln_nearest_accurate as A. pose proof near1 as N.
  assert (forall n, (1 <= n <= 1000)%Z -> pm_type (pm_new_with_scale (fofZ n)) = Fixed /\ fis_finite (pm_scale (pm_new_with_scale (fofZ n))) = true /\ R_of (pm_scale (pm_new_with_scale (fofZ n))) = IZR n) as S.
  { intros n H. destruct (ex_ofZ 53 n ltac:(lia) ltac:(lia)) as (F & V & _). unfold pm_new_with_scale, pm_set_scale.
    assert (fltb (fofZ n) f0 = false) as -> by (apply fltb_false_R; [exact F|reflexivity|rewrite V, R_of_f0; apply IZR_le; lia]). cbn [pm_type pm_scale].
    rewrite fabs_fin, fabs_R, V, Rabs_pos_eq by (apply IZR_le; lia). auto. }
  split; [exact A|]. split; [|split; [|split]].
  - destruct (S 500%Z ltac:(lia)) as (T & F & V). apply (C58_digits_of_scale ln_nearest _ 3); [assumption..|]. rewrite V. change (powerRZ 10 (3 - 1)) with (powerRZ 10 2). rewrite <- (ten_pow 2), <- (ten_pow 3) by lia. change (10 ^ 2)%Z with 100%Z. change (10 ^ 3)%Z with 1000%Z. lra.
  - destruct (S 1%Z ltac:(lia)) as (T & F & V). apply (C58_digits_of_power ln_nearest _ 0); [assumption..| |reflexivity]. rewrite V. reflexivity.
  - destruct (S 1000%Z ltac:(lia)) as (T & F & V). apply (C58_digits_of_power ln_nearest _ 3); [assumption..|]. rewrite V, <- (ten_pow 3) by lia. reflexivity.
  - destruct (ex_ofZ 53 (-123) ltac:(lia) ltac:(lia)) as (F & V & _). apply C72_magnitude_accurate; [assumption..|lia|]. rewrite V, <- abs_IZR. change (Z.abs (-123)) with 123%Z. change (10 ^ 2)%Z with 100%Z. change (10 ^ (2 + 1))%Z with 1000%Z. lra.
Qed.
