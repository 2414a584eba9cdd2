(** Relative errors of sums and quotients of positive quantities. *)
From Coq Require Import ZArith Bool Reals Lia Lra Psatz.
From Flocq Require Import Core IEEE754.BinarySingleNaN.
From Verif Require Import Base F64 F64Facts F64Err Num NumLink DD_spec DD_proofs DD_more.
Local Open Scope R_scope.

Lemma u53_tiny : u53 <= / 1000000000.
Proof. apply Rle_trans with (bp (-30)); [apply bpow_le; lia|cbn; lra]. Qed.
Lemma ap_pos c x a : 0 <= c <= 1000 -> 0 <= a -> ap c x a -> 0 <= R_of x /\ a / 2 <= R_of x <= 2 * a.
Proof.
  intros Hc Ha (F & E). rewrite (Rabs_pos_eq a Ha) in E. apply Rabs_le_inv in E. pose proof u53_pos. pose proof u53_tiny.
  assert (0 <= c * u53 <= / 100000) by nra.
  assert (c * u53 * a <= / 100000 * a) by (apply Rmult_le_compat_r; lra). lra.
Qed.
Lemma ap_zero c x : ap c x 0 -> R_of x = 0.
Proof.
  intros (F & E). rewrite Rabs_R0, Rmult_0_r, Rminus_0_r in E. pose proof (Rabs_pos (R_of x)). apply Rabs_eq_R0. lra.
Qed.
Lemma ap_addp c x y a b : 0 <= c <= 1000 -> 0 <= a -> 0 <= b -> a + b <= bp 1000 -> ap c x a -> ap c y b ->
  ap (c + 2) (fadd x y) (a + b).
Proof.
  intros Hc Ha Hb H (Fx & Ex) (Fy & Ey). pose proof u53_pos as U. pose proof u53_tiny as U1.
  rewrite (Rabs_pos_eq a Ha) in Ex. rewrite (Rabs_pos_eq b Hb) in Ey.
  set (X := R_of x) in *. set (Y := R_of y) in *. set (s := a + b) in *.
  assert (S0 : 0 <= s) by (unfold s; lra).
  assert (ES : Rabs (X + Y - s) <= c * u53 * s).
  { replace (X + Y - s) with ((X - a) + (Y - b)) by (unfold s; ring). eapply Rle_trans; [apply Rabs_triang|].
    unfold s. rewrite Rmult_plus_distr_l. lra. }
  assert (K : c * u53 <= / 100000) by nra. assert (K0 : 0 <= c * u53) by nra.
  assert (c * u53 * s <= / 100000 * s) by (apply Rmult_le_compat_r; lra).
  assert (B : Rabs (X + Y) <= 2 * s). { apply Rabs_le_inv in ES. apply Rabs_le. lra. }
  destruct (fadd_R x y Fx Fy) as (F & E).
  { fold X Y. apply (RN_small _ 1001); [lia|]. eapply Rle_trans; [exact B|]. change 1001%Z with (1000 + 1)%Z. rewrite bp_S. lra. }
  split; [exact F|]. rewrite E. fold X Y. rewrite (Rabs_pos_eq s S0).
  pose proof (RN_sum_err X Y (format_R x) (format_R y)) as R.
  replace (RN (X + Y) - s) with ((RN (X + Y) - (X + Y)) + (X + Y - s)) by ring. eapply Rle_trans; [apply Rabs_triang|].
  assert (u53 * Rabs (X + Y) <= u53 * (2 * s)) by (apply Rmult_le_compat_l; lra). lra.
Qed.
Lemma ap_div c d x y a b : 0 <= c <= 100 -> 0 <= d <= 100 -> ap c x a -> ap d y b -> b <> 0 ->
  a = 0 \/ bp (-1000) <= Rabs (a / b) <= bp 1000 -> ap (c + d + 2) (fdiv x y) (a / b).
Proof.
  intros Hc Hd (Fx & Ex) (Fy & Ey) Hb Hab.
  pose proof u53_pos as U0. pose proof u53_tiny as U1.
  set (X := R_of x) in *. set (Y := R_of y) in *.
  assert (B0 : 0 < Rabs b) by (now apply Rabs_pos_lt).
  assert (D1 : d * u53 <= / 10000000) by nra. assert (D0 : 0 <= d * u53) by nra.
  assert (C1 : c * u53 <= / 10000000) by nra. assert (C0 : 0 <= c * u53) by nra.
  assert (YB : (1 - d * u53) * Rabs b <= Rabs Y).
  { pose proof (Rabs_triang_inv b (b - Y)) as T. replace (b - (b - Y)) with Y in T by ring. rewrite (Rabs_minus_sym b Y) in T. lra. }
  assert (Y0 : 0 < Rabs Y) by (assert (0 < (1 - d * u53) * Rabs b) by (apply Rmult_lt_0_compat; lra); lra).
  assert (Yn : Y <> 0) by (intros Z; rewrite Z, Rabs_R0 in Y0; lra).
  set (q := a / b) in *. assert (Ea : a = q * b) by (unfold q; field; exact Hb).
  assert (EQ : Rabs (X / Y - q) <= (c + d + / 100) * u53 * Rabs q).
  { apply Rmult_le_reg_r with (Rabs Y); [exact Y0|]. rewrite <- Rabs_mult.
    replace ((X / Y - q) * Y) with ((X - a) + q * (b - Y)) by (rewrite Ea; field; exact Yn).
    eapply Rle_trans; [apply Rabs_triang|]. rewrite Rabs_mult, (Rabs_minus_sym b Y).
    assert (Rabs q * Rabs (Y - b) <= Rabs q * (d * u53 * Rabs b)) by (apply Rmult_le_compat_l; [apply Rabs_pos|exact Ey]).
    assert (Rabs a = Rabs q * Rabs b) as Ea' by (rewrite Ea at 1; apply Rabs_mult). rewrite Ea' in Ex.
    set (z := Rabs q) in *. assert (0 <= z) by apply Rabs_pos. set (w := Rabs b) in *.
    assert (0 <= z * w) by (apply Rmult_le_pos; lra).
    assert ((c + d) * u53 <= (c + d + / 100) * u53 * (1 - d * u53)).
    { assert ((c + d + / 100) * (d * u53) <= 201 * / 10000000) by (apply Rmult_le_compat; lra).
      assert (u53 * ((c + d + / 100) * (d * u53)) <= u53 * / 1000) by (apply Rmult_le_compat_l; lra). lra. }
    assert ((c + d) * u53 * (z * w) <= (c + d + / 100) * u53 * (1 - d * u53) * (z * w)) by (apply Rmult_le_compat_r; assumption).
    assert ((c + d + / 100) * u53 * z * ((1 - d * u53) * w) <= (c + d + / 100) * u53 * z * Rabs Y).
    { apply Rmult_le_compat_l; [|exact YB]. apply Rmult_le_pos; [|assumption]. apply Rmult_le_pos; lra. }
    lra. }
  set (k := (c + d + / 100) * u53) in *.
  assert (K : 0 <= k <= / 1000000). { unfold k. split; [apply Rmult_le_pos; lra|]. assert ((c + d + / 100) * u53 <= 201 * / 1000000000) by (apply Rmult_le_compat; lra). lra. }
  assert (NZ : X / Y = 0 \/ bp (-1022) <= Rabs (X / Y) <= bp 1001).
  { destruct Hab as [Z|(L & H)].
    - left. rewrite Z, Rabs_R0, Rmult_0_r, Rminus_0_r in Ex. assert (X = 0) as -> by (pose proof (Rabs_pos X); apply Rabs_eq_R0; lra).
      unfold Rdiv. ring.
    - right. pose proof (Rabs_triang_inv q (q - X / Y)) as T1. replace (q - (q - X / Y)) with (X / Y) in T1 by ring.
      pose proof (Rabs_triang_inv (X / Y) q) as T2. rewrite (Rabs_minus_sym q) in T1.
      set (m := Rabs q) in *. assert (k * m <= / 4 * m) by (apply Rmult_le_compat_r; [pose proof (bpow_gt_0 radix2 (-1000)); lra|lra]).
      replace (bp 1001) with (2 * bp 1000) by (symmetry; apply (bp_S 1000)).
      assert (bp (-1022) <= bp (-1001)) by (apply bpow_le; lia). assert (bp (-1000) = 2 * bp (-1001)) by (apply (bp_S (-1001))). split; lra. }
  destruct (fdiv_R x y Fx Yn) as (F & E).
  { fold X Y. apply (RN_small _ 1001); [lia|]. destruct NZ as [-> | N]; [rewrite Rabs_R0; apply bpow_ge_0|apply N]. }
  split; [exact F|]. rewrite E. fold X Y. clear E F.
  assert (RE : Rabs (RN (X / Y) - X / Y) <= u53 * Rabs (X / Y)) by (apply RN_rel; tauto).
  replace (RN (X / Y) - q) with ((RN (X / Y) - X / Y) + (X / Y - q)) by ring. eapply Rle_trans; [apply Rabs_triang|].
  pose proof (Rabs_triang_inv (X / Y) q) as T2.
  set (m := Rabs q) in *. assert (0 <= m) by apply Rabs_pos.
  assert (k * m <= / 1000000 * m) by (apply Rmult_le_compat_r; lra).
  assert (u53 * Rabs (X / Y) <= u53 * (m + / 1000000 * m)) by (apply Rmult_le_compat_l; lra).
  assert (k * m = (c + d) * u53 * m + / 100 * (u53 * m)) by (unfold k; ring).
  assert (0 <= u53 * m) by (apply Rmult_le_pos; lra). lra.
Qed.
(** The square root of an approximation. *)
Lemma ap_root c x a : 0 <= c <= 1000 -> 0 <= a -> a = 0 \/ bp (-1000) <= a -> ap c x a -> ap (c + 2) (fsqrt x) (sqrt a) \/ (a = 0 /\ fis_finite (fsqrt x) = true /\ R_of (fsqrt x) = 0).
Proof.
  intros Hc Ha H A. pose proof (ap_pos c x a Hc Ha A) as (X0 & X1 & X2). pose proof u53_pos as U0. pose proof u53_tiny as U1.
  destruct H as [->|H].
  - right. split; [reflexivity|]. pose proof (ap_zero _ _ A) as Z. split.
    { destruct A as (F & _). destruct x as [g|g| |g m e H]; try discriminate; [reflexivity|].
      exfalso. unfold R_of in Z. cbn in Z. apply eq_0_F2R in Z. destruct g; discriminate. }
    rewrite (proj1 (fsqrt_R x (proj1 A) X0)), (ap_zero _ _ A), sqrt_0. apply RN_0.
  - left. destruct A as (F & E). rewrite (Rabs_pos_eq a Ha) in E.
    assert (bp (-1074) <= R_of x) as L.
    { pose proof (bpow_gt_0 radix2 (-1000)). assert (bp (-1074) <= bp (-1001)) by (apply bpow_le; lia). assert (bp (-1000) = 2 * bp (-1001)) by (apply (bp_S (-1001))). lra. }
    destruct (ap_sqrt x F L) as (F' & E'). split; [exact F'|].
    assert (Sa : 0 < sqrt a) by (apply sqrt_lt_R0; pose proof (bpow_gt_0 radix2 (-1000)); lra).
    pose proof (sqrt_pos (R_of x)) as Sx. rewrite (Rabs_pos_eq (sqrt a)) by lra. rewrite (Rabs_pos_eq _ Sx) in E'.
    assert (D : Rabs (sqrt (R_of x) - sqrt a) <= c * u53 * sqrt a).
    { apply Rmult_le_reg_r with (sqrt (R_of x) + sqrt a); [lra|].
      rewrite <- (Rabs_pos_eq (sqrt (R_of x) + sqrt a)) at 1 by lra. rewrite <- Rabs_mult.
      replace ((sqrt (R_of x) - sqrt a) * (sqrt (R_of x) + sqrt a)) with (sqrt (R_of x) * sqrt (R_of x) - sqrt a * sqrt a) by ring.
      rewrite !sqrt_sqrt by assumption. eapply Rle_trans; [exact E|]. rewrite <- (sqrt_sqrt a Ha) at 1.
      assert (0 <= c * u53 * sqrt a) by (apply Rmult_le_pos; [nra|lra]).
      assert (0 <= c * u53 * sqrt a * sqrt (R_of x)) by (apply Rmult_le_pos; assumption). lra. }
    replace (R_of (fsqrt x) - sqrt a) with ((R_of (fsqrt x) - sqrt (R_of x)) + (sqrt (R_of x) - sqrt a)) by ring.
    eapply Rle_trans; [apply Rabs_triang|].
    assert (c * u53 <= / 100000) by nra. assert (0 <= c * u53) by nra.
    assert (c * u53 * sqrt a <= / 100000 * sqrt a) by (apply Rmult_le_compat_r; lra).
    assert (sqrt (R_of x) <= 2 * sqrt a). { apply Rabs_le_inv in D. lra. }
    assert (u53 * sqrt (R_of x) <= u53 * (2 * sqrt a)) by (apply Rmult_le_compat_l; lra). lra.
Qed.
