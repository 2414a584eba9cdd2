(** Further facts on double-double arithmetic: the error of the quotient, and
    exactness on multiples of a power of two.  Proof support only. *)
From Coq Require Import ZArith Bool Reals Lia Lra Psatz.
From Flocq Require Import Core BinarySingleNaN.
From Verif Require Import Base F64 F64Facts F64Round F64Err DD_model DD_spec DD_proofs.
Open Scope Z_scope.

(** ** The quotient *)
Lemma dd_div_zero x yh yl : fis_finite (hi x) = true -> R_of (hi x) = 0%R -> fis_finite (lo x) = true -> R_of (lo x) = 0%R ->
  fis_finite yh = true -> (Rabs (R_of yh) <= bp 900)%R -> R_of yh <> 0%R -> fis_finite yl = true ->
  let z := dd_div_hi_lo x yh yl in normed z /\ dval z = 0%R.
Proof.
  intros Fx Ex Fl El Fy By Ny Fyl. cbv zeta. unfold dd_div_hi_lo. change SPLIT with SPLIT64.
  assert (forall a, fis_finite a = true -> R_of a = 0%R -> fis_finite (fdiv a yh) = true /\ R_of (fdiv a yh) = 0%R) as DZ.
  { intros a Fa Ea. destruct (fdiv_R a yh Fa Ny) as (F & E).
    - rewrite Ea. unfold Rdiv. rewrite Rmult_0_l, RN_0, Rabs_R0. apply bpow_gt_0.
    - split; [exact F|]. rewrite E, Ea. unfold Rdiv. now rewrite Rmult_0_l, RN_0. }
  assert (forall a b, fis_finite a = true -> R_of a = 0%R -> fis_finite b = true -> R_of b = 0%R ->
    fis_finite (fsub a b) = true /\ R_of (fsub a b) = 0%R) as SZ.
  { intros a b Fa Ea Fb Eb. destruct (fsub_R a b Fa Fb) as (F & E).
    - rewrite Ea, Eb, Rminus_0_r, RN_0, Rabs_R0. apply bpow_gt_0.
    - split; [exact F|]. now rewrite E, Ea, Eb, Rminus_0_r, RN_0. }
  assert (forall a b, fis_finite a = true -> R_of a = 0%R -> fis_finite b = true -> R_of b = 0%R ->
    fis_finite (fadd a b) = true /\ R_of (fadd a b) = 0%R) as AZ.
  { intros a b Fa Ea Fb Eb. destruct (add_zero_like a b Fa Fb Eb) as (F & E). split; [exact F|congruence]. }
  destruct (DZ (hi x) Fx Ex) as (Fcc & Ecc). set (cc := fdiv (hi x) yh) in *.
  assert (bf 0 cc) as Bcc by (split; [exact Fcc|rewrite Ecc, Rabs_R0; apply bpow_ge_0]).
  assert (bf 900 yh) as Byh by (split; assumption).
  destruct (dekker_f64 0 900 cc yh ltac:(lia) ltac:(lia) ltac:(lia) Bcc Byh) as (Bp & Ep & Bt & Et). cbv zeta in *.
  set (uu := fmul cc yh) in *. set (u := fadd _ (fmul (fsub cc _) (fsub yh _))) in *.
  rewrite Ecc, Rmult_0_l, RN_0 in Ep.
  assert (R_of u = 0%R) as Eu.
  { pose proof (proj1 (RN_dekker (R_of cc) (R_of yh) (format_R _) (format_R _))) as D.
    rewrite <- Et, Ecc, Rmult_0_l, RN_0 in D. specialize (D (or_introl eq_refl)). lra. }
  destruct (SZ (hi x) uu Fx Ex (bf_fin _ _ Bp) Ep) as (F1 & E1).
  destruct (SZ _ u F1 E1 (bf_fin _ _ Bt) Eu) as (F2 & E2).
  destruct (AZ _ (lo x) F2 E2 Fl El) as (F3 & E3).
  destruct (mul_zero_like_l yl cc Fyl Fcc Ecc) as (F4 & E4).
  destruct (SZ _ _ F3 E3 F4 E4) as (F5 & E5).
  destruct (DZ _ F5 E5) as (F6 & E6). set (c := fdiv (fsub _ _) yh) in *.
  destruct (AZ cc c Fcc Ecc F6 E6) as (F7 & E7).
  destruct (SZ cc _ Fcc Ecc F7 E7) as (F8 & E8).
  destruct (AZ _ c F8 E8 F6 E6) as (F9 & E9).
  unfold normed, dfin, dval. cbn [hi lo]. rewrite E7, E9, Rplus_0_r, RN_0. auto.
Qed.

Lemma dd_div_spec x yh yl :
  fis_finite (hi x) = true -> (bp (-300) <= Rabs (R_of (hi x)) <= bp 300)%R ->
  fis_finite yh = true -> (bp (-300) <= Rabs (R_of yh) <= bp 300)%R ->
  fis_finite (lo x) = true -> (Rabs (R_of (lo x)) <= u53 * Rabs (R_of (hi x)))%R ->
  fis_finite yl = true -> (Rabs (R_of yl) <= u53 * Rabs (R_of yh))%R ->
  let z := dd_div_hi_lo x yh yl in
  normed z /\ (Rabs (dval z * (R_of yh + R_of yl) - dval x) <= 20 * (u53 * u53) * Rabs (R_of (hi x)))%R.
Proof.
  intros Fx (LX & UX) Fy (LY & UY) Fl Nx Fyl Ny. cbv zeta. unfold dd_div_hi_lo. change SPLIT with SPLIT64.
  set (X := R_of (hi x)) in *. set (x' := R_of (lo x)) in *. set (Y := R_of yh) in *. set (y' := R_of yl) in *.
  pose proof u53_pos as U0. pose proof u53_small as U1.
  assert (0 < bp (-300))%R as P300 by apply bpow_gt_0.
  assert (Y <> 0)%R as NY by (intros Z; rewrite Z, Rabs_R0 in LY; lra).
  set (y := Rabs Y) in *. assert (0 < y)%R as Py by lra.
  set (m := Rabs (X / Y)).
  assert (m * y = Rabs X)%R as My.
  { unfold m, y. rewrite <- Rabs_mult. f_equal. field. exact NY. }
  assert (bp (-600) <= m <= bp 600)%R as (Lm & Um).
  { assert (bp 600 * bp (-300) = bp 300)%R as G1 by (rewrite <- bpow_plus; reflexivity).
    assert (bp (-600) * bp 300 = bp (-300))%R as G2 by (rewrite <- bpow_plus; reflexivity).
    assert (0 < bp 600)%R by apply bpow_gt_0. assert (0 < bp (-600))%R by apply bpow_gt_0.
    split; apply Rmult_le_reg_r with y; try lra; rewrite My.
    - apply Rle_trans with (bp (-600) * bp 300)%R; [apply Rmult_le_compat_l; lra|lra].
    - apply Rle_trans with (bp 600 * bp (-300))%R; [lra|apply Rmult_le_compat_l; lra]. }
  assert (0 < m)%R as Pm by (eapply Rlt_le_trans; [apply bpow_gt_0|exact Lm]).
  assert (exists w1 w2 w3, w1 = u53 * m /\ w2 = u53 * w1 /\ w3 = u53 * w2 /\ 0 < w3 /\ w3 <= w2 / 1024 /\ w2 <= w1 / 1024 /\ w1 <= m / 1024)%R
    as (w1 & w2 & w3 & W1 & W2 & W3 & P3 & P2 & P1 & P0).
  { exists (u53 * m)%R, (u53 * (u53 * m))%R, (u53 * (u53 * (u53 * m)))%R.
    assert (0 < u53 * m)%R by (apply Rmult_lt_0_compat; lra). assert (0 < u53 * (u53 * m))%R by (apply Rmult_lt_0_compat; lra).
    repeat split; try (apply Rmult_lt_0_compat; lra); nra. }
  assert (bp (-1075) <= w3)%R as Eta.
  { rewrite W3, W2, W1. apply Rle_trans with (u53 * (u53 * (u53 * bp (-600))))%R.
    - rewrite <- !bpow_plus. apply bpow_le. lia.
    - repeat apply Rmult_le_compat_l; lra. }
  (* the same quantities scaled by y *)
  assert (exists V0 V1 V2 V3, V0 = m * y /\ V1 = w1 * y /\ V2 = w2 * y /\ V3 = w3 * y /\
    V1 = u53 * V0 /\ V2 = u53 * V1 /\ V3 = u53 * V2 /\ 0 < V3 /\ V3 <= V2 / 1024 /\ V2 <= V1 / 1024 /\ V1 <= V0 / 1024 /\ bp (-1075) <= V3)%R
    as (V0 & V1 & V2 & V3 & D0 & D1 & D2 & D3 & E1 & E2 & E3 & Q3 & Q2 & Q1 & Q0 & EtaV).
  { exists (m * y)%R, (w1 * y)%R, (w2 * y)%R, (w3 * y)%R. repeat split; try (rewrite ?W3, ?W2, ?W1; ring).
    - apply Rmult_lt_0_compat; lra. - nra. - nra. - nra.
    - rewrite W3, W2, W1. replace (u53 * (u53 * (u53 * m)) * y)%R with (u53 * (u53 * (u53 * (m * y))))%R by ring. rewrite My.
      apply Rle_trans with (u53 * (u53 * (u53 * bp (-300))))%R.
      + rewrite <- !bpow_plus. apply bpow_le. lia.
      + repeat apply Rmult_le_compat_l; lra. }
  assert (u53 * V3 <= V3 / 1024 /\ u53 * w3 <= w3 / 1024)%R as (Q4 & P4) by (split; nra).
  assert (Rabs X = V0)%R as AX by lra. rewrite AX in Nx, UX. clear My.
  (* first quotient *)
  destruct (fdiv_R (hi x) yh Fx NY) as (Fcc & Ecc).
  { fold X Y. eapply Rle_lt_trans; [apply (RN_abs_le 600); [lia|exact Um]|]. apply bpow_lt. lia. }
  fold X Y in Ecc. set (cc := fdiv (hi x) yh) in *.
  assert (bf 600 cc) as Bcc. { split; [exact Fcc|]. rewrite Ecc. apply RN_abs_le; [lia|exact Um]. }
  assert (bf 300 yh) as Byh by (split; assumption).
  set (C := R_of cc) in *.
  assert (Rabs (C - X / Y) <= w1 + w3)%R as A0.
  { rewrite Ecc. eapply Rle_trans; [apply RN_err|]. fold m. lra. }
  assert (Rabs C <= m + w1 + w3)%R as SC.
  { replace C with (X / Y + (C - X / Y))%R by ring. eapply Rle_trans; [apply Rabs_triang|]. fold m. lra. }
  assert (m - (w1 + w3) <= Rabs C)%R as LC.
  { replace C with (X / Y - (X / Y - C))%R by ring. eapply Rle_trans; [|apply Rabs_triang_inv].
    rewrite (Rabs_minus_sym (X / Y) C). fold m. lra. }
  assert (Rabs (X - C * Y) <= V1 + V3)%R as A1.
  { replace (X - C * Y)%R with (- ((C - X / Y) * Y))%R by (field; exact NY). rewrite Rabs_Ropp, Rabs_mult. fold y.
    rewrite D1, D3. rewrite <- Rmult_plus_distr_r. apply Rmult_le_compat_r; lra. }
  assert (Rabs (C * Y) <= V0 + V1 + V3)%R as SCY.
  { rewrite Rabs_mult. fold y. rewrite D0, D1, D3. rewrite <- !Rmult_plus_distr_r. apply Rmult_le_compat_r; lra. }
  assert (V0 / 2 <= Rabs (C * Y))%R as LCY.
  { rewrite Rabs_mult. fold y. rewrite D0. nra. }
  (* its product with the divisor *)
  destruct (dekker_f64 600 300 cc yh ltac:(lia) ltac:(lia) ltac:(lia) Bcc Byh) as (Bp & Ep & Bt & Et). cbv zeta in *.
  set (uu := fmul cc yh) in *. set (u := fadd _ (fmul (fsub cc _) (fsub yh _))) in *.
  fold C Y in Ep, Et.
  assert (C * Y = R_of uu + R_of u)%R as DK.
  { rewrite Ep, Et. apply (proj1 (RN_dekker C Y (format_R _) (format_R _))). right.
    apply Rle_trans with (V0 / 2)%R; [|exact LCY]. rewrite <- AX.
    apply Rle_trans with (bp (-301)); [apply bpow_le; lia|]. assert (bp (-300) = 2 * bp (-301))%R by (apply (bp_S (-301))). lra. }
  assert (Rabs (R_of u) <= V1 + 2 * V2)%R as Su.
  { replace (R_of u) with (- (RN (C * Y) - C * Y))%R by lra. rewrite Rabs_Ropp. eapply Rle_trans; [apply RN_err|].
    mult_u SCY. lra. }
  (* the remainder *)
  assert (bf 900 (hi x)) as BX. { split; [exact Fx|]. fold X. rewrite AX. eapply Rle_trans; [exact UX|]. apply bpow_le. lia. }
  destruct (bf_sub 900 (hi x) uu ltac:(lia) BX Bp) as (B1 & R1). fold X in R1. set (d1 := fsub (hi x) uu) in *.
  assert (Rabs (X - R_of uu) <= 2 * V1 + 3 * V2)%R as S1.
  { apply Rabs_le. apply Rabs_le_inv in A1, Su. lra. }
  assert (Rabs (R_of d1 - (X - R_of uu)) <= 2 * V2 + 3 * V3)%R as G1.
  { rewrite R1. eapply Rle_trans; [apply RN_sub_err; apply format_R|]. mult_u S1. lra. }
  destruct (bf_sub 905 d1 u ltac:(lia) (bf_weak (900+1) 905 _ ltac:(lia) B1) Bt) as (B2 & R2). set (d2 := fsub d1 u) in *.
  assert (Rabs (R_of d1 - R_of u) <= V1 + 3 * V2)%R as S2.
  { apply Rabs_le. apply Rabs_le_inv in A1, G1. lra. }
  assert (Rabs (R_of d2 - (R_of d1 - R_of u)) <= V2 + 3 * V3)%R as G2.
  { rewrite R2. eapply Rle_trans; [apply RN_sub_err; apply format_R|]. mult_u S2. lra. }
  assert (Rabs x' <= V1)%R as Sx by lra.
  assert (bf 906 (lo x)) as Bx'.
  { split; [exact Fl|]. fold x'. apply Rle_trans with (bp 300); [lra|apply bpow_le; lia]. }
  destruct (bf_add 906 d2 (lo x) ltac:(lia) B2 Bx') as (B3 & R3). fold x' in R3. set (d3 := fadd d2 (lo x)) in *.
  assert (Rabs (R_of d2 + x') <= 2 * V1 + 5 * V2)%R as S3.
  { apply Rabs_le. apply Rabs_le_inv in S2, G2, Sx. lra. }
  assert (Rabs (R_of d3 - (R_of d2 + x')) <= 2 * V2 + 5 * V3)%R as G3.
  { rewrite R3. eapply Rle_trans; [apply RN_sum_err; apply format_R|]. mult_u S3. lra. }
  assert (Rabs y' <= u53 * y)%R as Sy by exact Ny.
  assert (Rabs (C * y') <= V1 + V2 + V3)%R as SCy.
  { rewrite Rabs_mult. apply Rle_trans with ((m + w1 + w3) * (u53 * y))%R.
    - apply Rmult_le_compat; auto using Rabs_pos.
    - replace ((m + w1 + w3) * (u53 * y))%R with (u53 * (m * y) + u53 * (w1 * y) + u53 * (w3 * y))%R by ring.
      rewrite <- D0, <- D1, <- D3. nra. }
  assert (bf 300 yl) as Byl.
  { split; [exact Fyl|]. fold y'. apply Rle_trans with (u53 * y)%R; [exact Sy|]. apply Rle_trans with y; [rewrite <- (Rmult_1_l y) at 2; apply Rmult_le_compat_r; [lra|pose proof u53_small; lra]|exact UY]. }
  destruct (bf_mul 600 300 cc yl ltac:(lia) Bcc Byl) as (B4 & R4). fold C y' in R4. set (p := fmul cc yl) in *.
  assert (Rabs (R_of p - C * y') <= V2 + 3 * V3)%R as G4.
  { rewrite R4. eapply Rle_trans; [apply RN_err|]. mult_u SCy. nra. }
  destruct (bf_sub 907 d3 p ltac:(lia) B3 (bf_weak (600+300) 907 _ ltac:(lia) B4)) as (B5 & R5). set (d4 := fsub d3 p) in *.
  assert (Rabs (R_of d3 - R_of p) <= 3 * V1 + 11 * V2)%R as S5.
  { apply Rabs_le. apply Rabs_le_inv in S3, G3, SCy, G4. lra. }
  assert (Rabs (R_of d4 - (R_of d3 - R_of p)) <= 3 * V2 + 11 * V3)%R as G5.
  { rewrite R5. eapply Rle_trans; [apply RN_sub_err; apply format_R|]. mult_u S5. lra. }
  assert (Rabs (R_of d4 - (X + x' - C * (Y + y'))) <= 10 * V2)%R as Rem.
  { apply Rabs_le. apply Rabs_le_inv in G1, G2, G3, G4, G5. lra. }
  assert (Rabs (R_of d4) <= 3 * V1 + 15 * V2)%R as S6.
  { apply Rabs_le. apply Rabs_le_inv in S5, G5. lra. }
  assert (Rabs (R_of d4 / Y) <= 3 * w1 + 15 * w2)%R as S7.
  { unfold Rdiv. rewrite Rabs_mult, Rabs_inv. fold y. apply Rmult_le_reg_r with y; [lra|].
    rewrite Rmult_assoc, Rinv_l, Rmult_1_r by lra. rewrite D1, D2 in S6. lra. }
  assert (Rabs (R_of d4 / Y) <= bp 600)%R as S8 by lra.
  destruct (fdiv_R d4 yh (bf_fin _ _ B5) NY) as (Fc & Ec).
  { fold Y. eapply Rle_lt_trans; [apply (RN_abs_le 600); [lia|exact S8]|]. apply bpow_lt. lia. }
  fold Y in Ec. set (c := fdiv d4 yh) in *.
  assert (Rabs (R_of c - R_of d4 / Y) <= 3 * w2 + 16 * w3)%R as G6.
  { rewrite Ec. eapply Rle_trans; [apply RN_err|]. mult_u S7. lra. }
  assert (Rabs (R_of c) <= 4 * w1)%R as Sc. { apply Rabs_le. apply Rabs_le_inv in S7, G6. lra. }
  assert (bf 600 c) as Bc. { split; [exact Fc|]. rewrite Ec. apply RN_abs_le; [lia|exact S8]. }
  destruct (fast_two_sum_bf 600 cc c ltac:(lia) Bcc Bc) as (Bz & Ez & Bw & Ew). { fold C. lra. }
  cbv zeta in *. rewrite (fadd_comm (fsub cc (fadd cc c)) c).
  unfold normed, dfin, dval. cbn [hi lo]. fold C in Ez, Ew. fold X x'.
  assert (R_of (fadd cc c) + R_of (fadd c (fsub cc (fadd cc c))) = C + R_of c)%R as VZ by (rewrite Ew, Ez; ring).
  split.
  - split; [split; [apply Bz|apply Bw]|]. rewrite VZ. exact Ez.
  - rewrite VZ, AX.
    replace (20 * (u53 * u53) * V0)%R with (20 * V2)%R by (rewrite E2, E1; ring).
    replace ((C + R_of c) * (Y + y') - (X + x'))%R
      with ((R_of d4 - (X + x' - C * (Y + y'))) + (R_of c - R_of d4 / Y) * Y + R_of c * y')%R by (field; exact NY).
    assert (Rabs ((R_of c - R_of d4 / Y) * Y) <= 4 * V2)%R as H1.
    { rewrite Rabs_mult. fold y. rewrite D2. apply Rle_trans with ((4 * w2) * y)%R; [apply Rmult_le_compat_r; lra|lra]. }
    assert (Rabs (R_of c * y') <= 4 * V2)%R as H2.
    { rewrite Rabs_mult. apply Rle_trans with (4 * w1 * (u53 * y))%R; [apply Rmult_le_compat; auto using Rabs_pos|].
      rewrite D2, W2. right. ring. }
    apply Rabs_le. apply Rabs_le_inv in Rem, H1, H2. lra.
Qed.

(** ** Exactness on multiples of a power of two *)
Definition mult (e : Z) (r : R) : Prop := exists n, r = (IZR n * bp e)%R.
Lemma mult_0 e : mult e 0.
Proof. exists 0. ring. Qed.
Lemma mult_add e a b : mult e a -> mult e b -> mult e (a + b).
Proof. intros (n & ->) (m & ->). exists (n + m). rewrite plus_IZR. ring. Qed.
Lemma mult_opp e a : mult e a -> mult e (- a).
Proof. intros (n & ->). exists (- n). rewrite opp_IZR. ring. Qed.
Lemma mult_sub e a b : mult e a -> mult e b -> mult e (a - b).
Proof. intros A B. apply mult_add; [exact A|now apply mult_opp]. Qed.
Lemma mult_scale e f n : e <= f -> mult e (IZR n * bp f).
Proof.
  intros L. exists (n * 2 ^ (f - e)). rewrite mult_IZR.
  replace (IZR (2 ^ (f - e))) with (bp (f - e)) by (rewrite (IZR_Zpower radix2) by lia; reflexivity).
  rewrite Rmult_assoc, <- bpow_plus. do 2 f_equal. lia.
Qed.
Lemma mult_RN e r : -1074 <= e -> mult e r -> mult e (RN r).
Proof.
  intros E (n & ->). destruct (Z_le_gt_dec e (cexp radix2 fexp64 (IZR n * bp e))) as [L|G].
  - unfold round, F2R. cbn [Fnum Fexp]. now apply mult_scale.
  - rewrite RN_id; [now exists n|]. apply generic_format_F2R' with (f := Float radix2 n e); [reflexivity|]. intros _. cbn [Fexp]. lia.
Qed.
Lemma mult_small e r : mult e r -> (Rabs r < bp e)%R -> r = 0%R.
Proof.
  intros (n & ->) H. rewrite Rabs_mult, (Rabs_pos_eq (bp e)) in H by apply bpow_ge_0.
  rewrite <- (Rmult_1_l (bp e)) in H at 2. apply Rmult_lt_reg_r in H; [|apply bpow_gt_0].
  rewrite <- abs_IZR in H. apply lt_IZR in H. replace n with 0 by lia. ring.
Qed.
Definition bm (k e : Z) (x : f64) : Prop := bf k x /\ mult e (R_of x).
Lemma bm_weak k l e x : bm k e x -> k <= l -> bm l e x.
Proof. intros (B & M) L. split; [now apply bf_weak with k|exact M]. Qed.
Lemma bm_add k e x y : -1074 <= k + 1 < 1024 -> -1074 <= e -> bm k e x -> bm k e y -> bm (k + 1) e (fadd x y).
Proof.
  intros K E (Bx & Mx) (By & My). destruct (bf_add k x y K Bx By) as (B & R). split; [exact B|].
  rewrite R. apply mult_RN; [exact E|now apply mult_add].
Qed.
Lemma bm_sub k e x y : -1074 <= k + 1 < 1024 -> -1074 <= e -> bm k e x -> bm k e y -> bm (k + 1) e (fsub x y).
Proof.
  intros K E (Bx & Mx) (By & My). destruct (bf_sub k x y K Bx By) as (B & R). split; [exact B|].
  rewrite R. apply mult_RN; [exact E|now apply mult_sub].
Qed.
(** [x] is the normalised double-double n*2^e with |n| <= 2^k. *)
Definition dg (k e : Z) (x : DD) (n : Z) : Prop :=
  normed x /\ dval x = (IZR n * bp e)%R /\ Z.abs n <= 2 ^ k.
Lemma izr_pow_le k n : 0 <= k -> Z.abs n <= 2 ^ k -> (Rabs (IZR n) <= bp k)%R.
Proof.
  intros K H. rewrite <- abs_IZR. replace (bp k) with (IZR (2 ^ k)) by (rewrite (IZR_Zpower radix2) by lia; reflexivity).
  now apply IZR_le.
Qed.
Lemma grid_abs k e n : 0 <= k -> Z.abs n <= 2 ^ k -> (Rabs (IZR n * bp e) <= bp (k + e))%R.
Proof.
  intros K H. rewrite Rabs_mult, (Rabs_pos_eq (bp e)) by apply bpow_ge_0. rewrite bpow_plus.
  apply Rmult_le_compat_r; [apply bpow_ge_0|]. now apply izr_pow_le.
Qed.
Lemma dg_parts k e x n : 0 <= k -> -1074 <= e -> -1074 <= k + e -> dg k e x n ->
  bm (k + e) e (hi x) /\ bm (k + e) e (lo x).
Proof.
  intros K E KE (N & V & H). pose proof N as ((Fh & Fl) & Eh).
  assert (bf (k + e) (hi x)) as Bh.
  { split; [exact Fh|]. rewrite Eh, V. apply RN_abs_le; [lia|now apply grid_abs]. }
  assert (mult e (R_of (hi x))) as Mh by (rewrite Eh, V; apply mult_RN; [exact E|now exists n]).
  split; split; try assumption; [now apply bf_lo|].
  replace (R_of (lo x)) with (dval x - R_of (hi x))%R by (unfold dval; ring). rewrite V. apply mult_sub; [now exists n|exact Mh].
Qed.
Lemma dg_add k e x a yh yl b : 0 <= k <= 99 -> -900 <= e <= 800 -> dg k e x a ->
  fis_finite yh = true -> fis_finite yl = true -> (R_of yh + R_of yl = IZR b * bp e)%R -> R_of yh = RN (IZR b * bp e) -> Z.abs b <= 2 ^ k ->
  dg (k + 1) e (dd_add_hi_lo x yh yl) (a + b).
Proof.
  intros K E Dx Fh Fl V Eh H.
  assert (dg k e (mkDD yh yl) b) as Dy.
  { split; [split; [split; assumption|]|split; [exact V|exact H]]. unfold dval. cbn [hi lo]. now rewrite V. }
  destruct (dg_parts k e x a ltac:(lia) ltac:(lia) ltac:(lia) Dx) as (Bxh & Bxl).
  destruct (dg_parts k e _ b ltac:(lia) ltac:(lia) ltac:(lia) Dy) as (Byh & Byl). cbn [hi lo] in Byh, Byl.
  destruct Dx as (Nx & Vx & Hx). destruct Dy as (Ny & _).
  pose proof (normed_lo _ Nx) as Lx. pose proof (normed_lo _ Ny) as Ly. cbn [hi lo] in Ly.
  pose proof (dd_add_full (k + e) x yh yl ltac:(lia) (proj1 Bxh) (proj1 Byh) (proj1 Bxl) (proj1 Byl) Lx Ly) as F.
  cbv zeta in F. destruct F as (Bz & Bl & Ez & _ & Ds & Dz).
  rewrite Vx, V in Ds, Dz.
  replace (IZR a * bp e + IZR b * bp e)%R with (IZR (a + b) * bp e)%R in * by (rewrite plus_IZR; ring).
  set (M := (Rabs (R_of (hi x)) + Rabs (R_of yh))%R) in *.
  assert (16 * (u53 * u53) * M < bp e)%R as Small.
  { assert (M <= bp (k + e + 1))%R as HM.
    { rewrite bp_S. destruct Bxh as ((_ & Q1) & _), Byh as ((_ & Q2) & _). unfold M. lra. }
    apply Rle_lt_trans with (bp 4 * (u53 * u53) * bp (k + e + 1))%R.
    - change (bp 4) with 16%R. apply Rmult_le_compat_l; [|exact HM]. pose proof u53_pos. nra.
    - rewrite <- !bpow_plus. apply bpow_lt. lia. }
  assert (0 <= u53 * u53 * M)%R as P0.
  { pose proof u53_pos. apply Rmult_le_pos; [nra|]. unfold M. pose proof (Rabs_pos (R_of (hi x))). pose proof (Rabs_pos (R_of yh)). lra. }
  assert (bm (k + e + 8) e (fst (add_parts x yh yl)) /\ bm (k + e + 8) e (snd (add_parts x yh yl)) /\
    mult e (dval (dd_add_hi_lo x yh yl))) as (M1 & M2 & M3).
  { unfold add_parts, dval, dd_add_hi_lo. cbn [fst snd hi lo].
    assert (forall j f g, j <= k + e + 20 -> -1000 <= j -> bm j e f -> bm j e g -> bm (j + 1) e (fadd f g)) as AA
      by (intros; apply bm_add; auto; lia).
    assert (forall j f g, j <= k + e + 20 -> -1000 <= j -> bm j e f -> bm j e g -> bm (j + 1) e (fsub f g)) as SS
      by (intros; apply bm_sub; auto; lia).
    pose proof (AA (k + e) (hi x) yh ltac:(lia) ltac:(lia) Bxh Byh) as Bss. set (ss := fadd (hi x) yh) in *.
    pose proof (AA (k + e) (lo x) yl ltac:(lia) ltac:(lia) Bxl Byl) as Btt. set (tt := fadd (lo x) yl) in *.
    destruct (two_sum_bf (k + e) (hi x) yh ltac:(lia) (proj1 Bxh) (proj1 Byh)) as (_ & Ess & Bs & Es). cbv zeta in *.
    destruct (two_sum_bf (k + e) (lo x) yl ltac:(lia) (proj1 Bxl) (proj1 Byl)) as (_ & Ett & Bt & Et). cbv zeta in *.
    fold ss in Bs, Es. fold tt in Bt, Et.
    set (s := fadd (fsub yh (fsub ss (hi x))) (fsub (hi x) (fsub ss (fsub ss (hi x))))) in *.
    set (t := fadd (fsub yl (fsub tt (lo x))) (fsub (lo x) (fsub tt (fsub tt (lo x))))) in *.
    assert (bm (k + e) e s) as Ms.
    { split; [exact Bs|]. rewrite Es. apply mult_sub; [apply mult_add; [apply Bxh|apply Byh]|]. apply mult_RN; [lia|].
      apply mult_add; [apply Bxh|apply Byh]. }
    assert (bm (k + e) e t) as Mt.
    { split; [exact Bt|]. rewrite Et. apply mult_sub; [apply mult_add; [apply Bxl|apply Byl]|]. apply mult_RN; [lia|].
      apply mult_add; [apply Bxl|apply Byl]. }
    pose proof (AA (k + e + 1) s tt ltac:(lia) ltac:(lia) ltac:(eapply bm_weak; [exact Ms|lia]) Btt) as Be. set (e1 := fadd s tt) in *.
    pose proof (AA (k + e + 1 + 1) ss e1 ltac:(lia) ltac:(lia) ltac:(eapply bm_weak; [exact Bss|lia]) Be) as Bhh. set (hh := fadd ss e1) in *.
    pose proof (SS (k + e + 1 + 1 + 1) ss hh ltac:(lia) ltac:(lia) ltac:(eapply bm_weak; [exact Bss|lia]) Bhh) as Bg.
    pose proof (AA (k + e + 1 + 1 + 1 + 1) e1 _ ltac:(lia) ltac:(lia) ltac:(eapply bm_weak; [exact Be|lia]) Bg) as Bh. set (h := fadd e1 (fsub ss hh)) in *.
    pose proof (AA (k + e + 1 + 1 + 1 + 1 + 1) t h ltac:(lia) ltac:(lia) ltac:(eapply bm_weak; [exact Mt|lia]) Bh) as Be2. set (e2 := fadd t h) in *.
    pose proof (AA (k + e + 1 + 1 + 1 + 1 + 1 + 1) hh e2 ltac:(lia) ltac:(lia) ltac:(eapply bm_weak; [exact Bhh|lia]) Be2) as Bzh. set (zh := fadd hh e2) in *.
    pose proof (SS (k + e + 1 + 1 + 1 + 1 + 1 + 1 + 1) hh zh ltac:(lia) ltac:(lia) ltac:(eapply bm_weak; [exact Bhh|lia]) Bzh) as Bg2.
    pose proof (AA (k + e + 1 + 1 + 1 + 1 + 1 + 1 + 1 + 1) e2 _ ltac:(lia) ltac:(lia) ltac:(eapply bm_weak; [exact Be2|lia]) Bg2) as Bzl.
    split; [apply (bm_weak _ _ _ _ Bhh); lia|]. split; [apply (bm_weak _ _ _ _ Be2); lia|].
    apply mult_add; [apply Bzh|apply Bzl]. }
  set (s := (R_of (fst (add_parts x yh yl)) + R_of (snd (add_parts x yh yl)))%R) in *.
  assert (s = IZR (a + b) * bp e)%R as Es.
  { apply Rminus_diag_uniq. apply (mult_small e).
    - apply mult_sub; [apply mult_add; [apply M1|apply M2]|now exists (a + b)].
    - lra. }
  assert (dval (dd_add_hi_lo x yh yl) = IZR (a + b) * bp e)%R as Ed.
  { apply Rminus_diag_uniq. apply (mult_small e); [apply mult_sub; [exact M3|now exists (a + b)]|lra]. }
  split; [|split; [exact Ed|]].
  - split; [split; [apply Bz|apply Bl]|]. rewrite Ed, Ez, Es. reflexivity.
  - rewrite Z.pow_add_r, Z.pow_1_r by lia. lia.
Qed.
Lemma dg_sub k e x a y b : 0 <= k <= 99 -> -900 <= e <= 800 -> dg k e x a -> dg k e y b ->
  dg (k + 1) e (dd_self_sub x y) (a - b).
Proof.
  intros K E Dx ((Fy & Ey) & Vy & Hy). unfold dd_self_sub. rewrite (dfin_nan _ (normed_fin _ (proj1 Dx))).
  replace (a - b) with (a + - b) by lia. apply dg_add; auto; rewrite ?opp_IZR.
  - rewrite fneg_fin. apply Fy.
  - rewrite fneg_fin. apply Fy.
  - rewrite !fneg_R. unfold dval in Vy. lra.
  - rewrite fneg_R, Ey, Vy, <- RN_opp. f_equal. ring.
  - lia.
Qed.
Lemma dg_of k e x n : 0 <= k <= 53 -> -900 <= e <= 800 -> Z.abs n <= 2 ^ k -> grid e x n -> dg k e (dd_of x) n.
Proof.
  intros K E H (F & V). split; [|split; [|exact H]].
  - now apply normed_of.
  - now rewrite dval_of.
Qed.
Lemma dg_self_sub_f64 k e x a y b : 0 <= k <= 53 -> -900 <= e <= 800 -> dg k e x a -> Z.abs b <= 2 ^ k -> grid e y b ->
  dg (k + 1) e (dd_self_sub_f64 x y) (a - b).
Proof.
  intros K E Dx Hb (Fy & Vy). unfold dd_self_sub_f64. rewrite (dfin_nan _ (normed_fin _ (proj1 Dx))).
  replace (a - b) with (a + - b) by lia. apply dg_add; auto; try lia; rewrite ?opp_IZR.
  - now rewrite fneg_fin.
  - rewrite fneg_R, R_f0, Vy. ring.
  - rewrite fneg_R, Vy. rewrite <- opp_IZR, grid_RN; [rewrite opp_IZR; ring|lia|].
    rewrite Z.abs_opp. apply Z.le_trans with (2 ^ k); [exact Hb|]. apply Z.pow_le_mono_r; lia.
Qed.
Lemma dg_single k e x n : 0 <= k <= 53 -> -900 <= e <= 800 -> dg k e x n ->
  R_of (hi x) = (IZR n * bp e)%R /\ R_of (lo x) = 0%R.
Proof.
  intros K E (((Fh & Fl) & Eh) & V & H).
  rewrite V, grid_RN in Eh; [|lia|apply Z.le_trans with (2 ^ k); [exact H|apply Z.pow_le_mono_r; lia]].
  split; [exact Eh|]. unfold dval in V. lra.
Qed.
Lemma dg_mul_hi_lo k l e f x a y b : 0 <= k <= 53 -> 0 <= l <= 53 -> -400 <= e <= 400 -> -400 <= f <= 400 ->
  dg k e x a -> dg l f y b ->
  dg (k + l) (e + f) (dd_mul_hi_lo x (hi y) (lo y)) (a * b).
Proof.
  intros K L E F Dx Dy.
  destruct (dg_single k e x a K ltac:(lia) Dx) as (Ex & Lx). destruct (dg_single l f y b L ltac:(lia) Dy) as (Ey & Ly).
  destruct (dg_parts k e x a ltac:(lia) ltac:(lia) ltac:(lia) Dx) as (Bx & _).
  destruct (dg_parts l f y b ltac:(lia) ltac:(lia) ltac:(lia) Dy) as (By & _).
  destruct Dx as (((_ & Fx) & _) & _ & Hx), Dy as (((_ & Fy) & _) & _ & Hy).
  assert (R_of (hi x) * R_of (hi y) = IZR (a * b) * bp (e + f))%R as EP by (rewrite Ex, Ey, mult_IZR, bpow_plus; ring).
  pose proof (dd_mul_exact (k + e) (l + f) x (hi y) (lo y) ltac:(lia) ltac:(lia) ltac:(lia) (proj1 Bx) (proj1 By) Fx Lx Fy Ly) as H.
  cbv zeta in H. rewrite EP in H. destruct H as (Fz & H & V).
  { destruct (Z.eq_dec (a * b) 0) as [->|N]; [left; ring|right].
    rewrite Rabs_mult, (Rabs_pos_eq (bp (e + f))) by apply bpow_ge_0. rewrite <- abs_IZR.
    apply Rle_trans with (1 * bp (e + f))%R.
    - rewrite Rmult_1_l. apply bpow_le. lia.
    - apply Rmult_le_compat_r; [apply bpow_ge_0|]. apply IZR_le. lia. }
  split; [split; [exact Fz|now rewrite V]|]. split; [exact V|].
  rewrite Z.abs_mul, Z.pow_add_r by lia. apply Z.mul_le_mono_nonneg; lia.
Qed.
Lemma dg_mul k l e f x a y b : 0 <= k <= 53 -> 0 <= l <= 53 -> -400 <= e <= 400 -> -400 <= f <= 400 ->
  dg k e x a -> dg l f y b -> dg (k + l) (e + f) (dd_mul x y) (a * b).
Proof.
  intros K L E F Dx Dy. unfold dd_mul, dd_self_mul. rewrite (dfin_nan _ (normed_fin _ (proj1 Dy))). now apply dg_mul_hi_lo.
Qed.
Lemma dg_mul_f64 k l e f x a y b : 0 <= k <= 53 -> 0 <= l <= 53 -> -400 <= e <= 400 -> -400 <= f <= 400 ->
  dg k e x a -> Z.abs b <= 2 ^ l -> grid f y b -> dg (k + l) (e + f) (dd_self_mul_f64 x y) (a * b).
Proof.
  intros K L E F Dx Hb Gy.
  exact (dg_mul_hi_lo k l e f x a (dd_of y) b K L E F Dx (dg_of l f y b L ltac:(lia) Hb Gy)).
Qed.
Lemma dg_weak k l e x n : dg k e x n -> 0 <= k <= l -> dg l e x n.
Proof. intros (N & V & H) L. split; [exact N|]. split; [exact V|]. apply Z.le_trans with (2 ^ k); [exact H|apply Z.pow_le_mono_r; lia]. Qed.
(** The quotient of two such numbers, rounded to a double. *)
Lemma dd_double_normed x : normed x -> fis_finite (dd_double x) = true /\ R_of (dd_double x) = R_of (hi x).
Proof.
  intros ((Fh & Fl) & Eh). unfold dd_double. destruct (fadd_R (hi x) (lo x) Fh Fl) as (F & E).
  - fold (dval x). rewrite <- Eh. apply abs_B2R_lt_emax.
  - split; [exact F|]. rewrite E. fold (dval x). now symmetry.
Qed.
Lemma dg_div_normed k l e f x a y b : 0 <= k <= 100 -> 0 <= l <= 53 -> -300 <= e -> k + e <= 298 -> -300 <= f -> l + f <= 300 ->
  dg k e x a -> dg l f y b -> b <> 0 ->
  let q := (IZR a * bp e / (IZR b * bp f))%R in
  normed (dd_div x y) /\ (Rabs (dval (dd_div x y) - q) <= bp (-100) * Rabs q)%R.
Proof.
  intros K L E1 E2 F1 F2 Dx Dy Nb. cbv zeta. rewrite dd_div_unroll.
  destruct (dg_single l f y b L ltac:(lia) Dy) as (Ey & Ly).
  destruct (dg_parts k e x a ltac:(lia) ltac:(lia) ltac:(lia) Dx) as (Bx & _).
  destruct (dg_parts l f y b ltac:(lia) ltac:(lia) ltac:(lia) Dy) as (By & _).
  destruct Dy as (((Fyh & Fyl) & _) & _ & Hy). pose proof Dx as (Nx & Vx & Hx). pose proof Nx as ((Fxh & Fxl) & Exh).
  assert (R_of (hi y) <> 0)%R as NY.
  { rewrite Ey. apply Rmult_integral_contrapositive_currified; [now apply not_0_IZR|]. apply Rgt_not_eq. apply bpow_gt_0. }
  assert (forall n j, n <> 0 -> (bp j <= Rabs (IZR n * bp j))%R) as One.
  { intros n j N. rewrite Rabs_mult, (Rabs_pos_eq (bp j)) by apply bpow_ge_0. rewrite <- abs_IZR.
    rewrite <- (Rmult_1_l (bp j)) at 1. apply Rmult_le_compat_r; [apply bpow_ge_0|]. apply IZR_le. lia. }
  destruct (Z.eq_dec a 0) as [->|Na].
  - replace (IZR 0 * bp e / (IZR b * bp f))%R with 0%R by (unfold Rdiv; ring).
    assert (R_of (hi x) = 0)%R as Zx by (rewrite Exh, Vx, Rmult_0_l; apply RN_0).
    destruct (dd_div_zero x (hi y) (lo y)) as (N & V); auto.
    + unfold dval in Vx. rewrite Zx in Vx. lra.
    + apply Rle_trans with (bp (l + f)); [apply By|apply bpow_le; lia].
    + split; [exact N|]. rewrite V, Rminus_0_r, Rabs_R0, Rmult_0_r. apply Rle_refl.
  - assert (bp (-300) <= Rabs (R_of (hi x)) <= bp 300)%R as SX.
    { split.
      - apply Rle_trans with (bp e); [apply bpow_le; lia|]. rewrite Exh, Vx.
        rewrite <- (RN_id (bp e)) at 1 by (apply bpow_fmt; lia). rewrite <- (round_NE_abs radix2 fexp64). apply RN_le. now apply One.
      - apply Rle_trans with (bp (k + e)); [apply Bx|apply bpow_le; lia]. }
    assert (bp (-300) <= Rabs (R_of (hi y)) <= bp 300)%R as SY.
    { split.
      - apply Rle_trans with (bp f); [apply bpow_le; lia|]. rewrite Ey. now apply One.
      - apply Rle_trans with (bp (l + f)); [apply By|apply bpow_le; lia]. }
    destruct (dd_div_spec x (hi y) (lo y)) as (N & D); auto.
    { now apply normed_lo. }
    { rewrite Ly, Rabs_R0. apply Rmult_le_pos; [apply bpow_ge_0|apply Rabs_pos]. }
    split; [exact N|].
    rewrite Ly, Rplus_0_r, Ey, Vx in D. set (Z := dval (dd_div_hi_lo x (hi y) (lo y))) in *.
    set (A := (IZR a * bp e)%R) in *. set (B := (IZR b * bp f)%R) in *.
    assert (B <> 0)%R as NB by (rewrite <- Ey; exact NY).
    assert (Rabs (R_of (hi x)) <= 2 * Rabs A)%R as HX.
    { rewrite Exh, Vx. fold A. replace (RN A) with (A + (RN A - A))%R by ring. eapply Rle_trans; [apply Rabs_triang|].
      assert (Rabs (RN A - A) <= u53 * Rabs A + bp (-1075))%R by apply RN_err.
      assert (bp (-1075) <= u53 * Rabs A)%R.
      { apply Rle_trans with (u53 * bp e)%R; [rewrite <- bpow_plus; apply bpow_le; lia|].
        apply Rmult_le_compat_l; [apply bpow_ge_0|]. now apply One. }
      pose proof u53_small. pose proof (Rabs_pos A). nra. }
    replace (Z - A / B)%R with ((Z * B - A) / B)%R by (field; exact NB).
    unfold Rdiv. rewrite !Rabs_mult, <- Rmult_assoc. apply Rmult_le_compat_r; [apply Rabs_pos|].
    eapply Rle_trans; [exact D|].
    assert (bp (-100) = 64 * (u53 * u53))%R as ->.
    { change 64%R with (bp 6). rewrite <- !bpow_plus. reflexivity. }
    assert (0 < u53 * u53)%R as U2 by (pose proof u53_pos; apply Rmult_lt_0_compat; lra). set (w := (u53 * u53)%R) in *. clearbody w.
    apply Rle_trans with (20 * w * (2 * Rabs A))%R; [apply Rmult_le_compat_l; lra|]. pose proof (Rabs_pos A).
    assert (0 <= w * Rabs A)%R by (apply Rmult_le_pos; lra). lra.
Qed.
Lemma dg_div k l e f x a y b : 0 <= k <= 100 -> 0 <= l <= 53 -> -300 <= e -> k + e <= 298 -> -300 <= f -> l + f <= 300 ->
  dg k e x a -> dg l f y b -> b <> 0 ->
  let z := dd_double (dd_div x y) in
  let q := (IZR a * bp e / (IZR b * bp f))%R in
  fis_finite z = true /\ exists r, R_of z = RN r /\ (Rabs (r - q) <= bp (-100) * Rabs q)%R.
Proof.
  intros K L E1 E2 F1 F2 Dx Dy Nb. cbv zeta.
  destruct (dg_div_normed k l e f x a y b K L E1 E2 F1 F2 Dx Dy Nb) as (N & D).
  destruct (dd_double_normed _ N) as (F & E). split; [exact F|]. exists (dval (dd_div x y)). split; [|exact D].
  rewrite E. apply N.
Qed.
(** Dividing by zero. *)
Lemma fnan_add_r x : fadd x fnan = fnan.
Proof. now destruct x as [?|?| |? ? ? ?]. Qed.
Lemma fnan_add_l x : fadd fnan x = fnan.
Proof. now destruct x as [?|?| |? ? ? ?]. Qed.
Lemma fnan_sub_r x : fsub x fnan = fnan.
Proof. now destruct x as [?|?| |? ? ? ?]. Qed.
Lemma fnan_sub_l x : fsub fnan x = fnan.
Proof. now destruct x as [?|?| |? ? ? ?]. Qed.
Lemma fnan_mul_r x : fmul x fnan = fnan.
Proof. now destruct x as [?|?| |? ? ? ?]. Qed.
Lemma fnan_mul_l x : fmul fnan x = fnan.
Proof. now destruct x as [?|?| |? ? ? ?]. Qed.
Lemma fnan_div_l x : fdiv fnan x = fnan.
Proof. now destruct x as [?|?| |? ? ? ?]. Qed.
Lemma zero_cases x : fis_finite x = true -> R_of x = 0%R -> exists s, x = B754_zero s.
Proof.
  destruct x as [s|s| |s m e B]; try discriminate; intros _ E; [now exists s|exfalso].
  cbn in E. apply eq_0_F2R in E. now destruct s.
Qed.
Lemma dd_div_by_zero x yh yl : fis_finite yh = true -> R_of yh = 0%R -> fis_finite (hi x) = true ->
  fis_nan (dd_double (dd_div_hi_lo x yh yl)) = true.
Proof.
  intros Fy Ey Fx. destruct (zero_cases yh Fy Ey) as (s & ->). unfold dd_double, dd_div_hi_lo. cbn [hi lo].
  set (cc := fdiv (hi x) (B754_zero s)).
  assert (cc = fnan \/ exists t, cc = B754_infinity t) as [E|(t & E)].
  { unfold cc. destruct (hi x) as [t|t| |t m e B]; try discriminate; [now left|right; now eexists]. }
  - rewrite E, ?fnan_add_l, ?fnan_add_r. reflexivity.
  - assert (fsub (fmul SPLIT cc) (fsub (fmul SPLIT cc) cc) = fnan) as H by (rewrite E; destruct t; reflexivity).
    rewrite H, !fnan_mul_l, fnan_sub_l, !fnan_add_l, fnan_sub_r, fnan_add_l, fnan_sub_l, fnan_div_l, !fnan_add_r. reflexivity.
Qed.
