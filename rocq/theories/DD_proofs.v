(** Proofs about double-double arithmetic. *)
From Coq Require Import ZArith Bool Reals Lia Lra Psatz.
From Flocq Require Import Core BinarySingleNaN.
From Verif Require Import Base F64 F64Facts F64Round F64Err DD_model DD_spec.
Open Scope Z_scope.

(** The two copies of the division are the same. *)
Lemma dd_div_unroll x y : dd_div x y = dd_div_hi_lo x (hi y) (lo y).
Proof. reflexivity. Qed.

Lemma fin_f0 : fis_finite f0 = true.
Proof. reflexivity. Qed.
Lemma R_f0 : R_of f0 = 0%R.
Proof. reflexivity. Qed.
Lemma bf_f0 k : bf k f0.
Proof. split; [reflexivity|]. rewrite R_f0, Rabs_R0. apply bpow_ge_0. Qed.
Lemma add_zero_like x z : fis_finite x = true -> fis_finite z = true -> R_of z = 0%R ->
  fis_finite (fadd x z) = true /\ R_of (fadd x z) = R_of x.
Proof.
  intros Fx Fz Ez. destruct (fadd_R x z Fx Fz) as (F & E).
  - rewrite Ez, Rplus_0_r, RN_id by apply format_R. apply abs_B2R_lt_emax.
  - split; [exact F|]. rewrite E, Ez, Rplus_0_r, RN_id; [reflexivity|apply format_R].
Qed.
Lemma fmt_sum_RN a b : fmt a -> fmt b -> RN (RN (a + b) + (a + b - RN (a + b))) = RN (a + b).
Proof. intros. f_equal. ring. Qed.

(** ** Sums and products of doubles are exact *)
Lemma dd_add_f64_exact x y : fis_finite x = true -> fis_finite y = true ->
  (Rabs (R_of x) <= lim)%R -> (Rabs (R_of y) <= lim)%R -> (Rabs (RN (R_of x + R_of y)) < bp 1024)%R ->
  let z := dd_add_f64 (dd_of x) y in
  dfin z /\ R_of (hi z) = RN (R_of x + R_of y) /\ dval z = (R_of x + R_of y)%R.
Proof.
  intros Fx Fy Bx By B. cbv zeta. unfold dd_add_f64, dd_of. cbn [hi lo].
  destruct (two_sum_f64 x y Fx Fy Bx By B) as (Fs & Es & Fr & Er). cbv zeta in *.
  set (ss := fadd x y) in *. set (s' := fadd (fsub y (fsub ss x)) (fsub x (fsub ss (fsub ss x)))) in *.
  destruct (add_zero_like s' f0 Fr fin_f0 R_f0) as (Ff & Ef). set (f := fadd s' f0) in *.
  assert (RN (R_of ss + R_of f) = R_of ss) as Ehh.
  { rewrite Ef, Er, Es. rewrite fmt_sum_RN; auto using format_R. }
  destruct (fadd_R ss f Fs Ff) as (Fh & Eh). { rewrite Ehh, Es. exact B. }
  rewrite Ehh in Eh. set (hh := fadd ss f) in *.
  destruct (fsub_R ss hh Fs Fh) as (Fd & Ed).
  { rewrite Eh. unfold Rminus. rewrite Rplus_opp_r, RN_0, Rabs_R0. apply bpow_gt_0. }
  rewrite Eh in Ed. unfold Rminus in Ed. rewrite Rplus_opp_r, RN_0 in Ed.
  destruct (add_zero_like f (fsub ss hh) Ff Fd Ed) as (Fh2 & Eh2). set (h := fadd f (fsub ss hh)) in *.
  assert (RN (R_of hh + R_of h) = R_of ss) as Ez. { rewrite Eh, Eh2. exact Ehh. }
  destruct (fadd_R hh h Fh Fh2) as (Fz & Ez'). { rewrite Ez, Es. exact B. }
  rewrite Ez in Ez'. set (zhi := fadd hh h) in *.
  destruct (fsub_R hh zhi Fh Fz) as (Fd2 & Ed2).
  { rewrite Eh, Ez'. unfold Rminus. rewrite Rplus_opp_r, RN_0, Rabs_R0. apply bpow_gt_0. }
  rewrite Eh, Ez' in Ed2. unfold Rminus in Ed2. rewrite Rplus_opp_r, RN_0 in Ed2.
  destruct (add_zero_like h (fsub hh zhi) Fh2 Fd2 Ed2) as (Fl & El).
  unfold dval, dfin. cbn [hi lo]. split; [auto|]. split; [congruence|]. rewrite El, Ez', Eh2, Ef, Er, Es. ring.
Qed.

Lemma RN_normed_lo h v : fmt h -> fmt v -> h = RN (h + v) -> (Rabs v <= u53 * Rabs h)%R.
Proof.
  intros Fh Fv E.
  destruct (Plus_error.FLT_plus_error_N_round_ex radix2 (-1074) 53 (fun x => negb (Z.even x)) h v Fh Fv) as (eps & He & Ee).
  change (round radix2 (FLT_exp (-1074) 53) (Znearest (fun x => negb (Z.even x)))) with RN in Ee. rewrite <- E in Ee.
  replace v with (eps * h)%R by lra. rewrite Rabs_mult. apply Rmult_le_compat_r; [apply Rabs_pos|].
  eapply Rle_trans; [exact He|]. unfold Relative.u_ro. change (- (53) + 1) with (-53 + 1). rewrite bp_S. lra.
Qed.
Lemma normed_lo x : normed x -> (Rabs (R_of (lo x)) <= u53 * Rabs (R_of (hi x)))%R.
Proof. intros (_ & E). apply RN_normed_lo; auto using format_R. Qed.

(** Multiplication of normalised numbers: [9 u^2] relative to the product of
    the high parts; the result is normalised. *)
Definition ok_prod (p : R) : Prop := (p = 0 \/ bp (-900) <= Rabs p)%R.
Lemma RN_eq0 r : r = 0%R -> RN r = 0%R.
Proof. intros ->. apply RN_0. Qed.
Lemma eta_small p : (bp (-900) <= Rabs p)%R -> (bp (-1075) <= u53 * u53 * u53 * Rabs p)%R.
Proof.
  intros H. replace (bp (-1075)) with (bp (-175) * bp (-900))%R by (rewrite <- bpow_plus; reflexivity).
  apply Rmult_le_compat; try apply bpow_ge_0; [|exact H].
  rewrite <- !bpow_plus. apply bpow_le. lia.
Qed.
Ltac mult_u H := apply (Rmult_le_compat_l u53) in H; [|apply bpow_ge_0].
Lemma dd_mul_spec k l x yh yl : -400 <= k <= 480 -> -400 <= l <= 480 ->
  bf k (hi x) -> bf l yh -> bf k (lo x) -> bf l yl ->
  (Rabs (R_of (lo x)) <= u53 * Rabs (R_of (hi x)))%R -> (Rabs (R_of yl) <= u53 * Rabs (R_of yh))%R ->
  ok_prod (R_of (hi x) * R_of yh) ->
  let z := dd_mul_hi_lo x yh yl in
  normed z /\ bf (k + l + 8) (hi z) /\ bf (k + l + 7) (lo z) /\
  (Rabs (dval z - dval x * (R_of yh + R_of yl)) <= 9 * (u53 * u53) * Rabs (R_of (hi x) * R_of yh))%R.
Proof.
  intros K L Bxh Byh Bxl Byl Nx Ny OK. cbv zeta. unfold dd_mul_hi_lo. change SPLIT with SPLIT64.
  destruct (dekker_f64 k l (hi x) yh ltac:(lia) ltac:(lia) ltac:(lia) Bxh Byh) as (Bp & Ep & Bt & Et). cbv zeta in *.
  set (cc := fmul (hi x) yh) in *.
  set (t4 := fadd _ (fmul (fsub (hi x) _) (fsub yh _))) in *.
  destruct (bf_mul k l (hi x) yl ltac:(lia) Bxh Byl) as (B1 & E1). set (a1 := fmul (hi x) yl) in *.
  destruct (bf_mul k l (lo x) yh ltac:(lia) Bxl Byh) as (B2 & E2). set (a2 := fmul (lo x) yh) in *.
  destruct (bf_add (k + l) a1 a2 ltac:(lia) B1 B2) as (B3 & E3). set (a3 := fadd a1 a2) in *.
  destruct (bf_add (k + l + 5) t4 a3 ltac:(lia) Bt (bf_weak (k + l + 1) (k + l + 5) a3 ltac:(lia) B3)) as (Bc & Ec). set (c := fadd t4 a3) in *.
  set (X := R_of (hi x)) in *. set (x' := R_of (lo x)) in *. set (Y := R_of yh) in *. set (y' := R_of yl) in *.
  set (P := (X * Y)%R) in *. set (m := Rabs P) in *.
  assert (0 <= m)%R as M0 by apply Rabs_pos.
  pose proof u53_pos as U0. pose proof u53_small as U1.
  assert (exists w1 w2 w3, w1 = u53 * m /\ w2 = u53 * w1 /\ w3 = u53 * w2 /\ 0 <= w3 /\ w3 <= w2 / 1024 /\ w2 <= w1 / 1024 /\ w1 <= m / 1024)%R
    as (w1 & w2 & w3 & W1 & W2 & W3 & P3 & P2 & P1 & P0).
  { exists (u53 * m)%R, (u53 * (u53 * m))%R, (u53 * (u53 * (u53 * m)))%R.
    assert (0 <= u53 * m)%R by (apply Rmult_le_pos; lra). assert (0 <= u53 * (u53 * m))%R by (apply Rmult_le_pos; lra).
    repeat split; try (apply Rmult_le_pos; lra); nra. }
  (* partial products *)
  assert (bp (-1075) <= w3 \/ P = 0)%R as Eta.
  { destruct OK as [OK|OK]; [now right|left]. apply eta_small in OK. fold m in OK. rewrite W3, W2, W1. lra. }
  assert (Rabs (X * y') <= w1)%R as Q1.
  { rewrite Rabs_mult. apply Rle_trans with (Rabs X * (u53 * Rabs Y))%R; [apply Rmult_le_compat_l; [apply Rabs_pos|exact Ny]|].
    rewrite W1. unfold m, P. rewrite Rabs_mult. right. ring. }
  assert (Rabs (x' * Y) <= w1)%R as Q2.
  { rewrite Rabs_mult. apply Rle_trans with ((u53 * Rabs X) * Rabs Y)%R; [apply Rmult_le_compat_r; [apply Rabs_pos|exact Nx]|].
    rewrite W1. unfold m, P. rewrite Rabs_mult. right. ring. }
  assert (Rabs (x' * y') <= w2)%R as Q3.
  { rewrite Rabs_mult. apply Rle_trans with ((u53 * Rabs X) * (u53 * Rabs Y))%R; [apply Rmult_le_compat; auto using Rabs_pos|].
    rewrite W2, W1. unfold m, P. rewrite Rabs_mult. right. ring. }
  assert (P = R_of cc + R_of t4)%R as D0.
  { rewrite Ep, Et. apply (proj1 (RN_dekker X Y (format_R _) (format_R _))). destruct OK as [OK|OK]; [now left|right].
    eapply Rle_trans; [|exact OK]. apply bpow_le. lia. }
  assert (Rabs (R_of t4) <= w1 + w3)%R as T4.
  { replace (R_of t4) with (- (RN P - P))%R by (unfold cc, P in *; lra). rewrite Rabs_Ropp.
    destruct Eta as [Eta|Z]; [|rewrite Z, RN_0, Rminus_0_r, Rabs_R0; nra].
    eapply Rle_trans; [apply RN_err|]. fold m. lra. }
  assert (Rabs (R_of a1 - X * y') <= w2 + w3)%R as A1.
  { rewrite E1. destruct Eta as [Eta|Z].
    - eapply Rle_trans; [apply RN_err|]. mult_u Q1. lra.
    - assert (X * y' = 0)%R as ->; [|rewrite RN_0, Rminus_0_r, Rabs_R0; nra].
      assert (w1 = 0)%R as V by (rewrite W1; unfold m; rewrite Z, Rabs_R0; ring). rewrite V in Q1. apply Rabs_le_inv in Q1. lra. }
  assert (Rabs (R_of a2 - x' * Y) <= w2 + w3)%R as A2.
  { rewrite E2. destruct Eta as [Eta|Z].
    - eapply Rle_trans; [apply RN_err|]. mult_u Q2. lra.
    - assert (x' * Y = 0)%R as ->; [|rewrite RN_0, Rminus_0_r, Rabs_R0; nra].
      assert (w1 = 0)%R as V by (rewrite W1; unfold m; rewrite Z, Rabs_R0; ring). rewrite V in Q2. apply Rabs_le_inv in Q2. lra. }
  assert (Rabs (R_of a1 + R_of a2) <= 2 * w1 + 2 * w2 + 2 * w3)%R as S3.
  { apply Rabs_le. apply Rabs_le_inv in A1, A2, Q1, Q2. lra. }
  assert (Rabs (R_of a3 - (R_of a1 + R_of a2)) <= 3 * w2)%R as A3.
  { rewrite E3. eapply Rle_trans; [apply RN_sum_err; apply format_R|]. mult_u S3. nra. }
  assert (Rabs (R_of t4 + R_of a3) <= 4 * w1)%R as S4.
  { apply Rabs_le. apply Rabs_le_inv in S3, A3, T4. lra. }
  assert (Rabs (R_of t4 + R_of a3) <= 3 * w1 + 6 * w2)%R as S4'.
  { apply Rabs_le. apply Rabs_le_inv in S3, A3, T4. lra. }
  assert (Rabs (R_of c - (R_of t4 + R_of a3)) <= 3 * w2 + 6 * w3)%R as A4.
  { rewrite Ec. eapply Rle_trans; [apply RN_sum_err; apply format_R|]. mult_u S4'. nra. }
  assert (Rabs (R_of a3 - (R_of a1 + R_of a2)) <= 2 * w2 + 4 * w3)%R as A3'.
  { rewrite E3. eapply Rle_trans; [apply RN_sum_err; apply format_R|]. mult_u S3. nra. }
  (* final renormalisation *)
  assert (Rabs (R_of c) <= Rabs (R_of cc))%R as FC.
  { assert (Rabs (R_of c) <= 5 * w1)%R by (apply Rabs_le; apply Rabs_le_inv in A4, S4; lra).
    assert (m - (w1 + w3) <= Rabs (R_of cc))%R.
    { replace (R_of cc) with (P - R_of t4)%R by lra. unfold m.
      pose proof (Rabs_triang_inv P (R_of t4)). lra. }
    lra. }
  destruct (fast_two_sum_bf (k + l + 6) cc c ltac:(lia)) as (Bz & Ez & Bw & Ew).
  { apply bf_weak with (k + l); [lia|exact Bp]. } { replace (k + l + 6) with (k + l + 5 + 1) by lia. exact Bc. } { exact FC. }
  cbv zeta in *. unfold normed, dfin, dval. cbn [hi lo].
  split; [|split; [|split]].
  - split; [split; [apply Bz|apply Bw]|]. rewrite Ew, Ez. f_equal. ring.
  - replace (k + l + 8) with (k + l + 7 + 1) by lia. apply bf_weak with (k + l + 6 + 1); [lia|exact Bz].
  - apply bf_weak with (k + l + 6); [lia|exact Bw].
  - rewrite Ew, Ez.
    replace (RN (R_of cc + R_of c) + (R_of cc + R_of c - RN (R_of cc + R_of c)))%R with (R_of cc + R_of c)%R by ring.
    fold X x' Y y'.
    replace ((X + x') * (Y + y'))%R with (P + X * y' + x' * Y + x' * y')%R by (unfold P; ring).
    replace (9 * (u53 * u53) * m)%R with (9 * w2)%R by (rewrite W2, W1; ring).
    apply Rabs_le. apply Rabs_le_inv in A1, A2, A3', A4, Q3. lra.
Qed.

Lemma mul_zero_like x z : fis_finite x = true -> fis_finite z = true -> R_of z = 0%R ->
  fis_finite (fmul x z) = true /\ R_of (fmul x z) = 0%R.
Proof.
  intros Fx Fz Ez. destruct (fmul_R x z Fx Fz) as (F & E).
  - rewrite Ez, Rmult_0_r, RN_0, Rabs_R0. apply bpow_gt_0.
  - split; [exact F|]. now rewrite E, Ez, Rmult_0_r, RN_0.
Qed.
Lemma mul_zero_like_l x z : fis_finite x = true -> fis_finite z = true -> R_of z = 0%R ->
  fis_finite (fmul z x) = true /\ R_of (fmul z x) = 0%R.
Proof.
  intros Fx Fz Ez. destruct (fmul_R z x Fz Fx) as (F & E).
  - rewrite Ez, Rmult_0_l, RN_0, Rabs_R0. apply bpow_gt_0.
  - split; [exact F|]. now rewrite E, Ez, Rmult_0_l, RN_0.
Qed.
(** The product of two doubles is exact. *)
Lemma dd_mul_exact k l x yh yl : -500 <= k <= 990 -> -500 <= l <= 990 -> k + l <= 1010 ->
  bf k (hi x) -> bf l yh -> fis_finite (lo x) = true -> R_of (lo x) = 0%R -> fis_finite yl = true -> R_of yl = 0%R ->
  (R_of (hi x) * R_of yh = 0 \/ bp (-969) <= Rabs (R_of (hi x) * R_of yh))%R ->
  let z := dd_mul_hi_lo x yh yl in
  dfin z /\ R_of (hi z) = RN (R_of (hi x) * R_of yh) /\ dval z = (R_of (hi x) * R_of yh)%R.
Proof.
  intros K L KL Bx By Fxl Exl Fyl Eyl OK. cbv zeta. unfold dd_mul_hi_lo. cbn [hi lo]. change SPLIT with SPLIT64.
  destruct (dekker_f64 k l (hi x) yh K L KL Bx By) as (Bp & Ep & Bt & Et). cbv zeta in *.
  set (cc := fmul (hi x) yh) in *.
  set (t4 := fadd _ (fmul (fsub (hi x) _) (fsub yh _))) in *.
  destruct (mul_zero_like (hi x) yl (bf_fin _ _ Bx) Fyl Eyl) as (F1 & E1).
  destruct (mul_zero_like_l yh (lo x) (bf_fin _ _ By) Fxl Exl) as (F2 & E2).
  destruct (add_zero_like (fmul (hi x) yl) (fmul (lo x) yh) F1 F2 E2) as (F3 & E3). rewrite E1 in E3.
  destruct (add_zero_like t4 _ (bf_fin _ _ Bt) F3 E3) as (Fc & Ec). set (c := fadd t4 (fadd (fmul (hi x) yl) (fmul (lo x) yh))) in *.
  pose proof (proj1 (RN_dekker (R_of (hi x)) (R_of yh) (format_R _) (format_R _)) OK) as D. rewrite <- Et, <- Ep in D.
  assert (RN (R_of cc + R_of c) = R_of cc) as Eh. { rewrite Ec, <- D. now symmetry. }
  assert (Rabs (R_of cc) < bp 1024)%R as Bcc. { apply abs_B2R_lt_emax. }
  destruct (fadd_R cc c (bf_fin _ _ Bp) Fc) as (Fz & Ez). { now rewrite Eh. } rewrite Eh in Ez. set (zhi := fadd cc c) in *.
  destruct (fsub_R cc zhi (bf_fin _ _ Bp) Fz) as (Fd & Ed).
  { rewrite Ez. unfold Rminus. rewrite Rplus_opp_r, RN_0, Rabs_R0. apply bpow_gt_0. }
  rewrite Ez in Ed. unfold Rminus in Ed. rewrite Rplus_opp_r, RN_0 in Ed.
  destruct (add_zero_like c _ Fc Fd Ed) as (Fl & El).
  unfold dfin, dval. cbn [hi lo]. split; [auto|]. split; [congruence|]. rewrite Ez, El, Ec. lra.
Qed.
Lemma dd_mul_f64_exact k l x y : -500 <= k <= 990 -> -500 <= l <= 990 -> k + l <= 1010 -> bf k x -> bf l y ->
  (R_of x * R_of y = 0 \/ bp (-969) <= Rabs (R_of x * R_of y))%R ->
  let z := dd_mul_hi_lo (dd_of x) y f0 in
  dfin z /\ R_of (hi z) = RN (R_of x * R_of y) /\ dval z = (R_of x * R_of y)%R.
Proof.
  intros K L KL Bx By OK.
  exact (dd_mul_exact k l (dd_of x) y f0 K L KL Bx By fin_f0 R_f0 fin_f0 R_f0 OK).
Qed.

(** ** The general sum *)
Lemma signum_sum a b z : fmt a -> fmt b -> fis_finite (hi z) = true -> fis_finite (lo z) = true ->
  R_of (hi z) = RN (a + b) -> (RN (a + b) = 0%R -> R_of (lo z) = 0%R) -> is_sign (dd_signum z) (a + b).
Proof.
  intros Fa Fb Fh Fl E Z. unfold dd_signum, is_sign.
  change fgtb with (fun x y => fltb y x). cbv beta.
  rewrite !fltb_R by (assumption || reflexivity). rewrite R_f0.
  destruct (Rtotal_order (a + b) 0) as [H|[H|H]].
  - pose proof (RN_sum_neg a b Fa Fb H). rewrite Rlt_bool_false, Rlt_bool_true by lra. auto.
  - rewrite H, RN_0 in E, Z. rewrite E, Z by reflexivity. rewrite Rlt_bool_false by lra. auto.
  - pose proof (RN_sum_pos a b Fa Fb H). rewrite Rlt_bool_true by lra. auto.
Qed.
(** Fast two-sum without the order hypothesis. *)
Lemma fast_any k a b : -1074 <= k < 1020 -> bf k a -> bf k b ->
  let hh := fadd a b in
  let h := fadd b (fsub a hh) in
  bf (k + 1) hh /\ R_of hh = RN (R_of a + R_of b) /\ bf (k + 3) h /\
  (Rabs (R_of hh + R_of h - (R_of a + R_of b)) <= 2 * u53 * Rabs (R_of b))%R /\
  (Rabs (R_of h) <= u53 * Rabs (R_of a + R_of b) + 4 * u53 * Rabs (R_of b))%R.
Proof.
  intros K Ba Bb. cbv zeta. pose proof u53_pos as U0. pose proof u53_small as U1.
  pose proof (Rabs_pos (R_of b)) as B0. pose proof (Rabs_pos (R_of a + R_of b)) as B1.
  destruct (bf_add k a b ltac:(lia) Ba Bb) as (Bs & Es). set (hh := fadd a b) in *.
  destruct (bf_sub (k + 1) a hh ltac:(lia) (bf_weak k (k + 1) a ltac:(lia) Ba) Bs) as (Bg & Eg). set (g := fsub a hh) in *.
  destruct (bf_add (k + 1 + 1) b g ltac:(lia) (bf_weak k (k + 1 + 1) b ltac:(lia) Bb) Bg) as (Bh & Eh).
  split; [exact Bs|]. split; [exact Es|]. split; [apply bf_weak with (k + 1 + 1 + 1); [lia|exact Bh]|].
  pose proof (RN_sum_err (R_of a) (R_of b) (format_R a) (format_R b)) as D1. rewrite <- Es in D1.
  destruct (Rle_or_lt (Rabs (R_of b)) (Rabs (R_of a))) as [L|L].
  - pose proof (RN_fast_two_sum (R_of a) (R_of b) (format_R a) (format_R b) L) as T. cbv zeta in T.
    rewrite <- Es, <- Eg, <- Eh in T. split.
    + rewrite T. unfold Rminus. rewrite Rplus_opp_r, Rabs_R0. nra.
    + replace (R_of (fadd b g)) with (- (R_of hh - (R_of a + R_of b)))%R by lra. rewrite Rabs_Ropp. nra.
  - set (q := Rabs (R_of b)) in *.
    assert (Rabs (R_of a + R_of b) <= 2 * q)%R as S1.
    { eapply Rle_trans; [apply Rabs_triang|]. fold q. lra. }
    assert (exists v v2, v = u53 * q /\ v2 = u53 * v /\ 0 <= v2 /\ v2 <= v / 1024)%R as (v & v2 & V & V2 & P2 & P1).
    { exists (u53 * q)%R, (u53 * (u53 * q))%R. assert (0 <= u53 * q)%R by (apply Rmult_le_pos; lra).
      repeat split; [apply Rmult_le_pos; lra|nra]. }
    mult_u S1. assert (Rabs (R_of hh - (R_of a + R_of b)) <= 2 * v)%R as D1' by (rewrite V; lra).
    pose proof (RN_sub_err (R_of a) (R_of hh) (format_R a) (format_R hh)) as D2. rewrite <- Eg in D2.
    assert (Rabs (R_of a - R_of hh) <= q + 2 * v)%R as S2.
    { assert (- q <= R_of b <= q)%R by (apply Rabs_le_inv; unfold q; lra). apply Rabs_le. apply Rabs_le_inv in D1'. lra. }
    mult_u S2. assert (Rabs (R_of g - (R_of a - R_of hh)) <= v + 2 * v2)%R as D2' by nra.
    pose proof (RN_sum_err (R_of b) (R_of g) (format_R b) (format_R g)) as D3. rewrite <- Eh in D3.
    assert (Rabs (R_of b + R_of g) <= 3 * v + 2 * v2)%R as S3.
    { apply Rabs_le. apply Rabs_le_inv in D1', D2'. lra. }
    pose proof S3 as S3'. mult_u S3'. assert (Rabs (R_of (fadd b g) - (R_of b + R_of g)) <= 4 * v2)%R as D3' by nra.
    split.
    + replace (2 * u53 * q)%R with (2 * v)%R by (rewrite V; ring). apply Rabs_le. apply Rabs_le_inv in D2', D3'. lra.
    + replace (4 * u53 * q)%R with (4 * v)%R by (rewrite V; ring).
      assert (0 <= u53 * Rabs (R_of a + R_of b))%R by (apply Rmult_le_pos; lra).
      apply Rle_trans with (4 * v)%R; [|lra]. apply Rabs_le. apply Rabs_le_inv in S3, D3'. lra.
Qed.
(** The two doubles whose sum the last step of the addition renormalises. *)
Definition add_parts (x : DD) (yhi ylo : f64) : f64 * f64 :=
  let ss := fadd (hi x) yhi in
  let tt := fadd (lo x) ylo in
  let e := fsub ss (hi x) in
  let f := fsub tt (lo x) in
  let s := fsub ss e in
  let t := fsub tt f in
  let s := fadd (fsub yhi e) (fsub (hi x) s) in
  let t := fadd (fsub ylo f) (fsub (lo x) t) in
  let e := fadd s tt in
  let hh := fadd ss e in
  let h := fadd e (fsub ss hh) in
  (hh, fadd t h).
Lemma dd_add_full k x yh yl : -1000 <= k <= 1000 ->
  bf k (hi x) -> bf k yh -> bf k (lo x) -> bf k yl ->
  (Rabs (R_of (lo x)) <= u53 * Rabs (R_of (hi x)))%R -> (Rabs (R_of yl) <= u53 * Rabs (R_of yh))%R ->
  let z := dd_add_hi_lo x yh yl in
  let M := (Rabs (R_of (hi x)) + Rabs (R_of yh))%R in
  let v := (dval x + (R_of yh + R_of yl))%R in
  let s := (R_of (fst (add_parts x yh yl)) + R_of (snd (add_parts x yh yl)))%R in
  bf (k + 8) (hi z) /\ bf (k + 11) (lo z) /\ R_of (hi z) = RN s /\
  is_sign (dd_signum z) s /\ (Rabs (s - v) <= 10 * (u53 * u53) * M)%R /\
  (Rabs (dval z - v) <= 16 * (u53 * u53) * M)%R.
Proof.
  intros K Bxh Byh Bxl Byl Nx Ny. cbv zeta. unfold dd_add_hi_lo.
  destruct (two_sum_bf k (hi x) yh ltac:(lia) Bxh Byh) as (Bss & Ess & Bs & Es). cbv zeta in *.
  destruct (two_sum_bf k (lo x) yl ltac:(lia) Bxl Byl) as (Btt & Ett & Bt & Et). cbv zeta in *.
  set (ss := fadd (hi x) yh) in *. set (tt := fadd (lo x) yl) in *.
  set (s := fadd (fsub yh (fsub ss (hi x))) (fsub (hi x) (fsub ss (fsub ss (hi x))))) in *.
  set (t := fadd (fsub yl (fsub tt (lo x))) (fsub (lo x) (fsub tt (fsub tt (lo x))))) in *.
  destruct (bf_add (k + 1) s tt ltac:(lia) (bf_weak k (k + 1) s ltac:(lia) Bs) Btt) as (Be & Ee). set (e := fadd s tt) in *.
  destruct (fast_any (k + 2) ss e ltac:(lia) (bf_weak (k + 1) (k + 2) ss ltac:(lia) Bss) (bf_weak (k + 1 + 1) (k + 2) e ltac:(lia) Be))
    as (Bhh & Ehh & Bh & Dh & Sh). cbv zeta in *. set (hh := fadd ss e) in *. set (h := fadd e (fsub ss hh)) in *.
  destruct (bf_add (k + 5) t h ltac:(lia) (bf_weak k (k + 5) t ltac:(lia) Bt) (bf_weak (k + 2 + 3) (k + 5) h ltac:(lia) Bh)) as (Be' & Ee').
  set (e' := fadd t h) in *.
  destruct (fast_any (k + 6) hh e' ltac:(lia) (bf_weak (k + 2 + 1) (k + 6) hh ltac:(lia) Bhh) (bf_weak (k + 5 + 1) (k + 6) e' ltac:(lia) Be'))
    as (Bz & Ez & Bl & Dz & _). cbv zeta in *.
  set (zhi := fadd hh e') in *. set (zlo := fadd e' (fsub hh zhi)) in *.
  set (X := R_of (hi x)) in *. set (x' := R_of (lo x)) in *. set (Y := R_of yh) in *. set (y' := R_of yl) in *.
  set (m := (Rabs X + Rabs Y)%R).
  assert (0 <= m)%R as M0 by (unfold m; pose proof (Rabs_pos X); pose proof (Rabs_pos Y); lra).
  pose proof u53_pos as U0. pose proof u53_small as U1.
  assert (exists w1 w2 w3, w1 = u53 * m /\ w2 = u53 * w1 /\ w3 = u53 * w2 /\ 0 <= w3 /\ w3 <= w2 / 1024 /\ w2 <= w1 / 1024 /\ w1 <= m / 1024)%R
    as (w1 & w2 & w3 & W1 & W2 & W3 & P3 & P2 & P1 & P0).
  { exists (u53 * m)%R, (u53 * (u53 * m))%R, (u53 * (u53 * (u53 * m)))%R.
    assert (0 <= u53 * m)%R by (apply Rmult_le_pos; lra). assert (0 <= u53 * (u53 * m))%R by (apply Rmult_le_pos; lra).
    repeat split; try (apply Rmult_le_pos; lra); nra. }
  assert (Rabs (X + Y) <= m)%R as SX by (apply Rabs_triang).
  assert (Rabs (x' + y') <= w1)%R as Sx.
  { eapply Rle_trans; [apply Rabs_triang|]. rewrite W1. unfold m. lra. }
  assert (Rabs (R_of s) <= w1)%R as Ss.
  { rewrite Es, Rabs_minus_sym. eapply Rle_trans; [apply RN_sum_err; apply format_R|]. fold X Y. mult_u SX. lra. }
  assert (Rabs (R_of t) <= w2)%R as St.
  { rewrite Et, Rabs_minus_sym. eapply Rle_trans; [apply RN_sum_err; apply format_R|]. fold x' y'. mult_u Sx. lra. }
  assert (R_of tt = x' + y' - R_of t)%R as Ett' by (rewrite Et, Ett; ring).
  assert (Rabs (R_of s + R_of tt) <= 2 * w1 + w2)%R as Sst.
  { apply Rabs_le. apply Rabs_le_inv in Ss, St, Sx. lra. }
  assert (Rabs (R_of e - (R_of s + R_of tt)) <= 2 * w2 + w3)%R as De.
  { rewrite Ee. eapply Rle_trans; [apply RN_sum_err; apply format_R|]. mult_u Sst. lra. }
  assert (Rabs (R_of e) <= 3 * w1)%R as Se.
  { apply Rabs_le. apply Rabs_le_inv in Sst, De. lra. }
  assert (R_of ss = X + Y - R_of s)%R as Ess' by (rewrite Es, Ess; ring).
  assert (Rabs (R_of hh + R_of h - (R_of ss + R_of e)) <= 6 * w2)%R as Dh'.
  { eapply Rle_trans; [exact Dh|]. mult_u Se. lra. }
  assert (Rabs (R_of ss + R_of e) <= m + 4 * w1)%R as Sse.
  { apply Rabs_le. apply Rabs_le_inv in Se, SX, Ss. lra. }
  assert (Rabs (R_of h) <= w1 + 16 * w2)%R as Sh'.
  { eapply Rle_trans; [exact Sh|]. mult_u Se. mult_u Sse. lra. }
  assert (Rabs (R_of t + R_of h) <= w1 + 17 * w2)%R as Sth.
  { apply Rabs_le. apply Rabs_le_inv in Sh', St. lra. }
  assert (Rabs (R_of e' - (R_of t + R_of h)) <= w2 + 17 * w3)%R as De'.
  { rewrite Ee'. eapply Rle_trans; [apply RN_sum_err; apply format_R|]. mult_u Sth. lra. }
  assert (Rabs (R_of e') <= 2 * w1)%R as Se'.
  { apply Rabs_le. apply Rabs_le_inv in Sth, De'. lra. }
  assert (Rabs (R_of hh + R_of e' - (dval x + (Y + y'))) <= 10 * w2)%R as Main.
  { unfold dval. fold X x'. apply Rabs_le. apply Rabs_le_inv in Dh', De, De'. lra. }
  cbn [hi lo]. unfold add_parts. cbn [fst snd]. fold ss tt. fold s t. fold e. fold hh. fold h. fold e'.
  split; [apply bf_weak with (k + 6 + 1); [lia|exact Bz]|].
  split; [apply bf_weak with (k + 6 + 3); [lia|exact Bl]|].
  split; [exact Ez|]. split; [|split].
    + apply signum_sum; cbn [hi lo]; try apply format_R; [apply Bz|apply Bl|exact Ez|].
      intros Z0. rewrite Z0 in Ez. apply RN_sum_0 in Z0; try apply format_R.
      assert (fis_finite hh = true) as Fhh by apply Bhh. assert (fis_finite zhi = true) as Fz by apply Bz.
      destruct (bf_sub (k + 7) hh zhi ltac:(lia) (bf_weak (k + 2 + 1) (k + 7) hh ltac:(lia) Bhh) (bf_weak (k + 6 + 1) (k + 7) zhi ltac:(lia) Bz)) as (Bd & Ed).
      rewrite Ez, Rminus_0_r, RN_id in Ed by apply format_R.
      destruct (bf_add (k + 8) e' (fsub hh zhi) ltac:(lia) (bf_weak (k + 5 + 1) (k + 8) e' ltac:(lia) Be') (bf_weak (k + 7 + 1) (k + 8) _ ltac:(lia) Bd)) as (_ & El).
      fold zlo in El. rewrite El, Ed, Rplus_comm, Z0. apply RN_0.
    + replace (10 * (u53 * u53) * m)%R with (10 * w2)%R by (rewrite W2, W1; ring). exact Main.
    + replace (16 * (u53 * u53) * m)%R with (16 * w2)%R by (rewrite W2, W1; ring).
    assert (Rabs (R_of zhi + R_of zlo - (R_of hh + R_of e')) <= 4 * w2)%R as Dz'.
    { eapply Rle_trans; [exact Dz|]. mult_u Se'. lra. }
    change (dval {| hi := zhi; lo := zlo |}) with (R_of zhi + R_of zlo)%R.
    apply Rabs_le. apply Rabs_le_inv in Main, Dz'. lra.
Qed.
Lemma dd_add_spec k x yh yl : -1000 <= k <= 1000 ->
  bf k (hi x) -> bf k yh -> bf k (lo x) -> bf k yl ->
  (Rabs (R_of (lo x)) <= u53 * Rabs (R_of (hi x)))%R -> (Rabs (R_of yl) <= u53 * Rabs (R_of yh))%R ->
  let z := dd_add_hi_lo x yh yl in
  let M := (Rabs (R_of (hi x)) + Rabs (R_of yh))%R in
  let v := (dval x + (R_of yh + R_of yl))%R in
  bf (k + 8) (hi z) /\ bf (k + 11) (lo z) /\
  (exists s, is_sign (dd_signum z) s /\ Rabs (s - v) <= 10 * (u53 * u53) * M)%R /\
  (Rabs (dval z - v) <= 16 * (u53 * u53) * M)%R.
Proof.
  intros K Bxh Byh Bxl Byl Nx Ny. cbv zeta.
  destruct (dd_add_full k x yh yl K Bxh Byh Bxl Byl Nx Ny) as (A & B & _ & C & D & E). cbv zeta in *.
  split; [exact A|]. split; [exact B|]. split; [|exact E]. eexists. split; [exact C|exact D].
Qed.

(** ** Ordering *)
Lemma normed_fin x : normed x -> dfin x.
Proof. now intros (F & _). Qed.
Lemma normed_of x : fis_finite x = true -> normed (dd_of x).
Proof.
  intros F. split; [split; [exact F|reflexivity]|]. unfold dval, dd_of. cbn [hi lo].
  rewrite R_f0, Rplus_0_r, RN_id; [reflexivity|apply format_R].
Qed.
Lemma dval_of x : dval (dd_of x) = R_of x.
Proof. unfold dval, dd_of. cbn [hi lo]. rewrite R_f0. ring. Qed.
Lemma normed_lt x y : normed x -> normed y ->
  (dval x < dval y <-> R_of (hi x) < R_of (hi y) \/ (R_of (hi x) = R_of (hi y) /\ R_of (lo x) < R_of (lo y)))%R.
Proof.
  intros (_ & Ex) (_ & Ey). split.
  - intros L. pose proof (RN_le _ _ (Rlt_le _ _ L)) as H. rewrite <- Ex, <- Ey in H. unfold dval in L.
    destruct (Rle_lt_or_eq_dec _ _ H); [left; assumption|right; lra].
  - intros [L|(E & L)]; [|unfold dval; lra].
    destruct (Rlt_or_le (dval x) (dval y)) as [K|K]; [exact K|]. apply RN_le in K. lra.
Qed.
Lemma normed_eq x y : normed x -> normed y ->
  (dval x = dval y <-> R_of (hi x) = R_of (hi y) /\ R_of (lo x) = R_of (lo y))%R.
Proof.
  intros (_ & Ex) (_ & Ey). split.
  - intros E. assert (R_of (hi x) = R_of (hi y)) by congruence. split; [assumption|]. unfold dval in E. lra.
  - intros (E & F). unfold dval. lra.
Qed.
Lemma dfin_hi x : dfin x -> fis_finite (hi x) = true.
Proof. now intros (A & _). Qed.
Lemma dfin_lo x : dfin x -> fis_finite (lo x) = true.
Proof. now intros (_ & A). Qed.
Lemma dfin_nan x : dfin x -> dd_is_nan x = false.
Proof. intros (A & _). unfold dd_is_nan. exact (nn_finite _ A). Qed.

Ltac dd_cmp :=
  intros;
  repeat match goal with H : normed _ |- _ => let F := fresh "F" in pose proof (normed_fin _ H) as F; revert H end; intros;
  unfold dd_equals, dd_gt, dd_ge, dd_lt, dd_le, fgtb, fgeb;
  change (@Bltb 53 1024) with fltb; change (@Bleb 53 1024) with fleb;
  rewrite ?orb_true_iff, ?andb_true_iff, ?fltb_true_R, ?fleb_true_R, ?feqb_true_R by (apply dfin_hi || apply dfin_lo; assumption).
Lemma dd_lt_R x y : normed x -> normed y -> (dd_lt x y = true <-> (dval x < dval y)%R).
Proof. dd_cmp. rewrite normed_lt by assumption. reflexivity. Qed.
Lemma dd_gt_R x y : normed x -> normed y -> (dd_gt x y = true <-> (dval y < dval x)%R).
Proof. dd_cmp. rewrite normed_lt by assumption. intuition lra. Qed.
Lemma dd_equals_R x y : normed x -> normed y -> (dd_equals x y = true <-> (dval x = dval y)%R).
Proof. dd_cmp. rewrite normed_eq by assumption. reflexivity. Qed.
Lemma dd_le_R x y : normed x -> normed y -> (dd_le x y = true <-> (dval x <= dval y)%R).
Proof.
  dd_cmp. unfold Rle at 2. rewrite normed_lt, normed_eq by assumption. unfold Rle. intuition lra.
Qed.
Lemma dd_ge_R x y : normed x -> normed y -> (dd_ge x y = true <-> (dval y <= dval x)%R).
Proof.
  dd_cmp. unfold Rle at 2. rewrite normed_lt, normed_eq by assumption. unfold Rle. intuition lra.
Qed.
Lemma dd_compare_R x y : normed x -> normed y -> is_sign (dd_compare x y) (dval x - dval y).
Proof.
  intros Nx Ny. destruct (normed_fin _ Nx) as (F1 & F2). destruct (normed_fin _ Ny) as (F3 & F4).
  pose proof (normed_lt x y Nx Ny) as A. pose proof (normed_lt y x Ny Nx) as B. pose proof (normed_eq x y Nx Ny) as C.
  unfold dd_compare, is_sign, fgtb. change (@Bltb 53 1024) with fltb.
  rewrite !fltb_R by assumption.
  destruct (Rlt_bool_spec (R_of (hi x)) (R_of (hi y))); [right; right; split; [reflexivity|]; enough (dval x < dval y)%R by lra; apply A; lra|].
  destruct (Rlt_bool_spec (R_of (hi y)) (R_of (hi x))); [left; split; [reflexivity|]; enough (dval y < dval x)%R by lra; apply B; lra|].
  assert (R_of (hi x) = R_of (hi y)) as E by lra.
  destruct (Rlt_bool_spec (R_of (lo x)) (R_of (lo y))); [right; right; split; [reflexivity|]; enough (dval x < dval y)%R by lra; apply A; lra|].
  destruct (Rlt_bool_spec (R_of (lo y)) (R_of (lo x))); [left; split; [reflexivity|]; enough (dval y < dval x)%R by lra; apply B; lra|].
  right; left; split; [reflexivity|]. enough (dval x = dval y)%R by lra. apply C. lra.
Qed.
Lemma dd_signum_compare x : dd_signum x = dd_compare x dd_default.
Proof.
  unfold dd_signum, dd_compare, dd_default. cbn [hi lo]. unfold fgtb. change (@Bltb 53 1024) with fltb.
  destruct (fltb f0 (hi x)) eqn:A, (fltb (hi x) f0) eqn:B; try reflexivity.
  - destruct (fltb_nn _ _ A). destruct (fltb_nn _ _ B). rewrite fltb_rank in A, B by assumption. lia.
  - destruct (fltb f0 (lo x)) eqn:C, (fltb (lo x) f0) eqn:D; try reflexivity.
    destruct (fltb_nn _ _ C). destruct (fltb_nn _ _ D). rewrite fltb_rank in C, D by assumption. lia.
Qed.
Lemma dd_signum_R x : normed x -> is_sign (dd_signum x) (dval x).
Proof.
  intros N. rewrite dd_signum_compare. replace (dval x) with (dval x - dval dd_default)%R.
  - apply dd_compare_R; [exact N|]. now apply (normed_of f0).
  - change dd_default with (dd_of f0). rewrite dval_of, R_f0. ring.
Qed.
Lemma dd_is_zero_R x : normed x -> (dd_is_zero x = true <-> dval x = 0%R).
Proof.
  intros N. change (dd_is_zero x) with (dd_equals x (dd_of f0)).
  rewrite dd_equals_R, dval_of by (assumption || now apply normed_of). rewrite R_f0. reflexivity.
Qed.
Lemma dd_is_negative_R x : normed x -> (dd_is_negative x = true <-> (dval x < 0)%R).
Proof.
  intros N. change (dd_is_negative x) with (dd_lt x (dd_of f0)).
  rewrite dd_lt_R, dval_of by (assumption || now apply normed_of). rewrite R_f0. reflexivity.
Qed.
Lemma dd_is_positive_R x : normed x -> (dd_is_positive x = true <-> (0 < dval x)%R).
Proof.
  intros N. change (dd_is_positive x) with (dd_gt x (dd_of f0)).
  rewrite dd_gt_R, dval_of by (assumption || now apply normed_of). rewrite R_f0. reflexivity.
Qed.
Lemma dd_neg_R x : normed x -> normed (dd_neg x) /\ dval (dd_neg x) = (- dval x)%R.
Proof.
  intros N. destruct (N) as ((F1 & F2) & E). unfold dd_neg. rewrite dfin_nan by (split; assumption).
  assert (dval {| hi := fneg (hi x); lo := fneg (lo x) |} = - dval x)%R as V.
  { unfold dval. cbn [hi lo]. rewrite !fneg_R. ring. }
  split; [|exact V]. split.
  - split; cbn [hi lo]; now rewrite fneg_fin.
  - rewrite V. cbn [hi]. now rewrite RN_opp, fneg_R, <- E.
Qed.
Lemma dd_abs_R x : normed x -> normed (dd_abs x) /\ dval (dd_abs x) = Rabs (dval x).
Proof.
  intros N. unfold dd_abs. rewrite (dfin_nan _ (normed_fin _ N)). destruct (dd_is_negative x) eqn:E.
  - apply dd_is_negative_R in E; [|exact N]. rewrite Rabs_left by exact E. now apply dd_neg_R.
  - split; [exact N|]. rewrite Rabs_pos_eq; [reflexivity|]. apply Rnot_lt_le. rewrite <- dd_is_negative_R by exact N. congruence.
Qed.
Lemma dd_min_R x y : normed x -> normed y -> (dd_min x y = x \/ dd_min x y = y) /\ dval (dd_min x y) = Rmin (dval x) (dval y).
Proof.
  intros Nx Ny. unfold dd_min. destruct (dd_le x y) eqn:E.
  - apply dd_le_R in E; try assumption. rewrite Rmin_left by exact E. auto.
  - rewrite Rmin_right; [auto|]. apply Rlt_le, Rnot_le_lt. rewrite <- dd_le_R by assumption. congruence.
Qed.
Lemma dd_max_R x y : normed x -> normed y -> (dd_max x y = x \/ dd_max x y = y) /\ dval (dd_max x y) = Rmax (dval x) (dval y).
Proof.
  intros Nx Ny. unfold dd_max. destruct (dd_ge x y) eqn:E.
  - apply dd_ge_R in E; try assumption. rewrite Rmax_left by exact E. auto.
  - rewrite Rmax_right; [auto|]. apply Rlt_le, Rnot_le_lt. rewrite <- dd_ge_R by assumption. congruence.
Qed.

(** ** Rounding to integers *)
Lemma feqb_self_int x r : fis_finite x = true -> fis_finite r = true -> R_of r = IZR (Zfloor (R_of x)) ->
  feqb r x = true -> R_of x = IZR (Zfloor (R_of x)).
Proof. intros Fx Fr E H. apply feqb_true_R in H; try assumption. congruence. Qed.
Lemma floor_shift n r : Zfloor (IZR n + r) = n + Zfloor r.
Proof.
  apply Zfloor_imp. rewrite !plus_IZR. pose proof (Zfloor_lb r). pose proof (Zfloor_ub r). lra.
Qed.
Lemma ceil_shift n r : Zceil (IZR n + r) = n + Zceil r.
Proof.
  unfold Zceil. replace (- (IZR n + r))%R with (IZR (- n) + - r)%R by (rewrite opp_IZR; ring).
  rewrite floor_shift. lia.
Qed.
Lemma dd_floor_R x : normed x -> dfin (dd_floor x) /\ dval (dd_floor x) = IZR (Zfloor (dval x)).
Proof.
  intros N. destruct (N) as ((F1 & F2) & E). unfold dd_floor. rewrite dfin_nan by (split; assumption).
  pose proof (ffloor_R (hi x)) as Eh. pose proof (ffloor_fin (hi x)) as Fh. rewrite F1 in Fh.
  pose proof (ffloor_R (lo x)) as El. pose proof (ffloor_fin (lo x)) as Fl. rewrite F2 in Fl.
  destruct (feqb (ffloor (hi x)) (hi x)) eqn:Q; unfold dfin, dval; cbn [hi lo].
  - apply feqb_true_R in Q; try assumption. split; [auto|]. rewrite El. rewrite Eh in Q. rewrite Eh, <- Q.
    rewrite floor_shift, plus_IZR. now rewrite Zfloor_IZR.
  - split; [auto|]. rewrite R_f0, Rplus_0_r, Eh. f_equal.
    assert (IZR (Zfloor (R_of (hi x))) <> R_of (hi x)) as Q'.
    { intros C. rewrite <- Eh in C. apply feqb_true_R in C; try assumption. congruence. }
    pose proof (Zfloor_lb (R_of (hi x))). pose proof (Zfloor_ub (R_of (hi x))).
    pose proof (fceil_R (hi x)) as Ec. rewrite Zceil_floor_neq, plus_IZR in Ec by exact Q'.
    symmetry. apply Zfloor_imp. rewrite plus_IZR.
    change (R_of (hi x) + R_of (lo x))%R with (dval x). split.
    + apply Rnot_lt_le. intros C. apply Rlt_le, RN_le in C. rewrite <- E in C.
      rewrite RN_id in C by (rewrite <- Eh; apply format_R). lra.
    + apply Rnot_le_lt. intros C. apply RN_le in C. rewrite <- E in C.
      rewrite RN_id in C by (rewrite <- Ec; apply format_R). lra.
Qed.
Lemma dd_ceil_R x : normed x -> dfin (dd_ceil x) /\ dval (dd_ceil x) = IZR (Zceil (dval x)).
Proof.
  intros N. destruct (N) as ((F1 & F2) & E). unfold dd_ceil. rewrite dfin_nan by (split; assumption).
  pose proof (fceil_R (hi x)) as Eh. pose proof (fceil_fin (hi x)) as Fh. rewrite F1 in Fh.
  pose proof (fceil_R (lo x)) as El. pose proof (fceil_fin (lo x)) as Fl. rewrite F2 in Fl.
  destruct (feqb (fceil (hi x)) (hi x)) eqn:Q; unfold dfin, dval; cbn [hi lo].
  - apply feqb_true_R in Q; try assumption. split; [auto|]. rewrite El. rewrite Eh in Q. rewrite Eh, <- Q.
    rewrite ceil_shift, plus_IZR. now rewrite Zceil_IZR.
  - split; [auto|]. rewrite R_f0, Rplus_0_r, Eh. f_equal.
    assert (IZR (Zfloor (R_of (hi x))) <> R_of (hi x)) as Q'.
    { intros C. assert (IZR (Zceil (R_of (hi x))) = R_of (hi x)) as D by (rewrite <- C at 1; rewrite Zceil_IZR; exact C).
      rewrite <- Eh in D. apply feqb_true_R in D; try assumption. congruence. }
    pose proof (Zfloor_lb (R_of (hi x))). pose proof (Zfloor_ub (R_of (hi x))).
    rewrite Zceil_floor_neq in * by exact Q'. rewrite plus_IZR in Eh.
    pose proof (ffloor_R (hi x)) as Ec.
    symmetry. apply Zceil_imp. rewrite plus_IZR, minus_IZR, plus_IZR.
    change (R_of (hi x) + R_of (lo x))%R with (dval x). split.
    + apply Rnot_le_lt. intros C. replace (IZR (Zfloor (R_of (hi x))) + 1 - 1)%R with (IZR (Zfloor (R_of (hi x)))) in C by ring.
      apply RN_le in C. rewrite <- E in C.
      rewrite RN_id in C by (rewrite <- Ec; apply format_R). lra.
    + apply Rnot_lt_le. intros C. apply Rlt_le, RN_le in C. rewrite <- E in C.
      rewrite RN_id in C by (rewrite <- Eh; apply format_R). lra.
Qed.
Lemma dd_trunc_R x : normed x -> dfin (dd_trunc x) /\ dval (dd_trunc x) = IZR (Ztrunc (dval x)).
Proof.
  intros N. unfold dd_trunc. rewrite (dfin_nan _ (normed_fin _ N)). destruct (dd_is_positive x) eqn:P.
  - apply dd_is_positive_R in P; [|exact N]. rewrite Ztrunc_floor by lra. now apply dd_floor_R.
  - assert (dval x <= 0)%R as Q by (apply Rnot_lt_le; rewrite <- dd_is_positive_R by exact N; congruence).
    rewrite Ztrunc_ceil by lra. now apply dd_ceil_R.
Qed.

(** ** Powers *)
Lemma dd_pow_fuel fuel n r s : 0 <= n < 2 ^ Z.of_nat fuel -> exists z, dd_pow_loop (S fuel) n r s = Some z.
Proof.
  revert n r s. induction fuel as [|fuel IH]; intros n r s H.
  - change (2 ^ Z.of_nat 0) with 1 in H. replace n with 0 by lia. cbn. eauto.
  - rewrite Nat2Z.inj_succ, Z.pow_succ_r in H by lia. remember (S fuel) as f eqn:Ef. cbn [dd_pow_loop].
    destruct (n >? 0); [|eauto]. subst f. apply IH.
    rewrite Z.quot_div_nonneg by lia. split; [apply Z.div_pos; lia|]. apply Z.div_lt_upper_bound; lia.
Qed.
Lemma dd_pow_total x e : - 2 ^ 31 < e < 2 ^ 31 -> exists z, dd_pow x e = Ok (Some z).
Proof.
  intros H. unfold dd_pow. destruct (e =? 0); [eauto|]. unfold i32_chk.
  destruct ((i32_min <=? Z.abs e) && (Z.abs e <=? i32_max)) eqn:C.
  - cbn [bind]. destruct (Z.abs e >? 1).
    + destruct (dd_pow_fuel 32 (Z.abs e) x (dd_of f1)) as (z & Hz).
      { change (2 ^ Z.of_nat 32) with (2 * 2 ^ 31). lia. }
      rewrite Hz. eauto.
    + eauto.
  - unfold i32_min, i32_max in C. lia.
Qed.

(** ** Bounds relative to the value *)
Lemma normed_hi_val x : normed x ->
  (Rabs (dval x) <= (1 + / 1024) * Rabs (R_of (hi x)))%R /\ (Rabs (R_of (hi x)) <= (1 + / 1000) * Rabs (dval x))%R.
Proof.
  intros N. pose proof (normed_lo x N) as H. unfold dval. pose proof u53_small as U. pose proof u53_pos as U0.
  pose proof (Rabs_pos (R_of (hi x))) as P.
  assert (Rabs (R_of (lo x)) <= / 1024 * Rabs (R_of (hi x)))%R as H' by (eapply Rle_trans; [exact H|]; now apply Rmult_le_compat_r).
  pose proof (Rabs_triang (R_of (hi x)) (R_of (lo x))).
  pose proof (Rabs_triang (R_of (hi x) + R_of (lo x)) (- R_of (lo x))) as T. rewrite Rabs_Ropp in T.
  replace (R_of (hi x) + R_of (lo x) + - R_of (lo x))%R with (R_of (hi x)) in T by ring. lra.
Qed.
Lemma bf_lo k x : normed x -> bf k (hi x) -> bf k (lo x).
Proof.
  intros N (_ & B). destruct (N) as ((_ & F) & _). split; [exact F|].
  pose proof (normed_lo x N). pose proof u53_small. pose proof u53_pos. pose proof (Rabs_pos (R_of (hi x))). nra.
Qed.
Lemma bf_nn k x : bf k x -> fis_nan x = false.
Proof. intros (F & _). exact (nn_finite _ F). Qed.
Lemma is_sign_close z s v e : is_sign z s -> (Rabs (s - v) <= e)%R -> (e < Rabs v)%R -> is_sign z v.
Proof.
  intros H D L. apply Rabs_le_inv in D. unfold is_sign in *.
  destruct (Rtotal_order v 0) as [G|[G|G]].
  - rewrite Rabs_left in L by assumption. destruct H as [(_ & ?)|[(_ & ?)|(? & ?)]]; try lra. auto.
  - rewrite G, Rabs_R0 in L. lra.
  - rewrite Rabs_pos_eq in L by lra. destruct H as [(? & ?)|[(_ & ?)|(_ & ?)]]; try lra. auto.
Qed.
(** Equal numbers subtract to zero exactly. *)
Lemma dd_sub_zero k x y : -1000 <= k <= 1000 -> normed x -> normed y -> bf k (hi x) -> bf k (hi y) ->
  dval x = dval y -> dd_signum (dd_self_sub x y) = 0.
Proof.
  intros K Nx Ny Bx By E. apply normed_eq in E; try assumption. destruct E as (Eh & El).
  unfold dd_self_sub, dd_is_nan. rewrite (bf_nn _ _ Bx). unfold dd_add_hi_lo.
  destruct (two_sum_bf k (hi x) (fneg (hi y)) ltac:(lia) Bx (bf_neg _ _ By)) as (Bss & Ess & Bs & Es). cbv zeta in *.
  destruct (two_sum_bf k (lo x) (fneg (lo y)) ltac:(lia) (bf_lo _ _ Nx Bx) (bf_neg _ _ (bf_lo _ _ Ny By))) as (Btt & Ett & Bt & Et). cbv zeta in *.
  set (ss := fadd (hi x) (fneg (hi y))) in *. set (tt := fadd (lo x) (fneg (lo y))) in *.
  set (s := fadd (fsub (fneg (hi y)) (fsub ss (hi x))) (fsub (hi x) (fsub ss (fsub ss (hi x))))) in *.
  set (t := fadd (fsub (fneg (lo y)) (fsub tt (lo x))) (fsub (lo x) (fsub tt (fsub tt (lo x))))) in *.
  rewrite fneg_R, Eh, Rplus_opp_r, RN_0 in Ess. rewrite fneg_R, El, Rplus_opp_r, RN_0 in Ett.
  rewrite fneg_R, Eh, Rplus_opp_r, RN_0, Rminus_0_r in Es. rewrite fneg_R, El, Rplus_opp_r, RN_0, Rminus_0_r in Et.
  destruct (add_zero_like s tt (bf_fin _ _ Bs) (bf_fin _ _ Btt) Ett) as (Fe & Ee). rewrite Es in Ee. set (e := fadd s tt) in *.
  destruct (add_zero_like ss e (bf_fin _ _ Bss) Fe Ee) as (Fh & Ehh). rewrite Ess in Ehh. set (hh := fadd ss e) in *.
  assert (forall a b, fis_finite a = true -> fis_finite b = true -> R_of a = 0%R -> R_of b = 0%R ->
    fis_finite (fsub a b) = true /\ R_of (fsub a b) = 0%R) as SZ.
  { intros a b Fa Fb Ea Eb. destruct (fsub_R a b Fa Fb) as (F & V).
    - rewrite Ea, Eb, Rminus_0_r, RN_0, Rabs_R0. apply bpow_gt_0.
    - split; [exact F|]. now rewrite V, Ea, Eb, Rminus_0_r, RN_0. }
  destruct (SZ ss hh (bf_fin _ _ Bss) Fh Ess Ehh) as (Fd & Ed).
  destruct (add_zero_like e (fsub ss hh) Fe Fd Ed) as (Fh2 & Eh2). rewrite Ee in Eh2. set (h := fadd e (fsub ss hh)) in *.
  destruct (add_zero_like t h (bf_fin _ _ Bt) Fh2 Eh2) as (Fe2 & Ee2). rewrite Et in Ee2. set (e2 := fadd t h) in *.
  destruct (add_zero_like hh e2 Fh Fe2 Ee2) as (Fz & Ez). rewrite Ehh in Ez. set (zhi := fadd hh e2) in *.
  destruct (SZ hh zhi Fh Fz Ehh Ez) as (Fd2 & Ed2).
  destruct (add_zero_like e2 (fsub hh zhi) Fe2 Fd2 Ed2) as (Fl & El2). rewrite Ee2 in El2.
  unfold dd_signum. cbn [hi lo]. unfold fgtb. change (@Bltb 53 1024) with fltb.
  rewrite !fltb_R by (assumption || reflexivity). rewrite Ez, El2, R_f0. now rewrite Rlt_bool_false by lra.
Qed.
