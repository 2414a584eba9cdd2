(** The sign of a sum of two double-doubles is exact. *)
From Coq Require Import ZArith Bool Reals Lia Lra Psatz.
From Flocq Require Import Core Sterbenz Plus_error BinarySingleNaN.
From Verif Require Import Base F64 F64Facts F64Round F64Err DD_model DD_spec DD_proofs.
Open Scope Z_scope.

(** A sum of two doubles that is not zero is not below half a unit in the last
    place of either. *)
Lemma sum_gap a b : fmt a -> fmt b -> fmt (a + b)%R -> (a + b <> 0)%R -> (u53 * Rabs a <= 2 * Rabs (a + b))%R.
Proof.
  intros Fa Fb Fs N.
  assert (round radix2 (FLT_exp (-1074) 53) ZnearestE (a + b) = (a + b)%R) as E.
  { apply round_generic; [apply valid_rnd_N|exact Fs]. }
  pose proof (round_plus_ge_ulp radix2 (FLT_exp (-1074) 53) ZnearestE a b Fa Fb) as H. rewrite E in H. specialize (H N).
  destruct (Req_dec a 0) as [->|A0]; [rewrite Rabs_R0, Rmult_0_r; pose proof (Rabs_pos (0 + b)); lra|].
  pose proof (ulp_FLT_gt radix2 (-1074) 53 (a / IZR radix2)) as G.
  change (IZR radix2) with 2%R in *. unfold Rdiv in G at 1. rewrite Rabs_mult, (Rabs_pos_eq (/ 2)) in G by lra.
  change (- (53)) with (-53) in G. lra.
Qed.
(** A sum of two doubles small against both is a double. *)
Lemma close_sum_fmt a b : fmt a -> fmt b -> (4 * Rabs (a + b) <= Rabs a)%R -> fmt (a + b)%R.
Proof.
  intros Fa Fb H. replace (a + b)%R with (a - (- b))%R in * by ring. 
  destruct (Rle_or_lt 0 a) as [P|P].
  - apply sterbenz; [typeclasses eauto..|exact Fa|now apply generic_format_opp|]. rewrite (Rabs_pos_eq a) in H by lra.
    assert (Rabs (a - - b) <= a / 4)%R as D by lra. apply Rabs_le_inv in D. lra.
  - replace (a - - b)%R with (- ((- a) - b))%R by ring. apply generic_format_opp.
    apply sterbenz; [typeclasses eauto..|now apply generic_format_opp|exact Fb|]. rewrite (Rabs_left a) in H by lra.
    assert (Rabs (a - - b) <= - a / 4)%R as D by lra. apply Rabs_le_inv in D. lra.
Qed.
(** When the sum is tiny against its terms the last renormalisation is fed the
    exact sum. *)
Lemma add_parts_exact k x yh yl : -1000 <= k <= 1000 ->
  bf k (hi x) -> bf k yh -> bf k (lo x) -> bf k yl ->
  (Rabs (R_of (lo x)) <= u53 * Rabs (R_of (hi x)))%R -> (Rabs (R_of yl) <= u53 * Rabs (R_of yh))%R ->
  let M := (Rabs (R_of (hi x)) + Rabs (R_of yh))%R in
  let v := (dval x + (R_of yh + R_of yl))%R in
  (Rabs v <= 10 * (u53 * u53) * M)%R ->
  (R_of (fst (add_parts x yh yl)) + R_of (snd (add_parts x yh yl)) = v)%R.
Proof.
  intros K Bxh Byh Bxl Byl Nx Ny. cbv zeta. unfold add_parts. cbv zeta. cbn [fst snd].
  destruct (two_sum_bf k (hi x) yh ltac:(lia) Bxh Byh) as (Bss & Ess & Bs & Es). cbv zeta in *.
  destruct (two_sum_bf k (lo x) yl ltac:(lia) Bxl Byl) as (Btt & Ett & Bt & Et). cbv zeta in *.
  set (ss := fadd (hi x) yh) in *. set (tt := fadd (lo x) yl) in *.
  set (s := fadd (fsub yh (fsub ss (hi x))) (fsub (hi x) (fsub ss (fsub ss (hi x))))) in *.
  set (t := fadd (fsub yl (fsub tt (lo x))) (fsub (lo x) (fsub tt (fsub tt (lo x))))) in *.
  unfold dval. set (X := R_of (hi x)) in *. set (x' := R_of (lo x)) in *. set (Y := R_of yh) in *. set (y' := R_of yl) in *.
  set (m := (Rabs X + Rabs Y)%R).
  assert (0 <= m)%R as M0 by (unfold m; pose proof (Rabs_pos X); pose proof (Rabs_pos Y); lra).
  pose proof u53_pos as U0. pose proof u53_small as U1. intros V.
  assert (exists w1 w2, w1 = u53 * m /\ w2 = u53 * w1 /\ 0 <= w2 /\ w2 <= w1 / 1024 /\ w1 <= m / 1024)%R
    as (w1 & w2 & W1 & W2 & P2 & P1 & P0).
  { exists (u53 * m)%R, (u53 * (u53 * m))%R.
    assert (0 <= u53 * m)%R by (apply Rmult_le_pos; lra).
    repeat split; try (apply Rmult_le_pos; lra); apply Rmult_le_compat_l with (r := m) in U1; try lra; nra. }
  assert (Rabs (X + x' + (Y + y')) <= 10 * w2)%R as V'.
  { replace (10 * w2)%R with (10 * (u53 * u53) * m)%R by (rewrite W2, W1; ring). exact V. } clear V.
  assert (Rabs (x' + y') <= w1)%R as Sx.
  { eapply Rle_trans; [apply Rabs_triang|]. rewrite W1. unfold m. lra. }
  assert (Rabs (X + Y) <= w1 + 10 * w2)%R as SX.
  { apply Rabs_le. apply Rabs_le_inv in V', Sx. lra. }
  assert (m <= 3 * Rabs X)%R as MX.
  { assert (Rabs Y <= Rabs X + Rabs (X + Y))%R as T.
    { replace Y with (- X + (X + Y))%R at 1 by ring. eapply Rle_trans; [apply Rabs_triang|]. rewrite Rabs_Ropp. lra. }
    unfold m in *. lra. }
  assert (fmt (X + Y)%R) as FS by (apply close_sum_fmt; [apply format_R|apply format_R|fold X Y; lra]).
  assert (R_of ss = X + Y)%R as Ess' by (rewrite Ess; now apply RN_id).
  assert (R_of s = 0)%R as Es' by (rewrite Es, (RN_id (X + Y)%R) by exact FS; ring).
  assert (Rabs (R_of t) <= w2)%R as St.
  { rewrite Et, Rabs_minus_sym. eapply Rle_trans; [apply RN_sum_err; apply format_R|]. fold x' y'. mult_u Sx. lra. }
  assert (R_of tt = x' + y' - R_of t)%R as Ett' by (rewrite Et, Ett; ring).
  destruct (bf_add (k + 1) s tt ltac:(lia) (bf_weak k (k + 1) s ltac:(lia) Bs) Btt) as (Be & Ee). set (e := fadd s tt) in *.
  rewrite Es', Rplus_0_l, RN_id in Ee by apply format_R.
  assert (Rabs (R_of ss + R_of e) <= 11 * w2)%R as Sse.
  { rewrite Ess', Ee, Ett'. apply Rabs_le. apply Rabs_le_inv in V', St. lra. }
  assert (fmt (R_of ss + R_of e)%R) as FE.
  { destruct (Req_dec (R_of ss) 0) as [Z|N]; [rewrite Z, Rplus_0_l; apply format_R|].
    apply close_sum_fmt; [apply format_R|apply format_R|].
    rewrite Ess' in N. pose proof (sum_gap X Y (format_R _) (format_R _) FS N) as G. rewrite <- Ess' in G.
    mult_u MX. assert (w1 <= 6 * Rabs (R_of ss))%R by lra.
    assert (w2 <= u53 * (6 * Rabs (R_of ss)))%R by (rewrite W2; apply Rmult_le_compat_l; lra).
    assert (u53 * Rabs (R_of ss) <= / 1024 * Rabs (R_of ss))%R by (apply Rmult_le_compat_r; [apply Rabs_pos|lra]). lra. }
  destruct (bf_add (k + 2) ss e ltac:(lia) (bf_weak (k + 1) (k + 2) ss ltac:(lia) Bss) (bf_weak (k + 1 + 1) (k + 2) e ltac:(lia) Be)) as (Bhh & Ehh).
  set (hh := fadd ss e) in *. rewrite RN_id in Ehh by exact FE.
  destruct (bf_sub (k + 3) ss hh ltac:(lia) (bf_weak (k + 1) (k + 3) ss ltac:(lia) Bss) (bf_weak (k + 2 + 1) (k + 3) hh ltac:(lia) Bhh)) as (Bd & Ed).
  replace (R_of ss - R_of hh)%R with (R_of (fneg e)) in Ed by (rewrite fneg_R; lra). rewrite RN_id, fneg_R in Ed by apply format_R.
  destruct (bf_add (k + 4) e (fsub ss hh) ltac:(lia) (bf_weak (k + 1 + 1) (k + 4) e ltac:(lia) Be) (bf_weak (k + 3 + 1) (k + 4) _ ltac:(lia) Bd)) as (Bh & Eh).
  rewrite Ed, Rplus_opp_r, RN_0 in Eh. set (h := fadd e (fsub ss hh)) in *.
  destruct (add_zero_like t h (bf_fin _ _ Bt) (bf_fin _ _ Bh) Eh) as (_ & Ee').
  rewrite Ee', Ehh, Ess', Ee, Ett'. ring.
Qed.
Lemma dd_add_sign k x yh yl : -1000 <= k <= 1000 ->
  bf k (hi x) -> bf k yh -> bf k (lo x) -> bf k yl ->
  (Rabs (R_of (lo x)) <= u53 * Rabs (R_of (hi x)))%R -> (Rabs (R_of yl) <= u53 * Rabs (R_of yh))%R ->
  is_sign (dd_signum (dd_add_hi_lo x yh yl)) (dval x + (R_of yh + R_of yl)).
Proof.
  intros K Bxh Byh Bxl Byl Nx Ny.
  destruct (dd_add_full k x yh yl K Bxh Byh Bxl Byl Nx Ny) as (_ & _ & _ & S & D & _). cbv zeta in *.
  destruct (Rle_or_lt (Rabs (dval x + (R_of yh + R_of yl))) (10 * (u53 * u53) * (Rabs (R_of (hi x)) + Rabs (R_of yh)))) as [L|L].
  - rewrite <- (add_parts_exact k x yh yl K Bxh Byh Bxl Byl Nx Ny L). exact S.
  - exact (is_sign_close _ _ _ _ S D L).
Qed.
Lemma dd_sub_sign_all k x y : -1000 <= k <= 1000 ->
  normed x -> normed y -> bf k (hi x) -> bf k (hi y) ->
  is_sign (dd_signum (dd_self_sub x y)) (dval x - dval y).
Proof.
  intros K Nx Ny Bx By. unfold dd_self_sub, dd_is_nan. rewrite (bf_nn _ _ Bx).
  replace (dval x - dval y)%R with (dval x + (R_of (fneg (hi y)) + R_of (fneg (lo y))))%R by (rewrite !fneg_R; unfold dval; ring).
  apply (dd_add_sign k); try assumption; [now apply bf_neg|now apply bf_lo|now apply bf_neg, bf_lo|now apply normed_lo|].
  rewrite !fneg_R, !Rabs_Ropp. now apply normed_lo.
Qed.
