(** The sum of two normalised double-doubles is normalised, and intersection
    points computed in double-double arithmetic.  Proof support only. *)
From Coq Require Import ZArith Bool Reals Lia Lra Psatz.
From Flocq Require Import Core Sterbenz BinarySingleNaN.
From Verif Require Import Base F64 F64Facts F64Round F64Err DD_model DD_spec DD_proofs DD_more.
Open Scope Z_scope.

Notation cx64 := (cexp radix2 fexp64).
Lemma mult_cexp r : fmt r -> mult (cx64 r) r.
Proof. intros F. exists (Ztrunc (scaled_mantissa radix2 fexp64 r)). exact F. Qed.
Lemma mult_weak e f r : e <= f -> mult f r -> mult e r.
Proof. intros L (n & ->). now apply mult_scale. Qed.
Lemma cexp_le a b : a <> 0%R -> (Rabs a <= Rabs b)%R -> cx64 a <= cx64 b.
Proof. intros A L. unfold cexp. apply fexp64_mono. now apply mag_le_abs. Qed.
Lemma fmt_below q r : mult (cx64 q) r -> (Rabs r <= Rabs q)%R -> fmt r.
Proof.
  intros (n & E) L. destruct (Req_dec r 0) as [->|N]; [apply generic_format_0|].
  apply generic_format_F2R' with (f := Float radix2 n (cx64 q)); [now rewrite E|]. intros _. cbn [Fexp]. now apply cexp_le.
Qed.
Lemma below_ulp r : r <> 0%R -> (u53 * Rabs r <= bp (cx64 r))%R.
Proof.
  intros N. assert (Rabs r < bp (mag radix2 r))%R as H by (apply bpow_mag_gt).
  assert (mag radix2 r - 53 <= cx64 r) as C by (unfold cexp, SpecFloat.fexp; lia).
  apply Rle_trans with (bp (mag radix2 r - 53)); [|now apply bpow_le].
  unfold Zminus. rewrite bpow_plus, Rmult_comm. apply Rmult_le_compat_r; [apply bpow_ge_0|lra].
Qed.

Lemma add_order_le X x' Y y' ss s tt t e hh h e' : fmt X -> fmt x' -> fmt Y -> fmt y' ->
  (Rabs x' <= u53 * Rabs X -> Rabs y' <= u53 * Rabs Y -> Rabs Y <= Rabs X ->
  ss = RN (X + Y) -> s = X + Y - ss -> tt = RN (x' + y') -> t = x' + y' - tt ->
  e = RN (s + tt) -> hh = RN (ss + e) -> h = RN (e + RN (ss - hh)) -> e' = RN (t + h) ->
  fmt t -> fmt s -> fmt h ->
  Rabs h <= u53 * Rabs (ss + e) + 4 * u53 * Rabs e ->
  hh = 0 \/ Rabs e' <= Rabs hh)%R.
Proof.
  intros FX Fx FY Fy Nx Ny YX Ess Es Ett Et Ee Ehh Eh Ee' Ft Fs Fh Sh.
  pose proof u53_pos as U0. pose proof u53_small as U1.
  pose proof (Rabs_pos X) as PX. pose proof (Rabs_pos Y) as PY.
  assert (fmt ss) as Fss by (rewrite Ess; apply generic_format_round; auto with typeclass_instances).
  assert (fmt tt) as Ftt by (rewrite Ett; apply generic_format_round; auto with typeclass_instances).
  assert (fmt e) as Fe by (rewrite Ee; apply generic_format_round; auto with typeclass_instances).
  assert (Rabs (tt - (x' + y')) <= u53 * Rabs (x' + y'))%R as Dt by (rewrite Ett; now apply RN_sum_err).
  assert (Rabs (hh - (ss + e)) <= u53 * Rabs (ss + e))%R as Dh by (rewrite Ehh; now apply RN_sum_err).
  assert (Rabs (e' - (t + h)) <= u53 * Rabs (t + h))%R as De' by (rewrite Ee'; now apply RN_sum_err).
  assert (Rabs (e - (s + tt)) <= u53 * Rabs (s + tt))%R as De by (rewrite Ee; now apply RN_sum_err).
  destruct (Rle_or_lt (Rabs X / 2) (Rabs (X + Y))) as [Big|Small].
  - right.
    assert (exists w, w = u53 * Rabs X /\ 0 <= w <= Rabs X / 1024)%R as (w & W & W0).
    { eexists. split; [reflexivity|]. split; [apply Rmult_le_pos; lra|nra]. }
    assert (u53 * Rabs Y <= w)%R as Wy by (rewrite W; apply Rmult_le_compat_l; lra).
    assert (Rabs (x' + y') <= 2 * w)%R as A1 by (eapply Rle_trans; [apply Rabs_triang|]; lra).
    assert (u53 * Rabs (x' + y') <= w / 512)%R as A2 by (pose proof (Rabs_pos (x' + y')); nra).
    assert (Rabs (X + Y) <= 2 * Rabs X)%R as A3 by (eapply Rle_trans; [apply Rabs_triang|]; lra).
    assert (Rabs (ss - (X + Y)) <= 2 * w)%R as A4.
    { rewrite Ess. eapply Rle_trans; [now apply RN_sum_err|]. rewrite W. nra. }
    assert (Rabs s <= 2 * w)%R as A5 by (rewrite Es, Rabs_minus_sym; exact A4).
    assert (Rabs t <= w / 512)%R as A6.
    { rewrite Et, Rabs_minus_sym. lra. }
    assert (Rabs tt <= 3 * w)%R as A7.
    { apply Rabs_le. apply Rabs_le_inv in A1. assert (Rabs (tt - (x' + y')) <= w / 512)%R as A by lra. apply Rabs_le_inv in A. lra. }
    assert (Rabs (s + tt) <= 5 * w)%R as A8 by (eapply Rle_trans; [apply Rabs_triang|]; lra).
    assert (u53 * Rabs (s + tt) <= 5 * w / 1024)%R as A9 by (pose proof (Rabs_pos (s + tt)); nra).
    assert (Rabs e <= 6 * w)%R as A10.
    { apply Rabs_le. apply Rabs_le_inv in A8. assert (Rabs (e - (s + tt)) <= 5 * w / 1024)%R as A by lra. apply Rabs_le_inv in A. lra. }
    assert (Rabs X / 2 - 8 * w <= Rabs (ss + e))%R as A11.
    { assert (Rabs (X + Y) <= Rabs (ss + e) + Rabs (X + Y - (ss + e)))%R as T.
      { replace (X + Y)%R with ((ss + e) + (X + Y - (ss + e)))%R at 1 by ring. apply Rabs_triang. }
      assert (Rabs (X + Y - (ss + e)) <= 8 * w)%R by (apply Rabs_le; apply Rabs_le_inv in A4, A10; lra). lra. }
    assert (Rabs (ss + e) <= 3 * Rabs X)%R as A12.
    { apply Rabs_le. apply Rabs_le_inv in A4, A10, A3. lra. }
    assert (u53 * Rabs (ss + e) <= 3 * w)%R as A13 by (rewrite W; nra).
    assert (Rabs X / 2 - 11 * w <= Rabs hh)%R as A14.
    { assert (Rabs (ss + e) <= Rabs hh + Rabs (hh - (ss + e)))%R as T.
      { replace (ss + e)%R with (hh - (hh - (ss + e)))%R at 1 by ring. eapply Rle_trans; [apply Rabs_triang|]. rewrite Rabs_Ropp. lra. }
      lra. }
    assert (Rabs h <= 4 * w)%R as A15 by (assert (u53 * Rabs e <= 6 * w / 1024)%R by (pose proof (Rabs_pos e); nra); lra).
    assert (Rabs (t + h) <= 5 * w)%R as A16 by (eapply Rle_trans; [apply Rabs_triang|]; lra).
    assert (Rabs e' <= 6 * w)%R as A17.
    { assert (u53 * Rabs (t + h) <= w)%R as A by (pose proof (Rabs_pos (t + h)); nra).
      apply Rabs_le. apply Rabs_le_inv in A16. assert (Rabs (e' - (t + h)) <= w)%R as B by lra. apply Rabs_le_inv in B. lra. }
    lra.
  - assert (X <> 0)%R as X0. { intros ->. rewrite Rabs_R0 in *. pose proof (Rabs_pos (0 + Y)). lra. }
    assert (fmt (X + Y)) as FXY.
    { replace (X + Y)%R with (X - - Y)%R by ring.
      unfold Rabs in Small, YX.
      destruct (Rle_or_lt 0 X) as [P|P].
      - apply sterbenz; auto with typeclass_instances; [now apply generic_format_opp|].
        destruct (Rcase_abs X), (Rcase_abs (X + Y)), (Rcase_abs Y); lra.
      - replace (X - - Y)%R with (- (- X - Y))%R by ring. apply generic_format_opp.
        apply sterbenz; auto with typeclass_instances; [now apply generic_format_opp|].
        destruct (Rcase_abs X), (Rcase_abs (X + Y)), (Rcase_abs Y); lra. }
    assert (ss = X + Y)%R as Hss by (rewrite Ess; now apply RN_id).
    assert (s = 0)%R as Hs by lra.
    assert (e = tt) as He by (rewrite Ee, Hs, Rplus_0_l; now apply RN_id).
    assert (Rabs X <= 2 * Rabs Y)%R as XY.
    { unfold Rabs in *. destruct (Rcase_abs X), (Rcase_abs (X + Y)), (Rcase_abs Y); lra. }
    assert (Y <> 0)%R as Y0. { intros ->. rewrite Rabs_R0 in XY. apply X0. destruct (Req_dec X 0) as [Q|Q]; [exact Q|]. apply Rabs_pos_lt in Q. lra. }
    destruct (Req_dec ss 0) as [S0|S0].
    { rewrite He, S0, Rplus_0_l in Ehh. rewrite RN_id in Ehh by exact Ftt.
      assert (h = 0)%R as H0.
      { rewrite Eh, S0, Rminus_0_l, (RN_id (- hh)), He, Ehh by (rewrite Ehh; now apply generic_format_opp).
        replace (tt + - tt)%R with 0%R by ring. apply RN_0. }
      rewrite H0, Rplus_0_r, RN_id in Ee' by exact Ft.
      right. rewrite Ee', Ehh. assert (Rabs t <= u53 * Rabs (x' + y'))%R as T by (rewrite Et, Rabs_minus_sym; exact Dt).
      pose proof (Rabs_pos (x' + y')) as Q.
      assert (Rabs (x' + y') <= Rabs tt + Rabs (tt - (x' + y')))%R as T2.
      { replace (x' + y')%R with (tt - (tt - (x' + y')))%R at 1 by ring. eapply Rle_trans; [apply Rabs_triang|]. rewrite Rabs_Ropp. lra. }
      nra. }
    set (c := cx64 Y). pose proof (below_ulp Y Y0) as G. fold c in G.
    assert (0 < bp c)%R as G0 by apply bpow_gt_0. set (g := bp c) in *.
    assert (mult c ss) as Ms.
    { rewrite Hss. apply mult_add; [apply mult_weak with (cx64 X); [now apply cexp_le|now apply mult_cexp]|now apply mult_cexp]. }
    assert (g <= Rabs ss)%R as Gs.
    { destruct (Rle_or_lt g (Rabs ss)) as [Q|Q]; [exact Q|]. exfalso. now apply S0, (mult_small c). }
    assert (u53 * Rabs X <= 2 * (u53 * Rabs Y))%R as XY' by nra.
    assert (Rabs (x' + y') <= 3 * (u53 * Rabs Y))%R as B1 by (eapply Rle_trans; [apply Rabs_triang|]; lra).
    assert (u53 * Rabs (x' + y') <= g / 100)%R as B2 by (pose proof (Rabs_pos (x' + y')); nra).
    assert (Rabs t <= g / 100)%R as B3 by (rewrite Et, Rabs_minus_sym; lra).
    assert (Rabs tt <= 4 * g)%R as B4.
    { apply Rabs_le. apply Rabs_le_inv in B1. assert (Rabs (tt - (x' + y')) <= g / 100)%R as A by lra. apply Rabs_le_inv in A. lra. }
    assert (Rabs tt <= Rabs Y)%R as B5.
    { assert (u53 * Rabs Y <= Rabs Y / 1024)%R as Q by nra.
      assert (u53 * Rabs (x' + y') <= Rabs Y / 100)%R as Q2 by (pose proof (Rabs_pos (x' + y')); nra).
      apply Rabs_le. apply Rabs_le_inv in B1. assert (Rabs (tt - (x' + y')) <= Rabs Y / 100)%R as A by lra. apply Rabs_le_inv in A. lra. }
    rewrite He in *.
    destruct (Rle_or_lt (g / 2) (Rabs (ss + tt))) as [L|L].
    + right.
      set (q := Rabs (ss + tt)) in *.
      assert (u53 * q <= q / 1024)%R as Q1 by nra.
      assert (q - q / 1024 <= Rabs hh)%R as Q2.
      { assert (q <= Rabs hh + Rabs (hh - (ss + tt)))%R as T.
        { unfold q. replace (ss + tt)%R with (hh - (hh - (ss + tt)))%R at 1 by ring. eapply Rle_trans; [apply Rabs_triang|]. rewrite Rabs_Ropp. lra. }
        lra. }
      assert (u53 * Rabs tt <= 4 * g / 1024)%R as Q3 by (pose proof (Rabs_pos tt); nra).
      assert (Rabs (t + h) <= g / 100 + q / 1024 + 16 * g / 1024)%R as Q4 by (eapply Rle_trans; [apply Rabs_triang|]; lra).
      assert (u53 * Rabs (t + h) <= Rabs (t + h))%R as Q5 by (pose proof (Rabs_pos (t + h)); nra).
      assert (Rabs e' <= 2 * Rabs (t + h))%R as Q6.
      { replace e' with ((t + h) + (e' - (t + h)))%R by ring. eapply Rle_trans; [apply Rabs_triang|]. lra. }
      lra.
    + assert (g / 2 < Rabs tt)%R as T1.
      { assert (Rabs ss <= Rabs (ss + tt) + Rabs tt)%R; [|lra].
        replace ss with ((ss + tt) - tt)%R at 1 by ring. eapply Rle_trans; [apply Rabs_triang|]. rewrite Rabs_Ropp. lra. }
      assert (tt <> 0)%R as T0 by (intros Q; rewrite Q, Rabs_R0 in T1; lra).
      assert (mult (cx64 tt) (ss + tt)) as Mt.
      { apply mult_add; [|now apply mult_cexp]. apply mult_weak with c; [now apply cexp_le|exact Ms]. }
      assert (hh = ss + tt)%R as Hh.
      { rewrite Ehh. apply RN_id. apply (fmt_below tt); [exact Mt|lra]. }
      assert (h = 0)%R as H0.
      { rewrite Eh, Hh. replace (ss - (ss + tt))%R with (- tt)%R by ring. rewrite (RN_id (- tt)) by now apply generic_format_opp.
        replace (tt + - tt)%R with 0%R by ring. apply RN_0. }
      rewrite H0, Rplus_0_r, RN_id in Ee' by exact Ft. rewrite Ee'.
      destruct (Req_dec hh 0) as [Z|Z]; [now left|]. right.
      assert (bp (cx64 tt) <= Rabs hh)%R as Lh.
      { destruct (Rle_or_lt (bp (cx64 tt)) (Rabs hh)) as [Q|Q]; [exact Q|]. exfalso. apply Z. rewrite Hh in *. now apply (mult_small (cx64 tt)). }
      pose proof (error_le_half_ulp_round radix2 fexp64 (fun x => negb (Z.even x)) (x' + y')) as Hu.
      change (round radix2 fexp64 (Znearest (fun x => negb (Z.even x))) (x' + y')) with (RN (x' + y')) in Hu.
      rewrite <- Ett, ulp_neq_0 in Hu by exact T0. rewrite Et, Rabs_minus_sym. pose proof (bpow_gt_0 radix2 (cx64 tt)). lra.
Qed.

(** ** The sum is normalised *)
Lemma dd_add_normed_le k x yh yl : -1000 <= k <= 1000 ->
  bf k (hi x) -> bf k yh -> bf k (lo x) -> bf k yl ->
  (Rabs (R_of (lo x)) <= u53 * Rabs (R_of (hi x)))%R -> (Rabs (R_of yl) <= u53 * Rabs (R_of yh))%R ->
  normed (dd_add_hi_lo x yh yl).
Proof.
  intros K Bxh Byh Bxl Byl Nx Ny. unfold dd_add_hi_lo.
  destruct (two_sum_bf k (hi x) yh ltac:(lia) Bxh Byh) as (Bss & Ess & Bs & Es). cbv zeta in *.
  destruct (two_sum_bf k (lo x) yl ltac:(lia) Bxl Byl) as (Btt & Ett & Bt & Et). cbv zeta in *.
  set (ss := fadd (hi x) yh) in *. set (tt := fadd (lo x) yl) in *.
  set (s := fadd (fsub yh (fsub ss (hi x))) (fsub (hi x) (fsub ss (fsub ss (hi x))))) in *.
  set (t := fadd (fsub yl (fsub tt (lo x))) (fsub (lo x) (fsub tt (fsub tt (lo x))))) in *.
  destruct (bf_add (k + 1) s tt ltac:(lia) (bf_weak k (k + 1) s ltac:(lia) Bs) Btt) as (Be & Ee). set (e := fadd s tt) in *.
  destruct (fast_any (k + 2) ss e ltac:(lia) (bf_weak (k + 1) (k + 2) ss ltac:(lia) Bss) (bf_weak (k + 1 + 1) (k + 2) e ltac:(lia) Be))
    as (Bhh & Ehh & Bh & Dh & Sh). cbv zeta in *. set (hh := fadd ss e) in *.
  destruct (bf_sub (k + 3) ss hh ltac:(lia) (bf_weak (k + 1) (k + 3) ss ltac:(lia) Bss) (bf_weak (k + 2 + 1) (k + 3) hh ltac:(lia) Bhh)) as (Bg & Eg).
  destruct (bf_add (k + 4) e (fsub ss hh) ltac:(lia) (bf_weak (k + 1 + 1) (k + 4) e ltac:(lia) Be) (bf_weak (k + 3 + 1) (k + 4) _ ltac:(lia) Bg)) as (_ & Eh).
  set (h := fadd e (fsub ss hh)) in *.
  destruct (bf_add (k + 5) t h ltac:(lia) (bf_weak k (k + 5) t ltac:(lia) Bt) (bf_weak (k + 2 + 3) (k + 5) h ltac:(lia) Bh)) as (Be' & Ee').
  set (e' := fadd t h) in *.
  assert (R_of hh = 0 \/ Rabs (R_of e') <= Rabs (R_of hh))%R as Ord.
  { rewrite Eg in Eh. rewrite <- Ess in Es. rewrite <- Ett in Et.
    destruct (Rle_or_lt (Rabs (R_of yh)) (Rabs (R_of (hi x)))) as [L|L].
    - apply (add_order_le (R_of (hi x)) (R_of (lo x)) (R_of yh) (R_of yl) (R_of ss) (R_of s) (R_of tt) (R_of t) (R_of e) (R_of hh) (R_of h) (R_of e'));
        try apply format_R; assumption.
    - apply (add_order_le (R_of yh) (R_of yl) (R_of (hi x)) (R_of (lo x)) (R_of ss) (R_of s) (R_of tt) (R_of t) (R_of e) (R_of hh) (R_of h) (R_of e'));
        try apply format_R; try assumption; try lra; rewrite (Rplus_comm (R_of yh)) || rewrite (Rplus_comm (R_of yl)); assumption. }
  destruct Ord as [Z|L].
  - destruct (bf_add (k + 6) hh e' ltac:(lia) (bf_weak (k + 2 + 1) (k + 6) hh ltac:(lia) Bhh) (bf_weak (k + 5 + 1) (k + 6) e' ltac:(lia) Be')) as (Bz & Ez).
    set (zhi := fadd hh e') in *. rewrite Z, Rplus_0_l, RN_id in Ez by apply format_R.
    destruct (bf_sub (k + 7) hh zhi ltac:(lia) (bf_weak (k + 2 + 1) (k + 7) hh ltac:(lia) Bhh) (bf_weak (k + 6 + 1) (k + 7) zhi ltac:(lia) Bz)) as (Bd & Ed).
    rewrite Z, Ez, Rminus_0_l, RN_id in Ed by (apply generic_format_opp, format_R).
    destruct (bf_add (k + 8) e' (fsub hh zhi) ltac:(lia) (bf_weak (k + 5 + 1) (k + 8) e' ltac:(lia) Be') (bf_weak (k + 7 + 1) (k + 8) _ ltac:(lia) Bd)) as (Bl & El).
    rewrite Ed in El. replace (R_of e' + - R_of e')%R with 0%R in El by ring. rewrite RN_0 in El.
    split; [split; [apply Bz|apply Bl]|]. unfold dval. cbn [hi lo]. rewrite El, Rplus_0_r, RN_id; [reflexivity|apply format_R].
  - destruct (fast_two_sum_bf (k + 6) hh e' ltac:(lia) (bf_weak (k + 2 + 1) (k + 6) hh ltac:(lia) Bhh) (bf_weak (k + 5 + 1) (k + 6) e' ltac:(lia) Be') L)
      as (Bz & Ez & Bl & El). cbv zeta in *.
    split; [split; [apply Bz|apply Bl]|]. unfold dval. cbn [hi lo]. rewrite El, Ez.
    f_equal. ring.
Qed.
Lemma dd_add_normed k x y : -1000 <= k <= 1000 -> normed x -> normed y -> bf k (hi x) -> bf k (hi y) -> normed (dd_add x y).
Proof.
  intros K Nx Ny Bx By. apply (dd_add_normed_le k); auto using bf_lo, normed_lo.
Qed.
Lemma dd_self_sub_normed k x y : -1000 <= k <= 1000 -> normed x -> normed y -> bf k (hi x) -> bf k (hi y) -> normed (dd_self_sub x y).
Proof.
  intros K Nx Ny Bx By. unfold dd_self_sub, dd_is_nan. rewrite (bf_nn _ _ Bx).
  apply (dd_add_normed_le k); auto using bf_lo, normed_lo, bf_neg. rewrite !fneg_R, !Rabs_Ropp. now apply normed_lo.
Qed.
Lemma dd_self_sub_error k x y : -1000 <= k <= 1000 -> normed x -> normed y -> bf k (hi x) -> bf k (hi y) ->
  (Rabs (dval (dd_self_sub x y) - (dval x - dval y)) <= 17 * (u53 * u53) * (Rabs (dval x) + Rabs (dval y)))%R.
Proof.
  intros K Nx Ny Bx By. unfold dd_self_sub, dd_is_nan. rewrite (bf_nn _ _ Bx).
  pose proof (dd_add_spec k x (fneg (hi y)) (fneg (lo y)) K Bx (bf_neg _ _ By) (bf_lo _ _ Nx Bx) (bf_neg _ _ (bf_lo _ _ Ny By)) (normed_lo x Nx)) as S.
  rewrite !fneg_R, !Rabs_Ropp in S. cbv zeta in S. destruct (S (normed_lo y Ny)) as (_ & _ & _ & E).
  replace (dval x + (- R_of (hi y) + - R_of (lo y)))%R with (dval x - dval y)%R in E by (unfold dval; ring).
  eapply Rle_trans; [exact E|].
  pose proof (normed_hi_val x Nx) as (_ & Hx2). pose proof (normed_hi_val y Ny) as (_ & Hy2).
  assert (0 <= u53 * u53)%R as U by (pose proof u53_pos; apply Rmult_le_pos; lra).
  assert (Rabs (R_of (hi x)) + Rabs (R_of (hi y)) <= (1 + / 1000) * (Rabs (dval x) + Rabs (dval y)))%R as M by lra.
  apply (Rmult_le_compat_l _ _ _ U) in M. pose proof (Rabs_pos (dval x)). pose proof (Rabs_pos (dval y)).
  assert (0 <= u53 * u53 * (Rabs (dval x) + Rabs (dval y)))%R by (apply Rmult_le_pos; lra). lra.
Qed.

(** ** Multiples of a power of two, without a bound on the number of bits *)
Definition dm (k e : Z) (z : DD) : Prop := normed z /\ bf k (hi z) /\ mult e (dval z).
Lemma dm_weak k l e z : k <= l -> dm k e z -> dm l e z.
Proof. intros L (N & B & M). split; [exact N|]. split; [now apply bf_weak with k|exact M]. Qed.
Lemma dm_parts k e z : -1074 <= e -> dm k e z -> bm k e (hi z) /\ bm k e (lo z).
Proof.
  intros E (N & B & M). assert (mult e (R_of (hi z))) as Mh by (destruct N as (_ & ->); now apply mult_RN).
  split; split; auto; [now apply bf_lo|].
  replace (R_of (lo z)) with (dval z - R_of (hi z))%R by (unfold dval; ring). now apply mult_sub.
Qed.
Lemma mult_mul e f a b : mult e a -> mult f b -> mult (e + f) (a * b).
Proof. intros (n & ->) (m & ->). exists (n * m). rewrite mult_IZR, bpow_plus. ring. Qed.
Lemma mult_ge e r : mult e r -> r <> 0%R -> (bp e <= Rabs r)%R.
Proof. intros M N. destruct (Rle_or_lt (bp e) (Rabs r)) as [L|L]; [exact L|]. exfalso. now apply N, (mult_small e). Qed.
Lemma add_mult k e x yh yl : -900 <= k <= 900 -> -1074 <= e -> bm k e (hi x) -> bm k e (lo x) -> bm k e yh -> bm k e yl ->
  mult e (dval (dd_add_hi_lo x yh yl)).
Proof.
  intros K E Bxh Bxl Byh Byl. unfold dval, dd_add_hi_lo. cbn [hi lo].
  assert (forall i j f g, i <= j -> j <= 1000 -> -1000 <= i -> bm i e f -> bm j e g -> bm (j + 1) e (fadd f g)) as AA
    by (intros i j f g ? ? ? Hf Hg; apply bm_add; try lia; [now apply bm_weak with i|exact Hg]).
  assert (forall i j f g, i <= j -> j <= 1000 -> -1000 <= i -> bm i e f -> bm j e g -> bm (j + 1) e (fsub f g)) as SS
    by (intros i j f g ? ? ? Hf Hg; apply bm_sub; try lia; [now apply bm_weak with i|exact Hg]).
  pose proof (AA k k (hi x) yh ltac:(lia) ltac:(lia) ltac:(lia) Bxh Byh) as Bss. set (ss := fadd (hi x) yh) in *.
  pose proof (AA k k (lo x) yl ltac:(lia) ltac:(lia) ltac:(lia) Bxl Byl) as Btt. set (tt := fadd (lo x) yl) in *.
  destruct (two_sum_bf k (hi x) yh ltac:(lia) (proj1 Bxh) (proj1 Byh)) as (_ & Ess & Bs & Es). cbv zeta in *.
  destruct (two_sum_bf k (lo x) yl ltac:(lia) (proj1 Bxl) (proj1 Byl)) as (_ & Ett & Bt & Et). cbv zeta in *.
  fold ss in Bs, Es. fold tt in Bt, Et.
  set (s := fadd (fsub yh (fsub ss (hi x))) (fsub (hi x) (fsub ss (fsub ss (hi x))))) in *.
  set (t := fadd (fsub yl (fsub tt (lo x))) (fsub (lo x) (fsub tt (fsub tt (lo x))))) in *.
  assert (bm k e s) as Ms.
  { split; [exact Bs|]. rewrite Es. apply mult_sub; [apply mult_add; [apply Bxh|apply Byh]|]. apply mult_RN; [lia|].
    apply mult_add; [apply Bxh|apply Byh]. }
  assert (bm k e t) as Mt.
  { split; [exact Bt|]. rewrite Et. apply mult_sub; [apply mult_add; [apply Bxl|apply Byl]|]. apply mult_RN; [lia|].
    apply mult_add; [apply Bxl|apply Byl]. }
  pose proof (AA k (k + 1) s tt ltac:(lia) ltac:(lia) ltac:(lia) Ms Btt) as Be. set (e1 := fadd s tt) in *.
  pose proof (AA (k + 1) (k + 1 + 1) ss e1 ltac:(lia) ltac:(lia) ltac:(lia) Bss Be) as Bhh. set (hh := fadd ss e1) in *.
  pose proof (SS (k + 1) (k + 1 + 1 + 1) ss hh ltac:(lia) ltac:(lia) ltac:(lia) Bss Bhh) as Bg.
  pose proof (AA (k + 1 + 1) (k + 1 + 1 + 1 + 1) e1 (fsub ss hh) ltac:(lia) ltac:(lia) ltac:(lia) Be Bg) as Bh. set (h := fadd e1 (fsub ss hh)) in *.
  pose proof (AA k (k + 1 + 1 + 1 + 1 + 1) t h ltac:(lia) ltac:(lia) ltac:(lia) Mt Bh) as Be2. set (e2 := fadd t h) in *.
  pose proof (AA (k + 1 + 1 + 1) (k + 1 + 1 + 1 + 1 + 1 + 1) hh e2 ltac:(lia) ltac:(lia) ltac:(lia) Bhh Be2) as Bzh. set (zh := fadd hh e2) in *.
  pose proof (SS (k + 1 + 1 + 1) (k + 1 + 1 + 1 + 1 + 1 + 1 + 1) hh zh ltac:(lia) ltac:(lia) ltac:(lia) Bhh Bzh) as Bg2.
  pose proof (AA (k + 1 + 1 + 1 + 1 + 1 + 1) (k + 1 + 1 + 1 + 1 + 1 + 1 + 1 + 1) e2 (fsub hh zh) ltac:(lia) ltac:(lia) ltac:(lia) Be2 Bg2) as Bzl.
  apply mult_add; [apply Bzh|apply Bzl].
Qed.
Lemma bm_neg k e x : bm k e x -> bm k e (fneg x).
Proof. intros (B & M). split; [now apply bf_neg|]. rewrite fneg_R. now apply mult_opp. Qed.
(** Difference of two numbers. *)
Lemma dm_sub k e x y : -800 <= k <= 800 -> -1074 <= e -> dm k e x -> dm k e y -> dm (k + 8) e (dd_self_sub x y).
Proof.
  intros K E Dx Dy. destruct (dm_parts k e x E Dx) as (Xh & Xl). destruct (dm_parts k e y E Dy) as (Yh & Yl).
  destruct Dx as (Nx & Bx & Mx), Dy as (Ny & By & My).
  split; [now apply (dd_self_sub_normed k); try lia|].
  unfold dd_self_sub, dd_is_nan. rewrite (bf_nn _ _ Bx). split.
  - pose proof (dd_add_spec k x (fneg (hi y)) (fneg (lo y)) ltac:(lia) Bx (bf_neg _ _ By) (bf_lo _ _ Nx Bx) (bf_neg _ _ (bf_lo _ _ Ny By)) (normed_lo x Nx)) as S.
    rewrite !fneg_R, !Rabs_Ropp in S. cbv zeta in S. apply (S (normed_lo y Ny)).
  - apply (add_mult k); auto using bm_neg; lia.
Qed.
(** Product of two numbers. *)
Lemma dm_mul k l e f x y : -400 <= k <= 400 -> -400 <= l <= 400 -> -400 <= e -> -400 <= f -> -890 <= e + f ->
  dm k e x -> dm l f y ->
  let z := dd_mul x y in
  dm (k + l + 8) (e + f) z /\ (Rabs (dval z - dval x * dval y) <= 10 * (u53 * u53) * Rabs (dval x * dval y))%R.
Proof.
  intros K L E F EF Dx Dy. cbv zeta. destruct (dm_parts k e x ltac:(lia) Dx) as (Xh & Xl). destruct (dm_parts l f y ltac:(lia) Dy) as (Yh & Yl).
  destruct Dx as (Nx & Bx & Mx), Dy as (Ny & By & My).
  unfold dd_mul, dd_self_mul, dd_is_nan. rewrite (bf_nn _ _ By).
  assert (ok_prod (R_of (hi x) * R_of (hi y))) as OK.
  { destruct (Req_dec (R_of (hi x) * R_of (hi y)) 0) as [Z|Z]; [now left|right].
    apply Rle_trans with (bp (e + f)); [apply bpow_le; lia|]. apply mult_ge; [|exact Z]. apply mult_mul; [apply Xh|apply Yh]. }
  destruct (dd_mul_spec k l x (hi y) (lo y) ltac:(lia) ltac:(lia) Bx By (bf_lo _ _ Nx Bx) (bf_lo _ _ Ny By) (normed_lo x Nx) (normed_lo y Ny) OK) as (N & B & _ & D).
  cbv zeta in *. split.
  - split; [exact N|]. split; [exact B|].
    unfold dval, dd_mul_hi_lo. cbn [hi lo]. change SPLIT with SPLIT64.
    destruct (dekker_f64 k l (hi x) (hi y) ltac:(lia) ltac:(lia) ltac:(lia) Bx By) as (Bp & Ep & Bt & Et). cbv zeta in *.
    set (cc := fmul (hi x) (hi y)) in *.
    set (t4 := fadd _ (fmul (fsub (hi x) _) (fsub (hi y) _))) in *.
    assert (forall u v, bm k e u -> bm l f v -> bm (k + l) (e + f) (fmul u v)) as MM.
    { intros u v (Bu & Mu) (Bv & Mv). destruct (bf_mul k l u v ltac:(lia) Bu Bv) as (B1 & E1). split; [exact B1|].
      rewrite E1. apply mult_RN; [lia|]. now apply mult_mul. }
    assert (bm (k + l) (e + f) cc) as Mc by (apply MM; assumption).
    assert (bm (k + l + 5) (e + f) t4) as M4.
    { split; [exact Bt|]. rewrite Et. unfold dekker.
      assert (forall j r, -1074 <= j -> mult j r -> mult j (vsplit r)) as VS.
      { intros j r J M. unfold vsplit. assert (mult j (RN (r * (bp 27 + 1)))) as P.
        { apply mult_RN; [exact J|]. destruct M as (n & ->). exists (n * (2 ^ 27 + 1)). rewrite mult_IZR, plus_IZR.
          replace (bp 27) with (IZR (2 ^ 27)) by reflexivity. ring. }
        apply mult_RN; [exact J|]. apply mult_add; [|exact P]. apply mult_RN; [exact J|]. now apply mult_sub. }
      assert (forall j r, -1074 <= j -> mult j r -> mult j (vtail r)) as VT.
      { intros j r J M. unfold vtail. apply mult_RN; [exact J|]. apply mult_sub; [exact M|now apply VS]. }
      destruct Xh as (_ & Xh), Yh as (_ & Yh).
      repeat first [assumption | apply VS; [lia|assumption] | apply VT; [lia|assumption] | apply mult_RN; [lia|] | apply mult_add | apply mult_sub | apply mult_opp | apply mult_mul]. }
    pose proof (bm_add (k + l) (e + f) _ _ ltac:(lia) ltac:(lia) (MM (hi x) (lo y) Xh Yl) (MM (lo x) (hi y) Xl Yh)) as M3.
    pose proof (bm_add (k + l + 5) (e + f) t4 _ ltac:(lia) ltac:(lia) M4 (bm_weak (k + l + 1) (k + l + 5) _ _ M3 ltac:(lia))) as MC.
    set (c := fadd t4 _) in *.
    pose proof (bm_add (k + l + 5 + 1) (e + f) cc c ltac:(lia) ltac:(lia) (bm_weak (k + l) (k + l + 5 + 1) _ _ Mc ltac:(lia)) MC) as Mz.
    pose proof (bm_sub (k + l + 5 + 1 + 1) (e + f) cc _ ltac:(lia) ltac:(lia) (bm_weak (k + l) (k + l + 5 + 1 + 1) _ _ Mc ltac:(lia)) Mz) as Mg.
    pose proof (bm_add (k + l + 5 + 1 + 1 + 1) (e + f) c _ ltac:(lia) ltac:(lia) (bm_weak (k + l + 5 + 1) (k + l + 5 + 1 + 1 + 1) _ _ MC ltac:(lia)) Mg) as Ml.
    apply mult_add; [apply Mz|apply Ml].
  - change (R_of (hi y) + R_of (lo y))%R with (dval y) in D. eapply Rle_trans; [exact D|].
    pose proof (normed_hi_val x Nx) as (_ & Hx2). pose proof (normed_hi_val y Ny) as (_ & Hy2).
    assert (0 <= u53 * u53)%R as U by (pose proof u53_pos; apply Rmult_le_pos; lra).
    assert (Rabs (R_of (hi x) * R_of (hi y)) <= (1 + / 1000) * (1 + / 1000) * Rabs (dval x * dval y))%R as M.
    { rewrite !Rabs_mult. replace ((1 + / 1000) * (1 + / 1000) * (Rabs (dval x) * Rabs (dval y)))%R
        with (((1 + / 1000) * Rabs (dval x)) * ((1 + / 1000) * Rabs (dval y)))%R by ring.
      apply Rmult_le_compat; auto using Rabs_pos. }
    apply (Rmult_le_compat_l _ _ _ U) in M.
    pose proof (Rmult_le_pos _ _ U (Rabs_pos (dval x * dval y))). lra.
Qed.
