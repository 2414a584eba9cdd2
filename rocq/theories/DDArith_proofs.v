(** Error bounds of the quotient, reciprocal, powers and square root of
    double-double numbers. *)
From Coq Require Import ZArith Bool Reals Lia Lra Psatz.
From Flocq Require Import Core BinarySingleNaN Plus_error.
From Verif Require Import Base F64 F64Facts F64Round F64Err NumLink DD_model DD_spec DD_proofs DD_more DD_props.
Open Scope Z_scope.

(** ** Reciprocal *)
Lemma fsub_neg_zero a b : fsub a b = B754_zero true -> a = B754_zero true.
Proof.
  intros E. destruct (fis_finite a) eqn:Fa.
  2:{ destruct a, b; try discriminate; destruct s, s0; discriminate. }
  destruct (fis_finite b) eqn:Fb; [|destruct a, b; try discriminate; destruct s, s0; discriminate].
  pose proof (Bminus_correct 53 1024 _ _ mode_NE a b Fa Fb) as C. change (Bminus mode_NE a b) with (fsub a b) in C. rewrite E in C.
  destruct (Rlt_bool _ _) eqn:L.
  - destruct C as (C1 & _ & C3). cbn [B2R Bsign] in C1, C3.
    assert (B2R a - B2R b = 0)%R as Z.
    { assert (B2R a + - B2R b = 0)%R; [|lra]. apply RN_sum_0; [apply format_R|apply generic_format_opp, format_R|]. symmetry. exact C1. }
    rewrite Z, Rcompare_Eq in C3 by reflexivity.
    symmetry in C3. apply andb_true_iff in C3. destruct C3 as (S1 & S2).
    destruct a as [sa|sa| |sa ma ea Ha]; try discriminate; cbn in S1; subst sa; [reflexivity|].
    exfalso. destruct b as [sb|sb| |sb mb eb Hb]; try discriminate; destruct sb; try discriminate; cbn in Z.
    assert (F2R (Float radix2 (Z.neg ma) ea) < 0)%R by (apply F2R_lt_0; cbn; lia).
    assert (0 < F2R (Float radix2 (Z.pos mb) eb))%R by (apply F2R_gt_0; cbn; lia). lra.
  - destruct C as (C1 & _). cbn in C1. discriminate.
Qed.
Lemma fadd_f0 v : v <> B754_zero true -> fadd v f0 = v.
Proof.
  intros N. destruct v as [[]|s| |s m e H]; try reflexivity; try congruence.
Qed.
Lemma recip_div x : dd_recip x = dd_div (dd_of f1) x.
Proof.
  rewrite dd_div_unroll. unfold dd_recip, dd_div_hi_lo, dd_of. cbn [hi lo].
  set (cc := fdiv f1 (hi x)). set (uu := fmul cc (hi x)). cbv zeta. fold uu.
  set (u := fadd (fadd (fadd (fsub _ uu) _) _) _).
  rewrite (fadd_f0 (fsub (fsub f1 uu) u)); [reflexivity|].
  intros E. apply fsub_neg_zero in E. apply fsub_neg_zero in E. discriminate.
Qed.

(** ** Relative errors *)
Lemma rel_mul p q c d : (Rabs (p - 1) <= c -> Rabs (q - 1) <= d -> Rabs (p * q - 1) <= c + d + c * d)%R.
Proof.
  intros Hp Hq. replace (p * q - 1)%R with ((p - 1) + (q - 1) + (p - 1) * (q - 1))%R by ring.
  eapply Rle_trans; [apply Rabs_triang|]. apply Rplus_le_compat.
  - eapply Rle_trans; [apply Rabs_triang|]. lra.
  - rewrite Rabs_mult. apply Rmult_le_compat; auto using Rabs_pos.
Qed.
Lemma rel_inv p c : (c <= / 50 -> Rabs (p - 1) <= c -> Rabs (/ p - 1) <= c + 2 * c * c)%R.
Proof.
  intros Hc Hp. pose proof (Rabs_pos (p - 1)) as C0. apply Rabs_le_inv in Hp. assert (0 < p)%R as P by lra.
  assert (/ p - 1 = (1 - p) / p)%R as -> by (field; lra).
  unfold Rdiv. rewrite Rabs_mult, (Rabs_pos_eq (/ p)) by (apply Rlt_le, Rinv_0_lt_compat, P).
  apply (Rmult_le_reg_r p); [exact P|]. rewrite Rmult_assoc, Rinv_l, Rmult_1_r by lra.
  assert (Rabs (1 - p) <= c)%R by (apply Rabs_le; lra). 
  assert ((c + 2 * c * c) * (1 - c) <= (c + 2 * c * c) * p)%R by (apply Rmult_le_compat_l; nra). nra.
Qed.
(** The quotient. *)
Lemma quotient_bound x y : normed x -> normed y ->
  (bp (-300) <= Rabs (R_of (hi x)) <= bp 300)%R -> (bp (-300) <= Rabs (R_of (hi y)) <= bp 300)%R ->
  normed (dd_div x y) /\ (Rabs (dval (dd_div x y) * dval y - dval x) <= 21 * (u53 * u53) * Rabs (dval x))%R.
Proof.
  intros Nx Ny Bx By. rewrite dd_div_unroll. pose proof Nx as ((F1 & F2) & _). pose proof Ny as ((F3 & F4) & _).
  destruct (dd_div_spec x (hi y) (lo y) F1 Bx F3 By F2 (normed_lo x Nx) F4 (normed_lo y Ny)) as (N & E). cbv zeta in *.
  split; [exact N|]. eapply Rle_trans; [exact E|]. pose proof (normed_hi_val x Nx) as (_ & H).
  assert (0 <= u53 * u53)%R as U by (pose proof u53_pos; apply Rmult_le_pos; lra).
  apply Rle_trans with (20 * (u53 * u53) * ((1 + / 1000) * Rabs (dval x)))%R; [apply Rmult_le_compat_l; lra|].
  pose proof (Rmult_le_pos _ _ U (Rabs_pos (dval x))). lra.
Qed.

(** ** Powers *)
Lemma pow_le1 y k : (0 <= y <= 1 -> y ^ k <= 1)%R.
Proof. intros H. pose proof (pow_incr y 1 k H) as P. now rewrite pow1 in P. Qed.
Definition d10 : R := (10 * (u53 * u53))%R.
Lemma d10_pos : (0 < d10)%R.
Proof. unfold d10. pose proof u53_pos. assert (0 < u53 * u53)%R by (apply Rmult_lt_0_compat; assumption). lra. Qed.
Lemma uu_val : (u53 * u53 = bp (-106))%R.
Proof. rewrite <- bpow_plus. reflexivity. Qed.
Lemma d10_small : (d10 <= bp (-102))%R.
Proof.
  unfold d10. rewrite uu_val. replace (bp (-102)) with (16 * bp (-106))%R; [pose proof (bpow_ge_0 radix2 (-106)); lra|].
  change (-102) with (-106 + 1 + 1 + 1 + 1). rewrite !bp_S. ring.
Qed.
Definition fac (K : nat) (t : R) : Prop := ((1 - d10) ^ K <= t <= (1 + d10) ^ K)%R.
Lemma fac_1 : fac 0 1.
Proof. unfold fac. simpl. lra. Qed.
Lemma d10_half : (d10 <= / 2)%R.
Proof. pose proof d10_small. pose proof (bpow_le radix2 (-102) (-1) ltac:(lia)) as H1. change (bp (-1)) with (/ 2)%R in H1. lra. Qed.
Lemma fac_weak K L t : (K <= L)%nat -> fac K t -> fac L t.
Proof.
  intros H (A & B). pose proof d10_pos. pose proof d10_half. split.
  - eapply Rle_trans; [|exact A]. replace L with (K + (L - K))%nat by lia. rewrite pow_add.
    rewrite <- (Rmult_1_r ((1 - d10) ^ K)) at 2. apply Rmult_le_compat_l; [apply pow_le; lra|].
    apply pow_le1. lra.
  - eapply Rle_trans; [exact B|]. apply Rle_pow; [lra|exact H].
Qed.
Lemma fac_mul K L s t r : fac K s -> fac L t -> (1 - d10 <= r <= 1 + d10)%R -> fac (S (K + L)) (s * t * r).
Proof.
  intros (A & B) (C & D) (E & F). pose proof d10_pos. pose proof d10_half.
  assert (0 < (1 - d10) ^ K)%R by (apply pow_lt; lra). assert (0 < (1 - d10) ^ L)%R by (apply pow_lt; lra).
  unfold fac. replace (S (K + L)) with (K + L + 1)%nat by lia. rewrite !pow_add, !pow_1. split.
  - apply Rmult_le_compat; try lra; [apply Rmult_le_pos; lra|]. apply Rmult_le_compat; lra.
  - apply Rmult_le_compat; try lra; [apply Rmult_le_pos; lra|]. apply Rmult_le_compat; lra.
Qed.
Lemma fac_bound K t : (INR K * d10 <= / 2)%R -> fac K t ->
  (Rabs (t - 1) <= 2 * INR K * d10 /\ Rabs (/ t - 1) <= 2 * INR K * d10 /\ / 2 <= t <= 2)%R.
Proof.
  intros H (A & B). pose proof d10_pos. pose proof d10_half. pose proof (pos_INR K) as PK.
  assert (1 - INR K * d10 <= (1 - d10) ^ K)%R as L.
  { clear - H0 H1. induction K as [|K IH]; [simpl; lra|]. rewrite S_INR. simpl pow. pose proof (pos_INR K).
    apply Rle_trans with ((1 - d10) * (1 - INR K * d10))%R; [|apply Rmult_le_compat_l; lra].
    assert (0 <= INR K * d10 * d10)%R by (apply Rmult_le_pos; [apply Rmult_le_pos|]; lra). lra. }
  assert ((1 + d10) ^ K * (1 - INR K * d10) <= 1)%R as U.
  { apply Rle_trans with ((1 + d10) ^ K * (1 - d10) ^ K)%R; [apply Rmult_le_compat_l; [apply pow_le; lra|exact L]|].
    rewrite <- Rpow_mult_distr. apply pow_le1. 
    assert (0 <= d10 * d10)%R by (apply Rmult_le_pos; lra). assert (d10 * d10 <= d10 * 1)%R by (apply Rmult_le_compat_l; lra). lra. }
  set (x := (INR K * d10)%R) in *. assert (0 <= x)%R as X0 by (apply Rmult_le_pos; lra).
  assert ((1 + d10) ^ K <= 1 + 2 * x)%R as U'.
  { apply (Rmult_le_reg_r (1 - x)); [lra|]. eapply Rle_trans; [exact U|]. nra. }
  assert (/ 2 <= t <= 2)%R as T by lra.
  replace (2 * INR K * d10)%R with (2 * x)%R by (unfold x; ring).
  split; [apply Rabs_le; lra|]. split; [|exact T].
  apply Rabs_le. split.
  - apply (Rmult_le_reg_r t); [lra|]. rewrite Rmult_minus_distr_r, Rinv_l by lra. nra.
  - apply (Rmult_le_reg_r t); [lra|]. rewrite Rmult_minus_distr_r, Rinv_l by lra. nra.
Qed.
(** [z] is the power [m] of [x] up to [K] rounding factors. *)
Definition pw (x : R) (m K : nat) (z : DD) : Prop := normed z /\ exists t, dval z = (x ^ m * t)%R /\ fac K t.
Definition sized (x : R) (N : nat) : Prop := forall j, (j <= N)%nat -> (bp (-299) <= Rabs (x ^ j) <= bp 299)%R.
Lemma sized_of x N : (bp (-299) <= Rabs (x ^ N) <= bp 299)%R -> sized x N.
Proof.
  intros (L & U) j J. rewrite <- RPow_abs in *. set (y := Rabs x) in *. pose proof (Rabs_pos x) as P. fold y in P.
  pose proof (bpow_le radix2 (-299) 0 ltac:(lia)) as B1. pose proof (bpow_le radix2 0 299 ltac:(lia)) as B2. change (bp 0) with 1%R in *.
  destruct (Rle_dec 1 y) as [G|G].
  - split; [eapply Rle_trans; [exact B1|now apply pow_R1_Rle]|]. eapply Rle_trans; [apply Rle_pow; eassumption|exact U].
  - split; [|eapply Rle_trans; [|exact B2]; apply pow_le1; lra].
    eapply Rle_trans; [exact L|]. replace N with (j + (N - j))%nat by lia. rewrite pow_add.
    rewrite <- (Rmult_1_r (y ^ j)) at 2. apply Rmult_le_compat_l; [now apply pow_le|].
    apply pow_le1. lra.
Qed.
Lemma pw_size x m K z N : sized x N -> (m <= N)%nat -> (INR K * d10 <= / 2)%R -> pw x m K z ->
  (bp (-300) <= Rabs (dval z) <= bp 300 /\ bf 301 (hi z))%R.
Proof.
  intros S M H (Nz & t & E & T). destruct (fac_bound K t H T) as (_ & _ & T1 & T2). destruct (S m M) as (L & U).
  assert (Rabs (dval z) = Rabs (x ^ m) * t)%R as V by (rewrite E, Rabs_mult, (Rabs_pos_eq t); lra).
  assert (bp (-299) = 2 * bp (-300))%R as E1 by (change (-299) with (-300 + 1); apply bp_S).
  assert (bp 300 = 2 * bp 299)%R as E2 by (change 300 with (299 + 1); apply bp_S).
  pose proof (bpow_ge_0 radix2 (-300)). pose proof (bpow_ge_0 radix2 299). pose proof (Rabs_pos (x ^ m)) as P.
  assert (bp (-300) <= Rabs (dval z) <= bp 300)%R as B.
  { rewrite V. split.
    - apply Rle_trans with (Rabs (x ^ m) * / 2)%R; [lra|apply Rmult_le_compat_l; lra].
    - apply Rle_trans with (Rabs (x ^ m) * 2)%R; [apply Rmult_le_compat_l; lra|lra]. }
  split; [exact B|]. split; [apply Nz|]. pose proof (normed_hi_val z Nz) as (_ & Hh). eapply Rle_trans; [exact Hh|].
  assert (bp 301 = 2 * bp 300)%R as E3 by (change 301 with (300 + 1); apply bp_S). pose proof (bpow_ge_0 radix2 300). lra.
Qed.
Lemma pw_mul x a b K L N z w : sized x N -> (a <= N)%nat -> (b <= N)%nat ->
  (INR K * d10 <= / 2)%R -> (INR L * d10 <= / 2)%R -> pw x a K z -> pw x b L w ->
  pw x (a + b) (S (K + L)) (dd_self_mul z w).
Proof.
  intros S A B HK HL Z W. destruct (pw_size x a K z N S A HK Z) as ((Lz & Uz) & Bz). destruct (pw_size x b L w N S B HL W) as ((Lw & Uw) & Bw).
  destruct Z as (Nz & s & Es & Fs). destruct W as (Nw & t & Et & Ft).
  destruct (C72_product_error 301 301 z w ltac:(lia) ltac:(lia) Nz Nw Bz Bw) as (Nm & Em).
  { right. rewrite Rabs_mult. apply Rle_trans with (bp (-300) * bp (-300))%R; [rewrite <- bpow_plus; apply bpow_le; lia|].
    apply Rmult_le_compat; try apply bpow_ge_0; assumption. }
  cbv zeta in *. split; [exact Nm|]. set (p := (dval z * dval w)%R) in *.
  assert (p <> 0)%R as Np.
  { unfold p. pose proof (bpow_gt_0 radix2 (-300)). apply Rmult_integral_contrapositive. split; intros E0; [rewrite E0, Rabs_R0 in Lz|rewrite E0, Rabs_R0 in Lw]; lra. }
  exists (s * t * (dval (dd_self_mul z w) / p))%R. split.
  - rewrite pow_add. replace (x ^ a * x ^ b * (s * t * (dval (dd_self_mul z w) / p)))%R with ((x ^ a * s) * (x ^ b * t) * (dval (dd_self_mul z w) / p))%R by ring.
    rewrite <- Es, <- Et. fold p. field. exact Np.
  - apply fac_mul; auto. fold d10 in Em.
    assert (Rabs (dval (dd_self_mul z w) / p - 1) <= d10)%R as Q; [|apply Rabs_le_inv in Q; lra].
    replace (dval (dd_self_mul z w) / p - 1)%R with ((dval (dd_self_mul z w) - p) / p)%R by (field; exact Np).
    unfold Rdiv. rewrite Rabs_mult, Rabs_inv. apply (Rmult_le_reg_r (Rabs p)); [now apply Rabs_pos_lt|].
    rewrite Rmult_assoc, Rinv_l, Rmult_1_r by (now apply Rabs_no_R0). exact Em.
Qed.
Lemma pw_weak x m K L z : (K <= L)%nat -> pw x m K z -> pw x m L z.
Proof. intros H (N & t & E & F). split; [exact N|]. exists t. split; [exact E|]. now apply (fac_weak K). Qed.
Lemma pow_loop_pw x N : sized x N -> (INR N * d10 <= / 2)%R ->
  forall fuel n r s a b z, 0 <= n -> (1 <= a)%nat -> (b + a * Z.to_nat n <= N)%nat -> 
  (0 < n -> pw x a (a - 1) r) -> pw x b b s -> dd_pow_loop fuel n r s = Some z -> pw x (b + a * Z.to_nat n) (b + a * Z.to_nat n) z.
Proof.
  intros S HN. assert (forall K, (K <= N)%nat -> (INR K * d10 <= / 2)%R) as HK.
  { intros K Hk. eapply Rle_trans; [|exact HN]. apply Rmult_le_compat_r; [apply Rlt_le, d10_pos|now apply le_INR]. }
  induction fuel as [|fuel IH]; intros n r s a b z Hn Ha Hab Hr Hs E; [discriminate|]. cbn [dd_pow_loop] in E.
  destruct (Z.gtb_spec n 0) as [P|P].
  2:{ injection E as <-. replace n with 0 by lia. rewrite Nat.mul_0_r, Nat.add_0_r. exact Hs. }
  specialize (Hr P). rewrite Z.quot_div_nonneg, Z.rem_mod_nonneg in E by lia.
  pose proof (Z.div_mod n 2 ltac:(lia)) as DM. pose proof (Z.mod_pos_bound n 2 ltac:(lia)) as MB.
  set (q := n / 2) in *. assert (0 <= q) as Q by (subst q; apply Z.div_pos; lia).
  assert (Z.to_nat n = 2 * Z.to_nat q + Z.to_nat (n mod 2))%nat as NN by lia.
  set (o := Z.to_nat (n mod 2)) in *.
  assert (pw x (b + a * o) (b + a * o) (if n mod 2 =? 1 then dd_self_mul s r else s)) as Hs'.
  { destruct (Z.eqb_spec (n mod 2) 1) as [O|O].
    - replace o with 1%nat by (subst o; rewrite O; reflexivity). rewrite Nat.mul_1_r.
      apply (pw_weak _ _ (Datatypes.S (b + (a - 1)))); [lia|].
      assert (a <= a * Z.to_nat n)%nat by (rewrite <- (Nat.mul_1_r a) at 1; apply Nat.mul_le_mono_l; lia).
      apply (pw_mul x b a b (a - 1) N); auto; try lia; apply HK; lia.
    - replace o with 0%nat by lia. now rewrite Nat.mul_0_r, Nat.add_0_r. }
  replace (b + a * Z.to_nat n)%nat with (b + a * o + (2 * a) * Z.to_nat q)%nat by (rewrite NN; lia).
  apply (IH _ _ _ (2 * a)%nat (b + a * o)%nat) in E; auto; try lia.
  - intros Pq. destruct (Z.gtb_spec q 0); [|lia]. unfold dd_sqr, dd_mul. rewrite (dfin_nan _ (normed_fin _ (proj1 Hr))).
    assert (a + a <= a * Z.to_nat n)%nat by (rewrite NN; assert (1 <= Z.to_nat q)%nat by lia; nia).
    apply (pw_weak _ _ (Datatypes.S (a - 1 + (a - 1)))); [lia|]. replace (2 * a)%nat with (a + a)%nat by lia.
    apply (pw_mul x a a (a - 1) (a - 1) N); auto; try lia; apply HK; lia.
Qed.
Lemma pow_pw x n : normed x -> (0 < n < Z.to_nat (2 ^ 31))%nat -> (bp (-299) <= Rabs (dval x ^ n) <= bp 299)%R ->
  exists z, dd_pow x (Z.of_nat n) = Ok (Some z) /\ dd_pow x (- Z.of_nat n) = Ok (Some (dd_recip z)) /\ pw (dval x) n n z /\
            (INR n * d10 <= / 2)%R.
Proof.
  intros Nx Hn B. apply sized_of in B.
  assert (INR n * d10 <= / 2)%R as HN.
  { rewrite INR_IZR_INZ. apply Rle_trans with (bp 31 * bp (-102))%R.
    - pose proof d10_pos. apply Rmult_le_compat; [apply IZR_le; lia|lra| |apply d10_small].
      replace (bp 31) with (IZR (2 ^ 31)) by (rewrite (IZR_Zpower radix2) by lia; reflexivity). apply IZR_le. lia.
    - rewrite <- bpow_plus. change (/ 2)%R with (bp (-1)). apply bpow_le. lia. }
  assert (pw (dval x) 1 0 x) as P1. { split; [exact Nx|]. exists 1%R. split; [ring|apply fac_1]. }
  assert (pw (dval x) 0 0 (dd_of f1)) as P0.
  { split; [now apply normed_of|]. exists 1%R. rewrite dval_of, R_of_f1. split; [ring|apply fac_1]. }
  assert (exists z, (if Z.of_nat n >? 1 then dd_pow_loop 33 (Z.of_nat n) x (dd_of f1) else Some x) = Some z /\ pw (dval x) n n z) as (z & Ez & Pz).
  { destruct (Z.gtb_spec (Z.of_nat n) 1).
    - destruct (dd_pow_fuel 32 (Z.of_nat n) x (dd_of f1)) as (z & E); [lia|]. exists z. split; [exact E|].
      apply (pow_loop_pw (dval x) n B HN _ _ _ _ 1 0) in E; auto; try lia.
      + replace (0 + 1 * Z.to_nat (Z.of_nat n))%nat with n in E by lia. exact E.
    - exists x. split; [reflexivity|]. replace n with 1%nat by lia. now apply (pw_weak _ _ 0); [lia|]. }
  exists z. assert (i32_chk (Z.of_nat n) = Ok (Z.of_nat n)) as C.
  { unfold i32_chk, i32_min, i32_max. destruct (Z.leb_spec (-2147483648) (Z.of_nat n)); [|lia]. destruct (Z.leb_spec (Z.of_nat n) 2147483647); [reflexivity|lia]. }
  unfold dd_pow. rewrite Z.abs_opp, (Z.abs_eq (Z.of_nat n)) by lia. rewrite !C. cbn [bind].
  rewrite Ez. destruct (Z.eqb_spec (Z.of_nat n) 0); [lia|]. destruct (Z.eqb_spec (- Z.of_nat n) 0); [lia|].
  destruct (Z.ltb_spec (Z.of_nat n) 0); [lia|]. destruct (Z.ltb_spec (- Z.of_nat n) 0); [|lia]. auto.
Qed.
Lemma pow_bound x n : normed x -> (0 < n < Z.to_nat (2 ^ 31))%nat -> (bp (-299) <= Rabs (dval x ^ n) <= bp 299)%R ->
  exists z w, dd_pow x (Z.of_nat n) = Ok (Some z) /\ dd_pow x (- Z.of_nat n) = Ok (Some w) /\ normed z /\ normed w /\
    (Rabs (dval z - dval x ^ n) <= 20 * INR n * (u53 * u53) * Rabs (dval x ^ n) /\
     Rabs (dval w - / dval x ^ n) <= 64 * INR n * (u53 * u53) * Rabs (/ dval x ^ n))%R.
Proof.
  intros Nx Hn B. destruct (pow_pw x n Nx Hn B) as (z & E1 & E2 & P & HN). exists z, (dd_recip z).
  split; [exact E1|]. split; [exact E2|]. pose proof P as (Nz & t & Et & Ft). split; [exact Nz|].
  destruct (fac_bound n t HN Ft) as (T1 & T2 & T3 & T4).
  destruct (pw_size (dval x) n n z n (sized_of _ _ B) ltac:(lia) HN P) as ((Lz & Uz) & Bz).
  set (X := (dval x ^ n)%R) in *. assert (X <> 0)%R as NX.
  { intros E0. rewrite E0, Rabs_R0 in B. pose proof (bpow_gt_0 radix2 (-299)). lra. }
  assert (bp (-300) <= Rabs (R_of (hi z)) <= bp 300)%R as Hz.
  { pose proof Nz as (_ & Eh). rewrite Eh. split; [|apply RN_abs_le; [lia|exact Uz]].
    apply abs_round_ge_generic; try typeclasses eauto; [apply bpow_fmt; lia|exact Lz]. }
  assert (normed (dd_of f1)) as N1 by now apply normed_of.
  destruct (quotient_bound (dd_of f1) z N1 Nz) as (Nw & Ew); [|exact Hz|].
  { cbn [dd_of hi]. rewrite R_of_f1, Rabs_R1. change 1%R with (bp 0). split; apply bpow_le; lia. }
  rewrite recip_div. split; [exact Nw|]. rewrite dval_of, R_of_f1, Rabs_R1, Rmult_1_r in Ew.
  set (w := dval (dd_div (dd_of f1) z)) in *. rewrite Et in Ew |- *. unfold d10 in *. split.
  - replace (X * t - X)%R with ((t - 1) * X)%R by ring. rewrite Rabs_mult. apply Rmult_le_compat_r; [apply Rabs_pos|].
    eapply Rle_trans; [exact T1|]. lra.
  - replace (w - / X)%R with ((w * (X * t) - 1) * / t * / X + (/ t - 1) * / X)%R by (field; split; lra).
    rewrite <- Rmult_plus_distr_r, Rabs_mult. apply Rmult_le_compat_r; [apply Rabs_pos|].
    eapply Rle_trans; [apply Rabs_triang|]. rewrite Rabs_mult.
    assert (Rabs (/ t) <= 2)%R as It.
    { rewrite Rabs_pos_eq by (apply Rlt_le, Rinv_0_lt_compat; lra). replace 2%R with (/ / 2)%R by field. apply Rinv_le; lra. }
    assert (Rabs (w * (X * t) - 1) * Rabs (/ t) <= 21 * (u53 * u53) * 2)%R by (apply Rmult_le_compat; auto using Rabs_pos).
    assert (1 <= INR n)%R by (replace 1%R with (INR 1) by reflexivity; apply le_INR; lia).
    assert (0 <= u53 * u53)%R as UU by (rewrite uu_val; apply bpow_ge_0).
    assert (u53 * u53 * 1 <= u53 * u53 * INR n)%R by (apply Rmult_le_compat_l; lra). lra.
Qed.

(** ** Square root *)
Lemma rel_of_abs a b c : (b <> 0 -> Rabs (a - b) <= c * Rabs b -> Rabs (a / b - 1) <= c)%R.
Proof.
  intros N H. replace (a / b - 1)%R with ((a - b) / b)%R by (field; exact N).
  unfold Rdiv. rewrite Rabs_mult, Rabs_inv. apply (Rmult_le_reg_r (Rabs b)); [now apply Rabs_pos_lt|].
  rewrite Rmult_assoc, Rinv_l, Rmult_1_r by (now apply Rabs_no_R0). exact H.
Qed.
Lemma abs_of_rel a b c : (0 < b -> Rabs (a / b - 1) <= c -> Rabs (a - b) <= c * b)%R.
Proof.
  intros N H. replace (a - b)%R with ((a / b - 1) * b)%R by (field; lra). rewrite Rabs_mult, (Rabs_pos_eq b) by lra.
  apply Rmult_le_compat_r; lra.
Qed.
Lemma rel_sqrt g c : (0 <= c <= 1 -> Rabs (g - 1) <= c -> Rabs (sqrt g - 1) <= c)%R.
Proof.
  intros C H. apply Rabs_le_inv in H. apply Rabs_le. split.
  - assert (1 - c <= sqrt g)%R; [|lra]. rewrite <- (sqrt_square (1 - c)) by lra. apply sqrt_le_1_alt. nra.
  - assert (sqrt g <= 1 + c)%R; [|lra]. rewrite <- (sqrt_square (1 + c)) by lra. apply sqrt_le_1_alt. nra.
Qed.
(** The first approximations [1 / sqrt hi] and [hi * (1 / sqrt hi)]. *)
Lemma sqrt_start v : normed v -> (bp (-300) <= dval v <= bp 300)%R ->
  let x := fdiv f1 (fsqrt (hi v)) in let a := fmul (hi v) x in let s := sqrt (dval v) in
  fis_finite x = true /\ fis_finite a = true /\
  (Rabs (R_of a / s - 1) <= 5 * u53)%R /\ (Rabs (R_of x * s - 1) <= 4 * u53)%R.
Proof.
  intros N (L & U). cbv zeta. pose proof N as ((Fh & _) & Eh). set (V := dval v) in *. set (s := sqrt V).
  pose proof (bpow_gt_0 radix2 (-300)) as P300. assert (0 < V)%R as PV by lra. assert (0 < s)%R as Ps by (apply sqrt_lt_R0, PV).
  pose proof u53_pos as U0. pose proof u53_small as U1.
  set (h := R_of (hi v)) in *.
  assert (forall a b : Z, a <= b -> (bp a <= bp b)%R) as BL by (intros; now apply bpow_le).
  assert (Rabs (h / V - 1) <= u53)%R as Rh.
  { apply rel_of_abs; [lra|]. rewrite Eh. apply RN_rel. right. rewrite Rabs_pos_eq by lra. pose proof (BL (-1022) (-300) ltac:(lia)). lra. }
  assert (bp (-300) <= h <= bp 300)%R as (Lh & Uh).
  { rewrite Eh. split; [rewrite <- (RN_id (bp (-300))) by (apply bpow_fmt; lia)|rewrite <- (RN_id (bp 300)) by (apply bpow_fmt; lia)]; now apply RN_le. }
  assert (0 < h)%R as Ph by lra.
  assert (sqrt h / s = sqrt (h / V))%R as Eg by (unfold s; symmetry; apply sqrt_div; lra).
  pose proof (rel_sqrt (h / V) u53 ltac:(lra) Rh) as Rg. rewrite <- Eg in Rg.
  assert (forall a, bp (a + a) = bp a * bp a)%R as BP by (intros; apply bpow_plus).
  assert (bp (-150) <= sqrt h <= bp 150)%R as (Lq & Uq).
  { split; [rewrite <- (sqrt_square (bp (-150))) by apply bpow_ge_0|rewrite <- (sqrt_square (bp 150)) by apply bpow_ge_0]; apply sqrt_le_1_alt; rewrite <- BP; assumption. }
  pose proof (bpow_gt_0 radix2 (-150)) as P150. assert (0 < sqrt h)%R as Pq by lra.
  destruct (fsqrt_R (hi v) Fh ltac:(fold h; lra)) as (Eq & Fq). specialize (Fq Ph). fold h in Eq.
  set (q := fsqrt (hi v)) in *.
  assert (Rabs (R_of q / sqrt h - 1) <= u53)%R as Rq.
  { apply rel_of_abs; [lra|]. rewrite Eq. apply RN_rel. right. rewrite Rabs_pos_eq by lra. pose proof (BL (-1022) (-150) ltac:(lia)). lra. }
  assert (bp (-150) <= R_of q <= bp 150)%R as (Lq' & Uq').
  { rewrite Eq. split; [rewrite <- (RN_id (bp (-150))) by (apply bpow_fmt; lia)|rewrite <- (RN_id (bp 150)) by (apply bpow_fmt; lia)]; now apply RN_le. }
  assert (bp (-150) <= / R_of q <= bp 150)%R as (Li & Ui).
  { change (-150) with (- (150)) at 1. rewrite bpow_opp. split; [apply Rinv_le; lra|].
    replace (bp 150) with (/ bp (-150))%R by (change (-150) with (- (150)); rewrite bpow_opp, Rinv_inv; reflexivity). apply Rinv_le; lra. }
  destruct (fdiv_R f1 q eq_refl) as (Fx & Ex).
  { lra. }
  { rewrite R_of_f1. eapply Rle_lt_trans; [apply (RN_abs_le 150); [lia|]|apply bpow_lt; lia]. unfold Rdiv. rewrite Rmult_1_l, Rabs_pos_eq; lra. }
  rewrite R_of_f1 in Ex. unfold Rdiv in Ex. rewrite Rmult_1_l in Ex. set (x := fdiv f1 q) in *.
  assert (Rabs (R_of x / / R_of q - 1) <= u53)%R as Rx.
  { apply rel_of_abs; [lra|]. rewrite Ex. apply RN_rel. right. rewrite Rabs_pos_eq by lra. pose proof (BL (-1022) (-150) ltac:(lia)). lra. }
  assert (bp (-150) <= R_of x <= bp 150)%R as (Lx & Ux).
  { rewrite Ex. split; [rewrite <- (RN_id (bp (-150))) by (apply bpow_fmt; lia)|rewrite <- (RN_id (bp 150)) by (apply bpow_fmt; lia)]; now apply RN_le. }
  assert (bp (-450) <= h * R_of x <= bp 450)%R as (La & Ua).
  { change (-450) with (-300 + -150). change 450 with (300 + 150). rewrite !bpow_plus. split; apply Rmult_le_compat; lra. }
  pose proof (bpow_gt_0 radix2 (-450)) as P450.
  destruct (mul_fits 450 (hi v) x ltac:(lia) Fh Fx) as ((Fa & _) & Ea). { fold h. rewrite Rabs_pos_eq; lra. }
  fold h in Ea. set (a := fmul (hi v) x) in *.
  assert (Rabs (R_of a / (h * R_of x) - 1) <= u53)%R as Ra.
  { apply rel_of_abs; [lra|]. rewrite Ea. apply RN_rel. right. rewrite Rabs_pos_eq by lra. pose proof (BL (-1022) (-450) ltac:(lia)). lra. }
  assert (u53 * u53 <= u53 * / 1024)%R as UU by (apply Rmult_le_compat_l; lra).
  assert (0 <= u53 * u53)%R as UU0 by (apply Rmult_le_pos; lra).
  (* x * s = (x * q) * / (q / sqrt h) * / (sqrt h / s) *)
  pose proof (rel_inv _ u53 ltac:(lra) Rq) as Iq. pose proof (rel_inv _ u53 ltac:(lra) Rg) as Ig.
  assert (R_of q <> 0)%R as Nq by lra.
  split; [exact Fx|]. split; [exact Fa|].
  assert (Rabs (R_of x * s - 1) <= 16/5 * u53)%R as XS.
  { replace (R_of x * s)%R with ((R_of x / / R_of q) * / (R_of q / sqrt h) * / (sqrt h / s))%R by (field; repeat split; lra).
    assert (Rabs (/ (R_of q / sqrt h) - 1) <= 51/50 * u53)%R as Iq' by lra. assert (Rabs (/ (sqrt h / s) - 1) <= 51/50 * u53)%R as Ig' by lra.
    pose proof (rel_mul _ _ _ _ Rx Iq') as M1.
    assert (Rabs (R_of x / / R_of q * / (R_of q / sqrt h) - 1) <= 41/20 * u53)%R as M1' by lra.
    pose proof (rel_mul _ _ _ _ M1' Ig') as M2. lra. }
  split; [|lra].
  replace (R_of a / s)%R with ((R_of a / (h * R_of x)) * (R_of x / / R_of q) * / (R_of q / sqrt h) * (sqrt h / s))%R.
  - assert (Rabs (/ (R_of q / sqrt h) - 1) <= 51/50 * u53)%R as Iq' by lra.
    pose proof (rel_mul _ _ _ _ Ra Rx) as M1. assert (Rabs (R_of a / (h * R_of x) * (R_of x / / R_of q) - 1) <= 21/10 * u53)%R as M1' by lra.
    pose proof (rel_mul _ _ _ _ M1' Iq') as M2.
    assert (Rabs (R_of a / (h * R_of x) * (R_of x / / R_of q) * / (R_of q / sqrt h) - 1) <= 32/10 * u53)%R as M2' by lra.
    pose proof (rel_mul _ _ _ _ M2' Rg) as M3. lra.
  - assert (h = sqrt h * sqrt h)%R as Hh by (symmetry; apply sqrt_sqrt; lra).
    set (g := sqrt h) in *. rewrite Hh. field. repeat split; lra.
Qed.
Lemma sqrt_bound v : normed v -> (bp (-300) <= dval v <= bp 300)%R ->
  normed (dd_sqrt v) /\ (Rabs (dval (dd_sqrt v) - sqrt (dval v)) <= 80 * (u53 * u53) * sqrt (dval v))%R.
Proof.
  intros N B. destruct (sqrt_start v N B) as (Fx & Fa & Ra & Rx). cbv zeta in *. destruct B as (L & U).
  pose proof (bpow_gt_0 radix2 (-300)) as P300. unfold dd_sqrt.
  destruct (dd_is_zero v) eqn:Z. { apply dd_is_zero_R in Z; [lra|exact N]. }
  destruct (dd_is_negative v) eqn:G. { apply dd_is_negative_R in G; [lra|exact N]. }
  clear Z G. cbv zeta. set (x := fdiv f1 (fsqrt (hi v))) in *. set (a := fmul (hi v) x) in *.
  set (V := dval v) in *. set (s := sqrt V) in *. assert (0 < V)%R as PV by lra. assert (0 < s)%R as Ps by (apply sqrt_lt_R0, PV).
  assert (s * s = V)%R as SS by (apply sqrt_sqrt; lra).
  pose proof u53_pos as U0. pose proof u53_small as U1.
  assert (u53 * u53 <= u53 * / 1024)%R as UU by (apply Rmult_le_compat_l; lra).
  assert (0 < u53 * u53)%R as UU0 by (apply Rmult_lt_0_compat; lra).
  assert (forall a, bp (a + a) = bp a * bp a)%R as BP by (intros; apply bpow_plus).
  assert (bp (-150) <= s <= bp 150)%R as (Ls & Us).
  { split; [rewrite <- (sqrt_square (bp (-150))) by apply bpow_ge_0|rewrite <- (sqrt_square (bp 150)) by apply bpow_ge_0]; apply sqrt_le_1_alt; rewrite <- BP; assumption. }
  (* the approximation a of s *)
  pose proof (abs_of_rel _ _ _ Ps Ra) as Da. set (A := R_of a) in *.
  assert (5 * u53 * s <= s * / 100)%R as Sm. { assert (u53 * s <= / 1024 * s)%R by (apply Rmult_le_compat_r; lra). lra. }
  assert (99/100 * s <= A <= 101/100 * s)%R as (LA & UA) by (apply Rabs_le_inv in Da; lra).
  assert (bf 151 a) as Ba.
  { split; [exact Fa|]. fold A. rewrite Rabs_pos_eq by lra. assert (bp 151 = 2 * bp 150)%R by (change 151 with (150 + 1); apply bp_S). lra. }
  assert (98/100 * V <= A * A <= 103/100 * V)%R as (LAA & UAA).
  { rewrite <- SS. split.
    - apply Rle_trans with ((99/100 * s) * (99/100 * s))%R; [nra|apply Rmult_le_compat; lra].
    - apply Rle_trans with ((101/100 * s) * (101/100 * s))%R; [apply Rmult_le_compat; lra|nra]. }
  (* its square is exact *)
  destruct (dd_mul_exact 151 151 (dd_of a) a f0 ltac:(lia) ltac:(lia) ltac:(lia) Ba Ba eq_refl R_f0 eq_refl R_f0) as (Fsq & Esq & Vsq).
  { right. cbn [dd_of hi]. fold A. rewrite Rabs_pos_eq by lra. apply Rle_trans with (bp (-301)); [apply bpow_le; lia|].
    assert (bp (-300) = 2 * bp (-301))%R by (change (-300) with (-301 + 1); apply bp_S). lra. }
  cbv zeta in *. cbn [dd_of hi] in Esq, Vsq. fold A in Esq, Vsq.
  assert (dd_sqr (dd_of a) = dd_mul_hi_lo (dd_of a) a f0) as Es.
  { unfold dd_sqr, dd_mul. rewrite (dfin_nan (dd_of a)) by (split; [exact Fa|reflexivity]). reflexivity. }
  rewrite Es. set (sq := dd_mul_hi_lo (dd_of a) a f0) in *.
  assert (normed sq) as Nsq by (split; [exact Fsq|]; rewrite Vsq; exact Esq).
  destruct (dd_neg_R sq Nsq) as (Nn & Vn). rewrite Vsq in Vn. unfold dd_sub, dd_add. set (n := dd_neg sq) in *.
  (* the difference *)
  assert (forall z, normed z -> (Rabs (dval z) <= 2 * V)%R -> bf 302 (hi z)) as BF.
  { intros z Nz Hz. pose proof (normed_hi_val z Nz) as (_ & Hh). split; [apply Nz|]. eapply Rle_trans; [exact Hh|].
    assert (bp 302 = 4 * bp 300)%R by (change 302 with (300 + 1 + 1); rewrite !bp_S; ring). lra. }
  assert (bf 302 (hi v)) as Bv by (apply BF; [exact N|fold V; rewrite Rabs_pos_eq; lra]).
  assert (bf 302 (hi n)) as Bn by (apply BF; [exact Nn|rewrite Vn, Rabs_Ropp, Rabs_pos_eq; lra]).
  destruct (dd_add_full 302 v (hi n) (lo n) ltac:(lia) Bv Bn (bf_lo _ _ N Bv) (bf_lo _ _ Nn Bn) (normed_lo v N) (normed_lo n Nn))
    as (Bz & _ & Ez & _ & Es' & _). cbv zeta in *.
  change (R_of (hi n) + R_of (lo n))%R with (dval n) in Es'. rewrite Vn in Es'. fold V in Es'.
  set (w := (R_of (fst (add_parts v (hi n) (lo n))) + R_of (snd (add_parts v (hi n) (lo n))))%R) in *.
  set (z := dd_add_hi_lo v (hi n) (lo n)) in *. set (D := (V + - (A * A))%R) in *.
  pose proof (normed_hi_val v N) as (_ & H1). pose proof (normed_hi_val n Nn) as (_ & H2).
  fold V in H1. rewrite Vn, Rabs_Ropp in H2. rewrite (Rabs_pos_eq V) in H1 by lra. rewrite (Rabs_pos_eq (A * A)) in H2 by lra.
  assert (Rabs (w - D) <= 21 * (u53 * u53) * V)%R as Dw.
  { eapply Rle_trans; [exact Es'|].
    apply Rle_trans with (10 * (u53 * u53) * (21/10 * V))%R; [apply Rmult_le_compat_l; lra|]. lra. }
  assert (Rabs D <= 11 * u53 * V)%R as BD.
  { replace D with (- ((A - s) * (A + s)))%R by (unfold D; rewrite <- SS; ring). rewrite Rabs_Ropp, Rabs_mult, (Rabs_pos_eq (A + s)) by lra.
    apply Rle_trans with ((5 * u53 * s) * (201/100 * s))%R; [apply Rmult_le_compat; try apply Rabs_pos; lra|].
    rewrite <- SS. assert (0 <= u53 * (s * s))%R by (apply Rmult_le_pos; [lra|nra]). lra. }
  set (H := R_of (hi z)) in *.
  assert (0 < u53 * V)%R as UV by (apply Rmult_lt_0_compat; lra). assert (0 < u53 * u53 * V)%R as UUV by (apply Rmult_lt_0_compat; lra).
  assert (u53 * u53 * V <= / 1024 * (u53 * V))%R as UV2. { replace (u53 * u53 * V)%R with (u53 * (u53 * V))%R by ring. apply Rmult_le_compat_r; lra. }
  assert (Rabs w <= 12 * (u53 * V))%R as Bw.
  { replace w with (D + (w - D))%R by ring. eapply Rle_trans; [apply Rabs_triang|]. lra. }
  assert (bp (-1075) <= / 10 * (u53 * u53 * V))%R as Eta.
  { apply Rle_trans with (bp (-410)); [apply bpow_le; lia|]. rewrite uu_val.
    apply Rle_trans with (/ 10 * (bp (-106) * bp (-300)))%R; [|apply Rmult_le_compat_l; [lra|apply Rmult_le_compat_l; [apply bpow_ge_0|exact L]]].
    rewrite <- bpow_plus. change (-106 + -300) with (-410 + 1 + 1 + 1 + 1). rewrite !bp_S. pose proof (bpow_ge_0 radix2 (-410)). lra. }
  assert (Rabs (H - D) <= 34 * (u53 * u53 * V))%R as DH.
  { replace (H - D)%R with ((RN w - w) + (w - D))%R by (rewrite <- Ez; unfold H; ring). eapply Rle_trans; [apply Rabs_triang|].
    pose proof (RN_err w) as E. assert (u53 * Rabs w <= u53 * (12 * (u53 * V)))%R by (apply Rmult_le_compat_l; lra). lra. }
  assert (Rabs H <= 12 * (u53 * V))%R as BH.
  { replace H with (D + (H - D))%R by ring. eapply Rle_trans; [apply Rabs_triang|]. lra. }
  (* half of 1/s *)
  set (X := R_of x) in *. assert (Rabs (X - / s) <= 4 * u53 * / s)%R as DX.
  { replace (X - / s)%R with ((X * s - 1) * / s)%R by (field; lra). assert (0 < / s)%R by now apply Rinv_0_lt_compat.
    rewrite Rabs_mult, (Rabs_pos_eq (/ s)) by lra. apply Rmult_le_compat_r; lra. }
  set (i := (/ s)%R) in *. assert (0 < i)%R as Pi by (apply Rinv_0_lt_compat, Ps). assert (s * i = 1)%R as SI by (apply Rinv_r; lra).
  assert (u53 * i <= / 1024 * i)%R as UI by (apply Rmult_le_compat_r; lra). assert (0 < u53 * i)%R as UI0 by (apply Rmult_lt_0_compat; lra).
  assert (99/100 * i <= X <= 101/100 * i)%R as (LX & UX) by (apply Rabs_le_inv in DX; lra).
  assert (bp (-150) <= i <= bp 150)%R as (Li & Ui).
  { unfold i. pose proof (bpow_gt_0 radix2 (-150)). change (-150) with (- (150)) at 1. rewrite bpow_opp. split; [apply Rinv_le; lra|].
    replace (bp 150) with (/ bp (-150))%R by (change (-150) with (- (150)); rewrite bpow_opp, Rinv_inv; reflexivity). apply Rinv_le; lra. }
  assert (R_of fhalf = / 2)%R as Rhalf.
  { destruct (grid_mkf 1 (-1) ltac:(lia) ltac:(lia)) as (_ & E). unfold fhalf. rewrite E, Rmult_1_l. reflexivity. }
  assert (bp 151 = 2 * bp 150)%R as E151 by (change 151 with (150 + 1); apply bp_S).
  destruct (mul_fits 151 x fhalf ltac:(lia) Fx eq_refl) as ((Fy & By_) & Ey). { fold X. rewrite Rhalf, Rabs_pos_eq; lra. }
  rewrite Rhalf in Ey. fold X in Ey. set (y := fmul x fhalf) in *.
  assert (Rabs (R_of y - i * / 2) <= 3 * (u53 * i))%R as DY.
  { replace (R_of y - i * / 2)%R with ((RN (X * / 2) - X * / 2) + (X - i) * / 2)%R by (rewrite <- Ey; ring).
    eapply Rle_trans; [apply Rabs_triang|]. rewrite (Rabs_mult (X - i)), (Rabs_pos_eq (/ 2)) by lra.
    assert (Rabs (RN (X * / 2) - X * / 2) <= u53 * Rabs (X * / 2))%R as E.
    { apply RN_rel. right. rewrite Rabs_pos_eq by lra. apply Rle_trans with (bp (-152)); [apply bpow_le; lia|].
      assert (bp (-150) = 4 * bp (-152))%R by (change (-150) with (-152 + 1 + 1); rewrite !bp_S; ring). lra. }
    rewrite (Rabs_pos_eq (X * / 2)) in E by lra. assert (u53 * (X * / 2) <= u53 * (101/100 * i * / 2))%R by (apply Rmult_le_compat_l; lra). lra. }
  assert (0 <= R_of y <= 6/10 * i)%R as (Py & UY) by (apply Rabs_le_inv in DY; lra).
  (* the correction *)
  assert (V * i = s)%R as VI by (rewrite <- SS; unfold i; field; lra).
  assert (0 < u53 * s)%R as USp by (apply Rmult_lt_0_compat; lra). assert (0 < u53 * u53 * s)%R as UUS by (apply Rmult_lt_0_compat; lra).
  assert (u53 * s <= / 1024 * s)%R as US1 by (apply Rmult_le_compat_r; lra).
  assert (u53 * u53 * s <= / 1024 * (u53 * s))%R as US2. { replace (u53 * u53 * s)%R with (u53 * (u53 * s))%R by ring. apply Rmult_le_compat_r; lra. }
  assert (Rabs (H * R_of y) <= 75/10 * (u53 * s))%R as BHy.
  { rewrite Rabs_mult, (Rabs_pos_eq (R_of y)) by lra. apply Rle_trans with (12 * (u53 * V) * (6/10 * i))%R; [apply Rmult_le_compat; try apply Rabs_pos; lra|].
    replace (12 * (u53 * V) * (6 / 10 * i))%R with (72/10 * (u53 * (V * i)))%R by field. rewrite VI. lra. }
  destruct (mul_fits 150 (hi z) y ltac:(lia) (bf_fin _ _ Bz) Fy) as ((Fd & Bd) & Ed). { fold H. lra. }
  fold H in Ed. set (d := fmul (hi z) y) in *.
  assert (Rabs (R_of d - D * i * / 2) <= 62 * (u53 * u53 * s))%R as DD2.
  { replace (R_of d - D * i * / 2)%R with ((RN (H * R_of y) - H * R_of y) + (H - D) * R_of y + D * (R_of y - i * / 2))%R by (rewrite <- Ed; ring).
    eapply Rle_trans; [apply Rabs_triang|]. eapply Rle_trans; [apply Rplus_le_compat_r, Rabs_triang|].
    rewrite !(Rabs_mult _ (R_of y)), (Rabs_mult D), (Rabs_pos_eq (R_of y)) by lra.
    pose proof (RN_err (H * R_of y)) as E1. rewrite Rabs_mult, (Rabs_pos_eq (R_of y)) in E1 by lra. rewrite Rabs_mult, (Rabs_pos_eq (R_of y)) in BHy by lra.
    assert (u53 * (Rabs H * R_of y) <= u53 * (75/10 * (u53 * s)))%R as E2 by (apply Rmult_le_compat_l; lra).
    assert (Rabs (H - D) * R_of y <= 34 * (u53 * u53 * V) * (6/10 * i))%R as E3 by (apply Rmult_le_compat; try apply Rabs_pos; lra).
    replace (34 * (u53 * u53 * V) * (6 / 10 * i))%R with (204/10 * (u53 * u53 * (V * i)))%R in E3 by field. rewrite VI in E3.
    assert (Rabs D * Rabs (R_of y - i * / 2) <= 11 * u53 * V * (3 * (u53 * i)))%R as E4 by (apply Rmult_le_compat; try apply Rabs_pos; lra).
    replace (11 * u53 * V * (3 * (u53 * i)))%R with (33 * (u53 * u53 * (V * i)))%R in E4 by ring. rewrite VI in E4.
    assert (bp (-1075) <= / 10 * (u53 * u53 * s))%R as Eta'.
    { apply Rle_trans with (bp (-410)); [apply bpow_le; lia|]. rewrite uu_val.
      apply Rle_trans with (/ 10 * (bp (-106) * bp (-150)))%R; [|apply Rmult_le_compat_l; [lra|apply Rmult_le_compat_l; [apply bpow_ge_0|exact Ls]]].
      rewrite <- bpow_plus. apply Rle_trans with (bp (-260)); [apply bpow_le; lia|].
      change (-106 + -150) with (-260 + 1 + 1 + 1 + 1). rewrite !bp_S. pose proof (bpow_ge_0 radix2 (-260)). lra. }
    set (r1 := Rabs (RN (H * R_of y) - H * R_of y)) in *. lra. }
  assert (Rabs (A + D * i * / 2 - s) <= 13 * (u53 * u53 * s))%R as Newton.
  { replace (A + D * i * / 2 - s)%R with (- ((A - s) * (A - s) * i * / 2))%R.
    2:{ unfold D, i. rewrite <- SS. field. lra. }
    rewrite Rabs_Ropp, !Rabs_mult, (Rabs_pos_eq i), (Rabs_pos_eq (/ 2)) by lra.
    assert (Rabs (A - s) * Rabs (A - s) <= (5 * u53 * s) * (5 * u53 * s))%R as E by (apply Rmult_le_compat; try apply Rabs_pos; lra).
    apply Rle_trans with ((5 * u53 * s) * (5 * u53 * s) * i * / 2)%R; [apply Rmult_le_compat_r; [lra|]; apply Rmult_le_compat_r; lra|].
    replace (5 * u53 * s * (5 * u53 * s) * i * / 2)%R with (25/2 * (u53 * u53 * s * (s * i)))%R by field. rewrite SI. lra. }
  (* the final sum is exact *)
  destruct (C38_sum_exact a d Fa Fd) as (Nf & Vf).
  { apply (bf_lim 151); [lia|exact Ba]. } { apply (bf_lim 150); [lia|split; assumption]. }
  { eapply Rle_lt_trans; [apply (RN_abs_le 152); [lia|]|apply bpow_lt; lia]. fold A. eapply Rle_trans; [apply Rabs_triang|].
    destruct Ba as (_ & Ba). fold A in Ba. assert (bp 152 = 2 * bp 151)%R by (change 152 with (151 + 1); apply bp_S). lra. }
  split; [exact Nf|]. rewrite Vf. fold A. replace (A + R_of d - s)%R with ((A + D * i * / 2 - s) + (R_of d - D * i * / 2))%R by ring.
  eapply Rle_trans; [apply Rabs_triang|]. lra.
Qed.
