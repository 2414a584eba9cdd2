From Coq Require Import ZArith Reals Bool Lia Lra Psatz.
From Flocq Require Import Core IEEE754.BinarySingleNaN.
From Verif Require Import Base F64 F64Facts F64Round F64Err NumLink Coordinate_model PrecisionModel_model.
Local Open Scope R_scope.

(** ** Products and quotients by a positive number keep the order *)
Lemma fmul_cases x y : fis_finite x = true -> fis_finite y = true ->
  (fis_finite (fmul x y) = true /\ R_of (fmul x y) = RN (R_of x * R_of y) /\ Rabs (RN (R_of x * R_of y)) < bp 1024)
  \/ (bp 1024 <= RN (R_of x * R_of y) /\ fmul x y = B754_infinity false)
  \/ (RN (R_of x * R_of y) <= - bp 1024 /\ fmul x y = B754_infinity true).
Proof.
  intros Fx Fy. pose proof (Bmult_correct 53 1024 _ _ mode_NE x y) as C. cbv zeta in C.
  destruct (Rlt_or_le (Rabs (RN (R_of x * R_of y))) (bp 1024)) as [H | H].
  - left. rewrite Rlt_bool_true in C by exact H. destruct C as (C1 & C2 & _).
    split; [unfold fis_finite, fmul; rewrite C2; unfold fis_finite in *; rewrite Fx, Fy; reflexivity |]. split; [exact C1 | exact H].
  - right. rewrite Rlt_bool_false in C by exact H.
    assert (NZ : R_of x * R_of y <> 0).
    { intros Z. rewrite Z, RN_0, Rabs_R0 in H. pose proof (bpow_gt_0 radix2 1024). lra. }
    assert (SG : forall z, fis_finite z = true -> R_of z <> 0 -> Bsign z = Rlt_bool (R_of z) 0).
    { intros z Fz NzZ. destruct (Bsign z) eqn:S.
      - pose proof (Bsign_R_le z Fz S). rewrite Rlt_bool_true by lra. reflexivity.
      - pose proof (Bsign_R_ge z Fz S). rewrite Rlt_bool_false by lra. reflexivity. }
    assert (X1 : R_of x <> 0) by (intros Z; apply NZ; rewrite Z; ring). assert (Y1 : R_of y <> 0) by (intros Z; apply NZ; rewrite Z; ring).
    rewrite (SG x Fx X1), (SG y Fy Y1) in C. cbn in C. apply B2SF_inf in C. change (Bmult mode_NE x y) with (fmul x y) in C.
    assert (RP : forall r, 0 <= r -> bp 1024 <= Rabs (RN r) -> bp 1024 <= RN r) by (intros r P Q; rewrite Rabs_pos_eq in Q by (apply RN_ge0; exact P); exact Q).
    assert (RM : forall r, r <= 0 -> bp 1024 <= Rabs (RN r) -> RN r <= - bp 1024) by (intros r P Q; rewrite Rabs_left1 in Q by (apply RN_le0; exact P); lra).
    destruct (Rlt_bool_spec (R_of x) 0) as [S1 | S1]; destruct (Rlt_bool_spec (R_of y) 0) as [S2 | S2]; cbn in C; rewrite C.
    + left. split; [apply RP; [nra | exact H] | reflexivity].
    + right. split; [apply RM; [nra | exact H] | reflexivity].
    + right. split; [apply RM; [nra | exact H] | reflexivity].
    + left. split; [apply RP; [nra | exact H] | reflexivity].
Qed.
Lemma fdiv_cases x y : fis_finite x = true -> fis_finite y = true -> R_of y <> 0 ->
  (fis_finite (fdiv x y) = true /\ R_of (fdiv x y) = RN (R_of x / R_of y) /\ Rabs (RN (R_of x / R_of y)) < bp 1024)
  \/ (bp 1024 <= RN (R_of x / R_of y) /\ fdiv x y = B754_infinity false)
  \/ (RN (R_of x / R_of y) <= - bp 1024 /\ fdiv x y = B754_infinity true).
Proof.
  intros Fx Fy Y1. pose proof (Bdiv_correct 53 1024 _ _ mode_NE x y Y1) as C. cbv zeta in C.
  destruct (Rlt_or_le (Rabs (RN (R_of x / R_of y))) (bp 1024)) as [H | H].
  - left. rewrite Rlt_bool_true in C by exact H. destruct C as (C1 & C2 & _).
    split; [unfold fis_finite, fdiv; rewrite C2; exact Fx |]. split; [exact C1 | exact H].
  - right. rewrite Rlt_bool_false in C by exact H.
    assert (NZ : R_of x / R_of y <> 0).
    { intros Z. rewrite Z, RN_0, Rabs_R0 in H. pose proof (bpow_gt_0 radix2 1024). lra. }
    assert (SG : forall z, fis_finite z = true -> R_of z <> 0 -> Bsign z = Rlt_bool (R_of z) 0).
    { intros z Fz NzZ. destruct (Bsign z) eqn:S.
      - pose proof (Bsign_R_le z Fz S). rewrite Rlt_bool_true by lra. reflexivity.
      - pose proof (Bsign_R_ge z Fz S). rewrite Rlt_bool_false by lra. reflexivity. }
    assert (X1 : R_of x <> 0) by (intros Z; apply NZ; rewrite Z; unfold Rdiv; ring).
    rewrite (SG x Fx X1), (SG y Fy Y1) in C. cbn in C. apply B2SF_inf in C. change (Bdiv mode_NE x y) with (fdiv x y) in C.
    assert (RP : forall r, 0 <= r -> bp 1024 <= Rabs (RN r) -> bp 1024 <= RN r) by (intros r P Q; rewrite Rabs_pos_eq in Q by (apply RN_ge0; exact P); exact Q).
    assert (RM : forall r, r <= 0 -> bp 1024 <= Rabs (RN r) -> RN r <= - bp 1024) by (intros r P Q; rewrite Rabs_left1 in Q by (apply RN_le0; exact P); lra).
    unfold Rdiv in *.
    destruct (Rlt_bool_spec (R_of x) 0) as [S1 | S1]; destruct (Rlt_bool_spec (R_of y) 0) as [S2 | S2]; cbn in C; rewrite C.
    + pose proof (Rinv_lt_0_compat _ S2). left. split; [apply RP; [nra | exact H] | reflexivity].
    + assert (P : 0 < R_of y) by lra. pose proof (Rinv_0_lt_compat _ P). right. split; [apply RM; [nra | exact H] | reflexivity].
    + pose proof (Rinv_lt_0_compat _ S2). right. split; [apply RM; [nra | exact H] | reflexivity].
    + assert (P : 0 < R_of y) by lra. pose proof (Rinv_0_lt_compat _ P). left. split; [apply RP; [nra | exact H] | reflexivity].
Qed.

Definition posf (t : f64) : Prop := fis_finite t = true /\ 0 < R_of t.
Lemma posf_shape t : posf t -> exists m e H, t = B754_finite false m e H.
Proof.
  intros [F P]. destruct t as [s | s | | s m e H]; try discriminate.
  - unfold R_of in P. cbn in P. lra.
  - destruct s; [| eauto]. pose proof (Bsign_R_le (B754_finite true m e H) eq_refl eq_refl). lra.
Qed.
Section Order.
Variable op : f64 -> f64 -> f64.
Variable rop : R -> R -> R.
Variable t : f64.
Hypothesis Pt : posf t.
Hypothesis inf_op : forall s, op (B754_infinity s) t = B754_infinity s.
Hypothesis cases : forall x, fis_finite x = true ->
  (fis_finite (op x t) = true /\ R_of (op x t) = RN (rop (R_of x) (R_of t)) /\ Rabs (RN (rop (R_of x) (R_of t))) < bp 1024)
  \/ (bp 1024 <= RN (rop (R_of x) (R_of t)) /\ op x t = B754_infinity false)
  \/ (RN (rop (R_of x) (R_of t)) <= - bp 1024 /\ op x t = B754_infinity true).
Hypothesis mono : forall a b, a <= b -> rop a (R_of t) <= rop b (R_of t).
Lemma op_nn x : nn x -> nn (op x t).
Proof.
  intros N. destruct (fis_finite x) eqn:Fx.
  - destruct (cases x Fx) as [(H & _) | [(_ & E) | (_ & E)]]; [apply nn_finite; exact H | rewrite E; reflexivity | rewrite E; reflexivity].
  - destruct x as [s | s | | s m e H]; try discriminate. rewrite inf_op. reflexivity.
Qed.
Lemma op_le x y : nn x -> nn y -> (rank x <= rank y)%Z -> (rank (op x t) <= rank (op y t))%Z.
Proof.
  intros Nx Ny L. pose proof (op_nn x Nx) as N1. pose proof (op_nn y Ny) as N2.
  destruct (fis_finite x) eqn:Fx.
  2: { destruct x as [s | s | | s m e H]; try discriminate. destruct s.
       - rewrite inf_op, rank_inf. apply rank_ge_inf. exact N2.
       - rewrite rank_inf in L. destruct (fis_finite y) eqn:Fy; [pose proof (rank_bound _ Fy); lia |].
         destruct y as [s | s | | s m e H]; try discriminate. destruct s; [rewrite rank_inf in L; lia |]. rewrite !inf_op. lia. }
  destruct (fis_finite y) eqn:Fy.
  2: { destruct y as [s | s | | s m e H]; try discriminate. destruct s.
       - rewrite rank_inf in L. pose proof (rank_bound _ Fx). lia.
       - rewrite inf_op, rank_inf. apply rank_le_inf. exact N1. }
  apply rank_leR in L; try assumption.
  assert (M : RN (rop (R_of x) (R_of t)) <= RN (rop (R_of y) (R_of t))) by (apply RN_le, mono, L).
  pose proof (bpow_gt_0 radix2 1024) as P.
  destruct (cases x Fx) as [(F1 & E1 & B1) | [(B1 & E1) | (B1 & E1)]];
  destruct (cases y Fy) as [(F2 & E2 & B2) | [(B2 & E2) | (B2 & E2)]];
  try (apply rank_leR; [assumption .. |]; rewrite E1, E2; exact M);
  try (rewrite E2, rank_inf; apply rank_le_inf; exact N1);
  try (rewrite E1, rank_inf; apply rank_ge_inf; exact N2);
  try (apply Rabs_def2 in B1); try (apply Rabs_def2 in B2); lra.
Qed.
End Order.
Lemma fmul_inf s t : posf t -> fmul (B754_infinity s) t = B754_infinity s.
Proof. intros P. destruct (posf_shape t P) as (m & e & H & ->). destruct s; reflexivity. Qed.
Lemma fdiv_inf s t : posf t -> fdiv (B754_infinity s) t = B754_infinity s.
Proof. intros P. destruct (posf_shape t P) as (m & e & H & ->). destruct s; reflexivity. Qed.
Lemma fmul_le x y t : posf t -> nn x -> nn y -> (rank x <= rank y)%Z -> nn (fmul x t) /\ (rank (fmul x t) <= rank (fmul y t))%Z.
Proof.
  intros P Nx Ny L. split.
  - apply (op_nn fmul Rmult t); [intros s; apply fmul_inf; exact P | intros z Fz; apply fmul_cases; [exact Fz | apply P] | exact Nx].
  - apply (op_le fmul Rmult t); try assumption.
    + intros s. apply fmul_inf. exact P.
    + intros z Fz. apply fmul_cases; [exact Fz | apply P].
    + intros a b H. apply Rmult_le_compat_r; [left; apply P | exact H].
Qed.
Lemma fdiv_le x y t : posf t -> nn x -> nn y -> (rank x <= rank y)%Z -> nn (fdiv x t) /\ (rank (fdiv x t) <= rank (fdiv y t))%Z.
Proof.
  intros P Nx Ny L. assert (NZ : R_of t <> 0) by (destruct P; lra). split.
  - apply (op_nn fdiv Rdiv t); [intros s; apply fdiv_inf; exact P | intros z Fz; apply fdiv_cases; [exact Fz | apply P | exact NZ] | exact Nx].
  - apply (op_le fdiv Rdiv t); try assumption.
    + intros s. apply fdiv_inf. exact P.
    + intros z Fz. apply fdiv_cases; [exact Fz | apply P | exact NZ].
    + intros a b H. apply Rmult_le_compat_r; [left; apply Rinv_0_lt_compat, P | exact H].
Qed.
Lemma fround_inf s : fround (B754_infinity s) = B754_infinity s.
Proof. reflexivity. Qed.
Lemma fround_nn x : nn x -> nn (fround x).
Proof.
  intros N. destruct (fis_finite x) eqn:F; [apply nn_finite; rewrite fround_fin; exact F |].
  destruct x as [s | s | | s m e H]; try discriminate. reflexivity.
Qed.
Lemma fround_le x y : nn x -> nn y -> (rank x <= rank y)%Z -> (rank (fround x) <= rank (fround y))%Z.
Proof.
  intros Nx Ny L. pose proof (fround_nn x Nx) as N1. pose proof (fround_nn y Ny) as N2.
  destruct (fis_finite x) eqn:Fx.
  2: { destruct x as [s | s | | s m e H]; try discriminate. destruct s.
       - rewrite fround_inf, rank_inf. apply rank_ge_inf. exact N2.
       - rewrite rank_inf in L. destruct (fis_finite y) eqn:Fy; [pose proof (rank_bound _ Fy); lia |].
         destruct y as [s | s | | s m e H]; try discriminate. destruct s; [rewrite rank_inf in L; lia |]. lia. }
  destruct (fis_finite y) eqn:Fy.
  2: { destruct y as [s | s | | s m e H]; try discriminate. destruct s.
       - rewrite rank_inf in L. pose proof (rank_bound _ Fx). lia.
       - rewrite fround_inf, rank_inf. apply rank_le_inf. exact N1. }
  apply rank_leR; [rewrite fround_fin; assumption | rewrite fround_fin; assumption |].
  rewrite !fround_R. apply IZR_le. apply rank_leR in L; [| assumption | assumption].
  apply Zrnd_le; [apply valid_rnd_N | exact L].
Qed.

(** ** Fixed models *)
(** The scale or grid size in use: a fixed model with a positive scale, or with
    a positive grid size. *)
Definition scaled (pm : PM) (s : f64) : Prop := pm_type pm = Fixed /\ fgtb (pm_grid pm) f0 = false /\ pm_scale pm = s.
Definition gridded (pm : PM) (g : f64) : Prop := pm_type pm = Fixed /\ pm_grid pm = g /\ fgtb g f0 = true.
Lemma mp_scaled pm s v : scaled pm s -> nn v -> make_precise pm v = fdiv (fround (fmul v s)) s.
Proof. intros (T & G & <-) N. unfold make_precise. unfold nn in N. rewrite N, T, G. reflexivity. Qed.
Lemma mp_gridded pm g v : gridded pm g -> nn v -> make_precise pm v = fmul (fround (fdiv v g)) g.
Proof. intros (T & <- & G) N. unfold make_precise. unfold nn in N. rewrite N, T, G. reflexivity. Qed.

(** A number of moderate size. *)
Definition moderate (s : f64) : Prop := fis_finite s = true /\ bp (-900) <= R_of s <= bp 900.
Lemma moderate_pos s : moderate s -> posf s.
Proof. intros [F [L _]]. split; [exact F |]. pose proof (bpow_gt_0 radix2 (-900)). lra. Qed.

Lemma izr_bound n k : (0 <= k)%Z -> (Z.abs n <= 2 ^ k)%Z -> Rabs (IZR n) <= bp k.
Proof.
  intros Hk H. rewrite <- abs_IZR, <- (IZR_Zpower radix2) by exact Hk. apply IZR_le. exact H.
Qed.
(** Rounding the scaled value of a grid number finds it again. *)
Lemma back_mul s n : bp (-900) <= s <= bp 900 -> (Z.abs n <= 2 ^ 50)%Z ->
  Rabs (RN (IZR n / s)) < bp 1024 /\ Rabs (RN (IZR n * s)) < bp 1024 /\
  Rabs (RN (RN (IZR n / s) * s)) < bp 1024 /\ Rabs (RN (RN (IZR n * s) / s)) < bp 1024 /\
  ZnearestA (RN (RN (IZR n / s) * s)) = n /\ ZnearestA (RN (RN (IZR n * s) / s)) = n.
Proof.
  intros Hs Hn. pose proof (bpow_gt_0 radix2 (-900)) as B. assert (S0 : 0 < s) by lra.
  pose proof (izr_bound n 50 ltac:(lia) Hn) as BN.
  pose proof u53_pos as U0. pose proof u53_small as U1.
  assert (U2 : u53 * bp 50 = / 8) by (rewrite <- bpow_plus; cbn; lra).
  assert (I1 : bp (-900) <= / s <= bp 900).
  { replace (bp (-900)) with (/ bp 900) by (symmetry; apply (bpow_opp radix2 900)). replace (bp 900) with (/ bp (-900)) at 2 by (symmetry; apply (bpow_opp radix2 (-900))).
    split; apply Rinv_le; lra. }
  destruct (Z.eq_dec n 0) as [-> | Zn].
  { unfold Rdiv. rewrite !Rmult_0_l, RN_0, !Rmult_0_l, RN_0, Rabs_R0. pose proof (bpow_gt_0 radix2 1024).
    split; [lra |]. split; [lra |]. split; [lra |]. split; [lra |].
    rewrite (Znearest_imp _ 0 0) by (rewrite Rminus_0_r, Rabs_R0; lra). tauto. }
  assert (N1 : 1 <= Rabs (IZR n)) by (rewrite <- abs_IZR; apply IZR_le; lia).
  assert (G : forall c, bp (-900) <= c <= bp 900 -> let d := / c in
     Rabs (RN (IZR n * c)) < bp 1024 /\ Rabs (RN (RN (IZR n * c) * d)) < bp 1024 /\ ZnearestA (RN (RN (IZR n * c) * d)) = n).
  { intros c Hc d. assert (C0 : 0 < c) by lra. assert (CD : c * d = 1) by (unfold d; field; lra).
    assert (D0 : 0 < d) by (apply Rinv_0_lt_compat; exact C0).
    assert (MX : Rabs (IZR n * c) <= bp 950).
    { rewrite Rabs_mult, (Rabs_pos_eq c) by lra. change 950%Z with (50 + 900)%Z. rewrite bpow_plus. apply Rmult_le_compat; try apply Rabs_pos; lra. }
    assert (MN : bp (-1022) <= Rabs (IZR n * c)).
    { rewrite Rabs_mult, (Rabs_pos_eq c) by lra. assert (bp (-1022) <= bp (-900)) by (apply bpow_le; lia).
      apply Rle_trans with (1 * c); [lra | apply Rmult_le_compat_r; lra]. }
    pose proof (RN_rel _ (or_intror MN)) as E1. set (v := RN (IZR n * c)) in *.
    assert (E2 : Rabs (v * d - IZR n) <= u53 * Rabs (IZR n)).
    { replace (v * d - IZR n) with ((v - IZR n * c) * d) by (replace (IZR n) with (IZR n * (c * d)) at 2 by (rewrite CD; ring); ring).
      rewrite Rabs_mult, (Rabs_pos_eq d) by lra.
      apply Rle_trans with (u53 * Rabs (IZR n * c) * d); [apply Rmult_le_compat_r; lra |].
      rewrite Rabs_mult, (Rabs_pos_eq c) by lra. apply Req_le. replace (u53 * (Rabs (IZR n) * c) * d) with (u53 * Rabs (IZR n) * (c * d)) by ring. rewrite CD. ring. }
    assert (TI : Rabs (v * d) <= Rabs (IZR n) + Rabs (v * d - IZR n)).
    { replace (v * d) with (IZR n + (v * d - IZR n)) at 1 by ring. apply Rabs_triang. }
    assert (TI' : Rabs (IZR n) <= Rabs (v * d) + Rabs (v * d - IZR n)).
    { rewrite (Rabs_minus_sym (v * d)). replace (IZR n) with (v * d + (IZR n - v * d)) at 1 by ring. apply Rabs_triang. }
    set (N := Rabs (IZR n)) in *.
    assert (uN : u53 * N <= / 8) by (rewrite <- U2; apply Rmult_le_compat_l; lra).
    assert (V2 : Rabs (v * d) <= 2 * N) by nra.
    assert (V1 : / 2 <= Rabs (v * d)) by lra.
    assert (E3 : Rabs (RN (v * d) - v * d) <= u53 * Rabs (v * d)).
    { apply RN_rel. right. apply Rle_trans with (bp (-1)); [apply bpow_le; lia | exact V1]. }
    split; [apply (RN_small _ 950); [lia | exact MX] |]. split.
    - apply (RN_small _ 51); [lia |]. replace (bp 51) with (2 * bp 50) by (symmetry; apply (bp_S 50)). lra.
    - apply Znearest_imp. replace (RN (v * d) - IZR n) with ((RN (v * d) - v * d) + (v * d - IZR n)) by ring.
      eapply Rle_lt_trans; [apply Rabs_triang |].
      assert (u53 * Rabs (v * d) <= u53 * (2 * N)) by (apply Rmult_le_compat_l; lra). lra. }
  destruct (G (/ s) I1) as (A1 & A2 & A3). destruct (G s Hs) as (B1 & B2 & B3). cbv zeta in *. rewrite Rinv_inv in *.
  unfold Rdiv. tauto.
Qed.

(** What a fixed model returns: the double nearest to a grid value next to the argument. *)
Lemma znear_bound r : Rabs r <= bp 50 -> (Z.abs (ZnearestA r) <= 2 ^ 50)%Z.
Proof.
  intros H. assert (E : forall k, ZnearestA (IZR k) = k) by (intros k; apply Znearest_imp; rewrite Rminus_eq_0, Rabs_R0; lra).
  assert (B : bp 50 = IZR (2 ^ 50)) by (symmetry; apply (IZR_Zpower radix2 50); lia). rewrite B in H. apply Rabs_le_inv in H.
  apply Z.abs_le. split.
  - rewrite <- (E (- 2 ^ 50)%Z). apply Zrnd_le; [apply valid_rnd_N |]. rewrite opp_IZR. lra.
  - rewrite <- (E (2 ^ 50)%Z). apply Zrnd_le; [apply valid_rnd_N | lra].
Qed.
Lemma znear_dist r : Rabs (IZR (ZnearestA r) - r) <= / 2.
Proof. rewrite Rabs_minus_sym. apply Znearest_half. Qed.

Lemma scaled_value pm s v : scaled pm s -> moderate s -> fis_finite v = true -> Rabs (R_of v * R_of s) <= bp 50 ->
  exists n, (Z.abs n <= 2 ^ 50)%Z /\ n = ZnearestA (RN (R_of v * R_of s)) /\ fis_finite (make_precise pm v) = true /\
    R_of (make_precise pm v) = RN (IZR n / R_of s).
Proof.
  intros Hs Hm Fv Hb. rewrite (mp_scaled pm s v Hs (nn_finite _ Fv)). destruct Hm as [Fs Hm].
  destruct (fmul_R v s Fv Fs) as [F1 E1]; [apply (RN_small _ 50); [lia | exact Hb] |].
  exists (ZnearestA (RN (R_of v * R_of s))).
  assert (N : (Z.abs (ZnearestA (RN (R_of v * R_of s))) <= 2 ^ 50)%Z) by (apply znear_bound, RN_abs_le; [lia | exact Hb]).
  split; [exact N |]. split; [reflexivity |].
  destruct (back_mul (R_of s) _ Hm N) as (B1 & _). pose proof (bpow_gt_0 radix2 (-900)).
  assert (E2 : R_of (fround (fmul v s)) = IZR (ZnearestA (RN (R_of v * R_of s)))) by (rewrite fround_R, E1; reflexivity).
  destruct (fdiv_R (fround (fmul v s)) s) as [F3 E3].
  - rewrite fround_fin. exact F1.
  - lra.
  - rewrite E2. exact B1.
  - rewrite E2 in E3. tauto.
Qed.
Lemma gridded_value pm g v : gridded pm g -> moderate g -> fis_finite v = true -> Rabs (R_of v / R_of g) <= bp 50 ->
  exists n, (Z.abs n <= 2 ^ 50)%Z /\ n = ZnearestA (RN (R_of v / R_of g)) /\ fis_finite (make_precise pm v) = true /\
    R_of (make_precise pm v) = RN (IZR n * R_of g).
Proof.
  intros Hs Hm Fv Hb. rewrite (mp_gridded pm g v Hs (nn_finite _ Fv)). destruct Hm as [Fs Hm]. pose proof (bpow_gt_0 radix2 (-900)).
  destruct (fdiv_R v g Fv ltac:(lra)) as [F1 E1]; [apply (RN_small _ 50); [lia | exact Hb] |].
  exists (ZnearestA (RN (R_of v / R_of g))).
  assert (N : (Z.abs (ZnearestA (RN (R_of v / R_of g))) <= 2 ^ 50)%Z) by (apply znear_bound, RN_abs_le; [lia | exact Hb]).
  split; [exact N |]. split; [reflexivity |].
  destruct (back_mul (R_of g) _ Hm N) as (_ & B1 & _).
  assert (E2 : R_of (fround (fdiv v g)) = IZR (ZnearestA (RN (R_of v / R_of g)))) by (rewrite fround_R, E1; reflexivity).
  destruct (fmul_R (fround (fdiv v g)) g) as [F3 E3].
  - rewrite fround_fin. exact F1.
  - exact Fs.
  - rewrite E2. exact B1.
  - rewrite E2 in E3. tauto.
Qed.
Lemma mp_fix pm s v n : scaled pm s -> moderate s -> fis_finite v = true -> (Z.abs n <= 2 ^ 50)%Z -> R_of v = RN (IZR n / R_of s) ->
  R_of (make_precise pm v) = R_of v /\ fis_finite (make_precise pm v) = true.
Proof.
  intros Hs Hm Fv Hn E. pose proof (moderate_pos s Hm) as [_ P]. pose proof Hm as [Fs HM].
  destruct (back_mul (R_of s) n HM Hn) as (B1 & _ & B3 & _ & B5 & _).
  rewrite (mp_scaled pm s v Hs (nn_finite _ Fv)).
  destruct (fmul_R v s Fv Fs) as [F1 E1]; [rewrite E; exact B3 |].
  assert (E2 : R_of (fround (fmul v s)) = IZR n) by (rewrite fround_R, E1, E, B5; reflexivity).
  destruct (fdiv_R (fround (fmul v s)) s) as [F3 E3]; [rewrite fround_fin; exact F1 | lra | rewrite E2; exact B1 |].
  rewrite E3, E2, E. tauto.
Qed.
Lemma mp_fix_g pm s v n : gridded pm s -> moderate s -> fis_finite v = true -> (Z.abs n <= 2 ^ 50)%Z -> R_of v = RN (IZR n * R_of s) ->
  R_of (make_precise pm v) = R_of v /\ fis_finite (make_precise pm v) = true.
Proof.
  intros Hs Hm Fv Hn E. pose proof (moderate_pos s Hm) as [_ P]. pose proof Hm as [Fs HM].
  destruct (back_mul (R_of s) n HM Hn) as (_ & B2 & _ & B4 & _ & B6).
  rewrite (mp_gridded pm s v Hs (nn_finite _ Fv)).
  destruct (fdiv_R v s Fv ltac:(lra)) as [F1 E1]; [rewrite E; exact B4 |].
  assert (E2 : R_of (fround (fdiv v s)) = IZR n) by (rewrite fround_R, E1, E, B6; reflexivity).
  destruct (fmul_R (fround (fdiv v s)) s) as [F3 E3]; [rewrite fround_fin; exact F1 | exact Fs | rewrite E2; exact B2 |].
  rewrite E3, E2, E. tauto.
Qed.
