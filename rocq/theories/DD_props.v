(** Properties C38 to C41 and C72: double-double arithmetic. *)
From Coq Require Import ZArith Bool Reals Lia Lra.
From Flocq Require Import Core BinarySingleNaN.
From Verif Require Import Base F64 F64Facts F64Round F64Err DD_model DD_spec DD_proofs DDSign_proofs.
Open Scope Z_scope.

(** ** C38 *)
(** [lim] is 2^1024 - 2^973, just below the largest double. *)
Theorem C38_sum_exact : forall x y, fis_finite x = true -> fis_finite y = true ->
  (Rabs (R_of x) <= lim)%R -> (Rabs (R_of y) <= lim)%R -> (Rabs (RN (R_of x + R_of y)) < bp 1024)%R ->
  normed (dd_add_f64 (dd_of x) y) /\ dval (dd_add_f64 (dd_of x) y) = (R_of x + R_of y)%R.
Proof.
  intros x y Fx Fy Bx By B. destruct (dd_add_f64_exact x y Fx Fy Bx By B) as (F & E & V). cbv zeta in *.
  split; [|exact V]. split; [exact F|]. now rewrite V.
Qed.
Theorem C38_difference_exact : forall x y, fis_finite x = true -> fis_finite y = true ->
  (Rabs (R_of x) <= lim)%R -> (Rabs (R_of y) <= lim)%R -> (Rabs (RN (R_of x - R_of y)) < bp 1024)%R ->
  normed (dd_sub_f64 (dd_of x) y) /\ dval (dd_sub_f64 (dd_of x) y) = (R_of x - R_of y)%R.
Proof.
  intros x y Fx Fy Bx By B. unfold dd_sub_f64.
  replace (R_of x - R_of y)%R with (R_of x + R_of (fneg y))%R in * by (rewrite fneg_R; ring).
  apply C38_sum_exact; rewrite ?fneg_fin, ?fneg_R, ?Rabs_Ropp; auto. now rewrite fneg_R in B.
Qed.
(** Next to the largest double the claim fails although the sum does not overflow. *)
Definition c38_x : f64 := mkf (-3) 970.
Definition c38_y : f64 := mkf (2 ^ 53 - 1) 971.
Theorem C38_largest_double_refuted :
  fis_finite c38_x = true /\ fis_finite c38_y = true /\ fis_finite (fadd c38_x c38_y) = true /\
  dd_is_nan (dd_add_f64 (dd_of c38_x) c38_y) = true.
Proof. repeat split; vm_compute; reflexivity. Qed.
(** 1 + 2^-60 needs both parts. *)
Example C38_example :
  let z := dd_add_f64 (dd_of f1) (mkf 1 (-60)) in
  feqb (hi z) f1 = true /\ feqb (lo z) (mkf 1 (-60)) = true /\ (Rabs (R_of f1) <= lim)%R.
Proof.
  cbv zeta. repeat split; try (vm_compute; reflexivity).
  rewrite R_of_f1, Rabs_R1. apply Rle_trans with (bp 0); [simpl; lra|].
  assert (bf 0 f1) as B. { split; [reflexivity|]. rewrite R_of_f1, Rabs_R1. simpl. lra. }
  apply (bf_lim 0 f1) in B; [|lia]. rewrite R_of_f1, Rabs_R1 in B. exact B.
Qed.

(** ** C39 *)
(** [bf k x]: [x] is finite and of absolute value at most 2^k. *)
Theorem C39_product_exact : forall k l x y, -500 <= k <= 990 -> -500 <= l <= 990 -> k + l <= 1010 ->
  bf k x -> bf l y ->
  (R_of x * R_of y = 0 \/ bp (-969) <= Rabs (R_of x * R_of y))%R ->
  normed (dd_mul_f64 (dd_of x) y) /\ dval (dd_mul_f64 (dd_of x) y) = (R_of x * R_of y)%R.
Proof.
  intros k l x y K L KL Bx By OK. unfold dd_mul_f64. rewrite (nn_finite _ (bf_fin _ _ By)).
  destruct (dd_mul_f64_exact k l x y K L KL Bx By OK) as (F & E & V). cbv zeta in *.
  split; [|exact V]. split; [exact F|]. now rewrite V.
Qed.
Theorem C39_square_exact : forall k x, -500 <= k <= 505 -> bf k x ->
  (R_of x * R_of x = 0 \/ bp (-969) <= Rabs (R_of x * R_of x))%R ->
  normed (dd_sqr_f64 x) /\ dval (dd_sqr_f64 x) = (R_of x * R_of x)%R.
Proof.
  intros k x K Bx OK.
  destruct (dd_mul_f64_exact k k x x ltac:(lia) ltac:(lia) ltac:(lia) Bx Bx OK) as (F & E & V). cbv zeta in *.
  unfold dd_sqr_f64, dd_self_mul_f64. split; [|exact V]. split; [exact F|]. now rewrite V.
Qed.
(** A product below 2^-1074 is lost; 2^1000 times 2^3 does not overflow but gives NaN. *)
Theorem C39_underflow_refuted : exists x y,
  fis_finite x = true /\ fis_finite y = true /\ feqb x f0 = false /\ feqb y f0 = false /\
  dd_is_zero (dd_mul_f64 (dd_of x) y) = true.
Proof. exists (mkf 1 (-600)), (mkf 1 (-600)). repeat split; vm_compute; reflexivity. Qed.
Theorem C39_large_factor_refuted : exists x y,
  fis_finite x = true /\ fis_finite y = true /\ fis_finite (fmul x y) = true /\
  dd_is_nan (dd_mul_f64 (dd_of x) y) = true.
Proof. exists (mkf 1 1000), (mkf 1 3). repeat split; vm_compute; reflexivity. Qed.
Example C39_example : let x := mkf (2 ^ 30 + 1) 0 in
  bf 31 x /\ let z := dd_mul_f64 (dd_of x) x in feqb (hi z) (mkf (2 ^ 60 + 2 ^ 31) 0) = true /\ feqb (lo z) f1 = true.
Proof.
  cbv zeta. split; [|split; vm_compute; reflexivity].
  destruct (grid_mkf (2 ^ 30 + 1) 0 ltac:(lia) ltac:(lia)) as (F & E). split; [exact F|].
  rewrite E. change (bp 0) with 1%R. rewrite Rmult_1_r, Rabs_pos_eq by (apply IZR_le; lia).
  change (bp 31) with (IZR (2 ^ 31)). apply IZR_le. lia.
Qed.

(** ** C40 *)
Theorem C40_comparisons : forall x y, normed x -> normed y ->
  (dd_equals x y = true <-> (dval x = dval y)%R) /\
  (dd_lt x y = true <-> (dval x < dval y)%R) /\ (dd_le x y = true <-> (dval x <= dval y)%R) /\
  (dd_gt x y = true <-> (dval x > dval y)%R) /\ (dd_ge x y = true <-> (dval x >= dval y)%R).
Proof.
  intros x y Nx Ny. split; [now apply dd_equals_R|]. split; [now apply dd_lt_R|]. split; [now apply dd_le_R|].
  split; [now apply dd_gt_R|]. rewrite dd_ge_R by assumption. split; lra.
Qed.
Theorem C40_compare_to : forall x y, normed x -> normed y -> is_sign (dd_compare x y) (dval x - dval y).
Proof. exact dd_compare_R. Qed.
Theorem C40_signs : forall x, normed x ->
  is_sign (dd_signum x) (dval x) /\ (dd_is_zero x = true <-> dval x = 0%R) /\
  (dd_is_negative x = true <-> (dval x < 0)%R) /\ (dd_is_positive x = true <-> (dval x > 0)%R).
Proof.
  intros x N. split; [now apply dd_signum_R|]. split; [now apply dd_is_zero_R|].
  split; [now apply dd_is_negative_R|]. now apply dd_is_positive_R.
Qed.
Theorem C40_negate_abs : forall x, normed x ->
  normed (dd_neg x) /\ dval (dd_neg x) = (- dval x)%R /\ normed (dd_abs x) /\ dval (dd_abs x) = Rabs (dval x).
Proof. intros x N. destruct (dd_neg_R x N), (dd_abs_R x N). auto. Qed.
Theorem C40_min_max : forall x y, normed x -> normed y ->
  ((dd_min x y = x \/ dd_min x y = y) /\ dval (dd_min x y) = Rmin (dval x) (dval y)) /\
  ((dd_max x y = x \/ dd_max x y = y) /\ dval (dd_max x y) = Rmax (dval x) (dval y)).
Proof. intros. split; [now apply dd_min_R|now apply dd_max_R]. Qed.
(** Two different normalised numbers with the same high part. *)
Definition c40_x : DD := dd_add_f64 (dd_of f1) (mkf 1 (-60)).
Definition c40_y : DD := dd_sub_f64 (dd_of f1) (mkf 1 (-60)).
Example C40_example : normed c40_x /\ normed c40_y /\ dd_compare c40_y c40_x = -1 /\
  dd_lt c40_y c40_x = true /\ feqb (hi c40_x) (hi c40_y) = true.
Proof.
  assert (bf 0 f1) as B1. { split; [reflexivity|]. rewrite R_of_f1, Rabs_R1. simpl. lra. }
  destruct (grid_mkf 1 (-60) ltac:(lia) ltac:(lia)) as (F & E).
  assert (bf 0 (mkf 1 (-60))) as B2.
  { split; [exact F|]. rewrite E, Rmult_1_l, Rabs_pos_eq by apply bpow_ge_0. apply bpow_le. lia. }
  destruct (bf_add 0 _ _ ltac:(lia) B1 B2) as ((_ & L1) & E1). rewrite E1 in L1.
  destruct (bf_sub 0 _ _ ltac:(lia) B1 B2) as ((_ & L2) & E2). rewrite E2 in L2.
  assert (bp (0 + 1) < bp 1024)%R by (apply bpow_lt; lia).
  split; [|split].
  - apply C38_sum_exact; try reflexivity; try (apply (bf_lim 0); [lia|assumption]); lra.
  - apply C38_difference_exact; try reflexivity; try (apply (bf_lim 0); [lia|assumption]); lra.
  - repeat split; vm_compute; reflexivity.
Qed.

(** ** C41 *)
Theorem C41_floor_ceil_trunc : forall x, normed x ->
  (dfin (dd_floor x) /\ dval (dd_floor x) = IZR (Zfloor (dval x))) /\
  (dfin (dd_ceil x) /\ dval (dd_ceil x) = IZR (Zceil (dval x))) /\
  (dfin (dd_trunc x) /\ dval (dd_trunc x) = IZR (Ztrunc (dval x))).
Proof. intros x N. split; [now apply dd_floor_R|]. split; [now apply dd_ceil_R|now apply dd_trunc_R]. Qed.
Theorem C41_nan : forall x, dd_is_nan x = true ->
  dd_is_nan (dd_floor x) = true /\ dd_is_nan (dd_ceil x) = true /\ dd_is_nan (dd_trunc x) = true /\
  dd_is_nan (snd (dd_rint x)) = true.
Proof. intros x H. unfold dd_floor, dd_ceil, dd_trunc, dd_rint. rewrite H. auto. Qed.
Theorem C41_rint_of_double : forall x, fis_finite x = true -> (Rabs (R_of x) <= lim)%R ->
  dval (snd (dd_rint (dd_of x))) = IZR (Zfloor (R_of x + / 2)) /\
  dval (fst (dd_rint (dd_of x))) = (R_of x + / 2)%R.
Proof.
  intros x F B. unfold dd_rint. unfold dd_is_nan at 1 2. cbn [dd_of hi]. rewrite (nn_finite x F). cbn [fst snd].
  assert (R_of fhalf = / 2)%R as Eh.
  { destruct (grid_mkf 1 (-1) ltac:(lia) ltac:(lia)) as (_ & E). unfold fhalf. rewrite E, Rmult_1_l. reflexivity. }
  destruct (C38_sum_exact x fhalf) as (N & V); try assumption; try reflexivity.
  - rewrite Eh. apply Rle_trans with (bp 0).
    + rewrite Rabs_pos_eq by lra. simpl. lra.
    + unfold lim. pose proof (bpow_le radix2 973 1023 ltac:(lia)). pose proof (bpow_le radix2 0 1023 ltac:(lia)).
      replace (bp 1024) with (2 * bp 1023)%R by (change 1024 with (1023 + 1); now rewrite bp_S). lra.
  - rewrite Eh. apply fits_max. eapply Rle_trans; [apply Rabs_triang|].
    rewrite (Rabs_pos_eq (/ 2)) by lra. unfold lim, maxR in *.
    pose proof (bpow_le radix2 0 971 ltac:(lia)) as H0. change (bp 0) with 1%R in H0.
    replace (bp 973) with (4 * bp 971)%R in B; [lra|]. change 973 with (971 + 1 + 1). rewrite !bp_S. ring.
  - rewrite Eh in V. destruct (dd_floor_R _ N) as (_ & W). unfold dd_of in *. rewrite W, V. auto.
Qed.
(** [floor] may return a pair that is not normalised, and then [is_zero] is wrong about it. *)
Definition c41_x : DD := mkDD f1 (mkf (-1) (-60)).
Theorem C41_result_normalised_refuted :
  dd_is_zero (dd_floor c41_x) = false /\ feqb (dd_double (dd_floor c41_x)) f0 = true /\
  dd_is_positive (dd_floor c41_x) = true.
Proof. repeat split; vm_compute; reflexivity. Qed.
(** [rint] adds one half to the number it is called on. *)
Theorem C41_rint_changes_receiver_refuted : dd_equals (fst (dd_rint (dd_of f1))) (dd_of f1) = false.
Proof. vm_compute. reflexivity. Qed.
Example C41_example : normed c40_y /\ feqb (dd_double (dd_floor c40_y)) f0 = true /\ feqb (dd_double (dd_ceil c40_y)) f1 = true.
Proof. split; [apply C40_example|]. split; vm_compute; reflexivity. Qed.

(** ** C72: error bounds of the general operations; [u53] is 2^-53 *)
Theorem C72_product_error : forall k l x y, -400 <= k <= 480 -> -400 <= l <= 480 ->
  normed x -> normed y -> bf k (hi x) -> bf l (hi y) ->
  (dval x * dval y = 0 \/ bp (-899) <= Rabs (dval x * dval y))%R ->
  let z := dd_self_mul x y in
  normed z /\ (Rabs (dval z - dval x * dval y) <= 10 * (u53 * u53) * Rabs (dval x * dval y))%R.
Proof.
  intros k l x y K L Nx Ny Bx By OK. cbv zeta. unfold dd_self_mul.
  pose proof (normed_hi_val x Nx) as (Hx1 & Hx2). pose proof (normed_hi_val y Ny) as (Hy1 & Hy2).
  pose proof (Rabs_pos (dval x)) as Px. pose proof (Rabs_pos (dval y)) as Py.
  pose proof (Rabs_pos (R_of (hi x))) as Qx. pose proof (Rabs_pos (R_of (hi y))) as Qy.
  assert (Rabs (dval x * dval y) <= 2 * Rabs (R_of (hi x) * R_of (hi y)))%R as M1.
  { rewrite !Rabs_mult. apply Rle_trans with ((1 + / 1024) * Rabs (R_of (hi x)) * ((1 + / 1024) * Rabs (R_of (hi y))))%R.
    - apply Rmult_le_compat; assumption.
    - pose proof (Rmult_le_pos _ _ Qx Qy). lra. }
  assert (Rabs (R_of (hi x) * R_of (hi y)) <= (1 + / 100) * Rabs (dval x * dval y))%R as M2.
  { rewrite !Rabs_mult. apply Rle_trans with ((1 + / 1000) * Rabs (dval x) * ((1 + / 1000) * Rabs (dval y)))%R.
    - apply Rmult_le_compat; assumption.
    - pose proof (Rmult_le_pos _ _ Px Py). lra. }
  pose proof (dd_mul_spec k l x (hi y) (lo y) K L) as H. cbv zeta in H.
  destruct H as (N & _ & _ & E); try assumption; try (apply normed_lo; assumption).
  - apply bf_lo; assumption.
  - apply bf_lo; assumption.
  - destruct OK as [Z|G]; [left|right].
    + rewrite Z, Rabs_R0, Rmult_0_r in M2. apply Rabs_eq_R0. pose proof (Rabs_pos (R_of (hi x) * R_of (hi y))). lra.
    + change (-899) with (-900 + 1) in G. rewrite bp_S in G. lra.
  - split; [exact N|]. change (R_of (hi y) + R_of (lo y))%R with (dval y) in E. eapply Rle_trans; [exact E|].
    assert (0 <= u53 * u53)%R as U by (pose proof u53_pos; apply Rmult_le_pos; lra).
    apply (Rmult_le_compat_l _ _ _ U) in M2. pose proof (Rmult_le_pos _ _ U (Rabs_pos (dval x * dval y))). lra.
Qed.
Theorem C72_sum_error : forall k x y, -1000 <= k <= 1000 ->
  normed x -> normed y -> bf k (hi x) -> bf k (hi y) ->
  let z := dd_add x y in
  dfin z /\ (Rabs (dval z - (dval x + dval y)) <= 17 * (u53 * u53) * (Rabs (dval x) + Rabs (dval y)))%R.
Proof.
  intros k x y K Nx Ny Bx By. cbv zeta. unfold dd_add.
  pose proof (normed_hi_val x Nx) as (Hx1 & Hx2). pose proof (normed_hi_val y Ny) as (Hy1 & Hy2).
  pose proof (dd_add_spec k x (hi y) (lo y) K Bx By (bf_lo _ _ Nx Bx) (bf_lo _ _ Ny By) (normed_lo x Nx) (normed_lo y Ny)) as (B1 & B2 & _ & E).
  split; [split; [apply B1|apply B2]|]. change (R_of (hi y) + R_of (lo y))%R with (dval y) in E. eapply Rle_trans; [exact E|].
  assert (0 <= u53 * u53)%R as U by (pose proof u53_pos; apply Rmult_le_pos; lra).
  assert (Rabs (R_of (hi x)) + Rabs (R_of (hi y)) <= (1 + / 1000) * (Rabs (dval x) + Rabs (dval y)))%R as M by lra.
  apply (Rmult_le_compat_l _ _ _ U) in M. pose proof (Rabs_pos (dval x)). pose proof (Rabs_pos (dval y)).
  assert (0 <= u53 * u53 * (Rabs (dval x) + Rabs (dval y)))%R by (apply Rmult_le_pos; lra). lra.
Qed.
(** The sign reported for a sum or a difference is that of the exact sum or
    difference, however much cancels. *)
Theorem C72_sum_sign : forall k x y, -1000 <= k <= 1000 ->
  normed x -> normed y -> bf k (hi x) -> bf k (hi y) ->
  is_sign (dd_signum (dd_add x y)) (dval x + dval y).
Proof.
  intros k x y K Nx Ny Bx By. unfold dd_add.
  exact (dd_add_sign k x (hi y) (lo y) K Bx By (bf_lo _ _ Nx Bx) (bf_lo _ _ Ny By) (normed_lo x Nx) (normed_lo y Ny)).
Qed.
Theorem C72_difference_sign : forall k x y, -1000 <= k <= 1000 ->
  normed x -> normed y -> bf k (hi x) -> bf k (hi y) ->
  is_sign (dd_signum (dd_self_sub x y)) (dval x - dval y).
Proof. exact dd_sub_sign_all. Qed.
Theorem C72_pow_total : forall x e, - 2 ^ 31 < e < 2 ^ 31 -> exists z, dd_pow x e = Ok (Some z).
Proof. exact dd_pow_total. Qed.
Theorem C72_pow_min_panics_refuted : forall x, dd_pow x (- 2 ^ 31) = Panic.
Proof. intros. reflexivity. Qed.
Example C72_example : normed c40_x /\ bf 1 (hi c40_x) /\ dd_signum (dd_self_sub c40_x c40_y) = 1.
Proof.
  split; [apply C40_example|]. split; [|vm_compute; reflexivity].
  split; [vm_compute; reflexivity|].
  assert (feqb (hi c40_x) f1 = true) as E by (vm_compute; reflexivity).
  apply feqb_true_R in E; try (vm_compute; reflexivity). rewrite E, R_of_f1, Rabs_R1. simpl. lra.
Qed.
