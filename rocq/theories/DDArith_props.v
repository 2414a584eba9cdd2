(** C72: quotients, reciprocals, powers, square roots, determinants and
    magnitudes of double-double numbers.  [normed z] says that the high part
    is the double nearest to the value [dval z]; [u53 * u53] is 2^-106. *)
From Coq Require Import ZArith Bool Reals Lia Lra.
From Flocq Require Import Core BinarySingleNaN.
From Verif Require Import Base F64 F64Facts F64Round F64Err NumLink DD_model DD_spec DD_proofs DD_more DDSum_proofs DD_props DDArith_proofs
  Orientation_model Orientation_spec.
Open Scope Z_scope.

(** The high part lies in the range of the value. *)
Lemma hi_range k l z : -1074 <= k -> -1074 <= l -> normed z -> (bp k <= Rabs (dval z) <= bp l)%R ->
  (bp k <= Rabs (R_of (hi z)) <= bp l)%R.
Proof.
  intros K L (_ & E) (A & B). rewrite E. split; [|now apply RN_abs_le].
  apply abs_round_ge_generic; try typeclasses eauto; [apply bpow_fmt; lia|exact A].
Qed.
(** Sums and differences are normalised again, however much cancels, so their
    error bounds can be chained. *)
Theorem C72_sum_normed : forall k x y, -1000 <= k <= 1000 ->
  normed x -> normed y -> bf k (hi x) -> bf k (hi y) -> normed (dd_add x y).
Proof. exact dd_add_normed. Qed.
Theorem C72_difference_error : forall k x y, -1000 <= k <= 1000 ->
  normed x -> normed y -> bf k (hi x) -> bf k (hi y) ->
  let z := dd_self_sub x y in
  normed z /\ (Rabs (dval z - (dval x - dval y)) <= 17 * (u53 * u53) * (Rabs (dval x) + Rabs (dval y)))%R.
Proof. intros k x y K Nx Ny Bx By. split; [now apply (dd_self_sub_normed k)|now apply (dd_self_sub_error k)]. Qed.
(** The determinant of any four numbers up to 2^400 whose products are 0 or at
    least 2^-899. *)
Theorem C72_determinant_error : forall x1 y1 x2 y2, normed x1 -> normed y1 -> normed x2 -> normed y2 ->
  (Rabs (dval x1) <= bp 400 -> Rabs (dval y1) <= bp 400 -> Rabs (dval x2) <= bp 400 -> Rabs (dval y2) <= bp 400 ->
  (dval x1 * dval y2 = 0 \/ bp (-899) <= Rabs (dval x1 * dval y2)) ->
  (dval y1 * dval x2 = 0 \/ bp (-899) <= Rabs (dval y1 * dval x2)) ->
  let z := dd_det x1 y1 x2 y2 in
  normed z /\ Rabs (dval z - (dval x1 * dval y2 - dval y1 * dval x2)) <=
    28 * (u53 * u53) * (Rabs (dval x1 * dval y2) + Rabs (dval y1 * dval x2)))%R.
Proof.
  intros x1 y1 x2 y2 N1 N2 N3 N4 B1 B2 B3 B4 P1 P2. cbv zeta.
  assert (forall z, normed z -> (Rabs (dval z) <= bp 400)%R -> bf 400 (hi z)) as BB.
  { intros z N B. split; [apply N|]. destruct N as (_ & ->). now apply RN_abs_le. }
  unfold dd_det, dd_mul. unfold dd_is_nan. rewrite (bf_nn _ _ (BB _ N4 B4)), (bf_nn _ _ (BB _ N3 B3)).
  destruct (C72_product_error 400 400 x1 y2 ltac:(lia) ltac:(lia) N1 N4 (BB _ N1 B1) (BB _ N4 B4) P1) as (M1 & E1).
  destruct (C72_product_error 400 400 y1 x2 ltac:(lia) ltac:(lia) N2 N3 (BB _ N2 B2) (BB _ N3 B3) P2) as (M2 & E2).
  cbv zeta in *. set (z1 := dd_self_mul x1 y2) in *. set (z2 := dd_self_mul y1 x2) in *.
  set (v1 := (dval x1 * dval y2)%R) in *. set (v2 := (dval y1 * dval x2)%R) in *.
  assert (0 < u53 * u53 <= / 1024)%R as (U0 & U1) by (pose proof u53_pos; pose proof u53_small; split; nra).
  set (h := (u53 * u53)%R) in *. pose proof (Rabs_pos v1) as A1. pose proof (Rabs_pos v2) as A2.
  assert (forall z v, normed z -> (Rabs (dval z - v) <= 10 * h * Rabs v -> Rabs v <= bp 800 ->
    Rabs (dval z) <= (1 + 10 * h) * Rabs v /\ bf 801 (hi z))%R) as Z.
  { intros z v N E B. assert (Rabs (dval z) <= (1 + 10 * h) * Rabs v)%R as Q.
    { replace (dval z) with (v + (dval z - v))%R by ring. eapply Rle_trans; [apply Rabs_triang|]. lra. }
    split; [exact Q|]. split; [apply N|]. destruct N as (_ & ->). apply RN_abs_le; [lia|].
    change 801 with (800 + 1). rewrite bp_S. pose proof (Rabs_pos v). nra. }
  assert (forall a b, (Rabs a <= bp 400 -> Rabs b <= bp 400 -> Rabs (a * b) <= bp 800)%R) as Pr.
  { intros a b A B. rewrite Rabs_mult. change 800 with (400 + 400). rewrite bpow_plus. apply Rmult_le_compat; auto using Rabs_pos. }
  destruct (Z z1 v1 M1 E1 (Pr _ _ B1 B4)) as (S1 & F1). destruct (Z z2 v2 M2 E2 (Pr _ _ B2 B3)) as (S2 & F2).
  destruct (C72_difference_error 801 z1 z2 ltac:(lia) M1 M2 F1 F2) as (N & E). cbv zeta in *. fold h in E.
  split; [exact N|].
  replace (dval (dd_self_sub z1 z2) - (v1 - v2))%R
    with ((dval (dd_self_sub z1 z2) - (dval z1 - dval z2)) + (dval z1 - v1) + - (dval z2 - v2))%R by ring.
  eapply Rle_trans; [apply Rabs_triang|]. rewrite Rabs_Ropp. eapply Rle_trans; [apply Rplus_le_compat_r, Rabs_triang|].
  assert (17 * h * (Rabs (dval z1) + Rabs (dval z2)) <= 18 * h * (Rabs v1 + Rabs v2))%R; [|lra].
  apply Rle_trans with (17 * h * ((1 + 10 * h) * (Rabs v1 + Rabs v2)))%R; [apply Rmult_le_compat_l; lra|].
  assert (0 <= h * (Rabs v1 + Rabs v2))%R as Q by (apply Rmult_le_pos; lra).
  replace (17 * h * ((1 + 10 * h) * (Rabs v1 + Rabs v2)))%R with ((17 + 170 * h) * (h * (Rabs v1 + Rabs v2)))%R by ring.
  assert (17 + 170 * h <= 18)%R by lra. nra.
Qed.
Theorem C72_quotient_error : forall x y, normed x -> normed y ->
  (bp (-300) <= Rabs (dval x) <= bp 300)%R -> (bp (-300) <= Rabs (dval y) <= bp 300)%R ->
  normed (dd_div x y) /\
  (Rabs (dval (dd_div x y) - dval x / dval y) <= 21 * (u53 * u53) * Rabs (dval x / dval y))%R.
Proof.
  intros x y Nx Ny Bx By. destruct (quotient_bound x y Nx Ny (hi_range (-300) 300 x ltac:(lia) ltac:(lia) Nx Bx) (hi_range (-300) 300 y ltac:(lia) ltac:(lia) Ny By)) as (N & E).
  split; [exact N|]. pose proof (bpow_gt_0 radix2 (-300)) as P.
  assert (dval y <> 0)%R as Y by (intros Z; rewrite Z, Rabs_R0 in By; lra).
  replace (dval (dd_div x y) - dval x / dval y)%R with ((dval (dd_div x y) * dval y - dval x) * / dval y)%R by (field; exact Y).
  unfold Rdiv. rewrite !Rabs_mult, <- Rmult_assoc. apply Rmult_le_compat_r; [apply Rabs_pos|exact E].
Qed.
(** The reciprocal is the quotient of 1, part by part, for every operand. *)
Theorem C72_reciprocal : forall x, dd_recip x = dd_div (dd_of f1) x.
Proof. exact recip_div. Qed.
Theorem C72_reciprocal_error : forall x, normed x -> (bp (-300) <= Rabs (dval x) <= bp 300)%R ->
  normed (dd_recip x) /\ (Rabs (dval (dd_recip x) - / dval x) <= 21 * (u53 * u53) * Rabs (/ dval x))%R.
Proof.
  intros x N B. rewrite recip_div. destruct (C72_quotient_error (dd_of f1) x (normed_of f1 eq_refl) N) as (N' & E); auto.
  - rewrite dval_of, R_of_f1, Rabs_R1. change 1%R with (bp 0). split; apply bpow_le; lia.
  - split; [exact N'|]. rewrite dval_of, R_of_f1 in E. unfold Rdiv in E. now rewrite Rmult_1_l in E.
Qed.
(** Powers with a positive and with a negative exponent. *)
Theorem C72_pow_error : forall x n, normed x -> (0 < n < Z.to_nat (2 ^ 31))%nat ->
  (bp (-299) <= Rabs (dval x ^ n) <= bp 299)%R ->
  exists z w, dd_pow x (Z.of_nat n) = Ok (Some z) /\ dd_pow x (- Z.of_nat n) = Ok (Some w) /\ normed z /\ normed w /\
    (Rabs (dval z - dval x ^ n) <= 20 * INR n * (u53 * u53) * Rabs (dval x ^ n) /\
     Rabs (dval w - / dval x ^ n) <= 64 * INR n * (u53 * u53) * Rabs (/ dval x ^ n))%R.
Proof. exact pow_bound. Qed.
Theorem C72_pow_zero : forall x, exists z, dd_pow x 0 = Ok (Some z) /\ normed z /\ dval z = 1%R.
Proof. intros x. exists (dd_of f1). split; [reflexivity|]. split; [now apply normed_of|]. now rewrite dval_of, R_of_f1. Qed.
(** Square roots: of zero, of a negative number, of a positive number. *)
Theorem C72_sqrt_special : forall v, normed v ->
  (dval v = 0%R -> normed (dd_sqrt v) /\ dval (dd_sqrt v) = 0%R) /\
  ((dval v < 0)%R -> fis_nan (hi (dd_sqrt v)) = true /\ fis_nan (lo (dd_sqrt v)) = true).
Proof.
  intros v N. split; intros H; unfold dd_sqrt.
  - apply dd_is_zero_R in H; [|exact N]. rewrite H. split; [now apply normed_of|]. now rewrite dval_of, R_f0.
  - destruct (dd_is_zero v) eqn:Z. { apply dd_is_zero_R in Z; [lra|exact N]. }
    apply dd_is_negative_R in H; [|exact N]. rewrite H. split; reflexivity.
Qed.
Theorem C72_sqrt_error : forall v, normed v -> (bp (-300) <= dval v <= bp 300)%R ->
  normed (dd_sqrt v) /\ (Rabs (dval (dd_sqrt v) - sqrt (dval v)) <= 80 * (u53 * u53) * sqrt (dval v))%R.
Proof. exact sqrt_bound. Qed.
(** Determinants of numbers with up to 49 bits on a common grid are exact, and
    so are their signs. *)
Definition gridded (e : Z) (x : DD) : Prop := normed x /\ exists n, dval x = (IZR n * bp e)%R /\ Z.abs n <= 2 ^ 49.
Theorem C72_determinant : forall e x1 y1 x2 y2, -400 <= e <= 400 ->
  gridded e x1 -> gridded e y1 -> gridded e x2 -> gridded e y2 ->
  let d := (dval x1 * dval y2 - dval y1 * dval x2)%R in
  normed (dd_det x1 y1 x2 y2) /\ dval (dd_det x1 y1 x2 y2) = d /\ is_sign (sign_of_det_dd x1 y1 x2 y2) d.
Proof.
  intros e x1 y1 x2 y2 E (N1 & a & Va & Ha) (N2 & b & Vb & Hb) (N3 & c & Vc & Hc) (N4 & g & Vg & Hg). cbv zeta.
  assert (dg 99 (e + e) (dd_det x1 y1 x2 y2) (a * g - b * c)) as (N & V & _).
  { unfold dd_det. apply (dg_sub 98); try lia; apply (dg_mul 49 49); try lia; repeat split; auto; try apply N1; try apply N2; try apply N3; try apply N4. }
  split; [exact N|].
  assert (dval (dd_det x1 y1 x2 y2) = dval x1 * dval y2 - dval y1 * dval x2)%R as D.
  { rewrite V, Va, Vb, Vc, Vg, minus_IZR, !mult_IZR, bpow_plus. ring. }
  split; [exact D|]. rewrite <- D. apply dd_signum_R. exact N.
Qed.
Theorem C72_determinant_f64 : forall e x1 y1 x2 y2 a b c g, -400 <= e <= 400 ->
  grid e x1 a -> grid e y1 b -> grid e x2 c -> grid e y2 g ->
  Z.abs a <= 2 ^ 49 -> Z.abs b <= 2 ^ 49 -> Z.abs c <= 2 ^ 49 -> Z.abs g <= 2 ^ 49 ->
  let d := (R_of x1 * R_of y2 - R_of y1 * R_of x2)%R in
  normed (dd_det_f64 x1 y1 x2 y2) /\ dval (dd_det_f64 x1 y1 x2 y2) = d /\ is_sign (sign_of_det_f64 x1 y1 x2 y2) d.
Proof.
  intros e x1 y1 x2 y2 a b c g E (F1 & V1) (F2 & V2) (F3 & V3) (F4 & V4) Ha Hb Hc Hg. cbv zeta.
  rewrite <- !dval_of. unfold dd_det_f64.
  assert (forall x n, fis_finite x = true -> R_of x = (IZR n * bp e)%R -> Z.abs n <= 2 ^ 49 -> gridded e (dd_of x)) as G.
  { intros x n F V H. split; [now apply normed_of|]. exists n. rewrite dval_of. auto. }
  exact (C72_determinant e _ _ _ _ E (G _ _ F1 V1 Ha) (G _ _ F2 V2 Hb) (G _ _ F3 V3 Hc) (G _ _ F4 V4 Hg)).
Qed.
(** [magnitude]: the exponent of ten, when the computed logarithm is right or
    one too small; outside 0 .. 8 the function panics. *)
Theorem C72_magnitude : forall ln x m, fis_finite x = true -> 0 <= m <= 8 ->
  (IZR (10 ^ m) <= Rabs (R_of x) < IZR (10 ^ (m + 1)))%R ->
  let guess := f_as_i32 (ffloor (fdiv (ln (fabs x)) (ln (fofZ 10)))) in
  guess = m \/ (guess = m - 1 /\ 1 <= m) -> dd_magnitude ln x = Ok m.
Proof.
  intros ln x m F M (L & U) guess G. unfold dd_magnitude. cbv zeta. fold guess.
  assert (f_as_i32 (fabs x) = Ztrunc (Rabs (R_of x))) as T.
  { assert (Btrunc (fabs x) = Ztrunc (Rabs (R_of x))) as B.
    { rewrite <- fabs_R. apply eq_IZR. unfold R_of. rewrite Btrunc_correct by reflexivity.
      unfold round, F2R, scaled_mantissa, cexp, FIX_exp. cbn [Fnum Fexp]. change (bpow radix2 (- 0)) with 1%R. change (bpow radix2 0) with 1%R.
      now rewrite !Rmult_1_r. }
    assert (f_as_i32 (fabs x) = Z.max (-2147483648) (Z.min 2147483647 (Btrunc (fabs x)))) as ->.
    { destruct x; try discriminate; reflexivity. }
    rewrite B. assert (0 <= Ztrunc (Rabs (R_of x)) <= 1000000000) as R; [|lia].
    rewrite Ztrunc_floor by apply Rabs_pos. split; [apply Zfloor_lub; apply Rabs_pos|].
    apply Z.le_trans with (Zfloor (IZR (10 ^ (m + 1)))); [apply Zfloor_le; lra|]. rewrite Zfloor_IZR.
    change 1000000000 with (10 ^ 9). apply Z.pow_le_mono_r; lia. }
  rewrite T, Ztrunc_floor by apply Rabs_pos.
  assert (10 ^ m <= Zfloor (Rabs (R_of x)) < 10 ^ (m + 1)) as (Z1 & Z2).
  { split; [now apply Zfloor_lub|]. apply lt_IZR. eapply Rle_lt_trans; [apply Zfloor_lb|exact U]. }
  assert (forall g, 0 <= g <= 8 -> pow10_i32 g = Ok (10 ^ g) /\ i32_chk (10 ^ g * 10) = Ok (10 ^ (g + 1)) /\ i32_chk (g + 1) = Ok (g + 1)) as S.
  { intros g Hg. assert (g = 0 \/ g = 1 \/ g = 2 \/ g = 3 \/ g = 4 \/ g = 5 \/ g = 6 \/ g = 7 \/ g = 8) as C by lia.
    repeat (destruct C as [-> | C]); try subst g; repeat split. }
  destruct G as [E | (E & M1)]; rewrite E.
  - destruct (S m M) as (-> & S2 & _). cbn [bind]. rewrite S2. cbn [bind]. destruct (Z.leb_spec (10 ^ (m + 1)) (Zfloor (Rabs (R_of x)))); [lia|reflexivity].
  - destruct (S (m - 1) ltac:(lia)) as (-> & S2 & S3). cbn [bind]. rewrite S2. cbn [bind]. rewrite S3. replace (m - 1 + 1) with m by lia.
    destruct (Z.leb_spec (10 ^ m) (Zfloor (Rabs (R_of x)))); [reflexivity|lia].
Qed.
Theorem C72_magnitude_panics_refuted : forall ln x,
  let guess := f_as_i32 (ffloor (fdiv (ln (fabs x)) (ln (fofZ 10)))) in
  guess < 0 \/ 9 <= guess -> dd_magnitude ln x = Panic.
Proof.
  intros ln x guess G. unfold dd_magnitude. cbv zeta. fold guess. unfold pow10_i32.
  destruct (Z.ltb_spec guess 0); [reflexivity|]. destruct (Z.gtb_spec guess 9); [reflexivity|].
  replace guess with 9 by lia. reflexivity.
Qed.
(** Instances. *)
Definition dd_int (n : Z) : DD := dd_of (fofZ n).
Lemma dd_int_ok n : Z.abs n <= 2 ^ 53 -> normed (dd_int n) /\ dval (dd_int n) = IZR n.
Proof.
  intros H. destruct (ex_ofZ 53 n ltac:(lia) H) as (F & V & _). split; [now apply normed_of|]. unfold dd_int. now rewrite dval_of.
Qed.
Lemma small_range k n : 0 <= k -> 1 <= n <= 2 ^ 20 -> 20 <= k -> (bp (- k) <= Rabs (IZR n) <= bp k)%R.
Proof.
  intros K N H. rewrite Rabs_pos_eq by (apply IZR_le; lia). split.
  - apply Rle_trans with 1%R; [change 1%R with (bp 0); apply bpow_le; lia|apply IZR_le; lia].
  - apply Rle_trans with (bp 20); [change (bp 20) with (IZR (2 ^ 20)); apply IZR_le; lia|apply bpow_le; lia].
Qed.
Example C72_arithmetic_example :
  (normed (dd_int 1) /\ normed (dd_int 3) /\ (bp (-300) <= Rabs (dval (dd_int 3)) <= bp 300)%R /\
   dd_is_zero (dd_sub (dd_mul (dd_div (dd_int 1) (dd_int 3)) (dd_int 3)) (dd_int 1)) = true) /\
  (bp (-299) <= Rabs (dval (dd_int 3) ^ 5) <= bp 299)%R /\
  match dd_pow (dd_int 3) 5 with Ok (Some z) => dd_equals z (dd_int 243) | _ => false end = true /\
  ((bp (-300) <= dval (dd_int 4) <= bp 300)%R /\ dd_equals (dd_sqrt (dd_int 4)) (dd_int 2) = true) /\
  (gridded 0 (dd_int 3) /\ sign_of_det_dd (dd_int 3) (dd_int 5) (dd_int 2) (dd_int 3) = -1) /\
  (dd_magnitude (fun x => if feqb x (fofZ 10) then f1 else f2) (fofZ 250) = Ok 2 /\
   dd_magnitude (fun x => if feqb x (fofZ 10) then f1 else fofZ (-1)) fhalf = Panic).
Proof.
  destruct (dd_int_ok 1 ltac:(lia)) as (N1 & V1). destruct (dd_int_ok 3 ltac:(lia)) as (N3 & V3). destruct (dd_int_ok 4 ltac:(lia)) as (N4 & V4).
  split. { repeat split; try apply N1; try apply N3; try (rewrite V3; apply (small_range 300); lia). }
  split. { rewrite V3. replace (3 ^ 5)%R with (IZR 243) by (simpl; ring). apply (small_range 299); lia. }
  split. { vm_compute. reflexivity. }
  split. { split; [|vm_compute; reflexivity]. rewrite V4. rewrite <- (Rabs_pos_eq 4) by lra. apply (small_range 300); lia. }
  split. { split; [|vm_compute; reflexivity]. split; [exact N3|]. exists 3. rewrite V3. change (bp 0) with 1%R. split; [ring|lia]. }
  split; vm_compute; reflexivity.
Qed.
(** The determinant of 1 + 2^-60 and 1 - 2^-60 against 1 and 1, where all but
    2^-120 cancels. *)
Example C72_determinant_example :
  normed c40_x /\ normed c40_y /\ dval c40_x = (1 + bp (-60))%R /\ dval c40_y = (1 - bp (-60))%R /\
  (bp (-899) <= Rabs (dval c40_x * dval c40_y))%R /\ (Rabs (dval c40_x) <= bp 400)%R /\
  dd_signum (dd_det c40_x (dd_of f1) (dd_of f1) c40_x) = 1.
Proof.
  assert (bf 0 f1) as B1. { split; [reflexivity|]. rewrite R_of_f1, Rabs_R1. simpl. lra. }
  destruct (grid_mkf 1 (-60) ltac:(lia) ltac:(lia)) as (F & E).
  assert (bf 0 (mkf 1 (-60))) as B2.
  { split; [exact F|]. rewrite E, Rmult_1_l, Rabs_pos_eq by apply bpow_ge_0. apply bpow_le. lia. }
  destruct (bf_add 0 _ _ ltac:(lia) B1 B2) as ((_ & L1) & E1). rewrite E1 in L1.
  destruct (bf_sub 0 _ _ ltac:(lia) B1 B2) as ((_ & L2) & E2). rewrite E2 in L2.
  assert (bp (0 + 1) < bp 1024)%R by (apply bpow_lt; lia).
  assert (normed c40_x /\ dval c40_x = (1 + bp (-60))%R) as (N1 & V1).
  { replace (1 + bp (-60))%R with (R_of f1 + R_of (mkf 1 (-60)))%R by (rewrite E, R_of_f1; ring).
    apply C38_sum_exact; try reflexivity; try (apply (bf_lim 0); [lia|assumption]); lra. }
  assert (normed c40_y /\ dval c40_y = (1 - bp (-60))%R) as (N2 & V2).
  { replace (1 - bp (-60))%R with (R_of f1 - R_of (mkf 1 (-60)))%R by (rewrite E, R_of_f1; ring).
    apply C38_difference_exact; try reflexivity; try (apply (bf_lim 0); [lia|assumption]); lra. }
  assert (0 < bp (-60) <= / 2)%R as P.
  { split; [apply bpow_gt_0|]. change (/ 2)%R with (bp (-1)). apply bpow_le. lia. }
  split; [exact N1|]. split; [exact N2|]. split; [exact V1|]. split; [exact V2|]. rewrite V1, V2. repeat split.
  - rewrite Rabs_pos_eq by nra. apply Rle_trans with (bp (-1)); [apply bpow_le; lia|]. change (bp (-1)) with (/ 2)%R. nra.
  - rewrite Rabs_pos_eq by lra. apply Rle_trans with (bp 1); [change (bp 1) with 2%R; lra|apply bpow_le; lia].
Qed.
(** ** NaN *)
(** An operand that is not a number gives a result that is not a number, whichever
    operation is used. *)
Lemma nan_eq x : fis_nan x = true -> x = fnan.
Proof. now destruct x. Qed.
Lemma fadd_nan_r x : fadd x fnan = fnan. Proof. now destruct x. Qed.
Lemma fadd_nan_l x : fadd fnan x = fnan. Proof. now destruct x. Qed.
Lemma fmul_nan_r x : fmul x fnan = fnan. Proof. now destruct x. Qed.
Lemma fmul_nan_l x : fmul fnan x = fnan. Proof. now destruct x. Qed.
Lemma fdiv_nan_r x : fdiv x fnan = fnan. Proof. now destruct x. Qed.
Lemma fdiv_nan_l x : fdiv fnan x = fnan. Proof. now destruct x. Qed.
Theorem C72_nan : forall x y, dd_is_nan x = true \/ dd_is_nan y = true ->
  dd_is_nan (dd_add x y) = true /\ dd_is_nan (dd_sub x y) = true /\ dd_is_nan (dd_self_sub x y) = true /\
  dd_is_nan (dd_mul x y) = true /\ dd_is_nan (dd_self_mul x y) = true /\ dd_is_nan (dd_div x y) = true.
Proof.
  intros [xh xl] [yh yl]. rewrite (dd_div_unroll (mkDD xh xl) (mkDD yh yl)). unfold dd_sub, dd_neg, dd_self_sub, dd_mul, dd_self_mul, dd_add, dd_is_nan. cbn [hi lo].
  intros [H|H]; apply nan_eq in H; subst.
  - change (fis_nan fnan) with true. cbv iota. split; [|split; [|split; [|split; [|split]]]].
    + unfold dd_add_hi_lo. cbn [hi lo]. now rewrite ?fadd_nan_l.
    + unfold dd_add_hi_lo. cbn [hi lo]. now rewrite ?fadd_nan_l.
    + reflexivity.
    + destruct (fis_nan yh); [reflexivity|]. unfold dd_mul_hi_lo. cbn [hi lo]. now rewrite ?fmul_nan_l, ?fadd_nan_l.
    + unfold dd_mul_hi_lo. cbn [hi lo]. now rewrite ?fmul_nan_l, ?fadd_nan_l.
    + unfold dd_div_hi_lo. cbn [hi lo]. now rewrite ?fdiv_nan_l, ?fadd_nan_l.
  - change (fis_nan fnan) with true. cbv iota. split; [|split; [|split; [|split; [|split]]]].
    + unfold dd_add_hi_lo. cbn [hi lo]. now rewrite ?fadd_nan_r, ?fadd_nan_l.
    + unfold dd_add_hi_lo. cbn [hi lo]. now rewrite ?fadd_nan_r, ?fadd_nan_l.
    + destruct (fis_nan xh) eqn:E; [exact E|]. unfold dd_add_hi_lo. cbn [hi lo]. change (fneg fnan) with fnan. now rewrite ?fadd_nan_r, ?fadd_nan_l.
    + reflexivity.
    + unfold dd_mul_hi_lo. cbn [hi lo]. now rewrite ?fmul_nan_r, ?fadd_nan_l.
    + unfold dd_div_hi_lo. cbn [hi lo]. now rewrite ?fdiv_nan_r, ?fadd_nan_l.
Qed.
Theorem C72_nan_double : forall x y, dd_is_nan x = true \/ fis_nan y = true ->
  dd_is_nan (dd_add_f64 x y) = true /\ dd_is_nan (dd_sub_f64 x y) = true /\ dd_is_nan (dd_self_sub_f64 x y) = true /\
  dd_is_nan (dd_mul_f64 x y) = true /\ dd_is_nan (dd_self_mul_f64 x y) = true /\ dd_is_nan (dd_div_f64 x y) = true.
Proof.
  intros [xh xl] y. unfold dd_sub_f64, dd_self_sub_f64, dd_mul_f64, dd_self_mul_f64, dd_div_f64, dd_is_nan. cbn [hi lo].
  intros [H|H]; apply nan_eq in H; subst.
  - change (fis_nan fnan) with true. cbv iota. split; [|split; [|split; [|split; [|split]]]].
    + unfold dd_add_f64. cbn [hi lo]. now rewrite ?fadd_nan_l.
    + unfold dd_add_f64. cbn [hi lo]. now rewrite ?fadd_nan_l.
    + reflexivity.
    + destruct (fis_nan y); [reflexivity|]. unfold dd_mul_hi_lo. cbn [hi lo]. now rewrite ?fmul_nan_l, ?fadd_nan_l.
    + unfold dd_mul_hi_lo. cbn [hi lo]. now rewrite ?fmul_nan_l, ?fadd_nan_l.
    + destruct (fis_nan y); [reflexivity|]. unfold dd_div_hi_lo. cbn [hi lo]. now rewrite ?fdiv_nan_l, ?fadd_nan_l.
  - change (fis_nan fnan) with true. change (fneg fnan) with fnan. cbv iota. split; [|split; [|split; [|split; [|split]]]].
    + unfold dd_add_f64. cbn [hi lo]. now rewrite ?fadd_nan_r, ?fadd_nan_l.
    + unfold dd_add_f64. cbn [hi lo]. now rewrite ?fadd_nan_r, ?fadd_nan_l.
    + destruct (fis_nan xh) eqn:E; [exact E|]. unfold dd_add_hi_lo. cbn [hi lo]. now rewrite ?fadd_nan_r, ?fadd_nan_l.
    + reflexivity.
    + unfold dd_mul_hi_lo. cbn [hi lo]. now rewrite ?fmul_nan_r, ?fadd_nan_l.
    + reflexivity.
Qed.
Theorem C72_nan_unary : forall x, dd_is_nan x = true ->
  dd_is_nan (dd_neg x) = true /\ dd_is_nan (dd_abs x) = true /\ dd_is_nan (dd_sqr x) = true /\ dd_is_nan (dd_self_sqr x) = true /\
  dd_is_nan (dd_recip x) = true /\ dd_is_nan (dd_sqrt x) = true /\
  dd_is_zero x = false /\ dd_is_negative x = false /\ dd_is_positive x = false.
Proof.
  intros x H. pose proof (C72_nan x x (or_introl H)) as (_ & _ & _ & M & SM & _). destruct x as [xh xl]. pose proof H as E. apply nan_eq in E. cbn [hi] in E. subst xh.
  repeat split; try assumption; try reflexivity.
Qed.
Example C72_nan_example : dd_is_nan (mkDD fnan f0) = true /\ dd_is_nan (dd_of f1) = false /\ dd_is_nan (dd_add (dd_of f1) (dd_of f1)) = false.
Proof. repeat split; vm_compute; reflexivity. Qed.

(** ** Squares *)
Theorem C72_square_error : forall k x, -400 <= k <= 480 -> normed x -> bf k (hi x) ->
  (dval x = 0 \/ bp (-440) <= Rabs (dval x))%R ->
  let ok z := normed z /\ (Rabs (dval z - dval x * dval x) <= 10 * (u53 * u53) * (dval x * dval x))%R in
  ok (dd_sqr x) /\ ok (dd_self_sqr x).
Proof.
  intros k x K N B D ok.
  assert (ok (dd_self_mul x x)) as H.
  { destruct (C72_product_error k k x x K K N N B B) as (Nz & E).
    - destruct D as [-> |D]; [left; ring|right]. rewrite Rabs_mult. apply Rle_trans with (bp (-440) * bp (-440))%R.
      + rewrite <- bpow_plus. apply bpow_le. lia.
      + apply Rmult_le_compat; try assumption; apply bpow_ge_0.
    - split; [exact Nz|]. rewrite (Rabs_pos_eq (dval x * dval x)) in E by nra. exact E. }
  split; [|exact H]. unfold dd_sqr, dd_mul. rewrite (dfin_nan _ (normed_fin _ N)). exact H.
Qed.

(** ** The integer value *)
(** [int_value] truncates the high part.  That is the truncation of the number,
    unless the number is within 2^-20 of an integer, and then it may be that
    integer. *)
Theorem C41_int_value : forall x, normed x -> (Rabs (R_of (hi x)) < 2147483648)%R ->
  DD_model.dd_int x = Ztrunc (dval x) \/ (Rabs (dval x - IZR (DD_model.dd_int x)) <= bp (-20))%R.
Proof.
  intros x N B. pose proof N as ((F1 & F2) & E).
  assert (DD_model.dd_int x = Ztrunc (R_of (hi x))) as T.
  { unfold DD_model.dd_int.
    assert (f_as_i32 (hi x) = Z.max (-2147483648) (Z.min 2147483647 (Btrunc (hi x)))) as -> by (destruct (hi x); try discriminate; reflexivity).
    pose proof (Btrunc_correct 53 1024 ltac:(reflexivity) (hi x)) as C. rewrite round_FIX_IZR in C. apply eq_IZR in C.
    change (B2R (hi x)) with (R_of (hi x)) in C. rewrite C. apply Rabs_def2 in B. destruct B as (B1 & B2).
    assert (Ztrunc (R_of (hi x)) < 2147483648 /\ -2147483648 < Ztrunc (R_of (hi x))); [|lia].
    destruct (Rle_dec 0 (R_of (hi x))) as [P|P].
    - rewrite Ztrunc_floor by exact P. pose proof (Zfloor_lb (R_of (hi x))). pose proof (Zfloor_ub (R_of (hi x))) as U.
      split; [apply lt_IZR; lra|]. apply lt_IZR. lra.
    - rewrite Ztrunc_ceil by lra. pose proof (Zceil_ub (R_of (hi x))). pose proof (Zceil_lb (R_of (hi x))).
      split; [apply lt_IZR; lra|]. apply lt_IZR. lra. }
  destruct (Req_dec (IZR (Zfloor (R_of (hi x)))) (R_of (hi x))) as [I|I].
  - right. rewrite T, <- I, Ztrunc_IZR, I. rewrite Rabs_minus_sym, E.
    pose proof (RN_err (dval x)) as R. pose proof u53_pos as U. rewrite <- E in R |- *. eapply Rle_trans; [exact R|].
    assert (u53 <= / 1024)%R as U1 by (pose proof u53_small; lra).
    pose proof (Rabs_triang_inv (dval x) (R_of (hi x))) as T1. rewrite Rabs_minus_sym in T1.
    assert (bp (-1075) <= / 1024)%R as B5 by (apply Rle_trans with (bp (-10)); [apply bpow_le; lia|cbn; lra]).
    pose proof (Rabs_pos (dval x)) as P0.
    assert (u53 * Rabs (dval x) <= / 1024 * Rabs (dval x))%R by (apply Rmult_le_compat_r; assumption).
    assert (Rabs (dval x) <= 4294967296)%R as D by lra.
    assert (u53 * Rabs (dval x) <= u53 * 4294967296)%R by (apply Rmult_le_compat_l; lra).
    assert (u53 * 4294967296 = bp (-21))%R as Eu by (change 4294967296%R with (bp 32); rewrite <- bpow_plus; reflexivity).
    assert (bp (-1075) <= bp (-21))%R by (apply bpow_le; lia). assert (bp (-20) = 2 * bp (-21))%R by (apply (bp_S (-21))). lra.
  - left. rewrite T. destruct (dd_floor_R x N) as (_ & Ef). destruct (dd_ceil_R x N) as (_ & Ec).
    unfold dd_floor, dd_ceil in Ef, Ec. rewrite (dfin_nan _ (normed_fin _ N)) in Ef, Ec.
    assert (feqb (ffloor (hi x)) (hi x) = false) as Q.
    { destruct (feqb (ffloor (hi x)) (hi x)) eqn:Q; [|reflexivity]. exfalso. apply I. rewrite <- ffloor_R.
      apply feqb_true_R in Q; try assumption. now rewrite ffloor_fin. }
    assert (feqb (fceil (hi x)) (hi x) = false) as Q'.
    { destruct (feqb (fceil (hi x)) (hi x)) eqn:Q'; [|reflexivity]. exfalso.
      apply feqb_true_R in Q'; try assumption; [|now rewrite fceil_fin]. rewrite fceil_R in Q'. apply I. rewrite <- Q' at 1. now rewrite Zfloor_IZR, Q'. }
    rewrite Q in Ef. rewrite Q' in Ec. unfold dval in Ef at 1. unfold dval in Ec at 1. cbn [hi lo] in Ef, Ec.
    rewrite R_f0, Rplus_0_r, ffloor_R in Ef. rewrite R_f0, Rplus_0_r, fceil_R in Ec. apply eq_IZR in Ef, Ec.
    destruct (Rle_dec 0 (R_of (hi x))) as [P|P].
    + assert (0 <= dval x)%R as P'.
      { pose proof (Zfloor_lb (dval x)) as L. rewrite <- Ef in L. assert (0 <= Zfloor (R_of (hi x))) as K by (apply Zfloor_lub; exact P).
        apply IZR_le in K. lra. }
      rewrite !Ztrunc_floor by assumption. exact Ef.
    + assert (dval x <= 0)%R as P'.
      { pose proof (Zceil_ub (dval x)) as L. rewrite <- Ec in L. assert (Zceil (R_of (hi x)) <= 0) as K by (apply Zceil_glb; lra).
        apply IZR_le in K. lra. }
      rewrite !Ztrunc_ceil by lra. exact Ec.
Qed.
(** The number just below 3 has integer value 3. *)
Theorem C41_int_value_refuted : let x := dd_sub (dd_of (fofZ 3)) (dd_of (mkf 1 (-60))) in
  DD_model.dd_int x = 3 /\ feqb (hi (dd_trunc x)) (fofZ 3) && feqb (lo (dd_trunc x)) (fofZ (-1)) = true /\ dd_lt x (dd_of (fofZ 3)) = true.
Proof. repeat split; vm_compute; reflexivity. Qed.
Example C41_int_value_example : normed (dd_int 5) /\ (Rabs (R_of (hi (dd_int 5))) < 2147483648)%R /\
  DD_model.dd_int (dd_div (dd_int (-7)) (dd_int 2)) = -3 /\ DD_model.dd_int (dd_of fnan) = 0 /\
  DD_model.dd_int (dd_of (fofZ 5000000000)) = 2147483647.
Proof.
  destruct (dd_int_ok 5) as (N & V); [lia|]. split; [exact N|]. split.
  - change (R_of (hi (dd_int 5))) with (R_of (fofZ 5)). destruct (ex_ofZ 53 5 ltac:(lia) ltac:(lia)) as (_ & -> & _). rewrite Rabs_pos_eq; lra.
  - repeat split; vm_compute; reflexivity.
Qed.
