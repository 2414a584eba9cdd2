(** Rounding errors of centroids. *)
From Coq Require Import ZArith Bool List Reals Lia Lra Psatz.
From Flocq Require Import Core IEEE754.BinarySingleNaN.
From Verif Require Import Base F64 F64Facts F64Err NumLink Coordinate_model CoordArrays_model CoordSeq_model Orientation_model
  Distance_float Measure_model Measure_spec Measure_proofs MeasureErr_spec MeasureErr_proofs Geom_model Centroid_model Centroid_spec Centroid_proofs CentroidErr_spec.
Import ListNotations.
Local Open Scope R_scope.

(** [x] holds [r] with an error of [c] units of 2^-53 of [w], a bound on [r]. *)
Definition nr (c w : R) (x : f64) (r : R) : Prop := fis_finite x = true /\ Rabs (R_of x - r) <= c * u53 * w /\ Rabs r <= w.

Lemma eta_le w : bp (-900) <= w -> bp (-1075) <= u53 * w / 1024.
Proof.
  intros H. assert (u53 * bp (-900) / 1024 = bp (-963)) as E.
  { assert (u53 * bp (-900) = bp (-953)) as -> by exact (eq_sym (bpow_plus radix2 (-53) (-900))).
    assert (bp (-953) = bp (-963) * bp 10) as -> by exact (bpow_plus radix2 (-963) 10). change (bp 10) with 1024. field. }
  assert (bp (-1075) <= bp (-963)) by (apply bpow_le; lia). pose proof u53_pos. nra.
Qed.
Lemma nr_pos c w x r : nr c w x r -> 0 <= w.
Proof. intros (_ & _ & H). pose proof (Rabs_pos r). lra. Qed.
Lemma nr_size c w x r : 0 <= c -> c * u53 <= / 64 -> nr c w x r -> Rabs (R_of x) <= w + w / 64.
Proof.
  intros C Cu (F & E & B). replace (R_of x) with (r + (R_of x - r)) by ring. eapply Rle_trans; [apply Rabs_triang|].
  pose proof (Rabs_pos r). nra.
Qed.
Lemma nr_weak c d w x r : c <= d -> nr c w x r -> nr d w x r.
Proof.
  intros H N. pose proof (nr_pos _ _ _ _ N). destruct N as (F & E & B). split; [exact F|]. split; [|exact B].
  eapply Rle_trans; [exact E|]. pose proof u53_pos. apply Rmult_le_compat_r; [assumption|]. nra.
Qed.
Lemma nr_0 M x : fis_finite x = true -> Rabs (R_of x) <= M -> nr 0 M x (R_of x).
Proof. intros F B. split; [exact F|]. rewrite Rminus_eq_0, Rabs_R0. split; [lra|exact B]. Qed.
Lemma nr_zero : nr 0 0 f0 0.
Proof. split; [reflexivity|]. change (R_of f0) with 0. rewrite Rminus_eq_0, Rabs_R0. lra. Qed.

Lemma nr_add C X Y x y r s : 0 <= C -> C * u53 <= / 64 -> X + Y <= bp 1000 -> nr C X x r -> nr C Y y s ->
  nr (C + 2) (X + Y) (fadd x y) (r + s).
Proof.
  intros C0 Cu B Nx Ny. pose proof (nr_pos _ _ _ _ Nx) as X0. pose proof (nr_pos _ _ _ _ Ny) as Y0.
  pose proof (nr_size _ _ _ _ C0 Cu Nx) as Sx. pose proof (nr_size _ _ _ _ C0 Cu Ny) as Sy.
  destruct Nx as (Fx & Ex & Bx), Ny as (Fy & Ey & By).
  assert (Rabs (R_of x + R_of y) <= 2 * (X + Y)) as S by (eapply Rle_trans; [apply Rabs_triang|]; lra).
  destruct (fadd_R x y Fx Fy) as (F & E).
  { apply (RN_small' _ 1001); [lia|]. change 1001%Z with (1000 + 1)%Z. rewrite bp_S. lra. }
  pose proof (RN_sum_err _ _ (format_R x) (format_R y)) as Er. rewrite <- E in Er.
  split; [exact F|]. split; [|eapply Rle_trans; [apply Rabs_triang|]; lra].
  pose proof u53_pos as Up. assert (u53 * Rabs (R_of x + R_of y) <= 2 * u53 * (X + Y)) by nra.
  apply Rabs_le_inv in Ex, Ey, Er. apply Rabs_le. lra.
Qed.
Lemma nr_sub C X Y x y r s : 0 <= C -> C * u53 <= / 64 -> X + Y <= bp 1000 -> nr C X x r -> nr C Y y s ->
  nr (C + 2) (X + Y) (fsub x y) (r - s).
Proof.
  intros C0 Cu B Nx Ny. pose proof (nr_pos _ _ _ _ Nx) as X0. pose proof (nr_pos _ _ _ _ Ny) as Y0.
  pose proof (nr_size _ _ _ _ C0 Cu Nx) as Sx. pose proof (nr_size _ _ _ _ C0 Cu Ny) as Sy.
  destruct Nx as (Fx & Ex & Bx), Ny as (Fy & Ey & By).
  assert (Rabs (R_of x - R_of y) <= 2 * (X + Y)) as S.
  { unfold Rminus. eapply Rle_trans; [apply Rabs_triang|]. rewrite Rabs_Ropp. lra. }
  destruct (fsub_R x y Fx Fy) as (F & E).
  { apply (RN_small' _ 1001); [lia|]. change 1001%Z with (1000 + 1)%Z. rewrite bp_S. lra. }
  pose proof (RN_sub_err _ _ (format_R x) (format_R y)) as Er. rewrite <- E in Er.
  split; [exact F|]. split; [|unfold Rminus; eapply Rle_trans; [apply Rabs_triang|]; rewrite Rabs_Ropp; lra].
  pose proof u53_pos as Up. assert (u53 * Rabs (R_of x - R_of y) <= 2 * u53 * (X + Y)) by nra.
  apply Rabs_le_inv in Ex, Ey, Er. apply Rabs_le. lra.
Qed.
(** The sum and the difference of two exact values. *)
Lemma nr_add0 X Y x y r s : X + Y <= bp 1000 -> nr 0 X x r -> nr 0 Y y s -> nr 1 (X + Y) (fadd x y) (r + s).
Proof.
  intros B (Fx & Ex & Bx) (Fy & Ey & By). rewrite !Rmult_0_l in *.
  assert (R_of x = r) as Rx by (apply Rabs_le_inv in Ex; lra). assert (R_of y = s) as Ry by (apply Rabs_le_inv in Ey; lra).
  assert (Rabs (r + s) <= X + Y) as S by (eapply Rle_trans; [apply Rabs_triang|]; lra).
  destruct (fadd_R x y Fx Fy) as (F & E).
  { apply (RN_small' _ 1000); [lia|]. rewrite Rx, Ry. lra. }
  pose proof (RN_sum_err _ _ (format_R x) (format_R y)) as Er. rewrite <- E, Rx, Ry in Er.
  split; [exact F|]. split; [|exact S]. pose proof u53_pos. nra.
Qed.
Lemma nr_sub0 W x y : fis_finite x = true -> fis_finite y = true -> Rabs (R_of x - R_of y) <= W -> W <= bp 1000 ->
  nr 1 W (fsub x y) (R_of x - R_of y).
Proof.
  intros Fx Fy S B.
  destruct (fsub_R x y Fx Fy) as (F & E).
  { apply (RN_small' _ 1000); [lia|]. lra. }
  pose proof (RN_sub_err _ _ (format_R x) (format_R y)) as Er. rewrite <- E in Er.
  split; [exact F|]. split; [|exact S]. pose proof u53_pos. nra.
Qed.
Lemma nr_mul c d X Y x y r s : 0 <= c <= 1024 -> 0 <= d <= 1024 -> bp (-900) <= X * Y <= bp 1000 -> nr c X x r -> nr d Y y s ->
  nr (c + d + 2) (X * Y) (fmul x y) (r * s).
Proof.
  intros C D B Nx Ny. pose proof u53_pos as Up.
  assert (u53 * bp 53 = 1) as U1 by exact (eq_sym (bpow_plus radix2 (-53) 53)).
  assert (u53 * bp 24 <= / 1024 / 1024) as U2.
  { rewrite <- bpow_plus. replace (/ 1024 / 1024) with (bp (-20)) by (simpl; lra). apply bpow_le. lia. }
  change (bp 24) with 16777216 in U2.
  pose proof (nr_pos _ _ _ _ Nx) as X0. pose proof (nr_pos _ _ _ _ Ny) as Y0.
  destruct Nx as (Fx & Ex & Bx), Ny as (Fy & Ey & By).
  set (dx := R_of x - r) in *. set (dy := R_of y - s) in *.
  assert (R_of x * R_of y - r * s = dx * s + r * dy + dx * dy) as E by (unfold dx, dy; ring).
  assert (0 <= X * Y) as P by nra.
  assert (Rabs (dx * s) <= c * u53 * (X * Y)) as E1.
  { rewrite Rabs_mult. replace (c * u53 * (X * Y)) with (c * u53 * X * Y) by ring. apply Rmult_le_compat; auto using Rabs_pos. }
  assert (Rabs (r * dy) <= d * u53 * (X * Y)) as E2.
  { rewrite Rabs_mult. replace (d * u53 * (X * Y)) with (X * (d * u53 * Y)) by ring. apply Rmult_le_compat; auto using Rabs_pos. }
  assert (Rabs (dx * dy) <= (c * u53) * (d * u53) * (X * Y)) as E3.
  { rewrite Rabs_mult. replace ((c * u53) * (d * u53) * (X * Y)) with ((c * u53 * X) * (d * u53 * Y)) by ring. apply Rmult_le_compat; auto using Rabs_pos. }
  assert ((c * u53) * (d * u53) <= u53 / 1024) as K.
  { assert (c * d <= 1048576) by nra. assert (c * d * u53 <= / 1024) by nra. nra. }
  assert (Rabs (dx * dy) <= u53 / 1024 * (X * Y)) as E3'.
  { eapply Rle_trans; [exact E3|]. apply Rmult_le_compat_r; assumption. }
  assert (Rabs (R_of x * R_of y - r * s) <= (c + d + / 1024) * u53 * (X * Y)) as Et.
  { rewrite E. eapply Rle_trans; [apply Rabs_triang|]. eapply Rle_trans; [apply Rplus_le_compat_r, Rabs_triang|]. lra. }
  assert (Rabs (r * s) <= X * Y) as Bs by (rewrite Rabs_mult; apply Rmult_le_compat; auto using Rabs_pos).
  assert ((c + d + / 1024) * u53 <= / 64) as Ks by nra.
  assert (Rabs (R_of x * R_of y) <= X * Y + X * Y / 64) as Sz.
  { replace (R_of x * R_of y) with (r * s + (R_of x * R_of y - r * s)) by ring. eapply Rle_trans; [apply Rabs_triang|]. nra. }
  destruct (fmul_R x y Fx Fy) as (F & Rm).
  { apply (RN_small' _ 1001); [lia|]. change 1001%Z with (1000 + 1)%Z. rewrite bp_S. lra. }
  pose proof (RN_err (R_of x * R_of y)) as Er. rewrite <- Rm in Er.
  pose proof (eta_le (X * Y) (proj1 B)) as Et'.
  split; [exact F|]. split; [|exact Bs].
  assert (u53 * Rabs (R_of x * R_of y) <= u53 * (X * Y) + u53 * (X * Y) / 64) by nra.
  replace (R_of (fmul x y) - r * s) with ((R_of (fmul x y) - R_of x * R_of y) + (R_of x * R_of y - r * s)) by ring.
  eapply Rle_trans; [apply Rabs_triang|]. 
  assert (0 <= u53 * (X * Y)) by nra. lra.
Qed.
Lemma f2_val : R_of f2 = 2.
Proof. rewrite f2_R. reflexivity. Qed.
Lemma nr_half c X x r : 0 <= c <= 1024 -> bp (-890) <= X <= bp 1000 -> nr c X x r -> nr (c + 2) (X / 2) (fdiv x f2) (r / 2).
Proof.
  intros C B N. pose proof u53_pos as Up.
  assert (c * u53 <= / 64) as Cu.
  { assert (u53 * bp 24 <= / 1024 / 1024) as U2.
    { rewrite <- bpow_plus. replace (/ 1024 / 1024) with (bp (-20)) by (simpl; lra). apply bpow_le. lia. }
    change (bp 24) with 16777216 in U2. nra. }
  pose proof (nr_pos _ _ _ _ N) as X0. pose proof (nr_size _ _ _ _ (proj1 C) Cu N) as S. destruct N as (Fx & Ex & Bx).
  assert (Rabs (R_of x / 2) = Rabs (R_of x) / 2) as Ha by (unfold Rdiv; rewrite Rabs_mult, (Rabs_pos_eq (/ 2)); lra).
  destruct (fdiv_R x f2 Fx) as (F & E); [rewrite f2_val; lra| |].
  { rewrite f2_val. apply (RN_small' _ 1000); [lia|]. rewrite Ha. lra. }
  rewrite f2_val in E. pose proof (RN_err (R_of x / 2)) as Er. rewrite <- E in Er.
  assert (bp (-900) <= X / 2) as B1.
  { assert (2 * bp (-900) <= bp (-890)) by (rewrite <- bp_S; apply bpow_le; lia). lra. }
  pose proof (eta_le _ B1) as Et. split; [exact F|]. split.
  - rewrite Ha in Er. apply Rabs_le_inv in Ex, Er. apply Rabs_le. nra.
  - unfold Rdiv. rewrite Rabs_mult, (Rabs_pos_eq (/ 2)); lra.
Qed.
(** A quotient whose divisor carries an error of at most half its size. *)
Lemma quot_err x' x y' y ex ey : y <> 0 -> Rabs (x' - x) <= ex -> Rabs (y' - y) <= ey -> ey <= Rabs y / 2 ->
  Rabs (x' / y' - x / y) <= 2 * (ex + Rabs (x / y) * ey) / Rabs y /\ Rabs y / 2 <= Rabs y'.
Proof.
  intros Y Ex Ey H. pose proof (Rabs_pos_lt y Y) as P.
  assert (Rabs y / 2 <= Rabs y') as Hy.
  { pose proof (Rabs_triang_inv y (y - y')) as T. replace (y - (y - y')) with y' in T by ring. rewrite (Rabs_minus_sym y y') in T. lra. }
  assert (y' <> 0) as Y' by (intros ->; rewrite Rabs_R0 in Hy; lra).
  split; [|exact Hy].
  replace (x' / y' - x / y) with (((x' - x) - (x / y) * (y' - y)) / y') by (field; split; assumption).
  unfold Rdiv at 1. rewrite Rabs_mult, Rabs_inv.
  assert (Rabs (x' - x - x / y * (y' - y)) <= ex + Rabs (x / y) * ey) as N.
  { unfold Rminus at 1. eapply Rle_trans; [apply Rabs_triang|]. rewrite Rabs_Ropp, Rabs_mult. pose proof (Rabs_pos (x / y)). nra. }
  assert (/ Rabs y' <= 2 * / Rabs y) as I.
  { replace (2 * / Rabs y) with (/ (Rabs y / 2)) by (field; lra). apply Rinv_le_contravar; lra. }
  pose proof (Rabs_pos (x' - x - x / y * (y' - y))). assert (0 < / Rabs y') by (apply Rinv_0_lt_compat; lra).
  eapply Rle_trans; [apply Rmult_le_compat; [lra|lra|exact N|exact I]|]. unfold Rdiv. lra.
Qed.

(** ** Lines *)
Lemma euclid_sym a b : euclid a b = euclid b a.
Proof. unfold euclid. f_equal. ring. Qed.
Lemma euclid_same a : euclid a a = 0.
Proof. unfold euclid. rewrite !Rminus_eq_0, !Rmult_0_r, Rplus_0_r. apply sqrt_0. Qed.
Lemma within_below M c : M <= bp 900 -> pt_within M c -> pt_below 900 c.
Proof. intros B (Fx & Fy & Bx & By). split; (split; [assumption|lra]). Qed.
Lemma euclid_box M a b : 0 <= M -> pt_within M a -> pt_within M b -> euclid (plane a) (plane b) <= 4 * M.
Proof.
  intros M0 (_ & _ & Ax & Ay) (_ & _ & Bx & By). unfold euclid, plane. cbn [fst snd].
  rewrite <- (sqrt_square (4 * M)) by lra. apply sqrt_le_1_alt. apply Rabs_le_inv in Ax, Ay, Bx, By. nra.
Qed.
Definition pl_acc (n : nat) (M A X Y : R) (s : Coordinate * f64) : Prop :=
  nr (9 + 2 * INR n) (A * M) (cx (fst s)) X /\ nr (9 + 2 * INR n) (A * M) (cy (fst s)) Y /\ nr (9 + 2 * INR n) A (snd s) A.
Lemma INR_u n : (Z.of_nat n <= 2 ^ 40)%Z -> (9 + 2 * INR n) * u53 <= / 1024.
Proof.
  intros H. rewrite INR_IZR_INZ. apply IZR_le in H. change (IZR (2 ^ 40)) with (bp 40) in H. pose proof u53_pos as Up.
  assert (bp 40 * u53 = bp (-13)) as E by exact (eq_sym (bpow_plus radix2 40 (-53))).
  change (bp (-13)) with (/ 8192) in E. 
  assert (u53 <= / 8192 / 1024) by (change (/ 8192) with (bp (-13)); change 1024 with (bp 10); unfold Rdiv; rewrite <- bpow_opp, <- bpow_plus; apply bpow_le; lia).
  assert (0 <= IZR (Z.of_nat n)) by (apply IZR_le; lia). nra.
Qed.
Lemma line_step_nr hypot M a b n A X Y s : hypot_accurate hypot -> bp (-400) <= M <= bp 400 -> pt_within M a -> pt_within M b ->
  plane a = plane b \/ bp (-400) <= euclid (plane a) (plane b) -> (Z.of_nat (S n) <= 2 ^ 40)%Z -> 0 <= A <= INR n * bp 402 ->
  pl_acc n M A X Y s ->
  let d := euclid (plane a) (plane b) in
  pl_acc (S n) M (A + d) (X + d * ((fst (plane a) + fst (plane b)) / 2)) (Y + d * ((snd (plane a) + snd (plane b)) / 2)) (line_step hypot s a b).
Proof.
  intros Hh HM Wa Wb St Hn HA (Sx & Sy & Sl). cbv zeta.
  assert (0 < bp (-400)) as P0 by apply bpow_gt_0. assert (bp 400 <= bp 900) as B9 by (apply bpow_le; lia).
  destruct (step_near hypot b a Hh (within_below M b ltac:(lra) Wb) (within_below M a ltac:(lra) Wa)) as (Fh & Eh & Hd).
  { destruct St as [St|St]; [now left|right]. rewrite euclid_sym. eapply Rle_trans; [|exact St]. apply bpow_le. lia. }
  cbv zeta in *. rewrite (euclid_sym (plane b)) in Eh, Hd.
  pose proof (euclid_box M a b ltac:(lra) Wa Wb) as D4.
  unfold line_step. destruct s as [sum ll]. cbn [fst snd] in *. change (distance hypot a b) with (hypot (fsub (cx a) (cx b)) (fsub (cy a) (cy b))).
  set (h := hypot _ _) in *. set (d := euclid (plane a) (plane b)) in *.
  pose proof u53_pos as Up. pose proof u53_small as Us.
  assert (9 + 2 * INR n <= 9 + 2 * INR (S n)) as Ci by (rewrite S_INR; lra).
  destruct St as [E|L].
  - assert (d = 0) as D0 by (unfold d; rewrite E; apply euclid_same). rewrite D0, Rmult_0_r in Eh.
    assert (R_of h = 0) as H0 by (apply Rabs_le_inv in Eh; lra).
    rewrite feqb_R, H0 by (exact Fh || reflexivity). change (R_of f0) with 0. rewrite Req_bool_true by reflexivity.
    rewrite D0, !Rmult_0_l, !Rplus_0_r. split; [|split]; eapply nr_weak; eassumption.
  - assert (bp (-400) <= d) as Ld by exact L.
    assert (R_of h <> 0) as H0 by (apply Rabs_le_inv in Eh; nra).
    rewrite feqb_R by (exact Fh || reflexivity). change (R_of f0) with 0. rewrite Req_bool_false by exact H0.
    pose proof (INR_u n ltac:(lia)) as Cu.
    assert (nr 4 d h d) as Nh by (split; [exact Fh|]; split; [exact Eh|rewrite Rabs_pos_eq; lra]).
    assert (0 <= INR n) as N0 by apply pos_INR.
    assert (INR n <= bp 40) as N40.
    { rewrite INR_IZR_INZ. change (bp 40) with (IZR (2 ^ 40)). apply IZR_le. lia. }
    assert (bp 402 = 4 * bp 400) as B402 by (change 402%Z with (400 + 1 + 1)%Z; rewrite !bp_S; ring).
    assert (A + d <= bp 443) as BA.
    { assert (bp 40 * bp 402 = bp 442) as E1 by exact (eq_sym (bpow_plus radix2 40 402)).
      assert (bp 443 = 2 * bp 442) as E2 by (change 443%Z with (442 + 1)%Z; apply bp_S).
      assert (1 <= bp 40) by (change 1 with (bp 0); apply bpow_le; lia).
      assert (INR n * bp 402 <= bp 442) by (rewrite <- E1; apply Rmult_le_compat_r; lra). assert (bp 402 <= bp 442) by (apply bpow_le; lia). lra. }
    assert (bp 443 * bp 400 = bp 843) as E843 by exact (eq_sym (bpow_plus radix2 443 400)).
    assert ((A + d) * M <= bp 1000) as BAM.
    { assert ((A + d) * M <= bp 443 * bp 400) by (apply Rmult_le_compat; lra). assert (bp 843 <= bp 1000) by (apply bpow_le; lia). lra. }
    assert (forall (o : Coordinate -> f64) Z z, fis_finite (o a) = true -> fis_finite (o b) = true -> Rabs (R_of (o a)) <= M -> Rabs (R_of (o b)) <= M ->
      nr (9 + 2 * INR n) (A * M) z Z ->
      nr (9 + 2 * INR (S n)) ((A + d) * M) (fadd z (fmul h (fdiv (fadd (o a) (o b)) f2))) (Z + d * ((R_of (o a) + R_of (o b)) / 2))) as Step.
    { intros o Z z Fa Fb Ma Mb Nz.
      assert (nr 1 (M + M) (fadd (o a) (o b)) (R_of (o a) + R_of (o b))) as N1.
      { apply nr_add0; [|now apply nr_0|now apply nr_0]. assert (2 * bp 900 <= bp 1000) by (rewrite <- bp_S; apply bpow_le; lia). lra. }
      assert (nr 3 M (fdiv (fadd (o a) (o b)) f2) ((R_of (o a) + R_of (o b)) / 2)) as N2.
      { replace M with ((M + M) / 2) at 1 by field. replace 3 with (1 + 2) by ring. apply nr_half; [lra| |exact N1].
        assert (2 * bp 900 <= bp 1000) by (rewrite <- bp_S; apply bpow_le; lia). assert (bp (-890) <= bp (-400)) by (apply bpow_le; lia). lra. }
      assert (nr 9 (d * M) (fmul h (fdiv (fadd (o a) (o b)) f2)) (d * ((R_of (o a) + R_of (o b)) / 2))) as N3.
      { replace 9 with (4 + 3 + 2) by ring. apply nr_mul; [lra|lra| |exact Nh|exact N2].
        split; [|nra]. assert (bp (-400) * bp (-400) = bp (-800)) as E8 by exact (eq_sym (bpow_plus radix2 (-400) (-400))).
        assert (bp (-900) <= bp (-800)) by (apply bpow_le; lia). assert (bp (-400) * bp (-400) <= d * M) by (apply Rmult_le_compat; lra). lra. }
      rewrite S_INR. replace (9 + 2 * (INR n + 1)) with (9 + 2 * INR n + 2) by ring. rewrite Rmult_plus_distr_r.
      apply nr_add; [lra|lra|nra|exact Nz|]. eapply nr_weak; [|exact N3]. lra. }
    destruct Wa as (Fax & Fay & Max & May), Wb as (Fbx & Fby & Mbx & Mby).
    split; [|split]; cbn [fst snd set_x set_y cx cy plane].
    + apply (Step cx); assumption.
    + apply (Step cy); assumption.
    + rewrite S_INR. replace (9 + 2 * (INR n + 1)) with (9 + 2 * INR n + 2) by ring.
      apply nr_add; [lra|lra| |exact Sl|eapply nr_weak; [|exact Nh]; lra]. assert (bp 443 <= bp 1000) by (apply bpow_le; lia). lra.
Qed.
Lemma line_fold_nr hypot M cs : hypot_accurate hypot -> bp (-400) <= M <= bp 400 -> Forall (pt_within M) cs -> steps_above (-400) (map plane cs) ->
  forall n A X Y s, (Z.of_nat (n + length cs) <= 2 ^ 40)%Z -> 0 <= A <= INR n * bp 402 -> pl_acc n M A X Y s ->
  exists m, (m <= n + (length cs - 1))%nat /\ 
  pl_acc m M (A + path_length (map plane cs)) (X + path_moment fst (map plane cs)) (Y + path_moment snd (map plane cs)) (line_fold hypot s cs).
Proof.
  intros Hh HM. induction cs as [|a cs IH]; intros F St n A X Y s Hn HA Ac.
  - exists n. split; [lia|]. cbn [map path_length path_moment rsteps]. unfold path_moment. cbn [rsteps]. rewrite !Rplus_0_r. exact Ac.
  - destruct cs as [|b cs].
    + exists n. split; [lia|]. unfold path_moment. cbn [map path_length rsteps]. rewrite !Rplus_0_r. exact Ac.
    + inversion F as [|? ? Wa F']; subst. inversion F' as [|? ? Wb _]; subst.
      cbn [map] in St. pose proof (St [] (plane a) (plane b) (map plane cs) eq_refl) as Sab. apply steps_above_tl in St.
      cbn [length] in Hn.
      pose proof (line_step_nr hypot M a b n A X Y s Hh HM Wa Wb Sab ltac:(lia) HA Ac) as Ac'. cbv zeta in Ac'.
      pose proof (euclid_box M a b ltac:(pose proof (bpow_gt_0 radix2 (-400)); lra) Wa Wb) as D4.
      assert (0 <= euclid (plane a) (plane b)) as D0 by apply sqrt_pos.
      assert (bp 402 = 4 * bp 400) as B402 by (change 402%Z with (400 + 1 + 1)%Z; rewrite !bp_S; ring).
      assert (0 <= A + euclid (plane a) (plane b) <= INR (S n) * bp 402) as HA' by (rewrite S_INR; lra).
      destruct (IH F' St (S n) _ _ _ _ ltac:(cbn [length]; lia) HA' Ac') as (m & Hm & Ac2).
      exists m. split; [cbn [length] in *; lia|]. unfold line_fold. rewrite segs_cons. cbn [fold_left fst snd]. fold (line_fold hypot (line_step hypot s a b) (b :: cs)).
      change (path_length (map plane (a :: b :: cs))) with (euclid (plane a) (plane b) + path_length (map plane (b :: cs))).
      change (path_moment fst (map plane (a :: b :: cs))) with (euclid (plane a) (plane b) * ((fst (plane a) + fst (plane b)) / 2) + path_moment fst (map plane (b :: cs))).
      change (path_moment snd (map plane (a :: b :: cs))) with (euclid (plane a) (plane b) * ((snd (plane a) + snd (plane b)) / 2) + path_moment snd (map plane (b :: cs))).
      rewrite <- !Rplus_assoc. exact Ac2.
Qed.

(** ** Areas *)
Definition sgr (pos : bool) : R := if pos then 1 else -1.
Definition rtri2 (b p q : R * R) : R := (fst p - fst b) * (snd q - snd b) - (fst q - fst b) * (snd p - snd b).
Lemma f1_val : R_of f1 = 1.
Proof. change f1 with (fofZ 1). rewrite (proj2 (grid_fofZ 1 ltac:(cbn; lia))). cbn. lra. Qed.
Lemma sign_val (pos : bool) : fis_finite (if pos then f1 else fneg f1) = true /\ R_of (if pos then f1 else fneg f1) = sgr pos.
Proof. destruct pos; (split; [reflexivity|]); [apply f1_val|]. rewrite fneg_R, f1_val. reflexivity. Qed.
Lemma nr_sign c X (pos : bool) x r : nr c X x r -> nr c X (fmul (if pos then f1 else fneg f1) x) (sgr pos * r).
Proof.
  intros (F & E & B). destruct (sign_val pos) as (Fs & Rs).
  assert (RN (sgr pos * R_of x) = sgr pos * R_of x) as Ex.
  { apply round_generic; [apply valid_rnd_N|]. destruct pos; unfold sgr.
    - rewrite Rmult_1_l. apply format_R.
    - replace (-1 * R_of x) with (- R_of x) by ring. apply generic_format_opp, format_R. }
  assert (forall z, Rabs (sgr pos * z) = Rabs z) as As.
  { intros z. rewrite Rabs_mult. replace (Rabs (sgr pos)) with 1; [ring|]. destruct pos; unfold sgr; [now rewrite Rabs_R1|]. replace (-1) with (- (1)) by ring. now rewrite Rabs_Ropp, Rabs_R1. }
  destruct (fmul_R _ x Fs F) as (Fm & Em).
  { rewrite Rs, Ex, As. apply abs_B2R_lt_emax. }
  split; [exact Fm|]. rewrite Em, Rs, Ex, <- Rmult_minus_distr_l, !As. now split.
Qed.
(** Within the square of side [W] at (x, y). *)
Definition inb (x y W : R) (p : R * R) : Prop := x <= fst p <= x + W /\ y <= snd p <= y + W.
Definition ta (n : nat) (W M A X Y : R) (st : Cent) : Prop :=
  nr (6 + 2 * INR n) (INR n * (2 * (W * W))) (cn_area2 st) A /\
  nr (11 + 2 * INR n) (INR n * (6 * (W * W) * M)) (cx (cn_cg3 st)) X /\
  nr (11 + 2 * INR n) (INR n * (6 * (W * W) * M)) (cy (cn_cg3 st)) Y.
Lemma tri_area_nr x y W b p q : bp (-300) <= W <= bp 300 -> forall M, pt_within M b -> pt_within M p -> pt_within M q ->
  inb x y W (plane b) -> inb x y W (plane p) -> inb x y W (plane q) ->
  nr 6 (2 * (W * W)) (cn_tri_area2 b p q) (rtri2 (plane b) (plane p) (plane q)).
Proof.
  intros HW M (Fbx & Fby & _) (Fpx & Fpy & _) (Fqx & Fqy & _) (Bx & By) (Px & Py) (Qx & Qy). cbn [plane fst snd] in *.
  assert (bp 300 <= bp 1000) as B3 by (apply bpow_le; lia).
  assert (forall u v, fis_finite u = true -> fis_finite v = true -> Rabs (R_of u - R_of v) <= W -> nr 1 W (fsub u v) (R_of u - R_of v)) as D.
  { intros u v Fu Fv H. apply nr_sub0; try assumption. lra. }
  assert (bp (-900) <= W * W <= bp 1000 /\ W * W + W * W <= bp 1000) as (BW & BW2).
  { assert (0 < bp (-300)) by apply bpow_gt_0.
    assert (bp (-300) * bp (-300) = bp (-600)) as E1 by exact (eq_sym (bpow_plus radix2 (-300) (-300))).
    assert (bp 300 * bp 300 = bp 600) as E2 by exact (eq_sym (bpow_plus radix2 300 300)).
    assert (bp (-900) <= bp (-600)) by (apply bpow_le; lia). assert (2 * bp 600 <= bp 1000) by (rewrite <- bp_S; apply bpow_le; lia).
    assert (bp (-300) * bp (-300) <= W * W) by (apply Rmult_le_compat; lra). assert (W * W <= bp 300 * bp 300) by (apply Rmult_le_compat; lra).
    assert (0 < bp 600) by apply bpow_gt_0. lra. }
  unfold cn_tri_area2, rtri2. cbn [plane fst snd]. replace (2 * (W * W)) with (W * W + W * W) by ring. replace 6 with (1 + 1 + 2 + 2) by ring.
  pose proof u53_small as Us.
  apply nr_sub; [lra|lra|exact BW2| |]; apply nr_mul; try lra; apply D; try assumption; apply Rabs_le; lra.
Qed.
Lemma cent3_nr M u v w : 0 <= M <= bp 300 -> fis_finite u = true -> fis_finite v = true -> fis_finite w = true ->
  Rabs (R_of u) <= M -> Rabs (R_of v) <= M -> Rabs (R_of w) <= M -> nr 3 (3 * M) (fadd (fadd u v) w) (R_of u + R_of v + R_of w).
Proof.
  intros HM Fu Fv Fw Bu Bv Bw. assert (4 * bp 300 <= bp 1000) as B4.
  { replace (4 * bp 300) with (2 * (2 * bp 300)) by ring. rewrite <- !bp_S. apply bpow_le. lia. }
  assert (nr 1 (M + M) (fadd u v) (R_of u + R_of v)) as N1 by (apply nr_add0; [lra|now apply nr_0|now apply nr_0]).
  replace (3 * M) with (M + M + M) by ring. replace 3 with (1 + 2) at 1 by ring. pose proof u53_small.
  apply nr_add; [lra|lra|lra|exact N1|]. apply (nr_weak 0); [lra|now apply nr_0].
Qed.
Lemma tri_step_nr x y W M b p q pos n A X Y st : bp (-300) <= W <= bp 300 -> bp (-300) <= M <= bp 300 -> pt_within M b -> pt_within M p -> pt_within M q ->
  inb x y W (plane b) -> inb x y W (plane p) -> inb x y W (plane q) -> (Z.of_nat (S n) <= 2 ^ 40)%Z -> ta n W M A X Y st ->
  let t := sgr pos * rtri2 (plane b) (plane p) (plane q) in
  ta (S n) W M (A + t) (X + t * (fst (plane b) + fst (plane p) + fst (plane q))) (Y + t * (snd (plane b) + snd (plane p) + snd (plane q))) (add_triangle st b p q pos).
Proof.
  intros HW HM Wb Wp Wq Ib Ip Iq Hn (Na & Nx & Ny). cbv zeta.
  pose proof (nr_sign _ _ pos _ _ (tri_area_nr x y W b p q HW M Wb Wp Wq Ib Ip Iq)) as Nt.
  set (t := sgr pos * _) in *. unfold add_triangle. set (ar := fmul _ (cn_tri_area2 b p q)) in *.
  pose proof (INR_u n ltac:(lia)) as Cu. pose proof u53_pos as Up. pose proof u53_small as Us. pose proof (pos_INR n) as N0.
  assert (u53 <= / 1024 / 1024) as Uss.
  { change (/ 1024 / 1024) with (/ bp 10 * / bp 10). rewrite <- !bpow_opp, <- bpow_plus. apply bpow_le. lia. }
  assert (0 < bp (-300)) as P3_ by apply bpow_gt_0. assert (0 < bp 300) as P4_ by apply bpow_gt_0.
  assert (bp (-600) <= W * W <= bp 600) as BW.
  { assert (bp (-300) * bp (-300) = bp (-600)) as E1 by exact (eq_sym (bpow_plus radix2 (-300) (-300))).
    assert (bp 300 * bp 300 = bp 600) as E2 by exact (eq_sym (bpow_plus radix2 300 300)).
    split; [rewrite <- E1|rewrite <- E2]; apply Rmult_le_compat; lra. }
  assert (0 < bp (-600)) as P6 by apply bpow_gt_0.
  assert (bp (-900) <= W * W * M <= bp 900) as BWM.
  { assert (bp (-600) * bp (-300) = bp (-900)) as E1 by exact (eq_sym (bpow_plus radix2 (-600) (-300))).
    assert (bp 600 * bp 300 = bp 900) as E2 by exact (eq_sym (bpow_plus radix2 600 300)).
    split; [rewrite <- E1|rewrite <- E2]; apply Rmult_le_compat; lra. }
  assert (INR n + 1 <= bp 40) as N40.
  { rewrite INR_IZR_INZ. change (bp 40) with (IZR (2 ^ 40)). change 1 with (IZR 1). rewrite <- plus_IZR. apply IZR_le. lia. }
  assert (0 < bp 900) as P9 by apply bpow_gt_0. assert (0 < bp (-900)) as P9m by apply bpow_gt_0.
  assert ((INR n + 1) * (6 * (W * W) * M) <= bp 1000) as Top.
  { assert (bp 40 * bp 900 = bp 940) as E1 by exact (eq_sym (bpow_plus radix2 40 900)).
    assert (8 * bp 940 = bp 943) as E2 by (change 943%Z with (940 + 1 + 1 + 1)%Z; rewrite !bp_S; ring).
    assert (bp 943 <= bp 1000) by (apply bpow_le; lia). assert (0 < bp 940) by apply bpow_gt_0.
    assert ((INR n + 1) * (W * W * M) <= bp 40 * bp 900) by (apply Rmult_le_compat; lra). lra. }
  assert ((INR n + 1) * (2 * (W * W)) <= bp 1000) as Top2.
  { assert (bp 40 * bp 600 = bp 640) as E1 by exact (eq_sym (bpow_plus radix2 40 600)).
    assert (2 * bp 640 <= bp 1000) by (rewrite <- bp_S; apply bpow_le; lia).
    assert ((INR n + 1) * (W * W) <= bp 40 * bp 600) by (apply Rmult_le_compat; lra). lra. }
  assert (forall (o : Coordinate -> f64) Z z, fis_finite (o b) = true -> fis_finite (o p) = true -> fis_finite (o q) = true ->
    Rabs (R_of (o b)) <= M -> Rabs (R_of (o p)) <= M -> Rabs (R_of (o q)) <= M ->
    nr (11 + 2 * INR n) (INR n * (6 * (W * W) * M)) z Z ->
    nr (11 + 2 * INR (S n)) (INR (S n) * (6 * (W * W) * M)) (fadd z (fmul ar (fadd (fadd (o b) (o p)) (o q)))) (Z + t * (R_of (o b) + R_of (o p) + R_of (o q)))) as Step.
  { intros o Z z Fb Fp Fq Bb Bp_ Bq Nz.
    pose proof (cent3_nr M (o b) (o p) (o q) ltac:(lra) Fb Fp Fq Bb Bp_ Bq) as N3.
    assert (nr 11 (6 * (W * W) * M) (fmul ar (fadd (fadd (o b) (o p)) (o q))) (t * (R_of (o b) + R_of (o p) + R_of (o q)))) as N4.
    { replace (6 * (W * W) * M) with (2 * (W * W) * (3 * M)) by ring. replace 11 with (6 + 3 + 2) by ring. apply nr_mul; [lra|lra| |exact Nt|exact N3].
      assert (8 * bp 900 = bp 903) as E2 by (change 903%Z with (900 + 1 + 1 + 1)%Z; rewrite !bp_S; ring).
      assert (bp 903 <= bp 1000) by (apply bpow_le; lia). lra. }
    rewrite S_INR. replace (11 + 2 * (INR n + 1)) with (11 + 2 * INR n + 2) by ring.
    replace ((INR n + 1) * (6 * (W * W) * M)) with (INR n * (6 * (W * W) * M) + 6 * (W * W) * M) by ring.
    apply nr_add; [lra|lra|lra|exact Nz|]. eapply nr_weak; [|exact N4]. lra. }
  destruct Wb as (Fbx & Fby & Mbx & Mby), Wp as (Fpx & Fpy & Mpx & Mpy), Wq as (Fqx & Fqy & Mqx & Mqy).
  split; [|split]; cbn [cn_area2 cn_cg3 set_x set_y cx cy centroid3 new_xy plane fst snd].
  - rewrite S_INR. replace (6 + 2 * (INR n + 1)) with (6 + 2 * INR n + 2) by ring.
    replace ((INR n + 1) * (2 * (W * W))) with (INR n * (2 * (W * W)) + 2 * (W * W)) by ring.
    apply nr_add; [lra|lra|lra|exact Na|]. eapply nr_weak; [|exact Nt]. lra.
  - apply (Step cx); assumption.
  - apply (Step cy); assumption.
Qed.
(** Going over the triangles of a ring; the sums over a closed ring do not depend on the base. *)
Lemma tri_fold_nr x y W M b pos cs : bp (-300) <= W <= bp 300 -> bp (-300) <= M <= bp 300 -> pt_within M b -> inb x y W (plane b) ->
  Forall (fun c => pt_within M c /\ inb x y W (plane c)) cs ->
  forall n A X Y st, (Z.of_nat (n + length cs) <= 2 ^ 40)%Z -> ta n W M A X Y st ->
  let T o := rsteps (fun p q => rtri2 (plane b) p q * (o (plane b) + o p + o q)) (map plane cs) in
  ta (n + (length cs - 1)) W M (A + sgr pos * rsteps (rtri2 (plane b)) (map plane cs)) (X + sgr pos * T fst) (Y + sgr pos * T snd) (tri_fold st b cs pos).
Proof.
  intros HW HM Wb Ib. cbv zeta. induction cs as [|p cs IH]; intros F n A X Y st Hn Ac.
  - cbn [map rsteps length]. rewrite Nat.add_0_r, !Rmult_0_r, !Rplus_0_r. exact Ac.
  - destruct cs as [|q cs].
    + cbn [map rsteps length Nat.sub]. rewrite Nat.add_0_r, !Rmult_0_r, !Rplus_0_r. exact Ac.
    + inversion F as [|? ? (Wp & Ip) F']; subst. inversion F' as [|? ? (Wq & Iq) _]; subst. cbn [length] in Hn.
      pose proof (tri_step_nr x y W M b p q pos n A X Y st HW HM Wb Wp Wq Ib Ip Iq ltac:(lia) Ac) as Ac'. cbv zeta in Ac'.
      specialize (IH F' (S n) _ _ _ _ ltac:(cbn [length]; lia) Ac').
      unfold tri_fold. rewrite segs_cons. cbn [fold_left fst snd]. fold (tri_fold (add_triangle st b p q pos) b (q :: cs) pos).
      replace (n + (length (p :: q :: cs) - 1))%nat with (S n + (length (q :: cs) - 1))%nat by (cbn [length]; lia).
      cbn [map] in *.
      set (l := map plane cs) in *.
      change (rsteps ?f (plane p :: plane q :: l)) with (f (plane p) (plane q) + rsteps f (plane q :: l)). cbv beta.
      assert (forall Z t o, Z + sgr pos * (rtri2 (plane b) (plane p) (plane q) * o + t) = Z + sgr pos * rtri2 (plane b) (plane p) (plane q) * o + sgr pos * t) as E by (intros; ring).
      rewrite !E. rewrite Rmult_plus_distr_l, <- Rplus_assoc. exact IH.
Qed.
Lemma rsteps_telescope (T G : R * R -> R * R -> R) b : (forall p q, T p q = G p q + G q b + G b p) -> (forall p q, G q p = - G p q) ->
  forall l a, rsteps T (a :: l) = rsteps G (a :: l) + G (last (a :: l) a) b + G b a.
Proof.
  intros H Anti. induction l as [|c l IH]; intros a.
  - cbn [rsteps last]. rewrite (Anti b a). ring.
  - change (rsteps T (a :: c :: l)) with (T a c + rsteps T (c :: l)). change (rsteps G (a :: c :: l)) with (G a c + rsteps G (c :: l)).
    rewrite IH, H. replace (last (a :: c :: l) a) with (last (c :: l) c).
    + rewrite (Anti c b). ring.
    + apply (last_indep l).
Qed.
Lemma rsteps_closed (T G : R * R -> R * R -> R) b : (forall p q, T p q = G p q + G q b + G b p) -> (forall p q, G q p = - G p q) ->
  forall l, closed_chain l -> rsteps T l = rsteps G l.
Proof.
  intros H Anti l (a & m & ->). rewrite (rsteps_telescope T G b H Anti).
  replace (last (a :: m ++ [a]) a) with a by (rewrite app_comm_cons, last_last; reflexivity). rewrite (Anti b a). ring.
Qed.
Lemma rtri2_area b l : closed_chain l -> rsteps (rtri2 b) l = rarea2 l.
Proof. apply rsteps_closed with b; intros; unfold rtri2, rcross; ring. Qed.
Lemma rtri2_x b l : closed_chain l -> rsteps (fun p q => rtri2 b p q * (fst b + fst p + fst q)) l = rmoment6 fst l.
Proof. apply rsteps_closed with b; intros; unfold rtri2, rcross; ring. Qed.
Lemma rtri2_y b l : closed_chain l -> rsteps (fun p q => rtri2 b p q * (snd b + snd p + snd q)) l = rmoment6 snd l.
Proof. apply rsteps_closed with b; intros; unfold rtri2, rcross; ring. Qed.

(** ** The final divisions *)
Lemma final_div (N : nat) W M A X x' a' : bp (-300) <= W <= bp 300 -> bp (-300) <= M <= bp 300 -> (0 < N)%nat -> (Z.of_nat N <= 2 ^ 40)%Z ->
  nr (11 + 2 * INR N) (INR N * (6 * (W * W) * M)) x' X -> nr (6 + 2 * INR N) (INR N * (2 * (W * W))) a' A -> A <> 0 ->
  8 * INR N * (INR N + 8) * u53 * (W * W) <= Rabs A ->
  let C := X / (3 * A) in
  fis_finite (fdiv (fdiv x' (fofZ 3)) a') = true /\
  Rabs (R_of (fdiv (fdiv x' (fofZ 3)) a') - C) <= 8 * INR N * (INR N + 8) * u53 * (W * W) / Rabs A * (M + Rabs C) /\ fltb f0 (fabs a') = true.
Proof.
  intros HW HM HN HN' (Fx & Ex & Bx) (Fa & Ea & Ba) NA K. cbv zeta. pose proof u53_pos as Up. pose proof u53_small as Us.
  assert (1 <= INR N) as N1 by (change 1 with (INR 1); apply le_INR; lia).
  assert (INR N <= bp 40) as N40 by (rewrite INR_IZR_INZ; change (bp 40) with (IZR (2 ^ 40)); apply IZR_le; lia).
  set (n := INR N) in *.
  assert (0 < bp (-300)) as P3_ by apply bpow_gt_0. assert (0 < bp 300) as P4_ by apply bpow_gt_0.
  assert (bp (-600) <= W * W <= bp 600) as BW.
  { assert (bp (-300) * bp (-300) = bp (-600)) as E1 by exact (eq_sym (bpow_plus radix2 (-300) (-300))).
    assert (bp 300 * bp 300 = bp 600) as E2 by exact (eq_sym (bpow_plus radix2 300 300)).
    split; [rewrite <- E1|rewrite <- E2]; apply Rmult_le_compat; lra. }
  assert (0 < bp (-600)) as P6 by apply bpow_gt_0. assert (0 < bp (-900)) as P9m by apply bpow_gt_0.
  assert (bp (-900) <= W * W * M <= bp 900) as BWM.
  { assert (bp (-600) * bp (-300) = bp (-900)) as E1 by exact (eq_sym (bpow_plus radix2 (-600) (-300))).
    assert (bp 600 * bp 300 = bp 900) as E2 by exact (eq_sym (bpow_plus radix2 600 300)).
    split; [rewrite <- E1|rewrite <- E2]; apply Rmult_le_compat; lra. }
  pose proof (Rabs_pos_lt A NA) as PA. set (aA := Rabs A) in *. set (w := W * W) in *.
  set (C := X / (3 * A)). pose proof (Rabs_pos C) as C0. set (c := Rabs C) in *.
  set (D := u53 * w / aA). 
  assert (0 < D) as D0 by (unfold D, Rdiv; apply Rmult_lt_0_compat; [apply Rmult_lt_0_compat; lra|now apply Rinv_0_lt_compat]).
  assert (u53 * w = D * aA) as ED by (unfold D; field; lra).
  assert (8 * n * (n + 8) * D <= 1) as KD.
  { apply Rmult_le_reg_r with aA; [exact PA|]. replace (8 * n * (n + 8) * D * aA) with (8 * n * (n + 8) * (u53 * w)) by (rewrite ED; ring). lra. }
  assert (u53 <= 2 * n * D) as UD.
  { apply Rmult_le_reg_r with aA; [exact PA|]. replace (2 * n * D * aA) with (u53 * (n * (2 * w))) by (replace (u53 * (n * (2 * w))) with (2 * n * (u53 * w)) by ring; rewrite ED; ring).
    apply Rmult_le_compat_l; [lra|exact Ba]. }
  assert (n * u53 <= / 1024) as nu.
  { pose proof (INR_u N HN'). fold n in H. lra. }
  (* the moment over three *)
  assert (Rabs X = 3 * c * aA) as EX.
  { unfold c, C, aA. unfold Rdiv. rewrite Rabs_mult, Rabs_inv, Rabs_mult, (Rabs_pos_eq 3) by lra. field. apply Rabs_no_R0. exact NA. }
  set (eS := (11 + 2 * n) * u53 * (n * (6 * w * M))) in *. set (eA := (6 + 2 * n) * u53 * (n * (2 * w))) in *.
  assert (eS = (66 + 12 * n) * n * D * M * aA) as ES.
  { unfold eS. replace ((11 + 2 * n) * u53 * (n * (6 * w * M))) with ((66 + 12 * n) * n * M * (u53 * w)) by ring. rewrite ED. ring. }
  assert (eA = (12 + 4 * n) * n * D * aA) as EA.
  { unfold eA. replace ((6 + 2 * n) * u53 * (n * (2 * w))) with ((12 + 4 * n) * n * (u53 * w)) by ring. rewrite ED. ring. }
  assert (Rabs (R_of x') <= 3 * c * aA + eS) as Sx.
  { replace (R_of x') with (X + (R_of x' - X)) by ring. eapply Rle_trans; [apply Rabs_triang|]. lra. }
  assert (Rabs (R_of x' / 3) = Rabs (R_of x') / 3) as A3 by (unfold Rdiv; rewrite Rabs_mult, (Rabs_pos_eq (/ 3)); lra).
  assert (3 * c * aA + eS <= bp 960) as BX.
  { rewrite <- EX. unfold eS. 
    assert (n * (6 * w * M) <= bp 943) as T1.
    { assert (bp 40 * bp 900 = bp 940) as E1 by exact (eq_sym (bpow_plus radix2 40 900)).
      assert (8 * bp 940 = bp 943) as E2 by (change 943%Z with (940 + 1 + 1 + 1)%Z; rewrite !bp_S; ring). assert (0 < bp 940) by apply bpow_gt_0.
      assert (n * (w * M) <= bp 40 * bp 900) by (apply Rmult_le_compat; lra). lra. }
    assert ((11 + 2 * n) * u53 <= 1) as T2 by lra.
    assert (0 <= n * (6 * w * M)) as T0 by (pose proof (Rabs_pos X); lra).
    assert ((11 + 2 * n) * u53 * (n * (6 * w * M)) <= 1 * (n * (6 * w * M))) by (apply Rmult_le_compat_r; lra).
    assert (2 * bp 943 <= bp 960) by (rewrite <- bp_S; apply bpow_le; lia). lra. }
  destruct (fdiv_R x' (fofZ 3) Fx) as (F1 & R1); [rewrite three_R; lra| |].
  { rewrite three_R. apply (RN_small' _ 960); [lia|]. rewrite A3. pose proof (Rabs_pos (R_of x')). lra. }
  rewrite three_R in R1. pose proof (RN_err (R_of x' / 3)) as Er1. rewrite <- R1, A3 in Er1.
  set (q1 := fdiv x' (fofZ 3)) in *.
  assert (bp (-1075) <= D * M * aA / 1024) as Eta1.
  { eapply Rle_trans; [apply (eta_le (w * M)); lra|]. replace (D * M * aA) with (u53 * (w * M)) by (replace (u53 * (w * M)) with (u53 * w * M) by ring; rewrite ED; ring). lra. }
  set (e1 := eS / 3 + u53 * (c * aA + eS / 3) + D * M * aA / 1024).
  assert (Rabs (R_of q1 - X / 3) <= e1) as E1.
  { replace (R_of q1 - X / 3) with ((R_of q1 - R_of x' / 3) + (R_of x' - X) / 3) by field. eapply Rle_trans; [apply Rabs_triang|].
    assert (Rabs ((R_of x' - X) / 3) = Rabs (R_of x' - X) / 3) as A3' by (unfold Rdiv; rewrite Rabs_mult, (Rabs_pos_eq (/ 3)); lra). rewrite A3'. unfold e1.
    assert (u53 * (Rabs (R_of x') / 3) <= u53 * (c * aA + eS / 3)) by (apply Rmult_le_compat_l; lra). lra. }
  assert (eA <= aA / 2) as HA2.
  { rewrite EA. replace (aA / 2) with (/ 2 * aA) by field. apply Rmult_le_compat_r; [lra|]. clear - KD N1 D0.
    assert (0 <= n * D) by (apply Rmult_le_pos; lra). assert (1 * (n * D) <= n * (n * D)) by (apply Rmult_le_compat_r; lra). lra. }
  assert (n * D <= / 64) as nD.
  { clear - KD N1 D0. assert (0 <= n * D) by (apply Rmult_le_pos; lra). assert (1 * (n * D) <= n * (n * D)) by (apply Rmult_le_compat_r; lra). lra. }
  assert (0 <= n * D) as nD0 by (apply Rmult_le_pos; lra). assert (0 <= n * D * M) as nDM by (apply Rmult_le_pos; lra). assert (0 <= n * D * c) as nDc by (apply Rmult_le_pos; lra).
  assert (n * D <= n * n * D) as nnD by (replace (n * n * D) with (n * (n * D)) by ring; rewrite <- (Rmult_1_l (n * D)) at 1; apply Rmult_le_compat_r; lra).
  destruct (quot_err (R_of q1) (X / 3) (R_of a') A e1 eA NA E1 Ea HA2) as (Q & HA').
  replace (X / 3 / A) with C in Q by (unfold C; field; exact NA). fold c aA in Q, HA'.
  assert (R_of a' <> 0) as NA' by (intros E; rewrite E, Rabs_R0 in HA'; lra).
  assert (2 * (e1 + c * eA) / aA <= (8 * (n * n) * D + 50 * (n * D)) * M + (8 * (n * n) * D + 32 * (n * D)) * c) as QB.
  { unfold e1. rewrite ES, EA.
    replace (2 * ((66 + 12 * n) * n * D * M * aA / 3 + u53 * (c * aA + (66 + 12 * n) * n * D * M * aA / 3) + D * M * aA / 1024 + c * ((12 + 4 * n) * n * D * aA)) / aA)
      with ((44 * (n * D) + 8 * (n * n * D)) * M * (1 + u53) + 2 * u53 * c + D * M / 512 + (24 * (n * D) + 8 * (n * n * D)) * c) by (field; lra).
    assert (D <= n * D) by (rewrite <- (Rmult_1_l D) at 1; apply Rmult_le_compat_r; lra).
    assert ((44 * (n * D) + 8 * (n * n * D)) * u53 <= n * D) as T.
    { replace ((44 * (n * D) + 8 * (n * n * D)) * u53) with (n * D * (44 * u53 + 8 * (n * u53))) by ring. rewrite <- (Rmult_1_r (n * D)) at 2. apply Rmult_le_compat_l; lra. }
    assert ((44 * (n * D) + 8 * (n * n * D)) * M * (1 + u53) <= (45 * (n * D) + 8 * (n * n * D)) * M).
    { replace ((44 * (n * D) + 8 * (n * n * D)) * M * (1 + u53)) with ((44 * (n * D) + 8 * (n * n * D) + (44 * (n * D) + 8 * (n * n * D)) * u53) * M) by ring. apply Rmult_le_compat_r; lra. }
    assert (D * M <= n * D * M) by (apply Rmult_le_compat_r; lra).
    assert (2 * u53 * c <= 4 * (n * D) * c) by (apply Rmult_le_compat_r; lra). 
    lra. }
  set (E := (8 * (n * n) * D + 50 * (n * D)) * M + (8 * (n * n) * D + 32 * (n * D)) * c) in *.
  assert (Rabs (R_of q1 / R_of a' - C) <= E) as QE by lra.
  assert (Rabs (R_of q1 / R_of a') <= c + E) as Qs.
  { replace (R_of q1 / R_of a') with (C + (R_of q1 / R_of a' - C)) by ring. eapply Rle_trans; [apply Rabs_triang|]. fold c. lra. }
  assert (E <= M + c) as EM.
  { unfold E. rewrite <- (Rmult_1_l M) at 2. rewrite <- (Rmult_1_l c) at 2. apply Rplus_le_compat; apply Rmult_le_compat_r; lra. }
  assert (c <= bp 960) as cB.
  { assert (3 * c * aA <= n * (6 * (w * M))) as T by (rewrite <- EX; lra).
    (* c * aA bounded above, aA at least 64 u w *)
    assert (64 * u53 * w <= aA) as T2.
    { eapply Rle_trans; [|exact K]. assert (1 * 9 <= n * (n + 8)) by (apply Rmult_le_compat; lra).
      rewrite !Rmult_assoc. rewrite <- (Rmult_assoc n), <- (Rmult_assoc 8). apply Rmult_le_compat_r; [apply Rmult_le_pos; lra|lra]. }
    assert (c * (64 * u53 * w) <= c * aA) by (apply Rmult_le_compat_l; lra).
    assert (c * (32 * u53) * w <= n * M * w) as T3 by lra.
    apply Rmult_le_reg_r in T3; [|lra].
    assert (bp 40 * bp 300 = bp 340) as E3 by exact (eq_sym (bpow_plus radix2 40 300)).
    assert (n * M <= bp 340) by (rewrite <- E3; apply Rmult_le_compat; lra).
    assert (bp 393 * u53 = bp 340) as E4 by exact (eq_sym (bpow_plus radix2 393 (-53))).
    assert (c * u53 <= bp 393 * u53) as T4 by (assert (0 <= c * u53) by (apply Rmult_le_pos; lra); lra). apply Rmult_le_reg_r in T4; [|exact Up].
    assert (bp 393 <= bp 960) by (apply bpow_le; lia). lra. }
  destruct (fdiv_R q1 a' F1 NA') as (F2 & R2).
  { apply (RN_small' _ 970); [lia|]. assert (8 * bp 960 = bp 963) as E2 by (change 963%Z with (960 + 1 + 1 + 1)%Z; rewrite !bp_S; ring).
    assert (bp 963 <= bp 970) by (apply bpow_le; lia). assert (bp 300 <= bp 960) by (apply bpow_le; lia). lra. }
  pose proof (RN_err (R_of q1 / R_of a')) as Er2. rewrite <- R2 in Er2.
  split; [exact F2|]. split.
  - replace (8 * n * (n + 8) * u53 * w / aA) with (8 * (n * n) * D + 64 * (n * D)) by (unfold D; field; lra).
    assert (bp (-1075) <= u53 * M / 1024) as Eta2 by (apply eta_le; assert (bp (-900) <= bp (-300)) by (apply bpow_le; lia); lra).
    replace (R_of (fdiv q1 a') - C) with ((R_of (fdiv q1 a') - R_of q1 / R_of a') + (R_of q1 / R_of a' - C)) by ring. eapply Rle_trans; [apply Rabs_triang|].
    assert (u53 * Rabs (R_of q1 / R_of a') <= u53 * (M + 2 * c)) as T by (apply Rmult_le_compat_l; lra).
    assert (u53 * M <= 2 * (n * D) * M) by (apply Rmult_le_compat_r; lra). assert (u53 * c <= 2 * (n * D) * c) by (apply Rmult_le_compat_r; lra).
    unfold E in QE. lra.
  - assert (fis_finite (fabs a') = true) as Fab by (destruct a'; try discriminate; reflexivity).
    rewrite fltb_R by (exact Fab || reflexivity). rewrite fabs_R. change (R_of f0) with 0. apply Rlt_bool_true. lra.
Qed.
