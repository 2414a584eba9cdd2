(** Rounding errors of lengths and scalar products in space. *)
From Coq Require Import ZArith Bool Reals Lia Lra Psatz.
From Flocq Require Import Core IEEE754.BinarySingleNaN.
From Verif Require Import Base F64 F64Facts F64Err Num NumLink Coordinate_model Orientation_spec Distance_model Distance_spec Distance_proofs
  DistanceErr_proofs DD_spec DD_proofs DD_more DDSum_proofs.
Local Open Scope R_scope.

Lemma fsqrt_fin x : fis_finite x = true -> 0 <= R_of x -> fis_finite (fsqrt x) = true /\ R_of (fsqrt x) = RN (sqrt (R_of x)).
Proof.
  intros F P. destruct (fsqrt_R x F P) as (E & G). split; [|exact E]. destruct P as [P|P]; [now apply G|].
  destruct x as [g|g| |g m e H]; try discriminate; [reflexivity|]. exfalso. unfold R_of in P. cbn in P. symmetry in P. apply eq_0_F2R in P. destruct g; discriminate.
Qed.
Lemma abs_sq r : Rabs r * Rabs r = r * r.
Proof. rewrite <- Rabs_mult. apply Rabs_pos_eq. apply (Rle_0_sqr r). Qed.
(** The root of the sum of three squares. *)
Definition root3 (x y z : f64) : f64 := fsqrt (fadd (fadd (fmul x x) (fmul y y)) (fmul z z)).
Definition nrm3 (x y z : R) : R := sqrt (x * x + y * y + z * z).
Lemma square_f x : bf 480 x -> bf 960 (fmul x x) /\ 0 <= R_of (fmul x x) /\ Rabs (R_of (fmul x x) - R_of x * R_of x) <= u53 * (R_of x * R_of x) + eta.
Proof.
  intros X. destruct (bf_mul 480 480 x x ltac:(lia) X X) as (B & E). split; [exact B|]. rewrite E.
  assert (0 <= R_of x * R_of x) as P by nra. split; [now apply RN_ge0|].
  pose proof (RN_err (R_of x * R_of x)) as R. rewrite (Rabs_pos_eq _ P) in R. exact R.
Qed.
Lemma eta_g : bp (-536) * bp (-536) = 8 * eta.
Proof. unfold eta. rewrite <- bpow_plus. change (-536 + -536)%Z with (-1075 + 1 + 1 + 1)%Z. rewrite !bp_S. ring. Qed.
Lemma root3_err x y z : bf 480 x -> bf 480 y -> bf 480 z ->
  let h := nrm3 (R_of x) (R_of y) (R_of z) in
  fis_finite (root3 x y z) = true /\ 0 <= R_of (root3 x y z) /\ Rabs (R_of (root3 x y z) - h) <= 5 * u53 * h + bp (-535).
Proof.
  intros X Y Z h. destruct (square_f x X) as (Bx & Px & Ex). destruct (square_f y Y) as (By & Py & Ey). destruct (square_f z Z) as (Bz & Pz & Ez).
  destruct (bf_add 960 _ _ ltac:(lia) Bx By) as (B2 & E2). change (960 + 1)%Z with 961%Z in B2.
  assert (bf 961 (fmul z z)) as Bz' by (destruct Bz as (F & B); split; [exact F|]; eapply Rle_trans; [exact B|apply bpow_le; lia]).
  destruct (bf_add 961 _ _ ltac:(lia) B2 Bz') as (B3 & E3).
  unfold root3. set (p := R_of (fmul x x)) in *. set (q := R_of (fmul y y)) in *. set (r := R_of (fmul z z)) in *.
  set (s2 := fadd (fmul x x) (fmul y y)) in *. set (s := fadd s2 (fmul z z)) in *.
  pose proof u53_pos as U0. pose proof u53_small as U1. assert (0 < eta) as T0 by apply bpow_gt_0.
  assert (0 <= R_of s2) as P2 by (rewrite E2; apply RN_ge0; lra).
  assert (0 <= R_of s) as P3 by (rewrite E3; apply RN_ge0; lra).
  assert (Rabs (R_of s2 - (p + q)) <= u53 * (p + q)) as F2.
  { rewrite E2. eapply Rle_trans; [apply RN_sum_err; apply format_R|]. rewrite Rabs_pos_eq by lra. lra. }
  assert (Rabs (R_of s - (R_of s2 + r)) <= u53 * (R_of s2 + r)) as F3.
  { rewrite E3. eapply Rle_trans; [apply RN_sum_err; apply format_R|]. rewrite Rabs_pos_eq by (fold r; lra). fold r. lra. }
  set (S := R_of x * R_of x + R_of y * R_of y + R_of z * R_of z).
  assert (0 <= R_of x * R_of x) by nra. assert (0 <= R_of y * R_of y) by nra. assert (0 <= R_of z * R_of z) by nra.
  assert (0 <= S) as S0 by (unfold S; lra).
  assert (Rabs (R_of s - S) <= 31 / 10 * u53 * S + 4 * eta) as ES.
  { apply Rabs_le_inv in Ex, Ey, Ez, F2, F3. set (T := p + q + r). assert (0 <= T) by (unfold T; lra).
    assert (- (u53 * S + 3 * eta) <= T - S <= u53 * S + 3 * eta) as TS by (unfold T, S; lra).
    assert (u53 * (p + q) <= u53 * T) as UT by (apply Rmult_le_compat_l; unfold T; lra).
    assert (u53 * (R_of s2 + r) <= u53 * (T + u53 * T)) as UT2 by (apply Rmult_le_compat_l; unfold T; unfold T in UT; lra).
    assert (u53 * (u53 * T) <= / 1024 * (u53 * T)) as UT3 by (apply Rmult_le_compat_r; [apply Rmult_le_pos; lra|lra]).
    assert (u53 * T <= u53 * (S + u53 * S + 3 * eta)) as UT4 by (apply Rmult_le_compat_l; lra).
    assert (u53 * (u53 * S) <= / 1024 * (u53 * S)) as US by (apply Rmult_le_compat_r; [apply Rmult_le_pos; lra|lra]).
    assert (u53 * eta <= / 1024 * eta) as UE by (apply Rmult_le_compat_r; lra).
    assert (- (u53 * T) <= R_of s2 + r - T <= u53 * T) by (unfold T in *; lra).
    assert (0 <= u53 * S) by (apply Rmult_le_pos; lra).
    apply Rabs_le. lra. }
  destruct (fsqrt_fin s (proj1 B3) P3) as (Fs & Es). split; [exact Fs|]. rewrite Es.
  set (h' := sqrt (R_of s)). assert (0 <= h') as hh0 by apply sqrt_pos. split; [now apply RN_ge0|].
  assert (0 <= h) as h0 by apply sqrt_pos.
  assert (h' * h' = R_of s) as Q1 by (now apply sqrt_sqrt). assert (h * h = S) as Q2 by (now apply sqrt_sqrt).
  rewrite <- Q1, <- Q2 in ES. set (g := bp (-536)). assert (0 < g) as G0 by apply bpow_gt_0.
  assert (g * g = 8 * eta) as GG by exact eta_g.
  assert (0 <= u53 * h) as UH by (apply Rmult_le_pos; lra).
  assert (Rabs (h' - h) <= 31 / 10 * u53 * h + g) as D.
  { destruct (Rle_or_lt (Rabs (h' - h)) (31 / 10 * u53 * h + g)) as [?|C]; [assumption|exfalso].
    assert (Rabs (h' * h' - h * h) = Rabs (h' - h) * (h' + h)) as K.
    { rewrite <- (Rabs_pos_eq (h' + h)) by lra. rewrite <- Rabs_mult. f_equal. ring. }
    rewrite K in ES. assert (Rabs (h' - h) <= h' + h) as L by (apply Rabs_le; lra).
    assert (31 / 10 * u53 * h * h + g * g < Rabs (h' - h) * (h' + h)).
    { set (w := h' + h) in *. assert (g < w) by lra. assert (h <= w) by (unfold w; lra).
      assert (31 / 10 * u53 * h * h <= 31 / 10 * u53 * h * w) by (apply Rmult_le_compat_l; [|assumption]; lra).
      assert (g * g <= g * w) by (apply Rmult_le_compat_l; lra).
      assert ((31 / 10 * u53 * h + g) * w < Rabs (h' - h) * w) by (apply Rmult_lt_compat_r; lra). lra. }
    lra. }
  assert (bp (-535) = 2 * g) as -> by (apply (bp_S (-536))).
  assert (eta <= / 1024 * g) as EG.
  { unfold g, eta. apply Rle_trans with (bp (-546)); [apply bpow_le; lia|]. change (-536)%Z with (10 + -546)%Z. rewrite bpow_plus. change (bpow radix2 10) with 1024. lra. }
  pose proof (RN_err h') as R. fold eta in R. rewrite (Rabs_pos_eq h' hh0) in R. apply Rabs_le_inv in D, R.
  assert (u53 * h' <= u53 * (h + 31 / 10 * u53 * h + g)) as K1 by (apply Rmult_le_compat_l; lra).
  assert (u53 * (u53 * h) <= / 1024 * (u53 * h)) as K2 by (apply Rmult_le_compat_r; lra).
  assert (u53 * g <= / 1024 * g) as K3 by (apply Rmult_le_compat_r; lra).
  apply Rabs_le. lra.
Qed.

(** The length of a vector is at most the sum of its components, and moves by at
    most the length of the change. *)
Lemma nrm3_sq x y z : nrm3 x y z * nrm3 x y z = x * x + y * y + z * z.
Proof. apply sqrt_sqrt. nra. Qed.
Lemma nrm3_pos x y z : 0 <= nrm3 x y z.
Proof. apply sqrt_pos. Qed.
Lemma cauchy3 x y z v w t : Rabs (x * v) + Rabs (y * w) + Rabs (z * t) <= nrm3 x y z * nrm3 v w t.
Proof.
  pose proof (nrm3_pos x y z) as P. pose proof (nrm3_pos v w t) as Q.
  apply Rsqr_incr_0_var; [|apply Rmult_le_pos; assumption]. unfold Rsqr.
  replace (nrm3 x y z * nrm3 v w t * (nrm3 x y z * nrm3 v w t)) with ((nrm3 x y z * nrm3 x y z) * (nrm3 v w t * nrm3 v w t)) by ring.
  rewrite !nrm3_sq, !Rabs_mult.
  assert (forall r, r * r = Rabs r * Rabs r) as A by (intros r; symmetry; apply abs_sq).
  rewrite (A x), (A y), (A z), (A v), (A w), (A t).
  generalize (Rabs x) (Rabs y) (Rabs z) (Rabs v) (Rabs w) (Rabs t). intros a b c d e f.
  pose proof (Rle_0_sqr (a * e - b * d)) as S1. pose proof (Rle_0_sqr (a * f - c * d)) as S2. pose proof (Rle_0_sqr (b * f - c * e)) as S3.
  unfold Rsqr in *. lra.
Qed.
Lemma nrm3_triang x y z v w t : nrm3 (x + v) (y + w) (z + t) <= nrm3 x y z + nrm3 v w t.
Proof.
  pose proof (nrm3_pos x y z) as P. pose proof (nrm3_pos v w t) as Q.
  apply Rsqr_incr_0_var; [|lra]. unfold Rsqr. rewrite nrm3_sq.
  pose proof (cauchy3 x y z v w t) as C. pose proof (Rle_abs (x * v)). pose proof (Rle_abs (y * w)). pose proof (Rle_abs (z * t)).
  pose proof (nrm3_sq x y z). pose proof (nrm3_sq v w t). lra.
Qed.
Lemma nrm3_sum x y z : nrm3 x y z <= Rabs x + Rabs y + Rabs z.
Proof.
  pose proof (Rabs_pos x). pose proof (Rabs_pos y). pose proof (Rabs_pos z).
  apply Rsqr_incr_0_var; [|lra]. unfold Rsqr. rewrite nrm3_sq.
  assert (forall r, r * r = Rabs r * Rabs r) as A by (intros r; symmetry; apply abs_sq).
  rewrite (A x), (A y), (A z). nra.
Qed.
Lemma nrm3_near x y z x' y' z' c : Rabs (x' - x) <= c -> Rabs (y' - y) <= c -> Rabs (z' - z) <= c ->
  Rabs (nrm3 x' y' z' - nrm3 x y z) <= 2 * c.
Proof.
  intros X Y Z. assert (0 <= c) as C by (pose proof (Rabs_pos (x' - x)); lra).
  assert (nrm3 (x' - x) (y' - y) (z' - z) <= 2 * c) as N.
  { apply Rsqr_incr_0_var; [|lra]. unfold Rsqr. rewrite nrm3_sq.
    assert (forall r, Rabs r <= c -> r * r <= c * c) as A.
    { intros r H. rewrite <- (abs_sq r). pose proof (Rabs_pos r). nra. }
    pose proof (A _ X). pose proof (A _ Y). pose proof (A _ Z). nra. }
  assert (nrm3 (x - x') (y - y') (z - z') = nrm3 (x' - x) (y' - y) (z' - z)) as M by (unfold nrm3; f_equal; ring).
  pose proof (nrm3_triang x y z (x' - x) (y' - y) (z' - z)) as T1. pose proof (nrm3_triang x' y' z' (x - x') (y - y') (z - z')) as T2.
  rewrite M in T2. replace (x + (x' - x)) with x' in T1 by ring. replace (y + (y' - y)) with y' in T1 by ring. replace (z + (z' - z)) with z' in T1 by ring.
  replace (x' + (x - x')) with x in T2 by ring. replace (y' + (y - y')) with y in T2 by ring. replace (z' + (z - z')) with z in T2 by ring.
  apply Rabs_le. lra.
Qed.
(** Relative errors in the components are one of the length. *)
Lemma nrm3_ru x y z x' y' z' : ru x' x -> ru y' y -> ru z' z -> Rabs (nrm3 x' y' z' - nrm3 x y z) <= u53 * nrm3 x y z.
Proof.
  intros X Y Z. pose proof u53_pos as U.
  assert (nrm3 (x' - x) (y' - y) (z' - z) <= u53 * nrm3 x y z) as N.
  { pose proof (nrm3_pos x y z) as P. apply Rsqr_incr_0_var; [|apply Rmult_le_pos; lra]. unfold Rsqr. rewrite nrm3_sq.
    replace (u53 * nrm3 x y z * (u53 * nrm3 x y z)) with (u53 * u53 * (nrm3 x y z * nrm3 x y z)) by ring. rewrite nrm3_sq.
    assert (forall r' r, ru r' r -> (r' - r) * (r' - r) <= u53 * u53 * (r * r)) as A.
    { intros r' r H. unfold ru in H. rewrite <- (abs_sq (r' - r)), <- (abs_sq r). pose proof (Rabs_pos (r' - r)). pose proof (Rabs_pos r). nra. }
    pose proof (A _ _ X). pose proof (A _ _ Y). pose proof (A _ _ Z). lra. }
  assert (nrm3 (x - x') (y - y') (z - z') = nrm3 (x' - x) (y' - y) (z' - z)) as M by (unfold nrm3; f_equal; ring).
  pose proof (nrm3_triang x y z (x' - x) (y' - y) (z' - z)) as T1. pose proof (nrm3_triang x' y' z' (x - x') (y - y') (z - z')) as T2.
  rewrite M in T2. replace (x + (x' - x)) with x' in T1 by ring. replace (y + (y' - y)) with y' in T1 by ring. replace (z + (z' - z)) with z' in T1 by ring.
  replace (x' + (x - x')) with x in T2 by ring. replace (y' + (y - y')) with y in T2 by ring. replace (z' + (z - z')) with z in T2 by ring.
  apply Rabs_le. lra.
Qed.
Lemma comp_nrm3 x y z : Rabs x <= nrm3 x y z /\ Rabs y <= nrm3 x y z /\ Rabs z <= nrm3 x y z.
Proof.
  pose proof (nrm3_pos x y z) as P. repeat split; (apply Rsqr_incr_0_var; [|exact P]); unfold Rsqr; rewrite nrm3_sq, abs_sq; nra.
Qed.

(** Scalar products of three components, each with one relative error. *)
Definition dot3f (x y z v w t : f64) : f64 := fadd (fadd (fmul x v) (fmul y w)) (fmul z t).
Lemma dot3_err x' y' z' v' w' t' x y z v w t : bf 471 x' -> bf 471 y' -> bf 471 z' -> bf 471 v' -> bf 471 w' -> bf 471 t' ->
  ru (R_of x') x -> ru (R_of y') y -> ru (R_of z') z -> ru (R_of v') v -> ru (R_of w') w -> ru (R_of t') t ->
  bf 944 (dot3f x' y' z' v' w' t') /\
  Rabs (R_of (dot3f x' y' z' v' w' t') - (x * v + y * w + z * t)) <= 7 * u53 * (nrm3 x y z * nrm3 v w t) + 4 * eta.
Proof.
  intros Bx By Bz Bv Bw Bt Rx Ry Rz Rv Rw Rt.
  destruct (bf_mul 471 471 x' v' ltac:(lia) Bx Bv) as (B1 & E1). destruct (bf_mul 471 471 y' w' ltac:(lia) By Bw) as (B2 & E2).
  destruct (bf_mul 471 471 z' t' ltac:(lia) Bz Bt) as (B3 & E3). change (471 + 471)%Z with 942%Z in *.
  destruct (bf_add 942 _ _ ltac:(lia) B1 B2) as (B4 & E4). change (942 + 1)%Z with 943%Z in B4.
  assert (bf 943 (fmul z' t')) as B3' by (destruct B3 as (F & B); split; [exact F|]; eapply Rle_trans; [exact B|apply bpow_le; lia]).
  destruct (bf_add 943 _ _ ltac:(lia) B4 B3') as (B5 & E5). split; [exact B5|]. unfold dot3f.
  destruct (ru_prod _ _ _ _ Rx Rv) as (P1 & Q1). destruct (ru_prod _ _ _ _ Ry Rw) as (P2 & Q2). destruct (ru_prod _ _ _ _ Rz Rt) as (P3 & Q3).
  rewrite <- E1 in P1, Q1. rewrite <- E2 in P2, Q2. rewrite <- E3 in P3, Q3.
  pose proof (cauchy3 x y z v w t) as C. set (H := nrm3 x y z * nrm3 v w t) in *.
  set (p := R_of (fmul x' v')) in *. set (q := R_of (fmul y' w')) in *. set (r := R_of (fmul z' t')) in *.
  pose proof u53_pos as U. pose proof u53_small as Us. assert (0 < eta) as T0 by apply bpow_gt_0.
  set (a := Rabs (x * v)) in *. set (b := Rabs (y * w)) in *. set (c := Rabs (z * t)) in *.
  assert (0 <= a) by apply Rabs_pos. assert (0 <= b) by apply Rabs_pos. assert (0 <= c) by apply Rabs_pos.
  pose proof (RN_sum_err p q (format_R _) (format_R _)) as F4. fold p q in E4. rewrite <- E4 in F4. set (s := R_of (fadd (fmul x' v') (fmul y' w'))) in *.
  pose proof (RN_sum_err s r (format_R _) (format_R _)) as F5. fold s r in E5. rewrite <- E5 in F5. set (o := R_of (fadd (fadd (fmul x' v') (fmul y' w')) (fmul z' t'))) in *.
  assert (u53 * a <= / 1024 * a) as Ua by (apply Rmult_le_compat_r; lra). assert (u53 * b <= / 1024 * b) as Ub by (apply Rmult_le_compat_r; lra). assert (u53 * c <= / 1024 * c) as Uc by (apply Rmult_le_compat_r; lra).
  assert (Rabs p <= 101 / 100 * a + eta) as Kp.
  { replace p with (x * v + (p - x * v)) by ring. eapply Rle_trans; [apply Rabs_triang|]. fold a. lra. }
  assert (Rabs q <= 101 / 100 * b + eta) as Kq.
  { replace q with (y * w + (q - y * w)) by ring. eapply Rle_trans; [apply Rabs_triang|]. fold b. lra. }
  assert (Rabs r <= 101 / 100 * c + eta) as Kr.
  { replace r with (z * t + (r - z * t)) by ring. eapply Rle_trans; [apply Rabs_triang|]. fold c. lra. }
  pose proof (Rabs_triang p q) as Tpq.
  assert (u53 * Rabs (p + q) <= u53 * (101 / 100 * (a + b) + 2 * eta)) as K4 by (apply Rmult_le_compat_l; lra).
  assert (0 <= u53 * a) by (apply Rmult_le_pos; lra). assert (0 <= u53 * b) by (apply Rmult_le_pos; lra). assert (0 <= u53 * c) by (apply Rmult_le_pos; lra).
  assert (0 <= u53 * eta <= / 1024 * eta) as UE by (split; [apply Rmult_le_pos; lra|apply Rmult_le_compat_r; lra]).
  assert (Rabs s <= 102 / 100 * (a + b) + 3 * eta) as Ks.
  { replace s with ((p + q) + (s - (p + q))) by ring. eapply Rle_trans; [apply Rabs_triang|]. lra. }
  pose proof (Rabs_triang s r) as Tsr.
  assert (u53 * Rabs (s + r) <= u53 * (102 / 100 * (a + b + c) + 4 * eta)) as K5 by (apply Rmult_le_compat_l; lra).
  assert (u53 * (a + b + c) <= u53 * H) as KH by (apply Rmult_le_compat_l; lra).
  apply Rabs_le_inv in P1, P2, P3, F4, F5. apply Rabs_le. lra.
Qed.
