(** C74, C11 and C62, continued: lengths and distances in space, tolerances and
    vectors at arbitrary doubles. *)
From Coq Require Import ZArith Bool List Reals Lia Lra Psatz.
From Flocq Require Import Core IEEE754.BinarySingleNaN.
From Verif Require Import Base F64 F64Facts F64Err Num NumLink Coordinate_model CoordArrays_model Orientation_spec Orientation_props Distance_model Distance_spec Distance_proofs
  Distance_float Distance_props DistanceErr_proofs DistanceErr_props Distance3D_model Distance3D_spec Distance3D_proofs Distance3D_props
  DD_spec DD_proofs DD_more DDSum_proofs SpaceErr_proofs.
Import ListNotations.
Local Open Scope R_scope.

(** ** Distances in space *)
Lemma u_8 : 8 * u53 = bp (-50).
Proof. change (-50)%Z with (-53 + 3)%Z. rewrite bpow_plus. change (bp 3) with 8. ring. Qed.
Definition mid3 (c : Coordinate) : Prop := mid (cx c) /\ mid (cy c) /\ mid (cz c).
Lemma dist3_nrm p q : dist3 p q = nrm3 (qx p - qx q) (qy p - qy q) (qz p - qz q).
Proof. reflexivity. Qed.
Lemma nrm3_low x y z k : (x = 0 \/ k <= Rabs x) -> (y = 0 \/ k <= Rabs y) -> (z = 0 \/ k <= Rabs z) -> (x = 0 /\ y = 0 /\ z = 0) \/ k <= nrm3 x y z.
Proof.
  intros X Y Z. destruct (comp_nrm3 x y z) as (A & B & C).
  destruct X as [X|X]; [|right; lra]. destruct Y as [Y|Y]; [|right; lra]. destruct Z as [Z|Z]; [|right; lra]. left. auto.
Qed.
Lemma bf_up k l x : (k <= l)%Z -> bf k x -> bf l x.
Proof. intros K (F & B). split; [exact F|]. eapply Rle_trans; [exact B|now apply bpow_le]. Qed.
Lemma root3_zero x y z : bf 480 x -> bf 480 y -> bf 480 z -> R_of x = 0 -> R_of y = 0 -> R_of z = 0 -> R_of (root3 x y z) = 0.
Proof.
  intros X Y Z Ex Ey Ez. destruct (root3_err x y z X Y Z) as (F & P & E).
  destruct (bf_mul 480 480 x x ltac:(lia) X X) as (Bx & Hx). destruct (bf_mul 480 480 y y ltac:(lia) Y Y) as (By & Hy). destruct (bf_mul 480 480 z z ltac:(lia) Z Z) as (Bz & Hz).
  rewrite Ex, Rmult_0_l, RN_0 in Hx. rewrite Ey, Rmult_0_l, RN_0 in Hy. rewrite Ez, Rmult_0_l, RN_0 in Hz.
  destruct (bf_add 960 _ _ ltac:(lia) Bx By) as (B2 & E2). rewrite Hx, Hy, Rplus_0_l, RN_0 in E2.
  destruct (bf_add 961 _ _ ltac:(lia) B2 (bf_up 960 961 _ ltac:(lia) Bz)) as (B3 & E3). rewrite E2, Hz, Rplus_0_l, RN_0 in E3.
  unfold root3. destruct (fsqrt_fin _ (proj1 B3) ltac:(lra)) as (_ & ->). rewrite E3, sqrt_0. apply RN_0.
Qed.
Lemma root3_rel x' y' z' x y z : bf 471 x' -> bf 471 y' -> bf 471 z' -> ru (R_of x') x -> ru (R_of y') y -> ru (R_of z') z ->
  (x = 0 \/ bp (-440) <= Rabs x) -> (y = 0 \/ bp (-440) <= Rabs y) -> (z = 0 \/ bp (-440) <= Rabs z) ->
  ap 7 (root3 x' y' z') (nrm3 x y z).
Proof.
  intros Bx By Bz Rx Ry Rz Zx Zy Zz. assert (bf 480 x' /\ bf 480 y' /\ bf 480 z') as (Cx & Cy & Cz) by (repeat split; apply (bf_up 471 480); lia || apply Bx || apply By || apply Bz).
  destruct (root3_err x' y' z' Cx Cy Cz) as (F & P & E). split; [exact F|]. pose proof (nrm3_ru _ _ _ _ _ _ Rx Ry Rz) as N.
  pose proof (nrm3_pos x y z) as H0. rewrite (Rabs_pos_eq _ H0). set (h := nrm3 x y z) in *. set (h' := nrm3 (R_of x') (R_of y') (R_of z')) in *.
  destruct (nrm3_low x y z (bp (-440)) Zx Zy Zz) as [(X & Y & Z)|L].
  { subst x y z. assert (forall r, ru r 0 -> r = 0) as K.
    { intros r Hr. unfold ru in Hr. rewrite Rabs_R0, Rmult_0_r, Rminus_0_r in Hr. apply Rabs_eq_R0. pose proof (Rabs_pos r). lra. }
    rewrite root3_zero by (assumption || now apply K). unfold h, nrm3. rewrite Rmult_0_l, !Rplus_0_r, sqrt_0, Rminus_0_r, Rabs_R0. lra. }
  pose proof u53_pos as U. pose proof u53_small as U1. fold h in L.
  assert (bp (-535) <= / 1024 * (u53 * h)) as G.
  { apply Rle_trans with (/ 1024 * (u53 * bp (-440))); [|apply Rmult_le_compat_l; [lra|]; apply Rmult_le_compat_l; lra].
    rewrite <- bpow_plus. change (/ 1024) with (bp (-10)). rewrite <- bpow_plus. apply bpow_le. lia. }
  apply Rabs_le_inv in N, E. assert (0 <= u53 * h) by (apply Rmult_le_pos; lra).
  assert (u53 * h' <= u53 * (h + u53 * h)) by (apply Rmult_le_compat_l; lra).
  assert (u53 * (u53 * h) <= / 1024 * (u53 * h)) by (apply Rmult_le_compat_r; lra).
  apply Rabs_le. lra.
Qed.
Lemma diff3_f p q : mid3 p -> mid3 q -> ap 7 (distance_3d p q) (dist3 (rpt3 p) (rpt3 q)).
Proof.
  intros (Px & Py & Pz) (Qx & Qy & Qz).
  destruct (mid_diff _ _ Px Qx) as (B1 & R1 & Z1). destruct (mid_diff _ _ Py Qy) as (B2 & R2 & Z2). destruct (mid_diff _ _ Pz Qz) as (B3 & R3 & Z3).
  rewrite dist3_nrm. apply (root3_rel _ _ _ _ _ _ B1 B2 B3 R1 R2 R3 Z1 Z2 Z3).
Qed.
(** The distance in space has a relative error of at most 2^-50. *)
Theorem C74_distance_3d_error : forall p q, mid3 p -> mid3 q ->
  fis_finite (distance_3d p q) = true /\ Rabs (R_of (distance_3d p q) - dist3 (rpt3 p) (rpt3 q)) <= bp (-50) * dist3 (rpt3 p) (rpt3 q).
Proof.
  intros p q P Q. destruct (diff3_f p q P Q) as (F & E). split; [exact F|]. rewrite dist3_nrm in *. pose proof (nrm3_pos (qx (rpt3 p) - qx (rpt3 q)) (qy (rpt3 p) - qy (rpt3 q)) (qz (rpt3 p) - qz (rpt3 q))) as N.
  rewrite (Rabs_pos_eq _ N) in E. eapply Rle_trans; [exact E|]. apply Rmult_le_compat_r; [exact N|]. rewrite <- u_8. pose proof u53_pos. lra.
Qed.

(** *** From a point to a segment *)
Lemma dist3_triang p q r : dist3 p r <= dist3 p q + dist3 q r.
Proof.
  rewrite !dist3_nrm. pose proof (nrm3_triang (qx p - qx q) (qy p - qy q) (qz p - qz q) (qx q - qx r) (qy q - qy r) (qz q - qz r)) as T.
  replace (qx p - qx q + (qx q - qx r)) with (qx p - qx r) in T by ring. replace (qy p - qy q + (qy q - qy r)) with (qy p - qy r) in T by ring.
  replace (qz p - qz q + (qz q - qz r)) with (qz p - qz r) in T by ring. exact T.
Qed.
Lemma along3_dist a b s t : dist3 (along3 a b s) (along3 a b t) = Rabs (s - t) * dist3 b a.
Proof.
  rewrite !dist3_nrm. unfold nrm3, along3. cbn [qx qy qz]. rewrite <- (sqrt_Rsqr_abs (s - t)), <- sqrt_mult_alt by apply Rle_0_sqr.
  f_equal. unfold Rsqr. ring.
Qed.
(** [r] held between 0 and 1. *)
Definition clamp (r : R) : R := Rmax 0 (Rmin 1 r).
Lemma clamp_cases r : (r <= 0 /\ clamp r = 0) \/ (1 <= r /\ clamp r = 1) \/ (0 <= r <= 1 /\ clamp r = r).
Proof. unfold clamp, Rmax, Rmin. destruct (Rle_dec 1 r); destruct (Rle_dec 0 _); lra. Qed.
Lemma least_clamp p a b d r : r * dot3 a b a b = dot3 a p a b -> least_distance3 (eq p) (on_segment3 a b) d ->
  forall t, 0 <= t <= 1 -> d <= dist3 p (along3 a b t) <= d + Rabs (t - clamp r) * dist3 b a.
Proof.
  intros Er ((p' & q & <- & (t0 & T0 & ->) & E) & L) t T. split; [apply L; [reflexivity|exists t; auto]|].
  assert (dist3 p (along3 a b (clamp r)) <= d) as K.
  { rewrite <- E. apply dist3_le. rewrite !sq_along, <- Er. set (l := dot3 a b a b).
    assert (0 <= l) as l0 by (unfold l; rewrite dot_self; apply sq3_pos).
    assert ((clamp r - r) * (clamp r - r) <= (t0 - r) * (t0 - r)) as C.
    { assert (forall x y, 0 <= x <= y -> x * x <= y * y) as SQ by (intros; apply Rmult_le_compat; lra).
      destruct (clamp_cases r) as [(H & ->)|[(H & ->)|(H & ->)]].
      - apply SQ. lra.
      - pose proof (SQ (r - 1) (r - t0) ltac:(lra)). lra.
      - rewrite Rminus_eq_0, Rmult_0_l. apply Rle_0_sqr. }
    assert (l * ((clamp r - r) * (clamp r - r)) <= l * ((t0 - r) * (t0 - r))) by (now apply Rmult_le_compat_l). lra. }
  pose proof (dist3_triang p (along3 a b (clamp r)) (along3 a b t)) as TR. rewrite along3_dist, Rabs_minus_sym in TR. lra.
Qed.

Lemma mid_bf x : mid x -> bf 470 x.
Proof. intros (F & B & _). now split. Qed.
Lemma comp_err a b p r M : mid a -> mid b -> mid p -> Rabs (R_of a) <= M -> Rabs (R_of b) <= M -> Rabs (R_of p) <= M ->
  fis_finite r = true -> 0 < R_of r < 1 -> eta <= / 1024 * (u53 * M) ->
  bf 480 (fsub p (fadd a (fmul r (fsub b a)))) /\
  Rabs (R_of (fsub p (fadd a (fmul r (fsub b a)))) - (R_of p - (R_of a + R_of r * (R_of b - R_of a)))) <= 92 / 10 * u53 * M.
Proof.
  intros Ma Mb Mp La Lb Lp Fr Rr He. pose proof u53_pos as U. pose proof u53_small as U1.
  destruct (mid_diff _ _ Mb Ma) as (B1 & R1 & _). unfold ru in R1.
  assert (bf 0 r) as Br by (split; [exact Fr|]; change (bp 0) with 1; apply Rabs_le; lra).
  destruct (bf_mul 0 471 r (fsub b a) ltac:(lia) Br B1) as (B2 & E2).
  destruct (bf_add 471 a _ ltac:(lia) (bf_up 470 471 _ ltac:(lia) (mid_bf a Ma)) B2) as (B3 & E3).
  destruct (bf_sub 472 p _ ltac:(lia) (bf_up 470 472 _ ltac:(lia) (mid_bf p Mp)) B3) as (B4 & E4).
  split; [apply (bf_up (472 + 1)); [lia|exact B4]|].
  set (d := fsub b a) in *. set (m := fmul r d) in *. set (s := fadd a m) in *. set (g := fsub p s) in *.
  pose proof (RN_err (R_of r * R_of d)) as Q2. fold eta in Q2. rewrite <- E2 in Q2.
  pose proof (RN_sum_err (R_of a) (R_of m) (format_R a) (format_R m)) as Q3. rewrite <- E3 in Q3.
  pose proof (RN_sub_err (R_of p) (R_of s) (format_R p) (format_R s)) as Q4. rewrite <- E4 in Q4.
  assert (0 <= M) as M0 by (pose proof (Rabs_pos (R_of a)); lra).
  apply Rabs_le_inv in La, Lb, Lp.
  set (w := R_of b - R_of a) in *. assert (Rabs w <= 2 * M) as W by (apply Rabs_le; unfold w; lra).
  assert (0 <= u53 * M) as UM by (apply Rmult_le_pos; lra).
  assert (u53 * (u53 * M) <= / 1024 * (u53 * M)) as UUM by (apply Rmult_le_compat_r; lra).
  assert (u53 * Rabs w <= 2 * (u53 * M)) as UW by (apply Rle_trans with (u53 * (2 * M)); [apply Rmult_le_compat_l; lra|lra]).
  assert (Rabs (R_of d) <= 2 * M + 2 * (u53 * M)) as D.
  { replace (R_of d) with (w + (R_of d - w)) by ring. eapply Rle_trans; [apply Rabs_triang|]. lra. }
  assert (forall y, Rabs (R_of r * y) <= Rabs y) as SH.
  { intros y. rewrite Rabs_mult, (Rabs_pos_eq (R_of r)) by lra. pose proof (Rabs_pos y). nra. }
  assert (u53 * Rabs (R_of r * R_of d) <= u53 * (2 * M + 2 * (u53 * M))) as K2 by (apply Rmult_le_compat_l; [lra|]; eapply Rle_trans; [apply SH|exact D]).
  assert (Rabs (R_of m - R_of r * w) <= 402 / 100 * (u53 * M)) as EM.
  { replace (R_of m - R_of r * w) with ((R_of m - R_of r * R_of d) + R_of r * (R_of d - w)) by ring. eapply Rle_trans; [apply Rabs_triang|].
    pose proof (SH (R_of d - w)). lra. }
  set (c := R_of a + R_of r * w). assert (Rabs c <= M) as C.
  { unfold c, w. apply Rabs_le. split; nra. }
  assert (Rabs (R_of a + R_of m) <= M + 402 / 100 * (u53 * M)) as AM.
  { replace (R_of a + R_of m) with (c + (R_of m - R_of r * w)) by (unfold c; ring). eapply Rle_trans; [apply Rabs_triang|]. lra. }
  assert (u53 * Rabs (R_of a + R_of m) <= u53 * (M + 402 / 100 * (u53 * M))) as K3 by (apply Rmult_le_compat_l; lra).
  assert (Rabs (R_of s - c) <= 504 / 100 * (u53 * M)) as ES.
  { replace (R_of s - c) with ((R_of s - (R_of a + R_of m)) + (R_of m - R_of r * w)) by (unfold c; ring). eapply Rle_trans; [apply Rabs_triang|]. lra. }
  assert (Rabs (R_of p - R_of s) <= 2 * M + 504 / 100 * (u53 * M)) as PS.
  { replace (R_of p - R_of s) with ((R_of p - c) - (R_of s - c)) by ring. eapply Rle_trans; [apply Rabs_triang|]. rewrite Rabs_Ropp.
    assert (Rabs (R_of p - c) <= 2 * M) by (apply Rabs_le_inv in C; apply Rabs_le; lra). lra. }
  assert (u53 * Rabs (R_of p - R_of s) <= u53 * (2 * M + 504 / 100 * (u53 * M))) as K4 by (apply Rmult_le_compat_l; lra).
  replace (R_of g - (R_of p - c)) with ((R_of g - (R_of p - R_of s)) - (R_of s - c)) by ring. eapply Rle_trans; [apply Rabs_triang|]. rewrite Rabs_Ropp. lra.
Qed.
Lemma mid_nn x : mid x -> fis_nan x = false.
Proof. intros (F & _). destruct x; try reflexivity; discriminate. Qed.
Lemma fin_nn x : fis_finite x = true -> fis_nan x = false.
Proof. intros F. destruct x; try reflexivity; discriminate. Qed.
Lemma distance3_mid hypot p q : mid3 p -> mid3 q -> distance3 hypot p q = distance_3d p q.
Proof. intros (_ & _ & P) (_ & _ & Q). now rewrite distance3_cases, (mid_nn _ P), (mid_nn _ Q). Qed.
Lemma equals_mid hypot p q : mid3 p -> mid3 q -> g_equals_3d f64 (NF hypot) (pf3 p) (pf3 q) = g_equals_3d R NR (rpt3 p) (rpt3 q).
Proof.
  intros (Px & Py & Pz) (Qx & Qy & Qz). unfold g_equals_3d. cbn [NF NR neq nisnan pf3 rpt3 qx qy qz]. rewrite (mid_nn _ Pz).
  rewrite !feqb_R by (apply Px || apply Py || apply Pz || apply Qx || apply Qy || apply Qz). reflexivity.
Qed.
Lemma box_dist p q M : Rabs (qx p) <= M -> Rabs (qy p) <= M -> Rabs (qz p) <= M -> Rabs (qx q) <= M -> Rabs (qy q) <= M -> Rabs (qz q) <= M ->
  dist3 p q <= 7 / 2 * M.
Proof.
  intros A B C D E F. assert (0 <= M) by (pose proof (Rabs_pos (qx p)); lra). apply Rabs_le_inv in A, B, C, D, E, F. rewrite dist3_nrm.
  apply Rsqr_incr_0_var; [|lra]. unfold Rsqr. rewrite nrm3_sq.
  assert (forall r, - (2 * M) <= r <= 2 * M -> r * r <= 4 * (M * M)) as K by (intros; nra).
  pose proof (K (qx p - qx q) ltac:(lra)). pose proof (K (qy p - qy q) ltac:(lra)). pose proof (K (qz p - qz q) ltac:(lra)). nra.
Qed.
Section Point_segment.
Variables (hypot : f64 -> f64 -> f64) (p a b : Coordinate) (M d : R).
Hypotheses (Mp : mid3 p) (Ma : mid3 a) (Mb : mid3 b) (Ne : rpt3 a <> rpt3 b)
  (Hd : least_distance3 (eq (rpt3 p)) (on_segment3 (rpt3 a) (rpt3 b)) d).
Definition below (c : Coordinate) : Prop := Rabs (R_of (cx c)) <= M /\ Rabs (R_of (cy c)) <= M /\ Rabs (R_of (cz c)) <= M.
Hypotheses (Lp : below p) (La : below a) (Lb : below b).
Let D := dist3 (rpt3 p) (rpt3 a).
Let L := dist3 (rpt3 b) (rpt3 a).
Let n := dot3 (rpt3 a) (rpt3 p) (rpt3 a) (rpt3 b).
Let len2 := dot3f (fsub (cx b) (cx a)) (fsub (cy b) (cy a)) (fsub (cz b) (cz a)) (fsub (cx b) (cx a)) (fsub (cy b) (cy a)) (fsub (cz b) (cz a)).
Let num := dot3f (fsub (cx p) (cx a)) (fsub (cy p) (cy a)) (fsub (cz p) (cz a)) (fsub (cx b) (cx a)) (fsub (cy b) (cy a)) (fsub (cz b) (cz a)).
Let r := fdiv num len2.
Lemma L_bounds : bp (-440) <= L <= bp 473 /\ 0 <= D <= bp 473 /\ D <= 7 / 2 * M /\ bp (-442) <= M.
Proof.
  assert (bp (-440) <= L) as L1.
  { unfold L. rewrite dist3_nrm. destruct Ma as (Ax & Ay & Az), Mb as (Bx & By & Bz).
    destruct (mid_diff _ _ Bx Ax) as (_ & _ & Z1). destruct (mid_diff _ _ By Ay) as (_ & _ & Z2). destruct (mid_diff _ _ Bz Az) as (_ & _ & Z3).
    destruct (nrm3_low _ _ _ _ Z1 Z2 Z3) as [(X & Y & Z)|K]; [|exact K]. exfalso. apply Ne. unfold rpt3. f_equal; lra. }
  assert (forall q, mid3 q -> dist3 (rpt3 q) (rpt3 a) <= bp 473) as U.
  { intros q (Qx & Qy & Qz). destruct Ma as (Ax & Ay & Az).
    eapply Rle_trans; [apply (box_dist _ _ (bp 470)); cbn [rpt3 qx qy qz]; [apply Qx|apply Qy|apply Qz|apply Ax|apply Ay|apply Az]|].
    change 473%Z with (470 + 1 + 1 + 1)%Z. rewrite !bp_S. pose proof (bpow_gt_0 radix2 470). lra. }
  destruct Lp as (P1 & P2 & P3), La as (A1 & A2 & A3), Lb as (B1 & B2 & B3).
  assert (L <= 7 / 2 * M) as LM by (apply box_dist; assumption).
  repeat split; [exact L1|now apply U|apply sqrt_pos|now apply U|apply box_dist; assumption|].
  assert (bp (-440) = 4 * bp (-442)) as E by (change (-440)%Z with (-442 + 1 + 1)%Z; rewrite !bp_S; ring). pose proof (bpow_gt_0 radix2 (-442)). lra.
Qed.
Lemma eta_M : eta <= / 1024 * (u53 * M) /\ bp (-535) <= / 1024 * (u53 * M) /\ eta / L <= / 1024 * (u53 * M) /\ eta * L <= / 1024 * (u53 * M) /\ 4 * eta <= u53 * (L * L).
Proof.
  pose proof L_bounds as ((L1 & L2) & _ & _ & M1). pose proof u53_pos as U. pose proof (bpow_gt_0 radix2 (-440)) as P.
  assert (bp (-505) <= / 1024 * (u53 * M)) as K.
  { apply Rle_trans with (/ 1024 * (u53 * bp (-442))); [|apply Rmult_le_compat_l; [lra|]; apply Rmult_le_compat_l; lra].
    change (/ 1024) with (bp (-10)). rewrite <- !bpow_plus. apply bpow_le. lia. }
  repeat split.
  - eapply Rle_trans; [|exact K]. apply bpow_le. lia.
  - eapply Rle_trans; [|exact K]. apply bpow_le. lia.
  - eapply Rle_trans; [|exact K]. apply Rmult_le_reg_r with L; [lra|]. unfold Rdiv. rewrite Rmult_assoc, Rinv_l, Rmult_1_r by lra.
    apply Rle_trans with (bp (-505) * bp (-440)); [rewrite <- bpow_plus; apply bpow_le; lia|]. apply Rmult_le_compat_l; [apply bpow_ge_0|lra].
  - eapply Rle_trans; [|exact K]. apply Rle_trans with (bp (-1075) * bp 473); [apply Rmult_le_compat_l; [apply bpow_ge_0|exact L2]|].
    rewrite <- bpow_plus. apply bpow_le. lia.
  - apply Rle_trans with (u53 * (bp (-440) * bp (-440))).
    + unfold eta. replace (4 * bp (-1075)) with (bp (-1073)) by (change (-1073)%Z with (-1075 + 1 + 1)%Z; rewrite !bp_S; ring).
      rewrite <- !bpow_plus. apply bpow_le. lia.
    + apply Rmult_le_compat_l; [lra|]. apply Rmult_le_compat; lra.
Qed.
Lemma LL : dot3 (rpt3 a) (rpt3 b) (rpt3 a) (rpt3 b) = L * L.
Proof. unfold L. rewrite dist3_nrm, nrm3_sq. reflexivity. Qed.
Lemma n_bound : Rabs n <= D * L.
Proof.
  unfold n, D, L. rewrite !dist3_nrm. eapply Rle_trans; [|apply cauchy3]. unfold dot3.
  eapply Rle_trans; [apply Rabs_triang|]. apply Rplus_le_compat_r. apply Rabs_triang.
Qed.
Lemma r_f : fis_finite len2 = true /\ fis_finite r = true /\ Rabs (R_of r - n / (L * L)) * L <= 17 * u53 * D + / 100 * (u53 * M).
Proof.
  pose proof L_bounds as ((L1 & L2) & (D0 & D1) & _ & M1). pose proof eta_M as (_ & _ & TL & TL2 & TLL). pose proof u53_pos as U. pose proof u53_small as U1.
  pose proof (bpow_gt_0 radix2 (-440)) as P. assert (0 < eta) as T0 by apply bpow_gt_0.
  pose proof Mp as (Px & Py & Pz). pose proof Ma as (Ax & Ay & Az). pose proof Mb as (Bx & By & Bz).
  destruct (mid_diff _ _ Bx Ax) as (B1 & R1 & _). destruct (mid_diff _ _ By Ay) as (B2 & R2 & _). destruct (mid_diff _ _ Bz Az) as (B3 & R3 & _).
  destruct (mid_diff _ _ Px Ax) as (B4 & R4 & _). destruct (mid_diff _ _ Py Ay) as (B5 & R5 & _). destruct (mid_diff _ _ Pz Az) as (B6 & R6 & _).
  destruct (dot3_err _ _ _ _ _ _ _ _ _ _ _ _ B1 B2 B3 B1 B2 B3 R1 R2 R3 R1 R2 R3) as ((Fl & _) & El). fold len2 in Fl, El.
  destruct (dot3_err _ _ _ _ _ _ _ _ _ _ _ _ B4 B5 B6 B1 B2 B3 R4 R5 R6 R1 R2 R3) as ((Fn & _) & En). fold num in Fn, En.
  change (nrm3 (R_of (cx b) - R_of (cx a)) (R_of (cy b) - R_of (cy a)) (R_of (cz b) - R_of (cz a))) with L in El, En.
  change (nrm3 (R_of (cx p) - R_of (cx a)) (R_of (cy p) - R_of (cy a)) (R_of (cz p) - R_of (cz a))) with D in En.
  match type of El with Rabs (_ - ?s) <= _ => change s with (dot3 (rpt3 a) (rpt3 b) (rpt3 a) (rpt3 b)) in El end. rewrite LL in El.
  match type of En with Rabs (_ - ?s) <= _ => change s with n in En end.
  split; [exact Fl|]. set (l := R_of len2) in *. set (m := R_of num) in *.
  assert (0 < L) as L0 by lra. assert (0 < L * L) as LL0 by (now apply Rmult_lt_0_compat).
  assert (Rabs (l - L * L) <= 8 * u53 * (L * L)) as El' by lra. apply Rabs_le_inv in El'.
  assert (u53 * (L * L) <= / 1024 * (L * L)) as ULL by (apply Rmult_le_compat_r; lra).
  assert (99 / 100 * (L * L) <= l) as l0 by lra. assert (0 < l) as l00 by lra.
  set (q := m / l). set (s := n / (L * L)).
  assert (0 <= u53 * D) as UD by (apply Rmult_le_pos; lra).
  assert (Rabs (q - s) * L <= 153 / 10 * u53 * D + 5 * (eta / L)) as QS.
  { apply Rmult_le_reg_r with l; [exact l00|]. rewrite Rmult_assoc, (Rmult_comm L l), <- Rmult_assoc. rewrite <- (Rabs_pos_eq l) at 1 by lra. rewrite <- Rabs_mult.
    replace ((q - s) * l) with ((m - n) - s * (l - L * L)) by (unfold q, s; field; lra).
    apply Rle_trans with ((7 * u53 * (D * L) + 4 * eta + 8 * u53 * (D * L)) * L).
    - apply Rmult_le_compat_r; [lra|]. eapply Rle_trans; [apply Rabs_triang|]. rewrite Rabs_Ropp. apply Rplus_le_compat; [exact En|].
      rewrite Rabs_mult. apply Rle_trans with (D / L * (8 * u53 * (L * L))); [|apply Req_le; field; lra].
      apply Rmult_le_compat; try apply Rabs_pos; [|apply Rabs_le; lra]. unfold s, Rdiv. rewrite Rabs_mult, (Rabs_pos_eq (/ (L * L))) by (left; now apply Rinv_0_lt_compat).
      apply Rle_trans with (D * L * / (L * L)); [apply Rmult_le_compat_r; [left; now apply Rinv_0_lt_compat|apply n_bound]|apply Req_le; field; lra].
    - replace ((7 * u53 * (D * L) + 4 * eta + 8 * u53 * (D * L)) * L) with ((15 * (u53 * D) + 4 * (eta / L)) * (L * L)) by (field; lra).
      assert (0 <= eta / L) by (apply Rmult_le_pos; [lra|left; apply Rinv_0_lt_compat; lra]).
      apply Rle_trans with ((153 / 10 * u53 * D + 5 * (eta / L)) * (99 / 100 * (L * L))); [|apply Rmult_le_compat_l; [lra|exact l0]].
      assert (0 <= u53 * D * (L * L)) by (apply Rmult_le_pos; lra). assert (0 <= eta / L * (L * L)) by (apply Rmult_le_pos; lra). lra. }
  assert (0 <= u53 * M) as UM by (apply Rmult_le_pos; [lra|]; pose proof (bpow_gt_0 radix2 (-442)); lra).
  assert (Rabs s * L <= D) as SL.
  { unfold s, Rdiv. rewrite Rabs_mult, (Rabs_pos_eq (/ (L * L))) by (left; now apply Rinv_0_lt_compat).
    apply Rle_trans with (D * L * / (L * L) * L); [|apply Req_le; field; lra]. apply Rmult_le_compat_r; [lra|]. apply Rmult_le_compat_r; [left; now apply Rinv_0_lt_compat|apply n_bound]. }
  assert (u53 * D <= / 1024 * D) as UD1 by (apply Rmult_le_compat_r; lra).
  assert (Rabs q * L <= 102 / 100 * D + 5 * (eta / L)) as QL.
  { assert (Rabs q <= Rabs s + Rabs (q - s)) as T by (replace q with (s + (q - s)) at 1 by ring; apply Rabs_triang).
    apply Rle_trans with ((Rabs s + Rabs (q - s)) * L); [apply Rmult_le_compat_r; lra|]. lra. }
  assert (eta / L <= 1) as TL1.
  { apply Rmult_le_reg_r with L; [lra|]. unfold Rdiv. rewrite Rmult_assoc, Rinv_l, Rmult_1_r, Rmult_1_l by lra. apply Rle_trans with (bp (-440)); [apply bpow_le; lia|exact L1]. }
  assert (Rabs q <= bp 1000) as QB.
  { apply Rmult_le_reg_r with L; [exact L0|]. eapply Rle_trans; [exact QL|]. apply Rle_trans with (bp 1000 * bp (-440)); [|apply Rmult_le_compat_l; [apply bpow_ge_0|exact L1]].
    rewrite <- bpow_plus. apply Rle_trans with (bp 475); [|apply bpow_le; lia]. change 475%Z with (473 + 1 + 1)%Z. rewrite !bp_S.
    assert (bp 4 <= bp 473) as B4' by (apply bpow_le; lia). change (bp 4) with 16 in B4'. lra. }
  destruct (fdiv_R num len2 Fn ltac:(fold l; lra)) as (Fq & Eq); [fold m l q; apply (RN_small _ 1000); [lia|exact QB]|]. fold m l q in Eq. fold r in Fq, Eq.
  split; [exact Fq|]. rewrite Eq. pose proof (RN_err q) as RQ. fold eta in RQ.
  assert (Rabs (RN q - s) <= Rabs (q - s) + (u53 * Rabs q + eta)) as TR.
  { replace (RN q - s) with ((q - s) + (RN q - q)) by ring. eapply Rle_trans; [apply Rabs_triang|]. lra. }
  apply Rle_trans with ((Rabs (q - s) + (u53 * Rabs q + eta)) * L); [apply Rmult_le_compat_r; lra|].
  assert (u53 * (Rabs q * L) <= u53 * (102 / 100 * D + 5 * (eta / L))) as K by (apply Rmult_le_compat_l; lra).
  assert (u53 * (eta / L) <= / 1024 * (eta / L)) as K2 by (apply Rmult_le_compat_r; [|lra]; apply Rmult_le_pos; [lra|left; apply Rinv_0_lt_compat; lra]).
  lra.
Qed.
Lemma p2s_err : fis_finite (p2s_3d hypot p a b) = true /\ Rabs (R_of (p2s_3d hypot p a b) - d) <= bp (-46) * M.
Proof.
  pose proof L_bounds as ((L1 & L2) & (D0 & D1) & DM & M1). pose proof eta_M as (TM & TM2 & _ & _ & _). pose proof u53_pos as U. pose proof u53_small as U1.
  pose proof (bpow_gt_0 radix2 (-440)) as P. pose proof (bpow_gt_0 radix2 (-442)) as P2.
  destruct r_f as (Fl & Fr & Er). set (s := n / (L * L)) in *.
  assert (bp (-46) = 128 * u53) as -> by (change (-46)%Z with (-53 + 1 + 1 + 1 + 1 + 1 + 1 + 1)%Z; rewrite !bp_S; ring).
  assert (0 < L) as L0 by lra.
  assert (s * dot3 (rpt3 a) (rpt3 b) (rpt3 a) (rpt3 b) = n) as Es by (rewrite LL; unfold s; field; lra).
  pose proof (least_clamp _ _ _ _ _ Es Hd) as LC. fold L in LC.
  assert (0 <= u53 * M) as UM by (apply Rmult_le_pos; lra).
  assert (u53 * D <= u53 * (7 / 2 * M)) as UD by (apply Rmult_le_compat_l; lra).
  assert (forall t, 0 <= t <= 1 -> Rabs (t - clamp s) <= Rabs (R_of r - s) -> d <= dist3 (rpt3 p) (along3 (rpt3 a) (rpt3 b) t) <= d + 60 * (u53 * M)) as NEAR.
  { intros t T H. destruct (LC t T) as (K1 & K2). split; [exact K1|]. eapply Rle_trans; [exact K2|]. apply Rplus_le_compat_l.
    apply Rle_trans with (Rabs (R_of r - s) * L); [apply Rmult_le_compat_r; lra|]. lra. }
  unfold p2s_3d, g_p2s_3d. rewrite (equals_mid hypot a b Ma Mb), (neq_equals _ _ Ne). cbn [NF nadd nmul nsub ndiv nle nofZ nisnan]. cbv zeta.
  cbn [pf3 qx qy qz].
  change (fadd (fadd (fmul (fsub (cx b) (cx a)) (fsub (cx b) (cx a))) (fmul (fsub (cy b) (cy a)) (fsub (cy b) (cy a)))) (fmul (fsub (cz b) (cz a)) (fsub (cz b) (cz a)))) with len2.
  change (fadd (fadd (fmul (fsub (cx p) (cx a)) (fsub (cx b) (cx a))) (fmul (fsub (cy p) (cy a)) (fsub (cy b) (cy a)))) (fmul (fsub (cz p) (cz a)) (fsub (cz b) (cz a)))) with num.
  change (fdiv num len2) with r. rewrite (fin_nn _ Fl). change (fofZ 0) with f0. change (fofZ 1) with f1.
  change (g_distance3 f64 (NF hypot) (pf3 p) (pf3 a)) with (distance3 hypot p a).
  change (g_distance3 f64 (NF hypot) (pf3 p) (pf3 b)) with (distance3 hypot p b).
  rewrite (distance3_mid hypot p a Mp Ma), (distance3_mid hypot p b Mp Mb).
  assert (forall q, mid3 q -> dist3 (rpt3 p) (rpt3 q) <= 7 / 2 * M -> d <= dist3 (rpt3 p) (rpt3 q) <= d + 60 * (u53 * M) ->
    fis_finite (distance_3d p q) = true /\ Rabs (R_of (distance_3d p q) - d) <= 128 * u53 * M) as FIN.
  { intros q Mq Q1 Q2. destruct (diff3_f p q Mp Mq) as (F & E). split; [exact F|]. assert (0 <= dist3 (rpt3 p) (rpt3 q)) as Q0 by apply sqrt_pos. rewrite (Rabs_pos_eq _ Q0) in E.
    assert (u53 * dist3 (rpt3 p) (rpt3 q) <= u53 * (7 / 2 * M)) by (apply Rmult_le_compat_l; lra). apply Rabs_le_inv in E. apply Rabs_le. lra. }
  rewrite (fleb_R r f0 Fr eq_refl). change (R_of f0) with 0. destruct (Rle_bool_spec (R_of r) 0) as [Z|Z].
  { apply FIN; [exact Ma|exact DM|]. rewrite <- (along3_0 (rpt3 a) (rpt3 b)). apply NEAR; [lra|].
    destruct (clamp_cases s) as [(H & ->)|[(H & ->)|(H & ->)]]; unfold Rabs; repeat destruct (Rcase_abs _); lra. }
  rewrite (fleb_R f1 r eq_refl Fr). rewrite R_of_f1. destruct (Rle_bool_spec 1 (R_of r)) as [O|O].
  { apply FIN; [exact Mb| |].
    - destruct Lp as (P1 & P2' & P3), Lb as (B1 & B2 & B3). apply box_dist; assumption.
    - rewrite <- (along3_1 (rpt3 a) (rpt3 b)). apply NEAR; [lra|].
      destruct (clamp_cases s) as [(H & ->)|[(H & ->)|(H & ->)]]; unfold Rabs; repeat destruct (Rcase_abs _); lra. }
  destruct Mp as (Px & Py & Pz), Ma as (Ax & Ay & Az), Mb as (Bx & By & Bz). destruct Lp as (P1 & P2' & P3), La as (A1 & A2 & A3), Lb as (B1 & B2 & B3).
  destruct (comp_err _ _ _ r M Ax Bx Px A1 B1 P1 Fr ltac:(lra) TM) as (G1 & E1). destruct (comp_err _ _ _ r M Ay By Py A2 B2 P2' Fr ltac:(lra) TM) as (G2 & E2).
  destruct (comp_err _ _ _ r M Az Bz Pz A3 B3 P3 Fr ltac:(lra) TM) as (G3 & E3).
  change (g_sqrt_sum f64 (NF hypot)) with root3.
  set (x := fsub (cx p) (fadd _ _)) in *. set (y := fsub (cy p) (fadd _ _)) in *. set (z := fsub (cz p) (fadd _ _)) in *.
  destruct (root3_err x y z G1 G2 G3) as (F & _ & E). split; [exact F|].
  pose proof (nrm3_near _ _ _ _ _ _ _ E1 E2 E3) as NN.
  match type of NN with Rabs (_ - ?w) <= _ => change w with (dist3 (rpt3 p) (along3 (rpt3 a) (rpt3 b) (R_of r))) in NN end.
  destruct (NEAR (R_of r) ltac:(lra)) as (K1 & K2).
  { destruct (clamp_cases s) as [(H & ->)|[(H & ->)|(H & ->)]]; unfold Rabs; repeat destruct (Rcase_abs _); lra. }
  assert (dist3 (rpt3 p) (along3 (rpt3 a) (rpt3 b) (R_of r)) <= 7 / 2 * M) as DB.
  { apply Rabs_le_inv in A1, A2, A3, B1, B2, B3. apply box_dist; try assumption; cbn [along3 rpt3 qx qy qz]; apply Rabs_le; split; nra. }
  set (h := dist3 (rpt3 p) (along3 (rpt3 a) (rpt3 b) (R_of r))) in *. set (h' := nrm3 (R_of x) (R_of y) (R_of z)) in *.
  apply Rabs_le_inv in NN, E.
  assert (u53 * (u53 * M) <= / 1024 * (u53 * M)) as UU by (apply Rmult_le_compat_r; lra).
  assert (u53 * h' <= u53 * (7 / 2 * M + 184 / 10 * (u53 * M))) as UH by (apply Rmult_le_compat_l; lra).
  apply Rabs_le. lra.
Qed.
End Point_segment.
(** The distance from a point to a segment in space is the exact one up to 2^-46
    of the largest ordinate. *)
Theorem C74_point_segment_error : forall hypot p a b d M, mid3 p -> mid3 a -> mid3 b ->
  (forall c, In c [p; a; b] -> Rabs (R_of (cx c)) <= M /\ Rabs (R_of (cy c)) <= M /\ Rabs (R_of (cz c)) <= M) ->
  least_distance3 (eq (rpt3 p)) (on_segment3 (rpt3 a) (rpt3 b)) d ->
  fis_finite (p2s_3d hypot p a b) = true /\ Rabs (R_of (p2s_3d hypot p a b) - d) <= bp (-46) * M.
Proof.
  intros hypot p a b d M Mp Ma Mb B L.
  assert (below M p /\ below M a /\ below M b) as (Lp & La & Lb) by (repeat split; apply B; cbn; auto).
  destruct (Classical_Prop.classic (rpt3 a = rpt3 b)) as [E|N]; [|now apply p2s_err].
  assert (d = dist3 (rpt3 p) (rpt3 a)) as ->.
  { destruct L as ((p' & q & <- & (t & _ & ->) & K) & _). rewrite <- K, <- E. now rewrite along3_same. }
  unfold p2s_3d, g_p2s_3d. rewrite (equals_mid hypot a b Ma Mb). rewrite (proj2 (equals_R _ _) E).
  change (g_distance3 f64 (NF hypot) (pf3 p) (pf3 a)) with (distance3 hypot p a). rewrite (distance3_mid hypot p a Mp Ma).
  destruct (diff3_f p a Mp Ma) as (F & Er). split; [exact F|]. assert (0 <= dist3 (rpt3 p) (rpt3 a)) as D0 by apply sqrt_pos. rewrite (Rabs_pos_eq _ D0) in Er.
  destruct Lp as (P1 & P2 & P3), La as (A1 & A2 & A3). pose proof (box_dist (rpt3 p) (rpt3 a) M P1 P2 P3 A1 A2 A3) as DB. pose proof u53_pos as U.
  assert (u53 * dist3 (rpt3 p) (rpt3 a) <= u53 * (7 / 2 * M)) by (apply Rmult_le_compat_l; lra).
  assert (bp (-46) = 128 * u53) as -> by (change (-46)%Z with (-53 + 1 + 1 + 1 + 1 + 1 + 1 + 1)%Z; rewrite !bp_S; ring).
  assert (0 <= M) by (pose proof (Rabs_pos (R_of (cx p))); lra). assert (0 <= u53 * M) by (apply Rmult_le_pos; lra). lra.
Qed.
(** The points (1/3, 2/3, 1), (0,0,0) and (7,0,0) as doubles. *)
Definition third : f64 := fdiv f1 (fofZ 3).
Lemma mid_third : mid third /\ mid f0 /\ mid f1 /\ mid (fofZ 7).
Proof.
  assert (R_of third = 6004799503160661 * bp (-54)) as E by (unfold third; reflexivity).
  assert (forall z, (-54 <= z)%Z -> bp (-388) <= bp z) as B by (intros; apply bpow_le; lia).
  assert (forall k, (0 <= k <= 3)%Z -> bp k <= bp 470) as C by (intros; apply bpow_le; lia).
  pose proof (B (-54)%Z ltac:(lia)) as B1. pose proof (B 0%Z ltac:(lia)) as B2. pose proof (C 0%Z ltac:(lia)) as C0. pose proof (C 3%Z ltac:(lia)) as C3.
  change (bp 0) with 1 in B2, C0. change (bp 3) with 8 in C3. pose proof (bpow_gt_0 radix2 (-54)) as P.
  assert (bp (-54) <= / 9007199254740992) as K by (cbn; lra).
  split; [|split; [|split]]; (split; [reflexivity|]).
  - rewrite E, Rabs_pos_eq by lra. split; [lra|right; lra].
  - change (R_of f0) with 0. rewrite Rabs_R0. split; [lra|now left].
  - rewrite R_of_f1, Rabs_pos_eq by lra. split; [lra|right; lra].
  - replace (R_of (fofZ 7)) with 7 by (vm_compute; lra). rewrite Rabs_pos_eq by lra. split; [lra|right; lra].
Qed.
Example C74_error_example : let p := new_xyz third (fadd third third) f1 in let a := new_xyz f0 f0 f0 in let b := new_xyz (fofZ 7) f0 f0 in
  mid3 p /\ mid3 a /\ mid3 b /\
  least_distance3 (eq (rpt3 p)) (on_segment3 (rpt3 a) (rpt3 b)) (p2sR (rpt3 p) (rpt3 a) (rpt3 b)) /\
  (forall c, In c [p; a; b] -> Rabs (R_of (cx c)) <= 7 /\ Rabs (R_of (cy c)) <= 7 /\ Rabs (R_of (cz c)) <= 7).
Proof.
  cbv zeta. destruct mid_third as (T & O & I & S).
  assert (R_of third = 6004799503160661 * bp (-54)) as E by (unfold third; reflexivity).
  assert (R_of (fadd third third) = 6004799503160661 * bp (-53)) as E2 by reflexivity.
  assert (bp (-53) = 2 * bp (-54)) as E3 by (change (-53)%Z with (-54 + 1)%Z; apply bp_S).
  assert (bp (-54) <= / 9007199254740992) as K by (cbn; lra). pose proof (bpow_gt_0 radix2 (-54)) as P.
  assert (mid (fadd third third)) as T2.
  { split; [reflexivity|]. destruct T as (_ & T1 & [T2|T2]); rewrite E in *; [exfalso; lra|]. rewrite E2, E3. rewrite Rabs_pos_eq in * by lra.
    assert (bp 1 <= bp 470) by (apply bpow_le; lia). change (bp 1) with 2 in H. split; [lra|right; lra]. }
  split; [exact (conj T (conj T2 I))|]. split; [exact (conj O (conj O O))|]. split; [exact (conj S (conj O O))|]. split; [apply p2s_least3|].
  intros c [<-|[<-|[<-|[]]]]; cbn [cx cy cz new_xyz]; rewrite ?E, ?E2, ?E3, ?R_of_f1; replace (R_of (fofZ 7)) with 7 by (vm_compute; lra); change (R_of f0) with 0;
    repeat split; rewrite Rabs_pos_eq by lra; lra.
Qed.
