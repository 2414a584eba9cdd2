(** C61: rounding errors of the triangle functions. *)
From Coq Require Import ZArith Bool Reals Lia Lra Psatz.
From Flocq Require Import Core IEEE754.BinarySingleNaN.
From Verif Require Import Base F64 F64Facts F64Err Num NumLink Coordinate_model DD_model DD_spec DD_proofs DD_more
  Orientation_model Orientation_spec Orientation_proofs Orientation_props Distance_model Distance_spec Distance_proofs Distance_float Distance_props
  DistanceErr_proofs DistanceErr_props Distance3D_props
  Intersection_model Intersection_spec Intersection_proofs Intersection_props Angle_model Angle_props
  Triangle_model Triangle_spec Triangle_proofs Triangle_float Triangle_props TriangleErr_proofs.
Local Open Scope R_scope.

Lemma side_ap hypot a b : hypot_accurate hypot -> mid_pt a -> mid_pt b ->
  ap 4 (g_distance f64 (NF hypot) (pf a) (pf b)) (dist (rpt a) (rpt b)) /\ 0 <= dist (rpt a) (rpt b) <= bp 472 /\
  (dist (rpt a) (rpt b) = 0 \/ bp (-440) <= dist (rpt a) (rpt b)).
Proof.
  intros Hh Ma Mb. destruct (dist_f hypot a b Hh Ma Mb) as (F & E). destruct (mid_dist a b Ma Mb) as (L & U).
  pose proof (dist_pos (rpt a) (rpt b)) as P. split; [|split; [split; assumption|]].
  - split; [exact F|]. rewrite (Rabs_pos_eq _ P). exact E.
  - destruct L as [->|L]; [left; now apply dist_0|now right].
Qed.
Lemma bp_3 : 3 * bp 472 <= bp 474.
Proof. change 474%Z with (472 + 1 + 1)%Z. rewrite !bp_S. pose proof (bpow_gt_0 radix2 472). lra. Qed.

Lemma u_8 : 8 * u53 = bp (-50).
Proof. change (-50)%Z with (-53 + 1 + 1 + 1)%Z. rewrite !bp_S. lra. Qed.

(** ** Perimeter and longest side *)
Theorem C61_lengths_error : forall hypot a b c, hypot_accurate hypot -> mid_pt a -> mid_pt b -> mid_pt c ->
  let ab := dist (rpt a) (rpt b) in let bc := dist (rpt b) (rpt c) in let ca := dist (rpt c) (rpt a) in
  let l := tri_length hypot a b c in let m := tri_longest_side hypot a b c in let longest := Rmax ab (Rmax bc ca) in
  fis_finite l = true /\ Rabs (R_of l - (ab + bc + ca)) <= bp (-50) * (ab + bc + ca) /\
  fis_finite m = true /\ Rabs (R_of m - longest) <= bp (-51) * longest.
Proof.
  intros hypot a b c Hh Ma Mb Mc ab bc ca l m longest.
  destruct (side_ap hypot a b Hh Ma Mb) as (A1 & (P1 & Q1) & _). destruct (side_ap hypot b c Hh Mb Mc) as (A2 & (P2 & Q2) & _).
  destruct (side_ap hypot c a Hh Mc Ma) as (A3 & (P3 & Q3) & _). fold ab in A1, P1, Q1. fold bc in A2, P2, Q2. fold ca in A3, P3, Q3.
  pose proof bp_3 as B3. assert (bp 474 <= bp 1000) as B4 by (apply bpow_le; lia).
  assert (ap 6 (fadd (g_distance f64 (NF hypot) (pf a) (pf b)) (g_distance f64 (NF hypot) (pf b) (pf c))) (ab + bc)) as S1.
  { replace 6 with (4 + 2) by ring. apply ap_addp; try assumption; lra. }
  assert (ap 8 l (ab + bc + ca)) as (Fl & El).
  { replace 8 with (6 + 2) by ring. apply ap_addp; try assumption; try lra. apply (ap_weak 4); [lra|exact A3]. }
  rewrite (Rabs_pos_eq (ab + bc + ca)) in El by lra.
  rewrite u_8 in El.
  split; [exact Fl|]. split; [exact El|].
  assert (forall x y r s, ap 4 x r -> ap 4 y s -> 0 <= r -> 0 <= s -> ap 4 (if fltb x y then y else x) (Rmax r s)) as M.
  { intros x y r s (Fx & Ex) (Fy & Ey) R0 S0. rewrite fltb_R by assumption. rewrite (Rabs_pos_eq r R0) in Ex. rewrite (Rabs_pos_eq s S0) in Ey.
    pose proof u53_pos. pose proof u53_tiny. set (k := 4 * u53) in *. assert (0 <= k <= / 1000) by (unfold k; lra).
    apply Rabs_le_inv in Ex, Ey.
    destruct (Rlt_bool_spec (R_of x) (R_of y)) as [K|K]; (split; [assumption|]); unfold Rmax; destruct (Rle_dec r s) as [L|L];
      [rewrite (Rabs_pos_eq s) by lra|rewrite (Rabs_pos_eq r) by lra|rewrite (Rabs_pos_eq s) by lra|rewrite (Rabs_pos_eq r) by lra]; fold k; apply Rabs_le; nra. }
  pose proof (M _ _ _ _ A1 A2 P1 P2) as M1.
  assert (0 <= Rmax ab bc) as P4 by (eapply Rle_trans; [exact P1|apply Rmax_l]).
  pose proof (M _ _ _ _ M1 A3 P4 P3) as (Fm & Em).
  split; [exact Fm|]. unfold longest. rewrite Rmax_assoc. rewrite (Rabs_pos_eq (Rmax (Rmax ab bc) ca)) in Em by (eapply Rle_trans; [exact P4|apply Rmax_l]).
  rewrite u_4 in Em. exact Em.
Qed.

(** ** The area *)
Lemma side_sidev a b c : side a b c = - sidev c a b.
Proof. unfold side, sidev. ring. Qed.
Theorem C61_area_error : forall hypot a b c, mid_pt a -> mid_pt b -> mid_pt c ->
  fis_finite (tri_area hypot a b c) = true /\
  Rabs (R_of (tri_area hypot a b c) - Rabs (side (rpt a) (rpt b) (rpt c)) / 2) <= bp (-50) * (dist (rpt a) (rpt b) * dist (rpt a) (rpt c)) /\
  fis_finite (tri_signed_area hypot a b c) = true /\
  Rabs (R_of (tri_signed_area hypot a b c) + side (rpt a) (rpt b) (rpt c) / 2) <= bp (-50) * (dist (rpt a) (rpt b) * dist (rpt a) (rpt c)).
Proof.
  intros hypot a b c Ma Mb Mc.
  assert (fis_finite (tri_signed_area hypot a b c) = true /\
    Rabs (R_of (tri_signed_area hypot a b c) + side (rpt a) (rpt b) (rpt c) / 2) <= bp (-50) * (dist (rpt a) (rpt b) * dist (rpt a) (rpt c))) as (F & E).
  { pose proof Ma as (Ax & Ay). pose proof Mb as (Bx & By). pose proof Mc as (Cx & Cy).
    destruct (mid_diff _ _ Cx Ax) as (B1 & R1 & _). destruct (mid_diff _ _ By Ay) as (B2 & R2 & _).
    destruct (mid_diff _ _ Bx Ax) as (B3 & R3 & _). destruct (mid_diff _ _ Cy Ay) as (B4 & R4 & _).
    destruct (prods_f _ _ _ _ B1 B4 B2 B3) as (_ & (_ & El)).
    destruct (bf_mul 471 471 _ _ ltac:(lia) B1 B2) as (B5 & E5). destruct (bf_mul 471 471 _ _ ltac:(lia) B3 B4) as (B6 & E6).
    destruct (bf_sub 942 _ _ ltac:(lia) B5 B6) as (B7 & E7). rewrite E5, E6 in E7.
    set (n := fsub (fmul (fsub (cx c) (cx a)) (fsub (cy b) (cy a))) (fmul (fsub (cx b) (cx a)) (fsub (cy c) (cy a)))) in *.
    change (tri_signed_area hypot a b c) with (fdiv n f2).
    assert (Fd : fis_finite (fdiv n f2) = true /\ R_of (fdiv n f2) = RN (R_of n / 2)).
    { destruct B7 as (Fn & Bn). rewrite <- R_of_f2. apply fdiv_R; [exact Fn|rewrite R_of_f2; lra|].
      apply (RN_small _ 943); [lia|]. rewrite R_of_f2. unfold Rdiv. rewrite Rabs_mult, (Rabs_pos_eq (/ 2)) by lra.
      pose proof (Rabs_pos (R_of n)). change (942 + 1)%Z with 943%Z in Bn. lra. }
    destruct Fd as (Fd & Ed). split; [exact Fd|].
    set (H := dist (rpt a) (rpt c)). set (L := dist (rpt a) (rpt b)).
    assert (Hp : 0 <= H) by apply dist_pos. assert (Lp : 0 <= L) by apply dist_pos.
    assert (EH : H * H = (R_of (cx c) - R_of (cx a)) * (R_of (cx c) - R_of (cx a)) + (R_of (cy c) - R_of (cy a)) * (R_of (cy c) - R_of (cy a))).
    { unfold H. rewrite dist_sq'. cbn [rpt px py]. ring. }
    assert (EL : L * L = (R_of (cy b) - R_of (cy a)) * (R_of (cy b) - R_of (cy a)) + (R_of (cx b) - R_of (cx a)) * (R_of (cx b) - R_of (cx a))).
    { unfold L. rewrite dist_sq'. cbn [rpt px py]. ring. }
    assert (Sd : side (rpt a) (rpt b) (rpt c) = - ((R_of (cx c) - R_of (cx a)) * (R_of (cy b) - R_of (cy a)) - (R_of (cy c) - R_of (cy a)) * (R_of (cx b) - R_of (cx a)))).
    { unfold side. cbn [rpt px py]. ring. }
    destruct (mid_dist a c Ma Mc) as (Zc & _). destruct (mid_dist a b Ma Mb) as (Zb & _). fold H in Zc. fold L in Zb.
    assert (Flat : forall v, R_of n = 0 -> side (rpt a) (rpt b) (rpt c) = 0 -> 0 <= v -> Rabs (R_of (fdiv n f2) + side (rpt a) (rpt b) (rpt c) / 2) <= v).
    { intros v Z1 Z2 V. rewrite Ed, Z1, Z2. replace (0 / 2) with 0 by lra. rewrite RN_0, Rplus_0_l, Rabs_R0. exact V. }
    assert (V0 : 0 <= bp (-50) * (L * H)) by (apply Rmult_le_pos; [apply bpow_ge_0|apply Rmult_le_pos; assumption]).
    unfold ru in R1, R2, R3, R4.
    assert (ZR : forall x y, Rabs (x - y) <= u53 * Rabs y -> y = 0 -> x = 0).
    { intros x y K ->. rewrite Rabs_R0, Rmult_0_r, Rminus_0_r in K. pose proof (Rabs_pos x). apply Rabs_eq_R0. lra. }
    destruct Zc as [Zc|Zc].
    { injection Zc as Zx Zy. apply Flat; [| |exact V0].
      - rewrite E7, (ZR _ _ R1), (ZR _ _ R4) by lra. rewrite Rmult_0_l, Rmult_0_r, RN_0, Rminus_0_r. apply RN_0.
      - rewrite Sd, <- Zx, <- Zy. ring. }
    destruct Zb as [Zb|Zb].
    { injection Zb as Zx Zy. apply Flat; [| |exact V0].
      - rewrite E7, (ZR _ _ R2), (ZR _ _ R3) by lra. rewrite Rmult_0_l, Rmult_0_r, RN_0, Rminus_0_r. apply RN_0.
      - rewrite Sd, <- Zx, <- Zy. ring. }
    destruct (ru_dot _ _ _ _ _ _ _ _ H L R1 R4 R2 R3 Hp Lp EH EL (eta_small H L Zc Zb)) as (_ & D).
    rewrite (Rmult_comm (R_of (fsub (cy c) (cy a)))) in D. rewrite <- E7 in D.
    rewrite Ed. set (s := side (rpt a) (rpt b) (rpt c)) in *.
    replace ((R_of (cx c) - R_of (cx a)) * (R_of (cy b) - R_of (cy a)) - (R_of (cy c) - R_of (cy a)) * (R_of (cx b) - R_of (cx a))) with (- s) in D by (rewrite Sd; ring).
    pose proof (RN_err (R_of n / 2)) as Rn. fold eta in Rn. pose proof (eta_small H L Zc Zb) as Et.
    pose proof (side_le (rpt c) (rpt a) (rpt b)) as Sl. rewrite (dist_sym (rpt c)) in Sl. fold H L in Sl.
    assert (Rabs s <= H * L) as Sl'. { unfold s. rewrite side_sidev, Rabs_Ropp. exact Sl. }
    set (T := H * L) in *. rewrite (Rmult_comm L H). fold T.
    pose proof u53_pos as U. pose proof u53_tiny as U1. assert (T0 : 0 <= T) by (unfold T; apply Rmult_le_pos; assumption).
    assert (Rabs (R_of n) <= 2 * T) as Bn.
    { replace (R_of n) with ((R_of n - - s) + - s) by ring. eapply Rle_trans; [apply Rabs_triang|]. rewrite Rabs_Ropp.
      assert (6 * u53 * T <= / 1000 * T) by (apply Rmult_le_compat_r; lra). lra. }
    rewrite <- u_8.
    replace (RN (R_of n / 2) + s / 2) with ((RN (R_of n / 2) - R_of n / 2) + (R_of n - - s) * / 2) by field.
    eapply Rle_trans; [apply Rabs_triang|]. rewrite (Rabs_mult _ (/ 2)), (Rabs_pos_eq (/ 2)) by lra.
    assert (Rabs (R_of n / 2) <= T). { unfold Rdiv. rewrite Rabs_mult, (Rabs_pos_eq (/ 2)) by lra. lra. }
    assert (u53 * Rabs (R_of n / 2) <= u53 * T) by (apply Rmult_le_compat_l; lra).
    assert (u53 * u53 * T <= u53 * T / 1024).
    { replace (u53 * T / 1024) with (u53 * / 1024 * T) by field. apply Rmult_le_compat_r; [lra|]. apply Rmult_le_compat_l; lra. }
    assert (0 <= u53 * T) by (apply Rmult_le_pos; lra). lra. }
  split; [unfold tri_area, g_area; cbn [NF nabs]; now rewrite fabs_fin|]. split; [|split; assumption].
  unfold tri_area, g_area. cbn [NF nabs]. change (g_signed_area f64 (NF hypot) (pf a) (pf b) (pf c)) with (tri_signed_area hypot a b c).
  rewrite fabs_R. eapply Rle_trans; [|exact E].
  replace (Rabs (side (rpt a) (rpt b) (rpt c)) / 2) with (Rabs (- (side (rpt a) (rpt b) (rpt c) / 2))).
  - eapply Rle_trans; [apply Rabs_triang_inv2|]. apply Req_le. f_equal. ring.
  - rewrite Rabs_Ropp. unfold Rdiv. rewrite Rabs_mult, (Rabs_pos_eq (/ 2)) by lra. reflexivity.
Qed.

(** ** Weighted means *)
Definition largest (x y z : R) : R := Rmax (Rabs x) (Rmax (Rabs y) (Rabs z)).
Lemma largest_ge x y z : Rabs x <= largest x y z /\ Rabs y <= largest x y z /\ Rabs z <= largest x y z.
Proof.
  unfold largest. split; [apply Rmax_l|]. split; (eapply Rle_trans; [|apply Rmax_r]); [apply Rmax_l|apply Rmax_r].
Qed.
Lemma mid_range x : mid x -> R_of x = 0 \/ bp (-388) <= Rabs (R_of x).
Proof. intros (_ & _ & [H|H]); [left; exact H|now right]. Qed.
Lemma largest_range x y z : mid x -> mid y -> mid z ->
  largest (R_of x) (R_of y) (R_of z) <= bp 470 /\
  (largest (R_of x) (R_of y) (R_of z) = 0 \/ bp (-388) <= largest (R_of x) (R_of y) (R_of z)).
Proof.
  intros X Y Z. destruct (mid_bf x X) as (_ & Bx), (mid_bf y Y) as (_ & By), (mid_bf z Z) as (_ & Bz).
  split; [unfold largest; repeat apply Rmax_lub; assumption|].
  destruct (largest_ge (R_of x) (R_of y) (R_of z)) as (G1 & G2 & G3).
  destruct (mid_range x X) as [Zx|Lx]; [|right; lra]. destruct (mid_range y Y) as [Zy|Ly]; [|right; lra]. destruct (mid_range z Z) as [Zz|Lz]; [|right; lra].
  left. unfold largest. rewrite Zx, Zy, Zz, Rabs_R0. assert (Rmax 0 0 = 0) as -> by (apply Rmax_left, Rle_refl). apply Rmax_left, Rle_refl.
Qed.
Lemma term_f l L x : ap 4 l L -> 0 <= L <= bp 472 -> L = 0 \/ bp (-440) <= L -> mid x -> ap 6 (fmul l x) (L * R_of x).
Proof.
  intros A (P & Q) Z X. replace 6 with (4 + 0 + 2) by ring. apply ap_mul; try lra; try exact A.
  - destruct X as (F & _). split; [exact F|]. rewrite Rminus_eq_0, Rabs_R0. pose proof (Rabs_pos (R_of x)). nra.
  - destruct Z as [->|Z]; [left; ring|]. destruct (mid_range x X) as [->|R]; [left; ring|right]. destruct (mid_bf x X) as (_ & B).
    rewrite Rabs_mult, (Rabs_pos_eq L P). split.
    + apply Rle_trans with (bp (-440) * bp (-388)); [rewrite <- bpow_plus; apply bpow_le; lia|]. apply Rmult_le_compat; try assumption; apply bpow_ge_0.
    + apply Rle_trans with (bp 472 * bp 470); [apply Rmult_le_compat; try assumption; apply Rabs_pos|]. rewrite <- bpow_plus. apply bpow_le. lia.
Qed.
Lemma mean_f l0 l1 l2 L0 L1 L2 x0 x1 x2 : ap 4 l0 L0 -> ap 4 l1 L1 -> ap 4 l2 L2 ->
  0 <= L0 <= bp 472 -> 0 <= L1 <= bp 472 -> 0 <= L2 <= bp 472 ->
  L0 = 0 \/ bp (-440) <= L0 -> L1 = 0 \/ bp (-440) <= L1 -> L2 = 0 \/ bp (-440) <= L2 -> 0 < L0 + L1 + L2 ->
  mid x0 -> mid x1 -> mid x2 ->
  let q := fdiv (fadd (fadd (fmul l0 x0) (fmul l1 x1)) (fmul l2 x2)) (fadd (fadd l0 l1) l2) in
  fis_finite q = true /\
  Rabs (R_of q - (L0 * R_of x0 + L1 * R_of x1 + L2 * R_of x2) / (L0 + L1 + L2)) <= bp (-48) * largest (R_of x0) (R_of x1) (R_of x2).
Proof.
  intros A0 A1 A2 P0 P1 P2 Z0 Z1 Z2 Pc X0 X1 X2 q.
  destruct (term_f _ _ _ A0 P0 Z0 X0) as (F0 & E0). destruct (term_f _ _ _ A1 P1 Z1 X1) as (F1 & E1). destruct (term_f _ _ _ A2 P2 Z2 X2) as (F2 & E2).
  pose proof bp_3 as B3. assert (bp 474 <= bp 1000) as B4 by (apply bpow_le; lia).
  assert (ap 6 (fadd l0 l1) (L0 + L1)) as S1 by (replace 6 with (4 + 2) by ring; apply ap_addp; try assumption; lra).
  assert (ap 8 (fadd (fadd l0 l1) l2) (L0 + L1 + L2)) as (Fc & Ec).
  { replace 8 with (6 + 2) by ring. apply ap_addp; try assumption; try lra. apply (ap_weak 4); [lra|exact A2]. }
  destruct (largest_range x0 x1 x2 X0 X1 X2) as (M1 & M2). destruct (largest_ge (R_of x0) (R_of x1) (R_of x2)) as (G0 & G1 & G2).
  set (m := largest (R_of x0) (R_of x1) (R_of x2)) in *. assert (M0 : 0 <= m) by (pose proof (Rabs_pos (R_of x0)); lra).
  pose proof u53_pos as U. pose proof u53_tiny as U1.
  assert (W : forall L x, 0 <= L <= bp 472 -> Rabs x <= m -> Rabs (L * x) <= L * m).
  { intros L x PL Hx. rewrite Rabs_mult, (Rabs_pos_eq L) by tauto. apply Rmult_le_compat_l; tauto. }
  pose proof (W _ _ P0 G0) as W0. pose proof (W _ _ P1 G1) as W1. pose proof (W _ _ P2 G2) as W2.
  set (t0 := L0 * R_of x0) in *. set (t1 := L1 * R_of x1) in *. set (t2 := L2 * R_of x2) in *.
  assert (V : forall L x t, 0 <= L <= bp 472 -> Rabs t <= L * m -> Rabs (x - t) <= 6 * u53 * Rabs t -> Rabs (x - t) <= 6 * u53 * (L * m) /\ Rabs x <= 101 / 100 * (L * m)).
  { intros L x t PL Ht Hx. assert (6 * u53 * Rabs t <= 6 * u53 * (L * m)) by (apply Rmult_le_compat_l; lra). split; [lra|].
    replace x with ((x - t) + t) by ring. eapply Rle_trans; [apply Rabs_triang|].
    assert (0 <= L * m) by (apply Rmult_le_pos; tauto). assert (6 * u53 * (L * m) <= / 100 * (L * m)) by (apply Rmult_le_compat_r; lra). lra. }
  destruct (V _ _ _ P0 W0 E0) as (V0 & N0). destruct (V _ _ _ P1 W1 E1) as (V1 & N1). destruct (V _ _ _ P2 W2 E2) as (V2 & N2). clear V W E0 E1 E2.
  set (T0 := R_of (fmul l0 x0)) in *. set (T1 := R_of (fmul l1 x1)) in *. set (T2 := R_of (fmul l2 x2)) in *.
  assert (LM : forall L, 0 <= L <= bp 472 -> 0 <= L * m <= bp 942).
  { intros L PL. split; [apply Rmult_le_pos; tauto|]. change 942%Z with (472 + 470)%Z. rewrite bpow_plus. apply Rmult_le_compat; tauto. }
  pose proof (LM _ P0) as LM0. pose proof (LM _ P1) as LM1. pose proof (LM _ P2) as LM2. clear LM.
  assert (B945 : bp 945 = 8 * bp 942) by (change 945%Z with (942 + 1 + 1 + 1)%Z; rewrite !bp_S; lra). pose proof (bpow_gt_0 radix2 942) as B942.
  assert (NS : Rabs (T0 + T1) <= 101 / 100 * (L0 * m + L1 * m)) by (eapply Rle_trans; [apply Rabs_triang|]; lra).
  destruct (fadd_R _ _ F0 F1) as (Fs & Es). { fold T0 T1. apply (RN_small _ 945); [lia|]. lra. }
  pose proof (RN_sum_err T0 T1 (format_R _) (format_R _)) as R1. fold T0 T1 in Es. rewrite <- Es in R1.
  set (S := fadd (fmul l0 x0) (fmul l1 x1)) in *.
  assert (u53 * Rabs (T0 + T1) <= u53 * (101 / 100 * (L0 * m + L1 * m))) as R1' by (apply Rmult_le_compat_l; lra).
  assert (ES : Rabs (R_of S - (t0 + t1)) <= 8 * u53 * (L0 * m + L1 * m)).
  { replace (R_of S - (t0 + t1)) with ((R_of S - (T0 + T1)) + ((T0 - t0) + (T1 - t1))) by ring.
    eapply Rle_trans; [apply Rabs_triang|]. eapply Rle_trans; [apply Rplus_le_compat_l, Rabs_triang|].
    assert (0 <= u53 * (L0 * m + L1 * m)) by (apply Rmult_le_pos; lra). lra. }
  assert (8 * u53 * (L0 * m + L1 * m) <= / 100 * (L0 * m + L1 * m)) as K1 by (apply Rmult_le_compat_r; lra).
  assert (NS2 : Rabs (R_of S + T2) <= 102 / 100 * ((L0 + L1 + L2) * m)).
  { replace (R_of S + T2) with ((R_of S - (t0 + t1)) + ((t0 + t1) + T2)) by ring. eapply Rle_trans; [apply Rabs_triang|].
    eapply Rle_trans; [apply Rplus_le_compat_l, Rabs_triang|]. pose proof (Rabs_triang t0 t1). lra. }
  destruct (fadd_R _ _ Fs F2) as (Fn & En). { fold T2. apply (RN_small _ 945); [lia|]. lra. }
  pose proof (RN_sum_err (R_of S) T2 (format_R _) (format_R _)) as R2. fold T2 in En. rewrite <- En in R2.
  set (N := fadd S (fmul l2 x2)) in *. set (c := L0 + L1 + L2) in *. set (C := fadd (fadd l0 l1) l2) in *.
  assert (CM0 : 0 <= c * m) by (apply Rmult_le_pos; lra).
  assert (u53 * Rabs (R_of S + T2) <= u53 * (102 / 100 * (c * m))) as R2' by (apply Rmult_le_compat_l; lra).
  assert (EN : Rabs (R_of N - (t0 + t1 + t2)) <= 10 * u53 * (c * m)).
  { replace (R_of N - (t0 + t1 + t2)) with ((R_of N - (R_of S + T2)) + ((R_of S - (t0 + t1)) + (T2 - t2))) by ring.
    eapply Rle_trans; [apply Rabs_triang|]. eapply Rle_trans; [apply Rplus_le_compat_l, Rabs_triang|].
    assert (0 <= u53 * (c * m)) by (apply Rmult_le_pos; lra).
    assert (6 * u53 * (L2 * m) <= 8 * u53 * (L2 * m)) by (apply Rmult_le_compat_r; lra).
    assert (8 * u53 * (L0 * m + L1 * m) + 8 * u53 * (L2 * m) = 8 * u53 * (c * m)) by (unfold c; ring). lra. }
  rewrite (Rabs_pos_eq c) in Ec by lra. set (D := R_of C) in *. apply Rabs_le_inv in Ec.
  assert (8 * u53 * c <= / 1000 * c) as K2 by (apply Rmult_le_compat_r; lra).
  assert (Dp : 0 < D) by lra.
  set (s := t0 + t1 + t2) in *. assert (Bs : Rabs s <= c * m).
  { unfold s. eapply Rle_trans; [apply Rabs_triang|]. pose proof (Rabs_triang t0 t1). unfold c. lra. }
  set (r := s / c) in *. assert (Er : s = r * c) by (unfold r; field; lra).
  assert (Br : Rabs r <= m).
  { apply Rmult_le_reg_r with c; [exact Pc|]. rewrite <- (Rabs_pos_eq c) at 1 by lra. rewrite <- Rabs_mult, <- Er. lra. }
  assert (EQ : Rabs (R_of N / D - r) <= 19 * u53 * m).
  { apply Rmult_le_reg_r with D; [exact Dp|]. rewrite <- (Rabs_pos_eq D) at 2 by lra. rewrite <- Rabs_mult.
    replace ((R_of N / D - r) * D) with ((R_of N - s) + r * (c - D)) by (rewrite Er; field; lra).
    eapply Rle_trans; [apply Rabs_triang|]. rewrite Rabs_mult.
    assert (Rabs r * Rabs (c - D) <= m * (8 * u53 * c)). { apply Rmult_le_compat; try apply Rabs_pos; [exact Br|]. apply Rabs_le. lra. }
    assert (19 * u53 * m * (999 / 1000 * c) <= 19 * u53 * m * D). { apply Rmult_le_compat_l; [apply Rmult_le_pos; lra|lra]. }
    assert (0 <= u53 * (c * m)) by (apply Rmult_le_pos; lra). lra. }
  assert (K3 : 19 * u53 * m <= / 100 * m) by (apply Rmult_le_compat_r; lra).
  assert (NQ : Rabs (R_of N / D) <= 2 * m).
  { replace (R_of N / D) with ((R_of N / D - r) + r) by ring. eapply Rle_trans; [apply Rabs_triang|]. lra. }
  destruct (fdiv_R N C Fn) as (Fq & Eq).
  { fold D. lra. }
  { fold D. apply (RN_small _ 945); [lia|]. assert (bp 470 <= bp 942) by (apply bpow_le; lia). lra. }
  fold q D in Fq, Eq. split; [exact Fq|]. rewrite <- u_32, Eq.
  replace (RN (R_of N / D) - r) with ((RN (R_of N / D) - R_of N / D) + (R_of N / D - r)) by ring.
  eapply Rle_trans; [apply Rabs_triang|].
  assert (Rabs (RN (R_of N / D) - R_of N / D) <= 3 * u53 * m); [|assert (0 <= u53 * m) by (apply Rmult_le_pos; lra); lra].
  destruct M2 as [M2|M2].
  - rewrite M2 in NQ. assert (R_of N / D = 0) as -> by (pose proof (Rabs_pos (R_of N / D)); apply Rabs_eq_R0; lra).
    rewrite RN_0, Rminus_0_r, Rabs_R0, M2. lra.
  - pose proof (RN_err (R_of N / D)) as Re.
    assert (u53 * Rabs (R_of N / D) <= u53 * (2 * m)) by (apply Rmult_le_compat_l; lra).
    assert (bp (-1075) <= u53 * m); [|lra].
    apply Rle_trans with (u53 * bp (-388)); [rewrite <- bpow_plus; apply bpow_le; lia|]. apply Rmult_le_compat_l; lra.
Qed.

(** ** The in-centre *)
Theorem C61_in_centre_error : forall hypot a b c, hypot_accurate hypot -> mid_pt a -> mid_pt b -> mid_pt c ->
  ~ (rpt a = rpt b /\ rpt b = rpt c) ->
  let r := tri_in_centre hypot a b c in let i := g_in_centre R NR (rpt a) (rpt b) (rpt c) in
  fis_finite (cx r) = true /\ fis_finite (cy r) = true /\
  Rabs (R_of (cx r) - px i) <= bp (-48) * largest (R_of (cx a)) (R_of (cx b)) (R_of (cx c)) /\
  Rabs (R_of (cy r) - py i) <= bp (-48) * largest (R_of (cy a)) (R_of (cy b)) (R_of (cy c)).
Proof.
  intros hypot a b c Hh Ma Mb Mc N r i.
  destruct (side_ap hypot b c Hh Mb Mc) as (A0 & P0 & Z0). destruct (side_ap hypot a c Hh Ma Mc) as (A1 & P1 & Z1).
  destruct (side_ap hypot a b Hh Ma Mb) as (A2 & P2 & Z2).
  assert (0 < dist (rpt b) (rpt c) + dist (rpt a) (rpt c) + dist (rpt a) (rpt b)) as Pc.
  { destruct (Req_dec (dist (rpt a) (rpt b)) 0) as [K|K]; [|lra]. destruct (Req_dec (dist (rpt b) (rpt c)) 0) as [K'|K']; [|lra].
    exfalso. apply N. apply dist_0 in K, K'. now split. }
  destruct Ma as (Ax & Ay), Mb as (Bx & By), Mc as (Cx & Cy).
  destruct (mean_f _ _ _ _ _ _ _ _ _ A0 A1 A2 P0 P1 P2 Z0 Z1 Z2 Pc Ax Bx Cx) as (F1 & E1).
  destruct (mean_f _ _ _ _ _ _ _ _ _ A0 A1 A2 P0 P1 P2 Z0 Z1 Z2 Pc Ay By Cy) as (F2 & E2).
  split; [exact F1|]. split; [exact F2|]. split; assumption.
Qed.

(** ** The bisector of an angle *)
Theorem C61_angle_bisector_error : forall hypot a b c, hypot_accurate hypot -> mid_pt a -> mid_pt b -> mid_pt c ->
  ~ (rpt a = rpt b /\ rpt b = rpt c) ->
  let r := tri_angle_bisector hypot a b c in let s := g_angle_bisector R NR (rpt a) (rpt b) (rpt c) in
  let m x y := Rmax (Rabs (R_of x)) (Rabs (R_of y)) in
  fis_finite (cx r) = true /\ fis_finite (cy r) = true /\
  Rabs (R_of (cx r) - px s) <= bp (-47) * m (cx a) (cx c) /\ Rabs (R_of (cy r) - py s) <= bp (-47) * m (cy a) (cy c).
Proof.
  intros hypot a b c Hh Ma Mb Mc N r s m.
  destruct (side_ap hypot b a Hh Mb Ma) as (A0 & P0 & Z0). destruct (side_ap hypot b c Hh Mb Mc) as (A2 & P2 & Z2).
  assert (0 < dist (rpt b) (rpt a) + dist (rpt b) (rpt c)) as Pc.
  { destruct (Req_dec (dist (rpt b) (rpt a)) 0) as [K|K]; [|lra]. destruct (Req_dec (dist (rpt b) (rpt c)) 0) as [K'|K']; [|lra].
    exfalso. apply N. apply dist_0 in K, K'. now split. }
  pose proof bp_3 as B3. assert (bp 474 <= bp 1000) as B4 by (apply bpow_le; lia).
  set (l0 := g_distance f64 (NF hypot) (pf b) (pf a)) in *. set (l2 := g_distance f64 (NF hypot) (pf b) (pf c)) in *.
  set (L0 := dist (rpt b) (rpt a)) in *. set (L2 := dist (rpt b) (rpt c)) in *.
  assert (ap 6 (fadd l0 l2) (L0 + L2)) as S1 by (replace 6 with (4 + 2) by ring; apply ap_addp; try assumption; lra).
  set (f := L0 / (L0 + L2)). assert (Hf : 0 <= f <= 1).
  { unfold f. split; [apply Rmult_le_pos; [lra|apply Rlt_le, Rinv_0_lt_compat, Pc]|].
    apply Rmult_le_reg_r with (L0 + L2); [exact Pc|]. unfold Rdiv. rewrite Rmult_assoc, Rinv_l; lra. }
  assert (ap 12 (fdiv l0 (fadd l0 l2)) f) as A.
  { replace 12 with (4 + 6 + 2) by ring. apply ap_div; try assumption; try lra.
    destruct Z0 as [Z0|Z0]; [now left|right]. fold f. rewrite Rabs_pos_eq by lra. split; [|apply Rle_trans with (bp 0); [cbn; lra|apply bpow_le; lia]].
    apply Rmult_le_reg_r with (L0 + L2); [exact Pc|]. unfold f, Rdiv. rewrite Rmult_assoc, Rinv_l, Rmult_1_r by lra.
    apply Rle_trans with (bp (-1000) * bp 474); [apply Rmult_le_compat_l; [apply bpow_ge_0|lra]|].
    rewrite <- bpow_plus. eapply Rle_trans; [|exact Z0]. apply bpow_le. lia. }
  set (g := fdiv l0 (fadd l0 l2)) in *.
  assert (G : forall x y, mid x -> mid y -> let z := fadd x (fmul g (fsub y x)) in
    fis_finite z = true /\ Rabs (R_of z - (R_of x + f * (R_of y - R_of x))) <= bp (-47) * m x y).
  { intros x y X Y z. destruct (mid_diff y x Y X) as (B1 & R1 & _). destruct A as (Fg & Eg). rewrite (Rabs_pos_eq f) in Eg by lra.
    pose proof u53_pos as U. pose proof u53_tiny as U1.
    assert (M1 : Rabs (R_of x) <= m x y) by apply Rmax_l. assert (M2 : Rabs (R_of y) <= m x y) by apply Rmax_r.
    assert (M3 : m x y <= bp 470). { destruct (mid_bf x X) as (_ & Bx), (mid_bf y Y) as (_ & By). unfold m. apply Rmax_lub; assumption. }
    assert (M4 : (R_of x = 0 /\ R_of y = 0) \/ bp (-388) <= m x y).
    { destruct (mid_range x X) as [Zx|Lx]; [|right; lra]. destruct (mid_range y Y) as [Zy|Ly]; [|right; lra]. now left. }
    set (M := m x y) in *. clearbody M. assert (M0 : 0 <= M) by (pose proof (Rabs_pos (R_of x)); lra).
    set (d := R_of y - R_of x) in *. unfold ru in R1. set (d' := R_of (fsub y x)) in *.
    assert (Bd : Rabs d <= 2 * M). { unfold d, Rminus. eapply Rle_trans; [apply Rabs_triang|]. rewrite Rabs_Ropp. lra. }
    assert (Bd' : Rabs (d' - d) <= 2 * u53 * M) by (assert (u53 * Rabs d <= u53 * (2 * M)) by (apply Rmult_le_compat_l; lra); lra).
    assert (K1 : 2 * u53 * M <= / 1000 * M) by (apply Rmult_le_compat_r; lra).
    assert (Cd' : Rabs d' <= 2001 / 1000 * M). { replace d' with ((d' - d) + d) by ring. eapply Rle_trans; [apply Rabs_triang|]. lra. }
    assert (Eg' : Rabs (R_of g - f) <= 12 * u53). { assert (12 * u53 * f <= 12 * u53 * 1) by (apply Rmult_le_compat_l; lra). lra. }
    assert (EP : Rabs (R_of g * d' - f * d) <= 27 * u53 * M).
    { replace (R_of g * d' - f * d) with ((R_of g - f) * d' + f * (d' - d)) by ring. eapply Rle_trans; [apply Rabs_triang|]. rewrite !Rabs_mult.
      assert (Rabs (R_of g - f) * Rabs d' <= 12 * u53 * (2001 / 1000 * M)) by (apply Rmult_le_compat; try apply Rabs_pos; assumption).
      assert (Rabs f * Rabs (d' - d) <= 1 * (2 * u53 * M)). { apply Rmult_le_compat; try apply Rabs_pos; [rewrite Rabs_pos_eq; lra|assumption]. }
      assert (0 <= u53 * M) by (apply Rmult_le_pos; lra). lra. }
    assert (K2 : 27 * u53 * M <= / 1000 * M) by (apply Rmult_le_compat_r; lra).
    assert (Bf : Rabs (f * d) <= 2 * M).
    { rewrite Rabs_mult, Rabs_pos_eq by lra. assert (f * Rabs d <= 1 * Rabs d) by (apply Rmult_le_compat_r; [apply Rabs_pos|lra]). lra. }
    assert (Bp : Rabs (R_of g * d') <= 2001 / 1000 * M). { replace (R_of g * d') with ((R_of g * d' - f * d) + f * d) by ring. eapply Rle_trans; [apply Rabs_triang|]. lra. }
    assert (B480 : 8 * bp 470 = bp 473) by (change 473%Z with (470 + 1 + 1 + 1)%Z; rewrite !bp_S; lra).
    destruct (fmul_R g (fsub y x) Fg (proj1 B1)) as (Fp & Ep). { fold d'. apply (RN_small _ 473); [lia|]. lra. }
    fold d' in Ep. set (p := fmul g (fsub y x)) in *.
    assert (Rp : Rabs (R_of p - R_of g * d') <= 3 * u53 * M).
    { rewrite Ep. destruct M4 as [(Zx & Zy)|M4].
      - assert (d' = 0) as ->. { unfold d in R1. rewrite Zx, Zy, Rminus_0_r, Rabs_R0, Rmult_0_r, Rminus_0_r in R1. apply Rabs_eq_R0. pose proof (Rabs_pos d'). lra. }
        rewrite Rmult_0_r, RN_0, Rminus_0_r, Rabs_R0. apply Rmult_le_pos; lra.
      - pose proof (RN_err (R_of g * d')) as Re. assert (u53 * Rabs (R_of g * d') <= u53 * (2001 / 1000 * M)) by (apply Rmult_le_compat_l; lra).
        assert (bp (-1075) <= u53 * M / 2).
        { apply Rle_trans with (u53 * bp (-388) / 2); [|assert (u53 * bp (-388) <= u53 * M) by (apply Rmult_le_compat_l; lra); lra].
          replace (u53 * bp (-388) / 2) with (bp (-442)). apply bpow_le; lia. rewrite <- bpow_plus. change (-53 + -388)%Z with (-442 + 1)%Z. rewrite bp_S. lra. }
        assert (0 <= u53 * M) by (apply Rmult_le_pos; lra). lra. }
    assert (K3 : 3 * u53 * M <= / 1000 * M) by (apply Rmult_le_compat_r; lra).
    assert (Ex : Rabs (R_of x + R_of p - (R_of x + f * d)) <= 30 * u53 * M).
    { replace (R_of x + R_of p - (R_of x + f * d)) with ((R_of p - R_of g * d') + (R_of g * d' - f * d)) by ring. eapply Rle_trans; [apply Rabs_triang|]. lra. }
    assert (Bx : Rabs (R_of x + R_of p) <= 4 * M).
    { replace (R_of x + R_of p) with (R_of x + ((R_of p - R_of g * d') + R_of g * d')) by ring. eapply Rle_trans; [apply Rabs_triang|].
      eapply Rle_trans; [apply Rplus_le_compat_l, Rabs_triang|]. lra. }
    destruct (fadd_R x p (proj1 X) Fp) as (Fz & Ez). { apply (RN_small _ 473); [lia|]. lra. }
    fold z in Fz, Ez. split; [exact Fz|]. rewrite Ez, <- u_64.
    pose proof (RN_sum_err (R_of x) (R_of p) (format_R _) (format_R _)) as Re.
    assert (u53 * Rabs (R_of x + R_of p) <= u53 * (4 * M)) by (apply Rmult_le_compat_l; lra).
    replace (RN (R_of x + R_of p) - (R_of x + f * d)) with ((RN (R_of x + R_of p) - (R_of x + R_of p)) + (R_of x + R_of p - (R_of x + f * d))) by ring.
    eapply Rle_trans; [apply Rabs_triang|]. assert (0 <= u53 * M) by (apply Rmult_le_pos; lra). lra. }
  destruct Ma as (Ax & Ay), Mc as (Cx & Cy). destruct (G _ _ Ax Cx) as (F1 & E1). destruct (G _ _ Ay Cy) as (F2 & E2).
  split; [exact F1|]. split; [exact F2|]. split; assumption.
Qed.

(** ** The circumradius *)
Lemma ex_range e k x r : ex e k x r -> (0 <= k)%Z -> r <> 0 -> bp e <= Rabs r <= bp (e + k).
Proof.
  intros (_ & _ & n & Hn & ->) Hk Hr. pose proof (bpow_gt_0 radix2 e) as B. rewrite Rabs_mult, (Rabs_pos_eq (bp e)) by lra.
  rewrite <- abs_IZR. assert (n <> 0)%Z by (intros ->; apply Hr; ring). split.
  - assert (1 <= IZR (Z.abs n)) by (apply IZR_le; lia). nra.
  - rewrite bpow_plus, Rmult_comm. apply Rmult_le_compat_l; [lra|]. rewrite <- (IZR_Zpower radix2 k Hk). apply IZR_le. exact Hn.
Qed.
Lemma grid_dist e a b : (-400 <= e <= 400)%Z -> small_pt e a -> small_pt e b -> rpt a <> rpt b ->
  bp e <= dist (rpt a) (rpt b) <= bp (e + 26).
Proof.
  intros He Sa Sb N. destruct (small_ptx e a Sa) as (Ax & Ay), (small_ptx e b Sb) as (Bx & By).
  pose proof (d_ex e He _ _ _ _ Ax Bx) as Dx. pose proof (d_ex e He _ _ _ _ Ay By) as Dy. cbn [rpt pf px py] in Dx, Dy.
  set (x := R_of (cx a) - R_of (cx b)) in *. set (y := R_of (cy a) - R_of (cy b)) in *.
  assert (forall z, z * z = Rabs z * Rabs z) as Q by (intros z; rewrite <- Rabs_mult; symmetry; apply Rabs_pos_eq; nra).
  assert (E : dist (rpt a) (rpt b) * dist (rpt a) (rpt b) = x * x + y * y) by (rewrite dist_sq'; reflexivity).
  pose proof (bpow_gt_0 radix2 e) as B0. pose proof (bpow_gt_0 radix2 (e + 25)) as B25.
  assert (B26 : bp (e + 26) = 2 * bp (e + 25)) by (replace (e + 26)%Z with (e + 25 + 1)%Z by lia; apply bp_S).
  assert (Up : forall z w, ex e 25 w z -> z * z <= bp (e + 25) * bp (e + 25)).
  { intros z w Z. destruct (Req_dec z 0) as [->|NZ]; [nra|]. destruct (ex_range _ _ _ _ Z ltac:(lia) NZ) as (_ & U). rewrite Q.
    apply Rmult_le_compat; try apply Rabs_pos; assumption. }
  pose proof (Up _ _ Dx) as Ux. pose proof (Up _ _ Dy) as Uy. split.
  - apply sq_le; [apply dist_pos|]. rewrite E.
    destruct (Req_dec x 0) as [Zx|Zx].
    + assert (y <> 0) as Zy by (intros Zy; apply N; unfold rpt, x, y in *; f_equal; lra).
      destruct (ex_range _ _ _ _ Dy ltac:(lia) Zy) as (L & _). rewrite (Q y). assert (bp e * bp e <= Rabs y * Rabs y) by (apply Rmult_le_compat; lra). nra.
    + destruct (ex_range _ _ _ _ Dx ltac:(lia) Zx) as (L & _). rewrite (Q x). assert (bp e * bp e <= Rabs x * Rabs x) by (apply Rmult_le_compat; lra). nra.
  - apply sq_le; [apply bpow_ge_0|]. rewrite E, B26. nra.
Qed.
Lemma signed_ex hypot e a b c : (-400 <= e <= 400)%Z -> small_pt e a -> small_pt e b -> small_pt e c ->
  ex (e + e - 1) 51 (tri_signed_area hypot a b c) (- side (rpt a) (rpt b) (rpt c) / 2).
Proof.
  intros He Sa Sb Sc.
  destruct (small_ptx e a Sa) as (Ax & Ay), (small_ptx e b Sb) as (Bx & By), (small_ptx e c Sc) as (Cx & Cy).
  pose proof (ex_sub (e + e) 50 _ _ _ _ ltac:(lia) ltac:(lia) (m_ex e He _ _ _ _ (d_ex e He _ _ _ _ Cx Ax) (d_ex e He _ _ _ _ By Ay))
    (m_ex e He _ _ _ _ (d_ex e He _ _ _ _ Bx Ax) (d_ex e He _ _ _ _ Cy Ay))) as D.
  apply half_exact in D; try lia.
  replace (- side (rpt a) (rpt b) (rpt c)) with
      ((px (rpt c) - px (rpt a)) * (py (rpt b) - py (rpt a)) - (px (rpt b) - px (rpt a)) * (py (rpt c) - py (rpt a))) by (unfold side; ring).
  exact D.
Qed.
(** On a grid: infinite for vertices on a line, and otherwise accurate. *)
Theorem C61_circumradius : forall hypot e a b c, hypot_accurate hypot -> (-300 <= e <= 300)%Z -> small_pt e a -> small_pt e b -> small_pt e c ->
  let r := tri_circumradius hypot a b c in
  (~ proper_triangle (rpt a) (rpt b) (rpt c) -> r = finf) /\
  (forall o, proper_triangle (rpt a) (rpt b) (rpt c) -> dist o (rpt a) = dist o (rpt b) -> dist o (rpt b) = dist o (rpt c) ->
   fis_finite r = true /\ Rabs (R_of r - dist o (rpt a)) <= bp (-48) * dist o (rpt a)).
Proof.
  intros hypot e a b c Hh He Sa Sb Sc r.
  destruct (C61_area hypot e a b c ltac:(lia) Sa Sb Sc) as (_ & EA & _ & Z).
  pose proof (signed_ex hypot e a b c ltac:(lia) Sa Sb Sc) as SE.
  assert (FA : fis_finite (tri_area hypot a b c) = true).
  { unfold tri_area, g_area. cbn [NF nabs]. rewrite fabs_fin. exact (ex_fin _ _ _ _ SE). }
  unfold r, tri_circumradius, g_circumradius. cbn [NF neq nofZ nmul ndiv].
  change (g_area f64 (NF hypot) (pf a) (pf b) (pf c)) with (tri_area hypot a b c). change (fofZ 0) with f0.
  split; [intros P; apply Z in P; now rewrite P|].
  intros o P O1 O2.
  assert (feqb (tri_area hypot a b c) f0 = false) as ->.
  { destruct (feqb (tri_area hypot a b c) f0); [|reflexivity]. exfalso. now apply (proj1 Z eq_refl). }
  destruct (C61_circumcircle_exact _ _ _ P) as ((Q1 & Q2) & Un & CR). pose proof (Un o O1 O2) as ->.
  pose proof P as NS. apply proper_side in NS.
  destruct (side_neq _ _ _ NS) as (N1 & N2 & N3).
  assert (He' : (-400 <= e <= 400)%Z) by lia.
  pose proof (grid_dist e a b He' Sa Sb N1) as (L1 & U1). pose proof (grid_dist e b c He' Sb Sc N2) as (L2 & U2). pose proof (grid_dist e c a He' Sc Sa N3) as (L3 & U3).
  pose proof (dist_ap hypot Hh e He' _ _ _ _ (small_ptx e a Sa) (small_ptx e b Sb)) as A1.
  pose proof (dist_ap hypot Hh e He' _ _ _ _ (small_ptx e b Sb) (small_ptx e c Sc)) as A2.
  pose proof (dist_ap hypot Hh e He' _ _ _ _ (small_ptx e c Sc) (small_ptx e a Sa)) as A3.
  set (x := dist (rpt a) (rpt b)) in *. set (y := dist (rpt b) (rpt c)) in *. set (z := dist (rpt c) (rpt a)) in *.
  pose proof (bpow_gt_0 radix2 e) as Be.
  assert (R2 : bp (e + e) <= x * y <= bp (e + e + 52)).
  { split; [rewrite bpow_plus; apply Rmult_le_compat; lra|]. replace (e + e + 52)%Z with (e + 26 + (e + 26))%Z by lia. rewrite (bpow_plus _ (e + 26)). apply Rmult_le_compat; lra. }
  pose proof (bpow_gt_0 radix2 (e + e)) as Be2.
  assert (R3 : bp (e + e + e) <= x * y * z <= bp (e + e + e + 78)).
  { split; [rewrite bpow_plus; apply Rmult_le_compat; lra|]. replace (e + e + e + 78)%Z with (e + e + 52 + (e + 26))%Z by lia. rewrite (bpow_plus _ (e + e + 52)). apply Rmult_le_compat; lra. }
  assert (IN : forall k v, (-1000 <= k)%Z -> (k + 100 <= 1000)%Z -> bp k <= v <= bp (k + 100) -> v = 0 \/ bp (-1000) <= Rabs v <= bp 1000).
  { intros k v K1 K2 (V1 & V2). right. pose proof (bpow_gt_0 radix2 k). rewrite Rabs_pos_eq by lra.
    split; [eapply Rle_trans; [|exact V1]; apply bpow_le; lia|eapply Rle_trans; [exact V2|apply bpow_le; lia]]. }
  assert (W : forall k l v, (k <= l)%Z -> bp (k + 50) <= v -> bp k <= v).
  { intros k l v _ H. eapply Rle_trans; [|exact H]. apply bpow_le. lia. }
  assert (M1 : ap 10 (fmul (g_distance f64 (NF hypot) (pf a) (pf b)) (g_distance f64 (NF hypot) (pf b) (pf c))) (x * y)).
  { replace 10 with (4 + 4 + 2) by ring. apply ap_mul; try lra; try assumption.
    apply (IN (e + e)%Z); try lia. split; [apply R2|]. eapply Rle_trans; [apply R2|]. apply bpow_le. lia. }
  assert (M2 : ap 16 (fmul (fmul (g_distance f64 (NF hypot) (pf a) (pf b)) (g_distance f64 (NF hypot) (pf b) (pf c))) (g_distance f64 (NF hypot) (pf c) (pf a))) (x * y * z)).
  { replace 16 with (10 + 4 + 2) by ring. apply ap_mul; try lra; try assumption.
    apply (IN (e + e + e)%Z); try lia. split; [apply R3|]. eapply Rle_trans; [apply R3|]. apply bpow_le. lia. }
  set (S := Rabs (side (rpt a) (rpt b) (rpt c))) in *.
  destruct (ex_range _ _ _ _ SE ltac:(lia)) as (SL & SU). { intros K. apply NS. lra. }
  assert (ES : Rabs (- side (rpt a) (rpt b) (rpt c) / 2) = S / 2).
  { unfold Rdiv. rewrite Rabs_mult, Rabs_Ropp, (Rabs_pos_eq (/ 2)) by lra. reflexivity. }
  rewrite ES in SL, SU.
  assert (B4 : forall k, bp (k + 2) = 4 * bp k) by (intros k; replace (k + 2)%Z with (k + 1 + 1)%Z by lia; rewrite !bp_S; lra).
  assert (RA : bp (e + e + 1) <= 4 * (S / 2) <= bp (e + e + 52)).
  { replace (e + e + 1)%Z with (e + e - 1 + 2)%Z by lia. replace (e + e + 52)%Z with (e + e - 1 + 51 + 2)%Z by lia. rewrite !B4. lra. }
  assert (M3 : ap 2 (fmul (fofZ 4) (tri_area hypot a b c)) (4 * (S / 2))).
  { replace 2 with (0 + 0 + 2) at 1 by ring. apply ap_mul; try lra.
    - apply (ap_ex 0 0 3); [lra|]. apply (ex_ofZ 3 4); lia.
    - split; [exact FA|]. rewrite EA, Rminus_eq_0, Rabs_R0. lra.
    - apply (IN (e + e)%Z); try lia. split; [eapply Rle_trans; [|apply RA]; apply bpow_le; lia|]. eapply Rle_trans; [apply RA|]. apply bpow_le. lia. }
  assert (EQ : dist (g_circumcentre R NR (rpt a) (rpt b) (rpt c)) (rpt a) = x * y * z / (4 * (S / 2))).
  { rewrite Q1. unfold g_circumradius in CR. rewrite area_side in CR. cbn [NR neq nofZ nmul ndiv] in CR. fold S in CR.
    destruct (Req_bool (S / 2) 0); [discriminate|]. injection CR as CR. symmetry. exact CR. }
  pose proof (bpow_gt_0 radix2 (e + e + 1)) as Be3.
  assert (RQ : bp (e - 52) <= x * y * z / (4 * (S / 2)) <= bp (e + 77)).
  { split; (apply Rmult_le_reg_r with (4 * (S / 2)); [lra|]); replace (x * y * z / (4 * (S / 2)) * (4 * (S / 2))) with (x * y * z) by (field; lra).
    - apply Rle_trans with (bp (e - 52) * bp (e + e + 52)); [apply Rmult_le_compat_l; [apply bpow_ge_0|apply RA]|].
      rewrite <- bpow_plus. eapply Rle_trans; [|apply R3]. apply bpow_le. lia.
    - apply Rle_trans with (bp (e + 77) * bp (e + e + 1)); [|apply Rmult_le_compat_l; [apply bpow_ge_0|apply RA]].
      rewrite <- bpow_plus. eapply Rle_trans; [apply R3|]. apply bpow_le. lia. }
  pose proof (bpow_gt_0 radix2 (e - 52)) as Be4.
  assert (M4 : ap 20 (fdiv (fmul (fmul (g_distance f64 (NF hypot) (pf a) (pf b)) (g_distance f64 (NF hypot) (pf b) (pf c))) (g_distance f64 (NF hypot) (pf c) (pf a))) (fmul (fofZ 4) (tri_area hypot a b c))) (x * y * z / (4 * (S / 2)))).
  { replace 20 with (16 + 2 + 2) by ring. apply ap_div; try lra; try assumption. right. rewrite Rabs_pos_eq by lra.
    split; [eapply Rle_trans; [|apply RQ]; apply bpow_le; lia|eapply Rle_trans; [apply RQ|apply bpow_le; lia]]. }
  rewrite EQ. destruct M4 as (F4 & E4). split; [exact F4|]. rewrite (Rabs_pos_eq (x * y * z / (4 * (S / 2)))) in E4 by lra.
  rewrite <- u_32. eapply Rle_trans; [exact E4|]. apply Rmult_le_compat_r; [lra|]. pose proof u53_pos. lra.
Qed.

(** ** The perpendicular bisector *)
(** On a grid its three numbers are exact, so that it is the line of the points
    equally far from both. *)
Theorem C61_bisector : forall hypot e a b, (-400 <= e <= 400)%Z -> grid_pt e 20 a -> grid_pt e 20 b ->
  let h := tri_bisector hypot a b in
  (R_of (hx h), R_of (hy h), R_of (hw h)) = g_bisector R NR (rpt a) (rpt b) /\
  (rpt a <> rpt b -> forall q, R_of (hx h) * px q + R_of (hy h) * py q + R_of (hw h) = 0 <-> dist q (rpt a) = dist q (rpt b)).
Proof.
  intros hypot e a b He Ga Gb h.
  assert (EE : (R_of (hx h), R_of (hy h), R_of (hw h)) = g_bisector R NR (rpt a) (rpt b)).
  { destruct (grid_ptk e 20 a Ga) as (Ax & Ay), (grid_ptk e 20 b Gb) as (Bx & By).
    assert (Up : forall k x r, (0 <= k <= 50)%Z -> ex e k x r -> ex (e - 1) (k + 1) x r).
    { intros k x r Hk (F & E & n & Hn & G). split; [exact F|]. split; [exact E|]. exists (2 * n)%Z.
      replace (k + 1)%Z with (Z.succ k) by lia. rewrite Z.pow_succ_r by lia. split; [lia|]. rewrite G, mult_IZR.
      replace e with (e - 1 + 1)%Z at 1 by lia. rewrite bp_S. ring. }
    pose proof (ex_sub e 20 _ _ _ _ ltac:(lia) ltac:(lia) Bx Ax) as dx. pose proof (ex_sub e 20 _ _ _ _ ltac:(lia) ltac:(lia) By Ay) as dy. cbn [Z.add Pos.add Pos.succ] in dx, dy.
    pose proof (half_exact e 21 _ _ ltac:(lia) ltac:(lia) dx) as hdx. pose proof (half_exact e 21 _ _ ltac:(lia) ltac:(lia) dy) as hdy.
    pose proof (Up 20%Z _ _ ltac:(lia) Ax) as Ax'. pose proof (Up 20%Z _ _ ltac:(lia) Ay) as Ay'. cbn [Z.add Pos.add Pos.succ] in Ax', Ay'.
    pose proof (ex_add (e - 1) 21 _ _ _ _ ltac:(lia) ltac:(lia) Ax' hdx) as x1. pose proof (ex_add (e - 1) 21 _ _ _ _ ltac:(lia) ltac:(lia) Ay' hdy) as y1.
    pose proof (ex_weak e 20 21 _ _ ltac:(lia) Ax) as Ax21. pose proof (ex_weak e 20 21 _ _ ltac:(lia) Ay) as Ay21.
    pose proof (Up 22%Z _ _ ltac:(lia) (ex_sub e 21 _ _ _ _ ltac:(lia) ltac:(lia) Ax21 dy)) as ux. pose proof (Up 22%Z _ _ ltac:(lia) (ex_add e 21 _ _ _ _ ltac:(lia) ltac:(lia) Ay21 dx)) as uy.
    cbn [Z.add Pos.add Pos.succ] in ux, uy, x1, y1.
    pose proof (ex_add (e - 1) 23 _ _ _ _ ltac:(lia) ltac:(lia) ux (ex_weak _ 21 23 _ _ ltac:(lia) hdx)) as x2.
    pose proof (ex_add (e - 1) 23 _ _ _ _ ltac:(lia) ltac:(lia) uy (ex_weak _ 21 23 _ _ ltac:(lia) hdy)) as y2. cbn [Z.add Pos.add Pos.succ] in x2, y2.
    pose proof (ex_ofZ 0 1 ltac:(lia) ltac:(lia)) as one.
    apply (ex_weak _ 22 24 _ _ ltac:(lia)) in x1. apply (ex_weak _ 22 24 _ _ ltac:(lia)) in y1.
    pose proof (fun x r (X : ex (e - 1) 24 x r) => ex_mul (e - 1) 0 24 0 _ _ _ _ ltac:(lia) ltac:(lia) ltac:(lia) ltac:(lia) X one) as one_r.
    pose proof (ex_sub (e - 1 + 0) (24 + 0) _ _ _ _ ltac:(lia) ltac:(lia) (one_r _ _ y1) (one_r _ _ y2)) as H1.
    pose proof (ex_sub (e - 1 + 0) (24 + 0) _ _ _ _ ltac:(lia) ltac:(lia) (one_r _ _ x2) (one_r _ _ x1)) as H2.
    pose proof (ex_mul (e - 1) (e - 1) 24 24 _ _ _ _ ltac:(lia) ltac:(lia) ltac:(lia) ltac:(lia) x1 y2) as m1.
    pose proof (ex_mul (e - 1) (e - 1) 24 24 _ _ _ _ ltac:(lia) ltac:(lia) ltac:(lia) ltac:(lia) x2 y1) as m2.
    pose proof (ex_sub (e - 1 + (e - 1)) (24 + 24) _ _ _ _ ltac:(lia) ltac:(lia) m1 m2) as H3.
    unfold g_bisector. cbn [NR nadd nsub nmul ndiv nofZ].
    f_equal; [f_equal; [exact (ex_R _ _ _ _ H1)|exact (ex_R _ _ _ _ H2)]|exact (ex_R _ _ _ _ H3)]. }
  split; [exact EE|]. intros N q. pose proof (C61_bisector_exact (rpt a) (rpt b) q N) as K. rewrite <- EE in K. apply K.
Qed.

(** ** The area in space *)
Theorem C61_area_3d : forall hypot e a b c, (-200 <= e <= 200)%Z -> small_pt3 e a -> small_pt3 e b -> small_pt3 e c ->
  let A := g_area_3d R NR (rpt a) (rpt b) (rpt c) (R_of (cz a)) (R_of (cz b)) (R_of (cz c)) in
  fis_finite (tri_area_3d hypot a b c) = true /\ Rabs (R_of (tri_area_3d hypot a b c) - A) <= bp (-49) * A.
Proof.
  intros hypot e a b c He Sa Sb Sc A.
  destruct (small3 e a Sa) as (Ax & Ay & Az), (small3 e b Sb) as (Bx & By & Bz), (small3 e c Sc) as (Cx & Cy & Cz).
  assert (He' : (-400 <= e <= 400)%Z) by lia.
  pose proof (d_ex e He' _ _ _ _ Bx Ax) as ux. pose proof (d_ex e He' _ _ _ _ By Ay) as uy. pose proof (d_ex e He' _ _ _ _ Bz Az) as uz.
  pose proof (d_ex e He' _ _ _ _ Cx Ax) as vx. pose proof (d_ex e He' _ _ _ _ Cy Ay) as vy. pose proof (d_ex e He' _ _ _ _ Cz Az) as vz.
  assert (Cr : forall p q r s p' q' r' s', ex e 25 p p' -> ex e 25 q q' -> ex e 25 r r' -> ex e 25 s s' ->
    ex (e + e) 51 (fsub (fmul p q) (fmul r s)) (p' * q' - r' * s')).
  { intros p q r s p' q' r' s' P Q R' S. apply (ex_sub (e + e) 50); try lia; now apply m_ex. }
  pose proof (Cr _ _ _ _ _ _ _ _ uy vz uz vy) as kx. pose proof (Cr _ _ _ _ _ _ _ _ uz vx ux vz) as ky. pose proof (Cr _ _ _ _ _ _ _ _ ux vy uy vx) as kz.
  assert (Sq : forall x r, ex (e + e) 51 x r -> ap 2 (fmul x x) (r * r) /\ 0 <= r * r <= bp (e + e + e + e + 102) /\ (r * r = 0 \/ bp (e + e + e + e) <= r * r)).
  { intros x r X. assert (r * r = 0 \/ bp (e + e + e + e) <= r * r <= bp (e + e + e + e + 102)) as D.
    { destruct (Req_dec r 0) as [->|N]; [left; ring|right]. destruct (ex_range _ _ _ _ X ltac:(lia) N) as (L & U).
      replace (r * r) with (Rabs r * Rabs r) by (rewrite <- Rabs_mult; apply Rabs_pos_eq; nra).
      replace (e + e + e + e + 102)%Z with (e + e + 51 + (e + e + 51))%Z by lia. replace (e + e + e + e)%Z with (e + e + (e + e))%Z by lia.
      rewrite (bpow_plus _ (e + e + 51)), (bpow_plus _ (e + e) (e + e)). pose proof (bpow_gt_0 radix2 (e + e)). split; apply Rmult_le_compat; try lra; apply Rabs_pos. }
    split; [|split].
    - replace 2 with (0 + 0 + 2) by ring. apply ap_mul; try lra; try (apply (ap_ex 0 _ _ _ _ (Rle_refl 0) X)).
      destruct D as [D|(D1 & D2)]; [now left|right]. rewrite Rabs_pos_eq by nra.
      split; [eapply Rle_trans; [|exact D1]; apply bpow_le; lia|eapply Rle_trans; [exact D2|apply bpow_le; lia]].
    - split; [nra|]. destruct D as [->|(_ & D)]; [apply bpow_ge_0|exact D].
    - destruct D as [D|(D & _)]; auto. }
  destruct (Sq _ _ kx) as (Ap1 & P1 & Z1). destruct (Sq _ _ ky) as (Ap2 & P2 & Z2). destruct (Sq _ _ kz) as (Ap3 & P3 & Z3).
  match type of Ap1 with ap _ _ ?r => set (s1 := r) in * end. match type of Ap2 with ap _ _ ?r => set (s2 := r) in * end. match type of Ap3 with ap _ _ ?r => set (s3 := r) in * end.
  assert (BU : bp (e + e + e + e + 102) + bp (e + e + e + e + 102) + bp (e + e + e + e + 102) <= bp 1000).
  { apply Rle_trans with (bp (e + e + e + e + 102 + 1 + 1)); [rewrite !bp_S; pose proof (bpow_gt_0 radix2 (e + e + e + e + 102)); lra|apply bpow_le; lia]. }
  assert (S1 := ap_addp 2 _ _ s1 s2 ltac:(lra) (proj1 P1) (proj1 P2) ltac:(lra) Ap1 Ap2).
  assert (S2 := ap_addp (2 + 2) _ _ (s1 + s2) s3 ltac:(lra) ltac:(lra) (proj1 P3) ltac:(lra) S1 (ap_weak 2 (2 + 2) _ _ ltac:(lra) Ap3)).
  assert (LO : s1 + s2 + s3 = 0 \/ bp (-1000) <= s1 + s2 + s3).
  { assert (bp (-1000) <= bp (e + e + e + e)) by (apply bpow_le; lia). destruct Z1 as [->|Z1]; [|right; lra]. destruct Z2 as [->|Z2]; [|right; lra]. destruct Z3 as [->|Z3]; [left; ring|right; lra]. }
  pose proof (ap_root (2 + 2 + 2) _ (s1 + s2 + s3) ltac:(lra) ltac:(lra) LO S2) as RT.
  set (sf := fadd (fadd _ _) _) in RT, S2.
  change (tri_area_3d hypot a b c) with (fdiv (fsqrt sf) f2).
  assert (EA : A = sqrt (s1 + s2 + s3) / 2) by reflexivity. rewrite EA. clear EA A.
  pose proof u53_pos as U. pose proof u53_tiny as U1. set (s := s1 + s2 + s3) in *.
  destruct RT as [(Fr & Er)|(Z & Fr & Er)].
  - pose proof (sqrt_pos s) as Q0. rewrite (Rabs_pos_eq _ Q0) in Er.
    set (t := sqrt s) in *. set (T := R_of (fsqrt sf)) in *.
    assert (K : (2 + 2 + 2 + 2) * u53 * t <= / 1000 * t) by (apply Rmult_le_compat_r; lra). apply Rabs_le_inv in Er.
    destruct (Req_dec t 0) as [Zt|Zt].
    { assert (T = 0) as ZT by lra. assert (fis_finite (fdiv (fsqrt sf) f2) = true /\ R_of (fdiv (fsqrt sf) f2) = 0) as (Fz & ->).
      { destruct (fdiv_R (fsqrt sf) f2 Fr) as (Fd & Ed); [rewrite R_of_f2; lra|fold T; rewrite ZT; unfold Rdiv; rewrite Rmult_0_l, RN_0, Rabs_R0; apply bpow_gt_0|].
        split; [exact Fd|]. rewrite Ed. fold T. rewrite ZT. unfold Rdiv. now rewrite Rmult_0_l, RN_0. }
      split; [exact Fz|]. rewrite Zt. unfold Rdiv. rewrite Rmult_0_l, Rminus_0_r, Rabs_R0. lra. }
    assert (Lt : bp (-500) <= t).
    { unfold t. rewrite <- (sqrt_Rsqr (bp (-500))) by apply bpow_ge_0. apply sqrt_le_1_alt. unfold Rsqr. rewrite <- bpow_plus.
      destruct LO as [LO|LO]; [exfalso; apply Zt; unfold t; rewrite LO; apply sqrt_0|exact LO]. }
    assert (Ut : t <= bp 500).
    { unfold t. rewrite <- (sqrt_Rsqr (bp 500)) by apply bpow_ge_0. apply sqrt_le_1_alt. unfold Rsqr. rewrite <- bpow_plus. change (500 + 500)%Z with 1000%Z. unfold s. lra. }
    assert (bp (-500) = 2 * bp (-501)) by (apply (bp_S (-501))). assert (bp 501 = 2 * bp 500) by (apply (bp_S 500)).
    assert (bp (-1022) <= bp (-502)) by (apply bpow_le; lia). assert (bp (-501) = 2 * bp (-502)) by (apply (bp_S (-502))).
    destruct (fdiv_R (fsqrt sf) f2 Fr) as (Fd & Ed); [rewrite R_of_f2; lra| |].
    { fold T. rewrite R_of_f2. apply (RN_small _ 501); [lia|]. apply Rabs_le. lra. }
    split; [exact Fd|]. rewrite Ed, R_of_f2. fold T. assert (0 < t) by (pose proof (bpow_gt_0 radix2 (-500)); lra).
    pose proof (RN_rel (T / 2) ltac:(right; rewrite Rabs_pos_eq; lra)) as Rr. rewrite (Rabs_pos_eq (T / 2)) in Rr by lra.
    assert (u53 * (T / 2) <= u53 * (2 * t)) by (apply Rmult_le_compat_l; lra).
    assert (bp (-49) = 16 * u53) as -> by (change (-49)%Z with (-53 + 1 + 1 + 1 + 1)%Z; rewrite !bp_S; lra).
    apply Rabs_le_inv in Rr. assert (0 <= u53 * t) by (apply Rmult_le_pos; lra). apply Rabs_le. lra.
  - destruct (fsqrt sf) as [sg|sg| |sg mm ee HH]; try discriminate.
    + split; [reflexivity|]. rewrite Z, sqrt_0. change (R_of (fdiv (B754_zero sg) f2)) with 0. unfold Rdiv. rewrite Rmult_0_l, Rminus_0_r, Rabs_R0. lra.
    + exfalso. unfold R_of in Er. cbn in Er. apply eq_0_F2R in Er. destruct sg; discriminate.
Qed.

Example C61_error_example : let a := ipt 0 0 in let b := ipt 40000001 0 in let c := ipt 7 300000007 in
  hypot_accurate hypot_nearest /\ mid_pt a /\ mid_pt b /\ mid_pt c /\ proper_triangle (rpt a) (rpt b) (rpt c) /\
  ~ (rpt a = rpt b /\ rpt b = rpt c) /\ grid_pt 0 20 (ipt 3 4) /\ rpt (ipt 3 4) <> rpt (ipt 7 6) /\
  feqb (hw (tri_bisector hypot_nearest (ipt 0 0) (ipt 4 0))) (fofZ 8) = true /\
  tri_circumradius hypot_nearest (ipt 0 0) (ipt 1 1) (ipt 5 5) = finf.
Proof.
  intros a b c. split; [exact hypot_nearest_accurate|].
  destruct (mid_ipt 0 0) as (Ma & Ra); try lia. destruct (mid_ipt 40000001 0) as (Mb & Rb); try lia. destruct (mid_ipt 7 300000007) as (Mc & Rc); try lia.
  do 3 (split; [assumption|]). unfold a, b, c. rewrite Ra, Rb, Rc.
  split; [apply proper_side; unfold side; cbn [px py]; lra|]. split; [intros (K & _); injection K; lra|].
  split; [split; [exists 3%Z|exists 4%Z]; (split; [lia|apply grid_fofZ; lia])|].
  destruct (mid_ipt 3 4) as (_ & R1); try lia. destruct (mid_ipt 7 6) as (_ & R2); try lia. rewrite R1, R2.
  split; [intros K; injection K; lra|]. split; [vm_compute; reflexivity|].
  destruct (C61_circumradius hypot_nearest 0 (ipt 0 0) (ipt 1 1) (ipt 5 5) hypot_nearest_accurate ltac:(lia) ltac:(apply ipt_small; lia) ltac:(apply ipt_small; lia) ltac:(apply ipt_small; lia)) as (H & _).
  apply H. rewrite proper_side. destruct (mid_ipt 0 0) as (_ & ->); try lia. destruct (mid_ipt 1 1) as (_ & ->); try lia. destruct (mid_ipt 5 5) as (_ & ->); try lia.
  intros K. apply K. unfold side. cbn [px py]. lra.
Qed.
