(** C62, C61, C11 and C71, continued: vectors, areas in space, tolerances and
    diameters at arbitrary doubles. *)
From Coq Require Import ZArith Bool List Reals Lia Lra Psatz.
From Flocq Require Import Core IEEE754.BinarySingleNaN.
From Verif Require Import Base F64 F64Facts F64Err Num NumLink Coordinate_model Envelope_model CoordArrays_model Orientation_spec Orientation_props Distance_model Distance_spec Distance_proofs
  Distance_float Distance_props DistanceErr_proofs DistanceErr_props Distance3D_model Distance3D_spec Distance3D_proofs Distance3D_props
  DD_spec DD_proofs DD_more DDSum_proofs SpaceErr_proofs SpaceErr_props Triangle_model Triangle_props TriangleErr_proofs Vector_model Vector_props.
Import ListNotations.
Local Open Scope R_scope.

(** ** Vectors *)
Definition midv (u : V2) : Prop := mid (vx u) /\ mid (vy u).
Definition midv3 (u : V3) : Prop := mid (wx u) /\ mid (wy u) /\ mid (wz u).
Lemma mid_low x : mid x -> R_of x = 0 \/ bp (-440) <= Rabs (R_of x).
Proof. intros (_ & _ & [Z|Z]); [now left|right]. eapply Rle_trans; [|exact Z]. apply bpow_le. lia. Qed.
Lemma norm_nrm3 x y : sqrt (x * x + y * y) = nrm3 x y 0.
Proof. unfold nrm3. now rewrite Rmult_0_r, Rplus_0_r. Qed.
Lemma norm_range x y z k : Rabs x <= bp k -> Rabs y <= bp k -> Rabs z <= bp k -> nrm3 x y z <= bp (k + 2).
Proof.
  intros X Y Z. eapply Rle_trans; [apply nrm3_sum|]. replace (k + 2)%Z with (k + 1 + 1)%Z by ring. rewrite !bp_S. pose proof (bpow_gt_0 radix2 k). lra.
Qed.
Lemma mid_0 : mid f0.
Proof. exact (proj1 (proj2 mid_third)). Qed.
Lemma hypot_mid hypot x y : hypot_accurate hypot -> mid x -> mid y ->
  ap 2 (hypot x y) (nrm3 (R_of x) (R_of y) 0).
Proof.
  intros Hh X Y. destruct (Hh x y (proj1 X) (proj1 Y)) as (F & E).
  { rewrite norm_nrm3. destruct (nrm3_low _ _ 0 _ (mid_low x X) (mid_low y Y) (or_introl eq_refl)) as [(-> & -> & _)|L].
    - left. unfold nrm3. rewrite Rmult_0_l, !Rplus_0_r. apply sqrt_0.
    - right. split; [eapply Rle_trans; [|exact L]; apply bpow_le; lia|].
      eapply Rle_trans; [apply (norm_range _ _ _ 470); [apply X|apply Y|rewrite Rabs_R0; apply bpow_ge_0]|apply bpow_le; lia]. }
  split; [exact F|]. rewrite norm_nrm3 in E. rewrite (Rabs_pos_eq _ (nrm3_pos _ _ _)). 
  assert (bp (-52) = 2 * u53) as <- by (change (-52)%Z with (-53 + 1)%Z; apply bp_S). exact E.
Qed.
Lemma unit_mid x y z X L : mid x -> mid y -> mid z -> mid X -> Rabs (R_of X) <= nrm3 (R_of x) (R_of y) (R_of z) -> 0 < nrm3 (R_of x) (R_of y) (R_of z) ->
  forall c, 0 <= c <= 20 -> ap c L (nrm3 (R_of x) (R_of y) (R_of z)) -> ap (c + 2) (fdiv X L) (R_of X / nrm3 (R_of x) (R_of y) (R_of z)).
Proof.
  intros Mx My Mz MX XL P c Hc A. set (h := nrm3 (R_of x) (R_of y) (R_of z)) in *.
  assert (h <= bp 472) as H by (apply (norm_range _ _ _ 470); [apply Mx|apply My|apply Mz]).
  replace (c + 2) with (0 + c + 2) by ring. apply ap_div; try lra.
  - split; [apply MX|]. rewrite Rminus_eq_0, Rabs_R0. lra.
  - exact A.
  - destruct MX as (_ & _ & [Z|Z]); [now left|right]. unfold Rdiv. rewrite Rabs_mult, Rabs_inv, (Rabs_pos_eq h) by lra. split.
    + apply Rmult_le_reg_r with h; [exact P|]. rewrite Rmult_assoc, Rinv_l, Rmult_1_r by lra.
      apply Rle_trans with (bp (-1000) * bp 472); [apply Rmult_le_compat_l; [apply bpow_ge_0|exact H]|]. rewrite <- bpow_plus. eapply Rle_trans; [|exact Z]. apply bpow_le. lia.
    + apply Rle_trans with 1; [|change 1 with (bp 0); apply bpow_le; lia]. apply Rmult_le_reg_r with h; [exact P|]. rewrite Rmult_assoc, Rinv_l, Rmult_1_r, Rmult_1_l by lra. exact XL.
Qed.
(** Length and distance of vectors of the plane. *)
Theorem C62_length_error : forall hypot u v, hypot_accurate hypot -> midv u -> midv v ->
  close_to (v2_length hypot u) (norm (rv u)) /\ close_to (v2_distance hypot u v) (dist (rv u) (rv v)) /\
  (R_of (v2_length hypot u) = 0 <-> rv u = mkP 0 0).
Proof.
  intros hypot u v Hh (X & Y) (X' & Y'). pose proof (hypot_mid hypot _ _ Hh X Y) as A.
  assert (norm (rv u) = nrm3 (R_of (vx u)) (R_of (vy u)) 0) as EN by apply norm_nrm3.
  split; [|split].
  - apply ap_close; [apply sqrt_pos|]. rewrite EN. apply (ap_weak 2); [lra|exact A].
  - assert (mid_pt (new_xy (vx v) (vy v))) as M1 by (split; assumption). assert (mid_pt (new_xy (vx u) (vy u))) as M2 by (split; assumption).
    destruct (dist_f hypot _ _ Hh M1 M2) as (F & E). rewrite Distance_proofs.dist_sym. split; [exact F|]. rewrite <- u_4. exact E.
  - assert (nrm3 (R_of (vx u)) (R_of (vy u)) 0 = 0 <-> rv u = mkP 0 0) as <-.
    { split.
      - intros Z. unfold rv. destruct (comp_nrm3 (R_of (vx u)) (R_of (vy u)) 0) as (A1 & A2 & _). rewrite Z in A1, A2.
        f_equal; apply Rabs_eq_R0; pose proof (Rabs_pos (R_of (vx u))); pose proof (Rabs_pos (R_of (vy u))); lra.
      - intros Z. unfold rv in Z. injection Z as -> ->. unfold nrm3. rewrite Rmult_0_l, !Rplus_0_r. apply sqrt_0. }
    pose proof (nrm3_pos (R_of (vx u)) (R_of (vy u)) 0) as P. destruct A as (_ & A). rewrite (Rabs_pos_eq _ P) in A. unfold v2_length.
    set (h := nrm3 _ _ _) in *. pose proof u53_pos as U. pose proof u53_small as U1. apply Rabs_le_inv in A. split; intros Z; [nra|rewrite Z in *; lra].
Qed.
Lemma fgtb_0 x : fis_finite x = true -> fgtb x f0 = Rlt_bool 0 (R_of x).
Proof. intros F. unfold fgtb. change (@Bltb 53 1024) with fltb. now rewrite fltb_R by (reflexivity || assumption). Qed.
Lemma ap_pos_iff c x h : 0 <= c <= 20 -> 0 <= h -> ap c x h -> 0 <= R_of x /\ (R_of x = 0 <-> h = 0).
Proof.
  intros C H (_ & E). rewrite (Rabs_pos_eq _ H) in E. apply Rabs_le_inv in E. pose proof u53_pos. pose proof u53_small.
  assert (c * u53 <= 20 * / 1024) by (apply Rmult_le_compat; lra). assert (c * u53 * h <= 20 * / 1024 * h) by (apply Rmult_le_compat_r; lra).
  split; [lra|]. split; intros Z; [rewrite Z in *; lra|rewrite Z in *; lra].
Qed.
(** A normalised vector of the plane has length 1 and the components it should. *)
Theorem C62_normalize_error : forall hypot u, hypot_accurate hypot -> midv u ->
  let w := v2_normalize hypot u in finv w /\
  (rv u <> mkP 0 0 -> Rabs (norm (rv w) - 1) <= bp (-51) /\
     Rabs (R_of (vx w) - R_of (vx u) / norm (rv u)) <= bp (-51) * Rabs (R_of (vx u) / norm (rv u)) /\
     Rabs (R_of (vy w) - R_of (vy u) / norm (rv u)) <= bp (-51) * Rabs (R_of (vy u) / norm (rv u))) /\
  (rv u = mkP 0 0 -> w = mkV2 f0 f0).
Proof.
  intros hypot u Hh Hu w. destruct (C62_length_error hypot u u Hh Hu Hu) as ((FL & _) & _ & ZL). pose proof Hu as (X & Y). pose proof (hypot_mid hypot _ _ Hh X Y) as A.
  assert (norm (rv u) = nrm3 (R_of (vx u)) (R_of (vy u)) 0) as EN by apply norm_nrm3. rewrite <- (proj1 (conj (eq_refl (R_of f0)) I)) in A at 1.
  unfold w, v2_normalize. cbv zeta. set (L := v2_length hypot u) in *. rewrite (fgtb_0 _ FL).
  pose proof (nrm3_pos (R_of (vx u)) (R_of (vy u)) (R_of f0)) as N0.
  destruct (ap_pos_iff 2 _ _ ltac:(lra) N0 A) as (L0 & LZ). change (hypot (vx u) (vy u)) with L in *.
  destruct (Req_dec (R_of L) 0) as [Z|NZ].
  { rewrite Z, Rlt_bool_false by lra. split; [split; reflexivity|]. split; [|reflexivity]. intros N. apply ZL in Z. contradiction. }
  rewrite Rlt_bool_true by lra. rewrite EN. change (nrm3 (R_of (vx u)) (R_of (vy u)) 0) with (nrm3 (R_of (vx u)) (R_of (vy u)) (R_of f0)).
  set (h := nrm3 (R_of (vx u)) (R_of (vy u)) (R_of f0)) in *. assert (0 < h) as H0 by (destruct N0 as [N0|N0]; [exact N0|exfalso; apply NZ, LZ; now symmetry]).
  destruct (comp_nrm3 (R_of (vx u)) (R_of (vy u)) (R_of f0)) as (C1 & C2 & _).
  destruct (unit_mid _ _ _ (vx u) L X Y mid_0 X C1 H0 2 ltac:(lra) A) as (F1 & E1). destruct (unit_mid _ _ _ (vy u) L X Y mid_0 Y C2 H0 2 ltac:(lra) A) as (F2 & E2).
  fold h in E1, E2. replace ((2 + 2) * u53) with (bp (-51)) in E1, E2 by (rewrite <- u_4; ring).
  split; [split; assumption|]. split; [intros _|intros Q; exfalso; apply NZ, ZL, Q]. split; [|split; assumption].
  unfold norm, rv. cbn [px py v2_div vx vy].
  pose proof (unit_sum (R_of (vx u)) (R_of (vy u)) (R_of f0)) as S. cbv zeta in S. change (sqrt (R_of (vx u) * R_of (vx u) + R_of (vy u) * R_of (vy u) + R_of f0 * R_of f0)) with h in S.
  specialize (S H0). change (R_of f0) with 0 in S.
  pose proof (norm_unit _ _ 0 _ _ (0 / h) (bp (-51)) ltac:(split; [apply bpow_ge_0|change 1 with (bp 0); apply bpow_le; lia]) S E1 E2) as U.
  rewrite Rmult_0_r, Rplus_0_r in U. apply U. unfold Rdiv. rewrite Rmult_0_l, Rminus_0_r, Rabs_R0. lra.
Qed.
(** Vectors of space. *)
Theorem C62_length3_error : forall u, midv3 u ->
  fis_finite (v3_length u) = true /\ Rabs (R_of (v3_length u) - norm3 (rv3 u)) <= bp (-50) * norm3 (rv3 u) /\
  (rv3 u = mkP3 0 0 0 -> v3_normalize u = mkV3 f0 f0 f0) /\
  (rv3 u <> mkP3 0 0 0 -> let w := v3_normalize u in finv3 w /\ Rabs (norm3 (rv3 w) - 1) <= bp (-49) /\
     Rabs (R_of (wx w) - R_of (wx u) / norm3 (rv3 u)) <= bp (-49) * Rabs (R_of (wx u) / norm3 (rv3 u)) /\
     Rabs (R_of (wy w) - R_of (wy u) / norm3 (rv3 u)) <= bp (-49) * Rabs (R_of (wy u) / norm3 (rv3 u)) /\
     Rabs (R_of (wz w) - R_of (wz u) / norm3 (rv3 u)) <= bp (-49) * Rabs (R_of (wz u) / norm3 (rv3 u))).
Proof.
  intros u (X & Y & Z). change (norm3 (rv3 u)) with (nrm3 (R_of (wx u)) (R_of (wy u)) (R_of (wz u))).
  assert (forall x, mid x -> bf 471 x /\ ru (R_of x) (R_of x)) as K.
  { intros x M. split; [apply (bf_up 470 471); [lia|now apply mid_bf]|]. unfold ru. rewrite Rminus_eq_0, Rabs_R0. apply Rmult_le_pos; [pose proof u53_pos; lra|apply Rabs_pos]. }
  destruct (K _ X) as (B1 & R1), (K _ Y) as (B2 & R2), (K _ Z) as (B3 & R3).
  pose proof (root3_rel _ _ _ _ _ _ B1 B2 B3 R1 R2 R3 (mid_low _ X) (mid_low _ Y) (mid_low _ Z)) as A. change (root3 (wx u) (wy u) (wz u)) with (v3_length u) in A.
  pose proof (nrm3_pos (R_of (wx u)) (R_of (wy u)) (R_of (wz u))) as N0. set (h := nrm3 (R_of (wx u)) (R_of (wy u)) (R_of (wz u))) in *. pose proof u53_pos as U0.
  destruct (ap_pos_iff 7 _ _ ltac:(lra) N0 A) as (L0 & LZ). pose proof A as (FL & EL). split; [exact FL|]. split.
  { rewrite (Rabs_pos_eq _ N0) in EL. eapply Rle_trans; [exact EL|]. apply Rmult_le_compat_r; [exact N0|]. rewrite <- u_8. lra. }
  assert (h = 0 <-> rv3 u = mkP3 0 0 0) as HZ.
  { destruct (comp_nrm3 (R_of (wx u)) (R_of (wy u)) (R_of (wz u))) as (A1 & A2 & A3). fold h in A1, A2, A3. split.
    - intros Q. rewrite Q in *. unfold rv3. f_equal; apply Rabs_eq_R0; apply Rle_antisym; (apply Rabs_pos || assumption).
    - intros Q. unfold rv3 in Q. injection Q as Q1 Q2 Q3. unfold h, nrm3. rewrite Q1, Q2, Q3, Rmult_0_l, !Rplus_0_r. apply sqrt_0. }
  unfold v3_normalize. cbv zeta. rewrite (fgtb_0 _ FL). split.
  { intros Q. apply HZ, LZ in Q. now rewrite Q, Rlt_bool_false by lra. }
  intros Q. assert (R_of (v3_length u) <> 0) as NZ by (intros W; apply Q, HZ, LZ, W). rewrite Rlt_bool_true by lra.
  assert (0 < h) as H0 by (destruct N0 as [N0|N0]; [exact N0|exfalso; apply NZ, LZ; now symmetry]).
  destruct (comp_nrm3 (R_of (wx u)) (R_of (wy u)) (R_of (wz u))) as (C1 & C2 & C3).
  destruct (unit_mid _ _ _ (wx u) _ X Y Z X C1 H0 7 ltac:(lra) A) as (F1 & E1). destruct (unit_mid _ _ _ (wy u) _ X Y Z Y C2 H0 7 ltac:(lra) A) as (F2 & E2).
  destruct (unit_mid _ _ _ (wz u) _ X Y Z Z C3 H0 7 ltac:(lra) A) as (F3 & E3). fold h in E1, E2, E3.
  assert (forall a b, Rabs a <= (7 + 2) * u53 * Rabs b -> Rabs a <= bp (-49) * Rabs b) as W.
  { intros a b H. eapply Rle_trans; [exact H|]. apply Rmult_le_compat_r; [apply Rabs_pos|].
    assert (bp (-49) = 16 * u53) as -> by (change (-49)%Z with (-53 + 4)%Z; rewrite bpow_plus; change (bp 4) with 16; ring). lra. }
  apply W in E1, E2, E3. unfold finv3, v3_div. cbn [wx wy wz]. split; [auto|]. split; [|auto].
  apply (norm_unit _ _ _ (R_of (wx u) / h) (R_of (wy u) / h) (R_of (wz u) / h)); try assumption; [split; [apply bpow_ge_0|change 1 with (bp 0); apply bpow_le; lia]|].
  apply unit_sum. exact H0.
Qed.
(** Scalar products. *)
Theorem C62_dot_error : forall u v w t, midv u -> midv v -> midv3 w -> midv3 t ->
  Rabs (R_of (v2_dot u v) - (R_of (vx u) * R_of (vx v) + R_of (vy u) * R_of (vy v))) <= bp (-50) * (norm (rv u) * norm (rv v)) + bp (-1073) /\
  Rabs (R_of (v3_dot w t) - scalar3 (rv3 w) (rv3 t)) <= bp (-50) * (norm3 (rv3 w) * norm3 (rv3 t)) + bp (-1073).
Proof.
  intros u v w t (X & Y) (X' & Y') (A & B & C) (A' & B' & C').
  assert (forall x, mid x -> bf 471 x /\ ru (R_of x) (R_of x)) as K.
  { intros x M. split; [apply (bf_up 470 471); [lia|now apply mid_bf]|]. unfold ru. rewrite Rminus_eq_0, Rabs_R0. apply Rmult_le_pos; [pose proof u53_pos; lra|apply Rabs_pos]. }
  destruct (K _ X) as (B1 & R1), (K _ Y) as (B2 & R2), (K _ X') as (B3 & R3), (K _ Y') as (B4 & R4), (K _ mid_0) as (B0 & R0).
  destruct (K _ A) as (C1 & S1), (K _ B) as (C2 & S2), (K _ C) as (C3 & S3), (K _ A') as (C4 & S4), (K _ B') as (C5 & S5), (K _ C') as (C6 & S6).
  assert (4 * eta = bp (-1073)) as ET by (unfold eta; change (-1073)%Z with (-1075 + 1 + 1)%Z; rewrite !bp_S; ring).
  pose proof u53_pos as U. split.
  - destruct (dot3_err _ _ _ _ _ _ _ _ _ _ _ _ B1 B2 B0 B3 B4 B0 R1 R2 R0 R3 R4 R0) as (_ & E). rewrite ET in E.
    assert (R_of (dot3f (vx u) (vy u) f0 (vx v) (vy v) f0) = R_of (v2_dot u v)) as Q.
    { unfold dot3f. destruct (bf_mul 471 471 _ _ ltac:(lia) B1 B3) as (D1 & _). destruct (bf_mul 471 471 _ _ ltac:(lia) B2 B4) as (D2 & _).
      destruct (bf_add 942 _ _ ltac:(lia) D1 D2) as (D3 & _). destruct (bf_mul 471 471 _ _ ltac:(lia) B0 B0) as (D4 & Q4). change (R_of f0) with 0 in Q4. rewrite Rmult_0_l, RN_0 in Q4.
      destruct (bf_add 943 _ _ ltac:(lia) D3 (bf_up 942 943 _ ltac:(lia) D4)) as (_ & ->). rewrite Q4, Rplus_0_r. apply RN_id, format_R. }
    rewrite Q in E. change (R_of f0) with 0 in E. rewrite Rmult_0_r, Rplus_0_r in E. eapply Rle_trans; [exact E|]. apply Rplus_le_compat_r.
    unfold norm. cbn [rv px py]. rewrite !norm_nrm3, <- u_8. apply Rmult_le_compat_r; [apply Rmult_le_pos; apply nrm3_pos|lra].
  - destruct (dot3_err _ _ _ _ _ _ _ _ _ _ _ _ C1 C2 C3 C4 C5 C6 S1 S2 S3 S4 S5 S6) as (_ & E). rewrite ET in E.
    eapply Rle_trans; [exact E|]. apply Rplus_le_compat_r. rewrite <- u_8. apply Rmult_le_compat_r; [apply Rmult_le_pos; apply nrm3_pos|lra].
Qed.

(** ** The area of a triangle in space *)
Lemma cross_err a' b' c' d' a b c d S : bf 232 a' -> bf 232 b' -> bf 232 c' -> bf 232 d' -> ru (R_of a') a -> ru (R_of b') b -> ru (R_of c') c -> ru (R_of d') d ->
  Rabs (a * b) + Rabs (c * d) <= S ->
  bf 480 (fsub (fmul a' b') (fmul c' d')) /\ Rabs (R_of (fsub (fmul a' b') (fmul c' d')) - (a * b - c * d)) <= 51 / 10 * u53 * S + 3 * eta.
Proof.
  intros A B C D Ra Rb Rc Rd H. destruct (bf_mul 232 232 a' b' ltac:(lia) A B) as (B1 & E1). destruct (bf_mul 232 232 c' d' ltac:(lia) C D) as (B2 & E2).
  destruct (bf_sub 464 _ _ ltac:(lia) B1 B2) as (B3 & E3). split; [apply (bf_up (464 + 1)); [lia|exact B3]|].
  destruct (ru_prod _ _ _ _ Ra Rb) as (P1 & _). destruct (ru_prod _ _ _ _ Rc Rd) as (P2 & _). rewrite <- E1 in P1. rewrite <- E2 in P2.
  pose proof (RN_sub_err (R_of (fmul a' b')) (R_of (fmul c' d')) (format_R _) (format_R _)) as P3. rewrite <- E3 in P3.
  set (p := R_of (fmul a' b')) in *. set (q := R_of (fmul c' d')) in *. set (g := R_of (fsub _ _)) in *.
  pose proof u53_pos as U. pose proof u53_small as U1. assert (0 < eta) as T by apply bpow_gt_0. pose proof (Rabs_pos (a * b)) as N1. pose proof (Rabs_pos (c * d)) as N2.
  assert (Rabs (p - q) <= Rabs (a * b) + Rabs (c * d) + (4 * u53 * Rabs (a * b) + eta) + (4 * u53 * Rabs (c * d) + eta)) as PQ.
  { replace (p - q) with (a * b - c * d + (p - a * b) - (q - c * d)) by ring. unfold Rminus at 1. eapply Rle_trans; [apply Rabs_triang|]. rewrite Rabs_Ropp.
    apply Rplus_le_compat; [|exact P2]. eapply Rle_trans; [apply Rabs_triang|]. apply Rplus_le_compat; [|exact P1]. unfold Rminus. eapply Rle_trans; [apply Rabs_triang|]. rewrite Rabs_Ropp. lra. }
  assert (u53 * Rabs (a * b) + u53 * Rabs (c * d) <= u53 * S) as US by (rewrite <- Rmult_plus_distr_l; apply Rmult_le_compat_l; lra).
  assert (u53 * Rabs (p - q) <= u53 * (S + 4 * (u53 * S) + 2 * eta)) as K by (apply Rmult_le_compat_l; lra).
  assert (u53 * (u53 * S) <= / 1024 * (u53 * S)) by (apply Rmult_le_compat_r; [apply Rmult_le_pos; lra|lra]). assert (u53 * eta <= / 1024 * eta) by (apply Rmult_le_compat_r; lra).
  replace (g - (a * b - c * d)) with ((g - (p - q)) + ((p - a * b) - (q - c * d))) by ring. eapply Rle_trans; [apply Rabs_triang|].
  assert (Rabs (p - a * b - (q - c * d)) <= (4 * u53 * Rabs (a * b) + eta) + (4 * u53 * Rabs (c * d) + eta)).
  { unfold Rminus at 1. eapply Rle_trans; [apply Rabs_triang|]. rewrite Rabs_Ropp. lra. }
  assert (0 <= u53 * S) by (apply Rmult_le_pos; lra). lra.
Qed.
Lemma cauchy2 x y z v w t : Rabs (y * t) + Rabs (z * w) <= nrm3 x y z * nrm3 v w t.
Proof.
  pose proof (cauchy3 0 y z 0 t w) as C. rewrite Rmult_0_l, Rabs_R0, Rplus_0_l in C. eapply Rle_trans; [exact C|].
  assert (forall a b c a' b' c', a * a + b * b + c * c <= a' * a' + b' * b' + c' * c' -> nrm3 a b c <= nrm3 a' b' c') as M by (intros; now apply sqrt_le_1_alt).
  apply Rmult_le_compat; try apply nrm3_pos; apply M; [pose proof (Rle_0_sqr x) as Q|pose proof (Rle_0_sqr v) as Q]; unfold Rsqr in Q; lra.
Qed.
Lemma sub_232 x y : bf 230 x -> bf 230 y -> bf 232 (fsub x y) /\ ru (R_of (fsub x y)) (R_of x - R_of y).
Proof.
  intros X Y. destruct (bf_sub 230 x y ltac:(lia) X Y) as (B & E). split; [apply (bf_up (230 + 1)); [lia|exact B]|]. unfold ru. rewrite E. apply RN_sub_err; apply format_R.
Qed.
Definition bf3 (k : Z) (c : Coordinate) : Prop := bf k (cx c) /\ bf k (cy c) /\ bf k (cz c).
(** The area of a triangle in space, for all ordinates up to 2^230. *)
Theorem C61_area_3d_error : forall hypot a b c, bf3 230 a -> bf3 230 b -> bf3 230 c ->
  let A := g_area_3d R NR (rpt a) (rpt b) (rpt c) (R_of (cz a)) (R_of (cz b)) (R_of (cz c)) in
  fis_finite (tri_area_3d hypot a b c) = true /\
  Rabs (R_of (tri_area_3d hypot a b c) - A) <= bp (-49) * (dist3 (rpt3 b) (rpt3 a) * dist3 (rpt3 c) (rpt3 a)) + bp (-530).
Proof.
  intros hypot a b c (Ax & Ay & Az) (Bx & By & Bz) (Cx & Cy & Cz) A.
  destruct (sub_232 _ _ Bx Ax) as (B1 & R1), (sub_232 _ _ By Ay) as (B2 & R2), (sub_232 _ _ Bz Az) as (B3 & R3).
  destruct (sub_232 _ _ Cx Ax) as (B4 & R4), (sub_232 _ _ Cy Ay) as (B5 & R5), (sub_232 _ _ Cz Az) as (B6 & R6).
  unfold tri_area_3d, g_area_3d. cbn [NF NR nsub nmul nadd ndiv nsqrt nofZ pf rpt px py] in *. cbv zeta. unfold A, g_area_3d. cbn [NR nsub nmul nadd ndiv nsqrt nofZ rpt px py]. cbv zeta.
  rewrite !dist3_nrm. cbn [rpt3 qx qy qz].
  set (ux := fsub (cx b) (cx a)) in *. set (uy := fsub (cy b) (cy a)) in *. set (uz := fsub (cz b) (cz a)) in *.
  set (vx := fsub (cx c) (cx a)) in *. set (vy := fsub (cy c) (cy a)) in *. set (vz := fsub (cz c) (cz a)) in *.
  set (x1 := R_of (cx b) - R_of (cx a)) in *. set (y1 := R_of (cy b) - R_of (cy a)) in *. set (z1 := R_of (cz b) - R_of (cz a)) in *.
  set (x2 := R_of (cx c) - R_of (cx a)) in *. set (y2 := R_of (cy c) - R_of (cy a)) in *. set (z2 := R_of (cz c) - R_of (cz a)) in *.
  set (S := nrm3 x1 y1 z1 * nrm3 x2 y2 z2).
  assert (0 <= S) as S0 by (apply Rmult_le_pos; apply nrm3_pos).
  assert (forall p q r, nrm3 p q r = nrm3 q r p) as ROT by (intros; unfold nrm3; f_equal; ring).
  destruct (cross_err uy vz uz vy y1 z2 z1 y2 S B2 B6 B3 B5 R2 R6 R3 R5 (cauchy2 x1 y1 z1 x2 y2 z2)) as (G1 & E1).
  destruct (cross_err uz vx ux vz z1 x2 x1 z2 S B3 B4 B1 B6 R3 R4 R1 R6) as (G2 & E2).
  { unfold S. rewrite (ROT x1), (ROT x2). apply cauchy2. }
  destruct (cross_err ux vy uy vx x1 y2 y1 x2 S B1 B5 B2 B4 R1 R5 R2 R4) as (G3 & E3).
  { unfold S. rewrite (ROT x1), (ROT x2), (ROT y1), (ROT y2). apply cauchy2. }
  set (c1 := fsub (fmul uy vz) _) in *. set (c2 := fsub (fmul uz vx) _) in *. set (c3 := fsub (fmul ux vy) _) in *.
  set (k1 := y1 * z2 - z1 * y2) in *. set (k2 := z1 * x2 - x1 * z2) in *. set (k3 := x1 * y2 - y1 * x2) in *.
  destruct (root3_err c1 c2 c3 G1 G2 G3) as (F & P & E). pose proof (nrm3_near _ _ _ _ _ _ _ E1 E2 E3) as NN.
  change (fsqrt (fadd (fadd (fmul c1 c1) (fmul c2 c2)) (fmul c3 c3))) with (root3 c1 c2 c3). change (sqrt (k1 * k1 + k2 * k2 + k3 * k3)) with (nrm3 k1 k2 k3).
  set (h' := nrm3 (R_of c1) (R_of c2) (R_of c3)) in *. set (h := nrm3 k1 k2 k3) in *.
  assert (h <= S) as HS.
  { apply Rsqr_incr_0_var; [|exact S0]. unfold Rsqr, h, S. rewrite nrm3_sq.
    replace (nrm3 x1 y1 z1 * nrm3 x2 y2 z2 * (nrm3 x1 y1 z1 * nrm3 x2 y2 z2)) with ((nrm3 x1 y1 z1 * nrm3 x1 y1 z1) * (nrm3 x2 y2 z2 * nrm3 x2 y2 z2)) by ring.
    rewrite !nrm3_sq. unfold k1, k2, k3. pose proof (Rle_0_sqr (x1 * x2 + y1 * y2 + z1 * z2)) as Q. unfold Rsqr in Q.
    replace ((x1 * x1 + y1 * y1 + z1 * z1) * (x2 * x2 + y2 * y2 + z2 * z2)) with
      ((y1 * z2 - z1 * y2) * (y1 * z2 - z1 * y2) + (z1 * x2 - x1 * z2) * (z1 * x2 - x1 * z2) + (x1 * y2 - y1 * x2) * (x1 * y2 - y1 * x2) + (x1 * x2 + y1 * y2 + z1 * z2) * (x1 * x2 + y1 * y2 + z1 * z2)) by ring. lra. }
  assert (0 <= h) as H0 by apply nrm3_pos. pose proof u53_pos as U. pose proof u53_small as U1.
  assert (eta <= bp (-535)) as T1 by (apply bpow_le; lia). assert (0 < eta) as T0 by apply bpow_gt_0.
  assert (bp (-530) = 32 * bp (-535)) as TB by (change (-530)%Z with (-535 + 5)%Z; rewrite bpow_plus; change (bp 5) with 32; ring).
  set (w := R_of (root3 c1 c2 c3)) in *. assert (0 <= u53 * S) as US by (apply Rmult_le_pos; lra).
  apply Rabs_le_inv in NN, E.
  assert (u53 * h' <= u53 * (S + 102 / 10 * (u53 * S) + 6 * eta)) as UH by (apply Rmult_le_compat_l; lra).
  assert (u53 * (u53 * S) <= / 1024 * (u53 * S)) by (apply Rmult_le_compat_r; lra). assert (u53 * eta <= / 1024 * eta) by (apply Rmult_le_compat_r; lra).
  assert (Rabs (w - h) <= 153 / 10 * (u53 * S) + 8 * bp (-535)) as WH by (apply Rabs_le; lra).
  assert (Rabs w <= bp 1000) as WB.
  { rewrite Rabs_pos_eq by exact P. assert (h' <= bp 482) as HB by (apply (norm_range _ _ _ 480); [apply G1|apply G2|apply G3]).
    assert (u53 * h' <= / 1024 * h') by (apply Rmult_le_compat_r; [apply nrm3_pos|lra]).
    assert (bp (-535) <= bp 482) by (apply bpow_le; lia). apply Rle_trans with (4 * bp 482); [lra|].
    replace (4 * bp 482) with (bp 484) by (change 484%Z with (482 + 1 + 1)%Z; rewrite !bp_S; ring). apply bpow_le. lia. }
  destruct (fdiv_R (root3 c1 c2 c3) (fofZ 2) F) as (FD & ED).
  { replace (R_of (fofZ 2)) with 2 by (vm_compute; lra). lra. }
  { fold w. replace (R_of (fofZ 2)) with 2 by (vm_compute; lra). apply (RN_small _ 1000); [lia|]. unfold Rdiv. rewrite Rabs_mult, (Rabs_pos_eq (/ 2)) by lra. pose proof (Rabs_pos w). lra. }
  split; [exact FD|]. rewrite ED. fold w. replace (R_of (fofZ 2)) with 2 by (vm_compute; lra).
  change (IZR 2) with 2.
  pose proof (RN_err (w / 2)) as ER. fold eta in ER. rewrite (Rabs_pos_eq (w / 2)) in ER by lra.
  assert (bp (-49) = 16 * u53) as -> by (change (-49)%Z with (-53 + 4)%Z; rewrite bpow_plus; change (bp 4) with 16; ring).
  apply Rabs_le_inv in ER, WH.
  assert (u53 * w <= u53 * (S + 153 / 10 * (u53 * S) + 8 * bp (-535))) as UW by (apply Rmult_le_compat_l; lra).
  assert (u53 * bp (-535) <= / 1024 * bp (-535)) by (apply Rmult_le_compat_r; lra).
  apply Rabs_le. lra.
Qed.
(** The centroid of a triangle, for all ordinates up to 2^1020. *)
Theorem C61_centroid_error : forall hypot a b c M, M <= bp 1020 ->
  (forall p, In p [a; b; c] -> fis_finite (cx p) = true /\ fis_finite (cy p) = true /\ Rabs (R_of (cx p)) <= M /\ Rabs (R_of (cy p)) <= M) ->
  let g := tri_centroid hypot a b c in fis_finite (cx g) = true /\ fis_finite (cy g) = true /\
  Rabs (R_of (cx g) - (R_of (cx a) + R_of (cx b) + R_of (cx c)) / 3) <= bp (-51) * M + bp (-1074) /\
  Rabs (R_of (cy g) - (R_of (cy a) + R_of (cy b) + R_of (cy c)) / 3) <= bp (-51) * M + bp (-1074).
Proof.
  intros hypot a b c M HM H g.
  assert (forall x y z, fis_finite x = true -> fis_finite y = true -> fis_finite z = true -> Rabs (R_of x) <= M -> Rabs (R_of y) <= M -> Rabs (R_of z) <= M ->
    fis_finite (fdiv (fadd (fadd x y) z) (fofZ 3)) = true /\ Rabs (R_of (fdiv (fadd (fadd x y) z) (fofZ 3)) - (R_of x + R_of y + R_of z) / 3) <= bp (-51) * M + bp (-1074)) as K.
  { intros x y z Fx Fy Fz X Y Z. assert (bf 1020 x /\ bf 1020 y /\ bf 1020 z) as (Bx & By & Bz) by (repeat split; assumption || (eapply Rle_trans; eassumption)).
    destruct (bf_add 1020 x y ltac:(lia) Bx By) as (B1 & E1). destruct (bf_add 1021 _ z ltac:(lia) B1 (bf_up 1020 1021 _ ltac:(lia) Bz)) as (B2 & E2). change (1021 + 1)%Z with 1022%Z in B2.
    pose proof (RN_sum_err (R_of x) (R_of y) (format_R _) (format_R _)) as P1. rewrite <- E1 in P1.
    pose proof (RN_sum_err (R_of (fadd x y)) (R_of z) (format_R _) (format_R _)) as P2. rewrite <- E2 in P2.
    set (s := R_of (fadd x y)) in *. set (t := R_of (fadd (fadd x y) z)) in *.
    assert (R_of (fofZ 3) = 3) as E3 by (vm_compute; lra).
    destruct (fdiv_R (fadd (fadd x y) z) (fofZ 3) (proj1 B2)) as (F & E).
    { rewrite E3. lra. }
    { rewrite E3. apply (RN_small _ 1022); [lia|]. unfold Rdiv. rewrite Rabs_mult, (Rabs_pos_eq (/ 3)) by lra. pose proof (proj2 B2). pose proof (Rabs_pos (R_of (fadd (fadd x y) z))). lra. }
    split; [exact F|]. rewrite E, E3. fold t. pose proof (RN_err (t / 3)) as P3. fold eta in P3.
    assert (bp (-51) = 4 * u53) as -> by (symmetry; apply u_4). assert (bp (-1074) = 2 * eta) as -> by (unfold eta; change (-1074)%Z with (-1075 + 1)%Z; apply bp_S).
    pose proof u53_pos as U. pose proof u53_small as U1. assert (0 < eta) as T0 by apply bpow_gt_0. assert (0 <= M) as M0 by (pose proof (Rabs_pos (R_of x)); lra).
    assert (0 <= u53 * M) as UM by (apply Rmult_le_pos; lra). assert (u53 * (u53 * M) <= / 1024 * (u53 * M)) as UUM by (apply Rmult_le_compat_r; lra).
    apply Rabs_le_inv in X, Y, Z.
    assert (u53 * Rabs (R_of x + R_of y) <= u53 * (2 * M)) as Q1 by (apply Rmult_le_compat_l; [lra|apply Rabs_le; lra]). apply Rabs_le_inv in P1.
    assert (u53 * Rabs (s + R_of z) <= u53 * (3 * M + 2 * (u53 * M))) as Q2 by (apply Rmult_le_compat_l; [lra|apply Rabs_le; lra]). apply Rabs_le_inv in P2.
    assert (u53 * Rabs (t / 3) <= u53 * (M + 2 * (u53 * M))) as Q3 by (apply Rmult_le_compat_l; [lra|apply Rabs_le; lra]). apply Rabs_le_inv in P3.
    apply Rabs_le. lra. }
  assert (forall p, In p [a; b; c] -> fis_finite (cx p) = true /\ Rabs (R_of (cx p)) <= M) as HX by (intros p I; destruct (H p I) as (A & B & C & D); auto).
  assert (forall p, In p [a; b; c] -> fis_finite (cy p) = true /\ Rabs (R_of (cy p)) <= M) as HY by (intros p I; destruct (H p I) as (A & B & C & D); auto).
  assert (In a [a; b; c]) as Ia by (cbn; auto). assert (In b [a; b; c]) as Ib by (cbn; auto). assert (In c [a; b; c]) as Ic by (cbn; auto).
  destruct (K (cx a) (cx b) (cx c)) as (F1 & E1); try apply HX; try assumption. destruct (K (cy a) (cy b) (cy c)) as (F2 & E2); try apply HY; try assumption.
  unfold g, tri_centroid, g_centroid, to_coord. cbn [NF nadd ndiv nofZ pf px py cx cy new_xy]. auto.
Qed.

(** ** Tolerances and diameters *)
Theorem C11_tolerance_zero_any : forall hypot a b t, fis_finite (cx a) = true -> fis_finite (cy a) = true -> fis_finite (cx b) = true -> fis_finite (cy b) = true ->
  feqb t f0 = true -> (coords_equal hypot a b t = true <-> rpt a = rpt b).
Proof.
  intros hypot a b t A1 A2 B1 B2 H. unfold coords_equal. rewrite H. unfold equals_2d.
  change (fneb (cx a) (cx b)) with (negb (feqb (cx a) (cx b))). change (fneb (cy a) (cy b)) with (negb (feqb (cy a) (cy b))). rewrite !feqb_R by assumption.
  unfold rpt. destruct (Req_bool_spec (R_of (cx a)) (R_of (cx b))), (Req_bool_spec (R_of (cy a)) (R_of (cy b))); cbn; split; intros K; try discriminate; try congruence; injection K; intros; contradiction.
Qed.
Theorem C11_tolerance_error : forall hypot a b t, hypot_accurate hypot -> mid_pt a -> mid_pt b -> fis_finite t = true -> R_of t <> 0 ->
  (dist (rpt a) (rpt b) * (1 + bp (-51)) <= R_of t -> coords_equal hypot a b t = true) /\
  (R_of t < dist (rpt a) (rpt b) * (1 - bp (-51)) \/ R_of t < 0 -> coords_equal hypot a b t = false).
Proof.
  intros hypot a b t Hh Ma Mb F P. unfold coords_equal.
  rewrite (feqb_R t f0 F eq_refl). rewrite Req_bool_false by (change (R_of f0) with 0; lra).
  destruct (dist_f hypot a b Hh Ma Mb) as (Fd & E). rewrite (fleb_R _ _ Fd F), u_4 in *.
  apply Rabs_le_inv in E. pose proof (Distance_proofs.dist_pos (rpt a) (rpt b)) as D.
  assert (bp (-51) * dist (rpt a) (rpt b) <= 1 * dist (rpt a) (rpt b)) by (apply Rmult_le_compat_r; [exact D|]; apply (bpow_le radix2 (-51) 0); lia).
  split; intros H'; [apply Rle_bool_true|apply Rle_bool_false]; lra.
Qed.
Theorem C71_diameter_error : forall hypot e, hypot_accurate hypot -> is_null e = false -> mid (minx e) -> mid (maxx e) -> mid (miny e) -> mid (maxy e) ->
  close_to (get_diameter hypot e) (dist (mkP (R_of (minx e)) (R_of (miny e))) (mkP (R_of (maxx e)) (R_of (maxy e)))).
Proof.
  intros hypot e Hh N A B C D. unfold get_diameter, get_width, get_height. rewrite N.
  assert (mid_pt (new_xy (maxx e) (maxy e))) as M1 by (split; assumption). assert (mid_pt (new_xy (minx e) (miny e))) as M2 by (split; assumption).
  destruct (dist_f hypot _ _ Hh M1 M2) as (F & E). rewrite Distance_proofs.dist_sym. split; [exact F|]. rewrite <- u_4. exact E.
Qed.
Example C62_error_example : midv (mkV2 third f1) /\ rv (mkV2 third f1) <> mkP 0 0 /\ midv3 (mkV3 third f1 (fofZ 7)) /\ rv3 (mkV3 third f1 (fofZ 7)) <> mkP3 0 0 0 /\
  bf3 230 (new_xyz third f1 (fofZ 7)) /\ is_null (mkE f0 third f0 f1) = false.
Proof.
  destruct mid_third as (T & O & I & S).
  assert (forall x, mid x -> R_of x <> 0 -> True) as _ by auto. assert (R_of f1 <> 0) as N1 by (rewrite R_of_f1; lra).
  assert (bp 2 <= bp 230) as K by (apply bpow_le; lia). change (bp 2) with 4 in K. assert (bp 3 <= bp 230) as K3 by (apply bpow_le; lia). change (bp 3) with 8 in K3.
  split; [now split|]. split; [intros Q; injection Q; intros; contradiction|]. split; [now split|]. split; [intros Q; injection Q; intros; contradiction|].
  split; [|vm_compute; reflexivity]. repeat split; cbn [cx cy cz new_xyz].
  - replace (R_of third) with (6004799503160661 * bp (-54)) by reflexivity. pose proof (bpow_gt_0 radix2 (-54)). rewrite Rabs_pos_eq by lra.
    assert (bp (-54) <= / 9007199254740992) by (cbn; lra). lra.
  - rewrite R_of_f1, Rabs_pos_eq by lra. lra.
  - replace (R_of (fofZ 7)) with 7 by (vm_compute; lra). rewrite Rabs_pos_eq by lra. lra.
Qed.
Example C11_error_example : mid_pt (new_xy third f0) /\ mid_pt (new_xy f1 f0) /\ hypot_accurate hypot_nearest /\
  coords_equal hypot_nearest (new_xy third f0) (new_xy f1 f0) f1 = true /\ coords_equal hypot_nearest (new_xy third f0) (new_xy f1 f0) third = false.
Proof.
  destruct mid_third as (T & O & I & S). assert (mid_pt (new_xy third f0)) as M1 by now split. assert (mid_pt (new_xy f1 f0)) as M2 by now split.
  assert (R_of third = 6004799503160661 * bp (-54)) as E by reflexivity. assert (bp (-54) = / 18014398509481984) as E' by (cbn; lra). rewrite E' in E. clear E'.
  assert (dist (rpt (new_xy third f0)) (rpt (new_xy f1 f0)) = 1 - R_of third) as D.
  { unfold dist, rpt. cbn [px py cx cy new_xy]. rewrite R_of_f1. change (R_of f0) with 0. apply sqrt_lem_1; [apply Rplus_le_le_0_compat; apply Rle_0_sqr|lra|unfold Rsqr; ring]. }
  assert (bp (-51) <= / 8) as B by (change (/ 8) with (bp (-3)); apply bpow_le; lia). pose proof (bpow_gt_0 radix2 (-51)) as P. pose proof R_of_f1 as R1.
  split; [exact M1|]. split; [exact M2|]. split; [apply hypot_nearest_accurate|].
  destruct (C11_tolerance_error hypot_nearest _ _ f1 hypot_nearest_accurate M1 M2 eq_refl ltac:(lra)) as (K1 & _).
  destruct (C11_tolerance_error hypot_nearest _ _ third hypot_nearest_accurate M1 M2 eq_refl ltac:(lra)) as (_ & K2).
  rewrite D in K1, K2. split; [apply K1; nra|apply K2; left; nra].
Qed.
