From Coq Require Import ZArith Bool List Lia Reals Lra.
From Flocq Require Import Core IEEE754.BinarySingleNaN.
From Verif Require Import Base F64 F64Facts Coordinate_model Coordinate_spec Envelope_model Envelope_spec Envelope_proofs.
Import ListNotations.
Open Scope Z_scope.

Lemma ltf_rank x y : ltf x y <-> nn x /\ nn y /\ rank x < rank y.
Proof.
  unfold ltf. split.
  - intros H. destruct (fltb_nn _ _ H). rewrite fltb_rank in H by assumption. repeat split; auto; lia.
  - intros (A & B & C). rewrite fltb_rank by assumption. lia.
Qed.
Lemma eqf_rank x y : eqf x y <-> nn x /\ nn y /\ rank x = rank y.
Proof.
  unfold eqf. split.
  - intros H. destruct (feqb_nn _ _ H). rewrite feqb_rank in H by assumption. repeat split; auto; lia.
  - intros (A & B & C). rewrite feqb_rank by assumption. lia.
Qed.

(** Position in the plane as two integers. *)
Lemma pt_lt_rank p q : nn_xy p -> nn_xy q ->
  (pt_lt p q <-> rank (cx p) < rank (cx q) \/ (rank (cx p) = rank (cx q) /\ rank (cy p) < rank (cy q))).
Proof. intros [? ?] [? ?]. unfold pt_lt. rewrite !ltf_rank, eqf_rank. intuition. Qed.
Lemma pt_eq_rank p q : pt_eq p q <-> nn_xy p /\ nn_xy q /\ rank (cx p) = rank (cx q) /\ rank (cy p) = rank (cy q).
Proof. unfold pt_eq, nn_xy. rewrite !eqf_rank. intuition. Qed.

Lemma compare_to_lex p q : nn_xy p -> nn_xy q ->
  compare_to p q = lex (rank (cx p)) (rank (cx q)) (lex (rank (cy p)) (rank (cy q)) 0).
Proof. intros [? ?] [? ?]. unfold compare_to, lex. rk. reflexivity. Qed.

Lemma equals_2d_eq p q : equals_2d p q = true <-> pt_eq p q.
Proof.
  unfold equals_2d, pt_eq, eqf, fneb. change (@Beqb 53 1024) with feqb.
  destruct (feqb (cx p) (cx q)), (feqb (cy p) (cy q)); cbn; intuition discriminate.
Qed.
Lemma equals_2d_false p q : equals_2d p q = false <-> ~ pt_eq p q.
Proof. rewrite <- equals_2d_eq. now destruct (equals_2d p q). Qed.

Lemma compare_to_range p q : compare_to p q = -1 \/ compare_to p q = 0 \/ compare_to p q = 1.
Proof. unfold compare_to. splitif; auto. Qed.
Lemma compare_to_antisym p q : compare_to q p = - compare_to p q.
Proof.
  unfold compare_to. change fgtb with (fun x y => fltb y x). cbv beta.
  assert (forall x y, fltb x y = true -> fltb y x = false) as A.
  { intros x y H. destruct (fltb_nn _ _ H). rk. lia. }
  destruct (fltb (cx q) (cx p)) eqn:E1, (fltb (cx p) (cx q)) eqn:E2; try reflexivity.
  { now rewrite A in E1. }
  destruct (fltb (cy q) (cy p)) eqn:E3, (fltb (cy p) (cy q)) eqn:E4; try reflexivity.
  now rewrite A in E3.
Qed.
Lemma compare_to_lt p q : nn_xy p -> nn_xy q -> (compare_to p q = -1 <-> pt_lt p q).
Proof.
  intros P Q. rewrite compare_to_lex, pt_lt_rank by assumption. unfold lex.
  repeat match goal with |- context [?a <? ?b] => destruct (Z.ltb_spec a b) end; lia.
Qed.
Lemma compare_to_gt p q : nn_xy p -> nn_xy q -> (compare_to p q = 1 <-> pt_lt q p).
Proof.
  intros P Q. rewrite compare_to_lex, pt_lt_rank by assumption. unfold lex.
  repeat match goal with |- context [?a <? ?b] => destruct (Z.ltb_spec a b) end; lia.
Qed.
Lemma compare_to_zero p q : nn_xy p -> nn_xy q -> (compare_to p q = 0 <-> pt_eq p q).
Proof.
  intros P Q. rewrite compare_to_lex, pt_eq_rank by assumption. rewrite !lex_zero. tauto.
Qed.
Lemma compare_to_trans p q r : nn_xy p -> nn_xy q -> nn_xy r ->
  compare_to p q <= 0 -> compare_to q r <= 0 -> compare_to p r <= 0.
Proof.
  intros P Q R. rewrite !compare_to_lex by assumption. apply lex_trans. apply lex_trans. lia.
Qed.
Lemma compare_to_trans_lt p q r : nn_xy p -> nn_xy q -> nn_xy r ->
  compare_to p q < 0 -> compare_to q r < 0 -> compare_to p r < 0.
Proof.
  intros P Q R. rewrite !compare_to_lex by assumption. apply lex_trans_lt. apply lex_trans_lt. lia.
Qed.
Lemma compare_to_refl p : compare_to p p = 0.
Proof. pose proof (compare_to_antisym p p). lia. Qed.
Lemma compare_to_eq_l p q r : nn_xy p -> nn_xy q -> nn_xy r -> pt_eq p q -> compare_to p r = compare_to q r.
Proof.
  intros P Q R E. rewrite !compare_to_lex by assumption. apply pt_eq_rank in E.
  destruct E as (_ & _ & E1 & E2). now rewrite E1, E2.
Qed.
Lemma compare_to_eq_r p q r : nn_xy p -> nn_xy q -> nn_xy r -> pt_eq q r -> compare_to p q = compare_to p r.
Proof.
  intros P Q R E. rewrite !compare_to_lex by assumption. apply pt_eq_rank in E.
  destruct E as (_ & _ & E1 & E2). now rewrite E1, E2.
Qed.

Lemma pt_eq_refl p : nn_xy p -> pt_eq p p.
Proof. intros H. apply pt_eq_rank. auto. Qed.
Lemma pt_eq_sym p q : pt_eq p q -> pt_eq q p.
Proof. rewrite !pt_eq_rank. intuition. Qed.
Lemma pt_eq_trans p q r : pt_eq p q -> pt_eq q r -> pt_eq p r.
Proof. rewrite !pt_eq_rank. intuition congruence. Qed.
Lemma equals_2d_sym p q : equals_2d p q = equals_2d q p.
Proof. apply eq_true_iff_eq. rewrite !equals_2d_eq. split; apply pt_eq_sym. Qed.

(** |x - y| as computed is symmetric, bit for bit. *)
Lemma fabs_eq_R x y : fis_finite x = true -> fis_finite y = true ->
  Rabs (R_of x) = Rabs (R_of y) -> fabs x = fabs y.
Proof.
  intros Fx Fy E.
  assert (rank (fabs x) = rank (fabs y)) as Er.
  { apply rank_eqR; rewrite ?fabs_fin; auto. now rewrite !fabs_R. }
  apply rank_inj in Er; try (apply nn_fabs; now apply nn_finite).
  destruct Er as [Er|(s & s' & E1 & E2)]; [exact Er|]. rewrite E1, E2.
  unfold fabs in *. destruct x, y; try discriminate; cbn in *; congruence.
Qed.
Lemma fabs_fsub_comm x y : fabs (fsub x y) = fabs (fsub y x).
Proof.
  destruct (fis_finite x) eqn:Fx; [destruct (fis_finite y) eqn:Fy|].
  - rewrite !fsub_fadd. pose proof (bpow_gt_0 radix2 1024).
    assert (R_of y + R_of (fneg x) = - (R_of x + R_of (fneg y)))%R as Eo by (rewrite !fneg_R; ring).
    destruct (fadd_cases x (fneg y)) as [(F1 & R1 & B1)|[(L1 & E1)|(L1 & E1)]]; rewrite ?fneg_fin; auto;
    destruct (fadd_cases y (fneg x)) as [(F2 & R2 & B2)|[(L2 & E2)|(L2 & E2)]]; rewrite ?fneg_fin; auto;
    rewrite Eo, RN_opp in *.
    + apply fabs_eq_R; auto. rewrite R1, R2. now rewrite Rabs_Ropp.
    + exfalso. apply Rabs_def2 in B1. lra.
    + exfalso. apply Rabs_def2 in B1. lra.
    + exfalso. rewrite Rabs_Ropp in B2. apply Rabs_def2 in B2. lra.
    + exfalso. lra.
    + now rewrite E1, E2.
    + exfalso. rewrite Rabs_Ropp in B2. apply Rabs_def2 in B2. lra.
    + now rewrite E1, E2.
    + exfalso. lra.
  - destruct x as [[]|[]| |[]], y as [|[]| |]; try easy; reflexivity.
  - destruct x as [|[]| |], y as [[]|[]| |[]]; try easy; reflexivity.
Qed.
Lemma equals_with_tolerance_sym x y t : equals_with_tolerance x y t = equals_with_tolerance y x t.
Proof. unfold equals_with_tolerance. now rewrite fabs_fsub_comm. Qed.

Lemma fsub_zero x y : fis_finite x = true -> fis_finite y = true -> rank x = rank y ->
  rank (fsub x y) = 0 /\ fis_finite (fsub x y) = true.
Proof.
  intros Fx Fy E. assert (R_of x - R_of y = 0)%R as Ez.
  { apply rank_eqR in E; auto. rewrite E. ring. }
  destruct (fsub_R x y) as [Fs Rs]; auto. { rewrite Ez, RN_0, Rabs_R0. apply bpow_gt_0. }
  split; [|assumption]. change 0 with (rank f0). apply rank_eqR; auto. rewrite Rs, Ez, RN_0. reflexivity.
Qed.

Lemma tolerance_exact x y t : fis_finite x = true -> fis_finite y = true -> eqf x y -> nn t ->
  0 <= rank t -> equals_with_tolerance x y t = true.
Proof.
  intros Fx Fy E Nt Ht. apply eqf_rank in E. destruct E as (_ & _ & E).
  unfold equals_with_tolerance. destruct (fsub_zero x y Fx Fy E) as [Z0 Fs].
  rewrite fleb_rank by (auto; apply nn_fabs; now apply nn_finite). rewrite rank_fabs, Z0. cbn. lia.
Qed.

(** Tolerance test against the real distance. *)
Lemma fsub_abs_cases x y : fis_finite x = true -> fis_finite y = true ->
  (fis_finite (fabs (fsub x y)) = true /\ R_of (fabs (fsub x y)) = RN (Rabs (R_of x - R_of y))) \/
  ((bp 1024 <= RN (Rabs (R_of x - R_of y)))%R /\ fabs (fsub x y) = finf).
Proof.
  intros Fx Fy. rewrite fsub_fadd.
  assert (forall r, RN (Rabs r) = Rabs (RN r)) as RA.
  { intros r. unfold Rabs at 1. destruct (Rcase_abs r).
    - rewrite RN_opp. rewrite Rabs_left1; auto. rewrite <- RN_0. apply RN_le. lra.
    - rewrite Rabs_pos_eq; auto. rewrite <- RN_0. apply RN_le. lra. }
  rewrite RA. destruct (fadd_cases x (fneg y)) as [(F1 & R1 & B1)|[(L1 & E1)|(L1 & E1)]]; rewrite ?fneg_fin; auto;
   rewrite fneg_R in *; change (R_of x + - R_of y)%R with (R_of x - R_of y)%R in *.
  - left. rewrite fabs_fin, fabs_R, R1. auto.
  - right. rewrite E1. split; [|reflexivity]. apply Rle_trans with (1 := L1). apply Rle_abs.
  - right. rewrite E1. split; [|reflexivity]. rewrite Rabs_left1; pose proof (bpow_gt_0 radix2 1024); lra.
Qed.
Lemma finite_lt_1024 x : (Rabs (R_of x) < bp 1024)%R.
Proof. apply abs_B2R_lt_emax. Qed.
Lemma tolerance_sound x y t t' : fis_finite x = true -> fis_finite y = true ->
  fis_finite t = true -> fis_finite t' = true ->
  equals_with_tolerance x y t = true -> (R_of t < R_of t')%R -> (Rabs (R_of x - R_of y) < R_of t')%R.
Proof.
  intros Fx Fy Ft Ft' H L. unfold equals_with_tolerance in H.
  destruct (fsub_abs_cases x y Fx Fy) as [(F & R)|(B & E)].
  - rewrite fleb_R in H by assumption. destruct (Rle_bool_spec (R_of (fabs (fsub x y))) (R_of t)) as [H1|]; [|discriminate].
    destruct (Rlt_or_le (Rabs (R_of x - R_of y)) (R_of t')) as [|G]; [assumption|exfalso].
    apply RN_le in G. rewrite RN_id in G by apply format_R. rewrite <- R in G. lra.
  - rewrite E in H. destruct t; discriminate.
Qed.
Lemma tolerance_complete x y t : fis_finite x = true -> fis_finite y = true -> fis_finite t = true ->
  (Rabs (R_of x - R_of y) <= R_of t)%R -> equals_with_tolerance x y t = true.
Proof.
  intros Fx Fy Ft L. apply RN_le in L. rewrite (RN_id (R_of t)) in L by apply format_R.
  unfold equals_with_tolerance.
  destruct (fsub_abs_cases x y Fx Fy) as [(F & R)|(B & E)].
  - rewrite fleb_R by assumption. apply Rle_bool_true. now rewrite R.
  - exfalso. pose proof (finite_lt_1024 t) as G. apply Rabs_def2 in G. lra.
Qed.
