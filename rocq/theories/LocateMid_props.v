(** C50, C51, C73 off the grid: locating points among arbitrary doubles. *)
From Coq Require Import ZArith Bool List Reals Lia Lra Psatz Permutation.
From Flocq Require Import Core IEEE754.BinarySingleNaN.
From Verif Require Import Base F64 F64Facts F64Err Coordinate_model Envelope_model Envelope_spec Envelope_proofs CoordArrays_model
  CoordSeq_model DD_model DD_spec DD_proofs DD_props Orientation_model Orientation_spec Orientation_proofs Orientation_props
  PointLocation_model PointLocation_spec PointLocation_proofs PointLocation_props LocateMid_spec.
Import ListNotations.
Local Open Scope R_scope.

Lemma sub_zero x y : mid x -> mid y -> R_of x = R_of y -> fis_finite (fsub x y) = true /\ R_of (fsub x y) = 0.
Proof.
  intros (Fx & Bx & _) (Fy & By & _) E.
  destruct (bf_sub 470 x y ltac:(lia) (conj Fx Bx) (conj Fy By)) as ((F & _) & R). split; [exact F|].
  rewrite R, E, Rminus_eq_0. apply RN_0.
Qed.
Lemma sub_bf x y : mid x -> mid y -> bf 471 (fsub x y).
Proof.
  intros (Fx & Bx & _) (Fy & By & _).
  exact (proj1 (bf_sub 470 x y ltac:(lia) (conj Fx Bx) (conj Fy By))).
Qed.
(** The filter decides when its two products are not of the same sign. *)
Lemma filter_opposite a b q : mid_pt a -> mid_pt b -> mid_pt q -> one_range a b q ->
  orientation_index_filter (cx a) (cy a) (cx b) (cy b) (cx q) (cy q) <> 2%Z.
Proof.
  intros (Xa & Ya) (Xb & Yb) (Xq & Yq) H. unfold orientation_index_filter. cbv zeta.
  set (l := fmul (fsub (cx a) (cx q)) (fsub (cy b) (cy q))).
  set (r := fmul (fsub (cy a) (cy q)) (fsub (cx b) (cx q))).
  assert (Sx : forall x y, mid x -> mid y -> R_of (fsub x y) = RN (R_of x - R_of y)).
  { intros x y (Fx & Bx & _) (Fy & By & _). exact (proj2 (bf_sub 470 x y ltac:(lia) (conj Fx Bx) (conj Fy By))). }
  destruct (bf_mul 471 471 _ _ ltac:(lia) (sub_bf _ _ Xa Xq) (sub_bf _ _ Yb Yq)) as ((Fl & _) & El). fold l in Fl, El.
  destruct (bf_mul 471 471 _ _ ltac:(lia) (sub_bf _ _ Ya Yq) (sub_bf _ _ Xb Xq)) as ((Fr & _) & Er). fold r in Fr, Er.
  rewrite !Sx in El, Er by assumption.
  assert (P : forall u v, 0 < RN (RN u * RN v) -> 0 < u * v).
  { intros u v Hp. destruct (Rlt_or_le 0 (u * v)) as [G|G]; [exact G|]. exfalso.
    assert (RN u * RN v <= 0); [|pose proof (RN_le0 _ H0); lra].
    destruct (Rle_or_lt 0 u) as [U|U].
    - pose proof (RN_ge0 _ U). destruct (Rle_or_lt v 0) as [V|V]; [pose proof (RN_le0 _ V); nra|].
      assert (u = 0) as -> by nra. rewrite RN_0. lra.
    - pose proof (RN_le0 u ltac:(lra)). assert (0 <= v) as V by nra. pose proof (RN_ge0 _ V). nra. }
  assert (N : forall u v, RN (RN u * RN v) < 0 -> u * v < 0).
  { intros u v Hp. destruct (Rlt_or_le (u * v) 0) as [G|G]; [exact G|]. exfalso.
    assert (0 <= RN u * RN v); [|pose proof (RN_ge0 _ H0); lra].
    destruct (Rle_or_lt u 0) as [U|U].
    - pose proof (RN_le0 _ U). destruct (Rle_or_lt v 0) as [V|V]; [pose proof (RN_le0 _ V); nra|].
      assert (u = 0) as -> by nra. rewrite RN_0. lra.
    - pose proof (RN_ge0 u ltac:(lra)). assert (0 <= v) as V by nra. pose proof (RN_ge0 _ V). nra. }
  unfold one_range in H. change (fgtb l f0) with (fltb f0 l). change (fgeb r f0) with (fleb f0 r).
  rewrite (fltb_R f0 l), (fltb_R l f0), (fleb_R r f0), (fleb_R f0 r) by (assumption || reflexivity).
  change (R_of f0) with 0. rewrite El, Er.
  pose proof (P (R_of (cx a) - R_of (cx q)) (R_of (cy b) - R_of (cy q))) as P1.
  pose proof (N (R_of (cx a) - R_of (cx q)) (R_of (cy b) - R_of (cy q))) as N1.
  pose proof (P (R_of (cy a) - R_of (cy q)) (R_of (cx b) - R_of (cx q))) as P2.
  pose proof (N (R_of (cy a) - R_of (cy q)) (R_of (cx b) - R_of (cx q))) as N2. clear P N.
  set (rl := RN (RN (R_of (cx a) - R_of (cx q)) * RN (R_of (cy b) - R_of (cy q)))) in *.
  set (rr := RN (RN (R_of (cy a) - R_of (cy q)) * RN (R_of (cx b) - R_of (cx q)))) in *.
  set (L := (R_of (cx a) - R_of (cx q)) * (R_of (cy b) - R_of (cy q))) in *.
  set (M := (R_of (cy a) - R_of (cy q)) * (R_of (cx b) - R_of (cx q))) in *.
  assert (H' : L * M <= 0) by (unfold L, M; lra). clear H.
  destruct (Rlt_bool_spec 0 rl) as [Q|Q].
  - specialize (P1 Q). rewrite Rle_bool_true; [apply fsignum_not2|]. apply Rnot_lt_le. intros G. specialize (P2 G). nra.
  - destruct (Rlt_bool_spec rl 0) as [Q'|Q']; [|apply fsignum_not2].
    specialize (N1 Q'). rewrite Rle_bool_true; [apply fsignum_not2|]. apply Rnot_lt_le. intros G. specialize (N2 G). nra.
Qed.
Lemma off_line_bound a b q : off_line a b q ->
  10 * (u53 * u53) * (Rabs ((R_of (cx b) - R_of (cx a)) * (R_of (cy q) - R_of (cy b))) +
     Rabs ((R_of (cy b) - R_of (cy a)) * (R_of (cx q) - R_of (cx b)))) < Rabs (det_pts a b q).
Proof.
  unfold off_line. cbv zeta. intros H. eapply Rle_lt_trans; [|exact H].
  replace (u53 * u53) with (bp (-106)) by (rewrite <- bpow_plus; reflexivity).
  assert (E : bp (-102) = 16 * bp (-106)) by (change (-102)%Z with (4 + -106)%Z; rewrite bpow_plus; simpl; lra).
  rewrite E. pose proof (bpow_gt_0 radix2 (-106)) as P. rewrite !Rabs_mult.
  set (xa := R_of (cx a)). set (ya := R_of (cy a)). set (xb := R_of (cx b)). set (yb := R_of (cy b)).
  set (xq := R_of (cx q)). set (yq := R_of (cy q)).
  pose proof (Rabs_pos (xb - xa)). pose proof (Rabs_pos (yb - ya)).
  pose proof (Rabs_pos (xq - xa)). pose proof (Rabs_pos (yq - ya)).
  pose proof (Rabs_pos (xq - xb)). pose proof (Rabs_pos (yq - yb)).
  set (W := Rabs (xb - xa)) in *. set (H' := Rabs (yb - ya)) in *.
  set (DX := Rabs (xq - xb)) in *. set (DY := Rabs (yq - yb)) in *.
  set (D := Rabs (xq - xa) + Rabs (yq - ya)) in *.
  assert (C : W * DY + H' * DX <= (W + H') * (D + (DX + DY))).
  { assert (0 <= D) by (unfold D; lra). assert (0 <= W * D) by (apply Rmult_le_pos; lra). assert (0 <= H' * D) by (apply Rmult_le_pos; lra).
    assert (0 <= W * DX) by nra. assert (0 <= H' * DY) by nra. nra. }
  assert (0 <= W * DY + H' * DX) by (apply Rplus_le_le_0_compat; apply Rmult_le_pos; assumption).
  set (u := bp (-106)) in *. set (s := W * DY + H' * DX) in *.
  set (t := (W + H') * (D + (DX + DY))) in *.
  assert (u * s <= u * t) by (apply Rmult_le_compat_l; lra).
  assert (0 <= u * s) by (apply Rmult_le_pos; lra). lra.
Qed.
(** Two ends at the same place: all is zero. *)
Lemma orient_same a b q : mid_pt a -> mid_pt b -> mid_pt q -> same_place a b -> is_sign (orient a b q) (det_pts a b q).
Proof.
  intros Ma Mb Mq (Ex & Ey).
  destruct (Z.eq_dec (orientation_index_filter (cx a) (cy a) (cx b) (cy b) (cx q) (cy q)) 2) as [E|E].
  2: { apply orient_mid; try assumption. now right. }
  rewrite orient_undecided by exact E. right; left. split.
  2: { unfold det_pts, det3. rewrite Ex, Ey. ring. }
  destruct Ma as (M1 & M2), Mb as (M3 & M4), Mq as (M5 & M6). unfold orientation_dd.
  destruct (dd_diff 470 (cx b) (cx a) ltac:(lia) (mid_bf _ M3) (mid_bf _ M1)) as (Nx1 & Vx1 & Bx1).
  destruct (dd_diff 470 (cy b) (cy a) ltac:(lia) (mid_bf _ M4) (mid_bf _ M2)) as (Ny1 & Vy1 & By1).
  destruct (dd_diff 470 (cx q) (cx b) ltac:(lia) (mid_bf _ M5) (mid_bf _ M3)) as (Nx2 & Vx2 & Bx2).
  destruct (dd_diff 470 (cy q) (cy b) ltac:(lia) (mid_bf _ M6) (mid_bf _ M4)) as (Ny2 & Vy2 & By2). cbv zeta in *.
  rewrite <- Ex, Rminus_eq_0 in Vx1. rewrite <- Ey, Rminus_eq_0 in Vy1.
  destruct (C72_product_error 471 471 _ _ ltac:(lia) ltac:(lia) Nx1 Ny2 Bx1 By2) as (N1 & E1); [left; rewrite Vx1; ring|].
  destruct (C72_product_error 471 471 _ _ ltac:(lia) ltac:(lia) Ny1 Nx2 By1 Bx2) as (N2 & E2); [left; rewrite Vy1; ring|].
  rewrite Vx1, Rmult_0_l, Rabs_R0, Rmult_0_r, Rminus_0_r in E1. rewrite Vy1, Rmult_0_l, Rabs_R0, Rmult_0_r, Rminus_0_r in E2.
  assert (Z : forall z, normed z -> Rabs (dval z) <= 0 -> dval z = 0 /\ bf 1000 (hi z)).
  { intros z N Hz. assert (dval z = 0) as Ez.
    { destruct (Req_dec (dval z) 0) as [Q|Q]; [exact Q|]. apply Rabs_pos_lt in Q. lra. }
    split; [exact Ez|]. pose proof N as (_ & H). rewrite Ez, RN_0 in H. split; [apply (normed_fin _ N)|]. rewrite H, Rabs_R0. apply bpow_ge_0. }
  destruct (Z _ N1 E1) as (Z1 & B1). destruct (Z _ N2 E2) as (Z2 & B2).
  apply (dd_sub_zero 1000); try assumption; [lia|]. rewrite Z1, Z2. reflexivity.
Qed.
Lemma orient_clear a b q : mid_pt a -> mid_pt b -> mid_pt q -> clear_of a b q -> is_sign (orient a b q) (det_pts a b q).
Proof.
  intros Ma Mb Mq C.
  destruct (Classical_Prop.classic (same_place a b)) as [Nd|Nd]; [now apply orient_same|].
  assert (U : forall r, r <> 0 -> 10 * (u53 * u53) * Rabs r < Rabs r).
  { intros r Nr. apply Rabs_pos_lt in Nr.
    replace (u53 * u53) with (bp (-106)) by (rewrite <- bpow_plus; reflexivity).
    assert (bp (-106) <= bp (-10)) by (apply bpow_le; lia). simpl (bp (-10)) in *.
    assert (10 * bp (-106) * Rabs r <= / 2 * Rabs r) by (apply Rmult_le_compat_r; lra). lra. }
  destruct C as [O|[[E|E]|[O|O]]].
  - apply orient_mid; try assumption. right. now apply filter_opposite.
  - apply orient_mid; try assumption. destruct (Req_dec (R_of (cx a)) (R_of (cx q))) as [Z|Z].
    + right. apply filter_opposite; try assumption. unfold one_range. rewrite Z, Rminus_eq_0. lra.
    + left. unfold det_pts, det3, same_place in *.
      rewrite <- E, !Rminus_eq_0, !Rmult_0_l, Rabs_R0, Rplus_0_l, Rminus_0_l, Rabs_Ropp. apply U.
      apply Rmult_integral_contrapositive. split; intros H; [apply Nd; split; lra|lra].
  - apply orient_mid; try assumption. destruct (Req_dec (R_of (cy b)) (R_of (cy q))) as [Z|Z].
    + right. apply filter_opposite; try assumption. unfold one_range. rewrite Z, Rminus_eq_0. lra.
    + left. unfold det_pts, det3, same_place in *.
      rewrite <- E in *. rewrite !Rminus_eq_0, !Rmult_0_l, Rabs_R0, Rplus_0_r, Rminus_0_r. apply U.
      apply Rmult_integral_contrapositive. split; intros H; [apply Nd; split; lra|lra].
  - apply orient_mid; try assumption. left. now apply off_line_bound.
  - destruct (O cx ltac:(auto)) as (X1 & X2 & _). destruct (O cy ltac:(auto)) as (Y1 & Y2 & _).
    now apply C43_exact_differences.
Qed.
(** Ordinates n*2^e with |n| <= 2^52 are always clear. *)
Lemma wide_clear e a b q : (-440 <= e <= 418)%Z ->
  (forall p, p = a \/ p = b \/ p = q -> wide_grid e (cx p) /\ wide_grid e (cy p)) -> clear_of a b q.
Proof.
  intros He G. right; right; right. intros o O.
  assert (forall p, p = a \/ p = b \/ p = q -> wide_grid e (o p)) as W by (intros p I; destruct (G p I), O as [->| ->]; assumption).
  split; [|split]; apply (wide_fmt e); auto.
Qed.

(** ** C73 *)
(** The orientation is right for segments parallel to an axis, for the ends
    of a segment, for points off its line, and wherever the distances between
    the points are doubles, *)
Theorem C73_right_when_clear a b q : mid_pt a -> mid_pt b -> mid_pt q -> clear_of a b q ->
  is_sign (orient a b q) (det_pts a b q).
Proof. exact (orient_clear a b q). Qed.
(** as they are for integers up to 2^52, at any scale. *)
Theorem C73_integers_clear : forall e a b q, (-440 <= e <= 418)%Z ->
  (forall p, p = a \/ p = b \/ p = q -> wide_grid e (cx p) /\ wide_grid e (cy p)) -> clear_of a b q.
Proof. exact wide_clear. Qed.

(** ** C50 *)
(** A closed ring of ordinates of moderate size, and a point that is clear of
    each segment whose box it is in. *)
Definition clear_ring (p : Coordinate) (ring : list Coordinate) : Prop :=
  mid_pt p /\ Forall mid_pt ring /\ ring_closed ring /\ (Z.of_nat (length ring) <= i32_max)%Z /\
  forall l1 a b l2, ring = l1 ++ a :: b :: l2 -> at_box p a b -> clear_of a b p.
Lemma mid_fin p : mid_pt p -> fin_pt p.
Proof. intros ((Fx & _) & (Fy & _)). split; assumption. Qed.
Lemma segs_split (l : list Coordinate) a b : In (a, b) (segs l) -> exists l1 l2, l = l1 ++ a :: b :: l2.
Proof.
  induction l as [|c l IH]; [contradiction|]. destruct l as [|d l]; [contradiction|].
  rewrite segs_cons. intros [E|I].
  - injection E as -> ->. exists [], l. reflexivity.
  - destruct (IH I) as (l1 & l2 & ->). exists (c :: l1), l2. reflexivity.
Qed.
Lemma det_pts_swap a b q : det_pts b a q = - det_pts a b q.
Proof. unfold det_pts, det3. ring. Qed.
Lemma clear_of_swap a b q : clear_of a b q -> clear_of b a q.
Proof.
  intros [H|[[H|H]|[H|H]]].
  - left. unfold one_range in *. lra.
  - right; left. now left.
  - right; left. now right.
  - right; right; left. unfold off_line in *. cbv zeta in *.
    rewrite det_pts_swap, Rabs_Ropp, (Rabs_minus_sym (R_of (cx a)) (R_of (cx b))), (Rabs_minus_sym (R_of (cy a)) (R_of (cy b))).
    rewrite (Rplus_comm (Rabs (R_of (cx q) - R_of (cx b)) + _)). exact H.
  - right; right; right. intros o O. destruct (H o O) as (A & B & C).
    split; [|split; assumption]. replace (R_of (o a) - R_of (o b)) with (- (R_of (o b) - R_of (o a))) by ring. now apply generic_format_opp.
Qed.
Lemma clear_located p ring : clear_ring p ring -> located p ring.
Proof.
  intros (Mp & Mr & Cl & L & H). split; [now apply mid_fin|]. split; [|split; assumption].
  rewrite Forall_forall in Mr. intros a b I. pose proof (segs_In _ _ _ I) as [Ia Ib].
  split; [apply mid_fin; auto|]. split; [apply mid_fin; auto|]. intros As. unfold oriented.
  destruct (segs_split _ _ _ I) as (l1 & l2 & E).
  apply orient_clear; auto. apply clear_of_swap.
  destruct (Classical_Prop.classic (at_box p a b)) as [Al|Al]; [exact (H _ _ _ _ E Al)|].
  left. unfold at_box, asked, one_range in *.
  assert (0 <= (R_of (cx a) - R_of (cx p)) * (R_of (cx b) - R_of (cx p))) by nra.
  assert ((R_of (cy a) - R_of (cy p)) * (R_of (cy b) - R_of (cy p)) <= 0) by nra. nra.
Qed.
(** Boundary exactly on a segment; off the boundary, the parity of the number
    of segments the ray to the right crosses. *)
Theorem C50_boundary_clear p ring : clear_ring p ring ->
  (locate_vec p ring = Ok BOUNDARY <-> on_chain (pt p) (map pt ring)).
Proof.
  intros H. destruct (locate_ring_spec p ring (clear_located p ring H)) as [A B]. split; [|exact A].
  intros E. destruct (Classical_Prop.classic (on_chain (pt p) (map pt ring))) as [O|O]; [exact O|].
  destruct (B O) as (k & _ & L). rewrite E in L. destruct (Nat.odd k); discriminate L.
Qed.
Theorem C50_even_odd_clear p ring : clear_ring p ring -> ~ on_chain (pt p) (map pt ring) ->
  exists k, crossings (pt p) (map pt ring) k /\
    locate_vec p ring = Ok (if Nat.odd k then INTERIOR else EXTERIOR).
Proof. intros H N. exact (proj2 (locate_ring_spec p ring (clear_located p ring H)) N). Qed.
(** The direction of the ring does not matter, *)
Lemma split_rev (ring : list Coordinate) l1 a b l2 : rev ring = l1 ++ a :: b :: l2 -> ring = rev l2 ++ b :: a :: rev l1.
Proof.
  intros E. rewrite <- (rev_involutive ring), E, rev_app_distr. cbn [rev]. now rewrite <- !app_assoc.
Qed.
Lemma clear_rev p ring : clear_ring p ring -> clear_ring p (rev ring).
Proof.
  intros (Mp & Mr & Cl & L & H). split; [exact Mp|]. split; [now apply Forall_rev|]. split; [now apply closed_rev|].
  split; [now rewrite rev_length|]. intros l1 a b l2 E At. apply clear_of_swap. apply (H _ _ _ _ (split_rev _ _ _ _ _ E)).
  unfold at_box in *. lra.
Qed.
Theorem C50_reverse_clear p ring : clear_ring p ring -> locate_vec p (rev ring) = locate_vec p ring.
Proof. intros H. apply reverse_located; apply clear_located; [exact H|now apply clear_rev]. Qed.
(** nor does the vertex it starts at. *)
Lemma split_segs (l : list Coordinate) a b l1 l2 : l = l1 ++ a :: b :: l2 -> In (a, b) (segs l).
Proof.
  revert l. induction l1 as [|c l1 IH]; intros l ->; [now left|]. cbn [app].
  destruct l1 as [|d l1]; cbn [app] in *; right; now apply IH.
Qed.
Theorem C50_rotate_clear p a l b m : clear_ring p ((a :: l) ++ (b :: m) ++ [a]) ->
  locate_vec p ((b :: m) ++ (a :: l) ++ [b]) = locate_vec p ((a :: l) ++ (b :: m) ++ [a]).
Proof.
  intros H. apply rotate_located; apply clear_located; [exact H|].
  destruct H as (Mp & Mr & _ & L & H). split; [exact Mp|]. split; [|split; [|split]].
  - rewrite !Forall_app in *. destruct Mr as (G1 & G2 & _). split; [exact G2|]. split; [exact G1|].
    inversion G2; subst. constructor; [assumption|constructor].
  - exists b, (m ++ a :: l), b. split; [cbn [app]; now rewrite <- app_assoc|reflexivity].
  - rewrite !app_length in *. cbn [length] in *. lia.
  - intros l1 c d l2 E At. apply split_segs in E.
    apply (Permutation_in _ (Permutation_sym (segs_rotate a l b m))) in E. apply segs_split in E.
    destruct E as (k1 & k2 & E). exact (H _ _ _ _ E At).
Qed.
(** Outside the envelope every point is exterior, clear or not. *)
Theorem C50_outside_clear p ring : mid_pt p -> Forall mid_pt ring -> ring_closed ring -> (Z.of_nat (length ring) <= i32_max)%Z ->
  covers_xy (envelope_of ring) (cx p) (cy p) = false -> locate_vec p ring = Ok EXTERIOR.
Proof.
  intros Mp Mr Cl L Cv.
  assert (Fr : forall q, In q ring -> fin_pt q) by (intros q I; rewrite Forall_forall in Mr; now apply mid_fin, Mr).
  apply outside_located; [|exact Fr|exact Cv]. apply clear_located.
  split; [exact Mp|]. split; [exact Mr|]. split; [exact Cl|]. split; [exact L|].
  intros l1 a b l2 E (Bx & By). exfalso.
  assert (Nn : Forall nn_xy ring) by (apply Forall_forall; intros q I; destruct (Fr q I); split; now apply nn_finite).
  assert (W : wf_env (envelope_of ring)) by now apply envelope_of_wf.
  enough (covers_xy (envelope_of ring) (cx p) (cy p) = true) by congruence.
  apply (proj2 (covers_xy_spec _ _ _ W)).
  assert (Ia : In a ring) by (rewrite E; apply in_or_app; right; now left).
  assert (Ib : In b ring) by (rewrite E; apply in_or_app; right; right; now left).
  pose proof (envelope_of_covers ring a Nn Ia) as (A1 & A2 & A3 & A4).
  pose proof (envelope_of_covers ring b Nn Ib) as (B1 & B2 & B3 & B4).
  destruct (mid_fin _ Mp) as (Px & Py). destruct (Fr a Ia) as (Ax & Ay). destruct (Fr b Ib) as (Bx' & By').
  assert (T : forall x y z, fis_finite y = true -> fis_finite z = true -> fleb x y = true -> R_of y <= R_of z -> fleb x z = true).
  { intros x y z Fy Fz Lx H. apply lef_trans with y; [exact Lx|]. unfold lef. rewrite fleb_R by assumption. now apply Rle_bool_true. }
  assert (T' : forall x y z, fis_finite y = true -> fis_finite z = true -> fleb y x = true -> R_of z <= R_of y -> fleb z x = true).
  { intros x y z Fy Fz Lx H. apply lef_trans with y; [|exact Lx]. unfold lef. rewrite fleb_R by assumption. now apply Rle_bool_true. }
  assert (Ch : forall u v w : R, (u - w) * (v - w) <= 0 -> (u <= w \/ v <= w) /\ (w <= u \/ w <= v)).
  { intros u v w K. destruct (Rle_or_lt u w), (Rle_or_lt v w), (Rle_or_lt w u), (Rle_or_lt w v); split; auto; nra. }
  destruct (Ch _ _ _ Bx) as (X1 & X2). destruct (Ch _ _ _ By) as (Y1 & Y2).
  repeat split; unfold lef in *.
  - destruct X1 as [Q|Q]; [apply (T _ (cx a))|apply (T _ (cx b))]; assumption.
  - destruct X2 as [Q|Q]; [apply (T' _ (cx a))|apply (T' _ (cx b))]; assumption.
  - destruct Y1 as [Q|Q]; [apply (T _ (cy a))|apply (T _ (cy b))]; assumption.
  - destruct Y2 as [Q|Q]; [apply (T' _ (cy a))|apply (T' _ (cy b))]; assumption.
Qed.
(** In a triangle turning counterclockwise, interior means strictly to the
    left of all three sides. *)
Theorem C50_triangle_clear p a b c : clear_ring p [a; b; c; a] -> 0 < det_pts a b c ->
  (locate_vec p [a; b; c; a] = Ok INTERIOR <-> 0 < det_pts a b p /\ 0 < det_pts b c p /\ 0 < det_pts c a p).
Proof. intros H. apply triangle_located. now apply clear_located. Qed.
(** In particular every point is located right in a ring of horizontal and
    vertical steps. *)
Lemma rectilinear_clear p ring : mid_pt p -> Forall mid_pt ring -> ring_closed ring -> (Z.of_nat (length ring) <= i32_max)%Z ->
  (forall l1 a b l2, ring = l1 ++ a :: b :: l2 -> axis_parallel a b) -> clear_ring p ring.
Proof.
  intros Mp Mr Cl L H. split; [exact Mp|]. split; [exact Mr|]. split; [exact Cl|]. split; [exact L|].
  intros l1 a b l2 E _. right; left. exact (H _ _ _ _ E).
Qed.
Theorem C50_rectilinear p ring : mid_pt p -> Forall mid_pt ring -> ring_closed ring -> (Z.of_nat (length ring) <= i32_max)%Z ->
  (forall l1 a b l2, ring = l1 ++ a :: b :: l2 -> axis_parallel a b) ->
  (on_chain (pt p) (map pt ring) -> locate_vec p ring = Ok BOUNDARY) /\
  (~ on_chain (pt p) (map pt ring) -> exists k, crossings (pt p) (map pt ring) k /\
     locate_vec p ring = Ok (if Nat.odd k then INTERIOR else EXTERIOR)).
Proof.
  intros Mp Mr Cl L H. apply locate_ring_spec, clear_located. now apply rectilinear_clear.
Qed.

(** ** C51 *)
Theorem C51_on_segment_clear p a b : mid_pt p -> mid_pt a -> mid_pt b -> (at_box p a b -> clear_of a b p) ->
  (is_on_segment p a b = true <-> on_seg (pt p) (pt a) (pt b)).
Proof.
  intros Mp Ma Mb C.
  destruct (Classical_Prop.classic (at_box p a b)) as [Bx|Bx].
  2: { unfold is_on_segment. pose proof (box3_R a b p (mid_fin _ Mp) (mid_fin _ Ma) (mid_fin _ Mb)) as B.
       assert (I : intersects_3 a b p = false).
       { apply not_true_is_false. intros I. apply Bx. apply B in I. unfold at_box, Rmin, Rmax in *.
         destruct (Rle_dec (R_of (cx a)) (R_of (cx b))), (Rle_dec (R_of (cy a)) (R_of (cy b))); nra. }
       rewrite I. cbn [negb]. split; [discriminate|]. intros (t & T & Hx & Hy). exfalso. apply Bx. unfold at_box. cbn [fst snd pt] in Hx, Hy.
       rewrite Hx, Hy. set (u := R_of (cx b) - R_of (cx a)). set (v := R_of (cy b) - R_of (cy a)).
       replace ((R_of (cx a) - (R_of (cx a) + t * u)) * (R_of (cx b) - (R_of (cx a) + t * u))) with (- (t * (1 - t) * (u * u))) by (unfold u; ring).
       replace ((R_of (cy a) - (R_of (cy a) + t * v)) * (R_of (cy b) - (R_of (cy a) + t * v))) with (- (t * (1 - t) * (v * v))) by (unfold v; ring).
       assert (0 <= t * (1 - t)) by nra. assert (0 <= u * u) by nra. assert (0 <= v * v) by nra. split; nra. }
  specialize (C Bx). clear Bx.
  apply is_on_segment_spec; try now apply mid_fin. now apply orient_clear.
Qed.
Theorem C51_on_line_clear p line : mid_pt p -> Forall mid_pt line ->
  (forall l1 a b l2, line = l1 ++ a :: b :: l2 -> at_box p a b -> clear_of a b p) ->
  exists b, is_on_line_vec p line = Ok b /\ (b = true <-> on_chain (pt p) (map pt line)).
Proof.
  intros Mp Ml H. rewrite is_on_line_vec_list. eexists. split; [reflexivity|].
  rewrite existsb_exists, on_chain_map. rewrite Forall_forall in Ml.
  assert (Q : forall a c, In (a, c) (segs line) -> (is_on_segment p a c = true <-> on_seg (pt p) (pt a) (pt c))).
  { intros a c I. pose proof (segs_In _ _ _ I) as [Ia Ic]. destruct (segs_split _ _ _ I) as (l1 & l2 & E).
    apply C51_on_segment_clear; auto. exact (H _ _ _ _ E). }
  split.
  - intros ([a c] & I & O). exists a, c. split; [exact I|]. now apply Q.
  - intros (a & c & I & O). exists (a, c). split; [exact I|]. now apply Q.
Qed.

Lemma mkf_pow k : (-388 <= k <= 470)%Z -> R_of (mkf 1 k) = bp k.
Proof. intros K. destruct (grid_mkf 1 k ltac:(lia) ltac:(lia)) as (_ & E). rewrite E. lra. Qed.
(** A triangle with sides of length 2^60 and a point 2^-60 off its corner, on
    no common grid. *)
Definition big_triangle : list Coordinate :=
  [new_xy f0 f0; new_xy (mkf 1 60) f0; new_xy f0 (mkf 1 60); new_xy f0 f0].
Definition near_corner : Coordinate := new_xy (mkf 1 (-60)) (mkf 1 (-60)).
Example C50_clear_example : clear_ring near_corner big_triangle /\
  ~ on_chain (pt near_corner) (map pt big_triangle) /\ locate_vec near_corner big_triangle = Ok INTERIOR.
Proof.
  assert (R60 : R_of (mkf 1 60) = bp 60) by (apply mkf_pow; lia).
  assert (Rm60 : R_of (mkf 1 (-60)) = bp (-60)) by (apply mkf_pow; lia).
  assert (B0 : 0 < bp (-60) <= / 4) by (split; [apply bpow_gt_0|]; change (/ 4) with (bp (-2)); apply bpow_le; lia).
  assert (B1 : 4 <= bp 60) by (change 4 with (bp 2); apply bpow_le; lia).
  assert (B2 : bp 60 * bp (-60) = 1) by now rewrite <- bpow_plus.
  assert (Cl : clear_ring near_corner big_triangle).
  { split; [split; apply mid_pow; lia|]. split; [|split; [|split; [cbn; unfold i32_max; lia|]]].
    - unfold big_triangle. repeat (apply Forall_cons; [split; first [apply mid_0|apply mid_pow; lia]|]). apply Forall_nil.
    - exists (new_xy f0 f0), [new_xy (mkf 1 60) f0; new_xy f0 (mkf 1 60)], (new_xy f0 f0). split; reflexivity.
    - intros l1 a b l2 E At. unfold big_triangle in E. unfold clear_of, axis_parallel.
      destruct l1 as [|? [|? [|? [|? l1]]]]; cbn [app] in E; try discriminate E.
      + injection E as <- <- _. right; left. right. reflexivity.
      + injection E as _ <- <- _. right; right. unfold off_line, near_corner, det_pts, det3. cbn [new_xy cx cy].
        rewrite R60, Rm60. change (R_of f0) with 0.
        assert (B3 : bp (-102) <= / 1024) by (change (/ 1024) with (bp (-10)); apply bpow_le; lia).
        pose proof (bpow_gt_0 radix2 (-102)) as B4.
        rewrite (Rabs_left1 (0 - bp 60)), (Rabs_pos_eq (bp 60 - 0)), (Rabs_left1 (bp (-60) - bp 60)), (Rabs_pos_eq (bp (-60) - 0)) by lra.
        set (z := bp 60) in *. set (y := bp (-60)) in *.
        replace ((0 - z) * (y - 0) - (z - 0) * (y - z)) with (z * z - 2 * (z * y)) by ring. rewrite B2.
        rewrite Rabs_pos_eq by nra.
        replace ((- (0 - z) + (z - 0)) * (- (y - z) + (y - 0) + (y - 0 + - (y - z)))) with (4 * (z * z)) by ring.
        assert (0 <= 4 * (z * z)) by nra.
        assert (bp (-102) * (4 * (z * z)) <= / 1024 * (4 * (z * z))) by (apply Rmult_le_compat_r; lra). nra.
      + injection E as _ _ <- <- _. right; left. left. reflexivity.
      + injection E as _ _ _ _ E. destruct l1; discriminate E. }
  assert (Loc : locate_vec near_corner big_triangle = Ok INTERIOR) by (vm_compute; reflexivity).
  split; [exact Cl|]. split; [|exact Loc]. intros O. apply (C50_boundary_clear _ _ Cl) in O. rewrite Loc in O. discriminate O.
Qed.
(** A rectangle on no grid, and a point on its right side. *)
Definition rect_ring : list Coordinate :=
  [new_xy f0 f0; new_xy (mkf 1 60) f0; new_xy (mkf 1 60) (mkf 1 (-60)); new_xy f0 (mkf 1 (-60)); new_xy f0 f0].
Example C50_rectilinear_example : Forall mid_pt rect_ring /\ ring_closed rect_ring /\
  (forall l1 a b l2, rect_ring = l1 ++ a :: b :: l2 -> axis_parallel a b) /\
  locate_vec (new_xy (mkf 1 60) (mkf 1 (-61))) rect_ring = Ok BOUNDARY /\
  locate_vec (new_xy (mkf 1 59) (mkf 1 (-61))) rect_ring = Ok INTERIOR.
Proof.
  split; [|split; [|split; [|split; vm_compute; reflexivity]]].
  - unfold rect_ring. repeat (apply Forall_cons; [split; first [apply mid_0|apply mid_pow; lia]|]). apply Forall_nil.
  - eexists _, [_; _; _], _. split; reflexivity.
  - intros l1 a b l2 E. unfold rect_ring in E. unfold axis_parallel.
    destruct l1 as [|? [|? [|? [|? [|? l1]]]]]; cbn [app] in E; try discriminate E.
    + injection E as <- <- _. right. reflexivity.
    + injection E as _ <- <- _. left. reflexivity.
    + injection E as _ _ <- <- _. right. reflexivity.
    + injection E as _ _ _ <- <- _. left. reflexivity.
    + injection E as _ _ _ _ _ E. destruct l1; discriminate E.
Qed.
(** A point just to the left of the big triangle. *)
Example C50_outside_clear_example : mid_pt (new_xy (mkf (-1) (-60)) (mkf 1 59)) /\ Forall mid_pt big_triangle /\ ring_closed big_triangle /\
  covers_xy (envelope_of big_triangle) (mkf (-1) (-60)) (mkf 1 59) = false /\
  locate_vec (new_xy (mkf (-1) (-60)) (mkf 1 59)) big_triangle = Ok EXTERIOR.
Proof.
  destruct C50_clear_example as ((_ & M & Cl & _) & _).
  split; [|split; [exact M|split; [exact Cl|split; vm_compute; reflexivity]]].
  split; [|apply mid_pow; lia]. cbn [cx new_xy].
  destruct (grid_mkf (-1) (-60) ltac:(lia) ltac:(lia)) as (F & E).
  assert (A : Rabs (R_of (mkf (-1) (-60))) = bp (-60)).
  { rewrite E. replace (IZR (-1) * bp (-60)) with (- bp (-60)) by (simpl; lra). rewrite Rabs_Ropp. apply Rabs_pos_eq, bpow_ge_0. }
  split; [exact F|]. rewrite A. split; [apply bpow_le; lia|]. right. apply bpow_le. lia.
Qed.
(** The triangle turns counterclockwise. *)
Example C50_triangle_clear_example : 0 < det_pts (new_xy f0 f0) (new_xy (mkf 1 60) f0) (new_xy f0 (mkf 1 60)).
Proof.
  unfold det_pts, det3. cbn [new_xy cx cy]. rewrite mkf_pow by lia. change (R_of f0) with 0. pose proof (bpow_gt_0 radix2 60). nra.
Qed.
