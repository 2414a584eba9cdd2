(** C47, C48 at arbitrary doubles: how far areas and lengths can be out. *)
From Coq Require Import ZArith Bool List Reals Lia Lra Psatz.
From Flocq Require Import Core IEEE754.BinarySingleNaN.
From Verif Require Import Base F64 F64Facts F64Err Coordinate_model CoordArrays_model CoordSeq_model
  Distance_float Distance_props Measure_model Measure_spec Measure_proofs Measure_props MeasureErr_spec MeasureErr_proofs.
Import ListNotations.
Local Open Scope R_scope.

(** The length of any line of ordinates up to 2^900, whose steps are empty or
    at least 2^-900 long, has a relative error of at most (n + 2) * 2^-52 for
    n points. *)
Theorem C48_error hypot s : hypot_accurate hypot -> Forall (pt_below 900) (scoords s) ->
  steps_above (-900) (map plane (scoords s)) -> (Z.of_nat (length (scoords s)) <= 2 ^ 50)%Z ->
  exists r, length_of_line hypot s = Ok r /\ fis_finite r = true /\
    Rabs (R_of r - path_length (map plane (scoords s))) <=
      (INR (length (scoords s)) + 2) * bp (-52) * path_length (map plane (scoords s)).
Proof.
  intros Hh Fl St N. rewrite length_seg_sum. eexists. split; [reflexivity|].
  destruct (seg_sum_near hypot (scoords s) Hh Fl St 0 f0 0) as (F & E).
  - exact N.
  - reflexivity.
  - cbn [INR]. lra.
  - change (R_of f0) with 0. rewrite Rminus_eq_0, Rabs_R0. lra.
  - split; [exact F|]. rewrite Rplus_0_l in E. cbn [Nat.add] in E. rewrite bp52.
    eapply Rle_trans; [exact E|]. apply Req_le. ring.
Qed.
(** So it is zero exactly if all points coincide. *)
Theorem C48_zero hypot s r : hypot_accurate hypot -> Forall (pt_below 900) (scoords s) ->
  steps_above (-900) (map plane (scoords s)) -> (Z.of_nat (length (scoords s)) <= 2 ^ 50)%Z ->
  length_of_line hypot s = Ok r ->
  (R_of r = 0 <-> forall l1 a b l2, scoords s = l1 ++ a :: b :: l2 -> plane a = plane b).
Proof.
  intros Hh Fl St N Er. destruct (C48_error hypot s Hh Fl St N) as (r' & Er' & _ & E).
  rewrite Er in Er'. injection Er' as <-.
  pose proof (path_length_nonneg (map plane (scoords s))) as P.
  assert (Z1 : R_of r = 0 <-> path_length (map plane (scoords s)) = 0).
  { assert (C : (INR (length (scoords s)) + 2) * bp (-52) <= / 2).
    { apply Rle_trans with (bp 51 * bp (-52)); [|rewrite <- bpow_plus; simpl; lra].
      apply Rmult_le_compat_r; [apply bpow_ge_0|]. change 51%Z with (50 + 1)%Z. rewrite bp_S.
      assert (INR (length (scoords s)) <= bp 50).
      { rewrite INR_IZR_INZ. change (bp 50) with (IZR (2 ^ 50)). now apply IZR_le. }
      assert (bp 1 <= bp 50) by (apply bpow_le; lia). simpl (bp 1) in *. lra. }
    assert (C' : (INR (length (scoords s)) + 2) * bp (-52) * path_length (map plane (scoords s)) <= / 2 * path_length (map plane (scoords s)))
      by now apply Rmult_le_compat_r.
    split; intros Z.
    - rewrite Z in E. rewrite Rminus_0_l, Rabs_Ropp, Rabs_pos_eq in E by exact P. lra.
    - rewrite Z in *. rewrite Rmult_0_r, Rminus_0_r in E. pose proof (Rabs_pos (R_of r)).
      destruct (Req_dec (R_of r) 0) as [|Nz]; [assumption|]. apply Rabs_pos_lt in Nz. lra. }
  rewrite Z1. clear. generalize (scoords s). intros l. induction l as [|a l IH].
  - split; [intros _ [|x l1] a b l2 H; discriminate H|reflexivity].
  - destruct l as [|b l].
    + split; [intros _ [|x [|y l1]] c d l2 H; discriminate H|reflexivity].
    + change (path_length (map plane (a :: b :: l))) with (euclid (plane a) (plane b) + path_length (map plane (b :: l))).
      pose proof (path_length_nonneg (map plane (b :: l))) as P.
      assert (Q : 0 <= euclid (plane a) (plane b)) by apply sqrt_pos.
      assert (D : euclid (plane a) (plane b) = 0 <-> plane a = plane b).
      { unfold euclid. destruct (plane a) as [xa ya], (plane b) as [xb yb]. cbn [fst snd]. split.
        - intros H. pose proof (Rle_0_sqr (xb - xa)) as Q1. pose proof (Rle_0_sqr (yb - ya)) as Q2. unfold Rsqr in Q1, Q2.
          apply sqrt_eq_0 in H; [|lra].
          destruct (Rplus_sqr_eq_0 (xb - xa) (yb - ya)) as [H1 H2]; [unfold Rsqr; lra|]. f_equal; lra.
        - intros H. injection H as -> ->. rewrite !Rminus_eq_0, Rmult_0_l, Rplus_0_l. apply sqrt_0. }
      split.
      * intros H [|x l1] c d l2 E.
        { injection E as <- <- _. apply D. lra. }
        injection E as _ E. apply (proj1 IH ltac:(lra) l1 c d l2 E).
      * intros H. rewrite (proj2 D (H [] a b l eq_refl)).
        rewrite (proj2 IH); [lra|]. intros l1 c d l2 E. apply (H (a :: l1) c d l2). now rewrite E.
Qed.

(** The signed area of any closed ring of n points of ordinates up to 2^480,
    in a box of width w and height h, differs from the true one by at most
    n (n + 1) 2^-53 w h, and n 2^-1075 more because of underflow. *)
Definition area_error (n : nat) (w h : R) : R :=
  INR n * (INR n + 1) * bp (-53) * (w * h) + INR n * bp (-1075).
Theorem C47_error w h cs : closed_chain cs -> Forall (pt_below 480) cs -> in_box w h (map plane cs) ->
  (Z.of_nat (length cs) <= 2 ^ 50)%Z ->
  exists r, signed_area_vec cs = Ok r /\ fis_finite r = true /\
    Rabs (R_of r - rtrapezoids (map plane cs) / 2) <= area_error (length cs) w h.
Proof.
  intros Cl Fc Bx N. destruct (signed_area_near cs Fc N) as (r & Er & Fr & Rr).
  exists r. split; [exact Er|]. split; [exact Fr|].
  assert (Ne : map plane cs <> []) by (destruct Cl as (a & m & ->); discriminate).
  rewrite rshoe_closed in Rr.
  2: { destruct Cl as (a & m & ->). exists (plane a), (map plane m). cbn [map]. now rewrite map_app. }
  eapply Rle_trans; [exact Rr|]. unfold area_error. apply Rplus_le_compat_r.
  pose proof (ashoe_box w h _ Bx Ne) as Ab. rewrite map_length in Ab.
  assert (P : 0 <= (INR (length cs) + 1) * bp (-53)).
  { apply Rmult_le_pos; [pose proof (pos_INR (length cs)); lra|apply bpow_ge_0]. }
  pose proof (Rmult_le_compat_l _ _ _ P Ab). lra.
Qed.
(** So a ring whose area is larger than that is told apart by its winding. *)
Theorem C47_ccw_area_error w h cs : closed_chain cs -> Forall (pt_below 480) cs -> in_box w h (map plane cs) ->
  (Z.of_nat (length cs) <= 2 ^ 50)%Z ->
  area_error (length cs) w h < Rabs (rtrapezoids (map plane cs) / 2) ->
  exists b, is_ccw_area_vec cs = Ok b /\ (b = true <-> rtrapezoids (map plane cs) < 0).
Proof.
  intros Cl Fc Bx N Big. destruct (C47_error w h cs Cl Fc Bx N) as (r & Er & Fr & Rr).
  unfold is_ccw_area_vec. rewrite Er. cbn [bind]. eexists. split; [reflexivity|].
  rewrite fltb_R by (assumption || reflexivity). change (R_of f0) with 0.
  apply Rabs_le_inv in Rr. set (t := rtrapezoids (map plane cs)) in *. unfold Rlt_bool.
  destruct (Rle_or_lt 0 t) as [Ht|Ht].
  - rewrite (Rabs_pos_eq (t / 2)) in Big by lra.
    destruct (Rcompare_spec (R_of r) 0); split; intros; try easy; lra.
  - rewrite (Rabs_left (t / 2)) in Big by lra.
    destruct (Rcompare_spec (R_of r) 0); split; intros; try easy; lra.
Qed.
(** Reversing a ring negates its signed area up to the two errors. *)
Lemma rtrapezoids_app l1 a l2 :
  rtrapezoids (l1 ++ a :: l2) = rtrapezoids (l1 ++ [a]) + rtrapezoids (a :: l2).
Proof.
  induction l1 as [|b l1 IH].
  - destruct a as [xa ya]. cbn [app]. cbn [rtrapezoids]. lra.
  - destruct l1 as [|c l1]; destruct b as [xb yb].
    + destruct a as [xa ya]. cbn [app].
      change (rtrapezoids ((xb, yb) :: (xa, ya) :: l2)) with ((xa - xb) * (yb + ya) + rtrapezoids ((xa, ya) :: l2)).
      change (rtrapezoids [(xb, yb); (xa, ya)]) with ((xa - xb) * (yb + ya) + 0). lra.
    + destruct c as [xc yc]. cbn [app] in *.
      change (rtrapezoids ((xb, yb) :: (xc, yc) :: l1 ++ a :: l2)) with
        ((xc - xb) * (yb + yc) + rtrapezoids ((xc, yc) :: l1 ++ a :: l2)).
      change (rtrapezoids ((xb, yb) :: (xc, yc) :: l1 ++ [a])) with
        ((xc - xb) * (yb + yc) + rtrapezoids ((xc, yc) :: l1 ++ [a])).
      lra.
Qed.
Lemma rtrapezoids_rev l : rtrapezoids (rev l) = - rtrapezoids l.
Proof.
  induction l as [|a l IH]; [cbn; lra|]. cbn [rev].
  destruct l as [|b l]; [destruct a; cbn; lra|].
  cbn [rev] in *. rewrite <- app_assoc. cbn [app]. rewrite rtrapezoids_app, IH.
  destruct a as [xa ya], b as [xb yb]. cbn [rtrapezoids]. lra.
Qed.
Theorem C47_reverse_error w h cs : closed_chain cs -> Forall (pt_below 480) cs -> in_box w h (map plane cs) ->
  (Z.of_nat (length cs) <= 2 ^ 50)%Z ->
  exists r r', signed_area_vec cs = Ok r /\ signed_area_vec (rev cs) = Ok r' /\
    Rabs (R_of r + R_of r') <= 2 * area_error (length cs) w h.
Proof.
  intros Cl Fc Bx N. destruct (C47_error w h cs Cl Fc Bx N) as (r & Er & _ & Rr).
  destruct (C47_error w h (rev cs)) as (r' & Er' & _ & Rr').
  - destruct Cl as (a & m & ->). exists a, (rev m). cbn [rev]. now rewrite rev_app_distr.
  - now apply Forall_rev.
  - destruct Bx as (x & y & Bx). exists x, y. rewrite map_rev. now apply Forall_rev.
  - now rewrite rev_length.
  - exists r, r'. split; [exact Er|]. split; [exact Er'|].
    rewrite map_rev, rtrapezoids_rev, rev_length in Rr'.
    apply Rabs_le_inv in Rr, Rr'. apply Rabs_le. lra.
Qed.

(** A ring and a line that lie on no grid: (0,0), (1/3,0), (1/3,1/7). *)
Definition oneth (n : Z) : f64 := fdiv (fofZ 1) (fofZ n).
Definition thirds : list Coordinate :=
  [new_xy f0 f0; new_xy (oneth 3) f0; new_xy (oneth 3) (oneth 7); new_xy f0 f0].
Lemma oneth_val n k : (2 <= n <= 7)%Z -> (-4 <= k <= -1)%Z -> bp k <= / IZR n <= bp (k + 1) ->
  fis_finite (oneth n) = true /\ bp k <= R_of (oneth n) <= bp (k + 1).
Proof.
  intros Hn Hk B. unfold oneth.
  destruct (grid_fofZ 1 ltac:(cbn; lia)) as [F1 R1]. destruct (grid_fofZ n) as [Fn Rn]; [cbn; lia|].
  change (bp 0) with 1 in *. rewrite Rmult_1_r in R1, Rn.
  assert (Nn : IZR n <> 0) by (apply not_0_IZR; lia).
  assert (Q : bp k <= RN (R_of (fofZ 1) / R_of (fofZ n)) <= bp (k + 1)).
  { rewrite R1, Rn. unfold Rdiv. rewrite Rmult_1_l. split.
    - rewrite <- (RN_id (bp k)) by (apply bpow_fmt; lia). now apply RN_le.
    - rewrite <- (RN_id (bp (k + 1))) by (apply bpow_fmt; lia). now apply RN_le. }
  destruct (fdiv_R (fofZ 1) (fofZ n) F1) as (F & E).
  - now rewrite Rn.
  - rewrite Rabs_pos_eq by (pose proof (bpow_ge_0 radix2 k); lra). eapply Rle_lt_trans; [apply Q|]. apply bpow_lt. lia.
  - split; [exact F|]. rewrite E. exact Q.
Qed.
Lemma third_val : fis_finite (oneth 3) = true /\ / 4 <= R_of (oneth 3) <= / 2.
Proof. apply (oneth_val 3 (-2)); [lia|lia|simpl; lra]. Qed.
Lemma seventh_val : fis_finite (oneth 7) = true /\ / 8 <= R_of (oneth 7) <= / 4.
Proof. apply (oneth_val 7 (-3)); [lia|lia|simpl; lra]. Qed.
Lemma thirds_below k : (0 <= k)%Z -> Forall (pt_below k) thirds.
Proof.
  intros Hk. destruct third_val as [F3 V3]. destruct seventh_val as [F7 V7].
  assert (B : bp 0 <= bp k) by now apply bpow_le. change (bp 0) with 1 in B.
  assert (Z0 : bf k f0) by (split; [reflexivity|]; change (R_of f0) with 0; rewrite Rabs_R0; lra).
  assert (T3 : bf k (oneth 3)) by (split; [exact F3|]; rewrite Rabs_pos_eq; lra).
  assert (T7 : bf k (oneth 7)) by (split; [exact F7|]; rewrite Rabs_pos_eq; lra).
  unfold thirds. repeat (apply Forall_cons; [split; assumption|]). apply Forall_nil.
Qed.
Lemma euclid_ge_x a b : Rabs (fst b - fst a) <= euclid a b.
Proof. unfold euclid. rewrite <- sqrt_Rsqr_abs. apply sqrt_le_1_alt. unfold Rsqr. pose proof (Rle_0_sqr (snd b - snd a)). unfold Rsqr in *. lra. Qed.
Lemma euclid_ge_y a b : Rabs (snd b - snd a) <= euclid a b.
Proof. unfold euclid. rewrite <- sqrt_Rsqr_abs. apply sqrt_le_1_alt. unfold Rsqr. pose proof (Rle_0_sqr (fst b - fst a)). unfold Rsqr in *. lra. Qed.
Example C48_error_example : hypot_accurate hypot_nearest /\ Forall (pt_below 900) thirds /\
  steps_above (-900) (map plane thirds) /\ / 2 <= path_length (map plane thirds).
Proof.
  destruct third_val as [F3 V3]. destruct seventh_val as [F7 V7].
  assert (B : bp (-900) <= / 8) by (change (/ 8) with (bp (-3)); apply bpow_le; lia).
  split; [exact hypot_nearest_accurate|]. split; [apply thirds_below; lia|].
  pose proof (euclid_ge_x (plane (new_xy f0 f0)) (plane (new_xy (oneth 3) f0))) as E1.
  pose proof (euclid_ge_y (plane (new_xy (oneth 3) f0)) (plane (new_xy (oneth 3) (oneth 7)))) as E2.
  pose proof (euclid_ge_x (plane (new_xy (oneth 3) (oneth 7))) (plane (new_xy f0 f0))) as E3.
  unfold plane in E1, E2, E3. cbn [fst snd new_xy cx cy] in E1, E2, E3.
  change (R_of f0) with 0 in E1, E2, E3.
  rewrite Rabs_pos_eq in E1 by lra. rewrite Rabs_pos_eq in E2 by lra. rewrite Rabs_left in E3 by lra.
  split.
  - unfold thirds. cbn [map]. unfold plane. cbn [new_xy cx cy]. change (R_of f0) with 0.
    intros l1 a b l2 E. right.
    destruct l1 as [|? [|? [|? [|? l1]]]]; cbn [app] in E; try discriminate E.
    + injection E as <- <- _. lra.
    + injection E as _ <- <- _. lra.
    + injection E as _ _ <- <- _. lra.
    + injection E as _ _ _ _ E. destruct l1; discriminate E.
  - unfold thirds. cbn [map path_length]. unfold plane. cbn [new_xy cx cy]. change (R_of f0) with 0. lra.
Qed.
Example C47_error_example : closed_chain thirds /\ Forall (pt_below 480) thirds /\ in_box (/ 2) (/ 4) (map plane thirds) /\
  area_error (length thirds) (/ 2) (/ 4) < Rabs (rtrapezoids (map plane thirds) / 2) /\
  match is_ccw_area_vec thirds with Ok b => b | Panic => false end = true.
Proof.
  destruct third_val as [F3 V3]. destruct seventh_val as [F7 V7].
  split; [exists (new_xy f0 f0), [new_xy (oneth 3) f0; new_xy (oneth 3) (oneth 7)]; reflexivity|].
  split; [apply thirds_below; lia|]. split; [|split; [|vm_compute; reflexivity]].
  - exists 0, 0. unfold thirds. cbn [map]. unfold plane. cbn [new_xy cx cy]. change (R_of f0) with 0.
    repeat (apply Forall_cons; [cbn [fst snd]; lra|]). apply Forall_nil.
  - unfold thirds. cbn [map rtrapezoids length]. unfold plane. cbn [new_xy cx cy rtrapezoids]. change (R_of f0) with 0.
    unfold area_error. cbn [INR].
    assert (B1 : bp (-53) <= / 65536) by (change (/ 65536) with (bp (-16)); apply bpow_le; lia).
    assert (B2 : bp (-1075) <= / 65536) by (change (/ 65536) with (bp (-16)); apply bpow_le; lia).
    rewrite Rabs_left; nra.
Qed.
