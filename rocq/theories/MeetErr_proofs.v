(** Rounding errors of plain double precision intersections. *)
From Coq Require Import ZArith Bool List Reals Lia Lra Psatz.
From Flocq Require Import Core IEEE754.BinarySingleNaN.
From Verif Require Import Base F64 F64Facts F64Err Num NumLink Coordinate_model Distance_spec Distance_proofs Distance_float
  MeasureErr_proofs CentroidErr_proofs Intersection_model Intersection_spec Intersection_proofs MeetErr_spec.
Import ListNotations.
Local Open Scope R_scope.

Lemma u_tiny k : 0 <= k <= 1024 -> k * u53 <= / 64.
Proof.
  intros K. assert (u53 * bp 24 <= / 1024 / 1024) as U2.
  { rewrite <- bpow_plus. replace (/ 1024 / 1024) with (bp (-20)) by (simpl; lra). apply bpow_le. lia. }
  change (bp 24) with 16777216 in U2. pose proof u53_pos. nra.
Qed.
Definition npt (B : R) (x y : f64) (P : pR) : Prop := nr 1 B x (px P) /\ nr 1 B y (py P).
Section Meet.
Variable B : R.
Hypothesis HB : bp (-250) <= B <= bp 300.
Let B0 : 0 < B.
Proof. pose proof (bpow_gt_0 radix2 (-250)). lra. Qed.
Lemma B2_range : bp (-500) <= B * B <= bp 600.
Proof.
  pose proof (bpow_gt_0 radix2 (-250)).
  assert (bp (-250) * bp (-250) = bp (-500)) as E1 by exact (eq_sym (bpow_plus radix2 (-250) (-250))).
  assert (bp 300 * bp 300 = bp 600) as E2 by exact (eq_sym (bpow_plus radix2 300 300)).
  rewrite <- E1, <- E2. split; apply Rmult_le_compat; lra.
Qed.
Lemma B3_range : bp (-750) <= B * B * B <= bp 900.
Proof.
  pose proof (bpow_gt_0 radix2 (-250)). pose proof (bpow_gt_0 radix2 (-500)). pose proof B2_range.
  assert (bp (-500) * bp (-250) = bp (-750)) as E1 by exact (eq_sym (bpow_plus radix2 (-500) (-250))).
  assert (bp 600 * bp 300 = bp 900) as E2 by exact (eq_sym (bpow_plus radix2 600 300)).
  rewrite <- E1, <- E2. split; apply Rmult_le_compat; lra.
Qed.
Lemma ranges : B + B <= bp 1000 /\ bp (-900) <= B * B /\ B * B + B * B <= bp 1000 /\
  bp (-900) <= (B + B) * (B + B) <= bp 1000 /\ (B + B) * (B + B) + (B + B) * (B + B) <= bp 1000 /\
  bp (-900) <= (B + B) * (B * B + B * B) <= bp 1000 /\ (B + B) * (B * B + B * B) + (B + B) * (B * B + B * B) <= bp 1000.
Proof.
  pose proof B2_range as (L2 & U2). pose proof B3_range as (L3 & U3).
  assert (bp (-900) <= bp (-500)) by (apply bpow_le; lia). assert (bp (-900) <= bp (-750)) by (apply bpow_le; lia).
  assert (bp 910 <= bp 1000) by (apply bpow_le; lia). assert (bp 300 <= bp 900) by (apply bpow_le; lia). assert (bp 600 <= bp 900) by (apply bpow_le; lia).
  assert (1024 * bp 900 = bp 910) as E by exact (eq_sym (bpow_plus radix2 10 900)).
  pose proof (bpow_gt_0 radix2 900). repeat split; nra.
Qed.
Lemma det_nr x1 y1 x2 y2 P Q : npt B x1 y1 P -> npt B x2 y2 Q ->
  nr 6 (B * B + B * B) (fsub (fmul x1 y2) (fmul x2 y1)) (px P * py Q - px Q * py P).
Proof.
  intros (X1 & Y1) (X2 & Y2). destruct ranges as (R1 & R2 & R3 & _). pose proof B2_range as (L2 & U2).
  assert (bp 600 <= bp 1000) by (apply bpow_le; lia).
  replace 6 with (1 + 1 + 2 + 2) by ring. apply nr_sub; [lra|apply u_tiny; lra|exact R3| |]; apply nr_mul; auto; lra.
Qed.
Lemma dif_nr x y r s : nr 1 B x r -> nr 1 B y s -> nr 3 (B + B) (fsub x y) (r - s).
Proof. intros X Y. destruct ranges as (R1 & _). replace 3 with (1 + 2) by ring. apply nr_sub; [lra|apply u_tiny; lra|exact R1|exact X|exact Y]. Qed.
Lemma dif_dif_nr a b c d ra rb rc rd : nr 3 (B + B) a ra -> nr 3 (B + B) b rb -> nr 3 (B + B) c rc -> nr 3 (B + B) d rd ->
  nr 10 (8 * (B * B)) (fsub (fmul a b) (fmul c d)) (ra * rb - rc * rd).
Proof.
  intros A' B' C' D'. destruct ranges as (_ & _ & _ & R4 & R5 & _).
  replace (8 * (B * B)) with ((B + B) * (B + B) + (B + B) * (B + B)) by ring.
  replace 10 with (3 + 3 + 2 + 2) by ring. apply nr_sub; [lra|apply u_tiny; lra|exact R5| |]; apply nr_mul; auto; lra.
Qed.
Lemma dif_det_nr a b c d ra rb rc rd : nr 3 (B + B) a ra -> nr 6 (B * B + B * B) b rb -> nr 3 (B + B) c rc -> nr 6 (B * B + B * B) d rd ->
  nr 13 (8 * (B * B * B)) (fsub (fmul a b) (fmul c d)) (ra * rb - rc * rd).
Proof.
  intros A' B' C' D'. destruct ranges as (_ & _ & _ & _ & _ & R6 & R7).
  replace (8 * (B * B * B)) with ((B + B) * (B * B + B * B) + (B + B) * (B * B + B * B)) by ring.
  replace 13 with (3 + 6 + 2 + 2) by ring. apply nr_sub; [lra|apply u_tiny; lra|exact R7| |]; apply nr_mul; auto; lra.
Qed.
Lemma meet_nr a b c d P Q S T : npt B (cx a) (cy a) P -> npt B (cx b) (cy b) Q -> npt B (cx c) (cy c) S -> npt B (cx d) (cy d) T ->
  let m := h_meet a b c d in
  nr 13 (8 * (B * B * B)) (hx m) (hxR P Q S T) /\ nr 13 (8 * (B * B * B)) (hy m) (hyR P Q S T) /\ nr 10 (8 * (B * B)) (hw m) (cross P Q S T).
Proof.
  intros A' B' C' D'. pose proof (det_nr _ _ _ _ _ _ A' B') as Pw. pose proof (det_nr _ _ _ _ _ _ C' D') as Qw.
  destruct A' as (X1 & Y1), B' as (X2 & Y2), C' as (X3 & Y3), D' as (X4 & Y4).
  pose proof (dif_nr _ _ _ _ Y1 Y2) as Px. pose proof (dif_nr _ _ _ _ X2 X1) as Py.
  pose proof (dif_nr _ _ _ _ Y3 Y4) as Qx. pose proof (dif_nr _ _ _ _ X4 X3) as Qy.
  unfold h_meet. cbn [hx hy hw]. cbv zeta. unfold hxR, hyR. split; [|split].
  - now apply dif_det_nr.
  - now apply dif_det_nr.
  - replace (cross P Q S T) with ((py P - py Q) * (px T - px S) - (py S - py T) * (px Q - px P)) by (unfold cross; ring). now apply dif_dif_nr.
Qed.
Lemma quot_nr x w X W : nr 13 (8 * (B * B * B)) x X -> nr 10 (8 * (B * B)) w W -> 256 * u53 * (B * B) < Rabs W ->
  fis_finite (fdiv x w) = true /\ Rabs (R_of (fdiv x w) - X / W) <= 256 * u53 * (B * B * (B + Rabs (X / W)) / Rabs W) /\
  Rabs (X / W) <= bp 400 /\ Rabs (R_of (fdiv x w)) <= bp 402.
Proof.
  intros (Fx & Ex & Mx) (Fw & Ew & Mw) H. pose proof u53_pos as Up. pose proof B2_range as (L2 & U2). pose proof (bpow_gt_0 radix2 (-500)) as P5.
  assert (0 < Rabs W) as Wp by nra. assert (W <> 0) as W0 by (intros ->; rewrite Rabs_R0 in Wp; lra).
  destruct (quot_err (R_of x) X (R_of w) W _ _ W0 Ex Ew ltac:(nra)) as (Q & Hy).
  set (C := Rabs (X / W)) in *. assert (0 <= C) as C0 by apply Rabs_pos.
  set (k := B * B / Rabs W). assert (0 < k) as K0 by (apply Rdiv_lt_0_compat; lra).
  assert (k * Rabs W = B * B) as KW by (unfold k; field; lra).
  assert (u53 * k < / 256) as Ku by nra.
  assert (/ 8 <= k) as K8 by nra.
  replace (B * B * (B + C) / Rabs W) with (k * (B + C)) by (unfold k; field; lra).
  replace (2 * (13 * u53 * (8 * (B * B * B)) + C * (10 * u53 * (8 * (B * B)))) / Rabs W) with (u53 * (k * (208 * B + 160 * C))) in Q by (unfold k; field; lra).
  assert (C <= bp 400) as CU.
  { unfold C, Rdiv. rewrite Rabs_mult, Rabs_inv. change (Rabs X / Rabs W <= bp 400). apply Rle_trans with (8 * k * B).
    - replace (8 * k * B) with (8 * (B * B * B) / Rabs W) by (unfold k; field; lra). apply Rmult_le_compat_r; [left; now apply Rinv_0_lt_compat|exact Mx].
    - assert (k <= bp 53 / 256).
      { assert (u53 * bp 53 = 1) as U1 by exact (eq_sym (bpow_plus radix2 (-53) 53)). pose proof (bpow_gt_0 radix2 53). nra. }
      assert (bp 53 * bp 300 = bp 353) as E by exact (eq_sym (bpow_plus radix2 53 300)). assert (bp 353 <= bp 400) by (apply bpow_le; lia).
      pose proof (bpow_gt_0 radix2 53).
      assert (k * B <= bp 53 / 256 * bp 300) by (apply Rmult_le_compat; lra). nra. }
  assert (u53 * (k * (208 * B + 160 * C)) <= B + C) as Q1.
  { replace (u53 * (k * (208 * B + 160 * C))) with ((u53 * k) * (208 * B + 160 * C)) by ring. nra. }
  assert (bp 402 = 4 * bp 400) as B402 by (change 402%Z with (400 + 1 + 1)%Z; rewrite !bp_S; ring).
  assert (bp 300 <= bp 400) as B34 by (apply bpow_le; lia).
  assert (Rabs (R_of x / R_of w) <= C + u53 * (k * (208 * B + 160 * C))) as Sz.
  { replace (R_of x / R_of w) with (X / W + (R_of x / R_of w - X / W)) by ring. eapply Rle_trans; [apply Rabs_triang|]. unfold C in *. lra. }
  assert (R_of w <> 0) as Rw. { intros E. rewrite E, Rabs_R0 in Hy. lra. }
  destruct (fdiv_R x w Fx Rw) as (F & E).
  { apply (RN_small' _ 402); [lia|]. lra. }
  pose proof (RN_err (R_of x / R_of w)) as Er. rewrite <- E in Er.
  assert (bp (-1075) <= u53 * B / 1024) as Et.
  { apply eta_le. apply Rle_trans with (bp (-250)); [apply bpow_le; lia|lra]. }
  assert (u53 <= / 1024) as Us by (pose proof (u_tiny 16 ltac:(lra)); lra).
  assert (Rabs (R_of (fdiv x w) - X / W) <= 256 * u53 * (k * (B + C))) as M.
  { assert (u53 * Rabs (R_of x / R_of w) <= u53 * (C + u53 * (k * (208 * B + 160 * C)))) as T1 by (apply Rmult_le_compat_l; lra).
    assert (u53 * (u53 * (k * (208 * B + 160 * C))) <= / 1024 * (u53 * (k * (208 * B + 160 * C)))) as T2.
    { apply Rmult_le_compat_r; [|lra]. assert (0 <= k * (208 * B + 160 * C)) by nra. nra. }
    assert (u53 * C <= u53 * (8 * k * C)) as T3 by (apply Rmult_le_compat_l; [lra|nra]).
    assert (u53 * B / 1024 <= u53 * (k * B)) as T4 by (replace (u53 * B / 1024) with (u53 * (B / 1024)) by field; apply Rmult_le_compat_l; [lra|nra]).
    assert (0 <= u53 * (k * B)) as N1 by (apply Rmult_le_pos; nra). assert (0 <= u53 * (k * C)) as N2 by (apply Rmult_le_pos; nra).
    replace (R_of (fdiv x w) - X / W) with ((R_of (fdiv x w) - R_of x / R_of w) + (R_of x / R_of w - X / W)) by ring.
    eapply Rle_trans; [apply Rabs_triang|]. lra. }
  split; [exact F|]. split; [exact M|]. split; [exact CU|].
  replace (R_of (fdiv x w)) with (X / W + (R_of (fdiv x w) - X / W)) by ring. eapply Rle_trans; [apply Rabs_triang|]. fold C.
  assert (256 * u53 * (k * (B + C)) <= B + C) by (replace (256 * u53 * (k * (B + C))) with (256 * (u53 * k) * (B + C)) by ring; nra). lra.
Qed.
End Meet.

(** ** The centre taken by [intersection_fp] *)
Lemma fp_mid_pick a b c d : exists s t, In s [a; b; c; d] /\ In t [a; b; c; d] /\ fp_mid a b c d = fdiv (fadd s t) f2.
Proof.
  unfold fp_mid. cbv zeta.
  assert (forall (o : bool) x y, In x [a; b; c; d] -> In y [a; b; c; d] -> In (if o then x else y) [a; b; c; d]) as S by (intros [|] x y; auto).
  do 2 eexists. split; [|split; [|reflexivity]]; repeat apply S; cbn; tauto.
Qed.
Lemma half_between s t : fis_finite s = true -> fis_finite t = true -> Rabs (R_of s) <= bp 900 -> Rabs (R_of t) <= bp 900 ->
  let m := fdiv (fadd s t) f2 in fis_finite m = true /\ Rmin (R_of s) (R_of t) <= R_of m <= Rmax (R_of s) (R_of t).
Proof.
  intros Fs Ft Ss St. cbv zeta.
  assert (bp 902 = 4 * bp 900) as E2 by (change 902%Z with (900 + 1 + 1)%Z; rewrite !bp_S; ring).
  assert (Rabs (R_of s + R_of t) <= bp 902) as S1 by (eapply Rle_trans; [apply Rabs_triang|]; pose proof (bpow_gt_0 radix2 900); lra).
  destruct (fadd_R s t Fs Ft) as (F & E); [apply (RN_small' _ 902); [lia|exact S1]|].
  assert (forall x : f64, fmt (2 * R_of x)) as D.
  { intros x. apply generic_format_FLT. destruct (FLT_format_generic _ _ _ _ (generic_format_B2R 53 1024 x)) as [f Ef Hm He].
    exists (Float radix2 (Fnum f) (Fexp f + 1)); cbn [Fnum Fexp]; [|exact Hm|lia].
    unfold R_of; rewrite Ef. unfold F2R. cbn [Fnum Fexp]. rewrite bpow_plus. change (bp 1) with 2%R. ring. }
  assert (forall v x, v <= 2 * R_of x -> RN v <= 2 * R_of x) as U.
  { intros v x H. rewrite <- (RN_id _ (D x)). now apply RN_le. }
  assert (forall v x, 2 * R_of x <= v -> 2 * R_of x <= RN v) as L.
  { intros v x H. rewrite <- (RN_id _ (D x)). now apply RN_le. }
  set (v := R_of (fadd s t)) in *.
  assert (2 * Rmin (R_of s) (R_of t) <= v <= 2 * Rmax (R_of s) (R_of t)) as V.
  { rewrite E. unfold Rmin, Rmax. destruct (Rle_dec (R_of s) (R_of t)); split; (apply U || apply L); lra. }
  assert (Rmin (R_of s) (R_of t) <= v / 2 <= Rmax (R_of s) (R_of t)) as V2 by lra.
  destruct (fdiv_R (fadd s t) f2 F) as (F' & E'); [rewrite f2_val; lra| |].
  { rewrite f2_val. apply (RN_small' _ 900); [lia|]. fold v. apply Rabs_le. apply Rabs_le_inv in Ss, St.
    unfold Rmin, Rmax in V2. destruct (Rle_dec _ _); lra. }
  rewrite f2_val in E'. fold v in E'. split; [exact F'|]. rewrite E'.
  assert (fmt (Rmin (R_of s) (R_of t))) as M1 by (unfold Rmin; destruct (Rle_dec _ _); apply format_R).
  assert (fmt (Rmax (R_of s) (R_of t))) as M2 by (unfold Rmax; destruct (Rle_dec _ _); apply format_R).
  split.
  - rewrite <- (RN_id _ M1). apply RN_le, V2.
  - rewrite <- (RN_id _ M2). apply RN_le, V2.
Qed.
(** Every ordinate is as near to the centre as to the other ordinates. *)
Lemma fp_mid_near D a b c d : (forall x, In x [a; b; c; d] -> fis_finite x = true /\ Rabs (R_of x) <= bp 900) ->
  (forall x y, In x [a; b; c; d] -> In y [a; b; c; d] -> Rabs (R_of x - R_of y) <= D) ->
  fis_finite (fp_mid a b c d) = true /\ Rabs (R_of (fp_mid a b c d)) <= bp 900 /\ forall x, In x [a; b; c; d] -> Rabs (R_of x - R_of (fp_mid a b c d)) <= D.
Proof.
  intros F H. destruct (fp_mid_pick a b c d) as (s & t & Is & It & ->).
  destruct (F s Is) as (Fs & Ss), (F t It) as (Ft & St).
  destruct (half_between s t Fs Ft Ss St) as (Fm & V). split; [exact Fm|]. set (m := R_of (fdiv (fadd s t) f2)) in *. clearbody m.
  apply Rabs_le_inv in Ss, St. split.
  - apply Rabs_le. unfold Rmin, Rmax in V. destruct (Rle_dec _ _); lra.
  - intros x Ix. pose proof (H x s Ix Is) as H1. pose proof (H x t Ix It) as H2. apply Rabs_le_inv in H1, H2.
    apply Rabs_le. unfold Rmin, Rmax in V. destruct (Rle_dec _ _); lra.
Qed.
