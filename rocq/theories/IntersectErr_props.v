(** C53 and C54 off the grid: where lines through arbitrary doubles meet. *)
From Coq Require Import ZArith Bool Reals Lia Lra Psatz.
From Flocq Require Import Core IEEE754.BinarySingleNaN.
From Verif Require Import Base F64 F64Facts F64Err Num NumLink Coordinate_model Envelope_model DD_spec
  Orientation_model Orientation_spec Orientation_proofs Orientation_props PointLocation_proofs PointLocation_props
  LocateMid_spec LocateMid_props Distance_model Distance_spec Distance_proofs Distance_float
  Distance_props PrecisionModel_model Intersection_model Intersection_spec Intersection_proofs Intersection_props
  LineIntersector_model LineIntersector_spec LineIntersector_proofs LineIntersector_props IntersectMid_props
  IntersectErr_spec IntersectErr_proofs.
Local Open Scope R_scope.

Lemma spread_eq B w m : 1024 * (u53 * u53) * (B * B * (B + Rabs m) / Rabs w) = spread B w m.
Proof.
  unfold spread. f_equal. change 1024 with (bp 10). rewrite <- !bpow_plus. reflexivity.
Qed.
Lemma spread_pos B w m : 0 <= B -> w <> 0 -> 0 <= spread B w m.
Proof.
  intros H W. unfold spread. apply Rmult_le_pos; [apply bpow_ge_0|]. unfold Rdiv. apply Rmult_le_pos.
  - apply Rmult_le_pos; [nra|]. pose proof (Rabs_pos m). lra.
  - left. apply Rinv_0_lt_compat. now apply Rabs_pos_lt.
Qed.
(** [Intersection::intersection] on points whose coordinates are 0 or between
    2^-47 and 2^80 in size: if the lines are not nearly parallel it returns a
    point, and each ordinate is the double nearest to a number within
    2^-96 B^2 (B + |m|) / |w| of the true ordinate [m]. *)
Theorem C54_intersection_error : forall B p1 p2 q1 q2,
  plain_pt p1 -> plain_pt p2 -> plain_pt q1 -> plain_pt q2 -> upto B p1 -> upto B p2 -> upto B q1 -> upto B q2 ->
  let w := cross (rpt p1) (rpt p2) (rpt q1) (rpt q2) in
  bp (-97) * (B * B) < Rabs w ->
  exists q r, lines_meet (rpt p1) (rpt p2) (rpt q1) (rpt q2) q /\
    cgdd_intersection p1 p2 q1 q2 = Some r /\ r = new_xy (cx r) (cy r) /\
    rounded_within (spread B w (px q)) (cx r) (px q) /\ rounded_within (spread B w (py q)) (cy r) (py q).
Proof.
  intros B p1 p2 q1 q2 G1 G2 G3 G4 L1 L2 L3 L4. cbv zeta. intros H.
  assert (512 * (u53 * u53) * (B * B) < Rabs (cross (rpt p1) (rpt p2) (rpt q1) (rpt q2))) as H'.
  { replace (512 * (u53 * u53)) with (bp (-97)); [exact H|]. change 512 with (bp 9). rewrite <- !bpow_plus. reflexivity. }
  destruct (meet_err p1 p2 q1 q2 B G1 G2 G3 G4 L1 L2 L3 L4 H') as (r & E & N & Fx & Fy & Rx & Ry). cbv zeta in *.
  assert (0 <= bp (-97) * (B * B)) as P by (apply Rmult_le_pos; [apply bpow_ge_0|nra]).
  exists (meetR (rpt p1) (rpt p2) (rpt q1) (rpt q2)), r. split; [|split; [exact E|split; [exact N|]]].
  - apply meetR_meets. intros Z. rewrite Z, Rabs_R0 in H. lra.
  - rewrite !spread_eq in Rx, Ry. split; split; assumption.
Qed.
(** The line intersector on clear segments that cross properly at [m], when the
    error cannot carry a rounded ordinate over an edge of the segments' boxes:
    the point reported lies in both boxes and is [m] up to that error and one
    rounding. *)
Definition firm_box (E m g h : R) : Prop := firm E m g /\ firm E m h.
Theorem C53_proper_point_error : forall hypot s B p1 p2 q1 q2, clear_pair p1 p2 q1 q2 ->
  plain_pt p1 -> plain_pt p2 -> plain_pt q1 -> plain_pt q2 -> upto B p1 -> upto B p2 -> upto B q1 -> upto B q2 ->
  let a := rpt p1 in let b := rpt p2 in let c := rpt q1 in let d := rpt q2 in
  let w := cross a b c d in
  strictly_cross a b c d -> bp (-97) * (B * B) < Rabs w ->
  exists m, (forall y, shared a b c d y <-> y = m) /\
    ((firm_box (spread B w (px m)) (px m) (px a) (px b) -> firm_box (spread B w (py m)) (py m) (py a) (py b) ->
      firm_box (spread B w (px m)) (px m) (px c) (px d) -> firm_box (spread B w (py m)) (py m) (py c) (py d) ->
      let s' := compute_intersection_4 hypot s p1 p2 q1 q2 in
      li_result s' = 1%Z /\ li_proper s' = true /\
      exists r, rounded_within (spread B w (px m)) (cx r) (px m) /\ rounded_within (spread B w (py m)) (cy r) (py m) /\
        in_box2 a b (rpt r) /\ in_box2 c d (rpt r) /\
        same_xy (int_0 s') (match li_pm s with Some pm => make_precise_coordinate pm r | None => r end))).
Proof.
  intros hypot s B p1 p2 q1 q2 C G1 G2 G3 G4 L1 L2 L3 L4. cbv zeta. intros SC H.
  destruct (clear_sides _ _ _ _ C) as (F1 & F2 & F3 & F4 & SR).
  destruct (main_any hypot s p1 p2 q1 q2 F1 F2 F3 F4 SR) as ((R & SX) & IN).
  pose proof (proj2 SX SC) as Pr. specialize (IN Pr).
  destruct (C53_any_doubles hypot s p1 p2 q1 q2) as (_ & _ & _ & _ & One). destruct (One Pr) as (R1 & _).
  destruct R as [(R0 & _)|[(_ & x & UN & _ & PR)|(R2 & _)]]; [unfold NO_INTERSECTION in R0; rewrite R1 in R0; discriminate R0| |unfold COLLINEAR_INTERSECTION in R2; rewrite R1 in R2; discriminate R2].
  destruct (PR Pr) as (CR & Em). exists x. split; [exact UN|]. intros X1 Y1 X2 Y2.
  split; [exact R1|]. split; [exact Pr|].
  destruct (C54_intersection_error B p1 p2 q1 q2 G1 G2 G3 G4 L1 L2 L3 L4 H) as (q & r & M & ER & N & Rx & Ry).
  assert (q = x) as ->. { rewrite Em. apply (proj2 (proj2 (meetR_meets _ _ _ _ CR))); apply M. }
  pose proof (proj2 (UN x) eq_refl) as (T1 & T2). apply segment_box in T1, T2.
  assert (0 <= B) as B0. { destruct L1 as (L & _). pose proof (Rabs_pos (R_of (cx p1))). lra. }
  assert (forall u v E m, 0 <= E -> plain u -> plain v -> firm_box E m (R_of u) (R_of v) -> Rmin (R_of u) (R_of v) <= m <= Rmax (R_of u) (R_of v) ->
    forall t, rounded_within E t m -> Rmin (R_of u) (R_of v) <= R_of t <= Rmax (R_of u) (R_of v)) as Box.
  { intros u v E m E0 Pu Pv (Fu & Fv) (Lo & Hi) t (_ & v' & Et & D). rewrite Et. split.
    - unfold Rmin in *. destruct (Rle_dec (R_of u) (R_of v)); [now apply (firm_low u E m)|now apply (firm_low v E m)].
    - unfold Rmax in *. destruct (Rle_dec (R_of u) (R_of v)); [now apply (firm_high v E m)|now apply (firm_high u E m)]. }
  pose proof (spread_pos B _ (px x) B0 CR) as Ex. pose proof (spread_pos B _ (py x) B0 CR) as Ey.
  destruct G1 as (G1x & G1y), G2 as (G2x & G2y), G3 as (G3x & G3y), G4 as (G4x & G4y).
  destruct T1 as ((T1x & T1y) & _), T2 as ((T2x & T2y) & _).
  assert (in_box2 (rpt p1) (rpt p2) (rpt r)) as BX1.
  { split; [exact (Box (cx p1) (cx p2) _ _ Ex G1x G2x X1 T1x (cx r) Rx)|exact (Box (cy p1) (cy p2) _ _ Ey G1y G2y Y1 T1y (cy r) Ry)]. }
  assert (in_box2 (rpt q1) (rpt q2) (rpt r)) as BX2.
  { split; [exact (Box (cx q1) (cx q2) _ _ Ex G3x G4x X2 T2x (cx r) Rx)|exact (Box (cy q1) (cy q2) _ _ Ey G3y G4y Y2 T2y (cy r) Ry)]. }
  exists r. split; [exact Rx|]. split; [exact Ry|]. split; [exact BX1|]. split; [exact BX2|].
  unfold same_xy in *. destruct IN as (-> & ->).
  unfold li_intersection, intersection_safe. rewrite ER.
  unfold is_in_segment_envelopes. cbn [in_p1 in_p2 in_q1 in_q2 li_set_proper li_set_lines li_pm].
  assert (FR : fin_pt r) by (split; [apply Rx|apply Ry]).
  change (env_new_coordinates (from_coordinate p1) (from_coordinate p2)) with (env_new_coordinates p1 p2).
  change (env_new_coordinates (from_coordinate q1) (from_coordinate q2)) with (env_new_coordinates q1 q2).
  rewrite (proj2 (env_in_box p1 p2 r F1 F2 FR)) by exact BX1. rewrite (proj2 (env_in_box q1 q2 r F3 F4 FR)) by exact BX2.
  cbn [andb negb]. split; reflexivity.
Qed.
(** The diagonals of a square of side 2^40 + 2, too fine for the grid
    theorems; the bound on the error is about 2^-57. *)
Example C53_error_example : let N := (2 ^ 40 + 2)%Z in let B := IZR N in
  let p1 := ipt 0 0 in let p2 := ipt N N in let q1 := ipt 0 N in let q2 := ipt N 0 in
  let a := rpt p1 in let b := rpt p2 in let c := rpt q1 in let d := rpt q2 in let w := cross a b c d in
  let m := mkP (B / 2) (B / 2) in
  clear_pair p1 p2 q1 q2 /\ plain_pt p1 /\ plain_pt p2 /\ plain_pt q1 /\ plain_pt q2 /\
  upto B p1 /\ upto B p2 /\ upto B q1 /\ upto B q2 /\
  strictly_cross a b c d /\ bp (-97) * (B * B) < Rabs w /\ shared a b c d m /\
  firm_box (spread B w (px m)) (px m) (px a) (px b) /\ firm_box (spread B w (py m)) (py m) (py a) (py b) /\
  firm_box (spread B w (px m)) (px m) (px c) (px d) /\ firm_box (spread B w (py m)) (py m) (py c) (py d).
Proof.
  intros N B p1 p2 q1 q2 a b c d w m.
  assert (RN' : R_of (fofZ N) = B) by (rewrite (proj2 (grid_fofZ N ltac:(unfold N; lia))); cbn [bpow]; unfold B; lra).
  assert (R0' : R_of (fofZ 0) = 0) by (rewrite (proj2 (grid_fofZ 0 ltac:(lia))); cbn [bpow]; lra).
  assert (1 <= B) as B1 by (unfold B, N; apply IZR_le; lia).
  assert (B <= bp 41) as B2 by (unfold B, N; change (bp 41) with (IZR (2 ^ 41)); apply IZR_le; lia).
  assert (PN : plain (fofZ N)).
  { split; [reflexivity|]. rewrite RN', Rabs_pos_eq by lra. split; [eapply Rle_trans; [exact B2|apply bpow_le; lia]|right].
    apply Rle_trans with (bp 0); [apply bpow_le; lia|exact B1]. }
  assert (P0 : plain (fofZ 0)).
  { split; [reflexivity|]. rewrite R0', Rabs_R0. split; [apply bpow_ge_0|now left]. }
  assert (MID : forall x, plain x -> mid x).
  { intros x (F & U & L). split; [exact F|]. split; [eapply Rle_trans; [exact U|apply bpow_le; lia]|].
    destruct L as [L|L]; [now left|right]. eapply Rle_trans; [|exact L]. apply bpow_le. lia. }
  assert (G1 : plain_pt p1) by (split; exact P0). assert (G2 : plain_pt p2) by (split; exact PN).
  assert (G3 : plain_pt q1) by (split; [exact P0|exact PN]). assert (G4 : plain_pt q2) by (split; [exact PN|exact P0]).
  assert (U0 : Rabs (R_of (fofZ 0)) <= B) by (rewrite R0', Rabs_R0; lra).
  assert (UN : Rabs (R_of (fofZ N)) <= B) by (rewrite RN', Rabs_pos_eq; lra).
  assert (Ea : a = mkP 0 0) by (unfold a, p1, rpt, ipt, new_xy; cbn [cx cy]; now rewrite R0').
  assert (Eb : b = mkP B B) by (unfold b, p2, rpt, ipt, new_xy; cbn [cx cy]; now rewrite RN').
  assert (Ec : c = mkP 0 B) by (unfold c, q1, rpt, ipt, new_xy; cbn [cx cy]; now rewrite RN', R0').
  assert (Ed : d = mkP B 0) by (unfold d, q2, rpt, ipt, new_xy; cbn [cx cy]; now rewrite RN', R0').
  assert (Ew : Rabs w = 2 * (B * B)) by (unfold w, cross; rewrite Ea, Eb, Ec, Ed; cbn [px py]; rewrite Rabs_left; nra).
  assert (SP : forall x, Rabs x <= B -> spread B w x <= / 2).
  { intros x X. unfold spread. rewrite Ew. replace (B * B * (B + Rabs x) / (2 * (B * B))) with ((B + Rabs x) / 2) by (field; nra).
    apply Rle_trans with (bp (-96) * bp 41); [apply Rmult_le_compat_l; [apply bpow_ge_0|lra]|].
    rewrite <- bpow_plus. change (/ 2) with (bp (-1)). apply bpow_le. lia. }
  assert (FB : forall u, u = 0 \/ u = B -> firm (spread B w (B / 2)) (B / 2) u).
  { intros u U. left. specialize (SP (B / 2)). rewrite Rabs_pos_eq in SP by lra. destruct U as [->| ->].
    - rewrite Rabs_pos_eq; lra.
    - rewrite Rabs_left1; lra. }
  split.
  { split; [split; apply MID; [apply G1|apply G1]|]. split; [split; apply MID; apply G2|]. split; [split; apply MID; apply G3|]. split; [split; apply MID; apply G4|].
    intros _. unfold clear_of, one_range, p1, p2, q1, q2, ipt, new_xy. cbn [cx cy]. rewrite RN', R0'. repeat split; left; nra. }
  do 4 (split; [assumption|]). do 4 (split; [split; assumption|]).
  split. { unfold strictly_cross, opposite, side. rewrite Ea, Eb, Ec, Ed. cbn [px py]. nra. }
  split. { rewrite Ew. assert (bp (-97) < 1) as Q by (change 1 with (bp 0); apply bpow_lt; lia). assert (0 < B * B) by nra. nra. }
  split. { rewrite Ea, Eb, Ec, Ed. split; exists (/ 2); (split; [lra|]); unfold m, along; cbn [px py]; f_equal; field. }
  rewrite Ea, Eb, Ec, Ed. unfold m. cbn [px py]. unfold firm_box. repeat split; apply FB; auto.
Qed.
