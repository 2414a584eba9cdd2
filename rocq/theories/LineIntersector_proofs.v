(** Lemmas for the line intersector. *)
From Coq Require Import ZArith Bool Reals Lia Lra Psatz.
From Flocq Require Import Core IEEE754.BinarySingleNaN.
From Verif Require Import Base F64 F64Facts F64Err Num NumLink Coordinate_model Envelope_model DD_spec
  Orientation_model Orientation_spec Orientation_proofs PointLocation_proofs Distance_model Distance_spec Distance_proofs Distance_float
  Distance_props PrecisionModel_model Intersection_model Intersection_spec Intersection_proofs LineIntersector_model LineIntersector_spec.
Local Open Scope R_scope.

(** ** Points on one line *)
Definition bt (a b x : R) : Prop := Rmin a b <= x <= Rmax a b.
Definition ln (o d : pR) (t : R) : pR := mkP (px o + t * px d) (py o + t * py d).
Definition box_overlap (a b c d : pR) : Prop :=
  Rmin (px a) (px b) <= Rmax (px c) (px d) /\ Rmin (px c) (px d) <= Rmax (px a) (px b) /\
  Rmin (py a) (py b) <= Rmax (py c) (py d) /\ Rmin (py c) (py d) <= Rmax (py a) (py b).
Ltac minmax := unfold bt, Rmin, Rmax in *;
  repeat match goal with
         | |- context [Rle_dec ?a ?b] => destruct (Rle_dec a b)
         | H : context [Rle_dec ?a ?b] |- _ => destruct (Rle_dec a b) end.
Lemma bt_prod a b x : bt a b x <-> 0 <= (x - a) * (b - x).
Proof.
  unfold bt, Rmin, Rmax. destruct (Rle_dec a b); split; intros H.
  - apply Rmult_le_pos; lra.
  - split; apply Rnot_lt_le; intros K; nra.
  - replace ((x - a) * (b - x)) with ((a - x) * (x - b)) by ring. apply Rmult_le_pos; lra.
  - split; apply Rnot_lt_le; intros K; nra.
Qed.
Lemma overlap_bt a b c d : (Rmin a b <= Rmax c d /\ Rmin c d <= Rmax a b) <-> exists x, bt a b x /\ bt c d x.
Proof.
  split.
  - intros (H1 & H2). exists (Rmax (Rmin a b) (Rmin c d)). minmax; lra.
  - intros (x & H1 & H2). minmax; lra.
Qed.
Section Line.
Variables o d : pR.
Hypothesis D : px d <> 0 \/ py d <> 0.
Let L := ln o d.
Lemma bt_scale u k a b x : bt a b x -> bt (u + a * k) (u + b * k) (u + x * k).
Proof.
  rewrite !bt_prod. intros H. replace ((u + x * k - (u + a * k)) * (u + b * k - (u + x * k))) with (((x - a) * (b - x)) * (k * k)) by ring.
  apply Rmult_le_pos; [exact H|nra].
Qed.
Lemma bt_unscale u k a b x : k <> 0 -> bt (u + a * k) (u + b * k) (u + x * k) -> bt a b x.
Proof.
  intros K H. pose proof (bt_scale (- u / k) (/ k) _ _ _ H) as E.
  replace (- u / k + (u + a * k) * / k) with a in E by (field; exact K).
  replace (- u / k + (u + b * k) * / k) with b in E by (field; exact K).
  replace (- u / k + (u + x * k) * / k) with x in E by (field; exact K). exact E.
Qed.
Lemma ln_box a b x : in_box2 (L a) (L b) (L x) <-> bt a b x.
Proof.
  unfold in_box2, L, ln. cbn [px py]. split.
  - intros (X & Y). destruct D as [K|K]; eapply bt_unscale; eauto; assumption.
  - intros H. split; now apply bt_scale.
Qed.
Lemma ln_side a b x : side (L a) (L b) (L x) = 0.
Proof. unfold side, L, ln. cbn [px py]. ring. Qed.
Lemma ln_seg a b x : on_segment (L a) (L b) (L x) <-> bt a b x.
Proof. rewrite <- ln_box. split; [intros H; now apply segment_box|intros H; apply box_segment; [exact H|apply ln_side]]. Qed.
Lemma ln_on a b q : on_segment (L a) (L b) q -> exists x, q = L x.
Proof. intros (t & _ & ->). exists (a + t * (b - a)). unfold L, ln, along. apply P2_ext; cbn [px py]; ring. Qed.
Lemma ln_inj a b : L a = L b -> a = b.
Proof.
  unfold L, ln. intros E. injection E as E1 E2. destruct D as [K|K].
  - apply Rmult_eq_reg_r with (px d); [lra|exact K].
  - apply Rmult_eq_reg_r with (py d); [lra|exact K].
Qed.
Lemma overlap_unscale u k a b c e : k <> 0 ->
  Rmin (u + a * k) (u + b * k) <= Rmax (u + c * k) (u + e * k) /\ Rmin (u + c * k) (u + e * k) <= Rmax (u + a * k) (u + b * k) ->
  Rmin a b <= Rmax c e /\ Rmin c e <= Rmax a b.
Proof.
  intros K H. apply overlap_bt in H. destruct H as (x & H1 & H2). apply overlap_bt. exists ((x - u) / k).
  replace x with (u + (x - u) / k * k) in H1, H2 by (field; exact K). split; eapply bt_unscale; eauto.
Qed.
Lemma ln_overlap a b c e : box_overlap (L a) (L b) (L c) (L e) -> Rmin a b <= Rmax c e /\ Rmin c e <= Rmax a b.
Proof.
  unfold box_overlap, L, ln. cbn [px py]. intros (H1 & H2 & H3 & H4). destruct D as [K|K].
  - apply (overlap_unscale (px o) (px d)); auto.
  - apply (overlap_unscale (py o) (py d)); auto.
Qed.
End Line.
(** Four points on one line have numbers along it. *)
Lemma ln_exists p1 p2 q1 q2 : side p1 p2 q1 = 0 -> side p1 p2 q2 = 0 -> side q1 q2 p1 = 0 -> side q1 q2 p2 = 0 ->
  exists o d t1 t2 u1 u2, (px d <> 0 \/ py d <> 0) /\ p1 = ln o d t1 /\ p2 = ln o d t2 /\ q1 = ln o d u1 /\ q2 = ln o d u2.
Proof.
  intros H1 H2 H3 H4.
  assert (forall a b : pR, a = b \/ (px b - px a <> 0 \/ py b - py a <> 0)) as DEC.
  { intros a b. destruct (Req_dec (px b - px a) 0); [|tauto]. destruct (Req_dec (py b - py a) 0); [|tauto].
    left. apply P2_ext; lra. }
  assert (forall a b c, (px b - px a <> 0 \/ py b - py a <> 0) -> side a b c = 0 -> exists t, c = ln a (mkP (px b - px a) (py b - py a)) t) as ON.
  { intros a b c N S. destruct (side_line a b c) as (t & E); [intros ->; destruct N; lra|exact S|]. exists t. rewrite E. reflexivity. }
  assert (forall a d, a = ln a d 0) as Z0 by (intros a d; unfold ln; apply P2_ext; cbn [px py]; ring).
  assert (forall a b, b = ln a (mkP (px b - px a) (py b - py a)) 1) as Z1 by (intros a b; unfold ln; apply P2_ext; cbn [px py]; ring).
  destruct (DEC p1 p2) as [E|N].
  - destruct (DEC q1 q2) as [E'|N].
    + destruct (DEC p1 q1) as [E''|N].
      * exists p1, (mkP 1 0), 0, 0, 0, 0. subst. cbn [px]. split; [left; lra|]. repeat split; apply Z0.
      * exists p1, (mkP (px q1 - px p1) (py q1 - py p1)), 0, 0, 1, 1. subst. split; [exact N|]. repeat split; apply Z0 || apply Z1.
    + destruct (ON q1 q2 p1 N H3) as (t1 & E1), (ON q1 q2 p2 N H4) as (t2 & E2).
      exists q1, (mkP (px q2 - px q1) (py q2 - py q1)), t1, t2, 0, 1. split; [exact N|]. repeat split; auto.
  - destruct (ON p1 p2 q1 N H1) as (t1 & E1), (ON p1 p2 q2 N H2) as (t2 & E2).
    exists p1, (mkP (px p2 - px p1) (py p2 - py p1)), 0, 1, t1, t2. split; [exact N|]. repeat split; auto.
Qed.
(** Two intervals: the common part, by which ends are inside the other one. *)
Definition both (t1 t2 u1 u2 x : R) : Prop := bt t1 t2 x /\ bt u1 u2 x.
Lemma both_inside t1 t2 u1 u2 x : bt t1 t2 u1 -> bt t1 t2 u2 -> (both t1 t2 u1 u2 x <-> bt u1 u2 x).
Proof. intros. unfold both. minmax; split; intros; try split; lra. Qed.
Lemma both_inside' t1 t2 u1 u2 x : bt u1 u2 t1 -> bt u1 u2 t2 -> (both t1 t2 u1 u2 x <-> bt t1 t2 x).
Proof. intros. unfold both. minmax; split; intros; try split; lra. Qed.
Lemma both_mixed t1 t2 u1 u2 x : bt t1 t2 u1 -> bt u1 u2 t1 -> ~ bt t1 t2 u2 -> ~ bt u1 u2 t2 -> (both t1 t2 u1 u2 x <-> bt u1 t1 x).
Proof. intros. unfold both. minmax; split; intros; try split; lra. Qed.
Lemma bt_sym a b x : bt a b x <-> bt b a x.
Proof. unfold bt. now rewrite Rmin_comm, Rmax_comm. Qed.
Lemma both_sym1 t1 t2 u1 u2 x : both t1 t2 u1 u2 x <-> both t2 t1 u1 u2 x.
Proof. unfold both. now rewrite (bt_sym t1). Qed.
Lemma both_sym2 t1 t2 u1 u2 x : both t1 t2 u1 u2 x <-> both t1 t2 u2 u1 x.
Proof. unfold both. now rewrite (bt_sym u1). Qed.
Lemma overlap_ends t1 t2 u1 u2 : Rmin t1 t2 <= Rmax u1 u2 -> Rmin u1 u2 <= Rmax t1 t2 ->
  (bt t1 t2 u1 \/ bt t1 t2 u2) /\ (bt u1 u2 t1 \/ bt u1 u2 t2) \/ (bt t1 t2 u1 /\ bt t1 t2 u2) \/ (bt u1 u2 t1 /\ bt u1 u2 t2).
Proof. intros. minmax; lra. Qed.

(** ** Lines that cross or touch *)
Definition apart (s t : R) : Prop := (0 < s /\ 0 < t) \/ (s < 0 /\ t < 0).
Lemma cross_anti a b c d : cross c d a b = - cross a b c d.
Proof. unfold cross. ring. Qed.
Lemma not_apart_param a b c d : cross a b c d <> 0 -> ~ apart (side a b c) (side a b d) -> 0 <= paramR c d a b <= 1.
Proof.
  intros N H. rewrite param_side by exact N. rewrite cross_side in N. unfold apart in H.
  set (s := side a b c) in *. set (t := side a b d) in *. clearbody s t.
  assert (s / (s - t) * (s - t) = s) as E by (field; lra).
  set (k := s / (s - t)) in *. clearbody k. destruct (Rtotal_order s t) as [L|[L|L]]; [|lra|]; split; nra.
Qed.
Lemma touch_meets p1 p2 q1 q2 : cross p1 p2 q1 q2 <> 0 ->
  ~ apart (side p1 p2 q1) (side p1 p2 q2) -> ~ apart (side q1 q2 p1) (side q1 q2 p2) ->
  let m := meetR p1 p2 q1 q2 in on_segment p1 p2 m /\ on_segment q1 q2 m.
Proof.
  intros N A B m. split.
  - exists (paramR p1 p2 q1 q2). split; [|now apply meet_param]. apply not_apart_param; [rewrite cross_anti; lra|exact B].
  - exists (paramR q1 q2 p1 p2). split; [|now apply meet_param2]. now apply not_apart_param.
Qed.
Lemma not_all_zero p1 p2 q1 q2 : ~ apart (side p1 p2 q1) (side p1 p2 q2) -> ~ apart (side q1 q2 p1) (side q1 q2 p2) ->
  ~ (side p1 p2 q1 = 0 /\ side p1 p2 q2 = 0 /\ side q1 q2 p1 = 0 /\ side q1 q2 p2 = 0) -> cross p1 p2 q1 q2 <> 0.
Proof.
  intros A B Z C. apply Z. pose proof (cross_side p1 p2 q1 q2) as E. pose proof (cross_side q1 q2 p1 p2) as F. rewrite cross_anti in F.
  unfold apart in *. lra.
Qed.
Lemma meet_side p1 p2 q1 q2 : cross p1 p2 q1 q2 <> 0 -> side p1 p2 q1 = 0 -> meetR p1 p2 q1 q2 = q1.
Proof.
  intros N S. rewrite meet_param2, param_side, S by exact N. unfold Rdiv. rewrite Rmult_0_l. unfold along. apply P2_ext; cbn [px py]; ring.
Qed.
Lemma meet_side' p1 p2 q1 q2 : cross p1 p2 q1 q2 <> 0 -> side p1 p2 q2 = 0 -> meetR p1 p2 q1 q2 = q2.
Proof.
  intros N S. rewrite meet_param2, param_side, S by exact N. rewrite cross_side in N.
  replace (side p1 p2 q1 / (side p1 p2 q1 - 0)) with 1 by (field; lra). unfold along. apply P2_ext; cbn [px py]; ring.
Qed.
Lemma meet_swap p1 p2 q1 q2 : cross p1 p2 q1 q2 <> 0 -> meetR q1 q2 p1 p2 = meetR p1 p2 q1 q2.
Proof.
  intros N. destruct (meetR_meets p1 p2 q1 q2 N) as (_ & _ & U). apply U.
  - exists (paramR p1 p2 q1 q2). apply meet_param2. rewrite cross_anti. lra.
  - exists (paramR q1 q2 p1 p2). apply meet_param. rewrite cross_anti. lra.
Qed.
Lemma seg_line a b q : on_segment a b q -> on_line a b q.
Proof. intros (t & _ & E). now exists t. Qed.

(** ** From doubles to real points *)
Lemma small_fin e c : small_pt e c -> fin_pt c.
Proof. intros [(n & _ & Gn) (m & _ & Gm)]. split; [apply Gn|apply Gm]. Qed.
Lemma box3_in a b c : fin_pt a -> fin_pt b -> fin_pt c -> (intersects_3 a b c = true <-> in_box2 (rpt a) (rpt b) (rpt c)).
Proof. intros A B C. rewrite box3_R by assumption. reflexivity. Qed.
Lemma fmin_fin a b : fis_finite a = true -> fis_finite b = true -> fis_finite (fmin a b) = true /\ R_of (fmin a b) = Rmin (R_of a) (R_of b).
Proof.
  intros A B. unfold fmin. rewrite (nn_finite a A : fis_nan a = false), (nn_finite b B : fis_nan b = false), fltb_R by assumption. unfold Rmin.
  destruct (Rlt_bool_spec (R_of b) (R_of a)), (Rle_dec (R_of a) (R_of b)); split; auto; lra.
Qed.
Lemma fmax_fin a b : fis_finite a = true -> fis_finite b = true -> fis_finite (fmax a b) = true /\ R_of (fmax a b) = Rmax (R_of a) (R_of b).
Proof.
  intros A B. unfold fmax. rewrite (nn_finite a A : fis_nan a = false), (nn_finite b B : fis_nan b = false), fltb_R by assumption. unfold Rmax.
  destruct (Rlt_bool_spec (R_of a) (R_of b)), (Rle_dec (R_of a) (R_of b)); split; auto; lra.
Qed.
Lemma box4_overlap a b c d : fin_pt a -> fin_pt b -> fin_pt c -> fin_pt d ->
  (intersects_4 a b c d = true <-> box_overlap (rpt a) (rpt b) (rpt c) (rpt d)).
Proof.
  intros (Ax & Ay) (Bx & By) (Cx & Cy) (Dx & Dy). unfold intersects_4, box_overlap, rpt. cbn [px py]. cbv zeta.
  destruct (fmin_fin _ _ Ax Bx) as (F1 & E1), (fmax_fin _ _ Ax Bx) as (F2 & E2), (fmin_fin _ _ Cx Dx) as (F3 & E3), (fmax_fin _ _ Cx Dx) as (F4 & E4).
  destruct (fmin_fin _ _ Ay By) as (F5 & E5), (fmax_fin _ _ Ay By) as (F6 & E6), (fmin_fin _ _ Cy Dy) as (F7 & E7), (fmax_fin _ _ Cy Dy) as (F8 & E8).
  unfold fgtb. rewrite !fltb_R, E1, E2, E3, E4, E5, E6, E7, E8 by assumption.
  do 4 (match goal with |- context [Rlt_bool ?x ?y] => destruct (Rlt_bool_spec x y); [split; [discriminate|intros; exfalso; lra]|] end).
  split; auto.
Qed.
Lemma equals_2d_rpt a b : fin_pt a -> fin_pt b -> (equals_2d a b = true <-> rpt a = rpt b).
Proof.
  intros (A1 & A2) (B1 & B2). rewrite equals_2d_eqb, andb_true_iff, !feqb_R by assumption. unfold rpt. split.
  - intros (X & Y). destruct (Req_bool_spec (R_of (cx a)) (R_of (cx b))); [|discriminate].
    destruct (Req_bool_spec (R_of (cy a)) (R_of (cy b))); [|discriminate]. now f_equal.
  - intros E. injection E as E1 E2. rewrite E1, E2. split; now apply Req_bool_true.
Qed.
Lemma sel_minmax a b : fis_finite a = true -> fis_finite b = true ->
  fis_finite (if fltb a b then a else b) = true /\ fis_finite (if fltb a b then b else a) = true /\
  R_of (if fltb a b then a else b) = Rmin (R_of a) (R_of b) /\ R_of (if fltb a b then b else a) = Rmax (R_of a) (R_of b).
Proof.
  intros A B. rewrite fltb_R by assumption. unfold Rmin, Rmax.
  destruct (Rlt_bool_spec (R_of a) (R_of b)), (Rle_dec (R_of a) (R_of b)); repeat split; auto; lra.
Qed.
Lemma env_in_box a b c : fin_pt a -> fin_pt b -> fin_pt c ->
  (covers_xy (env_new_coordinates a b) (cx c) (cy c) = true <-> in_box2 (rpt a) (rpt b) (rpt c)).
Proof.
  intros (A1 & A2) (B1 & B2) (C1 & C2). unfold covers_xy, is_null, env_new_coordinates. cbn [minx maxx miny maxy].
  destruct (sel_minmax _ _ A1 B1) as (F1 & F2 & E1 & E2). destruct (sel_minmax _ _ A2 B2) as (F3 & F4 & E3 & E4).
  rewrite fltb_R by assumption. rewrite E1, E2. rewrite Rlt_bool_false by (apply Rle_trans with (R_of (cx a)); [apply Rmin_l|apply Rmax_l]).
  unfold fgeb. change (@Bleb 53 1024) with fleb. rewrite !fleb_R by assumption. rewrite E1, E2, E3, E4.
  unfold in_box2, rpt. cbn [px py]. rewrite !andb_true_iff.
  split.
  - intros (((X & Y) & Z) & W). repeat match goal with H : Rle_bool ?a ?b = true |- _ => destruct (Rle_bool_spec a b); [clear H|discriminate] end. auto.
  - intros ((X & Y) & (Z & W)). repeat split; now apply Rle_bool_true.
Qed.
(** ** The collinear case *)
Lemma copy_xy p z : cx (copy_with_z p z) = cx p /\ cy (copy_with_z p z) = cy p.
Proof. unfold copy_with_z. destruct (negb _); split; reflexivity. Qed.
Lemma copy_rpt p z : rpt (copy_with_z p z) = rpt p.
Proof. unfold rpt. destruct (copy_xy p z) as (-> & ->). reflexivity. Qed.
Lemma copy_int_rpt p a b : rpt (copy_with_z_interpolate p a b) = rpt p.
Proof. apply copy_rpt. Qed.
(** The state tells the one shared point, or the shared segment. *)
Definition reports (s : LI) (r : Z) (p1 p2 q1 q2 : pR) : Prop :=
  (r = POINT_INTERSECTION /\ forall x, shared p1 p2 q1 q2 x <-> x = rpt (int_0 s)) \/
  (r = COLLINEAR_INTERSECTION /\ forall x, shared p1 p2 q1 q2 x <-> on_segment (rpt (int_0 s)) (rpt (int_1 s)) x).
Lemma seg_point a x : on_segment a a x <-> x = a.
Proof.
  split.
  - intros (t & _ & ->). unfold along. apply P2_ext; cbn [px py]; ring.
  - intros ->. exists 0. split; [lra|]. unfold along. apply P2_ext; cbn [px py]; ring.
Qed.
Lemma collinear_reports s p1 p2 q1 q2 : fin_pt p1 -> fin_pt p2 -> fin_pt q1 -> fin_pt q2 ->
  side (rpt p1) (rpt p2) (rpt q1) = 0 -> side (rpt p1) (rpt p2) (rpt q2) = 0 ->
  side (rpt q1) (rpt q2) (rpt p1) = 0 -> side (rpt q1) (rpt q2) (rpt p2) = 0 ->
  box_overlap (rpt p1) (rpt p2) (rpt q1) (rpt q2) ->
  let '(s', r) := compute_collinear_intersection s p1 p2 q1 q2 in reports s' r (rpt p1) (rpt p2) (rpt q1) (rpt q2).
Proof.
  intros F1 F2 F3 F4 H1 H2 H3 H4 OV.
  destruct (ln_exists _ _ _ _ H1 H2 H3 H4) as (o & d & t1 & t2 & u1 & u2 & D & E1 & E2 & E3 & E4).
  assert (intersects_3 p1 p2 q1 = true <-> bt t1 t2 u1) as B1 by (rewrite box3_in, E1, E2, E3 by assumption; now apply ln_box).
  assert (intersects_3 p1 p2 q2 = true <-> bt t1 t2 u2) as B2 by (rewrite box3_in, E1, E2, E4 by assumption; now apply ln_box).
  assert (intersects_3 q1 q2 p1 = true <-> bt u1 u2 t1) as B3 by (rewrite box3_in, E1, E3, E4 by assumption; now apply ln_box).
  assert (intersects_3 q1 q2 p2 = true <-> bt u1 u2 t2) as B4 by (rewrite box3_in, E2, E3, E4 by assumption; now apply ln_box).
  assert (OV' : Rmin t1 t2 <= Rmax u1 u2 /\ Rmin u1 u2 <= Rmax t1 t2).
  { rewrite E1, E2, E3, E4 in OV. eapply ln_overlap; eauto. }
  pose proof (overlap_ends _ _ _ _ (proj1 OV') (proj2 OV')) as OE.
  assert (SH : forall x, shared (rpt p1) (rpt p2) (rpt q1) (rpt q2) x <-> exists t, x = ln o d t /\ both t1 t2 u1 u2 t).
  { intros x. unfold shared, both. rewrite E1, E2, E3, E4. split.
    - intros (A & B). destruct (ln_on o d _ _ _ A) as (t & ->). exists t. rewrite !ln_seg in * by exact D. auto.
    - intros (t & -> & A & B). rewrite !ln_seg by exact D. auto. }
  assert (SEG : forall a b, (forall t, both t1 t2 u1 u2 t <-> bt a b t) ->
    forall x, shared (rpt p1) (rpt p2) (rpt q1) (rpt q2) x <-> on_segment (ln o d a) (ln o d b) x).
  { intros a b H x. rewrite SH. split.
    - intros (t & -> & T). rewrite ln_seg by exact D. now apply H.
    - intros T. destruct (ln_on o d _ _ _ T) as (t & ->). exists t. split; [reflexivity|]. apply H. now rewrite ln_seg in T. }
  rewrite E1, E2, E3, E4 in SEG. clear SH.
  unfold compute_collinear_intersection. cbv zeta.
  destruct (intersects_3 p1 p2 q1) eqn:Q1, (intersects_3 p1 p2 q2) eqn:Q2, (intersects_3 q1 q2 p1) eqn:P1, (intersects_3 q1 q2 p2) eqn:P2;
    cbn [andb negb]; rewrite ?andb_true_r, ?andb_false_r;
    repeat match goal with
           | H : true = true <-> _ |- _ => apply proj1 in H; specialize (H eq_refl)
           | H : false = true <-> ?P |- _ => apply proj2 in H; assert (~ P) by (intros K; discriminate (H K)); clear H
           end; try (exfalso; tauto).
  all: try (right; split; [reflexivity|]; intros x; cbn [int_0 int_1 li_set_0 li_set_1]; rewrite !copy_int_rpt, ?E1, ?E2, ?E3, ?E4;
    apply SEG; intros t; (now apply both_inside) || (now apply both_inside')).
  all: unfold reports; cbn [int_0 int_1 li_set_0 li_set_1]; rewrite !copy_int_rpt.
  all: match goal with SEG : forall a b : R, _ |- context [equals_2d ?a ?b] =>
     let E := fresh in let Q := fresh in
     assert (E : forall x, shared (rpt p1) (rpt p2) (rpt q1) (rpt q2) x <-> on_segment (rpt a) (rpt b) x);
     [intros x; rewrite ?E1, ?E2, ?E3, ?E4; apply SEG; intros t|
      destruct (equals_2d a b) eqn:Q;
      [apply equals_2d_rpt in Q; [|assumption..]; left; split; [reflexivity|]; intros x; rewrite E, <- Q; apply seg_point
      |right; split; [reflexivity|]; exact E]] end.
  - now apply both_mixed.
  - rewrite both_sym1. apply both_mixed; auto; rewrite bt_sym; auto.
  - rewrite both_sym2. apply both_mixed; auto; rewrite bt_sym; auto.
  - rewrite both_sym1, both_sym2. apply both_mixed; auto; rewrite bt_sym; auto.
Qed.
