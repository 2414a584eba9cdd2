(** C54: intersections of lines, and of a line with a segment. *)
From Coq Require Import ZArith Bool Reals Lia Lra Psatz.
From Flocq Require Import Core IEEE754.BinarySingleNaN.
From Verif Require Import Base F64 F64Facts F64Err Num NumLink Coordinate_model DD_model DD_spec DD_more
  Orientation_model Orientation_spec Orientation_proofs Orientation_props Distance_model Distance_spec Distance_proofs Distance_float
  Distance_props Intersection_model Intersection_spec Intersection_proofs.
Local Open Scope R_scope.

(** [r] is the double nearest to a number within a relative 2^-100 of [v]. *)
Definition nearly_rounded (r : f64) (v : R) : Prop :=
  fis_finite r = true /\ exists v', R_of r = RN v' /\ Rabs (v' - v) <= bp (-100) * Rabs v.
Lemma small_rough e c : small_pt e c -> exists n m, rough e c n m.
Proof. intros ((n & Hn & Gn) & (m & Hm & Gm)). exists n, m. repeat split; auto; apply Gn || apply Gm. Qed.

(** [Intersection::intersection] on points n*2^e, |n| <= 2^24: nothing when
    the lines are parallel, otherwise the common point with each ordinate
    rounded to nearest up to a relative 2^-100. *)
Theorem C54_intersection : forall e p1 p2 q1 q2, (-100 <= e <= 70)%Z ->
  small_pt e p1 -> small_pt e p2 -> small_pt e q1 -> small_pt e q2 ->
  (cross (rpt p1) (rpt p2) (rpt q1) (rpt q2) = 0 -> cgdd_intersection p1 p2 q1 q2 = None) /\
  (cross (rpt p1) (rpt p2) (rpt q1) (rpt q2) <> 0 -> exists q r,
    lines_meet (rpt p1) (rpt p2) (rpt q1) (rpt q2) q /\
    cgdd_intersection p1 p2 q1 q2 = Some r /\ r = new_xy (cx r) (cy r) /\
    nearly_rounded (cx r) (px q) /\ nearly_rounded (cy r) (py q)).
Proof.
  intros e p1 p2 q1 q2 He S1 S2 S3 S4.
  destruct (small_rough _ _ S1) as (n1 & m1 & G1), (small_rough _ _ S2) as (n2 & m2 & G2),
    (small_rough _ _ S3) as (n3 & m3 & G3), (small_rough _ _ S4) as (n4 & m4 & G4). split.
  - intros H. exact (dd_meet_none e He p1 p2 q1 q2 n1 m1 n2 m2 n3 m3 n4 m4 G1 G2 G3 G4 H).
  - intros H. destruct (dd_meet_some e He p1 p2 q1 q2 n1 m1 n2 m2 n3 m3 n4 m4 G1 G2 G3 G4 H) as (r & E & X & Y & Z).
    exists (meetR (rpt p1) (rpt p2) (rpt q1) (rpt q2)), r. split; [now apply meetR_meets|]. auto.
Qed.
Lemma rpt_ipt x y : (Z.abs x <= 2 ^ 53)%Z -> (Z.abs y <= 2 ^ 53)%Z -> rpt (ipt x y) = mkP (IZR x) (IZR y).
Proof.
  intros X Y. destruct (grid_fofZ x X) as (_ & EX), (grid_fofZ y Y) as (_ & EY). unfold rpt, ipt, new_xy. cbn [cx cy].
  rewrite EX, EY. change (bp 0) with 1. now rewrite !Rmult_1_r.
Qed.
(** The lines of (0,0)-(4,2) and (0,2)-(4,0) meet in (2,1). *)
Example C54_example : small_pt 0 (ipt 0 0) /\ small_pt 0 (ipt 4 2) /\ small_pt 0 (ipt 0 2) /\ small_pt 0 (ipt 4 0) /\
  cross (rpt (ipt 0 0)) (rpt (ipt 4 2)) (rpt (ipt 0 2)) (rpt (ipt 4 0)) <> 0 /\
  cross (rpt (ipt 0 0)) (rpt (ipt 4 2)) (rpt (ipt 0 1)) (rpt (ipt 4 3)) = 0.
Proof.
  repeat split; try (apply ipt_small; lia); rewrite !rpt_ipt by lia; unfold cross; cbn [px py]; lra.
Qed.

(** ** The plain double versions *)
(** Points n*2^e with |n| <= 2^k. *)
Definition grid_pt (e k : Z) (c : Coordinate) : Prop :=
  (exists n, (Z.abs n <= 2 ^ k)%Z /\ grid e (cx c) n) /\ (exists n, (Z.abs n <= 2 ^ k)%Z /\ grid e (cy c) n).
Lemma grid_ptk e k c : grid_pt e k c -> ptk e k (cx c) (cy c) (rpt c).
Proof. intros [(n & Hn & Gn) (m & Hm & Gm)]. split; [exact (ex_self e k _ _ Hn Gn) | exact (ex_self e k _ _ Hm Gm)]. Qed.
(** [HCoordinate::intersection], |n| <= 2^16: the common point, each ordinate
    correctly rounded. *)
Theorem C54_hcoordinate : forall e p1 p2 q1 q2, (-130 <= e <= 130)%Z ->
  grid_pt e 16 p1 -> grid_pt e 16 p2 -> grid_pt e 16 q1 -> grid_pt e 16 q2 ->
  (cross (rpt p1) (rpt p2) (rpt q1) (rpt q2) = 0 -> h_intersection p1 p2 q1 q2 = None) /\
  (cross (rpt p1) (rpt p2) (rpt q1) (rpt q2) <> 0 -> exists q r,
    lines_meet (rpt p1) (rpt p2) (rpt q1) (rpt q2) q /\
    h_intersection p1 p2 q1 q2 = Some r /\ r = new_xy (cx r) (cy r) /\
    fis_finite (cx r) = true /\ fis_finite (cy r) = true /\
    R_of (cx r) = RN (px q) /\ R_of (cy r) = RN (py q)).
Proof.
  intros e p1 p2 q1 q2 He S1 S2 S3 S4.
  destruct (h_exact e 16 ltac:(lia) ltac:(lia) _ _ _ _ _ _ _ _ _ _ _ _ (grid_ptk _ _ _ S1) (grid_ptk _ _ _ S2) (grid_ptk _ _ _ S3) (grid_ptk _ _ _ S4))
    as (Ex & Ey & Ew). cbv zeta in *.
  unfold h_intersection, h_meet. cbn [hx hy hw].
  set (x := fsub (fmul _ _) _) in Ex |- *. set (w := fsub (fmul (fsub (cy p1) (cy p2)) _) _) in Ew |- *.
  set (y := fsub (fmul _ _) _) in Ey |- *. split; intros H.
  - rewrite H in Ew. rewrite bad_none; [reflexivity|apply Ex|apply Ew|apply Ew].
  - destruct (ex_quot (e + (e + e)) (e + e) (3 * 16 + 3) (2 * 16 + 3) _ _ _ _ ltac:(lia) ltac:(lia) ltac:(lia) ltac:(lia) Ex Ew H) as (Fx & Vx & _).
    destruct (ex_quot (e + (e + e)) (e + e) (3 * 16 + 3) (2 * 16 + 3) _ _ _ _ ltac:(lia) ltac:(lia) ltac:(lia) ltac:(lia) Ey Ew H) as (Fy & Vy & _).
    rewrite bad_some by assumption.
    exists (meetR (rpt p1) (rpt p2) (rpt q1) (rpt q2)), (new_xy (fdiv x w) (fdiv y w)).
    split; [now apply meetR_meets|]. generalize dependent (fdiv x w). generalize dependent (fdiv y w). intros; cbn [cx cy new_xy].
    repeat split; assumption.
Qed.
(** [Intersection::intersection_fp], |n| <= 2^14: the common point within
    3*2^-53 of its size plus that of the coordinates. *)
Theorem C54_fp : forall e p1 p2 q1 q2, (-120 <= e <= 120)%Z ->
  grid_pt e 14 p1 -> grid_pt e 14 p2 -> grid_pt e 14 q1 -> grid_pt e 14 q2 ->
  (cross (rpt p1) (rpt p2) (rpt q1) (rpt q2) = 0 -> intersection_fp p1 p2 q1 q2 = None) /\
  (cross (rpt p1) (rpt p2) (rpt q1) (rpt q2) <> 0 -> exists q r,
    lines_meet (rpt p1) (rpt p2) (rpt q1) (rpt q2) q /\
    intersection_fp p1 p2 q1 q2 = Some r /\ r = new_xy (cx r) (cy r) /\
    fis_finite (cx r) = true /\ fis_finite (cy r) = true /\
    Rabs (R_of (cx r) - px q) <= 3 * bp (-53) * (Rabs (px q) + bp (14 + e)) /\
    Rabs (R_of (cy r) - py q) <= 3 * bp (-53) * (Rabs (py q) + bp (14 + e))).
Proof.
  intros e p1 p2 q1 q2 He S1 S2 S3 S4.
  destruct (grid_ptk _ _ _ S1) as (X1 & Y1), (grid_ptk _ _ _ S2) as (X2 & Y2), (grid_ptk _ _ _ S3) as (X3 & Y3), (grid_ptk _ _ _ S4) as (X4 & Y4).
  rewrite fp_split.
  destruct (fp_mid_ex e 14 _ _ _ _ _ _ _ _ ltac:(lia) ltac:(lia) X1 X2 X3 X4) as (mx & MX).
  destruct (fp_mid_ex e 14 _ _ _ _ _ _ _ _ ltac:(lia) ltac:(lia) Y1 Y2 Y3 Y4) as (my & MY).
  set (fx := fp_mid (cx p1) (cx p2) (cx q1) (cx q2)) in *. set (fy := fp_mid (cy p1) (cy p2) (cy q1) (cy q2)) in *. clearbody fx fy.
  assert (forall p, ex e 14 (cx p) (px (rpt p)) -> ex e 14 (cy p) (py (rpt p)) ->
    ptk (e - 1) 16 (fsub (cx p) fx) (fsub (cy p) fy) (shift (rpt p) mx my)) as SH.
  { intros p X Y. apply ex_fine in X; [|lia]. apply ex_fine in Y; [|lia]. split; unfold shift; cbn [px py].
    - apply (ex_sub (e - 1) 15); [lia|lia|exact X|exact MX].
    - apply (ex_sub (e - 1) 15); [lia|lia|exact Y|exact MY]. }
  destruct (h_exact (e - 1) 16 ltac:(lia) ltac:(lia) _ _ _ _ _ _ _ _ _ _ _ _ (SH p1 X1 Y1) (SH p2 X2 Y2) (SH q1 X3 Y3) (SH q2 X4 Y4))
    as (Ex & Ey & Ew). cbv zeta in *.
  unfold fp_tail, h_meet. cbn [hx hy hw cx cy new_xy].
  set (x := fsub (fmul (fsub (fsub (cx p2) fx) _) _) _) in Ex |- *. 
  set (w := fsub (fmul (fsub (fsub (cy p1) fy) (fsub (cy p2) fy)) (fsub _ _)) (fmul _ (fsub _ _))) in Ew |- *.
  set (y := fsub (fmul (fsub (fsub (cy q1) fy) _) _) _) in Ey |- *. clearbody x y w.
  rewrite cross_shift in Ew. split; intros H.
  - rewrite H in Ew. rewrite bad_none; [reflexivity|apply Ex|apply Ew|apply Ew].
  - destruct (ex_quot (e - 1 + (e - 1 + (e - 1))) (e - 1 + (e - 1)) (3 * 16 + 3) (2 * 16 + 3) _ _ _ _ ltac:(lia) ltac:(lia) ltac:(lia) ltac:(lia) Ex Ew H) as (Fx & Vx & Rx).
    destruct (ex_quot (e - 1 + (e - 1 + (e - 1))) (e - 1 + (e - 1)) (3 * 16 + 3) (2 * 16 + 3) _ _ _ _ ltac:(lia) ltac:(lia) ltac:(lia) ltac:(lia) Ey Ew H) as (Fy & Vy & Ry).
    rewrite bad_some by assumption.
    pose proof (meet_shift (rpt p1) (rpt p2) (rpt q1) (rpt q2) mx my H) as MS.
    set (q := meetR (rpt p1) (rpt p2) (rpt q1) (rpt q2)) in *.
    unfold meetR in MS. rewrite cross_shift in MS. injection MS as MSx MSy. rewrite MSx in *. rewrite MSy in *.
    assert (Rabs mx <= bp (14 + e)) as BX by (destruct MX as (_ & _ & n & Hn & ->); replace (14 + e)%Z with (15 + (e - 1))%Z by lia; apply grid_abs; [lia|exact Hn]).
    assert (Rabs my <= bp (14 + e)) as BY by (destruct MY as (_ & _ & n & Hn & ->); replace (14 + e)%Z with (15 + (e - 1))%Z by lia; apply grid_abs; [lia|exact Hn]).
    assert (bp (14 + e) <= bp 500) as B5 by (apply bpow_le; lia).
    assert (forall d, (d = 0 \/ bp (e - 1 + (e - 1 + (e - 1)) - (e - 1 + (e - 1)) - (2 * 16 + 3)) <= Rabs d <=
      bp (e - 1 + (e - 1 + (e - 1)) - (e - 1 + (e - 1)) + (3 * 16 + 3))) -> d = 0 \/ bp (-900) <= Rabs d <= bp 900) as RR.
    { intros d0 [Z|(L & U)]; [now left|right]. split; eapply Rle_trans; [|exact L|exact U|]; apply bpow_le; lia. }
    destruct (add_back (fdiv x w) fx (px q - mx) mx (px q) Fx Vx (RR _ Rx) (ex_fin _ _ _ _ MX) (ex_R _ _ _ _ MX) ltac:(lra) eq_refl) as (GX & HX).
    destruct (add_back (fdiv y w) fy (py q - my) my (py q) Fy Vy (RR _ Ry) (ex_fin _ _ _ _ MY) (ex_R _ _ _ _ MY) ltac:(lra) eq_refl) as (GY & HY).
    exists q, (new_xy (fadd (fdiv x w) fx) (fadd (fdiv y w) fy)).
    split; [now apply meetR_meets|]. generalize dependent (fadd (fdiv x w) fx). generalize dependent (fadd (fdiv y w) fy). intros; cbn [cx cy new_xy].
    repeat split; try assumption.
    + eapply Rle_trans; [exact HX|]. apply Rmult_le_compat_l; [pose proof u53_pos; lra|lra].
    + eapply Rle_trans; [exact HY|]. apply Rmult_le_compat_l; [pose proof u53_pos; lra|lra].
Qed.
(** ** A line and a segment *)
Lemma exact_nearly c : fis_finite (cx c) = true -> fis_finite (cy c) = true ->
  nearly_rounded (cx c) (px (rpt c)) /\ nearly_rounded (cy c) (py (rpt c)).
Proof.
  intros X Y. split; split; auto; [exists (R_of (cx c))|exists (R_of (cy c))]; (split; [symmetry; apply RN_id; apply format_R|]);
    cbn [px py rpt]; rewrite Rminus_diag_eq by reflexivity; rewrite Rabs_R0; apply Rmult_le_pos; try apply bpow_ge_0; apply Rabs_pos.
Qed.
(** [Intersection::line_segment] on points n*2^e, |n| <= 2^24, with a line
    through two different points: nothing exactly when the segment misses the
    line; otherwise a point that is, up to rounding, on both, and that is in the
    bounding box of the segment; an end of the segment on the line is returned
    itself, the first one first. *)
Theorem C54_line_segment : forall hypot e l1 l2 s1 s2, (-100 <= e <= 70)%Z ->
  small_pt e l1 -> small_pt e l2 -> small_pt e s1 -> small_pt e s2 -> rpt l1 <> rpt l2 ->
  let hit q := on_line (rpt l1) (rpt l2) q /\ on_segment (rpt s1) (rpt s2) q in
  (line_segment hypot l1 l2 s1 s2 = None <-> forall q, ~ hit q) /\
  (forall r, line_segment hypot l1 l2 s1 s2 = Some r ->
     in_box2 (rpt s1) (rpt s2) (rpt r) /\
     exists q, hit q /\ nearly_rounded (cx r) (px q) /\ nearly_rounded (cy r) (py q)) /\
  (hit (rpt s1) -> line_segment hypot l1 l2 s1 s2 = Some (from_coordinate s1)) /\
  (hit (rpt s2) -> ~ hit (rpt s1) -> line_segment hypot l1 l2 s1 s2 = Some (from_coordinate s2)).
Proof.
  intros hypot e l1 l2 s1 s2 He L1 L2 S1 S2 NE hit.
  pose proof (orient_side e l1 l2 s1 ltac:(lia) (small_gpt _ _ L1) (small_gpt _ _ L2) (small_gpt _ _ S1)) as O1.
  pose proof (orient_side e l1 l2 s2 ltac:(lia) (small_gpt _ _ L1) (small_gpt _ _ L2) (small_gpt _ _ S2)) as O2.
  assert (on_segment (rpt s1) (rpt s2) (rpt s1)) as E1 by (exists 0; split; [lra|]; unfold along; apply P2_ext; cbn [px py]; ring).
  assert (on_segment (rpt s1) (rpt s2) (rpt s2)) as E2 by (exists 1; split; [lra|]; unfold along; apply P2_ext; cbn [px py]; ring).
  assert (forall p, hit p -> side (rpt l1) (rpt l2) p = 0) as HS by (intros p (L & _); now apply line_side).
  assert (forall c, small_pt e c -> hit (rpt c) -> in_box2 (rpt s1) (rpt s2) (rpt (from_coordinate c)) /\
     exists q, hit q /\ nearly_rounded (cx (from_coordinate c)) (px q) /\ nearly_rounded (cy (from_coordinate c)) (py q)) as END.
  { intros c ((n & _ & Gn) & (m & _ & Gm)) H. change (rpt (from_coordinate c)) with (rpt c).
    split; [apply segment_box, H|]. exists (rpt c). split; [exact H|]. apply (exact_nearly c); [apply Gn|apply Gm]. }
  assert (forall p, side (rpt l1) (rpt l2) p = 0 -> on_line (rpt l1) (rpt l2) p) as SL by (intros p; now apply side_line).
  unfold line_segment. destruct (Z.eqb_spec (orient l1 l2 s1) 0) as [Z1|Z1].
  { assert (side (rpt l1) (rpt l2) (rpt s1) = 0) as D1 by (destruct O1 as [(K & _)|[(_ & D)|(K & _)]]; [lia|exact D|lia]).
    assert (hit (rpt s1)) as H1 by (split; auto). split; [|split; [|split]].
    - split; [discriminate|]. intros H. now destruct (H (rpt s1)).
    - intros r Hr. injection Hr as <-. now apply END.
    - reflexivity.
    - intros _ H. now destruct H. }
  assert (side (rpt l1) (rpt l2) (rpt s1) <> 0) as D1 by (destruct O1 as [(_ & K)|[(K & _)|(_ & K)]]; [lra|lia|lra]).
  destruct (Z.eqb_spec (orient l1 l2 s2) 0) as [Z2|Z2].
  { assert (side (rpt l1) (rpt l2) (rpt s2) = 0) as D2 by (destruct O2 as [(K & _)|[(_ & D)|(K & _)]]; [lia|exact D|lia]).
    assert (hit (rpt s2)) as H2 by (split; auto). split; [|split; [|split]].
    - split; [discriminate|]. intros H. now destruct (H (rpt s2)).
    - intros r Hr. injection Hr as <-. now apply END.
    - intros H. now apply HS in H.
    - reflexivity. }
  assert (side (rpt l1) (rpt l2) (rpt s2) <> 0) as D2 by (destruct O2 as [(_ & K)|[(K & _)|(_ & K)]]; [lra|lia|lra]).
  pose proof (same_side_R _ _ _ _ O1 O2) as SS. destruct (_ || _)%bool.
  - destruct SS as (SS & _). specialize (SS eq_refl). split; [|split; [|split]].
    + split; [|reflexivity]. intros _ q (L & S). exact (same_sides_apart _ _ _ _ _ SS S L).
    + discriminate.
    + intros H. now apply HS in H.
    + intros H. now apply HS in H.
  - assert (opposite (side (rpt l1) (rpt l2) (rpt s1)) (side (rpt l1) (rpt l2) (rpt s2))) as OP.
    { destruct (Rlt_or_le 0 (side (rpt l1) (rpt l2) (rpt s1))), (Rlt_or_le 0 (side (rpt l1) (rpt l2) (rpt s2))); unfold opposite; try lra;
        exfalso; assert (false = true) by (apply SS; lra); discriminate. }
    pose proof (opp_cross _ _ _ _ OP) as N. destruct (opp_meet _ _ _ _ OP) as (MS & ML).
    destruct (small_rough _ _ L1) as (n1 & m1 & G1), (small_rough _ _ L2) as (n2 & m2 & G2),
      (small_rough _ _ S1) as (n3 & m3 & G3), (small_rough _ _ S2) as (n4 & m4 & G4).
    destruct (dd_meet_some e He l1 l2 s1 s2 n1 m1 n2 m2 n3 m3 n4 m4 G1 G2 G3 G4 N) as (r & -> & X & Y & _).
    destruct (meet_in_box e l1 l2 s1 s2 r _ _ _ _ _ _ _ _ He G1 G2 G3 G4 N X Y) as (_ & BX).
    split; [|split; [|split]].
    + split; [discriminate|]. intros H. destruct (H _ (conj ML MS)).
    + intros r' Hr. injection Hr as <-. split; [now apply BX|]. eexists. split; [exact (conj ML MS)|]. split; assumption.
    + intros H. now apply HS in H.
    + intros H. now apply HS in H.
Qed.
(** The line of (0,0)-(4,2) cuts the segment (0,2)-(4,0). *)
Example C54_line_segment_example : rpt (ipt 0 0) <> rpt (ipt 4 2) /\
  on_line (rpt (ipt 0 0)) (rpt (ipt 4 2)) (mkP 2 1) /\ on_segment (rpt (ipt 0 2)) (rpt (ipt 4 0)) (mkP 2 1).
Proof.
  rewrite !rpt_ipt by lia. split; [intros E; injection E; lra|].
  split; exists (1 / 2); [|split; [lra|]]; unfold along; apply P2_ext; cbn [px py]; lra.
Qed.
