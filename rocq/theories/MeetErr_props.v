(** C54 off the grid: plain double precision intersections, and a line with a segment. *)
From Coq Require Import ZArith Bool List Reals Lia Lra Psatz.
From Flocq Require Import Core IEEE754.BinarySingleNaN.
From Verif Require Import Base F64 F64Facts F64Err Num NumLink Coordinate_model DD_spec Orientation_model Orientation_spec Orientation_proofs
  Orientation_props LocateMid_spec LocateMid_props Distance_model Distance_spec Distance_proofs Distance_float Distance_props
  MeasureErr_proofs CentroidErr_spec CentroidErr_proofs Intersection_model Intersection_spec Intersection_proofs Intersection_props
  IntersectErr_spec IntersectErr_proofs IntersectErr_props MeetErr_spec MeetErr_proofs.
Import ListNotations.
Local Open Scope R_scope.

Lemma nr01 B x : fis_finite x = true -> Rabs (R_of x) <= B -> nr 1 B x (R_of x).
Proof. intros F H. apply (nr_weak 0); [lra|]. now apply nr_0. Qed.
Lemma loss_45 S w m : loss (-45) S w m = 256 * u53 * (S * S * (S + m) / Rabs w).
Proof. unfold loss. assert (256 * u53 = bp (-45)) as -> by exact (eq_sym (bpow_plus radix2 8 (-53))). reflexivity. Qed.
(** [HCoordinate::intersection] on any finite points with ordinates up to [B],
    2^-250 <= B <= 2^300: unless the lines are nearly parallel there is a point, and
    each ordinate is within 2^-45 B^2 (B + |m|) / |w| of the true ordinate [m]. *)
Theorem C54_hcoordinate_error : forall B p1 p2 q1 q2, bp (-250) <= B <= bp 300 ->
  pt_within B p1 -> pt_within B p2 -> pt_within B q1 -> pt_within B q2 ->
  let w := cross (rpt p1) (rpt p2) (rpt q1) (rpt q2) in
  bp (-45) * (B * B) < Rabs w ->
  exists q r, lines_meet (rpt p1) (rpt p2) (rpt q1) (rpt q2) q /\
    h_intersection p1 p2 q1 q2 = Some r /\ r = new_xy (cx r) (cy r) /\
    fis_finite (cx r) = true /\ fis_finite (cy r) = true /\
    Rabs (R_of (cx r) - px q) <= loss (-45) B w (Rabs (px q)) /\ Rabs (R_of (cy r) - py q) <= loss (-45) B w (Rabs (py q)).
Proof.
  intros B p1 p2 q1 q2 HB (F1 & G1 & X1 & Y1) (F2 & G2 & X2 & Y2) (F3 & G3 & X3 & Y3) (F4 & G4 & X4 & Y4) w H.
  destruct (meet_nr B HB p1 p2 q1 q2 (rpt p1) (rpt p2) (rpt q1) (rpt q2)) as (Nx & Ny & Nw); try (split; now apply nr01).
  cbv zeta in *. fold w in Nw.
  assert (256 * u53 = bp (-45)) as E45 by exact (eq_sym (bpow_plus radix2 8 (-53))).
  destruct (quot_nr B HB _ _ _ _ Nx Nw ltac:(rewrite E45; exact H)) as (Fx & Dx & _).
  destruct (quot_nr B HB _ _ _ _ Ny Nw ltac:(rewrite E45; exact H)) as (Fy & Dy & _).
  assert (0 <= bp (-45) * (B * B)) as P by (apply Rmult_le_pos; [apply bpow_ge_0|nra]).
  unfold h_intersection. cbv zeta.
  change (fsub (fmul (fsub (cx p2) (cx p1)) (fsub (fmul (cx q1) (cy q2)) (fmul (cx q2) (cy q1)))) (fmul (fsub (cx q2) (cx q1)) (fsub (fmul (cx p1) (cy p2)) (fmul (cx p2) (cy p1))))) with (hx (h_meet p1 p2 q1 q2)).
  change (fsub (fmul (fsub (cy q1) (cy q2)) (fsub (fmul (cx p1) (cy p2)) (fmul (cx p2) (cy p1)))) (fmul (fsub (cy p1) (cy p2)) (fsub (fmul (cx q1) (cy q2)) (fmul (cx q2) (cy q1))))) with (hy (h_meet p1 p2 q1 q2)).
  change (fsub (fmul (fsub (cy p1) (cy p2)) (fsub (cx q2) (cx q1))) (fmul (fsub (cy q1) (cy q2)) (fsub (cx p2) (cx p1)))) with (hw (h_meet p1 p2 q1 q2)).
  rewrite bad_some by assumption.
  exists (meetR (rpt p1) (rpt p2) (rpt q1) (rpt q2)), (new_xy (fdiv (hx (h_meet p1 p2 q1 q2)) (hw (h_meet p1 p2 q1 q2))) (fdiv (hy (h_meet p1 p2 q1 q2)) (hw (h_meet p1 p2 q1 q2)))).
  split; [apply meetR_meets; intros Z; unfold w in H; rewrite Z, Rabs_R0 in H; lra|].
  set (x := fdiv (hx _) _) in *. set (y := fdiv (hy _) _) in *. clearbody x y.
  split; [reflexivity|]. split; [reflexivity|]. cbn [cx cy new_xy]. rewrite !loss_45.
  split; [exact Fx|]. split; [exact Fy|]. split; [exact Dx|exact Dy].
Qed.

Lemma add_mid D W v f m : 0 < D -> 0 < W -> fis_finite v = true -> fis_finite f = true -> Rabs (R_of v) <= bp 402 -> Rabs (R_of f) <= bp 900 ->
  forall x1, Rabs (x1 - R_of f) <= D ->
  Rabs (R_of v - (m - R_of f)) <= 256 * u53 * (D * D * (D + Rabs (m - R_of f)) / W) ->
  fis_finite (fadd v f) = true /\ Rabs (R_of (fadd v f) - m) <= bp (-43) * (D * D * (D + Rabs (m - x1)) / W) + bp (-53) * Rabs m.
Proof.
  intros D0 W0 Fv Ff Sv Sf x1 N E. pose proof u53_pos as Up.
  assert (u53 <= / 1024) as Us by (pose proof (u_tiny 16 ltac:(lra)); lra).
  assert (bp 402 <= bp 900) as B1 by (apply bpow_le; lia). assert (bp 901 = 2 * bp 900) as B2 by (change 901%Z with (900 + 1)%Z; apply bp_S).
  destruct (fadd_R v f Fv Ff) as (F & R).
  { apply (RN_small' _ 901); [lia|]. eapply Rle_trans; [apply Rabs_triang|]. lra. }
  split; [exact F|]. pose proof (RN_sum_err _ _ (format_R v) (format_R f)) as Er. rewrite <- R in Er.
  set (k := D * D / W). assert (0 < k) as K0 by (apply Rdiv_lt_0_compat; nra).
  replace (D * D * (D + Rabs (m - x1)) / W) with (k * (D + Rabs (m - x1))) by (unfold k; field; lra).
  replace (D * D * (D + Rabs (m - R_of f)) / W) with (k * (D + Rabs (m - R_of f))) in E by (unfold k; field; lra).
  assert (bp (-43) = 1024 * u53) as -> by exact (bpow_plus radix2 10 (-53)).
  assert (Rabs (m - R_of f) <= D + Rabs (m - x1)) as T.
  { replace (m - R_of f) with ((x1 - R_of f) + (m - x1)) by ring. eapply Rle_trans; [apply Rabs_triang|]. lra. }
  pose proof (Rabs_pos (m - x1)) as A0. set (A := Rabs (m - x1)) in *.
  assert (Rabs (R_of v - (m - R_of f)) <= 512 * (u53 * (k * (D + A)))) as E'.
  { eapply Rle_trans; [exact E|]. assert (k * (D + Rabs (m - R_of f)) <= k * (2 * (D + A))) by (apply Rmult_le_compat_l; lra).
    assert (0 <= k * (D + Rabs (m - R_of f))) by (pose proof (Rabs_pos (m - R_of f)); nra). nra. }
  set (q := u53 * (k * (D + A))) in *. assert (0 <= q) as Q0 by (apply Rmult_le_pos; [lra|nra]).
  replace (1024 * u53 * (k * (D + A))) with (1024 * q) by (unfold q; ring).
  assert (Rabs (R_of v + R_of f) <= Rabs m + 512 * q) as S.
  { replace (R_of v + R_of f) with (m + (R_of v - (m - R_of f))) by ring. eapply Rle_trans; [apply Rabs_triang|]. lra. }
  assert (u53 * Rabs (R_of v + R_of f) <= u53 * Rabs m + q) as S' by nra.
  replace (R_of (fadd v f) - m) with ((R_of (fadd v f) - (R_of v + R_of f)) + (R_of v - (m - R_of f))) by ring.
  eapply Rle_trans; [apply Rabs_triang|]. lra.
Qed.
(** [Intersection::intersection_fp] moves the lines to the middle of their
    boxes first. So its error grows with the size [D] of the figure, not with
    its distance from the origin, except for the last rounding: each ordinate is
    within 2^-43 D^2 (D + |m - x1|) / |w| + 2^-53 |m| of the true ordinate [m];
    [x1] is that ordinate of the first point. *)
Theorem C54_fp_error : forall D p1 p2 q1 q2, bp (-250) <= D <= bp 300 ->
  pt_within (bp 900) p1 -> pt_within (bp 900) p2 -> pt_within (bp 900) q1 -> pt_within (bp 900) q2 ->
  (forall a b, In a [p1; p2; q1; q2] -> In b [p1; p2; q1; q2] -> apart D a b) ->
  let w := cross (rpt p1) (rpt p2) (rpt q1) (rpt q2) in
  bp (-45) * (D * D) < Rabs w ->
  exists q r, lines_meet (rpt p1) (rpt p2) (rpt q1) (rpt q2) q /\
    intersection_fp p1 p2 q1 q2 = Some r /\ r = new_xy (cx r) (cy r) /\
    fis_finite (cx r) = true /\ fis_finite (cy r) = true /\
    Rabs (R_of (cx r) - px q) <= loss (-43) D w (Rabs (px q - R_of (cx p1))) + bp (-53) * Rabs (px q) /\
    Rabs (R_of (cy r) - py q) <= loss (-43) D w (Rabs (py q - R_of (cy p1))) + bp (-53) * Rabs (py q).
Proof.
  intros D p1 p2 q1 q2 HD W1 W2 W3 W4 A w H. rewrite fp_split.
  assert (forall o : Coordinate -> f64, (forall c, pt_within (bp 900) c -> fis_finite (o c) = true /\ Rabs (R_of (o c)) <= bp 900) ->
    (forall a b, apart D a b -> Rabs (R_of (o a) - R_of (o b)) <= D) ->
    let f := fp_mid (o p1) (o p2) (o q1) (o q2) in
    fis_finite f = true /\ Rabs (R_of f) <= bp 900 /\ forall p, In p [p1; p2; q1; q2] -> Rabs (R_of (o p) - R_of f) <= D) as Mid.
  { intros o Fo Ao. cbv zeta. change [o p1; o p2; o q1; o q2] with (map o [p1; p2; q1; q2]).
    destruct (fp_mid_near D (o p1) (o p2) (o q1) (o q2)) as (F & S & N).
    - change [o p1; o p2; o q1; o q2] with (map o [p1; p2; q1; q2]). intros x Ix. apply in_map_iff in Ix. destruct Ix as (c & <- & Ic). apply Fo.
      cbn in Ic. intuition (subst; assumption).
    - change [o p1; o p2; o q1; o q2] with (map o [p1; p2; q1; q2]). intros x y Ix Iy. apply in_map_iff in Ix, Iy.
      destruct Ix as (c & <- & Ic), Iy as (c' & <- & Ic'). apply Ao. now apply A.
    - split; [exact F|]. split; [exact S|]. intros p Ip. apply N. change [o p1; o p2; o q1; o q2] with (map o [p1; p2; q1; q2]). now apply in_map. }
  destruct (Mid cx) as (Ffx & Sfx & Nx); [intros c (F & _ & S & _); now split|intros a b (S & _); exact S|].
  destruct (Mid cy) as (Ffy & Sfy & Ny); [intros c (_ & F & _ & S); now split|intros a b (_ & S); exact S|].
  clear Mid. cbv zeta in *. set (fx := fp_mid (cx p1) (cx p2) (cx q1) (cx q2)) in *. set (fy := fp_mid (cy p1) (cy p2) (cy q1) (cy q2)) in *. clearbody fx fy.
  assert (bp 300 <= bp 1000) as B3 by (apply bpow_le; lia).
  assert (forall p, In p [p1; p2; q1; q2] -> pt_within (bp 900) p ->
    npt D (cx (new_xy (fsub (cx p) fx) (fsub (cy p) fy))) (cy (new_xy (fsub (cx p) fx) (fsub (cy p) fy))) (shift (rpt p) (R_of fx) (R_of fy))) as SH.
  { intros p Ip (Fx & Fy & _ & _). cbn [cx cy new_xy]. split; unfold shift; cbn [px py rpt]; apply nr_sub0; auto; lra. }
  destruct (meet_nr D HD _ _ _ _ _ _ _ _ (SH p1 ltac:(cbn; tauto) W1) (SH p2 ltac:(cbn; tauto) W2) (SH q1 ltac:(cbn; tauto) W3) (SH q2 ltac:(cbn; tauto) W4))
    as (Mx & My & Mw). cbv zeta in *. rewrite cross_shift in Mw. fold w in Mw.
  assert (256 * u53 = bp (-45)) as E45 by exact (eq_sym (bpow_plus radix2 8 (-53))).
  destruct (quot_nr D HD _ _ _ _ Mx Mw ltac:(rewrite E45; exact H)) as (Fx & Dx & _ & Zx).
  destruct (quot_nr D HD _ _ _ _ My Mw ltac:(rewrite E45; exact H)) as (Fy & Dy & _ & Zy).
  assert (0 < D) as D0 by (pose proof (bpow_gt_0 radix2 (-250)); lra).
  assert (0 <= bp (-45) * (D * D)) as P by (apply Rmult_le_pos; [apply bpow_ge_0|nra]).
  assert (w <> 0) as Wn by (intros Z; rewrite Z, Rabs_R0 in H; lra).
  pose proof (meet_shift (rpt p1) (rpt p2) (rpt q1) (rpt q2) (R_of fx) (R_of fy) Wn) as MS.
  set (q := meetR (rpt p1) (rpt p2) (rpt q1) (rpt q2)) in *.
  unfold meetR in MS. rewrite cross_shift in MS. injection MS as MSx MSy. fold w in MSx, MSy. rewrite MSx in Dx. rewrite MSy in Dy.
  unfold fp_tail. destruct (h_meet _ _ _ _) as [x y v]. cbn [hx hy hw] in *. rewrite bad_some by assumption.
  destruct (add_mid D (Rabs w) _ fx (px q) D0 ltac:(lra) Fx Ffx Zx Sfx (R_of (cx p1)) (Nx p1 ltac:(cbn; tauto)) Dx) as (GX & HX).
  destruct (add_mid D (Rabs w) _ fy (py q) D0 ltac:(lra) Fy Ffy Zy Sfy (R_of (cy p1)) (Ny p1 ltac:(cbn; tauto)) Dy) as (GY & HY).
  exists q, (new_xy (fadd (fdiv x v) fx) (fadd (fdiv y v) fy)). split; [now apply meetR_meets|].
  generalize dependent (fadd (fdiv x v) fx). generalize dependent (fadd (fdiv y v) fy). intros; cbn [cx cy new_xy].
  split; [reflexivity|]. split; [reflexivity|]. split; [assumption|]. split; [assumption|]. split; assumption.
Qed.

(** [Intersection::line_segment] when the ends of the segment are clear of the
    line: nothing exactly when the segment misses the line; an end on the line
    is returned itself, the first one first; and when the line separates the
    ends and is not nearly parallel to the segment, the one common point with
    the error of the double-double intersection. *)
Theorem C54_line_segment_clear : forall hypot l1 l2 s1 s2, mid_pt l1 -> mid_pt l2 -> mid_pt s1 -> mid_pt s2 ->
  clear_of l1 l2 s1 -> clear_of l1 l2 s2 -> rpt l1 <> rpt l2 ->
  let a := rpt l1 in let b := rpt l2 in let c := rpt s1 in let d := rpt s2 in
  let hit q := on_line a b q /\ on_segment c d q in
  (line_segment hypot l1 l2 s1 s2 = None <-> forall q, ~ hit q) /\
  (hit c -> line_segment hypot l1 l2 s1 s2 = Some (from_coordinate s1)) /\
  (hit d -> ~ hit c -> line_segment hypot l1 l2 s1 s2 = Some (from_coordinate s2)) /\
  (forall B, plain_pt l1 -> plain_pt l2 -> plain_pt s1 -> plain_pt s2 -> upto B l1 -> upto B l2 -> upto B s1 -> upto B s2 ->
    let w := cross a b c d in
    opposite (side a b c) (side a b d) -> bp (-97) * (B * B) < Rabs w ->
    exists q r, hit q /\ (forall q', hit q' -> q' = q) /\ line_segment hypot l1 l2 s1 s2 = Some r /\
      rounded_within (spread B w (px q)) (cx r) (px q) /\ rounded_within (spread B w (py q)) (cy r) (py q)).
Proof.
  intros hypot l1 l2 s1 s2 L1 L2 S1 S2 C1 C2 NE a b c d hit.
  pose proof (C73_right_when_clear l1 l2 s1 L1 L2 S1 C1) as O1. pose proof (C73_right_when_clear l1 l2 s2 L1 L2 S2 C2) as O2.
  change (det_pts l1 l2 s1) with (side a b c) in O1. change (det_pts l1 l2 s2) with (side a b d) in O2.
  assert (on_segment c d c) as E1 by (exists 0; split; [lra|]; unfold along; apply P2_ext; cbn [px py]; ring).
  assert (on_segment c d d) as E2 by (exists 1; split; [lra|]; unfold along; apply P2_ext; cbn [px py]; ring).
  assert (forall p, hit p -> side a b p = 0) as HS by (intros p (L & _); now apply line_side).
  assert (forall p, side a b p = 0 -> on_line a b p) as SL by (intros p; now apply side_line).
  unfold line_segment. destruct (Z.eqb_spec (orient l1 l2 s1) 0) as [Z1|Z1].
  { assert (side a b c = 0) as D1 by (destruct O1 as [(K & _)|[(_ & D)|(K & _)]]; [lia|exact D|lia]).
    assert (hit c) as H1 by (split; auto). split; [|split; [|split]].
    - split; [discriminate|]. intros H. now destruct (H c).
    - reflexivity.
    - intros _ H. now destruct H.
    - intros B _ _ _ _ _ _ _ _ OP _. exfalso. destruct OP; lra. }
  assert (side a b c <> 0) as D1 by (destruct O1 as [(_ & K)|[(K & _)|(_ & K)]]; [lra|lia|lra]).
  destruct (Z.eqb_spec (orient l1 l2 s2) 0) as [Z2|Z2].
  { assert (side a b d = 0) as D2 by (destruct O2 as [(K & _)|[(_ & D)|(K & _)]]; [lia|exact D|lia]).
    assert (hit d) as H2 by (split; auto). split; [|split; [|split]].
    - split; [discriminate|]. intros H. now destruct (H d).
    - intros H. now apply HS in H.
    - reflexivity.
    - intros B _ _ _ _ _ _ _ _ OP _. exfalso. destruct OP; lra. }
  assert (side a b d <> 0) as D2 by (destruct O2 as [(_ & K)|[(K & _)|(_ & K)]]; [lra|lia|lra]).
  pose proof (same_side_R _ _ _ _ O1 O2) as SS. destruct (_ || _)%bool.
  - destruct SS as (SS & _). specialize (SS eq_refl). split; [|split; [|split]].
    + split; [|reflexivity]. intros _ q (L & S). exact (same_sides_apart _ _ _ _ _ SS S L).
    + intros H. now apply HS in H.
    + intros H. now apply HS in H.
    + intros B _ _ _ _ _ _ _ _ OP _. exfalso. destruct SS, OP; lra.
  - assert (opposite (side a b c) (side a b d)) as OP.
    { destruct (Rlt_or_le 0 (side a b c)), (Rlt_or_le 0 (side a b d)); unfold opposite; try lra;
        exfalso; assert (false = true) by (apply SS; lra); discriminate. }
    pose proof (opp_cross _ _ _ _ OP) as N. destruct (opp_meet _ _ _ _ OP) as (MS & ML).
    split; [|split; [|split]].
    + split; [|intros H; destruct (H _ (conj ML MS))]. destruct (cgdd_intersection l1 l2 s1 s2); [discriminate|]. destruct (fltb _ _); discriminate.
    + intros H. now apply HS in H.
    + intros H. now apply HS in H.
    + intros B P1 P2 P3 P4 U1 U2 U3 U4 _ Hw.
      destruct (C54_intersection_error B l1 l2 s1 s2 P1 P2 P3 P4 U1 U2 U3 U4 Hw) as (q & r & M & ER & _ & Rx & Ry).
      assert (q = meetR a b c d) as -> by (apply (proj2 (proj2 (meetR_meets _ _ _ _ N))); apply M).
      exists (meetR a b c d), r. rewrite ER. split; [exact (conj ML MS)|]. split; [|split; [reflexivity|split; assumption]].
      intros q' (L & (t & _ & ->)). apply (proj2 (proj2 (meetR_meets _ _ _ _ N))); [exact L|]. now exists t.
Qed.

(** A square of side 2 far from the origin, at 2^40: its diagonals are within the
    hypotheses of [C54_fp_error] with D = 2 and w = -8; the bound at the true
    crossing 2^40 + 1 is below 2^-12. [C53_error_example] shows two segments that are clear of each other
    and plain, as [C54_line_segment_clear] asks. *)
Example C54_error_example : let N := (2 ^ 40)%Z in
  let p1 := ipt N N in let p2 := ipt (N + 2) (N + 2) in let q1 := ipt N (N + 2) in let q2 := ipt (N + 2) N in
  let w := cross (rpt p1) (rpt p2) (rpt q1) (rpt q2) in
  bp (-250) <= 2 <= bp 300 /\ pt_within (bp 41) p1 /\ pt_within (bp 41) p2 /\ pt_within (bp 41) q1 /\ pt_within (bp 41) q2 /\
  (forall a b, In a [p1; p2; q1; q2] -> In b [p1; p2; q1; q2] -> apart 2 a b) /\
  w = -8 /\ bp (-45) * (2 * 2) < Rabs w /\ loss (-43) 2 w 1 + bp (-53) * (bp 40 + 1) < bp (-12) /\
  opposite (side (rpt p1) (rpt p2) (rpt q1)) (side (rpt p1) (rpt p2) (rpt q2)).
Proof.
  intros N p1 p2 q1 q2.
  assert (RN0 : R_of (fofZ N) = bp 40) by (rewrite (proj2 (grid_fofZ N ltac:(unfold N; lia))); change (bp 0) with 1; rewrite Rmult_1_r; reflexivity).
  assert (RN2 : R_of (fofZ (N + 2)) = bp 40 + 2).
  { rewrite (proj2 (grid_fofZ (N + 2) ltac:(unfold N; lia))). rewrite plus_IZR. change (bp 0) with 1. rewrite Rmult_1_r. reflexivity. }
  assert (2 <= bp 40) as B4 by (change 2 with (bp 1); apply bpow_le; lia).
  assert (bp 41 = 2 * bp 40) as B41 by (change 41%Z with (40 + 1)%Z; apply bp_S).
  assert (forall i j, (i = N \/ i = N + 2)%Z -> (j = N \/ j = N + 2)%Z -> pt_within (bp 41) (ipt i j)) as PW.
  { intros i j [-> | ->] [-> | ->]; unfold ipt, pt_within; cbn [cx cy new_xy]; rewrite ?RN0, ?RN2, ?Rabs_pos_eq by lra;
      (split; [reflexivity|]; split; [reflexivity|]; split; lra). }
  assert (forall i j k l, (i = N \/ i = N + 2)%Z -> (j = N \/ j = N + 2)%Z -> (k = N \/ k = N + 2)%Z -> (l = N \/ l = N + 2)%Z -> apart 2 (ipt i j) (ipt k l)) as AP.
  { intros i j k l [-> | ->] [-> | ->] [-> | ->] [-> | ->]; unfold ipt, apart; cbn [cx cy new_xy]; rewrite ?RN0, ?RN2; split; apply Rabs_le; lra. }
  cbv zeta.
  assert (cross (rpt p1) (rpt p2) (rpt q1) (rpt q2) = -8) as ->.
  { unfold cross, rpt, p1, p2, q1, q2, ipt. cbn [px py cx cy new_xy]. rewrite RN0, RN2. ring. }
  split. { split; [change 2 with (bp 1); apply bpow_le; lia|change 2 with (bp 1); apply bpow_le; lia]. }
  do 4 (split; [apply PW; tauto|]).
  split. { intros a b Ia Ib. cbn in Ia, Ib. destruct Ia as [<-|[<-|[<-|[<-|[]]]]], Ib as [<-|[<-|[<-|[<-|[]]]]]; apply AP; tauto. }
  split; [reflexivity|]. rewrite Rabs_left by lra.
  split. { assert (bp (-45) <= 1) by (change 1 with (bp 0); apply bpow_le; lia). lra. }
  split.
  { unfold loss. rewrite Rabs_left by lra. replace (2 * 2 * (2 + 1) / - -8) with (3 / 2) by field. rewrite Rmult_plus_distr_l.
    assert (bp (-43) <= bp (-16)) by (apply bpow_le; lia). assert (bp (-53) <= bp (-16)) by (apply bpow_le; lia).
    assert (bp (-53) * bp 40 = bp (-13)) as E by exact (eq_sym (bpow_plus radix2 (-53) 40)).
    assert (bp (-12) = 2 * bp (-13)) by (change (-12)%Z with (-13 + 1)%Z; apply bp_S).
    assert (bp (-13) = 8 * bp (-16)) by (exact (bpow_plus radix2 3 (-16))). pose proof (bpow_gt_0 radix2 (-16)). lra. }
  right. unfold side, rpt, p1, p2, q1, q2, ipt. cbn [px py cx cy new_xy]. rewrite RN0, RN2. lra.
Qed.
