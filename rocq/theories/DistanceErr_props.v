(** C52, C60, C74: errors of distances at arbitrary doubles. *)
From Coq Require Import ZArith Bool List Reals Lia Lra Psatz.
From Flocq Require Import Core IEEE754.BinarySingleNaN.
From Verif Require Import Base F64 F64Facts F64Err Num NumLink Coordinate_model MathUtil_model Orientation_spec Orientation_proofs Orientation_props
  Distance_model Distance_spec Distance_proofs Distance_float Distance_props Segment_model SegmentMore_props DistanceErr_proofs SegSegErr_proofs.
Import ListNotations.
Local Open Scope R_scope.

Lemma u_16 : 15 * u53 <= bp (-49).
Proof. change (-49)%Z with (-53 + 4)%Z. rewrite bpow_plus. change (bp 4) with 16. pose proof u53_pos. lra. Qed.
Lemma u_32 : 32 * u53 = bp (-48).
Proof. change (-48)%Z with (-53 + 5)%Z. rewrite bpow_plus. change (bp 5) with 32. ring. Qed.
Lemma u_64 : 64 * u53 = bp (-47).
Proof. change (-47)%Z with (-53 + 6)%Z. rewrite bpow_plus. change (bp 6) with 64. ring. Qed.
Lemma u_4 : 4 * u53 = bp (-51).
Proof. change (-51)%Z with (-53 + 2)%Z. rewrite bpow_plus. change (bp 2) with 4. ring. Qed.

(** ** A chain *)
Lemma string_loop_f hypot p M l : hypot_accurate hypot -> mid_pt p -> Forall mid_pt l -> Forall (fun v => dist (rpt p) (rpt v) <= M) l ->
  forall a m mr, mid_pt a -> dist (rpt p) (rpt a) <= M -> fis_finite m = true -> Rabs (R_of m - mr) <= 32 * u53 * M ->
  fis_finite (g_string_loop f64 (NF hypot) (pf p) (pf a) (map pf l) m) = true /\
  Rabs (R_of (g_string_loop f64 (NF hypot) (pf p) (pf a) (map pf l) m) - g_string_loop R NR (rpt p) (rpt a) (map rpt l) mr) <= 32 * u53 * M.
Proof.
  intros Hh Mp Hl Dl. induction l as [|b t IH]; intros a m mr Ma Da Fm Em; [split; assumption|].
  inversion Hl as [|? ? Mb Ht]; subst. inversion Dl as [|? ? Db Dt]; subst. cbn [map g_string_loop]. cbn [NF NR nlt].
  change (g_point_to_segment f64 (NF hypot) (pf p) (pf a) (pf b)) with (point_to_segment hypot p a b).
  destruct (p2s_f hypot p a b _ Hh Mp Ma Mb (p2s_least _ _ _)) as (F1 & E1). pose proof u53_pos as U.
  assert (E1' : Rabs (R_of (point_to_segment hypot p a b) - g_point_to_segment R NR (rpt p) (rpt a) (rpt b)) <= 32 * u53 * M).
  { eapply Rle_trans; [exact E1|]. apply Rmult_le_compat_l; lra. }
  destruct (min_err (32 * u53 * M) m (point_to_segment hypot p a b) mr _ Em E1' Fm F1) as (F2 & E2).
  apply IH; assumption.
Qed.

(** ** Theorems *)
(** The distance of two points, of ordinates of any magnitude between 2^-388
    and 2^470 (or zero), is within four units of the exact distance. *)
Theorem C74_distance_error : forall hypot p q, hypot_accurate hypot -> mid_pt p -> mid_pt q ->
  fis_finite (distance hypot p q) = true /\
  Rabs (R_of (distance hypot p q) - dist (rpt p) (rpt q)) <= bp (-51) * dist (rpt p) (rpt q).
Proof. intros hypot p q Hh Mp Mq. rewrite <- u_4. exact (dist_f hypot p q Hh Mp Mq). Qed.
(** The distance from a point to a segment is within 2^-48 of the exact one,
    in units of the distance from the point to the first end. *)
Theorem C52_point_to_segment_error : forall hypot p a b d, hypot_accurate hypot -> mid_pt p -> mid_pt a -> mid_pt b ->
  least_distance (eq (rpt p)) (on_segment (rpt a) (rpt b)) d ->
  fis_finite (point_to_segment hypot p a b) = true /\
  Rabs (R_of (point_to_segment hypot p a b) - d) <= bp (-48) * dist (rpt p) (rpt a).
Proof. intros hypot p a b d Hh Mp Ma Mb L. rewrite <- u_32. exact (p2s_f hypot p a b d Hh Mp Ma Mb L). Qed.
(** The distance of two segments is within 2^-47 of the exact one, in units
    of any bound on the distances of the ends.  The test of intersection is
    made with rounded numbers and can go wrong, by no more than this. *)
Theorem C52_segment_to_segment_error : forall hypot a b c d x M, hypot_accurate hypot -> mid_pt a -> mid_pt b -> mid_pt c -> mid_pt d ->
  dist (rpt a) (rpt b) <= M -> dist (rpt c) (rpt d) <= M -> dist (rpt a) (rpt c) <= M -> dist (rpt b) (rpt c) <= M -> dist (rpt a) (rpt d) <= M ->
  least_distance (on_segment (rpt a) (rpt b)) (on_segment (rpt c) (rpt d)) x ->
  fis_finite (segment_to_segment hypot a b c d) = true /\
  Rabs (R_of (segment_to_segment hypot a b c d) - x) <= bp (-47) * M.
Proof.
  intros hypot a b c d x M Hh Ma Mb Mc Md H1 H2 H3 H4 H5 L. rewrite <- u_64.
  apply (s2s_f hypot a b c d x M Hh Ma Mb Mc Md); [|exact L]. repeat split; assumption.
Qed.
(** The distance to a chain, in units of a bound on the distances to its vertices. *)
Theorem C52_string_error : forall hypot p a l d M, hypot_accurate hypot -> mid_pt p -> Forall mid_pt (a :: l) ->
  Forall (fun v => dist (rpt p) (rpt v) <= M) (a :: l) ->
  least_distance (eq (rpt p)) (on_string (rpt a) (map rpt l)) d ->
  fis_finite (point_to_segment_string hypot p (a :: l)) = true /\
  Rabs (R_of (point_to_segment_string hypot p (a :: l)) - d) <= bp (-48) * M.
Proof.
  intros hypot p a l d M Hh Mp Hl Dl L. rewrite <- u_32. pose proof u53_pos as U.
  inversion Hl as [|? ? Ma Ht]; subst. inversion Dl as [|? ? Da Dt]; subst.
  rewrite (least_unique _ _ _ _ L (string_least _ _ _ _ eq_refl)).
  destruct (dist_f hypot p a Hh Mp Ma) as (F1 & E1).
  unfold point_to_segment_string. cbn [map g_point_to_segment_string].
  apply string_loop_f; auto. eapply Rle_trans; [exact E1|]. pose proof (dist_pos (rpt p) (rpt a)).
  assert (u53 * dist (rpt p) (rpt a) <= u53 * M) by (apply Rmult_le_compat_l; lra).
  assert (0 <= u53 * dist (rpt p) (rpt a)) by (apply Rmult_le_pos; lra). lra.
Qed.
(** The distance to a line; the signed form is within the same error of plus
    the distance right of the line and minus the distance left of it. *)
Definition signed_distance (p a b : pR) (d s : R) : Prop :=
  let side := (px b - px a) * (py p - py a) - (py b - py a) * (px p - px a) in
  (side <= 0 -> s = d) /\ (0 <= side -> s = - d).
Theorem C52_line_error : forall hypot p a b d s, mid_pt p -> mid_pt a -> mid_pt b -> rpt a <> rpt b ->
  least_distance (eq (rpt p)) (on_line (rpt a) (rpt b)) d -> signed_distance (rpt p) (rpt a) (rpt b) d s ->
  fis_finite (line_perpendicular hypot p a b) = true /\ fis_finite (line_perpendicular_signed hypot p a b) = true /\
  Rabs (R_of (line_perpendicular hypot p a b) - d) <= bp (-49) * dist (rpt p) (rpt a) /\
  Rabs (R_of (line_perpendicular_signed hypot p a b) - s) <= bp (-49) * dist (rpt p) (rpt a).
Proof.
  intros hypot p a b d s Mp Ma Mb Ab Ld Hs.
  pose proof (dist_pos_ne _ _ Ab) as L0. pose proof (dist_pos (rpt p) (rpt a)) as D0.
  assert (Ed : d = Rabs (sidev (rpt p) (rpt a) (rpt b)) / dist (rpt a) (rpt b)).
  { rewrite (least_unique _ _ _ _ Ld (perp_least _ _ _ Ab)). unfold g_line_perpendicular. cbn [NR nmul nabs ndiv nsqrt].
    change (g_side R NR (rpt p) (rpt a) (rpt b)) with (sidev (rpt p) (rpt a) (rpt b)).
    assert (El : g_len2 R NR (rpt a) (rpt b) = dist (rpt a) (rpt b) * dist (rpt a) (rpt b)) by (rewrite dist_sq'; unfold g_len2; cbn [NR nadd nmul nsub]; ring).
    rewrite El, sqrt_square by lra. unfold Rdiv. rewrite Rabs_mult, (Rabs_pos_eq (/ _)) by (apply Rlt_le, Rinv_0_lt_compat; nra).
    field. lra. }
  assert (Es : s = sidev (rpt p) (rpt a) (rpt b) / dist (rpt a) (rpt b)).
  { destruct Hs as (S1 & S2). cbv zeta in S1, S2.
    assert (Sd : sidev (rpt p) (rpt a) (rpt b) = - ((px (rpt b) - px (rpt a)) * (py (rpt p) - py (rpt a)) - (py (rpt b) - py (rpt a)) * (px (rpt p) - px (rpt a)))) by (unfold sidev; ring).
    set (w := _ - _) in Sd, S1, S2. destruct (Rle_dec w 0) as [W|W].
    - rewrite (S1 W), Ed, Rabs_pos_eq by lra. reflexivity.
    - rewrite S2, Ed, Rabs_left1 by lra. field. lra. }
  clear Hs Ld. pose proof u_16 as U16. pose proof u53_pos as U.
  assert (K : forall z D, Rabs z <= 15 * u53 * D -> 0 <= D -> Rabs z <= bp (-49) * D).
  { intros z D H HD. eapply Rle_trans; [exact H|]. now apply Rmult_le_compat_r. }
  change (line_perpendicular hypot p a b) with (fmul (fabs (fdiv (g_side f64 (NF hypot) (pf p) (pf a) (pf b)) (g_len2 f64 (NF hypot) (pf a) (pf b)))) (fsqrt (g_len2 f64 (NF hypot) (pf a) (pf b)))).
  change (line_perpendicular_signed hypot p a b) with (fmul (fdiv (g_side f64 (NF hypot) (pf p) (pf a) (pf b)) (g_len2 f64 (NF hypot) (pf a) (pf b))) (fsqrt (g_len2 f64 (NF hypot) (pf a) (pf b)))).
  destruct (feqb (cx p) (cx a) && feqb (cy p) (cy a)) eqn:Q.
  - destruct Mp as (Px & Py), Ma as (Ax & Ay), Mb as (Bx & By).
    apply feqb_pt in Q; try (now apply mid_fin').
    assert (Z : dist (rpt p) (rpt a) = 0) by (now apply dist_0).
    pose proof (mid_diff_of _ _ Ay Py) as T2. pose proof (mid_diff_of _ _ Ax Px) as T1.
    pose proof (mid_diff_of _ _ Bx Ax) as V1. pose proof (mid_diff_of _ _ By Ay) as V2.
    injection Q as Qx Qy.
    assert (M0 : dist (rpt a) (rpt b) * dist (rpt a) (rpt b) = (R_of (cx b) - R_of (cx a)) * (R_of (cx b) - R_of (cx a)) + (R_of (cy b) - R_of (cy a)) * (R_of (cy b) - R_of (cy a)))
      by (rewrite dist_sq'; cbn [rpt px py]; ring).
    destruct (det_f _ _ _ _ _ _ _ _ 0 (dist (rpt a) (rpt b)) T2 T1 V1 V2 ltac:(lra) ltac:(lra) ltac:(rewrite Qx, Qy; ring) M0) as (Fs & Es').
    change (fsub _ _) with (g_side f64 (NF hypot) (pf p) (pf a) (pf b)) in Fs, Es'.
    set (sf := g_side f64 (NF hypot) (pf p) (pf a) (pf b)) in *.
    assert (S0 : R_of sf = 0).
    { rewrite Rmult_0_l, Rmult_0_r, Qx, Qy in Es'. replace ((R_of (cy a) - R_of (cy a)) * (R_of (cx b) - R_of (cx a)) - (R_of (cx a) - R_of (cx a)) * (R_of (cy b) - R_of (cy a))) with 0 in Es' by ring.
      apply Rabs_le_inv in Es'. lra. }
    assert (Sv : sidev (rpt p) (rpt a) (rpt b) = 0) by (unfold sidev; cbn [rpt px py]; rewrite Qx, Qy; ring).
    destruct (len2_bounds hypot a b (conj Ax Ay) (conj Bx By) Ab) as (_ & Pl).
    destruct (sqrt_f hypot a b (conj Ax Ay) (conj Bx By) Ab) as (Fr & _).
    set (l := g_len2 f64 (NF hypot) (pf a) (pf b)) in *.
    assert (B0 : Rabs (RN 0) < bp 1024) by (rewrite round_0, Rabs_R0 by apply valid_rnd_N; apply bpow_gt_0).
    destruct (fdiv_R sf l Fs ltac:(lra)) as (Fq & Rq). { rewrite S0. unfold Rdiv. now rewrite Rmult_0_l. }
    rewrite S0 in Rq. unfold Rdiv in Rq. rewrite Rmult_0_l, round_0 in Rq by apply valid_rnd_N.
    destruct (fmul_R (fdiv sf l) (fsqrt l) Fq Fr) as (F1 & R1). { now rewrite Rq, Rmult_0_l. }
    destruct (fmul_R (fabs (fdiv sf l)) (fsqrt l)) as (F2 & R2); [now rewrite fabs_fin|exact Fr|rewrite fabs_R, Rq, Rabs_R0, Rmult_0_l; exact B0|].
    rewrite Rq, Rmult_0_l, round_0 in R1 by apply valid_rnd_N. rewrite fabs_R, Rq, Rabs_R0, Rmult_0_l, round_0 in R2 by apply valid_rnd_N.
    split; [exact F2|]. split; [exact F1|]. rewrite R1, R2, Ed, Es, Sv, Z, Rabs_R0. unfold Rdiv. rewrite Rmult_0_l, Rminus_0_r, Rabs_R0. lra.
  - assert (Pa : rpt p <> rpt a).
    { intros E. destruct Mp as (Px & Py), Ma as (Ax & Ay). apply feqb_pt in E; try (now apply mid_fin'). congruence. }
    destruct (perp_f hypot p a b Mp Ma Mb Pa Ab) as ((F1 & E1) & F2 & E2). cbv zeta in *.
    split; [exact F2|]. split; [exact F1|]. rewrite Ed, Es. split; apply K; assumption.
Qed.
(** The methods of a segment. *)
Theorem C60_distance_error : forall hypot s t p d x M, hypot_accurate hypot -> mid_pt p -> mid_pt (p0 s) -> mid_pt (p1 s) -> mid_pt (p0 t) -> mid_pt (p1 t) ->
  least_distance (eq (rpt p)) (on_segment (rpt (p0 s)) (rpt (p1 s))) d ->
  least_distance (on_segment (rpt (p0 s)) (rpt (p1 s))) (on_segment (rpt (p0 t)) (rpt (p1 t))) x ->
  dist (rpt (p0 s)) (rpt (p1 s)) <= M -> dist (rpt (p0 t)) (rpt (p1 t)) <= M -> dist (rpt (p0 s)) (rpt (p0 t)) <= M ->
  dist (rpt (p1 s)) (rpt (p0 t)) <= M -> dist (rpt (p0 s)) (rpt (p1 t)) <= M ->
  Rabs (R_of (seg_distance hypot s p) - d) <= bp (-48) * dist (rpt p) (rpt (p0 s)) /\
  Rabs (R_of (seg_distance_segment hypot s t) - x) <= bp (-47) * M /\
  Rabs (R_of (seg_length hypot s) - dist (rpt (p0 s)) (rpt (p1 s))) <= bp (-51) * dist (rpt (p0 s)) (rpt (p1 s)).
Proof.
  intros hypot s t p d x M Hh Mp M0 M1 M2 M3 Ld Lx H1 H2 H3 H4 H5. split; [|split].
  - apply (C52_point_to_segment_error hypot p (p0 s) (p1 s) d Hh Mp M0 M1 Ld).
  - apply (C52_segment_to_segment_error hypot (p0 s) (p1 s) (p0 t) (p1 t) x M Hh M0 M1 M2 M3 H1 H2 H3 H4 H5 Lx).
  - apply (C74_distance_error hypot (p0 s) (p1 s) Hh M0 M1).
Qed.
(** Whole numbers of up to 53 bits meet the hypotheses. *)
Lemma mid_fofZ n : (Z.abs n <= 2 ^ 53)%Z -> mid (fofZ n) /\ R_of (fofZ n) = IZR n.
Proof.
  intros H. destruct (grid_fofZ n H) as (F & E). change (bp 0) with 1 in E. rewrite Rmult_1_r in E. split; [|exact E].
  split; [exact F|]. rewrite E, <- abs_IZR. split.
  - apply Rle_trans with (bp 53); [change (bp 53) with (IZR (2 ^ 53)); now apply IZR_le|apply bpow_le; lia].
  - destruct (Z.eq_dec n 0) as [->|Z]; [left; reflexivity|right]. apply Rle_trans with (bp 0); [apply bpow_le; lia|].
    change (bp 0) with (IZR 1). apply IZR_le. lia.
Qed.
Lemma mid_ipt x y : (Z.abs x <= 2 ^ 53)%Z -> (Z.abs y <= 2 ^ 53)%Z -> mid_pt (ipt x y) /\ rpt (ipt x y) = mkP (IZR x) (IZR y).
Proof.
  intros X Y. destruct (mid_fofZ x X) as (A & B), (mid_fofZ y Y) as (C & D). split; [split; assumption|].
  unfold rpt, ipt, new_xy. cbn [cx cy]. now rewrite B, D.
Qed.
(** Outside the grid of C52_zero_iff the distance no longer tells whether the
    segments meet: these two meet at the end of one, and their distance is positive. *)
Theorem C52_meeting_refuted : exists a b c d, mid_pt a /\ mid_pt b /\ mid_pt c /\ mid_pt d /\
  on_segment (rpt a) (rpt b) (rpt c) /\
  forall hypot, hypot_accurate hypot -> fltb f0 (segment_to_segment hypot a b c d) = true.
Proof.
  exists (ipt (-7133076484045958) (-8129032865733261)), (ipt 1338305020872253 8309691490562598),
    (ipt (-4309282649073221) (-2649458080301308)), (ipt 2286074391824355 (-4348128780894696)).
  set (a := ipt _ _). set (b := ipt _ _). set (c := ipt _ _). set (d := ipt _ _).
  destruct (mid_ipt (-7133076484045958) (-8129032865733261)) as (Ma & Ra); try lia. fold a in Ma, Ra.
  destruct (mid_ipt 1338305020872253 8309691490562598) as (Mb & Rb); try lia. fold b in Mb, Rb.
  destruct (mid_ipt (-4309282649073221) (-2649458080301308)) as (Mc & Rc); try lia. fold c in Mc, Rc.
  destruct (mid_ipt 2286074391824355 (-4348128780894696)) as (Md & Rd); try lia. fold d in Md, Rd.
  do 4 (split; [assumption|]). split.
  { rewrite Ra, Rb, Rc. exists (/ 3). split; [lra|]. unfold along. cbn [px py]. f_equal; lra. }
  intros hypot Hh.
  assert (P1 : point_to_segment hypot a c d = distance hypot a c).
  { unfold point_to_segment, g_point_to_segment.
    match goal with |- (if ?t then _ else _) = _ => replace t with false by (vm_compute; reflexivity) end. cbv zeta.
    match goal with |- (if ?t then _ else _) = _ => replace t with true by (vm_compute; reflexivity) end. reflexivity. }
  destruct (dist_f hypot a c Hh Ma Mc) as (F1 & E1). apply Rabs_le_inv in E1.
  assert (Da : 0 < dist (rpt a) (rpt c)) by (apply dist_pos_ne; rewrite Ra, Rc; intros E; injection E; lra).
  assert (G1 : fltb f0 (distance hypot a c) = true).
  { rewrite fltb_R by (try reflexivity; exact F1). apply Rlt_bool_true. change (R_of f0) with 0. pose proof u53_small. pose proof u53_pos. nra. }
  assert (E : segment_to_segment hypot a b c d = min_4 (point_to_segment hypot a c d) (point_to_segment hypot b c d) (point_to_segment hypot c a b) (point_to_segment hypot d a b)).
  { unfold segment_to_segment, g_segment_to_segment.
    do 2 match goal with |- (if ?t then _ else _) = _ => replace t with false by (vm_compute; reflexivity) end. cbv zeta.
    match goal with |- (if ?t then _ else _) = _ => replace t with true by (vm_compute; reflexivity) end. reflexivity. }
  rewrite E, P1.
  assert (G2 : fltb f0 (point_to_segment hypot b c d) = true) by (vm_compute; reflexivity).
  assert (G3 : fltb f0 (point_to_segment hypot c a b) = true) by (vm_compute; reflexivity).
  assert (G4 : fltb f0 (point_to_segment hypot d a b) = true) by (vm_compute; reflexivity).
  destruct (min4_in (distance hypot a c) (point_to_segment hypot b c d) (point_to_segment hypot c a b) (point_to_segment hypot d a b)) as [H|[H|[H|H]]];
    cbv zeta in H; rewrite H; assumption.
Qed.
(** These two do not meet, both ends of the second being right of the first,
    and their distance is zero. *)
Theorem C52_apart_refuted : exists a b c d, mid_pt a /\ mid_pt b /\ mid_pt c /\ mid_pt d /\
  (forall q, on_segment (rpt a) (rpt b) q -> on_segment (rpt c) (rpt d) q -> False) /\
  forall hypot, segment_to_segment hypot a b c d = f0.
Proof.
  exists (ipt 0 0), (ipt 1731840113342 995945054775), (ipt 1578780557498 907923703061), (ipt 356320933019 47505817607).
  set (a := ipt _ _). set (b := ipt _ _). set (c := ipt _ _). set (d := ipt _ _).
  destruct (mid_ipt 0 0) as (Ma & Ra); try lia. fold a in Ma, Ra.
  destruct (mid_ipt 1731840113342 995945054775) as (Mb & Rb); try lia. fold b in Mb, Rb.
  destruct (mid_ipt 1578780557498 907923703061) as (Mc & Rc); try lia. fold c in Mc, Rc.
  destruct (mid_ipt 356320933019 47505817607) as (Md & Rd); try lia. fold d in Md, Rd.
  do 4 (split; [assumption|]). split; [|intros hypot; vm_compute; reflexivity].
  intros q (s & Hs & ->) (t & Ht & Q). rewrite Ra, Rb, Rc, Rd in Q. unfold along in Q. cbn [px py] in Q. injection Q as Qx Qy. lra.
Qed.
(** A point and a segment of 53-bit whole numbers; the squares need 106 bits. *)
Example C52_error_example : let p := ipt 9007199254740991 1 in let a := ipt (-9007199254740991) 3 in let b := ipt 5 9007199254740990 in
  hypot_accurate hypot_nearest /\ mid_pt p /\ mid_pt a /\ mid_pt b /\ rpt a <> rpt b /\
  exists d, least_distance (eq (rpt p)) (on_segment (rpt a) (rpt b)) d.
Proof.
  intros p a b. destruct (mid_ipt 9007199254740991 1) as (Mp & Rp); try lia. destruct (mid_ipt (-9007199254740991) 3) as (Ma & Ra); try lia.
  destruct (mid_ipt 5 9007199254740990) as (Mb & Rb); try lia. split; [exact hypot_nearest_accurate|]. do 3 (split; [assumption|]).
  split; [unfold a, b; rewrite Ra, Rb; intros E; injection E; lra|]. eexists. apply p2s_least.
Qed.
