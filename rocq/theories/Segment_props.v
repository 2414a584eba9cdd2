(** C60: line segments. *)
From Coq Require Import ZArith Bool List Reals Lia Lra Psatz.
From Flocq Require Import Core IEEE754.BinarySingleNaN.
From Verif Require Import Base F64 F64Facts F64Err Num NumLink DD_spec Coordinate_model Coordinate_spec Coordinate_proofs
  Envelope_spec Orientation_model Orientation_spec Orientation_proofs Orientation_props Distance_model Distance_spec Distance_proofs Distance_float Distance_props
  Intersection_spec Intersection_proofs LineIntersector_model LineIntersector_spec LineIntersector_props Intersection_props Segment_model Segment_proofs Segment_float.
Import ListNotations.
Local Open Scope R_scope.

(** ** Exact arithmetic *)
(** The closest point is a nearest point of the segment, zero length included. *)
Theorem C60_closest_point_exact : forall a b p, let q := g_closest_point R NR a b p in
  on_segment a b q /\ least_distance (eq p) (on_segment a b) (dist p q).
Proof. intros a b p q. pose proof (closestR a b p) as H. split; [apply H|now apply nearest_least]. Qed.
(** The projection is the foot of the perpendicular, the nearest point of the line. *)
Theorem C60_projection_exact : forall a b p, a <> b -> exists f, g_projection_factor R NR a b p = Some f /\
  let q := g_point_along R NR a b f in
  q = along a b f /\ (px p - px q) * (px b - px a) + (py p - py q) * (py b - py a) = 0 /\
  least_distance (eq p) (on_line a b) (dist p q).
Proof.
  intros a b p AB. pose proof (neq_len2 a b AB) as L. exists (dotp a b p / len2 a b). split; [now apply projR|]. cbv zeta.
  set (f := dotp a b p / len2 a b). assert (dotp a b p = f * len2 a b) as D by (unfold f; field; lra).
  change (g_point_along R NR a b f) with (along a b f). split; [reflexivity|]. split.
  - unfold along. cbn [px py]. unfold dotp, len2 in D. lra.
  - split; [exists p, (along a b f); split; [reflexivity|]; split; [now exists f|reflexivity]|].
    intros x y <- (t & ->). apply dist_le2. rewrite !dist2_along, D.
    pose proof (Rmult_le_pos _ _ (Rle_0_sqr (t - f)) (Rlt_le _ _ L)) as Q. unfold Rsqr in Q. lra.
Qed.
(** The segment fraction leads to the nearest point. *)
Theorem C60_fraction_exact : forall a b p, a <> b -> let t := g_segment_fraction R NR a b p in
  0 <= t <= 1 /\ least_distance (eq p) (on_segment a b) (dist p (along a b t)).
Proof.
  intros a b p AB. pose proof (neq_len2 a b AB) as L. cbv zeta. unfold g_segment_fraction. rewrite projR by exact AB.
  cbn [NR nlt nofZ nisnan]. rewrite orb_false_r. set (f := dotp a b p / len2 a b). assert (dotp a b p = f * len2 a b) as D by (unfold f; field; lra).
  destruct (Rlt_bool_spec f 0) as [L0|L0]; [|destruct (Rlt_bool_spec 1 f) as [L1|L1]].
  - split; [lra|]. rewrite along_0. apply nearest_least, nearest_start. rewrite D, <- (Rmult_0_l (len2 a b)). apply Rmult_le_compat_r; lra.
  - split; [lra|]. rewrite along_1. apply nearest_least, nearest_end. rewrite D. rewrite <- (Rmult_1_l (len2 a b)) at 1. apply Rmult_le_compat_r; lra.
  - split; [lra|]. apply nearest_least, nearest_foot; auto.
Qed.
(** An offset point is at the given distance from the point along the segment,
    across it, to the left for positive distances. *)
Theorem C60_offset_exact : forall a b f d, a <> b -> let q := g_point_along_offset R NR a b f d in let m := along a b f in
  dist q m = Rabs d /\ (px q - px m) * (px b - px a) + (py q - py m) * (py b - py a) = 0 /\
  (0 < side a b q <-> 0 < d) /\ (side a b q < 0 <-> d < 0).
Proof.
  intros a b f d AB q m. pose proof (neq_len2 a b AB) as L. set (h := sqrt (len2 a b)).
  assert (0 < h) as Hh by (apply sqrt_lt_R0; exact L). assert (h * h = len2 a b) as HH by (apply sqrt_sqrt; lra).
  set (dx := px b - px a) in *. set (dy := py b - py a) in *.
  assert (q = mkP (px m - d * dy / h) (py m + d * dx / h)) as ->.
  { unfold q, g_point_along_offset, m, along. cbn [NR nofZ nsub nmul nadd ndiv neq nhyp px py]. fold dx dy. change (sqrt (dx * dx + dy * dy)) with h.
    destruct (Req_bool_spec d 0) as [->|Z]; cbn [negb]; f_equal; try reflexivity; field; lra. }
  assert (len2 a b = dx * dx + dy * dy) as LD by reflexivity. rewrite LD in *.
  split; [|split].
  - unfold dist. cbn [px py]. replace ((px m - d * dy / h - px m)² + (py m + d * dx / h - py m)²) with (d * d).
    + rewrite <- sqrt_Rsqr_abs. reflexivity.
    + unfold Rsqr. replace ((px m - d * dy / h - px m) * (px m - d * dy / h - px m) + (py m + d * dx / h - py m) * (py m + d * dx / h - py m))
        with (d * d * (dx * dx + dy * dy) / (h * h)) by (field; lra). rewrite HH. field. lra.
  - cbn [px py]. field. lra.
  - assert (side a b (mkP (px m - d * dy / h) (py m + d * dx / h)) = d * h) as ->.
    { unfold side, m, along. cbn [px py]. fold dx dy. transitivity (d * (dx * dx + dy * dy) / h); [field; lra|]. rewrite <- HH. field. lra. }
    split; split; intros K.
    + apply (Rmult_lt_reg_r h); lra.
    + apply Rmult_lt_0_compat; lra.
    + apply (Rmult_lt_reg_r h); lra.
    + rewrite <- (Rmult_0_l h). now apply Rmult_lt_compat_r.
Qed.
(** Reflection: across the line, the same distance beyond, and its own inverse;
    points of the line stay. *)
Theorem C60_reflect_exact : forall a b p, a <> b -> let r := g_reflect R NR a b p in
  (px r - px p) * (px b - px a) + (py r - py p) * (py b - py a) = 0 /\
  on_line a b (g_mid_point R NR p r) /\ g_reflect R NR a b r = p /\ (on_line a b p -> r = p).
Proof.
  intros [ax ay] [bx by_] [x y] AB r. pose proof (neq_len2 _ _ AB) as L. unfold len2 in L. cbn [px py] in L.
  set (dx := bx - ax) in *. set (dy := by_ - ay) in *.
  set (f := ((x - ax) * dx + (y - ay) * dy) / (dx * dx + dy * dy)).
  assert (forall u v, g_reflect R NR (mkP ax ay) (mkP bx by_) (mkP u v) =
    mkP (2 * (ax + ((u - ax) * dx + (v - ay) * dy) / (dx * dx + dy * dy) * dx) - u) (2 * (ay + ((u - ax) * dx + (v - ay) * dy) / (dx * dx + dy * dy) * dy) - v)) as RF.
  { intros u v. unfold g_reflect. cbn [NR nofZ nsub nmul nadd ndiv nneg px py].
    replace (ax - bx) with (- dx) by (unfold dx; ring). fold dx. fold dy. f_equal; field; lra. }
  assert (r = mkP (2 * (ax + f * dx) - x) (2 * (ay + f * dy) - y)) as Er by (unfold r; apply RF).
  rewrite Er. split; [|split; [|split]].
  - cbn [px py]. fold dx dy. unfold f. field. lra.
  - exists f. unfold g_mid_point, along. cbn [NR ndiv nadd nofZ px py]. fold dx dy. f_equal; field.
  - rewrite RF. f_equal; unfold f; field; lra.
  - intros (t & E). unfold along in E. cbn [px py] in E. fold dx dy in E. injection E as -> ->. f_equal; unfold f; field; lra.
Qed.
(** Projecting a segment: none when both ends fall at or beyond the same end;
    otherwise each end goes to its nearest point. *)
Theorem C60_project_segment_exact : forall a b c d, a <> b -> exists o, g_project_segment R NR a b c d = Some o /\
  (forall q r, o = Some (q, r) -> (on_segment a b q /\ least_distance (eq c) (on_segment a b) (dist c q)) /\
                                (on_segment a b r /\ least_distance (eq d) (on_segment a b) (dist d r))) /\
  (o = None -> least_distance (eq c) (on_segment a b) (dist c a) /\ least_distance (eq d) (on_segment a b) (dist d a) \/
             least_distance (eq c) (on_segment a b) (dist c b) /\ least_distance (eq d) (on_segment a b) (dist d b)).
Proof.
  intros a b c d AB. pose proof (neq_len2 a b AB) as L.
  assert (forall p f, f = dotp a b p / len2 a b -> (f <= 0 -> nearest a b p a) /\ (1 <= f -> nearest a b p b)) as ENDS.
  { intros p f Ef. assert (dotp a b p = f * len2 a b) as D by (rewrite Ef; field; lra). split; intros H.
    - apply nearest_start. rewrite D, <- (Rmult_0_l (len2 a b)). apply Rmult_le_compat_r; lra.
    - apply nearest_end. rewrite D. rewrite <- (Rmult_1_l (len2 a b)) at 1. apply Rmult_le_compat_r; lra. }
  assert (forall p q, nearest a b p q -> on_segment a b q /\ least_distance (eq p) (on_segment a b) (dist p q)) as NL
    by (intros p q H; split; [apply H|now apply nearest_least]).
  unfold g_project_segment. rewrite !projR by exact AB. cbn [NR nle nlt nofZ].
  set (f := dotp a b c / len2 a b). set (g := dotp a b d / len2 a b).
  destruct (ENDS c f eq_refl) as (C0 & C1). destruct (ENDS d g eq_refl) as (D0 & D1). eexists. split; [reflexivity|].
  destruct (Rle_bool_spec 1 f) as [F1|F1], (Rle_bool_spec 1 g) as [G1|G1]; cbn [andb];
    try (split; [discriminate|]; intros _; right; split; apply NL; auto);
    destruct (Rle_bool_spec f 0) as [F0|F0], (Rle_bool_spec g 0) as [G0|G0]; cbn [andb]; try lra;
    try (split; [discriminate|]; intros _; left; split; apply NL; auto);
    (split; [|discriminate]); intros q r E; injection E as <- <-; split; apply NL;
    repeat match goal with |- context [Rlt_bool ?u ?v] => destruct (Rlt_bool_spec u v) end; try lra; auto;
    apply nearest_foot; auto; lra.
Qed.
(** The mid point. *)
Theorem C60_mid_point_exact : forall a b, let m := g_mid_point R NR a b in
  m = along a b (1 / 2) /\ dist m a = dist m b.
Proof.
  intros a b m. assert (m = along a b (1 / 2)) as E by (unfold m, g_mid_point, along; cbn; f_equal; field). split; [exact E|]. rewrite E.
  unfold dist, along. cbn [px py]. f_equal. unfold Rsqr. field.
Qed.
Example C60_exact_example : g_closest_point R NR (mkP 0 0) (mkP 4 0) (mkP 3 5) = mkP 3 0 /\
  g_reflect R NR (mkP 0 0) (mkP 4 0) (mkP 3 5) = mkP 3 (-5) /\ mkP 0 0 <> mkP 4 0.
Proof.
  split; [|split].
  - unfold g_closest_point. rewrite projR by (intros E; injection E; lra). cbn [NR nlt nofZ]. unfold dotp, len2. cbn [px py].
    rewrite !Rlt_bool_true by lra. cbn [andb]. unfold g_point_along. cbn. f_equal; field.
  - unfold g_reflect. cbn. f_equal; field.
  - intros E; injection E; lra.
Qed.

(** ** All doubles *)
(** The segment fraction is in [0, 1] whatever the ordinates, NaN and
    infinities included; it is the projection factor when that is in range. *)
Theorem C60_fraction : forall hypot s p, let t := seg_fraction hypot s p in
  fleb f0 t = true /\ fleb t f1 = true /\
  (let f := seg_projection_factor hypot s p in fleb f0 f = true -> fleb f f1 = true -> t = f).
Proof.
  intros hypot s p. cbv zeta. unfold seg_fraction. set (f := seg_projection_factor hypot s p). cbv zeta.
  assert (nn f0 /\ nn f1) as (N0 & N1) by (split; reflexivity). change (rank f0) with 0%Z.
  destruct (fis_nan f) eqn:NF.
  - rewrite fltb_nan_l by exact NF. rewrite orb_true_r. split; [reflexivity|]. split; [reflexivity|]. intros K. rewrite fleb_nan_r in K by exact NF. discriminate.
  - rewrite orb_false_r. rewrite fltb_rank, fgtb_rank by assumption. change (rank f0) with 0%Z.
    destruct (Z.ltb_spec (rank f) 0); [|destruct (Z.ltb_spec (rank f1) (rank f))]; rewrite !fleb_rank by assumption; change (rank f0) with 0%Z.
    + split; [reflexivity|]. split; [reflexivity|]. intros K. apply Z.leb_le in K. lia.
    + split; [reflexivity|]. split; [reflexivity|]. intros _ K. apply Z.leb_le in K. lia.
    + split; [apply Z.leb_le; lia|]. split; [apply Z.leb_le; lia|]. reflexivity.
Qed.
(** [reverse] is its own inverse; [normalize] puts the ends in order, is
    idempotent, forgets the direction and keeps the segment up to direction. *)
Definition nn_seg (s : LineSegment) : Prop := nn_xy (p0 s) /\ nn_xy (p1 s).
Theorem C60_reverse_normalize : forall s, nn_seg s ->
  seg_reverse (seg_reverse s) = s /\ seg_equals_topo s (seg_reverse s) = true /\
  (seg_normalize s = s \/ seg_normalize s = seg_reverse s) /\ seg_equals_topo s (seg_normalize s) = true /\
  (compare_to (p0 (seg_normalize s)) (p1 (seg_normalize s)) <= 0)%Z /\
  seg_normalize (seg_normalize s) = seg_normalize s /\
  seg_equals (seg_normalize (seg_reverse s)) (seg_normalize s) = true.
Proof.
  intros s (N0 & N1). unfold seg_normalize, seg_equals_topo, seg_equals, seg_reverse.
  assert (forall p, nn_xy p -> equals_2d p p = true) as RF by (intros p N; apply equals_2d_eq; now apply pt_eq_refl).
  pose proof (compare_to_antisym (p0 s) (p1 s)) as A. cbn [p0 p1].
  assert ({| p0 := p0 s; p1 := p1 s |} = s) as ETA by now destruct s. rewrite ETA.
  split; [reflexivity|]. rewrite !RF by assumption. cbn [andb]. rewrite orb_true_r. split; [reflexivity|].
  destruct (Z.ltb_spec (compare_to (p1 s) (p0 s)) 0) as [L|L]; cbn [p0 p1].
  - split; [now right|]. rewrite !RF by assumption. cbn [andb]. rewrite orb_true_r. split; [reflexivity|]. split; [lia|].
    destruct (Z.ltb_spec (compare_to (p0 s) (p1 s)) 0); [lia|]. cbn [p0 p1]. rewrite !RF by assumption. auto.
  - split; [now left|]. rewrite !RF by assumption. split; [reflexivity|]. split; [lia|]. split.
    + destruct (Z.ltb_spec (compare_to (p1 s) (p0 s)) 0); [lia|reflexivity].
    + destruct (Z.ltb_spec (compare_to (p0 s) (p1 s)) 0); cbn [p0 p1].
      * now rewrite !RF by assumption.
      * assert (compare_to (p0 s) (p1 s) = 0)%Z as E by lia. apply compare_to_zero in E; [|assumption..].
        rewrite (proj2 (equals_2d_eq (p0 s) (p1 s)) E). rewrite (proj2 (equals_2d_eq (p1 s) (p0 s)) (pt_eq_sym _ _ E)). reflexivity.
Qed.
(** [compare_to] is a total order (up to [equals]), [equals_topo] an
    equivalence blind to direction, and [equals_topo] is equality of the
    normalized segments. *)
Theorem C60_compare : forall s t u, nn_seg s -> nn_seg t -> nn_seg u ->
  (seg_compare s t = -1 \/ seg_compare s t = 0 \/ seg_compare s t = 1)%Z /\
  seg_compare t s = (- seg_compare s t)%Z /\
  (seg_compare s t <= 0 -> seg_compare t u <= 0 -> seg_compare s u <= 0)%Z /\
  (seg_compare s t = 0%Z <-> seg_equals s t = true).
Proof.
  intros s t u (S0 & S1) (T0 & T1) (U0 & U1). unfold seg_compare, seg_equals.
  assert (forall p q, nn_xy p -> nn_xy q -> (compare_to p q = 0%Z <-> equals_2d p q = true)) as Z0
    by (intros p q P Q; rewrite equals_2d_eq; now apply compare_to_zero).
  rewrite andb_true_iff, <- !Z0 by assumption.
  pose proof (compare_to_antisym (p0 s) (p0 t)) as A0. pose proof (compare_to_antisym (p1 s) (p1 t)) as A1.
  pose proof (compare_to_range (p0 s) (p0 t)). pose proof (compare_to_range (p1 s) (p1 t)).
  split; [|split; [|split]].
  - destruct (Z.eqb_spec (compare_to (p0 s) (p0 t)) 0); cbn [negb]; assumption.
  - rewrite A0, A1. destruct (Z.eqb_spec (compare_to (p0 s) (p0 t)) 0), (Z.eqb_spec (- compare_to (p0 s) (p0 t)) 0); cbn [negb]; lia.
  - pose proof (compare_to_trans (p0 s) (p0 t) (p0 u) S0 T0 U0). pose proof (compare_to_trans (p1 s) (p1 t) (p1 u) S1 T1 U1).
    pose proof (compare_to_trans (p0 u) (p0 t) (p0 s) U0 T0 S0). pose proof (compare_to_trans (p0 u) (p0 s) (p0 t) U0 S0 T0).
    pose proof (compare_to_trans (p0 t) (p0 u) (p0 s) T0 U0 S0).
    pose proof (compare_to_antisym (p0 s) (p0 u)). pose proof (compare_to_antisym (p0 t) (p0 u)).
    destruct (Z.eqb_spec (compare_to (p0 s) (p0 t)) 0), (Z.eqb_spec (compare_to (p0 t) (p0 u)) 0), (Z.eqb_spec (compare_to (p0 s) (p0 u)) 0); cbn [negb]; lia.
  - destruct (Z.eqb_spec (compare_to (p0 s) (p0 t)) 0); cbn [negb]; lia.
Qed.
Theorem C60_equals_topo : forall s t u, nn_seg s -> nn_seg t -> nn_seg u ->
  seg_equals_topo s s = true /\ seg_equals_topo s t = seg_equals_topo t s /\
  (seg_equals_topo s t = true -> seg_equals_topo t u = true -> seg_equals_topo s u = true) /\
  seg_equals_topo (seg_reverse s) t = seg_equals_topo s t /\ seg_equals_topo s (seg_reverse t) = seg_equals_topo s t /\
  (seg_equals_topo s t = true <-> seg_equals (seg_normalize s) (seg_normalize t) = true).
Proof.
  assert (forall p q, equals_2d p q = equals_2d q p) as SY by (intros p q; apply eq_true_iff_eq; rewrite !equals_2d_eq; split; apply pt_eq_sym).
  assert (forall s, nn_seg s -> seg_equals_topo s s = true) as RF.
  { intros s (N0 & N1). unfold seg_equals_topo. rewrite !(proj2 (equals_2d_eq _ _)) by (now apply pt_eq_refl). reflexivity. }
  assert (forall s t, seg_equals_topo s t = seg_equals_topo t s) as SYM.
  { intros s t. unfold seg_equals_topo. rewrite (SY (p0 s)), (SY (p1 s)), (SY (p0 s)), (SY (p1 s)). f_equal. apply andb_comm. }
  assert (forall s t u, seg_equals_topo s t = true -> seg_equals_topo t u = true -> seg_equals_topo s u = true) as TR.
  { intros s t u. unfold seg_equals_topo. rewrite !orb_true_iff, !andb_true_iff, !equals_2d_eq.
    intros [(A & B)|(A & B)] [(C & D)|(C & D)]; [left|right|right|left]; split; eapply pt_eq_trans; eauto. }
  assert (forall s t, seg_equals_topo (seg_reverse s) t = seg_equals_topo s t) as RV.
  { intros s t. unfold seg_equals_topo, seg_reverse. cbn [p0 p1]. rewrite orb_comm. f_equal; apply andb_comm. }
  intros s t u S T U. split; [now apply RF|]. split; [apply SYM|]. split; [apply TR|]. split; [apply RV|].
  split; [rewrite SYM, RV; apply SYM|].
  assert (forall s t, seg_equals s t = true -> seg_equals_topo s t = true) as EQ by (intros x y E; unfold seg_equals_topo; unfold seg_equals in E; now rewrite E).
  destruct (C60_reverse_normalize s S) as (_ & _ & KS & TS & OS & _). destruct (C60_reverse_normalize t T) as (_ & _ & KT & TT & OT & _).
  split.
  - intros E. assert (seg_equals_topo (seg_normalize s) (seg_normalize t) = true) as E'.
    { apply (TR _ t); [|exact TT]. apply (TR _ s); [now rewrite SYM|exact E]. }
    revert E'. assert (nn_seg (seg_normalize s) /\ nn_seg (seg_normalize t)) as (NS & NT).
    { split; [destruct KS as [->| ->]|destruct KT as [->| ->]]; unfold nn_seg, seg_reverse in *; cbn; tauto. }
    revert OS OT NS NT. generalize (seg_normalize s) (seg_normalize t). clear. intros s t OS OT (S0 & S1) (T0 & T1).
    unfold seg_equals_topo, seg_equals. rewrite orb_true_iff, !andb_true_iff, !equals_2d_eq. intros [E|(E1 & E2)]; [exact E|].
    (* ends in order and swapped: all four equal *)
    rewrite compare_to_lex in OS, OT by assumption. apply pt_eq_rank in E1, E2.
    destruct E1 as (_ & _ & X1 & Y1), E2 as (_ & _ & X2 & Y2). rewrite !pt_eq_rank. rewrite X1, Y1, X2, Y2 in *. unfold lex in OS, OT.
    assert (rank (cx (p0 t)) = rank (cx (p1 t)) /\ rank (cy (p0 t)) = rank (cy (p1 t))) as (-> & ->).
    { repeat match goal with H : context [(?a <? ?b)%Z] |- _ => destruct (Z.ltb_spec a b) end; lia. }
    tauto.
  - intros E. apply EQ in E. apply (TR _ (seg_normalize s)); [exact TS|]. apply (TR _ (seg_normalize t)); [exact E|]. now rewrite SYM.
Qed.

(** The closest pair of two segments that do not meet, in exact arithmetic. *)
Theorem C60_closest_pair_exact : forall a b c d, (forall x, ~ shared a b c d x) ->
  let r := g_closest_pair R NR a b c d in
  on_segment a b (fst r) /\ on_segment c d (snd r) /\ least_distance (on_segment a b) (on_segment c d) (dist (fst r) (snd r)).
Proof.
  intros a b c d DJ r.
  assert (forall x y, on_segment x y x /\ on_segment x y y) as ENDS.
  { intros x y. split; [exists 0|exists 1]; (split; [lra|]); now rewrite ?along_0, ?along_1. }
  assert (forall u v, dist u v = dist v u) as SYM by (intros; unfold dist; f_equal; unfold Rsqr; ring).
  assert (forall x y p, on_segment x y (g_closest_point R NR x y p) /\ dist (g_closest_point R NR x y p) p = p2sR p x y) as CP.
  { intros x y p. destruct (closestR x y p) as (O & M). split; [exact O|]. rewrite SYM. apply Rle_antisym.
    - destruct (p2s_attained p x y) as (q & Q & ->). now apply M.
    - now apply p2s_le. }
  destruct (CP a b c) as (O1 & D1). destruct (CP a b d) as (O2 & D2). destruct (CP c d a) as (O3 & D3). destruct (CP c d b) as (O4 & D4).
  set (m := s2sR a b c d). pose proof (s2s_least a b c d) as (AT & LB). fold m in AT, LB.
  assert (m = p2sR c a b \/ m = p2sR d a b \/ m = p2sR a c d \/ m = p2sR b c d) as M.
  { assert (m <> 0) as NZ.
    { intros Z. destruct AT as (p & q & P & Q & E). rewrite Z in E. apply (DJ p). split; [exact P|].
      assert (p = q) as ->; [|exact Q]. pose proof (dist_sq p q) as DS. rewrite E in DS. destruct p as [x1 y1], q as [x2 y2]. unfold Rsqr in DS. cbn in DS.
      assert (0 <= (x1 - x2) * (x1 - x2) /\ 0 <= (y1 - y2) * (y1 - y2)) as (S1 & S2) by (split; apply Rle_0_sqr).
      f_equal; apply Rminus_diag_uniq, Rsqr_0_uniq; unfold Rsqr; lra. }
    unfold m in *. unfold g_segment_to_segment in *.
    destruct (g_equals R NR a b); [auto|]. destruct (g_equals R NR c d) eqn:CD; [|].
    { apply eqR_true in CD. subst d. auto. }
    pose proof (min4R_spec (p2sR a c d) (p2sR b c d) (p2sR c a b) (p2sR d a b)) as (_ & _ & _ & _ & E). cbv zeta in E.
    destruct (negb _); [tauto|].
    repeat match goal with |- (if ?t then _ else _) = _ \/ _ => destruct t; [tauto|] end. exfalso. now apply NZ. }
  assert (m <= p2sR c a b /\ m <= p2sR d a b /\ m <= p2sR a c d /\ m <= p2sR b c d) as (M1 & M2 & M3 & M4).
  { rewrite <- D1, <- D2, <- D3, <- D4, (SYM _ a), (SYM _ b). split; [|split; [|split]]; apply LB; auto; apply ENDS. }
  assert (on_segment a b (fst r) /\ on_segment c d (snd r) /\ dist (fst r) (snd r) = m) as (R1 & R2 & R3).
  { unfold r, g_closest_pair. cbv zeta. cbn [NR nlt]. change (g_distance R NR) with dist. rewrite D1, D2, D3, D4.
    destruct (ENDS a b) as (Ea & Eb), (ENDS c d) as (Ec & Ed).
    rewrite (SYM _ a) in D3. rewrite (SYM _ b) in D4.
    revert D1 D2 D3 D4 M M1 M2 M3 M4. generalize (p2sR c a b) (p2sR d a b) (p2sR a c d) (p2sR b c d). intros w1 w2 w3 w4 D1 D2 D3 D4 M M1 M2 M3 M4.
    repeat match goal with |- context [Rlt_bool ?x ?y] => is_var x; is_var y; destruct (Rlt_bool_spec x y) end; cbn [fst snd];
      (split; [assumption|]; split; [assumption|]); rewrite ?D1, ?D2, ?D3, ?D4; lra. }
  split; [exact R1|]. split; [exact R2|]. rewrite R3. split; assumption.
Qed.

(** ** Doubles on a grid *)
(** The ordinates computed are those of the generic functions read in doubles. *)
Definition seg_of (e : Z) (s : LineSegment) : Prop := small_pt e (p0 s) /\ small_pt e (p1 s).
Lemma pf_with_xy c q : pf (with_xy c q) = q.
Proof. now destruct q. Qed.
Lemma closest_link hypot s p : pf (seg_closest_point hypot s p) = g_closest_point f64 (NF hypot) (pf (p0 s)) (pf (p1 s)) (pf p).
Proof.
  unfold seg_closest_point, seg_projection_factor, g_closest_point, g_closest_end. cbn [NF nlt nofZ]. change (fofZ 0) with f0. change (fofZ 1) with f1.
  assert (forall t : bool, pf (if t then p0 s else p1 s) = if t then pf (p0 s) else pf (p1 s)) as I by now intros [|].
  change (g_distance f64 (NF hypot) (pf (p0 s)) (pf p)) with (distance hypot (p0 s) p).
  change (g_distance f64 (NF hypot) (pf (p1 s)) (pf p)) with (distance hypot (p1 s) p).
  destruct (g_projection_factor f64 (NF hypot) (pf (p0 s)) (pf (p1 s)) (pf p)) as [f|].
  - change (fgtb f f0) with (fltb f0 f). destruct (fltb f0 f && fltb f f1); [unfold seg_project_with; apply pf_with_xy|apply I].
  - change (fgtb fnan f0) with false. cbn [andb]. apply I.
Qed.
(** The closest point is within [2^(e-26)] of a point of the segment which is
    nearest up to a relative [2^-49]. *)
Theorem C60_closest_point : forall hypot e s p, hypot_accurate hypot -> (-400 <= e <= 400)%Z -> seg_of e s -> small_pt e p ->
  let c := seg_closest_point hypot s p in
  exists q, on_segment (rpt (p0 s)) (rpt (p1 s)) q /\
    (forall r, on_segment (rpt (p0 s)) (rpt (p1 s)) r -> dist (rpt p) q <= (1 + bp (-49)) * dist (rpt p) r) /\
    fis_finite (cx c) = true /\ fis_finite (cy c) = true /\
    Rabs (R_of (cx c) - px q) <= bp (e - 26) /\ Rabs (R_of (cy c) - py q) <= bp (e - 26).
Proof.
  intros hypot e s p Hh He (S0 & S1) Hp c.
  destruct (closest_val hypot e He Hh _ _ _ _ _ _ (small_ptx _ _ S0) (small_ptx _ _ S1) (small_ptx _ _ Hp)) as (q & Q & M & F1 & F2 & X & Y).
  rewrite <- closest_link in *. fold c in F1, F2, X, Y. exists q. auto 10.
Qed.
(** The ends are taken only where the projection leaves the segment. *)
Theorem C60_closest_point_kind : forall hypot e s p, (-400 <= e <= 400)%Z -> seg_of e s -> small_pt e p ->
  rpt (p0 s) <> rpt (p1 s) ->
  let f := seg_projection_factor hypot s p in
  let q := dotp (rpt (p0 s)) (rpt (p1 s)) (rpt p) / len2 (rpt (p0 s)) (rpt (p1 s)) in
  fis_finite f = true /\ R_of f = RN q /\ (fleb f f0 = true <-> q <= 0) /\ (fleb f1 f = true <-> 1 <= q) /\
  (0 < q < 1 -> seg_closest_point hypot s p = seg_project_with hypot s p f) /\
  (q <= 0 \/ 1 <= q -> seg_closest_point hypot s p = p0 s \/ seg_closest_point hypot s p = p1 s).
Proof.
  intros hypot e s p He (S0 & S1) Hp NE.
  destruct (factor_val hypot e He _ _ _ _ _ _ (small_ptx _ _ S0) (small_ptx _ _ S1) (small_ptx _ _ Hp) NE) as (f & Ef & Ff & Rf & _ & C1 & C2 & C3 & C4).
  cbv zeta. unfold seg_closest_point, seg_projection_factor. rewrite Ef. set (q := dotp _ _ _ / _) in *.
  assert (nn f /\ nn f0 /\ nn f1) as (N & N0 & N1) by (split; [now apply nn_finite|split; reflexivity]).
  rewrite fgtb_rank, fltb_rank by assumption. rewrite fleb_rank in C2, C4 by assumption. rewrite !fleb_rank by assumption.
  split; [exact Ff|]. split; [exact Rf|].
  split; [rewrite C2; destruct (Rle_bool_spec q 0); split; intros; try lra; congruence|].
  split; [rewrite C4; destruct (Rle_bool_spec 1 q); split; intros; try lra; congruence|].
  split.
  - intros Q. rewrite Rle_bool_false in C2, C4 by lra. apply Z.leb_gt in C2, C4. rewrite !(proj2 (Z.ltb_lt _ _)) by assumption. reflexivity.
  - intros Q. match goal with |- context [if ?t && ?u then _ else _] => assert (t && u = false) as -> end.
    { destruct Q as [Q|Q]; [rewrite Rle_bool_true in C2 by lra; apply Z.leb_le in C2|rewrite Rle_bool_true in C4 by lra; apply Z.leb_le in C4];
      destruct (Z.ltb_spec (rank f0) (rank f)), (Z.ltb_spec (rank f) (rank f1)); try reflexivity; lia. }
    destruct (fltb (distance hypot (p0 s) p) (distance hypot (p1 s) p)); auto.
Qed.
(** The side of a point, and the intersection test, are exact. *)
Theorem C60_orientation_intersection : forall hypot e s t p, (-100 <= e <= 70)%Z -> seg_of e s -> seg_of e t -> small_pt e p ->
  is_sign (orientation_coordinate s p) (side (rpt (p0 s)) (rpt (p1 s)) (rpt p)) /\
  (seg_intersection hypot s t <> None <-> exists x, shared (rpt (p0 s)) (rpt (p1 s)) (rpt (p0 t)) (rpt (p1 t)) x).
Proof.
  intros hypot e s t p He (S0 & S1) (T0 & T1) Hp. split.
  - unfold orientation_coordinate. apply (orient_side e); [lia|..]; now apply small_gpt.
  - unfold seg_intersection. rewrite <- (C53_has_intersection hypot e li_default _ _ _ _ He S0 S1 T0 T1).
    destruct (has_intersection _); split; intros H; try reflexivity; try discriminate; try (now destruct H).
Qed.
(** [closest_points] yields the pair of the exact algorithm when the segments
    do not meet, but a single point, not a pair, when they do. *)
Theorem C60_closest_points : forall hypot e s t, (-100 <= e <= 70)%Z -> seg_of e s -> seg_of e t ->
  ((exists x, shared (rpt (p0 s)) (rpt (p1 s)) (rpt (p0 t)) (rpt (p1 t)) x) -> length (seg_closest_points hypot s t) = 1%nat) /\
  ((forall x, ~ shared (rpt (p0 s)) (rpt (p1 s)) (rpt (p0 t)) (rpt (p1 t)) x) ->
   exists u v, seg_closest_points hypot s t = [u; v] /\
     (pf u, pf v) = g_closest_pair f64 (NF hypot) (pf (p0 s)) (pf (p1 s)) (pf (p0 t)) (pf (p1 t))).
Proof.
  intros hypot e s t He Hs Ht. destruct (C60_orientation_intersection hypot e s t (p0 s) He Hs Ht (proj1 Hs)) as (_ & I). unfold seg_closest_points. split.
  - intros X. apply I in X. destruct (seg_intersection hypot s t); [reflexivity|congruence].
  - intros X. destruct (seg_intersection hypot s t) as [q|].
    { exfalso. destruct (proj1 I ltac:(discriminate)) as (x & Hx). exact (X x Hx). }
    cbv zeta. eexists. eexists. split; [reflexivity|]. unfold g_closest_pair. rewrite <- !closest_link. cbn [NF nlt].
    assert (forall a b, g_distance f64 (NF hypot) (pf a) (pf b) = distance hypot a b) as DL by reflexivity. rewrite !DL.
    repeat match goal with |- context [fltb ?x ?y] => destruct (fltb x y) end; reflexivity.
Qed.
Theorem C60_closest_points_refuted : exists hypot s t, hypot_accurate hypot /\ seg_of 0 s /\ seg_of 0 t /\ length (seg_closest_points hypot s t) <> 2%nat.
Proof.
  exists hypot_nearest, (seg_new (ipt 0 0) (ipt 4 4)), (seg_new (ipt 0 4) (ipt 4 0)).
  assert (forall a b c d, (Z.abs a <= 2 ^ 24)%Z -> (Z.abs b <= 2 ^ 24)%Z -> (Z.abs c <= 2 ^ 24)%Z -> (Z.abs d <= 2 ^ 24)%Z -> seg_of 0 (seg_new (ipt a b) (ipt c d))) as SM
    by (intros; split; now apply ipt_small).
  split; [exact hypot_nearest_accurate|]. split; [apply SM; lia|]. split; [apply SM; lia|].
  assert (seg_of 0 (seg_new (ipt 0 0) (ipt 4 4)) /\ seg_of 0 (seg_new (ipt 0 4) (ipt 4 0))) as (SA & SB) by (split; apply SM; lia).
  destruct (C60_closest_points hypot_nearest 0 _ _ ltac:(lia) SA SB) as (L & _).
  rewrite L; [discriminate|]. exists (mkP 2 2). cbn [seg_new from_coordinate p0 p1].
  assert (forall x y, (Z.abs x <= 2 ^ 53)%Z -> (Z.abs y <= 2 ^ 53)%Z -> rpt (from_coordinate (ipt x y)) = mkP (IZR x) (IZR y)) as RI by (intros; now apply rpt_ipt).
  rewrite !RI by lia.
  split; exists (1 / 2); (split; [lra|]); unfold along; cbn [px py]; f_equal; field.
Qed.
(** Reading and writing ends: [set_coordinates] keeps the Z and M of the ends
    it replaces. *)
Theorem C60_set : forall s a b,
  cx (p0 (seg_set s a b)) = cx a /\ cy (p0 (seg_set s a b)) = cy a /\ cx (p1 (seg_set s a b)) = cx b /\ cy (p1 (seg_set s a b)) = cy b /\
  cz (p0 (seg_set s a b)) = cz (p0 s) /\ cm (p0 (seg_set s a b)) = cm (p0 s) /\
  cz (p1 (seg_set s a b)) = cz (p1 s) /\ cm (p1 (seg_set s a b)) = cm (p1 s) /\ seg_copy s = s.
Proof. intros [[] []] [] []. repeat split. Qed.
Example C60_example : hypot_accurate hypot_nearest /\ seg_of 0 (seg_new (ipt 0 0) (ipt 4 0)) /\ small_pt 0 (ipt 3 5) /\
  equals_2d (seg_closest_point hypot_nearest (seg_new (ipt 0 0) (ipt 4 0)) (ipt 3 5)) (ipt 3 0) = true /\
  equals_2d (seg_reflect hypot_nearest (seg_new (ipt 0 0) (ipt 4 0)) (ipt 3 5)) (ipt 3 (-5)) = true /\
  nn_seg (seg_new (ipt 4 0) (ipt 0 0)) /\ seg_equals (seg_normalize (seg_new (ipt 4 0) (ipt 0 0))) (seg_new (ipt 0 0) (ipt 4 0)) = true /\
  feqb (seg_fraction hypot_nearest (seg_new (ipt 1 1) (ipt 1 1)) (ipt 3 5)) f1 = true.
Proof.
  split; [exact hypot_nearest_accurate|]. split; [split; apply ipt_small; lia|]. split; [apply ipt_small; lia|].
  repeat split; vm_compute; reflexivity.
Qed.
