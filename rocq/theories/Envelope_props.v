(** Properties C01-C09, C70, C71: envelopes. *)
From Coq Require Import ZArith Bool List Lia Permutation Reals Lra.
From Flocq Require Import Core IEEE754.BinarySingleNaN.
From Verif Require Import Base F64 F64Facts Coordinate_model Envelope_model Envelope_spec Envelope_proofs.
Import ListNotations.
Open Scope Z_scope.

Local Notation pt a b := (new_xy (fofZ a) (fofZ b)).
Local Notation bx a b c d := (mkE (fofZ a) (fofZ b) (fofZ c) (fofZ d)).

(** ** C01: smallest box *)
Theorem C01_envelope_covers_every_point : forall pts p,
  Forall nn_xy pts -> In p pts -> in_box (envelope_of pts) (cx p) (cy p).
Proof. exact envelope_of_covers. Qed.

Theorem C01_envelope_is_smallest : forall pts b,
  Forall nn_xy pts -> wf_env b -> (forall p, In p pts -> in_box b (cx p) (cy p)) ->
  subset (envelope_of pts) b.
Proof. intros pts b F W H. apply envelope_of_least; auto. now apply Forall_forall. Qed.

Theorem C01_envelope_order_independent : forall pts pts',
  Forall nn_xy pts -> Permutation pts pts' ->
  env_equals (envelope_of pts) (envelope_of pts') = true.
Proof.
  intros pts pts' F P. apply env_equals_spec.
  - now apply envelope_of_wf.
  - apply envelope_of_wf. eapply Permutation_Forall; eauto.
  - now apply perm_same.
Qed.

Theorem C01_envelope_null_iff_no_points : forall pts,
  Forall nn_xy pts -> (is_null (envelope_of pts) = true <-> pts = []).
Proof.
  intros pts F. split.
  - intros N. destruct pts as [|p pts]; [reflexivity|]. exfalso.
    rewrite null_box in N; [discriminate|]. now apply envelope_of_box.
  - intros ->. reflexivity.
Qed.

(** Both entry points for points are the same operation. *)
Theorem C01_expand_entry_points_agree : forall e p,
  expand_to_include_coordinate e p = expand_to_include_xy e (cx p) (cy p).
Proof. reflexivity. Qed.

Example C01_example :
  let pts := [pt 3 (-4); pt (-7) 2; new_xy finf f0; pt 3 9] in
  Forall nn_xy pts /\ env_equals (envelope_of pts) (mkE (fofZ (-7)) finf (fofZ (-4)) (fofZ 9)) = true
  /\ wf_env (mkE fneginf finf (fofZ (-10)) (fofZ 10)).
Proof.
  split; [repeat constructor|]. split; [reflexivity|]. right. split; reflexivity.
Qed.

(** ** C02: covers is containment of point sets *)
Theorem C02_covers_point : forall e x y, wf_env e -> (covers_xy e x y = true <-> in_box e x y).
Proof. exact covers_xy_spec. Qed.

Theorem C02_covers_envelope : forall a b, wf_env a -> wf_env b ->
  (covers_envelope a b = true <-> is_null a = false /\ is_null b = false /\ subset b a).
Proof. exact covers_envelope_spec. Qed.

Theorem C02_covers_reflexive : forall a, wf_env a -> is_null a = false -> covers_envelope a a = true.
Proof. intros a W N. apply covers_envelope_spec; auto. split; auto. split; auto. apply subset_refl. Qed.

Theorem C02_covers_transitive : forall a b c, wf_env a -> wf_env b -> wf_env c ->
  covers_envelope a b = true -> covers_envelope b c = true -> covers_envelope a c = true.
Proof.
  intros a b c Wa Wb Wc. rewrite !covers_envelope_spec by assumption.
  intros (A & B & S) (_ & C & T). split; [auto|split; [auto|]]. intros x y H. apply S, T, H.
Qed.

Theorem C02_covers_antisymmetric : forall a b, wf_env a -> wf_env b ->
  covers_envelope a b = true -> covers_envelope b a = true -> env_equals a b = true.
Proof.
  intros a b Wa Wb. rewrite !covers_envelope_spec by assumption.
  intros (_ & _ & S) (_ & _ & T). apply env_equals_spec; auto. intros x y. split; auto.
Qed.

(** [equals] is equality of point sets; [contains_properly] is strict containment. *)
Theorem C02_equals_same_points : forall a b, wf_env a -> wf_env b ->
  (env_equals a b = true <-> same_points a b).
Proof. exact env_equals_spec. Qed.

(** A copy covers exactly the same points and answers every comparison alike. *)
Theorem C02_copy : forall e x y f, covers_xy (env_new_envelope e) x y = covers_xy e x y /\
  covers_envelope (env_new_envelope e) f = covers_envelope e f /\ covers_envelope f (env_new_envelope e) = covers_envelope f e /\
  intersects_envelope (env_new_envelope e) f = intersects_envelope e f /\ env_new_envelope e = e.
Proof. now intros []. Qed.
Theorem C02_contains_properly : forall a b, wf_env a -> wf_env b ->
  (contains_properly a b = true <->
   is_null a = false /\ is_null b = false /\ subset b a /\ ~ subset a b).
Proof.
  intros a b Wa Wb. unfold contains_properly.
  destruct (env_equals a b) eqn:E.
  - apply env_equals_spec in E; auto. split; [easy|]. intros (_ & _ & _ & H).
    exfalso. apply H. intros x y. apply E.
  - rewrite covers_envelope_spec by assumption. split; [|tauto].
    intros (A & B & S). split; [auto|split; [auto|split; [auto|]]]. intros T.
    assert (env_equals a b = true); [|congruence]. apply env_equals_spec; auto.
    intros x y; split; auto.
Qed.

Example C02_example :
  wf_env (bx 0 10 0 10) /\ wf_env (bx 2 3 0 5) /\
  covers_envelope (bx 0 10 0 10) (bx 2 3 0 5) = true /\ contains_properly (bx 0 10 0 10) (bx 2 3 0 5) = true /\
  covers_envelope (bx 2 3 0 5) (bx 0 10 0 10) = false.
Proof. repeat split; try (right; split; reflexivity). Qed.

(** ** C03: intersects means a common point *)
Theorem C03_intersects_iff_common_point : forall a b, wf_env a -> wf_env b ->
  (intersects_envelope a b = true <-> exists x y, in_box a x y /\ in_box b x y).
Proof. exact intersects_spec. Qed.

Theorem C03_intersects_symmetric : forall a b, wf_env a -> wf_env b ->
  intersects_envelope a b = intersects_envelope b a.
Proof. exact intersects_sym. Qed.

Theorem C03_disjoint_iff_no_common_point : forall a b, wf_env a -> wf_env b ->
  (disjoint_envelope a b = true <-> forall x y, ~ (in_box a x y /\ in_box b x y)).
Proof.
  intros a b Wa Wb. unfold disjoint_envelope. rewrite negb_true_iff.
  rewrite <- not_true_iff_false, intersects_spec by assumption.
  split; [intros H x y I; apply H; now exists x, y|intros H (x & y & I); now apply (H x y)].
Qed.

Theorem C03_point_in_segment_box : forall p1 p2 q, nn_xy p1 -> nn_xy p2 -> nn_xy q ->
  (intersects_3 p1 p2 q = true <-> in_span p1 p2 (cx q) (cy q)).
Proof. exact intersects_3_spec. Qed.

Theorem C03_segment_boxes_meet : forall p1 p2 q1 q2, nn_xy p1 -> nn_xy p2 -> nn_xy q1 -> nn_xy q2 ->
  (intersects_4 p1 p2 q1 q2 = true <-> exists x y, in_span p1 p2 x y /\ in_span q1 q2 x y).
Proof. exact intersects_4_spec. Qed.

Theorem C03_segment_box_meets_envelope : forall e a b, wf_env e -> nn_xy a -> nn_xy b ->
  (intersects_coordinate_ab e a b = true <-> exists x y, in_box e x y /\ in_span a b x y).
Proof. exact intersects_ab_spec. Qed.

Theorem C03_static_tests_agree_with_boxes : forall p1 p2 q1 q2,
  nn_xy p1 -> nn_xy p2 -> nn_xy q1 -> nn_xy q2 ->
  intersects_4 p1 p2 q1 q2 = intersects_envelope (env_new_coordinates p1 p2) (env_new_coordinates q1 q2)
  /\ intersects_3 p1 p2 q1 = covers_xy (env_new_coordinates p1 p2) (cx q1) (cy q1).
Proof.
  intros. split. now apply intersects_4_env.
  apply eq_true_iff_eq. rewrite intersects_3_spec, covers_xy_spec by (auto; right; now apply env_new_coordinates_box).
  now apply in_span_box.
Qed.

Example C03_example :
  nn_xy (pt 5 0) /\ nn_xy (pt 0 5) /\ intersects_4 (pt 5 0) (pt 0 5) (pt 5 5) (pt 9 9) = true /\
  intersects_3 (pt 5 0) (pt 0 5) (pt 4 4) = true /\ intersects_3 (pt 5 0) (pt 0 5) (pt 6 4) = false /\
  intersects_envelope (bx 0 5 0 5) (bx 5 9 5 9) = true /\ disjoint_envelope (bx 0 5 0 5) (bx 6 9 0 9) = true.
Proof. repeat split. Qed.

(** ** C04: intersection *)
Theorem C04_intersection_is_common_points : forall a b, wf_env a -> wf_env b ->
  forall x y, in_box (intersection_envelope a b) x y <-> in_box a x y /\ in_box b x y.
Proof. intros a b Wa Wb. now apply intersection_box. Qed.

Theorem C04_intersection_null_iff_disjoint : forall a b, wf_env a -> wf_env b ->
  (is_null (intersection_envelope a b) = true <-> forall x y, ~ (in_box a x y /\ in_box b x y)).
Proof.
  intros a b Wa Wb. rewrite intersection_null by assumption. now apply C03_disjoint_iff_no_common_point.
Qed.

Example C04_example :
  env_equals (intersection_envelope (bx 0 5 0 5) (bx 3 9 (-1) 2)) (bx 3 5 0 2) = true /\
  is_null (intersection_envelope (bx 0 5 0 5) (bx 6 9 0 5)) = true /\ wf_env (bx 3 9 (-1) 2).
Proof. repeat split; try (right; split; reflexivity). Qed.

(** ** C05: join *)
Theorem C05_join_is_least_upper_bound : forall a b c, wf_env a -> wf_env b -> wf_env c ->
  (subset (expand_to_include_envelope a b) c <-> subset a c /\ subset b c).
Proof. exact expand_env_least. Qed.

Theorem C05_join_contains_both : forall a b, wf_env a -> wf_env b ->
  subset a (expand_to_include_envelope a b) /\ subset b (expand_to_include_envelope a b).
Proof.
  intros a b Wa Wb. apply (expand_env_least a b); auto. now apply expand_env_wf. apply subset_refl.
Qed.

Theorem C05_join_commutative : forall a b, wf_env a -> wf_env b ->
  env_equals (expand_to_include_envelope a b) (expand_to_include_envelope b a) = true.
Proof.
  intros a b Wa Wb. apply env_equals_spec; try now apply expand_env_wf.
  apply same_by_upper; try now apply expand_env_wf. intros c Wc. rewrite !expand_env_least by assumption. tauto.
Qed.

Theorem C05_join_associative : forall a b c, wf_env a -> wf_env b -> wf_env c ->
  env_equals (expand_to_include_envelope (expand_to_include_envelope a b) c)
             (expand_to_include_envelope a (expand_to_include_envelope b c)) = true.
Proof.
  intros a b c Wa Wb Wc.
  assert (wf_env (expand_to_include_envelope a b)) by now apply expand_env_wf.
  assert (wf_env (expand_to_include_envelope b c)) by now apply expand_env_wf.
  apply env_equals_spec; try now apply expand_env_wf.
  apply same_by_upper; try now apply expand_env_wf. intros d Wd. rewrite !expand_env_least by assumption. tauto.
Qed.

Theorem C05_join_idempotent_and_null_unit : forall a, wf_env a ->
  env_equals (expand_to_include_envelope a a) a = true /\
  expand_to_include_envelope a env_default = a /\ expand_to_include_envelope env_default a = a.
Proof.
  intros a Wa. split; [|split].
  - apply env_equals_spec; auto. now apply expand_env_wf.
    apply same_by_upper; auto. now apply expand_env_wf. intros c Wc. rewrite expand_env_least by assumption. tauto.
  - reflexivity.
  - unfold expand_to_include_envelope. destruct (is_null a) eqn:N.
    + symmetry. now apply wf_null.
    + now destruct a.
Qed.

Example C05_example :
  env_equals (expand_to_include_envelope (bx 0 1 0 1) (bx (-3) 0 5 6)) (bx (-3) 1 0 6) = true.
Proof. reflexivity. Qed.

(** ** C06: buffering and translation *)
Theorem C06_null_stays_null : forall e dx dy, is_null e = true ->
  expand_by e dx = e /\ expand_by_delta_xy e dx dy = e /\ env_translate e dx dy = e.
Proof. intros e dx dy N. unfold expand_by, expand_by_delta_xy, env_translate. now rewrite N. Qed.

Theorem C06_expand_nonnegative_covers : forall e dx dy, wf_env e ->
  fis_finite dx = true -> fis_finite dy = true -> lef f0 dx -> lef f0 dy ->
  subset e (expand_by_delta_xy e dx dy) /\ subset e (expand_by e dx).
Proof. intros. rewrite expand_by_delta. split; now apply expand_by_grow. Qed.

Theorem C06_expand_negative_covered : forall e dx dy, wf_env e ->
  fis_finite dx = true -> fis_finite dy = true -> lef dx f0 -> lef dy f0 ->
  subset (expand_by_delta_xy e dx dy) e /\ subset (expand_by e dx) e.
Proof. intros. rewrite expand_by_delta. split; now apply expand_by_shrink. Qed.

Theorem C06_translate_moves_points : forall e tx ty, is_box e ->
  fis_finite tx = true -> fis_finite ty = true ->
  is_null (env_translate e tx ty) = false /\
  (forall x y, in_box e x y -> in_box (env_translate e tx ty) (fadd x tx) (fadd y ty)).
Proof. intros e tx ty B Fx Fy. destruct (translate_box e tx ty B Fx Fy). split; auto. now apply null_box. Qed.

(** On any power-of-two grid the buffered box is the original one with each
    side moved out by exactly the offset, and null exactly when that inverts
    the box; likewise for translation. *)
Theorem C06_expand_exact_on_grid : forall k e a b c d dx dy p q,
  -1074 <= k <= 970 -> grid_box k e a b c d -> a <= b -> c <= d ->
  grid k dx p -> grid k dy q ->
  Z.abs a + Z.abs b + Z.abs c + Z.abs d + Z.abs p + Z.abs q <= 2 ^ 53 ->
  if (a - p <=? b + p) && (c - q <=? d + q)
  then grid_box k (expand_by_delta_xy e dx dy) (a - p) (b + p) (c - q) (d + q)
  else expand_by_delta_xy e dx dy = env_default.
Proof. exact expand_exact. Qed.

Theorem C06_expand_by_is_expand_xy : forall e d, expand_by e d = expand_by_delta_xy e d d.
Proof. exact expand_by_delta. Qed.

Theorem C06_translate_exact_on_grid : forall k e a b c d dx dy p q,
  -1074 <= k <= 970 -> grid_box k e a b c d -> a <= b -> c <= d ->
  grid k dx p -> grid k dy q ->
  Z.abs a + Z.abs b + Z.abs c + Z.abs d + Z.abs p + Z.abs q <= 2 ^ 53 ->
  grid_box k (env_translate e dx dy) (a + p) (b + p) (c + q) (d + q).
Proof. exact translate_exact. Qed.

Example C06_grid_example : grid_box 0 (bx 0 10 0 4) 0 10 0 4 /\ grid 0 (fofZ (-3)) (-3).
Proof. split; [repeat split|]; now apply grid_fofZ. Qed.

Example C06_example :
  let e := bx 0 10 0 4 in
  is_box e /\ env_equals (expand_by e (fofZ 2)) (bx (-2) 12 (-2) 6) = true /\
  is_null (expand_by e (fofZ (-3))) = true /\
  env_equals (expand_by_delta_xy e (fofZ (-3)) (fofZ (-1))) (bx 3 7 1 3) = true /\
  env_equals (env_translate e (fofZ 5) (fofZ (-1))) (bx 5 15 (-1) 3) = true.
Proof. repeat split. Qed.

(** ** C07: distance *)
Theorem C07_distance_symmetric : forall hypot a b, wf_env a -> wf_env b ->
  is_null a = false -> is_null b = false ->
  distance_envelope hypot a b = distance_envelope hypot b a.
Proof. exact distance_symmetric. Qed.

Theorem C07_distance_zero_when_intersecting : forall hypot a b,
  intersects_envelope a b = true -> distance_envelope hypot a b = f0.
Proof. intros hypot a b I. unfold distance_envelope. now rewrite I. Qed.

(** [hypot] of two positive numbers is assumed positive (libm). *)
Theorem C07_distance_positive_when_disjoint : forall hypot a b,
  (forall x y, posf x -> posf y -> posf (hypot x y)) ->
  is_box a -> is_box b -> finite_env a -> finite_env b ->
  (forall x y, ~ (in_box a x y /\ in_box b x y)) -> posf (distance_envelope hypot a b).
Proof.
  intros hypot a b Hh Ba Bb Fa Fb D. apply distance_positive; auto.
  apply not_true_iff_false. rewrite intersects_spec by (now right).
  intros (x & y & I). now apply (D x y).
Qed.

Theorem C07_distance_value : forall hypot a b gx gy,
  is_box a -> is_box b -> finite_env a -> finite_env b ->
  intersects_envelope a b = false ->
  is_gap (minx a) (maxx a) (minx b) (maxx b) gx ->
  is_gap (miny a) (maxy a) (miny b) (maxy b) gy ->
  (~ posf gx -> distance_envelope hypot a b = gy) /\
  (~ posf gy -> distance_envelope hypot a b = gx) /\
  (posf gx -> posf gy -> distance_envelope hypot a b = hypot gx gy).
Proof. exact distance_gap. Qed.

Example C07_example :
  let h := fun x y => fsqrt (fadd (fmul x x) (fmul y y)) in
  distance_envelope h (bx 0 1 0 1) (bx 4 5 5 6) = fofZ 5 /\
  distance_envelope h (bx 0 1 0 1) (bx 4 5 0 6) = fofZ 3 /\
  is_gap (fofZ 0) (fofZ 1) (fofZ 4) (fofZ 5) (fsub (fofZ 4) (fofZ 1)) /\
  finite_env (bx 4 5 5 6).
Proof.
  repeat split.
  - apply B2SF_inj; vm_compute; reflexivity.
  - apply B2SF_inj; vm_compute; reflexivity.
  - left. split; reflexivity.
Qed.

(** ** C08: comparison *)
Theorem C08_compare_antisymmetric : forall a b, wf_env a -> wf_env b ->
  compare_to_envelope b a = - compare_to_envelope a b.
Proof. exact compare_antisym. Qed.
Theorem C08_compare_transitive : forall a b c, wf_env a -> wf_env b -> wf_env c ->
  compare_to_envelope a b <= 0 -> compare_to_envelope b c <= 0 -> compare_to_envelope a c <= 0.
Proof. exact compare_trans. Qed.
Theorem C08_compare_zero_iff_equal : forall a b, wf_env a -> wf_env b ->
  (compare_to_envelope a b = 0 <-> same_points a b).
Proof. intros a b Wa Wb. rewrite compare_zero by assumption. now apply env_equals_spec. Qed.
Theorem C08_null_is_lowest : forall a, is_null a = false ->
  compare_to_envelope env_default a = -1 /\ compare_to_envelope a env_default = 1.
Proof. intros a N. unfold compare_to_envelope. now rewrite N. Qed.
Theorem C08_compare_lexicographic_on_min_corner : forall a b, is_box a -> is_box b ->
  (fltb (minx a) (minx b) = true -> compare_to_envelope a b = -1) /\
  (feqb (minx a) (minx b) = true -> fltb (miny a) (miny b) = true -> compare_to_envelope a b = -1).
Proof.
  intros a b Ba Bb. rewrite compare_ranks by assumption.
  boxes. rk. unfold lex. split.
  - intros L1. now rewrite L1.
  - intros L1 L2. apply Z.eqb_eq in L1. rewrite L1, Z.ltb_irrefl, L2. reflexivity.
Qed.
Example C08_example :
  compare_to_envelope (bx 0 1 0 1) (bx 0 1 0 2) = -1 /\ compare_to_envelope (bx 0 1 0 1) (mkE fneg0 f1 f0 f1) = 0
  /\ wf_env (mkE fneg0 f1 f0 f1).
Proof. repeat split; right; split; reflexivity. Qed.

(** ** C09: point tests *)
Theorem C09_point_tests_agree_off_nan : forall e x y, wf_env e -> nn x -> nn y ->
  intersects_xy e x y = covers_xy e x y.
Proof. exact intersects_xy_spec. Qed.
(** With a NaN ordinate the point "intersects" but is not covered. *)
Theorem C09_point_tests_agree_refuted : exists e x y,
  is_box e /\ fis_nan x = true /\ intersects_xy e x y = true /\ covers_xy e x y = false.
Proof. exists (bx 0 1 0 1), fnan, f0. repeat split. Qed.
Theorem C09_nan_point_always_intersects : forall e, is_null e = false -> intersects_xy e fnan fnan = true.
Proof.
  intros e N. unfold intersects_xy. rewrite N.
  assert (forall x, fltb fnan x = false) as A by (intros; now apply fltb_nan_l).
  assert (forall x, fltb x fnan = false) as B by (intros; now apply fltb_nan_r).
  change fgtb with (fun x y => fltb y x). cbv beta. now rewrite !A, !B.
Qed.
Example C09_example : intersects_xy (bx 0 1 0 1) f1 f0 = true /\ intersects_xy (bx 0 1 0 1) f2 f0 = false.
Proof. split; reflexivity. Qed.

(** ** C70: every history of API calls leaves a well-formed envelope *)
Theorem C70_api_histories_keep_envelopes_well_formed : forall ops,
  Forall op_ok ops -> wf_env (fold_left apply_op ops env_default).
Proof. intros ops F. apply apply_ops_wf; auto. now left. Qed.
Theorem C70_constructors_well_formed : forall p q x1 x2 y1 y2,
  nn_xy p -> nn_xy q -> nn x1 -> nn x2 -> nn y1 -> nn y2 ->
  is_box (env_new_xy x1 x2 y1 y2) /\ is_box (env_new_coordinates p q) /\ is_box (env_new_coordinate p).
Proof.
  intros p q x1 x2 y1 y2 P Q ? ? ? ?. split; [|split].
  - now apply env_new_xy_box.
  - now apply env_new_coordinates_box.
  - destruct P. split; now apply lef_refl.
Qed.
(** A history that ends with the empty envelope always leaves the same one:
    from 0 to -1 on both axes. *)
Theorem C70_empty_is_one : forall ops, Forall op_ok ops ->
  let e := fold_left apply_op ops env_default in
  is_null e = true -> map R_of [minx e; maxx e; miny e; maxy e] = [0; -1; 0; -1]%R.
Proof.
  intros ops F e N. destruct (wf_cases e (C70_api_histories_keep_envelopes_well_formed ops F)) as [(E & _) | (_ & B)].
  - rewrite E. cbn [map env_default minx maxx miny maxy]. now rewrite fneg_R, R_of_f0, R_of_f1.
  - congruence.
Qed.
Example C70_example :
  let ops := [OpPoint (fofZ 1) (fofZ 2); OpExpand (fofZ (-5)); OpPoint finf f0; OpTranslate f1 f1;
              OpEnvelope (bx 0 1 0 1); OpExpandXY f1 f2; OpIntersect (bx 0 9 0 9)] in
  Forall op_ok ops /\ is_null (fold_left apply_op ops env_default) = false /\
  is_null (fold_left apply_op [OpPoint (fofZ 1) (fofZ 2); OpExpand (fofZ (-5))] env_default) = true.
Proof.
  split; [|split; reflexivity]. repeat apply Forall_cons; try apply Forall_nil; cbn [op_ok];
    try (right; split; reflexivity); try (split; reflexivity); reflexivity.
Qed.

(** ** C71: centre, sizes *)
Theorem C71_centre_inside : forall e c, is_box e -> finite_env e ->
  (Rabs (R_of (minx e)) <= bp 1022)%R -> (Rabs (R_of (maxx e)) <= bp 1022)%R ->
  (Rabs (R_of (miny e)) <= bp 1022)%R -> (Rabs (R_of (maxy e)) <= bp 1022)%R ->
  env_centre e = Some c -> in_box e (cx c) (cy c).
Proof.
  intros e c B (F1 & F2 & F3 & F4) H1 H2 H3 H4. unfold env_centre. rewrite null_box by assumption.
  intros E; inversion E; subst c; clear E. cbn [cx cy new_xy].
  boxes. destruct (midpoint_between (minx e) (maxx e)) as [? ?]; auto.
  destruct (midpoint_between (miny e) (maxy e)) as [? ?]; auto.
  unfold in_box. rewrite !lef_rank. repeat split; auto; try now apply nn_finite; lia. all: lia.
Qed.
Theorem C71_centre_none_iff_null : forall e, env_centre e = None <-> is_null e = true.
Proof. intros e. unfold env_centre. destruct (is_null e); split; easy. Qed.
(** Beyond that magnitude the sum overflows and the centre leaves the box. *)
Theorem C71_centre_inside_refuted : exists e c, is_box e /\ finite_env e /\
  env_centre e = Some c /\ covers_xy e (cx c) (cy c) = false.
Proof.
  exists (mkE (mkf 1 1023) (mkf 1 1023) f0 f0), (new_xy finf f0). repeat split.
Qed.
Theorem C71_width_height_nonnegative : forall e, wf_env e -> finite_env e ->
  lef f0 (get_width e) /\ lef f0 (get_height e) /\
  (is_null e = true -> get_width e = f0 /\ get_height e = f0).
Proof.
  intros e W (F1 & F2 & F3 & F4). unfold get_width, get_height.
  destruct (wf_cases e W) as [[-> N]|[B N]]; rewrite N.
  { repeat split; reflexivity. }
  boxes.
  assert (forall a b, fis_finite a = true -> fis_finite b = true -> rank a <= rank b -> lef f0 (fsub b a)) as G.
  { intros a b Fa Fb L. apply lef_rank. split; [reflexivity|]. change (rank f0) with 0.
    split; [apply nn_fsub_fin; auto; now apply nn_finite|].
    destruct (Z.eq_dec (rank a) (rank b)) as [E|NE].
    - rewrite fsub_fadd.
      destruct (fadd_R b (fneg a)) as [Fs Rs]; auto. now rewrite fneg_fin.
      rewrite fneg_R. assert (R_of a = R_of b) as -> by (apply rank_eqR; auto).
      replace (R_of b + - R_of b)%R with 0%R by ring. rewrite RN_0, Rabs_R0. apply bpow_gt_0.
      change 0 with (rank f0). apply rank_leR; auto. rewrite Rs, fneg_R.
      assert (R_of a = R_of b) as -> by (apply rank_eqR; auto).
      replace (R_of b + - R_of b)%R with 0%R by ring. rewrite RN_0. apply Rle_refl.
    - destruct (fsub_pos b a) as [_ P]; auto; lia. }
  repeat split; auto; discriminate.
Qed.
Theorem C71_sizes_exact_on_grid : forall k e a b c d,
  -1074 <= k <= 970 -> -1074 <= k + k <= 970 -> grid_box k e a b c d -> a <= b -> c <= d ->
  Z.abs a + Z.abs b + Z.abs c + Z.abs d <= 2 ^ 53 -> (b - a) * (d - c) <= 2 ^ 53 ->
  grid k (get_width e) (b - a) /\ grid k (get_height e) (d - c) /\
  grid (k + k) (env_get_area e) ((b - a) * (d - c)) /\
  grid k (min_extent e) (Z.min (b - a) (d - c)) /\ grid k (max_extent e) (Z.max (b - a) (d - c)).
Proof. exact sizes_exact. Qed.
(** [grid (k-1) x n] reads x = n/2 * 2^k: the centre is the midpoint. *)
Theorem C71_centre_exact_on_grid : forall k e a b c d ct,
  -1073 <= k <= 970 -> grid_box k e a b c d -> a <= b ->
  Z.abs a + Z.abs b + Z.abs c + Z.abs d <= 2 ^ 53 -> env_centre e = Some ct ->
  grid (k - 1) (cx ct) (a + b) /\ grid (k - 1) (cy ct) (c + d).
Proof. exact centre_exact. Qed.

Example C71_example : exists c, env_centre (bx 1 4 0 7) = Some c /\ covers_xy (bx 1 4 0 7) (cx c) (cy c) = true
  /\ (Rabs (R_of (fofZ 7)) <= bp 1022)%R.
Proof.
  eexists. split; [reflexivity|]. split; [reflexivity|].
  destruct (grid_fofZ 7 ltac:(lia)) as [_ ->].
  rewrite Rmult_1_r, Rabs_pos_eq by lra. apply Rle_trans with (bp 3); [simpl; lra|apply bpow_le; lia].
Qed.
