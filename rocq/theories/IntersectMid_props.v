(** C53 off the grid: the line intersector on arbitrary doubles of moderate
    size. *)
From Coq Require Import ZArith Bool Reals Lia Lra Psatz.
From Flocq Require Import Core IEEE754.BinarySingleNaN.
From Verif Require Import Base F64 F64Facts F64Err Num NumLink Coordinate_model Envelope_model DD_spec
  Orientation_model Orientation_spec Orientation_proofs Orientation_props PointLocation_proofs PointLocation_props
  LocateMid_spec LocateMid_props Distance_model Distance_spec Distance_proofs Distance_float
  Distance_props PrecisionModel_model Intersection_model Intersection_spec Intersection_proofs Intersection_props
  LineIntersector_model LineIntersector_spec LineIntersector_proofs LineIntersector_props.
Local Open Scope R_scope.

(** The ends of each segment are clear of the other, unless the boxes of the
    segments are disjoint. *)
Definition clear_pair (p1 p2 q1 q2 : Coordinate) : Prop :=
  mid_pt p1 /\ mid_pt p2 /\ mid_pt q1 /\ mid_pt q2 /\
  (intersects_4 p1 p2 q1 q2 = true -> clear_of p1 p2 q1 /\ clear_of p1 p2 q2 /\ clear_of q1 q2 p1 /\ clear_of q1 q2 p2).
Lemma clear_sides p1 p2 q1 q2 : clear_pair p1 p2 q1 q2 ->
  fin_pt p1 /\ fin_pt p2 /\ fin_pt q1 /\ fin_pt q2 /\ sides_right p1 p2 q1 q2.
Proof.
  intros (M1 & M2 & M3 & M4 & C).
  pose proof (mid_fin _ M1) as F1. pose proof (mid_fin _ M2) as F2. pose proof (mid_fin _ M3) as F3. pose proof (mid_fin _ M4) as F4.
  do 4 (split; [assumption|]). intros B. apply box4_overlap in B; try assumption. destruct (C B) as (C1 & C2 & C3 & C4).
  repeat apply conj; apply orient_clear; assumption.
Qed.
(** As [C53_classification], but for the place of a proper point: it is in the
    boxes of both segments or is an end of the input, if there is no
    precision model. *)
Theorem C53_classification_clear : forall hypot s p1 p2 q1 q2, clear_pair p1 p2 q1 q2 ->
  let s' := compute_intersection_4 hypot s p1 p2 q1 q2 in
  let common := shared (rpt p1) (rpt p2) (rpt q1) (rpt q2) in
  ((li_result s' = 0%Z /\ forall x, ~ common x) \/
   (li_result s' = 1%Z /\ exists x, (forall y, common y <-> y = x) /\
     (li_proper s' = false -> rpt (int_0 s') = x /\ is_end p1 p2 q1 q2 (int_0 s')) /\
     (li_proper s' = true -> li_pm s = None ->
        is_end p1 p2 q1 q2 (int_0 s') \/
        (covers_xy (env_new_coordinates p1 p2) (cx (int_0 s')) (cy (int_0 s')) = true /\
         covers_xy (env_new_coordinates q1 q2) (cx (int_0 s')) (cy (int_0 s')) = true))) \/
   (li_result s' = 2%Z /\ forall x, common x <-> on_segment (rpt (int_0 s')) (rpt (int_1 s')) x)) /\
  (li_proper s' = true <-> strictly_cross (rpt p1) (rpt p2) (rpt q1) (rpt q2)).
Proof.
  intros hypot s p1 p2 q1 q2 C. destruct (clear_sides _ _ _ _ C) as (F1 & F2 & F3 & F4 & SR). cbv zeta.
  destruct (main_any hypot s p1 p2 q1 q2 F1 F2 F3 F4 SR) as ((R & SX) & _). split; [|exact SX].
  destruct R as [R|[(E & x & UN & NP & _)|R]]; [left; exact R| |right; right; exact R].
  right; left. split; [exact E|]. exists x. split; [exact UN|]. split; [exact NP|]. intros Pr PM.
  destruct (C53_any_doubles hypot s p1 p2 q1 q2) as (_ & _ & _ & _ & H). now apply H.
Qed.
Theorem C53_has_intersection_clear : forall hypot s p1 p2 q1 q2, clear_pair p1 p2 q1 q2 ->
  (has_intersection (compute_intersection_4 hypot s p1 p2 q1 q2) = true <->
   exists x, shared (rpt p1) (rpt p2) (rpt q1) (rpt q2) x).
Proof.
  intros hypot s p1 p2 q1 q2 C. destruct (clear_sides _ _ _ _ C) as (F1 & F2 & F3 & F4 & SR).
  destruct (main_any hypot s p1 p2 q1 q2 F1 F2 F3 F4 SR) as (([(E & H)|[(E & x & H & _)|(E & H)]] & _) & _); unfold has_intersection; rewrite E; cbn.
  - split; [discriminate|]. intros (x & X). now apply H in X.
  - split; [|reflexivity]. intros _. exists x. now apply H.
  - split; [|reflexivity]. intros _. eexists. apply H. exists 0. split; [lra|]. reflexivity.
Qed.
(** Two segments each parallel to an axis are always told right. *)
Theorem C53_axis_parallel : forall hypot s p1 p2 q1 q2, mid_pt p1 -> mid_pt p2 -> mid_pt q1 -> mid_pt q2 ->
  axis_parallel p1 p2 -> axis_parallel q1 q2 ->
  (has_intersection (compute_intersection_4 hypot s p1 p2 q1 q2) = true <->
   exists x, shared (rpt p1) (rpt p2) (rpt q1) (rpt q2) x).
Proof.
  intros hypot s p1 p2 q1 q2 M1 M2 M3 M4 A B. apply C53_has_intersection_clear.
  do 4 (split; [assumption|]). intros _. repeat split; right; left; assumption.
Qed.
(** A point and a segment. *)
Theorem C53_point_on_segment_clear : forall s p p1 p2, mid_pt p -> mid_pt p1 -> mid_pt p2 -> (at_box p p1 p2 -> clear_of p1 p2 p) ->
  let s' := compute_intersection_3 s p p1 p2 in
  (has_intersection s' = true <-> on_segment (rpt p1) (rpt p2) (rpt p)) /\
  (li_proper s' = true <-> on_segment (rpt p1) (rpt p2) (rpt p) /\ rpt p <> rpt p1 /\ rpt p <> rpt p2).
Proof.
  intros s p p1 p2 M M1 M2 C. cbv zeta. unfold compute_intersection_3.
  pose proof (mid_fin _ M) as F. pose proof (mid_fin _ M1) as F1. pose proof (mid_fin _ M2) as F2.
  pose proof (box3_in p1 p2 p F1 F2 F) as B3. pose proof (equals_2d_rpt p p1 F F1) as Q1. pose proof (equals_2d_rpt p p2 F F2) as Q2.
  assert (side (rpt p2) (rpt p1) (rpt p) = - side (rpt p1) (rpt p2) (rpt p)) as SW by (unfold side; ring).
  assert (intersects_3 p1 p2 p && ((orient p1 p2 p =? 0)%Z && (orient p2 p1 p =? 0)%Z) = true <-> on_segment (rpt p1) (rpt p2) (rpt p)) as ON.
  { assert (K : in_box2 (rpt p1) (rpt p2) (rpt p) -> at_box p p1 p2).
    { unfold in_box2, at_box, rpt, Rmin, Rmax. cbn [px py]. intros (H1 & H2).
      destruct (Rle_dec (R_of (cx p1)) (R_of (cx p2))), (Rle_dec (R_of (cy p1)) (R_of (cy p2))); split; nra. }
    rewrite !andb_true_iff, B3. split.
    - intros (X & Y & _). apply box_segment; [exact X|]. apply (sign0 _ _ (orient_clear p1 p2 p M1 M2 M (C (K X)))). exact Y.
    - intros X. apply segment_box in X. destruct X as (X & Y). pose proof (C (K X)) as Cl. split; [exact X|]. split.
      + apply (sign0 _ _ (orient_clear p1 p2 p M1 M2 M Cl)). exact Y.
      + apply (sign0 _ _ (orient_clear p2 p1 p M2 M1 M (clear_of_swap _ _ _ Cl))). change (side (rpt p2) (rpt p1) (rpt p) = 0). rewrite SW, Y. ring. }
  destruct (_ && _) in ON |- *; cbn [li_set_result li_set_proper li_result li_proper int_0 int_1 has_intersection negb Z.eqb].
  - pose proof (proj1 ON eq_refl) as H. split; [cbn; tauto|].
    rewrite negb_true_iff, orb_false_iff. split.
    + intros (A & B). split; [exact H|]. split; intros K; [apply Q1 in K|apply Q2 in K]; congruence.
    + intros (_ & A & B). split; [destruct (equals_2d p p1); [destruct A; now apply Q1|reflexivity]|destruct (equals_2d p p2); [destruct B; now apply Q2|reflexivity]].
  - split; [cbn; tauto|]. split; [discriminate|]. intros (K & _). apply ON in K. discriminate.
Qed.
(** A long flat segment crossed by an upright one; their ordinates have no
    common grid of 49 bits. *)
Example C53_clear_example : clear_pair (new_xy f0 f0) (new_xy (mkf 1 60) (mkf 1 (-60))) (ipt 1 (-1)) (ipt 1 1) /\
  forall hypot, let s' := compute_intersection_4 hypot li_default (new_xy f0 f0) (new_xy (mkf 1 60) (mkf 1 (-60))) (ipt 1 (-1)) (ipt 1 1) in
  li_result s' = 1%Z /\ li_proper s' = true /\ feqb (cx (int_0 s')) f1 = true /\ feqb (cy (int_0 s')) (mkf 1 (-120)) = true.
Proof.
  assert (R60 : R_of (mkf 1 60) = bp 60) by (apply mkf_pow; lia).
  assert (Rm60 : R_of (mkf 1 (-60)) = bp (-60)) by (apply mkf_pow; lia).
  assert (B0 : 0 < bp (-60) <= / 4) by (split; [apply bpow_gt_0|]; change (/ 4) with (bp (-2)); apply bpow_le; lia).
  assert (B1 : 4 <= bp 60) by (change 4 with (bp 2); apply bpow_le; lia).
  assert (R1 : R_of (fofZ 1) = 1) by (rewrite (proj2 (grid_fofZ 1 ltac:(lia))); cbn; lra).
  assert (Rm1 : R_of (fofZ (-1)) = -1) by (rewrite (proj2 (grid_fofZ (-1) ltac:(lia))); cbn; lra).
  assert (M1 : mid (fofZ 1)) by (apply (mid_pow 0); lia).
  assert (Mm1 : mid (fofZ (-1))).
  { split; [reflexivity|]. rewrite Rm1, Rabs_left by lra. change (- -1) with (- IZR (-1)). split.
    - replace (- IZR (-1)) with (bp 0) by (simpl; lra). apply bpow_le. lia.
    - right. replace (- IZR (-1)) with (bp 0) by (simpl; lra). apply bpow_le. lia. }
  split.
  - split; [split; apply mid_0|]. split; [split; apply mid_pow; lia|]. split; [split; assumption|]. split; [split; assumption|].
    intros _. split; [|split; [|split]].
    + left. unfold one_range. cbn [ipt new_xy cx cy]. rewrite R60, Rm60, R1, Rm1. change (R_of f0) with 0. nra.
    + left. unfold one_range. cbn [ipt new_xy cx cy]. rewrite R60, Rm60, R1. change (R_of f0) with 0. nra.
    + right; left. left. reflexivity.
    + right; left. left. reflexivity.
  - intros hypot. repeat split; vm_compute; reflexivity.
Qed.
