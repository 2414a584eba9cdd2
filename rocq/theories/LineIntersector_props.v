(** C53: the line intersector. *)
From Coq Require Import ZArith Bool Reals Lia Lra Psatz.
From Flocq Require Import Core IEEE754.BinarySingleNaN.
From Verif Require Import Base F64 F64Facts F64Err Num NumLink Coordinate_model Envelope_model DD_spec
  Orientation_model Orientation_spec Orientation_proofs Orientation_props PointLocation_proofs Distance_model Distance_spec Distance_proofs Distance_float
  Distance_props PrecisionModel_model Intersection_model Intersection_spec Intersection_proofs Intersection_props
  LineIntersector_model LineIntersector_spec LineIntersector_proofs.
Local Open Scope R_scope.

Lemma sign0 z r : is_sign z r -> ((z =? 0)%Z = true <-> r = 0).
Proof. intros [(-> & H)|[(-> & H)|(-> & H)]]; cbn; split; intros K; try discriminate; auto; lra. Qed.
Lemma not_apart_strict s t : ~ apart s t -> s <> 0 -> t <> 0 -> opposite s t.
Proof. unfold apart, opposite. intros. destruct (Rlt_or_le 0 s), (Rlt_or_le 0 t); lra. Qed.
(** The orientations of the ends of each segment about the other are right,
    unless the boxes are disjoint. *)
Definition sides_right (p1 p2 q1 q2 : Coordinate) : Prop :=
  box_overlap (rpt p1) (rpt p2) (rpt q1) (rpt q2) ->
  is_sign (orient p1 p2 q1) (side (rpt p1) (rpt p2) (rpt q1)) /\ is_sign (orient p1 p2 q2) (side (rpt p1) (rpt p2) (rpt q2)) /\
  is_sign (orient q1 q2 p1) (side (rpt q1) (rpt q2) (rpt p1)) /\ is_sign (orient q1 q2 p2) (side (rpt q1) (rpt q2) (rpt p2)).
Section Any.
Variables (hypot : f64 -> f64 -> f64) (s : LI) (p1 p2 q1 q2 : Coordinate).
Hypotheses (F1 : fin_pt p1) (F2 : fin_pt p2) (F3 : fin_pt q1) (F4 : fin_pt q2) (SR : sides_right p1 p2 q1 q2).
Let a := rpt p1. Let b := rpt p2. Let c := rpt q1. Let d := rpt q2.
Let s' := compute_intersection_4 hypot s p1 p2 q1 q2.
Lemma main_any :
  (((li_result s' = NO_INTERSECTION /\ forall x, ~ shared a b c d x) \/
   (li_result s' = POINT_INTERSECTION /\ exists x, (forall y, shared a b c d y <-> y = x) /\
      (li_proper s' = false -> rpt (int_0 s') = x /\ is_end p1 p2 q1 q2 (int_0 s')) /\
      (li_proper s' = true -> cross a b c d <> 0 /\ x = meetR a b c d)) \/
   (li_result s' = COLLINEAR_INTERSECTION /\ (forall x, shared a b c d x <-> on_segment (rpt (int_0 s')) (rpt (int_1 s')) x))) /\
  (li_proper s' = true <-> strictly_cross a b c d)) /\
  (li_proper s' = true -> same_xy (int_0 s') (li_intersection hypot (li_set_proper (li_set_proper (li_set_lines s p1 p2 q1 q2) false) true) p1 p2 q1 q2)).
Proof.
  assert (O1 : box_overlap a b c d -> is_sign (orient p1 p2 q1) (side a b c)) by (intros B; apply (SR B)).
  assert (O2 : box_overlap a b c d -> is_sign (orient p1 p2 q2) (side a b d)) by (intros B; apply (SR B)).
  assert (O3 : box_overlap a b c d -> is_sign (orient q1 q2 p1) (side c d a)) by (intros B; apply (SR B)).
  assert (O4 : box_overlap a b c d -> is_sign (orient q1 q2 p2) (side c d b)) by (intros B; apply (SR B)).
  pose proof (box4_overlap p1 p2 q1 q2 F1 F2 F3 F4) as BO. fold a b c d in BO.
  assert (OVL : forall x, shared a b c d x -> box_overlap a b c d).
  { intros x (X & Y). apply segment_box in X, Y. destruct X as ((X1 & X2) & _), Y as ((Y1 & Y2) & _). unfold box_overlap. lra. }
  unfold s', compute_intersection_4, compute_intersect.
  destruct (intersects_4 p1 p2 q1 q2) eqn:I4; cbn [negb].
  2:{ cbn [li_result li_proper li_set_result li_set_proper]. split; [|discriminate]. split.
      - left. split; [reflexivity|]. intros x X. apply OVL, BO in X. discriminate.
      - split; [discriminate|]. intros (X & Y). exfalso.
        assert (false = true); [|discriminate]. apply BO, (OVL (meetR a b c d)). split; [|now apply opp_meet].
        rewrite <- meet_swap by (now apply opp_cross). now apply opp_meet. }
  pose proof (proj1 BO eq_refl) as OV. specialize (O1 OV). specialize (O2 OV). specialize (O3 OV). specialize (O4 OV).
  pose proof (same_side_R _ _ _ _ O1 O2 : same_side _ _ = true <-> _) as SS1. destruct (same_side (orient p1 p2 q1) (orient p1 p2 q2)).
  { pose proof (proj1 SS1 eq_refl) as SS. cbn [li_result li_proper li_set_result li_set_proper]. split; [|discriminate]. split.
    - left. split; [reflexivity|]. intros x (X & Y). exact (same_sides_apart _ _ _ _ _ SS Y (seg_line _ _ _ X)).
    - split; [discriminate|]. intros (X & Y). destruct X; lra. }
  assert (N1 : ~ apart (side a b c) (side a b d)) by (intros K; apply SS1 in K; discriminate). clear SS1.
  pose proof (same_side_R _ _ _ _ O3 O4 : same_side _ _ = true <-> _) as SS2. destruct (same_side (orient q1 q2 p1) (orient q1 q2 p2)).
  { pose proof (proj1 SS2 eq_refl) as SS. cbn [li_result li_proper li_set_result li_set_proper]. split; [|discriminate]. split.
    - left. split; [reflexivity|]. intros x (X & Y). exact (same_sides_apart _ _ _ _ _ SS X (seg_line _ _ _ Y)).
    - split; [discriminate|]. intros (X & Y). destruct Y; lra. }
  assert (N2 : ~ apart (side c d a) (side c d b)) by (intros K; apply SS2 in K; discriminate). clear SS2.
  pose proof (sign0 _ _ O1) as Z1. pose proof (sign0 _ _ O2) as Z2. pose proof (sign0 _ _ O3) as Z3. pose proof (sign0 _ _ O4) as Z4.
  destruct ((orient p1 p2 q1 =? 0)%Z && (orient p1 p2 q2 =? 0)%Z && (orient q1 q2 p1 =? 0)%Z && (orient q1 q2 p2 =? 0)%Z) eqn:ALL.
  { rewrite !andb_true_iff in ALL. destruct ALL as (((A1 & A2) & A3) & A4). apply Z1 in A1. apply Z2 in A2. apply Z3 in A3. apply Z4 in A4.
    match goal with |- context [compute_collinear_intersection ?s0 _ _ _ _] =>
      pose proof (collinear_reports s0 p1 p2 q1 q2 F1 F2 F3 F4 A1 A2 A3 A4 OV) as R;
      assert (li_proper (fst (compute_collinear_intersection s0 p1 p2 q1 q2)) = false) as PR;
      [|assert (snd (compute_collinear_intersection s0 p1 p2 q1 q2) = 1%Z -> is_end p1 p2 q1 q2 (int_0 (fst (compute_collinear_intersection s0 p1 p2 q1 q2)))) as EN] end.
    { unfold compute_collinear_intersection. cbv zeta. repeat match goal with |- context [if ?b then _ else _] => destruct b end; reflexivity. }
    { unfold compute_collinear_intersection, is_end. cbv zeta.
      repeat match goal with |- context [fst (if ?b then _ else _)] => destruct b end; cbn [fst snd int_0 li_set_0 li_set_1]; intros K; try discriminate K;
        unfold copy_with_z_interpolate; match goal with |- context [copy_with_z ?p ?z] => pose proof (copy_xy p z) as CX end; unfold same_xy; tauto. }
    match goal with |- context [compute_collinear_intersection ?s0 _ _ _ _] => destruct (compute_collinear_intersection s0 p1 p2 q1 q2) as (s2 & r2) end.
    cbn [fst snd] in PR, EN. cbn [li_result li_proper li_set_result int_0 int_1]. rewrite PR. fold a b c d in R. split; [|discriminate]. split.
    - right. destruct R as [(-> & X)|(-> & X)].
      + left. split; [reflexivity|]. exists (rpt (int_0 s2)). split; [exact X|]. split; [|discriminate]. intros _. split; [reflexivity|]. now apply EN.
      + right. split; [reflexivity|]. exact X.
    - split; [discriminate|]. intros ([X|X] & _); lra. }
  assert (CR : cross a b c d <> 0).
  { apply not_all_zero; [exact N1|exact N2|]. intros (A1 & A2 & A3 & A4). apply Z1 in A1. apply Z2 in A2. apply Z3 in A3. apply Z4 in A4.
    rewrite A1, A2, A3, A4 in ALL. discriminate. }
  pose proof (touch_meets a b c d CR N1 N2) as TM. cbv zeta in TM. set (m := meetR a b c d) in *.
  assert (UN : forall y, shared a b c d y <-> y = m).
  { intros y. split; [|intros ->; exact TM]. intros (X & Y). apply (proj2 (proj2 (meetR_meets a b c d CR))); now apply seg_line. }
  destruct ((orient p1 p2 q1 =? 0)%Z || (orient p1 p2 q2 =? 0)%Z || (orient q1 q2 p1 =? 0)%Z || (orient q1 q2 p2 =? 0)%Z) eqn:ANY.
  { destruct (touch_point _ _ _ _ _ _ _ _) as (p & z) eqn:TP. cbn [li_result li_proper li_set_result li_set_0 li_set_proper int_0].
    assert (rpt p = m /\ is_end p1 p2 q1 q2 p) as (RP & EP).
    { assert (forall u v, fin_pt u -> fin_pt v -> equals_2d u v = true -> rpt u = rpt v) as EQ by (intros; now apply equals_2d_rpt).
      assert (on_segment a b a /\ on_segment a b b /\ on_segment c d c /\ on_segment c d d) as (E1 & E2 & E3 & E4).
      { repeat split; [exists 0|exists 1|exists 0|exists 1]; (split; [lra|]); unfold along; apply P2_ext; cbn [px py]; ring. }
      assert (cross c d a b <> 0) as CR' by (rewrite cross_anti; lra).
      unfold touch_point in TP.
      repeat match type of TP with (if ?b then _ else _) = _ => destruct b eqn:? end; injection TP as <- <-;
        change (rpt (from_coordinate ?p)) with (rpt p); split; unfold is_end, same_xy; cbn [cx cy from_coordinate]; try tauto.
      - apply UN. split; [exact E1|]. apply EQ in Heqb0; [|assumption..]. unfold a. rewrite Heqb0. exact E3. 
      - apply UN. split; [exact E1|]. apply EQ in Heqb1; [|assumption..]. unfold a. rewrite Heqb1. exact E4. 
      - apply UN. split; [exact E2|]. apply EQ in Heqb2; [|assumption..]. unfold b. rewrite Heqb2. exact E3. 
      - apply UN. split; [exact E2|]. apply EQ in Heqb3; [|assumption..]. unfold b. rewrite Heqb3. exact E4. 
      - symmetry. apply meet_side; [exact CR|]. now apply Z1.
      - symmetry. apply meet_side'; [exact CR|]. now apply Z2.
      - symmetry. unfold m. rewrite <- meet_swap by exact CR. apply meet_side; [exact CR'|]. now apply Z3.
      - symmetry. unfold m. rewrite <- meet_swap by exact CR. apply meet_side'; [exact CR'|]. now apply Z4.
      - discriminate ANY.
      - discriminate ANY. }
    split; [|discriminate]. split.
    - right. left. split; [reflexivity|]. exists m. split; [exact UN|]. split; [|discriminate]. intros _. rewrite copy_rpt. split; [exact RP|].
      unfold is_end, same_xy in *. destruct (copy_xy p z) as (-> & ->). exact EP.
    - split; [discriminate|]. intros (X & Y). exfalso. rewrite !orb_true_iff in ANY.
      destruct ANY as [[[A|A]|A]|A]; [apply Z1 in A|apply Z2 in A|apply Z3 in A|apply Z4 in A]; destruct X, Y; lra. }
  assert (STR : strictly_cross a b c d).
  { rewrite !orb_false_iff in ANY. destruct ANY as (((A1 & A2) & A3) & A4). split; apply not_apart_strict; auto; intros K.
    - apply Z1 in K. congruence.
    - apply Z2 in K. congruence.
    - apply Z3 in K. congruence.
    - apply Z4 in K. congruence. }
  cbn [li_result li_proper li_set_result li_set_0 li_set_proper int_0]. split; [split; [|tauto]|].
  - right. left. split; [reflexivity|]. exists m. split; [exact UN|]. split; [discriminate|]. intros _. now split.
  - intros _. unfold same_xy. match goal with |- context [copy_with_z ?p ?z] => destruct (copy_xy p z) as (-> & ->) end. split; reflexivity.
Qed.
End Any.
Section Small.
Variables (hypot : f64 -> f64 -> f64) (e : Z) (s : LI) (p1 p2 q1 q2 : Coordinate).
Hypothesis He : (-100 <= e <= 70)%Z.
Hypotheses (S1 : small_pt e p1) (S2 : small_pt e p2) (S3 : small_pt e q1) (S4 : small_pt e q2).
Let a := rpt p1. Let b := rpt p2. Let c := rpt q1. Let d := rpt q2.
Let s' := compute_intersection_4 hypot s p1 p2 q1 q2.
(** What the intersector reports when it says "point". *)
Definition point_ok : Prop := exists x, (forall y, shared a b c d y <-> y = x) /\
  (li_proper s' = false -> rpt (int_0 s') = x /\ is_end p1 p2 q1 q2 (int_0 s')) /\
  (li_proper s' = true -> exists r, nearly_rounded (cx r) (px x) /\ nearly_rounded (cy r) (py x) /\
     in_box2 a b (rpt r) /\ in_box2 c d (rpt r) /\
     same_xy (int_0 s') (match li_pm s with Some pm => make_precise_coordinate pm r | None => r end)).
Lemma main :
  ((li_result s' = NO_INTERSECTION /\ forall x, ~ shared a b c d x) \/
   (li_result s' = POINT_INTERSECTION /\ point_ok) \/
   (li_result s' = COLLINEAR_INTERSECTION /\ (forall x, shared a b c d x <-> on_segment (rpt (int_0 s')) (rpt (int_1 s')) x))) /\
  (li_proper s' = true <-> strictly_cross a b c d).
Proof.
  pose proof (orient_side e p1 p2 q1 ltac:(lia) (small_gpt _ _ S1) (small_gpt _ _ S2) (small_gpt _ _ S3)) as O1.
  pose proof (orient_side e p1 p2 q2 ltac:(lia) (small_gpt _ _ S1) (small_gpt _ _ S2) (small_gpt _ _ S4)) as O2.
  pose proof (orient_side e q1 q2 p1 ltac:(lia) (small_gpt _ _ S3) (small_gpt _ _ S4) (small_gpt _ _ S1)) as O3.
  pose proof (orient_side e q1 q2 p2 ltac:(lia) (small_gpt _ _ S3) (small_gpt _ _ S4) (small_gpt _ _ S2)) as O4.
  pose proof (small_fin _ _ S1) as F1. pose proof (small_fin _ _ S2) as F2. pose proof (small_fin _ _ S3) as F3. pose proof (small_fin _ _ S4) as F4.
  destruct (main_any hypot s p1 p2 q1 q2 F1 F2 F3 F4) as ((R & SX) & IN); [intros _; now repeat split|].
  fold a b c d s' in R, SX, IN. split; [|exact SX].
  destruct R as [R|[(E & x & UN & NP & PR)|R]]; [now left| |right; now right].
  right. left. split; [exact E|]. exists x. split; [exact UN|]. split; [exact NP|]. intros Pr. destruct (PR Pr) as (CR & Em). specialize (IN Pr).
  pose proof (proj2 (UN x) eq_refl) as TM. rewrite Em in TM. unfold shared in TM. set (m := meetR a b c d) in *. subst x.
  destruct (small_rough _ _ S1) as (n1 & m1 & G1), (small_rough _ _ S2) as (n2 & m2 & G2),
    (small_rough _ _ S3) as (n3 & m3 & G3), (small_rough _ _ S4) as (n4 & m4 & G4).
  destruct (dd_meet_some e He p1 p2 q1 q2 n1 m1 n2 m2 n3 m3 n4 m4 G1 G2 G3 G4 CR) as (r & ER & X & Y & _).
  destruct (meet_in_box e p1 p2 q1 q2 r _ _ _ _ _ _ _ _ He G1 G2 G3 G4 CR X Y) as (BX1 & BX2). fold a b c d m in X, Y, BX1, BX2.
  exists r. split; [exact X|]. split; [exact Y|]. split; [now apply BX1|]. split; [now apply BX2|].
  unfold same_xy in *. destruct IN as (-> & ->).
  unfold li_intersection, intersection_safe. rewrite ER.
  unfold is_in_segment_envelopes. cbn [in_p1 in_p2 in_q1 in_q2 li_set_proper li_set_lines li_pm].
  assert (FR : fin_pt r) by (split; [apply X|apply Y]).
  change (env_new_coordinates (from_coordinate p1) (from_coordinate p2)) with (env_new_coordinates p1 p2).
  change (env_new_coordinates (from_coordinate q1) (from_coordinate q2)) with (env_new_coordinates q1 q2).
  rewrite (proj2 (env_in_box p1 p2 r F1 F2 FR)) by (apply BX1, TM). rewrite (proj2 (env_in_box q1 q2 r F3 F4 FR)) by (apply BX2, TM).
  cbn [andb negb]. split; reflexivity.
Qed.
End Small.

(** [compute_intersection_4] on points n*2^e, |n| <= 2^24, whatever the
    intersector held before.  Code 0: the segments share no point.  Code 1: they
    share exactly one point; a point that is not proper is an end point of the
    input and is that point exactly; a proper one is that point rounded (within a
    relative 2^-100 of correct rounding), inside both segments' boxes, and then
    rounded to the precision model if there is one.  Code 2: the shared points
    are those of the segment between the two reported ones.  [is_proper] says
    that each line strictly separates the other's ends. *)
Theorem C53_classification : forall hypot e s p1 p2 q1 q2, (-100 <= e <= 70)%Z ->
  small_pt e p1 -> small_pt e p2 -> small_pt e q1 -> small_pt e q2 ->
  let s' := compute_intersection_4 hypot s p1 p2 q1 q2 in
  let common := shared (rpt p1) (rpt p2) (rpt q1) (rpt q2) in
  ((li_result s' = 0%Z /\ forall x, ~ common x) \/
   (li_result s' = 1%Z /\ exists x, (forall y, common y <-> y = x) /\
     (li_proper s' = false -> rpt (int_0 s') = x /\ is_end p1 p2 q1 q2 (int_0 s')) /\
     (li_proper s' = true -> exists r, nearly_rounded (cx r) (px x) /\ nearly_rounded (cy r) (py x) /\
        in_box2 (rpt p1) (rpt p2) (rpt r) /\ in_box2 (rpt q1) (rpt q2) (rpt r) /\
        same_xy (int_0 s') (match li_pm s with Some pm => make_precise_coordinate pm r | None => r end))) \/
   (li_result s' = 2%Z /\ forall x, common x <-> on_segment (rpt (int_0 s')) (rpt (int_1 s')) x)) /\
  (li_proper s' = true <-> strictly_cross (rpt p1) (rpt p2) (rpt q1) (rpt q2)).
Proof. intros hypot e s p1 p2 q1 q2 He S1 S2 S3 S4. exact (main hypot e s p1 p2 q1 q2 He S1 S2 S3 S4). Qed.
(** So [has_intersection] is exact. *)
Theorem C53_has_intersection : forall hypot e s p1 p2 q1 q2, (-100 <= e <= 70)%Z ->
  small_pt e p1 -> small_pt e p2 -> small_pt e q1 -> small_pt e q2 ->
  (has_intersection (compute_intersection_4 hypot s p1 p2 q1 q2) = true <->
   exists x, shared (rpt p1) (rpt p2) (rpt q1) (rpt q2) x).
Proof.
  intros hypot e s p1 p2 q1 q2 He S1 S2 S3 S4.
  destruct (main hypot e s p1 p2 q1 q2 He S1 S2 S3 S4) as ([(E & H)|[(E & x & H & _)|(E & H)]] & _); unfold has_intersection; rewrite E; cbn.
  - split; [discriminate|]. intros (x & X). now apply H in X.
  - split; [|reflexivity]. intros _. exists x. now apply H.
  - split; [|reflexivity]. intros _. eexists. apply H. exists 0. split; [lra|]. reflexivity.
Qed.
Lemma collinear_facts s p1 p2 q1 q2 : let r := compute_collinear_intersection s p1 p2 q1 q2 in
  (snd r = 0%Z \/ ((snd r = 1%Z \/ snd r = 2%Z) /\ is_end p1 p2 q1 q2 (int_0 (fst r)) /\ is_end p1 p2 q1 q2 (int_1 (fst r)))) /\
  li_proper (fst r) = li_proper s.
Proof.
  assert (forall p a b, same_xy (copy_with_z_interpolate p a b) p) as C by (intros; apply copy_xy).
  cbv zeta. unfold compute_collinear_intersection, is_end. cbv zeta.
  repeat match goal with |- context [fst (if ?b then _ else _)] => destruct b end; cbn [fst snd int_0 int_1 li_set_0 li_set_1 li_proper];
    (split; [|reflexivity]); try (now left); right; (split; [|split; auto]);
    repeat match goal with |- context [if ?b then _ else _] => destruct b end; auto.
Qed.
Lemma nearest_end hypot p1 p2 q1 q2 : is_end p1 p2 q1 q2 (nearest_endpoint hypot p1 p2 q1 q2).
Proof.
  unfold nearest_endpoint, is_end, same_xy.
  repeat match goal with |- context [if ?b then _ else _] => destruct b end; cbn [from_coordinate cx cy]; auto.
Qed.
(** For all doubles, and whatever the intersector held before:
    - the code is 0, 1 or 2, and 0 if the segments' boxes are disjoint;
    - the points reported when not proper are end points of the input, bit for bit;
    - without a precision model a proper point is in the boxes of both segments
      or is an end point of the input;
    - a proper result is always a single point. *)
Theorem C53_any_doubles : forall hypot s p1 p2 q1 q2, let s' := compute_intersection_4 hypot s p1 p2 q1 q2 in
  (li_result s' = 0 \/ li_result s' = 1 \/ li_result s' = 2)%Z /\
  (intersects_4 p1 p2 q1 q2 = false -> li_result s' = 0%Z) /\
  (li_result s' <> 0%Z -> li_proper s' = false -> is_end p1 p2 q1 q2 (int_0 s')) /\
  (li_result s' = 2%Z -> is_end p1 p2 q1 q2 (int_1 s')) /\
  (li_proper s' = true -> li_result s' = 1%Z /\ (li_pm s = None ->
     is_end p1 p2 q1 q2 (int_0 s') \/
     (covers_xy (env_new_coordinates p1 p2) (cx (int_0 s')) (cy (int_0 s')) = true /\
      covers_xy (env_new_coordinates q1 q2) (cx (int_0 s')) (cy (int_0 s')) = true))).
Proof.
  intros hypot s p1 p2 q1 q2. cbv zeta. unfold compute_intersection_4, compute_intersect.
  assert (forall t r, r = 0%Z -> li_proper t = false -> let s' := li_set_result t r in
    (li_result s' = 0 \/ li_result s' = 1 \/ li_result s' = 2)%Z /\
    (intersects_4 p1 p2 q1 q2 = false -> li_result s' = 0%Z) /\
    (li_result s' <> 0%Z -> li_proper s' = false -> is_end p1 p2 q1 q2 (int_0 s')) /\
    (li_result s' = 2%Z -> is_end p1 p2 q1 q2 (int_1 s')) /\
    (li_proper s' = true -> li_result s' = 1%Z /\ (li_pm s = None ->
       is_end p1 p2 q1 q2 (int_0 s') \/
       (covers_xy (env_new_coordinates p1 p2) (cx (int_0 s')) (cy (int_0 s')) = true /\
        covers_xy (env_new_coordinates q1 q2) (cx (int_0 s')) (cy (int_0 s')) = true)))) as ZERO.
  { intros t r -> Pr. cbn [li_set_result li_result li_proper int_0 int_1]. rewrite Pr. split; [now left|]. split; [auto|]. split; [intros K; lia|].
    split; [discriminate|]. discriminate. }
  destruct (intersects_4 p1 p2 q1 q2) eqn:I4; cbn [negb]; [|now apply ZERO].
  destruct (same_side (orient p1 p2 q1) (orient p1 p2 q2)); [now apply ZERO|].
  destruct (same_side (orient q1 q2 p1) (orient q1 q2 p2)); [now apply ZERO|].
  destruct (_ && _ && _ && _)%bool.
  { match goal with |- context [compute_collinear_intersection ?s0 _ _ _ _] => pose proof (collinear_facts s0 p1 p2 q1 q2) as CF;
      destruct (compute_collinear_intersection s0 p1 p2 q1 q2) as (s2 & r2) end.
    cbn [fst snd li_set_proper li_proper] in CF. destruct CF as ([E|(E & E0 & E1)] & Pr); [now apply ZERO|].
    cbn [li_set_result li_result li_proper int_0 int_1]. rewrite Pr.
    split; [tauto|]. split; [discriminate|]. split; [auto|]. split; [auto|discriminate]. }
  destruct (_ || _ || _ || _)%bool eqn:ANY.
  { destruct (touch_point _ _ _ _ _ _ _ _) as (p & z) eqn:TP. cbn [li_result li_proper li_set_result li_set_0 li_set_proper int_0].
    assert (is_end p1 p2 q1 q2 p) as EP.
    { unfold touch_point in TP. repeat match type of TP with (if ?b then _ else _) = _ => destruct b end; injection TP as <- <-;
        unfold is_end, same_xy; cbn [from_coordinate cx cy]; try tauto; discriminate ANY. }
    split; [auto|]. split; [discriminate|]. split; [|split; discriminate]. intros _ _.
    destruct (copy_xy p z) as (X & Y). unfold is_end, same_xy in *. rewrite X, Y. exact EP. }
  cbn [li_result li_proper li_set_result li_set_0 li_set_proper int_0].
  split; [auto|]. split; [discriminate|]. split; [discriminate|]. split; [discriminate|]. intros _. split; [reflexivity|]. intros PM.
  match goal with |- context [copy_with_z ?p ?z] => destruct (copy_xy p z) as (X & Y); unfold is_end, same_xy; rewrite X, Y end.
  clear X Y. unfold li_intersection. cbn [li_set_proper li_set_lines li_pm]. rewrite PM.
  match goal with |- context [is_in_segment_envelopes ?s0 ?c0] => destruct (is_in_segment_envelopes s0 c0) eqn:IN end; cbn [negb].
  - right. unfold is_in_segment_envelopes in IN. now apply andb_true_iff in IN.
  - left. exact (nearest_end hypot p1 p2 q1 q2).
Qed.
(** A point and a segment: [compute_intersection_3].  It never touches the
    reported points. *)
Theorem C53_point_on_segment : forall e s p p1 p2, (-100 <= e <= 70)%Z -> small_pt e p -> small_pt e p1 -> small_pt e p2 ->
  let s' := compute_intersection_3 s p p1 p2 in
  (has_intersection s' = true <-> on_segment (rpt p1) (rpt p2) (rpt p)) /\
  (li_result s' = 0 \/ li_result s' = 1)%Z /\
  (li_proper s' = true <-> on_segment (rpt p1) (rpt p2) (rpt p) /\ rpt p <> rpt p1 /\ rpt p <> rpt p2) /\
  int_0 s' = int_0 s /\ int_1 s' = int_1 s.
Proof.
  intros e s p p1 p2 He S S1 S2. cbv zeta. unfold compute_intersection_3.
  pose proof (small_fin _ _ S) as F. pose proof (small_fin _ _ S1) as F1. pose proof (small_fin _ _ S2) as F2.
  pose proof (sign0 _ _ (orient_side e p1 p2 p ltac:(lia) (small_gpt _ _ S1) (small_gpt _ _ S2) (small_gpt _ _ S))) as O1.
  pose proof (sign0 _ _ (orient_side e p2 p1 p ltac:(lia) (small_gpt _ _ S2) (small_gpt _ _ S1) (small_gpt _ _ S))) as O2.
  pose proof (box3_in p1 p2 p F1 F2 F) as B3. pose proof (equals_2d_rpt p p1 F F1) as Q1. pose proof (equals_2d_rpt p p2 F F2) as Q2.
  assert (side (rpt p2) (rpt p1) (rpt p) = - side (rpt p1) (rpt p2) (rpt p)) as SW by (unfold side; ring).
  assert (intersects_3 p1 p2 p && ((orient p1 p2 p =? 0)%Z && (orient p2 p1 p =? 0)%Z) = true <-> on_segment (rpt p1) (rpt p2) (rpt p)) as ON.
  { rewrite !andb_true_iff, B3, O1, O2, SW. split.
    - intros (X & Y & _). now apply box_segment.
    - intros X. apply segment_box in X. destruct X as (X & Y). repeat split; try apply X; lra. }
  destruct (_ && _) in ON |- *; cbn [li_set_result li_set_proper li_result li_proper int_0 int_1 has_intersection negb Z.eqb].
  - pose proof (proj1 ON eq_refl) as H. split; [cbn; tauto|]. split; [auto|]. split; [|auto].
    rewrite negb_true_iff, orb_false_iff. split.
    + intros (A & B). split; [exact H|]. split; intros K; [apply Q1 in K|apply Q2 in K]; congruence.
    + intros (_ & A & B). split; [destruct (equals_2d p p1); [destruct A; now apply Q1|reflexivity]|destruct (equals_2d p p2); [destruct B; now apply Q2|reflexivity]].
  - split; [cbn; tauto|]. split; [auto|]. split; [|auto]. split; [discriminate|]. intros (K & _). apply ON in K. discriminate.
Qed.
(** Crossing, touching, overlapping and separate segments. *)
Example C53_example : forall hypot, let run := compute_intersection_4 hypot li_default in
  (li_result (run (ipt 0 0) (ipt 4 2) (ipt 0 2) (ipt 4 0)) = 1 /\ li_proper (run (ipt 0 0) (ipt 4 2) (ipt 0 2) (ipt 4 0)) = true /\
  li_result (run (ipt 0 0) (ipt 4 2) (ipt 2 1) (ipt 4 0)) = 1 /\ li_proper (run (ipt 0 0) (ipt 4 2) (ipt 2 1) (ipt 4 0)) = false /\
  li_result (run (ipt 0 0) (ipt 4 2) (ipt 2 1) (ipt 8 4)) = 2 /\
  li_result (run (ipt 0 0) (ipt 4 2) (ipt 3 1) (ipt 8 3)) = 0 /\
  li_result (run (ipt 0 0) (ipt 4 2) (ipt 2 1) (ipt 2 1)) = 2)%Z.
Proof. intros hypot. repeat split; vm_compute; reflexivity. Qed.
(** [compute_intersect] is public too, but it relies on the lines stored by
    [compute_intersection_4]: called on a new intersector it gives an end point
    for segments that cross in (2,1). *)
Theorem C53_compute_intersect_refuted : exists hypot,
  let r := compute_intersect hypot li_default (ipt 0 0) (ipt 4 2) (ipt 0 2) (ipt 4 0) in
  snd r = 1%Z /\ li_proper (fst r) = true /\ equals_2d (int_0 (fst r)) (ipt 2 1) = false /\
  equals_2d (int_0 (compute_intersection_4 hypot li_default (ipt 0 0) (ipt 4 2) (ipt 0 2) (ipt 4 0))) (ipt 2 1) = true.
Proof. exists (fun x y => fsqrt (fadd (fmul x x) (fmul y y))). repeat split; vm_compute; reflexivity. Qed.
