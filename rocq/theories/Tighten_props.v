(** C53, C54, C55, C59 and C60, continued: starting states, precision models and
    accessors of the line intersector, constants, octagons of points and copies,
    constructors of segments and the point where two segments meet. *)
From Coq Require Import ZArith Bool List Reals Lia Lra Psatz.
From Flocq Require Import Core IEEE754.BinarySingleNaN.
From Verif Require Import Base F64 F64Facts F64Err Num NumLink DD_more Coordinate_model Coordinate_proofs Envelope_model PrecisionModel_model CoordSeq_model Orientation_spec Orientation_model Orientation_proofs Orientation_props
  Distance_model Distance_spec Distance_proofs Distance_float Distance_props Intersection_model Intersection_spec Intersection_proofs Intersection_props
  LineIntersector_model LineIntersector_spec LineIntersector_proofs LineIntersector_props LineIntersectorZ_props Segment_model Segment_proofs Segment_props
  Octagon_model Octagon_spec Octagon_proofs Octagon_props Angle_model Angle_proofs Angle_props.
Import ListNotations.
Local Open Scope R_scope.

(** ** C53 *)
(** A new intersector has found nothing. *)
Theorem C53_start : has_intersection li_default = false /\ li_proper li_default = false /\ li_pm li_default = None /\
  forall hypot p1 p2 q1 q2, li_pm (compute_intersection_4 hypot li_default p1 p2 q1 q2) = None.
Proof.
  repeat split. intros. unfold compute_intersection_4, compute_intersect. cbv zeta.
  repeat match goal with |- context [if ?b then (?u, ?v) else _] => destruct b; [reflexivity|] end.
  destruct (_ && _ && _ && _)%bool.
  { unfold compute_collinear_intersection. cbv zeta. repeat match goal with |- context [if ?b then (?u, ?v) else _] => destruct b; [reflexivity|] end. reflexivity. }
  destruct (_ || _ || _ || _)%bool; [|reflexivity]. destruct (touch_point _ _ _ _ _ _ _ _). reflexivity.
Qed.
Lemma precise_xy pm a b : same_xy a b -> same_xy (make_precise_coordinate pm a) (make_precise_coordinate pm b).
Proof.
  intros (X & Y). unfold make_precise_coordinate. destruct (pmt_eqb _ _); [now split|]. split; cbn [set_x set_y cx cy]; now rewrite ?X, ?Y.
Qed.
(** The intersector with a precision model finds what it finds without one; only
    a proper point is changed, by [make_precise]. *)
Theorem C53_precision_model : forall hypot s pm p1 p2 q1 q2, li_pm s = None ->
  let a := compute_intersection_4 hypot s p1 p2 q1 q2 in
  let b := compute_intersection_4 hypot (li_set_pm s pm) p1 p2 q1 q2 in
  li_result b = li_result a /\ li_proper b = li_proper a /\ int_1 b = int_1 a /\
  (li_proper a = false -> int_0 b = int_0 a) /\
  (li_proper a = true -> same_xy (int_0 b) (make_precise_coordinate pm (int_0 a))).
Proof.
  intros hypot s pm p1 p2 q1 q2 N. cbv zeta. unfold compute_intersection_4, compute_intersect. cbv zeta.
  destruct (negb (intersects_4 p1 p2 q1 q2)); [repeat split; discriminate|].
  destruct (same_side (orient p1 p2 q1) (orient p1 p2 q2)); [repeat split; discriminate|].
  destruct (same_side (orient q1 q2 p1) (orient q1 q2 p2)); [repeat split; discriminate|].
  destruct (_ && _ && _ && _)%bool.
  { unfold compute_collinear_intersection. cbv zeta.
    repeat match goal with |- context [if ?b then (?u, ?v) else _] => destruct b; [repeat split; discriminate|] end. repeat split; discriminate. }
  destruct (_ || _ || _ || _)%bool.
  { destruct (touch_point _ _ _ _ _ _ _ _). repeat split; discriminate. }
  set (u := li_set_proper (li_set_proper (li_set_lines (li_set_pm s pm) p1 p2 q1 q2) false) true). set (v := li_set_proper (li_set_proper (li_set_lines s p1 p2 q1 q2) false) true).
  assert (li_intersection hypot u p1 p2 q1 q2 = make_precise_coordinate pm (li_intersection hypot v p1 p2 q1 q2)) as E.
  { unfold li_intersection. change (li_pm u) with (Some pm). change (li_pm v) with (li_pm s). rewrite N. reflexivity. }
  cbn [li_set_result li_set_0 li_result li_proper int_0 int_1]. split; [reflexivity|]. split; [reflexivity|]. split; [reflexivity|]. split; [discriminate|]. intros _. rewrite E.
  match goal with |- same_xy (copy_with_z ?p ?z) (make_precise_coordinate _ (copy_with_z ?q ?w)) => pose proof (copy_xy p z) as C; pose proof (precise_xy pm _ _ (copy_xy q w)) as D end.
  destruct C as (C1 & C2). destruct D as (D1 & D2). split; congruence.
Qed.
(** After a collinear overlap on a grid the two accessors give the ends of the
    shared part; there is no third point. *)
Theorem C53_get_intersection : forall hypot e s p1 p2 q1 q2, (-100 <= e <= 70)%Z -> small_pt e p1 -> small_pt e p2 -> small_pt e q1 -> small_pt e q2 ->
  let s' := compute_intersection_4 hypot s p1 p2 q1 q2 in
  li_result s' = 2%Z ->
  exists a b, get_intersection s' 0 = Ok a /\ get_intersection s' 1 = Ok b /\ (forall i, (2 <= i)%nat -> get_intersection s' i = Panic) /\
    forall x, shared (rpt p1) (rpt p2) (rpt q1) (rpt q2) x <-> on_segment (rpt a) (rpt b) x.
Proof.
  intros hypot e s p1 p2 q1 q2 He S1 S2 S3 S4. cbv zeta. intros R2.
  destruct (C53_classification hypot e s p1 p2 q1 q2 He S1 S2 S3 S4) as ([(R & _)|[(R & _)|(_ & H)]] & _); [rewrite R2 in R; discriminate R..|].
  eexists _, _. split; [reflexivity|]. split; [reflexivity|]. split; [|exact H].
  intros [|[|i]] L; [lia|lia|reflexivity].
Qed.
(** When the lines are parallel in double-double arithmetic the fallback is the
    end nearest to the other segment. *)
Theorem C53_fallback : forall hypot p1 p2 q1 q2, cgdd_intersection p1 p2 q1 q2 = None ->
  let ends := [(p1, point_to_segment hypot p1 q1 q2); (p2, point_to_segment hypot p2 q1 q2);
               (q1, point_to_segment hypot q1 p1 p2); (q2, point_to_segment hypot q2 p1 p2)] in
  (forall c d, In (c, d) ends -> fis_nan d = false) ->
  exists c d, In (c, d) ends /\ intersection_safe hypot p1 p2 q1 q2 = from_coordinate c /\ forall c' d', In (c', d') ends -> fleb d d' = true.
Proof. intros hypot p1 p2 q1 q2 E. cbv zeta. intros NN. unfold intersection_safe. rewrite E. exact (C53_nearest_endpoint hypot p1 p2 q1 q2 NN). Qed.
Example C53_tighten_example : let h := fun x y => fsqrt (fadd (fmul x x) (fmul y y)) in
  let s := compute_intersection_4 h li_default (ipt 0 0) (ipt 4 0) (ipt 1 0) (ipt 9 0) in
  li_result s = 2%Z /\ small_pt 0 (ipt 9 0) /\ li_pm s = None /\
  li_proper (compute_intersection_4 h li_default (ipt 0 0) (ipt 4 4) (ipt 0 4) (ipt 4 0)) = true /\
  cgdd_intersection (ipt 0 0) (ipt 4 0) (ipt 1 1) (ipt 9 1) = None /\
  fis_nan (point_to_segment h (ipt 0 0) (ipt 1 1) (ipt 9 1)) = false.
Proof.
  cbv zeta. split; [vm_compute; reflexivity|]. split; [apply ipt_small; lia|]. repeat split; vm_compute; reflexivity.
Qed.

(** ** C55 *)
(** The fractions of pi are the exact fractions of the double nearest to pi. *)
Theorem C55_pi_fractions : fis_finite PI_OVER_2 = true /\ fis_finite PI_OVER_4 = true /\
  R_of PI_OVER_2 = R_of PIf / 2 /\ R_of PI_OVER_4 = R_of PIf / 4 /\ Rabs (R_of PI_OVER_2 - PI / 2) < bp (-53) /\ Rabs (R_of PI_OVER_4 - PI / 4) < bp (-54).
Proof.
  assert (R_of PI_OVER_2 = R_of PIf / 2) as E2 by (rewrite PIf_R; vm_compute; field).
  assert (R_of PI_OVER_4 = R_of PIf / 4) as E4 by (rewrite PIf_R; vm_compute; field).
  destruct C55_pi as (_ & _ & B & _). assert (bp (-52) = 2 * bp (-53)) as H1 by exact (bp_S (-53)). assert (bp (-53) = 2 * bp (-54)) as H2 by exact (bp_S (-54)).
  apply Rabs_lt_inv in B. split; [vm_compute; reflexivity|]. split; [vm_compute; reflexivity|]. split; [exact E2|]. split; [exact E4|]. rewrite E2, E4. split; apply Rabs_lt; lra.
Qed.

(** ** C59 *)
(** The octagon of one point or of two is the one of the sequence of them; it
    meets the points and is the least to do so.  A copy of an octagon is equal
    to it. *)
Theorem C59_of_points : forall p q r, nn_oct p -> nn_oct q -> is_oct r ->
  let o := oct_of_coordinates p q in let o1 := oct_of_coordinate p in
  is_oct o /\ in_oct o p /\ in_oct o q /\ (oct_contains r o = true <-> in_oct r p /\ in_oct r q) /\
  is_oct o1 /\ in_oct o1 p /\ (oct_contains r o1 = true <-> in_oct r p).
Proof.
  intros p q r P Q R. cbv zeta.
  change (oct_of_coordinates p q) with (oct_of_points [p; q]). change (oct_of_coordinate p) with (oct_of_points [p]).
  destruct (of_points_oct [p; q] ltac:(auto) ltac:(easy)) as (O & L). destruct (of_points_oct [p] ltac:(auto) ltac:(easy)) as (O1 & L1).
  rewrite !contains_sub by assumption.
  pose proof (proj1 (L _ O) (sub_refl _)) as I. pose proof (proj1 (L1 _ O1) (sub_refl _)) as I1. rewrite L, L1 by exact R.
  rewrite Forall_forall in I, I1. rewrite !Forall_forall.
  split; [exact O|]. split; [apply I; cbn; auto|]. split; [apply I; cbn; auto|].
  split; [split; [intros H; split; apply H; cbn; auto|intros (H1 & H2) x [<-|[<-|[]]]; assumption]|].
  split; [exact O1|]. split; [apply I1; cbn; auto|]. split; [intros H; apply H; cbn; auto|intros H1 x [<-|[]]; assumption].
Qed.
Theorem C59_copy : forall t, is_oct t -> oct_of_oct t = t.
Proof. intros t T. unfold oct_of_oct. rewrite expand_oct_join, is_oct_not_null by exact T. reflexivity. Qed.
Example C59_tighten_example : nn_oct (ipt 0 0) /\ nn_oct (ipt 1 3) /\ is_oct (oct_of_coordinate (ipt 5 1)) /\
  oct_contains (oct_of_coordinates (ipt 0 0) (ipt 9 0)) (oct_of_coordinate (ipt 5 0)) = true.
Proof. split; [repeat constructor|]. split; [repeat constructor|]. split; [repeat constructor|]. reflexivity. Qed.

(** ** C60 *)
Theorem C60_constructors : forall x0 y0 x1 y1 a b,
  let s := seg_new_xy x0 y0 x1 y1 in
  [cx (seg_get s 0); cy (seg_get s 0); cx (seg_get s 1); cy (seg_get s 1)] = [x0; y0; x1; y1] /\
  fis_nan (cz (seg_get s 0)) = true /\ fis_nan (cz (seg_get s 1)) = true /\
  seg_get (seg_new a b) 0 = a /\ seg_get (seg_new a b) 1 = b /\ seg_get seg_default 0 = coord_default /\ seg_get seg_default 1 = coord_default.
Proof. intros x0 y0 x1 y1 [] []. repeat split. Qed.
(** The fraction is 0 before the first end and 1 beyond the second, and for a
    segment without length. *)
Theorem C60_fraction_clamped : forall hypot s p, let f := seg_projection_factor hypot s p in
  (fltb f f0 = true -> seg_fraction hypot s p = f0) /\ (fltb f1 f = true -> seg_fraction hypot s p = f1) /\ (fis_nan f = true -> seg_fraction hypot s p = f1).
Proof.
  intros hypot s p. cbv zeta. unfold seg_fraction. set (f := seg_projection_factor hypot s p). change (fgtb f f1) with (fltb f1 f). split; [|split]; intros H.
  - now rewrite H.
  - destruct (fltb f f0) eqn:L; [|rewrite H; reflexivity]. exfalso.
    destruct (fis_nan f) eqn:N; [rewrite fltb_nan_l in L by exact N; discriminate|].
    rewrite fltb_rank in L, H by (reflexivity || assumption). change (rank f0) with 0%Z in L. apply Z.ltb_lt in L, H.
    assert (0 < rank f1)%Z by (vm_compute; reflexivity). lia.
  - rewrite fltb_nan_l by exact H. rewrite H, orb_true_r. reflexivity.
Qed.
(** On a grid the point returned by [intersection] is a shared point: exactly,
    or up to one rounding where the segments cross properly. *)
Theorem C60_intersection_point : forall hypot e s t q, (-100 <= e <= 70)%Z -> seg_of e s -> seg_of e t -> seg_intersection hypot s t = Some q ->
  exists x, shared (rpt (p0 s)) (rpt (p1 s)) (rpt (p0 t)) (rpt (p1 t)) x /\
    (rpt q = x \/ (nearly_rounded (cx q) (px x) /\ nearly_rounded (cy q) (py x) /\ in_box2 (rpt (p0 s)) (rpt (p1 s)) (rpt q) /\ in_box2 (rpt (p0 t)) (rpt (p1 t)) (rpt q))).
Proof.
  intros hypot e s t q He (S0 & S1) (T0 & T1). unfold seg_intersection. cbv zeta.
  destruct (C53_classification hypot e li_default _ _ _ _ He S0 S1 T0 T1) as ([(R & _)|[(R & x & U & NP & PR)|(R & H)]] & _).
  - unfold has_intersection. rewrite R. discriminate.
  - destruct (has_intersection _); [|discriminate]. intros Q. injection Q as <-. exists x. split; [now apply U|].
    destruct (li_proper _) eqn:P; [right|left; now apply NP].
    destruct (PR eq_refl) as (r & N1 & N2 & B1 & B2 & (X & Y)). cbn [li_pm li_default] in X, Y. unfold rpt at 3 6. rewrite X, Y. auto.
  - destruct (has_intersection _); [|discriminate]. intros Q. injection Q as <-. eexists. split; [|left; reflexivity].
    apply H. exists 0. split; [lra|]. unfold along. destruct (rpt (int_0 _)) as [u v]. cbn [px py]. f_equal; ring.
Qed.
(** Where the segments meet the one closest point has the ordinates of that
    point and neither Z nor M. *)
Theorem C60_closest_points_meeting : forall hypot s t q, seg_intersection hypot s t = Some q ->
  exists r, seg_closest_points hypot s t = [r] /\ same_xy r q /\ fis_nan (cz r) = true /\ fis_nan (cm r) = true.
Proof. intros hypot s t q E. unfold seg_closest_points. rewrite E. eexists. repeat split. Qed.
Example C60_tighten_example : let h := fun x y => fsqrt (fadd (fmul x x) (fmul y y)) in let s := seg_new (ipt 0 0) (ipt 4 4) in let t := seg_new (ipt 0 4) (ipt 4 0) in
  seg_of 0 s /\ seg_of 0 t /\ (exists q, seg_intersection h s t = Some q) /\
  fltb (seg_projection_factor h s (ipt (-1) 0)) f0 = true /\ fltb f1 (seg_projection_factor h s (ipt 9 9)) = true /\
  fis_nan (seg_projection_factor h (seg_new (ipt 1 1) (ipt 1 1)) (ipt 3 5)) = true.
Proof.
  cbv zeta. split; [split; apply ipt_small; lia|]. split; [split; apply ipt_small; lia|].
  split; [|repeat split; vm_compute; reflexivity].
  destruct (seg_intersection _ _ _) as [q|] eqn:E; [now exists q|]. exfalso.
  assert (match seg_intersection (fun x y => fsqrt (fadd (fmul x x) (fmul y y))) (seg_new (ipt 0 0) (ipt 4 4)) (seg_new (ipt 0 4) (ipt 4 0)) with Some _ => true | None => false end = true) as K by (vm_compute; reflexivity).
  rewrite E in K. discriminate.
Qed.

(** ** C54 *)
Lemma fin_below x : fis_finite x = true -> Rabs (R_of x) < bp 1024.
Proof. intros F. exact (abs_B2R_lt_emax 53 1024 x). Qed.
Lemma fmul_one x : fmul x f1 = x.
Proof.
  destruct (fis_finite x) eqn:F; [|destruct x as [[]|[]| |]; try discriminate; reflexivity].
  pose proof (Bmult_correct 53 1024 _ _ mode_NE x f1) as C. unfold fis_finite in F.
  assert (B2R f1 = 1) as E1 by exact R_of_f1. rewrite E1, Rmult_1_r in C.
  rewrite round_generic in C; [|typeclasses eauto|apply generic_format_B2R]. rewrite Rlt_bool_true in C by now apply fin_below.
  destruct C as (C1 & C2 & C3). rewrite F in C2. cbn in C2. apply B2R_Bsign_inj; auto. fold (fmul x f1) in *. rewrite C3; [apply xorb_false_r|].
  destruct (fmul x f1); try discriminate; reflexivity.
Qed.
Lemma Rdiv_one (r : R) : r / 1 = r.
Proof. field. Qed.
Lemma fdiv_one x : fdiv x f1 = x.
Proof.
  destruct (fis_finite x) eqn:F; [|destruct x as [[]|[]| |]; try discriminate; reflexivity].
  assert (B2R f1 = 1) as E1 by exact R_of_f1.
  pose proof (Bdiv_correct 53 1024 _ _ mode_NE x f1 ltac:(rewrite E1; lra)) as C. unfold fis_finite in F.
  rewrite E1, (Rdiv_one (B2R x)) in C.
  rewrite round_generic in C; [|typeclasses eauto|apply generic_format_B2R]. rewrite Rlt_bool_true in C by now apply fin_below.
  destruct C as (C1 & C2 & C3). rewrite F in C2. apply B2R_Bsign_inj; auto. fold (fdiv x f1) in *. rewrite C3; [apply xorb_false_r|].
  destruct (fdiv x f1); try discriminate; reflexivity.
Qed.
(** A point written in homogeneous coordinates reads back unchanged, the
    default is the origin, and the line through two points is the same whether
    formed from them or from their homogeneous coordinates. *)
Theorem C54_homogeneous_point : forall p q, fis_finite (cx p) = true -> fis_finite (cy p) = true ->
  same_xy (h_get_coordinate (h_coordinate p)) p /\ same_xy (h_get_coordinate (h_xy (cx p) (cy p))) p /\ same_xy (h_get_coordinate (h_xyw (cx p) (cy p) f1)) p /\ same_xy (h_get_coordinate h_default) (new_xy f0 f0) /\ h_cross (h_coordinate p) (h_coordinate q) = h_line p q.
Proof.
  intros p q Fx Fy. unfold h_get_coordinate, h_get_x, h_get_y, h_get, h_coordinate, h_xy, h_xyw, h_cross, h_line, h_default, same_xy. cbn [hx hy hw set_x set_y cx cy].
  rewrite !fdiv_one, !fmul_one. destruct (fin_not _ Fx) as (-> & ->). destruct (fin_not _ Fy) as (-> & ->). repeat split.
Qed.
(** With any weight but 0 the ordinates read back are the rounded quotients. *)
Theorem C54_homogeneous_weight : forall x y w, fis_finite x = true -> fis_finite y = true -> R_of w <> 0 ->
  Rabs (RN (R_of x / R_of w)) < bp 1024 -> Rabs (RN (R_of y / R_of w)) < bp 1024 ->
  let r := h_get_coordinate (h_xyw x y w) in
  fis_finite (cx r) = true /\ fis_finite (cy r) = true /\ R_of (cx r) = RN (R_of x / R_of w) /\ R_of (cy r) = RN (R_of y / R_of w).
Proof.
  intros x y w Fx Fy W Bx By. cbv zeta. destruct (fdiv_R x w Fx W Bx) as (F1 & E1). destruct (fdiv_R y w Fy W By) as (F2 & E2).
  unfold h_get_coordinate, h_get_x, h_get_y, h_get, h_xyw. cbn [hx hy hw set_x set_y cx cy].
  destruct (fin_not _ F1) as (-> & ->). destruct (fin_not _ F2) as (-> & ->). cbn [orb]. auto.
Qed.
Example C54_weight_example : feqb (cx (h_get_coordinate (h_xyw (fofZ 6) (fofZ 8) (fofZ 2)))) (fofZ 3) = true /\
  feqb (cy (h_get_coordinate (h_xyw (fofZ 6) (fofZ 8) (fofZ 2)))) (fofZ 4) = true.
Proof. split; vm_compute; reflexivity. Qed.
Example C54_tighten_example : fis_finite (cx (ipt 3 5)) = true /\ fis_finite (cy (ipt 3 5)) = true /\ feqb (hw (h_line (ipt 3 5) (ipt 2 2))) (fofZ (-4)) = true.
Proof. repeat split; vm_compute; reflexivity. Qed.
