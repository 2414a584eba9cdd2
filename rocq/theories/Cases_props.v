(** Concrete cases for theorems that have none beside them. *)
From Coq Require Import ZArith Bool List Reals Lia Lra.
From Flocq Require Import Core IEEE754.BinarySingleNaN.
From Verif Require Import Base F64 F64Facts F64Err Num NumLink Coordinate_model Envelope_model Envelope_spec CoordSeq_model CoordSeq_spec CoordSeq_props SeqMoves_props
  DD_model DD_spec DDArith_proofs DDArith_props Orientation_model Orientation_spec Orientation_proofs Orientation_props PointLocation_model PointLocation_spec
  LocateMid_spec LocateMid_props Octagon_model Octagon_spec Octagon_props Distance_spec Distance_float Distance_props DistanceErr_props Intersection_props Segment_model
  Measure_spec Measure_props Geom_model Line_props Polygon_props Entry_model Entry_props.
Import ListNotations.
Open Scope Z_scope.

(** C72_square_error: the square of 3. *)
Example C72_square_example : normed (dd_int 3) /\ bf 480 (hi (dd_int 3)) /\ (dval (dd_int 3) = 0 \/ bp (-440) <= Rabs (dval (dd_int 3)))%R /\
  dd_equals (dd_sqr (dd_int 3)) (dd_int 9) = true /\ dd_equals (dd_self_sqr (dd_int 3)) (dd_int 9) = true.
Proof.
  destruct (dd_int_ok 3 ltac:(lia)) as (N & V). split; [exact N|]. split.
  - split; [reflexivity|]. change (hi (dd_int 3)) with (fofZ 3). rewrite (proj2 (grid_fofZ 3 ltac:(lia))). change (bp 0) with 1%R. rewrite Rmult_1_r, Rabs_pos_eq by lra.
    apply (Rle_trans _ (bp 2)); [change (bp 2) with 4%R; lra|apply bpow_le; lia].
  - split; [right; rewrite V, Rabs_pos_eq by lra; apply (Rle_trans _ (bp 0)); [apply bpow_le; lia|change (bp 0) with 1%R; lra]|]. split; vm_compute; reflexivity.
Qed.

(** C73_integers_clear and, with it, C73_right_when_clear and C51_on_segment_clear:
    points near 2^52. *)
Example C73_clear_example : let a := ipt 0 0 in let b := ipt 4503599627370496 4503599627370494 in let q := ipt 2251799813685248 2251799813685247 in
  (forall p, p = a \/ p = b \/ p = q -> wide_grid 0 (cx p) /\ wide_grid 0 (cy p)) /\ clear_of a b q /\
  orient a b q = 0 /\ is_on_segment q a b = true /\ orient a b (ipt 2251799813685247 2251799813685247) = 1.
Proof.
  intros a b q.
  assert (W : forall p, p = a \/ p = b \/ p = q -> wide_grid 0 (cx p) /\ wide_grid 0 (cy p)).
  { intros p [->|[->| ->]]; (split; eexists; (split; [|apply grid_fofZ; lia]; lia)). }
  split; [exact W|]. split; [apply (C73_integers_clear 0); [lia|exact W]|]. repeat split; vm_compute; reflexivity.
Qed.
(** C51_on_line_clear: a point on the second segment of a line. *)
Example C51_clear_example : let line := [ipt 0 0; ipt 4 0; ipt 6 6] in let p := ipt 5 3 in
  (forall l1 a b l2, line = l1 ++ a :: b :: l2 -> at_box p a b -> clear_of a b p) /\ is_on_line_vec p line = Ok true /\ is_on_line_vec (ipt 5 2) line = Ok false.
Proof.
  intros line p. split; [|split; vm_compute; reflexivity].
  assert (W : forall x y, Z.abs x <= 2 ^ 52 -> Z.abs y <= 2 ^ 52 -> wide_grid 0 (cx (ipt x y)) /\ wide_grid 0 (cy (ipt x y))).
  { intros x y X Y. split; eexists; (split; [|apply grid_fofZ; lia]; lia). }
  assert (F : forall c, In c line -> wide_grid 0 (cx c) /\ wide_grid 0 (cy c)).
  { intros c [<-|[<-|[<-|[]]]]; apply W; lia. }
  intros l1 a b l2 E _. apply (C73_integers_clear 0); [lia|]. intros c [->|[->| ->]]; [apply F|apply F|apply W; lia]; rewrite E; apply in_or_app; right; [now left|right; now left].
Qed.

(** C59_expand_by and C59_ops: growing and shrinking an octagon. *)
Example C59_expand_example : let o := oct_of_coordinates (ipt 0 0) (ipt 1 3) in
  wf_oct o /\ oct_is_null o = false /\ fis_finite f2 = true /\ fis_finite (fmul (fsqrt f2) f2) = true /\
  oct_contains (oct_expand_by o f2) o = true /\ oct_is_null (oct_expand_by o (fofZ (-9))) = true /\
  Forall oct_op_ok [OoPoint (ipt 0 0); OoOct o; OoExpand f2; OoNull; OoPoint (ipt 5 5)].
Proof.
  intros o. assert (W : wf_oct o) by (right; repeat constructor). split; [exact W|].
  do 5 (split; [vm_compute; reflexivity|]).
  repeat (apply Forall_cons; [first [exact W|exact I|split; vm_compute; reflexivity|repeat constructor]|]). apply Forall_nil.
Qed.

(** C32_packed_swap, C32_same_after_swap, C32_same_after_scroll_index: the two
    sequences of C32_example. *)
Example C32_moves_example : let p := mkPacked 2 0 [f0; f1; f2; f1] in let s := seq_of [new_xy f0 f1; new_xy f2 f1] in
  same_content p s /\ packed_ok p 2 /\ packed_swap p 0 1 = Ok (mkPacked 2 0 [f2; f1; f0; f1]) /\ packed_scroll_index p 1 = Ok (mkPacked 2 0 [f2; f1; f0; f1]).
Proof.
  intros p s. destruct C32_example as (S & _). split; [exact S|]. split; [exact (proj1 (proj2 (proj2 (proj2 S))))|]. split; reflexivity.
Qed.

(** C60_distance_error: two segments with large ordinates; the bound is met by
    the largest of the five distances. *)
Example C60_distance_error_example : let s := mkS (ipt 9007199254740991 1) (ipt 5 7) in let t := mkS (ipt (-9007199254740991) 3) (ipt 5 9007199254740990) in
  hypot_accurate hypot_nearest /\ mid_pt (p0 s) /\ mid_pt (p1 s) /\ mid_pt (p0 t) /\ mid_pt (p1 t).
Proof.
  intros s t. split; [exact hypot_nearest_accurate|]. repeat split; (apply mid_ipt; lia).
Qed.

(** C68_length: a square with a square hole has length 32 + 8. *)
Example C68_length_example : on_grid 0 [(0,0);(8,0);(8,8);(0,8);(0,0)] (spts with_hole) /\ rectilinear [(0,0);(8,0);(8,8);(0,8);(0,0)] /\
  manhattan [(0,0);(8,0);(8,8);(0,8);(0,0)] + holes_length [[(2,2);(2,4);(4,4);(4,2);(2,2)]] = 40 /\
  match pg_length (fun a b => if feqb a f0 then fabs b else fabs a) with_hole with Ok r => feqb r (fofZ 40) | Panic => false end = true.
Proof.
  split. { repeat (apply Forall2_cons; [split; apply grid_fofZ; cbn; lia|]). apply Forall2_nil. }
  split. { intros l1 a b l2 E. do 4 (destruct l1 as [|? l1]; [injection E; intros; subst; cbn; auto|apply (f_equal (@tl _)) in E; cbn [tl app] in E]). destruct l1 as [|? l1]; [discriminate E|]. apply (f_equal (@tl _)) in E. destruct l1; discriminate E. }
  split; vm_compute; reflexivity.
Qed.

(** C03_entry_points: two boxes that meet in one corner. *)
Example C03_entry_example : let e := mkE f0 f2 f0 f2 in let f := mkE f2 (fofZ 5) f2 (fofZ 5) in
  wf_env e /\ wf_env f /\ overlaps_envelope e f = true /\ intersects_coordinate e (ipt 2 2) = true /\ overlaps_coordinate e (ipt 3 2) = false.
Proof. intros e f. split; [right; split; vm_compute; reflexivity|]. split; [right; split; vm_compute; reflexivity|]. repeat split; vm_compute; reflexivity. Qed.
