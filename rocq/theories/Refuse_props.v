(** C85: input that the documentation says is refused ("throws"): line strings
    and rings with too few points, rings that are not closed, and constructions
    on a segment or line of length zero.  Nothing is refused; the theorems say what
    comes out instead. *)
From Coq Require Import ZArith Reals Bool List Lia Lra.
From Flocq Require Import Core IEEE754.BinarySingleNaN.
From Verif Require Import Base F64 F64Facts Num Coordinate_model Coordinate_spec Envelope_spec CoordArrays_spec CoordSeq_model CoordSeq_spec
  Distance_model Orientation_model Orientation_spec Orientation_proofs Orientation_props Intersection_model Intersection_spec Triangle_model Distance_props Segment_model Geom_model Geom_proofs Line_props Polygon_props.
Import ListNotations.
Open Scope Z_scope.

(** ** Lines and rings *)
(** line_string.rs 21-23 and linear_ring.rs 20-23: the documented conditions. *)
Definition line_allowed (cs : list Coordinate) : Prop := cs = [] \/ (2 <= length cs)%nat.
Definition ring_allowed (cs : list Coordinate) : Prop := cs = [] \/ ((3 <= length cs)%nat /\ closed cs).
(** A constructor that keeps its documentation: it succeeds exactly on the allowed lists. *)
Definition keeps {A} (make : list Coordinate -> res A) (allowed : list Coordinate -> Prop) : Prop :=
  forall cs, (exists x, make cs = Ok x) <-> allowed cs.
Theorem C85_line_refuted : ~ keeps create_line line_allowed /\
  forall cs, ~ line_allowed cs -> exists l, create_line cs = Ok l /\ lpts l = cs /\ length cs = 1%nat /\
    exists p q, ln_start_point l = Ok (Some p) /\ ln_end_point l = Ok (Some q) /\ pt_coordinate p = pt_coordinate q.
Proof.
  split.
  - intros K. destruct (K [coord_default]) as [K1 _]. destruct K1 as [E|L].
    + destruct (C67_new [coord_default]) as [(l & E & _) _]. now exists l.
    + discriminate E.
    + cbn in L. lia.
  - intros cs N. destruct cs as [|c [|d cs]].
    + exfalso. apply N. now left.
    + destruct (C67_new [c]) as [(l & E & P & _) _]. exists l. split; [exact E|]. split; [exact P|]. split; [reflexivity|].
      destruct (C67_end_points l) as [_ H]. destruct (H c [] c P eq_refl) as (p & q & A & B & C & D & _). exists p, q. split; [exact A|]. split; [exact C|]. now rewrite B, D.
    + exfalso. apply N. right. cbn. lia.
Qed.
(** An open or short ring is kept as given, by itself and as the shell of a
    polygon, and only [is_closed] tells. *)
Theorem C85_ring_refuted : ~ keeps rg_of ring_allowed /\ ~ keeps create_polygon ring_allowed /\
  forall cs, ~ ring_allowed cs -> exists r p, rg_of cs = Ok r /\ rpts r = cs /\ create_polygon cs = Ok p /\ spts p = cs /\
    (~ closed cs -> rg_is_closed r = Ok false).
Proof.
  assert (M : forall cs, exists r p, rg_of cs = Ok r /\ rpts r = cs /\ create_polygon cs = Ok p /\ spts p = cs).
  { intros cs. destruct (C67_new cs) as [_ (r & E & P & _)]. destruct (C68_new r []) as (p & E' & S & _).
    exists r, p. split; [exact E|]. split; [exact P|]. split; [|now rewrite S, P].
    unfold create_polygon. rewrite E. cbn [bind]. exact E'. }
  assert (B : ~ ring_allowed [coord_default]). { intros [E|[L _]]; [discriminate E|cbn in L; lia]. }
  destruct (M [coord_default]) as (r & p & E & _ & F & _).
  split; [intros K; apply B, K; now exists r|]. split; [intros K; apply B, K; now exists p|].
  intros cs N. destruct (M cs) as (r' & p' & E' & P' & F' & S'). exists r', p'. repeat (split; [assumption|]).
  intros O. destruct (C67_ring_is_closed r') as (b & Eb & Hb). rewrite Eb. f_equal. destruct b; [|reflexivity]. exfalso.
  destruct (proj1 Hb eq_refl) as [Z|Z]; rewrite P' in Z; [apply N; now left|now apply O].
Qed.
(** With an open shell the area depends on where the list of corners starts: 16
    and 8 for the same square. *)
Definition open_square (k : nat) : list Coordinate :=
  let l := [xy 0 0; xy 4 0; xy 4 4; xy 0 4] in skipn k l ++ firstn k l.
Theorem C85_open_area_refuted : exists k j, (k < 4)%nat /\ (j < 4)%nat /\
  match (p <- create_polygon (open_square k) ;; pg_area p), (p <- create_polygon (open_square j) ;; pg_area p) with
  | Ok a, Ok b => feqb a (fofZ 16) && feqb b (fofZ 8) = true
  | _, _ => False
  end.
Proof. exists 0%nat, 1%nat. split; [lia|]. split; [lia|]. vm_compute. reflexivity. Qed.
Example C85_ring_example : ~ ring_allowed (open_square 0) /\ ~ closed (open_square 0) /\ ~ line_allowed [xy 1 2].
Proof.
  assert (~ closed (open_square 0)). { intros (a & b & A & B & X & Y). injection A as <-. injection B as <-. vm_compute in Y. discriminate Y. }
  split; [intros [E|[_ C]]; [discriminate E|contradiction]|]. split; [assumption|]. intros [E|L]; [discriminate E|cbn in L; lia].
Qed.

(** ** Segments of length zero *)
(** Both ends are the same finite point. *)
Definition point_like (s : LineSegment) : Prop := fin_xy (p0 s) /\ cx (p1 s) = cx (p0 s) /\ cy (p1 s) = cy (p0 s).
Definition nan_xy (c : Coordinate) : Prop := cx c = fnan /\ cy c = fnan.
Definition zn (v : f64) : Prop := v = fnan \/ exists s, v = B754_zero s.
Lemma sub_self x : fis_finite x = true -> fsub x x = f0.
Proof.
  intros F. destruct (fsub_R x x F F) as [R2 R1]. { rewrite Rminus_diag_eq by reflexivity. rewrite RN_id by apply generic_format_0. rewrite Rabs_R0. apply bpow_gt_0. }
  destruct x as [s|s| |s m e H]; try discriminate F; [now destruct s|].
  pose proof (Bminus_correct 53 1024 _ _ mode_NE (B754_finite s m e H) (B754_finite s m e H) eq_refl eq_refl) as C.
  rewrite Rminus_diag_eq in C by reflexivity. rewrite round_0 in C by typeclasses eauto. rewrite Rabs_R0, Rlt_bool_true in C by apply bpow_gt_0.
  destruct C as (_ & _ & S). rewrite Rcompare_Eq in S by reflexivity. change (Bminus mode_NE (B754_finite s m e H) (B754_finite s m e H)) with (fsub (B754_finite s m e H) (B754_finite s m e H)) in S.
  rewrite RN_id in R1 by (rewrite Rminus_diag_eq by reflexivity; apply generic_format_0). rewrite Rminus_diag_eq in R1 by reflexivity.
  destruct (fsub (B754_finite s m e H) (B754_finite s m e H)) as [t|t| |t m' e' H']; try discriminate R2.
  - cbn in S. rewrite S. destruct s; reflexivity.
  - exfalso. unfold R_of in R1. cbn in R1. destruct t; [apply (Rlt_irrefl 0); rewrite <- R1 at 1; apply F2R_lt_0; reflexivity|apply (Rlt_irrefl 0); rewrite <- R1 at 2; apply F2R_gt_0; reflexivity].
Qed.
Lemma zn_mul_l v x : zn v -> zn (fmul v x).
Proof. intros [->|[s ->]]; destruct x as [t|t| |t m e H]; (left; reflexivity) || (right; eexists; reflexivity). Qed.
Lemma zn_mul_r v x : zn v -> zn (fmul x v).
Proof. intros [->|[s ->]]; destruct x as [t|t| |t m e H]; (left; reflexivity) || (right; eexists; reflexivity). Qed.
Lemma zn_sub v w : zn v -> zn w -> zn (fsub v w).
Proof. intros [->|[s ->]] [->|[t ->]]; try (left; reflexivity). destruct s, t; right; eexists; reflexivity. Qed.
Lemma zn_neg v : zn v -> zn (fneg v).
Proof. intros [->|[s ->]]; [left; reflexivity|right; eexists; reflexivity]. Qed.
Lemma zn_div0 v : zn v -> fdiv v f0 = fnan.
Proof. intros [->|[s ->]]; reflexivity. Qed.
Lemma zn0 : zn f0. Proof. right. now exists false. Qed.
Lemma sub_nan x : fsub x fnan = fnan. Proof. now destruct x. Qed.
Lemma add_nan x : fadd x fnan = fnan. Proof. now destruct x. Qed.

(** line_segment.rs 303 and 485: offsetting a point-like segment gives NaN, for
    every fraction and every offset but zero, where the documentation promises
    an exception. *)
Theorem C85_offset hypot s d : point_like s -> hypot f0 f0 = f0 -> feqb d f0 = false ->
  (forall f, nan_xy (seg_point_along_offset hypot s f d)) /\ nan_xy (p0 (seg_offset hypot s d)) /\ nan_xy (p1 (seg_offset hypot s d)).
Proof.
  intros ((Fx & Fy) & X & Y) H0 D.
  assert (A : forall f, nan_xy (seg_point_along_offset hypot s f d)).
  { intros f. unfold seg_point_along_offset, g_point_along_offset, nan_xy, with_xy. cbn [NF nsub nmul nadd ndiv neq nhyp nofZ pf px py set_x set_y cx cy].
    rewrite X, Y, !sub_self by assumption. change (fofZ 0) with f0. rewrite D, H0. cbn [negb].
    rewrite (zn_div0 (fmul d f0)) by (apply zn_mul_r, zn0). now rewrite sub_nan, add_nan. }
  split; [exact A|]. unfold seg_offset, seg_new. cbn [p0 p1]. split; [apply (A f0)|apply (A f1)].
Qed.
(** A zero offset, or none, gives the point itself. *)
Theorem C85_along hypot s f : point_like s -> fis_finite f = true ->
  equals_2d (seg_point_along hypot s f) (p0 s) = true /\ equals_2d (seg_point_along_offset hypot s f f0) (p0 s) = true.
Proof.
  intros ((Fx & Fy) & X & Y) Ff.
  assert (Z : exists b, fmul f f0 = B754_zero b). { destruct f as [t|t| |t m e H]; try discriminate Ff; eexists; reflexivity. }
  assert (P : forall x b, fis_finite x = true -> feqb (fadd x (B754_zero b)) x = true /\ feqb (fsub (fadd x (B754_zero b)) f0) x = true /\ feqb (fadd (fadd x (B754_zero b)) f0) x = true).
  { intros x b F. destruct x as [t|t| |t m e H]; try discriminate F; [destruct t, b; repeat split; reflexivity|].
    change (fadd (B754_finite t m e H) (B754_zero b)) with (B754_finite t m e H). change (fsub (B754_finite t m e H) f0) with (B754_finite t m e H). change (fadd (B754_finite t m e H) f0) with (B754_finite t m e H).
    assert (feqb (B754_finite t m e H) (B754_finite t m e H) = true) by (rewrite feqb_rank by reflexivity; apply Z.eqb_refl). auto. }
  destruct Z as (b & Z). destruct (P _ b Fx) as (A1 & A2 & _). destruct (P _ b Fy) as (B1 & _ & B3).
  unfold seg_point_along, seg_point_along_offset, g_point_along, g_point_along_offset, with_xy, equals_2d.
  cbn [NF nsub nmul nadd ndiv neq nhyp nofZ pf px py set_x set_y cx cy]. rewrite X, Y, !sub_self by assumption. change (fofZ 0) with f0.
  change (feqb f0 f0) with true. cbn [negb]. rewrite Z. unfold fneb. change (@Beqb 53 1024) with feqb. rewrite A1, A2, B1, B3. split; reflexivity.
Qed.
(** Projecting another point on a point-like segment: no factor, the fraction of
    the far end, NaN for the projected point (with the Z and M of the point),
    NaN for the mirror image; the closest point is the segment's own. *)
Theorem C85_project hypot s p : point_like s -> equals_2d p (p0 s) = false ->
  seg_projection_factor hypot s p = fnan /\ seg_fraction hypot s p = f1 /\
  nan_xy (seg_project hypot s p) /\ seg_closest_point hypot s p = p1 s.
Proof.
  intros ((Fx & Fy) & X & Y) N.
  assert (FA : seg_projection_factor hypot s p = fnan).
  { unfold seg_projection_factor, g_projection_factor, g_equals. cbn [NF nsub nmul nadd ndiv neq nhyp nofZ nle pf px py]. rewrite X, Y, !sub_self by assumption.
    unfold equals_2d, fneb in N. change (@Beqb 53 1024) with feqb in N. assert (feqb (cx p) (cx (p0 s)) && feqb (cy p) (cy (p0 s)) = false) as ->.
    { destruct (feqb (cx p) (cx (p0 s))), (feqb (cy p) (cy (p0 s))); try reflexivity; exact N. }
    reflexivity. }
  split; [exact FA|]. split; [unfold seg_fraction; rewrite FA; reflexivity|]. split.
  - unfold seg_project. assert (equals_2d p (p1 s) = false) as N1 by (unfold equals_2d in *; now rewrite X, Y). rewrite N, N1. cbn [orb].
    unfold seg_project_with, g_point_along, with_xy, nan_xy. rewrite FA. cbn [NF nsub nmul nadd pf px py set_x set_y cx cy].
    change (fmul fnan (fsub (cx (p1 s)) (cx (p0 s)))) with fnan. change (fmul fnan (fsub (cy (p1 s)) (cy (p0 s)))) with fnan. now rewrite !add_nan.
  - unfold seg_closest_point. rewrite FA. change (fgtb fnan f0 && fltb fnan f1) with false. cbv iota.
    unfold distance. rewrite X, Y. match goal with |- (if fltb ?d ?d then _ else _) = _ => generalize d end. intros d.
    assert (fltb d d = false) as ->; [|reflexivity]. destruct (fis_nan d) eqn:E; [now apply fltb_nan_l|]. rewrite fltb_rank by exact E. apply Z.ltb_irrefl.
Qed.
(** line_segment.rs 346 and 390: "NaN" and "1.0 is returned" for a segment of
    length zero are false for the segment's own point, where both are 0. *)
Theorem C85_fraction_refuted hypot s p : point_like s -> equals_2d p (p0 s) = true ->
  seg_projection_factor hypot s p = f0 /\ seg_fraction hypot s p = f0.
Proof.
  intros _ N.
  assert (FA : seg_projection_factor hypot s p = f0).
  { unfold seg_projection_factor, g_projection_factor, g_equals. cbn [NF neq nofZ pf px py].
    unfold equals_2d, fneb in N. change (@Beqb 53 1024) with feqb in N.
    destruct (feqb (cx p) (cx (p0 s))), (feqb (cy p) (cy (p0 s))); try discriminate N. reflexivity. }
  split; [exact FA|]. unfold seg_fraction. rewrite FA. reflexivity.
Qed.
Theorem C85_reflect hypot s p : point_like s -> nan_xy (seg_reflect hypot s p).
Proof.
  intros ((Fx & Fy) & X & Y). unfold seg_reflect, g_reflect, with_xy, nan_xy. cbn [NF nsub nmul nadd ndiv nneg nofZ pf px py set_x set_y cx cy].
  rewrite X, Y, !sub_self by assumption. change (fadd (fmul f0 f0) (fmul f0 f0)) with f0.
  split; apply zn_div0; repeat (apply zn_sub || apply zn_neg || exact zn0 || (apply zn_mul_r; exact zn0) || apply zn_mul_l).
Qed.
(** Projecting a whole segment away from the point: a segment of NaN, where the
    documentation says [None] for no overlap. *)
Theorem C85_project_segment hypot s t : point_like s -> equals_2d (p0 t) (p0 s) = false -> equals_2d (p1 t) (p0 s) = false ->
  exists r, seg_project_segment hypot s t = Some r /\ nan_xy (p0 r) /\ nan_xy (p1 r).
Proof.
  intros P A B. destruct (C85_project hypot s (p0 t) P A) as (F0 & _). destruct (C85_project hypot s (p1 t) P B) as (F1 & _).
  unfold seg_project_segment. rewrite F0, F1. change (fgeb fnan f1) with false. change (fleb fnan f0) with false. change (fltb fnan f0) with false. change (fgtb fnan f1) with false.
  cbn [andb]. eexists. split; [reflexivity|]. unfold seg_new, seg_project_with, g_point_along, with_xy, nan_xy.
  cbn [p0 p1 from_coordinate NF nsub nmul nadd pf px py set_x set_y cx cy].
  change (fmul fnan (fsub (cx (p1 s)) (cx (p0 s)))) with fnan. change (fmul fnan (fsub (cy (p1 s)) (cy (p0 s)))) with fnan. now rewrite !add_nan.
Qed.
(** The segment from (1, 2) to itself, and points off it. *)
Example C85_point_like_example : let s := mkS (xy 1 2) (xy 1 2) in
  point_like s /\ equals_2d (xy 1 2) (p0 s) = true /\ equals_2d (xy 3 5) (p0 s) = false /\ equals_2d (xy 0 0) (p0 s) = false /\ feqb (fofZ 7) f0 = false.
Proof. repeat split; vm_compute; reflexivity. Qed.

(** ** A line given by the same point twice *)
(** intersection.rs 160-166: "there will be no intersection point if the line or
    the segment are degenerate" is false: every segment meets the line through
    twice the same point, in its first end, and a point-like segment on the line
    meets it in its point. *)
Theorem C85_line_segment_refuted hypot e l m s t : -440 <= e <= 420 -> gpt e l -> gpt e m -> gpt e s -> gpt e t ->
  line_segment hypot l l s t = Some (from_coordinate s) /\
  (det_pts l m s = 0%R -> line_segment hypot l m s s = Some (from_coordinate s)).
Proof.
  intros He L M S T.
  assert (Z : forall a b c, gpt e a -> gpt e b -> gpt e c -> det_pts a b c = 0%R -> orient a b c = 0).
  { intros a b c A B C D. pose proof (orient_grid e a b c He A B C) as O. rewrite D in O. destruct O as [(_ & K)|[(K & _)|(_ & K)]]; [lra|exact K|lra]. }
  split.
  - unfold line_segment. rewrite (Z l l s) by (try assumption; unfold det_pts, det3; ring). reflexivity.
  - intros D. unfold line_segment. rewrite (Z l m s) by assumption. reflexivity.
Qed.
Example C85_line_segment_example : gpt 0 (ipt 1 1) /\ gpt 0 (ipt 5 7) /\ gpt 0 (ipt 9 7) /\ det_pts (ipt 1 1) (ipt 3 3) (ipt 2 2) = 0%R.
Proof.
  assert (G : forall x y, Z.abs x <= 2 ^ 49 -> Z.abs y <= 2 ^ 49 -> gpt 0 (ipt x y)).
  { intros x y X Y. split; [exists x|exists y]; (split; [assumption|]); apply grid_fofZ; lia. }
  repeat (split; [apply G; lia|]). unfold det_pts, det3, ipt, new_xy. cbn [cx cy].
  repeat match goal with |- context [R_of (fofZ ?n)] => rewrite (proj2 (grid_fofZ n ltac:(lia))) end. cbn. ring.
Qed.

(** ** Flat triangles *)
Lemma nf_cases (v : f64) : fis_finite v = false -> v = fnan \/ exists s, v = B754_infinity s.
Proof. destruct v as [s|s| |s m e H]; intros F; try discriminate F; [right; now exists s|now left]. Qed.
Lemma nf_add_l v x : fis_finite v = false -> fis_finite (fadd v x) = false.
Proof. intros F. destruct (nf_cases v F) as [->|[s ->]]; destruct x as [t|t| |t m e H]; try reflexivity. destruct s, t; reflexivity. Qed.
Lemma nf_add_r v x : fis_finite v = false -> fis_finite (fadd x v) = false.
Proof. intros F. destruct (nf_cases v F) as [->|[s ->]]; destruct x as [t|t| |t m e H]; try reflexivity. destruct s, t; reflexivity. Qed.
Lemma nf_sub_r v x : fis_finite v = false -> fis_finite (fsub x v) = false.
Proof. intros F. destruct (nf_cases v F) as [->|[s ->]]; destruct x as [t|t| |t m e H]; try reflexivity. destruct s, t; reflexivity. Qed.
Lemma nf_mul_l v x : fis_finite v = false -> fis_finite (fmul v x) = false.
Proof. intros F. destruct (nf_cases v F) as [->|[s ->]]; destruct x as [t|t| |t m e H]; reflexivity. Qed.
Lemma nf_div0 x s : fis_finite (fdiv x (B754_zero s)) = false.
Proof. destruct x as [t|t| |t m e H]; reflexivity. Qed.
Lemma grid_is_zero e x : grid e x 0 -> exists s, x = B754_zero s.
Proof.
  intros [F R]. rewrite Rmult_0_l in R. destruct x as [s|s| |s m ee H]; try discriminate F; [now exists s|]. exfalso. unfold R_of in R. cbn in R.
  destruct s; [apply (Rlt_irrefl 0); rewrite <- R at 1; apply F2R_lt_0; reflexivity|apply (Rlt_irrefl 0); rewrite <- R at 2; apply F2R_gt_0; reflexivity].
Qed.
(** A two by two determinant of differences of small grid points that is zero is
    computed as a zero. *)
Lemma det_zero e p1 p2 q1 q2 r1 r2 n1 n2 m1 m2 k1 k2 : -400 <= e <= 400 ->
  Z.abs n1 <= 2 ^ 24 -> Z.abs n2 <= 2 ^ 24 -> Z.abs m1 <= 2 ^ 24 -> Z.abs m2 <= 2 ^ 24 -> Z.abs k1 <= 2 ^ 24 -> Z.abs k2 <= 2 ^ 24 ->
  grid e p1 n1 -> grid e p2 n2 -> grid e q1 m1 -> grid e q2 m2 -> grid e r1 k1 -> grid e r2 k2 ->
  (n1 - k1) * (m2 - k2) - (n2 - k2) * (m1 - k1) = 0 ->
  (exists s, fsub (fmul (fsub p1 r1) (fsub q2 r2)) (fmul (fsub p2 r2) (fsub q1 r1)) = B754_zero s) /\
  (exists s, fsub (fmul (fsub p1 r1) (fsub q2 r2)) (fmul (fsub q1 r1) (fsub p2 r2)) = B754_zero s).
Proof.
  intros He N1 N2 M1 M2 K1 K2 P1 P2 Q1 Q2 R1 R2 D.
  assert (A1 : grid e (fsub p1 r1) (n1 - k1)) by (apply grid_sub; [lia|lia|assumption|assumption]).
  assert (A2 : grid e (fsub p2 r2) (n2 - k2)) by (apply grid_sub; [lia|lia|assumption|assumption]).
  assert (B1 : grid e (fsub q1 r1) (m1 - k1)) by (apply grid_sub; [lia|lia|assumption|assumption]).
  assert (B2 : grid e (fsub q2 r2) (m2 - k2)) by (apply grid_sub; [lia|lia|assumption|assumption]).
  assert (W : forall u v, Z.abs u <= 2 ^ 25 -> Z.abs v <= 2 ^ 25 -> Z.abs (u * v) <= 2 ^ 53).
  { intros u v U V. rewrite Z.abs_mul. apply (Z.le_trans _ (2 ^ 25 * 2 ^ 25)); [apply Z.mul_le_mono_nonneg; lia|lia]. }
  assert (M : grid (e + e) (fmul (fsub p1 r1) (fsub q2 r2)) ((n1 - k1) * (m2 - k2))) by (apply grid_mul; [lia|apply W; lia|assumption|assumption]).
  assert (M' : grid (e + e) (fmul (fsub p2 r2) (fsub q1 r1)) ((n2 - k2) * (m1 - k1))) by (apply grid_mul; [lia|apply W; lia|assumption|assumption]).
  assert (M'' : grid (e + e) (fmul (fsub q1 r1) (fsub p2 r2)) ((n2 - k2) * (m1 - k1))).
  { rewrite Z.mul_comm. apply grid_mul; [lia|apply W; lia|assumption|assumption]. }
  split; apply (grid_is_zero (e + e)); rewrite <- D; (apply grid_sub; [lia|rewrite D; cbn; lia|assumption|assumption]).
Qed.
(** triangle.rs 488-526 asks for a triangle that is not flat, and the
    circumcentre (186-224) needs one; neither checks.  On a flat triangle both
    ordinates of the circumcentre, and every interpolated height, come out NaN
    or infinite, whatever the point asked for. *)
Theorem C85_flat_triangle hypot e a b c p : -400 <= e <= 400 -> small_pt e a -> small_pt e b -> small_pt e c -> det_pts a b c = 0%R ->
  fis_finite (cx (tri_circumcentre hypot a b c)) = false /\ fis_finite (cy (tri_circumcentre hypot a b c)) = false /\
  fis_finite (tri_interpolate_z hypot p a b c) = false.
Proof.
  intros He ((ax & Ax & GAx) & (ay & Ay & GAy)) ((bx & Bx & GBx) & (by_ & By & GBy)) ((cx_ & Cx & GCx) & (cy_ & Cy & GCy)) D.
  assert (DZ : (bx - ax) * (cy_ - ay) - (by_ - ay) * (cx_ - ax) = 0).
  { unfold det_pts, det3 in D. rewrite (proj2 GAx), (proj2 GAy), (proj2 GBx), (proj2 GBy), (proj2 GCx), (proj2 GCy) in D.
    apply eq_IZR. rewrite minus_IZR, !mult_IZR, !minus_IZR. pose proof (bpow_gt_0 radix2 e) as P.
    assert (W : (((IZR bx - IZR ax) * (IZR cy_ - IZR ay) - (IZR by_ - IZR ay) * (IZR cx_ - IZR ax)) * (bp e * bp e) = 0)%R).
    { rewrite <- D. ring. }
    apply Rmult_integral in W. destruct W as [W|W]; [exact W|]. apply Rmult_integral in W. lra. }
  assert (D1 : (ax - cx_) * (by_ - cy_) - (ay - cy_) * (bx - cx_) = 0) by lia.
  assert (D2 : (bx - ax) * (cy_ - ay) - (by_ - ay) * (cx_ - ax) = 0) by exact DZ.
  destruct (det_zero e _ _ _ _ _ _ _ _ _ _ _ _ He Ax Ay Bx By Cx Cy GAx GAy GBx GBy GCx GCy D1) as [[s S] _].
  destruct (det_zero e _ _ _ _ _ _ _ _ _ _ _ _ He Bx By Cx Cy Ax Ay GBx GBy GCx GCy GAx GAy D2) as [_ [t T]].
  unfold tri_circumcentre, g_circumcentre, to_coord, g_det, new_xy, tri_interpolate_z, g_interpolate_z.
  cbn [NF nsub nmul nadd ndiv nneg nofZ pf px py cx cy]. rewrite S, T.
  assert (Z2 : exists u, fmul (fofZ 2) (B754_zero s) = B754_zero u) by (eexists; reflexivity). destruct Z2 as (u & ->).
  split; [apply nf_sub_r, nf_div0|]. split; [apply nf_add_r, nf_div0|]. apply nf_add_r, nf_mul_l, nf_div0.
Qed.
(** A flat triangle with corners of different heights. *)
Example C85_flat_triangle_example : small_pt 0 (ipt 1 1) /\ small_pt 0 (ipt 3 3) /\ small_pt 0 (ipt 2 2) /\ det_pts (ipt 1 1) (ipt 3 3) (ipt 2 2) = 0%R.
Proof.
  assert (G : forall x y, Z.abs x <= 2 ^ 24 -> Z.abs y <= 2 ^ 24 -> small_pt 0 (ipt x y)).
  { intros x y X Y. split; [exists x|exists y]; (split; [assumption|]); apply grid_fofZ; lia. }
  repeat (split; [apply G; lia|]). apply C85_line_segment_example.
Qed.
