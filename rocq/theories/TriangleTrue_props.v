(** C61: the error bounds of the in-centre, of the foot of an angle bisector and
    of the area in space, against the points and the area of geometry rather
    than against the formulas of the code. *)
From Coq Require Import ZArith Bool Reals Lia Lra.
From Flocq Require Import Core IEEE754.BinarySingleNaN.
From Verif Require Import Base F64 F64Facts F64Err Num NumLink Coordinate_model Vector_model Orientation_spec Orientation_props Distance_spec Distance_float Distance_props Distance3D_model Distance3D_spec Distance3D_props
  DistanceErr_props Intersection_props Intersection_spec Triangle_model Triangle_spec Triangle_props TriangleErr_props VectorErr_props.
Local Open Scope R_scope.

Lemma proper_apart a b c : proper_triangle a b c -> ~ (a = b /\ b = c).
Proof. intros P (E & F). apply Triangle_proofs.proper_side in P. apply P. subst. unfold side. ring. Qed.
(** The point inside a triangle that is equally far from the three sides. *)
Definition is_in_centre (a b c i : pR) : Prop :=
  inside_triangle a b c i /\ exists r, 0 < r /\ least_distance (eq i) (on_line a b) r /\ least_distance (eq i) (on_line b c) r /\ least_distance (eq i) (on_line c a) r.
Theorem C61_in_centre_true : forall hypot a b c, hypot_accurate hypot -> mid_pt a -> mid_pt b -> mid_pt c -> proper_triangle (rpt a) (rpt b) (rpt c) ->
  let r := tri_in_centre hypot a b c in
  exists i, is_in_centre (rpt a) (rpt b) (rpt c) i /\ fis_finite (cx r) = true /\ fis_finite (cy r) = true /\
    Rabs (R_of (cx r) - px i) <= bp (-48) * largest (R_of (cx a)) (R_of (cx b)) (R_of (cx c)) /\
    Rabs (R_of (cy r) - py i) <= bp (-48) * largest (R_of (cy a)) (R_of (cy b)) (R_of (cy c)).
Proof.
  intros hypot a b c H Ma Mb Mc P r. destruct (C61_in_centre_exact _ _ _ P) as (d & D & I & L1 & L2 & L3 & _).
  exists (g_in_centre R NR (rpt a) (rpt b) (rpt c)). split; [split; [exact I|]; exists d; auto|].
  exact (C61_in_centre_error hypot a b c H Ma Mb Mc (proper_apart _ _ _ P)).
Qed.
(** The point of the side from [a] to [c] equally far from the other two sides. *)
Theorem C61_angle_bisector_true : forall hypot a b c, hypot_accurate hypot -> mid_pt a -> mid_pt b -> mid_pt c -> proper_triangle (rpt a) (rpt b) (rpt c) ->
  let r := tri_angle_bisector hypot a b c in
  let m x y := Rmax (Rabs (R_of x)) (Rabs (R_of y)) in
  exists s d, on_segment (rpt a) (rpt c) s /\ 0 < d /\ least_distance (eq s) (on_line (rpt b) (rpt a)) d /\ least_distance (eq s) (on_line (rpt b) (rpt c)) d /\
    fis_finite (cx r) = true /\ fis_finite (cy r) = true /\
    Rabs (R_of (cx r) - px s) <= bp (-47) * m (cx a) (cx c) /\ Rabs (R_of (cy r) - py s) <= bp (-47) * m (cy a) (cy c).
Proof.
  intros hypot a b c H Ma Mb Mc P r m. destruct (C61_angle_bisector_exact _ _ _ P) as (S & d & D & L1 & L2).
  exists (g_angle_bisector R NR (rpt a) (rpt b) (rpt c)), d. do 4 (split; [assumption|]).
  exact (C61_angle_bisector_error hypot a b c H Ma Mb Mc (proper_apart _ _ _ P)).
Qed.
(** [A] is the area in space: not negative, and its square is a quarter of
    |u|^2 |v|^2 - (u.v)^2 for the two sides u, v from the first vertex. *)
Definition is_area_3d (a b c : Coordinate) (A : R) : Prop :=
  let d (f : Coordinate -> f64) p := R_of (f p) - R_of (f a) in
  0 <= A /\ 4 * (A * A) = (d cx b * d cx b + d cy b * d cy b + d cz b * d cz b) * (d cx c * d cx c + d cy c * d cy c + d cz c * d cz c)
    - (d cx b * d cx c + d cy b * d cy c + d cz b * d cz c) * (d cx b * d cx c + d cy b * d cy c + d cz b * d cz c).
Lemma area_3d_is a b c A : is_area_3d a b c A -> g_area_3d R NR (rpt a) (rpt b) (rpt c) (R_of (cz a)) (R_of (cz b)) (R_of (cz c)) = A.
Proof.
  intros (P & E). destruct (C61_area_3d_exact (rpt a) (rpt b) (rpt c) (R_of (cz a)) (R_of (cz b)) (R_of (cz c))) as (P' & E' & _).
  apply Rsqr_inj; [exact P'|exact P|]. unfold Rsqr in *. cbn [rpt px py] in *. lra.
Qed.
Theorem C61_area_3d_true : forall hypot a b c A, is_area_3d a b c A ->
  (forall e, (-200 <= e <= 200)%Z -> small_pt3 e a -> small_pt3 e b -> small_pt3 e c ->
    fis_finite (tri_area_3d hypot a b c) = true /\ Rabs (R_of (tri_area_3d hypot a b c) - A) <= bp (-49) * A) /\
  (bf3 230 a -> bf3 230 b -> bf3 230 c -> fis_finite (tri_area_3d hypot a b c) = true /\
    Rabs (R_of (tri_area_3d hypot a b c) - A) <= bp (-49) * (dist3 (rpt3 b) (rpt3 a) * dist3 (rpt3 c) (rpt3 a)) + bp (-530)).
Proof.
  intros hypot a b c A I. apply area_3d_is in I. rewrite <- I. split.
  - intros e He Sa Sb Sc. exact (C61_area_3d hypot e a b c He Sa Sb Sc).
  - intros Ba Bb Bc. exact (C61_area_3d_error hypot a b c Ba Bb Bc).
Qed.
(** A right triangle, and one that leaves the plane. *)
Example C61_true_example : hypot_accurate hypot_nearest /\ mid_pt (ipt 0 0) /\ mid_pt (ipt 3 0) /\ mid_pt (ipt 0 4) /\
  proper_triangle (rpt (ipt 0 0)) (rpt (ipt 3 0)) (rpt (ipt 0 4)) /\
  is_area_3d (new_xyz (fofZ 0) (fofZ 0) (fofZ 0)) (new_xyz (fofZ 1) (fofZ 2) (fofZ 2)) (new_xyz (fofZ 1) (fofZ 1) (fofZ 2)) (sqrt 5 / 2).
Proof.
  split; [exact hypot_nearest_accurate|]. destruct (mid_ipt 0 0) as (M0 & R0); try lia. destruct (mid_ipt 3 0) as (M1 & R1); try lia. destruct (mid_ipt 0 4) as (M2 & R2); try lia.
  do 3 (split; [assumption|]). split.
  - apply Triangle_proofs.proper_side. rewrite R0, R1, R2. unfold side. cbn [px py]. lra.
  - assert (V : forall n, (Z.abs n <= 2 ^ 53)%Z -> R_of (fofZ n) = IZR n) by (intros n H; rewrite (proj2 (grid_fofZ n H)); change (bp 0) with 1; ring).
    unfold is_area_3d. cbn [new_xyz cx cy cz]. rewrite !V by lia. split; [pose proof (sqrt_pos 5); lra|].
    pose proof (sqrt_sqrt 5 ltac:(lra)). nra.
Qed.
