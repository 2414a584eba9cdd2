(** Sentences of the documentation, taken literally on doubles: C84 (the point
    once found on a segment), C61 (areas never negative, centroid inside), C55
    (range of the angle between two tips), C47 (area of flat rings). *)
From Coq Require Import ZArith Reals Bool List Lia Lra.
From Flocq Require Import Core IEEE754.BinarySingleNaN.
From Verif Require Import Base F64 F64Facts Num NumLink Coordinate_model Orientation_model Orientation_props PointLocation_model PointLocation_spec PointLocation_proofs PrecisionModel_proofs Distance_model CoordSeq_model Measure_model Angle_model Triangle_model.
Import ListNotations.
Open Scope Z_scope.

(** ray_crossing_counter.rs 211-218 ([is_on_segment] reads the field [con]): once the point has been found on a segment,
    no segment counted later changes the answer. *)
Theorem C84_stays c l c' : con c = true -> count_all c l = Ok c' -> con c' = true /\ get_location c' = BOUNDARY.
Proof.
  revert c. induction l as [|[a b] l IH]; intros c O E; cbn [count_all] in E.
  - injection E as <-. split; [exact O|]. unfold get_location. now rewrite O.
  - destruct (count_segment c b a) as [d|] eqn:D; [|discriminate E]. cbn [bind] in E. apply (IH d); [|exact E].
    exact (count_segment_con _ _ _ _ O D).
Qed.

(** triangle.rs 410-424 and 453-505: "the area value is always non-negative",
    for all doubles; a NaN is not below zero. *)
Theorem C61_nonnegative hypot a b c :
  fltb (tri_area hypot a b c) f0 = false /\ fltb (tri_area_3d hypot a b c) f0 = false.
Proof.
  split.
  - unfold tri_area, g_area. cbn [nabs NF]. match goal with |- context [g_signed_area ?T ?n ?x ?y ?z] => generalize (g_signed_area T n x y z) end. intros x.
    change (fltb (fabs x) f0 = false).
    destruct (fis_nan x) eqn:N; [destruct x; try discriminate N; reflexivity|].
    rewrite fltb_rank; [|apply nn_fabs; exact N|reflexivity]. rewrite rank_fabs. apply Z.ltb_ge. change (rank f0) with 0. lia.
  - unfold tri_area_3d, g_area_3d. cbv zeta. match goal with |- fltb (ndiv _ (nsqrt _ ?t) _) _ = _ => generalize t end. intros x.
    change (fltb (fdiv (fsqrt x) f2) f0 = false).
    destruct (fis_nan (fsqrt x)) eqn:N.
    { destruct (fsqrt x); try discriminate N. reflexivity. }
    assert (P : posf f2). { split; [reflexivity|]. destruct (grid_fofZ 2 ltac:(cbn; lia)) as [_ E]. change (0 < R_of (fofZ 2))%R. rewrite E. cbn. lra. }
    destruct (fdiv_le f0 (fsqrt x) f2 P eq_refl N) as [_ L]. { apply (fsqrt_nonneg x). exact N. }
    destruct (fis_nan (fdiv (fsqrt x) f2)) eqn:M; [now rewrite fltb_nan_l|].
    rewrite fltb_rank; [|exact M|reflexivity]. apply Z.ltb_ge. exact L.
Qed.
Example C61_nonnegative_example hypot :
  feqb (tri_area hypot (ipt 0 0) (ipt 0 4) (ipt 3 0)) (fofZ 6) = true /\ feqb (tri_area hypot (ipt 0 0) (ipt 3 0) (ipt 0 4)) (fofZ 6) = true.
Proof. split; vm_compute; reflexivity. Qed.

(** triangle.rs 326: "the centroid always lies within the triangle" is false on
    doubles: with ordinates just below 2^53 it is on the far side of an edge. *)
Definition zside (a b q : Z * Z) : Z :=
  (fst b - fst a) * (snd q - snd a) - (snd b - snd a) * (fst q - fst a).
Definition at_ints (p : Coordinate) (q : Z * Z) : Prop := grid 0 (cx p) (fst q) /\ grid 0 (cy p) (snd q).
Theorem C61_centroid_inside_refuted : exists a b c q : Z * Z, forall hypot,
  let p (v : Z * Z) := ipt (fst v) (snd v) in
  at_ints (p a) a /\ at_ints (p b) b /\ at_ints (p c) c /\ at_ints (tri_centroid hypot (p a) (p b) (p c)) q /\
  0 < zside a b c /\ zside c a q < 0.
Proof.
  pose (o := 9007199254740928). exists (o + 1, o), (o + 1, o + 1), (o, o + 1), (o, o). intros hypot p.
  repeat split; try (apply grid_fofZ; cbn; lia); vm_compute; reflexivity.
Qed.

(** triangle.rs 298: "the incentre always lies within the triangle" is false on
    doubles too, for every [hypot] exact on whole sides: that of a triangle with
    sides 3, 4 and 5 is reported beyond its longest side. *)
Definition hypot_whole (hypot : f64 -> f64 -> f64) : Prop := forall x y z,
  0 <= z <= 2 ^ 20 -> x * x + y * y = z * z -> hypot (fofZ x) (fofZ y) = fofZ z.
Theorem C61_in_centre_inside_refuted : exists a b c q : Z * Z, forall hypot, hypot_whole hypot ->
  let p (v : Z * Z) := ipt (fst v) (snd v) in
  at_ints (p a) a /\ at_ints (p b) b /\ at_ints (p c) c /\ at_ints (tri_in_centre hypot (p a) (p b) (p c)) q /\
  0 < zside a b c /\ zside b c q < 0.
Proof.
  pose (o := 9007199254740793). exists (o, o), (o + 3, o), (o, o + 4), (o + 2, o + 2). intros hypot H p.
  assert (B0 : fsub (fofZ (o + 3)) (fofZ o) = fofZ 3) by (apply B2SF_inj; vm_compute; reflexivity).
  assert (B1 : fsub (fofZ o) (fofZ (o + 4)) = fofZ (-4)) by (apply B2SF_inj; vm_compute; reflexivity).
  assert (B2 : fsub (fofZ o) (fofZ o) = fofZ 0) by (apply B2SF_inj; vm_compute; reflexivity).
  assert (B3 : fsub (fofZ o) (fofZ (o + 3)) = fofZ (-3)) by (apply B2SF_inj; vm_compute; reflexivity).
  assert (T : tri_in_centre hypot (p (o, o)) (p (o + 3, o)) (p (o, o + 4)) = ipt (o + 2) (o + 2)).
  { unfold tri_in_centre, g_in_centre, to_coord, g_distance. cbn [px py nhyp nsub nadd nmul ndiv NF]. unfold p. cbn [fst snd].
    unfold ipt, new_xy. cbn [px py cx cy pf]. rewrite B0, B1, B2, B3.
    rewrite (H 3 (-4) 5), (H 0 (-4) 4), (H (-3) 0 3) by lia. f_equal; apply B2SF_inj; vm_compute; reflexivity. }
  repeat split; try (apply grid_fofZ; cbn; lia); try rewrite T; try (apply grid_fofZ; cbn; lia); vm_compute; reflexivity.
Qed.
Lemma fin_strict (v : f64) : fis_finite v = true -> B2R v <> 0%R -> is_finite_strict v = true.
Proof. destruct v; intros F N; try discriminate F; [exfalso; apply N; reflexivity|reflexivity]. Qed.
(** The condition on [hypot] is met by the square root of the sum of squares. *)
Example C61_in_centre_inside_example : hypot_whole (fun x y => fsqrt (fadd (fmul x x) (fmul y y))).
Proof.
  intros x y z Hz E.
  assert (Bx : Z.abs x <= 2 ^ 20) by nia. assert (By : Z.abs y <= 2 ^ 20) by nia.
  destruct (Z.eq_dec z 0) as [->|N].
  { assert (x = 0) by nia. assert (y = 0) by nia. subst. apply B2SF_inj. vm_compute. reflexivity. }
  assert (Gx : grid 0 (fofZ x) x) by (apply grid_fofZ; lia). assert (Gy : grid 0 (fofZ y) y) by (apply grid_fofZ; lia).
  assert (Gz : grid 0 (fofZ z) z) by (apply grid_fofZ; lia).
  pose proof (grid_mul 0 0 _ _ x x ltac:(lia) ltac:(nia) Gx Gx) as M1. pose proof (grid_mul 0 0 _ _ y y ltac:(lia) ltac:(nia) Gy Gy) as M2.
  change (0 + 0) with 0 in M1, M2. assert (Bz : Z.abs (x * x + y * y) <= 2 ^ 53) by (rewrite E; nia).
  pose proof (grid_add 0 _ _ _ _ ltac:(lia) Bz M1 M2) as [F R]. rewrite E in R.
  assert (B : bp 0 = 1%R) by reflexivity. rewrite B, Rmult_1_r in R. destruct Gz as [Fz Rz]. rewrite B, Rmult_1_r in Rz.
  assert (P : (0 < IZR z)%R) by (apply IZR_lt; lia).
  assert (Q : (0 < IZR (z * z))%R) by (apply IZR_lt; nia).
  destruct (fsqrt_R _ F ltac:(rewrite R; lra)) as [V W]. rewrite R in V, W.
  assert (S : sqrt (IZR (z * z)) = IZR z) by (rewrite mult_IZR; apply sqrt_square; lra).
  rewrite S, <- Rz, RN_id in V by apply (generic_format_B2R 53 1024).
  apply B2R_inj.
  - apply (fin_strict _ (W Q)). change (R_of (fsqrt (fadd (fmul (fofZ x) (fofZ x)) (fmul (fofZ y) (fofZ y)))) <> 0%R). lra.
  - apply (fin_strict _ Fz). change (R_of (fofZ z) <> 0%R). lra.
  - exact V.
Qed.

(** triangle.rs 185: "the circumcircle, the smallest circle which encloses the
    triangle" is false in exact arithmetic already: an obtuse triangle fits in a
    smaller circle. *)
Definition sq_dist (p q : P2 R) : R := ((px p - px q) * (px p - px q) + (py p - py q) * (py p - py q))%R.
Theorem C61_smallest_circle_refuted : exists a b c o : P2 R, let q := g_circumcentre R NR a b c in
  (sq_dist q a = sq_dist q b /\ sq_dist q b = sq_dist q c /\
   sq_dist o a < sq_dist q a /\ sq_dist o b < sq_dist q a /\ sq_dist o c < sq_dist q a)%R.
Proof.
  exists (mkP (-4) 0)%R, (mkP 4 0)%R, (mkP 0 1)%R, (mkP 0 0)%R. cbv zeta.
  assert (E : g_circumcentre R NR (mkP (-4) 0)%R (mkP 4 0)%R (mkP 0 1)%R = mkP 0%R (-15/2)%R).
  { unfold g_circumcentre, g_det. cbn [NR nsub nadd nmul ndiv nofZ px py]. f_equal; field. }
  rewrite E. unfold sq_dist. cbn [px py]. repeat split; lra.
Qed.

(** area.rs 36-39: "zero if the ring is degenerate or flat" is false on doubles: a
    ring of whole multiples of one vector gets a negative area, that is the
    direction of a counterclockwise ring. *)
Theorem C47_flat_refuted : exists (p q : Z) (ks : list Z),
  let ring := map (fun k => ipt (k * p) (k * q)) ks in
  hd_error ks = Some 0 /\ hd_error (rev ks) = Some 0 /\ Forall (fun k => at_ints (ipt (k * p) (k * q)) (k * p, k * q)) ks /\
  (exists a, signed_area_vec ring = Ok a /\ fltb a f0 = true) /\
  (exists a, signed_area_seq (seq_of ring) = Ok a /\ fltb a f0 = true) /\
  exists a, area_vec ring = Ok a /\ fltb f0 a = true.
Proof.
  exists 8173827, 8238617, [0; -8; -9; 7; 0]. cbv zeta.
  assert (G : forall r : res f64, match r with Ok a => fltb a f0 | Panic => false end = true -> exists a, r = Ok a /\ fltb a f0 = true).
  { intros [a|] H; [now exists a|discriminate H]. }
  assert (G' : forall r : res f64, match r with Ok a => fltb f0 a | Panic => false end = true -> exists a, r = Ok a /\ fltb f0 a = true).
  { intros [a|] H; [now exists a|discriminate H]. }
  split; [reflexivity|]. split; [reflexivity|].
  split. { repeat (apply Forall_cons; [split; apply grid_fofZ; cbn; lia|]). apply Forall_nil. }
  split; [apply G; vm_compute; reflexivity|]. split; [apply G; vm_compute; reflexivity|]. apply G'; vm_compute; reflexivity.
Qed.

(** angle.rs 125: "the computed angle will be in the range [0, Pi)" is false: the
    angle between opposite vectors is pi. *)
Theorem C55_between_range_refuted : exists tip1 tail tip2, forall atan2,
  atan2 f0 f1 = f0 -> (forall x, fltb x f0 = true -> fis_finite x = true -> atan2 f0 x = PIf) ->
  angle_between atan2 tip1 tail tip2 = PIf.
Proof.
  exists (ipt 1 0), (ipt 0 0), (ipt (-1) 0). intros atan2 A B. unfold angle_between, angle_coordinates.
  change (fsub (cy (ipt 1 0)) (cy (ipt 0 0))) with (fsub (fofZ 0) (fofZ 0)).
  change (fsub (cx (ipt 1 0)) (cx (ipt 0 0))) with (fsub (fofZ 1) (fofZ 0)).
  change (fsub (cy (ipt (-1) 0)) (cy (ipt 0 0))) with (fsub (fofZ 0) (fofZ 0)).
  change (fsub (cx (ipt (-1) 0)) (cx (ipt 0 0))) with (fsub (fofZ (-1)) (fofZ 0)).
  assert (E0 : fsub (fofZ 0) (fofZ 0) = f0) by (apply B2SF_inj; vm_compute; reflexivity).
  assert (E1 : fsub (fofZ 1) (fofZ 0) = f1) by (apply B2SF_inj; vm_compute; reflexivity).
  rewrite E0, E1, A, B by (vm_compute; reflexivity). apply B2SF_inj. vm_compute. reflexivity.
Qed.
(** An arc tangent meeting the two conditions. *)
Example C55_between_range_example : exists atan2 : f64 -> f64 -> f64,
  atan2 f0 f1 = f0 /\ (forall x, fltb x f0 = true -> fis_finite x = true -> atan2 f0 x = PIf) /\
  angle_between atan2 (ipt 1 0) (ipt 0 0) (ipt (-1) 0) = PIf.
Proof.
  exists (fun _ x => if fltb x f0 then PIf else f0). split; [reflexivity|]. split; [intros x -> _; reflexivity|].
  apply B2SF_inj. vm_compute. reflexivity.
Qed.
(** A counter that finds the point on the first of three segments. *)
Example C84_stays_example :
  match count_segment (counter_new (ipt 1 1)) (ipt 0 0) (ipt 2 2) with
  | Ok c => con c && match count_all c [(ipt 0 5, ipt 9 0); (ipt 9 0, ipt 9 9)] with
                     | Ok c' => (get_location c' =? BOUNDARY) && (0 <? ccount c')
                     | Panic => false end
  | Panic => false end = true.
Proof. vm_compute. reflexivity. Qed.
