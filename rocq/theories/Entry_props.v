(** The further entry points of Entry_model.v keep the promises of the functions
    they pass on to. *)
From Coq Require Import ZArith Bool List Reals Lia Lra.
From Flocq Require Import Core IEEE754.BinarySingleNaN.
From Verif Require Import Base F64 F64Facts F64Err Num NumLink Coordinate_model Coordinate_proofs Coordinate_props CoordArrays_model CoordArrays_props Envelope_model Envelope_spec Envelope_proofs Envelope_props
  Orientation_spec Orientation_model Orientation_props Distance_model Distance_spec Intersection_model Intersection_spec IntersectErr_spec IntersectErr_props MeetErr_spec
  Triangle_model Triangle_spec Triangle_props CircumDD_props CoordSeq_model CoordSeq_proofs CoordSeq_props Octagon_model Octagon_spec Octagon_proofs Octagon_props
  Distance_props Geom_model DD_model DD_spec DD_props DD_proofs Vector_model Segment_model Entry_model.
Import ListNotations.
Local Open Scope R_scope.

(** ** C02, C03: every name of the point and box tests *)
Theorem C02_entry_points : forall e f x y p, wf_env e -> wf_env f ->
  (contains_xy e x y = true <-> in_box e x y) /\
  (covers_coordinate e p = true <-> in_box e (cx p) (cy p)) /\
  (contains_coordinate e p = true <-> in_box e (cx p) (cy p)) /\
  (contains_envelope e f = true <-> is_null e = false /\ is_null f = false /\ subset f e).
Proof.
  intros e f x y p We Wf. split; [now apply C02_covers_point|]. split; [now apply C02_covers_point|]. split; [now apply C02_covers_point|].
  now apply C02_covers_envelope.
Qed.
Theorem C03_entry_points : forall e f x y p, wf_env e -> wf_env f -> nn x -> nn y -> nn_xy p ->
  (overlaps_envelope e f = true <-> exists x y, in_box e x y /\ in_box f x y) /\
  (overlaps_xy e x y = true <-> in_box e x y) /\
  (intersects_coordinate e p = true <-> in_box e (cx p) (cy p)) /\
  (overlaps_coordinate e p = true <-> in_box e (cx p) (cy p)).
Proof.
  intros e f x y p We Wf Nx Ny (Px & Py). split; [now apply C03_intersects_iff_common_point|].
  unfold overlaps_xy, overlaps_coordinate, intersects_coordinate. rewrite !C09_point_tests_agree_off_nan by assumption.
  split; [now apply C02_covers_point|]. split; now apply C02_covers_point.
Qed.
(** Taking over another box keeps nothing of the old one; a null box holds no
    point and meets nothing. *)
Theorem C02_init : forall e f x y, (in_box (env_init e f) x y <-> in_box f x y) /\ (in_box (env_copy_self f) x y <-> in_box f x y) /\
  env_equals (env_init e f) (env_copy_self f) = env_equals f f.
Proof. intros [] [] x y. repeat split; auto; apply H. Qed.
Theorem C02_set_to_null : forall e f x y, let n := env_set_to_null e in
  is_null n = true /\ wf_env n /\ ~ in_box n x y /\ covers_xy n x y = false /\ intersects_xy n x y = false /\
  intersects_envelope n f = false /\ covers_envelope n f = false /\ covers_envelope f n = false.
Proof.
  intros e f x y n. assert (is_null n = true) as Z by reflexivity. split; [exact Z|]. split; [left; reflexivity|].
  split; [|split; [reflexivity|split; [reflexivity|split; [reflexivity|split; [reflexivity|]]]]].
  - intros (A & B & _). unfold lef in A, B.
    destruct (fis_nan x) eqn:N; [rewrite fleb_nan_r in A by exact N; discriminate|].
    rewrite fleb_rank in A by (reflexivity || exact N). rewrite fleb_rank in B by (reflexivity || exact N). apply Z.leb_le in A, B.
    assert (rank (maxx n) < rank (minx n))%Z by (vm_compute; reflexivity). lia.
  - unfold covers_envelope. rewrite Z, orb_true_r. reflexivity.
Qed.
Example C02_entry_example : let e := mkE f0 f2 f0 f2 in wf_env e /\ contains_coordinate e (ipt 1 2) = true /\ overlaps_xy e (fofZ 3) f1 = false /\
  contains_envelope e (mkE f1 f2 f0 f1) = true /\ overlaps_envelope e (mkE f2 (fofZ 5) f2 (fofZ 5)) = true /\ nn_xy (ipt 1 2).
Proof. cbv zeta. split; [right; split; vm_compute; reflexivity|]. repeat split; vm_compute; reflexivity. Qed.

(** ** C61: the methods of a triangle *)
(** A triangle keeps copies of its corners; each method gives what the function
    of the three corners gives. *)
Theorem C61_methods : forall hypot a b c p, let t := t_new a b c in
  t_in_centre hypot t = tri_in_centre hypot a b c /\ t_is_acute t = tri_is_acute a b c /\ t_is_ccw t = tri_is_ccw a b c /\
  t_circumcentre hypot t = tri_circumcentre hypot a b c /\ t_circumradius hypot t = tri_circumradius hypot a b c /\
  t_centroid hypot t = tri_centroid hypot a b c /\ t_length hypot t = tri_length hypot a b c /\ t_longest_side hypot t = tri_longest_side hypot a b c /\
  t_area hypot t = tri_area hypot a b c /\ t_signed_area hypot t = tri_signed_area hypot a b c /\ t_area_3d hypot t = tri_area_3d hypot a b c /\
  t_interpolate_z hypot t p = tri_interpolate_z hypot p a b c.
Proof.
  intros hypot a b c p. cbv zeta. unfold t_new. rewrite !C12_from_coordinate_copies_all. repeat split.
Qed.
Example C61_methods_example : let t := t_new (ipt 0 0) (ipt 4 0) (ipt 0 2) in t_is_ccw t = true /\ t_is_acute t = false /\ feqb (t_area (fun _ _ => f0) t) (fofZ 4) = true.
Proof. repeat split; vm_compute; reflexivity. Qed.

(** ** C75: the remaining constructors of coordinates *)
(** Which ordinates are present. *)
Theorem C75_named_constructors : forall x y z m, nn x -> nn y -> nn z -> nn m ->
  is_xy (new_coordinatexy x y) = true /\ is_xym (new_coordinatexym x y m) = true /\ is_xyzm (new_coordinatexyzm x y z m) = true /\
  is_xy new_coordinatexy_default = true /\ coord_create = coord_default /\ is_xy coord_create = true /\
  [coord_get_x new_coordinatexy_default; coord_get_y new_coordinatexy_default; coord_get_x coord_create; coord_get_y coord_create] = [f0; f0; f0; f0] /\
  [coord_get_x (new_coordinatexy x y); coord_get_y (new_coordinatexy x y)] = [x; y] /\
  [coord_get_x (new_coordinatexym x y m); coord_get_y (new_coordinatexym x y m); cm (new_coordinatexym x y m)] = [x; y; m] /\
  [coord_get_x (new_coordinatexyzm x y z m); coord_get_y (new_coordinatexyzm x y z m); cz (new_coordinatexyzm x y z m); cm (new_coordinatexyzm x y z m)] = [x; y; z; m].
Proof.
  intros x y z m X Y Z M. unfold is_xy, is_xym, is_xyzm. cbn [cx cy cz cm new_coordinatexy new_coordinatexym new_coordinatexyzm].
  unfold nn in *. rewrite X, Y, Z, M. repeat split.
Qed.

Example C75_named_example : nn f1 /\ nn f2 /\ is_xy (new_coordinatexym f1 f2 f0) = false /\ is_xym (new_coordinatexym f1 f2 f0) = true.
Proof. repeat split. Qed.

(** ** C59: the octagon of a line string *)
Theorem C59_of_line : forall l, Forall nn_oct (scoords (ln_seq l)) -> exists o, oct_of_line l = Ok o /\
  oct_is_valid o = true /\ (oct_is_null o = true <-> scoords (ln_seq l) = []) /\
  (forall p, In p (scoords (ln_seq l)) -> oct_intersects o p = true) /\
  (scoords (ln_seq l) <> [] -> forall r, is_oct r -> (oct_contains r o = true <-> forall p, In p (scoords (ln_seq l)) -> oct_intersects r p = true)).
Proof.
  intros l F. unfold oct_of_line, ln_sequence. rewrite seq_copy_id. cbn [bind].
  destruct (C59_sequence _ F) as (o & E & V & N & I & _ & C). exists o. auto.
Qed.
Example C59_of_line_example : let l := ln_new (seq_of [ipt 0 0; ipt 3 1]) in Forall nn_oct (scoords (ln_seq l)) /\
  exists o, oct_of_line l = Ok o /\ oct_intersects o (ipt 2 1) = true /\ oct_intersects o (ipt 0 1) = false.
Proof. cbv zeta. split; [repeat constructor|]. eexists. split; [reflexivity|]. split; vm_compute; reflexivity. Qed.

(** ** C38: copies of double-doubles *)
(** Copies have the value of the original, whatever was there before; division
    in place and division agree. *)
Theorem C38_copies : forall d e x, dd_copy d = d /\ dd_copy_self d = d /\ dd_set_value e d = d /\ dd_new_hi_lo (hi d) (lo d) = d /\
  dd_value_of_f64 x = dd_of x /\ dd_set_value_f64 e x = dd_of x /\ dval (dd_value_of_f64 x) = R_of x /\
  dd_self_div d e = dd_div d e /\ (nn x -> dd_self_div_f64 d x = dd_div_f64 d x).
Proof.
  intros [h l] e x. repeat split.
  - apply dval_of.
  - intros N. unfold dd_self_div_f64, dd_div_f64. unfold nn in N. now rewrite N.
Qed.

Example C38_copies_example : nn f2 /\ feqb (hi (dd_self_div_f64 (dd_of f1) f2)) (fdiv f1 f2) = true.
Proof. split; vm_compute; reflexivity. Qed.

(** ** C62: constructors of vectors *)
Theorem C62_constructors : forall x y z v c d,
  v2_get_x (v2_create_xy x y) = x /\ v2_get_y (v2_create_xy x y) = y /\ v2_create_v2 v = v /\
  v2_get_x (v2_create_coordinate c) = cx c /\ v2_get_y (v2_create_coordinate c) = cy c /\
  v2_create_from_to c d = v2_sub (v2_create_coordinate d) (v2_create_coordinate c) /\
  v3_get_x (v3_create_xyz x y z) = x /\ v3_get_y (v3_create_xyz x y z) = y /\ v3_get_z (v3_create_xyz x y z) = z /\
  v3_get_x (v3_create_coordinate c) = cx c /\ v3_get_y (v3_create_coordinate c) = cy c /\ v3_get_z (v3_create_coordinate c) = cz c /\
  v3_from_to c d = v3_sub (v3_create_coordinate d) (v3_create_coordinate c).
Proof. intros x y z [] c d. repeat split. Qed.

Example C62_constructors_example : feqb (v2_get_x (v2_create_from_to (ipt 1 2) (ipt 4 6))) (fofZ 3) = true /\
  feqb (v2_get_y (v2_create_from_to (ipt 1 2) (ipt 4 6))) (fofZ 4) = true.
Proof. split; vm_compute; reflexivity. Qed.

(** ** C60: the lines through two segments *)
(** [line_intersection] of segments with plain ordinates up to [B] whose lines
    are not nearly parallel: the meeting point of the lines, with the error of
    [Intersection::intersection]. *)
Theorem C60_line_intersection_error : forall B s t,
  plain_pt (p0 s) -> plain_pt (p1 s) -> plain_pt (p0 t) -> plain_pt (p1 t) -> upto B (p0 s) -> upto B (p1 s) -> upto B (p0 t) -> upto B (p1 t) ->
  let w := cross (rpt (p0 s)) (rpt (p1 s)) (rpt (p0 t)) (rpt (p1 t)) in bp (-97) * (B * B) < Rabs w ->
  exists q r, lines_meet (rpt (p0 s)) (rpt (p1 s)) (rpt (p0 t)) (rpt (p1 t)) q /\ seg_line_intersection s t = Some r /\
    rounded_within (spread B w (px q)) (cx r) (px q) /\ rounded_within (spread B w (py q)) (cy r) (py q).
Proof.
  intros B s t P1 P2 P3 P4 U1 U2 U3 U4 w H. destruct (C54_intersection_error B _ _ _ _ P1 P2 P3 P4 U1 U2 U3 U4 H) as (q & r & M & E & _ & X & Y).
  exists q, r. auto.
Qed.
Example C60_line_intersection_example : let N := (2 ^ 40 + 2)%Z in let B := IZR N in
  let s := mkS (ipt 0 0) (ipt N N) in let t := mkS (ipt 0 N) (ipt N 0) in
  plain_pt (p0 s) /\ plain_pt (p1 s) /\ plain_pt (p0 t) /\ plain_pt (p1 t) /\ upto B (p0 s) /\ upto B (p1 s) /\ upto B (p0 t) /\ upto B (p1 t) /\
  bp (-97) * (B * B) < Rabs (cross (rpt (p0 s)) (rpt (p1 s)) (rpt (p0 t)) (rpt (p1 t))).
Proof.
  cbv zeta. destruct C53_error_example as (_ & A1 & A2 & A3 & A4 & A5 & A6 & A7 & A8 & _ & A9 & _).
  cbn [p0 p1]. split; [exact A1|]. split; [exact A2|]. split; [exact A3|]. split; [exact A4|]. split; [exact A5|].
  split; [exact A6|]. split; [exact A7|]. split; [exact A8|]. exact A9.
Qed.

(** ** C12, C22, C33, C75: setters and makers of coordinates, lists and sequences *)
Inductive field := FX | FY | FZ | FM.
Definition fget (k : field) (c : Coordinate) : f64 := match k with FX => cx c | FY => cy c | FZ => cz c | FM => cm c end.
Definition fset (k : field) (c : Coordinate) (v : f64) : Coordinate := match k with FX => set_x c v | FY => set_y c v | FZ => set_z c v | FM => set_m c v end.
(** Each setter of one ordinate writes that ordinate and no other. *)
Theorem C12_setters : forall k j c v, fget k (fset k c v) = v /\ (j <> k -> fget j (fset k c v) = fget j c).
Proof. intros [] [] c v; split; try reflexivity; intros N; try reflexivity; now elim N. Qed.
Example C12_setters_example : FZ <> FM /\ feqb (fget FM (fset FM (ipt 3 4) f2)) f2 = true.
Proof. split; [discriminate|]. vm_compute; reflexivity. Qed.
(** A list made from coordinates holds them all, repeats included. *)
Theorem C22_list_made : forall cl, list_new cl = cl /\ list_new_with_repeated cl true = cl.
Proof. intros cl. unfold list_new, list_new_with_repeated. now rewrite C22_add_allowing_repeats_appends. Qed.
Example C22_list_made_example : length (list_new [ipt 1 2; ipt 1 2; ipt 3 4]) = 3%nat /\ length (list_new_with_repeated [ipt 1 2; ipt 1 2; ipt 3 4] false) = 2%nat.
Proof. split; vm_compute; reflexivity. Qed.
(** A sequence made by size alone has that many points, all at the origin with
    no Z and no M, in dimension 3 without measures. *)
Theorem C75_sized : forall n, let s := seq_new_size n in seq_size s = n /\ sdim s = 3%Z /\ smeas s = 0%Z /\
  forall i, (i < n)%nat -> exists c, seq_coord s i = Ok c /\ cx c = f0 /\ cy c = f0 /\ ~ nn (cz c) /\ ~ nn (cm c).
Proof.
  intros n s. unfold s, seq_new_size, seq_size, seq_coord. cbn [scoords sdim smeas]. split; [apply repeat_length|]. split; [reflexivity|]. split; [reflexivity|].
  intros i H. exists coord_default. unfold idx. rewrite nth_error_repeat by exact H. split; [reflexivity|]. repeat split; discriminate.
Qed.
Example C75_sized_example : seq_size (seq_new_size 4) = 4%nat /\ (2 < 4)%nat.
Proof. split; [reflexivity|lia]. Qed.
(** The packed makers from raw ordinates keep them, with the dimension given and
    the measures given or none; the empty array gives an empty sequence of
    dimension 3. *)
Theorem C33_made : forall raw d m, packed_create_dim raw d = Ok (mkPacked d 0 raw) /\ packed_create_dim_meas raw d m = Ok (mkPacked d m raw) /\
  packed_of_coords [] = Ok (mkPacked 3 0 []).
Proof. intros raw d m. unfold packed_create_dim, packed_create_dim_meas. rewrite !C33_from_raw_ordinates. repeat split. Qed.
Example C33_made_example : packed_create_dim_meas [f1; f2; f0; f1] 2 1 = Ok (mkPacked 2 1 [f1; f2; f0; f1]).
Proof. reflexivity. Qed.
