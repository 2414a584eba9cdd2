(** The unit tests of the repository (src/tests) replayed on the model.
    These are tests of the model, not proofs of properties: they show that the
    definitions compute what the code is recorded to compute.  Left out are the
    tests that need the platform's [atan2], [sin], [cos] or a random source. *)
From Coq Require Import ZArith Bool List String.
From Verif Require Import Base F64 Num DD_model DDConst_model Coordinate_model Envelope_model CoordArrays_model CoordSeq_model
  Orientation_model Measure_model PointLocation_model Distance_model Segment_model Triangle_model Angle_model Vector_model
  Intersection_model Centroid_model PrecisionModel_model Geom_model.
From Verif Require IntersectionMatrix_model.
Import ListNotations.
Open Scope Z_scope.

Definition hyp (x y : f64) : f64 := fsqrt (fadd (fmul x x) (fmul y y)).
Definition i (n : Z) : f64 := fofZ n.
Definition c (x y : Z) : Coordinate := new_xy (i x) (i y).
Definition d6 (n : Z) : f64 := flit n (10 ^ 6).
Definition is (r : res f64) (v : f64) : bool := match r with Ok x => feqb x v | Panic => false end.
Definition isb (r : res bool) (v : bool) : bool := match r with Ok x => Bool.eqb x v | Panic => false end.
Definition isz (r : res Z) (v : Z) : bool := match r with Ok x => x =? v | Panic => false end.
Definition near (a b t : f64) : bool := fgeb a (fsub b t) && fleb a (fadd b t).
Definition all (l : list bool) : bool := forallb (fun b => b) l.
Definition okb {A} (r : res A) (f : A -> bool) : bool := match r with Ok a => f a | Panic => false end.
Definition somb {A} (r : option A) (f : A -> bool) : bool := match r with Some a => f a | None => false end.

(** area_tests.rs. *)
Definition sq_cw := [c 100 200; c 200 200; c 200 100; c 100 100; c 100 200].
Definition sq_ccw := [c 100 200; c 100 100; c 200 100; c 200 200; c 100 200].
Example test_area :
  all [is (area_vec sq_cw) (i 10000); is (area_seq (seq_of sq_cw)) (i 10000);
       is (signed_area_vec sq_cw) (i 10000); is (signed_area_seq (seq_of sq_cw)) (i 10000);
       is (signed_area_vec sq_ccw) (i (-10000)); is (signed_area_seq (seq_of sq_ccw)) (i (-10000))] = true.
Proof. vm_compute. reflexivity. Qed.

(** cg_algorithms_dd_tests.rs. *)
Example test_sign_of_det2x2 :
  all [sign_of_det_f64 (i 1) (i 1) (i 2) (i 2) =? 0; sign_of_det_f64 (i 1) (i 1) (i 2) (i 3) =? 1;
       sign_of_det_f64 (i 1) (i 1) (i 3) (i 2) =? -1] = true.
Proof. vm_compute. reflexivity. Qed.

(** length_tests.rs. *)
Example test_length : is (length_of_line hyp (seq_of sq_cw)) (i 400) = true.
Proof. vm_compute. reflexivity. Qed.

(** distance_tests.rs. *)
Example test_distance_point_line_perpendicular :
  let h := d6 500000 in
  all [near h (line_perpendicular hyp (new_xy h h) (c 0 0) (c 1 0)) (d6 1);
       near h (line_perpendicular hyp (new_xy (d6 3500000) h) (c 0 0) (c 1 0)) (d6 1);
       near (d6 707106) (line_perpendicular hyp (c 1 0) (c 0 0) (c 1 1)) (d6 1)] = true.
Proof. vm_compute. reflexivity. Qed.
Example test_distance_point_line :
  let h := d6 500000 in
  all [near h (point_to_segment hyp (new_xy h h) (c 0 0) (c 1 0)) (d6 1);
       near f1 (point_to_segment hyp (c 2 0) (c 0 0) (c 1 0)) (d6 1)] = true.
Proof. vm_compute. reflexivity. Qed.
Example test_distance_line_line_disjoint_collinear :
  near (d6 1999699) (segment_to_segment hyp (c 0 0) (new_xy (d6 9900000) (d6 1400000))
    (new_xy (d6 11880000) (d6 1680000)) (new_xy (d6 21780000) (d6 3080000))) (d6 1) = true.
Proof. vm_compute. reflexivity. Qed.

(** point_location_tests.rs. *)
Definition on_line (p : Coordinate) (l : list Coordinate) (e : bool) : bool :=
  isb (is_on_line_vec p l) e && isb (is_on_line_seq p (seq_of l)) e.
Definition c4 (x y z m : Z) : Coordinate := new_xyzm (i x) (i y) (i z) (i m).
Example test_on_line :
  all [on_line (c 20 20) [c 0 0; c 20 20; c 30 30] true;
       on_line (c 10 10) [c 0 0; c 20 20; c 0 40] true;
       on_line (c 10 30) [c 0 0; c 20 20; c 0 40] true;
       on_line (c 0 100) [c 10 10; c 20 10; c 30 10] false;
       on_line (c 20 20) [c4 0 0 0 0; c4 20 20 20 20; c4 30 30 30 30] true;
       on_line (c 10 10) [c4 0 0 0 0; c4 20 20 20 20; c4 0 40 40 40] true;
       on_line (c 10 30) [c4 0 0 0 0; c4 20 20 20 20; c4 0 40 40 40] true;
       on_line (c 0 100) [c4 10 10 10 10; c4 20 10 10 10; c4 30 10 10 10] false] = true.
Proof. vm_compute. reflexivity. Qed.
Example test_on_segment :
  all [is_on_segment (c 5 5) (c 0 0) (c 9 9); is_on_segment (c 0 0) (c 0 0) (c 9 9); is_on_segment (c 9 9) (c 0 0) (c 9 9);
       negb (is_on_segment (c 5 6) (c 0 0) (c 9 9)); negb (is_on_segment (c 10 10) (c 0 0) (c 9 9));
       negb (is_on_segment (new_xy (i 9) (d6 9000010)) (c 0 0) (c 9 9));
       is_on_segment (c 1 1) (c 1 1) (c 1 1); negb (is_on_segment (c 1 2) (c 1 1) (c 1 1))] = true.
Proof. vm_compute. reflexivity. Qed.

(** ray_crossing_counter_tests.rs. *)
Example test_run_pt_in_ring4d_packed :
  okb (packed_create_dim_meas (map i [0; 0; 0; 0; 10; 0; 0; 0; 5; 10; 0; 0; 0; 0; 0; 0]) 4 1)
    (fun cs => isz (locate_packed (c 5 2) cs) INTERIOR) = true.
Proof. vm_compute. reflexivity. Qed.

(** intersection_tests.rs (the functions from 60 on are not marked as tests). *)
Definition meets (a b : f64) (o : option Coordinate) : bool := somb o (fun p => fleb (distance hyp p (new_xy a b)) (d6 10)).
Definition p14 (a b : Z) : Coordinate := new_xy (flit a (10 ^ 9)) (flit b (10 ^ 9)).
Definition big1 := p14 35613471616501700 4257145306132293.
Definition big2 := p14 35613477770537800 4257160528222711.
Definition big3 := p14 35613477775057240 4257160539653536.
Definition big4 := p14 35613479856073890 4257165923691700.
Example test_intersection :
  all [meets (i 5) (i 5) (intersection_fp (c 0 0) (c 10 10) (c 0 10) (c 10 0));
       match intersection_fp (c 0 0) (c 10 10) (c 20 20) (c 30 30) with None => true | _ => false end;
       match intersection_fp (c 0 0) (c 10 10) (c 10 0) (c 20 10) with None => true | _ => false end;
       meets (flit 35613477772841461 (10 ^ 9)) (flit 42571605339209242 (10 ^ 10)) (intersection_fp big1 big2 big3 big4);
       meets (flit 7772841461 (10 ^ 9)) (flit 605339209242 (10 ^ 10))
         (intersection_fp (p14 1616501700 45306132293) (p14 7770537800 60528222711)
                          (p14 7775057240 60539653536) (p14 9856073890 65923691700));
       meets (i 0) (i 9) (line_segment hyp (c 0 0) (c 0 1) (c (-1) 9) (c 1 9));
       meets (i 0) (i 3) (line_segment hyp (c 0 0) (c 0 1) (c (-1) 2) (c 1 4))] = true.
Proof. vm_compute. reflexivity. Qed.

(** line_segment_tests.rs. *)
Definition sg (a b u v : Z) : LineSegment := seg_new_xy (i a) (i b) (i u) (i v).
Example test_projection_factor :
  fis_nan (seg_projection_factor hyp (sg 10 0 10 0) (c 11 0)) &&
  feqb (seg_projection_factor hyp (sg 10 0 20 0) (c 11 0)) (d6 100000) = true.
Proof. vm_compute. reflexivity. Qed.
Example test_line_intersection :
  meets (i 5) (i 5) (intersection_fp (c 0 0) (c 10 10) (c 0 10) (c 10 0)) &&
  meets (flit 35613477772841461 (10 ^ 9)) (flit 42571605339209242 (10 ^ 10)) (intersection_fp big1 big2 big3 big4) = true.
Proof. vm_compute. reflexivity. Qed.
Example test_distance_perpendicular :
  let t a b u v x y e := feqb (seg_distance_perpendicular hyp (sg a b u v) (c x y)) (i e) in
  let o a b u v x y e := feqb (seg_distance_perpendicular_oriented hyp (sg a b u v) (c x y)) (i e) in
  all [t 1 1 1 3 2 4 1; t 1 1 1 3 0 4 1; t 1 1 1 3 1 4 0; t 1 1 2 2 4 4 0; t 1 1 1 1 1 2 1;
       o 1 1 1 3 2 4 (-1); o 1 1 1 3 0 4 1; o 1 1 1 3 1 4 0; o 1 1 2 2 4 4 0; o 1 1 1 1 1 2 1] = true.
Proof. vm_compute. reflexivity. Qed.
Definition close (p q : Coordinate) : bool :=
  negb (fgtb (fabs (fsub (cx p) (cx q))) (d6 1)) && negb (fgtb (fabs (fsub (cy p) (cy q))) (d6 1)).
Example test_offset_point :
  let r2 := fsqrt f2 in
  let t f d x y := close (c x y) (seg_point_along_offset hyp (sg 0 0 10 10) f d) in
  all [t f0 r2 (-1) 1; t f0 (fneg r2) 1 (-1); t f1 r2 9 11; t (d6 500000) r2 4 6; t (d6 500000) (fneg r2) 6 4;
       t f2 r2 19 21; t f2 (fneg r2) 21 19; t f2 (fmul (i 5) r2) 15 25; t (i (-2)) (fmul (i 5) r2) (-25) (-15)] = true.
Proof. vm_compute. reflexivity. Qed.
Example test_offset_line :
  let r2 := fsqrt f2 in
  let t d a b u v := let s := seg_offset hyp (sg 0 0 10 10) d in close (c a b) (p0 s) && close (c u v) (p1 s) in
  all [t f0 0 0 10 10; t r2 (-1) 1 9 11; t (fneg r2) 1 (-1) 11 9] = true.
Proof. vm_compute. reflexivity. Qed.
Example test_reflect :
  close (c 2 1) (seg_reflect hyp (sg 0 0 10 10) (c 1 2)) && close (c 1 0) (seg_reflect hyp (sg 0 1 10 1) (c 1 2)) = true.
Proof. vm_compute. reflexivity. Qed.
Example test_orientation_index :
  let s := sg 0 0 10 10 in
  let t x y := orientation_coordinate s (new_xy x y) in
  let q a b u v := orientation_segment (sg 100 100 110 110) (sg a b u v) in
  all [t (i 10) (i 11) =? 1; t (i 10) (i 9) =? -1; t (i 11) (i 11) =? 0;
       t (i 11) (flit 110000001 (10 ^ 7)) =? 1; t (i 11) (flit 109999999 (10 ^ 7)) =? -1;
       t (i (-2)) (flit (-19999999) (10 ^ 7)) =? 1; t (i (-2)) (flit (-20000001) (10 ^ 7)) =? -1;
       q 100 101 105 106 =? 1; q 100 99 105 96 =? -1; q 200 200 210 210 =? 0; q 105 105 110 100 =? -1] = true.
Proof. vm_compute. reflexivity. Qed.

(** angle_tests.rs ([is_acute], [normalize_positive], [normalize]). *)
Definition pis (k : Z) : f64 := fmul (fdiv (i k) f2) PIf.
Example test_is_acute :
  all [is_acute (c 10 0) (c 0 0) (c 5 10); is_acute (c 10 0) (c 0 0) (c 5 (-10)); is_acute (c 10 0) (c 0 0) (c 10 0);
       negb (is_acute (c 10 0) (c 0 0) (c (-5) 10)); negb (is_acute (c 10 0) (c 0 0) (c (-5) (-10)))] = true.
Proof. vm_compute. reflexivity. Qed.
Example test_normalize_positive :
  let t a b := somb (normalize_positive 10 (pis a)) (fun x => feqb x (pis b)) in
  all [t 0 0; t (-1) 3; t (-2) 2; t (-3) 1; t (-4) 0; t (-5) 3; t (-6) 2; t (-8) 0;
       t 1 1; t 2 2; t 3 3; t 4 0; t 5 1; t 6 2; t 8 0] = true.
Proof. vm_compute. reflexivity. Qed.
Example test_normalize :
  let t a b := somb (normalize 10 (pis a)) (fun x => feqb x (pis b)) in
  all [t 0 0; t (-1) (-1); t (-2) 2; t (-3) 1; t (-4) 0; t (-5) (-1); t (-6) 2; t (-8) 0;
       t 1 1; t 2 2; t 3 (-1); t 4 0; t 5 1; t 6 2; t 8 0] = true.
Proof. vm_compute. reflexivity. Qed.

(** centroid_tests.rs. *)
Definition w (a b : Z) : Coordinate := new_xy (flit a (10 ^ 15)) (flit b (10 ^ 15)).
Definition mp_polys : res (list GPoly) :=
  a <- create_polygon [w (-92661322000000000) 36589949000000030; w (-92661321999999930) 36589949000000050;
                       w (-92661321999999930) 36589949000000004; w (-92661322000000000) 36589949000000000;
                       w (-92661322000000000) 36589949000000000] ;;
  b <- create_polygon [w (-92655605000000080) 36587088000000050; w (-92655604999999920) 36587088000000050;
                       w (-92655604999987450) 36587087999992576; w (-92655605000000000) 36587088000000000;
                       w (-92655605000000080) 36587088000000000] ;;
  d <- create_polygon [w (-92655124500000650) 36586800000000466; w (-92655124499999940) 36586800000000040;
                       w (-92655124499986660) 36586799999990500; w (-92655124500000650) 36586800000000460] ;;
  Ok [a; b; d].
Definition weighted : res (option (f64 * f64)) :=
  ps <- mp_polys ;;
  total <- mg_area (mg_new ps None) ;;
  fold_left (fun r p => acc <- r ;; ar <- pg_area p ;; g <- pg_centroid hyp i32_chk p ;; o <- pt_coordinate g ;;
     Ok (match acc, o with
         | Some (x, y), Some q => Some (fadd x (fmul (fdiv ar total) (cx q)), fadd y (fmul (fdiv ar total) (cy q)))
         | _, _ => None end)) ps (Ok (Some (f0, f0))).
Example test_centroid_multi_polygon :
  okb weighted (fun o => somb o (fun '(x, y) =>
    okb (ps <- mp_polys ;; g <- mg_centroid hyp i32_chk (mg_new ps None) ;; pt_coordinate g)
      (fun o' => somb o' (fun q => equals_2d_with_tolerance (new_xy x y) q (flit 1 (10 ^ 10)))))) = true.
Proof. vm_compute. reflexivity. Qed.

(** envelope_tests.rs. *)
Definition e4 (a b u v : Z) : Envelope := env_new_xy (i a) (i b) (i u) (i v).
Definition ee (a b : Envelope) : bool :=
  all [feqb (minx a) (minx b); feqb (maxx a) (maxx b); feqb (miny a) (miny b); feqb (maxy a) (maxy b);
       feqb (get_width a) (get_width b); feqb (get_height a) (get_height b);
       feqb (env_get_area a) (env_get_area b); feqb (get_diameter hyp a) (get_diameter hyp b)].
Example test_everything :
  let e0 := env_default in
  let e1 := expand_to_include_xy (expand_to_include_xy (expand_to_include_xy e0 (i 100) (i 101)) (i 200) (i 202)) (i 150) (i 151) in
  let e2 := e4 499 500 500 501 in
  let e1' := expand_to_include_envelope e1 e2 in
  all [is_null e0; feqb (get_width e0) f0; feqb (get_height e0) f0;
       feqb (maxx e1) (i 200); feqb (maxy e1) (i 202); feqb (minx e1) (i 100); feqb (miny e1) (i 101);
       covers_xy e1 (i 120) (i 120); covers_xy e1 (i 120) (i 101); negb (covers_xy e1 (i 120) (i 100));
       feqb (get_height e1) (i 101); feqb (get_width e1) (i 100); negb (is_null e1);
       negb (covers_envelope e1 e2); negb (intersects_envelope e1 e2);
       covers_envelope e1' e2; intersects_envelope e1' e2;
       feqb (maxx e1') (i 500); feqb (maxy e1') (i 501); feqb (minx e1') (i 100); feqb (miny e1') (i 101);
       negb (covers_envelope e1' (e4 300 700 300 700)); intersects_envelope e1' (e4 300 700 300 700);
       covers_envelope e1' (e4 300 301 300 301); intersects_envelope e1' (e4 300 301 300 301)] = true.
Proof. vm_compute. reflexivity. Qed.
Example test_envelope_intersects :
  let t a1x a1y a2x a2y b1x b1y b2x b2y e :=
    let a := e4 a1x a2x a1y a2y in let b := e4 b1x b2x b1y b2y in
    all [Bool.eqb e (intersects_envelope a b); Bool.eqb e (negb (disjoint_envelope a b));
         Bool.eqb e (intersects_4 (c a1x a1y) (c a2x a2y) (c b1x b1y) (c b2x b2y));
         Bool.eqb e (intersects_coordinate_ab a (c b1x b1y) (c b2x b2y))] in
  let p a1x a1y a2x a2y b1x b1y b2x b2y e :=
    all [t a1x a1y a2x a2y b1x b1y b2x b2y e; t a1x a2y a2x a1y b1x b1y b2x b2y e;
         t a1x a1y a2x a2y b1x b2y b2x b1y e; t a1x a2y a2x a1y b1x b2y b2x b1y e] in
  p 1 1 2 2 2 2 3 3 true && p 1 1 2 2 3 3 4 4 false = true.
Proof. vm_compute. reflexivity. Qed.
Example test_envelope_empty :
  let n := env_default in let a := e4 (-5) 5 (-5) 5 in let b := e4 100 101 100 101 in
  all [negb (intersects_envelope a n); negb (intersects_envelope n a); negb (intersects_envelope n b); negb (intersects_envelope b n);
       disjoint_envelope a n; disjoint_envelope n a; disjoint_envelope n b; disjoint_envelope b n;
       negb (covers_envelope a n); negb (covers_envelope n a); negb (covers_envelope n b); negb (covers_envelope b n);
       ee a (expand_to_include_envelope a n); ee a (expand_to_include_envelope n a);
       ee b (expand_to_include_envelope n b); ee b (expand_to_include_envelope b n);
       feqb f0 (get_height n); feqb f0 (get_width n); ee n n; feqb f0 (get_diameter hyp n);
       is_null n; negb (is_null (expand_to_include_xy n (i 5) (i 5)))] = true.
Proof. vm_compute. reflexivity. Qed.
Example test_envelope_equals :
  all [ee (e4 1 2 3 4) (e4 1 2 3 4); negb (env_equals (e4 1 2 3 4) (e4 1 2 3 5)); negb (env_equals env_default (e4 1 2 3 4));
       env_equals env_default env_default; env_equals (e4 1 2 1 2) (e4 1 2 1 2);
       negb (env_equals (env_new_xy (i 1) (i 2) (d6 1500000) (i 2)) (e4 1 2 1 2));
       ee (env_new_envelope (e4 1 2 3 4)) (e4 1 2 3 4); is_null (env_new_envelope env_default);
       feqb (get_width (e4 0 4 0 3)) (i 4); feqb (get_height (e4 0 4 0 3)) (i 3); feqb (get_diameter hyp (e4 0 4 0 3)) (i 5)] = true.
Proof. vm_compute. reflexivity. Qed.
Example test_envelope_compare_to :
  let t e a b := (compare_to_envelope a b =? e) && (compare_to_envelope b a =? - e) in
  all [t 0 env_default env_default; t 0 (e4 1 2 1 2) (e4 1 2 1 2); t 1 (e4 2 3 1 2) (e4 1 2 1 2); t (-1) (e4 1 2 1 2) (e4 2 3 1 2);
       t 1 (e4 1 2 1 3) (e4 1 2 1 2); t 1 (e4 2 3 1 3) (e4 1 3 1 2)] = true.
Proof. vm_compute. reflexivity. Qed.

(** triangle_cercumcentre_tests.rs. *)
Example test_square_diagonal_dd :
  let x1 := flit 19360080333333334 (10 ^ 11) in let x2 := flit 19360110666666666 (10 ^ 11) in
  let y1 := flit 469345355 (10 ^ 3) in let y2 := flit 4693450175 (10 ^ 4) in
  equals_2d (tri_circumcentre_dd (new_xy x1 y1) (new_xy x1 y2) (new_xy x2 y2))
            (tri_circumcentre_dd (new_xy x1 y1) (new_xy x2 y2) (new_xy x2 y1)) = true.
Proof. vm_compute. reflexivity. Qed.

(** triangle_tests.rs. *)
Definition c3 (x y z : Z) : Coordinate := new_xyz (i x) (i y) (i z).
Example test_interpolate_z :
  let t x y z := near (i z) (tri_interpolate_z hyp (new_xy x y) (c3 1 1 0) (c3 2 1 0) (c3 1 2 10)) (d6 1) in
  all [t (d6 1500000) (d6 1500000) 5; t (d6 1200000) (d6 1200000) 2; t f0 f0 (-10)] = true.
Proof. vm_compute. reflexivity. Qed.
Example test_area_3d :
  let e := flit 7071067811865475 (10 ^ 12) in
  near e (tri_area_3d hyp (c3 0 0 10) (c3 100 0 110) (c3 100 100 110)) (d6 10) &&
  near e (tri_area_3d hyp (c3 0 0 10) (c3 100 0 10) (c3 50 100 110)) (d6 10) = true.
Proof. vm_compute. reflexivity. Qed.
Example test_triangle_area :
  let t a b d e := near (i e) (tri_signed_area hyp a b d) (d6 10) && near (fabs (i e)) (tri_area hyp a b d) (d6 10) in
  all [t (c 10 10) (c 20 20) (c 20 10) 50; t (c 10 10) (c 20 10) (c 20 20) (-50);
       t (c 10 10) (c 10 10) (c 10 10) 0; t (c 10 10) (c 20 10) (c 15 10) 0] = true.
Proof. vm_compute. reflexivity. Qed.
Example test_triangle_acute :
  all [negb (tri_is_acute (c 10 10) (c 20 20) (c 20 10)); negb (tri_is_acute (c 10 10) (c 20 10) (c 20 20));
       tri_is_acute (c 10 10) (c 20 10) (c 15 20)] = true.
Proof. vm_compute. reflexivity. Qed.
Example test_circum_centre :
  all [equals_2d (tri_circumcentre hyp (c 10 10) (c 20 20) (c 20 10)) (c 15 15);
       equals_2d (tri_circumcentre hyp (c 10 10) (c 20 10) (c 20 20)) (c 15 15);
       equals_2d (tri_circumcentre hyp (c 10 10) (c 20 10) (c 15 20)) (new_xy (i 15) (d6 13750000))] = true.
Proof. vm_compute. reflexivity. Qed.
Example test_circumradius :
  let t a b d := let q := tri_circumcentre hyp a b d in let r := tri_circumradius hyp a b d in
    all [near (distance hyp a q) r (d6 10); near (distance hyp b q) r (d6 10); near (distance hyp d q) r (d6 10)] in
  all [t (c 10 10) (c 20 20) (c 20 10); t (c 10 10) (c 20 10) (c 20 20); t (c 10 10) (c 20 10) (c 15 20)] = true.
Proof. vm_compute. reflexivity. Qed.
Example test_triangle_centroid :
  let t a b d x y := equals_2d (tri_centroid hyp a b d) (new_xy (fdiv (i x) (i 3)) (fdiv (i y) (i 3))) in
  all [t (c 10 10) (c 20 20) (c 20 10) 50 40; t (c 10 10) (c 20 10) (c 20 20) 50 40; t (c 10 10) (c 20 10) (c 15 20) 45 40] = true.
Proof. vm_compute. reflexivity. Qed.
Example test_longest_side_length :
  let t a b d e := near (flit e (10 ^ 15)) (tri_longest_side hyp a b d) (flit 1 (10 ^ 8)) in
  all [t (c3 10 10 1) (c3 20 20 2) (c3 20 10 3) 14142135623730951; t (c3 10 10 1) (c3 20 10 2) (c3 20 20 3) 14142135623730951;
       t (c3 10 10 1) (c3 20 10 2) (c3 15 20 3) 11180339887498949] = true.
Proof. vm_compute. reflexivity. Qed.
Example test_triangle_is_ccw :
  negb (tri_is_ccw (c 30 90) (c 80 50) (c 20 20)) && tri_is_ccw (c 90 90) (c 20 40) (c 10 10) = true.
Proof. vm_compute. reflexivity. Qed.
Example test_triangle_intersects :
  all [negb (tri_intersects (c 30 90) (c 80 50) (c 20 20) (c 70 20)); tri_intersects (c 30 90) (c 80 50) (c 20 20) (c 30 90);
       tri_intersects (c 30 90) (c 80 50) (c 20 20) (c 40 40);
       tri_intersects (c 30 90) (c 70 50) (new_xy (d6 71500000) (d6 16500000)) (c 50 70)] = true.
Proof. vm_compute. reflexivity. Qed.

(** dd_basic_tests.rs. *)
Definition D (n : Z) : DD := dd_of (i n).
Definition within (x y : DD) (b : f64) : bool := fleb (dd_double (dd_abs (dd_sub x y))) b.
Definition e30 := flit 1 (10 ^ 30).
Definition d394 := dd_of (flit 394 10).
Example test_dd_nan : dd_is_nan (dd_div (D 1) (D 0)) && dd_is_nan (dd_div (D 1) dd_nan) = true.
Proof. vm_compute. reflexivity. Qed.
Example test_add_mult2 :
  within (dd_add (D 3) (D 3)) (dd_mul (D 3) (D 2)) f0 && within (dd_add dd_pi dd_pi) (dd_mul dd_pi (D 2)) f0 = true.
Proof. vm_compute. reflexivity. Qed.
Example test_multiply_divide :
  let t a b := within a (dd_div (dd_mul a b) b) e30 in
  all [t dd_pi dd_e; t dd_pi_2 dd_e; t d394 (D 10)] = true.
Proof. vm_compute. reflexivity. Qed.
Example test_divide_multiply :
  let t a b := within a (dd_mul (dd_div a b) b) e30 in
  all [t dd_pi dd_e; t d394 (D 10)] = true.
Proof. vm_compute. reflexivity. Qed.
Example test_dd_sqrt :
  let t x b := let s := dd_sqrt x in within x (dd_mul s s) b in
  all [t dd_pi e30; t dd_e e30; t (D 999) (flit 1 (10 ^ 28))] = true.
Proof. vm_compute. reflexivity. Qed.
Example test_trunc :
  let m := dd_sub (D (10 ^ 16)) (D 1) in
  all [dd_equals (dd_trunc m) m; dd_equals (dd_trunc dd_pi) (D 3); dd_equals (dd_trunc (dd_of (flit 999999 1000))) (D 999);
       dd_equals (dd_trunc (dd_neg dd_e)) (D (-2)); dd_equals (dd_trunc (dd_of (flit (-999999) 1000))) (D (-999))] = true.
Proof. vm_compute. reflexivity. Qed.
Definition slow_pow (x : DD) (n : Z) : DD :=
  let p := fold_left (fun p _ => dd_mul p x) (seq 1 (Z.to_nat (Z.abs n) - 1)) x in
  if n <? 0 then dd_recip p else p.
Example test_pow :
  let t x n b := okb (dd_pow x n) (fun o => somb o (fun p => fleb (dd_double (dd_sub p (slow_pow x n))) (fmul b dd_eps))) in
  all [t (D 0) 3 (i 16); t (D 14) 3 (i 16); t (D 3) (-5) (i 16); t (D (-3)) 5 (i 16); t (D (-3)) (-5) (i 16);
       t (dd_of (flit 12345 (10 ^ 5))) (-5) (i 100000)] = true.
Proof. vm_compute. reflexivity. Qed.
Example test_reciprocal :
  let t x b := fleb (dd_double (dd_sub (D x) (dd_recip (dd_recip (D x))))) b in
  all [t 3 f0; t 99 (flit 1 (10 ^ 29)); t 999 f0; t 314159269 f0] = true.
Proof. vm_compute. reflexivity. Qed.
Example test_determinant :
  let t a b u v e := within (dd_det_f64 (i a) (i b) (i u) (i v)) (D e) f0 && within (dd_det (D a) (D b) (D u) (D v)) (D e) f0 in
  t 3 8 4 6 (-14) && t (10 ^ 9) (10 ^ 9 - 1) (10 ^ 9 - 1) (10 ^ 9 - 2) (-1) = true.
Proof. vm_compute. reflexivity. Qed.
Example test_binom :
  let t a b :=
    let s := dd_add (D a) (D b) in let q := dd_mul s s in
    let sum := dd_add (dd_add (dd_mul (D b) (D b)) (dd_mul (D a) (D b))) (dd_mul (D a) (D b)) in
    let diff := dd_sub q (dd_mul (D a) (D a)) in
    dd_equals diff sum && dd_is_zero (dd_sub diff sum) in
  all [t 100 1; t 1000 1; t 10000 1; t 100000 1; t 1000000 1; t (10 ^ 8) 1; t (10 ^ 10) 1; t (10 ^ 14) 1;
       t (10 ^ 14) 291; t (5 * 10 ^ 14) 291; t (5 * 10 ^ 14) 345291] = true.
Proof. vm_compute. reflexivity. Qed.

(** dd_compute_tests.rs. *)
Fixpoint taylor (fuel : nat) (s t : DD) (n : f64) : option DD :=
  if fgtb (dd_double t) dd_eps then
    match fuel with
    | O => None
    | S k => let n := fadd n f1 in let t := dd_div t (dd_of n) in taylor k (dd_add s t) t n
    end
  else Some s.
Example test_e_by_taylor_series :
  somb (taylor 100 (D 2) (D 1) f1) (fun e => fltb (fabs (dd_double (dd_sub e dd_e))) (fmul (i 64) dd_eps)) = true.
Proof. vm_compute. reflexivity. Qed.
Fixpoint arctan_loop (fuel : nat) (t t2 at_ d : DD) (pos : bool) : option DD :=
  if fgtb (dd_double t) dd_eps then
    match fuel with
    | O => None
    | S k => arctan_loop k (dd_mul t t2) t2 (if pos then dd_add at_ (dd_div t d) else dd_sub at_ (dd_div t d))
               (dd_add d (D 2)) (negb pos)
    end
  else Some at_.
Definition arctan (x : DD) : option DD := arctan_loop 100 x (dd_sqr x) (D 0) (D 1) true.
Example test_pi_by_machin :
  somb (arctan (dd_div (D 1) (D 5))) (fun a => somb (arctan (dd_div (D 1) (D 239))) (fun b =>
    fltb (fabs (dd_double (dd_sub (dd_mul (D 4) (dd_sub (dd_mul (D 4) a) b)) dd_pi))) (fmul (i 8) dd_eps))) = true.
Proof. vm_compute. reflexivity. Qed.

(** vector_2d_tests.rs and vector_3d_tests.rs. *)
Definition v2 (x y : Z) : V2 := mkV2 (i x) (i y).
Definition v3 (x y z : Z) : V3 := mkV3 (i x) (i y) (i z).
Example test_vector_2d :
  all [near (v2_length hyp (v2 0 1)) f1 (d6 10); near (v2_length hyp (v2 0 (-1))) f1 (d6 10);
       near (v2_length hyp (v2 1 1)) (fsqrt f2) (d6 10); near (v2_length hyp (v2 3 4)) (i 5) (d6 10);
       v2_is_parallel (v2 0 1) (v2 0 2); v2_is_parallel (v2 1 1) (v2 2 2); v2_is_parallel (v2 (-1) (-1)) (v2 2 2);
       negb (v2_is_parallel (v2 1 (-1)) (v2 2 2)); v2_equals (v2_of_coordinate (v2_to_coordinate (v2 1 2))) (v2 1 2)] = true.
Proof. vm_compute. reflexivity. Qed.
Example test_vector_3d :
  let k := flit 5773502691896258 (10 ^ 16) in
  all [near f1 (v3_length (v3 0 1 0)) (d6 10); near f1 (v3_length (v3 0 (-1) 0)) (d6 10);
       near (fsqrt f2) (v3_length (v3 1 1 0)) (d6 10); near (i 5) (v3_length (v3 3 4 0)) (d6 10);
       near (fsqrt (i 3)) (v3_length (v3 1 1 1)) (d6 10); near (fsqrt (i 14)) (v3_length (v3 1 2 3)) (d6 10);
       v3_equals (v3 5 7 9) (v3_add (v3 1 2 3) (v3 4 5 6)); v3_equals (v3 (-3) 0 3) (v3_sub (v3 1 5 9) (v3 4 5 6));
       v3_equals (v3 1 2 3) (v3_div (v3 2 4 6) f2); feqb (i 20) (v3_dot (v3 2 3 4) (v3 1 2 3));
       feqb (i 8) (v3_dot_4 (c3 2 3 4) (c3 3 4 5) (c3 0 1 (-1)) (c3 1 5 2)); feqb (i 8) (v3_dot (v3 1 1 1) (v3 1 4 3));
       v3_equals (mkV3 (fneg k) k k) (v3_normalize (v3 (-1) 1 1)); v3_equals (mkV3 k k k) (v3_normalize (v3 2 2 2));
       v3_equals (mkV3 (flit 2672612419124244 (10 ^ 16)) (flit 5345224838248488 (10 ^ 16)) (flit 8017837257372732 (10 ^ 16)))
         (v3_normalize (v3 1 2 3))] = true.
Proof. vm_compute. reflexivity. Qed.

(** coordinate_tests.rs. *)
Definition ca := new_xyz (flit 3502 10) (flit 45668 10) (flit 52663 10).
Definition same3 (a b : Coordinate) : bool := feqb (cx a) (cx b) && feqb (cy a) (cy b) && feqb (cz a) (cz b).
Example test_coordinate :
  let o := set_ordinate (set_ordinate (set_ordinate coord_default 0 (i 111)) 1 (i 222)) 2 (i 333) in
  all [fis_nan (cz (new_xy f1 f1)); feqb (cx coord_default) f0; feqb (cy coord_default) f0; fis_nan (cz coord_default);
       same3 (from_coordinate ca) ca; same3 (set_coordinate coord_default ca) ca;
       somb (get_ordinate ca 0) (feqb (flit 3502 10)); somb (get_ordinate ca 1) (feqb (flit 45668 10));
       somb (get_ordinate ca 2) (feqb (flit 52663 10));
       somb (get_ordinate o 0) (feqb (i 111)); somb (get_ordinate o 1) (feqb (i 222)); somb (get_ordinate o 2) (feqb (i 333));
       equals_2d (c3 1 2 3) (c3 1 2 3); negb (equals_2d (c3 1 2 3) (c3 1 22 3));
       equals_3d (c3 1 2 3) (c3 1 2 3); negb (equals_3d (c3 1 2 3) (c3 1 22 3));
       equals_2d_with_tolerance (c3 100 200 50) (new_xyz (flit 1001 10) (flit 2001 10) (i 50)) (flit 2 10);
       equal_in_z (c3 100 200 50) (new_xyz (flit 1001 10) (flit 2001 10) (flit 501 10)) (flit 2 10);
       compare_to (c3 10 100 50) (c3 20 100 50) =? -1; compare_to (c3 20 100 50) (c3 10 100 50) =? 1;
       compare_to (c3 20 100 50) (c3 20 200 50) =? -1; compare_to (c3 20 100 50) (c3 20 100 50) =? 0;
       feqb (distance hyp (c3 0 0 0) (c3 100 200 50)) (flit 22360679774997897 (10 ^ 14));
       feqb (distance_3d (c3 0 0 0) (c3 100 200 50)) (flit 229128784747792 (10 ^ 12));
       feqb (cm (set_m new_xym_default f1)) f1; feqb (cz (set_z new_xyzm_default f1)) f1; feqb (cm (set_m new_xyzm_default f1)) f1;
       fis_nan (cm (from_coordinate (c3 1 1 1)))] = true.
Proof. vm_compute. reflexivity. Qed.

(** coordinate_list_tests.rs and coordinate_arrays_tests.rs (without the circles). *)
Definition same_list (a b : list Coordinate) : bool := arr_equals a b.
Definition same_res (r : res (list Coordinate)) (b : list Coordinate) : bool := okb r (fun a => arr_equals a b).
Definition clist (l : list Coordinate) : list Coordinate := fold_left (fun v p => add_coordinate_repeated v p false) l [].
Example test_coordinate_list :
  all [same_res (to_coordinate_array_forward (clist [c 0 0; c 1 1; c 2 2]) true) [c 0 0; c 1 1; c 2 2];
       same_res (to_coordinate_array_forward (clist [c 0 0; c 1 1; c 2 2]) false) [c 2 2; c 1 1; c 0 0];
       same_res (to_coordinate_array_forward (clist []) false) []] = true.
Proof. vm_compute. reflexivity. Qed.
Example test_coordinate_arrays :
  let l := [c 1 1; c 2 2; c 3 3] in
  let m := enforce_consistency [c3 1 1 0; new_xym (i 2) (i 2) (i 1)] in
  let f := enforce_consistency_dim_measures (enforce_consistency [c 1 1; c 2 2]) 2 0 in
  let g := enforce_consistency_dim_measures m 3 0 in
  all [somb (pt_not_in_list l [c 1 1; c 1 2; c 1 3]) (fun p => equals_2d p (c 2 2));
       match pt_not_in_list l l with None => true | _ => false end;
       ee (envelope_of l) (e4 1 3 1 3); ee (envelope_of []) env_default;
       same_list (arr_intersection l (e4 1 2 1 2)) [c 1 1; c 2 2]; same_list (arr_intersection l (e4 10 20 10 20)) [];
       same_list (arr_intersection [] (e4 1 2 1 2)) []; same_list (arr_intersection l env_default) [];
       arr_dimension m =? 4; arr_measures m =? 1; same_list f [c 1 1; c 2 2];
       forallb (fun p => fis_nan (cz p) && fis_nan (cm p)) f;
       forallb (fun p => fis_nan (cm p)) g] = true.
Proof. vm_compute. reflexivity. Qed.
Definition circle := [c 19 10; c 18 14; c 14 18; c 10 19; c 6 18; c 2 14; c 1 10; c 2 6; c 6 2; c 10 1; c 14 2; c 18 6; c 19 10].
Example test_scroll_arrays :
  okb (scroll_index circle 5) (fun s =>
    all [forallb (fun k => match nth_error circle (Nat.modulo (5 + k) 12), nth_error s k with
                           | Some a, Some b => equals_2d a b | _, _ => false end) (seq 0 12);
         match nth_error s 0, nth_error s 12 with Some a, Some b => equals_2d a b | _, _ => false end]) = true.
Proof. vm_compute. reflexivity. Qed.

(** coordinate_array_sequences_tests.rs and packed_coordinate_sequences_tests.rs;
    the circles are replaced by the ring [circle], their points being given by
    the platform's [sin] and [cos]. *)
Definition ords := map (fun p => (flit (fst p) 100, flit (snd p) 100))
  [(7576, 7743); (4135, 9075); (7374, 4167); (2087, 8649); (1749, 9359); (6775, 8063); (6301, 5257); (3290, 4444);
   (7936, 2980); (3817, 8800); (1931, 4971); (5703, 1928); (6376, 7735); (4526, 8515); (5171, 5038); (9216, 1985);
   (6418, 2770); (6474, 6510); (8007, 1355); (5554, 9407)].
Section BothSequences.
Variables (T : Type) (size : T -> res nat) (dim : T -> Z) (get : T -> nat -> Z -> res f64) (set : T -> nat -> Z -> f64 -> res T)
  (copy_of : T -> res T) (create : nat -> Z -> res T).
Definition fill (n : nat) (d : Z) (v : nat -> Z -> f64) : res T :=
  s <- create n d ;; forN n 0 s (fun k s => forN (Z.to_nat d) 0 s (fun o s => set s k (Z.of_nat o) (v k (Z.of_nat o)))).
Definition test_sequence (n : nat) (d : Z) : res T := fill n d (fun k o => i (Z.of_nat k * 10 ^ o)).
Definition from_ordinates (d : Z) : res T :=
  s <- create 20 d ;;
  fill 20 (dim s) (fun k o =>
    let p := nth k ords (f0, f0) in
    if o =? 0 then fst p else if o =? 1 then snd p else i (Z.of_nat k * 10 ^ (o - 1))).
Definition same_at (s : T) (k : nat) (t : T) (j : nat) (d : Z) : bool :=
  okb (forN (Z.to_nat d) 0 true (fun o b =>
    x <- get s k (Z.of_nat o) ;; y <- get t j (Z.of_nat o) ;;
    Ok (b && (feqb x y || (fis_nan x && fis_nan y))))) (fun b => b).
Definition ring_of (l : list Coordinate) (d : Z) : res T :=
  s <- create (List.length l) d ;;
  forN (List.length l) 0 s (fun k s =>
    let p := nth k l coord_default in
    s <- set s k 0 (cx p) ;; set s k 1 (cy p)).
End BothSequences.
Definition afill := fill CSeq seq_set arr_create.
Definition pfill := fill Packed packed_set packed_create.
Definition aords := from_ordinates CSeq sdim seq_set arr_create.
Definition pords := from_ordinates Packed pdim packed_set packed_create.
Definition asame := same_at CSeq seq_get.
Definition psame := same_at Packed packed_get.
Example test_array_sequences :
  let copy := sq_copy CSeq sdim seq_get seq_set in
  let t d := okb (s <- aords d ;; r <- seq_reverse s ;; f <- copy s 0%nat (seq_create 20 d) 0%nat 20%nat ;;
                  p <- copy s 2%nat (seq_create 15 d) 0%nat 15%nat ;;
                  m <- (m <- seq_set s 10 0 (i 5) ;; seq_set m 10 1 (i 5)) ;;
                  k <- seq_min_index m ;; k2 <- seq_min_index_from_to m 2 18 ;; Ok (s, r, f, p, k, k2))
    (fun '(s, r, f, p, k, k2) =>
      all [forallb (fun j => asame s j r (19 - j) (sdim s)) (seq 0 20); forallb (fun j => asame s j f j (sdim s)) (seq 0 20);
           forallb (fun j => asame s (2 + j) p j (sdim s)) (seq 0 15); k =? 10; k2 =? 10;
           forallb (fun j => okb (q <- seq_coord s j ;; seq_index_of q s) (Z.eqb (Z.of_nat j))) (seq 0 20)]) in
  let u d := okb (s <- ring_of CSeq seq_set arr_create circle d ;; r <- seq_scroll_index s 5 ;; b <- seq_is_ring s ;; Ok (s, r, b))
    (fun '(s, r, b) => b && forallb (fun j => asame s (Nat.modulo (5 + j) 12) r j (sdim s)) (seq 0 13)) in
  all [t 2; t 5; t 7; u 2; u 3; u 4;
       okb (s <- test_sequence CSeq seq_set arr_create 10 2 ;; f <- copy s 0%nat (seq_create 10 3) 0%nat 10%nat ;; seq_is_equal s f) (fun b => b);
       okb (s <- test_sequence CSeq seq_set arr_create 10 3 ;; f <- copy s 0%nat (seq_create 10 2) 0%nat 10%nat ;; seq_is_equal s f) (fun b => b);
       isb (seq_is_ring (seq_create 0 2)) true; isb (seq_is_ring (seq_create 1 2)) false; isb (seq_is_ring (seq_create 3 2)) false] = true.
Proof. vm_compute. reflexivity. Qed.
Example test_packed_sequences :
  let copy := sq_copy Packed pdim packed_get packed_set in
  let t d := okb (s <- pords d ;; r <- packed_reverse s ;; f0 <- packed_create 20 d ;; f <- copy s 0%nat f0 0%nat 20%nat ;;
                  p0 <- packed_create 15 d ;; p <- copy s 2%nat p0 0%nat 15%nat ;;
                  m <- (m <- packed_set s 10 0 (i 5) ;; packed_set m 10 1 (i 5)) ;;
                  k <- packed_min_index m ;; Ok (s, r, f, p, k))
    (fun '(s, r, f, p, k) =>
      all [forallb (fun j => psame s j r (19 - j) (pdim s)) (seq 0 20); forallb (fun j => psame s j f j (pdim s)) (seq 0 20);
           forallb (fun j => psame s (2 + j) p j (pdim s)) (seq 0 15); k =? 10;
           forallb (fun j => okb (q <- packed_coord s j ;; packed_index_of q s) (Z.eqb (Z.of_nat j))) (seq 0 20)]) in
  let u d := okb (s <- ring_of Packed packed_set packed_create circle d ;; r <- packed_scroll_index s 5 ;; b <- packed_is_ring s ;; Ok (s, r, b))
    (fun '(s, r, b) => b && forallb (fun j => psame s (Nat.modulo (5 + j) 12) r j (pdim s)) (seq 0 13)) in
  all [t 2; t 5; t 7; u 2; u 3; u 4;
       okb (s <- test_sequence Packed packed_set packed_create 10 2 ;; z <- packed_create 10 3 ;; f <- copy s 0%nat z 0%nat 10%nat ;; packed_is_equal s f) (fun b => b);
       okb (s <- test_sequence Packed packed_set packed_create 10 3 ;; z <- packed_create 10 2 ;; f <- copy s 0%nat z 0%nat 10%nat ;; packed_is_equal s f) (fun b => b);
       okb (s <- packed_create_dim (map i [0; 1; 2; 3; 4; 5]) 3 ;; packed_coord s 0) (fun q => feqb (cz q) f2);
       okb (s <- packed_create_dim (map i [0; 1; 2; 3; 4; 5; 6; 7]) 4 ;; packed_coord s 0) (fun q => feqb (cz q) f2 && feqb (cm q) (i 3));
       isb (s <- packed_create 0 2 ;; packed_is_ring s) true; isb (s <- packed_create 1 2 ;; packed_is_ring s) false;
       isb (s <- packed_create 3 2 ;; packed_is_ring s) false] = true.
Proof. vm_compute. reflexivity. Qed.

(** multi_point_impl_tests.rs. *)
Example test_multi_point :
  let a := new_xy (flit 1111 1000) (flit 2222 1000) in let b := new_xy (flit 3333 1000) (flit 4444 1000) in
  let m := mp_new [pt_new a None; pt_new b None; pt_new b None] None in
  okb (o <- mp_point_at usize_chk m 1 ;; match o with Some p => pt_coordinate p | None => Ok None end) (fun o => somb o (fun q => equals_2d q b)) &&
  okb (mp_get_envelope m) (fun '(_, e) =>
    all [feqb (minx e) (cx a); feqb (maxx e) (cx b); feqb (miny e) (cy a); feqb (maxy e) (cy b)]) = true.
Proof. vm_compute. reflexivity. Qed.

(** intersection_matrix_tests.rs. *)
Section Matrices.
Import IntersectionMatrix_model.
Definition on (s : string) (f : IM -> bool) : bool := okb (new_with_elements (str s)) f.
Definition reads (r : res rstring) (s : string) : bool := okb r (fun t => if list_eq_dec Z.eq_dec t (str s) then true else false).
Example test_matrix_to_string :
  all [on "012*TF012" (fun m => reads (im_to_string m) "012*TF012" && reads (im_to_string (new_from_intersection_matrix m)) "012*TF012");
       on "012*TF012" (fun m => reads (t <- im_transpose m ;; im_to_string t) "0*01T12F2")] = true.
Proof. vm_compute. reflexivity. Qed.
Example test_matrix_predicates :
  all [on "FF*FF****" is_disjoint; on "FF1FF2T*0" is_disjoint; on "*F*FF****" (fun m => negb (is_disjoint m));
       on "FT*******" (fun m => is_touches m dP dA); on "FT*******" (fun m => is_touches m dA dP);
       on "FT*******" (fun m => negb (is_touches m dP dP));
       on "FF*FF****" (fun m => negb (is_intersects m)); on "FF1FF2T*0" (fun m => negb (is_intersects m)); on "*F*FF****" is_intersects;
       on "TFTFFFFFF" (fun m => is_crosses m dP dL); on "TFTFFFFFF" (fun m => negb (is_crosses m dL dP));
       on "TFFFFFTFF" (fun m => negb (is_crosses m dP dL)); on "TFFFFFTFF" (fun m => is_crosses m dL dP);
       on "0FFFFFFFF" (fun m => is_crosses m dL dL); on "1FFFFFFFF" (fun m => negb (is_crosses m dL dL));
       on "T0F00F000" is_within; on "T00000FF0" (fun m => negb (is_within m));
       on "T0F00F000" (fun m => negb (is_contains m)); on "T00000FF0" is_contains;
       on "2*2***2**" (fun m => is_overlaps m dP dP); on "2*2***2**" (fun m => is_overlaps m dA dA);
       on "2*2***2**" (fun m => negb (is_overlaps m dP dA)); on "2*2***2**" (fun m => negb (is_overlaps m dL dL));
       on "1*2***2**" (fun m => is_overlaps m dL dL); on "0FFFFFFF2" (fun m => negb (is_overlaps m dP dP));
       on "1FFF0FFF2" (fun m => negb (is_overlaps m dL dL)); on "2FFF1FFF2" (fun m => negb (is_overlaps m dA dA));
       on "0FFFFFFF2" (fun m => is_equals m dP dP); on "1FFF0FFF2" (fun m => is_equals m dL dL); on "2FFF1FFF2" (fun m => is_equals m dA dA);
       on "0F0FFFFF2" (fun m => negb (is_equals m dP dP)); on "1FFF1FFF2" (fun m => is_equals m dL dL);
       on "2FFF1*FF2" (fun m => negb (is_equals m dA dA)); on "0FFFFFFF2" (fun m => negb (is_equals m dP dL));
       on "1FFF0FFF2" (fun m => negb (is_equals m dL dA)); on "2FFF1FFF2" (fun m => negb (is_equals m dA dP))] = true.
Proof. vm_compute. reflexivity. Qed.
End Matrices.
