(** C82: functions of different modules that answer the same question agree. *)
From Coq Require Import ZArith Bool List Reals Lia Lra Psatz.
From Flocq Require Import Core IEEE754.BinarySingleNaN.
From Verif Require Import Base F64 F64Facts F64Err Num NumLink Coordinate_model Coordinate_spec Coordinate_proofs Envelope_model Envelope_spec Envelope_proofs
  CoordArrays_model CoordArrays_spec CoordSeq_model MathUtil_model
  Orientation_model Orientation_spec Orientation_proofs Orientation_props PointLocation_model PointLocation_spec PointLocation_proofs PointLocation_props
  Distance_model Distance_spec Distance_proofs Distance_float Distance_props PrecisionModel_model Intersection_model Intersection_spec Intersection_proofs
  LineIntersector_model LineIntersector_spec LineIntersector_props Triangle_model Triangle_spec Triangle_proofs Triangle_props
  Envelope_props Measure_model Measure_spec Measure_props Geom_model Line_props Polygon_props Rectangle_props.
Import ListNotations.
Local Open Scope R_scope.

(** ** Do two segments meet? *)
(** The line intersector finds an intersection exactly when the distance of the
    segments is zero. *)
Theorem C82_segments_meet : forall hypot e s a b c d, hypot_accurate hypot -> (-100 <= e <= 70)%Z ->
  small_pt e a -> small_pt e b -> small_pt e c -> small_pt e d ->
  (has_intersection (compute_intersection_4 hypot s a b c d) = true <-> feqb (segment_to_segment hypot a b c d) f0 = true).
Proof.
  intros hypot e s a b c d Hh He Sa Sb Sc Sd. rewrite (C53_has_intersection hypot e s a b c d He Sa Sb Sc Sd).
  destruct (C52_zero_iff hypot e a b c d Hh ltac:(lia) Sa Sb Sc Sd) as (_ & ->). reflexivity.
Qed.

(** ** Is a point on a segment, or on a line? *)
Lemma on_seg_segment p a b : on_seg (pt p) (pt a) (pt b) <-> on_segment (rpt a) (rpt b) (rpt p).
Proof.
  unfold on_seg, on_segment, along, pt, rpt. cbn [fst snd px py]. split; intros (t & T & E); exists t; (split; [exact T|]).
  - destruct E as (-> & ->). reflexivity.
  - injection E as -> ->. split; reflexivity.
Qed.
Theorem C82_point_on_segment : forall hypot e s p a b, hypot_accurate hypot -> (-100 <= e <= 70)%Z ->
  small_pt e p -> small_pt e a -> small_pt e b ->
  (is_on_segment p a b = true <-> has_intersection (compute_intersection_3 s p a b) = true) /\
  (is_on_segment p a b = true <-> feqb (point_to_segment hypot p a b) f0 = true).
Proof.
  intros hypot e s p a b Hh He Sp Sa Sb.
  rewrite (C51_on_segment e p a b ltac:(lia) (small_gpt _ _ Sp) (small_gpt _ _ Sa) (small_gpt _ _ Sb)), on_seg_segment.
  destruct (C53_point_on_segment e s p a b He Sp Sa Sb) as (-> & _).
  destruct (C52_zero_iff hypot e p p a b Hh ltac:(lia) Sp Sp Sa Sb) as (-> & _). split; reflexivity.
Qed.
Lemma on_chain_string p l : forall a b, on_chain (pt p) (map pt (a :: b :: l)) <-> on_string (rpt a) (map rpt (b :: l)) (rpt p).
Proof.
  induction l as [|c l IH]; intros a b.
  - cbn [map on_string]. rewrite <- on_seg_segment. split.
    + intros (x & y & [E|[]] & O). injection E as <- <-. exact O.
    + intros O. exists (pt a), (pt b). split; [now left|exact O].
  - specialize (IH b c). cbn [map on_string] in IH |- *. rewrite <- on_seg_segment, <- IH. split.
    + intros (x & y & [E|I] & O); [injection E as <- <-; now left|right; exists x, y; split; [exact I|exact O]].
    + intros [O|(x & y & I & O)]; [exists (pt a), (pt b); split; [now left|exact O]|exists x, y; split; [now right|exact O]].
Qed.
(** A point is on a line exactly when its distance to the line is zero. *)
Theorem C82_point_on_line : forall hypot e p a b l, hypot_accurate hypot -> (-400 <= e <= 400)%Z ->
  small_pt e p -> Forall (small_pt e) (a :: b :: l) ->
  (is_on_line_vec p (a :: b :: l) = Ok true <-> feqb (point_to_segment_string hypot p (a :: b :: l)) f0 = true).
Proof.
  intros hypot e p a b l Hh He Sp Sl.
  assert (Forall (gpt e) (a :: b :: l)) as Gl by (eapply Forall_impl; [apply small_gpt|exact Sl]).
  destruct (C51_on_line_grid e p (a :: b :: l) ltac:(lia) (small_gpt _ _ Sp) Gl) as (r & -> & Hr).
  assert (Ok r = Ok true <-> r = true) as -> by (split; [intros E; now injection E|now intros ->]).
  rewrite Hr, on_chain_string. inversion Sl as [|? ? Sa Sl']; subst.
  destruct (string_least (rpt p) (rpt a) (map rpt (b :: l)) _ eq_refl) as ((q & q' & <- & Hq & E) & L).
  pose proof (C52_string_close hypot e p a (b :: l) _ Hh He Sp Sa Sl' (string_least (rpt p) (rpt a) (map rpt (b :: l)) _ eq_refl)) as C.
  set (x := g_string_loop _ _ _ _ _ _) in *.
  assert (0 <= x) as P by (rewrite <- E; apply dist_pos).
  rewrite (feqb_R _ f0) by (first [apply C|reflexivity]). rewrite R_of_f0.
  pose proof (close_zero _ _ P C) as Z. split.
  - intros On. pose proof (L _ _ eq_refl On) as K. rewrite (proj2 (dist_0 _ _) eq_refl) in K. apply Req_bool_true, Z. lra.
  - intros K. destruct (Req_bool_spec (R_of (point_to_segment_string hypot p (a :: b :: l))) 0) as [R0|]; [|discriminate].
    apply Z in R0. rewrite R0 in E. apply dist_0 in E. now rewrite E.
Qed.

(** ** Is a point in a triangle? *)
(** [Triangle::intersects] says yes exactly when the ring of the triangle does
    not have the point outside, whichever way round the triangle is given. *)
Lemma side_dt a b c : side (rpt a) (rpt b) (rpt c) = det_pts a b c.
Proof. unfold side, det_pts, det3, rpt. cbn [px py]. ring. Qed.
Lemma on_edge_of_ring p a b c : on_chain (pt p) (map pt [a; b; c; a]) <->
  on_segment (rpt a) (rpt b) (rpt p) \/ on_segment (rpt b) (rpt c) (rpt p) \/ on_segment (rpt c) (rpt a) (rpt p).
Proof.
  rewrite on_chain_string. cbn [map on_string]. reflexivity.
Qed.
Lemma seg_in_triangle a b c t : 0 <= t <= 1 -> in_triangle a b c (along a b t).
Proof.
  intros T. exists (1 - t), t, 0. repeat (split; [lra|]). unfold along, weighted. f_equal; cbn [px py]; ring.
Qed.
Lemma tri_rot a b c p : in_triangle b c a p -> in_triangle a b c p.
Proof.
  intros (u & v & w & U & V & W & E & ->). exists w, u, v. repeat (split; [lra|]). unfold weighted. f_equal; ring.
Qed.
(** On the border of the triangle the point is on one of the sides. *)
Lemma border a b c p : 0 < side a b c -> in_triangle a b c p -> side a b p = 0 -> on_segment a b p.
Proof.
  intros S (u & v & w & U & V & W & E & ->) Z. assert (w = 0) as ->.
  { assert (side a b (weighted a b c u v w) = w * side a b c) as Q.
    { replace u with (1 - v - w) by lra. unfold side, weighted. cbn [px py]. ring. }
    rewrite Q in Z. apply Rmult_integral in Z. lra. }
  exists v. split; [lra|]. replace u with (1 - v) by lra. unfold along, weighted. f_equal; ring.
Qed.
Lemma tri_ring_ccw e a b c p : grid_ring e p [a; b; c; a] -> 0 < side (rpt a) (rpt b) (rpt c) ->
  (in_triangle (rpt a) (rpt b) (rpt c) (rpt p) <-> locate_vec p [a; b; c; a] = Ok INTERIOR \/ locate_vec p [a; b; c; a] = Ok BOUNDARY).
Proof.
  intros G S. rewrite (C50_boundary e p _ G), on_edge_of_ring. rewrite side_dt in S. rewrite (C50_triangle e p a b c G S).
  rewrite <- !side_dt. rewrite <- side_dt in S. rewrite in_triangle_side by lra. split.
  - intros (A & B & C).
    assert (in_triangle (rpt a) (rpt b) (rpt c) (rpt p)) as I by (apply in_triangle_side; [lra|auto]).
    destruct (Req_dec (side (rpt a) (rpt b) (rpt p)) 0) as [Z|NA]; [right; left; now apply border with (rpt c)|].
    assert (side (rpt b) (rpt c) (rpt a) = side (rpt a) (rpt b) (rpt c)) as S2 by (unfold side; ring).
    assert (side (rpt c) (rpt a) (rpt b) = side (rpt a) (rpt b) (rpt c)) as S3 by (unfold side; ring).
    destruct (Req_dec (side (rpt b) (rpt c) (rpt p)) 0) as [Z|NB].
    { right; right; left. apply border with (rpt a); [lra|now do 2 apply tri_rot|exact Z]. }
    destruct (Req_dec (side (rpt c) (rpt a) (rpt p)) 0) as [Z|NC].
    { right; right; right. apply border with (rpt b); [lra|now apply tri_rot|exact Z]. }
    left. repeat split; nra.
  - intros [(A & B & C)|O]; [repeat split; nra|].
    apply in_triangle_side; [lra|]. destruct O as [(t & T & ->)|[(t & T & ->)|(t & T & ->)]].
    + now apply seg_in_triangle.
    + now apply tri_rot, seg_in_triangle.
    + now do 2 apply tri_rot; apply seg_in_triangle.
Qed.
Theorem C82_point_in_triangle : forall e a b c p, (-440 <= e <= 420)%Z -> gpt e a -> gpt e b -> gpt e c -> gpt e p ->
  proper_triangle (rpt a) (rpt b) (rpt c) ->
  exists l, locate_vec p [a; b; c; a] = Ok l /\ (tri_intersects a b c p = true <-> l <> EXTERIOR).
Proof.
  intros e a b c p He Ga Gb Gc Gp P. pose proof (C61_intersects e a b c p He Ga Gb Gc Gp P) as T.
  assert (forall x y z, gpt e x -> gpt e y -> gpt e z -> grid_ring e p [x; y; z; x]) as GR.
  { intros x y z X Y Z. split; [lia|]. split; [exact Gp|]. split; [repeat (apply Forall_cons; [assumption|]); apply Forall_nil|]. split; [|cbn; unfold i32_max; lia].
    exists x, [y; z], x. split; reflexivity. }
  assert (in_triangle (rpt a) (rpt b) (rpt c) (rpt p) <-> locate_vec p [a; b; c; a] = Ok INTERIOR \/ locate_vec p [a; b; c; a] = Ok BOUNDARY) as K.
  { apply proper_side in P. destruct (Rtotal_order (side (rpt a) (rpt b) (rpt c)) 0) as [N|[N|N]]; [|contradiction|].
    - rewrite <- (C50_reverse e p [a; b; c; a]) by now apply GR. cbn [rev app].
      rewrite <- (tri_ring_ccw e a c b p); [|now apply GR|unfold side in *; lra].
      split; intros (u & v & w & U & V & W & E & ->); exists u, w, v; repeat (split; [lra|]); unfold weighted; f_equal; ring.
    - apply (tri_ring_ccw e); [now apply GR|exact N]. }
  assert (exists l, locate_vec p [a; b; c; a] = Ok l /\ (l = INTERIOR \/ l = BOUNDARY \/ l = EXTERIOR)) as (l & El & Cl).
  { destruct (Classical_Prop.classic (on_chain (pt p) (map pt [a; b; c; a]))) as [O|O].
    - apply (C50_boundary e p _ (GR a b c Ga Gb Gc)) in O. eauto.
    - destruct (C50_even_odd e p _ (GR a b c Ga Gb Gc) O) as (k & _ & _ & E). rewrite E. destruct (Nat.odd k); eauto 6. }
  exists l. split; [exact El|]. rewrite T, K, El. split.
  - intros [E|E]; injection E as ->; discriminate.
  - intros N. destruct Cl as [-> | [-> | ->]]; auto. now elim N.
Qed.

(** ** Is a point in a rectangle? *)
Lemma cross_vert p x y y' :
  (crosses p (x, y) (x, y') <-> fst p < x /\ ((snd p < y /\ y' <= snd p) \/ (snd p < y' /\ y <= snd p))).
Proof.
  split.
  - intros (S & t & T & Y & X). cbn [fst snd] in *. split; [lra|lra].
  - intros (X & S). destruct (straddle_t y y' (snd p)) as (t & T & Y); [lra|]. split; [cbn [snd]; lra|].
    exists t. cbn [fst snd]. split; [exact T|]. split; [exact Y|lra].
Qed.
Lemma cross_horiz p x x' y : ~ crosses p (x, y) (x', y).
Proof. intros (S & _). cbn [snd] in S. lra. Qed.
Lemma seg_vert p x y y' : fst p = x -> Rmin y y' <= snd p <= Rmax y y' -> on_seg p (x, y) (x, y').
Proof.
  intros X Y. unfold on_seg. cbn [fst snd]. destruct (Req_dec y y') as [->|N].
  - exists 0. rewrite Rmin_left, Rmax_left in Y by lra. split; lra.
  - exists ((snd p - y) / (y' - y)). assert (snd p = y + (snd p - y) / (y' - y) * (y' - y)) as Q by (field; lra).
    split; [|split; [lra|exact Q]]. set (t := (snd p - y) / (y' - y)) in *. clearbody t.
    destruct (Rle_or_lt y y'); [rewrite Rmin_left, Rmax_right in Y by lra|rewrite Rmin_right, Rmax_left in Y by lra]; split; nra.
Qed.
Lemma seg_horiz p x x' y : snd p = y -> Rmin x x' <= fst p <= Rmax x x' -> on_seg p (x, y) (x', y).
Proof.
  intros Y X. destruct (seg_vert (snd p, fst p) y x x' Y X) as (t & T & A & B). cbn [fst snd] in *. exists t. cbn [fst snd]. auto.
Qed.
Lemma on_seg_bounds p a b : on_seg p a b ->
  Rmin (fst a) (fst b) <= fst p <= Rmax (fst a) (fst b) /\ Rmin (snd a) (snd b) <= snd p <= Rmax (snd a) (snd b).
Proof.
  intros (t & T & -> & ->). unfold Rmin, Rmax. destruct (Rle_dec (fst a) (fst b)), (Rle_dec (snd a) (snd b)); repeat split; nra.
Qed.
Definition corners (x1 x2 y1 y2 : R) : list (R * R) := [(x1, y1); (x2, y1); (x2, y2); (x1, y2); (x1, y1)].
Definition between (u v x : R) : Prop := Rmin u v < x < Rmax u v.
Definition within_closed (u v x : R) : Prop := Rmin u v <= x <= Rmax u v.
Lemma rect_border p x1 x2 y1 y2 : on_chain p (corners x1 x2 y1 y2) <->
  within_closed x1 x2 (fst p) /\ within_closed y1 y2 (snd p) /\ ~ (between x1 x2 (fst p) /\ between y1 y2 (snd p)).
Proof.
  unfold within_closed, between. split.
  - intros (a & b & I & O). pose proof (on_seg_bounds _ _ _ O) as B. cbn in I.
    destruct I as [I|[I|[I|[I|[]]]]]; injection I as <- <-; cbn [fst snd] in B; revert B; unfold Rmin, Rmax; repeat destruct (Rle_dec _ _); intros; split; try split; try lra.
  - intros (X & Y & N).
    assert (fst p = x1 \/ fst p = x2 \/ snd p = y1 \/ snd p = y2) as C.
    { revert X Y N. unfold Rmin, Rmax. repeat destruct (Rle_dec _ _); intros;
      destruct (Req_dec (fst p) x1), (Req_dec (fst p) x2), (Req_dec (snd p) y1), (Req_dec (snd p) y2); auto; exfalso; apply N; lra. }
    destruct C as [C|[C|[C|C]]].
    + exists (x1, y2), (x1, y1). split; [cbn; tauto|]. apply seg_vert; [exact C|]. now rewrite Rmin_comm, Rmax_comm.
    + exists (x2, y1), (x2, y2). split; [cbn; tauto|]. now apply seg_vert.
    + exists (x1, y1), (x2, y1). split; [cbn; tauto|]. now apply seg_horiz.
    + exists (x2, y2), (x1, y2). split; [cbn; tauto|]. apply seg_horiz; [exact C|]. now rewrite Rmin_comm, Rmax_comm.
Qed.
Lemma rect_parity p x1 x2 y1 y2 k : ~ on_chain p (corners x1 x2 y1 y2) -> crossings p (corners x1 x2 y1 y2) k ->
  (Nat.odd k = true <-> between x1 x2 (fst p) /\ between y1 y2 (snd p)).
Proof.
  intros O K. rewrite rect_border in O. unfold crossings, corners in K. cbn [segs] in K.
  assert (exists v1 v2, k = (v2 + v1)%nat /\ (v2 = 1%nat /\ crosses p (x2, y1) (x2, y2) \/ v2 = 0%nat /\ ~ crosses p (x2, y1) (x2, y2)) /\
     (v1 = 1%nat /\ crosses p (x1, y2) (x1, y1) \/ v1 = 0%nat /\ ~ crosses p (x1, y2) (x1, y1))) as (v1 & v2 & -> & C2 & C1).
  { inversion K as [|? ? k1 P K1|? ? k1 P K1]; subst; cbn [fst snd] in P; [now apply cross_horiz in P|].
    inversion K1 as [|? ? k2 P2 K2|? ? k2 P2 K2]; subst; cbn [fst snd] in P2;
    (inversion K2 as [|? ? k3 P3 K3|? ? k3 P3 K3]; subst; cbn [fst snd] in P3; [now apply cross_horiz in P3|]);
    (inversion K3 as [|? ? k4 P4 K4|? ? k4 P4 K4]; subst; cbn [fst snd] in P4); inversion K4; subst.
    - exists 1%nat, 1%nat. auto. - exists 0%nat, 1%nat. auto. - exists 1%nat, 0%nat. auto. - exists 0%nat, 0%nat. auto. }
  rewrite cross_vert in C1, C2.
  unfold within_closed, between in *. revert O. unfold Rmin, Rmax.
  destruct C1 as [(-> & C1)|(-> & C1)], C2 as [(-> & C2)|(-> & C2)]; cbn [Nat.odd Nat.even negb Nat.add];
  repeat destruct (Rle_dec _ _); intros O; (split; [intros E; try discriminate E|intros E; try reflexivity; exfalso]); try lra.
Qed.

Lemma eqf_finite x y : eqf x y -> fis_finite x = true -> fis_finite y = true /\ R_of y = R_of x.
Proof.
  intros E F. assert (fis_finite y = true) as G by (destruct x, y; try discriminate F; try reflexivity; discriminate E || (destruct s0; discriminate E)).
  split; [exact G|]. unfold eqf in E. rewrite feqb_R in E by assumption. destruct (Req_bool_spec (R_of x) (R_of y)); [congruence|discriminate].
Qed.
Lemma neqf_R x y : fis_finite x = true -> fis_finite y = true -> ~ eqf x y -> R_of x <> R_of y.
Proof. intros F G N E. apply N. unfold eqf. rewrite feqb_R by assumption. now apply Req_bool_true. Qed.
Lemma pt_of_eq a b : pt_eq a b -> fin_pt a -> fin_pt b /\ pt b = pt a.
Proof.
  intros (X & Y) (Fx & Fy). destruct (eqf_finite _ _ X Fx) as (Gx & Ex), (eqf_finite _ _ Y Fy) as (Gy & Ey).
  split; [now split|]. unfold pt. now rewrite Ex, Ey.
Qed.
Lemma same_pts_R l m : same_pts l m -> Forall fin_pt l -> Forall fin_pt m /\ map pt m = map pt l.
Proof.
  intros S. induction S as [|a b l m E S IH]; intros F; [split; [constructor|reflexivity]|].
  inversion F; subst. destruct (pt_of_eq _ _ E ltac:(assumption)) as (G & Q), IH as (G' & Q'); [assumption|].
  split; [now constructor|]. cbn [map]. now rewrite Q, Q'.
Qed.
(** The box of a rectangle, in real numbers. *)
Lemma rect_box p : pg_holes p = [] -> axis_rectangle (spts p) -> Forall fin_pt (spts p) ->
  exists x1 x2 y1 y2, x1 <> x2 /\ y1 <> y2 /\
    (map pt (spts p) = corners x1 x2 y1 y2 \/ map pt (spts p) = rev (corners x1 x2 y1 y2)) /\
    let e := envelope_of (spts p) in
    is_null e = false /\ fin_pt (p2 (minx e) (miny e)) /\ fin_pt (p2 (maxx e) (maxy e)) /\
    R_of (minx e) = Rmin x1 x2 /\ R_of (maxx e) = Rmax x1 x2 /\ R_of (miny e) = Rmin y1 y2 /\ R_of (maxy e) = Rmax y1 y2.
Proof.
  intros Hh A F. pose proof (C68_rectangle_accepted p Hh A) as R. destruct (C68_is_rectangle p) as (b & Eb & Hb).
  assert (b = true) as B by congruence. apply Hb in B. destruct B as (_ & c0 & c1 & c2 & c3 & c4 & Q & Fc & _).
  destruct A as (x1 & x2 & y1 & y2 & Nx & Ny & S).
  assert (Forall nn_xy (spts p)) as NN.
  { destruct S as [S|S]; clear - S; induction S as [|a b l m P F IH]; constructor; auto; apply pt_eq_rank in P; tauto. }
  pose proof (envelope_of_box (spts p) NN ltac:(rewrite Q; discriminate)) as BX.
  set (e := envelope_of (spts p)) in *.
  assert (exists cA cC, In cA (spts p) /\ In cC (spts p) /\ pt_eq cA (p2 x1 y1) /\ pt_eq cC (p2 x2 y2)) as (cA & cC & IA & IC & EA & EC).
  { rewrite Q in *. exists c0, c2. split; [now left|]. split; [right; right; now left|].
    destruct S as [S|S]; inversion S as [|? ? ? ? P0 S1]; subst; inversion S1 as [|? ? ? ? P1 S2]; subst; inversion S2 as [|? ? ? ? P2 S3]; subst; split; assumption. }
  rewrite Forall_forall in F. destruct (pt_of_eq _ _ EA (F _ IA)) as ((F1 & F2) & QA), (pt_of_eq _ _ EC (F _ IC)) as ((F3 & F4) & QC). cbn [cx cy p2] in F1, F2, F3, F4.
  exists (R_of x1), (R_of x2), (R_of y1), (R_of y2). split; [now apply neqf_R|]. split; [now apply neqf_R|]. split.
  { destruct S as [S|S]; apply same_pts_R in S; try (now apply Forall_forall); destruct S as (_ & S); [left|right]; rewrite <- S; reflexivity. }
  cbv zeta. split; [now apply null_box|].
  rewrite <- Q in Fc. rewrite Forall_forall in Fc. pose proof (Fc _ IA) as KA. pose proof (Fc _ IC) as KC.
  destruct EA as (EAx & EAy), EC as (ECx & ECy). cbn [cx cy p2] in EAx, EAy, ECx, ECy.
  pose proof (F _ IA) as (GA1 & GA2). pose proof (F _ IC) as (GC1 & GC2).
  destruct (eqf_finite _ _ EAx GA1) as (_ & VA1), (eqf_finite _ _ EAy GA2) as (_ & VA2), (eqf_finite _ _ ECx GC1) as (_ & VC1), (eqf_finite _ _ ECy GC2) as (_ & VC2).
  assert (forall u v lo hi a c, fis_finite a = true -> fis_finite c = true -> R_of u = R_of a -> R_of v = R_of c -> R_of u <> R_of v ->
     lef lo hi -> (eqf a lo \/ eqf a hi) -> (eqf c lo \/ eqf c hi) ->
     fis_finite lo = true /\ fis_finite hi = true /\ R_of lo = Rmin (R_of u) (R_of v) /\ R_of hi = Rmax (R_of u) (R_of v)) as G.
  { clear. intros u v lo hi a c Fa Fc -> -> N L A C.
    assert (forall z, (eqf a z -> fis_finite z = true /\ R_of z = R_of a) /\ (eqf c z -> fis_finite z = true /\ R_of z = R_of c)) as Z
      by (intros z; split; intros E; apply eqf_finite; assumption).
    destruct (Z lo) as (Z1 & Z2), (Z hi) as (Z3 & Z4).
    assert (fis_finite lo = true /\ fis_finite hi = true) as (Fl & Fh).
    { destruct A as [A|A], C as [C|C].
      - exfalso. apply N. destruct (Z1 A), (Z2 C). congruence.
      - split; [apply Z1, A|apply Z4, C].
      - split; [apply Z2, C|apply Z3, A].
      - exfalso. apply N. destruct (Z3 A), (Z4 C). congruence. }
    unfold lef in L. rewrite fleb_R in L by assumption. destruct (Rle_bool_spec (R_of lo) (R_of hi)) as [L'|]; [|discriminate].
    split; [exact Fl|]. split; [exact Fh|].
    assert ((R_of lo = R_of a /\ R_of hi = R_of c) \/ (R_of lo = R_of c /\ R_of hi = R_of a)) as [(E1 & E2)|(E1 & E2)].
    { destruct A as [A|A], C as [C|C].
      - exfalso. apply N. destruct (Z1 A), (Z2 C). congruence.
      - left. split; [apply Z1, A|apply Z4, C].
      - right. split; [apply Z2, C|apply Z3, A].
      - exfalso. apply N. destruct (Z3 A), (Z4 C). congruence. }
    - rewrite Rmin_left, Rmax_right by lra. auto.
    - rewrite Rmin_right, Rmax_left by lra. auto. }
  destruct KA as (KA1 & KA2), KC as (KC1 & KC2).
  destruct (G x1 x2 (minx e) (maxx e) (cx cA) (cx cC)) as (H1 & H2 & H3 & H4); auto; [now apply neqf_R|apply BX|].
  destruct (G y1 y2 (miny e) (maxy e) (cy cA) (cy cC)) as (H5 & H6 & H7 & H8); auto; [now apply neqf_R|apply BX|].
  repeat split; assumption.
Qed.
(** In a rectangle the ring locator and the envelope agree: a point is interior
    exactly when it is strictly between the sides of the envelope, and exterior
    exactly when the envelope does not cover it. *)
Theorem C82_point_in_rectangle : forall e p q, pg_holes p = [] -> axis_rectangle (spts p) -> grid_ring e q (spts p) ->
  let env := envelope_of (spts p) in
  exists l, locate_vec q (spts p) = Ok l /\
  (l = EXTERIOR <-> covers_xy env (cx q) (cy q) = false) /\
  (l = INTERIOR <-> fltb (minx env) (cx q) = true /\ fltb (cx q) (maxx env) = true /\ fltb (miny env) (cy q) = true /\ fltb (cy q) (maxy env) = true).
Proof.
  intros e p q Hh A G. cbv zeta. pose proof G as (He & Gq & Gs & Cl & Len).
  assert (Forall fin_pt (spts p)) as F by (eapply Forall_impl; [apply gpt_fin|exact Gs]).
  destruct (rect_box p Hh A F) as (x1 & x2 & y1 & y2 & Nx & Ny & M & B). cbv zeta in B.
  set (env := envelope_of (spts p)) in *. destruct B as (Nn & (F1 & F2) & (F3 & F4) & B1 & B2 & B3 & B4). cbn [cx cy p2] in F1, F2, F3, F4.
  destruct (gpt_fin _ _ Gq) as (Fq1 & Fq2).
  assert (covers_xy env (cx q) (cy q) = true <-> within_closed x1 x2 (fst (pt q)) /\ within_closed y1 y2 (snd (pt q))) as C.
  { unfold covers_xy. rewrite Nn. rewrite !andb_true_iff. unfold fgeb. rewrite !fleb_R by assumption. rewrite B1, B2, B3, B4.
    unfold within_closed, pt. cbn [fst snd]. repeat match goal with |- context [Rle_bool ?a ?b] => destruct (Rle_bool_spec a b) end; split; intros H'; repeat split; try lra; try (destruct H' as (((? & ?) & ?) & ?); discriminate); try (destruct H' as (? & ?); lra); auto. }
  assert (fltb (minx env) (cx q) = true /\ fltb (cx q) (maxx env) = true /\ fltb (miny env) (cy q) = true /\ fltb (cy q) (maxy env) = true <->
     between x1 x2 (fst (pt q)) /\ between y1 y2 (snd (pt q))) as I.
  { rewrite !fltb_R by assumption. rewrite B1, B2, B3, B4.
    unfold between, pt. cbn [fst snd]. repeat match goal with |- context [Rlt_bool ?a ?b] => destruct (Rlt_bool_spec a b) end; split; intros H'; repeat split; try lra; try (destruct H' as (? & ? & ? & ?); discriminate); try (destruct H' as (? & ?); lra); auto. }
  cut (exists l, locate_vec q (spts p) = Ok l /\ (l = EXTERIOR <-> ~ (within_closed x1 x2 (fst (pt q)) /\ within_closed y1 y2 (snd (pt q)))) /\
     (l = INTERIOR <-> between x1 x2 (fst (pt q)) /\ between y1 y2 (snd (pt q)))).
  { intros (l & El & E1 & E2). exists l. rewrite <- not_true_iff_false, C, I. auto. }
  clear C I.
  assert (exists ring, map pt ring = corners x1 x2 y1 y2 /\ grid_ring e q ring /\ locate_vec q (spts p) = locate_vec q ring) as (ring & Er & Gr & ->).
  { destruct M as [M|M]; [exists (spts p); auto|]. exists (rev (spts p)). split; [rewrite map_rev, M; apply rev_involutive|]. split.
    - split; [lia|]. split; [exact Gq|]. split; [now apply Forall_rev|]. split; [now apply closed_rev|now rewrite rev_length].
    - symmetry. now apply (C50_reverse e). }
  destruct (Classical_Prop.classic (on_chain (pt q) (map pt ring))) as [O|O].
  - exists BOUNDARY. split; [now apply (C50_boundary e)|]. rewrite Er, rect_border in O. split; (split; [discriminate|]).
    + intros H. exfalso. apply H. tauto.
    + intros H. exfalso. tauto.
  - destruct (C50_even_odd e q ring Gr O) as (k & K & _ & ->). eexists. split; [reflexivity|]. rewrite Er in O, K.
    pose proof (rect_parity _ _ _ _ _ _ O K) as P. rewrite rect_border in O.
    assert (between x1 x2 (fst (pt q)) /\ between y1 y2 (snd (pt q)) -> within_closed x1 x2 (fst (pt q)) /\ within_closed y1 y2 (snd (pt q))) as W by (unfold between, within_closed; intros; lra).
    destruct (Nat.odd k).
    + pose proof (proj1 P eq_refl) as X. split; (split; [intros H; try discriminate H|intros H]); [exfalso; exact (H (W X))|exact X|reflexivity].
    + assert (~ (between x1 x2 (fst (pt q)) /\ between y1 y2 (snd (pt q)))) as N by (intros X; apply P in X; discriminate).
      split; (split; [intros H; try discriminate H|intros H]); [tauto|reflexivity|contradiction].
Qed.

(** ** How large is it? *)
(** The area of a rectangle is the area of its envelope, as doubles. *)
Theorem C82_rectangle_area : forall e k zs p, pg_holes p = [] -> axis_rectangle (spts p) -> exact_ring e k zs (spts p) ->
  exists r, pg_area p = Ok r /\ feqb r (env_get_area (envelope_of (spts p))) = true.
Proof.
  intros e k zs p Hh A X. pose proof X as (He & Hk & _ & G & W & B).
  assert (Forall fin_pt (spts p)) as F by (clear - G; induction G as [|z c zs cs (Gx & Gy) G IH]; constructor; [split; [apply Gx|apply Gy]|exact IH]).
  destruct (rect_box p Hh A F) as (x1 & x2 & y1 & y2 & Nx & Ny & M & BX). cbv zeta in BX.
  set (env := envelope_of (spts p)) in *. destruct BX as (Nn & (F1 & F2) & (F3 & F4) & B1 & B2 & B3 & B4). cbn [cx cy p2] in F1, F2, F3, F4.
  pose proof (bpow_gt_0 radix2 e) as Be. fold (bp e) in Be.
  assert (map pt (spts p) = map (fun z => (IZR (fst z) * bp e, IZR (snd z) * bp e)) zs) as Q.
  { clear - G. induction G as [|z c zs cs (Gx & Gy) G IH]; [reflexivity|]. cbn [map]. rewrite IH. f_equal. unfold pt. destruct Gx as (_ & ->), Gy as (_ & ->). reflexivity. }
  assert (forall n m, IZR n * bp e = IZR m * bp e -> n = m) as INJ by (intros n m E; apply eq_IZR, (Rmult_eq_reg_r (bp e)); lra).
  assert (exists a c b d, x1 = IZR a * bp e /\ x2 = IZR c * bp e /\ y1 = IZR b * bp e /\ y2 = IZR d * bp e /\
    (Z.abs a <= k /\ Z.abs b <= k /\ Z.abs c <= k /\ Z.abs d <= k)%Z /\ (Z.abs (trapezoids zs) = 2 * (Z.abs (c - a) * Z.abs (d - b)))%Z) as (a & c & b & d & -> & -> & -> & -> & (Ka & Kb & Kc & Kd) & T).
  { rewrite Q in M. destruct zs as [|z0 [|z1 [|z2 [|z3 [|z4 [|]]]]]]; try (destruct M as [M|M]; discriminate M).
    inversion W as [|? ? W0 W']; subst. inversion W' as [|? ? W1 W'']; subst. inversion W'' as [|? ? W2 _]; subst.
    destruct z0 as (a & b), z1 as (a1 & b1), z2 as (c & d), z3 as (a3 & b3), z4 as (a4 & b4). cbn [fst snd] in W0, W2.
    destruct M as [M|M]; cbn [map corners rev app fst snd] in M; injection M as E1 E2 E3 E4 E5 E6 E7 E8 E9 E10.
    - exists a, c, b, d. repeat (split; [congruence || lia|]).
      assert (a1 = c /\ b1 = b /\ a3 = a /\ b3 = d /\ a4 = a /\ b4 = b) as (-> & -> & -> & -> & -> & ->) by (repeat split; apply INJ; congruence).
      cbn [trapezoids]. rewrite <- Z.abs_mul. replace ((c - a) * (b + b) + ((c - c) * (b + d) + ((a - c) * (d + d) + ((a - a) * (d + b) + 0))))%Z with (-2 * ((c - a) * (d - b)))%Z by ring. rewrite Z.abs_mul. reflexivity.
    - exists a, c, b, d. repeat (split; [congruence || lia|]).
      assert (a1 = a /\ b1 = d /\ a3 = c /\ b3 = b /\ a4 = a /\ b4 = b) as (-> & -> & -> & -> & -> & ->) by (repeat split; apply INJ; congruence).
      cbn [trapezoids]. rewrite <- Z.abs_mul. replace ((a - a) * (b + d) + ((c - a) * (d + d) + ((c - c) * (d + b) + ((a - c) * (b + b) + 0))))%Z with (2 * ((c - a) * (d - b)))%Z by ring. rewrite Z.abs_mul. reflexivity. }
  assert (length (spts p) = 5%nat) as L5 by (rewrite <- (map_length pt); destruct M as [->| ->]; reflexivity).
  rewrite L5 in B. change (Z.of_nat 5) with 5%Z in B.
  assert (forall n m, Rmin (IZR n * bp e) (IZR m * bp e) = IZR (Z.min n m) * bp e /\ Rmax (IZR n * bp e) (IZR m * bp e) = IZR (Z.max n m) * bp e) as MM.
  { intros n m. destruct (Z.le_ge_cases n m) as [L|L]; pose proof (IZR_le _ _ L) as L'; [rewrite Z.min_l, Z.max_r by lia; rewrite Rmin_left, Rmax_right by nra|rewrite Z.min_r, Z.max_l by lia; rewrite Rmin_right, Rmax_left by nra]; auto. }
  destruct (MM a c) as (Mx1 & Mx2), (MM b d) as (My1 & My2). rewrite Mx1 in B1. rewrite Mx2 in B2. rewrite My1 in B3. rewrite My2 in B4.
  assert (Z.abs (c - a) <= 2 * k /\ Z.abs (d - b) <= 2 * k)%Z as (Ks & Kt) by lia.
  assert (Z.abs (c - a) * Z.abs (d - b) <= 4 * (k * k))%Z as KK by (replace (4 * (k * k))%Z with ((2 * k) * (2 * k))%Z by ring; apply Z.mul_le_mono_nonneg; lia).
  assert (k <= 2 ^ 27)%Z as K27 by nia. pose proof (Z.square_nonneg k) as K0.
  set (kk := (k * k)%Z) in *. set (cd := (Z.abs (c - a) * Z.abs (d - b))%Z) in *.
  destruct (C71_sizes_exact_on_grid e env (Z.min a c) (Z.max a c) (Z.min b d) (Z.max b d)) as (_ & _ & (Fa & Ra) & _); try lia.
  - repeat split; assumption.
  - destruct (C68_area e k p zs [] X) as (r & Er & Fr & Rr).
    + unfold hpts. rewrite Hh. constructor.
    + unfold holes_area2. cbn [map fold_right]. rewrite T. lia.
    + exists r. split; [exact Er|]. rewrite feqb_R by assumption. apply Req_bool_true. rewrite Rr, Ra, T.
      unfold holes_area2. cbn [map fold_right]. rewrite Z.sub_0_r, mult_IZR, bpow_plus.
      replace (Z.max a c - Z.min a c)%Z with (Z.abs (c - a)) by lia. replace (Z.max b d - Z.min b d)%Z with (Z.abs (d - b)) by lia. fold (bp e). unfold cd. rewrite mult_IZR. field.
Qed.
(** The area of a triangle is the area of its ring, sign included. *)
Theorem C82_triangle_area : forall hypot e k za zb zc a b c, (-400 <= e <= 400)%Z -> small_pt e a -> small_pt e b -> small_pt e c ->
  exact_ring e k [za; zb; zc; za] [a; b; c; a] ->
  exists r s, signed_area_vec [a; b; c; a] = Ok r /\ area_vec [a; b; c; a] = Ok s /\
    R_of r = R_of (tri_signed_area hypot a b c) /\ R_of s = R_of (tri_area hypot a b c) /\
    (is_ccw_area_vec [a; b; c; a] = Ok true <-> tri_is_ccw a b c = true).
Proof.
  intros hypot e k za zb zc a b c He Sa Sb Sc X.
  destruct (C47_triangle e k za zb zc a b c X) as (r & Er & Rr & Cr).
  destruct (C61_area hypot e a b c He Sa Sb Sc) as (T1 & T2 & _).
  exists r, (fabs r). split; [exact Er|]. split; [unfold area_vec; now rewrite Er|].
  rewrite fabs_R, Rr, T1, T2, !side_dt. split; [reflexivity|]. split.
  - unfold Rdiv. rewrite Rabs_mult, Rabs_Ropp, (Rabs_pos_eq (/ 2)) by lra. reflexivity.
  - rewrite Cr. unfold tri_is_ccw. pose proof (orient_side e a b c ltac:(lia) (small_gpt _ _ Sa) (small_gpt _ _ Sb) (small_gpt _ _ Sc)) as S. rewrite side_dt in S.
    destruct (Rlt_dec 0 (det_pts a b c)); destruct S as [(-> & S)|[(-> & S)|(-> & S)]]; cbn; split; intros E; try discriminate E; try reflexivity; exfalso; lra.
Qed.

Definition quad : GPoly := mkPoly (a_ring [xy 0 0; xy 4 0; xy 4 2; xy 0 2; xy 0 0]) [] None None.
Example C82_example : hypot_accurate hypot_nearest /\ small_pt 0 (ipt 0 0) /\ small_pt 0 (ipt 4 4) /\ small_pt 0 (ipt 0 4) /\ small_pt 0 (ipt 4 0) /\
  has_intersection (compute_intersection_4 hypot_nearest li_default (ipt 0 0) (ipt 4 4) (ipt 0 4) (ipt 4 0)) = true /\
  is_on_segment (ipt 2 2) (ipt 0 0) (ipt 4 4) = true /\
  is_on_line_vec (ipt 2 2) [ipt 0 4; ipt 4 0; ipt 4 4] = Ok true /\
  proper_triangle (rpt (ipt 0 0)) (rpt (ipt 0 4)) (rpt (ipt 4 0)) /\ tri_intersects (ipt 0 0) (ipt 0 4) (ipt 4 0) (ipt 2 2) = true /\
  exact_ring 0 4 [(0, 0); (0, 4); (4, 0); (0, 0)]%Z [ipt 0 0; ipt 0 4; ipt 4 0; ipt 0 0] /\
  axis_rectangle (spts quad) /\ grid_ring 0 (ipt 4 1) (spts quad) /\ exact_ring 0 4 [(0, 0); (4, 0); (4, 2); (0, 2); (0, 0)]%Z (spts quad) /\
  locate_vec (ipt 4 1) (spts quad) = Ok BOUNDARY.
Proof.
  assert (forall n, (Z.abs n <= 2 ^ 53)%Z -> grid 0 (fofZ n) n) as G by apply grid_fofZ.
  assert (forall l cs, on_grid 0 l cs -> within 4 l -> closed_chain l -> (length cs <= 1000)%nat -> exact_ring 0 4 l cs) as X by (intros l cs A B C D; repeat split; auto; lia).
  split; [apply hypot_nearest_accurate|]. repeat (split; [apply ipt_small; cbn; lia|]). split; [vm_compute; reflexivity|].
  split; [vm_compute; reflexivity|]. split; [vm_compute; reflexivity|]. split.
  { apply proper_side. rewrite side_dt. unfold det_pts, det3, ipt. cbn [cx cy new_xy].
    assert (forall n, (Z.abs n <= 2 ^ 53)%Z -> R_of (fofZ n) = IZR n) as R by (intros n H; rewrite (proj2 (G n H)); change (bp 0) with 1; ring).
    rewrite !R by (cbn; lia). lra. }
  split; [vm_compute; reflexivity|]. split.
  { apply X; [repeat (apply Forall2_cons; [split; apply G; cbn; lia|]); apply Forall2_nil|repeat constructor; cbn; lia|now exists (0, 0)%Z, [(0, 4); (4, 0)]%Z|cbn; lia]. }
  split.
  { exists (fofZ 0), (fofZ 4), (fofZ 0), (fofZ 2). split; [intros E; discriminate E|]. split; [intros E; discriminate E|]. left.
    repeat (apply Forall2_cons; [split; vm_compute; reflexivity|]). apply Forall2_nil. }
  split.
  { split; [lia|]. split; [apply ipt_gpt; lia|]. split; [apply Forall_cons; [exact (ipt_gpt 0 0 ltac:(lia) ltac:(lia))|apply Forall_cons; [exact (ipt_gpt 4 0 ltac:(lia) ltac:(lia))|apply Forall_cons; [exact (ipt_gpt 4 2 ltac:(lia) ltac:(lia))|apply Forall_cons; [exact (ipt_gpt 0 2 ltac:(lia) ltac:(lia))|apply Forall_cons; [exact (ipt_gpt 0 0 ltac:(lia) ltac:(lia))|apply Forall_nil]]]]]|].
    split; [|cbn; unfold i32_max; lia]. exists (xy 0 0), [xy 4 0; xy 4 2; xy 0 2], (xy 0 0). split; reflexivity. }
  split; [|vm_compute; reflexivity].
  apply X; [repeat (apply Forall2_cons; [split; apply G; cbn; lia|]); apply Forall2_nil|repeat constructor; cbn; lia|now exists (0, 0)%Z, [(4, 0); (4, 2); (0, 2)]%Z|cbn; lia].
Qed.
