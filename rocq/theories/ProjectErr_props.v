(** C60: errors of projections and closest points at arbitrary doubles. *)
From Coq Require Import ZArith Bool List Reals Lia Lra Psatz.
From Flocq Require Import Core IEEE754.BinarySingleNaN.
From Verif Require Import Base F64 F64Facts F64Err Num NumLink Coordinate_model Coordinate_proofs Orientation_spec Orientation_proofs Orientation_props
  Distance_model Distance_spec Distance_proofs Distance_float Distance_props LineIntersector_proofs Segment_model DistanceErr_proofs SegSegErr_proofs
  DistanceErr_props ProjectErr_proofs.
Import ListNotations.
Local Open Scope R_scope.

(** [c] is [q] up to [k] in each direction, besides one rounding of the ordinates of [a]. *)
Definition near_point (k : R) (a c : Coordinate) (q : P2 R) : Prop :=
  fis_finite (cx c) = true /\ fis_finite (cy c) = true /\
  Rabs (R_of (cx c) - px q) <= k + bp (-53) * Rabs (R_of (cx a)) /\
  Rabs (R_of (cy c) - py q) <= k + bp (-53) * Rabs (R_of (cy a)).
Lemma near_self k a c : 0 <= k -> mid_pt c -> near_point k a c (rpt c).
Proof.
  intros K ((F1 & _) & (F2 & _)). unfold near_point. cbn [rpt px py]. rewrite !Rminus_eq_0, Rabs_R0.
  pose proof u53_pos as U. split; [exact F1|]. split; [exact F2|].
  split; (apply Rplus_le_le_0_compat; [exact K|apply Rmult_le_pos; [lra|apply Rabs_pos]]).
Qed.
Lemma ords_le a b : Rabs (px b - px a) <= dist a b /\ Rabs (py b - py a) <= dist a b.
Proof. split; (apply sq_abs_le; [apply dist_pos|]; rewrite dist_sq'; pose proof (Rle_0_sqr (px b - px a)) as X; pose proof (Rle_0_sqr (py b - py a)) as Y; unfold Rsqr in X, Y; lra). Qed.
(** A point of the line at a factor close to the exact one. *)
Lemma along_near p a b g c : mid_pt p -> mid_pt a -> mid_pt b -> rpt p <> rpt a -> rpt a <> rpt b ->
  let D := dist (rpt p) (rpt a) in let L := dist (rpt a) (rpt b) in let t := dotv (rpt p) (rpt a) (rpt b) / (L * L) in
  fis_finite g = true -> Rabs (R_of g - t) * L <= 14 * u53 * D ->
  near_point (20 * u53 * D) a (with_xy c (g_point_along f64 (NF (fun _ _ => f0)) (pf a) (pf b) g)) (along (rpt a) (rpt b) t).
Proof.
  intros Mp Ma Mb Pa Ab D L t Fg Eg. destruct (ords_le (rpt a) (rpt b)) as (Ox & Oy). cbn [rpt px py] in Ox, Oy.
  pose proof Ma as (Max & May). pose proof Mb as (Mbx & Mby).
  destruct (ord_f (fun _ _ => f0) p a b Mp Ma Mb Pa Ab g _ _ Fg Eg Max Mbx Ox) as (Fx & Ex).
  destruct (ord_f (fun _ _ => f0) p a b Mp Ma Mb Pa Ab g _ _ Fg Eg May Mby Oy) as (Fy & Ey).
  repeat split; assumption.
Qed.

(** The factor, for every point but the first end. *)
Lemma factor_near hypot s p : mid_pt p -> mid_pt (p0 s) -> mid_pt (p1 s) -> rpt p <> rpt (p0 s) -> rpt (p0 s) <> rpt (p1 s) ->
  let L := dist (rpt (p0 s)) (rpt (p1 s)) in let g := seg_projection_factor hypot s p in
  fis_finite g = true /\ Rabs (R_of g - dotv (rpt p) (rpt (p0 s)) (rpt (p1 s)) / (L * L)) * L <= 14 * u53 * dist (rpt p) (rpt (p0 s)).
Proof.
  intros Mp Ma Mb Pa Ab L g. unfold g, seg_projection_factor. assert (0 < L) as L0 by (now apply dist_pos_ne).
  destruct (feqb (cx p) (cx (p1 s)) && feqb (cy p) (cy (p1 s))) eqn:E.
  - assert (rpt p = rpt (p1 s)) as E' by (apply feqb_pt in E; [exact E|..]; apply mid_fin'; first [apply Mp|apply Mb]).
    unfold g_projection_factor, g_equals. cbn [neq NF pf px py]. rewrite E.
    destruct (feqb (cx p) (cx (p0 s)) && feqb (cy p) (cy (p0 s))) eqn:E1.
    { apply feqb_pt in E1; [contradiction|..]; apply mid_fin'; first [apply Mp|apply Ma]. }
    cbn [nofZ NF]. destruct fofZ_1 as (F1 & R1). split; [exact F1|]. rewrite R1, E'.
    replace (dotv (rpt (p1 s)) (rpt (p0 s)) (rpt (p1 s))) with (L * L) by (unfold L; rewrite dist_sq'; unfold dotv; ring).
    replace (1 - L * L / (L * L)) with 0 by (field; lra). rewrite Rabs_R0, Rmult_0_l. pose proof u53_pos. pose proof (dist_pos (rpt (p1 s)) (rpt (p0 s))). nra.
  - assert (rpt p <> rpt (p1 s)) as Pb.
    { intros Q. apply feqb_pt in Q; [congruence|..]; apply mid_fin'; first [apply Mp|apply Mb]. }
    rewrite (factor_link hypot p (p0 s) (p1 s) Mp Ma Mb Pa Ab Pb). destruct (factor_f hypot p (p0 s) (p1 s) Mp Ma Mb Pa Ab) as (F & B & _). split; assumption.
Qed.
Lemma equal_mid a b : mid_pt a -> mid_pt b -> (equals_2d a b = true <-> rpt a = rpt b).
Proof. intros (A1 & A2) (B1 & B2). apply equals_2d_rpt; split; now apply mid_fin'. Qed.

(** The projection of a point: within [2^-48 |p p0|] of the foot of the perpendicular, besides
    one rounding of the first end; the point itself if it is an end. *)
Theorem C60_project_error : forall hypot s p, mid_pt p -> mid_pt (p0 s) -> mid_pt (p1 s) -> rpt (p0 s) <> rpt (p1 s) ->
  exists q, on_line (rpt (p0 s)) (rpt (p1 s)) q /\
    (px (rpt p) - px q) * (px (rpt (p1 s)) - px (rpt (p0 s))) + (py (rpt p) - py q) * (py (rpt (p1 s)) - py (rpt (p0 s))) = 0 /\
    near_point (bp (-48) * dist (rpt p) (rpt (p0 s))) (p0 s) (seg_project hypot s p) q /\
    (rpt p = rpt (p0 s) \/ rpt p = rpt (p1 s) -> seg_project hypot s p = p).
Proof.
  intros hypot s p Mp Ma Mb Ab. pose proof u53_pos as U. pose proof (dist_pos (rpt p) (rpt (p0 s))) as D0. pose proof u_32 as U32.
  assert (0 <= bp (-48) * dist (rpt p) (rpt (p0 s))) as K0 by (apply Rmult_le_pos; [apply bpow_ge_0|exact D0]).
  unfold seg_project. destruct (equals_2d p (p0 s) || equals_2d p (p1 s)) eqn:E.
  - assert (from_coordinate p = p) as -> by (now destruct p). apply orb_true_iff in E. rewrite !equal_mid in E by assumption.
    exists (rpt p). split; [|split; [ring|split; [now apply near_self|auto]]].
    apply seg_line. destruct E as [E|E]; rewrite E; [apply seg_l|apply seg_r].
  - apply orb_false_iff in E. destruct E as (E1 & E2).
    assert (Pa : rpt p <> rpt (p0 s)) by (intros Q; apply equal_mid in Q; [congruence|assumption..]).
    assert (Pb : rpt p <> rpt (p1 s)) by (intros Q; apply equal_mid in Q; [congruence|assumption..]).
    destruct (factor_near hypot s p Mp Ma Mb Pa Ab) as (Fg & Eg). cbv zeta in *.
    set (L := dist (rpt (p0 s)) (rpt (p1 s))) in *. set (t := dotv _ _ _ / _) in *.
    assert (0 < L) as L0 by (now apply dist_pos_ne).
    exists (along (rpt (p0 s)) (rpt (p1 s)) t). split; [now exists t|]. split; [|split; [|tauto]].
    + unfold along. cbn [px py]. assert (T : t * (L * L) = dotv (rpt p) (rpt (p0 s)) (rpt (p1 s))) by (unfold t; field; lra).
      unfold L in T. rewrite dist_sq' in T. unfold dotv in T. lra.
    + destruct (along_near p (p0 s) (p1 s) _ p Mp Ma Mb Pa Ab Fg Eg) as (F1 & F2 & X & Y). fold L in X, Y. fold t in X, Y.
      split; [exact F1|]. split; [exact F2|]. assert (20 * u53 * dist (rpt p) (rpt (p0 s)) <= bp (-48) * dist (rpt p) (rpt (p0 s))) by (apply Rmult_le_compat_r; lra).
      split; (eapply Rle_trans; [eassumption|]; lra).
Qed.
(** The clamped projection. *)
Lemma clamp_near_point p a b g c : mid_pt p -> mid_pt a -> mid_pt b -> rpt p <> rpt a -> rpt a <> rpt b ->
  let D := dist (rpt p) (rpt a) in let L := dist (rpt a) (rpt b) in let t := dotv (rpt p) (rpt a) (rpt b) / (L * L) in
  fis_finite g = true -> Rabs (R_of g - t) * L <= 14 * u53 * D -> 0 <= R_of g <= 1 ->
  near_point (bp (-47) * D) a (with_xy c (g_point_along f64 (NF (fun _ _ => f0)) (pf a) (pf b) g)) (along (rpt a) (rpt b) (clamp t)).
Proof.
  intros Mp Ma Mb Pa Ab D L t Fg Eg Rg. destruct (along_near p a b g c Mp Ma Mb Pa Ab Fg Eg) as (F1 & F2 & X & Y). fold D L t in X, Y.
  pose proof (clamp_near t (R_of g) Rg) as Cn. pose proof u53_pos as U. pose proof (dist_pos (rpt p) (rpt a)) as D0. fold D in D0.
  assert (TL : Rabs (t - clamp t) * L <= 14 * u53 * D).
  { eapply Rle_trans; [|exact Eg]. apply Rmult_le_compat_r; [apply dist_pos|exact Cn]. }
  destruct (ords_le (rpt a) (rpt b)) as (Ox & Oy). fold L in Ox, Oy.
  assert (UD : 0 <= u53 * D) by (apply Rmult_le_pos; lra). rewrite <- u_64. unfold along in *. cbn [px py] in *.
  assert (K : forall z x w k, Rabs (z - (x + t * w)) <= 20 * u53 * D + k -> Rabs w <= L -> Rabs (z - (x + clamp t * w)) <= 64 * u53 * D + k).
  { intros z x w k Hz Hw. replace (z - (x + clamp t * w)) with ((z - (x + t * w)) + (t - clamp t) * w) by ring. eapply Rle_trans; [apply Rabs_triang|].
    assert (Rabs ((t - clamp t) * w) <= 14 * u53 * D); [|lra]. rewrite Rabs_mult. eapply Rle_trans; [|exact TL]. apply Rmult_le_compat_l; [apply Rabs_pos|exact Hw]. }
  split; [exact F1|]. split; [exact F2|]. split; apply K; assumption.
Qed.
(** The closest point: within [2^-47 |p p0|] of a point of the segment which is nearest up to
    [2^-48 |p p0|]. *)
Theorem C60_closest_point_error : forall hypot s p d, hypot_accurate hypot -> mid_pt p -> mid_pt (p0 s) -> mid_pt (p1 s) ->
  least_distance (eq (rpt p)) (on_segment (rpt (p0 s)) (rpt (p1 s))) d ->
  exists q, on_segment (rpt (p0 s)) (rpt (p1 s)) q /\ dist (rpt p) q <= d + bp (-48) * dist (rpt p) (rpt (p0 s)) /\
    near_point (bp (-47) * dist (rpt p) (rpt (p0 s))) (p0 s) (seg_closest_point hypot s p) q /\
    (rpt p = rpt (p0 s) \/ rpt p = rpt (p1 s) -> rpt (seg_closest_point hypot s p) = rpt p).
Proof.
  intros hypot s p d Hh Mp Ma Mb Ld. pose proof u53_pos as U. pose proof u53_small as Us. pose proof (dist_pos (rpt p) (rpt (p0 s))) as D0.
  pose proof (least_at _ _ _ _ Ld) as (Lo & t0 & T0 & Ed). pose proof (Lo _ (seg_l _ _)) as Da. pose proof (Lo _ (seg_r _ _)) as Db.
  assert (d0 : 0 <= d) by (rewrite Ed; apply dist_pos).
  set (D := dist (rpt p) (rpt (p0 s))) in *. assert (UD : 0 <= u53 * D) by (apply Rmult_le_pos; lra).
  assert (K47 : 0 <= bp (-47) * D) by (apply Rmult_le_pos; [apply bpow_ge_0|exact D0]).
  pose proof (end_near hypot p (p0 s) (p1 s) d Hh Mp Ma Mb Da) as En. fold D in En.
  set (e := if fltb (distance hypot (p0 s) p) (distance hypot (p1 s) p) then p0 s else p1 s) in *.
  assert (Se : on_segment (rpt (p0 s)) (rpt (p1 s)) (rpt e) /\ mid_pt e).
  { unfold e. destruct (fltb _ _); (split; [first [apply seg_l|apply seg_r]|assumption]). }
  destruct Se as (Se & Me).
  assert (Ends : (D <= d + 14 * u53 * D \/ dist (rpt p) (rpt (p1 s)) <= d + 14 * u53 * D) -> (rpt p = rpt (p0 s) \/ rpt p = rpt (p1 s) -> rpt e = rpt p) ->
    exists q, on_segment (rpt (p0 s)) (rpt (p1 s)) q /\ dist (rpt p) q <= d + bp (-48) * D /\ near_point (bp (-47) * D) (p0 s) e q /\
      (rpt p = rpt (p0 s) \/ rpt p = rpt (p1 s) -> rpt e = rpt p)).
  { intros H1 H2. exists (rpt e). split; [exact Se|]. split; [specialize (En H1); rewrite <- u_32; lra|]. split; [now apply near_self|exact H2]. }
  assert (Exact : rpt p = rpt (p0 s) \/ rpt p = rpt (p1 s) -> rpt e = rpt p).
  { intros H. destruct (dist_f hypot (p0 s) p Hh Ma Mp) as (F1 & E1). destruct (dist_f hypot (p1 s) p Hh Mb Mp) as (F2 & E2).
    rewrite (Distance_proofs.dist_sym (rpt (p0 s))) in E1. rewrite (Distance_proofs.dist_sym (rpt (p1 s))) in E2. fold D in E1.
    pose proof (dist_pos (rpt p) (rpt (p1 s))) as B0. set (B := dist (rpt p) (rpt (p1 s))) in *.
    unfold e. rewrite fltb_R by assumption. apply Rabs_le_inv in E1, E2.
    destruct (Rlt_bool_spec (R_of (distance hypot (p0 s) p)) (R_of (distance hypot (p1 s) p))) as [C|C].
    - destruct H as [H|H]; [now symmetry|]. assert (B = 0) as Bz by (unfold B; rewrite H; apply dist_0; reflexivity). rewrite Bz in *.
      symmetry. apply dist_0. fold D. nra.
    - destruct H as [H|H]; [|now symmetry]. assert (D = 0) as Dz by (unfold D; rewrite H; apply dist_0; reflexivity). rewrite Dz in *.
      symmetry. apply dist_0. fold B. nra. }
  unfold seg_closest_point. fold e. set (g := seg_projection_factor hypot s p).
  destruct (equals_2d (p0 s) (p1 s)) eqn:Q.
  { (* the two ends are the same *)
    apply equal_mid in Q; [|assumption..].
    assert (Hd : d = D). { rewrite Ed, <- Q, along_same. reflexivity. }
    assert (G : fgtb g f0 && fltb g f1 = false).
    { unfold g, seg_projection_factor, g_projection_factor, g_equals. cbn [neq NF pf px py].
      destruct (feqb (cx p) (cx (p0 s)) && feqb (cy p) (cy (p0 s))); [reflexivity|].
      destruct (feqb (cx p) (cx (p1 s)) && feqb (cy p) (cy (p1 s))); [reflexivity|].
      cbv zeta. cbn [nle nadd nmul nsub NF nofZ].
      pose proof Ma as (Max & May). pose proof Mb as (Mbx & Mby).
      destruct (mid_diff _ _ Mbx Max) as (B1 & R1 & _). destruct (mid_diff _ _ Mby May) as (B2 & R2 & _).
      injection Q as Qx Qy. rewrite Qx in R1. rewrite Qy in R2. unfold ru in R1, R2. rewrite Rminus_eq_0, Rabs_R0, Rmult_0_r, Rminus_0_r in R1, R2.
      assert (Z1 : R_of (fsub (cx (p1 s)) (cx (p0 s))) = 0) by (apply Rabs_eq_R0; pose proof (Rabs_pos (R_of (fsub (cx (p1 s)) (cx (p0 s))))); lra).
      assert (Z2 : R_of (fsub (cy (p1 s)) (cy (p0 s))) = 0) by (apply Rabs_eq_R0; pose proof (Rabs_pos (R_of (fsub (cy (p1 s)) (cy (p0 s))))); lra).
      destruct (prods_f _ _ _ _ B1 B2 B1 B2) as ((Fn & En') & _). rewrite Z1, Z2, !Rmult_0_l, !RN_0, Rplus_0_r, RN_0 in En'.
      destruct fofZ_0 as (F0 & R0). rewrite (fleb_R _ _ Fn F0), En', R0, Rle_bool_true by lra. reflexivity. }
    rewrite G. apply Ends; [left; lra|exact Exact]. }
  assert (Ab : rpt (p0 s) <> rpt (p1 s)) by (intros H; apply equal_mid in H; [congruence|assumption..]).
  destruct (equals_2d p (p0 s)) eqn:Q1.
  { apply equal_mid in Q1; [|assumption..]. assert (Dz : D = 0) by (unfold D; rewrite Q1; apply dist_0; reflexivity).
    assert (G : g = f0).
    { unfold g, seg_projection_factor, g_projection_factor, g_equals. cbn [neq NF pf px py].
      destruct (feqb (cx p) (cx (p0 s)) && feqb (cy p) (cy (p0 s))) eqn:E; [reflexivity|].
      apply not_true_iff_false in E. exfalso. apply E. apply feqb_pt; [..|exact Q1]; apply mid_fin'; first [apply Mp|apply Ma]. }
    rewrite G. change (fgtb f0 f0 && fltb f0 f1) with false. cbv iota. apply Ends; [left; rewrite Dz; lra|exact Exact]. }
  assert (Pa : rpt p <> rpt (p0 s)) by (intros H; apply equal_mid in H; [congruence|assumption..]).
  destruct (factor_near hypot s p Mp Ma Mb Pa Ab) as (Fg & Eg). cbv zeta in *. fold g D in Fg, Eg.
  set (L := dist (rpt (p0 s)) (rpt (p1 s))) in *. assert (0 < L) as L0 by (now apply dist_pos_ne).
  set (t := dotv _ _ _ / _) in *. assert (T : dotv (rpt p) (rpt (p0 s)) (rpt (p1 s)) = t * (L * L)) by (unfold t; field; lra).
  change (fgtb g f0) with (fltb f0 g). rewrite (fltb_R f0 g), (fltb_R g f1) by (try reflexivity; exact Fg). change (R_of f0) with 0.
  assert (R_of f1 = 1) as R1 by (apply fofZ_1). rewrite R1.
  assert (GT : Rabs (R_of g - t) * L = Rabs ((R_of g - t) * L)) by (rewrite Rabs_mult, (Rabs_pos_eq L); lra). rewrite GT in Eg.
  assert (Eg' := Eg). apply Rabs_le_inv in Eg'.
  destruct (Rlt_bool_spec 0 (R_of g)) as [C1|C1]; cbn [andb].
  - destruct (Rlt_bool_spec (R_of g) 1) as [C2|C2].
    + exists (along (rpt (p0 s)) (rpt (p1 s)) (clamp t)). split; [eexists; split; [apply clamp_range|reflexivity]|]. split; [|split].
      * unfold t, L. rewrite (clamp_least _ _ _ d Ab Ld). rewrite <- u_32. lra.
      * apply (clamp_near_point p (p0 s) (p1 s) g p Mp Ma Mb Pa Ab Fg); [change (Rabs (R_of g - t) * L <= 14 * u53 * D); rewrite GT; exact Eg|lra].
      * intros [H|H]; [contradiction|]. exfalso.
        assert (g = f1); [|subst g; rewrite H0, R1 in C2; lra].
        unfold g, seg_projection_factor, g_projection_factor, g_equals. cbn [neq NF pf px py].
        destruct (feqb (cx p) (cx (p0 s)) && feqb (cy p) (cy (p0 s))) eqn:E1.
        { apply feqb_pt in E1; [contradiction|..]; apply mid_fin'; first [apply Mp|apply Ma]. }
        destruct (feqb (cx p) (cx (p1 s)) && feqb (cy p) (cy (p1 s))) eqn:E2; [reflexivity|].
        apply not_true_iff_false in E2. exfalso. apply E2. apply feqb_pt; [..|exact H]; apply mid_fin'; first [apply Mp|apply Mb].
    + apply Ends; [right|exact Exact].
      assert (least_distance (eq (rpt p)) (on_segment (rpt (p1 s)) (rpt (p0 s))) d) as Ld'.
      { destruct Ld as ((x & y & Hx & Hy & Hxy) & Hm). assert (K : forall q, on_segment (rpt (p1 s)) (rpt (p0 s)) q <-> on_segment (rpt (p0 s)) (rpt (p1 s)) q).
        { intros q. split; intros (v & V & ->); exists (1 - v); (split; [lra|]); unfold along; f_equal; ring. }
        split; [exists x, y; repeat split; try assumption; now apply K|]. intros x' y' Hx' Hy'. apply Hm; [exact Hx'|now apply K]. }
      destruct (near_end (rpt p) (rpt (p1 s)) (rpt (p0 s)) d (14 * u53 * D) Ld') as (N1 & _); [lra| |lra].
      rewrite dot_flip, T, (Distance_proofs.dist_sym (rpt (p1 s))). fold L.
      replace (L * L - t * (L * L)) with ((1 - t) * L * L) by ring. apply Rmult_le_compat_r; [lra|]. nra.
  - apply Ends; [left|exact Exact].
    destruct (near_end (rpt p) (rpt (p0 s)) (rpt (p1 s)) d (14 * u53 * D) Ld) as (N1 & _); [lra| |fold D in N1; lra].
    rewrite T. fold L. replace (t * (L * L)) with (t * L * L) by ring. apply Rmult_le_compat_r; [lra|]. nra.
Qed.
(** One projected end. *)
Lemma flip_least p a b d : least_distance (eq p) (on_segment a b) d -> least_distance (eq p) (on_segment b a) d.
Proof.
  assert (K : forall q, on_segment b a q <-> on_segment a b q).
  { intros q. split; intros (v & V & ->); exists (1 - v); (split; [lra|]); unfold along; f_equal; ring. }
  intros ((x & y & Hx & Hy & Hxy) & Hm). split; [exists x, y; repeat split; try assumption; now apply K|]. intros x' y' Hx' Hy'. apply Hm; [exact Hx'|now apply K].
Qed.
Lemma along_zero a b c : mid_pt a -> mid_pt b ->
  near_point 0 a (with_xy c (g_point_along f64 (NF (fun _ _ => f0)) (pf a) (pf b) f0)) (rpt a).
Proof.
  intros (Ax & Ay) (Bx & By). pose proof u53_pos as U.
  assert (K : forall x0 x1, mid x0 -> mid x1 -> fis_finite (fadd x0 (fmul f0 (fsub x1 x0))) = true /\ R_of (fadd x0 (fmul f0 (fsub x1 x0))) = R_of x0).
  { intros x0 x1 M0 M1. destruct (mid_diff x1 x0 M1 M0) as ((Fd & _) & _ & _). pose proof (mid_fin' _ M0) as F0.
    destruct (fmul_R f0 (fsub x1 x0) eq_refl Fd) as (Fm & Em). { change (R_of f0) with 0. rewrite Rmult_0_l, RN_0, Rabs_R0. apply bpow_gt_0. }
    change (R_of f0) with 0 in Em. rewrite Rmult_0_l, RN_0 in Em.
    assert (G : RN (R_of x0) = R_of x0) by (apply round_generic; [apply valid_rnd_N|apply generic_format_B2R]).
    destruct (fadd_R x0 (fmul f0 (fsub x1 x0)) F0 Fm) as (Fz & Ez). { rewrite Em, Rplus_0_r, G. apply abs_B2R_lt_emax. }
    split; [exact Fz|]. now rewrite Ez, Em, Rplus_0_r. }
  destruct (K _ _ Ax Bx) as (F1 & E1). destruct (K _ _ Ay By) as (F2 & E2).
  unfold near_point, with_xy, g_point_along. cbn [cx cy NF nadd nmul nsub pf px py rpt set_x set_y]. rewrite E1, E2, !Rminus_eq_0, Rabs_R0, !Rplus_0_l.
  repeat split; try assumption; (apply Rmult_le_pos; [apply bpow_ge_0|apply Rabs_pos]).
Qed.
Lemma near_weak k k' a c q : k <= k' -> near_point k a c q -> near_point k' a c q.
Proof. intros K (F1 & F2 & X & Y). repeat split; try assumption; lra. Qed.
Lemma end_seen hypot s p : mid_pt p -> mid_pt (p0 s) -> mid_pt (p1 s) -> rpt (p0 s) <> rpt (p1 s) ->
  let a := rpt (p0 s) in let b := rpt (p1 s) in let D := dist (rpt p) a in let g := seg_projection_factor hypot s p in
  fis_finite g = true /\
  (R_of g <= 0 -> forall q, on_segment a b q -> D <= dist (rpt p) q + bp (-48) * D) /\
  (1 <= R_of g -> forall q, on_segment a b q -> dist (rpt p) b <= dist (rpt p) q + bp (-48) * D) /\
  exists q, least_distance (eq (rpt p)) (on_segment a b) (dist (rpt p) q) /\ on_segment a b q /\
    (0 <= R_of g <= 1 -> near_point (bp (-47) * D) (p0 s) (seg_project_with hypot s p g) q) /\
    (R_of g < 0 -> near_point (bp (-47) * D) (p0 s) (p0 s) q) /\
    (1 < R_of g -> near_point (bp (-47) * D) (p0 s) (p1 s) q).
Proof.
  intros Mp Ma Mb Ab a b D g. pose proof u53_pos as U. pose proof (dist_pos (rpt p) a) as D0. fold D in D0.
  assert (UD : 0 <= u53 * D) by (apply Rmult_le_pos; lra). pose proof u_32 as U32. pose proof u_64 as U64.
  assert (Ex : exists d, least_distance (eq (rpt p)) (on_segment a b) d) by (eexists; apply p2s_least). destruct Ex as (d & Ld).
  pose proof (least_at _ _ _ _ Ld) as (Lo & _).
  set (L := dist a b). assert (0 < L) as L0 by (now apply dist_pos_ne).
  set (t := dotv (rpt p) a b / (L * L)). assert (T : dotv (rpt p) a b = t * (L * L)) by (unfold t; field; lra).
  pose proof (clamp_least _ _ _ d Ab Ld) as Cl. fold a b L t in Cl.
  assert (Fg : fis_finite g = true /\ Rabs (R_of g - t) * L <= 14 * u53 * D /\ (rpt p = a -> g = f0)).
  { destruct (equals_2d p (p0 s)) eqn:Q1.
    - apply equal_mid in Q1; [|assumption..]. fold a in Q1.
      assert (G : g = f0).
      { unfold g, seg_projection_factor, g_projection_factor, g_equals. cbn [neq NF pf px py].
        destruct (feqb (cx p) (cx (p0 s)) && feqb (cy p) (cy (p0 s))) eqn:E; [reflexivity|].
        apply not_true_iff_false in E. exfalso. apply E. apply feqb_pt; [..|exact Q1]; apply mid_fin'; first [apply Mp|apply Ma]. }
      rewrite G. split; [reflexivity|]. split; [|auto]. unfold t. rewrite Q1. unfold dotv. change (R_of f0) with 0.
      rewrite !Rminus_eq_0, !Rmult_0_l, Rplus_0_r. unfold Rdiv. rewrite Rmult_0_l, Rminus_0_r, Rabs_R0, Rmult_0_l. lra.
    - assert (Pa : rpt p <> a) by (intros H; apply equal_mid in H; [congruence|assumption..]).
      destruct (factor_near hypot s p Mp Ma Mb Pa Ab) as (F & E). split; [exact F|]. split; [exact E|contradiction]. }
  destruct Fg as (Fg & Eg & G0). split; [exact Fg|].
  assert (Eg' : Rabs ((R_of g - t) * L) <= 14 * u53 * D) by (rewrite Rabs_mult, (Rabs_pos_eq L); lra). apply Rabs_le_inv in Eg'.
  split; [|split].
  - intros C q Q. destruct (near_end (rpt p) a b d (14 * u53 * D) Ld) as (N1 & _); [lra| |fold D in N1; specialize (Lo q Q); rewrite <- U32; lra].
    rewrite T. fold L. replace (t * (L * L)) with (t * L * L) by ring. apply Rmult_le_compat_r; [lra|]. nra.
  - intros C q Q. destruct (near_end (rpt p) b a d (14 * u53 * D) (flip_least _ _ _ _ Ld)) as (N1 & _); [lra| |specialize (Lo q Q); rewrite <- U32; lra].
    rewrite dot_flip, T, (Distance_proofs.dist_sym b a). fold L. replace (L * L - t * (L * L)) with ((1 - t) * L * L) by ring. apply Rmult_le_compat_r; [lra|]. nra.
  - exists (along a b (clamp t)). rewrite Cl. split; [exact Ld|]. split; [eexists; split; [apply clamp_range|reflexivity]|].
    destruct (ords_le a b) as (Ox & Oy). fold L in Ox, Oy.
    assert (K : forall w v, Rabs v * L <= 14 * u53 * D -> Rabs w <= L -> forall x, 0 <= x -> Rabs (v * w) <= bp (-47) * D + bp (-53) * x).
    { intros w v Hv Hw x Hx. assert (Rabs (v * w) <= 14 * u53 * D); [|rewrite <- U64; assert (0 <= u53 * x) by (apply Rmult_le_pos; lra); lra].
      rewrite Rabs_mult. eapply Rle_trans; [|exact Hv]. apply Rmult_le_compat_l; [apply Rabs_pos|exact Hw]. }
    split; [|split].
    + intros C. destruct (equals_2d p (p0 s)) eqn:Q1.
      * apply equal_mid in Q1; [|assumption..]. fold a in Q1. rewrite (G0 Q1).
        assert (Z : along a b (clamp t) = a).
        { assert (d = 0) as Dz. { pose proof (Lo a (seg_l a b)) as H. rewrite Q1, (proj2 (dist_0 a a) eq_refl) in H. rewrite <- Cl in *. pose proof (dist_pos (rpt p) (along a b (clamp t))). lra. }
          rewrite Dz in Cl. apply dist_0 in Cl. now rewrite <- Cl. }
        rewrite Z. apply (near_weak 0); [apply Rmult_le_pos; [apply bpow_ge_0|exact D0]|]. now apply along_zero.
      * assert (Pa : rpt p <> a) by (intros H; apply equal_mid in H; [congruence|assumption..]).
        apply (clamp_near_point p (p0 s) (p1 s) g p Mp Ma Mb Pa Ab Fg Eg C).
    + intros C. destruct Ma as ((F1 & _) & (F2 & _)). split; [exact F1|]. split; [exact F2|]. unfold along. cbn [px py].
      assert (V : Rabs (0 - clamp t) * L <= 14 * u53 * D).
      { eapply Rle_trans; [|exact Eg]. apply Rmult_le_compat_r; [lra|]. destruct (clamp_cases t) as [(A & ->)|[(A & ->)|(A & ->)]]; unfold Rabs; repeat destruct Rcase_abs; lra. }
      split; [replace (R_of (cx (p0 s)) - _) with ((0 - clamp t) * (px b - px a)) by (unfold a; cbn [rpt px]; ring)
             |replace (R_of (cy (p0 s)) - _) with ((0 - clamp t) * (py b - py a)) by (unfold a; cbn [rpt py]; ring)]; apply K; try assumption; apply Rabs_pos.
    + intros C. destruct Mb as ((F1 & _) & (F2 & _)). split; [exact F1|]. split; [exact F2|]. unfold along. cbn [px py].
      assert (V : Rabs (1 - clamp t) * L <= 14 * u53 * D).
      { eapply Rle_trans; [|exact Eg]. apply Rmult_le_compat_r; [lra|]. destruct (clamp_cases t) as [(A & ->)|[(A & ->)|(A & ->)]]; unfold Rabs; repeat destruct Rcase_abs; lra. }
      split; [replace (R_of (cx (p1 s)) - _) with ((1 - clamp t) * (px b - px a)) by (unfold a, b; cbn [rpt px]; ring)
             |replace (R_of (cy (p1 s)) - _) with ((1 - clamp t) * (py b - py a)) by (unfold a, b; cbn [rpt py]; ring)]; apply K; try assumption; apply Rabs_pos.
Qed.
(** The part of [t] seen on [s]: each end is within [2^-47] of the distance of the projected
    end to [p0 s] of the nearest point of [s]; and nothing is seen only if one end of [s] is
    nearest to both, up to [2^-48] of that distance. *)
Theorem C60_project_segment_error : forall hypot s t, mid_pt (p0 s) -> mid_pt (p1 s) -> mid_pt (p0 t) -> mid_pt (p1 t) -> rpt (p0 s) <> rpt (p1 s) ->
  let D p := dist (rpt p) (rpt (p0 s)) in let on := on_segment (rpt (p0 s)) (rpt (p1 s)) in
  (forall r, seg_project_segment hypot s t = Some r -> exists q0 q1,
    least_distance (eq (rpt (p0 t))) on (dist (rpt (p0 t)) q0) /\ on q0 /\ near_point (bp (-47) * D (p0 t)) (p0 s) (p0 r) q0 /\
    least_distance (eq (rpt (p1 t))) on (dist (rpt (p1 t)) q1) /\ on q1 /\ near_point (bp (-47) * D (p1 t)) (p0 s) (p1 r) q1) /\
  (seg_project_segment hypot s t = None -> exists e, (e = p0 s \/ e = p1 s) /\
    forall p q, p = p0 t \/ p = p1 t -> on q -> dist (rpt p) (rpt e) <= dist (rpt p) q + bp (-48) * D p).
Proof.
  intros hypot s t Ma Mb M0 M1 Ab D on.
  destruct (end_seen hypot s (p0 t) M0 Ma Mb Ab) as (F0 & A0 & B0 & q0 & L0 & S0 & X0 & Y0 & Z0).
  destruct (end_seen hypot s (p1 t) M1 Ma Mb Ab) as (F1 & A1 & B1 & q1 & L1 & S1 & X1 & Y1 & Z1). cbv zeta in *.
  unfold seg_project_segment. set (g0 := seg_projection_factor hypot s (p0 t)) in *. set (g1 := seg_projection_factor hypot s (p1 t)) in *.
  assert (R_of f1 = 1) as R1 by (apply fofZ_1). assert (fis_finite f1 = true) as Fo by reflexivity. assert (fis_finite f0 = true) as Fz by reflexivity.
  unfold fgeb, fgtb. rewrite !fleb_R, !fltb_R by assumption. rewrite R1. change (R_of f0) with 0. split.
  - intros r E.
    repeat match type of E with (if ?c then None else _) = _ => destruct c; [discriminate E|] end. injection E as <-. cbn [p0 p1 seg_new].
    exists q0, q1. split; [exact L0|]. split; [exact S0|]. split; [|split; [exact L1|split; [exact S1|]]].
    + destruct (Rlt_bool_spec 1 (R_of g0)); [now apply Z0|]. destruct (Rlt_bool_spec (R_of g0) 0); [now apply Y0|]. apply X0. lra.
    + destruct (Rlt_bool_spec (R_of g1) 0); [now apply Y1|]. destruct (Rlt_bool_spec 1 (R_of g1)); [now apply Z1|]. apply X1. lra.
  - intros E. destruct (Rle_bool_spec 1 (R_of g0)) as [C1|C1]; destruct (Rle_bool_spec 1 (R_of g1)) as [C2|C2]; cbn [andb] in E.
    1: { exists (p1 s). split; [auto|]. intros p q [->| ->] Q; [now apply B0|now apply B1]. }
    all: destruct (Rle_bool_spec (R_of g0) 0) as [C3|C3]; destruct (Rle_bool_spec (R_of g1) 0) as [C4|C4]; cbn [andb] in E; try discriminate E;
      exists (p0 s); (split; [auto|]); intros p q [->| ->] Q; [now apply A0|now apply A1].
Qed.
(** Whole numbers of 53 bits meet the hypotheses. *)
Example C60_project_example : let s := seg_new (ipt (-7133076484045958) (-8129032865733261)) (ipt 1338305020872253 8309691490562598) in
  let p := ipt 2286074391824355 (-4348128780894696) in
  mid_pt p /\ mid_pt (p0 s) /\ mid_pt (p1 s) /\ rpt (p0 s) <> rpt (p1 s) /\
  rpt p <> rpt (p0 s) /\ exists d, least_distance (eq (rpt p)) (on_segment (rpt (p0 s)) (rpt (p1 s))) d.
Proof.
  intros s p. change (p0 s) with (ipt (-7133076484045958) (-8129032865733261)). change (p1 s) with (ipt 1338305020872253 8309691490562598). subst p.
  destruct (mid_ipt (-7133076484045958) (-8129032865733261)) as (Ma & Ra); try lia.
  destruct (mid_ipt 1338305020872253 8309691490562598) as (Mb & Rb); try lia.
  destruct (mid_ipt 2286074391824355 (-4348128780894696)) as (Mp & Rp); try lia.
  do 3 (split; [assumption|]). rewrite Ra, Rb, Rp. split; [intros E; injection E; lra|]. split; [intros E; injection E; lra|].
  eexists. apply p2s_least.
Qed.
