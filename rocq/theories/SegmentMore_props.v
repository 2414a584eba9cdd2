(** C60, continued: bounds, lengths, projections and offsets in doubles. *)
From Coq Require Import ZArith Bool List Reals Lia Lra Psatz.
From Flocq Require Import Core IEEE754.BinarySingleNaN.
From Verif Require Import Base F64 F64Facts F64Err Num NumLink DD_spec DD_more Coordinate_model Coordinate_proofs Orientation_model Orientation_spec Orientation_props
  Distance_model Distance_spec Distance_proofs Distance_float Distance_props Envelope_proofs Intersection_spec Intersection_proofs Intersection_props
  PointLocation_proofs LineIntersector_proofs DDArith_proofs Distance3D_props Segment_model Segment_proofs Segment_float Segment_props.
Import ListNotations.
Local Open Scope R_scope.

(** *** Bounds *)
(** The least and greatest ordinates are attained by an end and bound every
    point of the segment. *)
Theorem C60_extent : forall e s, (-400 <= e <= 400)%Z -> seg_of e s ->
  (R_of (seg_min_x s) = R_of (cx (p0 s)) \/ R_of (seg_min_x s) = R_of (cx (p1 s))) /\
  (R_of (seg_max_x s) = R_of (cx (p0 s)) \/ R_of (seg_max_x s) = R_of (cx (p1 s))) /\
  (R_of (seg_min_y s) = R_of (cy (p0 s)) \/ R_of (seg_min_y s) = R_of (cy (p1 s))) /\
  (R_of (seg_max_y s) = R_of (cy (p0 s)) \/ R_of (seg_max_y s) = R_of (cy (p1 s))) /\
  (forall q, on_segment (rpt (p0 s)) (rpt (p1 s)) q ->
     R_of (seg_min_x s) <= px q <= R_of (seg_max_x s) /\ R_of (seg_min_y s) <= py q <= R_of (seg_max_y s)).
Proof.
  intros e s He (S0 & S1). apply small_ptx in S0, S1. destruct S0 as (X0 & Y0), S1 as (X1 & Y1).
  destruct (fmin_val e He 24 _ _ _ _ X0 X1) as (A & B). destruct (fmin_val e He 24 _ _ _ _ Y0 Y1) as (C & D). cbn [pf px py rpt] in *.
  unfold seg_min_x, seg_max_x, seg_min_y, seg_max_y. rewrite (ex_R _ _ _ _ A), (ex_R _ _ _ _ B), (ex_R _ _ _ _ C), (ex_R _ _ _ _ D).
  assert (forall a b, (Rmin a b = a \/ Rmin a b = b) /\ (Rmax a b = a \/ Rmax a b = b)) as MM.
  { intros a b. unfold Rmin, Rmax. destruct (Rle_dec a b); auto. }
  do 4 (split; [apply MM|]).
  intros q (t & T & ->). unfold along. cbn [px py]. split; apply along_box; exact T.
Qed.
(** Horizontal and vertical are equalities of ordinates. *)
Theorem C60_horizontal_vertical : forall e s, seg_of e s ->
  (is_horizontal s = true <-> R_of (cy (p0 s)) = R_of (cy (p1 s))) /\ (is_vertical s = true <-> R_of (cx (p0 s)) = R_of (cx (p1 s))).
Proof.
  intros e s (S0 & S1). destruct (small_fin _ _ S0), (small_fin _ _ S1). unfold is_horizontal, is_vertical. rewrite !feqb_R by assumption.
  split; match goal with |- Req_bool ?a ?b = true <-> _ => destruct (Req_bool_spec a b) end; split; intros; try assumption; try discriminate; try reflexivity; contradiction.
Qed.
(** *** Which side a segment lies on *)
(** 1 when [t] has points on the left and none on the right, -1 the other way
    round, and otherwise 0. *)
Theorem C60_orientation_segment : forall e s t, (-100 <= e <= 70)%Z -> seg_of e s -> seg_of e t ->
  let sd := side (rpt (p0 s)) (rpt (p1 s)) in let on_t := on_segment (rpt (p0 t)) (rpt (p1 t)) in
  let left := exists q, on_t q /\ 0 < sd q in let right := exists q, on_t q /\ sd q < 0 in
  (orientation_segment s t = 1%Z <-> left /\ ~ right) /\ (orientation_segment s t = (-1)%Z <-> right /\ ~ left) /\
  (orientation_segment s t = 1 \/ orientation_segment s t = -1 \/ orientation_segment s t = 0)%Z.
Proof.
  intros e s t He Ss (T0 & T1) sd on_t left right.
  destruct (C60_orientation_intersection (fun _ _ => f0) e s s (p0 t) He Ss Ss T0) as (O0 & _).
  destruct (C60_orientation_intersection (fun _ _ => f0) e s s (p1 t) He Ss Ss T1) as (O1 & _).
  unfold orientation_coordinate in *. unfold orientation_segment. fold (sd (rpt (p0 t))) in O0. fold (sd (rpt (p1 t))) in O1.
  set (a := rpt (p0 t)) in *. set (b := rpt (p1 t)) in *.
  assert (forall u, sd (along a b u) = (1 - u) * sd a + u * sd b) as AF by (intros u; unfold sd, side, along; cbn [px py]; ring).
  assert (left <-> 0 < sd a \/ 0 < sd b) as HL.
  { split.
    - intros (q & (u & U & ->) & H). rewrite AF in H. destruct (Rlt_or_le 0 (sd a)); [now left|]. destruct (Rlt_or_le 0 (sd b)); [now right|]. nra.
    - intros [H|H]; [exists (along a b 0)|exists (along a b 1)]; (split; [eexists; split; [|reflexivity]; lra|]); rewrite AF; lra. }
  assert (right <-> sd a < 0 \/ sd b < 0) as HR.
  { split.
    - intros (q & (u & U & ->) & H). rewrite AF in H. destruct (Rlt_or_le (sd a) 0); [now left|]. destruct (Rlt_or_le (sd b) 0); [now right|]. nra.
    - intros [H|H]; [exists (along a b 0)|exists (along a b 1)]; (split; [eexists; split; [|reflexivity]; lra|]); rewrite AF; lra. }
  rewrite HL, HR. clearbody sd a b. clear HL HR AF left right on_t.
  destruct O0 as [(-> & P0)|[(-> & P0)|(-> & P0)]], O1 as [(-> & P1)|[(-> & P1)|(-> & P1)]]; cbn;
    repeat split; intros; try lra; try discriminate; auto; try (destruct H; exfalso; lra).
Qed.
(** *** Lengths and distances *)
Theorem C60_lengths : forall hypot e s t p, hypot_accurate hypot -> (-400 <= e <= 400)%Z -> seg_of e s -> seg_of e t -> small_pt e p ->
  close_to (seg_length hypot s) (dist (rpt (p0 s)) (rpt (p1 s))) /\
  (forall d, least_distance (eq (rpt p)) (on_segment (rpt (p0 s)) (rpt (p1 s))) d -> close_to (seg_distance hypot s p) d) /\
  (forall d, least_distance (on_segment (rpt (p0 s)) (rpt (p1 s))) (on_segment (rpt (p0 t)) (rpt (p1 t))) d -> close_to (seg_distance_segment hypot s t) d).
Proof.
  intros hypot e s t p Hh He (S0 & S1) (T0 & T1) Sp. split; [apply (C74_distance_plane hypot e); assumption|]. split; intros d L.
  - apply (C52_point_to_segment_close hypot e); assumption.
  - apply (C52_segment_to_segment_close hypot e (p0 s) (p1 s) (p0 t) (p1 t)); assumption.
Qed.
(** The perpendicular distance in doubles. *)
Lemma perp_ap hypot e : (-400 <= e <= 400)%Z -> forall p a b P A B, ptx e 24 p P -> ptx e 24 a A -> ptx e 24 b B -> A <> B ->
  ap 4 (g_line_perpendicular f64 (NF hypot) p a b) (g_line_perpendicular R NR P A B) /\
  ap 4 (g_line_perpendicular_signed f64 (NF hypot) p a b) (g_line_perpendicular_signed R NR P A B) /\
  Rabs (R_of (g_line_perpendicular_signed f64 (NF hypot) p a b)) = R_of (g_line_perpendicular f64 (NF hypot) p a b).
Proof.
  intros He p a b P A B (Px & Py) (Ax & Ay) (Bx & By_) NE. unfold g_line_perpendicular, g_line_perpendicular_signed, g_len2, g_side.
  cbn [NF NR neq nsub nmul nadd ndiv nle nabs nsqrt nhyp nofZ].
  pose proof (d_ex e He _ _ _ _ Bx Ax) as X1. pose proof (d_ex e He _ _ _ _ By_ Ay) as X2.
  pose proof (ex_add (e + e) 50 _ _ _ _ ltac:(lia) ltac:(lia) (m_ex e He _ _ _ _ X1 X1) (m_ex e He _ _ _ _ X2 X2)) as L.
  pose proof (d_ex e He _ _ _ _ Ay Py) as X5. pose proof (d_ex e He _ _ _ _ Ax Px) as X6.
  pose proof (ex_sub (e + e) 50 _ _ _ _ ltac:(lia) ltac:(lia) (m_ex e He _ _ _ _ X5 X1) (m_ex e He _ _ _ _ X6 X2)) as SD.
  change (50 + 1)%Z with 51%Z in *.
  assert (LP : 0 < (px B - px A) * (px B - px A) + (py B - py A) * (py B - py A)) by (exact (neq_len2 A B NE)).
  set (l := fadd (fmul (fsub (px b) (px a)) (fsub (px b) (px a))) (fmul (fsub (py b) (py a)) (fsub (py b) (py a)))) in *.
  set (Lr := (px B - px A) * (px B - px A) + (py B - py A) * (py B - py A)) in *.
  set (s := fsub (fmul (fsub (py a) (py p)) (fsub (px b) (px a))) (fmul (fsub (px a) (px p)) (fsub (py b) (py a)))) in *.
  set (Sr := (py A - py P) * (px B - px A) - (px A - px P) * (py B - py A)) in *.
  clearbody l Lr s Sr. clear X1 X2 X5 X6.
  pose proof (ex_div (e + e) 51 51 _ _ _ _ ltac:(lia) ltac:(lia) SD L ltac:(lra)) as Q0. pose proof Q0 as Q1. apply ap_abs in Q1.
  destruct (ex_div_val (e + e) 51 51 _ _ _ _ ltac:(lia) ltac:(lia) SD L ltac:(lra)) as (_ & _ & Q2).
  assert (LR : bp (e + e) <= Lr <= bp (e + e + 51)).
  { destruct L as (_ & _ & m & Hm & G). pose proof (bpow_gt_0 radix2 (e + e)) as Bp. rewrite G in LP |- *.
    assert (0 < IZR m) by (apply (Rmult_lt_reg_r (bp (e + e))); lra). assert (0 < m)%Z by (apply lt_IZR; assumption). assert (1 <= IZR m) by (apply IZR_le; lia).
    assert (IZR m <= bp 51) by (rewrite <- (IZR_Zpower radix2) by lia; apply IZR_le; change (radix_val radix2) with 2%Z; lia).
    rewrite (bpow_plus radix2 (e + e) 51). clear - Bp H1 H2. set (Z := bp (e + e)) in *. clearbody Z. split; nra. }
  assert (Q3 : ap 1 (fsqrt l) (sqrt Lr)).
  { rewrite <- (ex_R _ _ _ _ L). apply ap_sqrt; [apply (ex_fin _ _ _ _ L) |]. rewrite (ex_R _ _ _ _ L).
    eapply Rle_trans; [| apply LR]. apply bpow_le. lia. }
  assert (S1 : bp e <= sqrt Lr).
  { rewrite <- (sqrt_Rsqr (bp e)) by apply bpow_ge_0. apply sqrt_le_1_alt. unfold Rsqr. rewrite <- bpow_plus. apply LR. }
  assert (S2 : sqrt Lr <= bp (e + 26)).
  { rewrite <- (sqrt_Rsqr (bp (e + 26))) by apply bpow_ge_0. apply sqrt_le_1_alt. unfold Rsqr. rewrite <- bpow_plus.
    eapply Rle_trans; [apply LR | apply bpow_le; lia]. }
  pose proof (bpow_ge_0 radix2 (- (51))). pose proof (bpow_ge_0 radix2 e).
  assert (Sr / Lr <> 0 -> bp (-1000) <= Rabs (Sr / Lr) * sqrt Lr <= bp 1000) as RG.
  { intros N0. destruct Q2 as [Q2|Q2]; [contradiction|]. split.
    - apply Rle_trans with (bp (- (51)) * bp e).
      + rewrite <- bpow_plus. apply bpow_le. lia.
      + apply Rmult_le_compat; lra.
    - apply Rle_trans with (bp 51 * bp (e + 26)).
      + apply Rmult_le_compat; [apply Rabs_pos | apply sqrt_pos | apply Q2 | exact S2].
      + rewrite <- bpow_plus. apply bpow_le. lia. }
  assert (forall v, ap 1 v (Sr / Lr) -> Rabs (R_of v) <= bp 52) as RB.
  { intros v (_ & EV). assert (Rabs (Sr / Lr) <= bp 51) as B51 by (destruct Q2 as [->|Q2]; [rewrite Rabs_R0; apply bpow_ge_0|apply Q2]).
    pose proof u53_pos as U0. pose proof u53_small as U1. pose proof (Rabs_pos (Sr / Lr)) as PQ. change 52%Z with (51 + 1)%Z. rewrite bp_S.
    replace (R_of v) with (Sr / Lr + (R_of v - Sr / Lr)) by ring. eapply Rle_trans; [apply Rabs_triang|].
    assert (u53 * Rabs (Sr / Lr) <= 1 * Rabs (Sr / Lr)) by (apply Rmult_le_compat_r; lra). lra. }
  split; [|split].
  - apply (ap_weak (1 + 1 + 2)); [lra |]; apply ap_mul; [lra | lra | exact Q1 | exact Q3 |].
    destruct (Req_dec (Sr / Lr) 0) as [Z|Z]; [left; rewrite Z, ?Rabs_R0; ring|right].
    rewrite Rabs_mult, ?Rabs_Rabsolu, (Rabs_pos_eq (sqrt Lr)) by apply sqrt_pos; now apply RG.
  - apply (ap_weak (1 + 1 + 2)); [lra |]; apply ap_mul; [lra | lra | exact Q0 | exact Q3 |].
    destruct (Req_dec (Sr / Lr) 0) as [Z|Z]; [left; rewrite Z; ring|right].
    rewrite Rabs_mult, (Rabs_pos_eq (sqrt Lr)) by apply sqrt_pos; now apply RG.
  - specialize (RB _ Q0). destruct Q0 as (Fx & _). set (x := fdiv s l) in *.
    assert (Fy : fis_finite (fsqrt l) = true) by apply Q3.
    assert (Y : 0 <= R_of (fsqrt l)).
    { destruct (fsqrt_R l (ex_fin _ _ _ _ L)) as (-> & _); [rewrite (ex_R _ _ _ _ L); lra|]. apply RN_ge0, sqrt_pos. }
    assert (YB : R_of (fsqrt l) <= bp (e + 27)).
    { destruct Q3 as (_ & E3). pose proof u53_pos as U0. pose proof u53_small as U1. rewrite (Rabs_pos_eq (sqrt Lr)) in E3 by apply sqrt_pos.
      pose proof (sqrt_pos Lr) as SP. apply Rabs_le_inv in E3. assert (u53 * sqrt Lr <= 1 * sqrt Lr) by (apply Rmult_le_compat_r; lra).
      replace (e + 27)%Z with (e + 26 + 1)%Z by lia. rewrite bp_S. lra. }
    assert (LT0 : Rabs (R_of x * R_of (fsqrt l)) <= bp 600).
    { rewrite Rabs_mult, (Rabs_pos_eq _ Y). apply Rle_trans with (bp 52 * bp (e + 27)).
      - apply Rmult_le_compat; auto using Rabs_pos.
      - rewrite <- bpow_plus. apply bpow_le. lia. }
    assert (LT : Rabs (RN (R_of x * R_of (fsqrt l))) < bp 1024) by (apply (RN_small _ 600); [lia|exact LT0]).
    destruct (fmul_R x (fsqrt l) Fx Fy LT) as (_ & ->).
    destruct (fmul_R (fabs x) (fsqrt l)) as (_ & ->); [now rewrite fabs_fin|exact Fy| |].
    + rewrite fabs_R. apply (RN_small _ 600); [lia|]. rewrite Rabs_mult, Rabs_Rabsolu, <- Rabs_mult. exact LT0.
    + rewrite fabs_R. replace (Rabs (R_of x) * R_of (fsqrt l)) with (Rabs (R_of x * R_of (fsqrt l))) by (rewrite Rabs_mult, (Rabs_pos_eq _ Y); reflexivity).
      destruct (Rcase_abs (R_of x * R_of (fsqrt l))) as [C|C].
      * rewrite (Rabs_left (_ * _) C), RN_opp, (Rabs_left1 (RN _)); [reflexivity|apply RN_le0; lra].
      * rewrite (Rabs_right (_ * _) C), (Rabs_pos_eq (RN _)); [reflexivity|apply RN_ge0; lra].
Qed.
(** [point_to_line_perpendicular] in doubles, and its sign. *)
Theorem C52_line_close : forall hypot e p a b d, (-400 <= e <= 400)%Z -> small_pt e p -> small_pt e a -> small_pt e b -> rpt a <> rpt b ->
  least_distance (eq (rpt p)) (on_line (rpt a) (rpt b)) d ->
  close_to (line_perpendicular hypot p a b) d /\
  fis_finite (line_perpendicular_signed hypot p a b) = true /\
  Rabs (R_of (line_perpendicular_signed hypot p a b)) = R_of (line_perpendicular hypot p a b) /\
  (0 < R_of (line_perpendicular_signed hypot p a b) <-> side (rpt a) (rpt b) (rpt p) < 0).
Proof.
  intros hypot e p a b d He Sp Sa Sb NE L. pose proof (perp_least (rpt p) (rpt a) (rpt b) NE) as LP.
  rewrite (least_unique _ _ _ _ L LP). destruct (perp_signed (rpt p) (rpt a) (rpt b) NE) as (AB & SG).
  destruct (perp_ap hypot e He _ _ _ _ _ _ (small_ptx _ _ Sp) (small_ptx _ _ Sa) (small_ptx _ _ Sb) NE) as (A1 & A2 & EQ).
  assert (0 <= g_line_perpendicular R NR (rpt p) (rpt a) (rpt b)) as P0 by (rewrite <- AB; apply Rabs_pos).
  split; [exact (ap_close _ _ P0 A1)|]. split; [apply A2|].
  split; [exact EQ|]. change (side (rpt a) (rpt b) (rpt p)) with ((px (rpt b) - px (rpt a)) * (py (rpt p) - py (rpt a)) - (py (rpt b) - py (rpt a)) * (px (rpt p) - px (rpt a))).
  rewrite <- SG. destruct A2 as (_ & E2). pose proof u53_pos. pose proof u53_small.
  set (r := g_line_perpendicular_signed R NR (rpt p) (rpt a) (rpt b)) in *. change (g_line_perpendicular_signed f64 (NF hypot) (pf p) (pf a) (pf b)) with (line_perpendicular_signed hypot p a b) in E2.
  set (v := R_of (line_perpendicular_signed hypot p a b)) in *. clearbody v r. apply Rabs_le_inv in E2.
  unfold Rabs in E2. destruct (Rcase_abs r); split; intros; nra.
Qed.
(** Negative on the right of the segment, positive on its left, zero on its line. *)
Theorem C60_perpendicular_oriented : forall hypot e s p, hypot_accurate hypot -> (-100 <= e <= 70)%Z -> seg_of e s -> small_pt e p ->
  let r := seg_distance_perpendicular_oriented hypot s p in let sd := side (rpt (p0 s)) (rpt (p1 s)) (rpt p) in
  (rpt (p0 s) <> rpt (p1 s) -> fis_finite r = true /\ (R_of r < 0 <-> sd < 0) /\ (0 < R_of r <-> 0 < sd) /\
     forall d, least_distance (eq (rpt p)) (on_line (rpt (p0 s)) (rpt (p1 s))) d -> Rabs (Rabs (R_of r) - d) <= bp (-51) * d /\ close_to (seg_distance_perpendicular hypot s p) d) /\
  (rpt (p0 s) = rpt (p1 s) -> close_to r (dist (rpt (p0 s)) (rpt p)) /\ close_to (seg_distance_perpendicular hypot s p) (dist (rpt (p0 s)) (rpt p))).
Proof.
  intros hypot e s p Hh He Ss Sp r sd. pose proof Ss as (S0 & S1).
  assert (g_equals f64 (NF hypot) (pf (p0 s)) (pf (p1 s)) = g_equals R NR (rpt (p0 s)) (rpt (p1 s))) as EQ by (apply (equals_ex hypot e); apply small_ptx; assumption).
  assert (equals_2d (p0 s) (p1 s) = true <-> rpt (p0 s) = rpt (p1 s)) as E2 by (apply equals_2d_rpt; eapply small_fin; eassumption).
  unfold r, seg_distance_perpendicular_oriented, seg_distance_perpendicular, g_distance_perpendicular. rewrite EQ. split.
  - intros NE. assert (equals_2d (p0 s) (p1 s) = false) as -> by (destruct (equals_2d (p0 s) (p1 s)); [exfalso; apply NE, E2; reflexivity|reflexivity]).
    assert (g_equals R NR (rpt (p0 s)) (rpt (p1 s)) = false) as -> by (destruct (g_equals R NR _ _) eqn:G; [apply eqR_true in G; contradiction|reflexivity]).
    pose proof (perp_least (rpt p) (rpt (p0 s)) (rpt (p1 s)) NE) as LP. set (D := g_line_perpendicular R NR (rpt p) (rpt (p0 s)) (rpt (p1 s))) in *.
    destruct (C52_line_close hypot e p (p0 s) (p1 s) D ltac:(lia) Sp S0 S1 NE LP) as (C & _ & AB & SG).
    change (g_line_perpendicular f64 (NF hypot) (pf p) (pf (p0 s)) (pf (p1 s))) with (line_perpendicular hypot p (p0 s) (p1 s)).
    set (x := line_perpendicular hypot p (p0 s) (p1 s)) in *. cbv zeta.
    assert (0 <= D) as D0 by (apply (least_pos _ _ _ LP)). pose proof (close_zero _ _ D0 C) as CZ.
    assert (0 <= R_of x) as X0 by (rewrite <- AB; apply Rabs_pos).
    assert (D = 0 <-> sd = 0) as DZ.
    { destruct (perp_signed (rpt p) (rpt (p0 s)) (rpt (p1 s)) NE) as (A & S). fold D in A. 
      unfold D, g_line_perpendicular, g_len2, g_side. cbn [NR nsub nmul nadd ndiv nabs nsqrt].
      pose proof (neq_len2 _ _ NE) as LL. unfold len2 in LL. set (a := rpt (p0 s)) in *. set (b := rpt (p1 s)) in *. set (c := rpt p) in *.
      replace ((py a - py c) * (px b - px a) - (px a - px c) * (py b - py a)) with (- sd) by (unfold sd, side; ring).
      set (L2 := (px b - px a) * (px b - px a) + (py b - py a) * (py b - py a)) in *. assert (0 < sqrt L2) by (now apply sqrt_lt_R0).
      assert (forall z, Rabs (z / L2) * sqrt L2 = 0 <-> z = 0) as K.
      { intros z. split; [|intros ->; unfold Rdiv; rewrite Rmult_0_l, Rabs_R0; ring]. intros H0. apply Rmult_integral in H0. destruct H0 as [H0|H0]; [|lra].
        destruct (Req_dec z 0) as [?|N]; [assumption|]. exfalso. apply (Rabs_no_R0 (z / L2)); [|exact H0].
        apply Rmult_integral_contrapositive_currified; [exact N|apply Rinv_neq_0_compat; lra]. }
      rewrite K. split; intros; lra. }
    destruct (C60_orientation_intersection hypot e s s p He Ss Ss Sp) as (O & _). fold sd in O.
    assert (close_to x D -> Rabs (R_of x - D) <= bp (-51) * D) as CC by (intros (_ & H); exact H).
    destruct O as [(-> & O)|[(-> & O)|(-> & O)]]; cbn [Z.ltb Z.compare]; rewrite ?fneg_fin, ?fneg_R;
      (split; [apply C|]; split; [|split; [|intros d L; rewrite (least_unique _ _ _ _ L LP); fold D; split; [rewrite ?Rabs_Ropp, (Rabs_pos_eq (R_of x) X0); apply CC, C|exact C]]]);
      split; intros; try lra; destruct (Req_dec (R_of x) 0) as [Z|Z]; try lra; apply CZ, DZ in Z; lra.
  - intros E. assert (equals_2d (p0 s) (p1 s) = true) as -> by (now apply E2).
    assert (g_equals R NR (rpt (p0 s)) (rpt (p1 s)) = true) as -> by (now apply eqR_true).
    assert (close_to (distance hypot (p0 s) p) (dist (rpt (p0 s)) (rpt p))) as C by (apply (C74_distance_plane hypot e); auto; lia).
    split; [exact C|]. now rewrite distance_same.
Qed.
(** *** Projections *)
Lemma along_rel e x y X Y f q : (-400 <= e <= 400)%Z -> ex e 24 x X -> ex e 24 y Y -> fis_finite f = true -> R_of f = RN q ->
  q = 0 \/ bp (-51) <= Rabs q <= bp 51 ->
  let v := fadd x (fmul f (fsub y x)) in fis_finite v = true /\ Rabs (R_of v - (X + q * (Y - X))) <= u53 * Rabs X + 4 * u53 * Rabs (q * (Y - X)).
Proof.
  intros He Hx Hy Ff Ef Hq v. pose proof (d_ex e He _ _ _ _ Hy Hx) as D. pose proof u53_pos as U0. pose proof u53_small as U1. unfold v.
  assert (Rabs X <= bp (e + 24)) as BX.
  { destruct Hx as (_ & _ & n & Hn & ->). rewrite Rabs_mult, (Rabs_pos_eq (bp e)) by apply bpow_ge_0.
    rewrite Z.add_comm, bpow_plus. apply Rmult_le_compat_r; [apply bpow_ge_0|]. rewrite <- abs_IZR, <- (IZR_Zpower radix2) by lia. now apply IZR_le. }
  assert (Y - X = 0 \/ bp e <= Rabs (Y - X) <= bp (e + 25)) as BD.
  { destruct D as (_ & _ & n & Hn & ->). rewrite Rabs_mult, (Rabs_pos_eq (bp e)) by apply bpow_ge_0. pose proof (bpow_gt_0 radix2 e) as B0.
    destruct (Z.eq_dec n 0) as [->|N]; [left; ring|right]. rewrite <- abs_IZR. split.
    - assert (1 <= IZR (Z.abs n)) by (apply IZR_le; lia). nra.
    - rewrite Z.add_comm, bpow_plus. apply Rmult_le_compat_r; [lra|]. rewrite <- (IZR_Zpower radix2) by lia. now apply IZR_le. }
  destruct D as (Fd & Ed & _). set (d := fsub y x) in *. set (w := Y - X) in *. destruct Hx as (Fx & Ex & _).
  assert (Rabs (R_of f - q) <= u53 * Rabs q) as E1.
  { rewrite Ef. apply RN_rel. destruct Hq as [?|(Hq & _)]; [now left|right]. eapply Rle_trans; [|exact Hq]. apply bpow_le. lia. }
  assert (Rabs (R_of f * w - q * w) <= u53 * Rabs (q * w)) as E2.
  { replace (R_of f * w - q * w) with ((R_of f - q) * w) by ring. rewrite !Rabs_mult, <- Rmult_assoc. apply Rmult_le_compat_r; [apply Rabs_pos|exact E1]. }
  assert (R_of f * w = 0 \/ bp (-1022) <= Rabs (R_of f * w)) as LO.
  { destruct BD as [->|(BD & _)]; [left; ring|]. destruct Hq as [->|(Hq & _)]; [left; rewrite Ef, RN_0; ring|right].
    rewrite Rabs_mult. apply Rle_trans with (bp (-51) * bp e).
    - rewrite <- bpow_plus. apply bpow_le. lia.
    - apply Rmult_le_compat; try apply bpow_ge_0; [|exact BD]. rewrite Ef. apply abs_round_ge_generic; [typeclasses eauto..| |exact Hq]. apply bpow_fmt. lia. }
  assert (Rabs (R_of f) <= bp 51) as BF.
  { rewrite Ef. apply RN_abs_le; [lia|]. destruct Hq as [->|(_ & Hq)]; [rewrite Rabs_R0; apply bpow_ge_0|exact Hq]. }
  assert (Rabs w <= bp (e + 25)) as BW by (destruct BD as [->|(_ & BD)]; [rewrite Rabs_R0; apply bpow_ge_0|exact BD]).
  assert (Rabs (R_of f * R_of d) <= bp 600) as BM.
  { rewrite Ed, Rabs_mult. apply Rle_trans with (bp 51 * bp (e + 25)); [apply Rmult_le_compat; auto using Rabs_pos|]. rewrite <- bpow_plus. apply bpow_le. lia. }
  destruct (mul_fits 600 f d ltac:(lia) Ff Fd BM) as ((Fm & Bm) & Em). set (m := fmul f d) in *. rewrite Ed in Em.
  assert (E3 := RN_rel _ LO). rewrite <- Em in E3.
  assert (Rabs (R_of x + R_of m) <= bp 601) as BS.
  { eapply Rle_trans; [apply Rabs_triang|]. rewrite Ex. change 601%Z with (600 + 1)%Z. rewrite bp_S. assert (bp (e + 24) <= bp 600) by (apply bpow_le; lia). lra. }
  destruct (add_fits 601 x m ltac:(lia) Fx Fm BS) as ((Fv & _) & Ev). split; [exact Fv|]. rewrite Ev.
  assert (E4 := RN_sum_err (R_of x) (R_of m) (format_R x) (format_R m)). rewrite Ex in *.
  set (Q := q * w) in *. set (V := R_of f * w) in *. pose proof (Rabs_pos Q) as PQ. pose proof (Rabs_pos X) as PX.
  assert (Rabs V <= (1 + u53) * Rabs Q) as BV by (replace V with (Q + (V - Q)) by ring; eapply Rle_trans; [apply Rabs_triang|]; lra).
  assert (u53 * Rabs V <= u53 * ((1 + u53) * Rabs Q)) as B1 by (apply Rmult_le_compat_l; lra).
  assert (Rabs (R_of m) <= Rabs V + u53 * Rabs V) as BM2 by (replace (R_of m) with (V + (R_of m - V)) by ring; eapply Rle_trans; [apply Rabs_triang|]; lra).
  assert (u53 * Rabs (X + R_of m) <= u53 * (Rabs X + ((1 + u53) * Rabs Q + u53 * ((1 + u53) * Rabs Q)))) as B2.
  { apply Rmult_le_compat_l; [lra|]. eapply Rle_trans; [apply Rabs_triang|]. lra. }
  assert (0 <= u53 * Rabs Q) as UQ by (apply Rmult_le_pos; lra).
  assert (0 <= u53 * (u53 * Rabs Q) <= / 1024 * (u53 * Rabs Q)) as UUQ by (split; [apply Rmult_le_pos; lra|apply Rmult_le_compat_r; lra]).
  assert (0 <= u53 * (u53 * (u53 * Rabs Q)) <= / 1024 * (u53 * Rabs Q)) as UUUQ by (split; [apply Rmult_le_pos; lra|]; apply Rle_trans with (/ 1024 * (u53 * (u53 * Rabs Q))); [apply Rmult_le_compat_r; lra|lra]).
  replace (RN (X + R_of m) - (X + Q)) with ((RN (X + R_of m) - (X + R_of m)) + ((R_of m - V) + (V - Q))) by ring.
  eapply Rle_trans; [apply Rabs_triang|]. eapply Rle_trans; [apply Rplus_le_compat_l, Rabs_triang|]. lra.
Qed.
Definition close_along (s : LineSegment) (t : R) (c : Coordinate) : Prop :=
  let dx := R_of (cx (p1 s)) - R_of (cx (p0 s)) in let dy := R_of (cy (p1 s)) - R_of (cy (p0 s)) in
  fin_pt c /\
  Rabs (R_of (cx c) - (R_of (cx (p0 s)) + t * dx)) <= u53 * Rabs (R_of (cx (p0 s))) + 4 * u53 * Rabs (t * dx) /\
  Rabs (R_of (cy c) - (R_of (cy (p0 s)) + t * dy)) <= u53 * Rabs (R_of (cy (p0 s))) + 4 * u53 * Rabs (t * dy).
Lemma project_with_close hypot e s p q : (-400 <= e <= 400)%Z -> seg_of e s -> small_pt e q -> rpt (p0 s) <> rpt (p1 s) ->
  close_along s (dotp (rpt (p0 s)) (rpt (p1 s)) (rpt q) / len2 (rpt (p0 s)) (rpt (p1 s))) (seg_project_with hypot s p (seg_projection_factor hypot s q)).
Proof.
  intros He (S0 & S1) Hp NE.
  destruct (factor_val hypot e He _ _ _ _ _ _ (small_ptx _ _ S0) (small_ptx _ _ S1) (small_ptx _ _ Hp) NE) as (f & Ef & Ff & Rf & Q & _).
  unfold seg_projection_factor. rewrite Ef. set (t := dotp _ _ _ / _) in *.
  apply small_ptx in S0, S1. destruct S0 as (X0 & Y0), S1 as (X1 & Y1). cbn [pf px py rpt] in *.
  destruct (along_rel e _ _ _ _ f t He X0 X1 Ff Rf Q) as (Fx & Bx). destruct (along_rel e _ _ _ _ f t He Y0 Y1 Ff Rf Q) as (Fy & By_).
  split; [split; assumption|]. split; assumption.
Qed.
(** The foot of the perpendicular, and the part of [t] seen on [s]. *)
Theorem C60_project : forall hypot e s p, (-400 <= e <= 400)%Z -> seg_of e s -> small_pt e p ->
  let r := seg_project hypot s p in
  cz r = cz p /\ cm r = cm p /\
  (rpt p = rpt (p0 s) \/ rpt p = rpt (p1 s) -> r = p) /\
  (rpt (p0 s) <> rpt (p1 s) -> rpt p <> rpt (p0 s) -> rpt p <> rpt (p1 s) ->
   close_along s (dotp (rpt (p0 s)) (rpt (p1 s)) (rpt p) / len2 (rpt (p0 s)) (rpt (p1 s))) r).
Proof.
  intros hypot e s p He Ss Sp r. pose proof Ss as (S0 & S1). unfold r, seg_project.
  assert (forall a, small_pt e a -> (equals_2d p a = true <-> rpt p = rpt a)) as E2 by (intros a Sa; apply equals_2d_rpt; eapply small_fin; eassumption).
  split; [now destruct (equals_2d p (p0 s) || equals_2d p (p1 s))|]. split; [now destruct (equals_2d p (p0 s) || equals_2d p (p1 s))|]. split.
  - intros H. assert (equals_2d p (p0 s) || equals_2d p (p1 s) = true) as -> by (apply orb_true_iff; rewrite (E2 _ S0), (E2 _ S1); exact H). now destruct p.
  - intros NE N0 N1. assert (equals_2d p (p0 s) || equals_2d p (p1 s) = false) as ->.
    { apply orb_false_iff. split; apply not_true_iff_false; rewrite E2 by assumption; assumption. }
    apply (project_with_close hypot e); assumption.
Qed.
Theorem C60_project_segment : forall hypot e s t, (-400 <= e <= 400)%Z -> seg_of e s -> seg_of e t -> rpt (p0 s) <> rpt (p1 s) ->
  let fac p := dotp (rpt (p0 s)) (rpt (p1 s)) (rpt p) / len2 (rpt (p0 s)) (rpt (p1 s)) in
  let clamp x := Rmax 0 (Rmin 1 x) in
  (seg_project_segment hypot s t = None <-> (1 <= fac (p0 t) /\ 1 <= fac (p1 t)) \/ (fac (p0 t) <= 0 /\ fac (p1 t) <= 0)) /\
  (forall r, seg_project_segment hypot s t = Some r -> close_along s (clamp (fac (p0 t))) (p0 r) /\ close_along s (clamp (fac (p1 t))) (p1 r)).
Proof.
  intros hypot e s t He Ss (T0 & T1) NE fac clamp. pose proof Ss as (S0 & S1).
  assert (forall p, small_pt e p -> exists f, seg_projection_factor hypot s p = f /\ fltb f f0 = Rlt_bool (fac p) 0 /\ fleb f f0 = Rle_bool (fac p) 0 /\
    fgtb f f1 = Rlt_bool 1 (fac p) /\ fgeb f f1 = Rle_bool 1 (fac p) /\ forall c, close_along s (fac p) (seg_project_with hypot s c f)) as K.
  { intros p Sp. destruct (factor_val hypot e He _ _ _ _ _ _ (small_ptx _ _ S0) (small_ptx _ _ S1) (small_ptx _ _ Sp) NE) as (f & Ef & Ff & Rf & Q & A & B & C & D).
    exists f. unfold seg_projection_factor. rewrite Ef. split; [reflexivity|]. repeat split; try assumption;
    pose proof (project_with_close hypot e s c p He Ss Sp NE) as PC; unfold seg_projection_factor in PC; rewrite Ef in PC; apply PC. }
  assert (forall c, rpt c = rpt (p0 s) -> fin_pt c -> close_along s 0 c) as K0.
  { intros c E F. unfold close_along. split; [exact F|]. assert (R_of (cx c) = R_of (cx (p0 s)) /\ R_of (cy c) = R_of (cy (p0 s))) as (-> & ->) by (unfold rpt in E; now injection E).
    rewrite !Rmult_0_l, !Rplus_0_r, !Rminus_eq_0, Rabs_R0. pose proof u53_pos. pose proof (Rabs_pos (R_of (cx (p0 s)))). pose proof (Rabs_pos (R_of (cy (p0 s)))). split; nra. }
  assert (forall c, rpt c = rpt (p1 s) -> fin_pt c -> close_along s 1 c) as K1.
  { intros c E F. unfold close_along. split; [exact F|]. assert (R_of (cx c) = R_of (cx (p1 s)) /\ R_of (cy c) = R_of (cy (p1 s))) as (-> & ->) by (unfold rpt in E; now injection E).
    rewrite !Rmult_1_l. pose proof u53_pos.
    assert (forall a b, Rabs (b - (a + (b - a))) <= u53 * Rabs a + 4 * u53 * Rabs (b - a)) as Z.
    { intros a b. replace (b - (a + (b - a))) with 0 by ring. rewrite Rabs_R0. pose proof (Rabs_pos a). pose proof (Rabs_pos (b - a)). nra. }
    split; apply Z. }
  destruct (K (p0 t) T0) as (f & Ef & A1 & A2 & A3 & A4 & AP). destruct (K (p1 t) T1) as (g & Eg & B1 & B2 & B3 & B4 & BP).
  unfold seg_project_segment. rewrite Ef, Eg, A1, A2, A3, A4, B1, B2, B3, B4. set (q := fac (p0 t)) in *. set (w := fac (p1 t)) in *.
  assert (forall (b b' : bool) (x : LineSegment), (if b then None else if b' then None else Some x) = None <-> b = true \/ b' = true) as NI.
  { intros [|] [|] x; split; intros H; auto; try discriminate; destruct H; discriminate. }
  split.
  - rewrite NI, !andb_true_iff.
    assert (forall a b, Rle_bool a b = true <-> a <= b) as RB by (intros a b; destruct (Rle_bool_spec a b); split; intros; auto; try discriminate; lra).
    rewrite !RB. tauto.
  - intros r. destruct (Rle_bool 1 q && Rle_bool 1 w); [discriminate|]. destruct (Rle_bool q 0 && Rle_bool w 0); [discriminate|]. intros H. injection H as <-.
    cbn [seg_new p0 p1].
    assert (forall c x, close_along s x c -> close_along s x (from_coordinate c)) as FC by (intros c x H; now destruct c).
    pose proof (small_fin _ _ S0) as F0. pose proof (small_fin _ _ S1) as F1.
    assert (forall x, x < 0 -> clamp x = 0) as CL by (intros x X; unfold clamp; rewrite Rmin_right, Rmax_left by lra; reflexivity).
    assert (forall x, 1 < x -> clamp x = 1) as CG by (intros x X; unfold clamp; rewrite Rmin_left, Rmax_right by lra; reflexivity).
    assert (forall x, 0 <= x <= 1 -> clamp x = x) as CM by (intros x X; unfold clamp; rewrite Rmin_right, Rmax_right by lra; reflexivity).
    split; apply FC.
    + destruct (Rlt_bool_spec 1 q); [rewrite CG by assumption; now apply K1|]. destruct (Rlt_bool_spec q 0); [rewrite CL by assumption; now apply K0|]. rewrite CM by lra. apply AP.
    + destruct (Rlt_bool_spec w 0); [rewrite CL by assumption; now apply K0|]. destruct (Rlt_bool_spec 1 w); [rewrite CG by assumption; now apply K1|]. rewrite CM by lra. apply BP.
Qed.
(** *** Offsets *)
Lemma unit_val hypot e x0 y0 x1 y1 X0 Y0 X1 Y1 d : hypot_accurate hypot -> (-400 <= e <= 400)%Z ->
  ex e 24 x0 X0 -> ex e 24 y0 Y0 -> ex e 24 x1 X1 -> ex e 24 y1 Y1 -> mkP X0 Y0 <> mkP X1 Y1 ->
  fis_finite d = true -> bp (-300) <= Rabs (R_of d) <= bp 300 ->
  let L := dist (mkP X1 Y1) (mkP X0 Y0) in
  forall z Z, ex e 25 z Z -> Rabs Z <= L ->
  let u := fdiv (fmul d z) (hypot (fsub x1 x0) (fsub y1 y0)) in
  fis_finite u = true /\ Rabs (R_of u - R_of d * Z / L) <= 5 * u53 * Rabs (R_of d).
Proof.
  intros Hh He HX0 HY0 HX1 HY1 NE Fd Bd L z Z Hz ZL u.
  pose proof (dist_ap hypot Hh e He (mkP x1 y1) (mkP x0 y0) (mkP X1 Y1) (mkP X0 Y0) (conj HX1 HY1) (conj HX0 HY0)) as DA.
  change (g_distance f64 (NF hypot) (mkP x1 y1) (mkP x0 y0)) with (hypot (fsub x1 x0) (fsub y1 y0)) in DA. fold L in DA.
  pose proof (d_ex e He _ _ _ _ HX1 HX0) as DX. pose proof (d_ex e He _ _ _ _ HY1 HY0) as DY.
  assert (Rabs (R_of (hypot (fsub x1 x0) (fsub y1 y0)) - L) <= 2 * u53 * L /\ bp e <= L <= bp (e + 26)) as (HL & BL).
  { assert (L = sqrt ((X1 - X0) * (X1 - X0) + (Y1 - Y0) * (Y1 - Y0))) as EL by reflexivity.
    pose proof (ex_add (e + e) 50 _ _ _ _ ltac:(lia) ltac:(lia) (m_ex e He _ _ _ _ DX DX) (m_ex e He _ _ _ _ DY DY)) as SS. change (50 + 1)%Z with 51%Z in SS.
    assert (0 < (X1 - X0) * (X1 - X0) + (Y1 - Y0) * (Y1 - Y0)) as PP.
    { pose proof (neq_len2 (mkP X0 Y0) (mkP X1 Y1) NE) as Q. exact Q. }
    assert (bp (e + e) <= (X1 - X0) * (X1 - X0) + (Y1 - Y0) * (Y1 - Y0) <= bp (e + e + 51)) as LR.
    { destruct SS as (_ & _ & m & Hm & G). pose proof (bpow_gt_0 radix2 (e + e)) as Bp. rewrite G in PP |- *.
      assert (0 < IZR m) by (apply (Rmult_lt_reg_r (bp (e + e))); lra). assert (0 < m)%Z by (apply lt_IZR; assumption). assert (1 <= IZR m) by (apply IZR_le; lia).
      assert (IZR m <= bp 51) by (rewrite <- (IZR_Zpower radix2) by lia; apply IZR_le; change (radix_val radix2) with 2%Z; lia).
      rewrite (bpow_plus radix2 (e + e) 51). clear - Bp H1 H2. set (Z' := bp (e + e)) in *. clearbody Z'. split; nra. }
    assert (bp e <= L <= bp (e + 26)) as BL.
    { rewrite EL. split.
      - rewrite <- (sqrt_Rsqr (bp e)) by apply bpow_ge_0. apply sqrt_le_1_alt. unfold Rsqr. rewrite <- bpow_plus. apply LR.
      - rewrite <- (sqrt_Rsqr (bp (e + 26))) by apply bpow_ge_0. apply sqrt_le_1_alt. unfold Rsqr. rewrite <- bpow_plus. eapply Rle_trans; [apply LR|apply bpow_le; lia]. }
    split; [|exact BL]. destruct (Hh _ _ (ex_fin _ _ _ _ DX) (ex_fin _ _ _ _ DY)) as (_ & EH).
    - rewrite (ex_R _ _ _ _ DX), (ex_R _ _ _ _ DY), <- EL. right. split; [eapply Rle_trans; [|apply BL]|eapply Rle_trans; [apply BL|]]; apply bpow_le; lia.
    - rewrite (ex_R _ _ _ _ DX), (ex_R _ _ _ _ DY), <- EL in EH. replace (2 * u53) with (bp (-52)) by (change (-52)%Z with (-53 + 1)%Z; apply bp_S). exact EH. }
  destruct DA as (Fh & _). set (h := hypot (fsub x1 x0) (fsub y1 y0)) in *. pose proof u53_pos as U0. pose proof u53_small as U1.
  pose proof (bpow_gt_0 radix2 e) as Be. assert (0 < L) as L0 by lra. pose proof (bpow_gt_0 radix2 (-300)) as B3.
  assert (R_of h <> 0) as NH by (apply Rabs_le_inv in HL; assert (u53 * L <= / 1024 * L) by (apply Rmult_le_compat_r; lra); lra).
  assert (Rabs (R_of h / L - 1) <= 2 * u53) as RH by (apply rel_of_abs; [lra|rewrite (Rabs_pos_eq L) by lra; exact HL]).
  pose proof (ex_fin _ _ _ _ Hz) as Fz. assert (R_of z = Z) as Ez by exact (ex_R _ _ _ _ Hz).
  assert (Z = 0 \/ bp e <= Rabs Z) as BZ.
  { destruct Hz as (_ & _ & n & _ & ->). destruct (Z.eq_dec n 0) as [->|N]; [left; ring|right]. rewrite Rabs_mult, (Rabs_pos_eq (bp e)), <- abs_IZR by lra.
    assert (1 <= IZR (Z.abs n)) by (apply IZR_le; lia). nra. }
  assert (Rabs (R_of d * R_of z) <= bp 800) as BM.
  { rewrite Ez, Rabs_mult. apply Rle_trans with (bp 300 * bp (e + 26)); [apply Rmult_le_compat; auto using Rabs_pos; lra|]. rewrite <- bpow_plus. apply bpow_le. lia. }
  destruct (mul_fits 800 d z ltac:(lia) Fd Fz BM) as ((Fm & Bm) & Em). rewrite Ez in Em, BM. unfold u. set (m := fmul d z) in *.
  destruct BZ as [->|BZ].
  { rewrite Rmult_0_r, RN_0 in Em. destruct (fdiv_R m h Fm NH) as (Fq & Eq); rewrite Em in *; unfold Rdiv in *; rewrite Rmult_0_l, RN_0, ?Rabs_R0 in *; [apply bpow_gt_0|].
    split; [exact Fq|]. rewrite Eq, Rmult_0_r, Rmult_0_l, Rminus_eq_0, Rabs_R0. pose proof (Rabs_pos (R_of d)). nra. }
  assert (R_of d * Z <> 0) as NZ.
  { intros Q. apply (f_equal Rabs) in Q. rewrite Rabs_mult, Rabs_R0 in Q. assert (0 < Rabs (R_of d) * Rabs Z) by (apply Rmult_lt_0_compat; lra). lra. }
  assert (bp (-700) <= Rabs (R_of d * Z)) as LM.
  { rewrite Rabs_mult. apply Rle_trans with (bp (-300) * bp e); [rewrite <- bpow_plus; apply bpow_le; lia|]. apply Rmult_le_compat; lra. }
  assert (Rabs (R_of m / (R_of d * Z) - 1) <= u53) as RM.
  { apply rel_of_abs; [exact NZ|]. rewrite Em. apply RN_rel. right. eapply Rle_trans; [|exact LM]. apply bpow_le. lia. }
  assert (Rabs (/ (R_of h / L) - 1) <= 2 * u53 + 2 * (2 * u53) * (2 * u53)) as RI by (apply rel_inv; [lra|exact RH]).
  assert (0 <= u53 * u53 <= / 1024 * u53) as UU by (split; [apply Rmult_le_pos; lra|apply Rmult_le_compat_r; lra]).
  assert (Rabs (R_of m / R_of h / (R_of d * Z / L) - 1) <= 3 * u53 + / 10 * u53) as RQ.
  { replace (R_of m / R_of h / (R_of d * Z / L)) with (R_of m / (R_of d * Z) * / (R_of h / L)) by (field; repeat split; try lra; intros Q; apply NZ; rewrite Q; ring).
    eapply Rle_trans; [apply (rel_mul _ _ _ _ RM RI)|].
    assert (0 <= u53 * (u53 * u53) <= / 1024 * u53) by (split; [apply Rmult_le_pos; lra|]; apply Rle_trans with (/ 1024 * (u53 * u53)); [apply Rmult_le_compat_r; lra|lra]). lra. }
  set (W := R_of d * Z / L) in *.
  assert (W <> 0) as NW by (apply Rmult_integral_contrapositive_currified; [exact NZ|apply Rinv_neq_0_compat; lra]).
  assert (Rabs W <= Rabs (R_of d)) as BW.
  { unfold W, Rdiv. rewrite Rmult_assoc, Rabs_mult. rewrite <- (Rmult_1_r (Rabs (R_of d))) at 2. apply Rmult_le_compat_l; [apply Rabs_pos|].
    rewrite Rabs_mult, (Rabs_pos_eq (/ L)) by (left; now apply Rinv_0_lt_compat). apply Rmult_le_reg_r with L; [exact L0|]. rewrite Rmult_assoc, Rinv_l by lra. lra. }
  assert (bp (-760) <= Rabs W) as LW.
  { unfold W, Rdiv. rewrite Rmult_assoc, !Rabs_mult, (Rabs_pos_eq (/ L)) by (left; now apply Rinv_0_lt_compat).
    apply Rle_trans with (bp (-300) * (bp e * bp (- (e + 26)))); [rewrite <- !bpow_plus; apply bpow_le; lia|].
    apply Rmult_le_compat; [apply bpow_ge_0|apply Rmult_le_pos; apply bpow_ge_0|lra|]. apply Rmult_le_compat; [apply bpow_ge_0..|exact BZ|].
    rewrite bpow_opp. apply Rinv_le; lra. }
  set (V := R_of m / R_of h) in *.
  assert (Rabs (V - W) <= (3 * u53 + / 10 * u53) * Rabs W) as EV.
  { replace (V - W) with ((V / W - 1) * W) by (field; exact NW). rewrite Rabs_mult. apply Rmult_le_compat_r; [apply Rabs_pos|exact RQ]. }
  pose proof (Rabs_pos W) as PW. assert (0 <= u53 * Rabs W <= / 1024 * Rabs W) as UW by (split; [apply Rmult_le_pos; lra|apply Rmult_le_compat_r; lra]).
  assert (Rabs V <= Rabs W + (3 * u53 + / 10 * u53) * Rabs W) as BV by (replace V with (W + (V - W)) by ring; eapply Rle_trans; [apply Rabs_triang|]; lra).
  assert (Rabs W <= Rabs V + (3 * u53 + / 10 * u53) * Rabs W) as BV2.
  { rewrite Rabs_minus_sym in EV. replace W with (V + (W - V)) at 1 by ring. eapply Rle_trans; [apply Rabs_triang|]; lra. }
  assert (bp (-760) = 2 * bp (-761)) as S1 by (change (-760)%Z with (-761 + 1)%Z; apply bp_S).
  assert (Rabs V <= bp 301) as BV3 by (change 301%Z with (300 + 1)%Z; rewrite bp_S; lra).
  destruct (fdiv_R m h Fm NH) as (Fq & Eq); [fold V; apply (RN_small _ 301); [lia|exact BV3]|]. fold V in Eq. split; [exact Fq|]. rewrite Eq.
  assert (Rabs (RN V - V) <= u53 * Rabs V) as EF.
  { apply RN_rel. right. apply Rle_trans with (bp (-761)); [apply bpow_le; lia|lra]. }
  assert (u53 * Rabs V <= u53 * (Rabs W + (3 * u53 + / 10 * u53) * Rabs W)) as Q1 by (apply Rmult_le_compat_l; lra).
  replace (RN V - W) with ((RN V - V) + (V - W)) by ring. eapply Rle_trans; [apply Rabs_triang|].
  assert (u53 * (u53 * Rabs W) <= / 1024 * (u53 * Rabs W)) by (apply Rmult_le_compat_r; lra).
  assert (u53 * Rabs W <= u53 * Rabs (R_of d)) by (apply Rmult_le_compat_l; lra). lra.
Qed.
(** The point of a fraction [t] moved to the left by [d]. *)
Definition offset_near (s : LineSegment) (d : R) (a : Coordinate) (c : Coordinate) : Prop :=
  let L := dist (rpt (p1 s)) (rpt (p0 s)) in
  let dx := R_of (cx (p1 s)) - R_of (cx (p0 s)) in let dy := R_of (cy (p1 s)) - R_of (cy (p0 s)) in
  fin_pt c /\ Rabs (R_of (cx c) - (R_of (cx a) - d * dy / L)) <= u53 * Rabs (R_of (cx a)) + 8 * u53 * Rabs d /\
  Rabs (R_of (cy c) - (R_of (cy a) + d * dx / L)) <= u53 * Rabs (R_of (cy a)) + 8 * u53 * Rabs d.
Theorem C60_offset : forall hypot e s d, hypot_accurate hypot -> (-400 <= e <= 400)%Z -> seg_of e s -> rpt (p0 s) <> rpt (p1 s) ->
  fis_finite d = true -> bp (-300) <= Rabs (R_of d) <= bp 300 ->
  offset_near s (R_of d) (p0 s) (p0 (seg_offset hypot s d)) /\ offset_near s (R_of d) (p1 s) (p1 (seg_offset hypot s d)).
Proof.
  intros hypot e s d Hh He (S0 & S1) NE Fd Bd. apply small_ptx in S0, S1. destruct S0 as (X0 & Y0), S1 as (X1 & Y1). cbn [pf px py rpt] in X0, Y0, X1, Y1.
  set (x0 := cx (p0 s)) in *. set (y0 := cy (p0 s)) in *. set (x1 := cx (p1 s)) in *. set (y1 := cy (p1 s)) in *.
  pose proof (d_ex e He _ _ _ _ X1 X0) as DX. pose proof (d_ex e He _ _ _ _ Y1 Y0) as DY.
  pose proof u53_pos as U0. pose proof u53_small as U1. pose proof (Rabs_pos (R_of d)) as PD.
  set (L := dist (rpt (p1 s)) (rpt (p0 s))).
  assert (L * L = (R_of x1 - R_of x0) * (R_of x1 - R_of x0) + (R_of y1 - R_of y0) * (R_of y1 - R_of y0)) as LL.
  { unfold L, dist. cbn [rpt px py]. apply sqrt_sqrt. pose proof (Rle_0_sqr (R_of x1 - R_of x0)). pose proof (Rle_0_sqr (R_of y1 - R_of y0)). unfold Rsqr in *. fold x0 y0 x1 y1. lra. }
  assert (0 <= L) as L0 by apply dist_pos.
  assert (Rabs (R_of x1 - R_of x0) <= L /\ Rabs (R_of y1 - R_of y0) <= L) as (LX & LY).
  { split; apply Rsqr_incr_0_var; try exact L0; rewrite <- Rsqr_abs; unfold Rsqr; rewrite LL; [pose proof (Rle_0_sqr (R_of y1 - R_of y0))|pose proof (Rle_0_sqr (R_of x1 - R_of x0))]; unfold Rsqr in *; lra. }
  destruct (unit_val hypot e x0 y0 x1 y1 _ _ _ _ d Hh He X0 Y0 X1 Y1 NE Fd Bd _ _ DX LX) as (Fu & Eu).
  destruct (unit_val hypot e x0 y0 x1 y1 _ _ _ _ d Hh He X0 Y0 X1 Y1 NE Fd Bd _ _ DY LY) as (Fw & Ew).
  change (dist (mkP (R_of x1) (R_of y1)) (mkP (R_of x0) (R_of y0))) with L in Eu, Ew.
  assert (feqb d f0 = false) as ND.
  { rewrite feqb_R by (assumption || reflexivity). apply Req_bool_false. change (R_of f0) with 0. intros Q. rewrite Q, Rabs_R0 in Bd. pose proof (bpow_gt_0 radix2 (-300)). lra. }
  set (ux := fdiv (fmul d (fsub x1 x0)) (hypot (fsub x1 x0) (fsub y1 y0))) in *. set (uy := fdiv (fmul d (fsub y1 y0)) (hypot (fsub x1 x0) (fsub y1 y0))) in *.
  (* the points of the segment itself are exact *)
  assert (forall a b A B, ex e 24 a A -> ex e 24 b B -> ex e 26 (fadd a (fmul f0 (fsub b a))) A /\ ex e 26 (fadd a (fmul f1 (fsub b a))) B) as SEG.
  { intros a b A B Ha Hb. pose proof (d_ex e He _ _ _ _ Hb Ha) as D.
    pose proof (ex_mul 0 e 0 25 _ _ _ _ ltac:(lia) ltac:(lia) ltac:(lia) ltac:(lia) (ex_0 0 0 ltac:(lia)) D) as M0.
    pose proof (ex_mul 0 e 0 25 _ _ _ _ ltac:(lia) ltac:(lia) ltac:(lia) ltac:(lia) (ex_ofZ 0 1 ltac:(lia) ltac:(lia)) D) as M1.
    change (fofZ 1) with f1 in M1. change (0 + e)%Z with e in *. change (0 + 25)%Z with 25%Z in *.
    pose proof (ex_add e 25 _ _ _ _ ltac:(lia) ltac:(lia) (ex_weak e 24 25 _ _ ltac:(lia) Ha) M0) as S0'.
    pose proof (ex_add e 25 _ _ _ _ ltac:(lia) ltac:(lia) (ex_weak e 24 25 _ _ ltac:(lia) Ha) M1) as S1'. change (25 + 1)%Z with 26%Z in *.
    replace A with (A + 0 * (B - A)) at 1 by ring. replace B with (A + 1 * (B - A)) at 2 by ring. split; assumption. }
  assert (forall c C w W, ex e 26 c C -> fis_finite w = true -> Rabs W <= Rabs (R_of d) -> Rabs (R_of w - W) <= 5 * u53 * Rabs (R_of d) ->
    (fis_finite (fsub c w) = true /\ Rabs (R_of (fsub c w) - (C - W)) <= u53 * Rabs C + 8 * u53 * Rabs (R_of d)) /\
    (fis_finite (fadd c w) = true /\ Rabs (R_of (fadd c w) - (C + W)) <= u53 * Rabs C + 8 * u53 * Rabs (R_of d))) as FIN.
  { intros c C w W (Fc & Ec & n & Hn & Gn) Fw' BW EW.
    assert (Rabs C <= bp 500) as BC.
    { rewrite Gn, Rabs_mult, (Rabs_pos_eq (bp e)), <- abs_IZR by apply bpow_ge_0. apply Rle_trans with (bp 26 * bp e); [|rewrite <- bpow_plus; apply bpow_le; lia].
      apply Rmult_le_compat_r; [apply bpow_ge_0|]. rewrite <- (IZR_Zpower radix2) by lia. now apply IZR_le. }
    assert (Rabs (R_of w) <= Rabs (R_of d) + 5 * u53 * Rabs (R_of d)) as BW2 by (replace (R_of w) with (W + (R_of w - W)) by ring; eapply Rle_trans; [apply Rabs_triang|]; lra).
    assert (0 <= u53 * Rabs (R_of d) <= / 1024 * Rabs (R_of d)) as UD by (split; [apply Rmult_le_pos; lra|apply Rmult_le_compat_r; lra]).
    assert (bp 300 <= bp 500) as M1 by (apply bpow_le; lia). pose proof (bpow_gt_0 radix2 500) as P5.
    assert (Rabs (C - R_of w) <= bp 502 /\ Rabs (C + R_of w) <= bp 502) as (T1 & T2).
    { change 502%Z with (500 + 1 + 1)%Z. rewrite !bp_S. split; (eapply Rle_trans; [apply Rabs_triang|]); rewrite ?Rabs_Ropp; lra. }
    assert (u53 * (u53 * Rabs (R_of d)) <= / 1024 * (u53 * Rabs (R_of d))) as UUD by (apply Rmult_le_compat_r; lra).
    rewrite <- Ec in T1, T2. split.
    - destruct (sub_fits 502 c w ltac:(lia) Fc Fw' T1) as ((Fr & _) & Er). split; [exact Fr|]. rewrite Er.
      pose proof (RN_sub_err (R_of c) (R_of w) (format_R c) (format_R w)) as E. rewrite Ec in *.
      assert (Rabs (C - R_of w) <= Rabs C + (Rabs (R_of d) + 5 * u53 * Rabs (R_of d))) as Q by (eapply Rle_trans; [apply Rabs_triang|]; rewrite Rabs_Ropp; lra).
      apply (Rmult_le_compat_l u53) in Q; [|lra].
      replace (RN (C - R_of w) - (C - W)) with ((RN (C - R_of w) - (C - R_of w)) - (R_of w - W)) by ring. eapply Rle_trans; [apply Rabs_triang|]. rewrite Rabs_Ropp. lra.
    - destruct (add_fits 502 c w ltac:(lia) Fc Fw' T2) as ((Fr & _) & Er). split; [exact Fr|]. rewrite Er.
      pose proof (RN_sum_err (R_of c) (R_of w) (format_R c) (format_R w)) as E. rewrite Ec in *.
      assert (Rabs (C + R_of w) <= Rabs C + (Rabs (R_of d) + 5 * u53 * Rabs (R_of d))) as Q by (eapply Rle_trans; [apply Rabs_triang|]; lra).
      apply (Rmult_le_compat_l u53) in Q; [|lra].
      replace (RN (C + R_of w) - (C + W)) with ((RN (C + R_of w) - (C + R_of w)) + (R_of w - W)) by ring. eapply Rle_trans; [apply Rabs_triang|]. lra. }
  assert (0 < L) as LP.
  { destruct (Rle_lt_or_eq_dec 0 L L0) as [?|Q]; [assumption|exfalso]. symmetry in Q. apply dist_0 in Q. now apply NE. }
  assert (forall Z, Rabs Z <= L -> Rabs (R_of d * Z / L) <= Rabs (R_of d)) as SM.
  { intros Z HZ. unfold Rdiv. rewrite Rmult_assoc, Rabs_mult. rewrite <- (Rmult_1_r (Rabs (R_of d))) at 2. apply Rmult_le_compat_l; [apply Rabs_pos|].
    rewrite Rabs_mult, (Rabs_pos_eq (/ L)) by (left; now apply Rinv_0_lt_compat). apply Rmult_le_reg_r with L; [exact LP|]. rewrite Rmult_assoc, Rinv_l by lra. lra. }
  unfold seg_offset, seg_point_along_offset, g_point_along_offset. cbn [NF nsub nmul nadd ndiv neq nhyp nofZ pf px py].
  change (fofZ 0) with f0. fold x0 y0 x1 y1. rewrite ND. cbn [negb]. fold ux uy. unfold offset_near. fold x0 y0 x1 y1. fold L. cbv zeta.
  destruct (SEG _ _ _ _ X0 X1) as (A0 & A1). destruct (SEG _ _ _ _ Y0 Y1) as (B0 & B1).
  cbn [seg_new p0 p1 with_xy set_x set_y from_coordinate coord_default cx cy cz cm px py].
  split; (split; [split|split]); first [apply (FIN _ _ _ _ A0 Fw (SM _ LY) Ew)|apply (FIN _ _ _ _ B0 Fu (SM _ LX) Eu)|apply (FIN _ _ _ _ A1 Fw (SM _ LY) Ew)|apply (FIN _ _ _ _ B1 Fu (SM _ LX) Eu)].
Qed.
(** Reflection and projection keep Z and M; points made along a segment have none. *)
Theorem C60_keeps_z_m : forall hypot s p f d,
  cz (seg_reflect hypot s p) = cz p /\ cm (seg_reflect hypot s p) = cm p /\
  fis_nan (cz (seg_point_along hypot s f)) = true /\ fis_nan (cz (seg_point_along_offset hypot s f d)) = true /\ fis_nan (cz (seg_mid_point hypot s)) = true.
Proof. intros. repeat split; reflexivity. Qed.
(** The segment from (0,0) to (4,0): its bounds, a segment on its left, the
    projection of (1,3), and of a segment partly beyond its end. *)
Example C60_more_example :
  let s := seg_new (ipt 0 0) (ipt 4 0) in let t := seg_new (ipt 1 3) (ipt 9 5) in
  seg_of 0 s /\ seg_of 0 t /\ rpt (p0 s) <> rpt (p1 s) /\ is_horizontal s = true /\ is_vertical s = false /\
  feqb (seg_max_x t) (fofZ 9) = true /\ orientation_segment s t = 1%Z /\ orientation_segment (seg_reverse s) t = (-1)%Z /\
  fltb (seg_distance_perpendicular_oriented hypot_nearest (seg_reverse s) (ipt 1 3)) f0 = true /\
  equals_2d (seg_project hypot_nearest s (ipt 1 3)) (ipt 1 0) = true /\
  match seg_project_segment hypot_nearest s t with Some r => equals_2d (p0 r) (ipt 1 0) && equals_2d (p1 r) (ipt 4 0) = true | None => False end /\
  seg_project_segment hypot_nearest s (seg_new (ipt 5 1) (ipt 9 5)) = None /\
  fis_finite f1 = true /\ bp (-300) <= Rabs (R_of f1) <= bp 300.
Proof.
  assert (forall a b c d, (Z.abs a <= 2 ^ 24)%Z -> (Z.abs b <= 2 ^ 24)%Z -> (Z.abs c <= 2 ^ 24)%Z -> (Z.abs d <= 2 ^ 24)%Z -> seg_of 0 (seg_new (ipt a b) (ipt c d))) as SM.
  { intros a b c d A B C D. split; apply ipt_small; assumption. }
  cbv zeta. split; [apply SM; cbn; lia|]. split; [apply SM; cbn; lia|]. split.
  { intros Q. apply (f_equal (@px R)) in Q. cbn [rpt px seg_new p0 p1 from_coordinate ipt new_xy cx] in Q.
    destruct (grid_fofZ 0 ltac:(lia)) as (_ & E0), (grid_fofZ 4 ltac:(lia)) as (_ & E4). change (R_of (fofZ 0) = R_of (fofZ 4)) in Q. rewrite E0, E4 in Q. change (bp 0) with 1 in Q. lra. }
  do 8 (split; [vm_compute; reflexivity|]). split; [vm_compute; reflexivity|]. split; [reflexivity|].
  rewrite R_of_f1, Rabs_R1. split; [apply (bpow_le radix2 (-300) 0)|apply (bpow_le radix2 0 300)]; lia.
Qed.
