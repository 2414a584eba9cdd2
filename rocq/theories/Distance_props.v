(** C52: distances between points, segments and lines. *)
From Coq Require Import ZArith Bool List Reals Lia Lra Psatz.
From Flocq Require Import Core IEEE754.BinarySingleNaN.
From Verif Require Import Base F64 F64Facts F64Err Num NumLink Coordinate_model Envelope_model MathUtil_model
  Orientation_spec Orientation_props Measure_props
  Distance_model Distance_spec Distance_proofs Distance_float.
Import ListNotations.
Local Open Scope R_scope.

(** The general model over the doubles is made of the models of the functions it calls. *)
Lemma distance_same hypot a b : g_distance f64 (NF hypot) (pf a) (pf b) = distance hypot a b.
Proof. reflexivity. Qed.
Lemma intersects_4_same hypot a b c d : g_intersects_4 f64 (NF hypot) (pf a) (pf b) (pf c) (pf d) = intersects_4 a b c d.
Proof. reflexivity. Qed.
Lemma min_4_same hypot x y z w : g_min4 f64 (NF hypot) x y z w = min_4 x y z w.
Proof. reflexivity. Qed.

(** ** In exact arithmetic *)
(** The distance to a segment is the least distance to its points. *)
Theorem C52_point_to_segment_exact : forall p a b,
  least_distance (eq p) (on_segment a b) (g_point_to_segment R NR p a b).
Proof. exact p2s_least. Qed.
(** The distance of two segments is the least distance of their points, *)
Theorem C52_segment_to_segment_exact : forall a b c d,
  least_distance (on_segment a b) (on_segment c d) (g_segment_to_segment R NR a b c d).
Proof. exact s2s_least. Qed.
(** zero exactly when they share a point, *)
Theorem C52_segments_meet : forall a b c d,
  g_segment_to_segment R NR a b c d = 0 <-> exists q, on_segment a b q /\ on_segment c d q.
Proof.
  intros a b c d. destruct (s2s_least a b c d) as [(p & q & Hp & Hq & E) H]. split.
  - intros Z. rewrite Z in E. apply dist_0 in E. subst q. exists p. tauto.
  - intros (q' & H1 & H2). pose proof (H q' q' H1 H2) as L. rewrite (proj2 (dist_0 q' q') eq_refl) in L.
    pose proof (dist_pos p q). lra.
Qed.
(** and does not depend on the order of the segments or of their ends. *)
Theorem C52_segments_symmetric : forall a b c d,
  g_segment_to_segment R NR c d a b = g_segment_to_segment R NR a b c d /\
  g_segment_to_segment R NR b a c d = g_segment_to_segment R NR a b c d.
Proof.
  intros a b c d. split; apply (least_unique (on_segment a b) (on_segment c d)); try apply s2s_least.
  - apply least_sym, s2s_least.
  - apply (least_ext (on_segment b a) _ (on_segment c d) _ _ (segment_flip b a) (fun p => conj (fun H => H) (fun H => H))), s2s_least.
Qed.
(** The distance to a chain of segments. *)
Theorem C52_string_exact : forall p a l d, g_point_to_segment_string R NR p (a :: l) = Some d ->
  least_distance (eq p) (on_string a l) d.
Proof. exact string_least. Qed.
(** The distance to a line, and the side its signed form tells. *)
Theorem C52_line_exact : forall p a b, a <> b ->
  least_distance (eq p) (on_line a b) (g_line_perpendicular R NR p a b) /\
  Rabs (g_line_perpendicular_signed R NR p a b) = g_line_perpendicular R NR p a b /\
  (0 < g_line_perpendicular_signed R NR p a b <->
   (px b - px a) * (py p - py a) - (py b - py a) * (px p - px a) < 0).
Proof. intros p a b H. split; [apply perp_least; exact H | apply perp_signed; exact H]. Qed.
(** (3,4) is at distance 5 from (0,0) and from the segment behind it. *)
Example C52_exact_example : least_distance (eq (mkP 3 4)) (on_segment (mkP 0 0) (mkP (-3) (-4))) 5 /\
  mkP 0 0 <> mkP (-3) (-4).
Proof.
  split; [| intros E; injection E; lra].
  split.
  - exists (mkP 3 4), (mkP 0 0). split; [reflexivity |]. split; [exists 0; split; [lra | unfold along; cbn; f_equal; ring] |].
    unfold dist. cbn. unfold Rsqr. replace ((3 - 0) * (3 - 0) + (4 - 0) * (4 - 0)) with (5 * 5) by ring. apply sqrt_square. lra.
  - intros p q <- (t & Ht & ->). apply dist_le; [lra |]. unfold along, Rsqr. cbn. nra.
Qed.

(** ** In doubles *)
(** The real point of a coordinate; points on a grid of step [2^e]. *)
Definition rpt (c : Coordinate) : pR := mkP (R_of (cx c)) (R_of (cy c)).
Definition small_pt (e : Z) (c : Coordinate) : Prop :=
  (exists n, (Z.abs n <= 2 ^ 24)%Z /\ grid e (cx c) n) /\ (exists n, (Z.abs n <= 2 ^ 24)%Z /\ grid e (cy c) n).
Lemma small_ptx e c : small_pt e c -> ptx e 24 (pf c) (rpt c).
Proof. intros [(n & Hn & Gn) (m & Hm & Gm)]. split; [exact (ex_self e 24 _ _ Hn Gn) | exact (ex_self e 24 _ _ Hm Gm)]. Qed.
(** [x] is within a relative error of [2^-51] of [d]; zero exactly when [d] is. *)
Definition close_to (x : f64) (d : R) : Prop := fis_finite x = true /\ Rabs (R_of x - d) <= bp (-51) * d.
Lemma ap_close x d : 0 <= d -> ap 4 x d -> close_to x d.
Proof.
  intros H [F E]. split; [exact F |]. rewrite (Rabs_pos_eq d H) in E.
  replace (bp (-51)) with (4 * u53); [exact E |]. change (-51)%Z with (-53 + 1 + 1)%Z. rewrite !bp_S. ring.
Qed.
Lemma close_zero x d : 0 <= d -> close_to x d -> (R_of x = 0 <-> d = 0).
Proof.
  intros H [_ E]. assert (B : bp (-51) < 1) by (apply (bpow_lt radix2 (-51) 0); lia). pose proof (bpow_gt_0 radix2 (-51)) as B'.
  split.
  - intros Z. rewrite Z in E. rewrite Rminus_0_l, Rabs_Ropp, Rabs_pos_eq in E by exact H. nra.
  - intros ->. rewrite Rmult_0_r, Rminus_0_r in E. pose proof (Rabs_pos (R_of x)). apply Rabs_eq_R0. lra.
Qed.
Lemma least_pos A B d : least_distance A B d -> 0 <= d.
Proof. intros [(p & q & _ & _ & <-) _]. apply dist_pos. Qed.

(** On such points the computed distances are within 2^-51 of the true ones. *)
Theorem C52_point_to_segment_close : forall hypot e p a b d, hypot_accurate hypot -> (-400 <= e <= 400)%Z ->
  small_pt e p -> small_pt e a -> small_pt e b ->
  least_distance (eq (rpt p)) (on_segment (rpt a) (rpt b)) d -> close_to (point_to_segment hypot p a b) d.
Proof.
  intros hypot e p a b d Hh He Hp Ha Hb L. rewrite (least_unique _ _ _ _ L (p2s_least _ _ _)).
  apply ap_close; [apply p2s_nonneg |]. apply (p2s_ap hypot Hh e He); apply small_ptx; assumption.
Qed.
Theorem C52_segment_to_segment_close : forall hypot e a b c d x, hypot_accurate hypot -> (-400 <= e <= 400)%Z ->
  small_pt e a -> small_pt e b -> small_pt e c -> small_pt e d ->
  least_distance (on_segment (rpt a) (rpt b)) (on_segment (rpt c) (rpt d)) x ->
  close_to (segment_to_segment hypot a b c d) x.
Proof.
  intros hypot e a b c d x Hh He Ha Hb Hc Hd L. pose proof (least_pos _ _ _ L) as P.
  rewrite (least_unique _ _ _ _ L (s2s_least _ _ _ _)) in *.
  apply ap_close; [exact P |]. apply (s2s_ap hypot Hh e He); apply small_ptx; assumption.
Qed.
Theorem C52_string_close : forall hypot e p a l d, hypot_accurate hypot -> (-400 <= e <= 400)%Z ->
  small_pt e p -> small_pt e a -> Forall (small_pt e) l ->
  least_distance (eq (rpt p)) (on_string (rpt a) (map rpt l)) d ->
  close_to (point_to_segment_string hypot p (a :: l)) d.
Proof.
  intros hypot e p a l d Hh He Hp Ha Hl L. pose proof (least_pos _ _ _ L) as P.
  rewrite (least_unique _ _ _ _ L (string_least _ _ _ _ eq_refl)) in *.
  apply ap_close; [exact P |]. unfold point_to_segment_string. cbn [map g_point_to_segment_string].
  apply (string_ap hypot Hh e He); try (apply small_ptx; assumption).
  - clear - Hl. induction Hl; cbn; constructor; [apply small_ptx; assumption | assumption].
  - apply dist_pos.
  - apply (dist_ap hypot Hh e He); apply small_ptx; assumption.
Qed.
(** So on such points they are zero exactly when the point is on the segment,
    or when the segments share a point. *)
Theorem C52_zero_iff : forall hypot e a b c d, hypot_accurate hypot -> (-400 <= e <= 400)%Z ->
  small_pt e a -> small_pt e b -> small_pt e c -> small_pt e d ->
  (feqb (point_to_segment hypot a c d) f0 = true <-> on_segment (rpt c) (rpt d) (rpt a)) /\
  (feqb (segment_to_segment hypot a b c d) f0 = true <->
   exists q, on_segment (rpt a) (rpt b) q /\ on_segment (rpt c) (rpt d) q).
Proof.
  intros hypot e a b c d Hh He Ha Hb Hc Hd.
  assert (K : forall x r, 0 <= r -> close_to x r -> (feqb x f0 = true <-> r = 0)).
  { intros x r P C. rewrite (feqb_R x f0) by (first [apply C | reflexivity]). rewrite R_of_f0, <- (close_zero x r P C).
    destruct (Req_bool_spec (R_of x) 0); split; congruence. }
  split.
  - rewrite (K _ _ (p2s_nonneg (rpt a) (rpt c) (rpt d)) (C52_point_to_segment_close hypot e a c d _ Hh He Ha Hc Hd (p2s_least _ _ _))).
    destruct (p2s_least (rpt a) (rpt c) (rpt d)) as [(p & q & <- & Hq & E) H]. split.
    + intros Z. rewrite Z in E. apply dist_0 in E. subst. exact Hq.
    + intros On. pose proof (H _ _ eq_refl On) as L. rewrite (proj2 (dist_0 _ _) eq_refl) in L. pose proof (p2s_nonneg (rpt a) (rpt c) (rpt d)). lra.
  - pose proof (s2s_least (rpt a) (rpt b) (rpt c) (rpt d)) as L.
    rewrite (K _ _ (least_pos _ _ _ L) (C52_segment_to_segment_close hypot e a b c d _ Hh He Ha Hb Hc Hd L)).
    apply C52_segments_meet.
Qed.
(** Such a [hypot] exists: the nearest double to the exact value. *)
Definition hypot_nearest (x y : f64) : f64 := of_real (sqrt (R_of x * R_of x + R_of y * R_of y)).
Lemma hypot_nearest_accurate : hypot_accurate hypot_nearest.
Proof.
  intros x y Fx Fy h Hr. unfold hypot_nearest. fold h.
  assert (P : 0 <= h) by apply sqrt_pos.
  assert (B : Rabs h <= bp 1000) by (rewrite Rabs_pos_eq by exact P; destruct Hr as [-> | Hr]; [apply bpow_ge_0 | apply Hr]).
  destruct (of_real_R h) as [F E]; [apply (RN_small h 1000); [lia | exact B] |]. split; [exact F |].
  rewrite E. eapply Rle_trans; [apply RN_rel |].
  - destruct Hr as [-> | [L _]]; [left; reflexivity | right]. rewrite Rabs_pos_eq by exact P.
    eapply Rle_trans; [| exact L]. apply bpow_le. lia.
  - rewrite Rabs_pos_eq by exact P. apply Rmult_le_compat_r; [exact P |]. apply bpow_le. lia.
Qed.
Lemma ipt_small x y : (Z.abs x <= 2 ^ 24)%Z -> (Z.abs y <= 2 ^ 24)%Z -> small_pt 0 (ipt x y).
Proof. intros Hx Hy. split; [exists x | exists y]; (split; [assumption | apply grid_fofZ; lia]). Qed.
Example C52_example : hypot_accurate hypot_nearest /\ small_pt 0 (ipt 3 4) /\ small_pt 0 (ipt 0 0) /\ small_pt 0 (ipt 7 1) /\
  feqb (point_to_segment hypot_nearest (ipt 2 2) (ipt 0 0) (ipt 4 4)) f0 = true /\
  fltb f0 (point_to_segment hypot_nearest (ipt 3 4) (ipt 0 0) (ipt 7 1)) = true /\
  feqb (segment_to_segment hypot_nearest (ipt 0 0) (ipt 4 4) (ipt 0 4) (ipt 4 0)) f0 = true.
Proof.
  split; [exact hypot_nearest_accurate |]. split; [apply ipt_small; lia |]. split; [apply ipt_small; lia |].
  split; [apply ipt_small; lia |]. split; [vm_compute; reflexivity |]. split; vm_compute; reflexivity.
Qed.

(** ** For all doubles *)
(** A computed distance is never negative. *)
Lemma abs_rank x : (0 <= rank (fabs x))%Z.
Proof. rewrite rank_fabs. lia. Qed.
Definition nonneg_or_nan (x : f64) : Prop := nn x -> fleb f0 x = true.
Lemma nonneg_rank x : nonneg_or_nan x <-> (nn x -> (0 <= rank x)%Z).
Proof.
  unfold nonneg_or_nan. split; intros H N; specialize (H N).
  - rewrite (fleb_rank f0 x eq_refl N) in H. apply Z.leb_le in H. exact H.
  - rewrite (fleb_rank f0 x eq_refl N). apply Z.leb_le. exact H.
Qed.
Lemma mul_nn x y : nn (fmul x y) -> nn x /\ nn y.
Proof. destruct x as [[] | [] | | [] ? ? ?], y as [[] | [] | | [] ? ? ?]; cbn; split; try reflexivity; try discriminate. Qed.
Lemma perp_nonneg s l : nonneg_or_nan (fmul (fabs s) (fsqrt l)).
Proof.
  apply nonneg_rank. intros N. destruct (mul_nn _ _ N) as [N1 N2].
  apply fmul_nonneg; [apply abs_rank | apply fsqrt_nonneg; exact N2 | exact N1 | exact N2 | exact N].
Qed.
Lemma p2s_nonneg_f hypot p a b : hypot_nonneg hypot -> nonneg_or_nan (point_to_segment hypot p a b).
Proof.
  intros H. unfold point_to_segment, g_point_to_segment. cbn [NF neq nsub nmul nadd ndiv nle nabs nsqrt nhyp nofZ].
  repeat match goal with |- context [if ?t then _ else _] => destruct t end; try (intros N; apply H; exact N).
  apply perp_nonneg.
Qed.
Lemma min4_in x y z w : let m := min_4 x y z w in m = x \/ m = y \/ m = z \/ m = w.
Proof.
  unfold min_4. cbv zeta. destruct (fltb y x); destruct (fltb z _); destruct (fltb w _); tauto.
Qed.
Lemma s2s_nonneg_f hypot a b c d : hypot_nonneg hypot -> nonneg_or_nan (segment_to_segment hypot a b c d).
Proof.
  intros H. unfold segment_to_segment, g_segment_to_segment.
  destruct (g_equals f64 (NF hypot) (pf a) (pf b)); [apply p2s_nonneg_f; exact H |].
  destruct (g_equals f64 (NF hypot) (pf c) (pf d)); [apply p2s_nonneg_f; exact H |].
  match goal with |- nonneg_or_nan (if ?t then _ else _) => destruct t end; [| intros _; reflexivity].
  rewrite min_4_same.
  match goal with |- nonneg_or_nan (min_4 ?x ?y ?z ?w) => destruct (min4_in x y z w) as [E | [E | [E | E]]] end;
    rewrite E; apply p2s_nonneg_f; exact H.
Qed.
Lemma string_nonneg_f hypot p l : hypot_nonneg hypot -> forall a m, nonneg_or_nan m ->
  nonneg_or_nan (g_string_loop f64 (NF hypot) (pf p) (pf a) (map pf l) m).
Proof.
  intros H. induction l as [| b t IH]; intros a m Hm; [exact Hm |]. cbn [map g_string_loop]. apply IH.
  cbn [NF nlt]. destruct (fltb _ m); [apply (p2s_nonneg_f hypot p a b H) | exact Hm].
Qed.
Theorem C52_nonneg : forall hypot p a b c d l, hypot_nonneg hypot ->
  nonneg_or_nan (point_to_segment hypot p a b) /\ nonneg_or_nan (segment_to_segment hypot a b c d) /\
  nonneg_or_nan (point_to_segment_string hypot p l) /\ nonneg_or_nan (line_perpendicular hypot p a b).
Proof.
  intros hypot p a b c d l H. split; [apply p2s_nonneg_f; exact H |]. split; [apply s2s_nonneg_f; exact H |].
  split; [| apply perp_nonneg].
  unfold point_to_segment_string. destruct l as [| q t]; [intros N; discriminate N |].
  cbn [map g_point_to_segment_string]. apply string_nonneg_f; [exact H |]. intros N. apply H. exact N.
Qed.
(** The distance to a chain is never above the distance to one of its segments
    that was computed without NaN. *)
Lemma string_loop_le hypot p l : forall a m, nn m ->
  let r := g_string_loop f64 (NF hypot) (pf p) (pf a) (map pf l) m in
  nn r /\ fleb r m = true /\
  forall i b c, nth_error (a :: l) i = Some b -> nth_error (a :: l) (S i) = Some c ->
    nn (point_to_segment hypot p b c) -> fleb r (point_to_segment hypot p b c) = true.
Proof.
  induction l as [| b t IH]; intros a m Nm.
  - cbn. split; [exact Nm |]. split; [rewrite fleb_rank by exact Nm; apply Z.leb_refl |].
    intros [| i] b c _ E; [discriminate E | destruct i; discriminate E].
  - cbn [map g_string_loop]. cbn [NF nlt]. change (g_point_to_segment f64 (NF hypot) (pf p) (pf a) (pf b)) with (point_to_segment hypot p a b).
    set (dd := point_to_segment hypot p a b). set (m' := if fltb dd m then dd else m).
    assert (M : nn m' /\ fleb m' m = true /\ (nn dd -> fleb m' dd = true)).
    { unfold m'. destruct (fltb dd m) eqn:E.
      - destruct (fltb_nn _ _ E) as [N1 N2]. split; [exact N1 |]. rewrite !fleb_rank by assumption. rewrite fltb_rank in E by assumption.
        split; [apply Z.leb_le; apply Z.ltb_lt in E; lia | intros _; apply Z.leb_refl].
      - split; [exact Nm |]. split; [rewrite fleb_rank by exact Nm; apply Z.leb_refl |].
        intros N. rewrite fltb_rank in E by assumption. rewrite fleb_rank by assumption. apply Z.leb_le. apply Z.ltb_ge in E. lia. }
    destruct M as (M1 & M2 & M3). destruct (IH b m' M1) as (I1 & I2 & I3). cbv zeta.
    set (r := g_string_loop f64 (NF hypot) (pf p) (pf b) (map pf t) m') in *. split; [exact I1 |].
    assert (TR : forall x y, nn x -> nn y -> fleb r x = true -> fleb x y = true -> fleb r y = true).
    { intros x y Nx Ny L1 L2. rewrite fleb_rank in * by assumption. apply Z.leb_le in L1, L2. apply Z.leb_le. lia. }
    split; [apply (TR m' m M1 Nm I2 M2) |].
    intros [| i] x y Ex Ey N.
    + cbn in Ex, Ey. injection Ex as <-. injection Ey as <-. apply (TR m' dd M1 N I2 (M3 N)).
    + apply (I3 i x y Ex Ey N).
Qed.
Theorem C52_string_below_segments : forall hypot p a l i b c, nn (distance hypot p a) ->
  nth_error (a :: l) i = Some b -> nth_error (a :: l) (S i) = Some c -> nn (point_to_segment hypot p b c) ->
  fleb (point_to_segment_string hypot p (a :: l)) (point_to_segment hypot p b c) = true.
Proof.
  intros hypot p a l i b c N Eb Ec Nd. unfold point_to_segment_string. cbn [map g_point_to_segment_string].
  exact (proj2 (proj2 (string_loop_le hypot p l a _ N)) i b c Eb Ec Nd).
Qed.
(** Segments shorter than about 10^-162 defeat the code: the squared length
    underflows to zero and the distance is NaN, even from an end point. *)
Theorem C52_tiny_segment_refuted : exists p a b, forall hypot,
  fis_finite (cx p) = true /\ fis_finite (cy p) = true /\ fis_finite (cx a) = true /\ fis_finite (cy a) = true /\
  fis_finite (cx b) = true /\ fis_finite (cy b) = true /\ equals_2d a b = false /\ p = a /\
  fis_nan (point_to_segment hypot p a b) = true.
Proof.
  exists (new_xy f0 f0), (new_xy f0 f0), (new_xy (mkf 1 (-600)) f0). intros hypot.
  repeat (split; [vm_compute; reflexivity |]). vm_compute. reflexivity.
Qed.
