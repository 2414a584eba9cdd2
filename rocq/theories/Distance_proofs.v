From Coq Require Import Reals List Bool ZArith Lra Lia Psatz.
From Flocq Require Import Core.
From Verif Require Import Num Distance_model Distance_spec.
Import ListNotations.
Local Open Scope R_scope.

Notation p2sR := (g_point_to_segment R NR).
Notation s2sR := (g_segment_to_segment R NR).
Notation distR := (g_distance R NR).

Lemma along_0 : forall a b, along a b 0 = a.
Proof. intros [x y] [z w]. unfold along. cbn. f_equal; ring. Qed.
Lemma along_1 : forall a b, along a b 1 = b.
Proof. intros [x y] [z w]. unfold along. cbn. f_equal; ring. Qed.
Lemma seg_l : forall a b, on_segment a b a.
Proof. intros a b. exists 0. split; [lra |]. symmetry. apply along_0. Qed.
Lemma seg_r : forall a b, on_segment a b b.
Proof. intros a b. exists 1. split; [lra |]. symmetry. apply along_1. Qed.
Lemma along_same : forall a t, along a a t = a.
Proof. intros [x y] t. unfold along. cbn. f_equal; ring. Qed.

Lemma dist_sym : forall p q, dist p q = dist q p.
Proof. intros. unfold dist, Rsqr. f_equal. ring. Qed.
Lemma dist_pos : forall p q, 0 <= dist p q.
Proof. intros. apply sqrt_pos. Qed.
Lemma dist_sq : forall p q, dist p q * dist p q = (px p - px q)² + (py p - py q)².
Proof. intros. unfold dist. apply sqrt_sqrt. apply Rplus_le_le_0_compat; apply Rle_0_sqr. Qed.
Lemma dist_le : forall p q d, 0 <= d -> d * d <= (px p - px q)² + (py p - py q)² -> d <= dist p q.
Proof. intros p q d Hd H. unfold dist. rewrite <- (sqrt_square d Hd). apply sqrt_le_1_alt. exact H. Qed.
Lemma dist_0 : forall p q, dist p q = 0 <-> p = q.
Proof.
  intros [x y] [z w]. split.
  - intros H. pose proof (dist_sq (mkP x y) (mkP z w)) as E. rewrite H, Rmult_0_l in E. cbn in E.
    destruct (Rplus_sqr_eq_0 (x - z) (y - w)) as [E1 E2]; [unfold Rsqr in *; lra |]. f_equal; lra.
  - intros ->. unfold dist. cbn. rewrite !Rminus_eq_0. unfold Rsqr. rewrite Rmult_0_l, Rplus_0_l. apply sqrt_0.
Qed.
Lemma distR_eq : forall p q, distR p q = dist p q.
Proof. reflexivity. Qed.

Lemma len2_pos : forall a b : pR, ~ (px a = px b /\ py a = py b) -> 0 < (px b - px a) * (px b - px a) + (py b - py a) * (py b - py a).
Proof.
  intros a b H. destruct (Req_dec (px a) (px b)) as [E | E].
  - assert (K : py b - py a <> 0) by (intros K; apply H; split; [exact E | lra]).
    pose proof (Rsqr_pos_lt _ K) as Q. unfold Rsqr in Q. pose proof (Rle_0_sqr (px b - px a)) as Q'. unfold Rsqr in Q'. lra.
  - assert (K : px b - px a <> 0) by lra. pose proof (Rsqr_pos_lt _ K) as Q. unfold Rsqr in Q.
    pose proof (Rle_0_sqr (py b - py a)) as Q'. unfold Rsqr in Q'. lra.
Qed.

(** What [point_to_segment] computes in exact arithmetic, case by case. *)
Lemma p2s_cases : forall p a b, exists t, 0 <= t <= 1 /\ p2sR p a b = dist p (along a b t) /\
  forall u, 0 <= u <= 1 -> p2sR p a b <= dist p (along a b u).
Proof.
  intros [x y] [ax ay] [bx by_]. unfold g_point_to_segment, g_len2, g_side, g_distance. cbn [px py NR neq nsub nmul nadd ndiv nle nabs nsqrt nhyp nofZ].
  destruct (Req_bool_spec ax bx) as [E1 | E1]; destruct (Req_bool_spec ay by_) as [E2 | E2]; cbn [andb].
  1: { subst. exists 0. split; [lra |]. rewrite along_same. split; [reflexivity |]. intros u _. rewrite along_same. apply Rle_refl. }
  all: assert (HL : 0 < (bx - ax) * (bx - ax) + (by_ - ay) * (by_ - ay)) by (apply (len2_pos (mkP ax ay) (mkP bx by_)); cbn; tauto).
  all: set (L := (bx - ax) * (bx - ax) + (by_ - ay) * (by_ - ay)) in *.
  all: set (rn := (x - ax) * (bx - ax) + (y - ay) * (by_ - ay)).
  all: assert (HT : forall u, (x - (ax + u * (bx - ax)))² + (y - (ay + u * (by_ - ay)))² = (x - ax) * (x - ax) + (y - ay) * (y - ay) - 2 * u * rn + u * u * L)
         by (intros u; unfold L, rn, Rsqr; ring).
  all: assert (Hr : rn = rn / L * L) by (field; lra).
  all: set (r := rn / L) in *; clearbody r.
  all: destruct (Rle_bool_spec r 0) as [R0 | R0];
    [ exists 0; split; [lra |]; rewrite along_0; split; [reflexivity |];
      intros u Hu; unfold along, dist; cbn [px py]; apply sqrt_le_1_alt; rewrite HT;
      pose proof (Rmult_le_pos u (- (r * L)) ltac:(lra) ltac:(nra)); pose proof (Rmult_le_pos (u * u) L ltac:(nra) ltac:(lra)); rewrite Hr; nra
    | destruct (Rle_bool_spec 1 r) as [R1 | R1];
      [ exists 1; split; [lra |]; rewrite along_1; split; [reflexivity |];
        intros u Hu; unfold along, dist; cbn [px py]; apply sqrt_le_1_alt; rewrite HT;
        pose proof (HT 1) as HT1; unfold Rsqr in HT1;
        replace (ax + 1 * (bx - ax)) with bx in HT1 by ring; replace (ay + 1 * (by_ - ay)) with by_ in HT1 by ring; rewrite HT1, Hr;
        pose proof (Rmult_le_pos (1 - u) ((2 * r - 1 - u) * L) ltac:(lra) ltac:(nra)); nra
      | ] ].
  all: set (sd := (ay - y) * (bx - ax) - (ax - x) * (by_ - ay)).
  all: assert (HS : Rabs (sd / L) * sqrt L = sqrt ((x - ax) * (x - ax) + (y - ay) * (y - ay) - r * r * L)).
  1, 3, 5: (rewrite <- (Rabs_pos_eq (sqrt L)) by apply sqrt_pos; rewrite <- Rabs_mult, <- sqrt_Rsqr_abs; f_equal;
    unfold Rsqr; replace (sd / L * sqrt L * (sd / L * sqrt L)) with ((sd * sd) / (L * L) * (sqrt L * sqrt L)) by (field; lra);
    rewrite sqrt_sqrt by lra; replace (sd * sd / (L * L) * L) with (sd * sd / L) by (field; lra);
    apply (Rmult_eq_reg_r L); [| lra]; replace (sd * sd / L * L) with (sd * sd) by (field; lra);
    replace (((x - ax) * (x - ax) + (y - ay) * (y - ay) - r * r * L) * L) with (((x - ax) * (x - ax) + (y - ay) * (y - ay)) * L - (r * L) * (r * L)) by ring;
    rewrite <- Hr; unfold sd, rn, L; ring).
  all: exists r; split; [lra |]; rewrite HS; split;
    [ unfold along, dist; cbn [px py]; f_equal; rewrite HT, Hr; ring
    | intros u Hu; unfold along, dist; cbn [px py]; apply sqrt_le_1_alt; rewrite HT, Hr;
      pose proof (Rmult_le_pos ((u - r) * (u - r)) L (Rle_0_sqr (u - r)) (Rlt_le _ _ HL)) as PP; clearbody L rn; clear - PP; lra ].
Qed.

Theorem p2s_least : forall p a b, least_distance (eq p) (on_segment a b) (p2sR p a b).
Proof.
  intros p a b. destruct (p2s_cases p a b) as (t & Ht & E & H). split.
  - exists p, (along a b t). split; [reflexivity |]. split; [exists t; tauto | congruence].
  - intros p' q <- (u & Hu & ->). apply H, Hu.
Qed.
Lemma p2s_attained : forall p a b, exists q, on_segment a b q /\ p2sR p a b = dist p q.
Proof. intros p a b. destruct (p2s_least p a b) as [(p' & q & <- & H & E) _]. exists q. split; [exact H | congruence]. Qed.
Lemma p2s_le : forall p a b q, on_segment a b q -> p2sR p a b <= dist p q.
Proof. intros p a b q H. apply (proj2 (p2s_least p a b)); [reflexivity | exact H]. Qed.

(** Moving from a point of the unit square to a point outside it meets the border. *)
Lemma exit_1 : forall s z, 0 <= s <= 1 -> exists l, 0 <= l <= 1 /\
  (forall m, 0 <= m <= l -> 0 <= s + m * (z - s) <= 1) /\ (l = 1 \/ s + l * (z - s) = 0 \/ s + l * (z - s) = 1).
Proof.
  intros s z Hs. destruct (Rle_dec z 1) as [Z1 | Z1].
  - destruct (Rle_dec 0 z) as [Z0 | Z0].
    + exists 1. split; [lra |]. split; [intros m Hm; nra | left; reflexivity].
    + exists (s / (s - z)). assert (0 < s - z) by lra.
      assert (E : s / (s - z) * (s - z) = s) by (field; lra).
      assert (0 <= s / (s - z)) by (apply Rmult_le_pos; [lra | left; apply Rinv_0_lt_compat; lra]).
      split; [split; [assumption | nra] |]. split; [intros m Hm; nra | right; left; nra].
  - exists ((1 - s) / (z - s)). assert (0 < z - s) by lra.
    assert (E : (1 - s) / (z - s) * (z - s) = 1 - s) by (field; lra).
    assert (0 <= (1 - s) / (z - s)) by (apply Rmult_le_pos; [lra | left; apply Rinv_0_lt_compat; lra]).
    split; [split; [assumption | nra] |]. split; [intros m Hm; nra | right; right; nra].
Qed.
Lemma exit_2 : forall s t z w, 0 <= s <= 1 -> 0 <= t <= 1 -> ~ (0 <= z <= 1 /\ 0 <= w <= 1) ->
  exists l, 0 <= l <= 1 /\ 0 <= s + l * (z - s) <= 1 /\ 0 <= t + l * (w - t) <= 1 /\
    (s + l * (z - s) = 0 \/ s + l * (z - s) = 1 \/ t + l * (w - t) = 0 \/ t + l * (w - t) = 1).
Proof.
  intros s t z w Hs Ht Hn. destruct (exit_1 s z Hs) as (l1 & L1 & H1 & E1). destruct (exit_1 t w Ht) as (l2 & L2 & H2 & E2).
  pose proof (H1 l1 ltac:(lra)) as K1. pose proof (H2 l2 ltac:(lra)) as K2.
  destruct (Rle_dec l1 l2) as [C | C].
  - exists l1. split; [exact L1 |]. split; [exact K1 |]. split; [apply H2; lra |].
    destruct E1 as [-> | [E | E]]; [| tauto | tauto].
    destruct E2 as [-> | E2]; [exfalso; apply Hn; lra |].
    assert (l2 = 1) by lra. subst. tauto.
  - exists l2. split; [exact L2 |]. split; [apply H1; lra |]. split; [exact K2 |].
    destruct E2 as [-> | E2]; [lra | tauto].
Qed.

(** The least distance between two segments is reached at an end, unless they meet inside. *)
Lemma ends_suffice : forall (a b c d : pR) s t z w m, 0 <= s <= 1 -> 0 <= t <= 1 -> ~ (0 <= z <= 1 /\ 0 <= w <= 1) ->
  (forall l, 0 <= l <= 1 -> dist (along a b (s + l * (z - s))) (along c d (t + l * (w - t))) <= dist (along a b s) (along c d t)) ->
  (forall q, on_segment c d q -> m <= dist a q) -> (forall q, on_segment c d q -> m <= dist b q) ->
  (forall q, on_segment a b q -> m <= dist c q) -> (forall q, on_segment a b q -> m <= dist d q) ->
  m <= dist (along a b s) (along c d t).
Proof.
  intros a b c d s t z w m Hs Ht Hn Hd Ha Hb Hc Hdd.
  destruct (exit_2 s t z w Hs Ht Hn) as (l & Hl & K1 & K2 & E).
  eapply Rle_trans; [| apply (Hd l Hl)].
  assert (on_segment a b (along a b (s + l * (z - s)))) by (eexists; split; [exact K1 | reflexivity]).
  assert (on_segment c d (along c d (t + l * (w - t)))) by (eexists; split; [exact K2 | reflexivity]).
  destruct E as [E | [E | [E | E]]]; rewrite E in *; rewrite ?along_0, ?along_1 in *; [| | rewrite dist_sym | rewrite dist_sym]; auto.
Qed.
Lemma dist_along : forall a b c d s t, dist (along a b s) (along c d t) =
  sqrt ((px a - px c + s * (px b - px a) - t * (px d - px c)) * (px a - px c + s * (px b - px a) - t * (px d - px c)) +
        (py a - py c + s * (py b - py a) - t * (py d - py c)) * (py a - py c + s * (py b - py a) - t * (py d - py c))).
Proof. intros. unfold dist, along, Rsqr. cbn [px py]. f_equal. ring. Qed.

Lemma min4R_spec : forall x y z w, let m := g_min4 R NR x y z w in
  m <= x /\ m <= y /\ m <= z /\ m <= w /\ (m = x \/ m = y \/ m = z \/ m = w).
Proof.
  intros x y z w. unfold g_min4. cbn [NR nlt].
  destruct (Rlt_bool_spec y x); destruct (Rlt_bool_spec z y); destruct (Rlt_bool_spec z x); destruct (Rlt_bool_spec w z);
  destruct (Rlt_bool_spec w y); destruct (Rlt_bool_spec w x); cbn; repeat split; try lra; tauto.
Qed.

Section SegSeg.
Variables a b c d : pR.
Let U1 := px b - px a. Let U2 := py b - py a. Let V1 := px d - px c. Let V2 := py d - py c.
Let den := U1 * V2 - U2 * V1.
Let rn := (py a - py c) * V1 - (px a - px c) * V2.
Let sn := (py a - py c) * U1 - (px a - px c) * U2.
Let m := g_min4 R NR (p2sR a c d) (p2sR b c d) (p2sR c a b) (p2sR d a b).

Lemma m_attained : exists p q, on_segment a b p /\ on_segment c d q /\ dist p q = m.
Proof.
  destruct (min4R_spec (p2sR a c d) (p2sR b c d) (p2sR c a b) (p2sR d a b)) as (_ & _ & _ & _ & E). fold m in E.
  destruct (p2s_attained a c d) as (q1 & Q1 & E1). destruct (p2s_attained b c d) as (q2 & Q2 & E2).
  destruct (p2s_attained c a b) as (q3 & Q3 & E3). destruct (p2s_attained d a b) as (q4 & Q4 & E4).
  pose proof (seg_l a b). pose proof (seg_r a b). pose proof (seg_l c d). pose proof (seg_r c d).
  destruct E as [E | [E | [E | E]]]; rewrite E.
  - exists a, q1. auto.
  - exists b, q2. auto.
  - exists q3, c. rewrite dist_sym. auto.
  - exists q4, d. rewrite dist_sym. auto.
Qed.
Lemma m_ends : forall s t z w, 0 <= s <= 1 -> 0 <= t <= 1 -> ~ (0 <= z <= 1 /\ 0 <= w <= 1) ->
  (forall l, 0 <= l <= 1 -> dist (along a b (s + l * (z - s))) (along c d (t + l * (w - t))) <= dist (along a b s) (along c d t)) ->
  m <= dist (along a b s) (along c d t).
Proof.
  intros s t z w Hs Ht Hn Hd.
  destruct (min4R_spec (p2sR a c d) (p2sR b c d) (p2sR c a b) (p2sR d a b)) as (M1 & M2 & M3 & M4 & _). fold m in M1, M2, M3, M4.
  apply (ends_suffice a b c d s t z w m Hs Ht Hn Hd);
    intros q Hq; [eapply Rle_trans; [exact M1 |] | eapply Rle_trans; [exact M2 |]
      | eapply Rle_trans; [exact M3 |] | eapply Rle_trans; [exact M4 |]]; apply p2s_le; exact Hq.
Qed.
(** Lines that are not parallel meet at fractions [rn/den] and [sn/den]. *)
Lemma meet_zero : den <> 0 -> forall s t, s = rn / den -> t = sn / den -> dist (along a b s) (along c d t) = 0.
Proof.
  intros Hd s t -> ->. apply dist_0. unfold along. f_equal; unfold den, rn, sn, U1, U2, V1, V2 in *; field; exact Hd.
Qed.
Lemma m_skew : den <> 0 -> ~ (0 <= rn / den <= 1 /\ 0 <= sn / den <= 1) ->
  forall s t, 0 <= s <= 1 -> 0 <= t <= 1 -> m <= dist (along a b s) (along c d t).
Proof.
  intros Hd Hn s t Hs Ht. apply (m_ends s t (rn / den) (sn / den) Hs Ht Hn).
  intros l Hl. rewrite !dist_along. apply sqrt_le_1_alt.
  set (X := px a - px c + s * (px b - px a) - t * (px d - px c)). set (Y := py a - py c + s * (py b - py a) - t * (py d - py c)).
  assert (EX : px a - px c + (s + l * (rn / den - s)) * (px b - px a) - (t + l * (sn / den - t)) * (px d - px c) = (1 - l) * X)
    by (unfold X, rn, sn, den, U1, U2, V1, V2 in *; field; exact Hd).
  assert (EY : py a - py c + (s + l * (rn / den - s)) * (py b - py a) - (t + l * (sn / den - t)) * (py d - py c) = (1 - l) * Y)
    by (unfold Y, rn, sn, den, U1, U2, V1, V2 in *; field; exact Hd).
  rewrite EX, EY. clearbody X Y.
  replace ((1 - l) * X * ((1 - l) * X) + (1 - l) * Y * ((1 - l) * Y)) with (((1 - l) * (1 - l)) * (X * X + Y * Y)) by ring.
  assert (0 <= X * X + Y * Y) by nra. assert ((1 - l) * (1 - l) <= 1) by nra. nra.
Qed.
Lemma m_parallel : den = 0 -> ~ (px a = px b /\ py a = py b) ->
  forall s t, 0 <= s <= 1 -> 0 <= t <= 1 -> m <= dist (along a b s) (along c d t).
Proof.
  intros Hd Hab s t Hs Ht. pose proof (len2_pos a b Hab) as HL. fold U1 U2 in HL.
  set (L := U1 * U1 + U2 * U2) in *. set (K := U1 * V1 + U2 * V2).
  apply (m_ends s t (s + 2 * K / L) (t + 2) Hs Ht); [lra |].
  intros l Hl. rewrite !dist_along. apply Req_le. f_equal.
  fold U1 U2 V1 V2.
  assert (EX : K * U1 = L * V1).
  { unfold K, L. replace ((U1 * V1 + U2 * V2) * U1) with (U1 * U1 * V1 + U2 * (U1 * V2)) by ring.
    replace (U1 * V2) with (U2 * V1) by (unfold den in Hd; lra). ring. }
  assert (EY : K * U2 = L * V2).
  { unfold K, L. replace ((U1 * V1 + U2 * V2) * U2) with (U1 * (U2 * V1) + U2 * U2 * V2) by ring.
    replace (U2 * V1) with (U1 * V2) by (unfold den in Hd; lra). ring. }
  assert (FX : 2 * K / L * U1 = 2 * V1) by (replace (2 * K / L * U1) with (2 * (K * U1) / L) by (field; lra); rewrite EX; field; lra).
  assert (FY : 2 * K / L * U2 = 2 * V2) by (replace (2 * K / L * U2) with (2 * (K * U2) / L) by (field; lra); rewrite EY; field; lra).
  set (k := 2 * K / L) in *.
  replace (px a - px c + (s + l * (s + k - s)) * U1 - (t + l * (t + 2 - t)) * V1) with (px a - px c + s * U1 - t * V1 + l * (k * U1 - 2 * V1)) by ring.
  replace (py a - py c + (s + l * (s + k - s)) * U2 - (t + l * (t + 2 - t)) * V2) with (py a - py c + s * U2 - t * V2 + l * (k * U2 - 2 * V2)) by ring.
  rewrite FX, FY. rewrite !Rminus_eq_0, !Rmult_0_r, !Rplus_0_r. reflexivity.
Qed.
End SegSeg.

Lemma along_box : forall x y t, 0 <= t <= 1 -> Rmin x y <= x + t * (y - x) <= Rmax x y.
Proof.
  intros x y t Ht. unfold Rmin, Rmax. destruct (Rle_dec x y); nra.
Qed.
Lemma boxes_apart : forall a b c d s t, 0 <= s <= 1 -> 0 <= t <= 1 -> along a b s = along c d t ->
  g_intersects_4 R NR a b c d = true.
Proof.
  intros a b c d s t Hs Ht E. unfold along in E. injection E as EX EY.
  pose proof (along_box (px a) (px b) s Hs). pose proof (along_box (py a) (py b) s Hs).
  pose proof (along_box (px c) (px d) t Ht). pose proof (along_box (py c) (py d) t Ht).
  unfold g_intersects_4. cbn [NR nlt nmin nmax].
  do 4 (match goal with |- context [Rlt_bool ?x ?y] => destruct (Rlt_bool_spec x y); [exfalso; lra |] end). reflexivity.
Qed.

Lemma eqR_true : forall a b, g_equals R NR a b = true <-> a = b.
Proof.
  intros [x y] [z w]. unfold g_equals. cbn. destruct (Req_bool_spec x z); destruct (Req_bool_spec y w); cbn;
    split; congruence.
Qed.

Theorem s2s_least : forall a b c d, least_distance (on_segment a b) (on_segment c d) (s2sR a b c d).
Proof.
  intros a b c d. unfold g_segment_to_segment. cbn [NR nofZ].
  destruct (g_equals R NR a b) eqn:EA.
  { apply eqR_true in EA. subst b. destruct (p2s_least a c d) as [(p & q & <- & Hq & E) H]. split.
    - exists a, q. split; [apply seg_l | tauto].
    - intros p q' (t & _ & ->) Hq'. rewrite along_same. apply H; [reflexivity | exact Hq']. }
  destruct (g_equals R NR c d) eqn:EC.
  { apply eqR_true in EC. subst d. destruct (p2s_least c a b) as [(p & q & <- & Hq & E) H]. split.
    - exists q, c. split; [exact Hq |]. split; [apply seg_l | rewrite dist_sym; exact E].
    - intros p q' Hp (t & _ & ->). rewrite along_same, dist_sym. apply H; [reflexivity | exact Hp]. }
  assert (NA : ~ (px a = px b /\ py a = py b)).
  { intros [E1 E2]. destruct a, b. cbn in *. subst. rewrite (proj2 (eqR_true _ _) eq_refl) in EA. discriminate. }
  match goal with |- context [if ?t then g_min4 R NR _ _ _ _ else _] => set (no := t) end.
  destruct no eqn:EN; subst no.
  - split; [apply m_attained |].
    intros p q (s & Hs & ->) (t & Ht & ->).
    destruct (Req_dec ((px b - px a) * (py d - py c) - (py b - py a) * (px d - px c)) 0) as [D | D].
    + apply m_parallel; assumption.
    + apply m_skew; [exact D | | exact Hs | exact Ht].
      intros [Hr Hu].
      pose proof (meet_zero a b c d D _ _ eq_refl eq_refl) as Z. apply dist_0 in Z.
      rewrite (boxes_apart a b c d _ _ Hr Hu Z) in EN. cbn [negb NR nmul nsub neq ndiv nlt] in EN.
      rewrite (Req_bool_false _ _ D) in EN.
      apply orb_prop in EN. destruct EN as [EN | EN]; [apply orb_prop in EN; destruct EN as [EN | EN]; [apply orb_prop in EN; destruct EN as [EN | EN] |] |];
        revert EN; (match goal with |- context [Rlt_bool ?x ?y] => destruct (Rlt_bool_spec x y) as [K | K] end; [intros _; lra | discriminate]).
  - destruct (negb (g_intersects_4 R NR a b c d)); [discriminate |].
    cbn [NR nmul nsub neq ndiv nlt] in EN.
    destruct (Req_bool_spec ((px b - px a) * (py d - py c) - (py b - py a) * (px d - px c)) 0) as [D | D]; [discriminate |].
    apply orb_false_elim in EN. destruct EN as [EN K4]. apply orb_false_elim in EN. destruct EN as [EN K3].
    apply orb_false_elim in EN. destruct EN as [K1 K2].
    assert (FF : forall x y, Rlt_bool x y = false -> y <= x) by (intros x y; destruct (Rlt_bool_spec x y); [discriminate | tauto]).
    apply FF in K1, K2, K3, K4.
    split.
    + eexists _, _. split; [eexists; split; [| reflexivity]; split; [exact K1 | exact K2] |].
      split; [eexists; split; [| reflexivity]; split; [exact K3 | exact K4] |].
      apply (meet_zero a b c d D); reflexivity.
    + intros p q _ _. apply dist_pos.
Qed.

Lemma least_unique : forall A B d e, least_distance A B d -> least_distance A B e -> d = e.
Proof.
  intros A B d e [(p & q & Hp & Hq & E) H] [(p' & q' & Hp' & Hq' & E') H'].
  pose proof (H p' q' Hp' Hq'). pose proof (H' p q Hp Hq). lra.
Qed.
Lemma least_sym : forall A B d, least_distance A B d -> least_distance B A d.
Proof.
  intros A B d [(p & q & Hp & Hq & E) H]. split.
  - exists q, p. rewrite dist_sym. tauto.
  - intros p' q' Hp' Hq'. rewrite dist_sym. auto.
Qed.
Lemma least_ext : forall A A' B B' d, (forall p, A p <-> A' p) -> (forall p, B p <-> B' p) ->
  least_distance A B d -> least_distance A' B' d.
Proof.
  intros A A' B B' d HA HB [(p & q & Hp & Hq & E) H]. split.
  - exists p, q. rewrite <- HA, <- HB. tauto.
  - intros p' q' Hp' Hq'. apply H; [apply HA | apply HB]; assumption.
Qed.
Lemma segment_flip : forall a b q, on_segment a b q <-> on_segment b a q.
Proof.
  assert (K : forall a b q, on_segment a b q -> on_segment b a q).
  { intros [ax ay] [bx by_] q (t & Ht & ->). exists (1 - t). split; [lra |]. unfold along. cbn. f_equal; ring. }
  intros a b q. split; apply K.
Qed.

(** A chain. *)
Lemma on_string_first : forall a l, on_string a l a.
Proof. intros a [| b [| c l]]; cbn; [reflexivity | apply seg_l | left; apply seg_l]. Qed.
Lemma string_loop_least : forall p l a m q0,
  m = dist p q0 -> m <= dist p a ->
  let r := g_string_loop R NR p a l m in
  (r = m \/ exists q, on_string a l q /\ r = dist p q) /\ r <= m /\ (l <> [] -> forall q, on_string a l q -> r <= dist p q).
Proof.
  intros p l. induction l as [| b t IH]; intros a m q0 Hm Ha.
  - cbn. split; [left; reflexivity |]. split; [lra | congruence].
  - cbn [g_string_loop]. cbn [NR nlt].
    set (dd := p2sR p a b). destruct (p2s_attained p a b) as (q & Hq & E). fold dd in E.
    assert (Hb : dd <= dist p b) by (apply p2s_le, seg_r).
    set (m' := if Rlt_bool dd m then dd else m).
    assert (M : (m' = m \/ m' = dd) /\ m' <= dd /\ m' <= m) by (unfold m'; destruct (Rlt_bool_spec dd m); split; [tauto | lra | tauto | lra]).
    destruct M as (M1 & M2 & M3).
    assert (HQ : exists q1, m' = dist p q1) by (destruct M1 as [-> | ->]; [exists q0 | exists q]; assumption).
    destruct HQ as (q1 & HQ). clearbody m'.
    destruct (IH b m' q1 HQ ltac:(lra)) as (R1 & R2 & R3). cbv zeta.
    set (r := g_string_loop R NR p b t m') in *. clearbody r.
    split; [| split; [lra |]].
    + assert (SEG : forall x, on_segment a b x -> on_string a (b :: t) x) by (intros x Hx; destruct t; cbn; tauto).
      assert (TL : forall x, on_string b t x -> on_string a (b :: t) x).
      { intros x Hx. destruct t; cbn in *; [subst; apply seg_r | tauto]. }
      destruct R1 as [-> | (q2 & Q2 & ->)].
      * destruct M1 as [-> | ->]; [left; reflexivity | right; exists q; auto].
      * right. exists q2. auto.
    + intros _ x Hx. assert (on_segment a b x \/ (t <> [] /\ on_string b t x)).
      { destruct t; cbn in *; [tauto |]. destruct Hx as [Hx | Hx]; [tauto | right; split; [discriminate | exact Hx]]. }
      destruct H as [H | [H1 H2]].
      * pose proof (p2s_le p a b x H). fold dd in H0. lra.
      * apply R3; assumption.
Qed.
Theorem string_least : forall p a l d, g_point_to_segment_string R NR p (a :: l) = Some d ->
  least_distance (eq p) (on_string a l) d.
Proof.
  intros p a l d E. assert (E' : g_string_loop R NR p a l (dist p a) = d) by (injection E; auto). rewrite <- E'. clear d E E'.
  destruct (string_loop_least p l a (dist p a) a eq_refl (Rle_refl _)) as (R1 & R2 & R3).
  set (r := g_string_loop R NR p a l (dist p a)) in *. clearbody r. split.
  - destruct R1 as [-> | (q & Q & ->)].
    + exists p, a. split; [reflexivity |]. split; [apply on_string_first | reflexivity].
    + exists p, q. auto.
  - intros p' q <- Hq. destruct l as [| b t].
    + cbn in Hq. subst. exact R2.
    + apply R3; [discriminate | exact Hq].
Qed.

(** Lines. *)
Theorem perp_least : forall p a b, a <> b -> least_distance (eq p) (on_line a b) (g_line_perpendicular R NR p a b).
Proof.
  intros [x y] [ax ay] [bx by_] Hab. unfold g_line_perpendicular, g_len2, g_side. cbn [px py NR nsub nmul nadd ndiv nabs nsqrt].
  assert (HL : 0 < (bx - ax) * (bx - ax) + (by_ - ay) * (by_ - ay)) by (apply (len2_pos (mkP ax ay) (mkP bx by_)); cbn; intros [-> ->]; congruence).
  set (L := (bx - ax) * (bx - ax) + (by_ - ay) * (by_ - ay)) in *.
  set (rn := (x - ax) * (bx - ax) + (y - ay) * (by_ - ay)).
  assert (HT : forall u, (x - (ax + u * (bx - ax)))² + (y - (ay + u * (by_ - ay)))² = (x - ax) * (x - ax) + (y - ay) * (y - ay) - 2 * u * rn + u * u * L)
    by (intros u; unfold L, rn, Rsqr; ring).
  assert (Hr : rn = rn / L * L) by (field; lra). set (r := rn / L) in *. clearbody r.
  set (sd := (ay - y) * (bx - ax) - (ax - x) * (by_ - ay)).
  assert (HS : Rabs (sd / L) * sqrt L = sqrt ((x - ax) * (x - ax) + (y - ay) * (y - ay) - r * r * L)).
  { rewrite <- (Rabs_pos_eq (sqrt L)) by apply sqrt_pos; rewrite <- Rabs_mult, <- sqrt_Rsqr_abs; f_equal;
    unfold Rsqr; replace (sd / L * sqrt L * (sd / L * sqrt L)) with ((sd * sd) / (L * L) * (sqrt L * sqrt L)) by (field; lra);
    rewrite sqrt_sqrt by lra; replace (sd * sd / (L * L) * L) with (sd * sd / L) by (field; lra);
    apply (Rmult_eq_reg_r L); [| lra]; replace (sd * sd / L * L) with (sd * sd) by (field; lra);
    replace (((x - ax) * (x - ax) + (y - ay) * (y - ay) - r * r * L) * L) with (((x - ax) * (x - ax) + (y - ay) * (y - ay)) * L - (r * L) * (r * L)) by ring;
    rewrite <- Hr; unfold sd, rn, L; ring. }
  rewrite HS. split.
  - exists (mkP x y), (along (mkP ax ay) (mkP bx by_) r). split; [reflexivity |]. split; [exists r; reflexivity |].
    unfold along, dist; cbn [px py]; f_equal; rewrite HT, Hr; ring.
  - intros p q <- (u & ->). unfold along, dist; cbn [px py]; apply sqrt_le_1_alt; rewrite HT, Hr.
    pose proof (Rmult_le_pos ((u - r) * (u - r)) L (Rle_0_sqr (u - r)) (Rlt_le _ _ HL)) as PP; clearbody L rn; clear - PP; lra.
Qed.
(** The signed distance: magnitude of the distance, positive to the left. *)
Theorem perp_signed : forall p a b, a <> b ->
  Rabs (g_line_perpendicular_signed R NR p a b) = g_line_perpendicular R NR p a b /\
  (0 < g_line_perpendicular_signed R NR p a b <->
   (px b - px a) * (py p - py a) - (py b - py a) * (px p - px a) < 0).
Proof.
  intros [x y] [ax ay] [bx by_] Hab.
  unfold g_line_perpendicular, g_line_perpendicular_signed, g_len2, g_side. cbn [px py NR nsub nmul nadd ndiv nabs nsqrt].
  assert (HL : 0 < (bx - ax) * (bx - ax) + (by_ - ay) * (by_ - ay)) by (apply (len2_pos (mkP ax ay) (mkP bx by_)); cbn; intros [-> ->]; congruence).
  set (L := (bx - ax) * (bx - ax) + (by_ - ay) * (by_ - ay)) in *. pose proof (sqrt_lt_R0 L HL) as HQ.
  pose proof (Rinv_0_lt_compat L HL) as HI.
  split; [rewrite Rabs_mult, (Rabs_pos_eq (sqrt L)) by lra; reflexivity |].
  replace ((bx - ax) * (y - ay) - (by_ - ay) * (x - ax)) with (- ((ay - y) * (bx - ax) - (ax - x) * (by_ - ay))) by ring.
  set (sd := (ay - y) * (bx - ax) - (ax - x) * (by_ - ay)). unfold Rdiv. pose proof (Rmult_lt_0_compat _ _ HI HQ) as HP.
  rewrite Rmult_assoc. set (k := / L * sqrt L) in *. clearbody k sd. split; intros H.
  - destruct (Rlt_le_dec 0 sd); nra.
  - assert (0 < sd) by lra. nra.
Qed.
