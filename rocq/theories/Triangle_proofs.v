(** Lemmas for triangles in exact arithmetic. *)
From Coq Require Import ZArith Bool Reals Lia Lra Psatz.
From Flocq Require Import Core.
From Verif Require Import Base F64 Num Distance_model Distance_spec Distance_proofs Intersection_spec Intersection_proofs Triangle_model Triangle_spec.
Local Open Scope R_scope.

Lemma side_rot a b c : side b c a = side a b c.
Proof. unfold side. ring. Qed.
Lemma side_swap a b c : side b a c = - side a b c.
Proof. unfold side. ring. Qed.
Lemma side_on_line d e a b c : on_line d e a -> on_line d e b -> on_line d e c -> side a b c = 0.
Proof. intros (s & ->) (t & ->) (u & ->). unfold side, along. cbn [px py]. ring. Qed.
Lemma line_of_side a b c : a <> b -> side a b c = 0 -> on_line a b c.
Proof.
  intros N H. destruct a as [ax ay], b as [bx b'], c as [cx c']. unfold side in H. cbn [px py] in H.
  assert (bx - ax <> 0 \/ b' - ay <> 0) as [D|D].
  { destruct (Req_dec bx ax) as [E|E]; [right|left; lra]. intros Z. apply N. f_equal; lra. }
  - exists ((cx - ax) / (bx - ax)). unfold along. cbn [px py]. f_equal; [field; exact D|].
    apply (Rmult_eq_reg_r (bx - ax)); [|exact D]. field_simplify; [|exact D]. lra.
  - exists ((c' - ay) / (b' - ay)). unfold along. cbn [px py]. f_equal; [|field; exact D].
    apply (Rmult_eq_reg_r (b' - ay)); [|exact D]. field_simplify; [|exact D]. lra.
Qed.
Lemma on_line_start a b : on_line a b a.
Proof. exists 0. symmetry. apply along_0. Qed.
Lemma on_line_end a b : on_line a b b.
Proof. exists 1. symmetry. apply along_1. Qed.
Lemma proper_side a b c : proper_triangle a b c <-> side a b c <> 0.
Proof.
  split.
  - intros H Z. destruct (eqR_true a b) as [_ E]. destruct (g_equals R NR a b) eqn:Q.
    + apply eqR_true in Q. subst b. destruct (g_equals R NR a c) eqn:Q2.
      * apply eqR_true in Q2. subst c. apply (H a (mkP (px a + 1) (py a))). split.
        { intros K. apply (f_equal px) in K. cbn [px] in K. lra. }
        assert (on_line a (mkP (px a + 1) (py a)) a) by (apply on_line_start). tauto.
      * assert (a <> c) as NE by (intros K; apply eqR_true in K; congruence).
        apply (H a c). split; [exact NE|]. assert (on_line a c a) by (apply on_line_start).
        split; [assumption|]. split; [assumption|]. apply on_line_end.
    + assert (a <> b) as NE by (intros K; apply eqR_true in K; congruence).
      apply (H a b). split; [exact NE|]. split; [apply on_line_start|].
      split; [apply on_line_end|]. now apply line_of_side.
  - intros H d e (_ & A & B & C). apply H. eapply side_on_line; eassumption.
Qed.

(** ** Areas *)
Lemma signed_area_side a b c : g_signed_area R NR a b c = - side a b c / 2.
Proof. unfold g_signed_area, side. cbn [NR nsub nmul ndiv nofZ]. field. Qed.
Lemma area_side a b c : g_area R NR a b c = Rabs (side a b c) / 2.
Proof.
  unfold g_area. rewrite signed_area_side. cbn [NR nabs]. unfold Rdiv. rewrite Rabs_mult, Rabs_Ropp, (Rabs_pos_eq (/ 2)); [reflexivity|lra].
Qed.

(** ** Equal distances *)
Lemma dist_eq_sq p a b : (px p - px a) * (px p - px a) + (py p - py a) * (py p - py a) =
  (px p - px b) * (px p - px b) + (py p - py b) * (py p - py b) <-> dist p a = dist p b.
Proof.
  pose proof (dist_sq p a) as A. pose proof (dist_sq p b) as B. pose proof (dist_pos p a) as PA. pose proof (dist_pos p b) as PB.
  unfold Rsqr in A, B. split.
  - intros E. rewrite E, <- B in A. apply Rsqr_inj; assumption.
  - intros E. rewrite <- A, <- B, E. reflexivity.
Qed.
Lemma circum_eq a b c : side a b c <> 0 -> let o := g_circumcentre R NR a b c in
  dist o a = dist o b /\ dist o b = dist o c.
Proof.
  intros S. cbv zeta. destruct a as [ax ay], b as [bx b'], c as [cx c']. unfold side in S. cbn [px py] in S.
  unfold g_circumcentre, g_det. cbn [NR nsub nmul ndiv nadd nofZ px py].
  split; apply dist_eq_sq; cbn [px py]; field; lra.
Qed.
Lemma circum_unique a b c o o' : side a b c <> 0 -> dist o a = dist o b -> dist o b = dist o c ->
  dist o' a = dist o' b -> dist o' b = dist o' c -> o' = o.
Proof.
  intros S A B A' B'. apply dist_eq_sq in A, B, A', B'.
  destruct a as [ax ay], b as [bx b'], c as [cx c'], o as [x y], o' as [x' y']. unfold side in S. cbn [px py] in *.
  assert ((x' - x) * (bx - ax) + (y' - y) * (b' - ay) = 0) as E1 by lra.
  assert ((x' - x) * (cx - bx) + (y' - y) * (c' - b') = 0) as E2 by lra.
  assert (((bx - ax) * (c' - ay) - (b' - ay) * (cx - ax)) * (x' - x) = 0) as F1.
  { transitivity (((x' - x) * (bx - ax) + (y' - y) * (b' - ay)) * (c' - b') - ((x' - x) * (cx - bx) + (y' - y) * (c' - b')) * (b' - ay)); [ring|].
    rewrite E1, E2. ring. }
  assert (((bx - ax) * (c' - ay) - (b' - ay) * (cx - ax)) * (y' - y) = 0) as F2.
  { transitivity (((x' - x) * (cx - bx) + (y' - y) * (c' - b')) * (bx - ax) - ((x' - x) * (bx - ax) + (y' - y) * (b' - ay)) * (cx - bx)); [ring|].
    rewrite E1, E2. ring. }
  apply Rmult_integral in F1, F2. f_equal; [destruct F1|destruct F2]; try contradiction; lra.
Qed.
Lemma dist_sym p q : dist p q = dist q p.
Proof. unfold dist, Rsqr. f_equal. ring. Qed.
Lemma dist_neq p q : p <> q -> 0 < dist p q.
Proof. intros N. pose proof (dist_pos p q). destruct (Req_dec (dist p q) 0) as [E|E]; [apply dist_0 in E; contradiction|lra]. Qed.
Lemma side_neq a b c : side a b c <> 0 -> a <> b /\ b <> c /\ c <> a.
Proof. intros S. repeat split; intros ->; apply S; unfold side; ring. Qed.

(** ** Radius of the circumscribed circle *)
Lemma circumradius_val a b c : side a b c <> 0 ->
  g_circumradius R NR a b c = Some (dist a b * dist b c * dist c a / (2 * Rabs (side a b c))).
Proof.
  intros S. pose proof (Rabs_pos_lt _ S) as P. unfold g_circumradius. rewrite area_side. cbn [NR neq nofZ ndiv nmul].
  rewrite Req_bool_false by lra. change (g_distance R NR) with dist. f_equal. field. lra.
Qed.
Lemma circumradius_dist a b c : side a b c <> 0 ->
  dist a b * dist b c * dist c a / (2 * Rabs (side a b c)) = dist (g_circumcentre R NR a b c) c.
Proof.
  intros S. pose proof (Rabs_pos_lt _ S) as P.
  set (D := dist (g_circumcentre R NR a b c) c). assert (0 <= D) as PD by apply dist_pos.
  apply Rsqr_inj; [|exact PD|].
  { apply Rmult_le_pos; [repeat apply Rmult_le_pos; apply dist_pos|]. apply Rlt_le, Rinv_0_lt_compat. lra. }
  unfold D, Rsqr. rewrite dist_sq.
  replace (dist a b * dist b c * dist c a / (2 * Rabs (side a b c)) * (dist a b * dist b c * dist c a / (2 * Rabs (side a b c))))
    with ((dist a b * dist a b) * (dist b c * dist b c) * (dist c a * dist c a) / (4 * (Rabs (side a b c) * Rabs (side a b c)))) by (field; lra).
  rewrite <- Rabs_mult, Rabs_pos_eq by apply Rle_0_sqr. rewrite !dist_sq. unfold Rsqr.
  destruct a as [ax ay], b as [bx b'], c as [cx c']. unfold side in *. cbn [px py] in *.
  unfold g_circumcentre, g_det. cbn [NR nsub nmul ndiv nadd nofZ px py]. field. lra.
Qed.

(** ** Distance to a line *)
Lemma perp_val p a b : a <> b -> g_line_perpendicular R NR p a b = Rabs (side a b p) / dist a b.
Proof.
  intros N. pose proof (dist_neq a b N) as P. unfold g_line_perpendicular, g_side, g_len2. cbn [NR nabs nmul ndiv nsqrt nsub nadd].
  assert ((px b - px a) * (px b - px a) + (py b - py a) * (py b - py a) = dist a b * dist a b) as ->.
  { rewrite dist_sq. unfold Rsqr. ring. }
  rewrite sqrt_square by lra.
  replace ((py a - py p) * (px b - px a) - (px a - px p) * (py b - py a)) with (- side a b p) by (unfold side; ring).
  unfold Rdiv. rewrite Rabs_mult, Rabs_Ropp, (Rabs_pos_eq (/ (dist a b * dist a b))).
  - field. lra.
  - apply Rlt_le, Rinv_0_lt_compat. nra.
Qed.
Lemma line_distance p a b r : a <> b -> Rabs (side a b p) = r * dist a b -> least_distance (eq p) (on_line a b) r.
Proof.
  intros N E. pose proof (dist_neq a b N) as P. replace r with (g_line_perpendicular R NR p a b); [now apply perp_least|].
  rewrite perp_val by exact N. rewrite E. field. lra.
Qed.
Lemma side_weighted a b c u v w : u + v + w = 1 -> side a b (weighted a b c u v w) = w * side a b c.
Proof. intros E. replace u with (1 - v - w) by lra. unfold side, weighted. cbn [px py]. ring. Qed.
Lemma weighted_rot a b c u v w : weighted a b c u v w = weighted b c a v w u.
Proof. unfold weighted. f_equal; ring. Qed.

(** ** Centre of the inscribed circle *)
Lemma in_centre_val a b c : 0 < dist b c + dist a c + dist a b ->
  let s := dist b c + dist a c + dist a b in
  g_in_centre R NR a b c = weighted a b c (dist b c / s) (dist a c / s) (dist a b / s).
Proof.
  intros P. cbv zeta. unfold g_in_centre, weighted. cbn [NR nadd nmul ndiv]. change (g_distance R NR) with dist.
  f_equal; field; lra.
Qed.
Lemma in_centre_spec a b c : side a b c <> 0 ->
  let i := g_in_centre R NR a b c in
  let r := Rabs (side a b c) / (dist a b + dist b c + dist c a) in
  0 < r /\ inside_triangle a b c i /\
  least_distance (eq i) (on_line a b) r /\ least_distance (eq i) (on_line b c) r /\ least_distance (eq i) (on_line c a) r.
Proof.
  intros S i r. destruct (side_neq a b c S) as (N1 & N2 & N3). pose proof (Rabs_pos_lt _ S) as PS.
  pose proof (dist_neq a b N1) as P1. pose proof (dist_neq b c N2) as P2. pose proof (dist_neq c a N3) as P3.
  set (s := dist b c + dist a c + dist a b). assert (0 < s) as Ps by (unfold s; rewrite (dist_sym a c); lra).
  assert (i = weighted a b c (dist b c / s) (dist a c / s) (dist a b / s)) as Ei by (apply in_centre_val; exact Ps).
  assert (r = Rabs (side a b c) / s) as Er by (unfold r, s; rewrite (dist_sym a c); f_equal; ring).
  assert (dist b c / s + dist a c / s + dist a b / s = 1) as Sum by (unfold s in *; field; lra).
  assert (0 < / s) as Is by (now apply Rinv_0_lt_compat).
  assert (forall x, 0 < x -> 0 < x / s) as Q by (intros x X; unfold Rdiv; now apply Rmult_lt_0_compat).
  split; [rewrite Er; now apply Q|]. split; [|split; [|split]].
  - exists (dist b c / s), (dist a c / s), (dist a b / s). rewrite (dist_sym a c) in *. repeat split; auto.
  - apply line_distance; [exact N1|]. rewrite Ei, side_weighted by exact Sum. rewrite Rabs_mult, (Rabs_pos_eq (dist a b / s)), Er by (left; auto).
    field. lra.
  - apply line_distance; [exact N2|]. rewrite Ei, weighted_rot, side_weighted by lra.
    rewrite Rabs_mult, (Rabs_pos_eq (dist b c / s)), Er, side_rot by (left; auto). field. lra.
  - apply line_distance; [exact N3|]. rewrite Ei, 2!weighted_rot, side_weighted by lra.
    rewrite Rabs_mult, (Rabs_pos_eq (dist a c / s)), Er, (side_rot b c a), side_rot, (dist_sym a c) by (left; rewrite (dist_sym a c); auto). field. lra.
Qed.

(** ** Containment *)
Lemma in_triangle_side a b c p : side a b c <> 0 ->
  (in_triangle a b c p <-> (0 <= side a b p * side a b c /\ 0 <= side b c p * side a b c /\ 0 <= side c a p * side a b c)).
Proof.
  intros S. split.
  - intros (u & v & w & U & V & W & E & ->).
    rewrite side_weighted by exact E. rewrite (weighted_rot a b c u v w), side_weighted by lra.
    rewrite (weighted_rot b c a v w u), side_weighted by lra. rewrite (side_rot b c a), !(side_rot a b c).
    assert (0 <= side a b c * side a b c) by apply Rle_0_sqr.
    rewrite !Rmult_assoc. repeat split; apply Rmult_le_pos; assumption.
  - intros (A & B & C). set (s := side a b c) in *.
    assert (0 < s * s) as SS by (apply Rlt_0_sqr; exact S).
    exists (side b c p / s), (side c a p / s), (side a b p / s).
    assert (forall x, 0 <= x * s -> 0 <= x / s) as Q.
    { intros x X. replace (x / s) with (x * s * / (s * s)) by (field; exact S). apply Rmult_le_pos; [exact X|].
      apply Rlt_le, Rinv_0_lt_compat. exact SS. }
    repeat split; auto.
    + unfold s, side in *. field. exact S.
    + destruct p as [x y]. unfold weighted. cbn [px py]. unfold s, side in *. cbn [px py]. f_equal; field; exact S.
Qed.

(** ** Side lengths *)
Lemma dist_triangle a b c : dist a c <= dist a b + dist b c.
Proof.
  pose proof (dist_pos a b) as A. pose proof (dist_pos b c) as B. pose proof (dist_pos a c) as C.
  apply Rsqr_incr_0; [|exact C|lra]. unfold Rsqr.
  pose proof (dist_sq a b) as EA. pose proof (dist_sq b c) as EB. pose proof (dist_sq a c) as EC. unfold Rsqr in *. rewrite EC.
  destruct a as [ax ay], b as [bx b'], c as [cx c']. cbn [px py] in *.
  set (P := dist {| px := ax; py := ay |} {| px := bx; py := b' |}) in *.
  set (Q := dist {| px := bx; py := b' |} {| px := cx; py := c' |}) in *.
  assert ((ax - bx) * (bx - cx) + (ay - b') * (b' - c') <= P * Q) as CS.
  { apply Rsqr_incr_0_var; [|now apply Rmult_le_pos]. unfold Rsqr.
    replace (P * Q * (P * Q)) with ((P * P) * (Q * Q)) by ring. rewrite EA, EB.
    pose proof (Rle_0_sqr ((ax - bx) * (b' - c') - (ay - b') * (bx - cx))) as H. unfold Rsqr in H. lra. }
  lra.
Qed.
