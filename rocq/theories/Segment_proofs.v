(** Segments in exact arithmetic, and the link to the doubles. *)
From Coq Require Import ZArith Bool Reals Lia Lra Psatz.
From Flocq Require Import Core IEEE754.BinarySingleNaN.
From Verif Require Import Base F64 F64Facts F64Err Num NumLink Coordinate_model Distance_model Distance_spec Distance_proofs Distance_float
  Intersection_spec Segment_model.
Local Open Scope R_scope.

(** Scalar product of [p - a] and [b - a], squared length. *)
Definition dotp (a b p : pR) : R := (px p - px a) * (px b - px a) + (py p - py a) * (py b - py a).
Definition len2 (a b : pR) : R := (px b - px a) * (px b - px a) + (py b - py a) * (py b - py a).
Lemma neq_len2 a b : a <> b -> 0 < len2 a b.
Proof.
  intros H. apply len2_pos. intros (X & Y). apply H. destruct a, b; cbn in *; congruence.
Qed.
Lemma eqR_false a b : g_equals R NR a b = false <-> a <> b.
Proof. rewrite <- not_true_iff_false, eqR_true. tauto. Qed.
Lemma len2_nonneg a b : 0 <= len2 a b.
Proof. apply Rplus_le_le_0_compat; apply Rle_0_sqr. Qed.
Lemma len2_same a : len2 a a = 0.
Proof. unfold len2. ring. Qed.
Lemma projR a b p : a <> b -> g_projection_factor R NR a b p = Some (dotp a b p / len2 a b).
Proof.
  intros AB. pose proof (neq_len2 a b AB) as L. unfold g_projection_factor. cbn [NR nofZ nsub nmul nadd ndiv nle].
  destruct (g_equals R NR p a) eqn:E1.
  - apply eqR_true in E1. subst p. f_equal. unfold dotp. unfold len2 in *. field. lra.
  - destruct (g_equals R NR p b) eqn:E2.
    + apply eqR_true in E2. subst p. f_equal. unfold dotp. unfold len2 in *. field. lra.
    + fold (len2 a b). rewrite Rle_bool_false by exact L. reflexivity.
Qed.
Lemma projR_same a p : g_projection_factor R NR a a p = if g_equals R NR p a then Some 0 else None.
Proof.
  unfold g_projection_factor. cbn [NR nofZ nsub nmul nadd ndiv nle]. destruct (g_equals R NR p a); [reflexivity|].
  rewrite Rle_bool_true; [reflexivity|]. lra.
Qed.
(** The squared distance to the point at [t], as a square around the foot. *)
Lemma dist2_along a b p t : dist p (along a b t) * dist p (along a b t) =
  dist p a * dist p a - 2 * t * dotp a b p + t * t * len2 a b.
Proof. rewrite !dist_sq. unfold along, dotp, len2, Rsqr. cbn. ring. Qed.
Lemma dist_le2 p q r s : dist p q * dist p q <= dist r s * dist r s -> dist p q <= dist r s.
Proof. intros H. pose proof (dist_pos p q). pose proof (dist_pos r s). nra. Qed.
Definition nearest (a b p q : pR) : Prop := on_segment a b q /\ forall r, on_segment a b r -> dist p q <= dist p r.
Lemma nearest_foot a b p f : a <> b -> f = dotp a b p / len2 a b -> 0 <= f <= 1 -> nearest a b p (along a b f).
Proof.
  intros AB Ef H. pose proof (neq_len2 a b AB) as L. split; [exists f; auto|]. intros r (t & Ht & ->). apply dist_le2. rewrite !dist2_along.
  assert (dotp a b p = f * len2 a b) as -> by (rewrite Ef; field; lra).
  pose proof (Rmult_le_pos _ _ (Rle_0_sqr (t - f)) (Rlt_le _ _ L)) as Q. unfold Rsqr in Q. lra.
Qed.
Lemma nearest_start a b p : dotp a b p <= 0 -> nearest a b p a.
Proof.
  intros H. split; [apply seg_l|]. intros r (t & Ht & ->). apply dist_le2. rewrite dist2_along.
  pose proof (Rmult_le_pos _ _ (proj1 Ht) (Rmult_le_pos _ _ (proj1 Ht) (len2_nonneg a b))).
  assert (0 <= t * - dotp a b p) by (apply Rmult_le_pos; lra). lra.
Qed.
Lemma nearest_end a b p : len2 a b <= dotp a b p -> nearest a b p b.
Proof.
  intros H. split; [apply seg_r|]. intros r (t & Ht & ->). apply dist_le2. rewrite <- (along_1 a b) at 1 2. rewrite !dist2_along.
  pose proof (Rmult_le_pos (1 - t) (dotp a b p - len2 a b) ltac:(lra) ltac:(lra)).
  pose proof (Rmult_le_pos _ _ (Rle_0_sqr (1 - t)) (len2_nonneg a b)) as Q. unfold Rsqr in Q. lra.
Qed.
Lemma nearest_better a b p q r : nearest a b p q -> on_segment a b r -> dist p r <= dist p q -> nearest a b p r.
Proof. intros (_ & H) S L. split; [exact S|]. intros x X. specialize (H x X). lra. Qed.
Lemma closest_end_ends a b p : g_closest_end R NR a b p = a /\ dist p a < dist p b \/ g_closest_end R NR a b p = b /\ dist p b <= dist p a.
Proof.
  unfold g_closest_end. cbn [NR nlt]. change (g_distance R NR) with distR. rewrite (distR_eq a p), (distR_eq b p), (dist_sym a p), (dist_sym b p).
  destruct (Rlt_bool_spec (dist p a) (dist p b)); auto.
Qed.
Lemma closest_end_nearest a b p : nearest a b p a \/ nearest a b p b -> nearest a b p (g_closest_end R NR a b p).
Proof.
  intros H. destruct (closest_end_ends a b p) as [(-> & D)|(-> & D)]; destruct H as [H|H]; try exact H.
  - apply (nearest_better a b p b); [exact H|apply seg_l|lra].
  - apply (nearest_better a b p a); [exact H|apply seg_r|lra].
Qed.
Lemma closestR a b p : nearest a b p (g_closest_point R NR a b p).
Proof.
  unfold g_closest_point. destruct (g_equals R NR a b) eqn:E.
  - apply eqR_true in E. subst b. rewrite projR_same.
    assert (nearest a a p (g_closest_end R NR a a p)) as C by (apply closest_end_nearest; left; apply nearest_start; unfold dotp; lra).
    destruct (g_equals R NR p a); [|exact C]. cbn [NR nlt nofZ]. rewrite Rlt_bool_false by lra. exact C.
  - apply eqR_false in E. pose proof (neq_len2 a b E) as L. rewrite projR by exact E. cbn [NR nlt nofZ].
    set (f := dotp a b p / len2 a b). assert (dotp a b p = f * len2 a b) as D by (unfold f; field; lra).
    destruct (Rlt_bool_spec 0 f) as [L0|L0]; cbn [andb].
    + destruct (Rlt_bool_spec f 1) as [L1|L1].
      * apply (nearest_foot a b p f E eq_refl). lra.
      * apply closest_end_nearest. right. apply nearest_end. rewrite D. rewrite <- (Rmult_1_l (len2 a b)) at 1. apply Rmult_le_compat_r; lra.
    + apply closest_end_nearest. left. apply nearest_start. rewrite D. rewrite <- (Rmult_0_l (len2 a b)). apply Rmult_le_compat_r; lra.
Qed.
Lemma nearest_least a b p q : nearest a b p q -> least_distance (eq p) (on_segment a b) (dist p q).
Proof. intros (S & H). split; [exists p, q; auto|]. intros x y <- Y. now apply H. Qed.
