(** C86, continued: NaN ordinates in distances. *)
From Coq Require Import ZArith Bool List Lia.
From Flocq Require Import Core IEEE754.BinarySingleNaN.
From Verif Require Import Base F64 F64Facts Coordinate_model Envelope_model Num Distance_model Orientation_props DDZero_props Nan_props.
Import ListNotations.
Open Scope Z_scope.

(** The distance of a point to a segment that is no point is NaN when there is
    a NaN among the six ordinates. *)
Theorem C86_point_to_segment : forall hypot p a b, Exists is_NaN [cx p; cy p; cx a; cy a; cx b; cy b] -> equals_2d a b = false ->
  is_NaN (point_to_segment hypot p a b).
Proof.
  intros hypot p a b H E. unfold point_to_segment, g_point_to_segment, g_side, g_len2, pf. cbn [px py NF nadd nsub nmul ndiv nabs nsqrt nlt nle neq nhyp nofZ].
  assert (K : feqb (cx a) (cx b) && feqb (cy a) (cy b) = false).
  { unfold equals_2d in E. destruct (feqb (cx a) (cx b) && feqb (cy a) (cy b)) eqn:Q; [|reflexivity]. exfalso. apply andb_true_iff in Q. destruct Q as (Q1 & Q2).
    assert (N : forall u v, fneb u v = negb (feqb u v)) by reflexivity. rewrite ?N, ?Q1, ?Q2 in E. discriminate E. }
  rewrite K. unfold is_NaN in *. repeat (apply Exists_cons in H; destruct H as [H|H]); try (inversion H; fail);
    rewrite H; nans; nanc; change (fabs fnan) with fnan; change (fsqrt fnan) with fnan; nans; reflexivity.
Qed.
Example C86_point_to_segment_example : Exists is_NaN [fnan; f1; f0; f0; f1; f1] /\ equals_2d (ipt 0 0) (ipt 4 0) = false /\
  is_NaN (point_to_segment (fun _ _ => f1) (new_xy fnan f1) (ipt 0 0) (ipt 4 0)).
Proof. split; [apply Exists_cons_hd; reflexivity|]. split; vm_compute; reflexivity. Qed.
(** Two segments that are no points, with a NaN among the eight ordinates: their
    distance is zero as soon as their boxes meet, and a box leaves a NaN out. *)
Theorem C86_segment_distance : forall hypot a b c d, Exists is_NaN [cx a; cy a; cx b; cy b; cx c; cy c; cx d; cy d] ->
  equals_2d a b = false -> equals_2d c d = false -> intersects_4 a b c d = true -> segment_to_segment hypot a b c d = f0.
Proof.
  intros hypot a b c d H E1 E2 I. unfold segment_to_segment, g_segment_to_segment.
  assert (K : forall u v, g_equals f64 (NF hypot) (pf u) (pf v) = equals_2d u v).
  { intros u v. unfold g_equals, equals_2d, pf. cbn [px py NF neq]. assert (N : forall u v, fneb u v = negb (feqb u v)) by reflexivity. rewrite ?N.
    destruct (feqb (cx u) (cx v)), (feqb (cy u) (cy v)); reflexivity. }
  rewrite !K, E1, E2. assert (J : g_intersects_4 f64 (NF hypot) (pf a) (pf b) (pf c) (pf d) = intersects_4 a b c d) by reflexivity.
  rewrite J, I. cbn [negb]. unfold pf. cbn [px py NF nadd nsub nmul ndiv nabs nsqrt nlt nle neq nhyp nofZ].
  set (den := fsub (fmul (fsub (cx b) (cx a)) (fsub (cy d) (cy c))) (fmul (fsub (cy b) (cy a)) (fsub (cx d) (cx c)))).
  assert (D : den = fnan).
  { unfold den, is_NaN in *. repeat (apply Exists_cons in H; destruct H as [H|H]); try (inversion H; fail); rewrite H; nans; reflexivity. }
  rewrite D. nans. nanc. reflexivity.
Qed.
(** The segment from (NaN, 0) to (4, 4) and the one from (4, 0) to (9, 1): zero,
    although the known end is at distance 20 / sqrt 26 > 3. *)
Example C86_segment_distance_example : let a := new_xy fnan f0 in Exists is_NaN [cx a; cy a; f1; f1; f1; f1; f1; f1] /\
  equals_2d a (ipt 4 4) = false /\ equals_2d (ipt 4 0) (ipt 9 1) = false /\ intersects_4 a (ipt 4 4) (ipt 4 0) (ipt 9 1) = true.
Proof. split; [apply Exists_cons_hd; reflexivity|]. repeat split; vm_compute; reflexivity. Qed.
(** So NaN does not pass through to the distance. *)
Theorem C86_segment_nan_refuted : ~ (forall hypot a b c d, Exists is_NaN [cx a; cy a; cx b; cy b; cx c; cy c; cx d; cy d] -> is_NaN (segment_to_segment hypot a b c d)).
Proof.
  intros H. specialize (H (fun _ _ => f0) (new_xy fnan f0) (ipt 4 4) (ipt 4 0) (ipt 9 1) ltac:(apply Exists_cons_hd; reflexivity)).
  rewrite C86_segment_distance in H; [discriminate H|apply Exists_cons_hd; reflexivity|vm_compute; reflexivity|vm_compute; reflexivity|vm_compute; reflexivity].
Qed.
