(** C86, continued: NaN ordinates in lengths. *)
From Coq Require Import ZArith Bool List Lia.
From Flocq Require Import Core IEEE754.BinarySingleNaN.
From Verif Require Import Base F64 F64Facts Coordinate_model CoordSeq_model Measure_model Measure_proofs Orientation_props DDZero_props Nan_props.
Import ListNotations.
Open Scope nat_scope.

(** What the standard says of [hypot]: NaN for a NaN unless the other argument is infinite. *)
Definition hypot_nan (hypot : f64 -> f64 -> f64) : Prop :=
  forall v, (forall s, v <> B754_infinity s) -> hypot fnan v = fnan /\ hypot v fnan = fnan.
Lemma seg_sum_nan hypot l : seg_sum hypot fnan l = fnan.
Proof. induction l as [|a [|b t] IH]; [reflexivity|reflexivity|]. cbn [seg_sum]. rewrite add_nan_l. exact IH. Qed.
Lemma seg_sum_hit hypot l : forall acc k a b, nth_error l k = Some a -> nth_error l (S k) = Some b ->
  hypot (fsub (cx b) (cx a)) (fsub (cy b) (cy a)) = fnan -> seg_sum hypot acc l = fnan.
Proof.
  induction l as [|c [|d t] IH]; intros acc k a b A B H.
  - destruct k; discriminate A.
  - destruct k as [|[|k]]; discriminate B.
  - cbn [seg_sum]. destruct k as [|k].
    + cbn [nth_error] in A, B. injection A as <-. injection B as <-. rewrite H, add_nan_r. apply (seg_sum_nan hypot (d :: t)).
    + apply (IH _ k a b); assumption.
Qed.
(** The length of a line is NaN as soon as the difference of two successive
    points is NaN on one axis and not infinite on the other. *)
Theorem C86_length : forall hypot s k a b, hypot_nan hypot -> nth_error (scoords s) k = Some a -> nth_error (scoords s) (S k) = Some b ->
  (Exists is_NaN [cx a; cx b] /\ (forall t, fsub (cy b) (cy a) <> B754_infinity t)) \/ (Exists is_NaN [cy a; cy b] /\ (forall t, fsub (cx b) (cx a) <> B754_infinity t)) ->
  length_of_line hypot s = Ok fnan.
Proof.
  intros hypot s k a b HN A B H. rewrite length_seg_sum. f_equal. apply (seg_sum_hit hypot _ _ k a b A B).
  assert (D : forall u v, Exists is_NaN [u; v] -> fsub v u = fnan).
  { intros u v E. apply Exists_cons in E. destruct E as [E|E]; [|apply Exists_cons in E; destruct E as [E|E]; [|inversion E]]; unfold is_NaN in E; rewrite E; nans; reflexivity. }
  destruct H as [(E & I)|(E & I)]; rewrite (D _ _ E); now apply HN.
Qed.
(** A point of two NaN anywhere in a line of two points or more. *)
Theorem C86_length_lost : forall hypot s p, hypot_nan hypot -> 2 <= length (scoords s) -> In p (scoords s) -> is_NaN (cx p) -> is_NaN (cy p) ->
  length_of_line hypot s = Ok fnan.
Proof.
  intros hypot s p HN L I X Y. apply In_nth_error in I. destruct I as (k & K). assert (KL : k < length (scoords s)) by (apply nth_error_Some; rewrite K; discriminate).
  destruct (Nat.eq_dec (S k) (length (scoords s))) as [E|E].
  - destruct k as [|k]; [lia|]. destruct (nth_error (scoords s) k) as [a|] eqn:A; [|apply nth_error_None in A; lia].
    apply (C86_length hypot s k a p HN A K). left. split; [apply Exists_cons_tl, Exists_cons_hd, X|]. unfold is_NaN in Y. rewrite Y. nans. discriminate.
  - destruct (nth_error (scoords s) (S k)) as [b|] eqn:B; [|apply nth_error_None in B; lia].
    apply (C86_length hypot s k p b HN K B). left. split; [apply Exists_cons_hd, X|]. unfold is_NaN in Y. rewrite Y. nans. discriminate.
Qed.
Example C86_length_example : hypot_nan (fun x y => fsqrt (fadd (fmul x x) (fmul y y))) /\
  length_of_line (fun x y => fsqrt (fadd (fmul x x) (fmul y y))) (seq_of [ipt 0 0; new_xy fnan f1; ipt 4 4]) = Ok fnan.
Proof.
  split; [intros v _; split; nans; reflexivity|].
  apply (C86_length _ _ 0 (ipt 0 0) (new_xy fnan f1)); [intros v _; split; nans; reflexivity|reflexivity|reflexivity|].
  left. split; [apply Exists_cons_tl, Exists_cons_hd; reflexivity|]. intros t H. assert (F : fis_finite (fsub (cy (new_xy fnan f1)) (cy (ipt 0 0))) = true) by (vm_compute; reflexivity). rewrite H in F. discriminate F.
Qed.
