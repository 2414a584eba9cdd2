(** Properties C10-C12: coordinates. *)
From Coq Require Import ZArith Bool List Lia Reals.
From Flocq Require Import Core.
From Verif Require Import Base F64 F64Facts Coordinate_model Coordinate_spec Envelope_model Envelope_spec Coordinate_proofs.
Import ListNotations.
Open Scope Z_scope.

Local Notation pt a b := (new_xy (fofZ a) (fofZ b)).

(** ** C10: comparison *)
Theorem C10_compare_is_sign : forall p q, compare_to p q = -1 \/ compare_to p q = 0 \/ compare_to p q = 1.
Proof. exact compare_to_range. Qed.
Theorem C10_compare_meaning : forall p q, nn_xy p -> nn_xy q ->
  (compare_to p q = -1 <-> pt_lt p q) /\ (compare_to p q = 1 <-> pt_lt q p) /\
  (compare_to p q = 0 <-> pt_eq p q).
Proof. intros p q P Q. split; [now apply compare_to_lt|split; [now apply compare_to_gt|now apply compare_to_zero]]. Qed.
Theorem C10_compare_antisymmetric : forall p q, compare_to q p = - compare_to p q.
Proof. exact compare_to_antisym. Qed.
Theorem C10_compare_transitive : forall p q r, nn_xy p -> nn_xy q -> nn_xy r ->
  compare_to p q <= 0 -> compare_to q r <= 0 -> compare_to p r <= 0.
Proof. exact compare_to_trans. Qed.
Theorem C10_compare_zero_iff_equals_2d : forall p q, nn_xy p -> nn_xy q ->
  (compare_to p q = 0 <-> equals_2d p q = true).
Proof. intros p q P Q. rewrite equals_2d_eq. now apply compare_to_zero. Qed.
(** With a NaN ordinate transitivity and agreement with equality are lost. *)
Theorem C10_compare_nan_refuted : exists p q r,
  compare_to p q = 0 /\ compare_to q r = 0 /\ compare_to p r = 1 /\ equals_2d p q = false.
Proof. exists (pt 1 0), (new_xy fnan f0), (pt 0 0). repeat split. Qed.
Example C10_example : nn_xy (pt 1 (-2)) /\ compare_to (pt 1 (-2)) (new_xy f1 finf) = -1 /\
  compare_to (new_xy f0 f1) (new_xy fneg0 f1) = 0.
Proof. repeat split. Qed.

(** ** C11: equality *)
Theorem C11_equals_2d_meaning : forall p q, equals_2d p q = true <-> pt_eq p q.
Proof. exact equals_2d_eq. Qed.
Theorem C11_equals_2d_equivalence :
  (forall p, nn_xy p -> equals_2d p p = true) /\
  (forall p q, equals_2d p q = true -> equals_2d q p = true) /\
  (forall p q r, equals_2d p q = true -> equals_2d q r = true -> equals_2d p r = true).
Proof.
  split; [|split].
  - intros p N. apply equals_2d_eq. now apply pt_eq_refl.
  - intros p q. rewrite !equals_2d_eq. apply pt_eq_sym.
  - intros p q r. rewrite !equals_2d_eq. apply pt_eq_trans.
Qed.
Theorem C11_equals_2d_irreflexive_on_nan : forall p,
  fis_nan (cx p) = true \/ fis_nan (cy p) = true -> equals_2d p p = false.
Proof.
  intros p H. apply equals_2d_false. intros E. apply pt_eq_rank in E.
  destruct E as ([A B] & _). unfold nn in *. destruct H; congruence.
Qed.
Theorem C11_equals_3d_meaning : forall p q, equals_3d p q = true <->
  pt_eq p q /\ (eqf (cz p) (cz q) \/ (fis_nan (cz p) = true /\ fis_nan (cz q) = true)).
Proof.
  intros p q. unfold equals_3d, pt_eq, eqf. rewrite !andb_true_iff, orb_true_iff, andb_true_iff. tauto.
Qed.
Theorem C11_equals_3d_implies_2d : forall p q, equals_3d p q = true -> equals_2d p q = true.
Proof. intros p q H. apply C11_equals_3d_meaning in H. apply equals_2d_eq. tauto. Qed.
Theorem C11_tolerance_symmetric : forall p q t,
  equals_2d_with_tolerance p q t = equals_2d_with_tolerance q p t.
Proof.
  intros. unfold equals_2d_with_tolerance. now rewrite (equals_with_tolerance_sym (cx p)), (equals_with_tolerance_sym (cy p)).
Qed.
Theorem C11_tolerance_implied_by_equality : forall p q t, fin_xy p -> fin_xy q -> lef f0 t ->
  equals_2d p q = true -> equals_2d_with_tolerance p q t = true.
Proof.
  intros p q t [P1 P2] [Q1 Q2] T E. apply equals_2d_eq in E. destruct E as [E1 E2].
  destruct (fleb_nn _ _ T) as [_ Nt]. unfold lef in T. rewrite fleb_rank in T by (auto; reflexivity). change (rank f0) with 0 in T.
  unfold equals_2d_with_tolerance. rewrite !tolerance_exact; auto; lia.
Qed.
(** Points within the tolerance (as real numbers, on each axis) are equal
    within tolerance; points equal within tolerance are closer than any
    double above the tolerance. *)
Theorem C11_tolerance_complete : forall p q t, fin_xy p -> fin_xy q -> fis_finite t = true ->
  (Rabs (R_of (cx p) - R_of (cx q)) <= R_of t)%R -> (Rabs (R_of (cy p) - R_of (cy q)) <= R_of t)%R ->
  equals_2d_with_tolerance p q t = true.
Proof.
  intros p q t [P1 P2] [Q1 Q2] T A B. unfold equals_2d_with_tolerance. now rewrite !tolerance_complete.
Qed.
Theorem C11_tolerance_sound : forall p q t t', fin_xy p -> fin_xy q ->
  fis_finite t = true -> fis_finite t' = true -> (R_of t < R_of t')%R ->
  equals_2d_with_tolerance p q t = true ->
  (Rabs (R_of (cx p) - R_of (cx q)) < R_of t')%R /\ (Rabs (R_of (cy p) - R_of (cy q)) < R_of t')%R.
Proof.
  intros p q t t' [P1 P2] [Q1 Q2] T T' L. unfold equals_2d_with_tolerance.
  destruct (equals_with_tolerance (cx p) (cx q) t) eqn:E1; [|discriminate].
  destruct (equals_with_tolerance (cy p) (cy q) t) eqn:E2; [|discriminate].
  intros _. split; apply (tolerance_sound _ _ t); auto.
Qed.
Example C11_example :
  fin_xy (pt 3 4) /\ equals_2d_with_tolerance (pt 3 4) (pt 4 3) f1 = true /\
  equals_2d_with_tolerance (pt 3 4) (pt 5 3) f1 = false /\
  equals_3d (pt 3 4) (pt 3 4) = true /\ equals_3d (new_xyz f0 f0 f1) (new_xyz f0 f0 f2) = false /\ lef f0 f1.
Proof. repeat split. Qed.

(** ** C12: copying *)
Theorem C12_from_coordinate_copies_all : forall c, from_coordinate c = c.
Proof. now intros []. Qed.
Theorem C12_set_coordinate_copies_xyz_keeps_m : forall a b,
  cx (set_coordinate a b) = cx b /\ cy (set_coordinate a b) = cy b /\ cz (set_coordinate a b) = cz b /\
  cm (set_coordinate a b) = cm a.
Proof. now repeat split. Qed.
Theorem C12_set_coordinate_copies_m_refuted : exists a b,
  cm b = fofZ 7 /\ cm (set_coordinate a b) <> cm b.
Proof. exists coord_default, (new_xym f1 f2 (fofZ 7)). split; [reflexivity|discriminate]. Qed.
Theorem C12_set_then_get_ordinate : forall c i j v, 0 <= i <= 2 -> 0 <= j <= 2 ->
  get_ordinate (set_ordinate c i v) i = Some v /\
  (i <> j -> get_ordinate (set_ordinate c i v) j = get_ordinate c j) /\
  cm (set_ordinate c i v) = cm c.
Proof.
  intros c i j v Hi Hj.
  assert (i = 0 \/ i = 1 \/ i = 2) as [-> | [-> | ->]] by lia;
  assert (j = 0 \/ j = 1 \/ j = 2) as [-> | [-> | ->]] by lia; repeat split; congruence.
Qed.
(** The M ordinate index (3) is neither readable nor writable. *)
Theorem C12_m_ordinate_refuted : forall c v, get_ordinate c 3 = None /\ set_ordinate c 3 v = c.
Proof. split; reflexivity. Qed.
Example C12_example : set_coordinate (new_xyzm f0 f0 f0 f1) (new_xyzm f1 f2 f2 f2) = new_xyzm f1 f2 f2 f1.
Proof. reflexivity. Qed.
