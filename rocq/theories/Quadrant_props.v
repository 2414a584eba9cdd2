(** Property C56: quadrants.  The quadrant of a direction is compared with a
    description by the signs of its components. *)
From Coq Require Import ZArith Bool List Lia ZifyBool.
From Verif Require Import Base F64 F64Facts Coordinate_model Coordinate_spec Envelope_spec Quadrant_model.
Import ListNotations.
Open Scope Z_scope.

(** Independent description: [0] NE, [1] NW, [2] SW, [3] SE, with the
    positive axes included as in the documentation. *)
Definition east (d : f64) : Prop := fleb f0 d = true.
Definition west (d : f64) : Prop := fltb d f0 = true.
Definition in_quadrant (q : Z) (dx dy : f64) : Prop :=
  (q = 0 /\ east dx /\ east dy) \/ (q = 1 /\ west dx /\ east dy) \/
  (q = 2 /\ west dx /\ west dy) \/ (q = 3 /\ east dx /\ west dy).

Lemma rank_f0 : rank f0 = 0. Proof. reflexivity. Qed.
Lemma nn_f0 : nn f0. Proof. reflexivity. Qed.

Theorem C56_quadrant_of_vector : forall dx dy, nn dx -> nn dy ->
  let q := quadrant_xy dx dy in
  (feqb dx f0 = true /\ feqb dy f0 = true /\ q = -1) \/
  (~ (feqb dx f0 = true /\ feqb dy f0 = true) /\ in_quadrant q dx dy).
Proof.
  intros dx dy Nx Ny. cbv zeta. unfold quadrant_xy, in_quadrant, east, west, NE, NW, SW, SE.
  rewrite !feqb_rank, !fgeb_rank, !fleb_rank, !fltb_rank by (assumption || reflexivity). rewrite rank_f0.
  destruct (Z.eqb_spec (rank dx) 0), (Z.eqb_spec (rank dy) 0); cbn [andb]; [left; auto|right..];
    (split; [intros []; discriminate || lia|]); destruct (Z.leb_spec 0 (rank dx)), (Z.leb_spec 0 (rank dy)), (Z.ltb_spec (rank dx) 0), (Z.ltb_spec (rank dy) 0); try lia; tauto.
Qed.
Theorem C56_quadrant_unique : forall q q' dx dy, in_quadrant q dx dy -> in_quadrant q' dx dy -> q = q'.
Proof.
  intros q q' dx dy H H'. unfold in_quadrant, east, west in *.
  assert (forall d, fleb f0 d = true -> fltb d f0 = true -> False) as X.
  { intros d A B. destruct (fleb_nn _ _ A) as [_ N]. rewrite fleb_rank in A by (assumption || reflexivity).
    rewrite fltb_rank in B by (assumption || reflexivity). lia. }
  destruct H as [(-> & A & B)|[(-> & A & B)|[(-> & A & B)|(-> & A & B)]]];
  destruct H' as [(-> & A' & B')|[(-> & A' & B')|[(-> & A' & B')|(-> & A' & B')]]]; auto; exfalso; eauto.
Qed.
(** The coordinate form compares instead of subtracting; it agrees with the
    vector form on the exact difference, as shown on comparisons. *)
Theorem C56_quadrant_of_segment : forall p0 p1, nn_xy p0 -> nn_xy p1 ->
  let q := quadrant_coordinates p0 p1 in
  (pt_eq p1 p0 /\ q = -1) \/
  (~ pt_eq p1 p0 /\
   ((q = 0 /\ fleb (cx p0) (cx p1) = true /\ fleb (cy p0) (cy p1) = true) \/
    (q = 1 /\ fltb (cx p1) (cx p0) = true /\ fleb (cy p0) (cy p1) = true) \/
    (q = 2 /\ fltb (cx p1) (cx p0) = true /\ fltb (cy p1) (cy p0) = true) \/
    (q = 3 /\ fleb (cx p0) (cx p1) = true /\ fltb (cy p1) (cy p0) = true))).
Proof.
  intros p0 p1 [Nx0 Ny0] [Nx1 Ny1]. cbv zeta. unfold quadrant_coordinates, pt_eq, eqf, NE, NW, SW, SE.
  rewrite !feqb_rank, !fgeb_rank, !fleb_rank, !fltb_rank by assumption.
  destruct (Z.eqb_spec (rank (cx p1)) (rank (cx p0))), (Z.eqb_spec (rank (cy p1)) (rank (cy p0))); cbn [andb]; [left; auto|right..];
    (split; [intros []; discriminate || lia|]);
    destruct (Z.leb_spec (rank (cx p0)) (rank (cx p1))), (Z.leb_spec (rank (cy p0)) (rank (cy p1))),
      (Z.ltb_spec (rank (cx p1)) (rank (cx p0))), (Z.ltb_spec (rank (cy p1)) (rank (cy p0))); try lia; tauto.
Qed.
(** A NaN component is not rejected: it is treated as negative. *)
Theorem C56_nan_vector_gets_quadrant : forall d, quadrant_xy fnan d = if fgeb d f0 then 1 else 2.
Proof. reflexivity. Qed.
Theorem C56_opposite_of_negated : forall dx dy, nn dx -> nn dy ->
  feqb dx f0 = false -> feqb dy f0 = false ->
  is_opposite (quadrant_xy dx dy) (quadrant_xy (fneg dx) (fneg dy)) = Ok true.
Proof.
  intros dx dy Nx Ny Zx Zy. pose proof (nn_fneg _ Nx). pose proof (nn_fneg _ Ny). unfold quadrant_xy.
  rewrite feqb_rank in Zx, Zy by (assumption || reflexivity).
  rewrite !feqb_rank, !fgeb_rank by (assumption || reflexivity). rewrite !rank_fneg, rank_f0 in *.
  destruct (Z.eqb_spec (rank dx) 0), (Z.eqb_spec (rank dy) 0); try discriminate.
  destruct (Z.eqb_spec (- rank dx) 0), (Z.eqb_spec (- rank dy) 0); try lia. cbn [andb].
  destruct (Z.leb_spec 0 (rank dx)), (Z.leb_spec 0 (rank dy)), (Z.leb_spec 0 (- rank dx)), (Z.leb_spec 0 (- rank dy)); try lia; reflexivity.
Qed.
Theorem C56_opposite_symmetric_irreflexive : forall q1 q2, 0 <= q1 <= 3 -> 0 <= q2 <= 3 ->
  is_opposite q1 q2 = is_opposite q2 q1 /\ is_opposite q1 q1 = Ok false /\
  (is_opposite q1 q2 = Ok true <-> Z.abs (q1 - q2) = 2).
Proof.
  intros q1 q2 H1 H2. assert (q1 = 0 \/ q1 = 1 \/ q1 = 2 \/ q1 = 3) as A by lia.
  assert (q2 = 0 \/ q2 = 1 \/ q2 = 2 \/ q2 = 3) as B by lia.
  destruct A as [->|[->|[-> | ->]]], B as [->|[->|[-> | ->]]]; (split; [reflexivity|split; [reflexivity|]]); cbn; split; congruence.
Qed.
(** Two quadrants that are not opposite have a common half plane; it is -1
    exactly for opposite quadrants. *)
Theorem C56_common_half_plane : forall q1 q2, 0 <= q1 <= 3 -> 0 <= q2 <= 3 ->
  exists h, common_half_plane q1 q2 = Ok h /\ common_half_plane q2 q1 = Ok h /\
  (h = -1 <-> is_opposite q1 q2 = Ok true) /\
  (h <> -1 -> (q1 = 0 /\ q2 = 3) \/ (q1 = 3 /\ q2 = 0) \/
     (is_in_half_plane q1 h = Ok true /\ is_in_half_plane q2 h = Ok true)).
Proof.
  intros q1 q2 H1 H2. assert (q1 = 0 \/ q1 = 1 \/ q1 = 2 \/ q1 = 3) as A by lia.
  assert (q2 = 0 \/ q2 = 1 \/ q2 = 2 \/ q2 = 3) as B by lia.
  destruct A as [->|[->|[-> | ->]]], B as [->|[->|[-> | ->]]]; eexists; (split; [reflexivity|split; [reflexivity|split]]); cbn; intuition (congruence || lia).
Qed.
(** For NE and SE the reported half plane does not contain NE. *)
Theorem C56_common_half_plane_contains_refuted :
  common_half_plane NE SE = Ok 3 /\ is_in_half_plane NE 3 = Ok false.
Proof. split; reflexivity. Qed.
Theorem C56_northern : forall dx dy, nn dx -> nn dy -> ~ (feqb dx f0 = true /\ feqb dy f0 = true) ->
  (is_northern (quadrant_xy dx dy) = true <-> fleb f0 dy = true).
Proof.
  intros dx dy Nx Ny H. destruct (C56_quadrant_of_vector dx dy Nx Ny) as [(A & B & _)|[_ Q]]; [tauto|].
  unfold in_quadrant, east, west in Q. unfold is_northern, NE, NW.
  destruct Q as [(-> & A & B)|[(-> & A & B)|[(-> & A & B)|(-> & A & B)]]]; cbn; try tauto;
    rewrite fltb_rank in B by (assumption || reflexivity); rewrite fleb_rank by (assumption || reflexivity); lia.
Qed.
Example C56_example : quadrant_xy (fofZ (-3)) (fofZ 2) = 1 /\ quadrant_xy (fofZ 3) (fofZ (-2)) = 3 /\
  is_opposite 1 3 = Ok true /\ common_half_plane 0 1 = Ok 0 /\
  quadrant_coordinates (new_xy f1 f1) (new_xy f1 f0) = 3.
Proof. repeat split. Qed.
