(** C83: direct access reads and writes the element that is named, and no
    other; scalings of vectors are correctly rounded in each component. *)
From Coq Require Import ZArith Bool List Reals Lia Lra.
From Flocq Require Import Core IEEE754.BinarySingleNaN.
From Verif Require Import Base F64 F64Facts F64Err NumLink DD_more Coordinate_model Coordinate_spec Coordinate_proofs CoordSeq_model CoordSeq_proofs CoordArrays_model CoordArrays_spec CoordArrays_proofs
  PrecisionModel_model Geom_model Geom_proofs Line_props IntersectionMatrix_model Intersection_model Vector_model Vector_props.
Import ListNotations.

(** ** Intersection matrices *)
(** Writing one of the nine cells changes this cell only; an index above two panics. *)
Theorem C83_matrix_set : forall m r c v,
  ((r < 3)%nat -> (c < 3)%nat -> exists m', im_set m r c v = Ok m' /\ im_get m' r c = Ok v /\
     forall i j, (i, j) <> (r, c) -> im_get m' i j = im_get m i j) /\
  ((3 <= r \/ 3 <= c)%nat -> im_set m r c v = Panic /\ im_get m r c = Panic).
Proof.
  intros [a b c0 d e f g h i0] r c v. split.
  - intros R C. assert (r = 0 \/ r = 1 \/ r = 2)%nat as [-> | [-> | ->]] by lia; assert (c = 0 \/ c = 1 \/ c = 2)%nat as [-> | [-> | ->]] by lia;
      (eexists; split; [reflexivity|]; split; [reflexivity|]); intros [|[|[|i]]] [|[|[|j]]] N; try reflexivity; exfalso; apply N; reflexivity.
  - intros H. destruct r as [|[|[|r]]]; destruct c as [|[|[|c]]]; try lia; split; reflexivity.
Qed.
(** Raising one cell to at least a value: the larger of the two, nothing else changed. *)
Theorem C83_matrix_at_least : forall m r c v,
  ((r < 3)%nat -> (c < 3)%nat -> exists m' x, set_at_least m r c v = Ok m' /\ im_get m r c = Ok x /\ im_get m' r c = Ok (Z.max x v) /\
     forall i j, (i, j) <> (r, c) -> im_get m' i j = im_get m i j) /\
  ((3 <= r \/ 3 <= c)%nat -> set_at_least m r c v = Panic).
Proof.
  intros m r c v. unfold set_at_least. destruct (C83_matrix_set m r c v) as (A & B). split.
  - intros R C. destruct (A R C) as (m' & S & G & O).
    assert (exists x, im_get m r c = Ok x) as (x & X).
    { destruct m. destruct r as [|[|[|r]]]; destruct c as [|[|[|c]]]; try lia; eexists; reflexivity. }
    rewrite X. cbn [bind]. destruct (Z.ltb_spec x v).
    + exists m', x. rewrite Z.max_r by lia. auto.
    + exists m, x. rewrite Z.max_l by lia. auto.
  - intros H. destruct (B H) as (_ & ->). reflexivity.
Qed.
(** A cell counts as an intersection when it holds a dimension or the code for any dimension. *)
Theorem C83_is_true : forall v, is_true v = true <-> (0 <= v \/ v = -2)%Z.
Proof.
  intros v. unfold is_true, dTRUE. destruct (v >=? 0)%Z eqn:E; cbn [orb].
  - apply Z.geb_le in E. split; [intros _; left; exact E|reflexivity].
  - rewrite Z.geb_leb in E. apply Z.leb_gt in E. destruct (Z.eqb_spec v (-2)); split; try reflexivity; try discriminate; lia.
Qed.

(** ** Lines and rings *)
(** The n-th coordinate and the n-th point of a line, its sequence and its first
    coordinate; reading beyond the end panics. *)
Theorem C83_line_access : forall l n,
  ln_sequence l = Ok (ln_seq l) /\
  (forall c, nth_error (lpts l) n = Some c -> ln_coordinate_n l n = Ok c /\
     exists p, ln_point_n l n = Ok p /\ pt_coordinate p = Ok (Some c)) /\
  ((length (lpts l) <= n)%nat -> ln_coordinate_n l n = Panic /\ ln_point_n l n = Panic).
Proof.
  intros l n. split; [apply seq_copy_id|]. unfold ln_coordinate_n, ln_point_n, seq_coord, idx, lpts. split.
  - intros c ->. cbn [bind]. split; [reflexivity|]. rewrite create_point_id. eexists. split; reflexivity.
  - intros H. apply nth_error_None in H. rewrite H. split; reflexivity.
Qed.
Theorem C83_ring_access : forall r n,
  rg_sequence r = Ok (rg_seq r) /\ rg_coordinate r = Ok (hd_error (rpts r)) /\
  (forall c, nth_error (rpts r) n = Some c -> rg_coordinate_n r n = Ok c) /\
  ((length (rpts r) <= n)%nat -> rg_coordinate_n r n = Panic).
Proof.
  intros r n. split; [apply seq_copy_id|]. unfold rg_coordinate, rg_is_empty, rg_coordinate_n, seq_size, seq_coord, idx, rpts. split; [now destruct (scoords (rg_seq r))|]. split.
  - now intros c ->.
  - intros H. apply nth_error_None in H. now rewrite H.
Qed.
(** An array is a ring when it has at least four points and its first and last
    agree in x and y; any array can be asked. *)
Theorem C83_array_is_ring : forall cs, exists b, arr_is_ring cs = Ok b /\
  (b = true <-> (4 <= length cs)%nat /\ exists p q, hd_error cs = Some p /\ hd_error (rev cs) = Some q /\ feqb (cx p) (cx q) = true /\ feqb (cy p) (cy q) = true).
Proof.
  intros cs. destruct (arr_is_ring_spec cs) as (b & E & H). exists b. split; [exact E|]. rewrite H. unfold closed. split; intros (L & p & q & A).
  - destruct A as (P & Q & D). split; [exact L|]. exists p, q. destruct D as (D1 & D2). auto.
  - destruct A as (P & Q & D1 & D2). split; [exact L|]. exists p, q. split; [exact P|]. split; [exact Q|]. split; assumption.
Qed.

(** ** Scaling vectors *)
Definition rounds_to (x : f64) (r : R) : Prop := fis_finite x = true /\ R_of x = RN r.
Theorem C83_vector_scale : forall u d, finv u -> fis_finite d = true ->
  (Rabs (R_of (vx u) * R_of d) < bp 1023)%R -> (Rabs (R_of (vy u) * R_of d) < bp 1023)%R ->
  rounds_to (vx (v2_mul u d)) (R_of (vx u) * R_of d) /\ rounds_to (vy (v2_mul u d)) (R_of (vy u) * R_of d).
Proof.
  intros u d (Fx & Fy) Fd Bx By. unfold v2_mul, rounds_to. cbn [vx vy].
  assert (K : forall r, (Rabs r < bp 1023)%R -> (Rabs (RN r) < bp 1024)%R).
  { intros r B. eapply Rle_lt_trans; [apply (RN_abs_le 1023); [lia|lra]|]. apply bpow_lt. lia. }
  split; apply fmul_R; auto.
Qed.
Theorem C83_vector_divide : forall u w d, finv u -> finv3 w -> fis_finite d = true -> R_of d <> 0%R ->
  (forall r, r = R_of (vx u) \/ r = R_of (vy u) \/ r = R_of (wx w) \/ r = R_of (wy w) \/ r = R_of (wz w) -> (Rabs (r / R_of d) < bp 1023)%R) ->
  rounds_to (vx (v2_div u d)) (R_of (vx u) / R_of d) /\ rounds_to (vy (v2_div u d)) (R_of (vy u) / R_of d) /\
  rounds_to (wx (v3_div w d)) (R_of (wx w) / R_of d) /\ rounds_to (wy (v3_div w d)) (R_of (wy w) / R_of d) /\ rounds_to (wz (v3_div w d)) (R_of (wz w) / R_of d).
Proof.
  intros u w d (Fx & Fy) (Gx & Gy & Gz) Fd N B. unfold v2_div, v3_div, rounds_to. cbn [vx vy wx wy wz].
  assert (K : forall r, (Rabs r < bp 1023)%R -> (Rabs (RN r) < bp 1024)%R).
  { intros r H. eapply Rle_lt_trans; [apply (RN_abs_le 1023); [lia|lra]|]. apply bpow_lt. lia. }
  repeat split; apply fdiv_R; auto 10.
Qed.

(** ** Homogeneous points *)
(** Reading an ordinate gives the rounded quotient by the weight, and NaN for a
    weight of zero or a quotient too large; never an infinity. *)
Theorem C83_homogeneous_get : forall h,
  fis_infinite (h_get_x h) = false /\ fis_infinite (h_get_y h) = false /\
  (fis_finite (hx h) = true -> R_of (hw h) <> 0%R -> (Rabs (R_of (hx h) / R_of (hw h)) < bp 1023)%R -> rounds_to (h_get_x h) (R_of (hx h) / R_of (hw h))) /\
  (fis_finite (hy h) = true -> R_of (hw h) <> 0%R -> (Rabs (R_of (hy h) / R_of (hw h)) < bp 1023)%R -> rounds_to (h_get_y h) (R_of (hy h) / R_of (hw h))) /\
  (forall s, hw h = B754_zero s -> fis_nan (h_get_x h) = true /\ fis_nan (h_get_y h) = true).
Proof.
  intros h. unfold h_get_x, h_get_y.
  assert (I : forall a w, fis_infinite (h_get a w) = false).
  { intros a w. unfold h_get. destruct (fdiv a w); reflexivity. }
  assert (Q : forall a w, fis_finite a = true -> R_of w <> 0%R -> (Rabs (R_of a / R_of w) < bp 1023)%R -> rounds_to (h_get a w) (R_of a / R_of w)).
  { intros a w F N B. destruct (fdiv_R a w F N) as (F' & E).
    - eapply Rle_lt_trans; [apply (RN_abs_le 1023); [lia|lra]|]. apply bpow_lt. lia.
    - unfold h_get, rounds_to. destruct (fdiv a w); try discriminate F'; split; (reflexivity || exact E). }
  split; [apply I|]. split; [apply I|]. split; [apply Q|]. split; [apply Q|].
  intros s ->. unfold h_get. split; [destruct (hx h) as [?|?| |? ? ? ?]|destruct (hy h) as [?|?| |? ? ? ?]]; reflexivity.
Qed.
(** The point built from two pairs of points is the one [intersection] finds;
    where that finds none, an ordinate reads as NaN. *)
Theorem C83_homogeneous_meet : forall p1 p2 q1 q2,
  let h := h_meet p1 p2 q1 q2 in
  (forall c, h_intersection p1 p2 q1 q2 = Some c -> h_get_x h = cx c /\ h_get_y h = cy c) /\
  (h_intersection p1 p2 q1 q2 = None <-> fis_nan (h_get_x h) = true \/ fis_nan (h_get_y h) = true).
Proof.
  intros p1 p2 q1 q2 h. unfold h_get_x, h_get_y, h_get, h_intersection, bad_result, h, h_meet. cbv zeta. cbn [hx hy hw].
  match goal with |- context [new_xy ?a ?b] => generalize b as y; generalize a as x end. intros x y.
  destruct x as [?|?| |? ? ? ?]; destruct y as [?|?| |? ? ? ?]; cbn; split; try (intros c E; try discriminate E; injection E as <-; split; reflexivity); split; intros H; try discriminate H; try reflexivity; auto;
    destruct H as [H|H]; discriminate H.
Qed.

(** A matrix cell, the second point of a line, a ring of five points, a vector
    divided by three, the crossing of two diagonals. *)
Example C83_example :
  (exists m, set_at_least im_default 1 2 1 = Ok m /\ im_get m 1 2 = Ok 1%Z /\ im_get m 2 1 = Ok (-1)%Z) /\
  (exists l p, create_line [new_xy f0 f0; new_xy f1 f2] = Ok l /\ ln_point_n l 1 = Ok p /\ pt_coordinate p = Ok (Some (new_xy f1 f2)) /\ ln_point_n l 2 = Panic) /\
  arr_is_ring [new_xy f0 f0; new_xy f1 f0; new_xy f1 f1; new_xy f0 f1; new_xy f0 f0] = Ok true /\
  feqb (vx (v2_div (mkV2 (fofZ 6) f1) (fofZ 3))) f2 = true /\
  feqb (h_get_x (h_meet (new_xy f0 f0) (new_xy f2 f2) (new_xy f0 f2) (new_xy f2 f0))) f1 = true /\
  h_intersection (new_xy f0 f0) (new_xy f2 f2) (new_xy f0 f1) (new_xy f1 f2) = None.
Proof.
  split; [eexists; repeat split|]. split; [eexists; eexists; repeat split|]. split; [reflexivity|]. repeat split; vm_compute; reflexivity.
Qed.
