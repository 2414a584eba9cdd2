(** Properties C42 to C46 and C73: orientation of three points and of rings. *)
From Coq Require Import ZArith Bool List Reals Lia Lra.
From Flocq Require Import Core BinarySingleNaN.
From Verif Require Import Base F64 F64Facts F64Round F64Err DD_model DD_spec DD_proofs DD_props
  Coordinate_model CoordSeq_model Orientation_model Orientation_spec Orientation_proofs.
Import ListNotations.
Open Scope Z_scope.

(** ** C42 *)
(** [bpt 500 p]: both ordinates are finite and at most 2^500 in absolute value.
    [P] and [Q] are the two exact products the filter compares. *)
Theorem C42_filter_sound : forall p1 p2 q, bpt 500 p1 -> bpt 500 p2 -> bpt 500 q ->
  let P := ((R_of (cx p1) - R_of (cx q)) * (R_of (cy p2) - R_of (cy q)))%R in
  let Q := ((R_of (cy p1) - R_of (cy q)) * (R_of (cx p2) - R_of (cx q)))%R in
  (P = 0 \/ bp (-990) <= Rabs P)%R -> (Q = 0 \/ bp (-990) <= Rabs Q)%R ->
  let f := orientation_index_filter (cx p1) (cy p1) (cx p2) (cy p2) (cx q) (cy q) in
  f <> 2 -> is_sign f (det_pts p1 p2 q) /\ orient p1 p2 q = f.
Proof. exact orient_filter_sound. Qed.
Definition ipt (x y : Z) : Coordinate := new_xy (fofZ x) (fofZ y).
Lemma ipt_gpt x y : Z.abs x <= 2 ^ 49 -> Z.abs y <= 2 ^ 49 -> gpt 0 (ipt x y).
Proof. intros Hx Hy. split; [exists x|exists y]; (split; [assumption|]); apply grid_fofZ; lia. Qed.
Example C42_example : bpt 500 (ipt 0 0) /\ bpt 500 (ipt 10 3) /\ bpt 500 (ipt 20 7) /\
  orientation_index_filter (fofZ 0) (fofZ 0) (fofZ 10) (fofZ 3) (fofZ 20) (fofZ 7) = 1.
Proof.
  split; [|split; [|split; [|vm_compute; reflexivity]]]; apply (gpt_bpt 0); try lia; apply ipt_gpt; lia.
Qed.
(** Without the bound on the products the filter answers 0 for points that are not collinear. *)
Definition c42_p1 : Coordinate := new_xy (mkf 1 (-600)) f0.
Definition c42_p2 : Coordinate := new_xy f0 (mkf 1 (-600)).
Definition c42_q : Coordinate := new_xy f0 f0.
Theorem C42_underflow_refuted :
  orientation_index_filter (cx c42_p1) (cy c42_p1) (cx c42_p2) (cy c42_p2) (cx c42_q) (cy c42_q) = 0 /\
  (0 < det_pts c42_p1 c42_p2 c42_q)%R.
Proof.
  split; [vm_compute; reflexivity|]. unfold det_pts, det3, c42_p1, c42_p2, c42_q, new_xy. cbn [cx cy].
  destruct (grid_mkf 1 (-600) ltac:(lia) ltac:(lia)) as (_ & ->). rewrite R_f0.
  pose proof (bpow_gt_0 radix2 (-600)). nra.
Qed.

(** ** C43 *)
(** [gpt e p]: both ordinates of [p] are n*2^e with |n| <= 2^49. *)
Theorem C43_exact_on_grid : forall e p1 p2 q, -440 <= e <= 420 -> gpt e p1 -> gpt e p2 -> gpt e q ->
  is_sign (orient p1 p2 q) (det_pts p1 p2 q).
Proof. exact orient_grid. Qed.
(** [wide_grid e x]: [x] is n*2^e with |n| <= 2^52; with [e = 0], every
    integer that a double holds together with its differences. *)
Theorem C43_exact_on_wide_grid : forall e p1 p2 q, -440 <= e <= 418 ->
  (forall p, p = p1 \/ p = p2 \/ p = q -> wide_grid e (cx p) /\ wide_grid e (cy p)) ->
  is_sign (orient p1 p2 q) (det_pts p1 p2 q).
Proof. exact orient_wide. Qed.
(** More generally, exact for ordinates of moderate size whenever the four
    differences taken are doubles. *)
Theorem C43_exact_differences : forall p1 p2 q, mid_pt p1 -> mid_pt p2 -> mid_pt q ->
  fmt (R_of (cx p2) - R_of (cx p1))%R -> fmt (R_of (cy p2) - R_of (cy p1))%R ->
  fmt (R_of (cx q) - R_of (cx p2))%R -> fmt (R_of (cy q) - R_of (cy p2))%R ->
  is_sign (orient p1 p2 q) (det_pts p1 p2 q).
Proof.
  intros p1 p2 q M1 M2 M3. apply (orient_fmt (-440)); [lia|..];
    try (split; apply mid_bf; (apply M1 || apply M2 || apply M3)).
  intros p [->|[->| ->]]; (split; apply mid_mult; (apply M1 || apply M2 || apply M3)).
Qed.
(** Two vectors of 2^52 that are almost parallel: the determinant is -1. *)
Example C43_wide_example : let a := 2 ^ 52 in
  (forall p, p = new_xy f0 f0 \/ p = new_xy (fofZ a) (fofZ (a - 1)) \/ p = new_xy (fofZ (a - 1)) (fofZ (a - 2)) ->
    wide_grid 0 (cx p) /\ wide_grid 0 (cy p)) /\
  det_pts (new_xy f0 f0) (new_xy (fofZ a) (fofZ (a - 1))) (new_xy (fofZ (a - 1)) (fofZ (a - 2))) = (-1)%R /\
  orient (new_xy f0 f0) (new_xy (fofZ a) (fofZ (a - 1))) (new_xy (fofZ (a - 1)) (fofZ (a - 2))) = -1.
Proof.
  cbv zeta. split; [|split].
  - assert (forall n, Z.abs n <= 2 ^ 52 -> wide_grid 0 (fofZ n)) as W.
    { intros n H. exists n. split; [exact H|]. apply grid_fofZ. lia. }
    assert (wide_grid 0 f0) as W0 by (exists 0; split; [lia|]; split; [reflexivity|]; rewrite R_f0; ring).
    intros p [->|[->| ->]]; (split; cbn [cx cy new_xy]; [first [exact W0|apply W; lia]|first [exact W0|apply W; lia]]).
  - unfold det_pts, det3, new_xy. cbn [cx cy]. rewrite R_f0.
    assert (forall n, Z.abs n <= 2 ^ 53 -> R_of (fofZ n) = IZR n) as V.
    { intros n H. rewrite (proj2 (grid_fofZ n H)). change (bp 0) with 1%R. ring. }
    rewrite !V by lia. rewrite <- ?minus_IZR, <- ?mult_IZR, <- ?minus_IZR. vm_compute. lra.
  - vm_compute. reflexivity.
Qed.
Theorem C43_exchange_and_rotation : forall e p1 p2 q, -440 <= e <= 420 -> gpt e p1 -> gpt e p2 -> gpt e q ->
  orient p2 p1 q = - orient p1 p2 q /\ orient p2 q p1 = orient p1 p2 q /\ orient p1 q p2 = - orient p1 p2 q.
Proof.
  intros e p1 p2 q He G1 G2 G3. pose proof (orient_grid e p1 p2 q He G1 G2 G3) as S. split; [|split].
  - apply (is_sign_fun _ _ (det_pts p2 p1 q)); [now apply (orient_grid e)|]. rewrite det_swap. now apply is_sign_opp.
  - apply (is_sign_fun _ _ (det_pts p2 q p1)); [now apply (orient_grid e)|]. now rewrite det_rot.
  - apply (is_sign_fun _ _ (det_pts p1 q p2)); [now apply (orient_grid e)|].
    replace (det_pts p1 q p2) with (- det_pts p1 p2 q)%R by (unfold det_pts, det3; ring). now apply is_sign_opp.
Qed.
(** Almost collinear integer points that only the double-double path can tell apart. *)
Example C43_example : let p := ipt 0 0 in let q := ipt (2 ^ 48) (2 ^ 48 - 1) in let r := ipt (2 ^ 48 + 1) (2 ^ 48) in
  gpt 0 p /\ gpt 0 q /\ gpt 0 r /\ orient p q r = 1 /\
  orientation_index_filter (cx p) (cy p) (cx q) (cy q) (cx r) (cy r) = 1 /\
  orientation_index_filter (cx q) (cy q) (cx r) (cy r) (cx p) (cy p) = 2 /\ orient q r p = 1.
Proof.
  cbv zeta. split; [apply ipt_gpt; lia|]. split; [apply ipt_gpt; lia|]. split; [apply ipt_gpt; lia|].
  repeat split; vm_compute; reflexivity.
Qed.

(** ** C44 *)
Theorem C44_filter_antisymmetric : forall p1 p2 q, bpt 500 p1 -> bpt 500 p2 -> bpt 500 q ->
  orientation_index_filter (cx p1) (cy p1) (cx p2) (cy p2) (cx q) (cy q) <> 2 ->
  orient p2 p1 q = - orient p1 p2 q.
Proof.
  intros p1 p2 q (B1 & B2) (B3 & B4) (B5 & B6) N.
  destruct (filter_antisym _ _ _ _ _ _ B1 B2 B3 B4 B5 B6) as [(_ & C)|(N' & _ & E)]; [contradiction|].
  unfold orient, orientation_index_xy. cbv zeta.
  assert (forall a b c d e f, orientation_index_filter a b c d e f <> 2 -> orientation_index_filter a b c d e f <= 1) as LE.
  { intros a b c d e f. unfold orientation_index_filter.
    assert (forall x, fsignum x <= 1) as S1 by (intros x; unfold fsignum; destruct (fgtb x f0); [|destruct (fltb x f0)]; lia).
    repeat match goal with |- context [if ?b then _ else _] => destruct b end; try congruence; intros _; apply S1. }
  pose proof (LE _ _ _ _ _ _ N). pose proof (LE _ _ _ _ _ _ N').
  destruct (Z.leb_spec (orientation_index_filter (cx p1) (cy p1) (cx p2) (cy p2) (cx q) (cy q)) 1); [|lia].
  destruct (Z.leb_spec (orientation_index_filter (cx p2) (cy p2) (cx p1) (cy p1) (cx q) (cy q)) 1); [|lia]. exact E.
Qed.
Theorem C44_antisymmetric_on_grid : forall e p1 p2 q, -440 <= e <= 420 -> gpt e p1 -> gpt e p2 -> gpt e q ->
  orient p2 p1 q = - orient p1 p2 q.
Proof. intros. now apply (C43_exchange_and_rotation e). Qed.
Definition c44_p1 : Coordinate := new_xy f0 (mkf 1 (-107)).
Definition c44_p2 : Coordinate := new_xy fhalf (fneg fhalf).
Definition c44_q : Coordinate := new_xy (mkf 1 (-107)) f0.
Theorem C44_reversal_refuted : orient c44_p1 c44_p2 c44_q = 0 /\ orient c44_p2 c44_p1 c44_q = -1.
Proof. split; vm_compute; reflexivity. Qed.
Example C44_example : orient (ipt 0 0) (ipt 10 3) (ipt 20 7) = 1 /\ orient (ipt 10 3) (ipt 0 0) (ipt 20 7) = -1.
Proof. split; vm_compute; reflexivity. Qed.

(** ** C45 *)
Lemma mid_pow k : -388 <= k <= 470 -> mid (mkf 1 k).
Proof.
  intros K. destruct (grid_mkf 1 k ltac:(lia) ltac:(lia)) as (F & E). split; [exact F|].
  rewrite E, Rmult_1_l, Rabs_pos_eq by apply bpow_ge_0. split; [apply bpow_le; lia|right; apply bpow_le; lia].
Qed.
Lemma mid_0 : mid f0.
Proof. split; [reflexivity|]. rewrite R_f0, Rabs_R0. split; [apply bpow_ge_0|now left]. Qed.
Lemma mid_neg x : mid x -> mid (fneg x).
Proof. intros (F & B & O). unfold mid. rewrite fneg_fin, fneg_R, Rabs_Ropp. split; [exact F|]. split; [exact B|].
  destruct O as [O|O]; [left; lra|right; exact O]. Qed.
(** The points of C44 turn counterclockwise, by very little, and the answer is 0. *)
Theorem C45_exact_everywhere_refuted :
  mid_pt c44_p1 /\ mid_pt c44_p2 /\ mid_pt c44_q /\
  (0 < det_pts c44_p1 c44_p2 c44_q)%R /\ orient c44_p1 c44_p2 c44_q = 0.
Proof.
  split; [split; [apply mid_0|apply mid_pow; lia]|]. split; [split; [|apply mid_neg]; apply mid_pow; lia|].
  split; [split; [apply mid_pow; lia|apply mid_0]|].
  split; [|vm_compute; reflexivity].
  unfold det_pts, det3, c44_p1, c44_p2, c44_q, new_xy, fhalf. cbn [cx cy]. rewrite fneg_R.
  destruct (grid_mkf 1 (-107) ltac:(lia) ltac:(lia)) as (_ & ->).
  destruct (grid_mkf 1 (-1) ltac:(lia) ltac:(lia)) as (_ & ->). rewrite R_f0.
  pose proof (bpow_gt_0 radix2 (-107)). change (bp (-1)) with (/ 2)%R. nra.
Qed.
Theorem C45_underflow_refuted : (0 < det_pts c42_p1 c42_p2 c42_q)%R /\ orient c42_p1 c42_p2 c42_q = 0.
Proof. split; [apply C42_underflow_refuted|vm_compute; reflexivity]. Qed.

(** ** C73 *)
(** Right for all points of moderate size that are not within about 2^-102
    (relatively) of being collinear. *)
Theorem C73_right_unless_nearly_collinear : forall p1 p2 q, mid_pt p1 -> mid_pt p2 -> mid_pt q ->
  let L := ((R_of (cx p2) - R_of (cx p1)) * (R_of (cy q) - R_of (cy p2)))%R in
  let M := ((R_of (cy p2) - R_of (cy p1)) * (R_of (cx q) - R_of (cx p2)))%R in
  (10 * (u53 * u53) * (Rabs L + Rabs M) < Rabs (det_pts p1 p2 q))%R ->
  is_sign (orient p1 p2 q) (det_pts p1 p2 q).
Proof. intros p1 p2 q M1 M2 M3. cbv zeta. intros G. apply orient_mid; auto. Qed.
(** [sign_of_det2x2_f64]: the products are exact, and so is the sign of their difference. *)
Theorem C73_sign_of_det : forall x1 y1 x2 y2, mid x1 -> mid y1 -> mid x2 -> mid y2 ->
  let L := (R_of x1 * R_of y2)%R in
  let M := (R_of y1 * R_of x2)%R in
  is_sign (sign_of_det_f64 x1 y1 x2 y2) (L - M).
Proof.
  intros x1 y1 x2 y2 M1 M2 M3 M4. cbv zeta.
  assert (forall a b, mid a -> mid b -> normed (dd_mul (dd_of a) (dd_of b)) /\ dval (dd_mul (dd_of a) (dd_of b)) = (R_of a * R_of b)%R /\
    bf 940 (hi (dd_mul (dd_of a) (dd_of b)))) as H.
  { intros a b Ma Mb. pose proof (mid_bf _ Ma) as Ba. pose proof (mid_bf _ Mb) as Bb.
    destruct (C39_product_exact 470 470 a b ltac:(lia) ltac:(lia) ltac:(lia) Ba Bb) as (N & V).
    - destruct Ma as (_ & _ & [Z|Ga]); [left; rewrite Z; ring|]. destruct Mb as (_ & _ & [Z|Gb]); [left; rewrite Z; ring|].
      right. rewrite Rabs_mult. apply Rle_trans with (bp (-388 + -388)); [apply bpow_le; lia|]. rewrite bpow_plus.
      apply Rmult_le_compat; try apply bpow_ge_0; assumption.
    - unfold dd_mul_f64 in *. rewrite (nn_finite _ (bf_fin _ _ Bb)) in *.
      unfold dd_mul, dd_is_nan. cbn [dd_of hi]. rewrite (nn_finite _ (bf_fin _ _ Bb)). unfold dd_self_mul. cbn [dd_of hi lo].
      change (dd_mul_hi_lo {| hi := a; lo := f0 |} b f0) with (dd_mul_hi_lo (dd_of a) b f0).
      split; [exact N|]. split; [exact V|]. destruct (N) as ((F & _) & E). split; [exact F|]. rewrite E, V.
      apply RN_abs_le; [lia|]. rewrite Rabs_mult. change 940 with (470 + 470). rewrite bpow_plus.
      apply Rmult_le_compat; try apply Rabs_pos; [apply Ba|apply Bb]. }
  destruct (H x1 y2 M1 M4) as (N1 & V1 & B1). destruct (H y1 x2 M2 M3) as (N2 & V2 & B2).
  unfold sign_of_det_f64. rewrite <- V1, <- V2. apply (C72_difference_sign 940); try assumption. lia.
Qed.
Example C73_example : mid_pt (new_xy f0 f0) /\ mid_pt (new_xy f1 (mkf 1 (-90))) /\ mid_pt (new_xy f1 f0) /\
  orient (new_xy f0 f0) (new_xy f1 (mkf 1 (-90))) (new_xy f1 f0) = -1.
Proof.
  split; [split; apply mid_0|]. split; [split; apply mid_pow; lia|]. split; [split; [apply (mid_pow 0); lia|apply mid_0]|].
  vm_compute. reflexivity.
Qed.

(** ** C46 *)
Theorem C46_returns : forall s, (0 < seq_size s)%nat -> exists b, is_ccw_seq s = Ok (Some b).
Proof. exact is_ccw_total. Qed.
Theorem C46_vec_returns : forall ring, ring <> [] -> exists b, is_ccw_vec ring = Ok (Some b).
Proof. intros [|p ring] H; [congruence|]. apply is_ccw_total. cbn. lia. Qed.
Theorem C46_few_points_false : forall s, (0 < seq_size s < 4)%nat -> is_ccw_seq s = Ok (Some false).
Proof.
  intros s H. unfold is_ccw_seq, usub. destruct (Nat.leb_spec 1 (seq_size s)); [|lia]. cbn [bind].
  destruct (Nat.ltb_spec (seq_size s - 1) 3); [reflexivity|lia].
Qed.
Theorem C46_empty_panics_refuted : is_ccw_vec [] = Panic.
Proof. reflexivity. Qed.
(** A closed ring with a single highest vertex [h]: the answer is the turn at that vertex. *)
Theorem C46_turn_at_highest_vertex : forall e s n h, -440 <= e <= 420 ->
  let pt i := nth i (scoords s) coord_default in
  seq_size s = S n -> (3 <= n)%nat -> (h < n)%nat ->
  (forall i, (i <= n)%nat -> gpt e (pt i)) ->
  equals_2d (pt 0%nat) (pt n) = true ->
  (forall j, (j < n)%nat -> j <> h -> (R_of (cy (pt j)) < R_of (cy (pt h)))%R) ->
  exists b, is_ccw_seq s = Ok (Some b) /\
    (b = true <-> (0 < det_pts (pt ((h + n - 1) mod n)%nat) (pt h) (pt ((h + 1) mod n)%nat))%R).
Proof.
  intros e s n h He pt L N Hh G Cl Top.
  assert (forall i, (i <= n)%nat -> fis_finite (cx (pt i)) = true /\ fis_finite (cy (pt i)) = true) as Fin.
  { intros i Hi. destruct (G i Hi) as ((? & _ & (F1 & _)) & (? & _ & (F2 & _))). auto. }
  assert (forall k, (k mod n < n)%nat) as Mod by (intros; apply Nat.mod_upper_bound; lia).
  rewrite (is_ccw_peak s n h L N Hh Cl (nn_finite _ (proj1 (Fin h ltac:(lia))))).
  - eexists. split; [reflexivity|]. fold (pt n) (pt h) (pt ((h + n - 1) mod n)%nat) (pt ((h + 1) mod n)%nat).
    assert (det_pts (pt ((h + n - 1) mod n)%nat) (if (h =? 0)%nat then pt n else pt h) (pt ((h + 1) mod n)%nat)
      = det_pts (pt ((h + n - 1) mod n)%nat) (pt h) (pt ((h + 1) mod n)%nat)) as ED.
    { destruct (Nat.eqb_spec h 0) as [->|]; [|reflexivity].
      rewrite equals_2d_eqb in Cl. apply andb_true_iff in Cl. destruct Cl as (C1 & C2).
      destruct (Fin 0%nat ltac:(lia)), (Fin n ltac:(lia)). fold (pt 0%nat) (pt n) in C1, C2.
      apply feqb_true_R in C1; try assumption. apply feqb_true_R in C2; try assumption.
      unfold det_pts. now rewrite C1, C2. }
    pose proof (orient_grid e (pt ((h + n - 1) mod n)%nat) (if (h =? 0)%nat then pt n else pt h) (pt ((h + 1) mod n)%nat) He) as S.
    rewrite ED in S. rewrite andb_true_iff, negb_true_iff, Z.eqb_eq.
    assert (is_sign (orient (pt ((h + n - 1) mod n)%nat) (if (h =? 0)%nat then pt n else pt h) (pt ((h + 1) mod n)%nat))
      (det_pts (pt ((h + n - 1) mod n)%nat) (pt h) (pt ((h + 1) mod n)%nat))) as S'.
    { apply S; [apply G; apply Nat.lt_le_incl, Mod|destruct (Nat.eqb h 0); apply G; lia|apply G; apply Nat.lt_le_incl, Mod]. }
    split.
    + intros (_ & E). rewrite E in S'. destruct S' as [(_ & P)|[(K & _)|(K & _)]]; [exact P|discriminate..].
    + intros P. split.
      * destruct (equals_2d (pt ((h + n - 1) mod n)%nat) (pt ((h + 1) mod n)%nat)) eqn:Q; [|reflexivity]. exfalso.
        rewrite equals_2d_eqb in Q. apply andb_true_iff in Q. destruct Q as (Q1 & Q2).
        destruct (Fin ((h + n - 1) mod n)%nat (Nat.lt_le_incl _ _ (Mod _))), (Fin ((h + 1) mod n)%nat (Nat.lt_le_incl _ _ (Mod _))).
        apply feqb_true_R in Q1; try assumption. apply feqb_true_R in Q2; try assumption.
        unfold det_pts, det3 in P. rewrite Q1, Q2 in P. nra.
      * destruct S' as [(K & _)|[(_ & K)|(_ & K)]]; [exact K|lra..].
  - intros j Hj Nj. destruct (Fin j ltac:(lia)), (Fin h ltac:(lia)). apply fltb_true_R; [assumption..|]. now apply Top.
Qed.
Example C46_example :
  is_ccw_vec [ipt 0 0; ipt 4 0; ipt 2 3; ipt 0 0] = Ok (Some true) /\
  is_ccw_vec [ipt 2 3; ipt 4 0; ipt 0 0; ipt 2 3] = Ok (Some false) /\
  is_ccw_vec [ipt 0 0; ipt 4 0; ipt 4 3; ipt 0 3; ipt 0 0] = Ok (Some true).
Proof. repeat split; vm_compute; reflexivity. Qed.
