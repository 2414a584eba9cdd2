(** C69: rounding errors of centroids at arbitrary doubles. *)
From Coq Require Import ZArith Bool List Reals Lia Lra Psatz.
From Flocq Require Import Core IEEE754.BinarySingleNaN.
From Verif Require Import Base F64 F64Facts F64Err NumLink Coordinate_model Coordinate_spec CoordArrays_model CoordSeq_model Orientation_model Orientation_props
  Distance_float Distance_props Measure_model Measure_spec Measure_proofs MeasureErr_spec MeasureErr_proofs MeasureErr_props Geom_model Geom_proofs Polygon_proofs Line_props Polygon_props
  Centroid_model Centroid_spec Centroid_proofs Centroid_props CentroidErr_spec CentroidErr_proofs.
Import ListNotations.
Local Open Scope R_scope.

(** ** Points *)
(** The centroid of n points added one by one is their mean, within
    (2n + 2) units of 2^-53 of the largest ordinate. *)
Theorem C69_mean_error : forall i M cs, i32_arith i -> bp (-900) <= M <= bp 900 -> Forall (pt_within M) cs -> cs <> [] ->
  (Z.of_nat (length cs) <= 2147483647)%Z ->
  exists st c, foldM (add_point i) cs cn_default = Ok st /\ cn_centroid st = Some c /\ fis_finite (cx c) = true /\ fis_finite (cy c) = true /\
    let n := INR (length cs) in
    Rabs (R_of (cx c) - rtotal fst (map plane cs) / n) <= (2 * n + 2) * u53 * M /\
    Rabs (R_of (cy c) - rtotal snd (map plane cs) / n) <= (2 * n + 2) * u53 * M.
Proof.
  intros i M cs I HM F Ne Bn.
  assert (forall n st X Y, cn_count st = Z.of_nat n -> cn_area2 st = f0 -> cn_len st = f0 -> (Z.of_nat (n + length cs) <= 2147483647)%Z ->
    nr (2 * INR n) (INR n * M) (cx (cn_pts st)) X -> nr (2 * INR n) (INR n * M) (cy (cn_pts st)) Y ->
    exists st', foldM (add_point i) cs st = Ok st' /\ cn_count st' = Z.of_nat (n + length cs) /\ cn_area2 st' = f0 /\ cn_len st' = f0 /\
      nr (2 * INR (n + length cs)) (INR (n + length cs) * M) (cx (cn_pts st')) (X + rtotal fst (map plane cs)) /\
      nr (2 * INR (n + length cs)) (INR (n + length cs) * M) (cy (cn_pts st')) (Y + rtotal snd (map plane cs))) as Gen.
  { clear Ne Bn. induction F as [|c cs Wc F IH]; intros n st X Y Hc Ha Hl Hn Nx Ny.
    - exists st. unfold rtotal, rsum. cbn [length map fold_right foldM]. rewrite Nat.add_0_r, !Rplus_0_r. auto 10.
    - cbn [foldM length] in *. unfold add_point at 1. rewrite Hc, (i32_in i) by (exact I || lia). cbn [bind].
      pose proof (INR_u n ltac:(lia)) as Cu. pose proof (pos_INR n) as N0. pose proof u53_pos as Up.
      destruct Wc as (Fx & Fy & Bx & By).
      assert ((INR n + 1) * M <= bp 1000) as Top.
      { assert (INR n + 1 <= bp 40) by (rewrite INR_IZR_INZ; change (bp 40) with (IZR (2 ^ 40)); change 1 with (IZR 1); rewrite <- plus_IZR; apply IZR_le; lia).
        assert (bp 40 * bp 900 = bp 940) as E1 by exact (eq_sym (bpow_plus radix2 40 900)). assert (bp 940 <= bp 1000) by (apply bpow_le; lia).
        assert (0 < bp (-900)) by apply bpow_gt_0. assert ((INR n + 1) * M <= bp 40 * bp 900) by (apply Rmult_le_compat; lra). lra. }
      assert (forall z Z o, fis_finite o = true -> Rabs (R_of o) <= M -> nr (2 * INR n) (INR n * M) z Z -> nr (2 * INR (S n)) (INR (S n) * M) (fadd z o) (Z + R_of o)) as Step.
      { intros z Z o Fo Bo Nz. rewrite S_INR. replace (2 * (INR n + 1)) with (2 * INR n + 2) by ring. rewrite Rmult_plus_distr_r, Rmult_1_l.
        apply nr_add; [lra|lra|lra|exact Nz|]. apply (nr_weak 0); [lra|now apply nr_0]. }
      edestruct (IH (S n)) as (st' & E & C' & A' & L' & X' & Y'); [| | | | | |exists st'; split; [exact E|]].
      + cbn [cn_count]. lia.
      + exact Ha.
      + exact Hl.
      + lia.
      + cbn [cn_pts set_x set_y cx cy]. apply Step; [exact Fx|exact Bx|exact Nx].
      + cbn [cn_pts set_x set_y cx cy]. apply Step; [exact Fy|exact By|exact Ny].
      + unfold rtotal, rsum. cbn [map fold_right plane fst snd]. rewrite <- !Rplus_assoc. rewrite <- Nat.add_succ_comm. auto. }
  destruct (Gen 0%nat cn_default 0 0) as (st & E & C' & A' & L' & (Fx & Ex & Bx) & (Fy & Ey & By)); try reflexivity; try exact Bn.
  { cbn [INR]. rewrite Rmult_0_l, Rmult_0_r. apply nr_zero. } { cbn [INR]. rewrite Rmult_0_l, Rmult_0_r. apply nr_zero. }
  rewrite Nat.add_0_l, Rplus_0_l in *. set (N := length cs) in *.
  assert (0 < N)%nat as N1 by (unfold N; destruct cs; [easy|cbn; lia]).
  assert (1 <= INR N) as N1' by (change 1 with (INR 1); apply le_INR; lia).
  assert (R_of (fofZ (Z.of_nat N)) = INR N) as RN_.
  { rewrite (proj2 (grid_fofZ (Z.of_nat N) ltac:(lia))). cbn. rewrite INR_IZR_INZ. ring. }
  unfold cn_centroid. exists st. rewrite A', L', C'. change (fltb f0 (fabs f0)) with false. change (fltb f0 f0) with false. cbv iota.
  assert ((0 <? Z.of_nat N)%Z = true) as -> by (apply Z.ltb_lt; lia).
  pose proof (INR_u N ltac:(lia)) as Cu. pose proof u53_pos as Up. pose proof u53_small as Us.
  assert (0 < bp (-900)) as P9 by apply bpow_gt_0.
  assert (forall z Z, fis_finite z = true -> Rabs (R_of z - Z) <= 2 * INR N * u53 * (INR N * M) -> Rabs Z <= INR N * M ->
    fis_finite (fdiv z (fofZ (Z.of_nat N))) = true /\ Rabs (R_of (fdiv z (fofZ (Z.of_nat N))) - Z / INR N) <= (2 * INR N + 2) * u53 * M) as Fin.
  { intros z Z Fz Ez Bz.
    assert (Rabs (R_of z / INR N - Z / INR N) <= 2 * INR N * u53 * M) as Q.
    { replace (R_of z / INR N - Z / INR N) with ((R_of z - Z) * / INR N) by (field; lra). rewrite Rabs_mult, (Rabs_pos_eq (/ INR N)) by (left; apply Rinv_0_lt_compat; lra).
      apply Rmult_le_reg_r with (INR N); [lra|]. rewrite Rmult_assoc, Rinv_l, Rmult_1_r by lra. lra. }
    assert (Rabs (Z / INR N) <= M) as Qb.
    { unfold Rdiv. rewrite Rabs_mult, (Rabs_pos_eq (/ INR N)) by (left; apply Rinv_0_lt_compat; lra).
      apply Rmult_le_reg_r with (INR N); [lra|]. rewrite Rmult_assoc, Rinv_l, Rmult_1_r by lra. lra. }
    assert (Rabs (R_of z / INR N) <= M + M / 64) as Qs.
    { replace (R_of z / INR N) with (Z / INR N + (R_of z / INR N - Z / INR N)) by ring. eapply Rle_trans; [apply Rabs_triang|]. nra. }
    destruct (fdiv_R z (fofZ (Z.of_nat N)) Fz) as (Fd & Ed); rewrite RN_ in *; [lra| |].
    { apply (RN_small' _ 901); [lia|]. change 901%Z with (900 + 1)%Z. rewrite bp_S. lra. }
    split; [exact Fd|]. pose proof (RN_err (R_of z / INR N)) as Er. rewrite <- Ed in Er. pose proof (eta_le M (proj1 HM)) as Et.
    replace (R_of (fdiv z (fofZ (Z.of_nat N))) - Z / INR N) with ((R_of (fdiv z (fofZ (Z.of_nat N))) - R_of z / INR N) + (R_of z / INR N - Z / INR N)) by ring.
    eapply Rle_trans; [apply Rabs_triang|]. assert (u53 * Rabs (R_of z / INR N) <= u53 * (M + M / 64)) by (apply Rmult_le_compat_l; lra). assert (0 <= u53 * M) by nra. lra. }
  destruct (Fin _ _ Fx Ex Bx) as (F1 & E1). destruct (Fin _ _ Fy Ey By) as (F2 & E2).
  eexists. split; [exact E|]. split; [reflexivity|]. cbn [new_xy cx cy]. auto.
Qed.

(** ** Lines *)
Lemma path_moment_le M (o : R * R -> R) cs : 0 <= M -> Forall (fun c => Rabs (o (plane c)) <= M) cs -> Rabs (path_moment o (map plane cs)) <= path_length (map plane cs) * M.
Proof.
  intros M0 F. induction cs as [|a cs IH]; [unfold path_moment; cbn; rewrite Rabs_R0; lra|].
  destruct cs as [|b cs]; [unfold path_moment; cbn; rewrite Rabs_R0; lra|].
  inversion F as [|? ? Ha F']; subst. inversion F' as [|? ? Hb _]; subst. specialize (IH F').
  change (path_length (map plane (a :: b :: cs))) with (euclid (plane a) (plane b) + path_length (map plane (b :: cs))).
  change (path_moment o (map plane (a :: b :: cs))) with (euclid (plane a) (plane b) * ((o (plane a) + o (plane b)) / 2) + path_moment o (map plane (b :: cs))).
  eapply Rle_trans; [apply Rabs_triang|]. rewrite Rmult_plus_distr_r. apply Rplus_le_compat; [|exact IH].
  assert (0 <= euclid (plane a) (plane b)) as D0 by apply sqrt_pos.
  rewrite Rabs_mult, (Rabs_pos_eq _ D0). apply Rmult_le_compat_l; [exact D0|].
  unfold Rdiv. rewrite Rabs_mult, (Rabs_pos_eq (/ 2)) by lra. pose proof (Rabs_triang (o (plane a)) (o (plane b))). lra.
Qed.
(** The centroid of a line of n points is the mean of the midpoints of its
    steps weighed by their lengths, within (5n + 20) units of 2^-53 of the
    largest ordinate; a line whose points coincide has its point as centroid. *)
Theorem C69_line_error : forall hypot i M l, i32_arith i -> hypot_accurate hypot -> bp (-400) <= M <= bp 400 ->
  Forall (pt_within M) (lpts l) -> steps_above (-400) (map plane (lpts l)) -> lpts l <> [] -> (Z.of_nat (length (lpts l)) <= 2 ^ 40)%Z ->
  exists c, centroid_of_line hypot i l = Ok (Some c) /\ cz c = fnan /\ cm c = fnan /\
    let ps := map plane (lpts l) in let n := INR (length (lpts l)) in
    (0 < path_length ps -> fis_finite (cx c) = true /\ fis_finite (cy c) = true /\
       Rabs (R_of (cx c) - path_moment fst ps / path_length ps) <= (5 * n + 20) * u53 * M /\
       Rabs (R_of (cy c) - path_moment snd ps / path_length ps) <= (5 * n + 20) * u53 * M) /\
    (path_length ps = 0 -> pt_eq c (hd coord_default (lpts l))).
Proof.
  intros hypot i M l I Hh HM F St Ne Hn. unfold centroid_of_line, cn_of_line, ln_coordinates, seq_to_array. fold (lpts l).
  rewrite add_lines_fold by exact Ne. cbn [cn_default cn_line].
  assert (pl_acc 0 M 0 0 0 (coord_default, f0)) as A0.
  { unfold pl_acc. cbn [fst snd INR]. rewrite Rmult_0_l. repeat split; try reflexivity; try (rewrite Rabs_R0; apply Rle_refl);
    match goal with |- Rabs (R_of ?x - 0) <= _ => change (R_of x) with 0 end; rewrite Rminus_0_r, Rabs_R0; pose proof u53_pos; nra. }
  destruct (line_fold_nr hypot M (lpts l) Hh HM F St 0 0 0 0 (coord_default, f0)) as (m & Hm & Nx & Ny & Nl); try assumption.
  { cbn [INR]. lra. }
  rewrite !Rplus_0_l in *. set (cs := lpts l) in *. set (T := path_length (map plane cs)) in *.
  destruct (line_fold hypot (coord_default, f0) cs) as [sum ll]. cbn [fst snd] in *.
  pose proof (path_length_nonneg (map plane cs)) as T0. fold T in T0.
  pose proof u53_pos as Up. pose proof u53_small as Us.
  pose proof (INR_u m ltac:(lia)) as Cu. pose proof (pos_INR m) as m0.
  assert (INR m <= INR (length cs)) as mn by (apply le_INR; lia).
  destruct Nl as (Fl & El & _).
  assert (0 < bp (-400)) as P4 by apply bpow_gt_0.
  destruct (Rle_lt_or_eq_dec _ _ T0) as [Tp|Tz].
  - assert (T / 2 <= R_of ll) as Lp by (apply Rabs_le_inv in El; nra).
    assert (feqb ll f0 = false) as Hl.
    { rewrite feqb_R by (exact Fl || reflexivity). change (R_of f0) with 0. apply Req_bool_false. lra. }
    rewrite Hl. cbv zeta. cbn [bind]. unfold cn_centroid. cbn [cn_area2 cn_len cn_line cn_default]. change (fltb f0 (fabs f0)) with false. cbv iota.
    assert (RN (R_of f0 + R_of ll) = R_of ll) as RL.
    { change (R_of f0) with 0. rewrite Rplus_0_l. apply round_generic; [apply valid_rnd_N|apply format_R]. }
    destruct (fadd_R f0 ll eq_refl Fl) as (Ff & Rf); [rewrite RL; apply abs_B2R_lt_emax|]. rewrite RL in Rf.
    set (L := fadd f0 ll) in *.
    assert (fltb f0 L = true) as ->.
    { rewrite fltb_R by (exact Ff || reflexivity). change (R_of f0) with 0. apply Rlt_bool_true. lra. }
    assert (bp (-900) <= M <= bp 900) as HM'.
    { assert (bp (-900) <= bp (-400)) by (apply bpow_le; lia). assert (bp 400 <= bp 900) by (apply bpow_le; lia). lra. }
    assert (forall z Z, nr (9 + 2 * INR m) (T * M) z Z -> fis_finite (fdiv z L) = true /\ Rabs (R_of (fdiv z L) - Z / T) <= (5 * INR (length cs) + 20) * u53 * M) as Fin.
    { intros z Z (Fz & Ez & Bz). set (k := 9 + 2 * INR m) in *.
      assert (Rabs (Z / T) <= M) as Qb.
      { unfold Rdiv. rewrite Rabs_mult, (Rabs_pos_eq (/ T)) by (left; now apply Rinv_0_lt_compat).
        apply Rmult_le_reg_r with T; [exact Tp|]. rewrite Rmult_assoc, Rinv_l, Rmult_1_r by lra. lra. }
      assert (Rabs (R_of z / R_of L - Z / T) <= (2 * k + k / 128) * u53 * M) as Q.
      { rewrite Rf. replace (R_of z / R_of ll - Z / T) with (((R_of z - Z) - Z / T * (R_of ll - T)) / R_of ll) by (field; lra).
        unfold Rdiv at 1. rewrite Rabs_mult, (Rabs_pos_eq (/ R_of ll)) by (left; apply Rinv_0_lt_compat; lra).
        apply Rmult_le_reg_r with (R_of ll); [lra|]. rewrite Rmult_assoc, Rinv_l, Rmult_1_r by lra.
        eapply Rle_trans with (2 * (k * u53 * (T * M))).
        - unfold Rminus at 1. eapply Rle_trans; [apply Rabs_triang|]. rewrite Rabs_Ropp, (Rabs_mult (Z / T)). 
          assert (Rabs (Z / T) * Rabs (R_of ll - T) <= M * (k * u53 * T)) by (apply Rmult_le_compat; auto using Rabs_pos). lra.
        - assert (T * (1 - / 1024) <= R_of ll) as L1 by (apply Rabs_le_inv in El; nra).
          assert (0 <= k) as k0 by (unfold k; lra). assert (0 <= k * u53 * M) as kM by (apply Rmult_le_pos; nra).
          assert ((2 + / 128) * R_of ll >= 2 * T) by lra.
          replace ((2 * k + k / 128) * u53 * M * R_of ll) with (k * u53 * M * ((2 + / 128) * R_of ll)) by field. 
          replace (2 * (k * u53 * (T * M))) with (k * u53 * M * (2 * T)) by ring. apply Rmult_le_compat_l; lra. }
      assert (0 <= k) as k0 by (unfold k; lra).
      assert (Rabs (R_of z / R_of L) <= M + M / 64) as Qs.
      { replace (R_of z / R_of L) with (Z / T + (R_of z / R_of L - Z / T)) by ring. eapply Rle_trans; [apply Rabs_triang|]. 
        assert ((2 * k + k / 128) * u53 <= / 64) by lra. assert ((2 * k + k / 128) * u53 * M <= / 64 * M) by (apply Rmult_le_compat_r; lra). lra. }
      destruct (fdiv_R z L Fz) as (Fd & Ed); [rewrite Rf; lra| |].
      { apply (RN_small' _ 901); [lia|]. change 901%Z with (900 + 1)%Z. rewrite bp_S. lra. }
      split; [exact Fd|]. pose proof (RN_err (R_of z / R_of L)) as Er. rewrite <- Ed in Er. pose proof (eta_le M (proj1 HM')) as Et.
      replace (R_of (fdiv z L) - Z / T) with ((R_of (fdiv z L) - R_of z / R_of L) + (R_of z / R_of L - Z / T)) by ring.
      eapply Rle_trans; [apply Rabs_triang|]. assert (u53 * Rabs (R_of z / R_of L) <= u53 * (M + M / 64)) by (apply Rmult_le_compat_l; lra).
      assert (0 <= u53 * M) as uM by nra.
      eapply Rle_trans with ((2 * k + k / 128 + 1 + / 64 + / 1024) * (u53 * M)); [lra|]. rewrite (Rmult_assoc (5 * _ + 20)). apply Rmult_le_compat_r; [exact uM|]. unfold k. lra. }
    destruct (Fin _ _ Nx) as (F1 & E1). destruct (Fin _ _ Ny) as (F2 & E2).
    eexists. split; [reflexivity|]. cbn [new_xy cx cy cz cm]. split; [reflexivity|]. split; [reflexivity|]. split; [auto|lra].
  - assert (R_of ll = 0) as L0 by (rewrite <- Tz, Rmult_0_r, Rminus_0_r in El; pose proof (Rabs_pos (R_of ll)); apply Rabs_le_inv in El; lra).
    assert (feqb ll f0 = true) as Hl.
    { rewrite feqb_R by (exact Fl || reflexivity). change (R_of f0) with 0. now apply Req_bool_true. }
    rewrite Hl. cbv zeta. unfold add_point. cbn [cn_count cn_default]. rewrite (i32_in i) by (exact I || lia). cbn [bind].
    assert (RN (R_of f0 + R_of ll) = 0) as RL.
    { change (R_of f0) with 0. rewrite L0, Rplus_0_r. apply round_0. apply valid_rnd_N. }
    destruct (fadd_R f0 ll eq_refl Fl) as (Ff & Rf); [rewrite RL, Rabs_R0; apply bpow_gt_0|]. rewrite RL in Rf.
    unfold cn_centroid. cbn [cn_area2 cn_len cn_line cn_count cn_pts cn_default]. change (fltb f0 (fabs f0)) with false. cbv iota.
    assert (fltb f0 (fadd f0 ll) = false) as ->.
    { rewrite fltb_R by (exact Ff || reflexivity). change (R_of f0) with 0. rewrite Rf. apply Rlt_bool_false. lra. }
    change (0 <? 0 + 1)%Z with true. cbv iota. eexists. split; [reflexivity|]. cbn [new_xy cx cy cz cm set_x set_y]. split; [reflexivity|]. split; [reflexivity|].
    split; [lra|]. intros _. destruct cs as [|p cs]; [easy|]. cbn [hd]. inversion F as [|? ? (Fx & Fy & _) _]; subst.
    split; apply (add_zero_div_one _); [destruct (cx p)|destruct (cy p)]; try discriminate; reflexivity.
Qed.

(** ** Polygons *)
(** A ring of points in the square of side [W] at (x, y), closed, with what the orientation test says of it. *)
Definition rr (x y W M : R) (r : bool * list Coordinate) : Prop :=
  is_ccw_vec (snd r) = Ok (Some (fst r)) /\ closed_chain (map plane (snd r)) /\ Forall (fun c => pt_within M c /\ inb x y W (plane c)) (snd r).
Definition hsum (f : list (R * R) -> R) (hs : list (bool * list Coordinate)) : R := rsum (fun r => sgr (fst r) * f (map plane (snd r))) hs.
Definition npts (l : list (list Coordinate)) : nat := length (concat l).
Lemma npts_cons a l : npts (a :: l) = (length a + npts l)%nat.
Proof. unfold npts. cbn [concat]. now rewrite app_length. Qed.
Lemma rsum_cons {A} (f : A -> R) a l : rsum f (a :: l) = f a + rsum f l.
Proof. reflexivity. Qed.
Lemma ta_weak n m W M A X Y st : 0 <= M -> (n <= m)%nat -> ta n W M A X Y st -> ta m W M A X Y st.
Proof.
  intros M0 L (Na & Nx & Ny). apply le_INR in L. pose proof (pos_INR n) as N0. assert (0 <= W * W) as W0 by nra. assert (0 <= W * W * M) as WM by nra.
  assert (forall c d v w z Z, 0 <= c -> c <= d -> v <= w -> nr c v z Z -> nr d w z Z) as Wk.
  { intros c d v w z Z c0 H1 H2 N. pose proof (nr_pos _ _ _ _ N) as v0. destruct N as (F & E & B). split; [exact F|]. split; [|lra]. eapply Rle_trans; [exact E|]. pose proof u53_pos.
    apply Rmult_le_compat; try nra. }
  split; [|split].
  - apply (Wk (6 + 2 * INR n) _ (INR n * (2 * (W * W)))); [lra|lra|apply Rmult_le_compat_r; lra|exact Na].
  - apply (Wk (11 + 2 * INR n) _ (INR n * (6 * (W * W) * M))); [lra|lra|apply Rmult_le_compat_r; lra|exact Nx].
  - apply (Wk (11 + 2 * INR n) _ (INR n * (6 * (W * W) * M))); [lra|lra|apply Rmult_le_compat_r; lra|exact Ny].
Qed.
Lemma ring_nr x y W M b pos cs : bp (-300) <= W <= bp 300 -> bp (-300) <= M <= bp 300 -> pt_within M b -> inb x y W (plane b) ->
  closed_chain (map plane cs) -> Forall (fun c => pt_within M c /\ inb x y W (plane c)) cs ->
  forall n A X Y st, (Z.of_nat (n + length cs) <= 2 ^ 40)%Z -> ta n W M A X Y st ->
  let t f := sgr pos * f (map plane cs) in
  ta (n + length cs) W M (A + t rarea2) (X + t (rmoment6 fst)) (Y + t (rmoment6 snd)) (tri_fold st b cs pos).
Proof.
  intros HW HM Wb Ib Cl F n A X Y st Hn Ac. cbv zeta.
  pose proof (tri_fold_nr x y W M b pos cs HW HM Wb Ib F n A X Y st Hn Ac) as T. cbv zeta in T.
  rewrite rtri2_area, rtri2_x, rtri2_y in T by exact Cl. eapply ta_weak; [|  |exact T]; [pose proof (bpow_gt_0 radix2 (-300)); lra|lia].
Qed.
Lemma closed_map_ne (cs : list Coordinate) : closed_chain (map plane cs) -> cs <> [].
Proof. intros (a & m & E). destruct cs; [discriminate E|easy]. Qed.
Lemma holes_nr hypot i x y W M b hs : i32_arith i -> bp (-300) <= W <= bp 300 -> bp (-300) <= M <= bp 300 -> pt_within M b -> inb x y W (plane b) ->
  Forall (rr x y W M) hs ->
  forall n A X Y st, cn_base st = Some b -> (Z.of_nat (n + npts (map snd hs)) <= 2 ^ 40)%Z -> (0 <= cn_count st)%Z -> (cn_count st + Z.of_nat (length hs) <= 2147483647)%Z ->
  ta n W M A X Y st ->
  exists st', foldM (add_hole hypot i) (map snd hs) st = Ok st' /\
    ta (n + npts (map snd hs)) W M (A + hsum rarea2 hs) (X + hsum (rmoment6 fst) hs) (Y + hsum (rmoment6 snd) hs) st' /\
    (0 <= cn_count st' <= cn_count st + Z.of_nat (length hs))%Z.
Proof.
  intros I HW HM Wb Ib F. induction F as [|r hs (Ccw & Cl & Fr) F IH]; intros n A X Y st Bs Hn C0 C1 Ac.
  - exists st. split; [reflexivity|]. unfold hsum, rsum, npts. cbn [map fold_right length concat]. rewrite Nat.add_0_r, !Rplus_0_r. split; [exact Ac|lia].
  - cbn [map foldM]. cbn [map] in Hn. rewrite npts_cons in Hn. cbn [length] in C1. rewrite Nat2Z.inj_succ in C1. pose proof (closed_map_ne _ Cl) as Ne.
    rewrite (add_hole_eq hypot i st b (snd r) _ Ccw Ne Bs).
    pose proof (ring_nr x y W M b (fst r) (snd r) HW HM Wb Ib Cl Fr n A X Y st ltac:(lia) Ac) as A1. cbv zeta in A1.
    destruct (tri_fold_keeps b (snd r) (fst r) st) as (K1 & _ & _ & K4 & _).
    destruct (add_lines_ok hypot i (tri_fold st b (snd r) (fst r)) (snd r)) as (st1 & E1 & B1 & A1' & G1 & Ct); [exact I|exact Ne|rewrite K4; lia|].
    rewrite E1. cbn [bind].
    edestruct (IH (n + length (snd r))%nat) with (st := st1) as (st2 & E2 & A2 & C2).
    + rewrite B1, K1. exact Bs.
    + lia.
    + lia.
    + lia.
    + unfold ta. rewrite A1', G1. exact A1.
    + exists st2. split; [exact E2|]. unfold hsum. rewrite !rsum_cons, npts_cons. fold (hsum rarea2 hs) (hsum (rmoment6 fst) hs) (hsum (rmoment6 snd) hs).
      rewrite <- !Rplus_assoc, Nat.add_assoc. split; [exact A2|]. cbn [length]. lia.
Qed.
Definition psum (f : list (R * R) -> R) (s : bool * list Coordinate) (hs : list (bool * list Coordinate)) : R :=
  sgr (negb (fst s)) * f (map plane (snd s)) + hsum f hs.
Lemma poly_nr hypot i x y W M p s hs : i32_arith i -> bp (-300) <= W <= bp 300 -> bp (-300) <= M <= bp 300 ->
  spts p = snd s -> hpts p = map snd hs -> rr x y W M s -> Forall (rr x y W M) hs ->
  forall n A X Y st, (Z.of_nat (n + npts (spts p :: hpts p)) <= 2 ^ 40)%Z -> (0 <= cn_count st)%Z -> (cn_count st + Z.of_nat (S (length (hpts p))) <= 2147483647)%Z ->
  ta n W M A X Y st ->
  exists st', add_polygon hypot i st p = Ok st' /\
    ta (n + npts (spts p :: hpts p)) W M (A + psum rarea2 s hs) (X + psum (rmoment6 fst) s hs) (Y + psum (rmoment6 snd) s hs) st' /\
    (0 <= cn_count st' <= cn_count st + Z.of_nat (S (length (hpts p))))%Z.
Proof.
  intros I HW HM Es Eh (Ccw & Cl & Fs) Fh n A X Y st Hn C0 C1 Ac. rewrite npts_cons in Hn. rewrite add_polygon_fold. rewrite npts_cons, Es, Eh in *. rewrite map_length in *.
  pose proof (closed_map_ne _ Cl) as Ne. destruct (snd s) as [|c0 t] eqn:Ec; [easy|].
  inversion Fs as [|? ? (Wc & Ic) _]; subst.
  rewrite (add_shell_eq hypot i st c0 t _ Ccw).
  assert (ta n W M A X Y (set_area_base_point st c0)) as A0 by exact Ac.
  pose proof (ring_nr x y W M c0 (negb (fst s)) (c0 :: t) HW HM Wc Ic Cl Fs n A X Y _ ltac:(lia) A0) as A1. cbv zeta in A1.
  destruct (tri_fold_keeps c0 (c0 :: t) (negb (fst s)) (set_area_base_point st c0)) as (K1 & _ & _ & K4 & _).
  destruct (add_lines_ok hypot i (tri_fold (set_area_base_point st c0) c0 (c0 :: t) (negb (fst s))) (c0 :: t)) as (st1 & E1 & B1 & A1' & G1 & Ct); [exact I|discriminate|rewrite K4; cbn [set_area_base_point cn_count]; lia|].
  rewrite K4 in Ct. cbn [set_area_base_point cn_count] in Ct. rewrite E1. cbn [bind].
  edestruct (holes_nr hypot i x y W M c0 hs I HW HM Wc Ic Fh (n + length (c0 :: t))%nat) with (st := st1) as (st2 & E2 & A2 & C2).
  - rewrite B1, K1. cbn. now rewrite from_coordinate_id.
  - lia.
  - lia.
  - lia.
  - unfold ta. rewrite A1', G1. exact A1.
  - exists st2. split; [exact E2|]. unfold psum. rewrite Ec, <- !Rplus_assoc, Nat.add_assoc. split; [exact A2|lia].
Qed.

(** The ring's area is not zero and the orientation test agrees with its sign. *)
Definition rturned (cs : list Coordinate) : Prop :=
  exists b, is_ccw_vec cs = Ok (Some b) /\ (if b then 0 < rarea2 (map plane cs) else rarea2 (map plane cs) < 0).
Definition good_ring (W M x y : R) (cs : list Coordinate) : Prop :=
  closed_chain (map plane cs) /\ Forall (pt_within M) cs /\ Forall (fun c => x <= R_of (cx c) <= x + W /\ y <= R_of (cy c) <= y + W) cs.
Lemma good_rr W M x y b cs : is_ccw_vec cs = Ok (Some b) -> good_ring W M x y cs -> rr x y W M (b, cs).
Proof.
  intros C (Cl & F1 & F2). split; [exact C|]. split; [exact Cl|]. cbn [snd]. clear C Cl. induction F1; inversion F2; subst; constructor; auto.
Qed.
Lemma turned_sum f g cs b : is_ccw_vec cs = Ok (Some b) -> rturned cs -> (forall l, g l = rsgn (rarea2 l) * f l) -> sgr b * f (map plane cs) = g (map plane cs).
Proof.
  intros C (b' & C' & H) G. rewrite C in C'. injection C' as <-. rewrite G. f_equal. unfold rsgn. destruct b; unfold sgr; destruct (Rlt_dec _ 0); lra.
Qed.
Lemma size_sgn l : rsize2 l = rsgn (rarea2 l) * rarea2 l.
Proof. unfold rsize2, rsgn. destruct (Rlt_dec _ 0); [rewrite Rabs_left; lra|rewrite Rabs_right; lra]. Qed.
Lemma rings_turned W M x y hs : Forall (good_ring W M x y) hs -> Forall rturned hs -> exists bs, map snd bs = hs /\ Forall (rr x y W M) bs /\
  forall f g, (forall l, g l = rsgn (rarea2 l) * f l) -> hsum f bs = rsum g (map (map plane) hs).
Proof.
  intros F T. induction F as [|h hs G F IH]; [exists []; repeat split; constructor|].
  inversion T as [|? ? Th T']; subst. destruct (IH T') as (bs & E & Fb & S). pose proof Th as (b & C & _). exists ((b, h) :: bs). cbn [map snd]. rewrite E. split; [reflexivity|].
  split; [constructor; [now apply good_rr|exact Fb]|]. intros f g Hg. unfold hsum. rewrite !rsum_cons. fold (hsum f bs). cbn [fst snd]. rewrite (S f g Hg), (turned_sum f g h b C Th Hg). reflexivity.
Qed.
Lemma psum_region f g s b bs hs : is_ccw_vec s = Ok (Some b) -> rturned s -> (forall l, g l = rsgn (rarea2 l) * f l) -> hsum f bs = rsum g (map (map plane) hs) ->
  psum f (b, s) bs = - rregion g (map plane s) (map (map plane) hs).
Proof.
  intros C T G H. unfold psum, rregion. cbn [fst snd]. rewrite H, <- (turned_sum f g s b C T G). destruct b; unfold sgr; cbn [negb]; ring.
Qed.
Lemma ta_start W M : ta 0 W M 0 0 0 cn_default.
Proof.
  unfold ta. cbn [INR]. rewrite !Rmult_0_l, !Rmult_0_r, !Rplus_0_r.
  assert (forall c, nr c 0 f0 0) as Z. { intros c. split; [reflexivity|]. change (R_of f0) with 0. rewrite Rminus_0_r, Rabs_R0. lra. }
  split; [apply Z|split; apply Z].
Qed.
Lemma ta_centroid N W M A X Y st : bp (-300) <= W <= bp 300 -> bp (-300) <= M <= bp 300 -> (0 < N)%nat -> (Z.of_nat N <= 2 ^ 40)%Z ->
  ta N W M A X Y st -> A <> 0 -> 8 * INR N * (INR N + 8) * u53 * (W * W) <= Rabs A ->
  let err := 8 * INR N * (INR N + 8) * u53 * (W * W) / Rabs A in
  exists c, cn_centroid st = Some c /\ fis_finite (cx c) = true /\ fis_finite (cy c) = true /\ cz c = fnan /\ cm c = fnan /\
    Rabs (R_of (cx c) - X / (3 * A)) <= err * (M + Rabs (X / (3 * A))) /\ Rabs (R_of (cy c) - Y / (3 * A)) <= err * (M + Rabs (Y / (3 * A))).
Proof.
  intros HW HM N0 N1 (Na & Nx & Ny) NA K. cbv zeta.
  destruct (final_div N W M A X _ _ HW HM N0 N1 Nx Na NA K) as (F1 & E1 & T). destruct (final_div N W M A Y _ _ HW HM N0 N1 Ny Na NA K) as (F2 & E2 & _). cbv zeta in *.
  unfold cn_centroid. rewrite T. eexists. split; [reflexivity|]. cbn [new_xy cx cy cz cm]. auto 10.
Qed.
(** How far the centroid of a region given by N points in a square of side [W], with twice the area [A], may be out, relative to the size of the ordinates. *)
Definition region_error (N : nat) (W A : R) : R := 8 * INR N * (INR N + 8) * u53 * (W * W) / Rabs A.
Lemma region_error_le N W A : A <> 0 -> region_error N W A <= 1 -> 8 * INR N * (INR N + 8) * u53 * (W * W) <= Rabs A.
Proof.
  intros NA H. pose proof (Rabs_pos_lt A NA) as P. unfold region_error in H. apply Rmult_le_reg_r with (/ Rabs A); [now apply Rinv_0_lt_compat|]. rewrite Rinv_r by lra. exact H.
Qed.
(** Polygons with holes, at arbitrary doubles. *)
Theorem C69_polygon_error : forall hypot i W M x y p, i32_arith i -> bp (-300) <= W <= bp 300 -> bp (-300) <= M <= bp 300 ->
  Forall (good_ring W M x y) (spts p :: hpts p) -> Forall rturned (spts p :: hpts p) ->
  let N := npts (spts p :: hpts p) in (Z.of_nat N <= 2 ^ 40)%Z -> (Z.of_nat (S (length (hpts p))) <= 2147483647)%Z ->
  let R f := rregion f (map plane (spts p)) (map (map plane) (hpts p)) in
  R rsize2 <> 0 -> region_error N W (R rsize2) <= 1 ->
  let Cx := R (rweight6 fst) / (3 * R rsize2) in let Cy := R (rweight6 snd) / (3 * R rsize2) in
  exists c, centroid_of_polygon hypot i p = Ok (Some c) /\ fis_finite (cx c) = true /\ fis_finite (cy c) = true /\ cz c = fnan /\ cm c = fnan /\
    Rabs (R_of (cx c) - Cx) <= region_error N W (R rsize2) * (M + Rabs Cx) /\ Rabs (R_of (cy c) - Cy) <= region_error N W (R rsize2) * (M + Rabs Cy).
Proof.
  intros hypot i W M x y p I HW HM FG FT N HN HR R NA K Cx Cy. inversion FG as [|? ? Gs Gh]; subst. inversion FT as [|? ? Ts Th]; subst.
  pose proof Ts as (b & Cb & _). destruct (rings_turned W M x y _ Gh Th) as (bs & Eb & Fb & Sb).
  destruct (poly_nr hypot i x y W M p (b, spts p) bs I HW HM eq_refl (eq_sym Eb) (good_rr _ _ _ _ _ _ Cb Gs) Fb 0%nat 0 0 0 cn_default HN ltac:(cbn; lia) ltac:(cbn [cn_default cn_count]; lia) (ta_start W M)) as (st & E & Ac & _).
  rewrite Nat.add_0_l, !Rplus_0_l in Ac. fold N in Ac.
  rewrite (psum_region rarea2 rsize2 (spts p) b bs (hpts p) Cb Ts size_sgn (Sb _ _ size_sgn)) in Ac.
  rewrite (psum_region (rmoment6 fst) (rweight6 fst) (spts p) b bs (hpts p) Cb Ts (fun l => eq_refl) (Sb _ _ (fun l => eq_refl))) in Ac.
  rewrite (psum_region (rmoment6 snd) (rweight6 snd) (spts p) b bs (hpts p) Cb Ts (fun l => eq_refl) (Sb _ _ (fun l => eq_refl))) in Ac.
  fold (R rsize2) (R (rweight6 fst)) (R (rweight6 snd)) in Ac.
  assert (0 < N)%nat as N0.
  { unfold N. rewrite npts_cons. destruct Gs as (Cl & _). pose proof (closed_map_ne _ Cl) as Ne. destruct (spts p); [easy|cbn; lia]. }
  destruct (ta_centroid N W M _ _ _ st HW HM N0 HN Ac) as (c & Ec & F1 & F2 & Ez & Em & E1 & E2).
  - intros E0. apply NA. lra.
  - rewrite Rabs_Ropp. now apply region_error_le.
  - unfold centroid_of_polygon, cn_of_polygon. rewrite E. cbn [bind]. exists c. rewrite Ec. split; [reflexivity|]. rewrite Rabs_Ropp in E1, E2.
    replace (- R (rweight6 fst) / (3 * - R rsize2)) with Cx in E1 by (unfold Cx; field; exact NA).
    replace (- R (rweight6 snd) / (3 * - R rsize2)) with Cy in E2 by (unfold Cy; field; exact NA). auto 10.
Qed.
(** A ring alone: the orientation test does not matter. *)
Theorem C69_ring_error : forall hypot i W M x y p, i32_arith i -> bp (-300) <= W <= bp 300 -> bp (-300) <= M <= bp 300 ->
  good_ring W M x y (spts p) -> hpts p = [] ->
  let N := length (spts p) in (Z.of_nat N <= 2 ^ 40)%Z ->
  let A := rarea2 (map plane (spts p)) in A <> 0 -> region_error N W A <= 1 ->
  let Cx := rmoment6 fst (map plane (spts p)) / (3 * A) in let Cy := rmoment6 snd (map plane (spts p)) / (3 * A) in
  exists c, centroid_of_polygon hypot i p = Ok (Some c) /\ fis_finite (cx c) = true /\ fis_finite (cy c) = true /\ cz c = fnan /\ cm c = fnan /\
    Rabs (R_of (cx c) - Cx) <= region_error N W A * (M + Rabs Cx) /\ Rabs (R_of (cy c) - Cy) <= region_error N W A * (M + Rabs Cy).
Proof.
  intros hypot i W M x y p I HW HM G Eh N HN A NA K Cx Cy. pose proof (closed_map_ne _ (proj1 G)) as Ne.
  destruct (C46_vec_returns _ Ne) as (b & Cb).
  assert (npts (spts p :: hpts p) = N) as EN by (rewrite Eh, npts_cons; unfold npts; cbn; unfold N; lia).
  destruct (poly_nr hypot i x y W M p (b, spts p) [] I HW HM eq_refl Eh (good_rr _ _ _ _ _ _ Cb G) (Forall_nil _) 0%nat 0 0 0 cn_default) as (st & E & Ac & _).
  { rewrite Nat.add_0_l, EN. exact HN. } { cbn. lia. } { rewrite Eh. cbn. lia. } { apply ta_start. }
  rewrite Nat.add_0_l, !Rplus_0_l, EN in Ac. unfold psum, hsum, rsum in Ac. cbn [map fold_right fst snd] in Ac. rewrite !Rplus_0_r in Ac. fold A in Ac.
  set (s := sgr (negb b)) in *. assert (s = 1 \/ s = -1) as Hs by (unfold s; destruct b; auto).
  assert (Rabs (s * A) = Rabs A) as As.
  { destruct Hs as [Hs|Hs]; rewrite Hs; [now rewrite Rmult_1_l|]. replace (-1 * A) with (- A) by ring. apply Rabs_Ropp. }
  assert (0 < N)%nat as N0 by (unfold N; destruct (spts p); [easy|cbn; lia]).
  destruct (ta_centroid N W M _ _ _ st HW HM N0 HN Ac) as (c & Ec & F1 & F2 & Ez & Em & E1 & E2).
  - intros E0. destruct Hs as [Hs|Hs]; rewrite Hs in E0; apply NA; lra.
  - rewrite As. now apply region_error_le.
  - unfold centroid_of_polygon, cn_of_polygon. rewrite E. cbn [bind]. exists c. rewrite Ec. split; [reflexivity|]. rewrite As in E1, E2.
    assert (forall m, s * m / (3 * (s * A)) = m / (3 * A)) as Q by (intros m; destruct Hs as [Hs|Hs]; rewrite Hs; field; exact NA).
    rewrite Q in E1, E2. auto 10.
Qed.
(** Several polygons: their areas and moments added up. *)
Definition all_points (m : GMPoly) : nat := npts (concat (map (fun p => spts p :: hpts p) (mg_polys m))).
Definition msum (f : list (R * R) -> R) (ps : list GPoly) : R := rsum (fun p => rregion f (map plane (spts p)) (map (map plane) (hpts p))) ps.
Lemma npts_app a b : npts (a ++ b) = (npts a + npts b)%nat.
Proof. unfold npts. now rewrite concat_app, app_length. Qed.
Lemma polys_nr hypot i x y W M ps : i32_arith i -> bp (-300) <= W <= bp 300 -> bp (-300) <= M <= bp 300 ->
  Forall (fun p => Forall (good_ring W M x y) (spts p :: hpts p) /\ Forall rturned (spts p :: hpts p)) ps ->
  let P := npts (concat (map (fun p => spts p :: hpts p) ps)) in let K := length (concat (map (fun p => spts p :: hpts p) ps)) in
  forall n A X Y st, (Z.of_nat (n + P) <= 2 ^ 40)%Z -> (0 <= cn_count st)%Z -> (cn_count st + Z.of_nat K <= 2147483647)%Z -> ta n W M A X Y st ->
  exists st', foldM (add_polygon hypot i) ps st = Ok st' /\
    ta (n + P) W M (A - msum rsize2 ps) (X - msum (rweight6 fst) ps) (Y - msum (rweight6 snd) ps) st'.
Proof.
  intros I HW HM. cbv zeta. induction ps as [|p ps IH]; intros F n A X Y st Hn C0 C1 Ac.
  - exists st. split; [reflexivity|]. unfold msum, rsum, npts. cbn [map concat fold_right length]. rewrite Nat.add_0_r, !Rminus_0_r. exact Ac.
  - inversion F as [|? ? (FG & FT) F']; subst. cbn [map concat foldM] in *. rewrite npts_app in *. rewrite app_length in C1.
    inversion FG as [|? ? Gs Gh]; subst. inversion FT as [|? ? Ts Th]; subst.
    pose proof Ts as (b & Cb & _). destruct (rings_turned W M x y _ Gh Th) as (bs & Eb & Fb & Sb).
    cbn [length] in C1.
    destruct (poly_nr hypot i x y W M p (b, spts p) bs I HW HM eq_refl (eq_sym Eb) (good_rr _ _ _ _ _ _ Cb Gs) Fb n A X Y st ltac:(lia) C0 ltac:(lia) Ac) as (st1 & E1 & A1 & C2).
    rewrite (psum_region rarea2 rsize2 (spts p) b bs (hpts p) Cb Ts size_sgn (Sb _ _ size_sgn)) in A1.
    rewrite (psum_region (rmoment6 fst) (rweight6 fst) (spts p) b bs (hpts p) Cb Ts (fun l => eq_refl) (Sb _ _ (fun l => eq_refl))) in A1.
    rewrite (psum_region (rmoment6 snd) (rweight6 snd) (spts p) b bs (hpts p) Cb Ts (fun l => eq_refl) (Sb _ _ (fun l => eq_refl))) in A1.
    destruct (IH F' (n + npts (spts p :: hpts p))%nat _ _ _ st1 ltac:(lia) ltac:(lia) ltac:(lia) A1) as (st2 & E2 & A2).
    exists st2. rewrite E1. cbn [bind]. split; [exact E2|]. unfold msum. rewrite !rsum_cons. fold (msum rsize2 ps) (msum (rweight6 fst) ps) (msum (rweight6 snd) ps).
    rewrite Nat.add_assoc. assert (forall u v w, u - (v + w) = u + - v - w) as Q by (intros; ring). rewrite !Q. exact A2.
Qed.
Theorem C69_multi_polygon_error : forall hypot i W M x y m, i32_arith i -> bp (-300) <= W <= bp 300 -> bp (-300) <= M <= bp 300 ->
  Forall (fun p => Forall (good_ring W M x y) (spts p :: hpts p) /\ Forall rturned (spts p :: hpts p)) (mg_polys m) ->
  let N := all_points m in (Z.of_nat N <= 2 ^ 40)%Z -> (Z.of_nat (length (concat (map (fun p => spts p :: hpts p) (mg_polys m)))) <= 2147483647)%Z ->
  let A := msum rsize2 (mg_polys m) in A <> 0 -> region_error N W A <= 1 ->
  let Cx := msum (rweight6 fst) (mg_polys m) / (3 * A) in let Cy := msum (rweight6 snd) (mg_polys m) / (3 * A) in
  exists c, centroid_of_multi_polygon hypot i m = Ok (Some c) /\ fis_finite (cx c) = true /\ fis_finite (cy c) = true /\ cz c = fnan /\ cm c = fnan /\
    Rabs (R_of (cx c) - Cx) <= region_error N W A * (M + Rabs Cx) /\ Rabs (R_of (cy c) - Cy) <= region_error N W A * (M + Rabs Cy).
Proof.
  intros hypot i W M x y m I HW HM F N HN HR A NA K Cx Cy.
  destruct (polys_nr hypot i x y W M (mg_polys m) I HW HM F 0%nat 0 0 0 cn_default HN ltac:(cbn; lia) ltac:(cbn [cn_default cn_count]; lia) (ta_start W M)) as (st & E & Ac).
  rewrite Nat.add_0_l, !Rminus_0_l in Ac. fold (all_points m) N in Ac. fold A in Ac.
  assert (0 < N)%nat as N0.
  { unfold N, all_points. destruct (mg_polys m) as [|p ps] eqn:Ep; [exfalso; apply NA; reflexivity|]. inversion F as [|? ? (FG & _) _]; subst. inversion FG as [|? ? (Cl & _) _]; subst.
    cbn [map concat app]. rewrite npts_cons. pose proof (closed_map_ne _ Cl) as Ne. destruct (spts p); [easy|cbn; lia]. }
  destruct (ta_centroid N W M _ _ _ st HW HM N0 HN Ac) as (c & Ec & F1 & F2 & Ez & Em & E1 & E2).
  - intros E0. apply NA. lra.
  - rewrite Rabs_Ropp. now apply region_error_le.
  - unfold centroid_of_multi_polygon. rewrite multi_fold, E. cbn [bind]. exists c. rewrite Ec. split; [reflexivity|]. rewrite Rabs_Ropp in E1, E2.
    replace (- msum (rweight6 fst) (mg_polys m) / (3 * - A)) with Cx in E1 by (unfold Cx; field; exact NA).
    replace (- msum (rweight6 snd) (mg_polys m) / (3 * - A)) with Cy in E2 by (unfold Cy; field; exact NA). auto 10.
Qed.

(** A triangle on no grid, as a ring and as a line. *)
Definition thirds_poly : GPoly := mkPoly (mkRg (seq_of thirds) None None) [] None None.
Example C69_error_example : Forall (pt_within 1) thirds /\ good_ring (/ 2) 1 0 0 (spts thirds_poly) /\ rturned (spts thirds_poly) /\
  rarea2 (map plane thirds) <> 0 /\ region_error (length thirds) (/ 2) (rarea2 (map plane thirds)) <= / 1024 /\
  (exists c, centroid_of_polygon hypot_nearest i32_chk thirds_poly = Ok (Some c) /\ fis_finite (cx c) = true) /\ 0 < path_length (map plane thirds).
Proof.
  destruct third_val as [F3 V3]. destruct seventh_val as [F7 V7].
  assert (Forall (pt_within 1) thirds) as W1.
  { unfold thirds. assert (Rabs (R_of f0) <= 1) by (change (R_of f0) with 0; rewrite Rabs_R0; lra).
    assert (Rabs (R_of (oneth 3)) <= 1) by (rewrite Rabs_pos_eq; lra). assert (Rabs (R_of (oneth 7)) <= 1) by (rewrite Rabs_pos_eq; lra).
    repeat (apply Forall_cons; [split; [assumption || reflexivity|split; [assumption || reflexivity|split; assumption]]|]). apply Forall_nil. }
  assert (good_ring (/ 2) 1 0 0 thirds) as G1.
  { split; [eexists (plane (new_xy f0 f0)), [_; _]; reflexivity|]. split; [exact W1|]. unfold thirds.
    repeat (apply Forall_cons; [cbn [new_xy cx cy]; change (R_of f0) with 0; lra|]). apply Forall_nil. }
  assert (rarea2 (map plane thirds) = R_of (oneth 3) * R_of (oneth 7)) as Ea.
  { unfold thirds, rarea2, rcross. cbn [map rsteps]. unfold plane. cbn [new_xy cx cy fst snd]. change (R_of f0) with 0. ring. }
  assert (/ 32 <= rarea2 (map plane thirds)) as La by (rewrite Ea; nra).
  assert (region_error (length thirds) (/ 2) (rarea2 (map plane thirds)) <= / 1024) as Er.
  { unfold region_error. rewrite Rabs_pos_eq by lra. cbn [thirds length INR].
    assert (bp (-53) <= / 65536 / 65536) by (change (/ 65536 / 65536) with (/ bp 16 * / bp 16); rewrite <- !bpow_opp, <- bpow_plus; apply bpow_le; lia). pose proof u53_pos.
    apply Rmult_le_reg_r with (rarea2 (map plane thirds)); [lra|]. unfold Rdiv. rewrite Rmult_assoc, Rinv_l, Rmult_1_r by lra. lra. }
  assert (rturned thirds) as T1.
  { exists true. split; [|lra]. assert (match is_ccw_vec thirds with Ok (Some b) => b | _ => false end = true) as V by (vm_compute; reflexivity).
    destruct (is_ccw_vec thirds) as [[[]|]|]; try discriminate V. reflexivity. }
  split; [exact W1|]. split; [exact G1|]. split; [exact T1|]. split; [lra|]. split; [exact Er|]. split.
  - destruct (C69_ring_error hypot_nearest i32_chk (/ 2) 1 0 0 thirds_poly) as (c & E & F & _).
    + now left.
    + assert (bp (-300) <= bp (-1)) by (apply bpow_le; lia). change (bp (-1)) with (/ 2) in *. assert (bp 0 <= bp 300) by (apply bpow_le; lia). change (bp 0) with 1 in *. lra.
    + assert (bp (-300) <= bp 0) by (apply bpow_le; lia). assert (bp 0 <= bp 300) by (apply bpow_le; lia). change (bp 0) with 1 in *. lra.
    + exact G1.
    + reflexivity.
    + cbn. lia.
    + change (spts thirds_poly) with thirds. lra.
    + change (spts thirds_poly) with thirds. lra.
    + exists c. now split.
  - destruct C48_error_example as (_ & _ & _ & H). lra.
Qed.
