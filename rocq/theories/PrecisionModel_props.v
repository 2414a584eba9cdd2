(** C57, C58: precision models. *)
From Coq Require Import ZArith Reals Bool Lia Lra Psatz.
From Flocq Require Import Core IEEE754.BinarySingleNaN.
From Verif Require Import Base F64 F64Facts F64Round F64Err NumLink Coordinate_model PrecisionModel_model PrecisionModel_proofs.
Local Open Scope R_scope.

(** The models [new_with_scale] makes: by scale factor, or by grid size when
    given as a negative scale. *)
Lemma new_scaled s : fltb s f0 = false -> scaled (pm_new_with_scale s) (fabs s).
Proof. intros H. unfold scaled, pm_new_with_scale, pm_set_scale. rewrite H. cbn. tauto. Qed.
Lemma new_gridded s : fltb s f0 = true -> gridded (pm_new_with_scale s) (fabs s).
Proof.
  intros H. unfold gridded, pm_new_with_scale, pm_set_scale. rewrite H. cbn. split; [reflexivity |]. split; [reflexivity |].
  destruct (fltb_nn _ _ H) as [N _]. rewrite fltb_rank in H by (try exact N; reflexivity). apply Z.ltb_lt in H. change (rank f0) with 0%Z in H.
  unfold fgtb. rewrite fltb_rank by (try (apply nn_fabs; exact N); reflexivity). rewrite rank_fabs. apply Z.ltb_lt. change (rank f0) with 0%Z. lia.
Qed.

(** C57: rounding is idempotent. *)
Theorem C57_idempotent : forall s v, fis_finite s = true -> bp (-900) <= Rabs (R_of s) <= bp 900 -> fis_finite v = true ->
  (0 < R_of s -> Rabs (R_of v * R_of s) <= bp 50) -> (R_of s < 0 -> Rabs (R_of v / R_of s) <= bp 50) ->
  let pm := pm_new_with_scale s in
  fis_finite (make_precise pm v) = true /\ feqb (make_precise pm (make_precise pm v)) (make_precise pm v) = true.
Proof.
  intros s v Fs Hs Fv H1 H2. cbv zeta.
  assert (M : moderate (fabs s)) by (split; [rewrite fabs_fin; exact Fs | rewrite fabs_R; exact Hs]).
  assert (RS : R_of (fabs s) = Rabs (R_of s)) by apply fabs_R.
  assert (D : R_of s < 0 \/ 0 < R_of s).
  { pose proof (bpow_gt_0 radix2 (-900)). destruct (Rlt_dec (R_of s) 0); [tauto |]. right.
    destruct (Req_dec (R_of s) 0) as [Z | Z]; [rewrite Z, Rabs_R0 in Hs; lra | lra]. }
  destruct D as [D | D].
  - assert (G : gridded (pm_new_with_scale s) (fabs s)) by (apply new_gridded; rewrite fltb_R, R_of_f0 by (try exact Fs; reflexivity); apply Rlt_bool_true; exact D).
    destruct (gridded_value _ _ v G M Fv) as (n & Hn & _ & F & E).
    { rewrite RS, (Rabs_left (R_of s)) by exact D. unfold Rdiv. rewrite Rinv_opp, <- Ropp_mult_distr_r, Rabs_Ropp. apply H2, D. }
    split; [exact F |]. destruct (mp_fix_g _ _ _ n G M F Hn E) as [E2 F2]. rewrite feqb_R by assumption. rewrite E2. apply Req_bool_true. reflexivity.
  - assert (G : scaled (pm_new_with_scale s) (fabs s)) by (apply new_scaled; rewrite fltb_R, R_of_f0 by (try exact Fs; reflexivity); apply Rlt_bool_false; lra).
    destruct (scaled_value _ _ v G M Fv) as (n & Hn & _ & F & E).
    { rewrite RS, (Rabs_pos_eq (R_of s)) by lra. apply H1, D. }
    split; [exact F |]. destruct (mp_fix _ _ _ n G M F Hn E) as [E2 F2]. rewrite feqb_R by assumption. rewrite E2. apply Req_bool_true. reflexivity.
Qed.
(** The result is the double nearest to a grid value [n / scale], or [n * grid],
    next to the argument: within half a step, up to the rounding of the
    scaled argument. *)
Theorem C57_nearest : forall s v, fis_finite s = true -> bp (-900) <= R_of s <= bp 900 -> fis_finite v = true ->
  Rabs (R_of v * R_of s) <= bp 50 ->
  exists n, R_of (make_precise (pm_new_with_scale s) v) = RN (IZR n / R_of s) /\
    Rabs (IZR n - R_of v * R_of s) <= / 2 + u53 * Rabs (R_of v * R_of s) + bp (-1075).
Proof.
  intros s v Fs Hs Fv H. pose proof (bpow_gt_0 radix2 (-900)) as B.
  assert (RS : R_of (fabs s) = R_of s) by (rewrite fabs_R; apply Rabs_pos_eq; lra).
  assert (G : scaled (pm_new_with_scale s) (fabs s)) by (apply new_scaled; rewrite fltb_R, R_of_f0 by (try exact Fs; reflexivity); apply Rlt_bool_false; lra).
  assert (M : moderate (fabs s)) by (split; [rewrite fabs_fin; exact Fs | rewrite RS; exact Hs]).
  destruct (scaled_value _ _ v G M Fv) as (n & _ & En & _ & E); [rewrite RS; exact H |]. rewrite RS in *.
  exists n. split; [exact E |]. rewrite En.
  set (r := R_of v * R_of s) in *. replace (IZR (ZnearestA (RN r)) - r) with ((IZR (ZnearestA (RN r)) - RN r) + (RN r - r)) by ring.
  eapply Rle_trans; [apply Rabs_triang |]. pose proof (znear_dist (RN r)). pose proof (RN_err r). lra.
Qed.
Theorem C57_nearest_grid : forall s v, fis_finite s = true -> bp (-900) <= - R_of s <= bp 900 -> fis_finite v = true ->
  Rabs (R_of v / R_of s) <= bp 50 ->
  exists n, R_of (make_precise (pm_new_with_scale s) v) = RN (IZR n * - R_of s) /\
    Rabs (IZR n - R_of v / - R_of s) <= / 2 + u53 * Rabs (R_of v / R_of s) + bp (-1075).
Proof.
  intros s v Fs Hs Fv H. pose proof (bpow_gt_0 radix2 (-900)) as B.
  assert (RS : R_of (fabs s) = - R_of s) by (rewrite fabs_R; apply Rabs_left; lra).
  assert (G : gridded (pm_new_with_scale s) (fabs s)) by (apply new_gridded; rewrite fltb_R, R_of_f0 by (try exact Fs; reflexivity); apply Rlt_bool_true; lra).
  assert (M : moderate (fabs s)) by (split; [rewrite fabs_fin; exact Fs | rewrite RS; exact Hs]).
  assert (EA : Rabs (R_of v / - R_of s) = Rabs (R_of v / R_of s)) by (unfold Rdiv; rewrite Rinv_opp, <- Ropp_mult_distr_r, Rabs_Ropp; reflexivity).
  destruct (gridded_value _ _ v G M Fv) as (n & _ & En & _ & E); [rewrite RS, EA; exact H |]. rewrite RS in *.
  exists n. split; [exact E |]. rewrite En, <- EA.
  set (r := R_of v / - R_of s) in *. replace (IZR (ZnearestA (RN r)) - r) with ((IZR (ZnearestA (RN r)) - RN r) + (RN r - r)) by ring.
  eapply Rle_trans; [apply Rabs_triang |]. pose proof (znear_dist (RN r)). pose proof (RN_err r). lra.
Qed.
(** Rounding keeps the order of all values, infinities included. *)
Theorem C57_monotone : forall pm s v w, (scaled pm s \/ gridded pm s) -> fis_finite s = true -> 0 < R_of s ->
  fleb v w = true -> fleb (make_precise pm v) (make_precise pm w) = true.
Proof.
  intros pm s v w Hs Fs P L. destruct (fleb_nn _ _ L) as [Nv Nw]. rewrite fleb_rank in L by assumption. apply Z.leb_le in L.
  assert (PS : posf s) by (split; assumption).
  destruct Hs as [Hs | Hs].
  - rewrite !(mp_scaled pm s) by assumption.
    destruct (fmul_le v w s PS Nv Nw L) as [N1 L1]. destruct (fmul_le w w s PS Nw Nw (Z.le_refl _)) as [N2 _].
    pose proof (fround_le _ _ N1 N2 L1) as L2.
    destruct (fdiv_le _ _ s PS (fround_nn _ N1) (fround_nn _ N2) L2) as [N3 L3].
    destruct (fdiv_le _ _ s PS (fround_nn _ N2) (fround_nn _ N2) (Z.le_refl _)) as [N4 _].
    rewrite fleb_rank by assumption. apply Z.leb_le. exact L3.
  - rewrite !(mp_gridded pm s) by assumption.
    destruct (fdiv_le v w s PS Nv Nw L) as [N1 L1]. destruct (fdiv_le w w s PS Nw Nw (Z.le_refl _)) as [N2 _].
    pose proof (fround_le _ _ N1 N2 L1) as L2.
    destruct (fmul_le _ _ s PS (fround_nn _ N1) (fround_nn _ N2) L2) as [N3 L3].
    destruct (fmul_le _ _ s PS (fround_nn _ N2) (fround_nn _ N2) (Z.le_refl _)) as [N4 _].
    rewrite fleb_rank by assumption. apply Z.leb_le. exact L3.
Qed.
(** Floating models change nothing; NaN is never changed. *)
Theorem C57_unchanged : forall pm v, pm_is_floating pm = true \/ fis_nan v = true -> make_precise pm v = v.
Proof.
  intros pm v [H | H]; unfold make_precise.
  - unfold pm_is_floating in H. destruct (fis_nan v); [reflexivity |]. destruct (pm_type pm); cbn in *; try reflexivity. discriminate.
  - rewrite H. reflexivity.
Qed.
(** Coordinates: X and Y are rounded, Z and M kept. *)
Theorem C57_coordinate : forall pm c, let c' := make_precise_coordinate pm c in
  cx c' = make_precise pm (cx c) /\ cy c' = make_precise pm (cy c) /\ cz c' = cz c /\ cm c' = cm c.
Proof.
  intros pm c. unfold make_precise_coordinate. destruct (pmt_eqb (pm_type pm) Floating) eqn:E; cbn [set_x set_y cx cy cz cm]; [| tauto].
  rewrite !C57_unchanged by (left; unfold pm_is_floating; rewrite E; reflexivity). tauto.
Qed.
(** Setting the scale keeps the kind; a positive scale clears the grid size, a
    negative one is the grid size itself and its inverse the scale. *)
Theorem C57_set_scale : forall pm s, let pm' := pm_set_scale pm s in
  pm_type pm' = pm_type pm /\
  (fltb s f0 = false -> pm_scale pm' = fabs s /\ pm_grid pm' = f0) /\
  (fltb s f0 = true -> pm_grid pm' = fabs s /\ pm_scale pm' = fdiv f1 (fabs s) /\ fltb f0 (pm_grid pm') = true).
Proof.
  intros pm s. cbv zeta. unfold pm_set_scale. destruct (fltb s f0) eqn:L; cbn [pm_type pm_scale pm_grid]; repeat split; try discriminate.
  destruct (fltb_nn _ _ L) as [N _]. rewrite fltb_rank in * by (try apply nn_fabs; try exact N; reflexivity). rewrite rank_fabs. change (rank f0) with 0%Z in *. apply Z.ltb_lt in L. apply Z.ltb_lt. lia.
Qed.
(** A copy has the same kind, scale and grid, so it rounds alike. *)
Theorem C57_copy : forall pm v c, make_precise (pm_from pm) v = make_precise pm v /\
  make_precise_coordinate (pm_from pm) c = make_precise_coordinate pm c /\ pm_grid_size (pm_from pm) = pm_grid_size pm.
Proof. now intros []. Qed.
(** The grid size: the one given, else 1/scale; NaN when floating. *)
Theorem C57_grid_size : forall pm s, fis_finite s = true ->
  (pm_is_floating pm = true -> fis_nan (pm_grid_size pm) = true) /\
  (0 < R_of s -> pm_grid_size (pm_new_with_scale s) = fdiv f1 (fabs s)) /\
  (R_of s < 0 -> pm_grid_size (pm_new_with_scale s) = fabs s).
Proof.
  intros pm s F. split; [|split].
  - intros H. unfold pm_grid_size. now rewrite H.
  - intros P. unfold pm_grid_size, pm_new_with_scale, pm_set_scale. rewrite fltb_R by (assumption || reflexivity). change (R_of f0) with 0. rewrite Rlt_bool_false by lra. reflexivity.
  - intros P. unfold pm_grid_size, pm_new_with_scale, pm_set_scale. rewrite fltb_R by (assumption || reflexivity). change (R_of f0) with 0. rewrite Rlt_bool_true by lra.
    cbn [pm_is_floating pm_type pmt_eqb orb pm_grid pm_scale]. unfold fneb. rewrite feqb_R by (rewrite ?fabs_fin; assumption || reflexivity). change (R_of f0) with 0.
    rewrite fabs_R, Req_bool_false; [reflexivity|]. rewrite Rabs_left; lra.
Qed.
(** Without a bound rounding can leave the doubles. *)
Theorem C57_overflow_refuted : exists s v, fis_finite s = true /\ fis_finite v = true /\
  fis_infinite (make_precise (pm_new_with_scale s) v) = true.
Proof.
  exists (fofZ 10), (mkf 1 1023). split; [reflexivity |]. split; [reflexivity |]. vm_compute. reflexivity.
Qed.
Example C57_example : let pm := pm_new_with_scale (fofZ 100) in let v := fdiv (fofZ 31415926) (fofZ 10000000) in
  scaled pm (fofZ 100) /\ feqb (make_precise pm v) (fdiv (fofZ 314) (fofZ 100)) = true /\
  feqb (make_precise (pm_new_with_scale (fofZ (-1000))) (fofZ 1500)) (fofZ 2000) = true /\
  bp (-900) <= R_of (fofZ 100) <= bp 900.
Proof.
  cbv zeta. split; [apply (new_scaled (fofZ 100)); vm_compute; reflexivity |].
  split; [vm_compute; reflexivity |]. split; [vm_compute; reflexivity |].
  assert (E : R_of (fofZ 100) = 100) by (destruct (grid_fofZ 100 ltac:(lia)) as [_ E]; rewrite E; cbn; ring). rewrite E.
  assert (bp (-900) <= bp 0) by (apply bpow_le; lia). assert (bp 7 <= bp 900) by (apply bpow_le; lia).
  assert (E0 : bp 0 = 1) by reflexivity. assert (E7 : bp 7 = 128) by (cbn; ring). lra.
Qed.

(** C58: halves are rounded away from zero, *)
Lemma half_val n : (Z.abs n <= 2 ^ 50)%Z -> let v := mkf (2 * n + 1) (-1) in
  fis_finite v = true /\ R_of v = IZR n + / 2.
Proof.
  intros Hn. destruct (grid_mkf (2 * n + 1) (-1)) as [F E]; [lia | lia |]. split; [exact F |]. rewrite E.
  rewrite plus_IZR, mult_IZR. change (bp (-1)) with (/ 2). lra.
Qed.
Lemma one_exact : R_of f1 = 1 /\ scaled (pm_new_with_type Fixed) f1.
Proof. split; [apply R_of_f1 |]. unfold scaled. cbn. split; [reflexivity |]. split; reflexivity. Qed.
Lemma fixed_one v : fis_finite v = true -> Rabs (R_of v) <= bp 50 ->
  fis_finite (make_precise (pm_new_with_type Fixed) v) = true /\
  R_of (make_precise (pm_new_with_type Fixed) v) = IZR (ZnearestA (R_of v)).
Proof.
  intros Fv B. destruct one_exact as [E1 S1].
  assert (M : moderate f1) by (split; [reflexivity |]; rewrite E1; split; [apply (bpow_le radix2 (-900) 0); lia | apply (bpow_le radix2 0 900); lia]).
  destruct (scaled_value _ _ v S1 M Fv) as (n & Hn & En & F & E); [rewrite E1, Rmult_1_r; exact B |].
  split; [exact F |]. rewrite E, E1. unfold Rdiv. rewrite Rinv_1, Rmult_1_r, E1, Rmult_1_r in *. rewrite (RN_id (R_of v) (format_R v)) in En.
  rewrite <- En. rewrite <- (Rmult_1_r (IZR n)). change 1 with (bp 0). rewrite grid_RN; [reflexivity | lia | lia].
Qed.
Theorem C58_half_away : forall n, (Z.abs n <= 2 ^ 49)%Z ->
  R_of (make_precise (pm_new_with_type Fixed) (mkf (2 * n + 1) (-1))) = if (0 <=? n)%Z then IZR n + 1 else IZR n.
Proof.
  intros n Hn. destruct (half_val n ltac:(lia)) as [F E].
  destruct (fixed_one _ F) as [_ R].
  - rewrite E. eapply Rle_trans; [apply Rabs_triang |]. pose proof (izr_bound n 49 ltac:(lia) Hn).
    rewrite (Rabs_pos_eq (/ 2)) by lra. replace (bp 50) with (2 * bp 49) by (symmetry; apply (bp_S 49)).
    assert (bp 0 <= bp 49) by (apply bpow_le; lia). assert (E0 : bp 0 = 1) by reflexivity. lra.
  - rewrite R, E. unfold Znearest. assert (FL : Zfloor (IZR n + / 2) = n) by (apply Zfloor_imp; rewrite plus_IZR; lra).
    rewrite FL. replace (IZR n + / 2 - IZR n) with (/ 2) by ring. rewrite Rcompare_Eq by reflexivity.
    destruct (0 <=? n)%Z eqn:S; [| reflexivity].
    assert (CL : Zceil (IZR n + / 2) = (n + 1)%Z) by (apply Zceil_imp; rewrite minus_IZR, plus_IZR; lra).
    rewrite CL, plus_IZR. reflexivity.
Qed.
(** so the documented uniform rounding fails: shifting by one step does not shift the result. *)
Theorem C58_uniform_refuted : exists v w, R_of w = R_of v + 1 /\
  R_of (make_precise (pm_new_with_type Fixed) w) <> R_of (make_precise (pm_new_with_type Fixed) v) + 1.
Proof.
  exists (mkf (2 * -1 + 1) (-1)), (mkf (2 * 0 + 1) (-1)).
  destruct (half_val (-1) ltac:(lia)) as [_ E1]. destruct (half_val 0 ltac:(lia)) as [_ E2].
  split; [rewrite E1, E2; lra |]. rewrite !C58_half_away by lia. cbn [Z.leb Z.compare]. lra.
Qed.
(** Single-precision models do not round to single precision: 2^24 + 1 is kept. *)
Definition single (r : R) : Prop := generic_format radix2 (FLT_exp (-149) 24) r.
Lemma not_single : ~ single 16777217.
Proof.
  intros H. apply FLT_format_generic in H; [| reflexivity]. destruct H as [[m e] E Hm _]. cbn in E, Hm. unfold F2R in E. cbn in E.
  destruct (Z_le_gt_dec e 0) as [L | G].
  - assert (bp e <= 1) by (apply (bpow_le radix2 e 0); lia). pose proof (bpow_gt_0 radix2 e).
    assert (IZR m <= 16777216) by (apply IZR_le; lia). nra.
  - assert (EZ : (16777217 = m * 2 ^ e)%Z).
    { apply eq_IZR. rewrite mult_IZR. rewrite E. f_equal. symmetry. apply (IZR_Zpower radix2 e). lia. }
    replace e with (e - 1 + 1)%Z in EZ by lia. rewrite Z.pow_add_r in EZ by lia. change (2 ^ 1)%Z with 2%Z in EZ.
    assert (16777217 mod 2 = 0)%Z by (rewrite EZ, Z.mul_assoc; apply Z.mod_mul; lia). discriminate.
Qed.
Theorem C58_single_refuted : exists v, fis_finite v = true /\
  ~ single (R_of (make_precise (pm_new_with_type FloatingSingle) v)).
Proof.
  exists (fofZ 16777217). split; [reflexivity |]. rewrite C57_unchanged by (left; reflexivity).
  destruct (grid_fofZ 16777217 ltac:(lia)) as [_ E]. rewrite E. cbn [bpow]. rewrite Rmult_1_r. exact not_single.
Qed.
(** A model equals itself exactly when its scale is a number, so floating ones never do. *)
Theorem C58_equals_self : forall pm, pm_equals pm pm = true <-> nn (pm_scale pm).
Proof.
  intros pm. unfold pm_equals. assert (pmt_eqb (pm_type pm) (pm_type pm) = true) as -> by (destruct (pm_type pm); reflexivity). cbn [andb].
  split; [intros H; apply (feqb_nn _ _ H) |]. intros N. rewrite feqb_rank by exact N. apply Z.eqb_refl.
Qed.
(** Two models are equal exactly when they are of one kind and their scales are
    the same number; the two zeros are one number, NaN is none. *)
Theorem C58_equals : forall a b, pm_equals a b = true <->
  pm_type a = pm_type b /\ nn (pm_scale a) /\ nn (pm_scale b) /\
  (pm_scale a = pm_scale b \/ exists s t, pm_scale a = B754_zero s /\ pm_scale b = B754_zero t).
Proof.
  intros a b. unfold pm_equals. rewrite andb_true_iff.
  assert (pmt_eqb (pm_type a) (pm_type b) = true <-> pm_type a = pm_type b) as -> by (destruct (pm_type a), (pm_type b); split; (reflexivity || discriminate)).
  split; intros (T & H); (split; [exact T |]).
  - destruct (feqb_nn _ _ H) as (Na & Nb). split; [exact Na |]. split; [exact Nb |].
    destruct (pm_scale a) as [s | s | | s m e Q]; destruct (pm_scale b) as [s' | s' | | s' m' e' Q']; try (destruct s; destruct s'); try (destruct s); try (destruct s'); try discriminate H; try (left; reflexivity); try (right; eexists; eexists; split; reflexivity).
    all: left; apply B2R_inj; try reflexivity.
    all: apply feqb_true_R in H; [exact H | reflexivity | reflexivity].
  - destruct H as (Na & Nb & [-> | (s & t & -> & ->)]); [| now destruct s, t]. rewrite feqb_rank by exact Nb. apply Z.eqb_refl.
Qed.
Theorem C58_floating_not_equal_refuted : pm_equals pm_default pm_default = false /\
  pm_equals (pm_new_with_type Floating) (pm_new_with_type Floating) = false /\
  pm_equals (pm_new_with_type FloatingSingle) (pm_new_with_type FloatingSingle) = false.
Proof. split; [reflexivity |]. split; reflexivity. Qed.
(** [compare_to] is the sign of the difference of the numbers of digits, and
    panics when one of them does. *)
Theorem C58_compare_digits : forall ln a b,
  (forall m n, pm_digits ln a = Ok m -> pm_digits ln b = Ok n -> pm_compare_to ln a b = Ok (Z.sgn (m - n))) /\
  (pm_digits ln a = Panic \/ pm_digits ln b = Panic -> pm_compare_to ln a b = Panic).
Proof.
  intros ln a b. unfold pm_compare_to. split.
  - intros m n -> ->. cbn [bind]. f_equal. destruct (Z.eqb_spec m n); [subst; now rewrite Z.sub_diag |].
    destruct (Z.ltb_spec m n); [rewrite Z.sgn_neg by lia | rewrite Z.sgn_pos by lia]; reflexivity.
  - intros [-> | ->]; [reflexivity |]. now destruct (pm_digits ln a).
Qed.
(** [compare_to] orders models by their number of digits. *)
Theorem C58_compare : forall ln a b c x y z,
  pm_compare_to ln a a <> Ok 1%Z /\
  (pm_compare_to ln a b = Ok x -> pm_compare_to ln b a = Ok (- x)%Z) /\
  (pm_compare_to ln a b = Ok x -> pm_compare_to ln b c = Ok y -> (x <= 0)%Z -> (y <= 0)%Z ->
   exists w, pm_compare_to ln a c = Ok w /\ (w <= 0)%Z) /\
  (pm_compare_to ln a a = Ok z -> z = 0%Z).
Proof.
  intros ln a b c x y z. unfold pm_compare_to. destruct (pm_digits ln a) as [da |]; destruct (pm_digits ln b) as [db |]; destruct (pm_digits ln c) as [dc |]; cbn [bind];
    rewrite ?Z.eqb_refl; (split; [discriminate |]); (split; [| split]); try discriminate;
    try (intros E; injection E as <-; try reflexivity);
    try (destruct (Z.eqb_spec da db); destruct (Z.eqb_spec db da); destruct (Z.ltb_spec da db); destruct (Z.ltb_spec db da); try reflexivity; lia).
  all: try (intros E2; try discriminate; injection E2 as <-; intros H1 H2; eexists; split; [reflexivity |];
    destruct (Z.eqb_spec da db); destruct (Z.ltb_spec da db); destruct (Z.eqb_spec db dc); destruct (Z.ltb_spec db dc);
    destruct (Z.eqb_spec da dc); destruct (Z.ltb_spec da dc); lia).
Qed.
(** Full precision ranks above single precision; a fixed model of infinite scale
    makes the digit count overflow. *)
Theorem C58_digits : forall ln, pm_compare_to ln pm_default (pm_new_with_type FloatingSingle) = Ok 1%Z /\
  (ln finf = finf -> ln (fofZ 10) = f1 -> pm_digits ln (pm_new_with_scale finf) = Panic).
Proof.
  intros ln. split; [reflexivity |]. intros E1 E2. unfold pm_digits, pm_new_with_scale, pm_set_scale.
  cbn [fltb pm_type pm_scale]. replace (fltb finf f0) with false by reflexivity. cbn [pm_type pm_scale]. change (fabs finf) with finf. rewrite E1, E2. vm_compute. reflexivity.
Qed.
Example C58_example : R_of (make_precise (pm_new_with_type Fixed) (mkf (2 * -3 + 1) (-1))) = -3 /\
  pm_compare_to (fun x => x) (pm_new_with_type Fixed) pm_default = Ok (-1)%Z.
Proof. split; [rewrite C58_half_away by lia; reflexivity | vm_compute; reflexivity]. Qed.
(** Equal scales in different objects; different scales; different kinds. *)
Example C58_equals_example : pm_equals (pm_new_with_scale (fofZ 1000)) (pm_new_with_scale (fofZ 1000)) = true /\
  pm_equals (pm_new_with_scale (fofZ 1000)) (pm_new_with_scale (fofZ 100)) = false /\
  pm_equals (pm_new_with_type Fixed) pm_default = false.
Proof. repeat split; vm_compute; reflexivity. Qed.
