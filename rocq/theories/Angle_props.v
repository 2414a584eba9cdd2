(** C55: angles. *)
From Coq Require Import ZArith Bool Reals Lia Lra Psatz.
From Flocq Require Import Core Sterbenz IEEE754.BinarySingleNaN.
From Verif Require Import Base F64 F64Facts F64Err Num NumLink DD_more Coordinate_model Distance_spec Distance_props
  Orientation_spec Orientation_props Intersection_proofs Intersection_props Angle_model Angle_proofs.
Local Open Scope R_scope.

(** The constant is the double nearest to pi, and is below it. *)
Theorem C55_pi : fis_finite PIf = true /\ R_of PIf < PI /\ Rabs (R_of PIf - PI) < bp (-52) /\
  fis_finite PI_TIMES_2 = true /\ R_of PI_TIMES_2 = 2 * R_of PIf.
Proof.
  pose proof PI_bounds as B. split; [apply fin_PIf|]. rewrite T_R, PIf_R. split; [lra|]. split; [|split; [apply fin_T|reflexivity]].
  change (bp (-52)) with (/ 4503599627370496). apply Rabs_lt. lra.
Qed.
(** [normalize] on doubles up to 2^56 in size ends with an angle in (-pi, pi]
    (and in the same range for the double nearest to pi), which is the argument
    shifted by whole turns of the double [2 pi], each turn adding at most 2^-53
    of the argument's size; an angle already in range is returned as it is. *)
Theorem C55_normalize : forall x, fis_finite x = true -> Rabs (R_of x) <= bp 56 ->
  exists y k N, (forall fuel, (N <= fuel)%nat -> normalize fuel x = Some y) /\ fis_finite y = true /\
    - R_of PIf < R_of y <= R_of PIf /\ - PI < R_of y <= PI /\
    Rabs (R_of y - (R_of x + IZR k * R_of PI_TIMES_2)) <= Rabs (IZR k) * bp (-53) * Rabs (R_of x) /\
    (- R_of PIf < R_of x <= R_of PIf -> y = x).
Proof.
  intros x Fx A. destruct (nat_above (bp 56)) as (N & HN).
  destruct (dn_ends N x HN Fx A) as (y & k & W & Fy & Y1 & Y2 & Y3 & Y4 & E).
  destruct (up_ends N y HN Fy ltac:(lra) Y1) as (z & j & W' & Fz & Z1 & Z2 & E').
  assert (- PI < R_of z <= PI) as ZP by (destruct C55_pi as (_ & P & _); lra).
  destruct (Rle_or_lt (R_of x) (R_of PIf)) as [L|L].
  - specialize (Y3 L). subst y. exists z, (Z.of_nat j), N. rewrite <- INR_IZR_INZ, (Rabs_pos_eq (INR j)) by apply pos_INR.
    repeat split; auto; try lra.
    + intros fuel Hf. unfold normalize. rewrite (while_mono _ _ _ _ _ _ W Hf). exact (while_mono _ _ _ _ _ _ W' Hf).
    + intros H. apply Z2. lra.
  - specialize (Y2 L). specialize (Z2 Y2). subst z. exists y, (- Z.of_nat k)%Z, N.
    rewrite opp_IZR, <- INR_IZR_INZ, Rabs_Ropp, (Rabs_pos_eq (INR k)) by apply pos_INR.
    repeat split; auto; try lra.
    + intros fuel Hf. unfold normalize. rewrite (while_mono _ _ _ _ _ _ W Hf). exact (while_mono _ _ _ _ _ _ W' Hf).
    + replace (R_of x + - INR k * R_of PI_TIMES_2) with (R_of x - INR k * R_of PI_TIMES_2) by ring. exact E.
Qed.
(** On anything larger, and on the infinities, it never ends. *)
Theorem C55_normalize_diverges : forall x, fis_infinite x = true \/ (fis_finite x = true /\ bp 56 < Rabs (R_of x)) ->
  forall fuel, normalize fuel x = None.
Proof.
  intros x [I|(F & L)] fuel.
  - destruct x as [| [|] | |]; try discriminate I.
    + unfold normalize. rewrite while_done by reflexivity. apply while_stuck; reflexivity.
    + unfold normalize. rewrite while_stuck; reflexivity.
  - pose proof bp56 as B. pose proof PIf_size as PS. unfold normalize. destruct (Rle_or_lt 0 (R_of x)) as [P|P].
    + rewrite Rabs_pos_eq in L by exact P. rewrite while_stuck; [reflexivity| |now apply sub_T_stuck]. apply gtb_pi; [exact F|lra].
    + rewrite Rabs_left in L by exact P. rewrite while_done by (apply (false_bool _ _ (gtb_pi x F)); lra).
      apply while_stuck; [|apply add_T_stuck; [exact F|lra]]. apply leb_mpi; [exact F|lra].
Qed.
(** The same for [normalize_positive] and [0, 2 pi); the sign of a zero is kept. *)
Theorem C55_normalize_positive : forall x, fis_finite x = true -> Rabs (R_of x) <= bp 56 ->
  exists y k N, (forall fuel, (N <= fuel)%nat -> normalize_positive fuel x = Some y) /\ fis_finite y = true /\
    0 <= R_of y < R_of PI_TIMES_2 /\ R_of y < 2 * PI /\
    Rabs (R_of y - (R_of x + IZR k * R_of PI_TIMES_2)) <= (Rabs (IZR k) + 1) * bp (-53) * (Rabs (R_of x) + R_of PI_TIMES_2) /\
    (0 <= R_of x < R_of PI_TIMES_2 -> y = x).
Proof.
  intros x Fx A. destruct (nat_above (bp 56)) as (N & HN). apply Rabs_le_inv in A.
  pose proof PIf_size as PS. pose proof T_R as TR. assert (forall r, r < R_of PI_TIMES_2 -> r < 2 * PI) as ZP by (destruct C55_pi as (_ & P & _); intros; lra).
  pose proof u53_pos as U0.
  destruct (Rlt_or_le (R_of x) 0) as [L|L].
  - destruct (pup_ends N x HN Fx ltac:(lra)) as (y & k & W & Fy & Y1 & E & K).
    assert (fltb x f0 = true) as C by (now apply ltb_0).
    pose proof (Rabs_pos (R_of x)) as PX.
    destruct (Rlt_or_le (R_of y) (R_of PI_TIMES_2)) as [S|S].
    + exists y, (Z.of_nat k), N. rewrite <- INR_IZR_INZ. repeat split; auto; try lra.
      * intros fuel Hf. unfold normalize_positive. rewrite C, (while_mono _ _ _ _ _ _ W Hf).
        rewrite (false_bool _ _ (geb_T y Fy)) by lra. reflexivity.
      * eapply Rle_trans; [exact E|]. apply Rmult_le_compat_r; [lra|]. apply Rmult_le_compat_r; [lra|].
        rewrite Rabs_pos_eq by apply pos_INR. lra.
    + assert (R_of y = R_of PI_TIMES_2) as EY by lra.
      exists f0, (Z.of_nat k - 1)%Z, N. rewrite minus_IZR, <- INR_IZR_INZ. change (R_of f0) with 0. repeat split; auto; try lra; try (apply ZP; lra).
      * intros fuel Hf. unfold normalize_positive. rewrite C, (while_mono _ _ _ _ _ _ W Hf).
        rewrite (proj2 (geb_T y Fy)) by lra. reflexivity.
      * rewrite EY in E. replace (0 - (R_of x + (INR k - 1) * R_of PI_TIMES_2)) with (R_of PI_TIMES_2 - (R_of x + INR k * R_of PI_TIMES_2)) by ring.
        assert (1 <= INR k) by (apply (le_INR 1 k); exact K). rewrite (Rabs_pos_eq (INR k - 1)) by lra. replace (INR k - 1 + 1) with (INR k) by ring. exact E.
  - destruct (pdn_ends N x HN Fx ltac:(lra)) as (y & k & W & Fy & Y1 & Y2 & E).
    assert (fltb x f0 = false) as C by (apply (false_bool _ _ (ltb_0 x Fx)); lra).
    exists y, (- Z.of_nat k)%Z, N. rewrite opp_IZR, <- INR_IZR_INZ. repeat split; auto; try lra; try (apply ZP; lra).
    + intros fuel Hf. unfold normalize_positive. rewrite C, (while_mono _ _ _ _ _ _ W Hf).
      rewrite (false_bool _ _ (ltb_0 y Fy)) by lra. reflexivity.
    + replace (R_of x + - INR k * R_of PI_TIMES_2) with (R_of x - INR k * R_of PI_TIMES_2) by ring. eapply Rle_trans; [exact E|].
      pose proof (Rabs_pos (R_of x)) as PX. pose proof (pos_INR k) as PK. rewrite Rabs_Ropp, (Rabs_pos_eq (INR k)) by exact PK.
      pose proof (Rmult_le_pos _ _ PK (Rlt_le _ _ U0)) as PKU. apply Rmult_le_compat; lra.
    + intros. apply Y2. lra.
Qed.
Theorem C55_normalize_positive_diverges : forall x, fis_infinite x = true \/ (fis_finite x = true /\ bp 56 < Rabs (R_of x)) ->
  forall fuel, normalize_positive fuel x = None.
Proof.
  intros x [I|(F & L)] fuel.
  - destruct x as [| [|] | |]; try discriminate I; unfold normalize_positive.
    + change (fltb (B754_infinity true) f0) with true. cbv iota. now rewrite while_stuck.
    + change (fltb (B754_infinity false) f0) with false. cbv iota. now rewrite while_stuck.
  - pose proof bp56 as B. pose proof PIf_size as PS. pose proof T_R as TR. unfold normalize_positive. destruct (Rle_or_lt 0 (R_of x)) as [P|P].
    + rewrite Rabs_pos_eq in L by exact P. rewrite (false_bool _ _ (ltb_0 x F)) by lra.
      rewrite while_stuck; [reflexivity| |now apply sub_T_stuck]. apply geb_T; [exact F|lra].
    + rewrite Rabs_left in L by exact P. rewrite (proj2 (ltb_0 x F)) by lra.
      rewrite while_stuck; [reflexivity| |apply add_T_stuck; [exact F|lra]]. now apply ltb_0.
Qed.
(** NaN passes through both. *)
Theorem C55_nan : forall fuel, normalize fuel fnan = Some fnan /\ normalize_positive fuel fnan = Some fnan.
Proof.
  intros fuel. unfold normalize, normalize_positive. rewrite while_done by reflexivity. rewrite while_done by reflexivity. split; [reflexivity|].
  change (fltb fnan f0) with false. cbv iota. rewrite while_done by reflexivity. reflexivity.
Qed.
(** 7 goes to 7 - 2 pi; -4 to -4 + 2 pi; 2^57 is never normalised. *)
Example C55_example : normalize 3 (fofZ 7) = Some (fsub (fofZ 7) PI_TIMES_2) /\
  normalize 3 (fofZ (-4)) = Some (fadd (fofZ (-4)) PI_TIMES_2) /\
  normalize_positive 3 (fofZ (-4)) = Some (fadd (fofZ (-4)) PI_TIMES_2) /\
  normalize 1000 (mkf 1 57) = None /\ feqb (fsub (fofZ 7) PI_TIMES_2) (mkf 3228246383479712 (-52)) = true.
Proof. repeat split; try (vm_compute; reflexivity). Qed.

(** ** Differences *)
(** [diff] does not depend on the order of its arguments, except for the sign
    of a zero when they are equal; for all doubles. *)
Theorem C55_diff_symmetric : forall a b, diff a b = diff b a \/
  (feqb a b = true /\ feqb (diff a b) f0 = true /\ feqb (diff b a) f0 = true).
Proof.
  intros a b. unfold diff. destruct (fltb a b) eqn:A, (fltb b a) eqn:B; try (now left).
  - exfalso. destruct (fis_nan a) eqn:NA; [destruct a; discriminate|]. destruct (fis_nan b) eqn:NB; [destruct a, b; discriminate|].
    rewrite fltb_rank in A, B by assumption. lia.
  - destruct (fis_finite a) eqn:Fa; [destruct (fis_finite b) eqn:Fb|].
    + right. rewrite fltb_R in A, B by assumption. destruct (Rlt_bool_spec (R_of a) (R_of b)); [discriminate|]. destruct (Rlt_bool_spec (R_of b) (R_of a)); [discriminate|].
      assert (R_of a = R_of b) as E by lra. split; [rewrite feqb_R by assumption; now apply Req_bool_true|].
      assert (forall x y, fis_finite x = true -> fis_finite y = true -> R_of x = R_of y ->
        feqb (if fgtb (fsub x y) PIf then fsub PI_TIMES_2 (fsub x y) else fsub x y) f0 = true) as Z.
      { intros x y Fx Fy Exy. assert (RN (R_of x - R_of y) = 0) as RZ by (rewrite Exy, Rminus_diag_eq by reflexivity; apply RN_id, generic_format_0).
        destruct (fsub_R x y Fx Fy) as (F & V); [rewrite RZ, Rabs_R0; apply bpow_gt_0|]. rewrite RZ in V. pose proof PIf_size.
        rewrite (false_bool _ _ (gtb_pi _ F)) by lra. rewrite feqb_R by (assumption || reflexivity). now apply Req_bool_true. }
      split; apply Z; auto.
    + left. destruct b as [| [|] | |]; try discriminate Fb; destruct a as [| [|] | |]; try discriminate Fa; try discriminate A; try discriminate B; reflexivity.
    + left. destruct a as [| [|] | |]; try discriminate Fa; destruct b as [| [|] | |]; try discriminate A; try discriminate B; reflexivity.
Qed.
(** For angles in [-pi, pi] it is in [0, pi], and is the smaller of the two
    arcs between them, rounded. *)
Theorem C55_diff : forall a b, in_turn a -> in_turn b ->
  fis_finite (diff a b) = true /\ 0 <= R_of (diff a b) <= R_of PIf /\
  let d := Rabs (R_of a - R_of b) in
  Rabs (R_of (diff a b) - Rmin d (R_of PI_TIMES_2 - d)) <= bp (-50).
Proof.
  intros a b Ha Hb. pose proof PIf_size as PS. pose proof T_R as TR.
  assert (exists d, fis_finite d = true /\ R_of d = RN (Rabs (R_of a - R_of b)) /\ 0 <= R_of d <= R_of PI_TIMES_2 /\
    diff a b = if fgtb d PIf then fsub PI_TIMES_2 d else d) as (d & Fd & Ed & Bd & E).
  { unfold diff. destruct Ha as (Fa & La), Hb as (Fb & Lb). destruct (sub_turn a b (conj Fa La) (conj Fb Lb)) as (F1 & E1 & B1).
    destruct (sub_turn b a (conj Fb Lb) (conj Fa La)) as (F2 & E2 & B2). rewrite fltb_R by assumption.
    destruct (Rlt_bool_spec (R_of a) (R_of b)) as [L|L].
    - exists (fsub b a). repeat split; auto; try lra.
      + rewrite E2, Rabs_left by lra. f_equal. ring.
      + rewrite E2. apply RN_ge0. lra.
    - exists (fsub a b). repeat split; auto; try lra.
      + rewrite E1, Rabs_pos_eq by lra. reflexivity.
      + rewrite E1. apply RN_ge0. lra. }
  rewrite E. cbv zeta. set (v := Rabs (R_of a - R_of b)) in *.
  assert (0 <= v <= R_of PI_TIMES_2) as Bv by (split; [apply Rabs_pos|]; apply Rabs_le; destruct Ha, Hb; lra).
  assert (Rabs (RN v - v) <= bp (-50)) as EV.
  { assert (Rabs (RN v - v) <= u53 * v) as EV.
    { pose proof (RN_sub_err (R_of a) (R_of b) (format_R a) (format_R b)) as S1. pose proof (RN_sub_err (R_of b) (R_of a) (format_R b) (format_R a)) as S2.
      destruct (Rle_or_lt 0 (R_of a - R_of b)) as [N|N].
      - assert (v = R_of a - R_of b) as V by (unfold v; now apply Rabs_pos_eq). rewrite <- V in S1. now rewrite (Rabs_pos_eq v) in S1 by lra.
      - assert (v = R_of b - R_of a) as V by (unfold v; rewrite Rabs_left by exact N; ring). rewrite <- V in S2. now rewrite (Rabs_pos_eq v) in S2 by lra. }
    eapply Rle_trans; [exact EV|]. replace (-50)%Z with (-53 + 3)%Z by reflexivity. rewrite bpow_plus. change (bp 3) with 8.
    apply Rmult_le_compat_l; [pose proof u53_pos|]; lra. }
  assert (v <= R_of PIf -> RN v <= R_of PIf) as LO by (intros; rewrite <- (RN_id (R_of PIf)) by apply format_R; now apply RN_le).
  assert (R_of PIf <= v -> R_of PIf <= RN v) as HI by (intros; rewrite <- (RN_id (R_of PIf)) by apply format_R; now apply RN_le).
  destruct (fgtb d PIf) eqn:G.
  - apply (gtb_pi d Fd) in G.
    assert (fmt (R_of PI_TIMES_2 - R_of d)) as FM.
    { apply sterbenz; [typeclasses eauto..|apply format_R|apply format_R|lra]. }
    destruct (fsub_R PI_TIMES_2 d fin_T Fd) as (F & V).
    { rewrite RN_id by exact FM. pose proof bp56_1024. pose proof bp56. apply Rabs_lt. lra. }
    rewrite RN_id in V by exact FM. rewrite V. split; [exact F|]. split; [lra|].
    assert (R_of PIf < v) as GV by (apply Rnot_le_lt; intros K; apply LO in K; lra).
    rewrite Rmin_right by lra. rewrite Ed. replace (R_of PI_TIMES_2 - RN v - (R_of PI_TIMES_2 - v)) with (- (RN v - v)) by ring. now rewrite Rabs_Ropp.
  - apply (bool_false _ _ (gtb_pi d Fd)) in G. split; [exact Fd|]. split; [lra|]. rewrite Ed in *.
    destruct (Rle_or_lt v (R_of PIf)) as [L|L].
    + rewrite Rmin_left by lra. exact EV.
    + rewrite Rmin_right by lra. assert (RN v = R_of PIf) as EQ by (specialize (HI ltac:(lra)); lra). rewrite EQ in *.
      replace (R_of PIf - (R_of PI_TIMES_2 - v)) with (- (R_of PIf - v)) by lra. now rewrite Rabs_Ropp.
Qed.
(** ** With an [atan2] that stays in [-pi, pi] *)
(** [angle_between] is in [0, pi], [angle_between_oriented] in (-pi, pi],
    [interior_angle] ends in [0, 2 pi) and [bisector] in (-pi, pi]. *)
Theorem C55_of_points : forall atan2, (forall y x, in_turn (atan2 y x)) -> forall a b c,
  (fis_finite (angle_between atan2 a b c) = true /\ 0 <= R_of (angle_between atan2 a b c) <= R_of PIf) /\
  (fis_finite (angle_between_oriented atan2 a b c) = true /\
   - R_of PIf < R_of (angle_between_oriented atan2 a b c) <= R_of PIf) /\
  (exists y N, (forall fuel, (N <= fuel)%nat -> interior_angle atan2 fuel a b c = Some y) /\ fis_finite y = true /\ 0 <= R_of y < R_of PI_TIMES_2) /\
  (exists y N, (forall fuel, (N <= fuel)%nat -> bisector atan2 fuel a b c = Some y) /\ fis_finite y = true /\ - R_of PIf < R_of y <= R_of PIf).
Proof.
  intros atan2 H a b c. pose proof PIf_size as PS. pose proof T_R as TR. pose proof bp56 as B56.
  assert (fis_finite (angle_between_oriented atan2 a b c) = true /\ - R_of PIf < R_of (angle_between_oriented atan2 a b c) <= R_of PIf) as OR.
  { unfold angle_between_oriented, angle_coordinates. match goal with |- context [fsub ?p ?q] => match p with atan2 _ _ => match q with atan2 _ _ => set (v := p); set (u := q) end end end.
    destruct (sub_turn v u (H _ _) (H _ _)) as (F & E & B). set (d := fsub v u) in *.
    destruct (fleb d (fneg PIf)) eqn:L.
    - apply (leb_mpi d F) in L.
      assert (fmt (R_of d + R_of PI_TIMES_2)) as FM.
      { replace (R_of d + R_of PI_TIMES_2) with (R_of PI_TIMES_2 - (- R_of d)) by ring.
        apply sterbenz; [typeclasses eauto..|apply format_R|apply generic_format_opp, format_R|lra]. }
      destruct (fadd_R d PI_TIMES_2 F fin_T) as (F' & V); [rewrite RN_id by exact FM; pose proof bp56_1024; apply Rabs_lt; lra|].
      rewrite RN_id in V by exact FM. rewrite V. split; [exact F'|lra].
    - apply (bool_false _ _ (leb_mpi d F)) in L. destruct (fgtb d PIf) eqn:G.
      + apply (gtb_pi d F) in G. destruct (sub_T d F ltac:(lra)) as (F' & V). destruct (step_dn (R_of d) (format_R d) ltac:(lra)) as (S1 & S2 & _).
        rewrite V. split; [exact F'|]. assert (RN (R_of d - R_of PI_TIMES_2) <= 0) by (apply RN_le0; lra). lra.
      + apply (bool_false _ _ (gtb_pi d F)) in G. split; [exact F|lra]. }
  split; [|split; [exact OR|split]].
  - destruct (C55_diff (angle_coordinates atan2 b a) (angle_coordinates atan2 b c) (H _ _) (H _ _)) as (F & B & _). split; assumption.
  - unfold interior_angle, angle_coordinates. match goal with |- context [fsub ?p ?q] => match p with atan2 _ _ => match q with atan2 _ _ => set (u := p); set (v := q) end end end.
    destruct (sub_turn u v (H _ _) (H _ _)) as (F & E & B).
    destruct (C55_normalize_positive (fsub u v) F ltac:(apply Rabs_le; lra)) as (y & k & N & W & Fy & By_ & _). exists y, N. auto.
  - unfold bisector. set (o := angle_between_oriented atan2 a b c) in *. unfold angle_coordinates. set (u := atan2 _ _).
    assert (in_turn u) as (Fu & Bu) by apply H. destruct OR as (Fo & Bo).
    assert (R_of f2 = 2) as R2 by apply R_of_f2.
    assert (Rabs (RN (R_of o / 2)) <= bp 2) as B1 by (apply RN_abs_le; [lia|]; change (bp 2) with 4; apply Rabs_le; lra).
    destruct (fdiv_R o f2 Fo ltac:(rewrite R2; lra)) as (Fh & Eh); [rewrite R2; eapply Rle_lt_trans; [exact B1|apply bpow_lt; lia]|]. rewrite R2 in Eh.
    destruct (bf_add 2 u (fdiv o f2) ltac:(lia)) as ((Fs & Bs) & _).
    { split; [exact Fu|]. change (bp 2) with 4. apply Rabs_le. lra. }
    { split; [exact Fh|]. now rewrite Eh. }
    destruct (C55_normalize (fadd u (fdiv o f2)) Fs) as (y & k & N & W & Fy & By_ & _).
    { eapply Rle_trans; [exact Bs|]. apply bpow_le. lia. }
    exists y, N. auto.
Qed.
(** ** Acute and obtuse *)
Lemma dot_exact e p0 p1 p2 : (-400 <= e <= 400)%Z -> small_pt e p0 -> small_pt e p1 -> small_pt e p2 ->
  fis_finite (dotprod p0 p1 p2) = true /\ R_of (dotprod p0 p1 p2) =
    (px (rpt p0) - px (rpt p1)) * (px (rpt p2) - px (rpt p1)) + (py (rpt p0) - py (rpt p1)) * (py (rpt p2) - py (rpt p1)).
Proof.
  intros He S0 S1 S2. apply small_ptx in S0, S1, S2. destruct S0 as (X0 & Y0), S1 as (X1 & Y1), S2 as (X2 & Y2). cbn [Distance_model.pf px py] in *.
  assert (ex (e + e) (2 * 25 + 1) (dotprod p0 p1 p2) ((px (rpt p0) - px (rpt p1)) * (px (rpt p2) - px (rpt p1)) + (py (rpt p0) - py (rpt p1)) * (py (rpt p2) - py (rpt p1)))) as E.
  { unfold dotprod. apply (ex_add (e + e) (2 * 25)); [lia|lia| |].
    - apply (ex_mul e e 25 25); try lia; apply (ex_sub e 24); auto; lia.
    - apply (ex_mul e e 25 25); try lia; apply (ex_sub e 24); auto; lia. }
  split; [exact (ex_fin _ _ _ _ E)|exact (ex_R _ _ _ _ E)].
Qed.
(** On points n*2^e, |n| <= 2^24: acute and obtuse are the sign of the exact
    scalar product of the two arms. *)
Theorem C55_acute_obtuse : forall e p0 p1 p2, (-400 <= e <= 400)%Z -> small_pt e p0 -> small_pt e p1 -> small_pt e p2 ->
  let dot := (px (rpt p0) - px (rpt p1)) * (px (rpt p2) - px (rpt p1)) + (py (rpt p0) - py (rpt p1)) * (py (rpt p2) - py (rpt p1)) in
  (is_acute p0 p1 p2 = true <-> 0 < dot) /\ (is_obtuse p0 p1 p2 = true <-> dot < 0).
Proof.
  intros e p0 p1 p2 He S0 S1 S2 dot. destruct (dot_exact e p0 p1 p2 He S0 S1 S2) as (F & E). fold dot in E.
  unfold is_acute, is_obtuse, fgtb. change (@Bltb 53 1024) with fltb. rewrite !fltb_R by (assumption || reflexivity). change (R_of f0) with 0. rewrite E.
  split; [destruct (Rlt_bool_spec 0 dot)|destruct (Rlt_bool_spec dot 0)]; split; intros; auto; try discriminate; lra.
Qed.
Example C55_acute_example : small_pt 0 (ipt 1 0) /\ small_pt 0 (ipt 0 0) /\ small_pt 0 (ipt 3 5) /\
  is_acute (ipt 1 0) (ipt 0 0) (ipt 3 5) = true /\ is_obtuse (ipt 1 0) (ipt 0 0) (ipt (-3) 5) = true.
Proof. repeat split; try (apply ipt_small; lia); vm_compute; reflexivity. Qed.
(** The arc from -3 to 3 is 2 pi - 6, not 6. *)
Example C55_diff_example : in_turn (fofZ 3) /\ in_turn (fofZ (-3)) /\ feqb (diff (fofZ 3) (fofZ (-3))) (fsub PI_TIMES_2 (fofZ 6)) = true.
Proof.
  pose proof PIf_size. assert (forall n, (Z.abs n <= 3)%Z -> in_turn (fofZ n)) as I.
  { intros n B. destruct (grid_fofZ n ltac:(lia)) as (F & E). split; [exact F|]. rewrite E. change (bp 0) with 1. rewrite Rmult_1_r.
    assert (IZR (-3) <= IZR n <= IZR 3) by (split; apply IZR_le; lia). lra. }
  split; [apply I; cbn; lia|]. split; [apply I; cbn; lia|]. vm_compute. reflexivity.
Qed.
