(** Facts about [floor], [ceil], [trunc], [round] and about bounds of
    rounded results.  Proof support only; nothing here models code. *)
From Coq Require Import ZArith Bool Reals Lia Lra Psatz.
From Flocq Require Import Core IEEE754.BinarySingleNaN.
From Verif Require Import F64 F64Facts.
Open Scope Z_scope.

Lemma FIX0_round (rnd : R -> Z) r : round radix2 (FIX_exp 0) rnd r = IZR (rnd r).
Proof.
  unfold round, scaled_mantissa, cexp, FIX_exp, F2R. cbn [Fnum Fexp].
  simpl bpow. now rewrite !Rmult_1_r.
Qed.
Lemma nearbyint_fin md (x : f64) : fis_finite (Bnearbyint md x) = fis_finite x.
Proof. apply Bnearbyint_correct. Qed.
Lemma nearbyint_R md (x : f64) : R_of (Bnearbyint md x) = IZR (round_mode md (R_of x)).
Proof.
  unfold R_of. destruct (Bnearbyint_correct 53 1024 _ md x) as (H & _).
  rewrite H. apply FIX0_round.
Qed.
Lemma ffloor_R x : R_of (ffloor x) = IZR (Zfloor (R_of x)).
Proof. apply nearbyint_R. Qed.
Lemma fceil_R x : R_of (fceil x) = IZR (Zceil (R_of x)).
Proof. apply nearbyint_R. Qed.
Lemma ftrunc_R x : R_of (ftrunc x) = IZR (Ztrunc (R_of x)).
Proof. apply nearbyint_R. Qed.
Lemma fround_R x : R_of (fround x) = IZR (ZnearestA (R_of x)).
Proof. apply nearbyint_R. Qed.
Lemma ffloor_fin x : fis_finite (ffloor x) = fis_finite x.
Proof. apply nearbyint_fin. Qed.
Lemma fceil_fin x : fis_finite (fceil x) = fis_finite x.
Proof. apply nearbyint_fin. Qed.
Lemma ftrunc_fin x : fis_finite (ftrunc x) = fis_finite x.
Proof. apply nearbyint_fin. Qed.
Lemma fround_fin x : fis_finite (fround x) = fis_finite x.
Proof. apply nearbyint_fin. Qed.

(** Comparisons as propositions. *)
Lemma fltb_true_R x y : fis_finite x = true -> fis_finite y = true ->
  (fltb x y = true <-> (R_of x < R_of y)%R).
Proof.
  intros Fx Fy. rewrite fltb_R by assumption. destruct (Rlt_bool_spec (R_of x) (R_of y)); split; intros; auto; try discriminate; lra.
Qed.
Lemma fleb_true_R x y : fis_finite x = true -> fis_finite y = true ->
  (fleb x y = true <-> (R_of x <= R_of y)%R).
Proof.
  intros Fx Fy. rewrite fleb_R by assumption. destruct (Rle_bool_spec (R_of x) (R_of y)); split; intros; auto; try discriminate; lra.
Qed.
Lemma feqb_true_R x y : fis_finite x = true -> fis_finite y = true ->
  (feqb x y = true <-> (R_of x = R_of y)%R).
Proof.
  intros Fx Fy. rewrite feqb_R by assumption. destruct (Req_bool_spec (R_of x) (R_of y)); split; intros; auto; try discriminate; lra.
Qed.
Lemma fltb_false_R x y : fis_finite x = true -> fis_finite y = true ->
  (fltb x y = false <-> (R_of y <= R_of x)%R).
Proof.
  intros Fx Fy. rewrite fltb_R by assumption. destruct (Rlt_bool_spec (R_of x) (R_of y)); split; intros; auto; try discriminate; lra.
Qed.

(** A value between two finite doubles is finite. *)
Lemma between_fin a x b : fis_finite a = true -> fis_finite b = true ->
  fleb a x = true -> fleb x b = true -> fis_finite x = true.
Proof.
  intros Fa Fb A B. destruct (fleb_nn _ _ A) as [Na Nx]. destruct (fleb_nn _ _ B) as [_ Nb].
  rewrite fleb_rank in A, B by assumption. apply Z.leb_le in A, B.
  pose proof (rank_bound _ Fa). pose proof (rank_bound _ Fb).
  destruct x as [s|[]| |s m e H']; try easy; rewrite rank_inf in *; lia.
Qed.
Lemma fltb_fleb x y : fltb x y = true -> fleb x y = true.
Proof.
  intros H. destruct (fltb_nn _ _ H) as [Nx Ny]. rewrite fltb_rank in H by assumption.
  rewrite fleb_rank by assumption. apply Z.leb_le. apply Z.ltb_lt in H. lia.
Qed.

(** No double lies strictly between [1 - 2^-53] and 1. *)
Lemma below_one x : fis_finite x = true -> (R_of x < 1)%R -> (R_of x <= 1 - bp (-53))%R.
Proof.
  intros F L.
  assert (generic_format radix2 fexp64 1) as F1.
  { change 1%R with (bp 0). apply generic_format_bpow. unfold SpecFloat.fexp, SpecFloat.emin. lia. }
  pose proof (format_R x) as Fx.
  pose proof (pred_ge_gt radix2 fexp64 (R_of x) 1 Fx F1 L) as P.
  change 1%R with (bp 0) in P. rewrite pred_bpow in P by auto with typeclass_instances.
  exact P.
Qed.
Lemma one_minus_format : generic_format radix2 fexp64 (2 * (1 - bp (-53))).
Proof.
  replace (2 * (1 - bp (-53)))%R with (IZR (2 ^ 53 - 1) * bp (-52))%R.
  - apply format_grid; lia.
  - replace (bp (-53)) with (bp (-52) / 2)%R by (change (-52) with (1 + -53); rewrite bpow_plus; simpl (bp 1); lra).
    assert (IZR (2 ^ 53) * bp (-52) = 2)%R as E.
    { change 2 with (radix_val radix2) at 1. rewrite IZR_Zpower by lia. rewrite <- bpow_plus. reflexivity. }
    rewrite minus_IZR. lra.
Qed.
Lemma bp_m53 : (0 < bp (-53) < 1)%R.
Proof. split; [apply bpow_gt_0|]. change 1%R with (bp 0). apply bpow_lt. lia. Qed.
