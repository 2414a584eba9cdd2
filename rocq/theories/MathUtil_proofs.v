(** Lemmas about src/core/util/math_util.rs. *)
From Coq Require Import ZArith Bool Reals List Lia Lra Psatz ZifyBool.
From Flocq Require Import Core Sterbenz IEEE754.BinarySingleNaN.
From Verif Require Import Base F64 F64Facts F64Round F64Err MathUtil_model.
Import ListNotations.
Open Scope Z_scope.

Lemma i32_chk_ok z : i32_min <= z <= i32_max -> i32_chk z = Ok z.
Proof. intros H. unfold i32_chk. destruct (Z.leb_spec i32_min z), (Z.leb_spec z i32_max); cbn; auto; lia. Qed.

Lemma quasi_step c a : fleb f0 c = true -> fltb c f1 = true -> fleb f0 a = true -> fltb a f1 = true ->
  fleb f0 (quasirandom_curr_alpha c a) = true /\ fltb (quasirandom_curr_alpha c a) f1 = true.
Proof.
  intros C0 C1 A0 A1.
  assert (fis_finite f1 = true) as F1 by reflexivity.
  assert (fis_finite f0 = true) as F0 by reflexivity.
  assert (fis_finite c = true) as Fc by (apply (between_fin f0 c f1); auto using fltb_fleb).
  assert (fis_finite a = true) as Fa by (apply (between_fin f0 a f1); auto using fltb_fleb).
  rewrite fleb_true_R in C0, A0 by assumption. rewrite fltb_true_R in C1, A1 by assumption.
  rewrite R_of_f1, R_of_f0 in *. apply below_one in C1, A1; auto. pose proof bp_m53 as B.
  assert (0 <= RN (R_of c + R_of a) <= 2 * (1 - bp (-53)))%R as H.
  { split. rewrite <- RN_0. apply RN_le. lra.
    rewrite <- (RN_id _ one_minus_format). apply RN_le. lra. }
  assert (2 < bp 1024)%R as B2 by (change 2%R with (bp 1); apply bpow_lt; lia).
  destruct (fadd_R c a Fc Fa) as [Fn Rn]. { rewrite Rabs_pos_eq; lra. }
  unfold quasirandom_curr_alpha. cbv zeta. set (n := fadd c a) in *.
  destruct (fltb n f1) eqn:E.
  - split; auto. apply fleb_true_R; auto. rewrite R_of_f0. lra.
  - apply fltb_false_R in E; auto. rewrite R_of_f1 in E.
    assert (Zfloor (R_of n) = 1) as Z1 by (apply Zfloor_imp; simpl; lra).
    assert (R_of (ffloor n) = 1%R) as Rf by (rewrite ffloor_R, Z1; reflexivity).
    assert (generic_format radix2 fexp64 (R_of n - 1)) as G.
    { rewrite <- Rf. apply sterbenz; try apply format_R; auto with typeclass_instances. rewrite Rf. lra. }
    destruct (fsub_R n (ffloor n)) as [Fs Rs]; auto.
    { now rewrite ffloor_fin. }
    { rewrite Rf, RN_id by assumption. rewrite Rabs_pos_eq; lra. }
    rewrite Rf, RN_id in Rs by assumption.
    split; [apply fleb_true_R|apply fltb_true_R]; auto; rewrite ?R_of_f0, ?R_of_f1; lra.
Qed.

Lemma quasi_value c a : fleb f0 c = true -> fltb c f1 = true -> fleb f0 a = true -> fltb a f1 = true ->
  exists k : Z, (k = 0 \/ k = 1) /\ R_of (quasirandom_curr_alpha c a) = (RN (R_of c + R_of a) - IZR k)%R /\
  (Rabs (R_of (quasirandom_curr_alpha c a) - (R_of c + R_of a - IZR k)) <= bp (-52))%R.
Proof.
  intros C0 C1 A0 A1.
  assert (fis_finite f1 = true) as F1 by reflexivity.
  assert (fis_finite f0 = true) as F0 by reflexivity.
  assert (fis_finite c = true) as Fc by (apply (between_fin f0 c f1); auto using fltb_fleb).
  assert (fis_finite a = true) as Fa by (apply (between_fin f0 a f1); auto using fltb_fleb).
  rewrite fleb_true_R in C0, A0 by assumption. rewrite fltb_true_R in C1, A1 by assumption.
  rewrite R_of_f1, R_of_f0 in *. apply below_one in C1, A1; auto. pose proof bp_m53 as B.
  assert (0 <= RN (R_of c + R_of a) <= 2 * (1 - bp (-53)))%R as H.
  { split. rewrite <- RN_0. apply RN_le. lra.
    rewrite <- (RN_id _ one_minus_format). apply RN_le. lra. }
  assert (2 < bp 1024)%R as B2 by (change 2%R with (bp 1); apply bpow_lt; lia).
  destruct (fadd_R c a Fc Fa) as [Fn Rn]. { rewrite Rabs_pos_eq; lra. }
  assert (Rabs (RN (R_of c + R_of a) - (R_of c + R_of a)) <= bp (-52))%R as ER.
  { eapply Rle_trans; [apply RN_sum_err; apply format_R|]. rewrite (Rabs_pos_eq (R_of c + R_of a)) by lra.
    replace (bp (-52)) with (bp (-53) * 2)%R by (change 2%R with (bp 1); now rewrite <- bpow_plus). apply Rmult_le_compat_l; lra. }
  unfold quasirandom_curr_alpha. cbv zeta. set (n := fadd c a) in *.
  assert (exists k : Z, (k = 0 \/ k = 1) /\ R_of (if fltb n f1 then n else fsub n (ffloor n)) = (RN (R_of c + R_of a) - IZR k)%R) as (k & K & V).
  { destruct (fltb n f1) eqn:E.
    - exists 0. split; [now left|]. rewrite Rn. ring.
    - apply fltb_false_R in E; auto. rewrite R_of_f1 in E.
      assert (Zfloor (R_of n) = 1) as Z1 by (apply Zfloor_imp; simpl; lra).
      assert (R_of (ffloor n) = 1%R) as Rf by (rewrite ffloor_R, Z1; reflexivity).
      assert (generic_format radix2 fexp64 (R_of n - 1)) as G.
      { rewrite <- Rf. apply sterbenz; try apply format_R; auto with typeclass_instances. rewrite Rf. lra. }
      destruct (fsub_R n (ffloor n)) as [Fs Rs]; auto.
      { now rewrite ffloor_fin. }
      { rewrite Rf, RN_id by assumption. rewrite Rabs_pos_eq; lra. }
      rewrite Rf, RN_id in Rs by assumption. exists 1. split; [now right|]. rewrite Rs, Rn. reflexivity. }
  exists k. split; [exact K|]. split; [exact V|]. rewrite V.
  replace (RN (R_of c + R_of a) - IZR k - (R_of c + R_of a - IZR k))%R with (RN (R_of c + R_of a) - (R_of c + R_of a))%R by ring. exact ER.
Qed.

(** The golden section, to the last bit. *)
Lemma phi_inv_golden : (Rabs (R_of phi_inv - (sqrt 5 - 1) / 2) <= bp (-54))%R.
Proof.
  assert (feqb phi_inv (mkf 347922205179541 (-49)) = true) as E by (vm_compute; reflexivity).
  destruct (grid_mkf 347922205179541 (-49)) as (F & V); [lia|lia|].
  assert (fis_finite phi_inv = true) as Fp by (vm_compute; reflexivity).
  rewrite feqb_R in E by assumption. apply Req_bool_eq in E || (revert E; case Req_bool_spec; [intros E _|discriminate]).
  rewrite E, V. change (bp (-49)) with (/ IZR (2 ^ 49))%R. change (bp (-54)) with (/ IZR (2 ^ 54))%R.
  assert (0 <= 5)%R as P by lra. pose proof (sqrt_pos 5) as S. pose proof (sqrt_sqrt 5 P) as Q.
  cbv [Z.pow Z.pow_pos Pos.iter Z.mul Pos.mul].
  apply Rabs_le. split; nra.
Qed.

Lemma phi_inv_unit : fleb f0 phi_inv = true /\ fltb phi_inv f1 = true.
Proof. split; vm_compute; reflexivity. Qed.

Lemma shuffle_loop_first rng n : shuffle rng n = Panic.
Proof.
  unfold shuffle. destruct n as [|n]; [reflexivity|].
  cbn [forN]. reflexivity.
Qed.
