(** Properties C34-C37: src/core/util/math_util.rs. *)
From Coq Require Import ZArith Bool Reals List Lia Lra ZifyBool Permutation.
From Flocq Require Import Core IEEE754.BinarySingleNaN.
From Verif Require Import Base F64 F64Facts F64Round F64Err MathUtil_model MathUtil_proofs.
Import ListNotations.
Open Scope Z_scope.

(** ** C34 *)
Theorem C34_clamp_f64_in_range : forall x mn mx, nn x -> fleb mn mx = true ->
  let r := clamp_f64 x mn mx in
  fleb mn r = true /\ fleb r mx = true /\ (r = x \/ (r = mn /\ fltb x mn = true) \/ (r = mx /\ fltb mx x = true)).
Proof.
  intros x mn mx N H. destruct (fleb_nn _ _ H) as [N1 N2]. unfold clamp_f64, fgtb. cbv zeta.
  fold (fltb mx x). assert (fleb mn mn = true /\ fleb mx mx = true) as [R1 R2].
  { rewrite !fleb_rank by assumption. lia. }
  destruct (fltb x mn) eqn:E1; [repeat split; auto|].
  destruct (fltb mx x) eqn:E2; [repeat split; auto|].
  rewrite fltb_rank in E1, E2 by assumption. rewrite !fleb_rank by assumption.
  repeat split; auto; lia.
Qed.
Theorem C34_clamp_f64_identity_inside : forall x mn mx, fleb mn x = true -> fleb x mx = true -> clamp_f64 x mn mx = x.
Proof.
  intros x mn mx H1 H2. destruct (fleb_nn _ _ H1), (fleb_nn _ _ H2). unfold clamp_f64, fgtb. fold (fltb mx x).
  rewrite fleb_rank in * by assumption. rewrite !fltb_rank by assumption.
  destruct (Z.ltb_spec (rank x) (rank mn)), (Z.ltb_spec (rank mx) (rank x)); auto; lia.
Qed.
Theorem C34_clamp_f64_monotone : forall x y mn mx, fleb x y = true -> fleb mn mx = true ->
  fleb (clamp_f64 x mn mx) (clamp_f64 y mn mx) = true.
Proof.
  intros x y mn mx H1 H2. destruct (fleb_nn _ _ H1), (fleb_nn _ _ H2). unfold clamp_f64, fgtb.
  fold (fltb mx x) (fltb mx y).
  rewrite !fltb_rank by assumption. rewrite fleb_rank in * by assumption.
  destruct (Z.ltb_spec (rank x) (rank mn)), (Z.ltb_spec (rank mx) (rank x)),
           (Z.ltb_spec (rank y) (rank mn)), (Z.ltb_spec (rank mx) (rank y)); rewrite fleb_rank by assumption; lia.
Qed.
Theorem C34_clamp_f64_idempotent : forall x mn mx, nn x -> fleb mn mx = true ->
  clamp_f64 (clamp_f64 x mn mx) mn mx = clamp_f64 x mn mx.
Proof.
  intros x mn mx N H. destruct (C34_clamp_f64_in_range x mn mx N H) as (A & B & _).
  now apply C34_clamp_f64_identity_inside.
Qed.
Theorem C34_clamp_i32 : forall x mn mx, mn <= mx ->
  clamp_i32 x mn mx = Z.max mn (Z.min x mx) /\ clamp_max x mx = Z.min x mx.
Proof.
  intros x mn mx H. unfold clamp_i32, clamp_max.
  destruct (Z.ltb_spec x mn); rewrite ?Z.gtb_ltb; destruct (Z.ltb_spec mx x); lia.
Qed.
(** [max_3], [max_4], [min_4] return one of their arguments and bound all. *)
Theorem C34_max_min : forall a b c d, nn a -> nn b -> nn c -> nn d ->
  let m3 := max_3 a b c in let m4 := max_4 a b c d in let n4 := min_4 a b c d in
  (In m3 [a; b; c] /\ forall v, In v [a; b; c] -> fleb v m3 = true) /\
  (In m4 [a; b; c; d] /\ forall v, In v [a; b; c; d] -> fleb v m4 = true) /\
  (In n4 [a; b; c; d] /\ forall v, In v [a; b; c; d] -> fleb n4 v = true).
Proof.
  intros a b c d Na Nb Nc Nd. cbv zeta. unfold max_3, max_4, min_4. cbv zeta.
  change fgtb with (fun x y => fltb y x). cbv beta.
  assert (forall u v w : f64, nn u -> nn v -> nn w -> fleb u v = true -> fleb v w = true -> fleb u w = true) as T.
  { intros u v w Hu Hv Hw. rewrite !fleb_rank by assumption. lia. }
  assert (forall u v : f64, nn u -> nn v -> nn (if fltb u v then v else u)) as Nm by (intros; now destruct (fltb u v)).
  assert (forall u v : f64, nn u -> nn v -> nn (if fltb v u then v else u)) as Nn' by (intros; now destruct (fltb v u)).
  assert (forall u v : f64, nn u -> nn v -> fleb u (if fltb u v then v else u) = true /\ fleb v (if fltb u v then v else u) = true) as M.
  { intros u v Hu Hv. rewrite fltb_rank by assumption. destruct (Z.ltb_spec (rank u) (rank v)); rewrite !fleb_rank by assumption; lia. }
  assert (forall u v : f64, nn u -> nn v -> fleb (if fltb v u then v else u) u = true /\ fleb (if fltb v u then v else u) v = true) as M'.
  { intros u v Hu Hv. rewrite fltb_rank by assumption. destruct (Z.ltb_spec (rank v) (rank u)); rewrite !fleb_rank by assumption; lia. }
  set (m2 := if fltb a b then b else a). set (m3 := if fltb m2 c then c else m2). set (m4 := if fltb m3 d then d else m3).
  set (n2 := if fltb b a then b else a). set (n3 := if fltb c n2 then c else n2). set (n4 := if fltb d n3 then d else n3).
  assert (nn m2) by (now apply Nm). assert (nn m3) by (now apply Nm). assert (nn m4) by (now apply Nm).
  assert (nn n2) by (now apply Nn'). assert (nn n3) by (now apply Nn'). assert (nn n4) by (now apply Nn').
  destruct (M a b Na Nb). destruct (M m2 c H Nc). destruct (M m3 d H0 Nd).
  destruct (M' a b Na Nb). destruct (M' n2 c H2 Nc). destruct (M' n3 d H3 Nd).
  fold m2 in H5, H6. fold m3 in H7, H8. fold m4 in H9, H10. fold n2 in H11, H12. fold n3 in H13, H14. fold n4 in H15, H16.
  assert (In m3 [a; b; c]).
  { unfold m3, m2. destruct (fltb a b), (fltb _ c); cbn; auto. }
  assert (In n3 [a; b; c]).
  { unfold n3, n2. destruct (fltb b a), (fltb c _); cbn; auto. }
  assert (fleb a m3 = true /\ fleb b m3 = true) as [] by (split; apply (T _ m2); assumption).
  assert (fleb n3 a = true /\ fleb n3 b = true) as [] by (split; apply (T _ n2); assumption).
  split; [split|split; split]; auto.
  - intros v [<-|[<-|[<-|[]]]]; auto.
  - unfold m4. destruct (fltb m3 d); [cbn; auto|]. cbn in H17 |- *. tauto.
  - intros v [<-|[<-|[<-|[<-|[]]]]]; auto; apply (T _ m3); auto.
  - unfold n4. destruct (fltb d n3); [cbn; auto|]. cbn in H18 |- *. tauto.
  - intros v [<-|[<-|[<-|[<-|[]]]]]; auto; apply (T _ n3); auto.
Qed.
(** The average lies between its arguments unless their sum overflows. *)
Theorem C34_average : forall x y, fis_finite x = true -> fis_finite y = true -> (Rabs (R_of x + R_of y) <= bp 1023)%R ->
  R_of (average x y) = RN (RN (R_of x + R_of y) / 2) /\ fis_finite (average x y) = true /\
  (fleb x y = true -> fleb x (average x y) = true /\ fleb (average x y) y = true) /\ feqb (average x y) (average y x) = true.
Proof.
  intros x y Fx Fy B.
  assert (forall u v, fis_finite u = true -> fis_finite v = true -> (Rabs (R_of u + R_of v) <= bp 1023)%R ->
    fis_finite (average u v) = true /\ R_of (average u v) = RN (RN (R_of u + R_of v) / 2)) as G.
  { intros u v Fu Fv K. assert (Rabs (RN (R_of u + R_of v)) <= bp 1023)%R as K1 by (apply RN_abs_le; [lia|exact K]).
    destruct (fadd_R u v Fu Fv) as (F1 & E1); [eapply Rle_lt_trans; [exact K1|apply bpow_lt; lia]|].
    unfold average. destruct (fdiv_R (fadd u v) f2 F1) as (F2 & E2).
    - rewrite R_of_f2. lra.
    - rewrite R_of_f2, E1. eapply Rle_lt_trans; [apply (RN_abs_le 1023); [lia|]|apply bpow_lt; lia].
      unfold Rdiv. rewrite Rabs_mult, (Rabs_pos_eq (/ 2)) by lra. pose proof (bpow_gt_0 radix2 1023). lra.
    - split; [exact F2|]. now rewrite E2, E1, R_of_f2. }
  destruct (G x y Fx Fy B) as (F & E). split; [exact E|]. split; [exact F|]. split.
  - rewrite !fleb_R by assumption. intros L. assert (R_of x <= R_of y)%R as L' by (destruct (Rle_bool_spec (R_of x) (R_of y)); [assumption|discriminate]).
    assert (forall u, fis_finite u = true -> RN (R_of u) = R_of u) as Id by (intros u _; apply RN_id, generic_format_B2R).
    assert (forall u, fis_finite u = true -> fmt (2 * R_of u)) as Dbl.
    { intros u _. apply generic_format_FLT. destruct (FLT_format_generic _ _ _ _ (generic_format_B2R 53 1024 u)) as [f Ef Hm He].
      exists (Float radix2 (Fnum f) (Fexp f + 1)); cbn [Fnum Fexp]; [|exact Hm|lia].
      unfold R_of; rewrite Ef. unfold F2R. cbn [Fnum Fexp]. rewrite bpow_plus. change (bp 1) with 2%R. ring. }
    rewrite E. split; apply Rle_bool_true.
    + rewrite <- (Id x Fx) at 1. apply RN_le. assert (2 * R_of x <= RN (R_of x + R_of y))%R; [|lra].
      rewrite <- (RN_id _ (Dbl x Fx)). apply RN_le. lra.
    + rewrite <- (Id y Fy) at 2. apply RN_le. assert (RN (R_of x + R_of y) <= 2 * R_of y)%R; [|lra].
      rewrite <- (RN_id _ (Dbl y Fy)). apply RN_le. lra.
  - destruct (G y x Fy Fx) as (F' & E'); [now rewrite Rplus_comm|]. rewrite feqb_R by assumption. rewrite E, E', (Rplus_comm (R_of y)). now apply Req_bool_true.
Qed.
Theorem C34_average_overflow_refuted : fis_finite (average (mkf 1 1023) (mkf 1 1023)) = false.
Proof. vm_compute. reflexivity. Qed.
Example C34_average_example : feqb (average (fofZ 3) (fofZ 8)) (fdiv (fofZ 11) f2) = true.
Proof. vm_compute. reflexivity. Qed.
Example C34_example : clamp_f64 (fofZ 7) (fofZ 1) (fofZ 5) = fofZ 5 /\ clamp_f64 (fofZ 3) (fofZ 1) (fofZ 5) = fofZ 3 /\
  max_4 (fofZ 3) (fofZ 9) (fofZ 2) (fofZ 4) = fofZ 9.
Proof. repeat split. Qed.

(** ** C35 *)
Theorem C35_wrap_exact : forall index mx, i32_min < index <= i32_max -> 0 < mx <= i32_max ->
  exists r, mu_wrap index mx = Ok r /\ (r - index) mod mx = 0 /\ 0 <= r <= mx /\
  (r = mx <-> index < 0 /\ index mod mx = 0).
Proof.
  intros i mx Hi Hm. unfold mu_wrap, i32_rem. unfold i32_min, i32_max in *.
  destruct (Z.eqb_spec mx 0); [lia|]. destruct (Z.ltb_spec i 0).
  - rewrite i32_chk_ok by (unfold i32_min, i32_max; lia). cbn [bind].
    destruct (Z.eqb_spec mx (-1)); [lia|]. rewrite andb_false_r. cbn [bind].
    rewrite Z.rem_mod_nonneg by lia.
    assert (0 <= (i * -1) mod mx < mx) by (apply Z.mod_pos_bound; lia).
    rewrite i32_chk_ok by (unfold i32_min, i32_max; lia).
    eexists. split; [reflexivity|]. split; [|split; [lia|]].
    + pose proof (Z.div_mod (i * -1) mx ltac:(lia)).
      replace (mx - (i * -1) mod mx - i) with ((1 + (i * -1) / mx) * mx) by lia.
      apply Z.mod_mul; lia.
    + replace (i mod mx = 0) with (i mod mx = 0) by reflexivity.
      split.
      * intros E. split; auto. assert ((i * -1) mod mx = 0) as E' by lia.
        apply Z.mod_divide in E'; [|lia]. apply Z.mod_divide; [lia|].
        destruct E' as [q Hq]. exists (- q). lia.
      * intros [_ E]. apply Z.mod_divide in E; [|lia]. destruct E as [q Hq].
        replace (i * -1) with ((- q) * mx) by lia. rewrite Z.mod_mul; lia.
  - destruct (Z.eqb_spec i (-2147483648)); [lia|]. cbn [andb].
    rewrite Z.rem_mod_nonneg by lia.
    assert (0 <= i mod mx < mx) by (apply Z.mod_pos_bound; lia).
    eexists. split; [reflexivity|]. split; [|split; lia].
    pose proof (Z.div_mod i mx ltac:(lia)).
    replace (i mod mx - i) with ((- (i / mx)) * mx) by lia. apply Z.mod_mul; lia.
Qed.
Theorem C35_wrap_in_range_refuted : mu_wrap (-3) 3 = Ok 3.
Proof. reflexivity. Qed.
Theorem C35_wrap_min_panics : forall mx, mu_wrap i32_min mx = Panic.
Proof. reflexivity. Qed.
Theorem C35_ceil_positive_denominator : forall num denom, i32_min <= num <= i32_max -> 0 < denom <= i32_max ->
  exists q, mu_ceil num denom = Ok q /\ (q - 1) * denom < num <= q * denom.
Proof.
  intros n d Hn Hd. unfold mu_ceil, i32_div. unfold i32_min, i32_max in *.
  destruct (Z.eqb_spec d 0); [lia|].
  pose proof (Z.quot_rem' n d) as QR. pose proof (Z.rem_bound_abs n d ltac:(lia)).
  assert (0 <= n -> 0 <= Z.rem n d) by (intros; apply Z.rem_bound_pos; lia).
  assert (n <= 0 -> Z.rem n d <= 0) by (intros; pose proof (Z.rem_opp_l n d ltac:(lia)); pose proof (Z.rem_bound_pos (- n) d); lia).
  set (q := Z.quot n d) in *. set (r := Z.rem n d) in *.
  assert (Z.abs q <= Z.abs n) by nia.
  rewrite i32_chk_ok by (unfold i32_min, i32_max; lia). cbn [bind].
  rewrite i32_chk_ok by (unfold i32_min, i32_max; nia). cbn [bind].
  rewrite Z.geb_leb. destruct (Z.leb_spec n (q * d)).
  - exists q. split; auto. nia.
  - assert (q < n) by nia. rewrite i32_chk_ok by (unfold i32_min, i32_max; lia). exists (q + 1). split; auto. nia.
Qed.
Theorem C35_ceil_negative_denominator_refuted : mu_ceil 7 (-2) = Ok (-2) /\ mu_ceil (-7) (-2) = Ok 3.
Proof. split; reflexivity. Qed.
Example C35_example : mu_wrap 7 3 = Ok 1 /\ mu_wrap (-1) 3 = Ok 2 /\ mu_ceil 7 2 = Ok 4 /\ mu_ceil (-7) 2 = Ok (-3).
Proof. repeat split. Qed.

(** ** C36 *)
Theorem C36_quasirandom_step_in_unit : forall curr alpha,
  fleb f0 curr = true -> fltb curr f1 = true -> fleb f0 alpha = true -> fltb alpha f1 = true ->
  fleb f0 (quasirandom_curr_alpha curr alpha) = true /\ fltb (quasirandom_curr_alpha curr alpha) f1 = true.
Proof. exact quasi_step. Qed.
Theorem C36_quasirandom_all_iterates_in_unit : forall k seed,
  fleb f0 seed = true -> fltb seed f1 = true ->
  let x := Nat.iter k quasirandom_curr seed in fleb f0 x = true /\ fltb x f1 = true.
Proof.
  induction k as [|k IH]; intros s H0 H1; cbn; [auto|].
  destruct (IH s H0 H1). apply quasi_step; auto; apply phi_inv_unit.
Qed.
(** Each step adds [alpha] modulo 1, with one rounding; without an [alpha] it
    adds the golden section (sqrt 5 - 1) / 2. *)
Theorem C36_step_adds : forall curr alpha,
  fleb f0 curr = true -> fltb curr f1 = true -> fleb f0 alpha = true -> fltb alpha f1 = true ->
  exists k : Z, (k = 0 \/ k = 1) /\ (Rabs (R_of (quasirandom_curr_alpha curr alpha) - (R_of curr + R_of alpha - IZR k)) <= bp (-52))%R.
Proof. intros c a C0 C1 A0 A1. destruct (quasi_value c a C0 C1 A0 A1) as (k & K & _ & H). eauto. Qed.
Theorem C36_step_golden : forall curr, fleb f0 curr = true -> fltb curr f1 = true ->
  exists k : Z, (k = 0 \/ k = 1) /\ (Rabs (R_of (quasirandom_curr curr) - (R_of curr + (sqrt 5 - 1) / 2 - IZR k)) <= bp (-51))%R.
Proof.
  intros c C0 C1. destruct phi_inv_unit as (A0 & A1). destruct (quasi_value c phi_inv C0 C1 A0 A1) as (k & K & _ & H).
  exists k. split; [exact K|]. pose proof phi_inv_golden as G. fold (quasirandom_curr c) in H.
  assert (bp (-51) = 2 * bp (-52))%R as E1 by (change 2%R with (bp 1); now rewrite <- bpow_plus).
  assert (bp (-52) = 4 * bp (-54))%R as E2 by (change 4%R with (bp 2); now rewrite <- bpow_plus).
  pose proof (bpow_gt_0 radix2 (-54)). apply Rabs_le_inv in H, G. apply Rabs_le. lra.
Qed.
Example C36_example : let x := Nat.iter 2 quasirandom_curr fhalf in
  fltb (quasirandom_curr fhalf) fhalf = true /\ fltb fhalf x = true /\ fltb x f1 = true.
Proof. repeat split; vm_compute; reflexivity. Qed.

(** ** C37 *)
Theorem C37_shuffle_always_panics_refuted : forall rng n, shuffle rng n = Panic.
Proof. exact shuffle_loop_first. Qed.
(** The swapping loop itself permutes an array that has been filled in. *)
Theorem C37_swap_loop_permutes : forall rng ints i, (i < length ints)%nat -> (forall k, (rng k <= k)%nat) ->
  exists r, shuffle_loop rng i ints = Ok r /\ Permutation ints r.
Proof.
  intros rng ints i. revert ints. induction i as [|i IH]; intros ints L Hr; cbn [shuffle_loop]; [eauto|].
  pose proof (Hr (S i)).
  rewrite (idx_nth _ _ 0%Z), (idx_nth _ (rng (S i)) 0%Z) by lia. cbn [bind].
  set (j := rng (S i)) in *.
  destruct (upd_some ints (S i) (nth j ints 0)) as (l1 & E1); [lia|]. rewrite E1. cbn [bind].
  destruct (upd_spec _ _ _ _ E1) as (L1 & _ & N1).
  destruct (upd_some l1 j (nth (S i) ints 0)) as (l2 & E2); [lia|]. rewrite E2. cbn [bind].
  destruct (upd_spec _ _ _ _ E2) as (L2 & _ & N2).
  destruct (IH l2) as (r & Er & P); [lia|assumption|]. exists r. split; auto.
  eapply Permutation_trans; [|exact P].
  apply (Permutation_nth ints l2 0). split; [lia|].
  exists (fun x => if Nat.eqb x j then S i else if Nat.eqb x (S i) then j else x). cbn zeta.
  split; [|split].
  - intros x Hx. destruct (Nat.eqb_spec x j), (Nat.eqb_spec x (S i)); lia.
  - intros x y Hx Hy. destruct (Nat.eqb_spec x j), (Nat.eqb_spec x (S i)), (Nat.eqb_spec y j), (Nat.eqb_spec y (S i)); lia.
  - intros x Hx. rewrite N2. destruct (Nat.eqb_spec x j); [reflexivity|].
    rewrite N1. destruct (Nat.eqb_spec x (S i)); reflexivity.
Qed.
Example C37_example : exists r, shuffle_loop (fun k => Nat.div2 k) 3 [0; 1; 2; 3] = Ok r /\ r = [2; 0; 3; 1].
Proof. eexists. split; reflexivity. Qed.
