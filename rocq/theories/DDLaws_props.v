(** C72, continued: laws of double-double arithmetic.  The unit tests of the
    repository try some of them on a few numbers each: that multiplying and
    dividing by the same number gives the number back, that the reciprocal of a
    reciprocal and the square of a root do, and that order does not matter. *)
From Coq Require Import ZArith Bool Reals Lia Lra Psatz.
From Flocq Require Import Core BinarySingleNaN.
From Verif Require Import Base F64 F64Facts F64Round F64Err NumLink DD_model DD_spec DD_proofs DD_more DDSum_proofs DD_props DDArith_proofs DDArith_props.
Local Open Scope R_scope.

(** *** Order of the arguments *)
(** Sum of (X, x) and (Y, y) as real numbers: high and low part. *)
Definition addR (X x Y y : R) : R * R :=
  let ss := RN (X + Y) in let s := X + Y - ss in let tt := RN (x + y) in let t := x + y - tt in
  let e := RN (s + tt) in let hh := RN (ss + e) in let h := RN (e + RN (ss - hh)) in let e := RN (t + h) in
  let zhi := RN (hh + e) in (zhi, RN (e + RN (hh - zhi))).
Lemma add_val k x y : (-1000 <= k <= 1000)%Z -> normed x -> normed y -> bf k (hi x) -> bf k (hi y) ->
  (R_of (hi (dd_add x y)), R_of (lo (dd_add x y))) = addR (R_of (hi x)) (R_of (lo x)) (R_of (hi y)) (R_of (lo y)).
Proof.
  intros K Nx Ny Bxh Byh. pose proof (bf_lo _ _ Nx Bxh) as Bxl. pose proof (bf_lo _ _ Ny Byh) as Byl.
  destruct x as (xh & xl), y as (yh & yl). cbn [hi lo] in *. unfold dd_add, dd_add_hi_lo. cbn [hi lo].
  destruct (two_sum_bf k xh yh ltac:(lia) Bxh Byh) as (Bss & Ess & Bs & Es). cbv zeta in *.
  destruct (two_sum_bf k xl yl ltac:(lia) Bxl Byl) as (Btt & Ett & Bt & Et). cbv zeta in *.
  set (ss := fadd xh yh) in *. set (tt := fadd xl yl) in *.
  set (s := fadd (fsub yh (fsub ss xh)) (fsub xh (fsub ss (fsub ss xh)))) in *.
  set (t := fadd (fsub yl (fsub tt xl)) (fsub xl (fsub tt (fsub tt xl)))) in *.
  destruct (bf_add (k + 1) s tt ltac:(lia) (bf_weak k (k + 1) s ltac:(lia) Bs) Btt) as (Be & Ee). set (e := fadd s tt) in *.
  destruct (bf_add (k + 2) ss e ltac:(lia) (bf_weak (k + 1) (k + 2) ss ltac:(lia) Bss) (bf_weak (k + 1 + 1) (k + 2) e ltac:(lia) Be)) as (Bhh & Ehh).
  set (hh := fadd ss e) in *.
  destruct (bf_sub (k + 3) ss hh ltac:(lia) (bf_weak (k + 1) (k + 3) ss ltac:(lia) Bss) (bf_weak (k + 2 + 1) (k + 3) hh ltac:(lia) Bhh)) as (Bg & Eg).
  destruct (bf_add (k + 4) e (fsub ss hh) ltac:(lia) (bf_weak (k + 1 + 1) (k + 4) e ltac:(lia) Be) (bf_weak (k + 3 + 1) (k + 4) _ ltac:(lia) Bg)) as (Bh & Eh).
  set (h := fadd e (fsub ss hh)) in *.
  destruct (bf_add (k + 5) t h ltac:(lia) (bf_weak k (k + 5) t ltac:(lia) Bt) (bf_weak (k + 4 + 1) (k + 5) h ltac:(lia) Bh)) as (Be' & Ee').
  set (e' := fadd t h) in *.
  destruct (bf_add (k + 6) hh e' ltac:(lia) (bf_weak (k + 2 + 1) (k + 6) hh ltac:(lia) Bhh) (bf_weak (k + 5 + 1) (k + 6) e' ltac:(lia) Be')) as (Bz & Ez).
  set (zhi := fadd hh e') in *.
  destruct (bf_sub (k + 7) hh zhi ltac:(lia) (bf_weak (k + 2 + 1) (k + 7) hh ltac:(lia) Bhh) (bf_weak (k + 6 + 1) (k + 7) zhi ltac:(lia) Bz)) as (Bd & Ed).
  destruct (bf_add (k + 8) e' (fsub hh zhi) ltac:(lia) (bf_weak (k + 5 + 1) (k + 8) e' ltac:(lia) Be') (bf_weak (k + 7 + 1) (k + 8) _ ltac:(lia) Bd)) as (Bl & El).
  unfold addR. rewrite El, Ed, Ez, Ee', Eh, Eg, Ehh, Ee, Es, Et, Ess, Ett. reflexivity.
Qed.
Lemma addR_comm X x Y y : addR X x Y y = addR Y y X x.
Proof. unfold addR. now rewrite (Rplus_comm Y X), (Rplus_comm y x). Qed.
(** Sums and products do not depend on the order of the arguments, down to the
    last bit of both parts. *)
Theorem C72_sum_commutes : forall k x y, (-1000 <= k <= 1000)%Z -> normed x -> normed y -> bf k (hi x) -> bf k (hi y) ->
  R_of (hi (dd_add x y)) = R_of (hi (dd_add y x)) /\ R_of (lo (dd_add x y)) = R_of (lo (dd_add y x)) /\ dd_equals (dd_add x y) (dd_add y x) = true.
Proof.
  intros k x y K Nx Ny Bx By. pose proof (add_val k x y K Nx Ny Bx By) as E. pose proof (add_val k y x K Ny Nx By Bx) as F.
  rewrite addR_comm, <- F in E. assert (E1 := f_equal fst E). assert (E2 := f_equal snd E). cbn [fst snd] in E1, E2. split; [exact E1|]. split; [exact E2|].
  apply dd_equals_R; [now apply (dd_add_normed k)|now apply (dd_add_normed k)|]. unfold dval. now rewrite E1, E2.
Qed.
(** Product of (X, x) and (Y, y) as real numbers, when no bit is lost below. *)
Definition mulR (X x Y y : R) : R * R :=
  let cc := RN (X * Y) in let c := RN (X * Y - cc + RN (RN (X * y) + RN (x * Y))) in
  let zhi := RN (cc + c) in (zhi, RN (c + RN (cc - zhi))).
Lemma mul_val k l x y : (-400 <= k <= 480)%Z -> (-400 <= l <= 480)%Z -> normed x -> normed y -> bf k (hi x) -> bf l (hi y) ->
  (R_of (hi x) * R_of (hi y) = 0 \/ bp (-969) <= Rabs (R_of (hi x) * R_of (hi y))) ->
  (R_of (hi (dd_mul x y)), R_of (lo (dd_mul x y))) = mulR (R_of (hi x)) (R_of (lo x)) (R_of (hi y)) (R_of (lo y)).
Proof.
  intros K L Nx Ny Bxh Byh OK. pose proof (bf_lo _ _ Nx Bxh) as Bxl. pose proof (bf_lo _ _ Ny Byh) as Byl.
  unfold dd_mul. rewrite (dfin_nan _ (normed_fin _ Ny)). destruct x as (xh & xl), y as (yh & yl). cbn [hi lo] in *.
  unfold dd_self_mul, dd_mul_hi_lo. cbn [hi lo]. change SPLIT with SPLIT64.
  destruct (dekker_f64 k l xh yh ltac:(lia) ltac:(lia) ltac:(lia) Bxh Byh) as (Bp & Ep & Bt & Et). cbv zeta in *.
  set (cc := fmul xh yh) in *. set (t4 := fadd _ (fmul (fsub xh _) (fsub yh _))) in *.
  destruct (bf_mul k l xh yl ltac:(lia) Bxh Byl) as (B1 & E1). set (a1 := fmul xh yl) in *.
  destruct (bf_mul k l xl yh ltac:(lia) Bxl Byh) as (B2 & E2). set (a2 := fmul xl yh) in *.
  destruct (bf_add (k + l) a1 a2 ltac:(lia) B1 B2) as (B3 & E3). set (a3 := fadd a1 a2) in *.
  destruct (bf_add (k + l + 5) t4 a3 ltac:(lia) Bt (bf_weak (k + l + 1) (k + l + 5) a3 ltac:(lia) B3)) as (Bc & Ec). set (c := fadd t4 a3) in *.
  destruct (bf_add (k + l + 6) cc c ltac:(lia) (bf_weak (k + l) (k + l + 6) cc ltac:(lia) Bp) (bf_weak (k + l + 5 + 1) (k + l + 6) c ltac:(lia) Bc)) as (Bz & Ez).
  set (zhi := fadd cc c) in *.
  destruct (bf_sub (k + l + 7) cc zhi ltac:(lia) (bf_weak (k + l) (k + l + 7) cc ltac:(lia) Bp) (bf_weak (k + l + 6 + 1) (k + l + 7) zhi ltac:(lia) Bz)) as (Bd & Ed).
  destruct (bf_add (k + l + 8) c (fsub cc zhi) ltac:(lia) (bf_weak (k + l + 5 + 1) (k + l + 8) c ltac:(lia) Bc) (bf_weak (k + l + 7 + 1) (k + l + 8) _ ltac:(lia) Bd)) as (Bl & El).
  pose proof (proj1 (RN_dekker (R_of xh) (R_of yh) (format_R _) (format_R _)) OK) as D. rewrite <- Et in D.
  assert (R_of t4 = R_of xh * R_of yh - RN (R_of xh * R_of yh)) as T4 by lra.
  unfold mulR. rewrite El, Ed, Ez, Ec, E3, E1, E2, T4, Ep. reflexivity.
Qed.
Lemma mulR_comm X x Y y : mulR X x Y y = mulR Y y X x.
Proof. unfold mulR. now rewrite (Rmult_comm Y X), (Rmult_comm y X), (Rmult_comm Y x), (Rplus_comm (RN (x * Y))). Qed.
Theorem C72_product_commutes : forall k l x y, (-400 <= k <= 480)%Z -> (-400 <= l <= 480)%Z -> normed x -> normed y -> bf k (hi x) -> bf l (hi y) ->
  (dval x * dval y = 0 \/ bp (-899) <= Rabs (dval x * dval y)) ->
  R_of (hi (dd_mul x y)) = R_of (hi (dd_mul y x)) /\ R_of (lo (dd_mul x y)) = R_of (lo (dd_mul y x)) /\ dd_equals (dd_mul x y) (dd_mul y x) = true.
Proof.
  intros k l x y K L Nx Ny Bx By OK.
  assert (M : R_of (hi x) * R_of (hi y) = 0 \/ bp (-969) <= Rabs (R_of (hi x) * R_of (hi y))).
  { pose proof (normed_hi_val x Nx) as (Hx1 & Hx2). pose proof (normed_hi_val y Ny) as (Hy1 & Hy2).
    destruct OK as [OK|OK].
    - left. apply Rmult_integral in OK. destruct Nx as (_ & Ex), Ny as (_ & Ey). rewrite Ex, Ey.
      destruct OK as [Z|Z]; rewrite Z, RN_0; ring.
    - right. rewrite Rabs_mult in *. pose proof (Rabs_pos (dval x)). pose proof (Rabs_pos (dval y)).
      pose proof (Rabs_pos (R_of (hi x))). pose proof (Rabs_pos (R_of (hi y))).
      assert (Rabs (dval x) * Rabs (dval y) <= (2 * Rabs (R_of (hi x))) * (2 * Rabs (R_of (hi y)))) by (apply Rmult_le_compat; lra).
      assert (bp (-899) = 4 * bp (-901)) by (change (-899)%Z with (2 + -901)%Z; rewrite bpow_plus; reflexivity).
      assert (bp (-969) <= bp (-901)) by (apply bpow_le; lia). lra. }
  pose proof (mul_val k l x y K L Nx Ny Bx By M) as E. rewrite Rmult_comm in M. pose proof (mul_val l k y x L K Ny Nx By Bx M) as F.
  rewrite mulR_comm, <- F in E. assert (E1 := f_equal fst E). assert (E2 := f_equal snd E). cbn [fst snd] in E1, E2. split; [exact E1|]. split; [exact E2|].
  assert (N1 : normed (dd_mul x y)).
  { unfold dd_mul. rewrite (dfin_nan _ (normed_fin _ Ny)). now apply (C72_product_error k l). }
  assert (N2 : normed (dd_mul y x)).
  { unfold dd_mul. rewrite (dfin_nan _ (normed_fin _ Nx)). apply (C72_product_error l k); try assumption. now rewrite (Rmult_comm (dval y)). }
  apply dd_equals_R; [exact N1|exact N2|]. unfold dval. now rewrite E1, E2.
Qed.

(** *** Twice a number *)
Lemma RN_twice X x : fmt X -> fmt x -> RN (2 * (X + x)) = 2 * RN (X + x).
Proof.
  intros FX Fx. set (r := X + x). destruct (Req_dec r 0) as [-> |N]; [rewrite Rmult_0_r, RN_0; ring|].
  assert (mag radix2 (2 * r) = mag radix2 r + 1 :> Z)%Z as M by (rewrite Rmult_comm; change 2 with (bp 1); now apply mag_mult_bpow).
  destruct (Z_le_gt_dec (-1074) (mag radix2 r - 53)) as [G|G].
  - assert (cexp radix2 fexp64 (2 * r) = cexp radix2 fexp64 r + 1)%Z as C.
    { unfold cexp. rewrite M. unfold SpecFloat.fexp, SpecFloat.emin. lia. }
    unfold round, F2R, scaled_mantissa. cbn [Fnum Fexp]. rewrite C.
    replace (2 * r * bp (- (cexp radix2 fexp64 r + 1))) with (r * bp (- cexp radix2 fexp64 r)).
    + rewrite bpow_plus. change (bp 1) with 2. ring.
    + replace (- (cexp radix2 fexp64 r + 1))%Z with (- cexp radix2 fexp64 r + -1)%Z by lia. rewrite bpow_plus. change (bp (-1)) with (/ 2). field.
  - assert (mult (-1074) r) as (n & E).
    { apply mult_add; eapply mult_weak; try (apply mult_cexp; assumption); unfold cexp, SpecFloat.fexp, SpecFloat.emin; lia. }
    assert (forall s, mult (-1074) s -> (mag radix2 s <= -1021)%Z -> fmt s) as FS.
    { intros s (m & ->) B. apply generic_format_F2R' with (f := Float radix2 m (-1074)); [reflexivity|]. intros _. cbn [Fexp].
      unfold cexp, SpecFloat.fexp, SpecFloat.emin. lia. }
    rewrite !RN_id; [reflexivity| |].
    + apply FS; [now exists n|lia].
    + apply FS; [|lia]. exists (2 * n)%Z. rewrite E, mult_IZR. ring.
Qed.
Lemma double_add k x : (-1000 <= k <= 1000)%Z -> normed x -> bf k (hi x) -> dval (dd_add x x) = 2 * dval x.
Proof.
  intros K N B. set (X := R_of (hi x)). set (x' := R_of (lo x)).
  assert (EX : X = RN (X + x')) by apply N. assert (FX : fmt X) by apply format_R. assert (Fx : fmt x') by apply format_R.
  assert (F2 : forall r, fmt r -> RN (2 * r) = 2 * r).
  { intros r Fr. pose proof (RN_twice r 0 Fr (generic_format_0 _ _)) as H. rewrite Rplus_0_r, (RN_id r Fr) in H. exact H. }
  assert (T : RN (2 * X + 2 * x') = 2 * X).
  { replace (2 * X + 2 * x') with (2 * (X + x')) by ring. rewrite RN_twice by assumption. now rewrite <- EX. }
  assert (Z : forall r, RN (r - r) = 0) by (intros r; unfold Rminus; rewrite Rplus_opp_r; apply RN_0).
  pose proof (add_val k x x K N N B B) as E. fold X x' in E. unfold addR in E.
  replace (X + X) with (2 * X) in E by ring. replace (x' + x') with (2 * x') in E by ring.
  rewrite (F2 X FX), (F2 x' Fx) in E. replace (2 * X - 2 * X) with 0 in E by ring. replace (2 * x' - 2 * x') with 0 in E by ring.
  rewrite !Rplus_0_l, !(F2 x' Fx), T, Z, !Rplus_0_r, !(F2 x' Fx), T, Z, !Rplus_0_r, !(F2 x' Fx) in E.
  assert (E1 := f_equal fst E). assert (E2 := f_equal snd E). cbn [fst snd] in E1, E2. unfold dval. rewrite E1, E2. fold X x'. ring.
Qed.
Lemma double_mul k x y : (-400 <= k <= 480)%Z -> normed x -> bf k (hi x) -> normed y -> R_of (hi y) = 2 -> R_of (lo y) = 0 ->
  dval x = 0 \/ bp (-899) <= Rabs (dval x) -> normed (dd_mul x y) /\ dval (dd_mul x y) = 2 * dval x.
Proof.
  intros K N B N2 R2 R0 OK. set (X := R_of (hi x)). set (x' := R_of (lo x)).
  assert (EX : X = RN (X + x')) by apply N. assert (FX : fmt X) by apply format_R. assert (Fx : fmt x') by apply format_R.
  assert (F2 : forall r, fmt r -> RN (2 * r) = 2 * r).
  { intros r Fr. pose proof (RN_twice r 0 Fr (generic_format_0 _ _)) as H. rewrite Rplus_0_r, (RN_id r Fr) in H. exact H. }
  assert (T : RN (2 * X + 2 * x') = 2 * X).
  { replace (2 * X + 2 * x') with (2 * (X + x')) by ring. rewrite RN_twice by assumption. now rewrite <- EX. }
  assert (Z : forall r, RN (r - r) = 0) by (intros r; unfold Rminus; rewrite Rplus_opp_r; apply RN_0).
  assert (V2 : dval y = 2) by (unfold dval; rewrite R2, R0; ring).
  assert (B2 : bf 1 (hi y)) by (split; [apply N2|rewrite R2, Rabs_pos_eq by lra; change (bp 1) with 2; lra]).
  split.
  { unfold dd_mul. rewrite (dfin_nan _ (normed_fin _ N2)). apply (C72_product_error k 1); try assumption; try lia.
    rewrite V2. destruct OK as [-> |OK]; [left; ring|right]. rewrite Rabs_mult, (Rabs_pos_eq 2) by lra. pose proof (Rabs_pos (dval x)). lra. }
  pose proof (mul_val k 1 x y K ltac:(lia) N N2 B B2) as E. rewrite R2, R0 in E. fold X x' in E. unfold mulR in E.
  rewrite Rmult_0_r, RN_0, Rplus_0_l, (Rmult_comm X 2), (Rmult_comm x' 2), (F2 X FX), (F2 x' Fx), !(F2 x' Fx) in E.
  replace (2 * X - 2 * X) with 0 in E by ring. rewrite Rplus_0_l, !(F2 x' Fx), T, Z, Rplus_0_r, (F2 x' Fx) in E.
  assert (2 * X = 0 \/ bp (-969) <= Rabs (2 * X)) as Q.
  { destruct OK as [OK|OK].
    - left. replace X with (RN (dval x)) by (symmetry; exact EX). rewrite OK, RN_0. ring.
    - right. pose proof (normed_hi_val x N) as (H1 & H2). fold X in H1, H2. rewrite Rabs_mult, (Rabs_pos_eq 2) by lra.
      assert (bp (-969) <= bp (-899)) by (apply bpow_le; lia). pose proof (Rabs_pos X). lra. }
  specialize (E Q). assert (E1 := f_equal fst E). assert (E2 := f_equal snd E). cbn [fst snd] in E1, E2. unfold dval. rewrite E1, E2. fold X x'. ring.
Qed.
(** x + x and 2 x are the same number, exactly twice x. *)
Theorem C72_double : forall k x, (-1000 <= k <= 1000)%Z -> normed x -> bf k (hi x) -> dval (dd_add x x) = 2 * dval x /\
  ((-400 <= k <= 480)%Z -> dval x = 0 \/ bp (-899) <= Rabs (dval x) ->
     dval (dd_mul x (dd_of f2)) = 2 * dval x /\ dd_equals (dd_add x x) (dd_mul x (dd_of f2)) = true).
Proof.
  intros k x K N B. pose proof (double_add k x K N B) as A. split; [exact A|]. intros K' OK.
  assert (R2 : R_of (hi (dd_of f2)) = 2) by exact R_of_f2. assert (R0 : R_of (lo (dd_of f2)) = 0) by exact R_f0.
  assert (N2 : normed (dd_of f2)) by (apply normed_of; reflexivity).
  revert R2 R0 N2. generalize (dd_of f2) as y. intros y R2 R0 N2.
  destruct (double_mul k x y K' N B N2 R2 R0 OK) as (NM & M). split; [exact M|].
  apply dd_equals_R; [now apply (dd_add_normed k)|exact NM|]. now rewrite A, M.
Qed.

(** *** There and back *)
(** [a] is [b] up to [c] units of 2^-106, relatively. *)
Definition rel (c a b : R) : Prop := Rabs (a - b) <= c * (u53 * u53) * Rabs b.
Lemma uu_small : 0 < u53 * u53 /\ u53 * u53 <= / 1000000000000.
Proof. change u53 with (/ 9007199254740992). lra. Qed.
Lemma rel_factor c a b : 0 <= c -> rel c a b -> exists d, a = b * (1 + d) /\ Rabs d <= c * (u53 * u53).
Proof.
  intros C E. unfold rel in E. destruct (Req_dec b 0) as [Z|N].
  - exists 0. subst b. rewrite Rabs_R0, Rmult_0_r, Rminus_0_r in E. assert (a = 0) as -> by (destruct (Req_dec a 0) as [?|M]; [assumption|apply Rabs_pos_lt in M; lra]).
    rewrite Rabs_R0. split; [ring|]. pose proof uu_small. nra.
  - exists ((a - b) / b). split; [field; exact N|]. unfold Rdiv. rewrite Rabs_mult, Rabs_inv. apply Rabs_pos_lt in N.
    apply Rmult_le_reg_r with (Rabs b); [exact N|]. rewrite Rmult_assoc, Rinv_l, Rmult_1_r by lra. exact E.
Qed.
Lemma factor_rel c b d : Rabs d <= c * (u53 * u53) -> rel c (b * (1 + d)) b.
Proof.
  intros D. unfold rel. replace (b * (1 + d) - b) with (d * b) by ring. rewrite Rabs_mult. apply Rmult_le_compat_r; [apply Rabs_pos|exact D].
Qed.
(** Two such errors after each other. *)
Lemma rel_mul c1 c2 d1 d2 : 0 <= c1 <= 1000 -> 0 <= c2 <= 1000 -> Rabs d1 <= c1 * (u53 * u53) -> Rabs d2 <= c2 * (u53 * u53) ->
  Rabs ((1 + d1) * (1 + d2) - 1) <= (c1 + c2 + / 2) * (u53 * u53).
Proof.
  intros C1 C2 D1 D2. pose proof uu_small as (U0 & U1). set (u := u53 * u53) in *.
  replace ((1 + d1) * (1 + d2) - 1) with (d1 + d2 + d1 * d2) by ring. eapply Rle_trans; [apply Rabs_triang|].
  assert (Rabs (d1 * d2) <= / 2 * u).
  { rewrite Rabs_mult. apply Rle_trans with ((c1 * u) * (c2 * u)); [apply Rmult_le_compat; auto using Rabs_pos|].
    assert (c1 * c2 <= 1000 * 1000) by (apply Rmult_le_compat; lra). assert (0 <= c1 * c2) by (apply Rmult_le_pos; lra).
    replace (c1 * u * (c2 * u)) with (c1 * c2 * u * u) by ring. apply Rmult_le_compat_r; [lra|]. nra. }
  pose proof (Rabs_triang d1 d2). lra.
Qed.
Lemma factor_range c k b d : (-1000 <= k <= 1000)%Z -> 0 <= c <= 1000 -> Rabs d <= c * (u53 * u53) -> bp (- k) <= Rabs b <= bp k ->
  bp (- k - 1) <= Rabs (b * (1 + d)) <= bp (k + 1).
Proof.
  intros K C D B. pose proof uu_small as (U0 & U1). assert (c * (u53 * u53) <= / 1000) by nra.
  assert (1 / 2 <= Rabs (1 + d) <= 2).
  { apply Rabs_le_inv in D. rewrite Rabs_pos_eq; lra. }
  rewrite Rabs_mult. unfold Zminus. rewrite !bpow_plus. change (bp (-(1))) with (/ 2). change (bp 1) with 2.
  pose proof (bpow_gt_0 radix2 (- k)). pose proof (bpow_gt_0 radix2 k). split; apply Rmult_le_compat; lra.
Qed.
Lemma in_bf k x : (-1074 <= k)%Z -> normed x -> Rabs (dval x) <= bp k -> bf k (hi x).
Proof. intros K N B. split; [apply N|]. destruct N as (_ & ->). now apply RN_abs_le. Qed.
Lemma mul_factor k l x y : (-400 <= k <= 480)%Z -> (-400 <= l <= 480)%Z -> normed x -> normed y -> Rabs (dval x) <= bp k -> Rabs (dval y) <= bp l ->
  bp (-899) <= Rabs (dval x * dval y) -> normed (dd_mul x y) /\ exists d, dval (dd_mul x y) = dval x * dval y * (1 + d) /\ Rabs d <= 10 * (u53 * u53).
Proof.
  intros K L Nx Ny Bx By M. unfold dd_mul. rewrite (dfin_nan _ (normed_fin _ Ny)).
  destruct (C72_product_error k l x y K L Nx Ny (in_bf k x ltac:(lia) Nx Bx) (in_bf l y ltac:(lia) Ny By) (or_intror M)) as (N & E). split; [exact N|].
  apply rel_factor; [lra|exact E].
Qed.
Definition middle (x : DD) : Prop := normed x /\ bp (-140) <= Rabs (dval x) <= bp 140.
Lemma middle_neq x : middle x -> dval x <> 0.
Proof. intros (_ & B) Z. rewrite Z, Rabs_R0 in B. pose proof (bpow_gt_0 radix2 (-140)). lra. Qed.
Lemma middle_wide x : middle x -> bp (-300) <= Rabs (dval x) <= bp 300.
Proof.
  intros (_ & B). assert (bp (-300) <= bp (-140)) by (apply bpow_le; lia). assert (bp 140 <= bp 300) by (apply bpow_le; lia). lra.
Qed.
Lemma prod_range a b : bp (-140) <= Rabs a <= bp 140 -> bp (-140) <= Rabs b <= bp 140 -> bp (- (280)) <= Rabs (a * b) <= bp 280.
Proof.
  intros A B. rewrite Rabs_mult. change (- (280))%Z with (-140 + -140)%Z. change 280%Z with (140 + 140)%Z. rewrite !bpow_plus.
  pose proof (bpow_gt_0 radix2 (-140)). split; apply Rmult_le_compat; lra.
Qed.
Lemma inv_range a : bp (-140) <= Rabs a <= bp 140 -> bp (-140) <= Rabs (/ a) <= bp 140.
Proof.
  intros A. pose proof (bpow_gt_0 radix2 (-140)). rewrite Rabs_inv. change (-140)%Z with (- (140))%Z. rewrite bpow_opp. split.
  - apply Rinv_le; lra.
  - rewrite <- (Rinv_inv (bp 140)), <- bpow_opp. apply Rinv_le; [apply bpow_gt_0|]. change (- (140))%Z with (-140)%Z. apply A.
Qed.
(** Multiplying and then dividing by the same number, and the other way round. *)
Theorem C72_multiply_divide : forall x y, middle x -> middle y ->
  rel 32 (dval (dd_div (dd_mul x y) y)) (dval x) /\ rel 32 (dval (dd_mul (dd_div x y) y)) (dval x).
Proof.
  intros x y Mx My. pose proof (middle_neq _ Mx) as X0. pose proof (middle_neq _ My) as Y0. pose proof (middle_wide _ Mx) as Wx. pose proof (middle_wide _ My) as Wy.
  destruct Mx as (Nx & Bx), My as (Ny & By). split.
  - pose proof (prod_range _ _ Bx By) as P.
    destruct (mul_factor 140 140 x y ltac:(lia) ltac:(lia) Nx Ny ltac:(lra) ltac:(lra)) as (N & d & E & D).
    { eapply Rle_trans; [|apply P]. apply bpow_le. lia. }
    pose proof (factor_range 10 280 _ d ltac:(lia) ltac:(lra) D P) as Q. rewrite <- E in Q.
    destruct (C72_quotient_error (dd_mul x y) y N Ny) as (_ & F); [|exact Wy|].
    { assert (bp (-300) <= bp (- (280) - 1)) by (apply bpow_le; lia). assert (bp (280 + 1) <= bp 300) by (apply bpow_le; lia). lra. }
    apply rel_factor in F; [|lra]. destruct F as (d' & F & D'). rewrite F, E.
    replace (dval x * dval y * (1 + d) / dval y * (1 + d')) with (dval x * (1 + ((1 + d) * (1 + d') - 1))) by (field; exact Y0).
    apply factor_rel. eapply Rle_trans; [apply (rel_mul 10 21); auto; lra|]. pose proof uu_small. nra.
  - pose proof (prod_range _ _ Bx (inv_range _ By)) as P.
    destruct (C72_quotient_error x y Nx Ny Wx Wy) as (N & F). apply rel_factor in F; [|lra]. destruct F as (d & E & D).
    pose proof (factor_range 21 280 _ d ltac:(lia) ltac:(lra) D P) as Q. change (dval x * / dval y) with (dval x / dval y) in Q. rewrite <- E in Q.
    destruct (mul_factor 281 140 (dd_div x y) y ltac:(lia) ltac:(lia) N Ny ltac:(apply Q) ltac:(lra)) as (_ & d' & F & D').
    { rewrite Rabs_mult. apply Rle_trans with (bp (- (280) - 1) * bp (-140)); [rewrite <- bpow_plus; apply bpow_le; lia|].
      apply Rmult_le_compat; try apply bpow_ge_0; [apply Q|apply By]. }
    rewrite F, E. replace (dval x / dval y * (1 + d) * dval y * (1 + d')) with (dval x * (1 + ((1 + d) * (1 + d') - 1))) by (field; exact Y0).
    apply factor_rel. eapply Rle_trans; [apply (rel_mul 21 10); auto; lra|]. pose proof uu_small. nra.
Qed.
(** The reciprocal of the reciprocal. *)
Theorem C72_reciprocal_twice : forall x, middle x -> rel 44 (dval (dd_recip (dd_recip x))) (dval x).
Proof.
  intros x M. pose proof (middle_neq _ M) as X0. pose proof (middle_wide _ M) as W. destruct M as (N & B).
  destruct (C72_reciprocal_error x N W) as (N1 & F). apply rel_factor in F; [|lra]. destruct F as (d & E & D).
  pose proof (inv_range _ B) as P. pose proof (factor_range 21 140 _ d ltac:(lia) ltac:(lra) D P) as Q. rewrite <- E in Q.
  destruct (C72_reciprocal_error (dd_recip x) N1) as (_ & F).
  { assert (bp (-300) <= bp (-(140) - 1)) by (apply bpow_le; lia). assert (bp (140 + 1) <= bp 300) by (apply bpow_le; lia). lra. }
  apply rel_factor in F; [|lra]. destruct F as (d' & F & D'). pose proof uu_small as (U0 & U1). set (u := u53 * u53) in *.
  assert (Rabs d <= / 1000) by lra. assert (0 < 1 + d) by (apply Rabs_le_inv in H; lra).
  rewrite F, E. set (g := - d / (1 + d)).
  replace (/ (/ dval x * (1 + d)) * (1 + d')) with (dval x * (1 + ((1 + g) * (1 + d') - 1))) by (unfold g; field; split; lra || exact X0).
  apply factor_rel. fold u. eapply Rle_trans; [apply (rel_mul (22) 21); try lra; try exact D'|fold u; lra].
  unfold g. unfold Rdiv. rewrite Rabs_mult, Rabs_Ropp, Rabs_inv, (Rabs_pos_eq (1 + d)) by lra.
  apply Rmult_le_reg_r with (1 + d); [lra|]. rewrite Rmult_assoc, Rinv_l, Rmult_1_r by lra. fold u. apply Rabs_le_inv in H. nra.
Qed.
(** The square of the square root, and the square root of the square. *)
Theorem C72_sqrt_square : forall x, middle x -> (0 < dval x -> rel 172 (dval (dd_sqr (dd_sqrt x))) (dval x)) /\
  rel 91 (dval (dd_sqrt (dd_sqr x))) (Rabs (dval x)).
Proof.
  intros x M. pose proof (middle_neq _ M) as X0. pose proof (middle_wide _ M) as W. destruct M as (N & B). pose proof uu_small as (U0 & U1). split.
  - intros P. rewrite Rabs_pos_eq in B, W by lra.
    destruct (C72_sqrt_error x N W) as (N1 & F). assert (0 < sqrt (dval x)) as S0 by now apply sqrt_lt_R0.
    assert (rel 80 (dval (dd_sqrt x)) (sqrt (dval x))) as F' by (unfold rel; now rewrite (Rabs_pos_eq (sqrt (dval x))) by lra).
    apply rel_factor in F'; [|lra]. destruct F' as (d & E & D).
    assert (SB : bp (- (70)) <= Rabs (sqrt (dval x)) <= bp 70).
    { rewrite Rabs_pos_eq by lra. rewrite <- (sqrt_square (bp (- (70)))), <- (sqrt_square (bp 70)), <- !bpow_plus by apply bpow_ge_0.
      split; apply sqrt_le_1; try apply bpow_ge_0; cbn -[bpow] in *; lra. }
    pose proof (factor_range 80 70 _ d ltac:(lia) ltac:(lra) D SB) as Q. rewrite <- E in Q.
    unfold dd_sqr. destruct (mul_factor 71 71 (dd_sqrt x) (dd_sqrt x) ltac:(lia) ltac:(lia) N1 N1 ltac:(apply Q) ltac:(apply Q)) as (_ & d' & F' & D').
    { rewrite Rabs_mult. apply Rle_trans with (bp (- (70) - 1) * bp (- (70) - 1)); [rewrite <- bpow_plus; apply bpow_le; lia|].
      apply Rmult_le_compat; try apply bpow_ge_0; apply Q. }
    rewrite F', E.
    assert (Rabs ((1 + d) * (1 + d) - 1) <= (80 + 80 + / 2) * (u53 * u53)) as D2 by (apply rel_mul; auto; lra). set (d2 := (1 + d) * (1 + d) - 1) in *.
    replace (sqrt (dval x) * (1 + d) * (sqrt (dval x) * (1 + d)) * (1 + d')) with (sqrt (dval x) * sqrt (dval x) * (1 + ((1 + d2) * (1 + d') - 1))) by (unfold d2; ring).
    rewrite sqrt_sqrt by lra. apply factor_rel. eapply Rle_trans; [apply (rel_mul (80 + 80 + / 2) 10); auto; lra|]. nra.
  - pose proof (prod_range _ _ B B) as P. unfold dd_sqr.
    destruct (mul_factor 140 140 x x ltac:(lia) ltac:(lia) N N ltac:(lra) ltac:(lra)) as (N1 & d & E & D).
    { eapply Rle_trans; [|apply P]. apply bpow_le. lia. }
    pose proof (factor_range 10 280 _ d ltac:(lia) ltac:(lra) D P) as Q. rewrite <- E in Q.
    assert (10 * (u53 * u53) <= / 1000) as D10 by lra. assert (0 < 1 + d) as D1 by (apply Rabs_le_inv in D; lra).
    assert (0 < dval x * dval x) as XX by nra.
    assert (0 < dval (dd_mul x x)) as Z by (rewrite E; now apply Rmult_lt_0_compat). rewrite Rabs_pos_eq in Q by lra.
    destruct (C72_sqrt_error (dd_mul x x) N1) as (_ & F).
    { assert (bp (-300) <= bp (- (280) - 1)) by (apply bpow_le; lia). assert (bp (280 + 1) <= bp 300) by (apply bpow_le; lia). lra. }
    assert (0 < sqrt (dval (dd_mul x x))) as S0 by now apply sqrt_lt_R0.
    assert (rel 80 (dval (dd_sqrt (dd_mul x x))) (sqrt (dval (dd_mul x x)))) as F' by (unfold rel; now rewrite (Rabs_pos_eq (sqrt (dval (dd_mul x x)))) by lra).
    apply rel_factor in F'; [|lra]. destruct F' as (d' & F' & D'). rewrite F', E, sqrt_mult_alt by lra.
    assert (sqrt (dval x * dval x) = Rabs (dval x)) as -> by (rewrite <- sqrt_Rsqr_abs; reflexivity).
    set (g := sqrt (1 + d) - 1). replace (sqrt (1 + d)) with (1 + g) by (unfold g; ring).
    assert (Rabs g <= 10 * (u53 * u53)) as G.
    { assert (0 < sqrt (1 + d)) as S1 by now apply sqrt_lt_R0. pose proof (sqrt_sqrt (1 + d) ltac:(lra)) as SS.
      assert (g * (sqrt (1 + d) + 1) = d) as GE by (unfold g; lra). eapply Rle_trans; [|exact D]. rewrite <- GE at 1. rewrite Rabs_mult, (Rabs_pos_eq (sqrt (1 + d) + 1)) by lra.
      pose proof (Rabs_pos g). nra. }
    replace (Rabs (dval x) * (1 + g) * (1 + d')) with (Rabs (dval x) * (1 + ((1 + g) * (1 + d') - 1))) by ring.
    unfold rel. rewrite Rabs_Rabsolu.
    assert (Rabs ((1 + g) * (1 + d') - 1) <= 91 * (u53 * u53)) as GG by (eapply Rle_trans; [apply (rel_mul 10 80); auto; lra|nra]).
    pose proof (factor_rel 91 (Rabs (dval x)) _ GG) as R'. unfold rel in R'. now rewrite Rabs_Rabsolu in R'.
Qed.
(** 7, and 1/7 with a low part that is not zero. *)
Lemma middle_double a n : (0 < n < 2 ^ 20)%Z -> a = fofZ n -> middle (dd_of a).
Proof.
  intros B ->. destruct (grid_fofZ n ltac:(lia)) as (F & E). split; [now apply normed_of|]. rewrite dval_of, E. change (bp 0) with 1. rewrite Rmult_1_r.
  assert (1 <= IZR n <= 1048576) as (L & U) by (split; [apply (IZR_le 1)|apply (IZR_le _ 1048576)]; lia). rewrite Rabs_pos_eq by lra.
  assert (bp (-140) <= bp 0) by (apply bpow_le; lia). assert (bp 20 <= bp 140) by (apply bpow_le; lia).
  change (bp 0) with 1 in *. change (bp 20) with 1048576 in *. lra.
Qed.
Example C72_laws_example : middle (dd_of (fofZ 7)) /\ middle (dd_recip (dd_of (fofZ 7))) /\ bf 140 (hi (dd_of (fofZ 7))) /\
  fgtb (fabs (lo (dd_recip (dd_of (fofZ 7))))) f0 = true.
Proof.
  assert (M : middle (dd_of (fofZ 7))) by (apply (middle_double _ 7); [lia|reflexivity]). split; [exact M|].
  pose proof (middle_wide _ M) as W. destruct M as (N & B). destruct (C72_reciprocal_error (dd_of (fofZ 7)) N W) as (N1 & E). split; [|split].
  - split; [exact N1|]. revert E. generalize (dd_recip (dd_of (fofZ 7))). intros z E. rewrite dval_of in E.
    destruct (grid_fofZ 7 ltac:(lia)) as (_ & R7). rewrite R7 in E. change (bp 0) with 1 in E. rewrite Rmult_1_r in E. rewrite (Rabs_pos_eq (/ 7)) in E by lra.
    pose proof uu_small as (U0 & U1). assert (Rabs (dval z - / 7) <= / 1000) as D by lra. apply Rabs_le_inv in D. rewrite Rabs_pos_eq by lra.
    assert (bp (-140) <= bp (-10)) by (apply bpow_le; lia). assert (bp 0 <= bp 140) by (apply bpow_le; lia).
    change (bp 0) with 1 in *. change (bp (-10)) with (/ 1024) in *. lra.
  - apply in_bf; [lia|exact N|apply B].
  - vm_compute. reflexivity.
Qed.
