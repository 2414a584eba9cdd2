(** C79: the constants of dd.rs: pi, two pi, half pi, e and EPS. *)
From Coq Require Import ZArith QArith Qreals Reals Bool List Lia Lra Machin Alembert SeqProp Rsigma AltSeries.
From Flocq Require Import Core IEEE754.BinarySingleNaN.
From Verif Require Import Base F64 F64Facts F64Err DD_model DD_spec DDConst_model.
Open Scope Z_scope.

(** ** A double nearest to a real, from a bound *)
Lemma RN_near (x : R) (m e : Z) : 2 ^ 52 < m < 2 ^ 53 -> -1074 <= e ->
  (Rabs (x - IZR m * bp e) < bp e * / 2)%R -> RN x = (IZR m * bp e)%R.
Proof.
  intros M E H. pose proof (bpow_gt_0 radix2 e) as P. apply Rabs_lt_inv in H.
  assert (Rabs (x * bp (- e) - IZR m) < / 2)%R as H2.
  { replace (x * bp (- e) - IZR m)%R with ((x - IZR m * bp e) * bp (- e))%R.
    2:{ rewrite Rmult_minus_distr_r, Rmult_assoc, <- bpow_plus, Z.add_opp_diag_r. cbn [bpow]. ring. }
    rewrite Rabs_mult, (Rabs_pos_eq (bp (- e))) by apply bpow_ge_0.
    apply Rmult_lt_reg_r with (bp e); [exact P|]. rewrite Rmult_assoc, <- bpow_plus, Z.add_opp_diag_l. cbn [bpow].
    rewrite Rmult_1_r, Rmult_comm. rewrite Rmult_comm. apply Rabs_lt. lra. }
  assert (bp (e + 52) <= x < bp (e + 53))%R as B.
  { assert (IZR (2 ^ 52 + 1) <= IZR m <= IZR (2 ^ 53 - 1))%R as K by (split; apply IZR_le; lia).
    rewrite !bpow_plus. change (bp 52) with (IZR (2 ^ 52)). change (bp 53) with (IZR (2 ^ 53)).
    rewrite plus_IZR, minus_IZR in K. split; nra. }
  assert (0 < x)%R as X by (pose proof (bpow_gt_0 radix2 (e + 52)); lra).
  unfold round, F2R, scaled_mantissa, cexp. cbn [Fnum Fexp].
  rewrite (mag_unique radix2 x (e + 53)).
  2:{ replace (e + 53 - 1) with (e + 52) by ring. now rewrite Rabs_pos_eq by lra. }
  unfold fexp64, SpecFloat.fexp, SpecFloat.emin. replace (Z.max (e + 53 - 53) (3 - 1024 - 53)) with e by lia.
  f_equal. f_equal. now apply Znearest_imp.
Qed.

(** ** Rational bounds for pi *)
Definition q_term (n : nat) : Q :=
  let k := Z.of_nat (2 * n + 1) in
  Qred ((2 # (Z.to_pos (k * 3 ^ k))) + (1 # (Z.to_pos (k * 7 ^ k)))).
Fixpoint q_alt (t : nat -> Q) (n : nat) : Q :=
  let u := (if Nat.even n then t n else - t n)%Q in
  match n with O => u | S n' => Qred (q_alt t n' + u)%Q end.

Lemma Q2R_Qred q : Q2R (Qred q) = Q2R q.
Proof. apply Qeq_eqR. apply Qred_correct. Qed.
Lemma q_alt_sum t f n : (forall k, Q2R (t k) = f k) -> Q2R (q_alt t n) = sum_f_R0 (tg_alt f) n.
Proof.
  intros H. assert (U : forall k, Q2R (if Nat.even k then t k else - t k)%Q = tg_alt f k).
  { intros k. unfold tg_alt. destruct (Nat.even k) eqn:V.
    - rewrite H. apply Nat.even_spec in V. destruct V as [j ->]. rewrite pow_1_even. ring.
    - rewrite Q2R_opp, H. assert (O : Nat.odd k = true) by (unfold Nat.odd; now rewrite V). apply Nat.odd_spec in O.
      destruct O as [j ->]. replace (2 * j + 1)%nat with (S (2 * j)) by lia. rewrite pow_1_odd. ring. }
  induction n; cbn [q_alt sum_f_R0].
  - apply U.
  - now rewrite Q2R_Qred, Q2R_plus, IHn, U.
Qed.
Lemma Q2R_inv_pos a k : 0 < k -> Q2R (a # Z.to_pos k) = (IZR a * / IZR k)%R.
Proof. intros K. unfold Q2R. cbn [Qnum Qden]. now rewrite Z2Pos.id. Qed.
Lemma q_term_R n : Q2R (q_term n) = PI_2_3_7_tg n.
Proof.
  unfold q_term, PI_2_3_7_tg, Ratan_seq. rewrite Q2R_Qred, Q2R_plus.
  rewrite !Q2R_inv_pos by (apply Z.mul_pos_pos; [lia|apply Z.pow_pos_nonneg; lia]).
  rewrite !mult_IZR, <- !pow_IZR, <- INR_IZR_INZ.
  assert (INR (2 * n + 1) <> 0)%R by (apply not_0_INR; lia).
  assert (forall x, x <> 0 -> x ^ (2 * n + 1) <> 0)%R as NZ by (intros; now apply pow_nonzero).
  unfold Rdiv. rewrite !Rinv_mult, !pow_inv. ring.
Qed.
Lemma pi_bounds n : (4 * Q2R (q_alt q_term (S (2 * n))) <= PI <= 4 * Q2R (q_alt q_term (2 * n)))%R.
Proof. rewrite !(q_alt_sum _ _ _ q_term_R). pose proof (PI_2_3_7_ineq n). lra. Qed.

(** ** Rational bounds for e *)
Fixpoint zfact (n : nat) : Z := match n with O => 1 | S k => Z.of_nat n * zfact k end.
Definition q_fact (n : nat) : Q := 1 # Z.to_pos (zfact n).
Lemma zfact_fact n : zfact n = Z.of_nat (fact n).
Proof. induction n; [reflexivity|]. change (fact (S n)) with (S n * fact n)%nat. rewrite Nat2Z.inj_mul, <- IHn. reflexivity. Qed.
Lemma q_fact_R n : Q2R (q_fact n) = (/ INR (fact n))%R.
Proof.
  unfold q_fact. rewrite zfact_fact, Q2R_inv_pos.
  - now rewrite <- INR_IZR_INZ, Rmult_1_l.
  - pose proof (lt_O_fact n). lia.
Qed.
Lemma exp_bounds n : (Q2R (q_alt q_fact (S (2 * n))) <= exp (-1) <= Q2R (q_alt q_fact (2 * n)))%R.
Proof.
  rewrite !(q_alt_sum _ _ _ q_fact_R). apply alternated_series_ineq.
  - intros k. apply Rinv_le_contravar; [apply lt_0_INR, lt_O_fact|]. apply le_INR. apply fact_le. lia.
  - intros eps E. destruct (cv_speed_pow_fact 1 eps E) as (N & H). exists N. intros k K. specialize (H k K).
    unfold R_dist in *. rewrite pow1 in H. now replace (1 / INR (fact k))%R with (/ INR (fact k))%R in H by lra.
  - unfold exp. destruct (exist_exp (-1)) as (l & H). cbn [proj1_sig]. unfold exp_in, infinite_sum in H.
    intros eps E. destruct (H eps E) as (N & G). exists N. intros k K. specialize (G k K).
    erewrite sum_eq; [exact G|]. intros j _. unfold tg_alt. ring.
Qed.

(** ** From the bounds to the nearest doubles *)
Definition q_dyadic (m e : Z) : Q := m # Z.to_pos (2 ^ (- e)).
Lemma q_dyadic_R m e : e <= 0 -> Q2R (q_dyadic m e) = (IZR m * bp e)%R.
Proof.
  intros E. unfold q_dyadic. rewrite Q2R_inv_pos by (apply Z.pow_pos_nonneg; lia). f_equal.
  replace e with (- (- e)) at 2 by ring. rewrite bpow_opp. f_equal. apply (IZR_Zpower radix2). lia.
Qed.
(** Both rationals are within [w]/8 of a unit of [m 2^e]. *)
Definition q_near (w : Z) (lo hi : Q) (m e : Z) : bool :=
  (Qle_bool (q_dyadic (8 * m - w) (e - 3)) lo && Qle_bool hi (q_dyadic (8 * m + w) (e - 3)))%bool.
Lemma q_near_R w lo hi m e (c : R) : e <= 0 -> q_near w lo hi m e = true -> (Q2R lo <= c <= Q2R hi)%R ->
  (Rabs (c - IZR m * bp e) <= IZR w / 8 * bp e)%R.
Proof.
  intros E H C. unfold q_near in H. apply andb_prop in H. destruct H as (H1 & H2).
  apply Qle_bool_iff, Qle_Rle in H1. apply Qle_bool_iff, Qle_Rle in H2.
  rewrite q_dyadic_R in H1, H2 by lia. unfold Zminus in H1, H2. rewrite bpow_plus in H1, H2. change (bp (-(3))) with (/ 8)%R in *.
  rewrite plus_IZR, mult_IZR in H1, H2. rewrite opp_IZR in H1. apply Rabs_le. lra.
Qed.
(** The double nearest to [c] and the double nearest to what is left. *)
Definition best (c : R) (d : DD) : Prop :=
  B2R (hi d) = RN c /\ B2R (lo d) = RN (c - B2R (hi d)) /\
  (Rabs (B2R (hi d) + B2R (lo d) - c) <= bp (-107))%R.
Lemma best_of d qlo qhi mh eh ml el (c : R) :
  B2SF (hi d) = SpecFloat.S754_finite false mh eh -> B2SF (lo d) = SpecFloat.S754_finite false ml el ->
  (Q2R qlo <= c <= Q2R qhi)%R ->
  (2 ^ 52 <? Zpos mh) && (Zpos mh <? 2 ^ 53) && (2 ^ 52 <? Zpos ml) && (Zpos ml <? 2 ^ 53) &&
  (-1074 <=? eh) && (eh <=? 0) && (-1074 <=? el) && (el <=? -104) &&
  q_near 3 qlo qhi (Zpos mh) eh && q_near 1 (qlo - q_dyadic (Zpos mh) eh)%Q (qhi - q_dyadic (Zpos mh) eh)%Q (Zpos ml) el = true ->
  best c d.
Proof.
  intros HH HL C K. rewrite !andb_true_iff, !Z.ltb_lt, !Z.leb_le in K.
  destruct K as (((((((((K1 & K2) & K3) & K4) & K5) & K6) & K7) & K8) & N1) & N2).
  assert (VH : B2R (hi d) = (IZR (Zpos mh) * bp eh)%R) by (rewrite <- SF2R_B2SF, HH; reflexivity).
  assert (VL : B2R (lo d) = (IZR (Zpos ml) * bp el)%R) by (rewrite <- SF2R_B2SF, HL; reflexivity).
  assert (C2 : (Q2R (qlo - q_dyadic (Zpos mh) eh) <= c - B2R (hi d) <= Q2R (qhi - q_dyadic (Zpos mh) eh))%R).
  { rewrite !Q2R_minus, !q_dyadic_R, VH by lia. lra. }
  pose proof (q_near_R _ _ _ _ _ c K6 N1 C) as D1.
  assert (E0 : el <= 0) by lia. pose proof (q_near_R _ _ _ _ _ _ E0 N2 C2) as D2.
  pose proof (bpow_gt_0 radix2 eh). pose proof (bpow_gt_0 radix2 el). repeat split.
  - rewrite VH. symmetry. apply RN_near; [lia|lia|]. lra.
  - rewrite VL. symmetry. apply RN_near; [lia|lia|]. lra.
  - rewrite Rabs_minus_sym. replace (c - (B2R (hi d) + B2R (lo d)))%R with (c - B2R (hi d) - IZR (Zpos ml) * bp el)%R by (rewrite VL; ring).
    apply Rle_trans with (1 := D2). apply Rle_trans with (1 / 8 * bp (-104))%R.
    + apply Rmult_le_compat_l; [lra|]. apply bpow_le. lia.
    + change (-104) with (-107 + 3). rewrite bpow_plus. change (bp 3) with 8%R. lra.
Qed.
Definition pi_lo : Q := Qred (4 * q_alt q_term 37).
Definition pi_hi : Q := Qred (4 * q_alt q_term 36).
Lemma pi_between : (Q2R pi_lo <= PI <= Q2R pi_hi)%R.
Proof.
  unfold pi_lo, pi_hi. rewrite !Q2R_Qred, !Q2R_mult. replace (Q2R 4) with 4%R by (unfold Q2R; cbn; lra). exact (pi_bounds 18).
Qed.
Definition e_lo : Q := Qred (/ q_alt q_fact 32).
Definition e_hi : Q := Qred (/ q_alt q_fact 33).
Lemma e_between : (Q2R e_lo <= exp 1 <= Q2R e_hi)%R.
Proof.
  pose proof (exp_bounds 16) as (L & H). change (S (2 * 16)) with 33%nat in L. change (2 * 16)%nat with 32%nat in H.
  unfold e_lo, e_hi. rewrite !Q2R_Qred. rewrite !Q2R_inv by (vm_compute; discriminate).
  assert (0 < Q2R (q_alt q_fact 33))%R as P.
  { replace 0%R with (Q2R 0) by (unfold Q2R; cbn; lra). apply Qlt_Rlt. vm_compute. reflexivity. }
  replace (exp 1) with (/ exp (-1))%R by (rewrite <- exp_Ropp; f_equal; lra).
  split; apply Rinv_le_contravar; lra.
Qed.

(** ** C79 *)
Theorem C79_pi : best PI dd_pi.
Proof. eapply best_of; [vm_compute; reflexivity|vm_compute; reflexivity|exact pi_between|vm_compute; reflexivity]. Qed.
Theorem C79_two_pi : best (2 * PI) dd_two_pi.
Proof.
  eapply best_of with (qlo := (2 * pi_lo)%Q) (qhi := (2 * pi_hi)%Q); [vm_compute; reflexivity|vm_compute; reflexivity| |vm_compute; reflexivity].
  rewrite !Q2R_mult. replace (Q2R 2) with 2%R by (unfold Q2R; cbn; lra). pose proof pi_between. lra.
Qed.
Theorem C79_half_pi : best (PI / 2) dd_pi_2.
Proof.
  eapply best_of with (qlo := ((1 # 2) * pi_lo)%Q) (qhi := ((1 # 2) * pi_hi)%Q); [vm_compute; reflexivity|vm_compute; reflexivity| |vm_compute; reflexivity].
  rewrite !Q2R_mult. replace (Q2R (1 # 2)) with (/ 2)%R by (unfold Q2R; cbn; lra). pose proof pi_between. lra.
Qed.
Theorem C79_e : best (exp 1) dd_e.
Proof. eapply best_of; [vm_compute; reflexivity|vm_compute; reflexivity|exact e_between|vm_compute; reflexivity]. Qed.
(** EPS is below 2^-106, by seven units of its last place. *)
Theorem C79_eps : R_of dd_eps = (bp (-106) - 7 * bp (-159))%R.
Proof.
  assert (H : B2SF dd_eps = SpecFloat.S754_finite false 9007199254740985 (-159)) by (vm_compute; reflexivity).
  unfold R_of. rewrite <- SF2R_B2SF, H. unfold SF2R, F2R. cbn [SpecFloat.cond_Zopp Fnum Fexp].
  change (-106) with (53 + -159). rewrite bpow_plus. change (bp 53) with 9007199254740992%R. ring.
Qed.
Theorem C79_eps_refuted : R_of dd_eps <> bp (-106).
Proof. rewrite C79_eps. pose proof (bpow_gt_0 radix2 (-159)). lra. Qed.
Example C79_example : (Rabs (dval dd_pi - PI) <= bp (-107))%R /\ (3.14159265358979 < B2R (hi dd_pi) < 3.1415926535898)%R.
Proof.
  split; [apply C79_pi|].
  assert (H : B2SF (hi dd_pi) = SpecFloat.S754_finite false 7074237752028440 (-51)) by (vm_compute; reflexivity).
  rewrite <- SF2R_B2SF, H. unfold SF2R, F2R. cbn [SpecFloat.cond_Zopp Fnum Fexp]. change (bp (-51)) with (/ 2251799813685248)%R. lra.
Qed.
