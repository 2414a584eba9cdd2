(** Rounding errors of sums and products, and the error-free sums and
    products of Dekker, Knuth and Veltkamp at the level of [f64].  Proof
    support only; nothing here models code. *)
From Coq Require Import ZArith Bool Reals Lia Lra Psatz.
From Flocq Require Import Core BinarySingleNaN Plus_error Relative Pff2Flocq.
From Verif Require Import F64 F64Facts F64Round.
Open Scope Z_scope.

Notation u53 := (bp (-53)).
Notation fmt := (generic_format radix2 fexp64).

Lemma fexp_FLT : forall e, fexp64 e = FLT_exp (-1074) 53 e.
Proof. reflexivity. Qed.

(** ** Size and finiteness *)
Definition bf (k : Z) (x : f64) : Prop := fis_finite x = true /\ (Rabs (R_of x) <= bp k)%R.

Lemma bpow_fmt k : -1074 <= k -> fmt (bp k).
Proof. intros H. apply generic_format_bpow. unfold SpecFloat.fexp, SpecFloat.emin. lia. Qed.
Lemma RN_abs_le k r : -1074 <= k -> (Rabs r <= bp k)%R -> (Rabs (RN r) <= bp k)%R.
Proof.
  intros K H. apply Rabs_le_inv in H. apply Rabs_le. rewrite <- (RN_id (bp k)) by now apply bpow_fmt.
  rewrite <- RN_opp. split; apply RN_le; lra.
Qed.
Lemma RN_abs_le_fmt b r : fmt b -> (Rabs r <= b)%R -> (Rabs (RN r) <= b)%R.
Proof.
  intros K H. apply Rabs_le_inv in H. apply Rabs_le. rewrite <- (RN_id b) by assumption.
  rewrite <- RN_opp. split; apply RN_le; lra.
Qed.
Lemma bf_weak k l x : k <= l -> bf k x -> bf l x.
Proof. intros H (F & B). split; [exact F|]. eapply Rle_trans; [exact B|]. now apply bpow_le. Qed.
Lemma bf_fin k x : bf k x -> fis_finite x = true.
Proof. intros (F & _). exact F. Qed.
Lemma bp_S k : bp (k + 1) = (2 * bp k)%R.
Proof. rewrite Z.add_comm, bpow_plus. simpl (bp 1). lra. Qed.
Lemma bf_add k x y : -1074 <= k + 1 < 1024 -> bf k x -> bf k y ->
  bf (k + 1) (fadd x y) /\ R_of (fadd x y) = RN (R_of x + R_of y).
Proof.
  intros K (Fx & Bx) (Fy & By).
  assert (Rabs (R_of x + R_of y) <= bp (k + 1))%R as B.
  { rewrite bp_S. eapply Rle_trans; [apply Rabs_triang|]. lra. }
  apply RN_abs_le in B; [|lia].
  destruct (fadd_R x y Fx Fy) as (F & E). { eapply Rle_lt_trans; [exact B|]. apply bpow_lt. lia. }
  split; [|exact E]. split; [exact F|]. now rewrite E.
Qed.
Lemma bf_sub k x y : -1074 <= k + 1 < 1024 -> bf k x -> bf k y ->
  bf (k + 1) (fsub x y) /\ R_of (fsub x y) = RN (R_of x - R_of y).
Proof.
  intros K (Fx & Bx) (Fy & By).
  assert (Rabs (R_of x - R_of y) <= bp (k + 1))%R as B.
  { rewrite bp_S. unfold Rminus. eapply Rle_trans; [apply Rabs_triang|]. rewrite Rabs_Ropp. lra. }
  apply RN_abs_le in B; [|lia].
  destruct (fsub_R x y Fx Fy) as (F & E). { eapply Rle_lt_trans; [exact B|]. apply bpow_lt. lia. }
  split; [|exact E]. split; [exact F|]. now rewrite E.
Qed.
Lemma bf_mul k l x y : -1074 <= k + l < 1024 -> bf k x -> bf l y ->
  bf (k + l) (fmul x y) /\ R_of (fmul x y) = RN (R_of x * R_of y).
Proof.
  intros K (Fx & Bx) (Fy & By).
  assert (Rabs (R_of x * R_of y) <= bp (k + l))%R as B.
  { rewrite bpow_plus, Rabs_mult. apply Rmult_le_compat; auto using Rabs_pos. }
  apply RN_abs_le in B; [|lia].
  destruct (fmul_R x y Fx Fy) as (F & E). { eapply Rle_lt_trans; [exact B|]. apply bpow_lt. lia. }
  split; [|exact E]. split; [exact F|]. now rewrite E.
Qed.
Lemma bf_neg k x : bf k x -> bf k (fneg x).
Proof. intros (F & B). split; [now rewrite fneg_fin|]. now rewrite fneg_R, Rabs_Ropp. Qed.
(** An operation whose exact result fits does not overflow. *)
Lemma add_fits k x y : -1074 <= k < 1024 -> fis_finite x = true -> fis_finite y = true ->
  (Rabs (R_of x + R_of y) <= bp k)%R -> bf k (fadd x y) /\ R_of (fadd x y) = RN (R_of x + R_of y).
Proof.
  intros K Fx Fy B. apply RN_abs_le in B; [|lia].
  destruct (fadd_R x y Fx Fy) as (F & E). { eapply Rle_lt_trans; [exact B|]. apply bpow_lt. lia. }
  split; [|exact E]. split; [exact F|]. now rewrite E.
Qed.
Lemma sub_fits k x y : -1074 <= k < 1024 -> fis_finite x = true -> fis_finite y = true ->
  (Rabs (R_of x - R_of y) <= bp k)%R -> bf k (fsub x y) /\ R_of (fsub x y) = RN (R_of x - R_of y).
Proof.
  intros K Fx Fy B. apply RN_abs_le in B; [|lia].
  destruct (fsub_R x y Fx Fy) as (F & E). { eapply Rle_lt_trans; [exact B|]. apply bpow_lt. lia. }
  split; [|exact E]. split; [exact F|]. now rewrite E.
Qed.
Lemma mul_fits k x y : -1074 <= k < 1024 -> fis_finite x = true -> fis_finite y = true ->
  (Rabs (R_of x * R_of y) <= bp k)%R -> bf k (fmul x y) /\ R_of (fmul x y) = RN (R_of x * R_of y).
Proof.
  intros K Fx Fy B. apply RN_abs_le in B; [|lia].
  destruct (fmul_R x y Fx Fy) as (F & E). { eapply Rle_lt_trans; [exact B|]. apply bpow_lt. lia. }
  split; [|exact E]. split; [exact F|]. now rewrite E.
Qed.

(** ** Rounding errors *)
Lemma u53_pos : (0 < u53)%R.
Proof. apply bpow_gt_0. Qed.
Lemma u53_small : (u53 <= / 1024)%R.
Proof. change (/ 1024)%R with (bp (-10)). apply bpow_le. lia. Qed.
(** Sums of doubles have relative error at most [2^-53], also near zero. *)
Lemma RN_sum_err a b : fmt a -> fmt b -> (Rabs (RN (a + b) - (a + b)) <= u53 * Rabs (a + b))%R.
Proof.
  intros Fa Fb.
  destruct (FLT_plus_error_N_ex radix2 (-1074) 53 (fun x => negb (Z.even x)) a b Fa Fb) as (eps & He & E).
  change (round radix2 (FLT_exp (-1074) 53) (Znearest (fun x => negb (Z.even x)))) with RN in E.
  rewrite E. replace ((a + b) * (1 + eps) - (a + b))%R with (eps * (a + b))%R by ring. rewrite Rabs_mult.
  apply Rmult_le_compat_r; [apply Rabs_pos|]. eapply Rle_trans; [exact He|].
  eapply Rle_trans; [apply u_rod1pu_ro_le_u_ro|]. unfold u_ro. change (- (53) + 1) with (-52).
  change (-52) with (-53 + 1). rewrite bp_S. lra.
Qed.
Lemma RN_sub_err a b : fmt a -> fmt b -> (Rabs (RN (a - b) - (a - b)) <= u53 * Rabs (a - b))%R.
Proof. intros Fa Fb. apply RN_sum_err; [exact Fa|]. now apply generic_format_opp. Qed.
(** In general there is an absolute part from the subnormals. *)
Lemma RN_err r : (Rabs (RN r - r) <= u53 * Rabs r + bp (-1075))%R.
Proof.
  destruct (error_N_FLT radix2 (-1074) 53 ltac:(lia) (fun x => negb (Z.even x)) r) as (eps & eta & He & Ht & _ & E).
  change (round radix2 (FLT_exp (-1074) 53) (Znearest (fun x => negb (Z.even x)))) with RN in E.
  rewrite E. replace (r * (1 + eps) + eta - r)%R with (eps * r + eta)%R by ring.
  eapply Rle_trans; [apply Rabs_triang|]. rewrite Rabs_mult. apply Rplus_le_compat.
  - apply Rmult_le_compat_r; [apply Rabs_pos|]. eapply Rle_trans; [exact He|].
    unfold u_ro. change (- (53) + 1) with (-53 + 1). rewrite bp_S. lra.
  - eapply Rle_trans; [exact Ht|]. change (-1074) with (-1075 + 1). rewrite bp_S. lra.
Qed.
(** Sums keep their sign. *)
Lemma RN_sum_0 a b : fmt a -> fmt b -> RN (a + b) = 0%R -> (a + b = 0)%R.
Proof.
  intros Fa Fb E. pose proof (RN_sum_err a b Fa Fb) as H. rewrite E in H.
  replace (Rabs (0 - (a + b))) with (Rabs (a + b)) in H by (rewrite <- Rabs_Ropp; f_equal; ring).
  pose proof u53_small. pose proof (Rabs_pos (a + b)).
  destruct (Req_dec (a + b) 0) as [|N]; [assumption|]. apply Rabs_pos_lt in N. nra.
Qed.
Lemma RN_ge0 r : (0 <= r)%R -> (0 <= RN r)%R.
Proof. intros H. rewrite <- RN_0. now apply RN_le. Qed.
Lemma RN_le0 r : (r <= 0)%R -> (RN r <= 0)%R.
Proof. intros H. rewrite <- RN_0. now apply RN_le. Qed.
Lemma RN_sum_pos a b : fmt a -> fmt b -> (0 < a + b)%R -> (0 < RN (a + b))%R.
Proof.
  intros Fa Fb H. destruct (Rle_lt_or_eq_dec 0 (RN (a + b))) as [|E]; [apply RN_ge0; lra|assumption|].
  symmetry in E. apply RN_sum_0 in E; auto. lra.
Qed.
Lemma RN_sum_neg a b : fmt a -> fmt b -> (a + b < 0)%R -> (RN (a + b) < 0)%R.
Proof.
  intros Fa Fb H. destruct (Rle_lt_or_eq_dec (RN (a + b)) 0) as [|E]; [apply RN_le0; lra|assumption|].
  apply RN_sum_0 in E; auto. lra.
Qed.
(** The error of a sum is at most either operand. *)
Lemma RN_sum_err_l a b : fmt a -> fmt b -> (Rabs (RN (a + b) - (a + b)) <= Rabs a)%R.
Proof. intros. apply plus_error_le_l; auto with typeclass_instances. Qed.
Lemma RN_sum_err_r a b : fmt a -> fmt b -> (Rabs (RN (a + b) - (a + b)) <= Rabs b)%R.
Proof. intros. apply plus_error_le_r; auto with typeclass_instances. Qed.

(** ** Error-free sums *)
Lemma choice_E : forall x : Z, negb (Z.even x) = negb (negb (Z.even (- (x + 1)))).
Proof. intros x. rewrite Z.even_opp, Z.even_add. destruct (Z.even x); reflexivity. Qed.
Lemma RN_two_sum x y : fmt x -> fmt y ->
  let a := RN (x + y) in let e := RN (a - x) in
  (a + RN (RN (x - RN (a - e)) + RN (y - e)) = x + y)%R.
Proof. intros Fx Fy. exact (TwoSum_correct (-1074) 53 _ ltac:(lia) ltac:(lia) choice_E x y Fx Fy). Qed.
Lemma RN_fast_two_sum x y : fmt x -> fmt y -> (Rabs y <= Rabs x)%R ->
  let a := RN (x + y) in (a + RN (y + RN (x - a)) = x + y)%R.
Proof. intros Fx Fy. exact (Fast2Sum_correct (-1074) 53 _ ltac:(lia) ltac:(lia) choice_E x y Fx Fy). Qed.
Lemma RN_sum_err_fmt x y : fmt x -> fmt y -> fmt (RN (x + y) - (x + y))%R.
Proof. intros Fx Fy. apply (plus_error radix2 fexp64); auto. Qed.

(** ** Error-free product *)
(** Veltkamp splitting and Dekker's product, as written in the code. *)
Definition vsplit (x : R) : R := let p := RN (x * (bp 27 + 1)) in RN (RN (x - p) + p).
Definition vtail (x : R) : R := RN (x - vsplit x).
Definition dekker (x y : R) : R :=
  RN (RN (RN (RN (- RN (x * y) + RN (vsplit x * vsplit y)) + RN (vsplit x * vtail y)) + RN (vtail x * vsplit y))
      + RN (vtail x * vtail y)).
Lemma RN_dekker x y : fmt x -> fmt y ->
  ((x * y = 0 \/ bp (-969) <= Rabs (x * y))%R -> (x * y = RN (x * y) + dekker x y)%R) /\
  (Rabs (x * y - (RN (x * y) + dekker x y)) <= 7 / 2 * bp (-1074))%R.
Proof.
  intros Fx Fy.
  exact (Dekker radix2 (-1074) 53 (fun z => negb (Z.even z)) ltac:(lia) ltac:(lia) x y Fx Fy (or_introl eq_refl)).
Qed.
Lemma FLT26_le k r (c : Z -> bool) : -1074 <= k -> (Rabs r <= bp k)%R ->
  (Rabs (round radix2 (FLT_exp (-1074) 26) (Znearest c) r) <= bp k)%R.
Proof.
  intros K H. assert (Prec_gt_0 26) by reflexivity.
  apply abs_round_le_generic; auto with typeclass_instances.
  apply generic_format_bpow. unfold FLT_exp. lia.
Qed.
Lemma vsplit_le k x : -1074 <= k -> fmt x -> (Rabs x <= bp k)%R -> (Rabs (vsplit x) <= bp k)%R.
Proof.
  intros K Fx H. destruct (Veltkamp radix2 (-1074) 53 (fun z => negb (Z.even z)) 27 ltac:(lia) ltac:(lia) ltac:(lia) ltac:(lia) x Fx) as (c & E).
  change (_ = _) with (vsplit x = round radix2 (FLT_exp (-1074) 26) (Znearest c) x) in E. rewrite E. now apply FLT26_le.
Qed.
Lemma vtail_eq x : fmt x -> x = (vsplit x + vtail x)%R.
Proof.
  intros Fx. exact (proj1 (Veltkamp_tail radix2 (-1074) 53 (fun z => negb (Z.even z)) 27 ltac:(lia) ltac:(lia) ltac:(lia) ltac:(lia) x Fx)).
Qed.

(** ** The same at the level of [f64] *)
Definition maxR : R := (bp 1024 - bp 971)%R.
Lemma maxR_fmt : fmt maxR.
Proof.
  unfold maxR. replace (bp 1024 - bp 971)%R with (IZR (2 ^ 53 - 1) * bp 971)%R.
  - apply format_grid; lia.
  - rewrite minus_IZR. change (IZR (2 ^ 53)) with (bp 53). rewrite Rmult_minus_distr_r, <- bpow_plus. simpl (53 + 971). ring.
Qed.
Lemma fits_max r : (Rabs r <= maxR)%R -> (Rabs (RN r) < bp 1024)%R.
Proof.
  intros H. apply RN_abs_le_fmt in H; [|apply maxR_fmt]. eapply Rle_lt_trans; [exact H|].
  unfold maxR. pose proof (bpow_gt_0 radix2 971). lra.
Qed.
Lemma err970 r : (Rabs (RN r) < bp 1024)%R -> (Rabs (RN r - r) <= bp 970)%R.
Proof.
  intros H. eapply Rle_trans; [apply error_le_half_ulp_round; auto with typeclass_instances|].
  change 970 with (-1 + 971). rewrite bpow_plus. change (bp (-1)) with (/ 2)%R.
  apply Rmult_le_compat_l; [lra|].
  change (round radix2 fexp64 ZnearestE r) with (RN r).
  destruct (Req_dec (RN r) 0) as [Z|NZ].
  - rewrite Z. change fexp64 with (FLT_exp (-1074) 53). rewrite ulp_FLT_0 by exact prec53. apply bpow_le. lia.
  - rewrite ulp_neq_0 by exact NZ. apply bpow_le. pose proof (mag_le_bpow radix2 (RN r) 1024 NZ H) as M.
    unfold cexp. generalize dependent (mag_val radix2 (RN r) (mag radix2 (RN r))).
    intros m M. unfold SpecFloat.fexp, SpecFloat.emin. lia.
Qed.
(** Knuth's sum at any size except next to the overflow threshold. *)
Definition lim : R := (bp 1024 - bp 973)%R.
Lemma two_sum_f64 x y : fis_finite x = true -> fis_finite y = true ->
  (Rabs (R_of x) <= lim)%R -> (Rabs (R_of y) <= lim)%R -> (Rabs (RN (R_of x + R_of y)) < bp 1024)%R ->
  let ss := fadd x y in
  let e := fsub ss x in
  let s := fsub ss e in
  let s' := fadd (fsub y e) (fsub x s) in
  fis_finite ss = true /\ R_of ss = RN (R_of x + R_of y) /\
  fis_finite s' = true /\ R_of s' = (R_of x + R_of y - RN (R_of x + R_of y))%R.
Proof.
  intros Fx Fy Bx By Hs. cbv zeta.
  assert (bp 971 = 2 * bp 970)%R as P1 by (change 971 with (970 + 1); apply bp_S).
  assert (bp 972 = 2 * bp 971)%R as P2 by (change 972 with (971 + 1); apply bp_S).
  assert (bp 973 = 2 * bp 972)%R as P3 by (change 973 with (972 + 1); apply bp_S).
  pose proof (bpow_gt_0 radix2 970) as P0. unfold lim in *.
  destruct (fadd_R x y Fx Fy Hs) as (Fs & Es). set (ss := fadd x y) in *.
  pose proof (err970 _ Hs) as D1. rewrite <- Es in D1. rewrite <- Es in Hs.
  destruct (fsub_R ss x Fs Fx) as (Fe & Ee).
  { apply fits_max. unfold maxR. apply Rabs_le. apply Rabs_le_inv in Bx, By, D1. lra. }
  set (e := fsub ss x) in *.
  assert (Rabs (R_of e - (R_of ss - R_of x)) <= bp 970)%R as D2.
  { rewrite Ee. apply err970. apply fits_max. unfold maxR. apply Rabs_le. apply Rabs_le_inv in Bx, By, D1. lra. }
  destruct (fsub_R ss e Fs Fe) as (Fss & Ess).
  { apply fits_max. unfold maxR. apply Rabs_le. apply Rabs_le_inv in Bx, By, D1, D2. lra. }
  set (s := fsub ss e) in *.
  assert (Rabs (R_of s - (R_of ss - R_of e)) <= bp 970)%R as D3.
  { rewrite Ess. apply err970. apply fits_max. unfold maxR. apply Rabs_le. apply Rabs_le_inv in Bx, By, D1, D2. lra. }
  destruct (sub_fits 971 y e ltac:(lia) Fy Fe) as ((Fye & Bye) & Eye).
  { rewrite P1. apply Rabs_le. apply Rabs_le_inv in D1, D2. lra. }
  destruct (sub_fits 971 x s ltac:(lia) Fx Fss) as ((Fxs & Bxs) & Exs).
  { rewrite P1. apply Rabs_le. apply Rabs_le_inv in D2, D3. lra. }
  destruct (bf_add 971 (fsub y e) (fsub x s) ltac:(lia) (conj Fye Bye) (conj Fxs Bxs)) as ((Fr & Br) & Er).
  split; [exact Fs|]. split; [exact Es|]. split; [exact Fr|]. rewrite Er.
  pose proof (RN_two_sum (R_of x) (R_of y) (format_R x) (format_R y)) as T. cbv zeta in T.
  rewrite <- Es, <- Ee, <- Ess, <- Eye, <- Exs in T. rewrite (Rplus_comm (R_of (fsub x s))) in T. lra.
Qed.
Lemma bf_lim k x : k <= 1023 -> bf k x -> (Rabs (R_of x) <= lim)%R.
Proof.
  intros K (_ & B). eapply Rle_trans; [exact B|]. unfold lim.
  apply Rle_trans with (bp 1023); [now apply bpow_le|].
  change 1024 with (1023 + 1). rewrite bp_S. assert (bp 973 <= bp 1023)%R by (apply bpow_le; lia). lra.
Qed.
Lemma two_sum_bf k x y : -1074 <= k + 1 < 1024 -> bf k x -> bf k y ->
  let ss := fadd x y in
  let e := fsub ss x in
  let s := fsub ss e in
  let s' := fadd (fsub y e) (fsub x s) in
  bf (k + 1) ss /\ R_of ss = RN (R_of x + R_of y) /\
  bf k s' /\ R_of s' = (R_of x + R_of y - RN (R_of x + R_of y))%R.
Proof.
  intros K Bx By. cbv zeta. destruct (bf_add k x y K Bx By) as ((Fs & Bs) & Es).
  destruct (two_sum_f64 x y) as (_ & _ & Fr & Er); try (apply bf_fin with k; assumption); try (apply (bf_lim k); auto; lia).
  { rewrite <- Es. eapply Rle_lt_trans; [exact Bs|]. apply bpow_lt. lia. }
  cbv zeta in Fr, Er. split; [split; assumption|]. split; [exact Es|]. split; [|exact Er].
  split; [exact Fr|]. rewrite Er, Rabs_minus_sym. eapply Rle_trans; [apply RN_sum_err_l; apply format_R|]. apply Bx.
Qed.
Lemma fast_two_sum_bf k a b : -1074 <= k + 1 < 1023 -> bf k a -> bf k b -> (Rabs (R_of b) <= Rabs (R_of a))%R ->
  let hh := fadd a b in
  let h := fadd b (fsub a hh) in
  bf (k + 1) hh /\ R_of hh = RN (R_of a + R_of b) /\ bf k h /\ R_of h = (R_of a + R_of b - RN (R_of a + R_of b))%R.
Proof.
  intros K Ba Bb L. cbv zeta. destruct (bf_add k a b ltac:(lia) Ba Bb) as ((Fs & Bs) & Es). set (hh := fadd a b) in *.
  destruct Ba as (Fa & Ba), Bb as (Fb & Bb).
  pose proof (RN_fast_two_sum (R_of a) (R_of b) (format_R a) (format_R b) L) as T. cbv zeta in T.
  pose proof (RN_sum_err_l (R_of a) (R_of b) (format_R a) (format_R b)) as El.
  pose proof (RN_sum_err_r (R_of a) (R_of b) (format_R a) (format_R b)) as Er.
  destruct (sub_fits (k + 1) a hh ltac:(lia) Fa Fs) as ((Fd & Bd) & Ed).
  { rewrite Es, bp_S. apply Rabs_le. apply Rabs_le_inv in Er, Bb, Ba.
    assert (- Rabs (R_of b) <= R_of b <= Rabs (R_of b))%R by (apply Rabs_le_inv; lra).
    assert (Rabs (R_of b) <= bp k)%R by (apply Rabs_le; lra). lra. }
  destruct (bf_add (k + 1) b (fsub a hh) ltac:(lia)) as ((Fh & Bh) & Eh).
  { apply bf_weak with k; [lia|split; assumption]. } { split; assumption. }
  split; [split; assumption|]. split; [exact Es|].
  assert (R_of (fadd b (fsub a hh)) = R_of a + R_of b - RN (R_of a + R_of b))%R as E.
  { rewrite Eh, Ed, Es. lra. }
  split; [|exact E]. split; [exact Fh|]. rewrite E, Rabs_minus_sym. lra.
Qed.
(** The product of two doubles as computed by [self_multiply_hi_lo]. *)
Definition SPLIT64 : f64 := fofZ 134217729.
Lemma SPLIT_R : R_of SPLIT64 = (bp 27 + 1)%R /\ fis_finite SPLIT64 = true.
Proof.
  destruct (grid_fofZ 134217729 ltac:(cbn; lia)) as (F & E). split; [|exact F].
  unfold SPLIT64. rewrite E. simpl (bp 0). change (bp 27) with (IZR 134217728). rewrite <- plus_IZR, Rmult_1_r. reflexivity.
Qed.
Lemma split_f64 k x : -1000 <= k <= 990 -> bf k x ->
  let c := fmul SPLIT64 x in
  let h := fsub c (fsub c x) in
  let t := fsub x h in
  bf k h /\ R_of h = vsplit (R_of x) /\ bf (k + 1) t /\ R_of t = vtail (R_of x).
Proof.
  intros K Bx. cbv zeta. pose proof Bx as (Fx & Hx). destruct SPLIT_R as (ES & FS).
  assert (bf 28 SPLIT64) as BS.
  { split; [exact FS|]. rewrite ES. change (bp 28) with (IZR 268435456). change (bp 27) with (IZR 134217728). rewrite <- plus_IZR. rewrite Rabs_pos_eq; apply IZR_le; lia. }
  destruct (bf_mul 28 k SPLIT64 x ltac:(lia) BS Bx) as (Bc & Ec). set (c := fmul SPLIT64 x) in *.
  destruct (bf_sub (28 + k) c x ltac:(lia) Bc (bf_weak k (28 + k) x ltac:(lia) Bx)) as (Bq & Eq). set (q := fsub c x) in *.
  destruct (bf_sub (28 + k + 1) c q ltac:(lia) (bf_weak (28 + k) (28 + k + 1) c ltac:(lia) Bc) Bq) as (Bh & Eh). set (h := fsub c q) in *.
  assert (R_of h = vsplit (R_of x)) as E.
  { unfold vsplit. cbv zeta. rewrite Eh, Eq, Ec, ES. rewrite (Rmult_comm (bp 27 + 1)).
    set (p := RN (R_of x * (bp 27 + 1))). f_equal. replace (R_of x - p)%R with (- (p - R_of x))%R by ring. rewrite RN_opp. ring. }
  assert (bf k h) as Bh'.
  { split; [apply Bh|]. rewrite E. apply vsplit_le; [lia|apply format_R|exact Hx]. }
  destruct (bf_sub k x h ltac:(lia) Bx Bh') as (Bt & Et).
  split; [exact Bh'|]. split; [exact E|]. split; [exact Bt|]. unfold vtail. now rewrite Et, E.
Qed.
Lemma dekker_f64 k l x y : -500 <= k <= 990 -> -500 <= l <= 990 -> k + l <= 1010 -> bf k x -> bf l y ->
  let cx := fmul SPLIT64 x in
  let hx := fsub cx (fsub cx x) in
  let tx := fsub x hx in
  let cy := fmul SPLIT64 y in
  let hy := fsub cy (fsub cy y) in
  let ty := fsub y hy in
  let p := fmul x y in
  let c := fadd (fadd (fadd (fsub (fmul hx hy) p) (fmul hx ty)) (fmul tx hy)) (fmul tx ty) in
  bf (k + l) p /\ R_of p = RN (R_of x * R_of y) /\ bf (k + l + 5) c /\ R_of c = dekker (R_of x) (R_of y).
Proof.
  intros K L KL Bx By. cbv zeta.
  destruct (split_f64 k x ltac:(lia) Bx) as (Bhx & Ehx & Btx & Etx). cbv zeta in *.
  destruct (split_f64 l y ltac:(lia) By) as (Bhy & Ehy & Bty & Ety). cbv zeta in *.
  set (hx := fsub (fmul SPLIT64 x) (fsub (fmul SPLIT64 x) x)) in *. set (tx := fsub x hx) in *.
  set (hy := fsub (fmul SPLIT64 y) (fsub (fmul SPLIT64 y) y)) in *. set (ty := fsub y hy) in *.
  destruct (bf_mul k l x y ltac:(lia) Bx By) as (Bp & Ep). set (p := fmul x y) in *.
  destruct (bf_mul k l hx hy ltac:(lia) Bhx Bhy) as (B11 & E11).
  destruct (bf_mul k (l + 1) hx ty ltac:(lia) Bhx Bty) as (B12 & E12).
  destruct (bf_mul (k + 1) l tx hy ltac:(lia) Btx Bhy) as (B21 & E21).
  destruct (bf_mul (k + 1) (l + 1) tx ty ltac:(lia) Btx Bty) as (B22 & E22).
  destruct (bf_sub (k + l) (fmul hx hy) p ltac:(lia) B11 Bp) as (B1 & E1).
  destruct (bf_add (k + l + 1) (fsub (fmul hx hy) p) (fmul hx ty) ltac:(lia) B1 (bf_weak (k + (l + 1)) (k + l + 1) _ ltac:(lia) B12)) as (B2 & E2).
  destruct (bf_add (k + l + 1 + 1) _ (fmul tx hy) ltac:(lia) B2 (bf_weak (k + 1 + l) (k + l + 1 + 1) _ ltac:(lia) B21)) as (B3 & E3).
  destruct (bf_add (k + l + 1 + 1 + 1) _ (fmul tx ty) ltac:(lia) B3 (bf_weak (k + 1 + (l + 1)) (k + l + 1 + 1 + 1) _ ltac:(lia) B22)) as (B4 & E4).
  split; [exact Bp|]. split; [exact Ep|]. split; [apply bf_weak with (k + l + 1 + 1 + 1 + 1); [lia|exact B4]|].
  rewrite E4, E3, E2, E1, E11, E12, E21, E22, Ep, Ehx, Ehy, Etx, Ety. unfold dekker.
  replace (RN (vsplit (R_of x) * vsplit (R_of y)) - RN (R_of x * R_of y))%R
    with (- RN (R_of x * R_of y) + RN (vsplit (R_of x) * vsplit (R_of y)))%R by ring.
  reflexivity.
Qed.
