(** Doubles against reals: doubles holding a real exactly on a dyadic grid
    ([ex]) and doubles within a few units of relative rounding error ([ap]). *)
From Coq Require Import ZArith Reals Bool Lia Lra Psatz.
From Flocq Require Import Core IEEE754.BinarySingleNaN Relative.
From Verif Require Import F64 F64Facts F64Err.
Local Open Scope R_scope.

(** [x] holds [r] exactly, a multiple of [2^e] by at most [2^k]. *)
Definition ex (e k : Z) (x : f64) (r : R) : Prop :=
  fis_finite x = true /\ R_of x = r /\ exists n, (Z.abs n <= 2 ^ k)%Z /\ r = IZR n * bp e.
(** [x] approximates [r] with relative error at most [c] times [2^-53]. *)
Definition ap (c : R) (x : f64) (r : R) : Prop :=
  fis_finite x = true /\ Rabs (R_of x - r) <= c * u53 * Rabs r.

Lemma ex_fin e k x r : ex e k x r -> fis_finite x = true.
Proof. now intros (F & _). Qed.
Lemma ex_R e k x r : ex e k x r -> R_of x = r.
Proof. now intros (_ & E & _). Qed.
Lemma ex_weak e k l x r : (0 <= k <= l)%Z -> ex e k x r -> ex e l x r.
Proof.
  intros H (F & E & n & Hn & G). split; [exact F |]. split; [exact E |]. exists n. split; [| exact G].
  pose proof (Z.pow_le_mono_r 2 k l). lia.
Qed.
Lemma ex_self e k x n : (Z.abs n <= 2 ^ k)%Z -> grid e x n -> ex e k x (R_of x).
Proof. intros H [F E]. split; [exact F |]. split; [reflexivity |]. exists n. tauto. Qed.
Lemma pow2_53 k : (k <= 53)%Z -> (2 ^ k <= 2 ^ 53)%Z.
Proof. intros H. apply Z.pow_le_mono_r; lia. Qed.
Lemma ex_sub e k x y a b : (-1074 <= e <= 970)%Z -> (0 <= k <= 52)%Z -> ex e k x a -> ex e k y b -> ex e (k + 1) (fsub x y) (a - b).
Proof.
  intros He Hk (Fx & Ex & n & Hn & Gx) (Fy & Ey & m & Hm & Gy).
  assert (B : (Z.abs (n - m) <= 2 ^ (k + 1))%Z) by (rewrite Z.pow_add_r by lia; lia).
  pose proof (pow2_53 (k + 1) ltac:(lia)).
  destruct (grid_sub e x y n m He ltac:(lia)) as [F E]; [split; congruence | split; congruence |].
  assert (E' : R_of (fsub x y) = a - b) by (rewrite E, minus_IZR, Gx, Gy; ring).
  split; [exact F |]. split; [exact E' |]. exists (n - m)%Z. split; [exact B | congruence].
Qed.
Lemma ex_add e k x y a b : (-1074 <= e <= 970)%Z -> (0 <= k <= 52)%Z -> ex e k x a -> ex e k y b -> ex e (k + 1) (fadd x y) (a + b).
Proof.
  intros He Hk (Fx & Ex & n & Hn & Gx) (Fy & Ey & m & Hm & Gy).
  assert (B : (Z.abs (n + m) <= 2 ^ (k + 1))%Z) by (rewrite Z.pow_add_r by lia; lia).
  pose proof (pow2_53 (k + 1) ltac:(lia)).
  destruct (grid_add e x y n m He ltac:(lia)) as [F E]; [split; congruence | split; congruence |].
  assert (E' : R_of (fadd x y) = a + b) by (rewrite E, plus_IZR, Gx, Gy; ring).
  split; [exact F |]. split; [exact E' |]. exists (n + m)%Z. split; [exact B | congruence].
Qed.
Lemma ex_mul e f k l x y a b : (-1074 <= e + f <= 970)%Z -> (0 <= k)%Z -> (0 <= l)%Z -> (k + l <= 53)%Z ->
  ex e k x a -> ex f l y b -> ex (e + f) (k + l) (fmul x y) (a * b).
Proof.
  intros He Hk Hl Hkl (Fx & Ex & n & Hn & Gx) (Fy & Ey & m & Hm & Gy).
  assert (B : (Z.abs (n * m) <= 2 ^ (k + l))%Z) by (rewrite Z.pow_add_r, Z.abs_mul by lia; apply Z.mul_le_mono_nonneg; lia).
  pose proof (pow2_53 (k + l) ltac:(lia)).
  destruct (grid_mul e f x y n m He ltac:(lia)) as [F E]; [split; congruence | split; congruence |].
  assert (E' : R_of (fmul x y) = a * b) by (rewrite E, mult_IZR, bpow_plus, Gx, Gy; ring).
  split; [exact F |]. split; [exact E' |]. exists (n * m)%Z. split; [exact B | congruence].
Qed.
Lemma ex_neg e k x a : ex e k x a -> ex e k (fneg x) (- a).
Proof.
  intros (F & E & n & Hn & G). split; [rewrite fneg_fin; exact F |]. split; [rewrite fneg_R; congruence |].
  exists (- n)%Z. split; [lia |]. rewrite opp_IZR. lra.
Qed.
Lemma ex_ofZ k n : (0 <= k <= 53)%Z -> (Z.abs n <= 2 ^ k)%Z -> ex 0 k (fofZ n) (IZR n).
Proof.
  intros Hk Hn. destruct (grid_fofZ n) as [F E]; [pose proof (pow2_53 k ltac:(lia)); lia |].
  rewrite Rmult_1_r in E. split; [exact F |]. split; [exact E |]. exists n. split; [exact Hn | cbn; ring].
Qed.

(** Comparing doubles of known value. *)
Lemma ltb_val x y a b : fis_finite x = true -> R_of x = a -> fis_finite y = true -> R_of y = b -> fltb x y = Rlt_bool a b.
Proof. intros Fx <- Fy <-. apply fltb_R; assumption. Qed.
Lemma leb_val x y a b : fis_finite x = true -> R_of x = a -> fis_finite y = true -> R_of y = b -> fleb x y = Rle_bool a b.
Proof. intros Fx <- Fy <-. apply fleb_R; assumption. Qed.
Lemma eqb_val x y a b : fis_finite x = true -> R_of x = a -> fis_finite y = true -> R_of y = b -> feqb x y = Req_bool a b.
Proof. intros Fx <- Fy <-. apply feqb_R; assumption. Qed.
Lemma ex_ltb e k f l x y a b : ex e k x a -> ex f l y b -> fltb x y = Rlt_bool a b.
Proof. intros (F1 & E1 & _) (F2 & E2 & _). apply ltb_val; assumption. Qed.
Lemma ex_leb e k f l x y a b : ex e k x a -> ex f l y b -> fleb x y = Rle_bool a b.
Proof. intros (F1 & E1 & _) (F2 & E2 & _). apply leb_val; assumption. Qed.
Lemma ex_eqb e k f l x y a b : ex e k x a -> ex f l y b -> feqb x y = Req_bool a b.
Proof. intros (F1 & E1 & _) (F2 & E2 & _). apply eqb_val; assumption. Qed.
Lemma ex_0 e k : (0 <= k)%Z -> ex e k f0 0.
Proof.
  intros H. destruct (grid_f0 e) as [F E]. split; [exact F |]. split; [rewrite E; ring |].
  exists 0%Z. split; [pose proof (Z.pow_nonneg 2 k); lia | ring].
Qed.

(** Rounding in the normal range. *)
Lemma RN_rel r : r = 0 \/ bp (-1022) <= Rabs r -> Rabs (RN r - r) <= u53 * Rabs r.
Proof.
  intros [-> | H]; [rewrite RN_0, Rminus_eq_0, Rabs_R0; lra |].
  pose proof (relative_error_N_FLT radix2 (-1074) 53 ltac:(lia) (fun x => negb (Z.even x)) r H) as E.
  change (round radix2 (FLT_exp (-1074) 53) (Znearest (fun x => negb (Z.even x)))) with RN in E.
  replace (/ 2 * bpow radix2 (- (53) + 1)) with u53 in E; [exact E |].
  change (- (53) + 1)%Z with (-53 + 1)%Z. rewrite bp_S. lra.
Qed.
Lemma RN_small r k : (-1074 <= k < 1024)%Z -> Rabs r <= bp k -> Rabs (RN r) < bp 1024.
Proof.
  intros Hk H. eapply Rle_lt_trans; [apply (RN_abs_le k); [lia | exact H] |]. apply bpow_lt. lia.
Qed.

Lemma ap_weak c d x r : c <= d -> ap c x r -> ap d x r.
Proof.
  intros H [F E]. split; [exact F |]. eapply Rle_trans; [exact E |].
  apply Rmult_le_compat_r; [apply Rabs_pos |]. pose proof u53_pos. nra.
Qed.
Lemma ap_ex c e k x r : 0 <= c -> ex e k x r -> ap c x r.
Proof.
  intros Hc (F & <- & _). split; [exact F |]. rewrite Rminus_eq_0, Rabs_R0.
  apply Rmult_le_pos; [pose proof u53_pos; nra | apply Rabs_pos].
Qed.
Lemma ap_abs c x r : ap c x r -> ap c (fabs x) (Rabs r).
Proof.
  intros [F E]. split; [rewrite fabs_fin; exact F |]. rewrite fabs_R, Rabs_Rabsolu.
  eapply Rle_trans; [apply Rabs_triang_inv2 | exact E].
Qed.
Lemma ap_neg c x r : ap c x r -> ap c (fneg x) (- r).
Proof.
  intros [F E]. split; [rewrite fneg_fin; exact F |]. rewrite fneg_R, Rabs_Ropp.
  replace (- R_of x - - r) with (- (R_of x - r)) by ring. rewrite Rabs_Ropp. exact E.
Qed.
(** Quotient of exact values. *)
Lemma Rabs_quot a b : b <> 0 -> Rabs (a / b) = Rabs a / Rabs b.
Proof. intros H. unfold Rdiv. rewrite Rabs_mult, Rabs_inv. reflexivity. Qed.
Lemma quot_range e k l n m : (0 <= k <= 53)%Z -> (0 <= l <= 53)%Z -> (Z.abs n <= 2 ^ k)%Z -> (Z.abs m <= 2 ^ l)%Z -> n <> 0%Z -> m <> 0%Z ->
  bp (- l) <= Rabs (IZR n * bp e / (IZR m * bp e)) <= bp k.
Proof.
  intros Hk Hl Hn Hm Zn Zm.
  assert (NM : IZR m <> 0) by (apply not_0_IZR; exact Zm). pose proof (bpow_gt_0 radix2 e) as Be.
  replace (IZR n * bp e / (IZR m * bp e)) with (IZR n / IZR m) by (field; split; [lra | exact NM]).
  rewrite Rabs_quot by exact NM. rewrite <- !abs_IZR.
  assert (1 <= IZR (Z.abs n)) by (apply IZR_le; lia). assert (1 <= IZR (Z.abs m)) by (apply IZR_le; lia).
  assert (Pk : IZR (Z.abs n) <= bp k) by (rewrite <- (IZR_Zpower radix2) by lia; apply IZR_le; exact Hn).
  assert (Pl : IZR (Z.abs m) <= bp l) by (rewrite <- (IZR_Zpower radix2) by lia; apply IZR_le; exact Hm).
  set (N := IZR (Z.abs n)) in *. set (M := IZR (Z.abs m)) in *. clearbody N M.
  assert (0 < / M) by (apply Rinv_0_lt_compat; lra).
  rewrite bpow_opp. split.
  - apply Rle_trans with (/ M); [apply Rinv_le; lra | unfold Rdiv; nra].
  - apply Rle_trans with N; [| exact Pk]. unfold Rdiv. assert (/ M <= 1) by (rewrite <- Rinv_1; apply Rinv_le; lra). nra.
Qed.
Lemma ex_div_val e k l x y a b : (0 <= k <= 53)%Z -> (0 <= l <= 53)%Z -> ex e k x a -> ex e l y b -> b <> 0 ->
  fis_finite (fdiv x y) = true /\ R_of (fdiv x y) = RN (a / b) /\ (a / b = 0 \/ bp (- l) <= Rabs (a / b) <= bp k).
Proof.
  intros Hk Hl (Fx & Ex & n & Hn & Gx) (Fy & Ey & m & Hm & Gy) Hb.
  assert (Q : a / b = 0 \/ bp (- l) <= Rabs (a / b) <= bp k).
  { destruct (Z.eq_dec n 0) as [-> | Zn].
    - left. rewrite Gx. rewrite Rmult_0_l. unfold Rdiv. apply Rmult_0_l.
    - right. rewrite Gx, Gy. apply quot_range; try assumption. intros ->. apply Hb. rewrite Gy. ring. }
  destruct (fdiv_R x y Fx) as [F E].
  - rewrite Ey. exact Hb.
  - rewrite Ex, Ey. apply (RN_small _ 53); [lia |].
    destruct Q as [-> | Q]; [rewrite Rabs_R0; apply bpow_ge_0 |].
    eapply Rle_trans; [apply Q |]. apply bpow_le. lia.
  - rewrite Ex, Ey in E. tauto.
Qed.
Lemma ex_div e k l x y a b : (0 <= k <= 53)%Z -> (0 <= l <= 53)%Z -> ex e k x a -> ex e l y b -> b <> 0 -> ap 1 (fdiv x y) (a / b).
Proof.
  intros Hk Hl Hx Hy Hb. destruct (ex_div_val e k l x y a b Hk Hl Hx Hy Hb) as (F & E & Q). split; [exact F |].
  rewrite E, Rmult_1_l. apply RN_rel. destruct Q as [Q | [Q _]]; [left; exact Q | right].
  eapply Rle_trans; [| exact Q]. apply bpow_le. lia.
Qed.
(** Its sign and its place against 1 are those of the exact quotient. *)
Lemma RN_pos r : bp (-1022) <= r -> 0 < RN r.
Proof.
  intros H. pose proof (bpow_gt_0 radix2 (-1022)). eapply Rlt_le_trans; [exact H0 |].
  rewrite <- (RN_id (bp (-1022))) by (apply bpow_fmt; lia). apply RN_le. exact H.
Qed.
Lemma quot_le0 e k l x y a b : (0 <= k <= 53)%Z -> (0 <= l <= 53)%Z -> ex e k x a -> ex e l y b -> b <> 0 ->
  fleb (fdiv x y) f0 = Rle_bool (a / b) 0 /\ fltb (fdiv x y) f0 = Rlt_bool (a / b) 0.
Proof.
  intros Hk Hl Hx Hy Hb. destruct (ex_div_val e k l x y a b Hk Hl Hx Hy Hb) as (F & E & Q).
  assert (Q' : a / b = 0 \/ bp (-1022) <= Rabs (a / b)).
  { destruct Q as [Q | [Q _]]; [left; exact Q | right]. eapply Rle_trans; [| exact Q]. apply bpow_le. lia. }
  rewrite (leb_val _ f0 (RN (a / b)) 0 F E eq_refl R_of_f0), (ltb_val _ f0 (RN (a / b)) 0 F E eq_refl R_of_f0).
  pose proof (bpow_gt_0 radix2 (-1022)) as B.
  assert (S : (a / b = 0 /\ RN (a / b) = 0) \/ (0 < a / b /\ 0 < RN (a / b)) \/ (a / b < 0 /\ RN (a / b) < 0)).
  { destruct Q' as [Z | Q']; [left; rewrite Z, RN_0; tauto |]. right.
    destruct (Rle_dec 0 (a / b)) as [P | P].
    - rewrite Rabs_pos_eq in Q' by exact P. left. split; [lra | apply RN_pos; exact Q'].
    - rewrite Rabs_left1 in Q' by lra. right. split; [lra |]. pose proof (RN_pos _ Q') as P'. rewrite RN_opp in P'. lra. }
  split.
  - destruct (Rle_bool_spec (RN (a / b)) 0); destruct (Rle_bool_spec (a / b) 0); try reflexivity; lra.
  - destruct (Rlt_bool_spec (RN (a / b)) 0); destruct (Rlt_bool_spec (a / b) 0); try reflexivity; lra.
Qed.
Lemma fmt_below : fmt (1 - bp (-53)).
Proof.
  replace (1 - bp (-53)) with (IZR (2 ^ 53 - 1) * bp (-53)).
  - apply format_grid; [lia |]. lia.
  - rewrite minus_IZR. assert (EP : IZR (2 ^ 53) = bp 53) by (apply (IZR_Zpower radix2 53); lia). rewrite EP. rewrite Rmult_minus_distr_r, <- bpow_plus. cbn [Z.add Z.opp]. rewrite Rmult_1_l. reflexivity.
Qed.
Lemma fmt_above : fmt (1 + bp (-52)).
Proof.
  replace (1 + bp (-52)) with (IZR (2 ^ 52 + 1) * bp (-52)).
  - apply format_grid; [lia |]. lia.
  - rewrite plus_IZR. assert (EP : IZR (2 ^ 52) = bp 52) by (apply (IZR_Zpower radix2 52); lia). rewrite EP. rewrite Rmult_plus_distr_r, <- bpow_plus. cbn [Z.add Z.opp]. rewrite Rmult_1_l. reflexivity.
Qed.
Lemma quot_ge1 e k l x y a b : (0 <= k <= 53)%Z -> (0 <= l <= 52)%Z -> ex e k x a -> ex e l y b -> b <> 0 ->
  fleb f1 (fdiv x y) = Rle_bool 1 (a / b) /\ fltb f1 (fdiv x y) = Rlt_bool 1 (a / b).
Proof.
  intros Hk Hl Hx Hy Hb. destruct (ex_div_val e k l x y a b Hk ltac:(lia) Hx Hy Hb) as (F & E & _).
  rewrite (leb_val f1 _ 1 (RN (a / b)) eq_refl R_of_f1 F E), (ltb_val f1 _ 1 (RN (a / b)) eq_refl R_of_f1 F E).
  destruct Hx as (_ & _ & n & Hn & Gx). destruct Hy as (_ & _ & m & Hm & Gy).
  pose proof (bpow_gt_0 radix2 e) as Be.
  assert (Zm : m <> 0%Z) by (intros ->; apply Hb; rewrite Gy; ring).
  assert (NM : IZR m <> 0) by (apply not_0_IZR; exact Zm).
  assert (EQ : a / b - 1 = IZR (n - m) / IZR m) by (rewrite Gx, Gy, minus_IZR; field; split; [exact NM | lra]).
  assert (D : a / b = 1 \/ bp (-52) <= Rabs (a / b - 1)).
  { destruct (Z.eq_dec n m) as [-> | Ne]; [left; rewrite Z.sub_diag in EQ; unfold Rdiv at 2 in EQ; rewrite Rmult_0_l in EQ; lra | right].
    rewrite EQ, Rabs_quot by exact NM. rewrite <- !abs_IZR.
    assert (1 <= IZR (Z.abs (n - m))) by (apply IZR_le; lia). assert (1 <= IZR (Z.abs m)) by (apply IZR_le; lia).
    assert (Pl : IZR (Z.abs m) <= bp 52) by (rewrite <- (IZR_Zpower radix2) by lia; apply IZR_le; change (radix_val radix2) with 2%Z; pose proof (Z.pow_le_mono_r 2 l 52 ltac:(lia) ltac:(lia)); lia).
    apply Rle_trans with (/ IZR (Z.abs m)); [change (-52)%Z with (- (52))%Z; rewrite bpow_opp; apply Rinv_le; lra |].
    assert (0 < / IZR (Z.abs m)) by (apply Rinv_0_lt_compat; lra). unfold Rdiv. nra. }
  pose proof (bpow_gt_0 radix2 (-52)) as B52. pose proof (bpow_gt_0 radix2 (-53)) as B53.
  assert (H53 : bp (-52) = 2 * bp (-53)) by (change (-52)%Z with (-53 + 1)%Z; apply bp_S).
  assert (S : (a / b = 1 /\ RN (a / b) = 1) \/ (1 < a / b /\ 1 < RN (a / b)) \/ (a / b < 1 /\ RN (a / b) < 1)).
  { destruct D as [-> | D].
    - left. split; [reflexivity |]. apply RN_id. apply (bpow_fmt 0). lia.
    - right. destruct (Rle_dec 1 (a / b)) as [P | P].
      + left. rewrite Rabs_pos_eq in D by lra. split; [lra |].
        apply Rlt_le_trans with (1 + bp (-52)); [lra |]. rewrite <- (RN_id _ fmt_above). apply RN_le. lra.
      + right. rewrite Rabs_left1 in D by lra. split; [lra |].
        apply Rle_lt_trans with (1 - bp (-53)); [| lra]. rewrite <- (RN_id _ fmt_below). apply RN_le. lra. }
  split.
  - destruct (Rle_bool_spec 1 (RN (a / b))); destruct (Rle_bool_spec 1 (a / b)); try reflexivity; lra.
  - destruct (Rlt_bool_spec 1 (RN (a / b))); destruct (Rlt_bool_spec 1 (a / b)); try reflexivity; lra.
Qed.

(** Square root of an exact value. *)
Lemma fsqrt_R x : fis_finite x = true -> 0 <= R_of x -> R_of (fsqrt x) = RN (sqrt (R_of x)) /\
  (0 < R_of x -> fis_finite (fsqrt x) = true).
Proof.
  intros F P. pose proof (Bsqrt_correct 53 1024 _ _ mode_NE x) as (C1 & C2 & _). split; [exact C1 |].
  intros P'. unfold fis_finite, fsqrt. rewrite C2. destruct x as [s | s | | s m ee H]; try reflexivity; try discriminate.
  destruct s; [| reflexivity]. exfalso. unfold R_of in P'. cbn in P'. apply (Rlt_irrefl 0). eapply Rlt_trans; [exact P' |].
  apply F2R_lt_0. reflexivity.
Qed.
Lemma ap_sqrt x : fis_finite x = true -> bp (-1074) <= R_of x -> ap 1 (fsqrt x) (sqrt (R_of x)).
Proof.
  intros F P. pose proof (bpow_gt_0 radix2 (-1074)). destruct (fsqrt_R x F ltac:(lra)) as [E Fi]. split; [apply Fi; lra |].
  rewrite E, Rmult_1_l. apply RN_rel. right. rewrite Rabs_pos_eq by apply sqrt_pos.
  apply Rle_trans with (bp (-537)); [apply bpow_le; lia |].
  rewrite <- (sqrt_Rsqr (bp (-537))) by apply bpow_ge_0. apply sqrt_le_1_alt. unfold Rsqr. rewrite <- bpow_plus. exact P.
Qed.

(** Product of approximations. *)
Lemma ap_mul c d x y a b : 0 <= c <= 1000 -> 0 <= d <= 1000 -> ap c x a -> ap d y b ->
  a * b = 0 \/ bp (-1000) <= Rabs (a * b) <= bp 1000 -> ap (c + d + 2) (fmul x y) (a * b).
Proof.
  intros Hc Hd [Fx Ex] [Fy Ey] Hab.
  pose proof u53_pos as U0. pose proof u53_small as U1.
  assert (U2 : u53 <= / 1000000000) by (apply Rle_trans with (bp (-30)); [apply bpow_le; lia | cbn; lra]).
  set (X := R_of x) in *. set (Y := R_of y) in *.
  assert (EP : Rabs (X * Y - a * b) <= ((c + d) * u53 + c * d * u53 * u53) * Rabs (a * b)).
  { replace (X * Y - a * b) with ((X - a) * b + a * (Y - b) + (X - a) * (Y - b)) by ring.
    eapply Rle_trans; [apply Rabs_triang |]. eapply Rle_trans; [apply Rplus_le_compat_r, Rabs_triang |].
    rewrite !Rabs_mult. pose proof (Rabs_pos a). pose proof (Rabs_pos b). pose proof (Rabs_pos (X - a)). pose proof (Rabs_pos (Y - b)).
    assert (Rabs (X - a) * Rabs b <= c * u53 * Rabs a * Rabs b) by nra.
    assert (Rabs a * Rabs (Y - b) <= Rabs a * (d * u53 * Rabs b)) by nra.
    assert (Rabs (X - a) * Rabs (Y - b) <= (c * u53 * Rabs a) * (d * u53 * Rabs b)) by (apply Rmult_le_compat; assumption).
    lra. }
  set (k := (c + d) * u53 + c * d * u53 * u53) in *.
  assert (K : 0 <= k /\ k <= (c + d) * u53 + u53 / 1000 /\ k <= / 4).
  { assert (0 <= c * d <= 1000000) by nra.
    assert (c * d * u53 <= / 1000) by nra. assert (0 <= c * d * u53) by nra. unfold k. nra. }
  destruct K as (K0 & K1 & K2). clearbody k.
  assert (NZ : X * Y = 0 /\ a * b = 0 \/ bp (-1022) <= Rabs (X * Y) <= bp 1001).
  { destruct Hab as [Z | [L H]].
    - left. split; [| exact Z]. rewrite Z, Rabs_R0, Rmult_0_r, Rminus_0_r in EP.
      pose proof (Rabs_pos (X * Y)). apply Rabs_eq_R0. lra.
    - right. pose proof (Rabs_triang_inv (a * b) (a * b - X * Y)) as T1. replace (a * b - (a * b - X * Y)) with (X * Y) in T1 by ring.
      pose proof (Rabs_triang_inv (X * Y) (a * b)) as T2. rewrite (Rabs_minus_sym (a * b)) in T1.
      set (m := Rabs (a * b)) in *. assert (k * m <= / 4 * m) by (apply Rmult_le_compat_r; [pose proof (bpow_gt_0 radix2 (-1000)); lra | exact K2]).
      replace (bp 1001) with (2 * bp 1000) by (symmetry; apply (bp_S 1000)).
      assert (bp (-1022) <= bp (-1001)) by (apply bpow_le; lia). assert (bp (-1000) = 2 * bp (-1001)) by (apply (bp_S (-1001))). split; lra. }
  destruct (fmul_R x y Fx Fy) as [F E].
  { fold X Y. apply (RN_small _ 1001); [lia |]. destruct NZ as [[-> _] | N]; [rewrite Rabs_R0; apply bpow_ge_0 | apply N]. }
  split; [exact F |]. rewrite E. fold X Y. clear E F.
  assert (RE : Rabs (RN (X * Y) - X * Y) <= u53 * Rabs (X * Y)) by (apply RN_rel; tauto).
  replace (RN (X * Y) - a * b) with ((RN (X * Y) - X * Y) + (X * Y - a * b)) by ring.
  eapply Rle_trans; [apply Rabs_triang |].
  pose proof (Rabs_triang_inv (X * Y) (a * b)) as T2.
  set (m := Rabs (a * b)) in *. assert (0 <= m) by apply Rabs_pos.
  assert (Rabs (X * Y) <= (1 + k) * m) by lra.
  assert (u53 * Rabs (X * Y) <= u53 * ((1 + k) * m)) by (apply Rmult_le_compat_l; lra).
  assert (u53 * ((1 + k) * m) + k * m <= (c + d + 2) * u53 * m); [| lra].
  assert (u53 * (1 + k) + k <= (c + d + 2) * u53) by nra.
  replace (u53 * ((1 + k) * m) + k * m) with ((u53 * (1 + k) + k) * m) by ring. apply Rmult_le_compat_r; assumption.
Qed.

(** The double nearest to a real number. *)
Definition of_real (r : R) : f64 :=
  mkf (Ztrunc (scaled_mantissa radix2 fexp64 (RN r))) (cexp radix2 fexp64 (RN r)).
Lemma of_real_R r : Rabs (RN r) < bp 1024 -> fis_finite (of_real r) = true /\ R_of (of_real r) = RN r.
Proof.
  intros H. unfold of_real, mkf.
  pose proof (binary_normalize_correct 53 1024 _ _ mode_NE
    (Ztrunc (scaled_mantissa radix2 fexp64 (RN r))) (cexp radix2 fexp64 (RN r)) false) as C.
  cbv zeta in C.
  assert (E : F2R (Float radix2 (Ztrunc (scaled_mantissa radix2 fexp64 (RN r))) (cexp radix2 fexp64 (RN r))) = RN r)
    by (symmetry; apply RN_format).
  rewrite E, (RN_id (RN r) (RN_format r)) in C. rewrite Rlt_bool_true in C by exact H.
  destruct C as (C1 & C2 & _). split; assumption.
Qed.

(** Signs of products and square roots. *)
Lemma rank_sign s m ee H : (0 <= rank (B754_finite s m ee H))%Z -> s = false.
Proof.
  intros P. destruct s; [exfalso | reflexivity]. pose proof (rank_finite_nz true m ee H) as NZ.
  set (x := B754_finite true m ee H) in *. pose proof (Bsign_R_le x eq_refl eq_refl) as L. rewrite (rank_R x eq_refl) in L.
  pose proof (bpow_gt_0 radix2 (-1074)). assert (1 <= IZR (rank x)) by (apply IZR_le; lia). nra.
Qed.
Lemma inf_pos : (0 <= rank (B754_infinity false))%Z.
Proof. rewrite rank_inf. apply Z.pow_nonneg. lia. Qed.
Lemma inf_neg : ~ (0 <= rank (B754_infinity true))%Z.
Proof. rewrite rank_inf. pose proof (Z.pow_pos_nonneg 2 2098). lia. Qed.
Lemma fmul_nonneg x y : (0 <= rank x)%Z -> (0 <= rank y)%Z -> nn x -> nn y -> nn (fmul x y) -> (0 <= rank (fmul x y))%Z.
Proof.
  intros Hx Hy Nx Ny N.
  destruct (fis_finite x) eqn:Fx.
  - destruct (fis_finite y) eqn:Fy.
    + pose proof (Bmult_correct 53 1024 _ _ mode_NE x y) as C. cbv zeta in C.
      pose proof (rank_R x Fx) as Rx. pose proof (rank_R y Fy) as Ry. pose proof (bpow_gt_0 radix2 (-1074)) as B.
      assert (X0 : 0 <= B2R x) by (change (0 <= R_of x); rewrite Rx; apply Rmult_le_pos; [apply IZR_le; exact Hx | lra]).
      assert (Y0 : 0 <= B2R y) by (change (0 <= R_of y); rewrite Ry; apply Rmult_le_pos; [apply IZR_le; exact Hy | lra]).
      destruct (Rlt_bool_spec (Rabs (RN (B2R x * B2R y))) (bp 1024)) as [L | L].
      * destruct C as (C1 & C2 & _). assert (Ff : fis_finite (fmul x y) = true) by (unfold fis_finite, fmul; rewrite C2; unfold fis_finite in *; rewrite Fx, Fy; reflexivity).
        pose proof (rank_R _ Ff) as Rm. assert (0 <= R_of (fmul x y)) by (change (R_of (fmul x y)) with (B2R (fmul x y)); unfold fmul; rewrite C1; apply RN_ge0; apply Rmult_le_pos; assumption).
        rewrite Rm in H. apply le_IZR. apply (Rmult_le_reg_r (bp (-1074))); lra.
      * assert (NZ : B2R x * B2R y <> 0).
        { intros Z. rewrite Z, RN_0, Rabs_R0 in L. pose proof (bpow_gt_0 radix2 1024). lra. }
        assert (SP : forall z, fis_finite z = true -> 0 <= B2R z -> B2R z <> 0 -> Bsign z = false).
        { intros z Fz Pz NzZ. destruct (Bsign z) eqn:S; [| reflexivity]. pose proof (Bsign_R_le z Fz S). unfold R_of in H. lra. }
        assert (X1 : B2R x <> 0) by (intros Z; apply NZ; rewrite Z; ring). assert (Y1 : B2R y <> 0) by (intros Z; apply NZ; rewrite Z; ring).
        rewrite (SP x Fx X0 X1), (SP y Fy Y0 Y1) in C. cbn in C. apply B2SF_inf in C. unfold fmul. rewrite C. exact inf_pos.
    + destruct y as [s | s | | s m ee Hb]; try discriminate. destruct s; [exfalso; exact (inf_neg Hy) |].
      destruct x as [s | s | | s m ee Hb]; try discriminate. apply rank_sign in Hx. subst. exact inf_pos.
  - destruct x as [s | s | | s m ee Hb]; try discriminate. destruct s; [exfalso; exact (inf_neg Hx) |].
    destruct y as [s | s | | s m ee Hb]; try discriminate.
    + destruct s; [exfalso; exact (inf_neg Hy) | exact inf_pos].
    + apply rank_sign in Hy. subst. exact inf_pos.
Qed.
Lemma fsqrt_nonneg x : nn (fsqrt x) -> (0 <= rank (fsqrt x))%Z.
Proof.
  intros N. destruct (fis_finite (fsqrt x)) eqn:F.
  - pose proof (Bsqrt_correct 53 1024 _ _ mode_NE x) as (C1 & _). pose proof (rank_R _ F) as E.
    assert (0 <= R_of (fsqrt x)) by (change (R_of (fsqrt x)) with (B2R (fsqrt x)); unfold fsqrt; rewrite C1; apply RN_ge0, sqrt_pos).
    rewrite E in H. apply le_IZR. pose proof (bpow_gt_0 radix2 (-1074)). apply (Rmult_le_reg_r (bp (-1074))); lra.
  - destruct x as [s | s | | s m ee Hb].
    + discriminate F.
    + destruct s; [discriminate N | exact inf_pos].
    + discriminate N.
    + pose proof (Bsqrt_correct 53 1024 _ _ mode_NE (B754_finite s m ee Hb)) as (_ & C2 & _).
      unfold fis_finite, fsqrt in F. rewrite C2 in F. destruct s; [| discriminate F]. discriminate N.
Qed.
