(** Proofs about orientation. *)
From Coq Require Import ZArith Bool List Reals Lia Lra Psatz.
From Flocq Require Import Core BinarySingleNaN.
From Verif Require Import Base F64 F64Facts F64Round F64Err DD_model DD_spec DD_proofs DDSign_proofs DD_props
  Coordinate_model CoordSeq_model Orientation_model Orientation_spec.
Open Scope Z_scope.

(** ** The filter *)
Lemma fsignum_R x : fis_finite x = true -> is_sign (fsignum x) (R_of x).
Proof.
  intros F. unfold fsignum, fgtb. change (@Bltb 53 1024) with fltb. rewrite !fltb_R by (assumption || reflexivity).
  rewrite R_f0. unfold is_sign.
  destruct (Rlt_bool_spec 0 (R_of x)); [auto|]. destruct (Rlt_bool_spec (R_of x) 0); [auto|].
  right; left. split; [reflexivity|lra].
Qed.
(** A product of two differences, computed in doubles. *)
Lemma diff_prod p q r s : bf 500 p -> bf 500 q -> bf 500 r -> bf 500 s ->
  let P := ((R_of p - R_of q) * (R_of r - R_of s))%R in
  (P = 0 \/ bp (-990) <= Rabs P)%R ->
  let l := fmul (fsub p q) (fsub r s) in
  bf 1002 l /\ (Rabs (R_of l - P) <= 4 * u53 * Rabs (R_of l))%R /\ (R_of l = 0 \/ bp (-992) <= Rabs (R_of l))%R.
Proof.
  intros Bp Bq Br Bs. cbv zeta. intros OK.
  destruct (bf_sub 500 p q ltac:(lia) Bp Bq) as (Ba & Ea). destruct (bf_sub 500 r s ltac:(lia) Br Bs) as (Bb & Eb).
  destruct (bf_mul (500 + 1) (500 + 1) _ _ ltac:(lia) Ba Bb) as (Bl & El).
  split; [apply bf_weak with (500 + 1 + (500 + 1)); [lia|exact Bl]|].
  pose proof (RN_sub_err (R_of p) (R_of q) (format_R p) (format_R q)) as Da. rewrite <- Ea in Da.
  pose proof (RN_sub_err (R_of r) (R_of s) (format_R r) (format_R s)) as Db. rewrite <- Eb in Db.
  pose proof (RN_err (R_of (fsub p q) * R_of (fsub r s))) as Dl. rewrite <- El in Dl.
  set (a := R_of (fsub p q)) in *. set (b := R_of (fsub r s)) in *. set (l := R_of (fmul (fsub p q) (fsub r s))) in *.
  set (A := (R_of p - R_of q)%R) in *. set (B := (R_of r - R_of s)%R) in *.
  pose proof u53_pos as U0. pose proof u53_small as U1.
  assert (Rabs (a * b - A * B) <= (2 * u53 + u53 * u53) * Rabs (A * B))%R as Dab.
  { replace (a * b - A * B)%R with ((a - A) * (b - B) + (a - A) * B + A * (b - B))%R by ring.
    eapply Rle_trans; [apply Rabs_triang|]. apply Rle_trans with (Rabs ((a - A) * (b - B)) + Rabs ((a - A) * B) + Rabs (A * (b - B)))%R.
    - apply Rplus_le_compat_r. apply Rabs_triang.
    - rewrite !Rabs_mult. pose proof (Rabs_pos A) as PA. pose proof (Rabs_pos B) as PB.
      pose proof (Rabs_pos (a - A)) as P1. pose proof (Rabs_pos (b - B)) as P2.
      assert (Rabs (a - A) * Rabs (b - B) <= (u53 * Rabs A) * (u53 * Rabs B))%R by (apply Rmult_le_compat; assumption).
      assert (Rabs (a - A) * Rabs B <= u53 * Rabs A * Rabs B)%R by (apply Rmult_le_compat_r; assumption).
      assert (Rabs A * Rabs (b - B) <= Rabs A * (u53 * Rabs B))%R by (apply Rmult_le_compat_l; assumption). lra. }
  destruct OK as [Z|G].
  - assert (a * b = 0)%R as Zab.
    { rewrite Z, Rabs_R0, Rmult_0_r, Rminus_0_r in Dab. apply Rabs_eq_R0. pose proof (Rabs_pos (a * b)). lra. }
    assert (l = 0)%R as Zl. { rewrite El. now rewrite Zab, RN_0. }
    rewrite Zl, Z, Rminus_0_r, Rabs_R0. split; [lra|left; reflexivity].
  - set (m := Rabs (A * B)) in *.
    assert (0 <= u53 * u53 <= u53 / 1024)%R as UU by (split; [apply Rmult_le_pos; lra|nra]).
    assert (bp (-1075) <= u53 / 1024 * m)%R as Ht.
    { apply Rle_trans with (u53 / 1024 * bp (-990))%R; [|apply Rmult_le_compat_l; [lra|exact G]].
      replace (bp (-53) / 1024)%R with (bp (-63)).
      - rewrite <- bpow_plus. apply bpow_le. lia.
      - change (-63) with (-53 + -10). rewrite bpow_plus. change (bp (-10)) with (/ 1024)%R. reflexivity. }
    assert (0 < m)%R as M0 by (pose proof (bpow_gt_0 radix2 (-990)); lra).
    assert (0 < u53 * m)%R as UM by (apply Rmult_lt_0_compat; lra).
    assert (u53 * m <= / 1024 * m)%R as UM2 by (apply Rmult_le_compat_r; lra).
    assert (u53 * u53 * m <= u53 * m / 1024)%R as UUM by nra.
    assert (Rabs (a * b - A * B) <= 2 * (u53 * m) + u53 * m / 1024)%R as Dab' by lra.
    assert (Rabs (a * b) <= m + 3 * (u53 * m))%R as Sab.
    { replace (a * b)%R with (A * B + (a * b - A * B))%R by ring. eapply Rle_trans; [apply Rabs_triang|]. fold m. lra. }
    assert (Rabs (l - a * b) <= u53 * m + u53 * m / 128)%R as Dl'.
    { eapply Rle_trans; [exact Dl|]. apply (Rmult_le_compat_l u53) in Sab; [|lra]. nra. }
    assert (Rabs (l - A * B) <= 3.1 * (u53 * m))%R as D.
    { replace (l - A * B)%R with ((l - a * b) + (a * b - A * B))%R by ring. eapply Rle_trans; [apply Rabs_triang|]. lra. }
    assert (m <= Rabs l + 3.1 * (u53 * m))%R as Sm.
    { unfold m at 1. replace (A * B)%R with (l + - (l - A * B))%R by ring. eapply Rle_trans; [apply Rabs_triang|]. rewrite Rabs_Ropp. lra. }
    assert (m <= 1.1 * Rabs l)%R as Sm' by lra.
    split.
    + eapply Rle_trans; [exact D|]. apply (Rmult_le_compat_l u53) in Sm'; lra.
    + right. change (-990) with (-992 + 1 + 1) in G. rewrite !bp_S in G. pose proof (bpow_gt_0 radix2 (-992)). lra.
Qed.
Lemma EPS_R : fis_finite DP_SAFE_EPSILON = true /\ (9 * u53 <= R_of DP_SAFE_EPSILON <= 10 * u53)%R.
Proof.
  destruct (grid_mkf 5070602400912918 (-102) ltac:(lia) ltac:(lia)) as (F & E). split; [exact F|].
  unfold DP_SAFE_EPSILON. rewrite E. change (-53) with (-102 + 49). rewrite bpow_plus.
  change (bp 49) with (IZR (2 ^ 49)). pose proof (bpow_gt_0 radix2 (-102)).
  assert (9 * IZR (2 ^ 49) <= 5070602400912918 <= 10 * IZR (2 ^ 49))%R.
  { rewrite <- !mult_IZR. split; apply IZR_le; lia. } nra.
Qed.
Lemma det3_filter ax ay bx by_ cx cy :
  det3 ax ay bx by_ cx cy = ((ax - cx) * (by_ - cy) - (ay - cy) * (bx - cx))%R.
Proof. unfold det3. ring. Qed.
Lemma det3_dd ax ay bx by_ cx cy :
  det3 ax ay bx by_ cx cy = ((bx - ax) * (cy - by_) - (by_ - ay) * (cx - bx))%R.
Proof. unfold det3. ring. Qed.
Lemma is_sign_not2 v : ~ is_sign 2 v.
Proof. intros [(H & _)|[(H & _)|(H & _)]]; discriminate. Qed.
Lemma is_sign_same z v w : is_sign z v -> ((0 < v -> 0 < w) /\ (v < 0 -> w < 0) /\ (v = 0 -> w = 0))%R -> is_sign z w.
Proof. unfold is_sign. intros [(H & K)|[(H & K)|(H & K)]] (A & B & C); intuition. Qed.
Lemma is_sign_fun a b v : is_sign a v -> is_sign b v -> a = b.
Proof. unfold is_sign. intros [(H & K)|[(H & K)|(H & K)]] [(H' & K')|[(H' & K')|(H' & K')]]; try lra; congruence. Qed.
Lemma is_sign_opp z v : is_sign z v -> is_sign (- z) (- v).
Proof. unfold is_sign. intros [(-> & K)|[(-> & K)|(-> & K)]]; [right; right|right; left|left]; split; try reflexivity; lra. Qed.

(** The comparison with the error bound settles the sign. *)
Lemma finish_sound l r det sum P Q : bf 1002 l -> bf 1002 r ->
  (Rabs (R_of l - P) <= 4 * u53 * Rabs (R_of l))%R -> (Rabs (R_of r - Q) <= 4 * u53 * Rabs (R_of r))%R ->
  (bp (-992) <= Rabs (R_of l))%R ->
  R_of det = RN (R_of l - R_of r) -> fis_finite det = true ->
  fis_finite sum = true -> R_of sum = RN (Rabs (R_of l) + Rabs (R_of r)) ->
  let errbound := fmul DP_SAFE_EPSILON sum in
  fgeb det errbound || fgeb (fneg det) errbound = true ->
  is_sign (fsignum det) (P - Q).
Proof.
  intros Bl Br DP DQ Gl Ed Fd Fs Es. cbv zeta. destruct EPS_R as (FE & E1 & E2).
  set (L := Rabs (R_of l)) in *. set (S := (L + Rabs (R_of r))%R) in *.
  pose proof (Rabs_pos (R_of r)) as Pr. pose proof (bpow_gt_0 radix2 (-992)) as P992.
  pose proof u53_pos as U0. pose proof u53_small as U1.
  assert (Rabs S <= bp 1003)%R as SB.
  { destruct Bl as (_ & Bl), Br as (_ & Br). unfold S, L. change 1003 with (1002 + 1). rewrite bp_S.
    rewrite Rabs_pos_eq by (pose proof (Rabs_pos (R_of l)); lra). lra. }
  assert (0 < S)%R as S0 by (unfold S; lra).
  assert (Rabs (RN S) <= bp 1003)%R as SB2 by (apply RN_abs_le; [lia|exact SB]).
  assert (fmt L /\ fmt (Rabs (R_of r))) as (FL & FR) by (split; apply generic_format_abs, format_R).
  pose proof (RN_sum_err L (Rabs (R_of r)) FL FR) as DS. fold S in DS. rewrite (Rabs_pos_eq S) in DS by lra.
  rewrite <- Es in DS, SB2. apply Rabs_le_inv in DS.
  destruct (fmul_R DP_SAFE_EPSILON sum FE Fs) as (Fe & Ee).
  { apply Rle_lt_trans with (bp 1004); [|apply bpow_lt; lia]. apply RN_abs_le; [lia|]. rewrite Rabs_mult.
    change 1004 with (1 + 1003). rewrite bpow_plus. apply Rmult_le_compat; try apply Rabs_pos; [|exact SB2].
    rewrite Rabs_pos_eq by lra. change (bp 1) with 2%R. lra. }
  set (err := fmul DP_SAFE_EPSILON sum) in *.
  pose proof (RN_err (R_of DP_SAFE_EPSILON * R_of sum)) as De. rewrite <- Ee in De.
  assert (u53 * S <= / 1024 * S)%R as US by (apply Rmult_le_compat_r; lra).
  assert (bp (-1075) <= u53 * S / 1024)%R as Ht.
  { apply Rle_trans with (u53 * bp (-992) / 1024)%R.
    - rewrite <- bpow_plus. replace (bp (-53 + -992) / 1024)%R with (bp (-1055)).
      + apply bpow_le. lia.
      + change (-1055) with (-53 + -992 + -10). rewrite (bpow_plus _ _ (-10)). reflexivity.
    - apply Rmult_le_compat_r; [lra|]. apply Rmult_le_compat_l; unfold S; lra. }
  assert (0 < u53 * S)%R as US0 by (apply Rmult_lt_0_compat; lra).
  remember (u53 * S)%R as w eqn:EW.
  assert (8.9 * w <= R_of DP_SAFE_EPSILON * R_of sum)%R as Elow.
  { apply Rle_trans with (9 * u53 * R_of sum)%R; [|apply Rmult_le_compat_r; lra].
    assert (S - w <= R_of sum)%R by lra. assert (u53 * (S - w) <= u53 * R_of sum)%R by (apply Rmult_le_compat_l; lra).
    assert (u53 * w <= w / 1024)%R by nra. lra. }
  assert (R_of DP_SAFE_EPSILON * R_of sum <= 11 * w)%R as Ehigh.
  { apply Rle_trans with (10 * u53 * R_of sum)%R; [apply Rmult_le_compat_r; lra|].
    assert (R_of sum <= S + w)%R by lra. assert (u53 * R_of sum <= u53 * (S + w))%R by (apply Rmult_le_compat_l; lra).
    assert (u53 * w <= w / 1024)%R by nra. lra. }
  assert (8.7 * w <= R_of err)%R as Eerr.
  { rewrite (Rabs_pos_eq (R_of DP_SAFE_EPSILON * R_of sum)) in De by lra. apply Rabs_le_inv in De.
    apply (Rmult_le_compat_l u53) in Ehigh; [|lra]. assert (u53 * w <= w / 1024)%R by nra. lra. }
  pose proof (RN_sub_err (R_of l) (R_of r) (format_R l) (format_R r)) as Dd. rewrite <- Ed in Dd.
  assert (Rabs (R_of l - R_of r) <= S)%R as Sd.
  { unfold Rminus. eapply Rle_trans; [apply Rabs_triang|]. rewrite Rabs_Ropp. unfold S, L. lra. }
  apply (Rmult_le_compat_l u53) in Sd; [|lra]. rewrite <- EW in Sd.
  assert (Rabs (P - Q - R_of det) <= 5 * w)%R as D.
  { replace (P - Q - R_of det)%R with (- (R_of l - P) + (R_of r - Q) + - (R_of det - (R_of l - R_of r)))%R by ring.
    eapply Rle_trans; [apply Rabs_triang|]. rewrite Rabs_Ropp.
    apply Rle_trans with (Rabs (R_of l - P) + Rabs (R_of r - Q) + Rabs (R_of det - (R_of l - R_of r)))%R.
    - apply Rplus_le_compat_r. eapply Rle_trans; [apply Rabs_triang|]. rewrite Rabs_Ropp. lra.
    - fold L in DP. assert (w = u53 * L + u53 * Rabs (R_of r))%R by (rewrite EW; unfold S; ring). lra. }
  intros C. apply orb_true_iff in C.
  assert (8.7 * w <= Rabs (R_of det))%R as Q1.
  { unfold fgeb in C. change (@Bleb 53 1024) with fleb in C.
    rewrite !fleb_true_R in C by (assumption || now rewrite fneg_fin). rewrite fneg_R in C.
    destruct C as [C|C]; [pose proof (RRle_abs (R_of det))|pose proof (RRle_abs (- R_of det)) as H; rewrite Rabs_Ropp in H]; lra. }
  apply (is_sign_same _ _ _ (fsignum_R det Fd)). apply Rabs_le_inv in D.
  destruct (Rtotal_order (R_of det) 0) as [N|[N|N]].
  - rewrite Rabs_left in Q1 by exact N. repeat split; intros; lra.
  - rewrite N, Rabs_R0 in Q1. lra.
  - rewrite Rabs_pos_eq in Q1 by lra. repeat split; intros; lra.
Qed.
Lemma filter_sound pax pay pbx pby pcx pcy :
  bf 500 pax -> bf 500 pay -> bf 500 pbx -> bf 500 pby -> bf 500 pcx -> bf 500 pcy ->
  let P := ((R_of pax - R_of pcx) * (R_of pby - R_of pcy))%R in
  let Q := ((R_of pay - R_of pcy) * (R_of pbx - R_of pcx))%R in
  (P = 0 \/ bp (-990) <= Rabs P)%R -> (Q = 0 \/ bp (-990) <= Rabs Q)%R ->
  orientation_index_filter pax pay pbx pby pcx pcy <> 2 ->
  is_sign (orientation_index_filter pax pay pbx pby pcx pcy) (P - Q).
Proof.
  intros B1 B2 B3 B4 B5 B6. cbv zeta. intros OP OQ. unfold orientation_index_filter.
  destruct (diff_prod pax pcx pby pcy B1 B5 B4 B6 OP) as (Bl & DP & ZP).
  destruct (diff_prod pay pcy pbx pcx B2 B6 B3 B5 OQ) as (Br & DQ & ZQ).
  set (l := fmul (fsub pax pcx) (fsub pby pcy)) in *. set (r := fmul (fsub pay pcy) (fsub pbx pcx)) in *.
  set (P := ((R_of pax - R_of pcx) * (R_of pby - R_of pcy))%R) in *.
  set (Q := ((R_of pay - R_of pcy) * (R_of pbx - R_of pcx))%R) in *.
  destruct (bf_sub 1002 l r ltac:(lia) Bl Br) as (Bd & Ed). set (det := fsub l r) in *.
  pose proof (bf_fin _ _ Bl) as Fl. pose proof (bf_fin _ _ Br) as Fr. pose proof (bf_fin _ _ Bd) as Fd.
  pose proof u53_pos as U0. pose proof u53_small as U1.
  assert (forall v V, Rabs (v - V) <= 4 * u53 * Rabs v -> (0 < v -> 0 < V) /\ (v < 0 -> V < 0) /\ (v = 0 -> V = 0))%R as SG.
  { intros v V D. assert (Rabs (v - V) <= / 2 * Rabs v)%R as D' by (pose proof (Rabs_pos v); nra). apply Rabs_le_inv in D'.
    repeat split; intros H.
    - rewrite Rabs_pos_eq in D' by lra. lra.
    - rewrite Rabs_left in D' by lra. lra.
    - rewrite H, Rabs_R0 in D'. lra. }
  destruct (SG _ _ DP) as (LP & LN & LZ). destruct (SG _ _ DQ) as (RP & RNn & RZ).
  assert (fmt (R_of l) /\ fmt (- R_of r)%R) as (fl & fr) by (split; [|apply generic_format_opp]; apply format_R).
  assert ((0 < R_of l - R_of r -> 0 < R_of det) /\ (R_of l - R_of r < 0 -> R_of det < 0) /\ (R_of l - R_of r = 0 -> R_of det = 0))%R as (DPos & DNeg & DZ).
  { rewrite Ed. unfold Rminus. repeat split; intros H.
    - now apply RN_sum_pos. - now apply RN_sum_neg. - rewrite H. apply RN_0. }
  pose proof (fsignum_R det Fd) as SD.
  unfold fgtb. change (@Bltb 53 1024) with fltb. change (fgeb r f0) with (fleb f0 r).
  rewrite !fltb_R, !fleb_R by (assumption || reflexivity). rewrite R_f0.
  destruct (Rlt_bool_spec 0 (R_of l)) as [Hl|Hl].
  - destruct (Rle_bool_spec (R_of r) 0) as [Hr|Hr].
    + intros _. apply (is_sign_same _ _ _ SD). specialize (DPos ltac:(lra)). specialize (LP Hl).
      assert (Q <= 0)%R by (destruct Hr as [Hr|Hr]; [specialize (RNn Hr)|specialize (RZ Hr)]; lra).
      repeat split; intros; lra.
    + cbv zeta. destruct (bf_add 1002 l r ltac:(lia) Bl Br) as (Bs & Es).
      destruct (fgeb det (fmul DP_SAFE_EPSILON (fadd l r)) || fgeb (fneg det) (fmul DP_SAFE_EPSILON (fadd l r))) eqn:C; [|congruence].
      intros _. apply (finish_sound l r det (fadd l r)); try assumption.
      * rewrite Rabs_pos_eq in ZP by lra. rewrite Rabs_pos_eq; lra.
      * apply (bf_fin _ _ Bs).
      * rewrite Es. f_equal. rewrite !Rabs_pos_eq by lra. reflexivity.
  - destruct (Rlt_bool_spec (R_of l) 0) as [Hl2|Hl2].
    + destruct (Rle_bool_spec 0 (R_of r)) as [Hr|Hr].
      * intros _. apply (is_sign_same _ _ _ SD). specialize (DNeg ltac:(lra)). specialize (LN Hl2).
        assert (0 <= Q)%R by (destruct Hr as [Hr|Hr]; [specialize (RP Hr)|specialize (RZ (eq_sym Hr))]; lra).
        repeat split; intros; lra.
      * cbv zeta. destruct (bf_sub 1002 (fneg l) r ltac:(lia) (bf_neg _ _ Bl) Br) as (Bs & Es). rewrite fneg_R in Es.
        destruct (fgeb det (fmul DP_SAFE_EPSILON (fsub (fneg l) r)) || fgeb (fneg det) (fmul DP_SAFE_EPSILON (fsub (fneg l) r))) eqn:C; [|congruence].
        intros _. apply (finish_sound l r det (fsub (fneg l) r)); try assumption.
        -- rewrite Rabs_left in ZP by lra. rewrite Rabs_left by lra. lra.
        -- apply (bf_fin _ _ Bs).
        -- rewrite Es. f_equal. rewrite !Rabs_left by lra. reflexivity.
    + intros _. assert (R_of l = 0)%R as Zl by lra. apply (is_sign_same _ _ _ SD). specialize (LZ Zl).
      destruct (Rtotal_order (R_of r) 0) as [H|[H|H]].
      * specialize (DPos ltac:(lra)). specialize (RNn H). repeat split; intros; lra.
      * specialize (DZ ltac:(lra)). specialize (RZ H). repeat split; intros; lra.
      * specialize (DNeg ltac:(lra)). specialize (RP H). repeat split; intros; lra.
Qed.

(** ** Exchange of the base points *)
Lemma fmul_comm x y : fmul x y = fmul y x.
Proof.
  destruct x as [sx|sx| |sx mx ex Hx], y as [sy|sy| |sy my ey Hy]; try reflexivity;
    try (unfold fmul, Bmult; now rewrite (xorb_comm sx sy)).
  apply B2SF_inj. unfold fmul, Bmult. rewrite !B2SF_SF2B.
  now rewrite (xorb_comm sx sy), (Pos.mul_comm mx my), (Z.add_comm ex ey).
Qed.
Lemma fsignum_opp x y : fis_finite x = true -> fis_finite y = true -> R_of y = (- R_of x)%R -> fsignum y = - fsignum x.
Proof.
  intros Fx Fy E. pose proof (is_sign_opp _ _ (fsignum_R x Fx)) as H. rewrite <- E in H.
  exact (is_sign_fun _ _ _ (fsignum_R y Fy) H).
Qed.
(** [filter_neg a b]: both undecided or opposite. *)
Definition opposite (a b : Z) : Prop := (a = 2 /\ b = 2) \/ (a <> 2 /\ b <> 2 /\ a = - b).
Lemma fsignum_not2 x : fsignum x <> 2.
Proof. unfold fsignum. destruct (fgtb x f0); [|destruct (fltb x f0)]; discriminate. Qed.
Lemma opposite_signum x y : fis_finite x = true -> fis_finite y = true -> R_of y = (- R_of x)%R ->
  opposite (fsignum y) (fsignum x).
Proof. intros. right. split; [apply fsignum_not2|]. split; [apply fsignum_not2|]. now apply fsignum_opp. Qed.
Lemma filter_antisym p1x p1y p2x p2y qx qy :
  bf 500 p1x -> bf 500 p1y -> bf 500 p2x -> bf 500 p2y -> bf 500 qx -> bf 500 qy ->
  opposite (orientation_index_filter p2x p2y p1x p1y qx qy) (orientation_index_filter p1x p1y p2x p2y qx qy).
Proof.
  intros B1 B2 B3 B4 B5 B6. unfold orientation_index_filter.
  rewrite (fmul_comm (fsub p2x qx)), (fmul_comm (fsub p2y qy)).
  destruct (bf_sub 500 p1x qx ltac:(lia) B1 B5) as (D1 & _). destruct (bf_sub 500 p2y qy ltac:(lia) B4 B6) as (D2 & _).
  destruct (bf_sub 500 p1y qy ltac:(lia) B2 B6) as (D3 & _). destruct (bf_sub 500 p2x qx ltac:(lia) B3 B5) as (D4 & _).
  destruct (bf_mul (500 + 1) (500 + 1) _ _ ltac:(lia) D1 D2) as (Bl & _). destruct (bf_mul (500 + 1) (500 + 1) _ _ ltac:(lia) D3 D4) as (Br & _).
  change (500 + 1 + (500 + 1)) with 1002 in *.
  set (l := fmul (fsub p1x qx) (fsub p2y qy)) in *. set (r := fmul (fsub p1y qy) (fsub p2x qx)) in *.
  destruct (bf_sub 1002 l r ltac:(lia) Bl Br) as (Bd & Ed). destruct (bf_sub 1002 r l ltac:(lia) Br Bl) as (Bd' & Ed').
  set (d := fsub l r) in *. set (d' := fsub r l) in *.
  pose proof (bf_fin _ _ Bl) as Fl. pose proof (bf_fin _ _ Br) as Fr. pose proof (bf_fin _ _ Bd) as Fd. pose proof (bf_fin _ _ Bd') as Fd'.
  assert (R_of d' = - R_of d)%R as Edd. { rewrite Ed, Ed', <- RN_opp. f_equal. ring. }
  assert (opposite (fsignum d') (fsignum d)) as OS by (apply opposite_signum; assumption).
  unfold fgtb. change (@Bltb 53 1024) with fltb. change (fgeb l f0) with (fleb f0 l). change (fgeb r f0) with (fleb f0 r).
  assert (forall s, fis_finite s = true -> fgeb d' s || fgeb (fneg d') s = fgeb d s || fgeb (fneg d) s) as CM.
  { intros s Fs. unfold fgeb. change (@Bleb 53 1024) with fleb.
    rewrite !fleb_R by (assumption || now rewrite fneg_fin). rewrite !fneg_R, Edd, Ropp_involutive. apply orb_comm. }
  assert (forall s, fis_finite s = true -> bf 1003 s -> opposite
    (if fgeb d' (fmul DP_SAFE_EPSILON s) || fgeb (fneg d') (fmul DP_SAFE_EPSILON s) then fsignum d' else 2)
    (if fgeb d (fmul DP_SAFE_EPSILON s) || fgeb (fneg d) (fmul DP_SAFE_EPSILON s) then fsignum d else 2)) as FIN.
  { intros s Fs Bs. rewrite CM.
    - destruct (fgeb d (fmul DP_SAFE_EPSILON s) || fgeb (fneg d) (fmul DP_SAFE_EPSILON s)); [exact OS|left; auto].
    - destruct EPS_R as (FE & E1 & E2). pose proof u53_small. pose proof u53_pos.
      assert (bf 0 DP_SAFE_EPSILON) as BE.
      { split; [exact FE|]. change (bp 0) with 1%R. rewrite Rabs_pos_eq; lra. }
      apply (bf_fin (0 + 1003)). now apply bf_mul. }
  rewrite !fltb_R, !fleb_R by (assumption || reflexivity). rewrite R_f0.
  destruct (bf_add 1002 l r ltac:(lia) Bl Br) as (Bs & _). destruct (bf_sub 1002 (fneg l) r ltac:(lia) (bf_neg _ _ Bl) Br) as (Bs2 & _).
  rewrite (fadd_comm r l). rewrite (fsub_fadd (fneg r) l), (fadd_comm (fneg r)), <- (fsub_fadd (fneg l) r).
  destruct (Rlt_bool_spec 0 (R_of l)), (Rlt_bool_spec 0 (R_of r)), (Rlt_bool_spec (R_of l) 0), (Rlt_bool_spec (R_of r) 0),
    (Rle_bool_spec (R_of l) 0), (Rle_bool_spec (R_of r) 0), (Rle_bool_spec 0 (R_of l)), (Rle_bool_spec 0 (R_of r));
    try lra; try exact OS; apply FIN; try assumption; eapply bf_fin; eassumption.
Qed.

(** ** The double-double path *)
Lemma dd_diff k x y : -1000 <= k <= 1000 -> bf k x -> bf k y ->
  let z := dd_add_f64 (dd_of x) (fneg y) in
  normed z /\ dval z = (R_of x - R_of y)%R /\ bf (k + 1) (hi z).
Proof.
  intros K Bx By. cbv zeta. destruct (bf_sub k x y ltac:(lia) Bx By) as ((F & B) & E).
  destruct (C38_difference_exact x y (bf_fin _ _ Bx) (bf_fin _ _ By)) as (N & V).
  - apply (bf_lim k); [lia|exact Bx]. - apply (bf_lim k); [lia|exact By].
  - rewrite <- E. apply abs_B2R_lt_emax.
  - change (dd_sub_f64 (dd_of x) y) with (dd_add_f64 (dd_of x) (fneg y)) in *. split; [exact N|]. split; [exact V|].
    destruct (N) as ((Fh & _) & Eh). split; [exact Fh|]. rewrite Eh, V, <- E. exact B.
Qed.
Lemma mid_bf x : mid x -> bf 470 x.
Proof. intros (F & B & _). now split. Qed.
Lemma mid_mult x : mid x -> exists n, R_of x = (IZR n * bp (-440))%R.
Proof.
  intros (_ & _ & [Z|G]).
  - exists 0. rewrite Z. ring.
  - pose proof (format_R x) as F. unfold generic_format in F. set (c := cexp radix2 fexp64 (R_of x)) in *.
    assert (-440 <= c) as C.
    { unfold c, cexp. rewrite fexp_FLT. unfold FLT_exp.
      assert (-387 <= mag radix2 (R_of x)) as M by (apply mag_ge_bpow; exact G). lia. }
    exists (Ztrunc (scaled_mantissa radix2 fexp64 (R_of x)) * 2 ^ (c + 440)).
    rewrite F at 1. unfold F2R. cbn [Fnum Fexp]. fold c. rewrite mult_IZR.
    replace (IZR (2 ^ (c + 440))) with (bp (c + 440)) by (rewrite (IZR_Zpower radix2) by lia; reflexivity).
    rewrite Rmult_assoc, <- bpow_plus. do 2 f_equal. lia.
Qed.
Lemma mult_prod e a b c d : (exists n, a = IZR n * bp e)%R -> (exists n, b = IZR n * bp e)%R ->
  (exists n, c = IZR n * bp e)%R -> (exists n, d = IZR n * bp e)%R ->
  ((a - b) * (c - d) = 0 \/ bp (e + e) <= Rabs ((a - b) * (c - d)))%R.
Proof.
  intros (n1 & ->) (n2 & ->) (n3 & ->) (n4 & ->).
  replace ((IZR n1 * bp e - IZR n2 * bp e) * (IZR n3 * bp e - IZR n4 * bp e))%R
    with (IZR ((n1 - n2) * (n3 - n4)) * bp (e + e))%R by (rewrite mult_IZR, !minus_IZR, bpow_plus; ring).
  destruct (Z.eq_dec ((n1 - n2) * (n3 - n4)) 0) as [->|N]; [left; ring|right].
  rewrite Rabs_mult, (Rabs_pos_eq (bp (e + e))) by apply bpow_ge_0. rewrite <- abs_IZR.
  rewrite <- (Rmult_1_l (bp (e + e))) at 1. apply Rmult_le_compat_r; [apply bpow_ge_0|]. apply IZR_le. lia.
Qed.
(** Distance from the line beyond which the double-double path is right. *)
Lemma orientation_dd_sign p1x p1y p2x p2y qx qy :
  mid p1x -> mid p1y -> mid p2x -> mid p2y -> mid qx -> mid qy ->
  let L := ((R_of p2x - R_of p1x) * (R_of qy - R_of p2y))%R in
  let M := ((R_of p2y - R_of p1y) * (R_of qx - R_of p2x))%R in
  (10 * (u53 * u53) * (Rabs L + Rabs M) < Rabs (L - M))%R ->
  is_sign (orientation_dd p1x p1y p2x p2y qx qy) (L - M).
Proof.
  intros M1 M2 M3 M4 M5 M6. cbv zeta. intros G. unfold orientation_dd.
  destruct (dd_diff 470 p2x p1x ltac:(lia) (mid_bf _ M3) (mid_bf _ M1)) as (Nx1 & Vx1 & Bx1).
  destruct (dd_diff 470 p2y p1y ltac:(lia) (mid_bf _ M4) (mid_bf _ M2)) as (Ny1 & Vy1 & By1).
  destruct (dd_diff 470 qx p2x ltac:(lia) (mid_bf _ M5) (mid_bf _ M3)) as (Nx2 & Vx2 & Bx2).
  destruct (dd_diff 470 qy p2y ltac:(lia) (mid_bf _ M6) (mid_bf _ M4)) as (Ny2 & Vy2 & By2). cbv zeta in *.
  pose proof (mult_prod (-440) _ _ _ _ (mid_mult _ M3) (mid_mult _ M1) (mid_mult _ M6) (mid_mult _ M4)) as OL.
  pose proof (mult_prod (-440) _ _ _ _ (mid_mult _ M4) (mid_mult _ M2) (mid_mult _ M5) (mid_mult _ M3)) as OM.
  rewrite <- Vx1, <- Vy1, <- Vx2, <- Vy2 in *.
  set (dx1 := dd_add_f64 (dd_of p2x) (fneg p1x)) in *. set (dy1 := dd_add_f64 (dd_of p2y) (fneg p1y)) in *.
  set (dx2 := dd_add_f64 (dd_of qx) (fneg p2x)) in *. set (dy2 := dd_add_f64 (dd_of qy) (fneg p2y)) in *.
  pose proof (bpow_le radix2 (-899) (-440 + -440) ltac:(lia)) as LE.
  destruct (C72_product_error 471 471 dx1 dy2 ltac:(lia) ltac:(lia) Nx1 Ny2 Bx1 By2) as (N1 & E1).
  { destruct OL as [Z|H]; [left; exact Z|right; lra]. }
  destruct (C72_product_error 471 471 dy1 dx2 ltac:(lia) ltac:(lia) Ny1 Nx2 By1 Bx2) as (N2 & E2).
  { destruct OM as [Z|H]; [left; exact Z|right; lra]. }
  cbv zeta in *. set (z1 := dd_self_mul dx1 dy2) in *. set (z2 := dd_self_mul dy1 dx2) in *.
  set (L := (dval dx1 * dval dy2)%R) in *. set (M := (dval dy1 * dval dx2)%R) in *.
  assert (0 < u53 * u53)%R as U0 by (pose proof u53_pos; now apply Rmult_lt_0_compat).
  assert (u53 * u53 <= / 1000000)%R as U1.
  { pose proof u53_small. pose proof u53_pos. apply Rle_trans with (/ 1024 * / 1024)%R; [apply Rmult_le_compat; lra|lra]. }
  pose proof (Rabs_pos L) as PL. pose proof (Rabs_pos M) as PM.
  set (uu := (u53 * u53)%R) in *. set (wl := (uu * Rabs L)%R). set (wm := (uu * Rabs M)%R).
  assert (0 <= wl <= / 1000000 * Rabs L)%R as WL by (split; [apply Rmult_le_pos; lra|apply Rmult_le_compat_r; lra]).
  assert (0 <= wm <= / 1000000 * Rabs M)%R as WM by (split; [apply Rmult_le_pos; lra|apply Rmult_le_compat_r; lra]).
  assert (Rabs (dval z1 - L) <= 10 * wl)%R as E1' by (unfold wl; lra).
  assert (Rabs (dval z2 - M) <= 10 * wm)%R as E2' by (unfold wm; lra).
  assert (10 * (wl + wm) < Rabs (L - M))%R as G' by (unfold wl, wm; lra).
  assert (Rabs ((dval z1 - dval z2) - (L - M)) <= 10 * (wl + wm))%R as D.
  { replace ((dval z1 - dval z2) - (L - M))%R with ((dval z1 - L) + - (dval z2 - M))%R by ring.
    eapply Rle_trans; [apply Rabs_triang|]. rewrite Rabs_Ropp. lra. }
  assert (Rabs (dval z1) <= Rabs L + 10 * wl)%R as S1.
  { replace (dval z1) with (L + (dval z1 - L))%R by ring. eapply Rle_trans; [apply Rabs_triang|]. lra. }
  assert (Rabs (dval z2) <= Rabs M + 10 * wm)%R as S2.
  { replace (dval z2) with (M + (dval z2 - M))%R by ring. eapply Rle_trans; [apply Rabs_triang|]. lra. }
  assert (bf 1000 (hi z1) /\ bf 1000 (hi z2)) as (BZ1 & BZ2).
  { destruct (normed_hi_val z1 N1) as (_ & H1). destruct (normed_hi_val z2 N2) as (_ & H2).
    assert (forall a b, normed a -> normed b -> bf (470 + 1) (hi a) -> bf (470 + 1) (hi b) -> Rabs (dval a * dval b) <= bp 994)%R as BB.
    { intros a b Na Nb (_ & Ba) (_ & Bb). destruct (normed_hi_val a Na) as (Ha & _). destruct (normed_hi_val b Nb) as (Hb & _).
      rewrite Rabs_mult. change 994 with (470 + 1 + 26 + (470 + 1 + 26)). rewrite bpow_plus. rewrite (bpow_plus _ (470 + 1) 26).
      change (bp 26) with (IZR (2 ^ 26)). pose proof (bpow_gt_0 radix2 (470 + 1)).
      assert (2 <= IZR (2 ^ 26))%R by (apply IZR_le; lia).
      assert (forall v, Rabs v <= 2 * bp (470 + 1) -> Rabs v <= bp (470 + 1) * IZR (2 ^ 26))%R as W by (intros; nra).
      apply Rmult_le_compat; try apply Rabs_pos; apply W; lra. }
    pose proof (BB dx1 dy2 Nx1 Ny2 Bx1 By2) as BL. pose proof (BB dy1 dx2 Ny1 Nx2 By1 Bx2) as BM. fold L in BL. fold M in BM.
    assert (bp 1000 = 64 * bp 994)%R as E64 by (change 1000 with (6 + 994); rewrite bpow_plus; reflexivity).
    pose proof (bpow_gt_0 radix2 994).
    destruct (normed_fin _ N1), (normed_fin _ N2).
    split; (split; [assumption|]); lra. }
  apply (is_sign_close _ (dval z1 - dval z2) _ (10 * (wl + wm))); [|exact D|lra].
  apply (dd_sub_sign_all 1000); try assumption. lia.
Qed.

Definition bpt (k : Z) (p : Coordinate) : Prop := bf k (cx p) /\ bf k (cy p).
Lemma orient_filter_sound p1 p2 q : bpt 500 p1 -> bpt 500 p2 -> bpt 500 q ->
  let P := ((R_of (cx p1) - R_of (cx q)) * (R_of (cy p2) - R_of (cy q)))%R in
  let Q := ((R_of (cy p1) - R_of (cy q)) * (R_of (cx p2) - R_of (cx q)))%R in
  (P = 0 \/ bp (-990) <= Rabs P)%R -> (Q = 0 \/ bp (-990) <= Rabs Q)%R ->
  let f := orientation_index_filter (cx p1) (cy p1) (cx p2) (cy p2) (cx q) (cy q) in
  f <> 2 -> is_sign f (det_pts p1 p2 q) /\ orient p1 p2 q = f.
Proof.
  intros (B1 & B2) (B3 & B4) (B5 & B6). cbv zeta. intros OP OQ N.
  pose proof (filter_sound _ _ _ _ _ _ B1 B2 B3 B4 B5 B6 OP OQ N) as S. cbv zeta in S.
  split.
  - unfold det_pts. rewrite det3_filter. exact S.
  - unfold orient, orientation_index_xy. cbv zeta.
    replace (orientation_index_filter (cx p1) (cy p1) (cx p2) (cy p2) (cx q) (cy q) <=? 1) with true; [reflexivity|].
    symmetry. apply Z.leb_le. destruct S as [(-> & _)|[(-> & _)|(-> & _)]]; lia.
Qed.
Lemma orient_undecided p1 p2 q :
  orientation_index_filter (cx p1) (cy p1) (cx p2) (cy p2) (cx q) (cy q) = 2 ->
  orient p1 p2 q = orientation_dd (cx p1) (cy p1) (cx p2) (cy p2) (cx q) (cy q).
Proof. intros E. unfold orient, orientation_index_xy. rewrite E. reflexivity. Qed.
Lemma mid_bpt p : mid_pt p -> bpt 500 p.
Proof. intros (A & B). split; (apply bf_weak with 470; [lia|now apply mid_bf]). Qed.
Lemma orient_mid p1 p2 q : mid_pt p1 -> mid_pt p2 -> mid_pt q ->
  let L := ((R_of (cx p2) - R_of (cx p1)) * (R_of (cy q) - R_of (cy p2)))%R in
  let M := ((R_of (cy p2) - R_of (cy p1)) * (R_of (cx q) - R_of (cx p2)))%R in
  (10 * (u53 * u53) * (Rabs L + Rabs M) < Rabs (det_pts p1 p2 q))%R \/
  orientation_index_filter (cx p1) (cy p1) (cx p2) (cy p2) (cx q) (cy q) <> 2 ->
  is_sign (orient p1 p2 q) (det_pts p1 p2 q).
Proof.
  intros M1 M2 M3. cbv zeta. intros G. pose proof (M1) as (X1 & Y1). pose proof (M2) as (X2 & Y2). pose proof (M3) as (X3 & Y3).
  pose proof (mult_prod (-440) _ _ _ _ (mid_mult _ X1) (mid_mult _ X3) (mid_mult _ Y2) (mid_mult _ Y3)) as OP.
  pose proof (mult_prod (-440) _ _ _ _ (mid_mult _ Y1) (mid_mult _ Y3) (mid_mult _ X2) (mid_mult _ X3)) as OQ.
  pose proof (bpow_le radix2 (-990) (-440 + -440) ltac:(lia)) as LE.
  destruct (Z.eq_dec (orientation_index_filter (cx p1) (cy p1) (cx p2) (cy p2) (cx q) (cy q)) 2) as [E|E].
  - rewrite orient_undecided by exact E. destruct G as [G|G]; [|contradiction].
    unfold det_pts in *. rewrite det3_dd in *. now apply orientation_dd_sign.
  - destruct (orient_filter_sound p1 p2 q (mid_bpt _ M1) (mid_bpt _ M2) (mid_bpt _ M3)) as (S & ->); try assumption.
    + destruct OP as [Z|H]; [left; exact Z|right; lra].
    + destruct OQ as [Z|H]; [left; exact Z|right; lra].
Qed.

(** ** Exact differences *)
Lemma dd_diff_fmt k x y : -1000 <= k <= 1000 -> bf k x -> bf k y -> fmt (R_of x - R_of y)%R ->
  let z := dd_add_f64 (dd_of x) (fneg y) in
  normed z /\ R_of (hi z) = (R_of x - R_of y)%R /\ R_of (lo z) = 0%R /\ bf (k + 1) (hi z).
Proof.
  intros K Bx By F. cbv zeta. destruct (dd_diff k x y K Bx By) as (N & V & B). cbv zeta in *.
  destruct (N) as (_ & Eh). rewrite V, RN_id in Eh by exact F.
  split; [exact N|]. split; [exact Eh|]. split; [|exact B]. unfold dval in V. lra.
Qed.
Lemma orientation_dd_fmt p1x p1y p2x p2y qx qy :
  bf 470 p1x -> bf 470 p1y -> bf 470 p2x -> bf 470 p2y -> bf 470 qx -> bf 470 qy ->
  fmt (R_of p2x - R_of p1x)%R -> fmt (R_of p2y - R_of p1y)%R -> fmt (R_of qx - R_of p2x)%R -> fmt (R_of qy - R_of p2y)%R ->
  let L := ((R_of p2x - R_of p1x) * (R_of qy - R_of p2y))%R in
  let M := ((R_of p2y - R_of p1y) * (R_of qx - R_of p2x))%R in
  (L = 0 \/ bp (-969) <= Rabs L)%R -> (M = 0 \/ bp (-969) <= Rabs M)%R ->
  is_sign (orientation_dd p1x p1y p2x p2y qx qy) (L - M).
Proof.
  intros M1 M2 M3 M4 M5 M6 F1 F2 F3 F4. cbv zeta. intros OL OM. unfold orientation_dd.
  destruct (dd_diff_fmt 470 p2x p1x ltac:(lia) M3 M1 F1) as (Nx1 & Vx1 & Lx1 & Bx1).
  destruct (dd_diff_fmt 470 p2y p1y ltac:(lia) M4 M2 F2) as (Ny1 & Vy1 & Ly1 & By1).
  destruct (dd_diff_fmt 470 qx p2x ltac:(lia) M5 M3 F3) as (Nx2 & Vx2 & Lx2 & Bx2).
  destruct (dd_diff_fmt 470 qy p2y ltac:(lia) M6 M4 F4) as (Ny2 & Vy2 & Ly2 & By2). cbv zeta in *.
  rewrite <- Vx1, <- Vy1, <- Vx2, <- Vy2 in *.
  set (dx1 := dd_add_f64 (dd_of p2x) (fneg p1x)) in *. set (dy1 := dd_add_f64 (dd_of p2y) (fneg p1y)) in *.
  set (dx2 := dd_add_f64 (dd_of qx) (fneg p2x)) in *. set (dy2 := dd_add_f64 (dd_of qy) (fneg p2y)) in *.
  assert (forall a b, normed a -> normed b -> bf (470 + 1) (hi a) -> bf (470 + 1) (hi b) -> R_of (lo a) = 0%R -> R_of (lo b) = 0%R ->
    (R_of (hi a) * R_of (hi b) = 0 \/ bp (-969) <= Rabs (R_of (hi a) * R_of (hi b)))%R ->
    normed (dd_self_mul a b) /\ dval (dd_self_mul a b) = (R_of (hi a) * R_of (hi b))%R /\ bf 942 (hi (dd_self_mul a b))) as P.
  { intros a b Na Nb Ba Bb La Lb O. unfold dd_self_mul.
    destruct (normed_fin _ Na) as (_ & Fa). destruct (normed_fin _ Nb) as (_ & Fb).
    destruct (dd_mul_exact (470 + 1) (470 + 1) a (hi b) (lo b) ltac:(lia) ltac:(lia) ltac:(lia) Ba Bb Fa La Fb Lb O) as (F & H & V). cbv zeta in *.
    split; [split; [exact F|now rewrite V]|]. split; [exact V|]. split; [apply F|]. rewrite H.
    apply RN_abs_le; [lia|]. rewrite Rabs_mult. change 942 with (470 + 1 + (470 + 1)). rewrite bpow_plus.
    apply Rmult_le_compat; try apply Rabs_pos; [apply Ba|apply Bb]. }
  destruct (P dx1 dy2 Nx1 Ny2 Bx1 By2 Lx1 Ly2 OL) as (N1 & V1 & B1). destruct (P dy1 dx2 Ny1 Nx2 By1 Bx2 Ly1 Lx2 OM) as (N2 & V2 & B2).
  rewrite <- V1, <- V2. apply (dd_sub_sign_all 942); try assumption. lia.
Qed.
(** Multiples of 2^e with all differences from [p2] representable. *)
Lemma orient_fmt e p1 p2 q : -480 <= e -> bpt 470 p1 -> bpt 470 p2 -> bpt 470 q ->
  (forall p, p = p1 \/ p = p2 \/ p = q -> (exists n, R_of (cx p) = IZR n * bp e)%R /\ (exists n, R_of (cy p) = IZR n * bp e)%R) ->
  fmt (R_of (cx p2) - R_of (cx p1))%R -> fmt (R_of (cy p2) - R_of (cy p1))%R ->
  fmt (R_of (cx q) - R_of (cx p2))%R -> fmt (R_of (cy q) - R_of (cy p2))%R ->
  is_sign (orient p1 p2 q) (det_pts p1 p2 q).
Proof.
  intros He (B1 & B2) (B3 & B4) (B5 & B6) G F1 F2 F3 F4.
  destruct (G p1 (or_introl eq_refl)) as (X1 & Y1). destruct (G p2 (or_intror (or_introl eq_refl))) as (X2 & Y2).
  destruct (G q (or_intror (or_intror eq_refl))) as (X3 & Y3). clear G.
  pose proof (bpow_le radix2 (-969) (e + e) ltac:(lia)) as LE. pose proof (bpow_le radix2 (-990) (-969) ltac:(lia)) as LE2.
  assert (forall k x, k <= 500 -> bf k x -> bf 500 x) as W by (intros k x Hk B; now apply bf_weak with k).
  destruct (Z.eq_dec (orientation_index_filter (cx p1) (cy p1) (cx p2) (cy p2) (cx q) (cy q)) 2) as [E|E].
  - rewrite orient_undecided by exact E. unfold det_pts. rewrite det3_dd. apply orientation_dd_fmt; try assumption.
    + destruct (mult_prod e _ _ _ _ X2 X1 Y3 Y2) as [Z|H]; [left; exact Z|right; lra].
    + destruct (mult_prod e _ _ _ _ Y2 Y1 X3 X2) as [Z|H]; [left; exact Z|right; lra].
  - destruct (orient_filter_sound p1 p2 q) as (S & ->); try assumption; try (split; eapply W; try eassumption; lia).
    + destruct (mult_prod e _ _ _ _ X1 X3 Y2 Y3) as [Z|H]; [left; exact Z|right; lra].
    + destruct (mult_prod e _ _ _ _ Y1 Y3 X2 X3) as [Z|H]; [left; exact Z|right; lra].
Qed.

(** ** Points on a grid *)
Lemma grid_bf e k x n : Z.abs n <= 2 ^ k -> 0 <= k -> grid e x n -> bf (k + e) x.
Proof.
  intros H K (F & E). split; [exact F|]. rewrite E, Rabs_mult, (Rabs_pos_eq (bp e)) by apply bpow_ge_0.
  rewrite bpow_plus. apply Rmult_le_compat_r; [apply bpow_ge_0|]. rewrite <- abs_IZR, <- (IZR_Zpower radix2) by lia.
  apply IZR_le. exact H.
Qed.
Lemma gpt_bpt e p : -440 <= e <= 420 -> gpt e p -> bpt 500 p.
Proof.
  intros He ((n & Hn & Gn) & (m & Hm & Gm)).
  split; (apply bf_weak with (49 + e); [lia|]); [apply (grid_bf e 49 _ n)|apply (grid_bf e 49 _ m)]; try assumption; lia.
Qed.
(** Coordinates n*2^e with |n| <= 2^52: differences have at most 53 bits. *)
Definition wide_grid (e : Z) (x : f64) : Prop := exists n, Z.abs n <= 2 ^ 52 /\ grid e x n.
Lemma wide_fmt e x y : -440 <= e <= 418 -> wide_grid e x -> wide_grid e y -> fmt (R_of x - R_of y)%R.
Proof.
  intros He (n & Hn & (_ & Ex)) (m & Hm & (_ & Ey)). rewrite Ex, Ey.
  replace (IZR n * bp e - IZR m * bp e)%R with (IZR (n - m) * bp e)%R by (rewrite minus_IZR; ring).
  rewrite <- grid_RN by lia. apply generic_format_round; typeclasses eauto.
Qed.
Lemma orient_wide e p1 p2 q : -440 <= e <= 418 ->
  (forall p, p = p1 \/ p = p2 \/ p = q -> wide_grid e (cx p) /\ wide_grid e (cy p)) ->
  is_sign (orient p1 p2 q) (det_pts p1 p2 q).
Proof.
  intros He G. pose proof (G p1 ltac:(auto)) as (X1 & Y1). pose proof (G p2 ltac:(auto)) as (X2 & Y2). pose proof (G q ltac:(auto)) as (X3 & Y3).
  assert (forall x, wide_grid e x -> bf 470 x) as B.
  { intros x (n & Hn & Gn). apply bf_weak with (52 + e); [lia|]. apply (grid_bf e 52 x n); [assumption|lia|assumption]. }
  apply (orient_fmt e); try (apply (wide_fmt e); assumption); try lia; try (split; now apply B).
  intros p I. destruct (G p I) as ((n & _ & (_ & En)) & (m & _ & (_ & Em))). split; eexists; eassumption.
Qed.
Lemma orient_grid e p1 p2 q : -440 <= e <= 420 -> gpt e p1 -> gpt e p2 -> gpt e q ->
  is_sign (orient p1 p2 q) (det_pts p1 p2 q).
Proof.
  intros He G1 G2 G3.
  assert (forall p, gpt e p -> bpt 470 p) as B.
  { intros p ((n & Hn & Gn) & (m & Hm & Gm)).
    split; (apply bf_weak with (49 + e); [lia|]); [apply (grid_bf e 49 _ n)|apply (grid_bf e 49 _ m)]; try assumption; lia. }
  assert (forall x y, (exists n, Z.abs n <= 2 ^ 49 /\ grid e x n) -> (exists n, Z.abs n <= 2 ^ 49 /\ grid e y n) -> fmt (R_of x - R_of y)%R) as F.
  { intros x y (n & Hn & (_ & Ex)) (m & Hm & (_ & Ey)). rewrite Ex, Ey.
    replace (IZR n * bp e - IZR m * bp e)%R with (IZR (n - m) * bp e)%R by (rewrite minus_IZR; ring). rewrite <- grid_RN by lia. apply generic_format_round; typeclasses eauto. }
  apply (orient_fmt e); auto; try lia; try (apply F; (apply G1 || apply G2 || apply G3)).
  assert (forall p, gpt e p -> (exists n, R_of (cx p) = IZR n * bp e)%R /\ (exists n, R_of (cy p) = IZR n * bp e)%R) as M.
  { intros p ((n & _ & (_ & En)) & (m & _ & (_ & Em))). split; eexists; eassumption. }
  intros p [->|[->| ->]]; now apply M.
Qed.
Lemma det_swap p1 p2 q : (det_pts p2 p1 q = - det_pts p1 p2 q)%R.
Proof. unfold det_pts, det3. ring. Qed.
Lemma det_rot p1 p2 q : det_pts p2 q p1 = det_pts p1 p2 q.
Proof. unfold det_pts, det3. ring. Qed.

(** ** Ring direction *)
Section Ccw.
Context (s : CSeq).
Notation pt i := (nth i (scoords s) coord_default).
Lemma seq_coord_nth i : (i < length (scoords s))%nat -> seq_coord s i = Ok (pt i).
Proof. intros H. unfold seq_coord. now apply idx_nth. Qed.
Lemma seq_get_y i : (i < length (scoords s))%nat -> seq_get s i 1 = Ok (cy (pt i)).
Proof. intros H. unfold seq_get. rewrite (idx_nth _ _ coord_default) by exact H. reflexivity. Qed.

Definition cap_inv (i : nat) (st : CapState) : Prop :=
  prev_y st = cy (pt (i - 1)) /\ (i_up_hi st < i)%nat /\
  (i_up_hi st = 0%nat \/
   (up_hi st = pt (i_up_hi st) /\ up_low st = pt (i_up_hi st - 1) /\ fltb (cy (up_low st)) (cy (up_hi st)) = true)).
Lemma cap_step_inv n i st : length (scoords s) = S n -> (1 <= i < 1 + n)%nat -> cap_inv i st ->
  exists st', cap_step s i st = Ok st' /\ cap_inv (S i) st'.
Proof.
  intros L Hi (P & U & C). unfold cap_step. rewrite seq_get_y by lia. cbn [bind].
  destruct (fgtb (cy (pt i)) (prev_y st) && fgeb (cy (pt i)) (cy (up_hi st))) eqn:E.
  - rewrite !seq_coord_nth by lia. cbn [bind]. eexists. split; [reflexivity|]. unfold cap_inv. cbn [prev_y i_up_hi up_hi up_low].
    replace (S i - 1)%nat with i by lia. split; [reflexivity|]. split; [lia|]. right. split; [reflexivity|]. split; [reflexivity|].
    apply andb_true_iff in E. rewrite P in E. exact (proj1 E).
  - cbn [bind]. eexists. split; [reflexivity|]. unfold cap_inv. cbn [prev_y i_up_hi up_hi up_low].
    replace (S i - 1)%nat with i by lia. split; [reflexivity|]. split; [lia|exact C].
Qed.
(** Every round before the point below the top goes on, that one stops. *)
Lemma down_loop_stops n iup hy d : forall fuel i, length (scoords s) = S n -> (0 < n)%nat -> (1 <= iup <= n)%nat ->
  feqb (cy (pt (iup - 1))) hy = false ->
  ((i + d) mod n = iup - 1)%nat -> (0 < d <= fuel)%nat ->
  exists j, down_loop fuel s n iup hy i = Ok (Some j) /\ (j < n)%nat.
Proof.
  induction d as [|d IH]; intros fuel i L N U F M D; [lia|].
  destruct fuel as [|fuel]; [lia|]. cbn [down_loop]. set (j := ((i + 1) mod n)%nat).
  assert (j < n)%nat as Hj by (apply Nat.mod_upper_bound; lia).
  destruct (Nat.eqb_spec j iup) as [E|E]; [eauto|].
  rewrite seq_get_y by lia. cbn [bind].
  destruct (feqb (cy (pt j)) hy) eqn:Q; [|eauto].
  destruct d as [|d].
  - exfalso. fold j in M. rewrite M in Q. congruence.
  - apply IH; try assumption; [|lia].
    unfold j. rewrite Nat.add_mod_idemp_l by lia. rewrite <- M. f_equal. lia.
Qed.
Lemma fltb_neqb a b : fltb a b = true -> feqb a b = false.
Proof. intros H. destruct (fltb_nn _ _ H). rewrite fltb_rank in H by assumption. rewrite feqb_rank by assumption. lia. Qed.
Lemma is_ccw_total : (0 < length (scoords s))%nat -> exists b, is_ccw_seq s = Ok (Some b).
Proof.
  intros L. unfold is_ccw_seq, seq_size, usub. destruct (Nat.leb_spec 1 (length (scoords s))); [|lia]. cbn [bind].
  set (n := (length (scoords s) - 1)%nat). assert (length (scoords s) = S n) as Ln by lia.
  destruct (Nat.ltb_spec n 3); [eauto|]. rewrite seq_coord_nth by lia. cbn [bind].
  destruct (forN_ind cap_inv (cap_step s) n 1 (mkCap (pt 0) (cy (pt 0)) coord_default 0)) as (st & E & I).
  - unfold cap_inv. cbn. auto.
  - intros i st Hi I. now apply (cap_step_inv n).
  - rewrite E. cbn [bind]. destruct (Nat.eqb_spec (i_up_hi st) 0) as [Z|Z]; [eauto|].
    destruct I as (_ & U & [I|(I1 & I2 & I3)]); [lia|].
    destruct (down_loop_stops n (i_up_hi st) (cy (up_hi st)) (n - 1) (S n) (i_up_hi st)) as (j & Ej & Hj); try lia.
    + rewrite <- I2. now apply fltb_neqb.
    + replace (i_up_hi st + (n - 1))%nat with (i_up_hi st - 1 + 1 * n)%nat by lia. rewrite Nat.mod_add by lia. apply Nat.mod_small. lia.
    + rewrite Ej. cbn [bind]. rewrite seq_coord_nth by lia. cbn [bind].
      rewrite seq_coord_nth by (destruct (Nat.ltb_spec 0 j); lia). cbn [bind].
      repeat match goal with |- context [if ?b then _ else _] => destruct b end; eauto.
Qed.

(** A ring with one highest vertex. *)
Lemma equals_2d_eqb a b : equals_2d a b = feqb (cx a) (cx b) && feqb (cy a) (cy b).
Proof. unfold equals_2d, fneb. change (@Beqb 53 1024) with feqb. destruct (feqb (cx a) (cx b)), (feqb (cy a) (cy b)); reflexivity. Qed.
Lemma feqb_nn_refl x : nn x -> feqb x x = true.
Proof. intros H. rewrite feqb_rank by assumption. lia. Qed.
Lemma cap_loop_peak n h : length (scoords s) = S n -> (2 <= n)%nat -> (1 <= h <= n)%nat ->
  (forall j, (j <= n)%nat -> j <> h -> (h = n -> j <> 0)%nat -> fltb (cy (pt j)) (cy (pt h)) = true) ->
  (h = n -> feqb (cy (pt 0)) (cy (pt h)) = true) ->
  exists st, forN n 1 (mkCap (pt 0) (cy (pt 0)) coord_default 0) (cap_step s) = Ok st /\
    i_up_hi st = h /\ up_hi st = pt h /\ up_low st = pt (h - 1).
Proof.
  intros L N2 Hh Top Top0.
  destruct (forN_ind (fun i st => prev_y st = cy (pt (i - 1)) /\
      if (i <=? h)%nat then (if (h =? n)%nat then up_hi st = pt 0 else exists k, (k < i)%nat /\ up_hi st = pt k)
      else i_up_hi st = h /\ up_hi st = pt h /\ up_low st = pt (h - 1)) (cap_step s) n 1 (mkCap (pt 0) (cy (pt 0)) coord_default 0))
    as (st & E & _ & I).
  - cbn [prev_y up_hi]. split; [reflexivity|]. destruct (Nat.leb_spec 1 h); [|lia]. destruct (Nat.eqb h n); [reflexivity|]. exists 0%nat. split; [lia|reflexivity].
  - intros i st Hi (P & I). unfold cap_step. rewrite seq_get_y by lia. cbn [bind]. rewrite P. unfold fgtb, fgeb.
    change (@Bltb 53 1024) with fltb. change (@Bleb 53 1024) with fleb.
    destruct (Nat.eqb_spec i h) as [->|Ni].
    + assert (fltb (cy (pt (h - 1))) (cy (pt h)) = true) as T1 by (apply Top; lia). rewrite T1.
      rewrite Nat.leb_refl in I.
      assert (fleb (cy (up_hi st)) (cy (pt h)) = true) as T2.
      { destruct (Nat.eqb_spec h n) as [E|E].
        - rewrite I. specialize (Top0 E). destruct (feqb_nn _ _ Top0). rewrite feqb_rank in Top0 by assumption. rewrite fleb_rank by assumption. lia.
        - destruct I as (k & Hk & ->). apply fltb_fleb. apply Top; lia. }
      rewrite T2. cbn [andb]. rewrite !seq_coord_nth by lia. cbn [bind]. eexists. split; [reflexivity|]. cbn [prev_y i_up_hi up_hi up_low].
      replace (S h - 1)%nat with h by lia. split; [reflexivity|]. destruct (Nat.leb_spec (S h) h); [lia|auto].
    + destruct (Nat.leb_spec i h) as [Lh|Lh].
      * destruct (Nat.leb_spec (S i) h); [|lia].
        destruct (fltb (cy (pt (i - 1))) (cy (pt i)) && fleb (cy (up_hi st)) (cy (pt i))) eqn:B.
        -- rewrite !seq_coord_nth by lia. cbn [bind]. eexists. split; [reflexivity|]. cbn [prev_y i_up_hi up_hi up_low].
           replace (S i - 1)%nat with i by lia. split; [reflexivity|].
           destruct (Nat.eqb_spec h n) as [E|E].
           ++ exfalso. apply andb_true_iff in B. destruct B as (_ & B). rewrite I in B. specialize (Top0 E).
              assert (fltb (cy (pt i)) (cy (pt h)) = true) as T by (apply Top; lia).
              destruct (feqb_nn _ _ Top0). destruct (fltb_nn _ _ T). rewrite feqb_rank in Top0 by assumption.
              rewrite fltb_rank in T by assumption. rewrite fleb_rank in B by assumption. lia.
           ++ exists i. split; [lia|reflexivity].
        -- cbn [bind]. eexists. split; [reflexivity|]. cbn [prev_y i_up_hi up_hi up_low].
           replace (S i - 1)%nat with i by lia. split; [reflexivity|].
           destruct (Nat.eqb_spec h n) as [E|E]; [exact I|]. destruct I as (k & Hk & I). exists k. split; [lia|exact I].
      * destruct (Nat.leb_spec (S i) h); [lia|]. destruct I as (I1 & I2 & I3).
        assert (fleb (cy (up_hi st)) (cy (pt i)) = false) as T.
        { rewrite I2. assert (fltb (cy (pt i)) (cy (pt h)) = true) as T by (apply Top; lia). destruct (fltb_nn _ _ T).
          rewrite fltb_rank in T by assumption. rewrite fleb_rank by assumption. lia. }
        rewrite T, andb_false_r. cbn [bind]. eexists. split; [reflexivity|]. cbn [prev_y i_up_hi up_hi up_low].
        replace (S i - 1)%nat with i by lia. auto.
  - exists st. split; [exact E|]. destruct (Nat.leb_spec (1 + n) h); [lia|]. exact I.
Qed.
Lemma is_ccw_peak n h : length (scoords s) = S n -> (3 <= n)%nat -> (h < n)%nat ->
  equals_2d (pt 0) (pt n) = true -> nn (cx (pt h)) ->
  (forall j, (j < n)%nat -> j <> h -> fltb (cy (pt j)) (cy (pt h)) = true) ->
  let prev := pt ((h + n - 1) mod n) in
  let next := pt ((h + 1) mod n) in
  is_ccw_seq s = Ok (Some (negb (equals_2d prev next) && (orient prev (if (h =? 0)%nat then pt n else pt h) next =? 1))).
Proof.
  intros L N Hh Cl Nx Top. cbv zeta.
  unfold is_ccw_seq, seq_size, usub. rewrite L. destruct (Nat.leb_spec 1 (S n)); [|lia]. cbn [bind].
  replace (S n - 1)%nat with n by lia. destruct (Nat.ltb_spec n 3); [lia|]. rewrite seq_coord_nth by lia. cbn [bind].
  rewrite equals_2d_eqb in Cl. apply andb_true_iff in Cl. destruct Cl as (Clx & Cly).
  set (iup := if (h =? 0)%nat then n else h).
  assert (1 <= iup <= n)%nat as Hu by (unfold iup; destruct (Nat.eqb_spec h 0); lia).
  assert (rank (cy (pt iup)) = rank (cy (pt h)) /\ nn (cy (pt iup)) /\ nn (cy (pt h))) as (Er & Nu & Nh).
  { destruct (feqb_nn _ _ Cly). rewrite feqb_rank in Cly by assumption. unfold iup. destruct (Nat.eqb_spec h 0) as [->|Z].
    - split; [lia|auto].
    - assert (fltb (cy (pt 0)) (cy (pt h)) = true) as T by (apply Top; lia). destruct (fltb_nn _ _ T). auto. }
  assert (forall j, (j <= n)%nat -> j <> iup -> (iup = n -> j <> 0)%nat -> fltb (cy (pt j)) (cy (pt iup)) = true) as Top'.
  { intros j Hj Nj Nj0. destruct (feqb_nn _ _ Cly) as (N0 & Nn). rewrite feqb_rank in Cly by assumption.
    assert (fltb (cy (pt (if (j =? n)%nat then 0 else j))) (cy (pt h)) = true) as T.
    { apply Top; unfold iup in *; destruct (Nat.eqb_spec h 0), (Nat.eqb_spec j n); lia. }
    destruct (fltb_nn _ _ T) as (T1 & _). rewrite fltb_rank in T by assumption.
    destruct (Nat.eqb_spec j n) as [->|]; rewrite fltb_rank by assumption; lia. }
  destruct (cap_loop_peak n iup L ltac:(lia) Hu Top') as (st & E & I1 & I2 & I3).
  { intros Q. unfold iup in *. destruct (Nat.eqb_spec h 0); [exact Cly|lia]. }
  rewrite E. cbn [bind]. rewrite I1, I2, I3. destruct (Nat.eqb_spec iup 0); [lia|].
  cbn [down_loop]. set (j := ((iup + 1) mod n)%nat).
  assert (j = ((h + 1) mod n)%nat) as Ej.
  { unfold j, iup. destruct (Nat.eqb_spec h 0) as [->|]; [|reflexivity].
    replace (n + 1)%nat with (1 + 1 * n)%nat by lia. rewrite Nat.mod_add by lia. reflexivity. }
  assert (j < n)%nat as Hj by (apply Nat.mod_upper_bound; lia).
  assert (j <> iup /\ (iup = n -> j <> 0)%nat /\ (if (0 <? j) then j - 1 else n - 1)%nat = h) as (J1 & J2 & J3).
  { destruct (Nat.eq_dec h (n - 1)) as [Q|Q].
    - rewrite Ej, Q. replace (n - 1 + 1)%nat with n by lia. rewrite Nat.mod_same by lia. unfold iup.
      destruct (Nat.eqb_spec h 0); [lia|]. cbn. split; [lia|]. split; lia.
    - rewrite Ej, Nat.mod_small by lia. unfold iup. destruct (Nat.eqb_spec h 0), (Nat.ltb_spec 0 (h + 1)); lia. }
  destruct (Nat.eqb_spec j iup); [lia|]. rewrite seq_get_y by lia. cbn [bind].
  assert (fltb (cy (pt j)) (cy (pt iup)) = true) as TJ by (apply Top'; lia).
  rewrite (fltb_neqb _ _ TJ). cbn [bind]. rewrite seq_coord_nth by lia. cbn [bind]. rewrite J3, seq_coord_nth by lia. cbn [bind].
  assert ((iup - 1)%nat = ((h + n - 1) mod n)%nat) as Ep.
  { unfold iup. destruct (Nat.eqb_spec h 0) as [->|].
    - rewrite Nat.mod_small by lia. lia.
    - replace (h + n - 1)%nat with (h - 1 + 1 * n)%nat by lia. rewrite Nat.mod_add, Nat.mod_small by lia. reflexivity. }
  assert (equals_2d (pt iup) (pt h) = true) as Eq.
  { rewrite equals_2d_eqb. apply andb_true_iff. unfold iup. destruct (Nat.eqb_spec h 0) as [->|].
    - destruct (feqb_nn _ _ Clx), (feqb_nn _ _ Cly). rewrite !feqb_rank in Clx, Cly by assumption. rewrite !feqb_rank by assumption. lia.
    - now rewrite !feqb_nn_refl. }
  rewrite Eq.
  assert (fltb (cy (pt (iup - 1))) (cy (pt iup)) = true) as TP by (apply Top'; lia).
  assert (forall a b, fltb (cy a) (cy b) = true -> equals_2d a b = false) as NE.
  { intros a b Hlt. rewrite equals_2d_eqb, (fltb_neqb _ _ Hlt). apply andb_false_r. }
  rewrite (NE _ _ TP), (NE _ _ TJ). cbn [orb]. rewrite <- Ep, <- Ej.
  replace (if (h =? 0)%nat then pt n else pt h) with (pt iup) by (unfold iup; destruct (Nat.eqb h 0); reflexivity).
  destruct (equals_2d (pt (iup - 1)) (pt j)); reflexivity.
Qed.
End Ccw.
