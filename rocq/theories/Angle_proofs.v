(** Lemmas for angles. *)
From Coq Require Import ZArith Bool Reals Lia Lra Psatz.
From Flocq Require Import Core Sterbenz IEEE754.BinarySingleNaN.
From Verif Require Import Base F64 F64Facts F64Err NumLink DD_more Coordinate_model Intersection_proofs Angle_model.
Local Open Scope R_scope.

(** ** The constants *)
Notation pi_n := 7074237752028440%Z.
Lemma PI_bounds : IZR pi_n / 2251799813685248 < PI < (IZR pi_n + 1 / 2) / 2251799813685248.
Proof.
  pose proof (PI_2_3_7_ineq 9) as H. unfold PI_2_3_7_tg, tg_alt, Ratan_seq in H.
  cbn [sum_f_R0 Nat.mul Nat.add] in H. rewrite !INR_IZR_INZ in H. cbn [Z.of_nat Pos.of_succ_nat Pos.succ] in H.
  cbn [pow] in H. lra.
Qed.
Lemma PIf_grid : grid (-51) PIf pi_n.
Proof. apply grid_mkf; lia. Qed.
Lemma f2_grid : grid 1 f2 1.
Proof. split; [reflexivity|]. rewrite R_of_f2. change (bp 1) with 2. ring. Qed.
Lemma T_grid : grid (-50) PI_TIMES_2 pi_n.
Proof. apply (grid_mul 1 (-51) f2 PIf 1 pi_n); [lia|lia|apply f2_grid|apply PIf_grid]. Qed.
Lemma bpm51 : bp (-51) = / 2251799813685248.
Proof. reflexivity. Qed.
Lemma PIf_R : R_of PIf = IZR pi_n / 2251799813685248.
Proof. destruct PIf_grid as (_ & ->). rewrite bpm51. reflexivity. Qed.
Lemma T_R : R_of PI_TIMES_2 = 2 * R_of PIf.
Proof.
  destruct T_grid as (_ & ->). destruct PIf_grid as (_ & ->). replace (-50)%Z with (-51 + 1)%Z by reflexivity. rewrite bpow_plus.
  change (bp 1) with 2. ring.
Qed.
Lemma PIf_size : 314 / 100 < R_of PIf < 315 / 100.
Proof. rewrite PIf_R. lra. Qed.
Lemma fin_PIf : fis_finite PIf = true.
Proof. apply PIf_grid. Qed.
Lemma fin_T : fis_finite PI_TIMES_2 = true.
Proof. apply T_grid. Qed.
Notation Rp := (R_of PIf).
Notation T := (R_of PI_TIMES_2).
Ltac sizes := pose proof PIf_size as PS; pose proof T_R as TR.

(** ** One turn *)
Lemma half_ulp y : Rabs y < bp 56 -> Rabs (RN y - y) <= 4.
Proof.
  intros H. eapply Rle_trans; [apply error_le_half_ulp; typeclasses eauto|].
  assert (ulp radix2 fexp64 y <= 8); [|lra].
  apply Rle_trans with (ulp radix2 fexp64 (bp 55)).
  - destruct (Rle_or_lt (bp 55) (Rabs y)) as [L|L].
    + rewrite <- (ulp_abs radix2 fexp64 y). rewrite !ulp_neq_0.
      * unfold cexp. replace (mag_val radix2 (Rabs y) (mag radix2 (Rabs y))) with 56%Z.
        2:{ symmetry. apply mag_unique. rewrite Rabs_Rabsolu. split; [exact L|exact H]. }
        rewrite mag_bpow. apply Rle_refl.
      * pose proof (bpow_gt_0 radix2 55). lra.
      * pose proof (bpow_gt_0 radix2 55). lra.
    + apply ulp_le; [apply FLT_exp_valid; reflexivity|typeclasses eauto|]. rewrite (Rabs_pos_eq (bp 55)) by apply bpow_ge_0. lra.
  - rewrite ulp_bpow. change (fexp64 (55 + 1)) with 3%Z. change (bp 3) with 8. lra.
Qed.
Lemma fmt_T : fmt T.
Proof. apply format_R. Qed.
Lemma bp56 : 100 < bp 56.
Proof. apply Rlt_trans with (bp 7); [change (bp 7) with 128; lra|apply bpow_lt; lia]. Qed.
Lemma step_dn r : fmt r -> Rp < r <= bp 56 ->
  RN (r - T) <= r - 2 /\ - Rp < RN (r - T) /\ Rabs (RN (r - T) - (r - T)) <= u53 * r /\ Rabs (RN (r - T)) <= r.
Proof.
  intros F (L & U). sizes. pose proof bp56 as B.
  assert (Rabs (r - T) <= r) as A by (apply Rabs_le; lra).
  assert (RN (r - T) <= r - 2) as H1.
  { assert (Rabs (RN (r - T) - (r - T)) <= 4) as E by (apply half_ulp; apply Rabs_lt; lra). apply Rabs_le_inv in E. lra. }
  assert (- Rp < RN (r - T)) as H2.
  { destruct (Rle_or_lt r (2 * T)) as [S|S].
    - rewrite RN_id; [lra|]. apply sterbenz; [typeclasses eauto..|exact F|apply fmt_T|lra].
    - assert (0 <= RN (r - T)) by (apply RN_ge0; lra). lra. }
  split; [exact H1|]. split; [exact H2|]. split; [|apply Rabs_le; lra].
  eapply Rle_trans; [apply RN_sub_err; [exact F|apply fmt_T]|]. apply Rmult_le_compat_l; [pose proof u53_pos; lra|exact A].
Qed.
(** Above 2^56 a turn changes nothing. *)
Lemma stuck_dn r : fmt r -> bp 56 < r -> RN (r - T) = r.
Proof.
  intros F L. sizes. pose proof bp56 as B.
  assert (mult 4 r) as M by (apply (fmt_mult r 56); [lia|exact F|rewrite Rabs_pos_eq; lra]).
  assert (mult 4 (bp 56)) as M56 by (exists (2 ^ 52)%Z; change (IZR (2 ^ 52)) with (bp 52); rewrite <- bpow_plus; reflexivity).
  assert (bp 56 + 16 <= r) as L'.
  { apply Rnot_lt_le. intros K. assert (r - bp 56 = 0); [|lra]. apply (mult_small 4); [now apply mult_sub|].
    change (bp 4) with 16. apply Rabs_lt. lra. }
  assert (bp 56 <= RN (r - T)) as G.
  { rewrite <- (RN_id (bp 56)) at 1 by (apply bpow_fmt; lia). apply RN_le. lra. }
  apply Rminus_diag_uniq. apply (mult_small 4).
  - apply mult_sub; [|exact M]. apply (fmt_mult (RN (r - T)) 56); [lia|apply RN_format|rewrite Rabs_pos_eq; lra].
  - assert (Rabs (RN (r - T) - (r - T)) <= Rabs (r - (r - T))) as N by (apply (round_N_pt radix2 fexp64 (fun z => negb (Z.even z)) (r - T)); exact F).
    replace (r - (r - T)) with T in N by ring. rewrite (Rabs_pos_eq T) in N by lra. apply Rabs_le_inv in N.
    change (bp 4) with 16. apply Rabs_lt. lra.
Qed.
Lemma RN_neg r : RN (- r) = - RN r.
Proof. apply RN_opp. Qed.
(** ** The loops *)
Lemma while_mono c b n m x y : while_f c b n x = Some y -> (n <= m)%nat -> while_f c b m x = Some y.
Proof.
  revert m x. induction n as [|n IH]; intros m x H L; destruct m as [|m]; cbn [while_f] in *; destruct (c x); try discriminate; try lia; auto.
  apply (IH m); [exact H|lia].
Qed.
Lemma while_done c b n x : c x = false -> while_f c b n x = Some x.
Proof. intros H. destruct n; cbn [while_f]; now rewrite H. Qed.
Lemma while_stuck c b n x : c x = true -> b x = x -> while_f c b n x = None.
Proof. intros C B. induction n as [|n IH]; cbn [while_f]; rewrite C; [reflexivity|]. now rewrite B. Qed.
(** A loop whose body acts as [g] on the value and moves it two closer to the exit. *)
Section Loop.
Variables (c : f64 -> bool) (b : f64 -> f64) (g : R -> R) (t B : R) (m : R -> R).
Hypothesis STEP : forall x, fis_finite x = true -> c x = true -> Rabs (R_of x) <= bp 56 -> Rabs (R_of x) <= B ->
  fis_finite (b x) = true /\ R_of (b x) = g (R_of x) /\ Rabs (g (R_of x)) <= bp 56 /\ Rabs (g (R_of x)) <= B /\
  0 < m (R_of x) /\ m (g (R_of x)) <= m (R_of x) - 2 /\
  Rabs (g (R_of x) - (R_of x + t)) <= u53 * B.
Lemma loop_ends n x : fis_finite x = true -> Rabs (R_of x) <= bp 56 -> Rabs (R_of x) <= B -> m (R_of x) <= INR n ->
  exists y k, while_f c b n x = Some y /\ fis_finite y = true /\ c y = false /\ Rabs (R_of y) <= bp 56 /\ Rabs (R_of y) <= B /\
    Rabs (R_of y - (R_of x + INR k * t)) <= INR k * u53 * B /\
    ((y = x /\ k = O) \/ exists z, fis_finite z = true /\ c z = true /\ Rabs (R_of z) <= bp 56 /\ R_of y = g (R_of z)).
Proof.
  revert x. induction n as [|n IH]; intros x Fx A1 A2 M.
  - destruct (c x) eqn:C.
    + destruct (STEP x Fx C A1 A2) as (_ & _ & _ & _ & P & _). cbn [INR] in M. lra.
    + exists x, O. rewrite while_done by exact C. cbn [INR]. repeat split; auto.
      replace (R_of x - (R_of x + 0 * t)) with 0 by ring. rewrite Rabs_R0. lra.
  - destruct (c x) eqn:C.
    + destruct (STEP x Fx C A1 A2) as (F1 & E1 & B1 & B2 & P & D & Er). rewrite S_INR in M.
      rewrite <- E1 in B1, B2. destruct (IH (b x) F1 B1 B2 ltac:(rewrite E1; lra)) as (y & k & W & Fy & Cy & Y1 & Y2 & Ey & Last).
      exists y, (S k). cbn [while_f]. rewrite C. rewrite S_INR. repeat split; auto.
      * rewrite E1 in Ey. replace (R_of y - (R_of x + (INR k + 1) * t)) with ((R_of y - (g (R_of x) + INR k * t)) + (g (R_of x) - (R_of x + t))) by ring.
        eapply Rle_trans; [apply Rabs_triang|]. lra.
      * right. destruct Last as [(-> & _)|L]; [|exact L]. exists x. auto.
    + exists x, O. rewrite while_done by exact C. cbn [INR]. repeat split; auto.
      replace (R_of x - (R_of x + 0 * t)) with 0 by ring. rewrite Rabs_R0. lra.
Qed.
End Loop.
Lemma bp56_1024 : bp 56 < bp 1024.
Proof. apply bpow_lt. lia. Qed.
Lemma sub_T x : fis_finite x = true -> Rp < R_of x <= bp 56 -> fis_finite (fsub x PI_TIMES_2) = true /\ R_of (fsub x PI_TIMES_2) = RN (R_of x - T).
Proof.
  intros F L. apply fsub_R; [exact F|apply fin_T|]. destruct (step_dn _ (format_R x) L) as (_ & _ & _ & A). pose proof bp56_1024. lra.
Qed.
Lemma half_up r : - bp 56 <= r < 0 -> r + 2 <= RN (r + T) <= T /\ Rabs (RN (r + T) - (r + T)) <= 4.
Proof.
  intros (L & U). sizes. pose proof bp56 as B.
  assert (Rabs (RN (r + T) - (r + T)) <= 4) as E by (apply half_ulp; apply Rabs_lt; lra). split; [|exact E].
  apply Rabs_le_inv in E. split; [lra|]. rewrite <- (RN_id T) at 2 by apply fmt_T. apply RN_le. lra.
Qed.
Lemma add_T x : fis_finite x = true -> - bp 56 <= R_of x < 0 -> fis_finite (fadd x PI_TIMES_2) = true /\ R_of (fadd x PI_TIMES_2) = RN (R_of x + T).
Proof.
  intros F L. apply fadd_R; [exact F|apply fin_T|]. destruct (half_up _ L) as (A & _). sizes. pose proof bp56_1024. pose proof bp56. apply Rabs_lt. lra.
Qed.
(** Unchanged above 2^56, both ways, and for the infinities. *)
Lemma eq_of_R x y : fis_finite x = true -> fis_finite y = true -> R_of x = R_of y -> R_of x <> 0 -> x = y.
Proof.
  intros Fx Fy E N. apply B2R_inj; try assumption.
  - destruct x; cbn in *; try discriminate; try reflexivity. now destruct N.
  - destruct y; cbn in *; try discriminate; try reflexivity. rewrite E in N. now destruct N.
Qed.
Lemma sub_T_stuck x : fis_finite x = true -> bp 56 < R_of x -> fsub x PI_TIMES_2 = x.
Proof.
  intros F L. pose proof bp56 as B. pose proof (stuck_dn _ (format_R x) L) as E.
  assert (Rabs (R_of x) < bp 1024) as U by apply abs_B2R_lt_emax.
  destruct (fsub_R x PI_TIMES_2 F fin_T) as (F' & E'); [rewrite E; exact U|]. rewrite E in E'.
  apply eq_of_R; auto. rewrite E'. lra.
Qed.
Lemma add_T_stuck x : fis_finite x = true -> R_of x < - bp 56 -> fadd x PI_TIMES_2 = x.
Proof.
  intros F L. pose proof bp56 as B.
  assert (RN (R_of x + T) = R_of x) as E.
  { replace (R_of x + T) with (- (- R_of x - T)) by ring. rewrite RN_neg, stuck_dn; [ring| |lra]. apply generic_format_opp, format_R. }
  assert (Rabs (R_of x) < bp 1024) as U by apply abs_B2R_lt_emax.
  destruct (fadd_R x PI_TIMES_2 F fin_T) as (F' & E'); [rewrite E; exact U|]. rewrite E in E'.
  apply eq_of_R; auto. rewrite E'. lra.
Qed.
(** ** [normalize] *)
Lemma gtb_pi x : fis_finite x = true -> (fgtb x PIf = true <-> Rp < R_of x).
Proof.
  intros F. unfold fgtb. change (@Bltb 53 1024) with fltb. rewrite fltb_R by (exact F || apply fin_PIf).
  destruct (Rlt_bool_spec Rp (R_of x)); split; intros; auto; try discriminate; lra.
Qed.
Lemma leb_mpi x : fis_finite x = true -> (fleb x (fneg PIf) = true <-> R_of x <= - Rp).
Proof.
  intros F. rewrite fleb_R by (exact F || (rewrite fneg_fin; apply fin_PIf)). rewrite fneg_R.
  destruct (Rle_bool_spec (R_of x) (- Rp)); split; intros; auto; try discriminate; lra.
Qed.
Lemma ltb_0 x : fis_finite x = true -> (fltb x f0 = true <-> R_of x < 0).
Proof.
  intros F. rewrite fltb_R by (exact F || reflexivity). change (R_of f0) with 0.
  destruct (Rlt_bool_spec (R_of x) 0); split; intros; auto; try discriminate; lra.
Qed.
Lemma geb_T x : fis_finite x = true -> (fgeb x PI_TIMES_2 = true <-> T <= R_of x).
Proof.
  intros F. unfold fgeb. change (@Bleb 53 1024) with fleb. rewrite fleb_R by (exact F || apply fin_T).
  destruct (Rle_bool_spec T (R_of x)); split; intros; auto; try discriminate; lra.
Qed.
Lemma bool_false (P : Prop) b : (b = true <-> P) -> b = false -> ~ P.
Proof. intros H -> K. apply H in K. discriminate. Qed.
Lemma false_bool (P : Prop) b : (b = true <-> P) -> ~ P -> b = false.
Proof. intros H K. destruct b; [|reflexivity]. destruct K. now apply H. Qed.
Notation dn := (while_f (fun a => fgtb a PIf) (fun a => fsub a PI_TIMES_2)).
Notation up := (while_f (fun a => fleb a (fneg PIf)) (fun a => fadd a PI_TIMES_2)).
Definition near_turn (x y : R) (k : Z) (B : R) : Prop := Rabs (y - (x + IZR k * T)) <= Rabs (IZR k) * u53 * B.
Lemma dn_ends N x : bp 56 < INR N -> fis_finite x = true -> Rabs (R_of x) <= bp 56 ->
  exists y k, dn N x = Some y /\ fis_finite y = true /\ R_of y <= Rp /\ (Rp < R_of x -> - Rp < R_of y) /\ (R_of x <= Rp -> y = x) /\
    Rabs (R_of y) <= Rabs (R_of x) /\
    Rabs (R_of y - (R_of x - INR k * T)) <= INR k * u53 * Rabs (R_of x).
Proof.
  intros HN Fx A. destruct (Rle_or_lt (R_of x) Rp) as [L|L].
  { exists x, O. rewrite while_done by (apply (false_bool _ _ (gtb_pi x Fx)); lra). cbn [INR].
    repeat split; auto; try lra. replace (R_of x - (R_of x - 0 * T)) with 0 by ring. rewrite Rabs_R0. lra. }
  sizes. destruct (loop_ends (fun a => fgtb a PIf) (fun a => fsub a PI_TIMES_2) (fun r => RN (r - T)) (- T) (Rabs (R_of x)) (fun r => r)) with (n := N) (x := x)
    as (y & k & W & Fy & Cy & Y1 & Y2 & Ey & Last).
  - intros z Fz Cz Z1 Z2. apply (gtb_pi z Fz) in Cz. apply Rabs_le_inv in Z1. destruct (sub_T z Fz ltac:(lra)) as (F1 & E1).
    destruct (step_dn (R_of z) (format_R z) ltac:(lra)) as (S1 & S2 & S3 & S4).
    assert (R_of z <= Rabs (R_of x)) as ZX by (apply Rabs_le_inv in Z2; lra).
    repeat split; auto; try lra.
    replace (R_of z + - T) with (R_of z - T) by ring. eapply Rle_trans; [exact S3|]. apply Rmult_le_compat_l; [pose proof u53_pos|]; lra.
  - exact Fx.
  - exact A.
  - lra.
  - apply Rabs_le_inv in A. lra.
  - exists y, k. apply (bool_false _ _ (gtb_pi y Fy)) in Cy. repeat split; auto; try lra.
    + intros _. destruct Last as [(-> & _)|(z & Fz & Cz & Z1 & Ez)]; [lra|]. apply (gtb_pi z Fz) in Cz. apply Rabs_le_inv in Z1.
      destruct (step_dn (R_of z) (format_R z) ltac:(lra)) as (S1 & S2 & S3 & S4). lra.
    + replace (R_of x - INR k * T) with (R_of x + INR k * - T) by ring. exact Ey.
Qed.
Lemma up_ends N x : bp 56 < INR N -> fis_finite x = true -> Rabs (R_of x) <= bp 56 -> R_of x <= Rp ->
  exists y k, up N x = Some y /\ fis_finite y = true /\ - Rp < R_of y <= Rp /\ (- Rp < R_of x -> y = x) /\
    Rabs (R_of y - (R_of x + INR k * T)) <= INR k * u53 * Rabs (R_of x).
Proof.
  intros HN Fx A Lx. destruct (Rlt_or_le (- Rp) (R_of x)) as [L|L].
  { exists x, O. rewrite while_done by (apply (false_bool _ _ (leb_mpi x Fx)); lra). cbn [INR].
    repeat split; auto; try lra. replace (R_of x - (R_of x + 0 * T)) with 0 by ring. rewrite Rabs_R0. lra. }
  sizes.
  assert (forall z, fis_finite z = true -> Rabs (R_of z) <= bp 56 -> R_of z <= - Rp -> RN (R_of z + T) = - RN (- R_of z - T) /\ fmt (- R_of z) /\ Rp <= - R_of z <= bp 56) as NEG.
  { intros z Fz Z1 Z2. apply Rabs_le_inv in Z1. split; [|split; [apply generic_format_opp, format_R|lra]].
    replace (R_of z + T) with (- (- R_of z - T)) by ring. apply RN_neg. }
  assert (RNP : RN (Rp - T) = - Rp) by (replace (Rp - T) with (- Rp) by lra; rewrite RN_neg, RN_id by apply format_R; reflexivity).
  destruct (loop_ends (fun a => fleb a (fneg PIf)) (fun a => fadd a PI_TIMES_2) (fun r => RN (r + T)) T (Rabs (R_of x)) (fun r => - r)) with (n := N) (x := x)
    as (y & k & W & Fy & Cy & Y1 & Y2 & Ey & Last).
  - intros z Fz Cz Z1 Z2. apply (leb_mpi z Fz) in Cz. destruct (NEG z Fz Z1 Cz) as (EN & FN & BN).
    destruct (add_T z Fz ltac:(lra)) as (F1 & E1). destruct (half_up (R_of z) ltac:(lra)) as (H1 & _).
    assert (- R_of z <= Rabs (R_of x)) as ZX by (apply Rabs_le_inv in Z2; lra).
    assert (Rabs (RN (R_of z + T)) <= - R_of z /\ Rabs (RN (R_of z + T) - (R_of z + T)) <= u53 * - R_of z) as (S1 & S2).
    { destruct (Req_dec (- R_of z) Rp) as [E|E].
      - rewrite EN, E, RNP. replace (R_of z + T) with Rp by lra. split; [rewrite Ropp_involutive, Rabs_pos_eq; lra|].
        replace (- - Rp - Rp) with 0 by ring. rewrite Rabs_R0. pose proof u53_pos. apply Rmult_le_pos; lra.
      - destruct (step_dn (- R_of z) FN ltac:(lra)) as (S1 & S2 & S3 & S4). rewrite EN, Rabs_Ropp. split; [exact S4|].
        replace (- RN (- R_of z - T) - (R_of z + T)) with (- (RN (- R_of z - T) - (- R_of z - T))) by ring. now rewrite Rabs_Ropp. }
    repeat split; auto; try lra.
    eapply Rle_trans; [exact S2|]. apply Rmult_le_compat_l; [pose proof u53_pos|]; lra.
  - exact Fx.
  - exact A.
  - lra.
  - apply Rabs_le_inv in A. lra.
  - exists y, k. apply (bool_false _ _ (leb_mpi y Fy)) in Cy. repeat split; auto; try lra.
    destruct Last as [(-> & _)|(z & Fz & Cz & Z1 & Ez)]; [lra|]. apply (leb_mpi z Fz) in Cz. destruct (NEG z Fz Z1 Cz) as (EN & FN & BN).
    rewrite Ez, EN. destruct (Req_dec (- R_of z) Rp) as [E|E]; [rewrite E, RNP; lra|].
    destruct (step_dn (- R_of z) FN ltac:(lra)) as (S1 & S2 & S3 & S4). lra.
Qed.
(** ** [normalize_positive] *)
Notation pdn := (while_f (fun a => fgeb a PI_TIMES_2) (fun a => fsub a PI_TIMES_2)).
Notation pup := (while_f (fun a => fltb a f0) (fun a => fadd a PI_TIMES_2)).
Lemma pdn_ends N x : bp 56 < INR N -> fis_finite x = true -> 0 <= R_of x <= bp 56 ->
  exists y k, pdn N x = Some y /\ fis_finite y = true /\ 0 <= R_of y < T /\ (R_of x < T -> y = x) /\
    Rabs (R_of y - (R_of x - INR k * T)) <= INR k * u53 * Rabs (R_of x).
Proof.
  intros HN Fx A. sizes. destruct (Rlt_or_le (R_of x) T) as [L|L].
  { exists x, O. rewrite while_done by (apply (false_bool _ _ (geb_T x Fx)); lra). cbn [INR].
    repeat split; auto; try lra. replace (R_of x - (R_of x - 0 * T)) with 0 by ring. rewrite Rabs_R0. lra. }
  destruct (loop_ends (fun a => fgeb a PI_TIMES_2) (fun a => fsub a PI_TIMES_2) (fun r => RN (r - T)) (- T) (Rabs (R_of x)) (fun r => r)) with (n := N) (x := x)
    as (y & k & W & Fy & Cy & Y1 & Y2 & Ey & Last).
  - intros z Fz Cz Z1 Z2. apply (geb_T z Fz) in Cz. apply Rabs_le_inv in Z1. destruct (sub_T z Fz ltac:(lra)) as (F1 & E1).
    destruct (step_dn (R_of z) (format_R z) ltac:(lra)) as (S1 & S2 & S3 & S4).
    assert (R_of z <= Rabs (R_of x)) as ZX by (apply Rabs_le_inv in Z2; lra).
    repeat split; auto; try lra.
    replace (R_of z + - T) with (R_of z - T) by ring. eapply Rle_trans; [exact S3|]. apply Rmult_le_compat_l; [pose proof u53_pos|]; lra.
  - exact Fx.
  - apply Rabs_le. lra.
  - lra.
  - lra.
  - exists y, k. apply (bool_false _ _ (geb_T y Fy)) in Cy. repeat split; auto; try lra.
    + destruct Last as [(-> & _)|(z & Fz & Cz & Z1 & Ez)]; [lra|]. apply (geb_T z Fz) in Cz. rewrite Ez. apply RN_ge0. lra.
    + replace (R_of x - INR k * T) with (R_of x + INR k * - T) by ring. exact Ey.
Qed.
Lemma pup_ends N x : bp 56 < INR N -> fis_finite x = true -> - bp 56 <= R_of x < 0 ->
  exists y k, pup N x = Some y /\ fis_finite y = true /\ 0 <= R_of y <= T /\
    Rabs (R_of y - (R_of x + INR k * T)) <= INR k * u53 * (Rabs (R_of x) + T) /\ (1 <= k)%nat.
Proof.
  intros HN Fx A. sizes. pose proof bp56 as B56.
  destruct (loop_ends (fun a => fltb a f0) (fun a => fadd a PI_TIMES_2) (fun r => RN (r + T)) T (Rabs (R_of x) + T) (fun r => - r)) with (n := N) (x := x)
    as (y & k & W & Fy & Cy & Y1 & Y2 & Ey & Last).
  - intros z Fz Cz Z1 Z2. apply (ltb_0 z Fz) in Cz. apply Rabs_le_inv in Z1. destruct (add_T z Fz ltac:(lra)) as (F1 & E1).
    destruct (half_up (R_of z) ltac:(lra)) as (H1 & _). pose proof (Rabs_pos (R_of x)) as PX. apply Rabs_le_inv in Z2.
    repeat split; auto; try lra; try (apply Rabs_le; lra).
    eapply Rle_trans; [apply RN_sum_err; [apply format_R|apply fmt_T]|]. apply Rmult_le_compat_l; [pose proof u53_pos; lra|]. apply Rabs_le. lra.
  - exact Fx.
  - apply Rabs_le. lra.
  - lra.
  - lra.
  - exists y, k. apply (bool_false _ _ (ltb_0 y Fy)) in Cy. destruct Last as [(-> & _)|(z & Fz & Cz & Z1 & Ez)]; [lra|].
    repeat split; auto; try lra.
    + apply (ltb_0 z Fz) in Cz. apply Rabs_le_inv in Z1. rewrite Ez. apply (half_up (R_of z)). lra.
    + destruct k; [|lia]. cbn [INR] in Ey. exfalso. rewrite !Rmult_0_l in Ey. apply Rabs_le_inv in Ey. lra.
Qed.
(** ** Differences of angles in range *)
Definition in_turn (x : f64) : Prop := fis_finite x = true /\ - Rp <= R_of x <= Rp.
Lemma sub_turn x y : in_turn x -> in_turn y -> fis_finite (fsub x y) = true /\ R_of (fsub x y) = RN (R_of x - R_of y) /\ - T <= R_of (fsub x y) <= T.
Proof.
  intros (Fx & Lx) (Fy & Ly). sizes.
  assert (- T <= RN (R_of x - R_of y) <= T) as H.
  { split; [rewrite <- (RN_id T) at 1 by apply fmt_T; rewrite <- RN_neg|rewrite <- (RN_id T) by apply fmt_T]; apply RN_le; lra. }
  destruct (fsub_R x y Fx Fy) as (F & E); [pose proof bp56_1024; pose proof bp56; apply Rabs_lt; lra|]. rewrite E. auto.
Qed.
Lemma nat_above r : exists N, r < INR N.
Proof. destruct (archimed r) as (H & _). exists (Z.to_nat (Z.max 0 (Raux.Zceil r + 1))). rewrite INR_IZR_INZ, Z2Nat.id by lia.
  eapply Rle_lt_trans; [apply Zceil_ub|]. apply IZR_lt. lia. Qed.
