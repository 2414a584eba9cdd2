(** Line segments in doubles against exact arithmetic. *)
From Coq Require Import ZArith Bool List Reals Lia Lra Psatz.
From Flocq Require Import Core IEEE754.BinarySingleNaN.
From Verif Require Import Base F64 F64Facts F64Err Num NumLink Coordinate_model Coordinate_proofs Distance_model Distance_spec Distance_proofs Distance_float
  Intersection_spec Intersection_proofs Segment_model Segment_proofs.
Import ListNotations.
Local Open Scope R_scope.

Section Float.
Variable hypot : f64 -> f64 -> f64.
Variable e : Z.
Hypothesis He : (-400 <= e <= 400)%Z.
Notation F := (NF hypot).
Notation pe := (ptx e 24).

(** The projection factor is the rounded exact one, on the same side of 0 and 1. *)
Lemma factor_val : forall a b p A B P, pe a A -> pe b B -> pe p P -> A <> B ->
  let q := dotp A B P / len2 A B in
  exists f, g_projection_factor f64 F a b p = Some f /\ fis_finite f = true /\ R_of f = RN q /\
    (q = 0 \/ bp (-51) <= Rabs q <= bp 51) /\
    fltb f f0 = Rlt_bool q 0 /\ fleb f f0 = Rle_bool q 0 /\ fltb f1 f = Rlt_bool 1 q /\ fleb f1 f = Rle_bool 1 q.
Proof.
  intros a b p A B P Ha Hb Hp AB q. pose proof (neq_len2 A B AB) as L. unfold g_projection_factor.
  rewrite (equals_ex hypot e _ _ _ _ Hp Ha), (equals_ex hypot e _ _ _ _ Hp Hb).
  assert (Rabs 1 = 1) as A1 by (apply Rabs_pos_eq; lra).
  assert (bp (-51) <= 1 <= bp 51) as B1 by (split; apply (bpow_le radix2 _ 0) || apply (bpow_le radix2 0); lia).
  destruct (g_equals R NR P A) eqn:E1.
  { apply eqR_true in E1. subst P. assert (q = 0) as -> by (unfold q, dotp; rewrite !Rminus_eq_0; unfold Rdiv; ring).
    exists f0. split; [reflexivity|]. split; [reflexivity|]. split; [now rewrite RN_0, R_of_f0|]. split; [now left|].
    rewrite Rlt_bool_false, Rle_bool_true, Rlt_bool_false, Rle_bool_false by lra. auto. }
  destruct (g_equals R NR P B) eqn:E2.
  { apply eqR_true in E2. subst P. assert (q = 1) as -> by (unfold q, dotp, len2 in *; field; lra).
    exists f1. split; [reflexivity|]. split; [reflexivity|]. split; [rewrite R_of_f1; symmetry; apply RN_id; change 1 with (bp 0); apply bpow_fmt; lia|].
    split; [right; now rewrite A1|].
    rewrite Rlt_bool_false, Rle_bool_false, Rlt_bool_false, Rle_bool_true by lra. auto. }
  cbn [NF nsub nmul nadd ndiv nle nofZ]. change (fofZ 0) with f0. change (fofZ 1) with f1.
  destruct Ha as [Ax Ay], Hb as [Bx By_], Hp as [Px Py].
  pose proof (d_ex e He _ _ _ _ Bx Ax) as X1. pose proof (d_ex e He _ _ _ _ By_ Ay) as X2.
  pose proof (ex_add (e + e) 50 _ _ _ _ ltac:(lia) ltac:(lia) (m_ex e He _ _ _ _ X1 X1) (m_ex e He _ _ _ _ X2 X2)) as LL.
  pose proof (d_ex e He _ _ _ _ Px Ax) as X3. pose proof (d_ex e He _ _ _ _ Py Ay) as X4.
  pose proof (ex_add (e + e) 50 _ _ _ _ ltac:(lia) ltac:(lia) (m_ex e He _ _ _ _ X3 X1) (m_ex e He _ _ _ _ X4 X2)) as NN.
  change (50 + 1)%Z with 51%Z in *. fold (len2 A B) in LL. fold (dotp A B P) in NN.
  rewrite (ex_leb _ _ _ _ _ _ _ _ LL (ex_0 0 0 ltac:(lia))). rewrite Rle_bool_false by exact L.
  eexists. split; [reflexivity|].
  destruct (ex_div_val (e + e) 51 51 _ _ _ _ ltac:(lia) ltac:(lia) NN LL ltac:(lra)) as (F1 & F2 & F3).
  destruct (quot_le0 (e + e) 51 51 _ _ _ _ ltac:(lia) ltac:(lia) NN LL ltac:(lra)) as [Q1 Q2].
  destruct (quot_ge1 (e + e) 51 51 _ _ _ _ ltac:(lia) ltac:(lia) NN LL ltac:(lra)) as [Q3 Q4].
  fold q in F2, F3, Q1, Q2, Q3, Q4. auto 10.
Qed.
Lemma factor_same : forall a b p A P, pe a A -> pe b A -> pe p P ->
  g_projection_factor f64 F a b p = if g_equals R NR P A then Some f0 else None.
Proof.
  intros a b p A P Ha Hb Hp. unfold g_projection_factor. rewrite (equals_ex hypot e _ _ _ _ Hp Ha), (equals_ex hypot e _ _ _ _ Hp Hb).
  destruct (g_equals R NR P A); [reflexivity|]. cbn [NF nsub nmul nadd ndiv nle nofZ]. change (fofZ 0) with f0.
  destruct Ha as [Ax Ay], Hb as [Bx By_].
  pose proof (d_ex e He _ _ _ _ Bx Ax) as X1. pose proof (d_ex e He _ _ _ _ By_ Ay) as X2.
  pose proof (ex_add (e + e) 50 _ _ _ _ ltac:(lia) ltac:(lia) (m_ex e He _ _ _ _ X1 X1) (m_ex e He _ _ _ _ X2 X2)) as LL.
  rewrite (ex_leb _ _ _ _ _ _ _ _ LL (ex_0 0 0 ltac:(lia))). rewrite Rle_bool_true; [reflexivity|]. lra.
Qed.

(** One ordinate of a point along the segment. *)
Lemma along_err : forall x y X Y f q, ex e 24 x X -> ex e 24 y Y -> fis_finite f = true -> R_of f = RN q ->
  q = 0 \/ bp (-51) <= Rabs q -> 0 <= q <= 1 ->
  let v := fadd x (fmul f (fsub y x)) in fis_finite v = true /\ Rabs (R_of v - (X + q * (Y - X))) <= bp (e - 26).
Proof.
  intros x y X Y f q Hx Hy Ff Ef Q0 Q1 v. unfold v. clear v.
  pose proof (d_ex e He _ _ _ _ Hy Hx) as D. assert (1 = bp 0) as ONE by reflexivity.
  assert (Rabs q <= 1) as Aq by (rewrite Rabs_pos_eq; lra).
  assert (bf 0 f) as Bf by (split; [exact Ff|]; rewrite Ef; apply RN_abs_le; [lia|]; rewrite <- ONE; exact Aq).
  assert (forall k z r, (0 <= k)%Z -> ex e k z r -> Rabs r <= bp (e + k)) as BND.
  { intros k z r Hk (_ & _ & n & Hn & ->). rewrite Rabs_mult, (Rabs_pos_eq (bp e)) by apply bpow_ge_0.
    rewrite Z.add_comm, bpow_plus. apply Rmult_le_compat_r; [apply bpow_ge_0|]. rewrite <- abs_IZR, <- (IZR_Zpower radix2) by lia. now apply IZR_le. }
  assert (bf (e + 25) (fsub y x)) as Bd by (split; [exact (ex_fin _ _ _ _ D)|]; rewrite (ex_R _ _ _ _ D); apply (BND 25%Z (fsub y x)); [lia|exact D]).
  destruct (bf_mul 0 (e + 25) f (fsub y x) ltac:(lia) Bf Bd) as (Bm & Em).
  set (m := fmul f (fsub y x)) in *. set (d := Y - X) in *. rewrite (ex_R _ _ _ _ D) in Em.
  assert (Rabs d <= bp (e + 25)) as Ad by (rewrite <- (ex_R _ _ _ _ D); apply Bd).
  assert (Rabs (R_of f - q) <= u53) as E1.
  { rewrite Ef. eapply Rle_trans; [apply RN_rel|].
    - destruct Q0 as [Q0|Q0]; [now left|right]. eapply Rle_trans; [|exact Q0]. apply bpow_le. lia.
    - rewrite <- (Rmult_1_r u53) at 2. apply Rmult_le_compat_l; [pose proof u53_pos; lra|exact Aq]. }
  assert (Rabs (R_of f * d - q * d) <= bp (e - 28)) as E2.
  { replace (R_of f * d - q * d) with ((R_of f - q) * d) by ring. rewrite Rabs_mult. replace (bp (e - 28)) with (u53 * bp (e + 25)) by (rewrite <- bpow_plus; f_equal; lia).
    apply Rmult_le_compat; auto using Rabs_pos. }
  assert (Rabs (R_of m - R_of f * d) <= bp (e - 28) + bp (-1075)) as E3.
  { rewrite Em. eapply Rle_trans; [apply RN_err|]. apply Rplus_le_compat_r.
    replace (bp (e - 28)) with (u53 * (1 * bp (e + 25))) by (rewrite Rmult_1_l, <- bpow_plus; f_equal; lia).
    apply Rmult_le_compat_l; [pose proof u53_pos; lra|]. rewrite Rabs_mult. apply Rmult_le_compat; auto using Rabs_pos. apply Bf. }
  assert (Rabs X <= bp (e + 24)) as AX by (apply (BND 24%Z x); [lia|exact Hx]).
  assert (Rabs (q * d) <= bp (e + 25)) as Aqd.
  { rewrite Rabs_mult, <- (Rmult_1_l (bp (e + 25))). apply Rmult_le_compat; auto using Rabs_pos. }
  assert (forall i j, (i <= j)%Z -> bp i <= bp j) as MONO by (intros; now apply bpow_le).
  pose proof (MONO (-1075) (e - 29))%Z ltac:(lia) as M1. pose proof (MONO (e - 28) (e + 20))%Z ltac:(lia) as M2.
  pose proof (MONO (e + 20) (e + 24))%Z ltac:(lia) as M3. pose proof (MONO (e - 29) (e + 20))%Z ltac:(lia) as M4.
  assert (bp (e + 26) = 4 * bp (e + 24)) as P1 by (replace (e + 26)%Z with (e + 24 + 1 + 1)%Z by lia; rewrite !bp_S; ring).
  assert (bp (e + 25) = 2 * bp (e + 24)) as P2 by (replace (e + 25)%Z with (e + 24 + 1)%Z by lia; rewrite !bp_S; ring).
  assert (bp (e + 24) = 16 * bp (e + 20)) as P3 by (replace (e + 24)%Z with (e + 20 + 1 + 1 + 1 + 1)%Z by lia; rewrite !bp_S; ring).
  assert (bp (e - 26) = 8 * bp (e - 29)) as P4 by (replace (e - 26)%Z with (e - 29 + 1 + 1 + 1)%Z by lia; rewrite !bp_S; ring).
  assert (bp (e - 28) = 2 * bp (e - 29)) as P5 by (replace (e - 28)%Z with (e - 29 + 1)%Z by lia; rewrite !bp_S; ring).
  assert (Rabs (X + q * d) <= bp (e + 24)) as AV.
  { assert (Rabs Y <= bp (e + 24)) as AY by (apply (BND 24%Z y); [lia|exact Hy]). unfold d. apply Rabs_le_inv in AX, AY.
    pose proof (Rmult_le_pos q (bp (e + 24) - Y) ltac:(lra) ltac:(lra)). pose proof (Rmult_le_pos q (bp (e + 24) + Y) ltac:(lra) ltac:(lra)).
    pose proof (Rmult_le_pos (1 - q) (bp (e + 24) - X) ltac:(lra) ltac:(lra)). pose proof (Rmult_le_pos (1 - q) (bp (e + 24) + X) ltac:(lra) ltac:(lra)).
    apply Rabs_le. split; lra. }
  assert (Rabs (R_of m - q * d) <= 4 * bp (e - 29) + bp (-1075)) as E4.
  { apply Rabs_le_inv in E2, E3. apply Rabs_le. lra. }
  assert (Rabs (X + R_of m) <= 2 * bp (e + 24)) as AS.
  { apply Rabs_le_inv in AV, E4. apply Rabs_le. lra. }
  destruct (add_fits (e + 25) x m ltac:(lia) (ex_fin _ _ _ _ Hx) (bf_fin _ _ Bm)) as (Ba & Ea).
  { rewrite (ex_R _ _ _ _ Hx), P2. exact AS. }
  split; [exact (bf_fin _ _ Ba)|]. rewrite Ea, (ex_R _ _ _ _ Hx).
  assert (Rabs (RN (X + R_of m) - (X + R_of m)) <= bp (e - 28)) as E5.
  { eapply Rle_trans; [apply RN_sum_err|].
    - rewrite <- (ex_R _ _ _ _ Hx). apply generic_format_B2R.
    - apply generic_format_B2R.
    - replace (bp (e - 28)) with (u53 * (2 * bp (e + 24))) by (rewrite <- P2, <- bpow_plus; f_equal; lia).
      apply Rmult_le_compat_l; [pose proof u53_pos; lra|exact AS]. }
  apply Rabs_le_inv in E4, E5. apply Rabs_le. lra.
Qed.

Hypothesis Hh : hypot_accurate hypot.
(** The end taken for the closest is as close as the other, up to rounding. *)
Lemma closest_end_val : forall a b p A B P, pe a A -> pe b B -> pe p P ->
  let t := fltb (g_distance f64 F a p) (g_distance f64 F b p) in
  let E := if t then A else B in dist P E <= (1 + bp (-49)) * dist P A /\ dist P E <= (1 + bp (-49)) * dist P B.
Proof.
  intros a b p A B P Ha Hb Hp t E.
  assert (forall u v, dist u v = dist v u) as SYM by (intros; unfold dist; f_equal; unfold Rsqr; ring).
  destruct (ap4_bounds _ _ (dist_pos A P) (dist_ap hypot Hh e He _ _ _ _ Ha Hp)) as (F1 & B1).
  destruct (ap4_bounds _ _ (dist_pos B P) (dist_ap hypot Hh e He _ _ _ _ Hb Hp)) as (F2 & B2).
  unfold E, t. rewrite fltb_R by assumption. rewrite !(SYM P). set (ra := dist A P) in *. set (rb := dist B P) in *.
  assert (0 <= ra /\ 0 <= rb) as (Ra & Rb) by (split; apply dist_pos).
  assert (bp (-49) = 16 * u53) as P49 by (change (-49)%Z with (-53 + 1 + 1 + 1 + 1)%Z; rewrite !bp_S; ring). rewrite P49.
  pose proof u53_pos. assert (u53 <= / 1000) as SM by (pose proof u53_small; lra).
  assert (forall u v, 0 <= u -> 0 <= v -> (1 - 4 * u53) * u <= (1 + 4 * u53) * v -> u <= (1 + 16 * u53) * v) as K.
  { intros u v Hu Hv H1. apply (Rmult_le_reg_l (1 - 4 * u53)); [lra|]. eapply Rle_trans; [exact H1|]. rewrite <- Rmult_assoc.
    apply Rmult_le_compat_r; [exact Hv|].
    pose proof (Rmult_le_pos u53 (8 - 64 * u53)). lra. }
  assert (forall u, 0 <= u -> u <= (1 + 16 * u53) * u) as K0 by (intros u Hu; pose proof (Rmult_le_pos (16 * u53) u); lra).
  destruct (Rlt_bool_spec (R_of (g_distance f64 F a p)) (R_of (g_distance f64 F b p))) as [LT|LT]; fold ra rb; split; auto; apply K; auto; lra.
Qed.

(** The computed closest point is near a point of the segment that is as
    close as any, up to rounding. *)
Lemma closest_val : forall a b p A B P, pe a A -> pe b B -> pe p P ->
  exists q, on_segment A B q /\ (forall r, on_segment A B r -> dist P q <= (1 + bp (-49)) * dist P r) /\
    fis_finite (px (g_closest_point f64 F a b p)) = true /\ fis_finite (py (g_closest_point f64 F a b p)) = true /\
    Rabs (R_of (px (g_closest_point f64 F a b p)) - px q) <= bp (e - 26) /\
    Rabs (R_of (py (g_closest_point f64 F a b p)) - py q) <= bp (e - 26).
Proof.
  intros a b p A B P Ha Hb Hp. pose proof (closest_end_val _ _ _ _ _ _ Ha Hb Hp) as CE. cbv zeta in CE.
  assert (forall r, 0 <= r -> r <= (1 + bp (-49)) * r) as UP by (intros r Hr; pose proof (Rmult_le_pos (bp (-49)) r (bpow_ge_0 _ _) Hr); lra).
  assert (forall r s, 0 <= r -> r <= s -> (1 + bp (-49)) * r <= (1 + bp (-49)) * s) as UP2.
  { intros r s Hr Hs. apply Rmult_le_compat_l; [pose proof (bpow_ge_0 radix2 (-49)); lra|exact Hs]. }
  assert (forall T, T = A \/ T = B -> nearest A B P T -> exists q, on_segment A B q /\ (forall r, on_segment A B r -> dist P q <= (1 + bp (-49)) * dist P r) /\
    fis_finite (px (g_closest_end f64 F a b p)) = true /\ fis_finite (py (g_closest_end f64 F a b p)) = true /\
    Rabs (R_of (px (g_closest_end f64 F a b p)) - px q) <= bp (e - 26) /\
    Rabs (R_of (py (g_closest_end f64 F a b p)) - py q) <= bp (e - 26)) as EN.
  { intros T OT (NT & NT2). exists (if fltb (g_distance f64 F a p) (g_distance f64 F b p) then A else B). split; [|split].
    - destruct (fltb _ _); [exists 0|exists 1]; (split; [lra|]); now rewrite ?along_0, ?along_1.
    - intros r Hr. eapply Rle_trans; [|apply UP2; [apply dist_pos|apply (NT2 r Hr)]]. destruct OT as [->| ->]; apply CE.
    - unfold g_closest_end. cbn [NF nlt]. destruct Ha as [Ax Ay], Hb as [Bx By_].
      destruct (fltb _ _); (split; [eapply ex_fin; eassumption|]; split; [eapply ex_fin; eassumption|]).
      + rewrite (ex_R _ _ _ _ Ax), (ex_R _ _ _ _ Ay), !Rminus_eq_0, Rabs_R0. split; apply bpow_ge_0.
      + rewrite (ex_R _ _ _ _ Bx), (ex_R _ _ _ _ By_), !Rminus_eq_0, Rabs_R0. split; apply bpow_ge_0. }
  destruct (g_equals R NR A B) eqn:AB.
  - apply eqR_true in AB. subst B.
    assert (nearest A A P A) as NA by (split; [exists 0; split; [lra|now rewrite along_0]|]; intros r (t & _ & ->); rewrite along_same; lra).
    unfold g_closest_point. rewrite (factor_same _ _ _ _ _ Ha Hb Hp).
    destruct (g_equals R NR P A); [|now apply (EN A); auto].
    change (nlt F (nofZ F 0) f0) with false. cbn [andb]. now apply (EN A); auto.
  - assert (A <> B) as NE by (intros E; apply eqR_true in E; congruence).
    destruct (factor_val _ _ _ _ _ _ Ha Hb Hp NE) as (f & Ef & Ff & Rf & Q & C1 & C2 & C3 & C4).
    pose proof (neq_len2 A B NE) as L. set (q := dotp A B P / len2 A B) in *. assert (dotp A B P = q * len2 A B) as D by (unfold q; field; lra).
    unfold g_closest_point. rewrite Ef. cbn [NF nlt nofZ]. change (fofZ 0) with f0. change (fofZ 1) with f1.
    assert (nn f /\ nn f0 /\ nn f1) as (N & N0 & N1) by (split; [now apply nn_finite|split; reflexivity]).
    assert (fltb f0 f = Rlt_bool 0 q) as ->.
    { rewrite fltb_rank by assumption. rewrite fleb_rank in C2 by assumption.
      destruct (Rle_bool_spec q 0), (Rlt_bool_spec 0 q), (Z.ltb_spec (rank f0) (rank f)), (Z.leb_spec (rank f) (rank f0)); try lra; try lia; congruence. }
    assert (fltb f f1 = Rlt_bool q 1) as ->.
    { rewrite fltb_rank by assumption. rewrite fleb_rank in C4 by assumption.
      destruct (Rle_bool_spec 1 q), (Rlt_bool_spec q 1), (Z.ltb_spec (rank f) (rank f1)), (Z.leb_spec (rank f1) (rank f)); try lra; try lia; congruence. }
    destruct (Rlt_bool_spec 0 q) as [Q0|Q0].
    + destruct (Rlt_bool_spec q 1) as [Q1|Q1]; cbn [andb].
      * exists (along A B q). assert (nearest A B P (along A B q)) as (NQ & NQ2) by (apply nearest_foot; auto; lra).
        split; [exact NQ|]. split; [intros r Hr; eapply Rle_trans; [apply UP, dist_pos|apply UP2; [apply dist_pos|now apply NQ2]]|].
        assert (q = 0 \/ bp (-51) <= Rabs q) as Q' by (destruct Q as [Q|[Q _]]; [now left|now right]).
        destruct Ha as [Ax Ay], Hb as [Bx By_]. unfold g_point_along, along. cbn [NF nadd nmul nsub px py].
        destruct (along_err _ _ _ _ f q Ax Bx Ff Rf Q' ltac:(lra)) as (X1 & X2). destruct (along_err _ _ _ _ f q Ay By_ Ff Rf Q' ltac:(lra)) as (Y1 & Y2).
        auto.
      * apply (EN B); auto. apply nearest_end. rewrite D. rewrite <- (Rmult_1_l (len2 A B)) at 1. apply Rmult_le_compat_r; lra.
    + cbn [andb]. apply (EN A); auto. apply nearest_start. rewrite D, <- (Rmult_0_l (len2 A B)). apply Rmult_le_compat_r; lra.
Qed.
End Float.
