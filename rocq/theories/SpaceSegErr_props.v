(** C74, continued: the distance of two segments in space at arbitrary doubles. *)
From Coq Require Import ZArith Bool List Reals Lia Lra Psatz.
From Flocq Require Import Core IEEE754.BinarySingleNaN.
From Verif Require Import Base F64 F64Facts F64Err Num NumLink Coordinate_model CoordArrays_model Orientation_spec Orientation_props Distance_model Distance_spec Distance_proofs
  Distance_float Distance_props DistanceErr_proofs DistanceErr_props Distance3D_model Distance3D_spec Distance3D_proofs Distance3D_props
  DD_spec DD_proofs DD_more DDSum_proofs SpaceErr_proofs SpaceErr_props SegSegErr_proofs.
Import ListNotations.
Local Open Scope R_scope.

(** ** Quotients and tests *)
Lemma fdiv_nn x y : fis_finite x = true -> R_of y <> 0 -> fis_nan (fdiv x y) = false.
Proof.
  intros F N. pose proof (Bdiv_correct 53 1024 _ _ mode_NE x y N) as C. unfold fis_finite in F. rewrite F in C. unfold fdiv, fis_nan. clear N.
  destruct (Rlt_bool _ _).
  - destruct C as (_ & C & _). destruct (Bdiv mode_NE x y); try reflexivity; discriminate C.
  - destruct (Bdiv mode_NE x y); try reflexivity. exfalso. cbn in C. discriminate C.
Qed.
Lemma unit_range s : fis_nan s = false -> fltb s f0 = false -> fltb f1 s = false -> fis_finite s = true /\ 0 <= R_of s <= 1.
Proof.
  intros N A B. assert (fis_finite s = true) as F.
  { destruct s as [| [] | |]; try reflexivity; discriminate. }
  split; [exact F|]. rewrite (fltb_R s f0 F eq_refl) in A. rewrite (fltb_R f1 s eq_refl F) in B. change (R_of f0) with 0 in A. rewrite R_of_f1 in B.
  destruct (Rlt_bool_spec (R_of s) 0); [discriminate|]. destruct (Rlt_bool_spec 1 (R_of s)); [discriminate|]. lra.
Qed.
(** ** Points along a segment *)
Lemma along_err a b r M : mid a -> mid b -> Rabs (R_of a) <= M -> Rabs (R_of b) <= M ->
  fis_finite r = true -> 0 <= R_of r <= 1 -> eta <= / 1024 * (u53 * M) ->
  bf 472 (fadd a (fmul r (fsub b a))) /\
  Rabs (R_of (fadd a (fmul r (fsub b a))) - (R_of a + R_of r * (R_of b - R_of a))) <= 504 / 100 * (u53 * M) /\
  Rabs (R_of a + R_of r * (R_of b - R_of a)) <= M.
Proof.
  intros Ma Mb La Lb Fr Rr He. pose proof u53_pos as U. pose proof u53_small as U1.
  destruct (mid_diff _ _ Mb Ma) as (B1 & R1 & _). unfold ru in R1.
  assert (bf 0 r) as Br by (split; [exact Fr|]; change (bp 0) with 1; apply Rabs_le; lra).
  destruct (bf_mul 0 471 r (fsub b a) ltac:(lia) Br B1) as (B2 & E2).
  destruct (bf_add 471 a _ ltac:(lia) (bf_up 470 471 _ ltac:(lia) (mid_bf a Ma)) B2) as (B3 & E3).
  split; [exact B3|].
  set (d := fsub b a) in *. set (m := fmul r d) in *. set (s := fadd a m) in *.
  pose proof (RN_err (R_of r * R_of d)) as Q2. fold eta in Q2. rewrite <- E2 in Q2.
  pose proof (RN_sum_err (R_of a) (R_of m) (format_R a) (format_R m)) as Q3. rewrite <- E3 in Q3.
  assert (0 <= M) as M0 by (pose proof (Rabs_pos (R_of a)); lra).
  apply Rabs_le_inv in La, Lb.
  set (w := R_of b - R_of a) in *. assert (Rabs w <= 2 * M) as W by (apply Rabs_le; unfold w; lra).
  assert (0 <= u53 * M) as UM by (apply Rmult_le_pos; lra).
  assert (u53 * (u53 * M) <= / 1024 * (u53 * M)) as UUM by (apply Rmult_le_compat_r; lra).
  assert (u53 * Rabs w <= 2 * (u53 * M)) as UW by (apply Rle_trans with (u53 * (2 * M)); [apply Rmult_le_compat_l; lra|lra]).
  assert (Rabs (R_of d) <= 2 * M + 2 * (u53 * M)) as D.
  { replace (R_of d) with (w + (R_of d - w)) by ring. eapply Rle_trans; [apply Rabs_triang|]. lra. }
  assert (forall y, Rabs (R_of r * y) <= Rabs y) as SH.
  { intros y. rewrite Rabs_mult, (Rabs_pos_eq (R_of r)) by lra. pose proof (Rabs_pos y). clear - Rr H. nra. }
  assert (u53 * Rabs (R_of r * R_of d) <= u53 * (2 * M + 2 * (u53 * M))) as K2 by (apply Rmult_le_compat_l; [lra|]; eapply Rle_trans; [apply SH|exact D]).
  assert (Rabs (R_of m - R_of r * w) <= 402 / 100 * (u53 * M)) as EM.
  { replace (R_of m - R_of r * w) with ((R_of m - R_of r * R_of d) + R_of r * (R_of d - w)) by ring. eapply Rle_trans; [apply Rabs_triang|].
    pose proof (SH (R_of d - w)). lra. }
  set (c := R_of a + R_of r * w). assert (Rabs c <= M) as C.
  { unfold c, w. clear - La Lb Rr. apply Rabs_le. split; nra. }
  assert (Rabs (R_of a + R_of m) <= M + 402 / 100 * (u53 * M)) as AM.
  { replace (R_of a + R_of m) with (c + (R_of m - R_of r * w)) by (unfold c; ring). eapply Rle_trans; [apply Rabs_triang|]. lra. }
  assert (u53 * Rabs (R_of a + R_of m) <= u53 * (M + 402 / 100 * (u53 * M))) as K3 by (apply Rmult_le_compat_l; lra).
  split; [|exact C].
  replace (R_of s - c) with ((R_of s - (R_of a + R_of m)) + (R_of m - R_of r * w)) by (unfold c; ring). eapply Rle_trans; [apply Rabs_triang|]. lra.
Qed.
Lemma gap_err a b c d s t M : mid a -> mid b -> mid c -> mid d -> Rabs (R_of a) <= M -> Rabs (R_of b) <= M -> Rabs (R_of c) <= M -> Rabs (R_of d) <= M ->
  fis_finite s = true -> 0 <= R_of s <= 1 -> fis_finite t = true -> 0 <= R_of t <= 1 -> eta <= / 1024 * (u53 * M) ->
  bf 480 (fsub (fadd a (fmul s (fsub b a))) (fadd c (fmul t (fsub d c)))) /\
  Rabs (R_of (fsub (fadd a (fmul s (fsub b a))) (fadd c (fmul t (fsub d c)))) - ((R_of a + R_of s * (R_of b - R_of a)) - (R_of c + R_of t * (R_of d - R_of c)))) <= 125 / 10 * (u53 * M).
Proof.
  intros Ma Mb Mc Md La Lb Lc Ld Fs Rs Ft Rt He.
  destruct (along_err a b s M Ma Mb La Lb Fs Rs He) as (B1 & E1 & C1). destruct (along_err c d t M Mc Md Lc Ld Ft Rt He) as (B2 & E2 & C2).
  set (x := fadd a _) in *. set (y := fadd c _) in *. set (p := R_of a + _) in *. set (q := R_of c + _) in *.
  destruct (bf_sub 472 x y ltac:(lia) B1 B2) as (B & E). split; [apply (bf_up (472 + 1)); [lia|exact B]|].
  pose proof (RN_sub_err (R_of x) (R_of y) (format_R x) (format_R y)) as Q. rewrite <- E in Q. pose proof u53_pos as U. pose proof u53_small as U1.
  assert (0 <= M) as M0 by (pose proof (Rabs_pos (R_of a)); lra). assert (0 <= u53 * M) as UM by (apply Rmult_le_pos; lra).
  assert (u53 * (u53 * M) <= / 1024 * (u53 * M)) as UU by (apply Rmult_le_compat_r; lra).
  set (g := fsub x y) in *. apply Rabs_le_inv in E1, E2, C1, C2.
  assert (Rabs (R_of x - R_of y) <= 2 * M + 11 * (u53 * M)) as D by (apply Rabs_le; lra).
  assert (u53 * Rabs (R_of x - R_of y) <= u53 * (2 * M + 11 * (u53 * M))) as K by (apply Rmult_le_compat_l; lra).
  apply Rabs_le_inv in Q. apply Rabs_le. lra.
Qed.

Definition below3 (M : R) (c : Coordinate) : Prop := Rabs (R_of (cx c)) <= M /\ Rabs (R_of (cy c)) <= M /\ Rabs (R_of (cz c)) <= M.
Lemma apart_M c d M : mid3 c -> mid3 d -> rpt3 c <> rpt3 d -> below3 M c -> below3 M d ->
  bp (-440) <= dist3 (rpt3 d) (rpt3 c) /\ bp (-442) <= M.
Proof.
  intros Mc Md Ne (C1 & C2 & C3) (D1 & D2 & D3).
  assert (bp (-440) <= dist3 (rpt3 d) (rpt3 c)) as L1.
  { rewrite dist3_nrm. destruct Mc as (Ax & Ay & Az), Md as (Bx & By & Bz).
    destruct (mid_diff _ _ Bx Ax) as (_ & _ & Z1). destruct (mid_diff _ _ By Ay) as (_ & _ & Z2). destruct (mid_diff _ _ Bz Az) as (_ & _ & Z3).
    destruct (nrm3_low _ _ _ _ Z1 Z2 Z3) as [(X & Y & Z)|K]; [|exact K]. exfalso. apply Ne. unfold rpt3. f_equal; lra. }
  split; [exact L1|]. pose proof (box_dist (rpt3 d) (rpt3 c) M D1 D2 D3 C1 C2 C3).
  assert (bp (-440) = 4 * bp (-442)) as E by (change (-440)%Z with (-442 + 1 + 1)%Z; rewrite !bp_S; ring). pose proof (bpow_gt_0 radix2 (-442)). lra.
Qed.
(** Scalar products of differences of ordinates up to 2^250. *)
Lemma dot4_f hypot a b c d M : M <= bp 250 -> mid3 a -> mid3 b -> mid3 c -> mid3 d -> below3 M a -> below3 M b -> below3 M c -> below3 M d ->
  bf 504 (g_dot_4 f64 (NF hypot) (pf3 a) (pf3 b) (pf3 c) (pf3 d)).
Proof.
  intros HM Ma Mb Mc Md (A1 & A2 & A3) (B1 & B2 & B3) (C1 & C2 & C3) (D1 & D2 & D3).
  destruct Ma as (Ax & Ay & Az), Mb as (Bx & By & Bz), Mc as (Cx & Cy & Cz), Md as (Dx & Dy & Dz).
  assert (forall x, mid x -> Rabs (R_of x) <= M -> bf 250 x) as K by (intros x (F & _) H; split; [exact F|lra]).
  assert (forall x y, mid x -> mid y -> Rabs (R_of x) <= M -> Rabs (R_of y) <= M -> bf 251 (fsub x y)) as S by (intros; apply (bf_sub 250); auto; lia).
  unfold g_dot_4. cbn [NF nadd nmul nsub pf3 qx qy qz].
  apply (bf_add 503); [lia| |].
  - apply (bf_add 502); [lia| |]; apply (bf_mul 251 251); auto; lia.
  - apply (bf_up 502); [lia|]. apply (bf_mul 251 251); auto; lia.
Qed.
Lemma cc_pos hypot c d M : mid3 c -> mid3 d -> rpt3 c <> rpt3 d -> below3 M c -> below3 M d -> 0 < R_of (g_dot_4 f64 (NF hypot) (pf3 c) (pf3 d) (pf3 c) (pf3 d)).
Proof.
  intros Mc Md Ne Lc Ld. destruct (apart_M c d M Mc Md Ne Lc Ld) as (L1 & _).
  destruct Mc as (Ax & Ay & Az), Md as (Bx & By & Bz).
  destruct (mid_diff _ _ Bx Ax) as (B1 & R1 & _). destruct (mid_diff _ _ By Ay) as (B2 & R2 & _). destruct (mid_diff _ _ Bz Az) as (B3 & R3 & _).
  destruct (dot3_err _ _ _ _ _ _ _ _ _ _ _ _ B1 B2 B3 B1 B2 B3 R1 R2 R3 R1 R2 R3) as (_ & El).
  rewrite dist3_nrm in L1. cbn [rpt3 qx qy qz] in L1. rewrite <- nrm3_sq in El. set (L := nrm3 _ _ _) in *.
  change (g_dot_4 f64 (NF hypot) (pf3 c) (pf3 d) (pf3 c) (pf3 d)) with
    (dot3f (fsub (cx d) (cx c)) (fsub (cy d) (cy c)) (fsub (cz d) (cz c)) (fsub (cx d) (cx c)) (fsub (cy d) (cy c)) (fsub (cz d) (cz c))).
  set (l := dot3f _ _ _ _ _ _) in *. pose proof u53_pos as U. pose proof u53_small as U1.
  assert (4 * eta <= u53 * (L * L)) as T.
  { apply Rle_trans with (u53 * (bp (-440) * bp (-440))).
    + unfold eta. replace (4 * bp (-1075)) with (bp (-1073)) by (change (-1073)%Z with (-1075 + 1 + 1)%Z; rewrite !bp_S; ring).
      rewrite <- !bpow_plus. apply bpow_le. lia.
    + pose proof (bpow_gt_0 radix2 (-440)). apply Rmult_le_compat_l; [lra|]. apply Rmult_le_compat; lra. }
  assert (0 < L * L) as L0 by (pose proof (bpow_gt_0 radix2 (-440)); apply Rmult_lt_0_compat; lra).
  assert (u53 * (L * L) <= / 1024 * (L * L)) by (apply Rmult_le_compat_r; lra). apply Rabs_le_inv in El. lra.
Qed.

(** ** The choice of an end or of two inner points *)
(** A real number on the same side of 0 and 1 as a double, and equal to it between. *)
Definition stands (s : f64) (x : R) : Prop :=
  (fltb s f0 = true /\ x = -1) \/ (fltb s f0 = false /\ fltb f1 s = true /\ x = 2) \/
  (fltb s f0 = false /\ fltb f1 s = false /\ fis_finite s = true /\ x = R_of s /\ 0 <= x <= 1).
Lemma stands_ex s : fis_nan s = false -> exists x, stands s x.
Proof.
  intros N. destruct (fltb s f0) eqn:A; [exists (-1); left; auto|]. destruct (fltb f1 s) eqn:B; [exists 2; right; left; auto|].
  destruct (unit_range s N A B) as (F & I). exists (R_of s). right. right. auto.
Qed.
Definition choose hypot (a b c d : Coordinate) (s t : f64) : f64 :=
  if fltb s f0 then p2s_3d hypot a c d else if fltb f1 s then p2s_3d hypot b c d
  else if fltb t f0 then p2s_3d hypot c a b else if fltb f1 t then p2s_3d hypot d a b
  else g_distance3 f64 (NF hypot)
    (mkP3 (fadd (cx a) (fmul s (fsub (cx b) (cx a)))) (fadd (cy a) (fmul s (fsub (cy b) (cy a)))) (fadd (cz a) (fmul s (fsub (cz b) (cz a)))))
    (mkP3 (fadd (cx c) (fmul t (fsub (cx d) (cx c)))) (fadd (cy c) (fmul t (fsub (cy d) (cy c)))) (fadd (cz c) (fmul t (fsub (cz d) (cz c))))).
Lemma choose_err hypot a b c d M s t x y : mid3 a -> mid3 b -> mid3 c -> mid3 d -> below3 M a -> below3 M b -> below3 M c -> below3 M d -> bp (-442) <= M ->
  stands s x -> stands t y ->
  fis_finite (choose hypot a b c d s t) = true /\ Rabs (R_of (choose hypot a b c d s t) - by_params (rpt3 a) (rpt3 b) (rpt3 c) (rpt3 d) x y) <= bp (-46) * M.
Proof.
  intros Ma Mb Mc Md La Lb Lc Ld M1 Sx Sy.
  assert (forall p u v, mid3 p -> mid3 u -> mid3 v -> below3 M p -> below3 M u -> below3 M v ->
    fis_finite (p2s_3d hypot p u v) = true /\ Rabs (R_of (p2s_3d hypot p u v) - p2sR (rpt3 p) (rpt3 u) (rpt3 v)) <= bp (-46) * M) as PT.
  { intros p u v Mp Mu Mv Lp Lu Lv. apply (C74_point_segment_error hypot p u v _ M Mp Mu Mv); [|apply C74_point_segment_exact].
    intros z [<-|[<-|[<-|[]]]]; assumption. }
  unfold choose, by_params.
  destruct Sx as [(S0 & ->)|[(S0 & S1 & ->)|(S0 & S1 & Fs & -> & Rs)]].
  { rewrite S0, (Rlt_bool_true (-1) 0) by lra. now apply PT. }
  { rewrite S0, S1, (Rlt_bool_false 2 0), (Rlt_bool_true 1 2) by lra. now apply PT. }
  rewrite S0, S1, (Rlt_bool_false (R_of s) 0), (Rlt_bool_false 1 (R_of s)) by lra.
  destruct Sy as [(T0 & ->)|[(T0 & T1 & ->)|(T0 & T1 & Ft & -> & Rt)]].
  { rewrite T0, (Rlt_bool_true (-1) 0) by lra. now apply PT. }
  { rewrite T0, T1, (Rlt_bool_false 2 0), (Rlt_bool_true 1 2) by lra. now apply PT. }
  rewrite T0, T1, (Rlt_bool_false (R_of t) 0), (Rlt_bool_false 1 (R_of t)) by lra. clear PT.
  pose proof u53_pos as U. pose proof u53_small as U1.
  assert (bp (-505) <= / 1024 * (u53 * M)) as K.
  { apply Rle_trans with (/ 1024 * (u53 * bp (-442))); [|apply Rmult_le_compat_l; [lra|]; apply Rmult_le_compat_l; lra].
    change (/ 1024) with (bp (-10)). rewrite <- !bpow_plus. apply bpow_le. lia. }
  assert (eta <= / 1024 * (u53 * M)) as TM by (eapply Rle_trans; [|exact K]; apply bpow_le; lia).
  assert (bp (-535) <= / 1024 * (u53 * M)) as TM2 by (eapply Rle_trans; [|exact K]; apply bpow_le; lia).
  destruct Ma as (Ax & Ay & Az), Mb as (Bx & By & Bz), Mc as (Cx & Cy & Cz), Md as (Dx & Dy & Dz).
  destruct La as (A1 & A2 & A3), Lb as (B1 & B2 & B3), Lc as (C1 & C2 & C3), Ld as (D1 & D2 & D3).
  destruct (gap_err _ _ _ _ s t M Ax Bx Cx Dx A1 B1 C1 D1 Fs Rs Ft Rt TM) as (G1 & H1).
  destruct (gap_err _ _ _ _ s t M Ay By Cy Dy A2 B2 C2 D2 Fs Rs Ft Rt TM) as (G2 & H2).
  destruct (gap_err _ _ _ _ s t M Az Bz Cz Dz A3 B3 C3 D3 Fs Rs Ft Rt TM) as (G3 & H3).
  destruct (along_err _ _ s M Az Bz A3 B3 Fs Rs TM) as ((Fz1 & _) & _). destruct (along_err _ _ t M Cz Dz C3 D3 Ft Rt TM) as ((Fz2 & _) & _).
  unfold g_distance3. cbn [NF nisnan qx qy qz]. rewrite (fin_nn _ Fz1), (fin_nn _ Fz2). cbn [orb].
  unfold g_distance_3d. change (g_sqrt_sum f64 (NF hypot)) with root3. cbn [NF nsub qx qy qz].
  set (x := fsub (fadd (cx a) _) _) in *. set (y := fsub (fadd (cy a) _) _) in *. set (z := fsub (fadd (cz a) _) _) in *.
  destruct (root3_err x y z G1 G2 G3) as (F & _ & E). split; [exact F|].
  pose proof (nrm3_near _ _ _ _ _ _ _ H1 H2 H3) as NN.
  match type of NN with Rabs (_ - ?w) <= _ => change w with (dist3 (along3 (rpt3 a) (rpt3 b) (R_of s)) (along3 (rpt3 c) (rpt3 d) (R_of t))) in NN end.
  assert (dist3 (along3 (rpt3 a) (rpt3 b) (R_of s)) (along3 (rpt3 c) (rpt3 d) (R_of t)) <= 7 / 2 * M) as DB.
  { apply box_dist; cbn [along3 rpt3 qx qy qz]; [apply (along_err _ _ s M Ax Bx)|apply (along_err _ _ s M Ay By)|apply (along_err _ _ s M Az Bz)|apply (along_err _ _ t M Cx Dx)|apply (along_err _ _ t M Cy Dy)|apply (along_err _ _ t M Cz Dz)]; assumption. }
  set (h := dist3 (along3 _ _ _) _) in *. set (h' := nrm3 (R_of x) (R_of y) (R_of z)) in *.
  assert (0 <= M) as M0 by (pose proof (bpow_gt_0 radix2 (-442)); lra). assert (0 <= u53 * M) as UM by (apply Rmult_le_pos; lra).
  apply Rabs_le_inv in NN, E.
  assert (u53 * (u53 * M) <= / 1024 * (u53 * M)) as UU by (apply Rmult_le_compat_r; lra).
  assert (u53 * h' <= u53 * (7 / 2 * M + 25 * (u53 * M))) as UH by (apply Rmult_le_compat_l; lra).
  assert (bp (-46) = 128 * u53) as -> by (change (-46)%Z with (-53 + 1 + 1 + 1 + 1 + 1 + 1 + 1)%Z; rewrite !bp_S; ring).
  apply Rabs_le. lra.
Qed.

(** ** Two segments *)
(** For ordinates zero or from 2^-388 to 2^250 and a second segment that is not
    one point, the distance computed is that of two points of the segments up to
    2^-46 of the largest ordinate; so it is never below the least distance by
    more.  When A = B or C = B it is the least distance up to that error. *)
Theorem C74_segments_error : forall hypot a b c d M, mid3 a -> mid3 b -> mid3 c -> mid3 d -> M <= bp 250 ->
  below3 M a -> below3 M b -> below3 M c -> below3 M d -> rpt3 c <> rpt3 d ->
  fis_finite (s2s_3d hypot a b c d) = true /\
  (exists p q, on_segment3 (rpt3 a) (rpt3 b) p /\ on_segment3 (rpt3 c) (rpt3 d) q /\ Rabs (R_of (s2s_3d hypot a b c d) - dist3 p q) <= bp (-46) * M) /\
  (forall D, least_distance3 (on_segment3 (rpt3 a) (rpt3 b)) (on_segment3 (rpt3 c) (rpt3 d)) D ->
     D - bp (-46) * M <= R_of (s2s_3d hypot a b c d) /\
     (rpt3 a = rpt3 b \/ rpt3 c = rpt3 b -> Rabs (R_of (s2s_3d hypot a b c d) - D) <= bp (-46) * M)).
Proof.
  intros hypot a b c d M Ma Mb Mc Md HM La Lb Lc Ld Ne.
  assert (forall (P : Prop) r, fis_finite r = true ->
    (exists p q, on_segment3 (rpt3 a) (rpt3 b) p /\ on_segment3 (rpt3 c) (rpt3 d) q /\ Rabs (R_of r - dist3 p q) <= bp (-46) * M) ->
    (P -> forall D, least_distance3 (on_segment3 (rpt3 a) (rpt3 b)) (on_segment3 (rpt3 c) (rpt3 d)) D -> Rabs (R_of r - D) <= bp (-46) * M) ->
    fis_finite r = true /\
    (exists p q, on_segment3 (rpt3 a) (rpt3 b) p /\ on_segment3 (rpt3 c) (rpt3 d) q /\ Rabs (R_of r - dist3 p q) <= bp (-46) * M) /\
    (forall D, least_distance3 (on_segment3 (rpt3 a) (rpt3 b)) (on_segment3 (rpt3 c) (rpt3 d)) D ->
     D - bp (-46) * M <= R_of r /\ (P -> Rabs (R_of r - D) <= bp (-46) * M))) as SHELL.
  { intros P r F X K. split; [exact F|]. split; [exact X|]. intros D HD. split; [|auto].
    destruct X as (p & q & Hp & Hq & E). pose proof (proj2 HD p q Hp Hq). apply Rabs_le_inv in E. lra. }
  assert (forall p u v, mid3 p -> mid3 u -> mid3 v -> below3 M p -> below3 M u -> below3 M v ->
    fis_finite (p2s_3d hypot p u v) = true /\ Rabs (R_of (p2s_3d hypot p u v) - p2sR (rpt3 p) (rpt3 u) (rpt3 v)) <= bp (-46) * M) as PT.
  { intros p u v Mp Mu Mv Lp Lu Lv. apply (C74_point_segment_error hypot p u v _ M Mp Mu Mv); [|apply C74_point_segment_exact].
    intros x [<-|[<-|[<-|[]]]]; assumption. }
  assert (forall p u v, exists q, on_segment3 u v q /\ p2sR p u v = dist3 p q) as AT.
  { intros p u v. destruct (C74_point_segment_exact p u v) as ((p' & q & <- & Hq & E) & _). exists q. auto. }
  assert (forall p u v q, p2sR p u v = dist3 p q -> dist3 p q = dist3 q p) as SY.
  { intros p u v q _. unfold dist3. f_equal. unfold Rsqr. ring. }
  assert (forall p, mid3 p -> below3 M p -> on_segment3 (rpt3 a) (rpt3 b) (rpt3 p) ->
     fis_finite (p2s_3d hypot p c d) = true /\ exists p' q, on_segment3 (rpt3 a) (rpt3 b) p' /\ on_segment3 (rpt3 c) (rpt3 d) q /\ Rabs (R_of (p2s_3d hypot p c d) - dist3 p' q) <= bp (-46) * M) as FROM1.
  { intros p Mp Lp On. destruct (PT p c d Mp Mc Md Lp Lc Ld) as (F & E). split; [exact F|]. destruct (AT (rpt3 p) (rpt3 c) (rpt3 d)) as (q & Hq & K).
    exists (rpt3 p), q. split; [exact On|]. split; [exact Hq|]. now rewrite <- K. }
  assert (forall p, mid3 p -> below3 M p -> on_segment3 (rpt3 c) (rpt3 d) (rpt3 p) ->
     fis_finite (p2s_3d hypot p a b) = true /\ exists p' q, on_segment3 (rpt3 a) (rpt3 b) p' /\ on_segment3 (rpt3 c) (rpt3 d) q /\ Rabs (R_of (p2s_3d hypot p a b) - dist3 p' q) <= bp (-46) * M) as FROM2.
  { intros p Mp Lp On. destruct (PT p a b Mp Ma Mb Lp La Lb) as (F & E). split; [exact F|]. destruct (AT (rpt3 p) (rpt3 a) (rpt3 b)) as (q & Hq & K).
    exists q, (rpt3 p). split; [exact Hq|]. split; [exact On|]. rewrite <- (SY _ _ _ _ K). now rewrite <- K. }
  assert (forall u v, on_segment3 u v u) as ON0 by (intros u v; exists 0; split; [lra|]; now rewrite along3_0).
  assert (forall u v, on_segment3 u v v) as ON1 by (intros u v; exists 1; split; [lra|]; now rewrite along3_1).
  unfold s2s_3d, g_s2s_3d. rewrite (equals_mid hypot a b Ma Mb).
  change (g_p2s_3d f64 (NF hypot) fnan (pf3 a) (pf3 c) (pf3 d)) with (p2s_3d hypot a c d).
  change (g_p2s_3d f64 (NF hypot) fnan (pf3 b) (pf3 c) (pf3 d)) with (p2s_3d hypot b c d).
  change (g_p2s_3d f64 (NF hypot) fnan (pf3 c) (pf3 a) (pf3 b)) with (p2s_3d hypot c a b).
  change (g_p2s_3d f64 (NF hypot) fnan (pf3 d) (pf3 a) (pf3 b)) with (p2s_3d hypot d a b).
  destruct (g_equals_3d R NR (rpt3 a) (rpt3 b)) eqn:E1.
  { apply equals_R in E1. destruct (FROM1 a Ma La (ON0 _ _)) as (F & X). apply SHELL; [exact F|exact X|]. intros _ D ((p0 & q0 & (t & T & ->) & Hq & <-) & HD).
    destruct (PT a c d Ma Mc Md La Lc Ld) as (_ & E). rewrite <- E1, along3_same in *.
    replace (dist3 (rpt3 a) q0) with (p2sR (rpt3 a) (rpt3 c) (rpt3 d)); [exact E|].
    destruct (C74_point_segment_exact (rpt3 a) (rpt3 c) (rpt3 d)) as ((p' & q & <- & Hq' & K) & L). apply Rle_antisym; [now apply L|]. rewrite <- K. apply HD; [apply ON0|exact Hq']. }
  rewrite (equals_mid hypot c b Mc Mb). destruct (g_equals_3d R NR (rpt3 c) (rpt3 b)) eqn:E2.
  { apply equals_R in E2. destruct (FROM2 c Mc Lc (ON0 _ _)) as (F & X). apply SHELL; [exact F|exact X|]. intros _ D HD.
    destruct (PT c a b Mc Ma Mb Lc La Lb) as (_ & E). replace D with (p2sR (rpt3 c) (rpt3 a) (rpt3 b)); [exact E|].
    assert (dist3 (rpt3 b) (rpt3 b) = 0) as Z by (unfold dist3; rewrite !Rminus_eq_0, Rsqr_0, !Rplus_0_r; apply sqrt_0).
    destruct (C74_point_segment_exact (rpt3 c) (rpt3 a) (rpt3 b)) as ((p' & q & <- & Hq' & K) & L).
    pose proof (L (rpt3 c) (rpt3 b) eq_refl (ON1 _ _)) as L1. rewrite E2, Z in L1.
    pose proof (proj2 HD (rpt3 b) (rpt3 b) (ON1 _ _)) as L2. rewrite <- E2 in L2 at 1. specialize (L2 (ON0 _ _)). rewrite Z in L2.
    destruct HD as ((p1 & q1 & _ & _ & K1) & _). assert (0 <= D) by (rewrite <- K1; apply sqrt_pos).
    assert (0 <= p2sR (rpt3 c) (rpt3 a) (rpt3 b)) by (rewrite <- K; apply sqrt_pos). rewrite E2 in *. lra. }
  assert (forall r, fis_finite r = true /\ (exists p q, on_segment3 (rpt3 a) (rpt3 b) p /\ on_segment3 (rpt3 c) (rpt3 d) q /\ Rabs (R_of r - dist3 p q) <= bp (-46) * M) ->
    fis_finite r = true /\
    (exists p q, on_segment3 (rpt3 a) (rpt3 b) p /\ on_segment3 (rpt3 c) (rpt3 d) q /\ Rabs (R_of r - dist3 p q) <= bp (-46) * M) /\
    (forall D, least_distance3 (on_segment3 (rpt3 a) (rpt3 b)) (on_segment3 (rpt3 c) (rpt3 d)) D ->
     D - bp (-46) * M <= R_of r /\ (rpt3 a = rpt3 b \/ rpt3 c = rpt3 b -> Rabs (R_of r - D) <= bp (-46) * M))) as GEN.
  { intros r (F & X). apply SHELL; [exact F|exact X|]. intros [E|E]; exfalso; apply equals_R in E; congruence. }
  apply GEN. clear GEN SHELL PT AT SY. cbv zeta. cbn [NF nadd nmul nsub ndiv nle nlt nofZ nisnan]. change (fofZ 0) with f0. change (fofZ 1) with f1.
  pose proof (dot4_f hypot a b a b M HM Ma Mb Ma Mb La Lb La Lb) as Baa. pose proof (dot4_f hypot a b c d M HM Ma Mb Mc Md La Lb Lc Ld) as Bbb.
  pose proof (dot4_f hypot c d c d M HM Mc Md Mc Md Lc Ld Lc Ld) as Bcc. pose proof (dot4_f hypot a b c a M HM Ma Mb Mc Ma La Lb Lc La) as Bdd.
  pose proof (dot4_f hypot c d c a M HM Mc Md Mc Ma Lc Ld Lc La) as Bee. pose proof (cc_pos hypot c d M Mc Md Ne Lc Ld) as Pcc.
  set (aa := g_dot_4 f64 (NF hypot) (pf3 a) (pf3 b) (pf3 a) (pf3 b)) in *. set (bb := g_dot_4 f64 (NF hypot) (pf3 a) (pf3 b) (pf3 c) (pf3 d)) in *.
  set (cc := g_dot_4 f64 (NF hypot) (pf3 c) (pf3 d) (pf3 c) (pf3 d)) in *. set (dd := g_dot_4 f64 (NF hypot) (pf3 a) (pf3 b) (pf3 c) (pf3 a)) in *.
  set (ee := g_dot_4 f64 (NF hypot) (pf3 c) (pf3 d) (pf3 c) (pf3 a)) in *.
  assert (forall u v w x, bf 504 u -> bf 504 v -> bf 504 w -> bf 504 x -> fis_finite (fsub (fmul u v) (fmul w x)) = true) as DET.
  { intros u v w x U V W X. apply (bf_sub 1008); [lia| |]; apply (bf_mul 504 504); auto; lia. }
  pose proof (DET aa cc bb bb Baa Bcc Bbb Bbb) as Fden. set (den := fsub (fmul aa cc) (fmul bb bb)) in *. rewrite (fin_nn _ Fden).
  set (st := if fleb den f0 then _ else _).
  assert (fis_nan (fst st) = false /\ fis_nan (snd st) = false) as (Ns & Nt).
  { unfold st. rewrite (fleb_R den f0 Fden eq_refl). change (R_of f0) with 0. destruct (Rle_bool_spec (R_of den) 0) as [Z|Z]; cbn [fst snd].
    - split; [reflexivity|]. rewrite (fltb_R cc bb (proj1 Bcc) (proj1 Bbb)). destruct (Rlt_bool_spec (R_of cc) (R_of bb)).
      + apply fdiv_nn; [exact (proj1 Bdd)|lra].
      + apply fdiv_nn; [exact (proj1 Bee)|lra].
    - split; apply fdiv_nn; try lra; now apply DET. }
  destruct st as (s, t). cbn [fst snd] in Ns, Nt. destruct (stands_ex s Ns) as (x & Sx). destruct (stands_ex t Nt) as (y & Sy).
  destruct (apart_M c d M Mc Md Ne Lc Ld) as (_ & M1). destruct (choose_err hypot a b c d M s t x y Ma Mb Mc Md La Lb Lc Ld M1 Sx Sy) as (F & E).
  destruct (by_params_attained (rpt3 a) (rpt3 b) (rpt3 c) (rpt3 d) x y) as (p & q & Hp & Hq & K). rewrite K in E.
  split; [exact F|]. exists p, q. split; [exact Hp|]. split; [exact Hq|exact E].
Qed.

(** ** Lines at a clear angle *)
(** Positions held up to a distance [e] along a segment of length [L]. *)
Definition held (e L s x : R) : Prop := (x < 0 -> s * L <= e) /\ (1 < x -> (1 - s) * L <= e) /\ (0 <= x <= 1 -> Rabs (x - s) * L <= e).
Lemma f2_dist a b c d s t : sqrt (f2sq a b c d s t) = dist3 (along3 a b s) (along3 c d t).
Proof. reflexivity. Qed.
Lemma shift_dist a b c d s t s' t' : dist3 (along3 a b s') (along3 c d t') <= dist3 (along3 a b s) (along3 c d t) + Rabs (s' - s) * dist3 b a + Rabs (t' - t) * dist3 d c.
Proof.
  pose proof (dist3_triang (along3 a b s') (along3 a b s) (along3 c d t')) as T1. rewrite along3_dist in T1.
  pose proof (dist3_triang (along3 a b s) (along3 c d t) (along3 c d t')) as T2. rewrite along3_dist, (Rabs_minus_sym t t') in T2. lra.
Qed.
Lemma near_params a b c d s t x y e D : critical a b c d s t -> held e (dist3 b a) s x -> held e (dist3 d c) t y -> 0 <= e ->
  0 <= t <= 1 \/ (e < s * dist3 b a /\ e < (1 - s) * dist3 b a) ->
  least_distance3 (on_segment3 a b) (on_segment3 c d) D -> by_params a b c d x y <= D + 2 * e.
Proof.
  intros K (X0 & X1 & X2) (Y0 & Y1 & Y2) E0 H LD.
  assert (dist3 (along3 a b s) (along3 c d t) <= D) as GM.
  { destruct LD as ((p & q & (u & _ & ->) & (v & _ & ->) & <-) & _). apply sqrt_le_1_alt. now apply critical_least. }
  assert (forall r, least_distance3 (on_segment3 a b) (on_segment3 c d) r -> r <= D + 2 * e) as SAME.
  { intros r ((p & q & Hp & Hq & <-) & L). destruct LD as ((p' & q' & Hp' & Hq' & <-) & L'). pose proof (L p' q' Hp' Hq'). lra. }
  assert (forall p u v w, 0 <= w <= 1 -> p2sR p u v <= dist3 p (along3 u v w)) as P by (intros p u v w W; apply (proj2 (C74_point_segment_exact p u v)); [reflexivity|exists w; auto]).
  assert (0 <= dist3 b a /\ 0 <= dist3 d c) as (LA & LC) by (split; apply sqrt_pos).
  unfold by_params. destruct (Rlt_bool_spec x 0) as [S0|S0].
  { specialize (X0 S0). destruct H as [H|(H & _)]; [|lra]. destruct (Rlt_or_le s 0) as [N|N]; [apply SAME; now apply (edge_least a b c d s t)|].
    eapply Rle_trans; [apply (P a c d t H)|]. rewrite <- (along3_0 a b) at 1. pose proof (shift_dist a b c d s t 0 t) as T.
    rewrite Rminus_eq_0, Rabs_R0, Rmult_0_l in T. replace (Rabs (0 - s)) with s in T by (rewrite Rabs_minus_sym, Rminus_0_r, Rabs_pos_eq; lra). lra. }
  destruct (Rlt_bool_spec 1 x) as [S1|S1].
  { specialize (X1 S1). destruct H as [H|(_ & H)]; [|lra]. destruct (Rlt_or_le 1 s) as [N|N].
    - apply SAME. apply least_flip. apply (edge_least b a c d (1 - s) t); [now apply critical_flip|lra|lra].
    - eapply Rle_trans; [apply (P b c d t H)|]. rewrite <- (along3_1 a b) at 1. pose proof (shift_dist a b c d s t 1 t) as T.
      rewrite Rminus_eq_0, Rabs_R0, Rmult_0_l in T. rewrite (Rabs_pos_eq (1 - s)) in T by lra. lra. }
  specialize (X2 (conj S0 S1)). destruct (Rlt_bool_spec y 0) as [T0|T0].
  { specialize (Y0 T0). destruct (Rlt_or_le t 0) as [N|N].
    - apply SAME. apply least_swap. apply (edge_least c d a b t s); [now apply critical_swap|lra|]. destruct H as [H|(H1 & H2)]; [lra|]. clear - H1 H2 LA E0. split; nra.
    - eapply Rle_trans; [apply (P c a b x (conj S0 S1))|]. rewrite dist3_sym. rewrite <- (along3_0 c d) at 1. pose proof (shift_dist a b c d s t x 0) as T.
      replace (Rabs (0 - t)) with t in T by (rewrite Rabs_minus_sym, Rminus_0_r, Rabs_pos_eq; lra). lra. }
  destruct (Rlt_bool_spec 1 y) as [T1|T1].
  { specialize (Y1 T1). destruct (Rlt_or_le 1 t) as [N|N].
    - apply SAME. apply least_swap. apply least_flip. apply (edge_least d c a b (1 - t) s); [now apply critical_flip, critical_swap|lra|].
      destruct H as [H|(H1 & H2)]; [lra|]. clear - H1 H2 LA E0. split; nra.
    - eapply Rle_trans; [apply (P d a b x (conj S0 S1))|]. rewrite dist3_sym. rewrite <- (along3_1 c d) at 1. pose proof (shift_dist a b c d s t x 1) as T.
      rewrite (Rabs_pos_eq (1 - t)) in T by lra. lra. }
  specialize (Y2 (conj T0 T1)). pose proof (shift_dist a b c d s t x y). lra.
Qed.

(** *** Rounding in the parameters *)
Lemma prod_err u v u' v' X Y P : bf 504 u' -> bf 504 v' -> Rabs u <= X -> Rabs v <= Y -> X * Y = P ->
  Rabs (R_of u' - u) <= 8 * u53 * X -> Rabs (R_of v' - v) <= 8 * u53 * Y -> eta <= / 1024 * (u53 * P) ->
  bf 1008 (fmul u' v') /\ Rabs (R_of (fmul u' v') - u * v) <= 172 / 10 * (u53 * P).
Proof.
  intros Bu Bv Lu Lv EP Eu Ev He. destruct (bf_mul 504 504 u' v' ltac:(lia) Bu Bv) as (B & E). split; [exact B|]. rewrite E.
  pose proof (RN_err (R_of u' * R_of v')) as R. fold eta in R. pose proof u53_pos as U. pose proof u53_small as U1.
  pose proof (Rabs_pos u) as u0. pose proof (Rabs_pos v) as v0.
  assert (0 <= P) as P0 by (rewrite <- EP; apply Rmult_le_pos; lra). assert (0 <= u53 * P) as UP by (apply Rmult_le_pos; lra).
  assert (u53 * (u53 * P) <= / 1024 * (u53 * P)) as UU by (apply Rmult_le_compat_r; lra).
  set (p := R_of u' * R_of v') in *.
  assert (Rabs (p - u * v) <= 16 * (u53 * P) + 64 * (u53 * (u53 * P))) as D.
  { replace (p - u * v) with ((R_of u' - u) * (R_of v' - v) + ((R_of u' - u) * v + u * (R_of v' - v))) by (unfold p; ring).
    eapply Rle_trans; [apply Rabs_triang|]. assert (forall q r x y, Rabs q <= x -> Rabs r <= y -> Rabs (q * r) <= x * y) as M.
    { intros. rewrite Rabs_mult. apply Rmult_le_compat; auto using Rabs_pos. }
    pose proof (M _ _ _ _ Eu Ev) as M1. pose proof (M _ _ _ _ Eu Lv) as M2. pose proof (M _ _ _ _ Lu Ev) as M3.
    pose proof (Rabs_triang ((R_of u' - u) * v) (u * (R_of v' - v))) as T.
    replace (8 * u53 * X * (8 * u53 * Y)) with (64 * (u53 * (u53 * P))) in M1 by (rewrite <- EP; ring).
    replace (8 * u53 * X * Y) with (8 * (u53 * P)) in M2 by (rewrite <- EP; ring). replace (X * (8 * u53 * Y)) with (8 * (u53 * P)) in M3 by (rewrite <- EP; ring). lra. }
  assert (Rabs (u * v) <= P) as UV by (rewrite Rabs_mult, <- EP; apply Rmult_le_compat; assumption).
  assert (Rabs p <= P + 17 * (u53 * P)) as PB.
  { replace p with (u * v + (p - u * v)) by ring. eapply Rle_trans; [apply Rabs_triang|]. lra. }
  assert (u53 * Rabs p <= u53 * (P + 17 * (u53 * P))) as UPB by (apply Rmult_le_compat_l; lra).
  replace (RN p - u * v) with ((RN p - p) + (p - u * v)) by ring. eapply Rle_trans; [apply Rabs_triang|]. lra.
Qed.
Lemma det_err u v w z u' v' w' z' XU XV XW XZ P : bf 504 u' -> bf 504 v' -> bf 504 w' -> bf 504 z' ->
  Rabs u <= XU -> Rabs v <= XV -> Rabs w <= XW -> Rabs z <= XZ -> XU * XV = P -> XW * XZ = P ->
  Rabs (R_of u' - u) <= 8 * u53 * XU -> Rabs (R_of v' - v) <= 8 * u53 * XV -> Rabs (R_of w' - w) <= 8 * u53 * XW -> Rabs (R_of z' - z) <= 8 * u53 * XZ ->
  eta <= / 1024 * (u53 * P) ->
  fis_finite (fsub (fmul u' v') (fmul w' z')) = true /\ Rabs (R_of (fsub (fmul u' v') (fmul w' z')) - (u * v - w * z)) <= 37 * (u53 * P).
Proof.
  intros Bu Bv Bw Bz Lu Lv Lw Lz E1 E2 Du Dv Dw Dz He.
  destruct (prod_err u v u' v' XU XV P Bu Bv Lu Lv E1 Du Dv He) as (B1 & H1). destruct (prod_err w z w' z' XW XZ P Bw Bz Lw Lz E2 Dw Dz He) as (B2 & H2).
  set (m := fmul u' v') in *. set (n := fmul w' z') in *. destruct (bf_sub 1008 m n ltac:(lia) B1 B2) as ((F & _) & E). split; [exact F|].
  pose proof (RN_sub_err (R_of m) (R_of n) (format_R m) (format_R n)) as R. rewrite <- E in R. pose proof u53_pos as U. pose proof u53_small as U1.
  assert (Rabs (u * v) <= P) as UV by (rewrite Rabs_mult, <- E1; apply Rmult_le_compat; auto using Rabs_pos).
  assert (Rabs (w * z) <= P) as WZ by (rewrite Rabs_mult, <- E2; apply Rmult_le_compat; auto using Rabs_pos).
  assert (0 <= P) as P0 by (pose proof (Rabs_pos (u * v)); lra). assert (0 <= u53 * P) as UP by (apply Rmult_le_pos; lra).
  assert (u53 * (u53 * P) <= / 1024 * (u53 * P)) as UU by (apply Rmult_le_compat_r; lra).
  apply Rabs_le_inv in H1, H2, UV, WZ.
  assert (Rabs (R_of m - R_of n) <= 2 * P + 35 * (u53 * P)) as MN by (apply Rabs_le; lra).
  assert (u53 * Rabs (R_of m - R_of n) <= u53 * (2 * P + 35 * (u53 * P))) as K by (apply Rmult_le_compat_l; lra).
  apply Rabs_le_inv in R. apply Rabs_le. lra.
Qed.
(** A computed quotient stands for the exact one. *)
Lemma quot_held n g n' g' L P Q x e : fis_finite n' = true -> fis_finite g' = true -> 0 < g -> 0 <= L -> 0 <= P -> 0 <= Q ->
  Rabs (R_of n' - n) <= 37 * (u53 * P) -> Rabs (R_of g' - g) <= 37 * (u53 * Q) -> 37 * (u53 * Q) < g ->
  u53 * (37 * P + 38 * Q + 2 * g) * L <= e * g ->
  stands (fdiv n' g') x -> held e L (n / g) x.
Proof.
  intros Fn Fg G0 L0 P0 Q0 Hn Hg Hs He St. pose proof u53_pos as U. pose proof u53_small as U1.
  assert (0 <= u53 * P /\ 0 <= u53 * Q /\ 0 <= u53 * g) as (UP & UQ & UG) by (repeat split; apply Rmult_le_pos; lra).
  apply Rabs_le_inv in Hn, Hg. assert (0 < R_of g') as G' by lra.
  set (q := R_of n' / R_of g'). assert (q * R_of g' = R_of n') as Eq by (unfold q; field; lra). set (s := n / g). assert (s * g = n) as Es by (unfold s; field; lra).
  assert (fltb (fdiv n' g') f0 = true -> q < 0) as K0.
  { intros H. apply Rnot_le_lt. intros N. destruct (fdiv_sign n' g' Fn Fg ltac:(lra)) as [(F & E)|(sg & E & B & I)]; fold q in E || fold q in I.
    - rewrite (fltb_R _ f0 F eq_refl), E in H. change (R_of f0) with 0 in H. pose proof (RN_ge0 q N). rewrite Rlt_bool_false in H by lra. discriminate.
    - rewrite E in H. destruct sg; [|discriminate H]. pose proof (proj1 I eq_refl). fold q in H0. lra. }
  assert (fltb f1 (fdiv n' g') = true -> 1 < q) as K1.
  { intros H. apply Rnot_le_lt. intros N. destruct (fdiv_sign n' g' Fn Fg ltac:(lra)) as [(F & E)|(sg & E & B & I)]; fold q in E || fold q in I, B.
    - rewrite (fltb_R f1 _ eq_refl F), E, R_of_f1 in H. assert (RN q <= 1) by (apply Rle_trans with (RN 1); [now apply RN_le|]; rewrite RN_id by (rewrite <- R_of_f1; apply format_R); lra). rewrite Rlt_bool_false in H by lra. discriminate.
    - rewrite E in H. destruct sg; [discriminate H|]. change (bp 1) with 2 in B. assert (~ q < 0) as Z by (intros Z; apply I in Z; discriminate). rewrite Rabs_pos_eq in B by lra. lra. }
  assert (forall v, v * g <= u53 * (37 * P + 38 * Q + 2 * g) -> v * L <= e) as DIV.
  { intros v V. apply Rmult_le_reg_r with g; [exact G0|]. replace (v * L * g) with (v * g * L) by ring. eapply Rle_trans; [|exact He]. now apply Rmult_le_compat_r. }
  destruct St as [(A & ->)|[(A & B & ->)|(A & B & F & -> & I)]].
  - split; [|split; intros; lra]. intros _. specialize (K0 A). apply DIV. rewrite Es.
    assert (R_of n' < 0) by (rewrite <- Eq; clear - K0 G'; nra). lra.
  - split; [intros; lra|]. split; [|intros; lra]. intros _. specialize (K1 B). apply DIV. rewrite Rmult_minus_distr_r, Rmult_1_l, Es.
    assert (R_of g' < R_of n') by (rewrite <- Eq; clear - K1 G'; nra). lra.
  - split; [intros; lra|]. split; [intros; lra|]. intros _. apply DIV. rewrite <- (Rabs_pos_eq g) at 1 by lra. rewrite <- Rabs_mult.
    destruct (fdiv_sign n' g' Fn Fg ltac:(lra)) as [(_ & E)|(sg & E & _)]; [|rewrite E in F; discriminate F]. fold q in E. rewrite E in I |- *.
    pose proof (RN_err q) as R. fold eta in R.
    assert (eta <= / 1024 * u53) as He1 by (change (/ 1024) with (bp (-10)); unfold eta; rewrite <- bpow_plus; apply bpow_le; lia).
    pose proof (Rabs_pos q) as q0. assert (u53 * Rabs q <= / 1024 * Rabs q) as Uq by (apply Rmult_le_compat_r; lra).
    assert (Rabs q <= 101 / 100) as QB.
    { apply Rabs_le_inv in R. assert (Rabs q <= Rabs (RN q) + Rabs (q - RN q)) as T by (replace q with (RN q + (q - RN q)) at 1 by ring; apply Rabs_triang).
      rewrite (Rabs_pos_eq (RN q)) in T by lra. assert (Rabs (q - RN q) <= u53 * Rabs q + eta) by (apply Rabs_le; lra). lra. }
    assert (u53 * Rabs q <= u53 * (101 / 100)) as Uq2 by (apply Rmult_le_compat_l; lra).
    assert (Rabs (RN q - q) <= 11 / 10 * u53) as R2 by lra.
    replace ((RN q - s) * g) with ((RN q - q) * g + (q * (g - R_of g') + (R_of n' - n))) by (rewrite Rmult_minus_distr_r, <- Es, <- Eq; ring).
    eapply Rle_trans; [apply Rabs_triang|]. pose proof (Rabs_triang (q * (g - R_of g')) (R_of n' - n)) as T. rewrite !Rabs_mult in *.
    assert (Rabs (RN q - q) * Rabs g <= 11 / 10 * u53 * g) as T1 by (rewrite (Rabs_pos_eq g) by lra; apply Rmult_le_compat_r; lra).
    assert (Rabs q * Rabs (g - R_of g') <= 101 / 100 * (37 * (u53 * Q))) as T2 by (apply Rmult_le_compat; try apply Rabs_pos; [exact QB|apply Rabs_le; lra]).
    assert (Rabs (R_of n' - n) <= 37 * (u53 * P)) as T3 by (apply Rabs_le; lra). lra.
Qed.
Lemma dot4_err hypot a b c d S : mid3 a -> mid3 b -> mid3 c -> mid3 d -> dist3 (rpt3 b) (rpt3 a) * dist3 (rpt3 d) (rpt3 c) <= S -> 4 * eta <= u53 * S ->
  Rabs (R_of (g_dot_4 f64 (NF hypot) (pf3 a) (pf3 b) (pf3 c) (pf3 d)) - dot3 (rpt3 a) (rpt3 b) (rpt3 c) (rpt3 d)) <= 8 * u53 * S /\
  Rabs (dot3 (rpt3 a) (rpt3 b) (rpt3 c) (rpt3 d)) <= S.
Proof.
  intros (Ax & Ay & Az) (Bx & By & Bz) (Cx & Cy & Cz) (Dx & Dy & Dz) HS He.
  destruct (mid_diff _ _ Bx Ax) as (B1 & R1 & _). destruct (mid_diff _ _ By Ay) as (B2 & R2 & _). destruct (mid_diff _ _ Bz Az) as (B3 & R3 & _).
  destruct (mid_diff _ _ Dx Cx) as (B4 & R4 & _). destruct (mid_diff _ _ Dy Cy) as (B5 & R5 & _). destruct (mid_diff _ _ Dz Cz) as (B6 & R6 & _).
  destruct (dot3_err _ _ _ _ _ _ _ _ _ _ _ _ B1 B2 B3 B4 B5 B6 R1 R2 R3 R4 R5 R6) as (_ & E).
  match type of E with Rabs (_ - ?s) <= _ => change s with (dot3 (rpt3 a) (rpt3 b) (rpt3 c) (rpt3 d)) in E end.
  rewrite !dist3_nrm in HS. cbn [rpt3 qx qy qz] in HS. pose proof u53_pos as U. split.
  - change (g_dot_4 f64 (NF hypot) (pf3 a) (pf3 b) (pf3 c) (pf3 d)) with
      (dot3f (fsub (cx b) (cx a)) (fsub (cy b) (cy a)) (fsub (cz b) (cz a)) (fsub (cx d) (cx c)) (fsub (cy d) (cy c)) (fsub (cz d) (cz c))).
    eapply Rle_trans; [exact E|]. apply (Rmult_le_compat_l u53) in HS; lra.
  - eapply Rle_trans; [|exact HS]. eapply Rle_trans; [|apply cauchy3]. unfold dot3. cbn [rpt3 qx qy qz].
    eapply Rle_trans; [apply Rabs_triang|]. apply Rplus_le_compat_r. apply Rabs_triang.
Qed.
Lemma dist3_sq a b : dot3 a b a b = dist3 b a * dist3 b a.
Proof. rewrite dist3_nrm, nrm3_sq. reflexivity. Qed.

(** Two segments at least 2^-200 long whose lines make an angle with squared sine
    at least [sg] >= 2^-44; [s] and [t] are the positions of the closest points of
    the lines.  When the one on CD lies on the segment, or the one on AB lies
    inside the segment by more than 2^-44 / [sg] of the largest ordinate, the
    result is the least distance up to 2^-42 / [sg] of the largest ordinate. *)
Theorem C74_segments_accurate : forall hypot a b c d M sg s t D, mid3 a -> mid3 b -> mid3 c -> mid3 d -> M <= bp 250 ->
  below3 M a -> below3 M b -> below3 M c -> below3 M d ->
  let LA := dist3 (rpt3 b) (rpt3 a) in let LC := dist3 (rpt3 d) (rpt3 c) in
  bp (-200) <= LA -> bp (-200) <= LC -> bp (-44) <= sg ->
  sg * (LA * LA * (LC * LC)) <= LA * LA * (LC * LC) - Rsqr (dot3 (rpt3 a) (rpt3 b) (rpt3 c) (rpt3 d)) ->
  (forall s' t', dist3 (along3 (rpt3 a) (rpt3 b) s) (along3 (rpt3 c) (rpt3 d) t) <= dist3 (along3 (rpt3 a) (rpt3 b) s') (along3 (rpt3 c) (rpt3 d) t')) ->
  0 <= t <= 1 \/ (bp (-44) / sg * M < s * LA /\ bp (-44) / sg * M < (1 - s) * LA) ->
  least_distance3 (on_segment3 (rpt3 a) (rpt3 b)) (on_segment3 (rpt3 c) (rpt3 d)) D ->
  fis_finite (s2s_3d hypot a b c d) = true /\ Rabs (R_of (s2s_3d hypot a b c d) - D) <= bp (-42) / sg * M.
Proof.
  intros hypot a b c d M sg s t D Ma Mb Mc Md HM La Lb Lc Ld LA LC HA HC Hsg Hang Hmin Hpos HD.
  pose proof u53_pos as U. pose proof u53_small as U1. pose proof (bpow_gt_0 radix2 (-200)) as P200. pose proof (bpow_gt_0 radix2 (-300)) as P300.
  assert (forall p, dist3 p p = 0) as DZ by (intros p; unfold dist3; rewrite !Rminus_eq_0, Rsqr_0, !Rplus_0_r; apply sqrt_0).
  assert (rpt3 c <> rpt3 d) as Ncd by (intros E; unfold LC in HC; rewrite E, DZ in HC; lra).
  assert (rpt3 a <> rpt3 b) as Nab by (intros E; unfold LA in HA; rewrite E, DZ in HA; lra).
  destruct (C74_segments_error hypot a b c d M Ma Mb Mc Md HM La Lb Lc Ld Ncd) as (F & _ & LOW). destruct (LOW D HD) as (LO & CH). split; [exact F|].
  assert (LA <= 7 / 2 * M) as LAM by (destruct La as (? & ? & ?), Lb as (? & ? & ?); apply box_dist; assumption).
  assert (LC <= 7 / 2 * M) as LCM by (destruct Lc as (? & ? & ?), Ld as (? & ? & ?); apply box_dist; assumption).
  set (W := dist3 (rpt3 a) (rpt3 c)). assert (W <= 7 / 2 * M) as WM by (destruct La as (? & ? & ?), Lc as (? & ? & ?); apply box_dist; assumption).
  assert (0 <= W) as W0 by apply sqrt_pos. assert (0 < M) as M0 by lra.
  set (W' := W + bp (-300)). assert (W' <= 36 / 10 * M) as WM'.
  { unfold W'. assert (bp (-300) <= bp (-200) / 1024) by (replace (bp (-200) / 1024) with (bp (-210)) by (change (-210)%Z with (-200 + -10)%Z; rewrite bpow_plus; reflexivity); apply bpow_le; lia). lra. }
  set (G := LA * LA * (LC * LC) - Rsqr (dot3 (rpt3 a) (rpt3 b) (rpt3 c) (rpt3 d))) in *. set (Q := LA * LA * (LC * LC)) in *.
  assert (0 < LA * LC) as ALC by (apply Rmult_lt_0_compat; lra). assert (0 < LA * LA) as ALA by (apply Rmult_lt_0_compat; lra). assert (0 < LC * LC) as CLC by (apply Rmult_lt_0_compat; lra).
  assert (0 < Q) as Q0 by (now apply Rmult_lt_0_compat). assert (0 < sg) as sg0 by (pose proof (bpow_gt_0 radix2 (-44)); lra).
  assert (bp (-44) = 512 * u53) as U44 by (change (-44)%Z with (-53 + 9)%Z; rewrite bpow_plus; change (bp 9) with 512; ring).
  assert (bp (-46) = 128 * u53) as U46 by (change (-46)%Z with (-53 + 7)%Z; rewrite bpow_plus; change (bp 7) with 128; ring).
  assert (bp (-42) = 2048 * u53) as U42 by (change (-42)%Z with (-53 + 11)%Z; rewrite bpow_plus; change (bp 11) with 2048; ring).
  assert (G <= Q) as GQ by (unfold G; pose proof (Rle_0_sqr (dot3 (rpt3 a) (rpt3 b) (rpt3 c) (rpt3 d))); lra).
  assert (sg <= 1) as sg1 by (apply Rmult_le_reg_r with Q; lra).
  assert (0 <= u53 * Q) as UQ by (apply Rmult_le_pos; lra).
  assert (512 * (u53 * Q) <= G) as G1 by (apply Rle_trans with (sg * Q); [rewrite <- Rmult_assoc, <- U44; apply Rmult_le_compat_r; lra|exact Hang]).
  assert (0 < G) as G0. { apply Rlt_le_trans with (512 * (u53 * Q)); [|exact G1]. assert (0 < u53 * Q) by (now apply Rmult_lt_0_compat). lra. }
  set (e := bp (-44) / sg * M) in *. assert (0 < / sg) as isg by (now apply Rinv_0_lt_compat).
  assert (1 <= / sg) as isg1 by (rewrite <- Rinv_1; apply Rinv_le_contravar; lra).
  assert (0 <= e) as e0 by (unfold e, Rdiv; apply Rmult_le_pos; [apply Rmult_le_pos; [apply bpow_ge_0|lra]|lra]).
  assert (bp (-46) * M <= / 4 * e) as BE.
  { unfold e, Rdiv. rewrite U44, U46. replace (/ 4 * (512 * u53 * / sg * M)) with (/ sg * (128 * u53 * M)) by (field; lra).
    assert (0 <= 128 * u53 * M) by (apply Rmult_le_pos; lra). rewrite <- (Rmult_1_l (128 * u53 * M)) at 1. apply Rmult_le_compat_r; lra. }
  replace (bp (-42) / sg * M) with (4 * e) by (unfold e, Rdiv; rewrite U42, U44; ring).
  destruct (P3_dec (rpt3 c) (rpt3 b)) as [E|Ncb]; [specialize (CH (or_intror E)); lra|].
  enough (R_of (s2s_3d hypot a b c d) <= D + 2 * e + / 4 * e) by (apply Rabs_le; lra).
  assert (forall X Y, bp (-200) <= X -> bp (-300) <= Y -> bp (-500) <= X * Y) as B500.
  { intros X Y HX HY. replace (bp (-500)) with (bp (-200) * bp (-300)) by exact (eq_sym (bpow_plus radix2 (-200) (-300))). apply Rmult_le_compat; lra. }
  assert (forall S, bp (-500) <= S -> 4 * eta <= u53 * S) as ET.
  { intros S HS. apply Rle_trans with (u53 * bp (-500)); [|apply Rmult_le_compat_l; lra]. rewrite <- bpow_plus. replace (4 * eta) with (bp (-1073)); [apply bpow_le; lia|].
    unfold eta. change (-1073)%Z with (-1075 + 1 + 1)%Z. rewrite !bp_S. ring. }
  assert (bp (-300) <= LA /\ bp (-300) <= LC) as (LA3 & LC3) by (assert (bp (-300) <= bp (-200)) by (apply bpow_le; lia); lra).
  assert (bp (-300) <= W') as W3 by (unfold W'; lra).
  destruct (dot4_err hypot a b a b (LA * LA) Ma Mb Ma Mb (Rle_refl _) (ET _ (B500 _ _ HA LA3))) as (Ea & Sa).
  destruct (dot4_err hypot a b c d (LA * LC) Ma Mb Mc Md (Rle_refl _) (ET _ (B500 _ _ HA LC3))) as (Eb & Sb).
  destruct (dot4_err hypot c d c d (LC * LC) Mc Md Mc Md (Rle_refl _) (ET _ (B500 _ _ HC LC3))) as (Ec & Sc).
  destruct (dot4_err hypot a b c a (LA * W') Ma Mb Mc Ma ltac:(apply Rmult_le_compat_l; unfold W', W; lra) (ET _ (B500 _ _ HA W3))) as (Ed & Sd).
  destruct (dot4_err hypot c d c a (LC * W') Mc Md Mc Ma ltac:(apply Rmult_le_compat_l; unfold W', W; lra) (ET _ (B500 _ _ HC W3))) as (Ee & Se).
  pose proof (dot4_f hypot a b a b M HM Ma Mb Ma Mb La Lb La Lb) as Baa. pose proof (dot4_f hypot a b c d M HM Ma Mb Mc Md La Lb Lc Ld) as Bbb.
  pose proof (dot4_f hypot c d c d M HM Mc Md Mc Md Lc Ld Lc Ld) as Bcc. pose proof (dot4_f hypot a b c a M HM Ma Mb Mc Ma La Lb Lc La) as Bdd.
  pose proof (dot4_f hypot c d c a M HM Mc Md Mc Ma Lc Ld Lc La) as Bee.
  assert (critical (rpt3 a) (rpt3 b) (rpt3 c) (rpt3 d) s t) as CR by (apply min_critical; intros x y; apply dist3_le_inv; exact (Hmin x y)).
  destruct (critical_denom _ _ _ _ _ _ CR) as (Cs & Ct).
  rewrite !dist3_sq in Cs, Ct. fold LA LC in Cs, Ct. rewrite dist3_sq in Ea, Sa, Ec, Sc. fold LA in Ea, Sa. fold LC in Ec, Sc.
  set (B := dot3 (rpt3 a) (rpt3 b) (rpt3 c) (rpt3 d)) in *. set (DD := dot3 (rpt3 a) (rpt3 b) (rpt3 c) (rpt3 a)) in *. set (EE := dot3 (rpt3 c) (rpt3 d) (rpt3 c) (rpt3 a)) in *.
  change (LA * LA * (LC * LC) - B * B) with G in Cs, Ct.
  assert (forall X Y, bp (-500) <= X -> bp (-500) <= Y -> eta <= / 1024 * (u53 * (X * Y))) as ETP.
  { intros X Y HX HY. apply Rle_trans with (/ 1024 * (u53 * (bp (-500) * bp (-500)))).
    - change (/ 1024) with (bp (-10)). rewrite <- !bpow_plus. apply bpow_le. lia.
    - apply Rmult_le_compat_l; [lra|]. apply Rmult_le_compat_l; [lra|]. pose proof (bpow_gt_0 radix2 (-500)). apply Rmult_le_compat; lra. }
  assert (eta <= / 1024 * (u53 * Q)) as EQ by (apply ETP; auto).
  set (Ps := LC * LC * (LA * W')). set (Pt := LA * LA * (LC * W')).
  assert (eta <= / 1024 * (u53 * Ps)) as EPs by (apply ETP; auto). assert (eta <= / 1024 * (u53 * Pt)) as EPt by (apply ETP; auto).
  unfold s2s_3d, g_s2s_3d. rewrite (equals_mid hypot a b Ma Mb), (neq_equals _ _ Nab), (equals_mid hypot c b Mc Mb), (neq_equals _ _ Ncb).
  cbv zeta. cbn [NF nadd nmul nsub ndiv nle nlt nofZ nisnan]. change (fofZ 0) with f0. change (fofZ 1) with f1.
  set (aa := g_dot_4 f64 (NF hypot) (pf3 a) (pf3 b) (pf3 a) (pf3 b)) in *. set (bb := g_dot_4 f64 (NF hypot) (pf3 a) (pf3 b) (pf3 c) (pf3 d)) in *.
  set (cc := g_dot_4 f64 (NF hypot) (pf3 c) (pf3 d) (pf3 c) (pf3 d)) in *. set (dd := g_dot_4 f64 (NF hypot) (pf3 a) (pf3 b) (pf3 c) (pf3 a)) in *.
  set (ee := g_dot_4 f64 (NF hypot) (pf3 c) (pf3 d) (pf3 c) (pf3 a)) in *.
  destruct (det_err (LA * LA) (LC * LC) B B aa cc bb bb _ _ _ _ Q Baa Bcc Bbb Bbb Sa Sc Sb Sb eq_refl ltac:(unfold Q; ring) Ea Ec Eb Eb EQ) as (Fg & Eg).
  destruct (det_err B EE (LC * LC) DD bb ee cc dd _ _ _ _ Ps Bbb Bee Bcc Bdd Sb Se Sc Sd ltac:(unfold Ps; ring) eq_refl Eb Ee Ec Ed EPs) as (Fs & Es).
  destruct (det_err (LA * LA) EE B DD aa ee bb dd _ _ _ _ Pt Baa Bee Bbb Bdd Sa Se Sb Sd eq_refl ltac:(unfold Pt; ring) Ea Ee Eb Ed EPt) as (Ft & Et).
  change (LA * LA * (LC * LC) - B * B) with G in Eg.
  set (g' := fsub (fmul aa cc) (fmul bb bb)) in *. set (ns := fsub (fmul bb ee) (fmul cc dd)) in *. set (nt := fsub (fmul aa ee) (fmul bb dd)) in *.
  assert (0 < R_of g') as G' by (apply Rabs_le_inv in Eg; lra).
  rewrite (fin_nn _ Fg), (fleb_R g' f0 Fg eq_refl), Rle_bool_false by (change (R_of f0) with 0; exact G').
  match goal with |- R_of ?z <= _ => change z with (choose hypot a b c d (fdiv ns g') (fdiv nt g')) end.
  destruct (stands_ex (fdiv ns g') (fdiv_nn _ _ Fs (Rgt_not_eq _ _ G'))) as (x & Sx). destruct (stands_ex (fdiv nt g') (fdiv_nn _ _ Ft (Rgt_not_eq _ _ G'))) as (y & Sy).
  destruct (apart_M c d M Mc Md Ncd Lc Ld) as (_ & M1).
  destruct (choose_err hypot a b c d M _ _ x y Ma Mb Mc Md La Lb Lc Ld M1 Sx Sy) as (_ & CE). apply Rabs_le_inv in CE.
  assert (0 <= Ps /\ 0 <= Pt) as (Ps0 & Pt0) by (assert (0 < W') by lra; split; unfold Ps, Pt; apply Rmult_le_pos; try lra; apply Rmult_le_pos; lra).
  assert (forall P L, 0 <= L -> P * L = Q * W' -> L <= 7 / 2 * M -> u53 * (37 * P + 38 * Q + 2 * G) * L <= e * G) as BOUND.
  { intros P L L0 EP LM. apply Rle_trans with (u53 * Q * (512 * M)).
    - replace (u53 * (37 * P + 38 * Q + 2 * G) * L) with (u53 * (37 * (P * L) + 38 * Q * L + 2 * (G * L))) by ring. rewrite EP. rewrite (Rmult_assoc u53 Q). apply Rmult_le_compat_l; [lra|].
      assert (G * L <= Q * L) by (apply Rmult_le_compat_r; lra). assert (Q * W' <= Q * (36 / 10 * M)) by (apply Rmult_le_compat_l; lra).
      assert (Q * L <= Q * (7 / 2 * M)) by (apply Rmult_le_compat_l; lra). assert (0 <= Q * M) by (apply Rmult_le_pos; lra). lra.
    - unfold e. rewrite U44. apply Rle_trans with (512 * u53 / sg * M * (sg * Q)); [apply Req_le; field; lra|]. apply Rmult_le_compat_l; [|exact Hang].
      rewrite <- U44. exact e0. }
  assert (held e LA s x) as HX.
  { replace s with ((B * EE - LC * LC * DD) / G) by (rewrite <- Cs; field; lra).
    apply (quot_held _ G ns g' LA Ps Q x e Fs Fg G0 ltac:(lra) Ps0 ltac:(lra) Es Eg ltac:(lra)); [|exact Sx]. apply BOUND; [lra|unfold Ps, Q; ring|exact LAM]. }
  assert (held e LC t y) as HY.
  { replace t with ((LA * LA * EE - B * DD) / G) by (rewrite <- Ct; field; lra).
    apply (quot_held _ G nt g' LC Pt Q y e Ft Fg G0 ltac:(lra) Pt0 ltac:(lra) Et Eg ltac:(lra)); [|exact Sy]. apply BOUND; [lra|unfold Pt, Q; ring|exact LCM]. }
  pose proof (near_params _ _ _ _ s t x y e D CR HX HY e0 Hpos HD). lra.
Qed.
(** The segments (0,0,0)-(7,0,0) and (1/3,-7,1)-(1/3,7,1), 1/3 as a double. *)
Example C74_segments_example : let a := new_xyz f0 f0 f0 in let b := new_xyz (fofZ 7) f0 f0 in let c := new_xyz third (fofZ (-7)) f1 in let d := new_xyz third (fofZ 7) f1 in
  let LA := dist3 (rpt3 b) (rpt3 a) in let LC := dist3 (rpt3 d) (rpt3 c) in let s := R_of third / 7 in let t := / 2 in
  (mid3 a /\ mid3 b /\ mid3 c /\ mid3 d) /\ 7 <= bp 250 /\ (below3 7 a /\ below3 7 b /\ below3 7 c /\ below3 7 d) /\ rpt3 c <> rpt3 d /\
  bp (-200) <= LA /\ bp (-200) <= LC /\ bp (-44) <= 1 /\ 1 * (LA * LA * (LC * LC)) <= LA * LA * (LC * LC) - Rsqr (dot3 (rpt3 a) (rpt3 b) (rpt3 c) (rpt3 d)) /\
  (forall s' t', dist3 (along3 (rpt3 a) (rpt3 b) s) (along3 (rpt3 c) (rpt3 d) t) <= dist3 (along3 (rpt3 a) (rpt3 b) s') (along3 (rpt3 c) (rpt3 d) t')) /\
  0 <= t <= 1 /\ least_distance3 (on_segment3 (rpt3 a) (rpt3 b)) (on_segment3 (rpt3 c) (rpt3 d)) 1.
Proof.
  cbv zeta. destruct mid_third as (T & O & I & S).
  assert (R_of third = 6004799503160661 * bp (-54)) as E by (unfold third; reflexivity).
  assert (bp (-54) <= / 9007199254740992) as K by (cbn; lra). pose proof (bpow_gt_0 radix2 (-54)) as P.
  assert (0 < R_of third < 1) as T01 by (rewrite E; lra). remember (R_of third) as h eqn:Eh.
  assert (R_of (fofZ 7) = 7) as S7 by (vm_compute; lra). assert (R_of (fofZ (-7)) = -7) as N7 by (vm_compute; lra).
  assert (mid (fofZ (-7))) as N.
  { destruct S as (_ & S1 & S2). rewrite S7 in S1, S2. rewrite (Rabs_pos_eq 7) in S1, S2 by lra. split; [reflexivity|]. rewrite N7.
    replace (Rabs (-7)) with 7 by (rewrite Rabs_left; lra). split; [exact S1|]. right. destruct S2; lra. }
  assert (R_of f0 = 0) as Z by reflexivity.
  set (ra := rpt3 (new_xyz f0 f0 f0)). set (rb := rpt3 (new_xyz (fofZ 7) f0 f0)). set (rc := rpt3 (new_xyz third (fofZ (-7)) f1)). set (rd := rpt3 (new_xyz third (fofZ 7) f1)).
  assert (ra = mkP3 0 0 0) as Ea by (unfold ra, rpt3; cbn [cx cy cz new_xyz]; rewrite Z; reflexivity).
  assert (rb = mkP3 7 0 0) as Eb by (unfold rb, rpt3; cbn [cx cy cz new_xyz]; rewrite Z, S7; reflexivity).
  assert (rc = mkP3 h (-7) 1) as Ec by (unfold rc, rpt3; cbn [cx cy cz new_xyz]; rewrite N7, R_of_f1, <- Eh; reflexivity).
  assert (rd = mkP3 h 7 1) as Ed by (unfold rd, rpt3; cbn [cx cy cz new_xyz]; rewrite S7, R_of_f1, <- Eh; reflexivity).
  assert (forall x y z u v w, dist3 (mkP3 x y z) (mkP3 u v w) = nrm3 (x - u) (y - v) (z - w)) as DN by (intros; apply dist3_nrm).
  rewrite Ea, Eb, Ec, Ed. clear ra rb rc rd Ea Eb Ec Ed.
  assert (dist3 (mkP3 7 0 0) (mkP3 0 0 0) = 7) as DA by (rewrite DN; unfold nrm3; replace (_ + _) with (7 * 7) by ring; apply sqrt_square; lra).
  assert (dist3 (mkP3 h 7 1) (mkP3 h (-7) 1) = 14) as DC by (rewrite DN; unfold nrm3; replace (_ + _) with (14 * 14) by ring; apply sqrt_square; lra).
  assert (dist3 (along3 (mkP3 0 0 0) (mkP3 7 0 0) (h / 7)) (along3 (mkP3 h (-7) 1) (mkP3 h 7 1) (/ 2)) = 1) as D1.
  { unfold along3. cbn [qx qy qz]. rewrite DN. unfold nrm3. replace (_ + _) with (1 * 1) by field. apply sqrt_square. lra. }
  assert (forall s t, 1 <= dist3 (along3 (mkP3 0 0 0) (mkP3 7 0 0) s) (along3 (mkP3 h (-7) 1) (mkP3 h 7 1) t)) as LO.
  { intros s t. unfold along3. cbn [qx qy qz]. rewrite DN. destruct (comp_nrm3 (0 + s * (7 - 0) - (h + t * (h - h))) (0 + s * (0 - 0) - (-7 + t * (7 - -7))) (0 + s * (0 - 0) - (1 + t * (1 - 1)))) as (_ & _ & C).
    replace (0 + s * (0 - 0) - (1 + t * (1 - 1))) with (-1) in C at 1 by ring. rewrite Rabs_left in C by lra. lra. }
  split; [exact (conj (conj O (conj O O)) (conj (conj S (conj O O)) (conj (conj T (conj N I)) (conj T (conj S I)))))|].
  split; [apply Rle_trans with (bp 3); [cbn; lra|apply bpow_le; lia]|].
  split.
  { unfold below3. cbn [cx cy cz new_xyz]. rewrite Z, S7, N7, R_of_f1, <- Eh. rewrite (Rabs_left (-7)) by lra. rewrite Rabs_R0, (Rabs_pos_eq 7), (Rabs_pos_eq 1), (Rabs_pos_eq h) by lra.
    repeat split; lra. }
  split; [intros H; injection H; lra|]. rewrite DA, DC.
  assert (bp (-200) <= bp 0 /\ bp (-44) <= bp 0) as (B1 & B2) by (split; apply bpow_le; lia). change (bp 0) with 1 in B1, B2.
  split; [lra|]. split; [lra|]. split; [lra|]. split; [unfold dot3, Rsqr; cbn [qx qy qz]; apply Req_le; ring|].
  split; [intros; rewrite D1; apply LO|]. split; [lra|]. split.
  - exists (along3 (mkP3 0 0 0) (mkP3 7 0 0) (h / 7)), (along3 (mkP3 h (-7) 1) (mkP3 h 7 1) (/ 2)). split; [exists (h / 7); split; [lra|reflexivity]|].
    split; [exists (/ 2); split; [lra|reflexivity]|exact D1].
  - intros p q (u & _ & ->) (v & _ & ->). apply LO.
Qed.
