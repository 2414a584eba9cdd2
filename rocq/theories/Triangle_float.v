(** Triangles in doubles: the double-double circumcentre, exact areas. *)
From Coq Require Import ZArith Bool Reals Lia Lra Psatz.
From Flocq Require Import Core IEEE754.BinarySingleNaN.
From Verif Require Import Base F64 F64Facts F64Err Num NumLink Coordinate_model DD_model DD_spec DD_proofs DD_more
  Orientation_model Orientation_spec Orientation_proofs Distance_model Distance_spec Distance_proofs Distance_float Distance_props
  Intersection_model Intersection_spec Intersection_proofs Triangle_model Triangle_spec Triangle_proofs.
Local Open Scope R_scope.

(** ** Double-double operations on grid numbers *)
Lemma dg_sub_f64 e x y n m : (-900 <= e <= 800)%Z -> (Z.abs n <= 2 ^ 24)%Z -> (Z.abs m <= 2 ^ 24)%Z -> grid e x n -> grid e y m ->
  dg 25 e (dd_sub_f64 (dd_of x) y) (n - m).
Proof.
  intros He Hn Hm (Fx & Ex) (Fy & Ey). unfold dd_sub_f64.
  assert (forall k, (Z.abs k <= 2 ^ 24)%Z -> Rabs (IZR k * bp e) <= bp (24 + e)) as B by (intros; apply grid_abs; lia).
  assert (R_of x + R_of (fneg y) = IZR (n - m) * bp e) as S by (rewrite fneg_R, Ex, Ey, minus_IZR; ring).
  assert (forall k, (k <= 1000)%Z -> bp k <= lim) as LM.
  { intros k Hk. apply Rle_trans with (bp 1000); [apply bpow_le; lia|]. unfold lim.
    assert (bp 1000 <= bp 1023 /\ bp 973 <= bp 1023) as (P1 & P2) by (split; apply bpow_le; lia). change 1024%Z with (1023 + 1)%Z. rewrite bp_S. 
    assert (2 * bp 973 <= bp 1023) by (rewrite <- bp_S; apply bpow_le; lia). assert (2 * bp 1000 <= bp 1023) by (rewrite <- bp_S; apply bpow_le; lia). lra. }
  destruct (dd_add_f64_exact x (fneg y)) as (D & H & V).
  - exact Fx.
  - now rewrite fneg_fin.
  - rewrite Ex. eapply Rle_trans; [now apply B|]. apply LM; lia.
  - rewrite fneg_R, Rabs_Ropp, Ey. eapply Rle_trans; [now apply B|]. apply LM; lia.
  - rewrite S. apply (RN_small _ (25 + e)); [lia|]. apply grid_abs; lia.
  - cbv zeta in *. split; [split; [exact D|rewrite V; exact H]|]. split; [rewrite V; exact S|lia].
Qed.
Lemma dg_plus k e x a y b : (0 <= k <= 99)%Z -> (-900 <= e <= 800)%Z -> dg k e x a -> dg k e y b -> dg (k + 1) e (dd_add x y) (a + b).
Proof.
  intros K E Dx Dy. unfold dd_add. pose proof Dy as (((Fh & Fl) & Eh) & V & H). apply dg_add; auto. now rewrite Eh, V.
Qed.
Lemma dg_sqr k e x a : (0 <= k <= 53)%Z -> (-400 <= e <= 400)%Z -> dg k e x a -> dg (k + k) (e + e) (dd_sqr x) (a * a).
Proof. intros. unfold dd_sqr. now apply dg_mul. Qed.
Lemma dg_det k l e f x1 a1 y1 b1 x2 a2 y2 b2 : (0 <= k <= 53)%Z -> (0 <= l <= 53)%Z -> (k + l <= 99)%Z -> (-400 <= e <= 400)%Z -> (-400 <= f <= 400)%Z ->
  dg k e x1 a1 -> dg l f y1 b1 -> dg k e x2 a2 -> dg l f y2 b2 -> dg (k + l + 1) (e + f) (dd_det x1 y1 x2 y2) (a1 * b2 - a2 * b1).
Proof.
  intros K L KL E F X1 Y1 X2 Y2. unfold dd_det. apply dg_sub; try lia; [now apply dg_mul|].
  rewrite Z.mul_comm, (Z.add_comm k l), (Z.add_comm e f). now apply dg_mul.
Qed.
Lemma dg_twice k e x a : (0 <= k <= 51)%Z -> (-400 <= e <= 400)%Z -> dg k e x a -> dg (k + 2) e (dd_mul_f64 x f2) (2 * a).
Proof.
  intros K E D. replace (2 * a)%Z with (a * 2)%Z by lia. replace e with (e + 0)%Z by lia.
  unfold dd_mul_f64. cbn [fis_nan]. change (fis_nan f2) with false. cbv iota.
  pose proof (dg_of 2 0 f2 2 ltac:(lia) ltac:(lia) ltac:(lia)) as D2.
  assert (grid 0 f2 2) as G2.
  { split; [reflexivity|]. change (bp 0) with 1. rewrite Rmult_1_r. apply R_of_f2. }
  exact (dg_mul_hi_lo k 2 e 0 x a (dd_of f2) 2 ltac:(lia) ltac:(lia) ltac:(lia) ltac:(lia) D (D2 G2)).
Qed.

(** ** Rounded sum of a double and a double-double quotient *)
Lemma dd_double_val z k : (-1000 <= k <= 1000)%Z -> bf k (hi z) -> bf k (lo z) ->
  fis_finite (dd_double z) = true /\ R_of (dd_double z) = RN (dval z).
Proof.
  intros K (Fh & Bh) (Fl & Bl). unfold dd_double. apply fadd_R; auto.
  apply (RN_small _ (k + 1)); [lia|]. eapply Rle_trans; [apply Rabs_triang|]. rewrite bp_S. lra.
Qed.
Definition near_sum (z : f64) (c q : R) : Prop :=
  fis_finite z = true /\ exists v, R_of z = RN v /\ Rabs (v - (c + q)) <= bp (-98) * (Rabs c + Rabs q).
Lemma dd_add_near x w q : bf 300 x -> normed w -> Rabs q <= bp 300 -> Rabs (dval w - q) <= bp (-100) * Rabs q ->
  near_sum (dd_double (dd_add (dd_of x) w)) (R_of x) q.
Proof.
  intros Bx Nw Bq D. pose proof Nw as ((Fh & Fl) & Eh).
  assert (bp (-100) <= 1) as S1 by (apply (bpow_le radix2 (-100) 0); lia). pose proof (bpow_gt_0 radix2 (-100)) as S0.
  pose proof (Rabs_pos q) as Pq.
  assert (Rabs (dval w) <= (1 + bp (-100)) * Rabs q) as Bw.
  { replace (dval w) with (q + (dval w - q)) by ring. eapply Rle_trans; [apply Rabs_triang|]. lra. }
  assert (bf 302 (hi w)) as Bh.
  { split; [exact Fh|]. rewrite Eh. apply RN_abs_le; [lia|]. apply Rle_trans with (2 * bp 300); [nra|].
    change 302%Z with (300 + 1 + 1)%Z. rewrite !bp_S. pose proof (bpow_gt_0 radix2 300). lra. }
  assert (bf 302 (lo w)) as Bl by (now apply bf_lo).
  assert (bf 302 x) as Bx2 by (destruct Bx as (F & B); split; [exact F|]; eapply Rle_trans; [exact B|apply bpow_le; lia]).
  destruct (dd_add_spec 302 (dd_of x) (hi w) (lo w)) as (A1 & A2 & _ & A3); auto; try lia.
  { apply bf_f0. }
  { cbn [lo hi dd_of]. rewrite R_f0, Rabs_R0. apply Rmult_le_pos; [apply bpow_ge_0|apply Rabs_pos]. }
  { now apply normed_lo. }
  cbv zeta in A3. fold (dd_add (dd_of x) w) in A1, A2, A3. rewrite dval_of in A3. fold (dval w) in A3. cbn [hi dd_of] in A3.
  destruct (dd_double_val (dd_add (dd_of x) w) 313) as (F & E); [lia| |exact A2|].
  { destruct A1 as (F & B). split; [exact F|]. eapply Rle_trans; [exact B|apply bpow_le; lia]. }
  split; [exact F|]. exists (dval (dd_add (dd_of x) w)). split; [exact E|].
  set (z := dval (dd_add (dd_of x) w)) in *.
  assert (bp (-98) = 256 * (u53 * u53)) as K1 by (change 256 with (bp 8); rewrite <- !bpow_plus; reflexivity).
  assert (bp (-100) = 64 * (u53 * u53)) as K2 by (change 64 with (bp 6); rewrite <- !bpow_plus; reflexivity).
  assert (Rabs (R_of (hi w)) <= 4 * Rabs q) as Hq.
  { pose proof (normed_lo w Nw) as L.
    assert (dval w = R_of (hi w) + R_of (lo w)) as V by reflexivity.
    assert (Rabs (R_of (hi w)) <= Rabs (dval w) + Rabs (R_of (lo w))).
    { replace (R_of (hi w)) with (dval w + - R_of (lo w)) by (rewrite V; ring). eapply Rle_trans; [apply Rabs_triang|]. rewrite Rabs_Ropp. lra. }
    pose proof u53_small. pose proof u53_pos. pose proof (Rabs_pos (R_of (hi w))). nra. }
  assert (0 < u53 * u53) as U2 by (pose proof u53_pos; nra). set (w2 := u53 * u53) in *. clearbody w2. rewrite K1. rewrite K2 in D.
  replace (z - (R_of x + q)) with ((z - (R_of x + dval w)) + (dval w - q)) by ring.
  eapply Rle_trans; [apply Rabs_triang|]. pose proof (Rabs_pos (R_of x)).
  apply Rle_trans with (16 * w2 * (Rabs (R_of x) + 4 * Rabs q) + 64 * w2 * Rabs q).
  - apply Rplus_le_compat; [|exact D]. eapply Rle_trans; [exact A3|]. apply Rmult_le_compat_l; lra.
  - assert (0 <= w2 * Rabs q) by (apply Rmult_le_pos; lra). assert (0 <= w2 * Rabs (R_of x)) by (apply Rmult_le_pos; lra). lra.
Qed.
Lemma dd_sub_near x w q : bf 300 x -> normed w -> Rabs q <= bp 300 -> Rabs (dval w - q) <= bp (-100) * Rabs q ->
  near_sum (dd_double (dd_sub (dd_of x) w)) (R_of x) (- q).
Proof.
  intros Bx Nw Bq D. destruct (dd_neg_R w Nw) as (Nn & Vn). unfold dd_sub. apply dd_add_near; auto.
  - now rewrite Rabs_Ropp.
  - rewrite Vn, Rabs_Ropp. replace (- dval w - - q) with (- (dval w - q)) by ring. now rewrite Rabs_Ropp.
Qed.

(** ** The circumcentre in double-double arithmetic *)
Section DDCentre.
Variable e : Z.
Hypothesis He : (-70 <= e <= 70)%Z.
Variables a b c : Coordinate.
Variables n1 m1 n2 m2 n3 m3 : Z.
Hypothesis G1 : rough e a n1 m1.
Hypothesis G2 : rough e b n2 m2.
Hypothesis G3 : rough e c n3 m3.
Let axz := (n1 - n3)%Z. Let ayz := (m1 - m3)%Z. Let bxz := (n2 - n3)%Z. Let byz := (m2 - m3)%Z.
Let asz := (axz * axz + ayz * ayz)%Z. Let bsz := (bxz * bxz + byz * byz)%Z.
Let dz := (2 * (axz * byz - bxz * ayz))%Z.
Let nxz := (ayz * bsz - byz * asz)%Z. Let nyz := (axz * bsz - bxz * asz)%Z.
Lemma tri_dd_near : side (rpt a) (rpt b) (rpt c) <> 0 ->
  let o := g_circumcentre R NR (rpt a) (rpt b) (rpt c) in
  let r := tri_circumcentre_dd a b c in
  near_sum (cx r) (px (rpt c)) (px o - px (rpt c)) /\ near_sum (cy r) (py (rpt c)) (py o - py (rpt c)).
Proof.
  intros S. cbv zeta. destruct G1 as (X1 & Y1 & A1 & B1), G2 as (X2 & Y2 & A2 & B2), G3 as (X3 & Y3 & A3 & B3).
  unfold tri_circumcentre_dd.
  assert (dg 25 e (dd_sub_f64 (dd_of (cx a)) (cx c)) axz) as Dax by (apply dg_sub_f64; auto; lia).
  assert (dg 25 e (dd_sub_f64 (dd_of (cy a)) (cy c)) ayz) as Day by (apply dg_sub_f64; auto; lia).
  assert (dg 25 e (dd_sub_f64 (dd_of (cx b)) (cx c)) bxz) as Dbx by (apply dg_sub_f64; auto; lia).
  assert (dg 25 e (dd_sub_f64 (dd_of (cy b)) (cy c)) byz) as Dby by (apply dg_sub_f64; auto; lia).
  set (ax := dd_sub_f64 (dd_of (cx a)) (cx c)) in *. set (ay := dd_sub_f64 (dd_of (cy a)) (cy c)) in *.
  set (bx := dd_sub_f64 (dd_of (cx b)) (cx c)) in *. set (by_ := dd_sub_f64 (dd_of (cy b)) (cy c)) in *.
  assert (dg 51 (e + e) (dd_add (dd_sqr ax) (dd_sqr ay)) asz) as Das.
  { apply (dg_plus 50); try lia; apply (dg_sqr 25); auto; lia. }
  assert (dg 51 (e + e) (dd_add (dd_sqr bx) (dd_sqr by_)) bsz) as Dbs.
  { apply (dg_plus 50); try lia; apply (dg_sqr 25); auto; lia. }
  set (asq := dd_add (dd_sqr ax) (dd_sqr ay)) in *. set (bsq := dd_add (dd_sqr bx) (dd_sqr by_)) in *.
  assert (dg 53 (e + e) (dd_mul_f64 (dd_det ax ay bx by_) f2) dz) as Dd.
  { apply (dg_twice 51); try lia. apply (dg_det 25 25 e e); auto; lia. }
  assert (dg 77 (e + (e + e)) (dd_det ay asq by_ bsq) nxz) as Dnx by (apply (dg_det 25 51 e (e + e)); auto; lia).
  assert (dg 77 (e + (e + e)) (dd_det ax asq bx bsq) nyz) as Dny by (apply (dg_det 25 51 e (e + e)); auto; lia).
  set (den := dd_mul_f64 (dd_det ax ay bx by_) f2) in *. set (nx := dd_det ay asq by_ bsq) in *. set (ny := dd_det ax asq bx bsq) in *.
  assert (px (rpt a) = IZR n1 * bp e /\ py (rpt a) = IZR m1 * bp e /\ px (rpt b) = IZR n2 * bp e /\ py (rpt b) = IZR m2 * bp e /\
          px (rpt c) = IZR n3 * bp e /\ py (rpt c) = IZR m3 * bp e) as (R1 & R2 & R3 & R4 & R5 & R6).
  { repeat split; unfold rpt; cbn [px py]; [apply X1|apply Y1|apply X2|apply Y2|apply X3|apply Y3]. }
  pose proof (bpow_gt_0 radix2 e) as Be.
  assert (IZR dz * bp (e + e) = 2 * side (rpt a) (rpt b) (rpt c)) as Ed.
  { unfold dz, axz, ayz, bxz, byz, side. rewrite R1, R2, R3, R4, R5, R6, bp_split.
    repeat (rewrite ?minus_IZR, ?mult_IZR, ?plus_IZR). ring. }
  assert (dz <> 0)%Z as Nd by (intros Z; rewrite Z, Rmult_0_l in Ed; lra).
  assert (1 <= Rabs (IZR dz)) as Dge by (rewrite <- abs_IZR; apply IZR_le; lia).
  assert (bf 300 (cx c) /\ bf 300 (cy c)) as (Bcx & Bcy).
  { split; (split; [apply X3 || apply Y3|]); [rewrite (proj2 X3)|rewrite (proj2 Y3)];
      (eapply Rle_trans; [apply (grid_abs 24); [lia|assumption]|apply bpow_le; lia]). }
  assert (forall n, (Z.abs n <= 2 ^ 77)%Z -> Rabs (IZR n * bp (e + (e + e)) / (IZR dz * bp (e + e))) <= bp 300) as Bq.
  { intros n Hn. pose proof (bpow_gt_0 radix2 (e + e)) as Bee. assert (IZR dz <> 0) as NZ by (now apply not_0_IZR).
    replace (IZR n * bp (e + (e + e)) / (IZR dz * bp (e + e))) with (IZR n * bp e / IZR dz) by (rewrite (bp_split e (e + e)); field; lra).
    unfold Rdiv. rewrite Rabs_mult, Rabs_inv.
    apply Rle_trans with (Rabs (IZR n * bp e) * 1).
    - apply Rmult_le_compat_l; [apply Rabs_pos|]. rewrite <- Rinv_1. apply Rinv_le; lra.
    - rewrite Rmult_1_r. eapply Rle_trans; [apply (grid_abs 77); [lia|exact Hn]|apply bpow_le; lia]. }
  destruct (dg_div_normed 77 53 (e + (e + e)) (e + e) nx nxz den dz ltac:(lia) ltac:(lia) ltac:(lia) ltac:(lia) ltac:(lia) ltac:(lia) Dnx Dd Nd) as (Nx & Vx).
  destruct (dg_div_normed 77 53 (e + (e + e)) (e + e) ny nyz den dz ltac:(lia) ltac:(lia) ltac:(lia) ltac:(lia) ltac:(lia) ltac:(lia) Dny Dd Nd) as (Ny & Vy).
  cbv zeta in Vx, Vy.
  assert (IZR dz <> 0) as NZ by (now apply not_0_IZR).
  split.
  - replace (px (g_circumcentre R NR (rpt a) (rpt b) (rpt c)) - px (rpt c)) with (- (IZR nxz * bp (e + (e + e)) / (IZR dz * bp (e + e)))).
    + apply (dd_sub_near (cx c)); auto. apply Bq, Dnx.
    + unfold g_circumcentre, g_det. cbn [NR nsub nmul ndiv nadd nofZ px]. rewrite Ed.
      unfold side in *. rewrite R1, R2, R3, R4, R5, R6 in *.
      replace (IZR nxz * bp (e + (e + e))) with ((IZR m1 * bp e - IZR m3 * bp e) * ((IZR n2 * bp e - IZR n3 * bp e) * (IZR n2 * bp e - IZR n3 * bp e) + (IZR m2 * bp e - IZR m3 * bp e) * (IZR m2 * bp e - IZR m3 * bp e)) -
        ((IZR n1 * bp e - IZR n3 * bp e) * (IZR n1 * bp e - IZR n3 * bp e) + (IZR m1 * bp e - IZR m3 * bp e) * (IZR m1 * bp e - IZR m3 * bp e)) * (IZR m2 * bp e - IZR m3 * bp e)).
      * field. lra.
      * unfold nxz, asz, bsz, axz, ayz, bxz, byz. rewrite !bp_split. repeat (rewrite ?minus_IZR, ?mult_IZR, ?plus_IZR). ring.
  - replace (py (g_circumcentre R NR (rpt a) (rpt b) (rpt c)) - py (rpt c)) with (IZR nyz * bp (e + (e + e)) / (IZR dz * bp (e + e))).
    + apply (dd_add_near (cy c)); auto. apply Bq, Dny.
    + unfold g_circumcentre, g_det. cbn [NR nsub nmul ndiv nadd nofZ py]. rewrite Ed.
      unfold side in *. rewrite R1, R2, R3, R4, R5, R6 in *.
      replace (IZR nyz * bp (e + (e + e))) with ((IZR n1 * bp e - IZR n3 * bp e) * ((IZR n2 * bp e - IZR n3 * bp e) * (IZR n2 * bp e - IZR n3 * bp e) + (IZR m2 * bp e - IZR m3 * bp e) * (IZR m2 * bp e - IZR m3 * bp e)) -
        ((IZR n1 * bp e - IZR n3 * bp e) * (IZR n1 * bp e - IZR n3 * bp e) + (IZR m1 * bp e - IZR m3 * bp e) * (IZR m1 * bp e - IZR m3 * bp e)) * (IZR n2 * bp e - IZR n3 * bp e)).
      * field. lra.
      * unfold nyz, asz, bsz, axz, ayz, bxz, byz. rewrite !bp_split. repeat (rewrite ?minus_IZR, ?mult_IZR, ?plus_IZR). ring.
Qed.
End DDCentre.
