(** C61, continued: the circumcentre in double-double arithmetic at arbitrary
    doubles. *)
From Coq Require Import ZArith Bool List Reals Lia Lra Psatz.
From Flocq Require Import Core IEEE754.BinarySingleNaN.
From Verif Require Import Base F64 F64Facts F64Round F64Err Num NumLink Coordinate_model DD_model DD_spec DD_proofs DD_more DD_props DDSum_proofs DDArith_proofs
  Orientation_spec Orientation_props Distance_model Distance_spec Distance_props Intersection_spec Intersection_proofs IntersectErr_spec IntersectErr_proofs
  Triangle_model Triangle_spec Triangle_proofs Triangle_props MeetErr_spec CircumErr_props SpaceErr_props Vector_model Vector_props.
Local Open Scope R_scope.

(** ** Arithmetic *)
Lemma dm_neg k e x : dm k e x -> dm k e (dd_neg x) /\ dval (dd_neg x) = - dval x /\ dd_neg x = mkDD (fneg (hi x)) (fneg (lo x)).
Proof.
  intros (((Fh & Fl) & E) & B & M). unfold dd_neg, dd_is_nan. rewrite (bf_nn _ _ B). assert (dval (mkDD (fneg (hi x)) (fneg (lo x))) = - dval x) as V by (unfold dval; cbn [hi lo]; rewrite !fneg_R; ring).
  split; [|split; [exact V|reflexivity]]. split; [|split].
  - split; [split; cbn [hi lo]; rewrite fneg_fin; assumption|]. rewrite V. cbn [hi]. rewrite fneg_R, E. symmetry. apply RN_opp.
  - cbn [hi]. now apply bf_neg.
  - rewrite V. destruct M as (n & ->). exists (- n)%Z. rewrite opp_IZR. ring.
Qed.
Lemma dd_sub_self k e l f x y : dm k e x -> dm l f y -> dd_sub x y = dd_self_sub x y.
Proof.
  intros (_ & Bx & _) Dy. destruct (dm_neg _ _ _ Dy) as (_ & _ & Q). unfold dd_sub. rewrite Q. unfold dd_add, dd_self_sub, dd_is_nan. rewrite (bf_nn _ _ Bx). reflexivity.
Qed.
Lemma dd_add_self k e l f x y : dm k e x -> dm l f y -> dd_add x y = dd_self_sub x (dd_neg y).
Proof.
  intros (_ & Bx & _) Dy. destruct (dm_neg _ _ _ Dy) as (_ & _ & Q). rewrite Q. unfold dd_add, dd_self_sub, dd_is_nan. rewrite (bf_nn _ _ Bx). cbn [hi lo]. now rewrite !fneg_fneg.
Qed.
Lemma sub_dm k e x y : (-800 <= k <= 800)%Z -> (-1074 <= e)%Z -> dm k e x -> dm k e y ->
  dm (k + 8) e (dd_self_sub x y) /\ Rabs (dval (dd_self_sub x y) - (dval x - dval y)) <= 17 * (u53 * u53) * (Rabs (dval x) + Rabs (dval y)).
Proof.
  intros K E Dx Dy. split; [now apply dm_sub|]. apply (dd_self_sub_error k); [lia|apply Dx|apply Dy|apply Dx|apply Dy].
Qed.
Lemma add_dm k e x y : (-800 <= k <= 800)%Z -> (-1074 <= e)%Z -> dm k e x -> dm k e y ->
  dm (k + 8) e (dd_add x y) /\ Rabs (dval (dd_add x y) - (dval x + dval y)) <= 17 * (u53 * u53) * (Rabs (dval x) + Rabs (dval y)).
Proof.
  intros K E Dx Dy. rewrite (dd_add_self _ _ _ _ _ _ Dx Dy). destruct (dm_neg _ _ _ Dy) as (Dn & Vn & _).
  destruct (sub_dm k e x (dd_neg y) K E Dx Dn) as (D & Er). split; [exact D|]. rewrite Vn, Rabs_Ropp in Er. replace (dval x + dval y) with (dval x - - dval y) by ring. exact Er.
Qed.
Lemma diff_dm x y : plain x -> plain y -> dm 88 (-99) (dd_sub_f64 (dd_of x) y) /\ dval (dd_sub_f64 (dd_of x) y) = R_of x - R_of y.
Proof.
  intros Px Py. pose proof (dm_of x Px) as (_ & Bx & Mx). pose proof (dm_of y Py) as (_ & By & My). cbn [hi dd_of] in Bx, By. rewrite dval_of in Mx, My.
  assert (Rabs (R_of x - R_of y) <= bp 81) as S.
  { change 81%Z with (80 + 1)%Z. rewrite bp_S. destruct Bx as (_ & Bx), By as (_ & By). apply Rabs_le_inv in Bx, By. apply Rabs_le. lra. }
  destruct (C38_difference_exact x y (proj1 Px) (proj1 Py)) as (N & V).
  - exact (bf_lim 80 x ltac:(lia) Bx).
  - exact (bf_lim 80 y ltac:(lia) By).
  - eapply Rle_lt_trans; [apply (RN_abs_le 81); [lia|exact S]|]. apply bpow_lt. lia.
  - split; [|exact V]. split; [exact N|]. split; [|rewrite V; now apply mult_sub].
    split; [apply N|]. destruct N as (_ & ->). rewrite V. apply Rle_trans with (bp 81); [apply RN_abs_le; [lia|exact S]|apply bpow_le; lia].
Qed.

(** The last step: a vertex plus or minus a quotient, rounded. *)
Lemma last_step k x q : (80 <= k <= 900)%Z -> plain x -> normed q -> bf k (hi q) ->
  (fis_finite (dd_double (dd_sub (dd_of x) q)) = true /\ exists v, R_of (dd_double (dd_sub (dd_of x) q)) = RN v /\ Rabs (v - (R_of x - dval q)) <= 17 * (u53 * u53) * (Rabs (R_of x) + Rabs (dval q))) /\
  (fis_finite (dd_double (dd_add (dd_of x) q)) = true /\ exists v, R_of (dd_double (dd_add (dd_of x) q)) = RN v /\ Rabs (v - (R_of x + dval q)) <= 17 * (u53 * u53) * (Rabs (R_of x) + Rabs (dval q))).
Proof.
  intros K Px Nq Bq. pose proof (dm_of x Px) as (Nx & Bx & _). apply (bf_weak 80 k _ ltac:(lia)) in Bx.
  assert (normed (dd_neg q) /\ bf k (hi (dd_neg q)) /\ dval (dd_neg q) = - dval q /\ dd_neg q = mkDD (fneg (hi q)) (fneg (lo q))) as (Nn & Bn & Vn & Qn).
  { destruct Nq as ((Fh & Fl) & E). unfold dd_neg, dd_is_nan. rewrite (bf_nn _ _ Bq). assert (dval (mkDD (fneg (hi q)) (fneg (lo q))) = - dval q) as V by (unfold dval; cbn [hi lo]; rewrite !fneg_R; ring).
    split; [|split; [cbn [hi]; now apply bf_neg|split; [exact V|reflexivity]]].
    split; [split; cbn [hi lo]; rewrite fneg_fin; assumption|]. rewrite V. cbn [hi]. rewrite fneg_R, E. symmetry. apply RN_opp. }
  assert (dd_sub (dd_of x) q = dd_self_sub (dd_of x) q) as ->.
  { unfold dd_sub. rewrite Qn. unfold dd_add, dd_self_sub, dd_is_nan. rewrite (bf_nn _ _ Bx). reflexivity. }
  assert (dd_add (dd_of x) q = dd_self_sub (dd_of x) (dd_neg q)) as ->.
  { rewrite Qn. unfold dd_add, dd_self_sub, dd_is_nan. rewrite (bf_nn _ _ Bx). cbn [hi lo]. now rewrite !fneg_fneg. }
  assert (forall y, normed y -> bf k (hi y) -> fis_finite (dd_double (dd_self_sub (dd_of x) y)) = true /\
    exists v, R_of (dd_double (dd_self_sub (dd_of x) y)) = RN v /\ Rabs (v - (R_of x - dval y)) <= 17 * (u53 * u53) * (Rabs (R_of x) + Rabs (dval y))) as G.
  { intros y Ny By. pose proof (dd_self_sub_normed k _ _ ltac:(lia) Nx Ny Bx By) as N. pose proof (dd_self_sub_error k _ _ ltac:(lia) Nx Ny Bx By) as E. rewrite dval_of in E.
    destruct (dd_double_normed _ N) as (F & V). split; [exact F|]. exists (dval (dd_self_sub (dd_of x) y)). split; [rewrite V; apply N|exact E]. }
  split; [now apply G|]. destruct (G _ Nn Bn) as (F & v & V & E). split; [exact F|]. exists v. split; [exact V|]. rewrite Vn, Rabs_Ropp in E. replace (R_of x + dval q) with (R_of x - - dval q) by ring. exact E.
Qed.

Section Circum.
Variables (a b c : Coordinate) (D : R).
Hypothesis (Pa : plain_pt a) (Pb : plain_pt b) (Pc : plain_pt c) (Ac : apart D a c) (Bc : apart D b c).
Let h := u53 * u53.
Let ax := dd_sub_f64 (dd_of (cx a)) (cx c). Let ay := dd_sub_f64 (dd_of (cy a)) (cy c).
Let bx := dd_sub_f64 (dd_of (cx b)) (cx c). Let by_ := dd_sub_f64 (dd_of (cy b)) (cy c).
Let wd := dd_mul_f64 (dd_det ax ay bx by_) f2.
Let W := 2 * ((R_of (cx a) - R_of (cx c)) * (R_of (cy b) - R_of (cy c)) - (R_of (cy a) - R_of (cy c)) * (R_of (cx b) - R_of (cx c))).
Lemma h_sm : 0 < h <= / 1024.
Proof. unfold h. pose proof u53_pos. pose proof u53_small. split; nra. Qed.
Lemma D_pos : 0 <= D.
Proof. destruct Ac as (L & _). pose proof (Rabs_pos (R_of (cx a) - R_of (cx c))). lra. Qed.
Lemma prodD u v A B : Rabs u <= A -> Rabs v <= B -> Rabs (u * v) <= A * B.
Proof. intros U V. rewrite Rabs_mult. apply Rmult_le_compat; auto using Rabs_pos. Qed.
(** Products, sums of squares and determinants of the exact differences. *)
Lemma pair_err x y z t : dm 88 (-99) x -> dm 88 (-99) y -> dm 88 (-99) z -> dm 88 (-99) t ->
  Rabs (dval x) <= D -> Rabs (dval y) <= D -> Rabs (dval z) <= D -> Rabs (dval t) <= D ->
  (dm 192 (-198) (dd_add (dd_mul x y) (dd_mul z t)) /\ Rabs (dval (dd_add (dd_mul x y) (dd_mul z t)) - (dval x * dval y + dval z * dval t)) <= 56 * h * (D * D)) /\
  (dm 192 (-198) (dd_self_sub (dd_mul x y) (dd_mul z t)) /\ Rabs (dval (dd_self_sub (dd_mul x y) (dd_mul z t)) - (dval x * dval y - dval z * dval t)) <= 56 * h * (D * D)).
Proof.
  intros X Y Z T Lx Ly Lz Lt. pose proof h_sm as (H0 & H1). pose proof D_pos as D0. assert (0 <= D * D) as DD by nra.
  destruct (dm_mul 88 88 (-99) (-99) _ _ ltac:(lia) ltac:(lia) ltac:(lia) ltac:(lia) ltac:(lia) X Y) as (D1 & E1).
  destruct (dm_mul 88 88 (-99) (-99) _ _ ltac:(lia) ltac:(lia) ltac:(lia) ltac:(lia) ltac:(lia) Z T) as (D2 & E2).
  cbv zeta in *. fold h in E1, E2. cbn in D1, D2.
  destruct (add_dm 184 (-198) _ _ ltac:(lia) ltac:(lia) D1 D2) as (Da & Ea). destruct (sub_dm 184 (-198) _ _ ltac:(lia) ltac:(lia) D1 D2) as (Ds & Es).
  fold h in Ea, Es. pose proof (prodD _ _ _ _ Lx Ly) as P1. pose proof (prodD _ _ _ _ Lz Lt) as P2.
  assert (forall u, Rabs u <= D * D -> 10 * h * Rabs u <= 10 * h * (D * D)) as MM by (intros; apply Rmult_le_compat_l; lra).
  assert (10 * h * (D * D) <= D * D / 17) as S by (apply Rle_trans with (10 * / 1024 * (D * D)); [apply Rmult_le_compat_r; lra|lra]).
  apply MM in P1 as Q1. apply MM in P2 as Q2. replace (56 * h * (D * D)) with (2 * (10 * h * (D * D)) + 36 * h * (D * D)) by ring.
  split; (split; [assumption|]).
  - replace (dval x * dval y + dval z * dval t) with (dval x * dval y - - (dval z * dval t)) by ring.
    apply diff_err with (m := dval (dd_mul x y)) (n := - dval (dd_mul z t)); try lra.
    + replace (- dval (dd_mul z t) - - (dval z * dval t)) with (- (dval (dd_mul z t) - dval z * dval t)) by ring. rewrite Rabs_Ropp. lra.
    + now rewrite Rabs_Ropp.
    + rewrite Rabs_Ropp. replace (dval (dd_mul x y) - - dval (dd_mul z t)) with (dval (dd_mul x y) + dval (dd_mul z t)) by ring. exact Ea.
  - apply diff_err with (m := dval (dd_mul x y)) (n := dval (dd_mul z t)); lra.
Qed.
Lemma arms_dm : (dm 88 (-99) ax /\ dm 88 (-99) ay /\ dm 88 (-99) bx /\ dm 88 (-99) by_) /\
  (Rabs (dval ax) <= D /\ Rabs (dval ay) <= D /\ Rabs (dval bx) <= D /\ Rabs (dval by_) <= D) /\
  (dval ax = R_of (cx a) - R_of (cx c) /\ dval ay = R_of (cy a) - R_of (cy c) /\ dval bx = R_of (cx b) - R_of (cx c) /\ dval by_ = R_of (cy b) - R_of (cy c)).
Proof.
  destruct (diff_dm _ _ (proj1 Pa) (proj1 Pc)) as (D1 & V1). destruct (diff_dm _ _ (proj2 Pa) (proj2 Pc)) as (D2 & V2).
  destruct (diff_dm _ _ (proj1 Pb) (proj1 Pc)) as (D3 & V3). destruct (diff_dm _ _ (proj2 Pb) (proj2 Pc)) as (D4 & V4).
  fold ax in D1, V1. fold ay in D2, V2. fold bx in D3, V3. fold by_ in D4, V4. split; [auto|]. split; [|auto]. rewrite V1, V2, V3, V4.
  destruct Ac, Bc. auto.
Qed.
Lemma den_err : dm 202 (-198) wd /\ Rabs (dval wd - W) <= 154 * h * (D * D) /\ Rabs W <= 4 * (D * D).
Proof.
  pose proof h_sm as (H0 & H1). pose proof D_pos as D0. assert (0 <= D * D) as DD by nra.
  destruct arms_dm as ((D1 & D2 & D3 & D4) & (L1 & L2 & L3 & L4) & (V1 & V2 & V3 & V4)).
  destruct (pair_err ax by_ ay bx) as (_ & (Dt & Et)); auto. rewrite V1, V2, V3, V4 in Et.
  assert (dm 2 0 (dd_of f2)) as D5.
  { split; [now apply normed_of|]. rewrite dval_of. split; [split; [reflexivity|]|]; cbn [hi dd_of]; rewrite CentroidErr_proofs.f2_val.
    - rewrite Rabs_pos_eq by lra. change (bp 2) with 4. lra.
    - exists 2%Z. change (bp 0) with 1. lra. }
  assert (wd = dd_mul (dd_det ax ay bx by_) (dd_of f2)) as Q by reflexivity.
  unfold dd_det in Q at 1. set (det := dd_self_sub (dd_mul ax by_) (dd_mul ay bx)) in *.
  destruct (dm_mul 192 2 (-198) 0 _ _ ltac:(lia) ltac:(lia) ltac:(lia) ltac:(lia) ltac:(lia) Dt D5) as (Dw & Ew). cbv zeta in *. fold h in Ew. cbn in Dw. rewrite <- Q in Dw, Ew.
  rewrite dval_of, CentroidErr_proofs.f2_val in Ew. split; [exact Dw|].
  destruct Ac as (Axx & Ayy). destruct Bc as (Bxx & Byy). pose proof (prodD _ _ _ _ Axx Byy) as P1. pose proof (prodD _ _ _ _ Ayy Bxx) as P2.
  unfold W. set (u := (R_of (cx a) - R_of (cx c)) * (R_of (cy b) - R_of (cy c))) in *. set (v := (R_of (cy a) - R_of (cy c)) * (R_of (cx b) - R_of (cx c))) in *.
  assert (Rabs (u - v) <= 2 * (D * D)) as S by (apply Rabs_le; apply Rabs_le_inv in P1, P2; lra).
  split; [|rewrite Rabs_mult, Rabs_pos_eq by lra; lra].
  assert (Rabs (dval det) <= 2 * (D * D) + 56 * h * (D * D)) as Sd. { replace (dval det) with ((u - v) + (dval det - (u - v))) by ring. eapply Rle_trans; [apply Rabs_triang|]. lra. }
  assert (56 * h * (D * D) <= 56 * / 1024 * (D * D)) as S2 by (apply Rmult_le_compat_r; lra).
  assert (10 * h * Rabs (dval det * 2) <= 10 * h * (21 / 5 * (D * D))) as Q2.
  { apply Rmult_le_compat_l; [lra|]. rewrite Rabs_mult, (Rabs_pos_eq 2) by lra. lra. }
  assert (0 <= h * (D * D)) by (apply Rmult_le_pos; lra).
  replace (dval wd - 2 * (u - v)) with ((dval wd - dval det * 2) + 2 * (dval det - (u - v))) by ring. eapply Rle_trans; [apply Rabs_triang|].
  rewrite (Rabs_mult 2), (Rabs_pos_eq 2) by lra. lra.
Qed.
(** Numerators. *)
Lemma num_err x y p q A B : dm 88 (-99) x -> dm 88 (-99) y -> dm 192 (-198) p -> dm 192 (-198) q -> Rabs (dval x) <= D -> Rabs (dval y) <= D ->
  Rabs (dval p - A) <= 56 * h * (D * D) -> Rabs (dval q - B) <= 56 * h * (D * D) -> Rabs A <= 2 * (D * D) -> Rabs B <= 2 * (D * D) ->
  let z := dd_det x p y q in
  dm 296 (-297) z /\ Rabs (dval z - (dval x * B - A * dval y)) <= 452 * h * (D * D * D).
Proof.
  intros X Y P Q Lx Ly Ep Eq LA LB. cbv zeta. unfold dd_det. pose proof h_sm as (H0 & H1). pose proof D_pos as D0.
  destruct (dm_mul 88 192 (-99) (-198) _ _ ltac:(lia) ltac:(lia) ltac:(lia) ltac:(lia) ltac:(lia) X Q) as (D1 & E1).
  destruct (dm_mul 192 88 (-198) (-99) _ _ ltac:(lia) ltac:(lia) ltac:(lia) ltac:(lia) ltac:(lia) P Y) as (D2 & E2).
  cbv zeta in *. fold h in E1, E2. cbn in D1, D2. destruct (sub_dm 288 (-297) _ _ ltac:(lia) ltac:(lia) D1 D2) as (Ds & Es). fold h in Es. split; [exact Ds|].
  assert (0 <= D * D) as DD by nra. assert (0 <= D * D * D) as DDD by (apply Rmult_le_pos; lra). assert (0 <= 56 * h * (D * D)) as HB by (apply Rmult_le_pos; lra).
  rewrite (Rmult_comm (dval p)) in E2. rewrite (Rmult_comm A).
  pose proof (prod_err h D (56 * h * (D * D)) (2 * (D * D)) _ _ _ _ ltac:(lra) HB Lx Eq LB E1) as Q1.
  pose proof (prod_err h D (56 * h * (D * D)) (2 * (D * D)) _ _ _ _ ltac:(lra) HB Ly Ep LA E2) as Q2.
  assert (D * (56 * h * (D * D)) + 10 * h * (D * (2 * (D * D) + 56 * h * (D * D))) <= 77 * h * (D * D * D)) as C.
  { replace (D * (56 * h * (D * D)) + 10 * h * (D * (2 * (D * D) + 56 * h * (D * D)))) with (76 * (h * (D * D * D)) + 560 * h * (h * (D * D * D))) by ring.
    assert (0 <= h * (D * D * D)) as Pp by (apply Rmult_le_pos; lra). assert (560 * h * (h * (D * D * D)) <= 1 * (h * (D * D * D))) by (apply Rmult_le_compat_r; lra). lra. }
  assert (0 <= h * (D * D * D)) as Pp by (apply Rmult_le_pos; lra).
  apply Rle_trans with (2 * (77 * h * (D * D * D)) + 36 * h * (2 * (D * D * D))); [|lra].
  pose proof (prodD _ _ _ _ Lx LB) as S1. pose proof (prodD _ _ _ _ Ly LA) as S2. replace (D * (2 * (D * D))) with (2 * (D * D * D)) in S1, S2 by ring.
  apply diff_err with (m := dval (dd_mul x q)) (n := dval (dd_mul p y)); try lra.
  apply Rle_trans with (77 * / 1024 * (D * D * D)); [apply Rmult_le_compat_r; lra|lra].
Qed.
(** A quotient. *)
Lemma quo_err z X : dm 296 (-297) z -> Rabs (dval z - X) <= 452 * h * (D * D * D) -> 512 * h * (D * D) < Rabs W ->
  let m := X / W in let q := dd_div z wd in
  normed q /\ bf 500 (hi q) /\ Rabs (dval q - m) <= 1024 * h * (D * D * (D + Rabs m) / Rabs W).
Proof.
  intros Dz Ez G. cbv zeta. pose proof h_sm as (H0 & H1). pose proof D_pos as D0. destruct den_err as (Dw & Ew & UW).
  assert (0 <= D * D) as DD by nra. assert (0 <= h * (D * D)) as HB by (apply Rmult_le_pos; lra).
  assert (dval wd <> 0) as NW by (intros Z; rewrite Z, Rminus_0_l, Rabs_Ropp in Ew; lra).
  assert (W <> 0) as NZ by (intros Z; rewrite Z, Rabs_R0 in G; lra).
  assert (forall k e u, (-300 <= e)%Z -> (k <= 300)%Z -> dm k e u -> dval u <> 0 -> bp (-300) <= Rabs (R_of (hi u)) <= bp 300) as Rg.
  { intros k e u He Hk (N & (_ & Bu) & M) NZu. split.
    - destruct N as (_ & ->). apply abs_round_ge_generic; try typeclasses eauto; [apply bpow_fmt; lia|].
      apply Rle_trans with (bp e); [apply bpow_le; lia|now apply mult_ge].
    - eapply Rle_trans; [exact Bu|apply bpow_le; lia]. }
  pose proof (Rg 202%Z (-198)%Z wd ltac:(lia) ltac:(lia) Dw NW) as Rw.
  assert (normed (dd_div z wd) /\ Rabs (dval (dd_div z wd) * dval wd - dval z) <= 21 * h * Rabs (dval z)) as (N & E).
  { destruct (Req_dec (dval z) 0) as [Z|Z].
    - destruct Dz as (((Fh & Fl) & Hz) & _ & _). rewrite Z, RN_0 in Hz.
      assert (R_of (lo z) = 0) as Lz by (unfold dval in Z; lra).
      destruct Dw as (((Fwh & Fwl) & _) & _ & _).
      destruct (dd_div_zero z (hi wd) (lo wd) Fh Hz Fl Lz Fwh) as (N & V); auto.
      + apply Rle_trans with (bp 300); [apply Rw|apply bpow_le; lia].
      + intros Q. rewrite Q, Rabs_R0 in Rw. pose proof (bpow_gt_0 radix2 (-300)). lra.
      + rewrite dd_div_unroll. split; [exact N|]. rewrite V, Z, Rmult_0_l, Rminus_0_r, Rabs_R0. lra.
    - apply quotient_bound; [apply Dz|apply Dw|apply (Rg 296%Z (-297)%Z); auto; lia|exact Rw]. }
  split; [exact N|]. split.
  - split; [apply N|]. destruct N as (_ & ->). apply RN_abs_le; [lia|].
    assert (Rabs (dval z) <= bp 297) as Sz.
    { destruct Dz as (Nz & (_ & Bz) & _). pose proof (normed_lo z Nz) as Lo. unfold dval. change 297%Z with (296 + 1)%Z. rewrite bp_S. eapply Rle_trans; [apply Rabs_triang|].
      pose proof u53_small. pose proof u53_pos. pose proof (Rabs_pos (R_of (hi z))). nra. }
    assert (bp (-198) <= Rabs (dval wd)) as Sw by (apply mult_ge; [apply Dw|exact NW]).
    assert (Rabs (dval (dd_div z wd)) * Rabs (dval wd) <= 2 * bp 297) as P.
    { rewrite <- Rabs_mult. replace (dval (dd_div z wd) * dval wd) with (dval z + (dval (dd_div z wd) * dval wd - dval z)) by ring. eapply Rle_trans; [apply Rabs_triang|].
      assert (21 * h * Rabs (dval z) <= 1 * Rabs (dval z)) by (apply Rmult_le_compat_r; [apply Rabs_pos|lra]). lra. }
    apply Rmult_le_reg_r with (bp (-198)); [apply bpow_gt_0|]. rewrite <- (bpow_plus radix2 500 (-198)). change (500 + -198)%Z with 302%Z.
    apply Rle_trans with (Rabs (dval (dd_div z wd)) * Rabs (dval wd)); [apply Rmult_le_compat_l; [apply Rabs_pos|exact Sw]|].
    eapply Rle_trans; [exact P|]. rewrite <- bp_S. apply bpow_le. lia.
  - apply (quot_err h D W _ (dval wd) (dval z)); auto; try lra.
    replace (X / W * W) with X by (field; exact NZ). exact Ez.
Qed.
Lemma final_err (sg : bool) x m q : plain x -> normed q -> bf 500 (hi q) -> 512 * h * (D * D) < Rabs W ->
  Rabs (dval q - m) <= 1024 * h * (D * D * (D + Rabs m) / Rabs W) ->
  rounded_within (1024 * h * (D * D * (D + Rabs m) / (Rabs W / 2)) + 32 * h * Rabs (R_of x))
    (dd_double (if sg then dd_sub (dd_of x) q else dd_add (dd_of x) q)) (if sg then R_of x - m else R_of x + m).
Proof.
  intros Px Nq Bq G E. pose proof h_sm as (H0 & H1). pose proof D_pos as D0. destruct den_err as (_ & _ & UW).
  assert (0 <= D * D) as DD by nra. assert (0 <= h * (D * D)) as HB by (apply Rmult_le_pos; lra). assert (0 < Rabs W) as W0 by lra.
  pose proof (Rabs_pos m) as M0. set (T := D * D * (D + Rabs m) / Rabs W) in *.
  assert (D + Rabs m <= 4 * T) as T1.
  { unfold T. apply Rmult_le_reg_r with (Rabs W); [exact W0|]. replace (4 * (D * D * (D + Rabs m) / Rabs W) * Rabs W) with ((D + Rabs m) * (4 * (D * D))) by (field; lra).
    apply Rmult_le_compat_l; lra. }
  assert (512 * (h * T) <= D + Rabs m) as T2.
  { unfold T. apply Rmult_le_reg_r with (Rabs W); [exact W0|]. replace (512 * (h * (D * D * (D + Rabs m) / Rabs W)) * Rabs W) with ((D + Rabs m) * (512 * h * (D * D))) by (field; lra).
    apply Rmult_le_compat_l; lra. }
  assert (D * D * (D + Rabs m) / (Rabs W / 2) = 2 * T) as -> by (unfold T; field; lra).
  assert (Rabs (dval q) <= Rabs m + 1024 * h * T) as Lq by (replace (dval q) with (m + (dval q - m)) by ring; eapply Rle_trans; [apply Rabs_triang|]; lra).
  pose proof (Rabs_pos (R_of x)) as X0.
  assert (17 * h * (Rabs (R_of x) + Rabs (dval q)) <= 17 * h * (Rabs (R_of x) + 12 * T)) as L.
  { apply Rmult_le_compat_l; [lra|]. lra. }
  assert (0 <= h * T) as HT by (apply Rmult_le_pos; lra). assert (0 <= h * Rabs (R_of x)) as HX by (apply Rmult_le_pos; lra).
  destruct (last_step 500 x q ltac:(lia) Px Nq Bq) as ((F1 & v1 & V1 & E1) & (F2 & v2 & V2 & E2)). fold h in E1, E2.
  destruct sg; (split; [assumption|]).
  - exists v1. split; [exact V1|]. replace (v1 - (R_of x - m)) with ((v1 - (R_of x - dval q)) + - (dval q - m)) by ring. eapply Rle_trans; [apply Rabs_triang|]. rewrite Rabs_Ropp. lra.
  - exists v2. split; [exact V2|]. replace (v2 - (R_of x + m)) with ((v2 - (R_of x + dval q)) + (dval q - m)) by ring. eapply Rle_trans; [apply Rabs_triang|]. lra.
Qed.
Lemma circum_dd_err o : bp (-98) * (D * D) < Rabs (side (rpt a) (rpt b) (rpt c)) ->
  dist o (rpt a) = dist o (rpt b) -> dist o (rpt b) = dist o (rpt c) ->
  let r := tri_circumcentre_dd a b c in let s := side (rpt a) (rpt b) (rpt c) in
  rounded_within (loss (-96) D s (Rabs (px o - R_of (cx c))) + bp (-101) * Rabs (R_of (cx c))) (cx r) (px o) /\
  rounded_within (loss (-96) D s (Rabs (py o - R_of (cy c))) + bp (-101) * Rabs (R_of (cy c))) (cy r) (py o).
Proof.
  intros H O1 O2. cbv zeta. set (s := side (rpt a) (rpt b) (rpt c)) in *. pose proof D_pos as D0. pose proof h_sm as (H0 & H1).
  assert (256 * h = bp (-98)) as E1 by (unfold h; rewrite <- (bpow_plus radix2 (-53) (-53)); exact (eq_sym (bpow_plus radix2 8 (-106)))).
  assert (1024 * h = bp (-96)) as E2 by (unfold h; rewrite <- (bpow_plus radix2 (-53) (-53)); exact (eq_sym (bpow_plus radix2 10 (-106)))).
  assert (32 * h = bp (-101)) as E3 by (unfold h; rewrite <- (bpow_plus radix2 (-53) (-53)); exact (eq_sym (bpow_plus radix2 5 (-106)))).
  rewrite <- E1 in H. assert (0 <= h * (D * D)) as HD by (apply Rmult_le_pos; nra).
  assert (s <> 0) as S0 by (intros Z; rewrite Z, Rabs_R0 in H; lra).
  assert (o = g_circumcentre R NR (rpt a) (rpt b) (rpt c)) as ->.
  { destruct (circum_eq _ _ _ S0) as (A & B). exact (circum_unique _ _ _ _ _ S0 A B O1 O2). }
  assert (W = 2 * s) as EW by (unfold W, s, side, rpt; cbn [px py]; ring).
  assert (Rabs W = 2 * Rabs s) as AW by (rewrite EW, Rabs_mult, Rabs_pos_eq; lra). assert (512 * h * (D * D) < Rabs W) as G by lra.
  destruct arms_dm as ((D1 & D2 & D3 & D4) & (L1 & L2 & L3 & L4) & (V1 & V2 & V3 & V4)).
  destruct (pair_err ax ax ay ay) as ((Da & Ea) & _); auto. destruct (pair_err bx bx by_ by_) as ((Db & Eb) & _); auto.
  assert (forall u v, Rabs u <= D -> Rabs v <= D -> Rabs (u * u + v * v) <= 2 * (D * D)) as SQ.
  { intros u v U V. pose proof (prodD _ _ _ _ U U) as P1. pose proof (prodD _ _ _ _ V V) as P2. apply Rabs_le. apply Rabs_le_inv in P1, P2. lra. }
  destruct (num_err ay by_ _ _ _ _ D2 D4 Da Db L2 L4 Ea Eb (SQ _ _ L1 L2) (SQ _ _ L3 L4)) as (Dx & Ex).
  destruct (num_err ax bx _ _ _ _ D1 D3 Da Db L1 L3 Ea Eb (SQ _ _ L1 L2) (SQ _ _ L3 L4)) as (Dy & Ey). cbv zeta in *.
  destruct (quo_err _ _ Dx Ex G) as (Nx & Bx & Qx). destruct (quo_err _ _ Dy Ey G) as (Ny & By & Qy). cbv zeta in *.
  pose proof (final_err true _ _ _ (proj1 Pc) Nx Bx G Qx) as Fx. pose proof (final_err false _ _ _ (proj2 Pc) Ny By G Qy) as Fy. cbv iota in Fx, Fy.
  assert (Rabs W / 2 = Rabs s) as HW by lra. rewrite HW, E2, E3 in Fx, Fy.
  rewrite V1, V2, V3, V4 in Fx, Fy. unfold loss, g_circumcentre, g_det. cbn [NR nsub nmul nadd ndiv nofZ px py]. change (IZR 2) with 2. unfold rpt. cbn [px py].
  fold W. unfold tri_circumcentre_dd. cbv zeta. cbn [cx cy new_xy]. fold ax ay bx by_. fold wd. unfold dd_sqr.
  split.
  - match type of Fx with rounded_within (_ * (_ * (_ + Rabs ?m) / _) + _) _ _ => set (mx := m) in * end.
    match goal with |- context [Rabs (?t - R_of (cx c))] => replace (Rabs (t - R_of (cx c))) with (Rabs mx) end; [exact Fx|].
    rewrite <- Rabs_Ropp. f_equal. unfold mx. ring.
  - match type of Fy with rounded_within (_ * (_ * (_ + Rabs ?m) / _) + _) _ _ => set (my := m) in * end.
    match goal with |- context [Rabs (?t - R_of (cy c))] => replace (Rabs (t - R_of (cy c))) with (Rabs my) end; [exact Fy|].
    f_equal. unfold my. ring.
Qed.
End Circum.

(** The centre computed in double-double arithmetic, at arbitrary doubles 0 or
    between 2^-47 and 2^80: each ordinate is the nearest double to a number
    within the given error of the ordinate of the point equidistant from the
    three corners.  [D] bounds the ordinates of a-c and b-c. *)
Theorem C61_circumcentre_dd_error : forall D a b c o, plain_pt a -> plain_pt b -> plain_pt c -> apart D a c -> apart D b c ->
  let s := side (rpt a) (rpt b) (rpt c) in
  bp (-98) * (D * D) < Rabs s -> dist o (rpt a) = dist o (rpt b) -> dist o (rpt b) = dist o (rpt c) ->
  let r := tri_circumcentre_dd a b c in
  rounded_within (loss (-96) D s (Rabs (px o - R_of (cx c))) + bp (-101) * Rabs (R_of (cx c))) (cx r) (px o) /\
  rounded_within (loss (-96) D s (Rabs (py o - R_of (cy c))) + bp (-101) * Rabs (R_of (cy c))) (cy r) (py o).
Proof. intros D a b c o Pa Pb Pc Ac Bc s H O1 O2. exact (circum_dd_err a b c D Pa Pb Pc Ac Bc o H O1 O2). Qed.

(** A thin triangle far from the origin: sides 2^20 and 1 at 2^40. *)
Example C61_circum_dd_example : let N := (2 ^ 40)%Z in
  let a := ipt (N + 2 ^ 20) N in let b := ipt (N + 2 ^ 20) (N + 1) in let c := ipt N N in let o := mkP (bp 40 + bp 19) (bp 40 + / 2) in
  let s := side (rpt a) (rpt b) (rpt c) in
  plain_pt a /\ plain_pt b /\ plain_pt c /\ apart (bp 20) a c /\ apart (bp 20) b c /\ s = bp 20 /\ bp (-98) * (bp 20 * bp 20) < Rabs s /\
  dist o (rpt a) = dist o (rpt b) /\ dist o (rpt b) = dist o (rpt c) /\
  loss (-96) (bp 20) s (Rabs (px o - R_of (cx c))) + bp (-101) * Rabs (R_of (cx c)) < bp (-55) /\
  loss (-96) (bp 20) s (Rabs (py o - R_of (cy c))) + bp (-101) * Rabs (R_of (cy c)) < bp (-55) /\
  feqb (cx (tri_circumcentre_dd a b c)) (fofZ (N + 2 ^ 19)) = true.
Proof.
  intros N a b c o.
  assert (G : forall z, (Z.abs z <= 2 ^ 53)%Z -> R_of (fofZ z) = IZR z) by (intros z Hz; rewrite (proj2 (grid_fofZ z Hz)); change (bp 0) with 1; ring).
  assert (E20 : bp 20 = 2 * bp 19) by (exact (bpow_plus radix2 1 19)). assert (1 <= bp 19) by (change 1 with (bp 0); apply bpow_le; lia).
  assert (L4 : bp 20 < bp 40) by (apply bpow_lt; lia).
  assert (R0 : R_of (fofZ N) = bp 40) by (rewrite G by (unfold N; lia); reflexivity).
  assert (R1 : R_of (fofZ (N + 1)) = bp 40 + 1) by (rewrite G by (unfold N; lia); rewrite plus_IZR; reflexivity).
  assert (R2 : R_of (fofZ (N + 2 ^ 20)) = bp 40 + bp 20) by (rewrite G by (unfold N; lia); rewrite plus_IZR; reflexivity).
  assert (PL : forall z, (2 ^ 40 <= z <= 2 ^ 41)%Z -> plain (fofZ z)).
  { intros z Hz. assert (Z.abs z <= 2 ^ 53)%Z as Hz' by lia. split; [apply grid_fofZ; exact Hz'|]. rewrite (G z Hz').
    assert (bp 40 <= IZR z <= bp 41) as (A & B) by (split; [change (bp 40) with (IZR (2 ^ 40))|change (bp 41) with (IZR (2 ^ 41))]; apply IZR_le; lia).
    pose proof (bpow_gt_0 radix2 40). rewrite Rabs_pos_eq by lra. split; [eapply Rle_trans; [exact B|apply bpow_le; lia]|right; eapply Rle_trans; [|exact A]; apply bpow_le; lia]. }
  assert (ra : rpt a = mkP (bp 40 + bp 20) (bp 40)) by (unfold rpt, a, ipt; cbn [cx cy new_xy]; now rewrite R0, R2).
  assert (rb : rpt b = mkP (bp 40 + bp 20) (bp 40 + 1)) by (unfold rpt, b, ipt; cbn [cx cy new_xy]; now rewrite R1, R2).
  assert (rc : rpt c = mkP (bp 40) (bp 40)) by (unfold rpt, c, ipt; cbn [cx cy new_xy]; now rewrite R0).
  cbv zeta. rewrite ra, rb, rc.
  assert (side (mkP (bp 40 + bp 20) (bp 40)) (mkP (bp 40 + bp 20) (bp 40 + 1)) (mkP (bp 40) (bp 40)) = bp 20) as -> by (unfold side; cbn [px py]; ring).
  split; [split; apply PL; unfold N; lia|]. split; [split; apply PL; unfold N; lia|]. split; [split; apply PL; unfold N; lia|].
  split. { unfold apart, a, c, ipt; cbn [cx cy new_xy]; rewrite ?R0, ?R2; split; apply Rabs_le; lra. }
  split. { unfold apart, b, c, ipt; cbn [cx cy new_xy]; rewrite ?R0, ?R1, ?R2; split; apply Rabs_le; lra. }
  split; [reflexivity|]. rewrite (Rabs_pos_eq (bp 20)) by lra.
  split. { rewrite <- (bpow_plus radix2 20 20), <- (bpow_plus radix2 (-98)). apply bpow_lt. lia. }
  unfold dist, o. cbn [px py]. split; [f_equal; unfold Rsqr; field|]. split; [f_equal; unfold Rsqr; rewrite E20; field|].
  assert (Rabs (R_of (cx c)) = bp 40 /\ Rabs (R_of (cy c)) = bp 40) as (C1 & C2).
  { unfold c, ipt. cbn [cx cy new_xy]. rewrite R0, Rabs_pos_eq by lra. auto. }
  assert (R_of (cx c) = bp 40 /\ R_of (cy c) = bp 40) as (C3 & C4) by (unfold c, ipt; cbn [cx cy new_xy]; auto).
  rewrite C1, C2, C3, C4. unfold loss. rewrite (Rabs_pos_eq (bp 20)) by lra.
  replace (bp 40 + bp 19 - bp 40) with (bp 19) by ring. replace (bp 40 + / 2 - bp 40) with (/ 2) by ring. rewrite (Rabs_pos_eq (bp 19)), (Rabs_pos_eq (/ 2)) by lra.
  assert (bp (-101) * bp 40 = bp (-61)) as -> by exact (eq_sym (bpow_plus radix2 (-101) 40)).
  assert (bp (-55) = 64 * bp (-61)) by exact (bpow_plus radix2 6 (-61)). pose proof (bpow_gt_0 radix2 (-61)).
  assert (bp (-96) * bp 20 * bp 20 = bp (-56)) as P. { rewrite <- (bpow_plus radix2 (-96)), <- (bpow_plus radix2 (-76)). reflexivity. }
  assert (bp (-56) = 32 * bp (-61)) by exact (bpow_plus radix2 5 (-61)).
  assert (forall t, bp (-96) * (bp 20 * bp 20 * (bp 20 + t) / bp 20) = bp (-56) * (1 + t / bp 20)) as Q by (intros t; rewrite <- P; field; lra).
  rewrite !Q. assert (bp 19 / bp 20 = / 2) as -> by (rewrite E20; field; lra).
  assert (/ 2 / bp 20 <= / 4) by (unfold Rdiv; apply Rle_trans with (/ 2 * / 2); [apply Rmult_le_compat_l; [lra|apply Rinv_le_contravar; lra]|lra]).
  split; [nra|]. split; [nra|]. vm_compute. reflexivity.
Qed.
