(** C55 and C61, continued: acute and obtuse angles at arbitrary doubles. *)
From Coq Require Import ZArith Bool Reals Lia Lra Psatz.
From Flocq Require Import Core IEEE754.BinarySingleNaN.
From Verif Require Import Base F64 F64Facts F64Err Num NumLink Coordinate_model Orientation_spec Orientation_props Distance_model Distance_spec Distance_proofs Distance_props
  DistanceErr_proofs DistanceErr_props Intersection_props Angle_model Angle_props Triangle_model.
Local Open Scope R_scope.

(** The scalar product of the arms of the angle at [b]. *)
Definition arms (a b c : pR) : R := (px a - px b) * (px c - px b) + (py a - py b) * (py c - py b).
Lemma dotprod_near a b c : mid_pt a -> mid_pt b -> mid_pt c ->
  fis_finite (dotprod a b c) = true /\
  Rabs (R_of (dotprod a b c) - arms (rpt a) (rpt b) (rpt c)) <= 6 * u53 * (dist (rpt a) (rpt b) * dist (rpt c) (rpt b)).
Proof.
  intros Ma Mb Mc. destruct (mid_dist a b Ma Mb) as (Za & _). destruct (mid_dist c b Mc Mb) as (Zc & _).
  destruct Ma as (Ax & Ay), Mb as (Bx & By), Mc as (Cx & Cy).
  destruct (mid_diff _ _ Ax Bx) as (B1 & R1 & _). destruct (mid_diff _ _ Ay By) as (B2 & R2 & _).
  destruct (mid_diff _ _ Cx Bx) as (B3 & R3 & _). destruct (mid_diff _ _ Cy By) as (B4 & R4 & _).
  destruct (prods_f _ _ _ _ B1 B2 B3 B4) as ((F & E) & _). unfold dotprod. split; [exact F|]. rewrite E.
  assert (forall p q, rpt p = rpt q -> R_of (cx p) - R_of (cx q) = 0 /\ R_of (cy p) - R_of (cy q) = 0) as K.
  { intros p q Q. injection Q as Q1 Q2. lra. }
  assert (forall p q, rpt p = rpt q -> dist (rpt p) (rpt q) = 0) as K0.
  { intros p q Q. now apply dist_0. }
  unfold arms. cbn [rpt px py].
  destruct Za as [Za|Za].
  { destruct (K _ _ Za) as (X & Y). rewrite X, Y in *. unfold ru in R1, R2. rewrite Rabs_R0, Rmult_0_r, Rminus_0_r in R1, R2.
    pose proof (Rabs_pos (R_of (fsub (cx a) (cx b)))). pose proof (Rabs_pos (R_of (fsub (cy a) (cy b)))).
    rewrite (Rabs_eq_R0 (R_of (fsub (cx a) (cx b)))), (Rabs_eq_R0 (R_of (fsub (cy a) (cy b)))) by lra.
    rewrite !Rmult_0_l, !RN_0, Rplus_0_r, RN_0, Rminus_0_r, Rabs_R0, (K0 _ _ Za). lra. }
  destruct Zc as [Zc|Zc].
  { destruct (K _ _ Zc) as (X & Y). rewrite X, Y in *. unfold ru in R3, R4. rewrite Rabs_R0, Rmult_0_r, Rminus_0_r in R3, R4.
    pose proof (Rabs_pos (R_of (fsub (cx c) (cx b)))). pose proof (Rabs_pos (R_of (fsub (cy c) (cy b)))).
    rewrite (Rabs_eq_R0 (R_of (fsub (cx c) (cx b)))), (Rabs_eq_R0 (R_of (fsub (cy c) (cy b)))) by lra.
    rewrite !Rmult_0_r, !RN_0, Rplus_0_r, RN_0, Rminus_0_r, Rabs_R0, (K0 _ _ Zc). lra. }
  apply (ru_dot _ _ _ _ _ _ _ _ _ _ R1 R2 R3 R4); try apply Distance_proofs.dist_pos; try (now rewrite dist_sq').
  now apply eta_small.
Qed.

(** For ordinary doubles the scalar product is right up to 6*2^-53 of the
    product of the lengths of the arms, so acute and obtuse are right unless the
    cosine of the angle is that small. *)
Theorem C55_acute_obtuse_error : forall p0 p1 p2, mid_pt p0 -> mid_pt p1 -> mid_pt p2 ->
  let dot := (px (rpt p0) - px (rpt p1)) * (px (rpt p2) - px (rpt p1)) + (py (rpt p0) - py (rpt p1)) * (py (rpt p2) - py (rpt p1)) in
  let tol := 6 * bp (-53) * (dist (rpt p0) (rpt p1) * dist (rpt p2) (rpt p1)) in
  (tol < dot -> is_acute p0 p1 p2 = true /\ is_obtuse p0 p1 p2 = false) /\
  (dot < - tol -> is_acute p0 p1 p2 = false /\ is_obtuse p0 p1 p2 = true) /\
  (is_acute p0 p1 p2 = true -> is_obtuse p0 p1 p2 = false).
Proof.
  intros a b c Ma Mb Mc dot tol. destruct (dotprod_near a b c Ma Mb Mc) as (F & E). change (arms _ _ _) with dot in E. fold tol in E.
  unfold is_acute, is_obtuse, fgtb. change (@Bltb 53 1024) with fltb. rewrite !fltb_R by (assumption || reflexivity). change (R_of f0) with 0.
  apply Rabs_le_inv in E. split; [|split].
  - intros H. split; [apply Rlt_bool_true|apply Rlt_bool_false]; lra.
  - intros H. split; [apply Rlt_bool_false|apply Rlt_bool_true]; lra.
  - destruct (Rlt_bool_spec 0 (R_of (dotprod a b c))); [intros _; apply Rlt_bool_false; lra|discriminate].
Qed.
(** An acute triangle: at every corner the squares of the two sides there exceed
    the square of the third by more than the tolerance. *)
Theorem C61_acute_error : forall a b c, mid_pt a -> mid_pt b -> mid_pt c ->
  let d p q := dist (rpt p) (rpt q) in
  let excess p q r := d p q * d p q + d r q * d r q - d p r * d p r in
  let tol p q r := 12 * bp (-53) * (d p q * d r q) in
  (tol a b c < excess a b c -> tol b c a < excess b c a -> tol c a b < excess c a b -> tri_is_acute a b c = true) /\
  (tri_is_acute a b c = true -> - tol a b c <= excess a b c /\ - tol b c a <= excess b c a /\ - tol c a b <= excess c a b).
Proof.
  intros a b c Ma Mb Mc d excess tol.
  assert (forall p q r, mid_pt p -> mid_pt q -> mid_pt r -> (tol p q r < excess p q r -> is_acute p q r = true) /\ (is_acute p q r = true -> - tol p q r <= excess p q r)) as K.
  { intros p q r Mp Mq Mr. destruct (C55_acute_obtuse_error p q r Mp Mq Mr) as (H1 & H2 & _).
    assert (excess p q r = 2 * ((px (rpt p) - px (rpt q)) * (px (rpt r) - px (rpt q)) + (py (rpt p) - py (rpt q)) * (py (rpt r) - py (rpt q)))) as X.
    { unfold excess, d. rewrite !dist_sq'. ring. }
    set (dot := (px (rpt p) - px (rpt q)) * (px (rpt r) - px (rpt q)) + _) in *. unfold tol, d. rewrite X. split.
    - intros H. apply H1. lra.
    - intros H. destruct (Rle_or_lt (- (12 * bp (-53) * (dist (rpt p) (rpt q) * dist (rpt r) (rpt q)))) (2 * dot)) as [?|L]; [assumption|].
      destruct H2 as (Q & _); [lra|]. rewrite H in Q. discriminate. }
  unfold tri_is_acute. split.
  - intros H1 H2 H3. destruct (K a b c Ma Mb Mc) as (-> & _); [|exact H1]. destruct (K b c a Mb Mc Ma) as (-> & _); [|exact H2].
    destruct (K c a b Mc Ma Mb) as (-> & _); [|exact H3]. reflexivity.
  - destruct (is_acute a b c) eqn:E1; [|discriminate]. destruct (is_acute b c a) eqn:E2; [|discriminate]. destruct (is_acute c a b) eqn:E3; [|discriminate].
    intros _. split; [|split]; [now apply (K a b c)|now apply (K b c a)|now apply (K c a b)].
Qed.
Example C55_error_example : let a := ipt 100000001 0 in let b := ipt 0 0 in let c := ipt 1 300000007 in
  mid_pt a /\ mid_pt b /\ mid_pt c /\
  6 * bp (-53) * (dist (rpt a) (rpt b) * dist (rpt c) (rpt b)) < (px (rpt a) - px (rpt b)) * (px (rpt c) - px (rpt b)) + (py (rpt a) - py (rpt b)) * (py (rpt c) - py (rpt b)) /\
  is_acute a b c = true /\ tri_is_acute a b c = true /\ tri_is_acute (ipt 100000001 0) (ipt 0 0) (ipt (-1) 300000007) = false.
Proof.
  intros a b c. destruct (mid_ipt 100000001 0) as (Ma & Ra); try lia. destruct (mid_ipt 0 0) as (Mb & Rb); try lia. destruct (mid_ipt 1 300000007) as (Mc & Rc); try lia.
  do 3 (split; [assumption|]). split; [|repeat split; vm_compute; reflexivity]. unfold a, b, c. rewrite Ra, Rb, Rc. cbn [px py].
  assert (dist (mkP 100000001 0) (mkP 0 0) <= 100000001) as D1.
  { apply Rsqr_incr_0; [|apply Distance_proofs.dist_pos|lra]. unfold Rsqr. rewrite dist_sq'. cbn [px py]. lra. }
  assert (dist (mkP 1 300000007) (mkP 0 0) <= 300000008) as D2.
  { apply Rsqr_incr_0; [|apply Distance_proofs.dist_pos|lra]. unfold Rsqr. rewrite dist_sq'. cbn [px py]. lra. }
  assert (dist (mkP 100000001 0) (mkP 0 0) * dist (mkP 1 300000007) (mkP 0 0) <= 100000001 * 300000008) by (apply Rmult_le_compat; try assumption; apply Distance_proofs.dist_pos).
  change (bp (-53)) with (/ 9007199254740992). lra.
Qed.
