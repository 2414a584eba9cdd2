(** Lemmas for the intersection of lines. *)
From Coq Require Import ZArith Bool Reals Lia Lra Psatz.
From Flocq Require Import Core IEEE754.BinarySingleNaN.
From Verif Require Import Base F64 F64Facts F64Err Num NumLink Coordinate_model DD_model DD_spec DD_proofs DD_more
  Orientation_model Orientation_spec Orientation_proofs PointLocation_proofs Distance_spec Distance_proofs Distance_float Distance_props Intersection_model Intersection_spec.
Local Open Scope R_scope.

(** ** Real geometry *)
Definition hxR (a b c d : pR) : R :=
  (px b - px a) * (px c * py d - px d * py c) - (px d - px c) * (px a * py b - px b * py a).
Definition hyR (a b c d : pR) : R :=
  (py c - py d) * (px a * py b - px b * py a) - (py a - py b) * (px c * py d - px d * py c).
Definition meetR (a b c d : pR) : pR := mkP (hxR a b c d / cross a b c d) (hyR a b c d / cross a b c d).
Definition paramR (a b c d : pR) : R := ((px c - px a) * (py d - py c) - (py c - py a) * (px d - px c)) / cross a b c d.
Lemma meet_param a b c d : cross a b c d <> 0 -> meetR a b c d = along a b (paramR a b c d).
Proof. intros H. unfold meetR, along, paramR, hxR, hyR. f_equal; unfold cross in *; field; exact H. Qed.
Lemma meet_param2 a b c d : cross a b c d <> 0 -> meetR a b c d = along c d (paramR c d a b).
Proof.
  intros H. unfold meetR, along, paramR, hxR, hyR.
  assert (cross c d a b <> 0) as H' by (unfold cross in *; lra).
  f_equal; unfold cross in *; field; auto.
Qed.
Lemma along_eq a b c d s t : along a b s = along c d t -> s * cross a b c d = (px c - px a) * (py d - py c) - (py c - py a) * (px d - px c).
Proof.
  intros E. unfold along in E. injection E as E1 E2. unfold cross.
  replace (s * ((px b - px a) * (py d - py c) - (py b - py a) * (px d - px c)))
    with ((s * (px b - px a)) * (py d - py c) - (s * (py b - py a)) * (px d - px c)) by ring.
  replace (s * (px b - px a)) with (px c + t * (px d - px c) - px a) by lra.
  replace (s * (py b - py a)) with (py c + t * (py d - py c) - py a) by lra. ring.
Qed.
Lemma meetR_meets a b c d : cross a b c d <> 0 -> lines_meet a b c d (meetR a b c d).
Proof.
  intros H. split; [|split].
  - exists (paramR a b c d). now apply meet_param.
  - exists (paramR c d a b). now apply meet_param2.
  - intros q (s & ->) (t & E). apply along_eq in E. rewrite meet_param by exact H. f_equal.
    unfold paramR. rewrite <- E. field. exact H.
Qed.

(** ** The double-double computation *)
Definition rough (e : Z) (c : Coordinate) (n m : Z) : Prop :=
  grid e (cx c) n /\ grid e (cy c) m /\ (Z.abs n <= 2 ^ 24)%Z /\ (Z.abs m <= 2 ^ 24)%Z.
(** The double nearest to a number within 2^-100 of [r]. *)
Definition near (x : f64) (r : R) : Prop :=
  fis_finite x = true /\ exists v, R_of x = RN v /\ Rabs (v - r) <= bp (-100) * Rabs r.
Lemma bp_split k l : bp (k + l) = bp k * bp l.
Proof. apply bpow_plus. Qed.
Section DDMeet.
Variable e : Z.
Hypothesis He : (-100 <= e <= 70)%Z.
Variables p1 p2 q1 q2 : Coordinate.
Variables n1 m1 n2 m2 n3 m3 n4 m4 : Z.
Hypothesis G1 : rough e p1 n1 m1.
Hypothesis G2 : rough e p2 n2 m2.
Hypothesis G3 : rough e q1 n3 m3.
Hypothesis G4 : rough e q2 n4 m4.
Let a := rpt p1. Let b := rpt p2. Let c := rpt q1. Let d := rpt q2.
Let pxd := dd_self_sub_f64 (dd_of (cy p1)) (cy p2).
Let pyd := dd_self_sub_f64 (dd_of (cx p2)) (cx p1).
Let pwd := dd_self_sub (dd_self_mul_f64 (dd_of (cx p1)) (cy p2)) (dd_self_mul_f64 (dd_of (cx p2)) (cy p1)).
Let qxd := dd_self_sub_f64 (dd_of (cy q1)) (cy q2).
Let qyd := dd_self_sub_f64 (dd_of (cx q2)) (cx q1).
Let qwd := dd_self_sub (dd_self_mul_f64 (dd_of (cx q1)) (cy q2)) (dd_self_mul_f64 (dd_of (cx q2)) (cy q1)).
Let xd := dd_self_sub (dd_mul pyd qwd) (dd_mul qyd pwd).
Let yd := dd_self_sub (dd_mul qxd pwd) (dd_mul pxd qwd).
Let wd := dd_self_sub (dd_mul pxd qyd) (dd_mul qxd pyd).
Let xz := ((n2 - n1) * (n3 * m4 - n4 * m3) - (n4 - n3) * (n1 * m2 - n2 * m1))%Z.
Let yz := ((m3 - m4) * (n1 * m2 - n2 * m1) - (m1 - m2) * (n3 * m4 - n4 * m3))%Z.
Let wz := ((m1 - m2) * (n4 - n3) - (m3 - m4) * (n2 - n1))%Z.
Lemma dg_diff24 x y n m : (Z.abs n <= 2 ^ 24)%Z -> (Z.abs m <= 2 ^ 24)%Z -> grid e x n -> grid e y m ->
  dg 25 e (dd_self_sub_f64 (dd_of x) y) (n - m).
Proof.
  intros A B X Y. apply (dg_self_sub_f64 24 e); auto; try lia. apply dg_of; auto; lia.
Qed.
Lemma dg_det24 x1 y1 x2 y2 a1 b1 a2 b2 : (Z.abs a1 <= 2 ^ 24)%Z -> (Z.abs b1 <= 2 ^ 24)%Z -> (Z.abs a2 <= 2 ^ 24)%Z -> (Z.abs b2 <= 2 ^ 24)%Z ->
  grid e x1 a1 -> grid e y1 b1 -> grid e x2 a2 -> grid e y2 b2 ->
  dg 49 (e + e) (dd_self_sub (dd_self_mul_f64 (dd_of x1) y2) (dd_self_mul_f64 (dd_of x2) y1)) (a1 * b2 - a2 * b1).
Proof.
  intros A1 B1 A2 B2 X1 Y1 X2 Y2. apply (dg_sub 48 (e + e)); try lia.
  - apply (dg_mul_f64 24 24 e e); auto; try lia. apply dg_of; auto; lia.
  - apply (dg_mul_f64 24 24 e e); auto; try lia. apply dg_of; auto; lia.
Qed.
Lemma dd_meet_grid : dg 75 (e + (e + e)) xd xz /\ dg 75 (e + (e + e)) yd yz /\ dg 51 (e + e) wd wz.
Proof.
  destruct G1 as (X1 & Y1 & A1 & B1), G2 as (X2 & Y2 & A2 & B2), G3 as (X3 & Y3 & A3 & B3), G4 as (X4 & Y4 & A4 & B4).
  assert (dg 25 e pxd (m1 - m2)) as Px by (apply dg_diff24; auto).
  assert (dg 25 e pyd (n2 - n1)) as Py by (apply dg_diff24; auto).
  assert (dg 49 (e + e) pwd (n1 * m2 - n2 * m1)) as Pw by (apply dg_det24; auto).
  assert (dg 25 e qxd (m3 - m4)) as Qx by (apply dg_diff24; auto).
  assert (dg 25 e qyd (n4 - n3)) as Qy by (apply dg_diff24; auto).
  assert (dg 49 (e + e) qwd (n3 * m4 - n4 * m3)) as Qw by (apply dg_det24; auto).
  split; [|split].
  - apply (dg_sub 74); [lia|clear -He; lia| |]; (apply (dg_mul 25 49 e (e + e)); [lia|lia|clear -He; lia|clear -He; lia| |]); [exact Py|exact Qw|exact Qy|exact Pw].
  - apply (dg_sub 74); [lia|clear -He; lia| |]; (apply (dg_mul 25 49 e (e + e)); [lia|lia|clear -He; lia|clear -He; lia| |]); [exact Qx|exact Pw|exact Px|exact Qw].
  - apply (dg_sub 50); [lia|clear -He; lia| |]; (apply (dg_mul 25 25 e e); [lia|lia|clear -He; lia|clear -He; lia| |]); [exact Px|exact Qy|exact Qx|exact Py].
Qed.
Lemma xz_R : IZR xz * bp (e + (e + e)) = hxR a b c d /\ IZR yz * bp (e + (e + e)) = hyR a b c d /\ IZR wz * bp (e + e) = cross a b c d.
Proof.
  destruct G1 as ((_ & X1) & (_ & Y1) & _), G2 as ((_ & X2) & (_ & Y2) & _), G3 as ((_ & X3) & (_ & Y3) & _), G4 as ((_ & X4) & (_ & Y4) & _).
  unfold hxR, hyR, cross, a, b, c, d, rpt. cbn [px py]. rewrite X1, Y1, X2, Y2, X3, Y3, X4, Y4.
  unfold xz, yz, wz. rewrite !bp_split. repeat (rewrite ?minus_IZR, ?mult_IZR). repeat split; ring.
Qed.
Lemma meet_out (o : option Coordinate) (x y : f64) (P Q : f64 -> Prop) :
  o = (if fis_nan x || fis_infinite x || fis_nan y || fis_infinite y then None else Some (new_xy x y)) ->
  fis_finite x = true -> fis_finite y = true -> P x -> Q y ->
  exists r, o = Some r /\ P (cx r) /\ Q (cy r) /\ r = new_xy (cx r) (cy r).
Proof.
  intros -> Fx Fy Px Qy. exists (new_xy x y).
  assert (forall z, fis_finite z = true -> fis_nan z = false /\ fis_infinite z = false) as FF.
  { intros z. destruct z as [?|?| |? ? ? ?]; try discriminate; auto. }
  destruct (FF x Fx) as (-> & ->), (FF y Fy) as (-> & ->). auto.
Qed.
Lemma dd_meet_form : cgdd_intersection p1 p2 q1 q2 = let x := dd_double (dd_div xd wd) in let y := dd_double (dd_div yd wd) in
  if fis_nan x || fis_infinite x || fis_nan y || fis_infinite y then None else Some (new_xy x y).
Proof. reflexivity. Qed.
Lemma dd_meet_some : cross a b c d <> 0 ->
  exists r, cgdd_intersection p1 p2 q1 q2 = Some r /\ near (cx r) (px (meetR a b c d)) /\ near (cy r) (py (meetR a b c d)) /\
  r = new_xy (cx r) (cy r).
Proof.
  intros H. destruct dd_meet_grid as (Dx & Dy & Dw). destruct xz_R as (Ex & Ey & Ew).
  assert (wz <> 0)%Z as Nw by (intros Z; rewrite Z, Rmult_0_l in Ew; lra).
  pose proof (dg_div 75 51 (e + (e + e)) (e + e) xd xz wd wz ltac:(lia) ltac:(lia) ltac:(lia) ltac:(lia) ltac:(lia) ltac:(lia) Dx Dw Nw) as (Fx & vx & Vx & Bx).
  pose proof (dg_div 75 51 (e + (e + e)) (e + e) yd yz wd wz ltac:(lia) ltac:(lia) ltac:(lia) ltac:(lia) ltac:(lia) ltac:(lia) Dy Dw Nw) as (Fy & vy & Vy & By).
  rewrite Ex, Ew in Bx. rewrite Ey, Ew in By.
  exact (meet_out _ _ _ (fun z => near z (px (meetR a b c d))) (fun z => near z (py (meetR a b c d))) dd_meet_form Fx Fy
    (conj Fx (ex_intro _ vx (conj Vx Bx))) (conj Fy (ex_intro _ vy (conj Vy By)))).
Qed.
Lemma dd_meet_none : cross a b c d = 0 -> cgdd_intersection p1 p2 q1 q2 = None.
Proof.
  intros H. destruct dd_meet_grid as (Dx & Dy & Dw). destruct xz_R as (Ex & Ey & Ew).
  assert (wz = 0)%Z as Zw.
  { rewrite H in Ew. apply Rmult_integral in Ew. destruct Ew as [Ew|Ew]; [now apply eq_IZR|]. pose proof (bpow_gt_0 radix2 (e + e)). lra. }
  unfold cgdd_intersection. fold pxd pyd pwd qxd qyd qwd. fold xd yd wd.
  destruct (dg_single 51 (e + e) wd wz ltac:(lia) ltac:(lia) Dw) as (Eh & _). rewrite Zw, Rmult_0_l in Eh.
  assert (fis_nan (dd_double (dd_div xd wd)) = true) as ->; [|reflexivity].
  rewrite dd_div_unroll. apply dd_div_by_zero; [apply Dw|exact Eh|apply Dx].
Qed.
End DDMeet.

(** ** The plain double computations *)
Lemma fin_not z : fis_finite z = true -> fis_nan z = false /\ fis_infinite z = false.
Proof. destruct z as [?|?| |? ? ? ?]; try discriminate; auto. Qed.
Lemma div_zero_bad x y : fis_finite x = true -> fis_finite y = true -> R_of y = 0 ->
  fis_nan (fdiv x y) = true \/ fis_infinite (fdiv x y) = true.
Proof.
  intros Fx Fy E. destruct (zero_cases y Fy E) as (s & ->). destruct x as [?|?| |? ? ? ?]; try discriminate; auto.
Qed.
Lemma bad_none x y w : fis_finite x = true -> fis_finite w = true -> R_of w = 0 -> bad_result (fdiv x w) y = true.
Proof. intros Fx Fw Ew. unfold bad_result. destruct (div_zero_bad x w Fx Fw Ew) as [->| ->]; rewrite ?orb_true_r; reflexivity. Qed.
Lemma bad_some x y : fis_finite x = true -> fis_finite y = true -> bad_result x y = false.
Proof. intros Fx Fy. unfold bad_result. destruct (fin_not x Fx) as (-> & ->), (fin_not y Fy) as (-> & ->). reflexivity. Qed.
Definition ptk (e k : Z) (x y : f64) (P : pR) : Prop := ex e k x (px P) /\ ex e k y (py P).
(** The homogeneous intersection of points on a grid is exact. *)
Section Plain.
Variables e k : Z.
Hypothesis He : (-300 <= e <= 200)%Z.
Hypothesis Hk : (0 <= k <= 16)%Z.
Lemma h_exact ax ay bx by_ cx cy dx dy A B C D : ptk e k ax ay A -> ptk e k bx by_ B -> ptk e k cx cy C -> ptk e k dx dy D ->
  let px := fsub ay by_ in
  let py := fsub bx ax in
  let pw := fsub (fmul ax by_) (fmul bx ay) in
  let qx := fsub cy dy in
  let qy := fsub dx cx in
  let qw := fsub (fmul cx dy) (fmul dx cy) in
  ex (e + (e + e)) (3 * k + 3) (fsub (fmul py qw) (fmul qy pw)) (hxR A B C D) /\
  ex (e + (e + e)) (3 * k + 3) (fsub (fmul qx pw) (fmul px qw)) (hyR A B C D) /\
  ex (e + e) (2 * k + 3) (fsub (fmul px qy) (fmul qx py)) (cross A B C D).
Proof.
  intros (Ax & Ay) (Bx & By) (Cx & Cy) (Dx & Dy). cbv zeta.
  pose proof (ex_sub e k _ _ _ _ ltac:(lia) ltac:(lia) Ay By) as PX. set (px_ := fsub ay by_) in *.
  pose proof (ex_sub e k _ _ _ _ ltac:(lia) ltac:(lia) Bx Ax) as PY. set (py_ := fsub bx ax) in *.
  pose proof (ex_sub e k _ _ _ _ ltac:(lia) ltac:(lia) Cy Dy) as QX. set (qx_ := fsub cy dy) in *.
  pose proof (ex_sub e k _ _ _ _ ltac:(lia) ltac:(lia) Dx Cx) as QY. set (qy_ := fsub dx cx) in *.
  pose proof (ex_mul e e k k _ _ _ _ ltac:(lia) ltac:(lia) ltac:(lia) ltac:(lia) Ax By) as M1.
  pose proof (ex_mul e e k k _ _ _ _ ltac:(lia) ltac:(lia) ltac:(lia) ltac:(lia) Bx Ay) as M2.
  pose proof (ex_sub (e + e) (k + k) _ _ _ _ ltac:(lia) ltac:(lia) M1 M2) as PW. set (pw_ := fsub (fmul ax by_) (fmul bx ay)) in *.
  pose proof (ex_mul e e k k _ _ _ _ ltac:(lia) ltac:(lia) ltac:(lia) ltac:(lia) Cx Dy) as M3.
  pose proof (ex_mul e e k k _ _ _ _ ltac:(lia) ltac:(lia) ltac:(lia) ltac:(lia) Dx Cy) as M4.
  pose proof (ex_sub (e + e) (k + k) _ _ _ _ ltac:(lia) ltac:(lia) M3 M4) as QW. set (qw_ := fsub (fmul cx dy) (fmul dx cy)) in *.
  assert (forall u v w z a b c d, ex e (k + 1) u a -> ex (e + e) (k + k + 1) v b -> ex e (k + 1) w c -> ex (e + e) (k + k + 1) z d ->
    ex (e + (e + e)) (3 * k + 3) (fsub (fmul u v) (fmul w z)) (a * b - c * d)) as Big.
  { intros u v w z a0 b0 c0 d0 U V W Z.
    pose proof (ex_mul e (e + e) (k + 1) (k + k + 1) _ _ _ _ ltac:(lia) ltac:(lia) ltac:(lia) ltac:(lia) U V) as N1.
    pose proof (ex_mul e (e + e) (k + 1) (k + k + 1) _ _ _ _ ltac:(lia) ltac:(lia) ltac:(lia) ltac:(lia) W Z) as N2.
    apply (ex_weak _ (k + 1 + (k + k + 1) + 1)); [lia|]. apply ex_sub; auto; lia. }
  split; [|split].
  - exact (Big _ _ _ _ _ _ _ _ PY QW QY PW).
  - exact (Big _ _ _ _ _ _ _ _ QX PW PX QW).
  - pose proof (ex_mul e e (k + 1) (k + 1) _ _ _ _ ltac:(lia) ltac:(lia) ltac:(lia) ltac:(lia) PX QY) as N1.
    pose proof (ex_mul e e (k + 1) (k + 1) _ _ _ _ ltac:(lia) ltac:(lia) ltac:(lia) ltac:(lia) QX PY) as N2.
    pose proof (ex_sub (e + e) (k + 1 + (k + 1)) _ _ _ _ ltac:(lia) ltac:(lia) N1 N2) as N3.
    apply (ex_weak _ (k + 1 + (k + 1) + 1)); [lia|].
    replace (cross A B C D) with ((py A - py B) * (px D - px C) - (py C - py D) * (px B - px A)); [exact N3|]. unfold cross. ring.
Qed.
End Plain.
Lemma ex_quot e f k l x y a b : (-400 <= e <= 400)%Z -> (-400 <= f <= 400)%Z -> (0 <= k <= 53)%Z -> (0 <= l <= 53)%Z ->
  ex e k x a -> ex f l y b -> b <> 0 ->
  fis_finite (fdiv x y) = true /\ R_of (fdiv x y) = RN (a / b) /\ (a / b = 0 \/ bp (e - f - l) <= Rabs (a / b) <= bp (e - f + k)).
Proof.
  intros He Hf Hk Hl (Fx & Ex & n & Hn & Gx) (Fy & Ey & m & Hm & Gy) Hb.
  assert (IZR m <> 0) as NM by (intros Z; rewrite Z, Rmult_0_l in Gy; lra).
  assert (a / b = IZR n * bp 0 / (IZR m * bp 0) * bp (e - f)) as AB.
  { rewrite Gx, Gy. unfold Zminus. rewrite bp_split, bpow_opp. change (bp 0) with 1. field. split; [|exact NM]. apply Rgt_not_eq, bpow_gt_0. }
  assert (a / b = 0 \/ bp (e - f - l) <= Rabs (a / b) <= bp (e - f + k)) as Q.
  { destruct (Z.eq_dec n 0) as [-> | Zn].
    - left. rewrite Gx, Rmult_0_l. unfold Rdiv. apply Rmult_0_l.
    - right. rewrite AB, Rabs_mult, (Rabs_pos_eq (bp (e - f))) by apply bpow_ge_0.
      destruct (quot_range 0 k l n m Hk Hl Hn Hm Zn) as (Q1 & Q2); [intros ->; now apply NM|].
      pose proof (bpow_gt_0 radix2 (e - f)) as P.
      replace (e - f - l)%Z with (- l + (e - f))%Z by lia. replace (e - f + k)%Z with (k + (e - f))%Z by lia. rewrite !bp_split.
      split; apply Rmult_le_compat_r; lra. }
  destruct (fdiv_R x y Fx) as [F E].
  - rewrite Ey. exact Hb.
  - rewrite Ex, Ey. apply (RN_small _ 900); [lia |].
    destruct Q as [-> | Q]; [rewrite Rabs_R0; apply bpow_ge_0 |].
    eapply Rle_trans; [apply Q |]. apply bpow_le. lia.
  - rewrite Ex, Ey in E. tauto.
Qed.
(** ** Translations *)
Definition shift (P : pR) (mx my : R) : pR := mkP (px P - mx) (py P - my).
Lemma cross_shift a b c d x y : cross (shift a x y) (shift b x y) (shift c x y) (shift d x y) = cross a b c d.
Proof. unfold cross, shift. cbn [px py]. ring. Qed.
Lemma meet_shift a b c d x y : cross a b c d <> 0 ->
  meetR (shift a x y) (shift b x y) (shift c x y) (shift d x y) = shift (meetR a b c d) x y.
Proof.
  intros H. unfold meetR. rewrite cross_shift. unfold shift. cbn [px py]. unfold hxR, hyR. cbn [px py].
  f_equal; unfold cross in *; field; exact H.
Qed.
Lemma sel_lt (b : bool) (x y : f64) e k r s : ex e k x r -> ex e k y s -> exists q, ex e k (if b then x else y) q.
Proof. destruct b; eauto. Qed.
(** ** Nearly rounded values stay between grid values *)
Lemma fmt_mult r j : (-1022 <= j)%Z -> fmt r -> bp j <= Rabs r -> mult (j - 52) r.
Proof.
  intros J F L. assert (r <> 0) as NZ by (intros ->; rewrite Rabs_R0 in L; pose proof (bpow_gt_0 radix2 j); lra).
  assert (j < mag radix2 r)%Z as M by (apply mag_gt_bpow; exact L).
  unfold generic_format in F. rewrite F. unfold F2R. cbn [Fnum Fexp]. apply mult_scale.
  unfold cexp. rewrite fexp_FLT. unfold FLT_exp. lia.
Qed.
Lemma RN_stick h v j : (-1000 <= j)%Z -> fmt h -> bp j <= Rabs h < bp (j + 1) -> Rabs (v - h) <= bp (-100) * Rabs h -> RN v = h.
Proof.
  intros J F (L & U) D.
  assert (Rabs (RN v - h) <= bp (j - 98)) as D1.
  { assert (Rabs (RN v - v) <= Rabs (h - v)) as N by (apply (round_N_pt radix2 fexp64 (fun z => negb (Z.even z)) v); exact F).
    rewrite (Rabs_minus_sym h v) in N.
    assert (Rabs (v - h) <= bp (j - 99)) as D2.
    { eapply Rle_trans; [exact D|]. replace (j - 99)%Z with (-100 + (j + 1))%Z by lia. rewrite (bp_split (-100) (j + 1)).
      apply Rmult_le_compat_l; [apply bpow_ge_0|lra]. }
    replace (RN v - h) with ((RN v - v) + (v - h)) by ring. eapply Rle_trans; [apply Rabs_triang|].
    replace (j - 98)%Z with (j - 99 + 1)%Z by lia. rewrite bp_S. lra. }
  apply Rminus_diag_uniq. apply (mult_small (j - 53)).
  - apply mult_sub.
    + replace (j - 53)%Z with (j - 1 - 52)%Z by lia. apply fmt_mult; [lia|apply generic_format_round; typeclasses eauto|].
      assert (bp j = 2 * bp (j - 1)) as B by (rewrite <- bp_S; f_equal; lia).
      assert (bp (j - 98) <= bp (j - 1)) as B' by (apply bpow_le; lia).
      replace (RN v) with (h - (h - RN v)) by ring. eapply Rle_trans; [|apply Rabs_triang_inv]. rewrite (Rabs_minus_sym h (RN v)). lra.
    + destruct (fmt_mult h j ltac:(lia) F L) as (n & ->). apply mult_scale. lia.
  - eapply Rle_lt_trans; [exact D1|]. apply bpow_lt. lia.
Qed.
Lemma near_le e x v n z w : (-900 <= e <= 800)%Z -> near x v -> (Z.abs n <= 2 ^ 24)%Z -> (w <> 0)%Z -> (Z.abs w <= 2 ^ 51)%Z ->
  v = IZR z * bp e / IZR w -> Rabs v <= bp (24 + e) -> v <= IZR n * bp e -> R_of x <= IZR n * bp e.
Proof.
  intros He (_ & v' & -> & D) Hn Nw Hw Ev Bv L. set (h := IZR n * bp e) in *.
  assert (IZR w <> 0) as NW by (now apply not_0_IZR).
  assert (fmt h) as Fh by (apply format_grid; [lia|apply Z.le_trans with (2 ^ 24)%Z; [exact Hn|lia]]).
  destruct (Req_dec v h) as [E|E].
  - destruct (Z.eq_dec n 0) as [Zn|Nn].
    + assert (h = 0) as H0 by (unfold h; rewrite Zn; ring). rewrite E, H0, Rabs_R0, Rmult_0_r in D.
      rewrite H0. assert (v' = 0) as ->; [|rewrite RN_0; lra]. apply Rabs_le_inv in D. lra.
    + rewrite E in D. right.
      assert (h <> 0) as Nh.
      { unfold h. apply Rmult_integral_contrapositive_currified; [now apply not_0_IZR|]. apply Rgt_not_eq, bpow_gt_0. }
      apply (RN_stick h v' (mag radix2 h - 1)); auto.
      * assert (e < mag radix2 h)%Z; [|lia]. apply mag_gt_bpow. unfold h.
        rewrite Rabs_mult, (Rabs_pos_eq (bp e)) by apply bpow_ge_0. rewrite <- abs_IZR, <- (Rmult_1_l (bp e)) at 1.
        apply Rmult_le_compat_r; [apply bpow_ge_0|]. apply IZR_le. lia.
      * replace (mag radix2 h - 1 + 1)%Z with (mag radix2 h : Z) by lia. destruct (mag radix2 h) as (m & Hm). cbn. now apply Hm.
  - assert (bp (e - 51) <= h - v) as Gap.
    { assert (0 < h - v) as P by lra.
      assert (h - v = IZR (n * w - z) / IZR w * bp e) as EH by (rewrite Ev; unfold h; rewrite minus_IZR, mult_IZR; field; exact NW).
      assert (n * w - z <> 0)%Z as Nz by (intros Z0; rewrite Z0 in EH; unfold Rdiv in EH; rewrite !Rmult_0_l in EH; lra).
      rewrite <- (Rabs_pos_eq (h - v)) by lra. rewrite EH, Rabs_mult, (Rabs_pos_eq (bp e)) by apply bpow_ge_0.
      replace (e - 51)%Z with (- (51) + e)%Z by lia. rewrite bp_split. apply Rmult_le_compat_r; [apply bpow_ge_0|].
      rewrite Rabs_quot by exact NW. rewrite <- !abs_IZR.
      assert (1 <= IZR (Z.abs (n * w - z))) by (apply IZR_le; lia). assert (1 <= IZR (Z.abs w)) by (apply IZR_le; lia).
      assert (IZR (Z.abs w) <= bp 51) as HW by (change (bp 51) with (IZR (2 ^ 51)); apply IZR_le; exact Hw).
      rewrite bpow_opp. apply Rle_trans with (/ IZR (Z.abs w)); [apply Rinv_le; lra|].
      unfold Rdiv. rewrite <- (Rmult_1_l (/ IZR (Z.abs w))) at 1. apply Rmult_le_compat_r; [|lra].
      apply Rlt_le, Rinv_0_lt_compat. lra. }
    rewrite <- (RN_id h) by exact Fh. apply RN_le.
    assert (bp (-100) * Rabs v <= bp (e - 51)) as Sm.
    { apply Rle_trans with (bp (-100) * bp (24 + e)); [apply Rmult_le_compat_l; [apply bpow_ge_0|exact Bv]|].
      rewrite <- bp_split. apply bpow_le. lia. }
    apply Rabs_le_inv in D. lra.
Qed.
Lemma near_opp x v : near x v -> near (fneg x) (- v).
Proof.
  intros (F & v' & E & D). split; [now rewrite fneg_fin|]. exists (- v'). split.
  - rewrite fneg_R, E. symmetry. apply RN_opp.
  - rewrite Rabs_Ropp. replace (- v' - - v) with (- (v' - v)) by ring. now rewrite Rabs_Ropp.
Qed.
Lemma near_ge e x v n z w : (-900 <= e <= 800)%Z -> near x v -> (Z.abs n <= 2 ^ 24)%Z -> (w <> 0)%Z -> (Z.abs w <= 2 ^ 51)%Z ->
  v = IZR z * bp e / IZR w -> Rabs v <= bp (24 + e) -> IZR n * bp e <= v -> IZR n * bp e <= R_of x.
Proof.
  intros He N Hn Nw Hw Ev Bv L.
  pose proof (near_le e (fneg x) (- v) (- n) (- z) w He (near_opp _ _ N) ltac:(lia) Nw Hw) as H.
  rewrite !opp_IZR, Rabs_Ropp, fneg_R in H.
  assert (IZR w <> 0) as NW by (now apply not_0_IZR).
  assert (- R_of x <= - IZR n * bp e); [|lra]. apply H; [rewrite Ev; field; exact NW|exact Bv|lra].
Qed.
(** The ordinates of the common point are fractions with a small denominator. *)
Lemma meet_rat e p1 p2 q1 q2 n1 m1 n2 m2 n3 m3 n4 m4 : (-100 <= e <= 70)%Z ->
  rough e p1 n1 m1 -> rough e p2 n2 m2 -> rough e q1 n3 m3 -> rough e q2 n4 m4 ->
  cross (rpt p1) (rpt p2) (rpt q1) (rpt q2) <> 0 ->
  exists x y w, (w <> 0)%Z /\ (Z.abs w <= 2 ^ 51)%Z /\
    px (meetR (rpt p1) (rpt p2) (rpt q1) (rpt q2)) = IZR x * bp e / IZR w /\
    py (meetR (rpt p1) (rpt p2) (rpt q1) (rpt q2)) = IZR y * bp e / IZR w.
Proof.
  intros He G1 G2 G3 G4 H.
  destruct (xz_R e p1 p2 q1 q2 _ _ _ _ _ _ _ _ G1 G2 G3 G4) as (Ex & Ey & Ew).
  destruct (dd_meet_grid e He p1 p2 q1 q2 _ _ _ _ _ _ _ _ G1 G2 G3 G4) as (_ & _ & (_ & _ & Bw)).
  set (xz := ((n2 - n1) * (n3 * m4 - n4 * m3) - (n4 - n3) * (n1 * m2 - n2 * m1))%Z) in *.
  set (yz := ((m3 - m4) * (n1 * m2 - n2 * m1) - (m1 - m2) * (n3 * m4 - n4 * m3))%Z) in *.
  set (wz := ((m1 - m2) * (n4 - n3) - (m3 - m4) * (n2 - n1))%Z) in *.
  assert (wz <> 0)%Z as Nw by (intros Z; rewrite Z, Rmult_0_l in Ew; congruence).
  assert (IZR wz <> 0) as NW by (now apply not_0_IZR).
  assert (bp e <> 0) as NB by (apply Rgt_not_eq, bpow_gt_0).
  exists xz, yz, wz. split; [exact Nw|]. split; [exact Bw|].
  unfold meetR. cbn [px py]. rewrite <- Ex, <- Ey, <- Ew, !bp_split. split; field; auto.
Qed.
Lemma ex_fine e k x r : (0 <= k)%Z -> ex e k x r -> ex (e - 1) (k + 1) x r.
Proof.
  intros K (F & E & n & Hn & G). split; [exact F|]. split; [exact E|]. exists (2 * n)%Z. split.
  - rewrite Z.pow_add_r by lia. lia.
  - rewrite G, mult_IZR. replace e with (e - 1 + 1)%Z at 1 by lia. rewrite bp_S. ring.
Qed.
Lemma ex_half e k x r : (-1000 <= e <= 900)%Z -> (0 <= k <= 53)%Z -> ex e k x r -> ex (e - 1) k (fdiv x f2) (r / 2).
Proof.
  intros He K (F & E & n & Hn & G).
  assert (r / 2 = IZR n * bp (e - 1)) as GH.
  { rewrite G. replace e with (e - 1 + 1)%Z at 1 by lia. rewrite bp_S. field. }
  assert (Z.abs n <= 2 ^ 53)%Z as Hn' by (apply Z.le_trans with (2 ^ k)%Z; [exact Hn|apply Z.pow_le_mono_r; lia]).
  destruct (fdiv_R x f2 F) as (F' & E').
  - rewrite R_of_f2. lra.
  - rewrite R_of_f2, E, GH, grid_RN by lia. eapply Rle_lt_trans; [apply (grid_abs 53); [lia|exact Hn']|]. apply bpow_lt. lia.
  - rewrite R_of_f2, E, GH, grid_RN in E' by lia. split; [exact F'|]. split; [now rewrite GH|]. exists n. auto.
Qed.
(** The two halves of [intersection_fp]. *)
Definition fp_mid (a b c d : f64) : f64 :=
  let min0 := if fltb a b then a else b in
  let max0 := if fgtb a b then a else b in
  let min1 := if fltb c d then c else d in
  let max1 := if fgtb c d then c else d in
  fdiv (fadd (if fgtb min0 min1 then min0 else min1) (if fltb max0 max1 then max0 else max1)) f2.
Definition fp_tail (midx midy : f64) (p1 p2 q1 q2 : Coordinate) : option Coordinate :=
  match h_meet (new_xy (fsub (cx p1) midx) (fsub (cy p1) midy)) (new_xy (fsub (cx p2) midx) (fsub (cy p2) midy))
               (new_xy (fsub (cx q1) midx) (fsub (cy q1) midy)) (new_xy (fsub (cx q2) midx) (fsub (cy q2) midy)) with
  | mkH x y w =>
    if bad_result (fdiv x w) (fdiv y w) then None else Some (new_xy (fadd (fdiv x w) midx) (fadd (fdiv y w) midy))
  end.
Lemma fp_split p1 p2 q1 q2 : intersection_fp p1 p2 q1 q2 =
  fp_tail (fp_mid (cx p1) (cx p2) (cx q1) (cx q2)) (fp_mid (cy p1) (cy p2) (cy q1) (cy q2)) p1 p2 q1 q2.
Proof. reflexivity. Qed.
Lemma fp_mid_ex e k a b c d ra rb rc rd : (-900 <= e <= 800)%Z -> (0 <= k <= 50)%Z ->
  ex e k a ra -> ex e k b rb -> ex e k c rc -> ex e k d rd -> exists r, ex (e - 1) (k + 1) (fp_mid a b c d) r.
Proof.
  intros He K A B C D. unfold fp_mid. cbv zeta.
  destruct (sel_lt (fltb a b) a b _ _ _ _ A B) as (r1 & E1). destruct (sel_lt (fgtb a b) a b _ _ _ _ A B) as (r2 & E2).
  destruct (sel_lt (fltb c d) c d _ _ _ _ C D) as (r3 & E3). destruct (sel_lt (fgtb c d) c d _ _ _ _ C D) as (r4 & E4).
  set (m0 := if fltb a b then a else b) in *. set (x0 := if fgtb a b then a else b) in *.
  set (m1 := if fltb c d then c else d) in *. set (x1 := if fgtb c d then c else d) in *.
  destruct (sel_lt (fgtb m0 m1) m0 m1 _ _ _ _ E1 E3) as (r5 & E5). destruct (sel_lt (fltb x0 x1) x0 x1 _ _ _ _ E2 E4) as (r6 & E6).
  exists ((r5 + r6) / 2). apply ex_half; [lia|lia|]. apply ex_add; auto; lia.
Qed.
Lemma add_back x mid d rd q : fis_finite x = true -> R_of x = RN d -> (d = 0 \/ bp (-900) <= Rabs d <= bp 900) ->
  fis_finite mid = true -> R_of mid = rd -> Rabs rd <= bp 500 -> d = q - rd ->
  fis_finite (fadd x mid) = true /\ Rabs (R_of (fadd x mid) - q) <= 3 * u53 * (Rabs q + Rabs rd).
Proof.
  intros Fx Ex Rg Fm Em Bm Ed. pose proof u53_pos as U0. pose proof u53_small as U1.
  pose proof (Rabs_pos q) as PQ. pose proof (Rabs_pos rd) as PR.
  assert (Rabs (RN d - d) <= u53 * Rabs d) as D1.
  { apply RN_rel. destruct Rg as [Z|(L & _)]; [now left|right]. eapply Rle_trans; [|exact L]. apply bpow_le. lia. }
  assert (Rabs d <= Rabs q + Rabs rd) as Sd by (rewrite Ed; unfold Rminus; eapply Rle_trans; [apply Rabs_triang|]; rewrite Rabs_Ropp; lra).
  assert (Rabs (RN d) <= bp 900) as Bx.
  { apply RN_abs_le; [lia|]. destruct Rg as [->|Z]; [rewrite Rabs_R0; apply bpow_ge_0|apply Z]. }
  destruct (bf_add 900 x mid ltac:(lia)) as ((F & _) & E).
  { split; [exact Fx|]. now rewrite Ex. }
  { split; [exact Fm|]. rewrite Em. eapply Rle_trans; [exact Bm|]. apply bpow_le. lia. }
  split; [exact F|]. rewrite E.
  pose proof (RN_sum_err (R_of x) (R_of mid) (format_R x) (format_R mid)) as D2.
  assert (R_of x + R_of mid - q = RN d - d) as H by (rewrite Ex, Em, Ed; ring).
  assert (Rabs (R_of x + R_of mid) <= Rabs q + u53 * Rabs d) as S2.
  { replace (R_of x + R_of mid) with (q + (R_of x + R_of mid - q)) by ring. eapply Rle_trans; [apply Rabs_triang|]. rewrite H. lra. }
  set (s := R_of x + R_of mid) in *.
  replace (RN s - q) with ((RN s - s) + (s - q)) by ring. eapply Rle_trans; [apply Rabs_triang|]. rewrite H.
  assert (u53 * Rabs s <= u53 * (Rabs q + u53 * Rabs d)) as M1 by (apply Rmult_le_compat_l; lra).
  assert (u53 * Rabs d <= u53 * (Rabs q + Rabs rd)) as M2 by (apply Rmult_le_compat_l; lra).
  assert (0 <= u53 * Rabs rd) by (apply Rmult_le_pos; lra). assert (0 <= u53 * Rabs q) by (apply Rmult_le_pos; lra).
  assert (u53 * (u53 * Rabs d) <= 1 * (u53 * (Rabs q + Rabs rd))) as M3.
  { apply Rmult_le_compat; try lra. apply Rmult_le_pos; [lra|apply Rabs_pos]. }
  lra.
Qed.
(** ** Sides of a line *)
Lemma P2_ext (p q : pR) : px p = px q -> py p = py q -> p = q.
Proof. destruct p, q. cbn. intros -> ->. reflexivity. Qed.
Lemma side_along a b c d t : side a b (along c d t) = (1 - t) * side a b c + t * side a b d.
Proof. unfold side, along. cbn [px py]. ring. Qed.
Lemma cross_side a b c d : cross a b c d = side a b d - side a b c.
Proof. unfold cross, side. ring. Qed.
Lemma line_side a b q : on_line a b q -> side a b q = 0.
Proof. intros (t & ->). unfold side, along. cbn [px py]. ring. Qed.
Lemma side_line a b q : a <> b -> side a b q = 0 -> on_line a b q.
Proof.
  intros N H. unfold side in H. unfold on_line, along.
  destruct (Req_dec (px a) (px b)) as [X|X]; [destruct (Req_dec (py a) (py b)) as [Y|Y]|].
  - exfalso. apply N. now apply P2_ext.
  - exists ((py q - py a) / (py b - py a)). apply P2_ext; cbn [px py]; [|field; lra].
    apply Rmult_eq_reg_l with (py b - py a); [|lra]. field_simplify; [|lra]. nra.
  - exists ((px q - px a) / (px b - px a)). apply P2_ext; cbn [px py]; [field; lra|].
    apply Rmult_eq_reg_l with (px b - px a); [|lra]. field_simplify; [|lra]. nra.
Qed.
Lemma segment_box a b q : on_segment a b q -> in_box2 a b q /\ side a b q = 0.
Proof.
  intros (t & T & ->).
  assert (MM : forall u v, Rmin u v <= u + t * (v - u) <= Rmax u v) by (clear - T; intros u v; unfold Rmin, Rmax; destruct (Rle_dec u v); nra).
  split; [split; cbn [px py along]; apply MM|]. unfold side, along. cbn [px py]. ring.
Qed.
Lemma box_segment a b q : in_box2 a b q -> side a b q = 0 -> on_segment a b q.
Proof.
  intros (X & Y) D. destruct (box_on_seg (px a) (py a) (px b) (py b) (px q) (py q) X Y) as (t & T & E1 & E2).
  - exact D.
  - cbn [fst snd] in *. exists t. split; [exact T|]. now apply P2_ext.
Qed.
(** Two points strictly on the two sides: the lines meet strictly between them. *)
Lemma opp_cross a b c d : opposite (side a b c) (side a b d) -> cross a b c d <> 0.
Proof. rewrite cross_side. intros [H|H]; lra. Qed.
Lemma param_side a b c d : cross a b c d <> 0 -> paramR c d a b = side a b c / (side a b c - side a b d).
Proof.
  intros H. unfold paramR. replace (cross c d a b) with (side a b c - side a b d) by (unfold cross, side; ring).
  f_equal. unfold side. ring.
Qed.
Lemma opp_param a b c d : opposite (side a b c) (side a b d) -> 0 < paramR c d a b < 1.
Proof.
  intros H. rewrite param_side by (now apply opp_cross).
  set (s := side a b c) in *. set (t := side a b d) in *. clearbody s t.
  assert (s / (s - t) * (s - t) = s) as E by (field; destruct H; lra).
  set (k := s / (s - t)) in *. clearbody k. destruct H; split; nra.
Qed.
Lemma opp_meet a b c d : opposite (side a b c) (side a b d) -> on_segment c d (meetR a b c d) /\ on_line a b (meetR a b c d).
Proof.
  intros H. pose proof (opp_cross _ _ _ _ H) as N. pose proof (opp_param _ _ _ _ H) as P. split.
  - exists (paramR c d a b). split; [lra|]. now apply meet_param2.
  - exists (paramR a b c d). now apply meet_param.
Qed.
(** A nearly rounded value between two grid values is still between them. *)
Lemma near_between e x v a b z w : (-900 <= e <= 800)%Z -> near x v -> (Z.abs a <= 2 ^ 24)%Z -> (Z.abs b <= 2 ^ 24)%Z ->
  (w <> 0)%Z -> (Z.abs w <= 2 ^ 51)%Z -> v = IZR z * bp e / IZR w ->
  Rmin (IZR a * bp e) (IZR b * bp e) <= v <= Rmax (IZR a * bp e) (IZR b * bp e) ->
  Rmin (IZR a * bp e) (IZR b * bp e) <= R_of x <= Rmax (IZR a * bp e) (IZR b * bp e).
Proof.
  intros He N Ha Hb Nw Hw Ev H.
  assert (Rabs v <= bp (24 + e)) as Bv.
  { pose proof (grid_abs 24 e a ltac:(lia) Ha) as A. pose proof (grid_abs 24 e b ltac:(lia) Hb) as B.
    apply Rabs_le_inv in A. apply Rabs_le_inv in B. apply Rabs_le. unfold Rmin, Rmax in H. destruct (Rle_dec _ _); lra. }
  unfold Rmin, Rmax in *. destruct (Rle_dec (IZR a * bp e) (IZR b * bp e)) as [L|L]; split.
  - eapply near_ge; eauto; lra.
  - eapply near_le; eauto; lra.
  - eapply near_ge; eauto; lra.
  - eapply near_le; eauto; lra.
Qed.
Lemma rough_rpt e c n m : rough e c n m -> px (rpt c) = IZR n * bp e /\ py (rpt c) = IZR m * bp e.
Proof. intros (G & H & _). split; [apply G|apply H]. Qed.
Lemma meet_in_box e p1 p2 q1 q2 r n1 m1 n2 m2 n3 m3 n4 m4 : (-100 <= e <= 70)%Z ->
  rough e p1 n1 m1 -> rough e p2 n2 m2 -> rough e q1 n3 m3 -> rough e q2 n4 m4 ->
  cross (rpt p1) (rpt p2) (rpt q1) (rpt q2) <> 0 ->
  let m := meetR (rpt p1) (rpt p2) (rpt q1) (rpt q2) in
  near (cx r) (px m) -> near (cy r) (py m) ->
  (on_segment (rpt p1) (rpt p2) m -> in_box2 (rpt p1) (rpt p2) (rpt r)) /\
  (on_segment (rpt q1) (rpt q2) m -> in_box2 (rpt q1) (rpt q2) (rpt r)).
Proof.
  intros He G1 G2 G3 G4 H m Nx Ny.
  destruct (meet_rat e p1 p2 q1 q2 _ _ _ _ _ _ _ _ He G1 G2 G3 G4 H) as (x & y & w & Nw & Hw & Ex & Ey). fold m in Ex, Ey. clearbody m.
  pose proof (rough_rpt _ _ _ _ G1) as (A1 & A2). pose proof (rough_rpt _ _ _ _ G2) as (B1 & B2).
  pose proof (rough_rpt _ _ _ _ G3) as (C1 & C2). pose proof (rough_rpt _ _ _ _ G4) as (D1 & D2).
  destruct G1 as (_ & _ & ? & ?), G2 as (_ & _ & ? & ?), G3 as (_ & _ & ? & ?), G4 as (_ & _ & ? & ?).
  split; intros S; apply segment_box in S; destruct S as ((X & Y) & _); split.
  - rewrite A1, B1 in *. cbn [px rpt]. eapply near_between; eauto; lia.
  - rewrite A2, B2 in *. cbn [py rpt]. eapply near_between; eauto; lia.
  - rewrite C1, D1 in *. cbn [px rpt]. eapply near_between; eauto; lia.
  - rewrite C2, D2 in *. cbn [py rpt]. eapply near_between; eauto; lia.
Qed.
(** The orientation of small points is the sign of [side]. *)
Lemma small_gpt e c : small_pt e c -> gpt e c.
Proof. intros [(n & Hn & Gn) (m & Hm & Gm)]. split; [exists n|exists m]; (split; [lia|assumption]). Qed.
Lemma orient_side e a b c : (-440 <= e <= 420)%Z -> gpt e a -> gpt e b -> gpt e c -> is_sign (orient a b c) (side (rpt a) (rpt b) (rpt c)).
Proof. intros He A B C. exact (orient_grid e a b c He A B C). Qed.
Lemma same_side_R z1 z2 r1 r2 : is_sign z1 r1 -> is_sign z2 r2 ->
  (((0 <? z1) && (0 <? z2)) || ((z1 <? 0) && (z2 <? 0)) = true)%Z <-> (0 < r1 /\ 0 < r2) \/ (r1 < 0 /\ r2 < 0).
Proof.
  intros [(-> & A)|[(-> & A)|(-> & A)]] [(-> & B)|[(-> & B)|(-> & B)]]; cbn; split; intros H; try discriminate; try reflexivity; lra.
Qed.
Lemma same_sides_apart a b c d q : (0 < side a b c /\ 0 < side a b d) \/ (side a b c < 0 /\ side a b d < 0) ->
  on_segment c d q -> on_line a b q -> False.
Proof.
  intros H (t & T & ->) L. apply line_side in L. rewrite side_along in L.
  set (s := side a b c) in *. set (r := side a b d) in *. clearbody s r. destruct H; nra.
Qed.
