(** C72, C85: double-double division by zero, and the double-double circumcentre
    of a flat triangle. *)
From Coq Require Import ZArith Bool Reals Lia Lra.
From Flocq Require Import Core IEEE754.BinarySingleNaN.
From Verif Require Import Base F64 F64Facts F64Err Num NumLink Coordinate_model DD_model DD_spec DD_proofs DD_more Orientation_spec Orientation_props
  Distance_spec Distance_props Intersection_model Intersection_spec Intersection_proofs Intersection_props Triangle_model Triangle_spec Triangle_proofs Triangle_float Entry_model Refuse_props.
Local Open Scope R_scope.

Lemma add_nan_r x : fadd x fnan = fnan. Proof. destruct x as [[]|[]| |[] m e H]; reflexivity. Qed.
Lemma add_nan_l x : fadd fnan x = fnan. Proof. destruct x as [[]|[]| |[] m e H]; reflexivity. Qed.
Lemma sub_nan_r x : fsub x fnan = fnan. Proof. destruct x as [[]|[]| |[] m e H]; reflexivity. Qed.
Lemma sub_nan_l x : fsub fnan x = fnan. Proof. destruct x as [[]|[]| |[] m e H]; reflexivity. Qed.
Lemma div_nan_l x : fdiv fnan x = fnan. Proof. destruct x as [[]|[]| |[] m e H]; reflexivity. Qed.
Lemma nf_mul_zero v s : fis_finite v = false -> fmul v (B754_zero s) = fnan.
Proof. intros F. destruct (nf_cases v F) as [->|[t ->]]; reflexivity. Qed.
(** Dividing by zero, or taking the reciprocal of it, gives NaN in both parts:
    never an infinity, and for every dividend.  (Dividing doubles gives
    infinities except for zero and NaN.) *)
Theorem C72_divide_by_zero : forall x y, feqb (hi y) f0 = true ->
  (hi (dd_div x y) = fnan /\ lo (dd_div x y) = fnan) /\ (hi (dd_self_div x y) = fnan /\ lo (dd_self_div x y) = fnan) /\
  (hi (dd_div_f64 x (hi y)) = fnan /\ lo (dd_div_f64 x (hi y)) = fnan) /\ (hi (dd_recip y) = fnan /\ lo (dd_recip y) = fnan).
Proof.
  intros x [h l] Z. cbn [hi] in *. assert (exists s, h = B754_zero s) as (s & ->).
  { destruct h as [s|[]| |[] m e H]; try discriminate Z. now exists s. }
  unfold dd_self_div, dd_div_f64, dd_div, dd_div_hi_lo, dd_recip. cbn [hi lo fis_nan is_nan]. cbv zeta.
  pose proof (nf_div0 (hi x) s) as F. pose proof (nf_div0 f1 s) as G.
  set (q := fdiv (hi x) (B754_zero s)) in *. set (r := fdiv f1 (B754_zero s)) in *.
  rewrite !(nf_mul_zero q s F), !(nf_mul_zero r s G).
  repeat rewrite ?sub_nan_r, ?sub_nan_l, ?add_nan_r, ?add_nan_l, ?div_nan_l. repeat split.
Qed.
(** One over zero, in doubles and in double-doubles. *)
Example C72_divide_by_zero_example : feqb (hi (dd_of f0)) f0 = true /\ fis_finite (hi (dd_of f1)) = true /\ fdiv f1 f0 = finf /\
  dd_is_nan (dd_div (dd_of f1) (dd_of f0)) = true.
Proof. repeat split. Qed.

Lemma dd_add_nan x : dd_double (dd_add x (mkDD fnan fnan)) = fnan.
Proof.
  unfold dd_double, dd_add, dd_add_hi_lo. cbn [hi lo]. cbv zeta. repeat rewrite ?sub_nan_r, ?sub_nan_l, ?add_nan_r, ?add_nan_l. reflexivity.
Qed.
Lemma dd_div_nan x y : feqb (hi y) f0 = true -> dd_div x y = mkDD fnan fnan.
Proof. intros Z. destruct (C72_divide_by_zero x y Z) as ((H & L) & _). destruct (dd_div x y) as [h l]. cbn [hi lo] in *. now subst. Qed.
(** The double-double circumcentre (triangle.rs 247-271) of a flat triangle is
    NaN in both ordinates, whatever the three points on the line. *)
Theorem C85_flat_triangle_dd : forall e a b c, (-70 <= e <= 70)%Z -> small_pt e a -> small_pt e b -> small_pt e c -> det_pts a b c = 0 ->
  cx (tri_circumcentre_dd a b c) = fnan /\ cy (tri_circumcentre_dd a b c) = fnan.
Proof.
  intros e a b c He Sa Sb Sc D.
  destruct (small_rough e a Sa) as (n1 & m1 & X1 & Y1 & A1 & B1), (small_rough e b Sb) as (n2 & m2 & X2 & Y2 & A2 & B2), (small_rough e c Sc) as (n3 & m3 & X3 & Y3 & A3 & B3).
  unfold tri_circumcentre_dd.
  assert (Dax : dg 25 e (dd_sub_f64 (dd_of (cx a)) (cx c)) (n1 - n3)) by (apply dg_sub_f64; auto; lia).
  assert (Day : dg 25 e (dd_sub_f64 (dd_of (cy a)) (cy c)) (m1 - m3)) by (apply dg_sub_f64; auto; lia).
  assert (Dbx : dg 25 e (dd_sub_f64 (dd_of (cx b)) (cx c)) (n2 - n3)) by (apply dg_sub_f64; auto; lia).
  assert (Dby : dg 25 e (dd_sub_f64 (dd_of (cy b)) (cy c)) (m2 - m3)) by (apply dg_sub_f64; auto; lia).
  set (ax := dd_sub_f64 (dd_of (cx a)) (cx c)) in *. set (ay := dd_sub_f64 (dd_of (cy a)) (cy c)) in *.
  set (bx := dd_sub_f64 (dd_of (cx b)) (cx c)) in *. set (by_ := dd_sub_f64 (dd_of (cy b)) (cy c)) in *.
  assert (Dd : dg 53 (e + e) (dd_mul_f64 (dd_det ax ay bx by_) f2) (2 * ((n1 - n3) * (m2 - m3) - (n2 - n3) * (m1 - m3)))).
  { apply (dg_twice 51); try lia. apply (dg_det 25 25 e e); auto; lia. }
  set (den := dd_mul_f64 (dd_det ax ay bx by_) f2) in *.
  assert (DZ : ((n1 - n3) * (m2 - m3) - (n2 - n3) * (m1 - m3) = 0)%Z).
  { unfold det_pts, det3 in D. rewrite (proj2 X1), (proj2 Y1), (proj2 X2), (proj2 Y2), (proj2 X3), (proj2 Y3) in D.
    apply eq_IZR. rewrite minus_IZR, !mult_IZR, !minus_IZR. pose proof (bpow_gt_0 radix2 e) as P.
    assert (W : ((IZR n1 - IZR n3) * (IZR m2 - IZR m3) - (IZR n2 - IZR n3) * (IZR m1 - IZR m3)) * (bp e * bp e) = 0) by (rewrite <- D; ring).
    apply Rmult_integral in W. destruct W as [W|W]; [exact W|]. apply Rmult_integral in W. lra. }
  assert (Z : feqb (hi den) f0 = true).
  { destruct Dd as (((F & _) & N) & V & _). rewrite V, DZ, Z.mul_0_r, Rmult_0_l, round_0 in N by typeclasses eauto.
    rewrite feqb_R by (exact F || reflexivity). change (R_of f0) with 0. rewrite N. now apply Req_bool_true. }
  unfold new_xy. cbn [cx cy]. rewrite !(dd_div_nan _ den Z). unfold dd_sub. change (dd_neg (mkDD fnan fnan)) with (mkDD fnan fnan).
  now rewrite !dd_add_nan.
Qed.
(** The flat triangle of C85_flat_triangle_example. *)
Example C85_flat_triangle_dd_example : small_pt 0 (ipt 1 1) /\ small_pt 0 (ipt 3 3) /\ small_pt 0 (ipt 2 2) /\ det_pts (ipt 1 1) (ipt 3 3) (ipt 2 2) = 0.
Proof. exact C85_flat_triangle_example. Qed.

(** ** Infinite arguments *)
Lemma mul_nan_r x : fmul x fnan = fnan. Proof. destruct x as [[]|[]| |[] m e H]; reflexivity. Qed.
Lemma mul_nan_l x : fmul fnan x = fnan. Proof. destruct x as [[]|[]| |[] m e H]; reflexivity. Qed.
Lemma div_nan_r x : fdiv x fnan = fnan. Proof. destruct x as [[]|[]| |[] m e H]; reflexivity. Qed.
Ltac nans := repeat rewrite ?sub_nan_r, ?sub_nan_l, ?add_nan_r, ?add_nan_l, ?mul_nan_r, ?mul_nan_l, ?div_nan_l, ?div_nan_r.
(** An infinity or a NaN less itself, or plus another number less itself. *)
Lemma nf_self v w : fis_finite v = false -> fsub (fadd v w) v = fnan.
Proof. intros F. destruct (nf_cases v F) as [->|[s ->]]; [nans; reflexivity|]. destruct w as [[]|[]| |[] m e H], s; reflexivity. Qed.
Lemma nf_split v : fis_finite v = false -> fsub (fmul SPLIT v) v = fnan.
Proof. intros F. destruct (nf_cases v F) as [->|[[] ->]]; reflexivity. Qed.
Lemma nf_other v w : fis_finite v = false -> fsub (fadd w v) (fsub (fadd w v) w) = fnan.
Proof. intros F. destruct (nf_cases v F) as [->|[s ->]]; [nans; reflexivity|]. destruct w as [[]|[]| |[] m e H], s; reflexivity. Qed.
Lemma nf_quot v w : fis_finite v = false -> fis_finite w = true -> fis_finite (fdiv v w) = false.
Proof. intros F G. destruct (nf_cases v F) as [->|[s ->]]; destruct w as [[]|[]| |[] m e H]; try discriminate G; reflexivity. Qed.
Lemma sum_nf x yh yl : fis_finite (hi x) = false \/ fis_finite yh = false -> hi (dd_add_hi_lo x yh yl) = fnan.
Proof.
  unfold dd_add_hi_lo. cbv zeta. cbn [hi]. intros [F|F].
  - rewrite !(nf_self (hi x) yh F). nans. reflexivity.
  - rewrite !(nf_other yh (hi x) F). nans. reflexivity.
Qed.
Lemma product_nf x yh yl : fis_finite (hi x) = false \/ fis_finite yh = false -> hi (dd_mul_hi_lo x yh yl) = fnan.
Proof. unfold dd_mul_hi_lo. cbv zeta. cbn [hi]. intros [F|F]; rewrite !(nf_split _ F); nans; reflexivity. Qed.
Lemma quotient_nf x yh yl : fis_finite (hi x) = false \/ fis_finite yh = false -> hi (dd_div_hi_lo x yh yl) = fnan.
Proof.
  unfold dd_div_hi_lo. cbv zeta. cbn [hi]. destruct (fis_finite yh) eqn:Y.
  - intros [F|F]; [|discriminate F]. rewrite !(nf_split _ (nf_quot _ _ F Y)). nans. reflexivity.
  - intros _. rewrite !(nf_split _ Y). nans. reflexivity.
Qed.
(** Double-double arithmetic knows no infinities: a sum, difference, product,
    square, quotient or reciprocal with an infinite or NaN argument is NaN, even
    one over infinity or infinity plus one. *)
Theorem C72_infinite_arguments : forall x y, fis_finite (hi x) = false \/ fis_finite (hi y) = false ->
  dd_is_nan (dd_add x y) = true /\ dd_is_nan (dd_sub x y) = true /\ dd_is_nan (dd_self_sub x y) = true /\
  dd_is_nan (dd_mul x y) = true /\ dd_is_nan (dd_self_mul x y) = true /\
  dd_is_nan (dd_div x y) = true /\ dd_is_nan (dd_self_div x y) = true /\
  (fis_finite (hi x) = false -> dd_is_nan (dd_sqr x) = true /\ dd_is_nan (dd_recip x) = true /\ dd_is_nan (dd_sqrt x) = true).
Proof.
  intros x y H. unfold dd_is_nan.
  assert (Ng : fis_finite (hi (dd_neg y)) = fis_finite (hi y)).
  { unfold dd_neg. destruct (dd_is_nan y); [reflexivity|]. cbn [hi]. now destruct (hi y). }
  assert (Nf : fis_finite (fneg (hi y)) = fis_finite (hi y)) by now destruct (hi y).
  split; [unfold dd_add; now rewrite sum_nf|]. split; [unfold dd_sub, dd_add; rewrite sum_nf; [reflexivity|now rewrite Ng]|].
  split. { unfold dd_self_sub. destruct (dd_is_nan x) eqn:N; [exact N|]. rewrite sum_nf; [reflexivity|now rewrite Nf]. }
  split. { unfold dd_mul, dd_self_mul. destruct (dd_is_nan y); [reflexivity|]. now rewrite product_nf. }
  split; [unfold dd_self_mul; now rewrite product_nf|].
  split. { change (dd_div x y) with (dd_div_hi_lo x (hi y) (lo y)). now rewrite quotient_nf. }
  split. { unfold dd_self_div. now rewrite quotient_nf. }
  intros F. assert (S : forall v : DD, fis_finite (hi v) = false -> dd_is_nan (dd_sqr v) = true).
  { intros v G. unfold dd_sqr, dd_mul, dd_self_mul. destruct (dd_is_nan v); [reflexivity|]. unfold dd_is_nan. now rewrite product_nf by now left. }
  split; [now apply S|]. split.
  - unfold dd_recip. cbv zeta. cbn [hi]. rewrite !(nf_split _ F). nans. reflexivity.
  - unfold dd_sqrt. destruct (dd_is_zero x) eqn:Z; [unfold dd_is_zero in Z; destruct (nf_cases _ F) as [E|[[] E]]; rewrite E in Z; discriminate Z|].
    destruct (dd_is_negative x) eqn:N; [reflexivity|]. cbv zeta.
    assert (A : fmul (hi x) (fdiv f1 (fsqrt (hi x))) = fnan).
    { destruct (nf_cases _ F) as [E|[[] E]]; rewrite E; try reflexivity. }
    rewrite A. unfold dd_add_f64. cbv zeta. cbn [hi dd_of]. nans. reflexivity.
Qed.
Example C72_infinite_arguments_example : fis_finite (hi (dd_of finf)) = false /\ dd_is_nan (dd_of finf) = false /\ feqb (fdiv f1 finf) f0 = true /\
  dd_is_nan (dd_div (dd_of f1) (dd_of finf)) = true /\ dd_is_nan (dd_sqrt (dd_of finf)) = true.
Proof. repeat split; vm_compute; reflexivity. Qed.
