(** C61: triangles. *)
From Coq Require Import ZArith Bool Reals Lia Lra Psatz.
From Flocq Require Import Core IEEE754.BinarySingleNaN.
From Verif Require Import Base F64 F64Facts F64Err Num NumLink Coordinate_model DD_model DD_spec DD_proofs DD_more
  Orientation_model Orientation_spec Orientation_props Distance_model Distance_spec Distance_proofs Distance_float Distance_props
  Intersection_model Intersection_spec Intersection_proofs Intersection_props Angle_model Angle_props
  Triangle_model Triangle_spec Triangle_proofs Triangle_float.
Local Open Scope R_scope.

(** ** In exact arithmetic *)
(** The signed area is positive exactly when the vertices turn clockwise; it is
    kept by rotating the vertices, negated by exchanging two, and zero exactly
    when they are on a line. *)
Theorem C61_area_exact : forall a b c,
  let signed := g_signed_area R NR in
  (0 < signed a b c <-> side a b c < 0) /\ signed b c a = signed a b c /\ signed b a c = - signed a b c /\
  (signed a b c <> 0 <-> proper_triangle a b c) /\
  (signed a b c = ((px c - px a) * (py b - py a) - (px b - px a) * (py c - py a)) / 2) /\
  g_area R NR a b c = Rabs (signed a b c).
Proof.
  intros a b c. cbv zeta. rewrite !signed_area_side, (side_rot a b c), (side_swap a b c), area_side, proper_side.
  split; [lra|]. split; [reflexivity|]. split; [lra|]. split; [split; intros H K; apply H; lra|]. split.
  - unfold side. field.
  - unfold Rdiv. rewrite Rabs_mult, Rabs_Ropp, (Rabs_pos_eq (/ 2)) by lra. reflexivity.
Qed.
(** The circumcentre is the one point equally far from the vertices, and the
    circumradius is that distance; [None] (infinity) when they are on a line. *)
Theorem C61_circumcircle_exact : forall a b c, proper_triangle a b c ->
  let o := g_circumcentre R NR a b c in
  (dist o a = dist o c /\ dist o b = dist o c) /\
  (forall o', dist o' a = dist o' b -> dist o' b = dist o' c -> o' = o) /\
  g_circumradius R NR a b c = Some (dist o c).
Proof.
  intros a b c P. apply proper_side in P. cbv zeta. destruct (circum_eq a b c P) as (A & B). split; [split; congruence|]. split.
  - intros o' A' B'. eapply circum_unique; eassumption.
  - rewrite circumradius_val by exact P. now rewrite circumradius_dist.
Qed.
Theorem C61_circumradius_degenerate : forall a b c, ~ proper_triangle a b c -> g_circumradius R NR a b c = None.
Proof.
  intros a b c P. assert (side a b c = 0) as Z by (destruct (Req_dec (side a b c) 0) as [E|E]; [exact E|apply proper_side in E; contradiction]).
  unfold g_circumradius. rewrite area_side, Z, Rabs_R0. cbn [NR neq nofZ]. now rewrite Req_bool_true by lra.
Qed.
(** The perpendicular bisector is the line of the points equally far from both. *)
Theorem C61_bisector_exact : forall a b q, a <> b ->
  let '(x, y, w) := g_bisector R NR a b in
  (x <> 0 \/ y <> 0) /\ (x * px q + y * py q + w = 0 <-> dist q a = dist q b).
Proof.
  intros a b q N. unfold g_bisector. cbn [NR nsub nmul nadd ndiv nofZ]. split.
  - destruct (Req_dec (px a) (px b)) as [E|E]; [|left; intros Z; apply E; lra].
    right. intros Z. apply N. destruct a as [ax ay], b as [bx b']. cbn [px py] in *. f_equal; lra.
  - rewrite <- dist_eq_sq. destruct a as [ax ay], b as [bx b'], q as [x y]. cbn [px py]. split; intros H; lra.
Qed.
(** The in-centre is strictly inside and equally far from the three sides, at
    twice the area over the perimeter. *)
Theorem C61_in_centre_exact : forall a b c, proper_triangle a b c ->
  let i := g_in_centre R NR a b c in
  exists r, 0 < r /\ inside_triangle a b c i /\
    least_distance (eq i) (on_line a b) r /\ least_distance (eq i) (on_line b c) r /\ least_distance (eq i) (on_line c a) r /\
    r * g_perimeter R NR a b c = 2 * g_area R NR a b c.
Proof.
  intros a b c P. apply proper_side in P. cbv zeta. pose proof (in_centre_spec a b c P) as (A & B & C & D & E).
  eexists. split; [exact A|]. repeat (split; [eassumption|]). rewrite area_side. unfold g_perimeter. cbn [NR nadd]. change (g_distance R NR) with dist.
  destruct (side_neq a b c P) as (N1 & N2 & N3). pose proof (dist_neq a b N1). pose proof (dist_neq b c N2). pose proof (dist_neq c a N3).
  field. lra.
Qed.
(** The centroid is the mean of the vertices, strictly inside, two thirds down
    each median. *)
Theorem C61_centroid_exact : forall a b c,
  let g := g_centroid R NR a b c in
  inside_triangle a b c g /\ g = mkP ((px a + px b + px c) / 3) ((py a + py b + py c) / 3) /\
  g = along a (along b c (1 / 2)) (2 / 3) /\ g = along b (along c a (1 / 2)) (2 / 3) /\ g = along c (along a b (1 / 2)) (2 / 3).
Proof.
  intros a b c. cbv zeta. unfold g_centroid, along. cbn [NR nadd ndiv nofZ px py]. split; [|repeat split; f_equal; field].
  exists (1 / 3), (1 / 3), (1 / 3). unfold weighted. repeat split; try lra. f_equal; field.
Qed.
(** Perimeter and longest side. *)
Theorem C61_lengths_exact : forall a b c,
  g_perimeter R NR a b c = dist a b + dist b c + dist c a /\
  (let m := g_longest_side R NR a b c in
   (m = dist a b \/ m = dist b c \/ m = dist c a) /\ dist a b <= m /\ dist b c <= m /\ dist c a <= m /\
   2 * m <= g_perimeter R NR a b c).
Proof.
  intros a b c. split; [reflexivity|]. cbv zeta. unfold g_longest_side, g_perimeter. cbn [NR nlt nadd]. change (g_distance R NR) with dist.
  pose proof (dist_triangle a c b) as T1. pose proof (dist_triangle b a c) as T2. pose proof (dist_triangle c b a) as T3.
  rewrite (dist_sym c b) in *. rewrite (dist_sym b a), (dist_sym a c) in *.
  generalize dependent (dist a b). generalize dependent (dist b c). generalize dependent (dist c a). intros x y z T1 T2 T3.
  destruct (Rlt_bool_spec z y); [destruct (Rlt_bool_spec y x)|destruct (Rlt_bool_spec z x)]; repeat split; auto; lra.
Qed.
(** The angle bisector at [b] meets the opposite side at a point equally far
    from both sides. *)
Theorem C61_angle_bisector_exact : forall a b c, proper_triangle a b c ->
  let s := g_angle_bisector R NR a b c in
  on_segment a c s /\ exists r, 0 < r /\ least_distance (eq s) (on_line b a) r /\ least_distance (eq s) (on_line b c) r.
Proof.
  intros a b c P. apply proper_side in P. cbv zeta. destruct (side_neq a b c P) as (N1 & N2 & N3).
  pose proof (dist_neq a b N1) as P1. pose proof (dist_neq b c N2) as P2. pose proof (Rabs_pos_lt _ P) as PS.
  unfold g_angle_bisector. cbn [NR nadd nmul ndiv nsub]. change (g_distance R NR) with dist. rewrite (dist_sym b a).
  set (s := dist a b + dist b c). assert (0 < s) as Ps by (unfold s; lra). assert (0 < / s) as Is by (now apply Rinv_0_lt_compat).
  change (mkP (px a + dist a b / s * (px c - px a)) (py a + dist a b / s * (py c - py a))) with (along a c (dist a b / s)).
  split.
  - exists (dist a b / s). split; [|reflexivity]. split; [apply Rlt_le, Rmult_lt_0_compat; lra|].
    apply (Rmult_le_reg_r s); [exact Ps|]. unfold Rdiv. rewrite Rmult_assoc, Rinv_l by lra. unfold s. lra.
  - exists (Rabs (side a b c) / s). split; [apply Rmult_lt_0_compat; lra|]. split.
    + apply line_distance; [congruence|]. rewrite (dist_sym b a).
      replace (side b a (along a c (dist a b / s))) with (dist a b / s * - side a b c) by (unfold side, along; cbn [px py]; field; lra).
      rewrite Rabs_mult, Rabs_Ropp, Rabs_pos_eq by (apply Rlt_le, Rmult_lt_0_compat; lra). field. lra.
    + apply line_distance; [exact N2|].
      replace (side b c (along a c (dist a b / s))) with (dist b c / s * side a b c).
      * rewrite Rabs_mult, Rabs_pos_eq by (apply Rlt_le, Rmult_lt_0_compat; lra). field. lra.
      * replace (dist b c / s) with (1 - dist a b / s) by (unfold s in *; field; lra). unfold side, along. cbn [px py]. ring.
Qed.
(** The area in space: half the square root of |u|^2 |v|^2 - (u.v)^2, and the
    plane area when the vertices are level. *)
Theorem C61_area_3d_exact : forall a b c za zb zc,
  let A := g_area_3d R NR a b c za zb zc in
  let u2 := (px b - px a)² + (py b - py a)² + (zb - za)² in
  let v2 := (px c - px a)² + (py c - py a)² + (zc - za)² in
  let uv := (px b - px a) * (px c - px a) + (py b - py a) * (py c - py a) + (zb - za) * (zc - za) in
  0 <= A /\ 4 * A² = u2 * v2 - uv² /\
  g_area_3d R NR b c a zb zc za = A /\ g_area_3d R NR b a c zb za zc = A /\
  (za = zb -> zb = zc -> A = g_area R NR a b c).
Proof.
  intros a b c za zb zc. cbv zeta. unfold g_area_3d. cbn [NR nsub nmul nadd ndiv nsqrt nofZ].
  split; [|split; [|split; [|split]]].
  - apply Rmult_le_pos; [apply sqrt_pos|lra].
  - unfold Rdiv. rewrite Rsqr_mult, Rsqr_sqrt by (apply Rplus_le_le_0_compat; [apply Rplus_le_le_0_compat|]; apply Rle_0_sqr). unfold Rsqr. field.
  - do 2 f_equal. ring.
  - do 2 f_equal. ring.
  - intros <- <-. rewrite area_side. rewrite <- sqrt_Rsqr_abs. do 2 f_equal. unfold side, Rsqr. ring.
Qed.
(** Interpolating Z reproduces every plane. *)
Theorem C61_interpolate_exact : forall v0 v1 v2 p f g h, proper_triangle v0 v1 v2 ->
  let plane q := f * px q + g * py q + h in
  g_interpolate_z R NR p v0 v1 v2 (plane v0) (plane v1) (plane v2) = plane p.
Proof.
  intros v0 v1 v2 p f g h P. apply proper_side in P. cbv zeta. unfold g_interpolate_z. cbn [NR nsub nmul nadd ndiv nneg].
  unfold side in P. field. lra.
Qed.
Example C61_exact_example : proper_triangle (mkP 0 0) (mkP 4 0) (mkP 0 3) /\
  g_area R NR (mkP 0 0) (mkP 4 0) (mkP 0 3) = 6 /\ g_signed_area R NR (mkP 0 0) (mkP 4 0) (mkP 0 3) = -6 /\
  g_circumcentre R NR (mkP 0 0) (mkP 4 0) (mkP 0 3) = mkP 2 (3 / 2) /\
  g_interpolate_z R NR (mkP 1 1) (mkP 0 0) (mkP 4 0) (mkP 0 3) 12 8 6 = 9.
Proof.
  split; [apply proper_side; unfold side; cbn; lra|]. split; [|split; [|split]].
  - rewrite area_side. unfold side. cbn [px py]. replace ((4 - 0) * (3 - 0) - (0 - 0) * (0 - 0)) with 12 by ring. rewrite Rabs_pos_eq; lra.
  - rewrite signed_area_side. unfold side. cbn [px py]. lra.
  - unfold g_circumcentre, g_det. cbn [NR nsub nmul nadd ndiv nofZ px py]. f_equal; field.
  - unfold g_interpolate_z. cbn [NR nsub nmul nadd ndiv nneg px py]. field.
Qed.

(** ** In doubles *)
(** [intersects] on points n*2^e, |n| <= 2^49: for vertices not on a line, true
    exactly on the closed triangle; otherwise true exactly on the points of
    their common line, even outside the triangle (and everywhere when the
    vertices are one point). *)
Theorem C61_intersects : forall e a b c p, (-440 <= e <= 420)%Z -> gpt e a -> gpt e b -> gpt e c -> gpt e p ->
  proper_triangle (rpt a) (rpt b) (rpt c) ->
  (tri_intersects a b c p = true <-> in_triangle (rpt a) (rpt b) (rpt c) (rpt p)).
Proof.
  intros e a b c p He Ga Gb Gc Gp P. apply proper_side in P. rewrite in_triangle_side by exact P.
  unfold tri_intersects, tri_is_ccw.
  pose proof (orient_side e a b c He Ga Gb Gc) as S. pose proof (orient_side e a b p He Ga Gb Gp) as S1.
  pose proof (orient_side e b c p He Gb Gc Gp) as S2. pose proof (orient_side e c a p He Gc Ga Gp) as S3.
  revert P S S1 S2 S3. generalize (side (rpt a) (rpt b) (rpt c)) (side (rpt a) (rpt b) (rpt p)) (side (rpt b) (rpt c) (rpt p)) (side (rpt c) (rpt a) (rpt p)).
  generalize (orient a b c) (orient a b p) (orient b c p) (orient c a p). intros o o1 o2 o3 s s1 s2 s3 P S S1 S2 S3.
  assert (forall x, 0 < s -> (0 <= x * s <-> 0 <= x)) as Pos.
  { intros x K. split; intros H; [|now apply Rmult_le_pos; lra]. apply (Rmult_le_reg_r s); lra. }
  assert (forall x, s < 0 -> (0 <= x * s <-> x <= 0)) as Neg.
  { intros x K. split; intros H; [apply (Rmult_le_reg_r (- s)); lra|]. replace (x * s) with ((- x) * (- s)) by ring. apply Rmult_le_pos; lra. }
  destruct S as [(-> & K)|[(-> & K)|(-> & K)]]; [|lra|]; cbn.
  - rewrite !Pos by exact K. destruct S1 as [(-> & K1)|[(-> & K1)|(-> & K1)]], S2 as [(-> & K2)|[(-> & K2)|(-> & K2)]], S3 as [(-> & K3)|[(-> & K3)|(-> & K3)]]; cbn; split; intros H; try discriminate; try reflexivity; lra.
  - rewrite !Neg by exact K. destruct S1 as [(-> & K1)|[(-> & K1)|(-> & K1)]], S2 as [(-> & K2)|[(-> & K2)|(-> & K2)]], S3 as [(-> & K3)|[(-> & K3)|(-> & K3)]]; cbn; split; intros H; try discriminate; try reflexivity; lra.
Qed.
Theorem C61_intersects_degenerate : forall e a b c p, (-440 <= e <= 420)%Z -> gpt e a -> gpt e b -> gpt e c -> gpt e p ->
  ~ proper_triangle (rpt a) (rpt b) (rpt c) ->
  (tri_intersects a b c p = true <->
   side (rpt a) (rpt b) (rpt p) = 0 /\ side (rpt b) (rpt c) (rpt p) = 0 /\ side (rpt c) (rpt a) (rpt p) = 0).
Proof.
  intros e a b c p He Ga Gb Gc Gp P.
  assert (side (rpt a) (rpt b) (rpt c) = 0) as Z by (destruct (Req_dec (side (rpt a) (rpt b) (rpt c)) 0) as [E|E]; [exact E|apply proper_side in E; contradiction]).
  assert (side (rpt a) (rpt b) (rpt p) + side (rpt b) (rpt c) (rpt p) + side (rpt c) (rpt a) (rpt p) = 0) as Sum by (rewrite <- Z; unfold side; ring).
  unfold tri_intersects, tri_is_ccw.
  pose proof (orient_side e a b c He Ga Gb Gc) as S. pose proof (orient_side e a b p He Ga Gb Gp) as S1.
  pose proof (orient_side e b c p He Gb Gc Gp) as S2. pose proof (orient_side e c a p He Gc Ga Gp) as S3.
  rewrite Z in S. destruct S as [(_ & K)|[(-> & _)|(_ & K)]]; try lra. cbn.
  destruct S1 as [(-> & K1)|[(-> & K1)|(-> & K1)]], S2 as [(-> & K2)|[(-> & K2)|(-> & K2)]], S3 as [(-> & K3)|[(-> & K3)|(-> & K3)]]; cbn; split; intros H; try discriminate; try reflexivity; lra.
Qed.
(** (5,5) is reported inside the flat triangle (0,0) (1,1) (2,2). *)
Theorem C61_degenerate_outside_refuted : tri_intersects (ipt 0 0) (ipt 1 1) (ipt 2 2) (ipt 5 5) = true /\
  ~ in_triangle (rpt (ipt 0 0)) (rpt (ipt 1 1)) (rpt (ipt 2 2)) (rpt (ipt 5 5)).
Proof.
  split; [vm_compute; reflexivity|]. intros (u & v & w & U & V & W & E & H).
  assert (forall n m, (Z.abs n <= 2 ^ 53)%Z -> (Z.abs m <= 2 ^ 53)%Z -> rpt (ipt n m) = mkP (IZR n) (IZR m)) as R.
  { intros n m Hn Hm. unfold rpt, ipt. cbn [cx cy new_xy]. destruct (grid_fofZ n Hn) as (_ & ->), (grid_fofZ m Hm) as (_ & ->).
    change (bp 0) with 1. now rewrite !Rmult_1_r. }
  rewrite !R in H by (cbn; lia). apply (f_equal px) in H. unfold weighted in H. cbn [px] in H. lra.
Qed.
(** Acute, on points n*2^e, |n| <= 2^24: every side's square is less than the
    sum of the squares of the others. *)
Theorem C61_acute : forall e a b c, (-400 <= e <= 400)%Z -> small_pt e a -> small_pt e b -> small_pt e c ->
  let d2 p q := (px (rpt p) - px (rpt q))² + (py (rpt p) - py (rpt q))² in
  (tri_is_acute a b c = true <-> d2 a b < d2 b c + d2 c a /\ d2 b c < d2 c a + d2 a b /\ d2 c a < d2 a b + d2 b c).
Proof.
  intros e a b c He Sa Sb Sc d2. unfold tri_is_acute.
  destruct (C55_acute_obtuse e a b c He Sa Sb Sc) as (H1 & _). destruct (C55_acute_obtuse e b c a He Sb Sc Sa) as (H2 & _).
  destruct (C55_acute_obtuse e c a b He Sc Sa Sb) as (H3 & _). cbv zeta in *.
  unfold d2, Rsqr.
  destruct (is_acute a b c); [|split; [discriminate|intros K; exfalso; assert (false = true) by (apply H1; lra); discriminate]].
  destruct (is_acute b c a); [|split; [discriminate|intros K; exfalso; assert (false = true) by (apply H2; lra); discriminate]].
  destruct (is_acute c a b); [|split; [discriminate|intros K; exfalso; assert (false = true) by (apply H3; lra); discriminate]].
  cbn [negb andb]. split; [intros _|reflexivity]. destruct H1 as (H1 & _), H2 as (H2 & _), H3 as (H3 & _).
  specialize (H1 eq_refl). specialize (H2 eq_refl). specialize (H3 eq_refl).
  split; [|split]; lra.
Qed.
Lemma half_exact e k x r : (-800 <= e <= 900)%Z -> (0 <= k <= 53)%Z -> ex e k x r -> ex (e - 1) k (fdiv x f2) (r / 2).
Proof.
  intros He Hk (F & E & n & Hn & G).
  assert (r / 2 = IZR n * bp (e - 1)) as H by (rewrite G; replace e with (e - 1 + 1)%Z at 1 by lia; rewrite bp_S; field).
  assert (Z.abs n <= 2 ^ 53)%Z as Hn' by (eapply Z.le_trans; [exact Hn|]; apply Z.pow_le_mono_r; lia).
  destruct (fdiv_R x f2 F) as (F' & E').
  - rewrite R_of_f2. lra.
  - rewrite R_of_f2, E, H, grid_RN by (assumption || lia). eapply Rle_lt_trans; [apply (DD_more.grid_abs k); [lia|exact Hn]|]. apply bpow_lt. lia.
  - split; [exact F'|]. rewrite E', R_of_f2, E, H. split; [now apply grid_RN; [lia|]|]. exists n. auto.
Qed.
(** The areas are exact on such points. *)
Theorem C61_area : forall hypot e a b c, (-400 <= e <= 400)%Z -> small_pt e a -> small_pt e b -> small_pt e c ->
  R_of (tri_signed_area hypot a b c) = - side (rpt a) (rpt b) (rpt c) / 2 /\
  R_of (tri_area hypot a b c) = Rabs (side (rpt a) (rpt b) (rpt c)) / 2 /\
  (fgtb (tri_signed_area hypot a b c) f0 = true <-> orient a b c = (-1)%Z) /\
  (feqb (tri_area hypot a b c) f0 = true <-> ~ proper_triangle (rpt a) (rpt b) (rpt c)).
Proof.
  intros hypot e a b c He Sa Sb Sc.
  destruct (small_ptx e a Sa) as (Ax & Ay), (small_ptx e b Sb) as (Bx & By), (small_ptx e c Sc) as (Cx & Cy).
  pose proof (ex_sub (e + e) 50 _ _ _ _ ltac:(lia) ltac:(lia) (m_ex e He _ _ _ _ (d_ex e He _ _ _ _ Cx Ax) (d_ex e He _ _ _ _ By Ay))
    (m_ex e He _ _ _ _ (d_ex e He _ _ _ _ Bx Ax) (d_ex e He _ _ _ _ Cy Ay))) as D.
  apply half_exact in D; try lia.
  assert (ex (e + e - 1) 51 (tri_signed_area hypot a b c) (- side (rpt a) (rpt b) (rpt c) / 2)) as S.
  { replace (- side (rpt a) (rpt b) (rpt c)) with
      ((px (rpt c) - px (rpt a)) * (py (rpt b) - py (rpt a)) - (px (rpt b) - px (rpt a)) * (py (rpt c) - py (rpt a))) by (unfold side; ring).
    exact D. }
  pose proof (ex_fin _ _ _ _ S) as F. pose proof (ex_R _ _ _ _ S) as E.
  assert (R_of (tri_area hypot a b c) = Rabs (side (rpt a) (rpt b) (rpt c)) / 2) as EA.
  { unfold tri_area, g_area. cbn [NF nabs]. change (g_signed_area f64 (NF hypot) (pf a) (pf b) (pf c)) with (tri_signed_area hypot a b c).
    rewrite fabs_R, E. unfold Rdiv. rewrite Rabs_mult, Rabs_Ropp, (Rabs_pos_eq (/ 2)) by lra. reflexivity. }
  assert (fis_finite (tri_area hypot a b c) = true) as FA.
  { unfold tri_area, g_area. cbn [NF nabs]. now rewrite fabs_fin. }
  split; [exact E|]. split; [exact EA|]. split.
  - unfold fgtb. change (@Bltb 53 1024) with fltb. rewrite fltb_R by (assumption || reflexivity). change (R_of f0) with 0. rewrite E.
    pose proof (orient_side e a b c ltac:(lia) (small_gpt e a Sa) (small_gpt e b Sb) (small_gpt e c Sc)) as O.
    destruct (Rlt_bool_spec 0 (- side (rpt a) (rpt b) (rpt c) / 2)); destruct O as [(-> & K)|[(-> & K)|(-> & K)]]; split; intros; try reflexivity; try discriminate; lra.
  - rewrite proper_side, feqb_R by (assumption || reflexivity). change (R_of f0) with 0. rewrite EA.
    destruct (Req_bool_spec (Rabs (side (rpt a) (rpt b) (rpt c)) / 2) 0) as [Z|Z]; split; intros H; try reflexivity; try discriminate.
    + intros K. apply Rabs_pos_lt in K. lra.
    + exfalso. apply H. intros K. apply Z. rewrite K, Rabs_R0. lra.
Qed.
(** The circumcentre computed in double-double arithmetic: the nearest double
    to a number within 2^-98 (|c| + |centre - c|) of the true ordinate. *)
Theorem C61_circumcentre_dd : forall e a b c, (-70 <= e <= 70)%Z -> small_pt e a -> small_pt e b -> small_pt e c ->
  proper_triangle (rpt a) (rpt b) (rpt c) ->
  exists o, (dist o (rpt a) = dist o (rpt b) /\ dist o (rpt b) = dist o (rpt c)) /\
    let r := tri_circumcentre_dd a b c in
    near_sum (cx r) (px (rpt c)) (px o - px (rpt c)) /\ near_sum (cy r) (py (rpt c)) (py o - py (rpt c)).
Proof.
  intros e a b c He Sa Sb Sc P. apply proper_side in P. exists (g_circumcentre R NR (rpt a) (rpt b) (rpt c)).
  split; [now apply circum_eq|]. destruct (small_rough e a Sa) as (n1 & m1 & G1), (small_rough e b Sb) as (n2 & m2 & G2), (small_rough e c Sc) as (n3 & m3 & G3).
  exact (tri_dd_near e He a b c n1 m1 n2 m2 n3 m3 G1 G2 G3 P).
Qed.
(** The plain circumcentre, |n| <= 2^15: two roundings. *)
Theorem C61_circumcentre : forall hypot e a b c, (-130 <= e <= 130)%Z -> grid_pt e 15 a -> grid_pt e 15 b -> grid_pt e 15 c ->
  proper_triangle (rpt a) (rpt b) (rpt c) ->
  exists o, (dist o (rpt a) = dist o (rpt b) /\ dist o (rpt b) = dist o (rpt c)) /\
    let r := tri_circumcentre hypot a b c in
    R_of (cx r) = RN (px (rpt c) + RN (px o - px (rpt c))) /\ R_of (cy r) = RN (py (rpt c) + RN (py o - py (rpt c))).
Proof.
  intros hypot e a b c He Ga Gb Gc P. apply proper_side in P. exists (g_circumcentre R NR (rpt a) (rpt b) (rpt c)).
  split; [now apply circum_eq|]. cbv zeta.
  destruct (grid_ptk e 15 a Ga) as (Ax & Ay), (grid_ptk e 15 b Gb) as (Bx & By), (grid_ptk e 15 c Gc) as (Cx & Cy).
  pose proof (ex_sub e 15 _ _ _ _ ltac:(lia) ltac:(lia) Ax Cx) as ax. pose proof (ex_sub e 15 _ _ _ _ ltac:(lia) ltac:(lia) Ay Cy) as ay.
  pose proof (ex_sub e 15 _ _ _ _ ltac:(lia) ltac:(lia) Bx Cx) as bx. pose proof (ex_sub e 15 _ _ _ _ ltac:(lia) ltac:(lia) By Cy) as by_.
  change (15 + 1)%Z with 16%Z in *.
  assert (forall x y u v, ex e 16 x u -> ex e 16 y v -> ex (e + e) 32 (fmul x y) (u * v)) as M.
  { intros x y u v X Y. apply (ex_mul e e 16 16); auto; lia. }
  assert (forall x y u v, ex e 16 x u -> ex (e + e) 33 y v -> ex (e + (e + e)) 49 (fmul x y) (u * v)) as M3.
  { intros x y u v X Y. apply (ex_mul e (e + e) 16 33); auto; lia. }
  pose proof (ex_add (e + e) 32 _ _ _ _ ltac:(lia) ltac:(lia) (M _ _ _ _ ax ax) (M _ _ _ _ ay ay)) as asq.
  pose proof (ex_add (e + e) 32 _ _ _ _ ltac:(lia) ltac:(lia) (M _ _ _ _ bx bx) (M _ _ _ _ by_ by_)) as bsq.
  pose proof (ex_sub (e + e) 32 _ _ _ _ ltac:(lia) ltac:(lia) (M _ _ _ _ ax by_) (M _ _ _ _ ay bx)) as det.
  change (32 + 1)%Z with 33%Z in *.
  pose proof (ex_mul 0 (e + e) 2 33 _ _ _ _ ltac:(lia) ltac:(lia) ltac:(lia) ltac:(lia) (ex_ofZ 2 2 ltac:(lia) ltac:(lia)) det) as den.
  change (0 + (e + e))%Z with (e + e)%Z in den. change (2 + 33)%Z with 35%Z in den.
  assert (forall x y u v, ex (e + e) 33 x u -> ex e 16 y v -> ex (e + (e + e)) 49 (fmul x y) (u * v)) as M4.
  { intros x y u v X Y. replace (e + (e + e))%Z with (e + e + e)%Z by lia. apply (ex_mul (e + e) e 33 16); auto; lia. }
  pose proof (ex_sub (e + (e + e)) 49 _ _ _ _ ltac:(lia) ltac:(lia) (M3 _ _ _ _ ay bsq) (M4 _ _ _ _ asq by_)) as nx.
  pose proof (ex_sub (e + (e + e)) 49 _ _ _ _ ltac:(lia) ltac:(lia) (M3 _ _ _ _ ax bsq) (M4 _ _ _ _ asq bx)) as ny.
  change (49 + 1)%Z with 50%Z in *.
  assert (2 * ((px (rpt a) - px (rpt c)) * (py (rpt b) - py (rpt c)) - (py (rpt a) - py (rpt c)) * (px (rpt b) - px (rpt c))) <> 0) as ND.
  { unfold side in P. lra. }
  destruct (ex_quot (e + (e + e)) (e + e) 50 35 _ _ _ _ ltac:(lia) ltac:(lia) ltac:(lia) ltac:(lia) nx den ND) as (Fx & Ex & Qx).
  destruct (ex_quot (e + (e + e)) (e + e) 50 35 _ _ _ _ ltac:(lia) ltac:(lia) ltac:(lia) ltac:(lia) ny den ND) as (Fy & Ey & Qy).
  unfold tri_circumcentre, g_circumcentre, g_det, to_coord, pf. cbn [NF NR nsub nmul nadd ndiv nofZ px py cx cy new_xy].
  change (IZR 2) with 2 in *.
  set (qx := fdiv (fsub (fmul (fsub (cy a) (cy c)) _) _) _) in Ex, Fx |- *. set (qy := fdiv (fsub (fmul (fsub (cx a) (cx c)) _) _) _) in Ey, Fy |- *.
  set (X := _ / _) in Ex, Qx. set (Y := _ / _) in Ey, Qy.
  assert (forall Q, Q = 0 \/ bp (e + (e + e) - (e + e) - 35) <= Rabs Q <= bp (e + (e + e) - (e + e) + 50) -> Rabs (RN Q) <= bp 200) as BQ.
  { intros Q [-> | (_ & B)]; [rewrite RN_0, Rabs_R0; apply bpow_ge_0|]. apply RN_abs_le; [lia|]. eapply Rle_trans; [exact B|apply bpow_le; lia]. }
  assert (forall x, ex e 15 x (R_of x) -> Rabs (R_of x) <= bp 200) as BC.
  { intros x (_ & _ & n & Hn & ->). eapply Rle_trans; [apply (DD_more.grid_abs 15); [lia|exact Hn]|apply bpow_le; lia]. }
  assert (forall s t, Rabs s <= bp 200 -> Rabs t <= bp 200 -> Rabs (s + t) <= bp 201) as BS.
  { intros s t U V. eapply Rle_trans; [apply Rabs_triang|]. change 201%Z with (200 + 1)%Z. rewrite bp_S. lra. }
  cbn [rpt px py] in *.
  split.
  - rewrite (proj2 (fsub_R (cx c) qx (ex_fin _ _ _ _ Cx) Fx ltac:(apply (RN_small _ 201); [lia|]; unfold Rminus; apply BS; [apply BC, Cx|rewrite Rabs_Ropp, Ex; now apply BQ]))).
    rewrite Ex. unfold Rminus at 1. rewrite <- (RN_opp X). do 3 f_equal. unfold X. field. lra.
  - rewrite (proj2 (fadd_R (cy c) qy (ex_fin _ _ _ _ Cy) Fy ltac:(apply (RN_small _ 201); [lia|]; apply BS; [apply BC, Cy|rewrite Ey; now apply BQ]))).
    rewrite Ey. do 3 f_equal. unfold Y. field. lra.
Qed.
(** The centroid is the correctly rounded mean. *)
Theorem C61_centroid : forall hypot e a b c, (-400 <= e <= 400)%Z -> small_pt e a -> small_pt e b -> small_pt e c ->
  let g := tri_centroid hypot a b c in
  R_of (cx g) = RN ((px (rpt a) + px (rpt b) + px (rpt c)) / 3) /\ R_of (cy g) = RN ((py (rpt a) + py (rpt b) + py (rpt c)) / 3).
Proof.
  intros hypot e a b c He Sa Sb Sc g.
  destruct (small_ptx e a Sa) as (Ax & Ay), (small_ptx e b Sb) as (Bx & By), (small_ptx e c Sc) as (Cx & Cy).
  assert (forall x y z u v w, ex e 24 x u -> ex e 24 y v -> ex e 24 z w -> R_of (fdiv (fadd (fadd x y) z) (fofZ 3)) = RN ((u + v + w) / 3)) as M.
  { intros x y z u v w X Y Z. pose proof (ex_add e 24 _ _ _ _ ltac:(lia) ltac:(lia) X Y) as S1.
    pose proof (ex_add e 25 _ _ _ _ ltac:(lia) ltac:(lia) S1 (ex_weak e 24 25 _ _ ltac:(lia) Z)) as S2.
    apply (ex_quot e 0 26 2 _ _ _ _ ltac:(lia) ltac:(lia) ltac:(lia) ltac:(lia) S2 (ex_ofZ 2 3 ltac:(lia) ltac:(lia))). lra. }
  split; apply M; assumption.
Qed.
(** Z values n*2^f, |n| <= 2^24, come back exactly at the vertices. *)
Theorem C61_interpolate_vertices : forall hypot e f a b c, (-200 <= e <= 200)%Z -> (-400 <= f <= 400)%Z ->
  small_pt e a -> small_pt e b -> small_pt e c ->
  (exists n, (Z.abs n <= 2 ^ 24)%Z /\ grid f (cz a) n) -> (exists n, (Z.abs n <= 2 ^ 24)%Z /\ grid f (cz b) n) ->
  (exists n, (Z.abs n <= 2 ^ 24)%Z /\ grid f (cz c) n) -> proper_triangle (rpt a) (rpt b) (rpt c) ->
  R_of (tri_interpolate_z hypot a a b c) = R_of (cz a) /\ R_of (tri_interpolate_z hypot b a b c) = R_of (cz b) /\
  R_of (tri_interpolate_z hypot c a b c) = R_of (cz c).
Proof.
  intros hypot e f a b c He Hf Sa Sb Sc (za & Ha & Za) (zb & Hb & Zb) (zc & Hc & Zc) P. apply proper_side in P.
  pose proof (ex_self f 24 _ _ Ha Za) as Xa. pose proof (ex_self f 24 _ _ Hb Zb) as Xb. pose proof (ex_self f 24 _ _ Hc Zc) as Xc.
  destruct (small_ptx e a Sa) as (Ax & Ay), (small_ptx e b Sb) as (Bx & By), (small_ptx e c Sc) as (Cx & Cy).
  assert (forall p t u, small_pt e p ->
    (py (rpt c) - py (rpt a)) * (px (rpt p) - px (rpt a)) - (px (rpt c) - px (rpt a)) * (py (rpt p) - py (rpt a)) = IZR t * side (rpt a) (rpt b) (rpt c) ->
    - (py (rpt b) - py (rpt a)) * (px (rpt p) - px (rpt a)) + (px (rpt b) - px (rpt a)) * (py (rpt p) - py (rpt a)) = IZR u * side (rpt a) (rpt b) (rpt c) ->
    (Z.abs t <= 2 ^ 1)%Z -> (Z.abs u <= 2 ^ 1)%Z ->
    R_of (tri_interpolate_z hypot p a b c) = R_of (cz a) + IZR t * (R_of (cz b) - R_of (cz a)) + IZR u * (R_of (cz c) - R_of (cz a))) as Main.
  { intros p t u Sp Et Eu Bt Bu. destruct (small_ptx e p Sp) as (Px & Py).
    pose proof (d_ex e ltac:(lia) _ _ _ _ Bx Ax) as Da. pose proof (d_ex e ltac:(lia) _ _ _ _ Cx Ax) as Db.
    pose proof (d_ex e ltac:(lia) _ _ _ _ By Ay) as Dc. pose proof (d_ex e ltac:(lia) _ _ _ _ Cy Ay) as Dd.
    pose proof (d_ex e ltac:(lia) _ _ _ _ Px Ax) as Dx. pose proof (d_ex e ltac:(lia) _ _ _ _ Py Ay) as Dy.
    pose proof (ex_sub (e + e) 50 _ _ _ _ ltac:(lia) ltac:(lia) (m_ex e ltac:(lia) _ _ _ _ Da Dd) (m_ex e ltac:(lia) _ _ _ _ Db Dc)) as det.
    pose proof (ex_sub (e + e) 50 _ _ _ _ ltac:(lia) ltac:(lia) (m_ex e ltac:(lia) _ _ _ _ Dd Dx) (m_ex e ltac:(lia) _ _ _ _ Db Dy)) as tn.
    pose proof (ex_add (e + e) 50 _ _ _ _ ltac:(lia) ltac:(lia) (m_ex e ltac:(lia) _ _ _ _ (ex_neg _ _ _ _ Dc) Dx) (m_ex e ltac:(lia) _ _ _ _ Da Dy)) as un.
    change (50 + 1)%Z with 51%Z in *.
    assert ((px (rpt b) - px (rpt a)) * (py (rpt c) - py (rpt a)) - (px (rpt c) - px (rpt a)) * (py (rpt b) - py (rpt a)) = side (rpt a) (rpt b) (rpt c)) as ES by (unfold side; ring).
    rewrite ES in det. rewrite Et in tn. rewrite Eu in un.
    destruct (ex_div_val (e + e) 51 51 _ _ _ _ ltac:(lia) ltac:(lia) tn det P) as (Ft & Vt & _).
    destruct (ex_div_val (e + e) 51 51 _ _ _ _ ltac:(lia) ltac:(lia) un det P) as (Fu & Vu & _).
    assert (forall k, (Z.abs k <= 2 ^ 1)%Z -> RN (IZR k * side (rpt a) (rpt b) (rpt c) / side (rpt a) (rpt b) (rpt c)) = IZR k) as One.
    { intros k Hk. replace (IZR k * side (rpt a) (rpt b) (rpt c) / side (rpt a) (rpt b) (rpt c)) with (IZR k * bp 0) by (change (bp 0) with 1; field; exact P).
      rewrite grid_RN by lia. change (bp 0) with 1. ring. }
    rewrite One in Vt, Vu by assumption.
    unfold tri_interpolate_z, g_interpolate_z. cbn [NF nsub nmul nadd ndiv nneg pf px py].
    cbn [pf px py] in Ft, Fu, Vt, Vu.
    set (T := fdiv (fsub _ _) _) in Ft, Vt |- *. set (U := fdiv (fadd _ _) _) in Fu, Vu |- *.
    assert (ex 0 1 T (IZR t)) as XT by (split; [exact Ft|]; split; [exact Vt|]; exists t; split; [exact Bt|]; change (bp 0) with 1; ring).
    assert (ex 0 1 U (IZR u)) as XU by (split; [exact Fu|]; split; [exact Vu|]; exists u; split; [exact Bu|]; change (bp 0) with 1; ring).
    pose proof (ex_mul 0 f 1 25 _ _ _ _ ltac:(lia) ltac:(lia) ltac:(lia) ltac:(lia) XT (ex_sub f 24 _ _ _ _ ltac:(lia) ltac:(lia) Xb Xa)) as M1.
    pose proof (ex_mul 0 f 1 25 _ _ _ _ ltac:(lia) ltac:(lia) ltac:(lia) ltac:(lia) XU (ex_sub f 24 _ _ _ _ ltac:(lia) ltac:(lia) Xc Xa)) as M2.
    change (0 + f)%Z with f in *. change (1 + 25)%Z with 26%Z in *.
    pose proof (ex_add f 26 _ _ _ _ ltac:(lia) ltac:(lia) (ex_weak f 24 26 _ _ ltac:(lia) Xa) M1) as A1.
    pose proof (ex_add f 27 _ _ _ _ ltac:(lia) ltac:(lia) A1 (ex_weak f 26 27 _ _ ltac:(lia) M2)) as A2.
    exact (ex_R _ _ _ _ A2). }
  split; [|split].
  - rewrite (Main a 0%Z 0%Z Sa); [ring|unfold side; ring|unfold side; ring|lia|lia].
  - rewrite (Main b 1%Z 0%Z Sb); [ring|unfold side; ring|unfold side; ring|lia|lia].
  - rewrite (Main c 0%Z 1%Z Sc); [ring|unfold side; ring|unfold side; ring|lia|lia].
Qed.
(** A right-angled triangle: its points are on the grid, the hypotenuse meets
    it, the circumcentre is the middle of the hypotenuse. *)
Example C61_example : small_pt 0 (ipt 0 0) /\ small_pt 0 (ipt 4 0) /\ small_pt 0 (ipt 0 3) /\
  proper_triangle (rpt (ipt 0 0)) (rpt (ipt 4 0)) (rpt (ipt 0 3)) /\
  tri_intersects (ipt 0 0) (ipt 4 0) (ipt 0 3) (ipt 1 1) = true /\ tri_intersects (ipt 0 0) (ipt 4 0) (ipt 0 3) (ipt 3 2) = false /\
  tri_is_acute (ipt 0 0) (ipt 4 0) (ipt 0 3) = false /\ tri_is_acute (ipt 0 0) (ipt 4 0) (ipt 2 3) = true /\
  feqb (cx (tri_circumcentre_dd (ipt 0 0) (ipt 4 0) (ipt 0 3))) f2 = true /\
  feqb (tri_area hypot_nearest (ipt 0 0) (ipt 4 0) (ipt 0 3)) (fofZ 6) = true.
Proof.
  split; [apply ipt_small; lia|]. split; [apply ipt_small; lia|]. split; [apply ipt_small; lia|]. split.
  - apply proper_side. destruct (orient_side 0 (ipt 0 0) (ipt 4 0) (ipt 0 3) ltac:(lia) ltac:(apply ipt_gpt; lia) ltac:(apply ipt_gpt; lia) ltac:(apply ipt_gpt; lia)) as [(_ & K)|[(K & _)|(_ & K)]]; try lra.
    vm_compute in K. discriminate.
  - repeat split; vm_compute; reflexivity.
Qed.
