(** C74: distances in space; C11: equality within a tolerance; C71: the
    diameter of an envelope. *)
From Coq Require Import ZArith Bool List Reals Lia Lra Psatz.
From Flocq Require Import Core IEEE754.BinarySingleNaN.
From Verif Require Import Base F64 F64Facts F64Err Num NumLink Coordinate_model CoordArrays_model Envelope_model Envelope_spec
  Orientation_spec Orientation_props Distance_model Distance_spec Distance_proofs Distance_float Distance_props
  Intersection_props Distance3D_model Distance3D_spec Distance3D_proofs.
Import ListNotations.
Local Open Scope R_scope.

(** ** In exact arithmetic *)
(** The distance to a segment is the least distance to its points. *)
Theorem C74_point_segment_exact : forall p a b, least_distance3 (eq p) (on_segment3 a b) (p2sR p a b).
Proof. exact p2s_least3. Qed.
(** The distance of two segments is that of two of their points, *)
Theorem C74_segments_attained : forall a b c d, c <> d ->
  exists p q, on_segment3 a b p /\ on_segment3 c d q /\ s2sR a b c d = dist3 p q.
Proof.
  intros a b c d N.
  destruct (g_equals_3d R NR a b) eqn:E1.
  { unfold g_s2s_3d. rewrite E1. destruct (p2s_least3 a c d) as ((p & q & <- & Hq & E) & _). exists a, q. split; [apply on3_start|]. auto. }
  destruct (g_equals_3d R NR c b) eqn:E2.
  { unfold g_s2s_3d. rewrite E1, E2. destruct (p2s_least3 c a b) as ((p & q & <- & Hq & E) & _). exists q, c.
    split; [exact Hq|]. split; [apply on3_start|]. now rewrite dist3_sym. }
  assert (a <> b) as N1 by (intros ->; rewrite (proj2 (equals_R b b) eq_refl) in E1; discriminate).
  assert (c <> b) as N2 by (intros ->; rewrite (proj2 (equals_R b b) eq_refl) in E2; discriminate).
  destruct (s2s_params a b c d N1 N2 N) as (s & t & _ & -> & _). apply by_params_attained.
Qed.
Lemma dist3_self p : dist3 p p = 0.
Proof. unfold dist3. rewrite <- sqrt_0. f_equal. unfold Rsqr. ring. Qed.
Lemma p2s_on p a b : on_segment3 a b p -> p2sR p a b = 0.
Proof.
  intros H. destruct (p2s_least3 p a b) as ((p' & q & <- & Hq & E) & L). apply Rle_antisym.
  - rewrite <- (dist3_self p). now apply L.
  - rewrite <- E. apply sqrt_pos.
Qed.
Lemma chain_0 a b d : s2sR a b b d = 0.
Proof.
  unfold g_s2s_3d. rewrite (proj2 (equals_R b b) eq_refl). destruct (g_equals_3d R NR a b) eqn:E.
  - apply equals_R in E. subst a. apply p2s_on, on3_start.
  - apply p2s_on, on3_end.
Qed.
Lemma chain_least a b d : least_distance3 (on_segment3 a b) (on_segment3 b d) (s2sR a b b d).
Proof.
  rewrite chain_0. split; [exists b, b; split; [apply on3_end|]; split; [apply on3_start|apply dist3_self]|].
  intros. apply sqrt_pos.
Qed.
Lemma point_least a c d : least_distance3 (on_segment3 a a) (on_segment3 c d) (s2sR a a c d).
Proof.
  unfold g_s2s_3d. rewrite (proj2 (equals_R a a) eq_refl). destruct (p2s_least3 a c d) as ((p & q & <- & Hq & E) & L). split.
  - exists a, q. split; [apply on3_start|]. auto.
  - intros x y (u & _ & ->) Hy. rewrite along3_same. now apply L.
Qed.
Lemma P3_dec (p q : P3 R) : p = q \/ p <> q.
Proof. destruct (g_equals_3d R NR p q) eqn:E; [left; now apply equals_R|right]. intros ->. rewrite (proj2 (equals_R q q) eq_refl) in E. discriminate. Qed.
(** and is the least such distance when one of the closest points of the two
    lines lies on its segment ([s] and [t] are the points' positions), *)
Theorem C74_segments_exact : forall a b c d s t, c <> d ->
  (forall s' t', dist3 (along3 a b s) (along3 c d t) <= dist3 (along3 a b s') (along3 c d t')) ->
  0 <= s <= 1 \/ 0 <= t <= 1 ->
  least_distance3 (on_segment3 a b) (on_segment3 c d) (s2sR a b c d).
Proof.
  intros a b c d s t N H R.
  destruct (P3_dec a b) as [<-|N1]; [apply point_least|]. destruct (P3_dec c b) as [->|N2]; [apply chain_least|].
  destruct (s2s_params a b c d N1 N2 N) as (s1 & t1 & K & -> & S).
  destruct (Rle_or_lt (dot3 a b a b * dot3 c d c d - dot3 a b c d * dot3 a b c d) 0) as [G|G].
  { apply by_params_least; [exact K|]. left. rewrite (S G). lra. }
  assert (critical a b c d s t) as K2 by (apply min_critical; intros x y; apply dist3_le_inv; exact (H x y)).
  destruct (critical_denom _ _ _ _ _ _ K) as (A1 & A2). destruct (critical_denom _ _ _ _ _ _ K2) as (B1 & B2).
  assert (s1 = s) by (apply (Rmult_eq_reg_r _ _ _ (eq_trans A1 (eq_sym B1))); lra).
  assert (t1 = t) by (apply (Rmult_eq_reg_r _ _ _ (eq_trans A2 (eq_sym B2))); lra).
  subst. now apply by_params_least.
Qed.
(** when the segments are parallel, *)
Definition parallel3 (a b c d : P3 R) : Prop := exists k,
  qx b - qx a = k * (qx d - qx c) /\ qy b - qy a = k * (qy d - qy c) /\ qz b - qz a = k * (qz d - qz c).
Theorem C74_segments_parallel : forall a b c d, c <> d -> parallel3 a b c d ->
  least_distance3 (on_segment3 a b) (on_segment3 c d) (s2sR a b c d).
Proof.
  intros a b c d N (k & K1 & K2 & K3).
  destruct (P3_dec a b) as [<-|N1]; [apply point_least|]. destruct (P3_dec c b) as [->|N2]; [apply chain_least|].
  destruct (s2s_params a b c d N1 N2 N) as (s1 & t1 & K & -> & S). apply by_params_least; [exact K|]. left. rewrite S; [lra|].
  right. unfold dot3. rewrite K1, K2, K3. ring.
Qed.
(** when the first segment is a point, and when the second segment starts
    where the first ends. *)
Theorem C74_segments_point_chain : forall a b d,
  least_distance3 (on_segment3 a a) (on_segment3 b d) (s2sR a a b d) /\ s2sR a b b d = 0.
Proof. intros a b d. split; [apply point_least|apply chain_0]. Qed.
(** It is not the least distance otherwise: for the segments (0,0)-(10,0) and
    (4,1/2)-(9,1) the points at 4 are at distance 1/2 and the result is more
    than 4. *)
Theorem C74_segments_refuted :
  let a := mkP3 0 0 0 in let b := mkP3 10 0 0 in let c := mkP3 4 (1/2) 0 in let d := mkP3 9 1 0 in
  4 < s2sR a b c d /\ exists q, on_segment3 a b q /\ dist3 q c = 1/2.
Proof.
  intros a b c d. split.
  - assert (a <> b) as N1 by (intros E; injection E; lra). assert (c <> b) as N2 by (intros E; injection E; lra). assert (c <> d) as N3 by (intros E; injection E; lra).
    destruct (s2s_params a b c d N1 N2 N3) as (s & t & K & -> & _). destruct (critical_denom _ _ _ _ _ _ K) as (A1 & A2).
    unfold dot3 in A1. cbn in A1. unfold by_params. rewrite Rlt_bool_true by lra.
    destruct (p2s_least3 a c d) as ((p & q & <- & (u & Hu & ->) & <-) & _).
    unfold dist3, along3. cbn. rewrite <- (sqrt_square 4) at 1 by lra. apply sqrt_lt_1_alt. unfold Rsqr. split; [lra|]. clear - Hu. pose proof (Rle_0_sqr u) as U. unfold Rsqr in U. lra.
  - exists (mkP3 4 0 0). split; [exists (4/10); split; [lra|apply P3_ext; cbn; lra]|].
    unfold dist3, c. cbn. apply sqrt_lem_1; unfold Rsqr; lra.
Qed.
(** Skew segments of which the common perpendicular is inside. *)
Example C74_exact_example :
  let a := mkP3 (-1) 0 0 in let b := mkP3 1 0 0 in let c := mkP3 0 (-1) 2 in let d := mkP3 0 1 2 in
  c <> d /\ (forall s' t', dist3 (along3 a b (1/2)) (along3 c d (1/2)) <= dist3 (along3 a b s') (along3 c d t')) /\
  s2sR a b c d = 2 /\ parallel3 a b (mkP3 0 1 1) (mkP3 (-4) 1 1).
Proof.
  intros a b c d. assert (c <> d) as N by (intros E; injection E; lra).
  assert (forall s' t', dist3 (along3 a b (1/2)) (along3 c d (1/2)) <= dist3 (along3 a b s') (along3 c d t')) as H.
  { intros s' t'. apply dist3_le. pose proof (Rle_0_sqr (2 * s' - 1)) as S1. pose proof (Rle_0_sqr (2 * t' - 1)) as S2. unfold sq3, along3, Rsqr in *. cbn. lra. }
  split; [exact N|]. split; [exact H|]. split.
  - assert (dist3 (along3 a b (1/2)) (along3 c d (1/2)) = 2) as D.
    { unfold dist3, along3. cbn. apply sqrt_lem_1; unfold Rsqr; lra. }
    destruct (C74_segments_exact a b c d (1/2) (1/2) N H ltac:(lra)) as ((p & q & (x & Hx & ->) & (y & Hy & ->) & E) & L).
    apply Rle_antisym.
    + rewrite <- D. apply L; [exists (1/2)|exists (1/2)]; (split; [lra|reflexivity]).
    + rewrite <- E, <- D. apply H.
  - exists (- (1/2)). cbn. lra.
Qed.

(** ** In doubles *)
(** Points on a grid of step [2^e] with 24-bit coordinates. *)
Definition rpt3 (c : Coordinate) : P3 R := mkP3 (R_of (cx c)) (R_of (cy c)) (R_of (cz c)).
Definition small_pt3 (e : Z) (c : Coordinate) : Prop :=
  small_pt e c /\ exists n, (Z.abs n <= 2 ^ 24)%Z /\ grid e (cz c) n.
Lemma small3 e c : small_pt3 e c -> ex e 24 (cx c) (R_of (cx c)) /\ ex e 24 (cy c) (R_of (cy c)) /\ ex e 24 (cz c) (R_of (cz c)).
Proof.
  intros ((( n & Hn & Gn) & (m & Hm & Gm)) & (l & Hl & Gl)).
  split; [exact (ex_self e 24 _ _ Hn Gn)|]. split; [exact (ex_self e 24 _ _ Hm Gm)|exact (ex_self e 24 _ _ Hl Gl)].
Qed.
Lemma sum_ex e p q a b c d : (-400 <= e <= 400)%Z -> small_pt3 e p -> small_pt3 e q -> small_pt3 e a -> small_pt3 e b -> c = a -> d = b ->
  ex (e + e) 52 (g_dot_4 f64 (NF (fun x _ => x)) (pf3 p) (pf3 q) (pf3 c) (pf3 d)) (dot3 (rpt3 p) (rpt3 q) (rpt3 a) (rpt3 b)).
Proof.
  intros He Hp Hq Ha Hb -> ->. apply small3 in Hp, Hq, Ha, Hb. destruct Hp as (P1 & P2 & P3), Hq as (Q1 & Q2 & Q3), Ha as (A1 & A2 & A3), Hb as (B1 & B2 & B3).
  unfold g_dot_4, dot3. cbn [NF nadd nmul nsub pf3 rpt3 qx qy qz].
  assert (forall x y z w a b c d, ex e 24 x a -> ex e 24 y b -> ex e 24 z c -> ex e 24 w d ->
    ex (e + e) 50 (fmul (fsub x y) (fsub z w)) ((a - b) * (c - d))) as M.
  { intros. apply (ex_mul e e 25 25); try lia; apply (ex_sub e 24); try lia; assumption. }
  apply (ex_add (e + e) 51); [lia|lia| |apply (ex_weak _ 50); [lia|now apply M]].
  apply (ex_add (e + e) 50); [lia|lia|now apply M|now apply M].
Qed.
Lemma dist3_dot p q : dist3 p q = sqrt (dot3 q p q p).
Proof. unfold dist3, dot3, Rsqr. reflexivity. Qed.
Lemma sqrt_round e k x r : (-900 <= e <= 900)%Z -> (0 <= k <= 53)%Z -> ex e k x r -> 0 <= r ->
  R_of (fsqrt x) = RN (sqrt r) /\ fis_finite (fsqrt x) = true.
Proof.
  intros He Hk (F & E & G) P. destruct (fsqrt_R x F) as (S1 & S2); [now rewrite E|]. rewrite E in *. split; [exact S1|].
  destruct P as [P| <-]; [now apply S2|]. destruct x; try discriminate; [reflexivity|].
  exfalso. apply eq_0_F2R in E. destruct s; discriminate.
Qed.
(** The distance in space is the exact distance, rounded; *)
Theorem C74_distance_rounded : forall e p q, (-400 <= e <= 400)%Z -> small_pt3 e p -> small_pt3 e q ->
  fis_finite (distance_3d p q) = true /\ R_of (distance_3d p q) = RN (dist3 (rpt3 p) (rpt3 q)).
Proof.
  intros e p q He Hp Hq. pose proof (sum_ex e q p q p q p He Hq Hp Hq Hp eq_refl eq_refl) as S.
  apply (sqrt_round (e + e) 52) in S; [|lia|lia|rewrite dot_self; apply sq3_pos]. rewrite dist3_dot. destruct S as (S1 & S2). split; [exact S2|exact S1].
Qed.
(** The plane distance is within [2^-51]. *)
Theorem C74_distance_plane : forall hypot e p q, hypot_accurate hypot -> (-400 <= e <= 400)%Z -> small_pt e p -> small_pt e q ->
  close_to (distance hypot p q) (dist (rpt p) (rpt q)).
Proof.
  intros hypot e p q Hh He Hp Hq. apply ap_close; [apply dist_pos|]. rewrite <- distance_same.
  apply (dist_ap hypot Hh e He); now apply small_ptx.
Qed.
(** and the other function is the distance in space when both points have a Z
    and the plane distance otherwise. *)
Lemma distance3_cases hypot p q :
  distance3 hypot p q = (if fis_nan (cz p) || fis_nan (cz q) then distance hypot p q else distance_3d p q).
Proof. reflexivity. Qed.
Theorem C74_distance : forall hypot e p q, hypot_accurate hypot -> (-400 <= e <= 400)%Z -> small_pt e p -> small_pt e q ->
  (small_pt3 e p -> small_pt3 e q -> R_of (distance3 hypot p q) = RN (dist3 (rpt3 p) (rpt3 q))) /\
  (~ nn (cz p) \/ ~ nn (cz q) -> close_to (distance3 hypot p q) (dist (rpt p) (rpt q))).
Proof.
  intros hypot e p q Hh He Hp Hq. rewrite distance3_cases. split.
  - intros Sp Sq. assert (forall c, small_pt3 e c -> fis_nan (cz c) = false) as Z.
    { intros c (_ & n & _ & F & _). unfold fis_finite in F. unfold fis_nan. destruct (cz c); try reflexivity; discriminate. }
    rewrite (Z p Sp), (Z q Sq). now apply (C74_distance_rounded e).
  - intros N. replace (fis_nan (cz p) || fis_nan (cz q)) with true; [now apply (C74_distance_plane hypot e)|].
    symmetry. apply orb_true_iff. unfold nn in N. destruct (fis_nan (cz p)), (fis_nan (cz q)); auto. exfalso. tauto.
Qed.
(** A point before or after the segment: the distance to that end, rounded. *)
Lemma small_nn e c : small_pt3 e c -> fis_nan (cz c) = false.
Proof. intros (_ & n & _ & F & _). unfold fis_finite in F. unfold fis_nan. destruct (cz c); try reflexivity; discriminate. Qed.
Lemma ex_nn e k x r : ex e k x r -> fis_nan x = false.
Proof. intros (F & _). unfold fis_nan. destruct x; try reflexivity; discriminate. Qed.
Lemma equals_3 e hypot p q : small_pt3 e p -> small_pt3 e q -> g_equals_3d f64 (NF hypot) (pf3 p) (pf3 q) = g_equals_3d R NR (rpt3 p) (rpt3 q).
Proof.
  intros Hp Hq. unfold g_equals_3d. cbn [NF NR neq nisnan pf3 rpt3 qx qy qz]. rewrite (small_nn e p Hp).
  apply small3 in Hp, Hq. destruct Hp as (P1 & P2 & P3), Hq as (Q1 & Q2 & Q3).
  now rewrite (ex_eqb _ _ _ _ _ _ _ _ P1 Q1), (ex_eqb _ _ _ _ _ _ _ _ P2 Q2), (ex_eqb _ _ _ _ _ _ _ _ P3 Q3).
Qed.
Lemma distance3_eq e hypot p q : small_pt3 e p -> small_pt3 e q -> distance3 hypot p q = distance_3d p q.
Proof. intros Hp Hq. rewrite distance3_cases, (small_nn e p Hp), (small_nn e q Hq). reflexivity. Qed.
Theorem C74_point_segment_ends : forall hypot e p a b, (-400 <= e <= 400)%Z -> small_pt3 e p -> small_pt3 e a -> small_pt3 e b ->
  (* the scalar product tells the point is not beyond the start, or not before the end *)
  (dot3 (rpt3 a) (rpt3 p) (rpt3 a) (rpt3 b) <= 0 \/ dot3 (rpt3 a) (rpt3 b) (rpt3 a) (rpt3 b) <= dot3 (rpt3 a) (rpt3 p) (rpt3 a) (rpt3 b)) ->
  forall d, least_distance3 (eq (rpt3 p)) (on_segment3 (rpt3 a) (rpt3 b)) d ->
  fis_finite (p2s_3d hypot p a b) = true /\ R_of (p2s_3d hypot p a b) = RN d.
Proof.
  intros hypot e p a b He Hp Ha Hb Hd d L.
  assert (d = p2sR (rpt3 p) (rpt3 a) (rpt3 b)) as ->.
  { destruct L as ((x & y & <- & Hy & E) & M). destruct (p2s_least3 (rpt3 p) (rpt3 a) (rpt3 b)) as ((x' & y' & <- & Hy' & E') & M').
    apply Rle_antisym; [rewrite <- E'; now apply M|rewrite <- E; now apply M']. }
  clear L. unfold p2s_3d, g_p2s_3d. rewrite (equals_3 e) by assumption.
  change (g_distance3 f64 (NF hypot) (pf3 p) (pf3 a)) with (distance3 hypot p a). change (g_distance3 f64 (NF hypot) (pf3 p) (pf3 b)) with (distance3 hypot p b).
  rewrite !distance3_R.
  rewrite (distance3_eq e hypot p a), (distance3_eq e hypot p b) by assumption.
  destruct (g_equals_3d R NR (rpt3 a) (rpt3 b)) eqn:E; [now apply (C74_distance_rounded e)|].
  assert (rpt3 a <> rpt3 b) as N by (intros H; apply equals_R in H; rewrite H in E; discriminate).
  pose proof (dot_pos _ _ N) as P.
  pose proof (sum_ex e a b a b a b He Ha Hb Ha Hb eq_refl eq_refl) as LL. pose proof (sum_ex e a p a b a b He Ha Hp Ha Hb eq_refl eq_refl) as NN.
  cbn [NF NR nadd nmul nsub ndiv nle nofZ nisnan].
  set (len := fadd (fadd (fmul (fsub (qx (pf3 b)) (qx (pf3 a))) _) _) _). change (g_dot_4 f64 (NF (fun x _ : f64 => x)) (pf3 a) (pf3 b) (pf3 a) (pf3 b)) with len in LL.
  set (num := fadd (fadd (fmul (fsub (qx (pf3 p)) (qx (pf3 a))) _) _) _). change (g_dot_4 f64 (NF (fun x _ : f64 => x)) (pf3 a) (pf3 p) (pf3 a) (pf3 b)) with num in NN.
  cbv zeta. rewrite (ex_nn _ _ _ _ LL). change (fofZ 0) with f0. change (fofZ 1) with f1.
  change ((qx (rpt3 b) - qx (rpt3 a)) * (qx (rpt3 b) - qx (rpt3 a)) + (qy (rpt3 b) - qy (rpt3 a)) * (qy (rpt3 b) - qy (rpt3 a)) + (qz (rpt3 b) - qz (rpt3 a)) * (qz (rpt3 b) - qz (rpt3 a)))
    with (dot3 (rpt3 a) (rpt3 b) (rpt3 a) (rpt3 b)).
  change ((qx (rpt3 p) - qx (rpt3 a)) * (qx (rpt3 b) - qx (rpt3 a)) + (qy (rpt3 p) - qy (rpt3 a)) * (qy (rpt3 b) - qy (rpt3 a)) + (qz (rpt3 p) - qz (rpt3 a)) * (qz (rpt3 b) - qz (rpt3 a)))
    with (dot3 (rpt3 a) (rpt3 p) (rpt3 a) (rpt3 b)).
  destruct (quot_le0 (e + e) 52 52 _ _ _ _ ltac:(lia) ltac:(lia) NN LL ltac:(lra)) as [-> _].
  destruct (Rle_bool_spec (dot3 (rpt3 a) (rpt3 p) (rpt3 a) (rpt3 b) / dot3 (rpt3 a) (rpt3 b) (rpt3 a) (rpt3 b)) 0) as [Q0|Q0].
  { now apply (C74_distance_rounded e). }
  destruct (quot_ge1 (e + e) 52 52 _ _ _ _ ltac:(lia) ltac:(lia) NN LL ltac:(lra)) as [-> _].
  destruct (Rle_bool_spec 1 (dot3 (rpt3 a) (rpt3 p) (rpt3 a) (rpt3 b) / dot3 (rpt3 a) (rpt3 b) (rpt3 a) (rpt3 b))) as [Q1|Q1].
  { now apply (C74_distance_rounded e). }
  exfalso. set (n := dot3 (rpt3 a) (rpt3 p) (rpt3 a) (rpt3 b)) in *. set (l := dot3 (rpt3 a) (rpt3 b) (rpt3 a) (rpt3 b)) in *.
  assert (n / l * l = n) as M by (field; lra). destruct Hd as [Hd|Hd].
  - assert (0 < n / l * l) by (apply Rmult_lt_0_compat; lra). lra.
  - assert (n / l * l < 1 * l) by (apply Rmult_lt_compat_r; lra). lra.
Qed.
(** The distance in doubles to a second segment of one point, other than the
    end of the first segment, is not a number. *)
Lemma fin_zero x : fis_finite x = true -> R_of x = 0 -> exists s, x = B754_zero s.
Proof. destruct x; try discriminate; [eexists; reflexivity|]. intros _ E. apply eq_0_F2R in E. destruct s; discriminate. Qed.
Lemma mul_zero x s : fis_finite x = true -> exists s', fmul x (B754_zero s) = B754_zero s'.
Proof. destruct x; try discriminate; intros _; eexists; reflexivity. Qed.
Lemma add_nan x : fadd x fnan = fnan.
Proof. destruct x; reflexivity. Qed.
Lemma sub_nan x : fsub x fnan = fnan.
Proof. destruct x; reflexivity. Qed.
Theorem C74_degenerate_refuted : forall hypot e a b c, (-400 <= e <= 400)%Z -> small_pt3 e a -> small_pt3 e b -> small_pt3 e c ->
  rpt3 a <> rpt3 b -> rpt3 c <> rpt3 b -> s2s_3d hypot a b c c = hypot fnan fnan.
Proof.
  intros hypot e a b c He Ha Hb Hc N1 N2. unfold s2s_3d, g_s2s_3d. rewrite !(equals_3 e) by assumption. rewrite (neq_equals _ _ N1), (neq_equals _ _ N2).
  change (g_dot_4 f64 (NF hypot)) with (g_dot_4 f64 (NF (fun x _ => x))).
  pose proof (sum_ex e a b a b a b He Ha Hb Ha Hb eq_refl eq_refl) as AA. pose proof (sum_ex e a b c c c c He Ha Hb Hc Hc eq_refl eq_refl) as BB.
  pose proof (sum_ex e c c c c c c He Hc Hc Hc Hc eq_refl eq_refl) as CC. pose proof (sum_ex e c c c a c a He Hc Hc Hc Ha eq_refl eq_refl) as EE.
  set (fa := g_dot_4 f64 (NF (fun x _ => x)) (pf3 a) (pf3 b) (pf3 a) (pf3 b)) in *. set (fb := g_dot_4 f64 (NF (fun x _ => x)) (pf3 a) (pf3 b) (pf3 c) (pf3 c)) in *.
  set (fc := g_dot_4 f64 (NF (fun x _ => x)) (pf3 c) (pf3 c) (pf3 c) (pf3 c)) in *. set (fe := g_dot_4 f64 (NF (fun x _ => x)) (pf3 c) (pf3 c) (pf3 c) (pf3 a)) in *.
  set (fd := g_dot_4 f64 (NF (fun x _ => x)) (pf3 a) (pf3 b) (pf3 c) (pf3 a)).
  destruct (fin_zero fb (ex_fin _ _ _ _ BB)) as (sb & Eb); [rewrite (ex_R _ _ _ _ BB); unfold dot3; ring|].
  destruct (fin_zero fc (ex_fin _ _ _ _ CC)) as (sc & Ec); [rewrite (ex_R _ _ _ _ CC); unfold dot3; ring|].
  destruct (fin_zero fe (ex_fin _ _ _ _ EE)) as (se & Ee); [rewrite (ex_R _ _ _ _ EE); unfold dot3; ring|].
  cbn [NF nsub nmul ndiv nle nlt nofZ nisnan]. cbv zeta. rewrite Eb, Ec, Ee.
  destruct (mul_zero fa sc (ex_fin _ _ _ _ AA)) as (sm & ->).
  change (fofZ 0) with f0. change (fofZ 1) with f1.
  replace (fis_nan (fsub (B754_zero sm) (fmul (B754_zero sb) (B754_zero sb)))) with false by (destruct sm, sb; reflexivity).
  replace (fleb (fsub (B754_zero sm) (fmul (B754_zero sb) (B754_zero sb))) f0) with true by (destruct sm, sb; reflexivity).
  replace (fltb (B754_zero sc) (B754_zero sb)) with false by (destruct sc, sb; reflexivity). cbv iota.
  change (fdiv (B754_zero se) (B754_zero sc)) with fnan. change (fltb f0 f0) with false. change (fltb f1 f0) with false.
  change (fltb fnan f0) with false. change (fltb f1 fnan) with false. cbv iota.
  unfold g_distance3, g_distance_xy. cbn [qx qy qz NF nisnan nadd nmul nsub nhyp].
  assert (forall x y, fadd x (fmul fnan y) = fnan) as Z by (intros; apply add_nan). rewrite !Z.
  change (fis_nan fnan) with true. rewrite orb_true_r. now rewrite !sub_nan.
Qed.

(** ** Equality within a tolerance *)
(** With tolerance zero the points must agree in X and Y; *)
Theorem C11_tolerance_zero : forall hypot e a b t, small_pt e a -> small_pt e b -> feqb t f0 = true ->
  (coords_equal hypot a b t = true <-> rpt a = rpt b).
Proof.
  intros hypot e a b t Ha Hb H. unfold coords_equal. rewrite H. unfold equals_2d.
  destruct (small_ptx e a Ha) as (A1 & A2), (small_ptx e b Hb) as (B1 & B2). cbn [pf rpt px py] in *.

  pose proof (ex_eqb _ _ _ _ _ _ _ _ A1 B1) as E1. pose proof (ex_eqb _ _ _ _ _ _ _ _ A2 B2) as E2. change (fneb (cx a) (cx b)) with (negb (feqb (cx a) (cx b))). change (fneb (cy a) (cy b)) with (negb (feqb (cy a) (cy b))). rewrite E1, E2.
  unfold rpt. destruct (Req_bool_spec (R_of (cx a)) (R_of (cx b))), (Req_bool_spec (R_of (cy a)) (R_of (cy b))); cbn; split; intros K; try discriminate; try congruence; injection K; intros; contradiction.
Qed.
(** otherwise the points are equal when they are clearly within the tolerance
    and different when they are clearly farther apart. *)
Theorem C11_tolerance : forall hypot e a b t, hypot_accurate hypot -> (-400 <= e <= 400)%Z -> small_pt e a -> small_pt e b ->
  fis_finite t = true -> 0 < R_of t ->
  (dist (rpt a) (rpt b) * (1 + bp (-51)) <= R_of t -> coords_equal hypot a b t = true) /\
  (R_of t < dist (rpt a) (rpt b) * (1 - bp (-51)) -> coords_equal hypot a b t = false).
Proof.
  intros hypot e a b t Hh He Ha Hb F P. unfold coords_equal.
  rewrite (feqb_R t f0 F eq_refl). rewrite Req_bool_false by (change (R_of f0) with 0; lra).
  destruct (C74_distance_plane hypot e a b Hh He Ha Hb) as (Fd & E). rewrite (fleb_R _ _ Fd F).
  apply Rabs_le_inv in E. split; intros H; [apply Rle_bool_true|apply Rle_bool_false]; lra.
Qed.
(** A tolerance below zero equates nothing. *)
Theorem C11_tolerance_negative : forall hypot e a b t, hypot_accurate hypot -> (-400 <= e <= 400)%Z -> small_pt e a -> small_pt e b ->
  fis_finite t = true -> R_of t < 0 -> coords_equal hypot a b t = false.
Proof.
  intros hypot e a b t Hh He Ha Hb F P. unfold coords_equal.
  rewrite (feqb_R t f0 F eq_refl). rewrite Req_bool_false by (change (R_of f0) with 0; lra).
  destruct (C74_distance_plane hypot e a b Hh He Ha Hb) as (Fd & E). rewrite (fleb_R _ _ Fd F).
  apply Rabs_le_inv in E. apply Rle_bool_false. pose proof (dist_pos (rpt a) (rpt b)).
  assert (bp (-51) * dist (rpt a) (rpt b) <= 1 * dist (rpt a) (rpt b)).
  { apply Rmult_le_compat_r; [assumption|]. apply (bpow_le radix2 (-51) 0). lia. } lra.
Qed.
Example C11_tolerance_example : small_pt 0 (ipt 0 0) /\ small_pt 0 (ipt 3 4) /\
  coords_equal hypot_nearest (ipt 0 0) (ipt 3 4) (fofZ 6) = true /\ coords_equal hypot_nearest (ipt 0 0) (ipt 3 4) (fofZ 4) = false.
Proof.
  assert (small_pt 0 (ipt 0 0)) as S1 by (apply ipt_small; lia). assert (small_pt 0 (ipt 3 4)) as S2 by (apply ipt_small; lia).
  assert (dist (rpt (ipt 0 0)) (rpt (ipt 3 4)) = 5) as D.
  { rewrite !rpt_ipt by lia. unfold dist. cbn. apply sqrt_lem_1; unfold Rsqr; lra. }
  assert (bp (-51) <= / 8) as B by (change (/ 8) with (bp (-3)); apply bpow_le; lia). pose proof (bpow_gt_0 radix2 (-51)).
  assert (forall n, (Z.abs n <= 2 ^ 53)%Z -> fis_finite (fofZ n) = true /\ R_of (fofZ n) = IZR n) as Z.
  { intros n Hn. destruct (grid_fofZ n Hn) as [F E]. rewrite Rmult_1_r in E. auto. }
  destruct (Z 6%Z ltac:(lia)) as (F6 & E6). destruct (Z 4%Z ltac:(lia)) as (F4 & E4).
  split; [exact S1|]. split; [exact S2|]. split.
  - apply (C11_tolerance hypot_nearest 0); auto using hypot_nearest_accurate; try lia; rewrite ?D, ?E6; lra.
  - apply (C11_tolerance hypot_nearest 0); auto using hypot_nearest_accurate; try lia; rewrite ?D, ?E4; lra.
Qed.

(** ** The diameter of an envelope *)
Theorem C71_diameter : forall hypot k e a b c d, hypot_accurate hypot -> (-400 <= k <= 400)%Z -> is_null e = false ->
  grid_box k e a b c d -> (Z.abs a <= 2 ^ 24 /\ Z.abs b <= 2 ^ 24 /\ Z.abs c <= 2 ^ 24 /\ Z.abs d <= 2 ^ 24)%Z ->
  close_to (get_diameter hypot e) (dist (mkP (R_of (minx e)) (R_of (miny e))) (mkP (R_of (maxx e)) (R_of (maxy e)))).
Proof.
  intros hypot k e a b c d Hh He Hn (G1 & G2 & G3 & G4) (B1 & B2 & B3 & B4). unfold get_diameter, get_width, get_height. rewrite Hn.
  apply ap_close; [apply dist_pos|].
  rewrite Distance_proofs.dist_sym.
  apply (dist_ap hypot Hh k He (mkP (maxx e) (maxy e)) (mkP (minx e) (miny e))); split; cbn [px py];
    [exact (ex_self k 24 _ _ B2 G2)|exact (ex_self k 24 _ _ B4 G4)|exact (ex_self k 24 _ _ B1 G1)|exact (ex_self k 24 _ _ B3 G3)].
Qed.
Example C71_diameter_example : is_null (mkE f0 (fofZ 3) f0 (fofZ 4)) = false /\ grid_box 0 (mkE f0 (fofZ 3) f0 (fofZ 4)) 0 3 0 4.
Proof.
  split; [reflexivity|]. assert (forall n, (Z.abs n <= 2 ^ 53)%Z -> grid 0 (fofZ n) n) as G by (intros n Hn; now apply grid_fofZ).
  split; [apply (G 0%Z); lia|]. split; [apply G; lia|]. split; [apply (G 0%Z); lia|apply G; lia].
Qed.
(** Points that meet the hypotheses in space. *)
Definition ipt3 (x y z : Z) : Coordinate := mkC (fofZ x) (fofZ y) (fofZ z) fnan.
Lemma ipt3_small x y z : (Z.abs x <= 2 ^ 24)%Z -> (Z.abs y <= 2 ^ 24)%Z -> (Z.abs z <= 2 ^ 24)%Z -> small_pt3 0 (ipt3 x y z).
Proof.
  intros Hx Hy Hz. assert (forall n, (Z.abs n <= 2 ^ 24)%Z -> exists m, (Z.abs m <= 2 ^ 24)%Z /\ grid 0 (fofZ n) m) as G.
  { intros n Hn. exists n. split; [exact Hn|]. apply grid_fofZ. lia. }
  split; [split; now apply G|now apply G].
Qed.
Example C74_example : small_pt3 0 (ipt3 1 2 2) /\ small_pt3 0 (ipt3 0 0 0) /\
  feqb (distance_3d (ipt3 1 2 2) (ipt3 0 0 0)) (fofZ 3) = true /\
  feqb (p2s_3d (fun x _ => x) (ipt3 1 2 2) (ipt3 0 0 0) (ipt3 (-4) 0 0)) (fofZ 3) = true /\
  s2s_3d (fun x _ => x) (ipt3 0 0 0) (ipt3 2 0 0) (ipt3 1 1 1) (ipt3 1 1 1) = fnan.
Proof.
  split; [apply ipt3_small; lia|]. split; [apply ipt3_small; lia|]. repeat split; vm_compute; reflexivity.
Qed.
